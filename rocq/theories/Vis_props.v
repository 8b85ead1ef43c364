(** Property theorems for C337-C341 (drawing of trees and plans, comparison of texts, presets, timeouts of DuckDB). *)
From Coq Require Import List Bool Arith ZArith Ascii String Lia.
From Verif Require Import PyBase Ident_model Vis_model Vis_spec.
Import ListNotations.

(** ** C337: plot_tree *)
Fixpoint preorder (t : tree) : list tree := match t with Node _ cs => t :: flat_map preorder cs end.
Section Plot.
  Context (key : tree -> nat).
  Fixpoint tree_edges (t : tree) : list (nat * nat) := match t with Node _ cs => flat_map (fun c => (key t, key c) :: tree_edges c) cs end.
  Lemma tree_rec (P : tree -> Prop) : (forall l cs, Forall P cs -> P (Node l cs)) -> forall t, P t.
  Proof. intros H. fix IH 1. intros [l cs]. apply H. induction cs as [|c cs G]; constructor; [apply IH|exact G]. Qed.
  Lemma plot_spec t : forall g, plot key t g = {| g_nodes := g_nodes g ++ map (fun s => (key s, label_of s)) (preorder t); g_edges := g_edges g ++ tree_edges t |}.
  Proof.
    induction t as [l cs H] using tree_rec. intros g. cbn [plot preorder tree_edges map]. set (k := key (Node l cs)). clearbody k.
    change (g_nodes g ++ (k, label_of (Node l cs)) :: map (fun s => (key s, label_of s)) (flat_map preorder cs))
      with (g_nodes g ++ [(k, l)] ++ map (fun s => (key s, label_of s)) (flat_map preorder cs)). rewrite app_assoc.
    change (g_edges g) with (g_edges {| g_nodes := g_nodes g ++ [(k, l)]; g_edges := g_edges g |}) at 2.
    change (g_nodes g ++ [(k, l)]) with (g_nodes {| g_nodes := g_nodes g ++ [(k, l)]; g_edges := g_edges g |}) at 2.
    generalize {| g_nodes := g_nodes g ++ [(k, l)]; g_edges := g_edges g |}. clear g.
    induction H as [|c cs Hc Hcs IH]; intros g; cbn [flat_map map]; [rewrite !app_nil_r; destruct g; reflexivity|].
    rewrite IH, Hc. cbn [g_nodes g_edges]. rewrite map_app, <- !app_assoc. reflexivity.
  Qed.
  Lemma preorder_spec t s : In s (preorder t) <-> node_of t s.
  Proof.
    revert s. induction t as [l cs H] using tree_rec. intros s. cbn [preorder In]. rewrite in_flat_map. rewrite Forall_forall in H. split.
    - intros [<-|(c & I & S)]; [constructor|]. apply (no_child _ c); [exact I|]. apply H; assumption.
    - intros N. inversion N as [|t0 c s0 I S]; subst; [left; reflexivity|]. right. exists c. split; [exact I|]. apply H; assumption.
  Qed.
  Lemma edges_spec t a b : In (a, b) (tree_edges t) <-> exists s c, node_of t s /\ In c (children_of s) /\ a = key s /\ b = key c.
  Proof.
    induction t as [l cs H] using tree_rec. cbn [tree_edges]. rewrite in_flat_map. rewrite Forall_forall in H. split.
    - intros (c & I & [E|E]).
      + injection E as <- <-. exists (Node l cs), c. repeat split; [constructor|exact I].
      + apply (H c I) in E as (s & d & N & D & -> & ->). exists s, d. repeat split; [|exact D]. apply (no_child _ c); assumption.
    - intros (s & d & N & D & -> & ->). inversion N as [|t0 c s0 I S]; subst.
      + exists d. split; [exact D|left; reflexivity].
      + exists c. split; [exact I|right]. apply (H c I). exists s, d. repeat split; assumption.
  Qed.
  Lemma preorder_size t : List.length (preorder t) = size t /\ S (List.length (tree_edges t)) = size t.
  Proof.
    induction t as [l cs H] using tree_rec. cbn [preorder tree_edges size List.length]. set (k := key (Node l cs)). clearbody k.
    induction H as [|c cs [A B] Hcs [IA IB]]; cbn; [split; reflexivity|]. cbn in IA, IB. unfold list_sum in *. rewrite !app_length. injection IA as IA. injection IB as IB. lia.
  Qed.
End Plot.
(* Nodes and edges are added as they are in the tree. *)
Theorem C337_added : forall key t,
  List.length (g_nodes (plot_tree key t)) = size t /\ S (List.length (g_edges (plot_tree key t))) = size t /\
  (forall k l, In (k, l) (g_nodes (plot_tree key t)) <-> exists s, node_of t s /\ k = key s /\ l = label_of s) /\
  (forall a b, In (a, b) (g_edges (plot_tree key t)) <-> exists s c, node_of t s /\ In c (children_of s) /\ a = key s /\ b = key c).
Proof.
  intros key t. unfold plot_tree. rewrite plot_spec. cbn [g_nodes g_edges app]. rewrite map_length. destruct (preorder_size key t) as [A B].
  split; [exact A|]. split; [exact B|]. split.
  - intros k l. rewrite in_map_iff. split; [intros (s & E & I); injection E as <- <-; exists s; split; [now apply preorder_spec|split; reflexivity]|].
    intros (s & N & -> & ->). exists s. split; [reflexivity|]. apply preorder_spec. exact N.
  - apply edges_spec.
Qed.
Print Assumptions C337_added.
(** The drawing has one node per node of the tree.
    Partial: identifiers are different for all nodes. *)
Theorem C337_drawn_partial : forall key t, NoDup (map key (preorder t)) ->
  NoDup (map fst (g_nodes (plot_tree key t))) /\ List.length (dedup (map fst (g_nodes (plot_tree key t)))) = size t /\
  (forall s s', node_of t s -> node_of t s' -> key s = key s' -> s = s').
Proof.
  intros key t N. unfold plot_tree. rewrite plot_spec. cbn [g_nodes app]. rewrite map_map. cbn [fst]. destruct (preorder_size key t) as [A _].
  assert (M : map (fun x => key x) (preorder t) = map key (preorder t)) by reflexivity. rewrite M. split; [exact N|]. split.
  - assert (L : List.length (map key (preorder t)) = size t) by (rewrite map_length; exact A). apply Nat.le_antisymm.
    + rewrite <- L. apply NoDup_incl_length; [apply dedup_NoDup|]. intros x I. rewrite dedup_In in I. exact I.
    + rewrite <- L. apply NoDup_incl_length; [exact N|]. intros x I. rewrite dedup_In. exact I.
  - intros s s' S S' E. apply preorder_spec in S, S'. revert S S'. generalize N. generalize (preorder t). clear -E. intros l N S S'.
    induction l as [|x l IH]; [destruct S|]. cbn in N. inversion N as [|? ? N1 N2]; subst. destruct S as [->|S], S' as [->|S']; [reflexivity| | |auto].
    + exfalso. apply N1. rewrite E. apply in_map. exact S'.
    + exfalso. apply N1. rewrite <- E. apply in_map. exact S.
Qed.
Print Assumptions C337_drawn_partial.
(* Nodes that look the same become a single node, whatever the hash function is. *)
Theorem C337_drawn_refuted : forall key l c, let t := Node l [c; c] in List.length (dedup (map fst (g_nodes (plot_tree key t)))) < size t.
Proof.
  intros key l c t. unfold plot_tree. rewrite plot_spec. cbn [g_nodes app]. rewrite map_map. cbn [fst].
  assert (I : incl (dedup (map (fun x => key x) (preorder t))) (map key (t :: preorder c))).
  { intros x X. rewrite dedup_In in X. cbn in X |- *. rewrite app_nil_r in X. destruct X as [X|X]; [left; exact X|right]. rewrite map_app, in_app_iff in X. destruct X; assumption. }
  apply NoDup_incl_length in I; [|apply dedup_NoDup]. rewrite map_length in I. cbn [List.length] in I. destruct (preorder_size key c) as [A _]. rewrite A in I.
  assert (Q : size t = 1 + (size c + (size c + 0))) by reflexivity. rewrite Q. assert (P : 0 < size c) by (destruct c; cbn; lia). eapply Nat.le_lt_trans; [exact I|]. lia.
Qed.
Print Assumptions C337_drawn_refuted.
Example C337_ex : let key := fun t => String.length (label_of t) in let t := Node "join" [Node "a" []; Node "bb" []] in
  plot_tree key t = {| g_nodes := [(4, "join"%string); (1, "a"%string); (2, "bb"%string)]; g_edges := [(4, 1); (4, 2)] |} /\ NoDup (map key (preorder t)).
Proof. split; [reflexivity|]. cbn. repeat constructor; cbn; intuition discriminate. Qed.

(** ** C338: drawing of query plans without auxiliary nodes. *)
Lemma plan_rec (P : plan -> Prop) : (forall a i cs sp, Forall P cs -> (forall c, sp = Some c -> P c) -> P (Plan a i cs sp)) -> forall p, P p.
Proof.
  intros H. fix IH 1. intros [a i cs [c|]]; apply H.
  - clear -IH. induction cs as [|x cs G]; constructor; [apply IH|exact G].
  - intros d E. injection E as <-. apply IH.
  - clear -IH. induction cs as [|x cs G]; constructor; [apply IH|exact G].
  - discriminate.
Qed.
Lemma traversal_step p q : In q (traversal true p) <-> exists c, direct p c /\ (is_aux c = false /\ q = c \/ is_aux c = true /\ In q (traversal true c)).
Proof.
  destruct p as [a i cs sp]. cbn [traversal]. rewrite in_app_iff.
  assert (G : forall cs, In q ((fix go (cs : list plan) : list plan := match cs with [] => [] | c :: r => (if is_aux c then traversal true c else [c]) ++ go r end) cs)
    <-> exists c, In c cs /\ (is_aux c = false /\ q = c \/ is_aux c = true /\ In q (traversal true c))).
  { clear. induction cs as [|c cs IH]; cbn [In]; [split; [intros []|intros (c & [] & _)]|]. rewrite in_app_iff, IH. split.
    - intros [X|(d & I & X)]; [exists c; split; [left; reflexivity|]; destruct (is_aux c); [right; auto|destruct X as [X|[]]; left; auto]|exists d; auto].
    - intros (d & [<-|I] & X); [left|right; exists d; auto]. destruct X as [[-> ->]|[-> X]]; [left; reflexivity|exact X]. }
  rewrite G. split.
  - intros [(c & I & X)|X]; [exists c; split; [constructor; exact I|exact X]|]. destruct sp as [c|]; [|destruct X]. exists c. split; [apply di_subplan|].
    destruct (is_aux c) eqn:A; [right; auto|destruct X as [X|[]]; left; auto].
  - intros (c & D & X). inversion D; subst; [left; exists c; auto|right]. destruct X as [[-> ->]|[-> X]]; [left; reflexivity|exact X].
Qed.
Lemma traversal_below p q : In q (traversal true p) -> below p q /\ is_aux q = false.
Proof.
  revert q. induction p as [a i cs sp Hc Hs] using plan_rec. intros q I. apply traversal_step in I as (c & D & [[A ->]|[A I]]); [split; [constructor; exact D|exact A]|].
  assert (X : below c q /\ is_aux q = false) by (rewrite Forall_forall in Hc; inversion D; subst; [apply Hc|apply Hs]; auto). destruct X as [B X]. split; [apply (be_step _ c); assumption|exact X].
Qed.
Lemma below_trans p q r : below p q -> below q r -> below p r.
Proof. induction 1; intros B; [apply (be_step _ q)|apply (be_step _ c)]; auto. Qed.
Theorem C338_shown : forall p q, shown true p q <-> q = p \/ below p q /\ is_aux q = false.
Proof.
  intros p q. split.
  - induction 1 as [p|p c q I S IH]; [left; reflexivity|]. apply traversal_below in I as [B A]. right. destruct IH as [->|[B' A']]; [auto|]. split; [apply (below_trans _ c); assumption|exact A'].
  - intros [->|[B A]]; [constructor|]. induction B as [p q D|p c q D B IH].
    + apply (sh_child _ _ q); [|constructor]. apply traversal_step. exists q. auto.
    + specialize (IH A). destruct (is_aux c) eqn:C.
      * inversion IH as [|c0 d q0 I S]; subst; [congruence|]. apply (sh_child _ _ d); [|exact S]. apply traversal_step. exists c. auto.
      * apply (sh_child _ _ c); [|exact IH]. apply traversal_step. exists c. auto.
Qed.
Print Assumptions C338_shown.
Theorem C338_complete : forall p q, shown false p q <-> q = p \/ below p q.
Proof.
  assert (T : forall p q, In q (traversal false p) <-> direct p q).
  { intros [a i cs sp] q. cbn. rewrite in_app_iff. split; [intros [I|I]; [constructor; exact I|destruct sp as [c|]; [destruct I as [->|[]]; apply di_subplan|destruct I]]|].
    intros D. inversion D; subst; [left; assumption|right; left; reflexivity]. }
  intros p q. split.
  - induction 1 as [p|p c q I S IH]; [left; reflexivity|]. apply T in I. right. destruct IH as [->|B]; [constructor; exact I|apply (be_step _ c); assumption].
  - intros [->|B]; [constructor|]. induction B as [p q D|p c q D B IH]; [apply (sh_child _ _ q); [apply T; exact D|constructor]|apply (sh_child _ _ c); [apply T; exact D|exact IH]].
Qed.
Print Assumptions C338_complete.
Example C338_ex : let scan := Plan false 3 [] None in let p := Plan true 1 [Plan true 2 [scan] None] (Some (Plan false 4 [] None)) in
  traversal true p = [scan; Plan false 4 [] None]. Proof. reflexivity. Qed.

(** ** C339: text_diff shows all lines of both texts next to each other.
    Partial: both texts have the same number of lines, at least one. *)
Lemma spaces_length n : String.length (spaces n) = n.
Proof. induction n; cbn; congruence. Qed.
Lemma append_length a b : String.length (a ++ b) = String.length a + String.length b.
Proof. induction a; cbn; congruence. Qed.
Lemma max_spec l : forall m, m <= fold_left Nat.max l m /\ (forall x, In x l -> x <= fold_left Nat.max l m) /\ (fold_left Nat.max l m = m \/ In (fold_left Nat.max l m) l).
Proof.
  induction l as [|a l IH]; intros m; cbn; [repeat split; auto; intros x []|]. destruct (IH (Nat.max m a)) as (A & B & C). split; [lia|]. split.
  - intros x [<-|I]; [lia|auto].
  - destruct C as [C|C]; [|auto]. destruct (Nat.max_spec m a) as [[_ E]|[_ E]]; rewrite E in *; auto.
Qed.
Theorem C339_lines_partial : forall sep left right, left <> [] -> List.length left = List.length right ->
  exists out n, text_diff sep left right = Ok out /\ List.length out = List.length left /\
    (forall l, In l left -> String.length l <= n) /\ (exists l, In l left /\ String.length l = n) /\
    forall i l r, nth_error left i = Some l -> nth_error right i = Some r -> exists pad, nth_error out i = Some (l ++ spaces pad ++ sep ++ r)%string /\ String.length l + pad = n.
Proof.
  intros sep left right N L. unfold text_diff. destruct left as [|l0 left0] eqn:E; [congruence|]. rewrite <- E in *. clear N.
  set (n := fold_left Nat.max (map String.length left) 0). destruct (max_spec (map String.length left) 0) as (_ & B & C). fold n in B, C.
  assert (U : forall l, In l left -> String.length l <= n) by (intros l I; apply B; apply in_map; exact I).
  eexists. exists n. split; [reflexivity|]. split; [rewrite map_length, combine_length, map_length; lia|]. split; [exact U|]. split.
  - destruct C as [C|C]; [exists l0; split; [rewrite E; left; reflexivity|]; assert (X := U l0); rewrite E in X; specialize (X (or_introl eq_refl)); lia|].
    apply in_map_iff in C as (l & Q & I). exists l. auto.
  - clear -U L. assert (G : forall ls rs, (forall l, In l ls -> String.length l <= n) -> forall i l r, nth_error ls i = Some l -> nth_error rs i = Some r ->
      exists pad, nth_error (map (fun p => (fst p ++ sep ++ snd p)%string) (combine (map (fun l => ljust l n) ls) rs)) i = Some (l ++ spaces pad ++ sep ++ r)%string /\ String.length l + pad = n).
    { induction ls as [|x ls IH]; intros rs V [|i] l r A B; try discriminate; destruct rs as [|y rs]; try discriminate.
      - cbn in A, B. injection A as ->. injection B as ->. exists (n - String.length l). split; [|specialize (V l (or_introl eq_refl)); lia]. cbn. unfold ljust.
        f_equal. clear. induction l as [|c l IHl]; [reflexivity|]. cbn [append]. f_equal. generalize (n - String.length (String c l)). intros k. clear. induction l as [|d l IH]; [reflexivity|]. cbn. f_equal. exact IH.
      - cbn in A, B. cbn. apply IH; [intros z I; apply V; right; exact I|exact A|exact B]. }
    apply G. exact U.
Qed.
Print Assumptions C339_lines_partial.
(* Lines without a counterpart are lost, and there is an error if the first text is empty. *)
Theorem C339_lines_refuted : (forall sep l r, text_diff sep [] r = Raise ValueError /\ text_diff sep (l :: r) [] = Ok []) /\
  (forall sep x l y, exists out, text_diff sep (x :: l) [y] = Ok out /\ List.length out = 1).
Proof. split; [intros sep l r; split; reflexivity|]. intros sep x l y. eexists. split; [reflexivity|]. cbn. destruct (map _ l); reflexivity. Qed.
Print Assumptions C339_lines_refuted.
Example C339_ex : text_diff " | " ["a"; "bcd"]%string ["x"; "y"]%string = Ok ["a   | x"; "bcd | y"]%string. Proof. reflexivity. Qed.

(** ** C340: presets are found by their names, in upper and lower case.
    Partial: "native" in lower case. *)
Theorem C340_fetch_partial : forall k, (supper k = "UES"%string -> fetch k = Ok UES) /\ fetch "native" = Ok Native /\
  (supper k <> "UES"%string -> k <> "native"%string -> fetch k = Raise ValueError).
Proof.
  intros k. unfold fetch. split; [intros ->; reflexivity|]. split; [reflexivity|]. intros A B. apply deqb_neq in A, B. rewrite A, B. reflexivity.
Qed.
Print Assumptions C340_fetch_partial.
Theorem C340_fetch_refuted : same_text "Native" "native" /\ fetch "Native" = Raise ValueError.
Proof. split; reflexivity. Qed.
Print Assumptions C340_fetch_refuted.
Theorem C340_sound : forall k p, fetch k = Ok p -> match p with UES => supper k = "UES"%string | Native => k = "native"%string end.
Proof.
  intros k p. unfold fetch. destruct (deqb (supper k) "UES"%string) eqn:E; [apply deqb_true in E; intros H; injection H as <-; exact E|].
  destruct (deqb k "native"%string) eqn:F; [apply deqb_true in F; intros H; injection H as <-; exact F|discriminate].
Qed.
Print Assumptions C340_sound.
Example C340_ex : fetch "uEs" = Ok UES. Proof. reflexivity. Qed.

(** ** C341: timeouts of DuckDB: None (and a TimeoutError of execute_query) exactly if the query takes too long.
    Partial: execute() returns normally when it is interrupted. *)
Theorem C341_timeout_partial : forall w timeout last, w_interrupt w = None ->
  (snd (execute_with_timeout w timeout last) = Ok None <-> (w_time w > timeout)%Z) /\
  ((w_time w > timeout)%Z -> fst (execute_with_timeout w timeout last) = Infinite /\ snd (execute_timeout w timeout last) = Raise TimeoutError).
Proof.
  intros w timeout last N. unfold execute_timeout, execute_with_timeout. rewrite N. destruct (Z.leb_spec (w_time w) timeout) as [L|L].
  - split; [|lia]. split; [|lia]. destruct (w_result w); discriminate.
  - split; [split; [intros _; lia|reflexivity]|]. intros _. split; reflexivity.
Qed.
Print Assumptions C341_timeout_partial.
(* If it raises an exception (as DuckDB does), callers get this instead, and the runtime is still the one of the query before. *)
Theorem C341_timeout_refuted : forall w timeout last e, (w_time w > timeout)%Z -> w_interrupt w = Some e ->
  execute_with_timeout w timeout last = (last, Raise e) /\ execute_timeout w timeout last = (last, Raise e) /\ time_query w timeout last = Raise e.
Proof. intros w timeout last e T I. unfold time_query, execute_timeout, execute_with_timeout. destruct (Z.leb_spec (w_time w) timeout) as [L|L]; [lia|]. rewrite I. repeat split. Qed.
Print Assumptions C341_timeout_refuted.
(* Queries that are fast enough have their results, runtimes and errors. *)
Theorem C341_finished : forall w timeout last, (w_time w <= timeout)%Z ->
  snd (execute_timeout w timeout last) = w_result w /\ (forall rows, w_result w = Ok rows ->
    execute_with_timeout w timeout last = (Seconds (w_time w), Ok (Some rows)) /\ time_query w timeout last = Ok (Seconds (w_time w))).
Proof.
  intros w timeout last T. unfold time_query, execute_timeout, execute_with_timeout. destruct (Z.leb_spec (w_time w) timeout) as [L|L]; [|lia].
  destruct (w_result w) as [rows|e]; split; try reflexivity; intros r E; [injection E as <-; split; reflexivity|discriminate].
Qed.
Print Assumptions C341_finished.
Example C341_ex : time_query {| w_time := 3; w_result := Ok [1; 2]; w_interrupt := Some OtherError |} 5 NotMeasured = Ok (Seconds 3)
  /\ time_query {| w_time := 9; w_result := Ok [1; 2]; w_interrupt := Some OtherError |} 5 NotMeasured = Raise OtherError. Proof. split; reflexivity. Qed.
