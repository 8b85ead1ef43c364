(** Property theorems for C355-C358 (drawing of join graphs, annotations, escaped labels). *)
From Coq Require Import List Bool Arith Ascii String Lia.
From Verif Require Import PyBase Ident_model JG_model PJG_model PJG_spec.
Import ListNotations.

(** ** C355: drawings of join graphs have a node for each table, whose colour shows its state, and an edge for each join, from the foreign
    key to the primary key if there is one. *)
Section C355.
  Context {T C : Type} {ET : EqD T} {EC : EqD C} (tab : C -> T).
  Implicit Types (g : @jg T C).
  Lemma primary_spec h g c : is_primary (info h g (Some c)) = true <-> valid_index h g c Primary.
  Proof.
    unfold info, valid_index, index_at, is_primary. destruct (dget (g_index g) c) as [a|]; [|cbn; split; [discriminate|intros (a & D & _); discriminate]].
    rewrite andb_true_iff, negb_true_iff. split.
    - intros [I K]. exists a. destruct (ix_kind _) eqn:E; try discriminate. auto.
    - intros (a' & D & K & I). injection D as <-. rewrite K, I. auto.
  Qed.
  Lemma secondary_spec h g c : is_secondary (info h g (Some c)) = true <-> valid_index h g c Secondary.
  Proof.
    unfold info, valid_index, index_at, is_secondary. destruct (dget (g_index g) c) as [a|]; [|cbn; split; [discriminate|intros (a & D & _); discriminate]].
    rewrite andb_true_iff, negb_true_iff. split.
    - intros [I K]. exists a. destruct (ix_kind _) eqn:E; try discriminate. auto.
    - intros (a' & D & K & I). injection D as <-. rewrite K, I. auto.
  Qed.
  Lemma edge_found g s t p : simple tab g -> In (s, t, p) (g_edges g) \/ In (t, s, p) (g_edges g) -> edge_between g s t = Some p.
  Proof.
    intros [_ U] I. unfold edge_between. destruct (find (connects s t) (g_edges g)) as [[[s' t'] p']|] eqn:F.
    - apply find_some in F as [J K]. unfold connects in K. cbn in K. rewrite orb_true_iff, !andb_true_iff in K. cbn. f_equal.
      assert (K' : (s' = s /\ t' = t) \/ (s' = t /\ t' = s)) by (destruct K as [[A B]|[A B]]; apply deqb_true in A; apply deqb_true in B; auto).
      destruct I as [I|I]; [apply (U _ _ _ _ _ _ J I)|apply (U _ _ _ _ _ _ J I)]; tauto.
    - exfalso. destruct I as [I|I]; apply (find_none _ _ F) in I; unfold connects in I; cbn in I; rewrite !deqb_refl in I; [discriminate|]. rewrite orb_true_r in I. discriminate.
  Qed.
  Lemma pk_fk_spec h g s t p : simple tab g -> In (s, t, p) (g_edges g) \/ In (t, s, p) (g_edges g) -> is_pk_fk_join tab h g s t = true <-> refers tab h g p s t.
  Proof.
    intros S I. unfold is_pk_fk_join. rewrite (edge_found g s t p S I). destruct S as [W _].
    assert (W' : s <> t /\ forall a b, In (a, b) p -> (tab a = s /\ tab b = t) \/ (tab a = t /\ tab b = s)).
    { destruct I as [I|I]; destruct (W _ _ _ I) as [N X]; [auto|]. split; [congruence|]. intros a b J. destruct (X a b J); tauto. }
    destruct W' as [N X]. rewrite existsb_exists. unfold is_indexed, refers. split.
    - intros ([a b] & J & K). apply andb_true_iff in K as [K1 K2]. destruct (X a b J) as [[A B]|[A B]].
      + exists a, b. split; [auto|]. split; [exact A|]. split; [exact B|]. unfold col_of in K1, K2. cbn in K1, K2. rewrite A, B, deqb_refl in K1, K2.
        destruct (deqb s t) eqn:E; [apply deqb_true in E; contradiction|]. apply orb_true_iff in K1. rewrite primary_spec, secondary_spec in K1. rewrite primary_spec in K2. auto.
      + exists b, a. split; [auto|]. split; [exact B|]. split; [exact A|]. unfold col_of in K1, K2. cbn in K1, K2. rewrite A, B, deqb_refl in K1, K2.
        destruct (deqb t s) eqn:E; [apply deqb_true in E; congruence|]. apply orb_true_iff in K1. rewrite primary_spec, secondary_spec in K1. rewrite primary_spec in K2. auto.
    - intros (a & b & [J|J] & A & B & K1 & K2).
      + exists (a, b). split; [exact J|]. unfold col_of. cbn. rewrite A, B, !deqb_refl. destruct (deqb s t) eqn:E; [apply deqb_true in E; contradiction|].
        rewrite andb_true_iff, orb_true_iff, !primary_spec, secondary_spec. auto.
      + exists (b, a). split; [exact J|]. unfold col_of. cbn. rewrite A, B, !deqb_refl. destruct (deqb t s) eqn:E; [apply deqb_true in E; congruence|].
        rewrite andb_true_iff, orb_true_iff, !primary_spec, secondary_spec. auto.
  Qed.
End C355.
Lemma F2_map_in {A B} (R : A -> B -> Prop) (f : A -> B) l : (forall x, In x l -> R x (f x)) -> Forall2 R l (map f l).
Proof. induction l as [|x l IH]; intros H; cbn; constructor; [apply H; left; reflexivity|]. apply IH. intros y I. apply H. right. exact I. Qed.
Theorem C355_drawing : forall {T C : Type} {ET : EqD T} {EC : EqD C} (tab : C -> T) str annotate h (g : @jg T C), simple tab g ->
  let d := plot_directly tab str annotate h g in
  Forall2 (fun t n => exists colour, n = (str t, (str t ++ match annotate t with Some a => nl ++ a | None => "" end)%string, colour) /\
    (colour = "blue"%string <-> exists a, dget (g_nodes g) t = Some a /\ nth a (h_free h) true = false) /\ (colour = "blue"%string \/ colour = "black"%string)) (dkeys (g_nodes g)) (d_nodes d) /\
  Forall2 (arrow tab str h g) (g_edges g) (d_edges d).
Proof.
  intros T C ET EC tab str annotate h g S d. split.
  - apply F2_map_in. intros t I. eexists. split; [reflexivity|]. unfold free_in, is_free, free_at. apply dget_key in I. destruct (dget (g_nodes g) t) as [a|] eqn:D; [|congruence].
    destruct (nth a (h_free h) true) eqn:F; (split; [split|auto]).
    + discriminate.
    + intros (a' & D' & F'). congruence.
    + intros _. exists a. auto.
    + reflexivity.
  - apply F2_map_in. intros [[s t] p] I. cbn [fst snd]. unfold graph_edge.
    assert (A := pk_fk_spec tab h g s t p S (or_introl I)). assert (B := pk_fk_spec tab h g t s p S (or_intror I)).
    destruct (is_pk_fk_join tab h g s t); [apply ar_forward, A; reflexivity|].
    destruct (is_pk_fk_join tab h g t s); [apply ar_backward, B; reflexivity|]. apply ar_none; [rewrite <- A|rewrite <- B]; discriminate.
Qed.
Print Assumptions C355_drawing.
Definition ex_graph : @jg nat nat := mkjg [(1, 0); (2, 1); (3, 2)] [(1, 2, [(10, 20)]); (3, 2, [(30, 21)])] [(10, 0); (20, 1); (21, 2); (30, 3)].
Definition ex_heap : heap := mkh [true; false; true] [mkix Primary false; mkix Secondary false; mkix NoIndex false; mkix Primary false].
Definition ex_name (t : nat) : string := match t with 1 => "a" | 2 => "b" | _ => "c" end.
Example C355_ex : simple (fun c => c / 10) ex_graph /\ plot_directly (fun c => c / 10) ex_name (fun _ => None) ex_heap ex_graph
  = {| d_nodes := [("a", "a", "black"); ("b", "b", "blue"); ("c", "c", "black")]%string; d_edges := [("b", "a", true); ("c", "b", false)]%string |}.
Proof.
  split; [|reflexivity]. split.
  - intros s t p [E|[E|[]]]; injection E as <- <- <-; (split; [discriminate|]); intros a b [E|[]]; injection E as <- <-; left; split; reflexivity.
  - intros s t p t' s' p' [E|[E|[]]] [F|[F|[]]]; injection E as <- <- <-; injection F as <- <- <-; try reflexivity; intros [[X Y]|[X Y]]; discriminate.
Qed.

(** ** C356: drawings of queries have a node for each table and an edge for each join.
    Partial: with primary key/foreign key joins. *)
Theorem C356_query_partial : forall {T C : Type} (tab : C -> T) str annotate pk index (q : @qgraph T C),
  exists d, plot_query tab str annotate pk index (Some q) true = Ok d /\
  map (fun n => fst (fst n)) (d_nodes d) = map str (q_tables q) /\
  Forall2 (fun e x =>
    match snd e with
    | [(a, b)] => (pk a = true /\ index b = true /\ x = (str (tab b), str (tab a), true)) \/
                  (pk b = true /\ index a = true /\ x = (str (tab a), str (tab b), true)) \/
                  (~ (pk a = true /\ index b = true) /\ ~ (pk b = true /\ index a = true) /\ x = (str (fst (fst e)), str (snd (fst e)), false))
    | _ => x = (str (fst (fst e)), str (snd (fst e)), false)
    end) (q_edges q) (d_edges d).
Proof.
  intros T C tab str annotate pk index q. cbn. eexists. split; [reflexivity|]. cbn. split; [rewrite map_map; reflexivity|].
  apply F2_map_in. intros [[s t] p] _. unfold query_edge. cbn [fst snd]. destruct p as [|[a b] [|? ?]]; try reflexivity.
  destruct (pk a) eqn:A, (pk b) eqn:B, (index a) eqn:X, (index b) eqn:Y; cbn; auto; right; right; repeat split; intros [? ?]; discriminate.
Qed.
Print Assumptions C356_query_partial.
(* By default, no query with a join can be drawn. *)
Theorem C356_query_refuted : forall {T C : Type} (tab : C -> T) str annotate pk index (q : @qgraph T C), q_tables q <> [] -> plot_query tab str annotate pk index (Some q) false = Raise TypeError.
Proof. intros T C tab str annotate pk index [[|t ts] es] N; [contradiction|reflexivity]. Qed.
Print Assumptions C356_query_refuted.
Example C356_ex : plot_query (fun c => c / 10) ex_name (fun _ => None) (fun c => c =? 10) (fun c => c =? 20) (Some {| q_tables := [1; 2]; q_edges := [(1, 2, [(10, 20)])] |}) true
  = Ok {| d_nodes := [("a", "a", "black"); ("b", "b", "black")]%string; d_edges := [("b", "a", true)]%string |}. Proof. reflexivity. Qed.

(** ** C357: setup_annotations() shows the requested annotations in their order, one per line; unknown ones and no annotations raise a ValueError. *)
Inductive annotation {T : Type} (e f c : T -> string) : string -> (T -> string) -> Prop :=
| an_estimated : annotation e f c "estimated-cards" e
| an_filter : annotation e f c "filter-cards" f
| an_true : annotation e f c "true-cards" c.
Lemma fn_spec {T} (e f c : T -> string) k : match annotation_fn e f c k with Some x => annotation e f c k x | None => forall x, ~ annotation e f c k x end.
Proof.
  unfold annotation_fn. destruct (deqb k "estimated-cards"%string) eqn:A; [apply deqb_true in A as ->; constructor|]. destruct (deqb k "filter-cards"%string) eqn:B; [apply deqb_true in B as ->; constructor|].
  destruct (deqb k "true-cards"%string) eqn:X; [apply deqb_true in X as ->; constructor|]. intros x Y. inversion Y; subst; rewrite deqb_refl in *; discriminate.
Qed.
Lemma joined_lines l : l <> [] -> lines l (joined l).
Proof. induction l as [|x [|y r] IH]; intros N; [contradiction|apply li_one|]. apply li_more. apply IH. discriminate. Qed.
Theorem C357_annotations : forall {T : Type} (e f c : T -> string) ks,
  (ks <> [] -> forall fs, Forall2 (annotation e f c) ks fs -> exists a, setup e f c ks = Ok a /\ forall t, lines (map (fun x => x t) fs) (a t)) /\
  (ks = [] \/ (exists k, In k ks /\ forall x, ~ annotation e f c k x) -> setup e f c ks = Raise ValueError).
Proof.
  intros T e f c ks. split.
  - intros N fs F. assert (A : annotators e f c ks = Ok fs).
    { clear N. induction F as [|k x ks fs X F IH]; [reflexivity|]. cbn. assert (S := fn_spec e f c k). rewrite IH. inversion X; subst; reflexivity. }
    unfold setup. rewrite A. cbn. destruct fs as [|x [|y fs]]; [inversion F; subst; contradiction| |].
    + exists x. split; [reflexivity|]. intros t. apply li_one.
    + exists (merged (x :: y :: fs)). split; [reflexivity|]. intros t. unfold merged. apply joined_lines. discriminate.
  - intros [->|(k & I & N)]; [reflexivity|]. unfold setup. assert (A : annotators e f c ks = Raise ValueError); [|rewrite A; reflexivity].
    induction ks as [|k' ks IH]; [destruct I|]. cbn. assert (S := fn_spec e f c k'). destruct (annotation_fn e f c k') as [x|]; [|reflexivity].
    destruct I as [->|I]; [contradiction (N x S)|]. rewrite (IH I). reflexivity.
Qed.
Print Assumptions C357_annotations.
Example C357_ex : rmap (fun a => a 1) (setup (fun _ => "e"%string) (fun _ => "f"%string) (fun _ => "c"%string) ["true-cards"; "estimated-cards"]%string) = Ok ("c" ++ nl ++ "e")%string. Proof. reflexivity. Qed.

(** ** C358: escaped labels are read as the original texts.
    Partial: texts without ampersands. *)
Lemma escape_cons x s : escape (x :: s) = (if Ascii.eqb x "<" then chars "&lt;" else if Ascii.eqb x ">" then chars "&gt;" else [x]) ++ escape s.
Proof.
  unfold escape, replace. cbn [flat_map]. rewrite flat_map_app. f_equal. destruct (Ascii.eqb x "<") eqn:A; [reflexivity|]. cbn. destruct (Ascii.eqb x ">"); reflexivity.
Qed.
Theorem C358_escape_partial : forall s, ~ In "&"%char s -> decodes (escape s) s.
Proof.
  induction s as [|x s IH]; intros N; [constructor|]. rewrite escape_cons. assert (I : decodes (escape s) s) by (apply IH; intros J; apply N; right; exact J).
  destruct (Ascii.eqb_spec x "<") as [->|A]; [apply de_lt; exact I|]. destruct (Ascii.eqb_spec x ">") as [->|B]; [apply de_gt; exact I|].
  apply de_char; auto. intros ->. apply N. left. reflexivity.
Qed.
Print Assumptions C358_escape_partial.
(* For all texts: no brackets are left. *)
Theorem C358_brackets : forall s, ~ In "<"%char (escape s) /\ ~ In ">"%char (escape s).
Proof.
  induction s as [|x s [A B]]; [split; intros []|]. rewrite escape_cons.
  assert (H : ~ In "<"%char (if Ascii.eqb x "<" then chars "&lt;" else if Ascii.eqb x ">" then chars "&gt;" else [x]) /\ ~ In ">"%char (if Ascii.eqb x "<" then chars "&lt;" else if Ascii.eqb x ">" then chars "&gt;" else [x])).
  { destruct (Ascii.eqb_spec x "<") as [->|P]; [split; intros I; cbn in I; decompose [or] I; try discriminate; assumption|].
    destruct (Ascii.eqb_spec x ">") as [->|Q]; [split; intros I; cbn in I; decompose [or] I; try discriminate; assumption|]. split; intros [I|[]]; congruence. }
  destruct H as [H1 H2]. split; intros I; apply in_app_iff in I as [I|I]; contradiction.
Qed.
Print Assumptions C358_brackets.
(* Ampersands are not escaped: different texts have the same label, and some labels cannot be read. *)
Theorem C358_escape_refuted : escape (chars "&lt;") = escape (chars "<") /\ ~ decodes (escape (chars "&lt;")) (chars "&lt;") /\ forall t, ~ decodes (escape (chars "a & b")) t.
Proof.
  split; [reflexivity|]. split.
  - intros D. change (escape (chars "&lt;")) with (chars "&lt;") in D. cbn in D. inversion D; subst; congruence.
  - intros t D. change (escape (chars "a & b")) with (chars "a & b") in D. cbn in D. inversion D as [| | |? ? ? ? ? ? D1]; subst. inversion D1 as [| | |? ? ? ? ? ? D2]; subst. inversion D2; subst; congruence.
Qed.
Print Assumptions C358_escape_refuted.
Example C358_ex : escape (chars "a <> b") = chars "a &lt;&gt; b" /\ ~ In "&"%char (chars "a <> b"). Proof. split; [reflexivity|]. intros I. cbn in I. decompose [or] I; try discriminate; assumption. Qed.
