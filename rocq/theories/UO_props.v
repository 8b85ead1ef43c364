(** C208: join orders of the UES optimizer; C209: finding a join order; C210: the choices of the optimizer; C211: cross products. *)
From Coq Require Import List Bool Arith ZArith Lia Permutation.
From Verif Require Import PyBase Graph Card_model JG_model JG_proofs JT_model Ues_model UO_model UO_spec UO_proofs UO_top.
Import ListNotations.
Notation ucol := (nat * nat)%type.
Notation uedges := (list (nat * nat * list (ucol * ucol))).

(** Queries for the examples: all frequencies are 1. *)
Definition ex_one : operand := ONum (NInt 1).
Definition ex_freqs (l : list ucol) : dict ucol operand := map (fun c => (c, ex_one)) l.
Definition ex_run (b : list (nat * Z)) (es : uedges) (kind : ucol -> ikind) (eager : bool) : res (option (jt nat card)) :=
  ues_optimize (map (fun x => (fst x, CVal (snd x))) b) (ex_freqs (flat_map (fun p => [fst p; snd p]) (flat_map snd es))) kind (fun l => l) (fun _ l => l) false 20 50 eager (mkq (map fst b) es).
(** 1 and 2 are n:m joined, 1 references 3, 2 references 4. *)
Definition ex_es : uedges := [(1, 2, [((1, 0), (2, 0))]); (1, 3, [((1, 1), (3, 0))]); (2, 4, [((2, 1), (4, 0))])].
Definition ex_kind (c : ucol) : ikind := match c with (3, 0) | (4, 0) => Primary | (1, 1) | (2, 1) => Secondary | _ => NoIndex end.
(** A star: 1 references 2, 3 and 4. *)
Definition ex_star : uedges := [(1, 2, [((1, 0), (2, 0))]); (1, 3, [((1, 1), (3, 0))]); (1, 4, [((1, 2), (4, 0))])].
Definition ex_star_kind (c : ucol) : ikind := match c with (2, 0) | (3, 0) | (4, 0) => Primary | (1, _) => Secondary | _ => NoIndex end.
Ltac wf_ex := split; [|split]; [intros a b p H; cbn in H; repeat (destruct H as [H|H]); try contradiction; injection H as <- <- <-; cbn; repeat split; auto; try discriminate; intros c Hc; repeat (destruct Hc as [<-|Hc]); try contradiction; cbn; auto
  |cbn; repeat constructor; cbn; intuition discriminate
  |intros a b H K; cbn in H, K; repeat (destruct H as [H|H]); try contradiction; injection H as <- <-; cbn in K; intuition discriminate].
Example ex_wf : wf_joins fst [1; 2; 3; 4] ex_es /\ wf_joins fst [1; 2; 3; 4] ex_star.
Proof. split; wf_ex. Qed.
Example ex_results :
  ex_run [(1, 100%Z); (2, 200%Z); (3, 5%Z); (4, 300%Z)] ex_es ex_kind false = Ok (Some (JJoin false (JJoin false (JJoin false (JScan true 1 (CVal 5)) (JScan false 3 (CVal 5)) (CVal 5)) (JScan false 2 (CVal 200)) (CVal 5)) (JScan false 4 (CVal 300)) (CVal 200))) /\
  ex_run [(1, 100%Z); (2, 30%Z); (3, 20%Z); (4, 40%Z)] ex_star ex_star_kind false = Ok (Some (JJoin false (JJoin false (JJoin false (JScan true 1 (CVal 100)) (JScan false 3 (CVal 20)) (CVal 20)) (JScan false 2 (CVal 30)) (CVal 30)) (JScan false 4 (CVal 40)) (CVal 40))).
Proof. split; vm_compute; reflexivity. Qed.

(** * C208 *)
Lemma ues_inv b fr kind order aord linear fuel bf eager (q : query nat ucol) t : (forall x l, Permutation (aord x l) l) -> wf_joins fst (q_tables q) (q_edges q) -> ues_optimize b fr kind order aord linear fuel bf eager q = Ok (Some t) ->
  (forall x, In x (leaves t) <-> In x (q_tables q)) /\ (once_referenced fst kind (q_edges q) -> NoDup (leaves t)) /\ (connected (q_tables q) (map fst (q_edges q)) -> eager = false -> no_cross (q_edges q) t).
Proof.
  intros Ha Hwf H. pose proof (fun k Hk => ues_between_finds k Hk) as Hb. unfold ues_optimize in H. eapply optimize_inv in H; [|exact Ha|exact Hwf|intros k Hk; now apply Hb]. tauto.
Qed.
(** The join order joins exactly the tables of the query. *)
Theorem C208_tables : forall b fr kind order aord linear fuel bf eager (q : query nat ucol) t, (forall x l, Permutation (aord x l) l) -> wf_joins fst (q_tables q) (q_edges q) ->
  ues_optimize b fr kind order aord linear fuel bf eager q = Ok (Some t) -> forall x, In x (leaves t) <-> In x (q_tables q).
Proof. intros. eapply ues_inv; eassumption. Qed.
Print Assumptions C208_tables.
(** No cross products, unless they are unavoidable. *)
Theorem C208_joined : forall b fr kind order aord linear fuel bf (q : query nat ucol) t, (forall x l, Permutation (aord x l) l) -> wf_joins fst (q_tables q) (q_edges q) ->
  connected (q_tables q) (map fst (q_edges q)) -> ues_optimize b fr kind order aord linear fuel bf false q = Ok (Some t) -> no_cross (q_edges q) t.
Proof. intros. eapply ues_inv; eauto. Qed.
Print Assumptions C208_joined.
(** Missing: tables that are referenced by more than one table.  Star queries need no such condition. *)
Theorem C208_once_partial : forall b fr kind order aord linear fuel bf eager (q : query nat ucol) t, (forall x l, Permutation (aord x l) l) -> wf_joins fst (q_tables q) (q_edges q) ->
  once_referenced fst kind (q_edges q) -> ues_optimize b fr kind order aord linear fuel bf eager q = Ok (Some t) -> NoDup (leaves t).
Proof. intros. eapply ues_inv; eassumption. Qed.
Print Assumptions C208_once_partial.
Example ex_once : once_referenced fst ex_kind ex_es /\ once_referenced fst ex_star_kind ex_star.
Proof.
  assert (A : forall y x, references fst ex_kind ex_es y x -> (y = 1 /\ x = 3) \/ (y = 2 /\ x = 4)). { intros y x (p & c & H & Hc & u & v & E & <- & <- & K1 & K2). cbn in H. repeat (destruct H as [H|H]); try contradiction; injection H; clear H; intros; subst p; destruct Hc as [<-|[]]; destruct E as [[= <- <-]|[= <- <-]]; cbn in *; try congruence; auto. }
  assert (B : forall y x, references fst ex_star_kind ex_star y x -> y = 1). { intros y x (p & c & H & Hc & u & v & E & <- & <- & K1 & K2). cbn in H. repeat (destruct H as [H|H]); try contradiction; injection H; clear H; intros; subst p; destruct Hc as [<-|[]]; destruct E as [[= <- <-]|[= <- <-]]; cbn in *; try congruence; auto. }
  split; intros x y z H K; [apply A in H, K|apply B in H, K]; intuition congruence.
Qed.
Definition only_keys {T C} (tab : C -> T) (kind : C -> ikind) (es : list (T * T * list (C * C))) : Prop := forall a b p c, In (a, b, p) es -> In c p -> refers tab kind a b c \/ refers tab kind b a c.
Lemma keys_no_nm {T C} {ET : EqD T} {EC : EqD C} (tab : C -> T) kind (q : query T C) g h : graph_of kind q = (g, h) -> wf_joins tab (q_tables q) (q_edges q) -> only_keys tab kind (q_edges q) -> has_nm h g = false.
Proof.
  intros Hg Hwf K. apply not_true_is_false. intros H. unfold has_nm in H. apply existsb_exists in H as ([[a b] p] & He & H). rewrite (proj1 (proj2 (proj2 (g_ok kind _ _ g h Hg)))) in He. apply andb_prop in H as [_ H]. cbn [fst snd] in H. apply existsb_exists in H as (c & Hc & H). apply negb_true_iff in H.
  rewrite (proj2 (can_refers tab kind _ _ g h Hg Hwf a b p c He Hc) (K a b p c He Hc)) in H. discriminate.
Qed.
Theorem C208_star : forall b fr kind order aord linear fuel bf eager (q : query nat ucol) t, (forall x l, Permutation (aord x l) l) -> wf_joins fst (q_tables q) (q_edges q) ->
  connected (q_tables q) (map fst (q_edges q)) -> only_keys fst kind (q_edges q) -> ues_optimize b fr kind order aord linear fuel bf eager q = Ok (Some t) ->
  NoDup (leaves t) /\ left_deep t /\ no_cross (q_edges q) t.
Proof.
  intros b fr kind order aord linear fuel bf eager q t Ha Hwf Hc Hk. unfold ues_optimize, optimize. destruct (graph_of kind q) as [g h] eqn:Hg. destruct (g_ok kind _ _ g h Hg) as (G & Kn & Ke & F).
  assert (Hx : has_cross g = false). { unfold has_cross. rewrite negb_false_iff, connectedb_spec. unfold pairs_of. rewrite Ke, Kn. intros x y Hx Hy. rewrite dedup_In in Hx, Hy. eapply path_nodes; [|apply (Hc x y Hx Hy)]. intros z. apply dedup_In. }
  assert (Go : optimize_connected fst ues_between order aord (fun _ => ues_base b) (fun _ => ues_est) (fun _ => if linear then linear_policy else ues_policy) ues_setb ues_setj (fun q => ues_trig (flat_map snd (q_edges q))) (fun _ => {| base_est := b; upper_bounds := []; freqs := fr |}) kind fuel bf eager q = Ok (Some t) -> NoDup (leaves t) /\ left_deep t /\ no_cross (q_edges q) t).
  { unfold optimize_connected. rewrite Hg. rewrite (keys_no_nm fst kind q g h Hg Hwf Hk). destruct (dedup (q_tables q)) as [|t1 [|t2 [|t3 r]]] eqn:Ed; [discriminate|discriminate| |].
    - destruct (binary _ _ _ g h _ t1 t2) as [t'|] eqn:Eb; [|discriminate]. cbn [rmap rbind]. intros [= ->]. destruct (binary_inv ues_between (fun _ => ues_base b) (fun _ => ues_est) q g h _ t1 t2 t Eb) as (sm & la & cs & cl & e & d & Hsl & _ & _ & _ & Hbe & _ & ->).
      assert (N12 : t1 <> t2) by (intros E; pose proof (dedup_NoDup (q_tables q)) as N; rewrite Ed, E in N; apply NoDup_cons_iff in N as [N _]; apply N; now left). split; [|split; [cbn; auto|]].
      + cbn. constructor; [|constructor; [intros []|constructor]]. intros [E|[]]. apply N12. destruct Hsl as [[-> ->]|[-> ->]]; auto.
      + pose proof (ues_between_finds q Hwf la [sm]) as K. rewrite Hbe in K. destruct K as [Ne K]. destruct e as [|c e]; [contradiction|]. destruct (K c (or_introl eq_refl)) as (u & p & [<-|[]] & Hu & _). apply nc_join with (a := la) (b := sm); [constructor|constructor|now left|now left|]. exists p. tauto.
    - destruct (star _ _ _ _ _ _ fuel g h _) as [t'|] eqn:S; [|discriminate]. cbn [rmap rbind]. intros [= ->]. rewrite <- Ke. destruct (star_inv fst (ues_between q) order aord (ues_base b) ues_est (if linear then linear_policy else ues_policy) ues_setb ues_setj (ues_trig (flat_map snd (q_edges q))) g (g_edge fst kind _ _ g h Hg Hwf) fuel h _ t G F (g_self fst kind _ _ g h Hg Hwf) S) as (A1 & A2 & A3 & A4). auto. }
  rewrite Hx. destruct (dedup (q_tables q)) as [|t1 [|t2 [|t3 r]]]; exact Go.
Qed.
Print Assumptions C208_star.
Example ex_only_keys : only_keys fst ex_star_kind ex_star.
Proof. intros a b p c H Hc. cbn in H. left. repeat (destruct H as [H|H]); try contradiction; injection H as <- <- <-; destruct Hc as [<-|[]]; eexists; eexists; (split; [left; reflexivity|]); cbn; repeat split; discriminate. Qed.

(** A table that is referenced by two tables, one of which references the other, is joined twice. *)
Definition dup_es : uedges := [(0, 1, [((0, 0), (1, 0))]); (0, 2, [((0, 1), (2, 0))]); (1, 2, [((1, 1), (2, 0))]); (0, 3, [((0, 2), (3, 0))])].
Definition dup_kind (c : ucol) : ikind := match c with (1, 0) | (2, 0) => Primary | (0, 0) | (0, 1) | (1, 1) => Secondary | _ => NoIndex end.
Theorem C208_refuted : exists t, ex_run [(0, 10%Z); (1, 20%Z); (2, 30%Z); (3, 50%Z)] dup_es dup_kind false = Ok (Some t) /\ wf_joins fst [0; 1; 2; 3] dup_es /\ connected [0; 1; 2; 3] (map fst dup_es) /\ ~ NoDup (leaves t).
Proof.
  eexists. split; [vm_compute; reflexivity|]. split; [wf_ex|]. split; [apply connectedb_spec; vm_compute; reflexivity|]. cbn. intros H. repeat (apply NoDup_cons_iff in H as [? H]). cbn in *. intuition.
Qed.
Print Assumptions C208_refuted.

(** * C209 *)
(** Missing: predicates with keys and other columns between two tables, n:m joins of referenced tables, components of single
    tables, and two tables without join. *)
Theorem C209_partial : forall {T C S : Type} {ET : EqD T} {EC : EqD C} (tab : C -> T) between order aord base est policy (setb : S -> T -> card -> S) setj trig setup kind (good : S -> Prop) (bounded : S -> T -> Prop) eager (q : query T C),
  (forall t l, Permutation (aord t l) l) -> (forall l, Permutation (order l) l) -> wf_joins tab (q_tables q) (q_edges q) -> connected (q_tables q) (map fst (q_edges q)) -> 2 <= length (dedup (q_tables q)) -> finds_joins (q_edges q) (between q) ->
  (forall x, In x (q_tables q) -> exists z, base q x = Ok (CVal z)) -> good (setup q) ->
  (forall s h g e, good s -> e <> [] -> (forall c, In c e -> exists u v p, In (u, v, p) (q_edges q) /\ In c p) -> exists z, est q s h g e = Ok (CVal z)) ->
  (forall s x z, good s -> good (setb s x (CVal z)) /\ bounded (setb s x (CVal z)) x /\ forall y, bounded s y -> bounded (setb s x (CVal z)) y) ->
  (forall s t z, good s -> good (setj s t (CVal z))) ->
  (forall s h g x y e, good s -> bounded s x -> In (x, y, e) (q_edges q) \/ In (y, x, e) (q_edges q) -> is_pk_fk_join tab h g x y = true -> exists b, policy q s h g e = Ok b) ->
  (forall s t x y e, good s -> In y (leaves t) -> In x (leaves t) -> In (y, x, e) (q_edges q) \/ In (x, y, e) (q_edges q) -> exists s', trig q s t x e = Ok s' /\ good s') ->
  keyed tab kind (q_edges q) -> unreferenced tab kind (q_edges q) ->
  exists bf0 t, forall bf fuel, bf0 <= bf -> length (dedup (q_tables q)) < fuel -> optimize tab between order aord base est policy setb setj trig setup kind fuel bf eager q = Ok (Some t).
Proof.
  intros T C S ET EC tab between order aord base est policy setb setj trig setup kind good bounded eager q Ha Ho Hwf Hc Hl Hb Hba Gs He Hsb Hsj Hp Ht Hk Hu.
  destruct (conn_success tab between order aord base est policy setb setj trig setup kind Ha good bounded Ho eager q Hwf Hc Hl Hb Hba Gs He Hsb Hsj Hp Ht Hk Hu) as (bf0 & t & H). exists bf0, t. intros bf fuel H1 H2. specialize (H bf fuel H1 H2). unfold optimize. destruct (graph_of kind q) as [g h] eqn:Hg. destruct (g_ok kind _ _ g h Hg) as (_ & Kn & Ke & _).
  assert (Hx : has_cross g = false). { unfold has_cross. rewrite negb_false_iff, connectedb_spec. unfold pairs_of. rewrite Ke, Kn. intros x y Hx Hy. rewrite dedup_In in Hx, Hy. eapply path_nodes; [|apply (Hc x y Hx Hy)]. intros z. apply dedup_In. }
  rewrite Hx. destruct (dedup (q_tables q)) as [|t1 [|t2 [|t3 r]]]; exact H.
Qed.
Print Assumptions C209_partial.
(** The example meets the conditions, for example with constant estimates. *)
Example ex_success eager linear : exists bf0 t, forall bf fuel, bf0 <= bf -> length (dedup [1; 2; 3; 4]) < fuel ->
  optimize fst ues_between (fun l => l) (fun _ l => l) (fun _ _ => Ok (CVal 7)) (fun _ _ _ _ _ => Ok (CVal 5)) (fun _ _ _ _ _ => Ok linear) (fun s _ _ => s) (fun s _ _ => s) (fun _ s _ _ _ => Ok s) (fun _ => tt) ex_kind fuel bf eager (mkq [1; 2; 3; 4] ex_es) = Ok (Some t).
Proof.
  apply (C209_partial fst ues_between (fun l => l) (fun _ l => l) (fun _ _ => Ok (CVal 7)) (fun _ _ _ _ _ => Ok (CVal 5)) (fun _ _ _ _ _ => Ok linear) (fun s _ _ => s) (fun s _ _ => s) (fun _ s _ _ _ => Ok s) (fun _ => tt) ex_kind (fun _ => True) (fun _ _ => True) eager (mkq [1; 2; 3; 4] ex_es)); cbn [q_tables q_edges]; eauto.
  - apply ex_wf.
  - apply connectedb_spec. vm_compute. reflexivity.
  - cbn. lia.
  - apply (ues_between_finds (mkq [1; 2; 3; 4] ex_es)), ex_wf.
  - intros a b p H. cbn in H. destruct H as [H|[H|[H|[]]]]; injection H as <- <- <-; [left|right|right].
    + split; [exists [((1, 0), (2, 0))]; left; now left|]. split; intros (p & c & H & Hc & u & v & E & T1 & T2 & K1 & K2); cbn in H; repeat (destruct H as [H|H]); try contradiction; try discriminate; injection H as <-; destruct Hc as [<-|[]]; destruct E as [[= <- <-]|[= <- <-]]; cbn in *; congruence.
    + intros c [<-|[]]. left. exists (1, 1), (3, 0). repeat split; auto; discriminate.
    + intros c [<-|[]]. left. exists (2, 1), (4, 0). repeat split; auto; discriminate.
  - intros a b z ((p & M) & N1 & N2) (p' & c & H & Hc & u & v & E & T1 & T2 & K1 & K2). cbn in M, H.
    assert (Kab : forall x y, references fst ex_kind ex_es x y -> a = x -> b = y -> False) by (intros; subst; auto). assert (Kba : forall x y, references fst ex_kind ex_es x y -> b = x -> a = y -> False) by (intros; subst; auto).
    assert (R1 : references fst ex_kind ex_es 1 3) by (exists [((1, 1), (3, 0))], ((1, 1), (3, 0)); split; [left; right; now left|]; split; [now left|]; exists (1, 1), (3, 0); repeat split; auto; discriminate).
    assert (R2 : references fst ex_kind ex_es 2 4) by (exists [((2, 1), (4, 0))], ((2, 1), (4, 0)); split; [left; right; right; now left|]; split; [now left|]; exists (2, 1), (4, 0); repeat split; auto; discriminate).
    assert (A : a = 1 \/ a = 2) by (destruct M as [M|M]; repeat (destruct M as [M|M]); try contradiction; injection M as <- <- <-; auto; exfalso; eauto).
    repeat (destruct H as [H|H]); try contradiction; injection H as <- <- <-; destruct Hc as [<-|[]]; destruct E as [[= <- <-]|[= <- <-]]; cbn in *; destruct A; congruence.
Qed.
(** Connected queries for which no join order is found: a referenced table with an n:m join, predicates of keys and other columns;
    a component of a single table; two tables without join. *)
Definition fail_es1 : uedges := [(0, 1, [((0, 1), (1, 0))]); (2, 0, [((2, 0), (0, 0))])].
Definition fail_kind1 (c : ucol) : ikind := match c with (0, 0) => Primary | (2, 0) => Secondary | _ => NoIndex end.
Definition fail_es2 : uedges := [(0, 1, [((0, 0), (1, 0)); ((0, 1), (1, 1))]); (0, 2, [((0, 2), (2, 0))])].
Definition fail_kind2 (c : ucol) : ikind := match c with (1, 0) | (2, 0) => Primary | (0, 0) | (0, 2) => Secondary | _ => NoIndex end.
Theorem C209_refuted :
  (wf_joins fst [0; 1; 2] fail_es1 /\ connected [0; 1; 2] (map fst fail_es1) /\ ex_run [(0, 10%Z); (1, 20%Z); (2, 30%Z)] fail_es1 fail_kind1 false = Raise AssertionError /\
   exists t, ex_run [(0, 30%Z); (1, 20%Z); (2, 30%Z)] fail_es1 fail_kind1 false = Ok (Some t)) /\
  (wf_joins fst [0; 1; 2] fail_es2 /\ connected [0; 1; 2] (map fst fail_es2) /\ ex_run [(0, 10%Z); (1, 20%Z); (2, 30%Z)] fail_es2 fail_kind2 false = Raise KeyError) /\
  ex_run [(0, 10%Z); (1, 20%Z); (2, 30%Z)] [(0, 1, [((0, 0), (1, 0))])] (fun _ => NoIndex) false = Raise OtherError /\
  ex_run [(0, 10%Z); (1, 20%Z)] [] (fun _ => NoIndex) false = Raise AttributeError.
Proof.
  split; [split; [wf_ex|]; split; [apply connectedb_spec; vm_compute; reflexivity|]; split; [vm_compute; reflexivity|]; eexists; vm_compute; reflexivity|]. split; [split; [wf_ex|]; split; [apply connectedb_spec; vm_compute; reflexivity|vm_compute; reflexivity]|]. split; vm_compute; reflexivity.
Qed.
Print Assumptions C209_refuted.

(** * C210 *)
(** Star queries: each join is one with the lowest estimate, given the tables that have been joined. *)
Theorem C210_star : forall {T C S : Type} {ET : EqD T} {EC : EqD C} (tab : C -> T) between order aord base est policy (setb : S -> T -> card -> S) setj trig setup kind fuel bf eager (q : query T C) t,
  wf_joins tab (q_tables q) (q_edges q) -> connected (q_tables q) (map fst (q_edges q)) -> 2 < length (dedup (q_tables q)) -> only_keys tab kind (q_edges q) ->
  optimize tab between order aord base est policy setb setj trig setup kind fuel bf eager q = Ok (Some t) ->
  greedy (q_edges q) (base q) (fun ts f => exists s h, f = est q s h (fst (graph_of kind q)) /\ forall z, In z (q_tables q) -> free_in h (fst (graph_of kind q)) z = negb (mem z ts)) t.
Proof.
  intros T C S ET EC tab between order aord base est policy setb setj trig setup kind fuel bf eager q t Hwf Hc Hl Hk. unfold optimize. destruct (graph_of kind q) as [g h] eqn:Hg. destruct (g_ok kind _ _ g h Hg) as (G & Kn & Ke & F).
  assert (Hx : has_cross g = false). { unfold has_cross. rewrite negb_false_iff, connectedb_spec. unfold pairs_of. rewrite Ke, Kn. intros x y Hx Hy. rewrite dedup_In in Hx, Hy. eapply path_nodes; [|apply (Hc x y Hx Hy)]. intros z. apply dedup_In. }
  rewrite Hx. unfold optimize_connected. rewrite Hg, (keys_no_nm tab kind q g h Hg Hwf Hk). destruct (dedup (q_tables q)) as [|t1 [|t2 [|t3 r]]] eqn:Ed; [cbn in Hl; lia..|]. destruct (star _ _ _ _ _ _ fuel g h _) as [t'|] eqn:St; [|discriminate]. cbn [rmap rbind]. intros [= ->].
  pose proof (star_greedy tab (between q) order aord (base q) (est q) (policy q) setb setj (trig q) g (g_edge tab kind _ _ g h Hg Hwf) fuel h _ t G F (g_self tab kind _ _ g h Hg Hwf) St) as Gr. rewrite Ke in Gr. cbn [fst].
  clear St. induction Gr as [y x e f b cy cx He (s & h' & -> & _ & Hf) Ef Hm Hy Hxb|u y x e f b cx Gr IH Hy Hn He (s & h' & -> & _ & Hf) Ef Hm Hxb].
  - apply greedy_first with (e := e) (f := est q s h' g); auto. exists s, h'. split; [reflexivity|]. intros z Hz. apply Hf. rewrite Kn, <- Ed. now apply dedup_In.
  - apply greedy_next with (y := y) (e := e) (f := est q s h' g); auto. exists s, h'. split; [reflexivity|]. intros z Hz. apply Hf. rewrite Kn, <- Ed. now apply dedup_In.
Qed.
Print Assumptions C210_star.
(** Two tables: the larger one is the outer one. *)
Theorem C210_two : forall {T C S : Type} {ET : EqD T} {EC : EqD C} (tab : C -> T) between order aord base est policy (setb : S -> T -> card -> S) setj trig setup kind fuel bf eager (q : query T C) t1 t2 t,
  dedup (q_tables q) = [t1; t2] -> optimize tab between order aord base est policy setb setj trig setup kind fuel bf eager q = Ok (Some t) ->
  exists small large cs cl b lg1 lg2 lg3, ((small = t1 /\ large = t2) \/ (small = t2 /\ large = t1)) /\ base q small = Ok cs /\ base q large = Ok cl /\ clt cl (OCard cs) = false /\ t = JJoin lg1 (JScan lg2 large cl) (JScan lg3 small cs) b /\
    exists e s h g, between q large [small] = Some e /\ est q s h g e = Ok b.
Proof.
  intros T C S ET EC tab between order aord base est policy setb setj trig setup kind fuel bf eager q t1 t2 t Ed. unfold optimize, optimize_connected. destruct (graph_of kind q) as [g h]. rewrite Ed. destruct (binary _ _ _ g h _ t1 t2) as [t'|] eqn:Eb; [|discriminate]. cbn [rmap rbind]. intros [= ->].
  destruct (binary_inv between base est q g h _ t1 t2 t Eb) as (sm & la & cs & cl & e & b & H1 & H2 & H3 & H4 & H5 & H6 & H7). exists sm, la, cs, cl, b, false, true, false. repeat split; auto. exists e, (setup q), h, g. auto.
Qed.
Print Assumptions C210_two.
Example ex_two : dedup [1; 2] = [1; 2] /\ ex_run [(1, 30%Z); (2, 100%Z)] [(1, 2, [((1, 0), (2, 0))])] (fun _ => NoIndex) false = Ok (Some (JJoin false (JScan true 2 (CVal 100)) (JScan false 1 (CVal 30)) (CVal 30))).
Proof. split; vm_compute; reflexivity. Qed.
(** n:m queries: the first table is one with the lowest bound among the tables with n:m joins. *)
Lemma ues_stable kind (q : query nat ucol) g h : graph_of kind q = (g, h) -> wf_joins fst (q_tables q) (q_edges q) -> forall s x c y z e, In (y, z, e) (q_edges q) \/ In (z, y, e) (q_edges q) -> references fst kind (q_edges q) y z -> ues_est (ues_setb s x c) h g e = ues_est s h g e.
Proof.
  intros Hg Hwf s x c y z e He Hr. apply (pkfk_refers fst kind _ _ g h Hg Hwf) in Hr. assert (K : forall a b, In (a, b) e -> (fst a = y /\ fst b = z) \/ (fst a = z /\ fst b = y)) by (intros a b Hab; destruct He as [He|He]; apply (proj1 Hwf) in He as (_ & _ & _ & _ & He); apply He in Hab; cbn in Hab; tauto).
  unfold ues_est, estimate_for. generalize CInf. clear He. induction e as [|[a b] e IH]; intros cur; cbn [estimate_loop]; [reflexivity|]. assert (IH' := IH (fun a b H => K a b (or_intror H))). clear IH.
  destruct (K a b (or_introl eq_refl)) as [[E1 E2]|[E1 E2]]; rewrite E1, E2, Hr; [|destruct (is_pk_fk_join fst h g z y)]; unfold estimate_pk_fk; cbn [base_est freqs ues_setb]; (destruct (key (base_est s) _) as [pc|]; [|reflexivity]); cbn [rbind]; (destruct (key (freqs s) _) as [f|]; [|reflexivity]); cbn [rbind]; destruct (times f pc) as [d|]; cbn [rbind]; auto.
Qed.
Theorem C210_start : forall b fr kind order aord linear fuel bf eager (q : query nat ucol) t, (forall x l, Permutation (aord x l) l) -> wf_joins fst (q_tables q) (q_edges q) ->
  connected (q_tables q) (map fst (q_edges q)) -> 2 < length (dedup (q_tables q)) -> (exists u v, many_to_many fst kind (q_edges q) u v) -> ues_optimize b fr kind order aord linear fuel bf eager q = Ok (Some t) ->
  let bound := table_bound fst kind (q_edges q) (ues_base b) (ues_est {| base_est := b; upper_bounds := []; freqs := fr |} (snd (graph_of kind q)) (fst (graph_of kind q))) in
  exists x y c, leftmost t = Some (x, c) /\ many_to_many fst kind (q_edges q) x y /\ bound x c /\ forall u v, many_to_many fst kind (q_edges q) u v -> exists d, bound u d /\ clt d (OCard c) = false.
Proof.
  intros b fr kind order aord linear fuel bf eager q t Ha Hwf Hc Hl Hm. unfold ues_optimize, optimize. destruct (graph_of kind q) as [g h] eqn:Hg. destruct (g_ok kind _ _ g h Hg) as (G & Kn & Ke & F).
  assert (Hx : has_cross g = false). { unfold has_cross. rewrite negb_false_iff, connectedb_spec. unfold pairs_of. rewrite Ke, Kn. intros x y Hx Hy. rewrite dedup_In in Hx, Hy. eapply path_nodes; [|apply (Hc x y Hx Hy)]. intros z. apply dedup_In. }
  rewrite Hx. intros H. set (pol := if linear then linear_policy else ues_policy) in *.
  assert (H' : optimize_connected fst ues_between order aord (fun _ => ues_base b) (fun _ => ues_est) (fun _ => pol) ues_setb ues_setj (fun q => ues_trig (flat_map snd (q_edges q))) (fun _ => {| base_est := b; upper_bounds := []; freqs := fr |}) kind fuel bf eager q = Ok (Some t)) by (destruct (dedup (q_tables q)) as [|t1 [|t2 [|t3 r]]]; exact H).
  clear H. apply (start_inv fst ues_between order aord (fun _ => ues_base b) (fun _ => ues_est) (fun _ => pol) ues_setb ues_setj (fun q => ues_trig (flat_map snd (q_edges q))) (fun _ => {| base_est := b; upper_bounds := []; freqs := fr |}) kind fuel bf Ha eager q t Hwf Hl Hm) in H'; rewrite Hg in *; [exact H'|]. intros s x c y z e. now apply (ues_stable kind q g h Hg Hwf).
Qed.
Print Assumptions C210_start.
Example ex_start : exists u v, many_to_many fst ex_kind ex_es u v.
Proof. exists 1, 2. split; [exists [((1, 0), (2, 0))]; left; now left|]. split; intros (p & c & H & Hc & u & v & E & T1 & T2 & K1 & K2); cbn in H; repeat (destruct H as [H|H]); try contradiction; try discriminate; injection H as <-; destruct Hc as [<-|[]]; destruct E as [[= <- <-]|[= <- <-]]; cbn in *; congruence. Qed.
(** One more n:m join: one with the lowest estimate of the n:m joins between joined and free tables. *)
Theorem C210_next : forall {T C S : Type} {ET : EqD T} {EC : EqD C} (tab : C -> T) between order aord base est policy (setj : S -> jt T card -> card -> S) trig bf eager g h s t h' s' t',
  jt_empty t = false -> next_table tab between order aord base est policy setj trig bf eager g h s t = Ok (h', s', t') ->
  let nm y x e := In (y, x, e) (available_join_paths h g false) /\ is_pk_fk_join tab h g y x = false /\ is_pk_fk_join tab h g x y = false in
  exists y x e b, nm y x e /\ est s h g e = Ok b /\ (forall u v f, nm u v f -> exists d, est s h g f = Ok d /\ clt d (OCard b) = false) /\
    exists u c, base x = Ok c /\ grows (JScan false x c) u /\ grows (JJoin false t u b) t'.
Proof.
  intros T C S ET EC tab between order aord base est policy setj trig bf eager g h s t h' s' t' Ht H nm.
  assert (P : forall u v f, nm u v f <-> In (u, v, f) (nm_paths tab h g false)).
  { intros u v f. unfold nm, nm_paths. rewrite in_flat_map. split.
    - intros (H1 & H2 & H3). exists (u, v, f). split; [exact H1|]. cbn [fst snd]. rewrite H2, H3. now left.
    - intros ([[u' v'] f'] & H1 & H2). cbn [fst snd] in H2. destruct (is_pk_fk_join tab h g u' v') eqn:E1; [destruct H2|]. destruct (is_pk_fk_join tab h g v' u') eqn:E2; [destruct H2|]. cbn in H2. destruct H2 as [[= <- <- <-]|[]]. auto. }
  apply next_grows in H as (y & x & e & b & u & c & Hp & Eb & Hmin & Hb & G1 & G2); [|exact Ht]. exists y, x, e, b. split; [now apply P|]. split; [exact Eb|]. split; [|exists u, c; auto]. intros v w f Hn. apply P in Hn. apply (Hmin (v, w, f) Hn).
Qed.
Print Assumptions C210_next.
(** After the first table of the example, 1, and its primary key join. *)
Definition ex_stats : stats := {| base_est := [(1, CVal 100); (2, CVal 200); (3, CVal 5); (4, CVal 300)]; upper_bounds := []; freqs := ex_freqs [(1, 0); (2, 0); (1, 1); (3, 0); (2, 1); (4, 0)] |}.
Definition ex_step : res (heap * stats * jt nat card) :=
  let q := mkq [1; 2; 3; 4] ex_es in
  rbind (mark fst (ues_between q) (fun l => l) (snd (graph_of ex_kind q)) (fst (graph_of ex_kind q)) 1 None) (fun h =>
  next_table fst (ues_between q) (fun l => l) (fun _ l => l) (ues_base (base_est ex_stats)) ues_est ues_policy ues_setj (ues_trig (flat_map snd ex_es)) 50 false (fst (graph_of ex_kind q)) h ex_stats (JScan true 1 (CVal 5))).
Example ex_next : (match ex_step with Ok _ => true | Raise _ => false end) = true.
Proof. vm_compute. reflexivity. Qed.

(** * C211 *)
(** The components are optimized on their own and joined with the product of their bounds. *)
Theorem C211_components : forall b fr kind order aord linear fuel bf eager (q : query nat ucol) t, (forall x l, Permutation (aord x l) l) -> wf_joins fst (q_tables q) (q_edges q) ->
  ~ connected (q_tables q) (map fst (q_edges q)) -> 2 < length (dedup (q_tables q)) -> ues_optimize b fr kind order aord linear fuel bf eager q = Ok (Some t) ->
  exists u us, product u us t /\ Forall (no_cross (q_edges q)) (u :: us) /\
    (forall v, In v (u :: us) -> exists x, In x (q_tables q) /\ forall y, In y (leaves v) <-> path (q_tables q) (map fst (q_edges q)) x y) /\
    (forall x, In x (q_tables q) -> exists v, In v (u :: us) /\ In x (leaves v)).
Proof.
  intros b fr kind order aord linear fuel bf eager q t Ha Hwf Hn Hl H. unfold ues_optimize in H. eapply optimize_inv in H; [|exact Ha|exact Hwf|intros k Hk; now apply ues_between_finds]. destruct H as (_ & _ & _ & H). destruct (H Hn Hl) as (u & us & P & Nc & Fc & _). exists u, us. split; [exact P|]. split; [exact Nc|]. set (ns := dedup (q_tables q)) in *.
  assert (Pq : forall x y, path ns (map fst (q_edges q)) x y <-> path (q_tables q) (map fst (q_edges q)) x y) by (intros x y; split; intros K; (eapply path_nodes; [|exact K]); intros z; apply dedup_In). split.
  - intros v Hv. assert (K : exists k, In k (components ns (map fst (q_edges q)) ns []) /\ forall x, In x (leaves v) <-> In x k) by (clear -Fc Hv; induction Fc as [|k w ks l F Fc IH]; [destruct Hv|]; destruct Hv as [->|Hv]; [exists k; split; [now left|exact F]|]; destruct (IH Hv) as (k' & Hk & Hx); exists k'; split; [now right|exact Hx]).
    destruct K as (k & Hk & Hx). apply components_reach in Hk as (x & Hx' & _ & ->). exists x. split; [now apply dedup_In|]. intros y. rewrite Hx, <- Pq. now apply reachable_spec.
  - intros x Hx. assert (Hx' : In x ns) by now apply dedup_In. destruct (components_cover ns (map fst (q_edges q)) ns [] x (fun y Hy => Hy) Hx') as [[]|(k & Hk & Hxk)]. clear -Fc Hk Hxk. induction Fc as [|k' w ks l F Fc IH]; [destruct Hk|]. destruct Hk as [->|Hk]; [exists w; split; [now left|now apply F]|]. destruct (IH Hk) as (v & Hv & Hx). exists v. split; [now right|exact Hx].
Qed.
Print Assumptions C211_components.
(** The smaller components are not joined first. *)
Definition cross_es : uedges := [(0, 1, [((0, 0), (1, 0))]); (2, 3, [((2, 0), (3, 0))])].
Example ex_cross : wf_joins fst [0; 1; 2; 3] cross_es /\ ~ connected [0; 1; 2; 3] (map fst cross_es).
Proof. split; [wf_ex|]. intros H. apply connectedb_spec in H. vm_compute in H. discriminate. Qed.
Theorem C211_refuted : exists u v, ex_run [(0, 10%Z); (1, 20%Z); (2, 3%Z); (3, 5%Z)] cross_es (fun _ => NoIndex) false = Ok (Some (JJoin false u v (CVal 30))) /\ note u = CVal 10 /\ note v = CVal 3 /\ clt (note v) (OCard (note u)) = true.
Proof. eexists. eexists. split; [vm_compute; reflexivity|]. vm_compute. auto. Qed.
Print Assumptions C211_refuted.

(** C227: the UES policy asks for a subquery exactly if at least two tables are joined already and one of the conjuncts is a
    primary key/foreign key join whose foreign key table (the first operand, if both are) has a bound below the size of its
    base table. *)
Definition fk_side (h : heap) (g : @jg nat (nat * nat)) (a c x : nat) : Prop :=
  (is_pk_fk_join fst h g a c = true /\ x = a) \/ (is_pk_fk_join fst h g a c = false /\ is_pk_fk_join fst h g c a = true /\ x = c).
Theorem C227_policy : forall s h (g : @jg nat (nat * nat)) e b, ues_policy s h g e = Ok b ->
  (b = true <->
   2 <= length (filter (fun t => negb (free_in h g t)) (dkeys (g_nodes g))) /\
   exists a c x u v, In (a, c) e /\ fk_side h g (fst a) (fst c) x /\ dget (upper_bounds s) x = Some u /\
     dget (base_est s) x = Some v /\ clt u (OCard v) = true).
Proof.
  intros s h g e b H. unfold ues_policy in H. unfold consumed in H.
  destruct (_ <? 2) eqn:E.
  - apply Nat.ltb_lt in E. split; [congruence|]. intros [H2 _]. lia.
  - apply Nat.ltb_ge in E. revert H. induction e as [|[a c] e IH]; intros H; cbn [policy_loop] in H.
    + split; [congruence|]. intros (_ & a & c & x & u & v & [] & _).
    + assert (Hno : forall x, fk_side h g (fst a) (fst c) x ->
        rbind (key (upper_bounds s) x) (fun u => rbind (key (base_est s) x) (fun v => if less u v then Ok true else policy_loop s h g e)) = Ok b ->
        b = true <-> 2 <= length (filter (fun t => negb (free_in h g t)) (dkeys (g_nodes g))) /\
         exists a0 c0 x u v, In (a0, c0) ((a, c) :: e) /\ fk_side h g (fst a0) (fst c0) x /\ dget (upper_bounds s) x = Some u /\
         dget (base_est s) x = Some v /\ clt u (OCard v) = true).
      { intros x Hx Hr. unfold key in Hr. destruct (dget (upper_bounds s) x) as [u|] eqn:Eu; [|discriminate]. cbn [rbind] in Hr.
        destruct (dget (base_est s) x) as [v|] eqn:Ev; [|discriminate]. cbn [rbind] in Hr. unfold less in Hr.
        destruct (clt u (OCard v)) eqn:El.
        - split; [|congruence]. intros _. split; [exact E|]. exists a, c, x, u, v. cbn. auto 6.
        - rewrite (IH Hr). split; intros (H1 & a0 & c0 & x0 & u0 & v0 & H2 & H3 & H4 & H5 & H6); (split; [exact H1|]); exists a0, c0, x0, u0, v0.
          + cbn. auto 6.
          + destruct H2 as [H2|H2]; [|auto 6]. assert (a0 = a) by congruence. assert (c0 = c) by congruence. subst.
            assert (x0 = x). { destruct Hx as [[Hx ->]|(Hx & Hx' & ->)], H3 as [[H3 ->]|(H3 & H3' & ->)]; congruence. }
            subst. congruence. }
      destruct (is_pk_fk_join fst h g (fst a) (fst c)) eqn:E1; [apply (Hno (fst a)); [left; auto|exact H]|].
      destruct (is_pk_fk_join fst h g (fst c) (fst a)) eqn:E2; [apply (Hno (fst c)); [right; auto|exact H]|].
      rewrite (IH H). split; intros (H1 & a0 & c0 & x0 & u0 & v0 & H2 & H3 & H4 & H5 & H6); (split; [exact H1|]); exists a0, c0, x0, u0, v0.
      * cbn. auto 6.
      * destruct H2 as [H2|H2]; [|auto 6]. assert (a0 = a) by congruence. assert (c0 = c) by congruence. subst.
        destruct H3 as [[H3 ->]|(H3 & H3' & ->)]; congruence.
Qed.
Print Assumptions C227_policy.
(** Two tables are joined; table 2 refers to the primary key of table 3 and has a bound of 40 out of 100 rows. *)
Example C227_ex :
  let g := {| g_nodes := [(0, 0); (1, 1); (2, 2); (3, 3)]; g_edges := [(2, 3, [((2, 0), (3, 0))])]; g_index := [((2, 0), 0); ((3, 0), 1)] |} in
  let h := mkh [false; false; true; true] [mkix Secondary false; mkix Primary false] in
  let run u := ues_policy {| base_est := [(2, CVal 100)]; upper_bounds := [(2, CVal u)]; freqs := [] |} h g [((3, 0), (2, 0))] in
  run 40%Z = Ok true /\ run 100%Z = Ok false.
Proof. vm_compute. split; reflexivity. Qed.
