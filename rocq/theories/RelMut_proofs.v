(** Lemmas about copies of relational algebra trees. *)
From Coq Require Import List Bool Arith Permutation Lia.
From Verif Require Import PyBase Collections_proofs Pred_model Pred_spec Rel_model Rel_spec Rel_proofs RelP_proofs RelMut_model RelMut_spec.
Import ListNotations.

(** *** Equality of nodes is an equivalence *)
Lemma seteqb_sym {A} {E : EqD A} (x y : list A) : seteqb x y = true -> seteqb y x = true.
Proof. rewrite !seteqb_seteq. intros H z. symmetry. apply H. Qed.
Lemma seteqb_trans {A} {E : EqD A} (x y z : list A) : seteqb x y = true -> seteqb y z = true -> seteqb x z = true.
Proof. rewrite !seteqb_seteq. intros H1 H2 w. rewrite (H1 w). apply H2. Qed.
Ltac bools := repeat match goal with
  | H : _ && _ = true |- _ => apply andb_true_iff in H as [? ?]
  | H : deqb ?a ?b = true |- _ => apply deqb_true in H
  | H : (?a =? ?b) = true |- _ => apply Nat.eqb_eq in H
  | |- _ && _ = true => apply andb_true_iff; split
  | |- (?a =? ?b) = true => apply Nat.eqb_eq
  | |- deqb ?a ?b = true => apply deqb_eq
  end.
Lemma node_eqb_sym : forall a b, node_eqb a b = true -> node_eqb b a = true.
Proof.
  induction a; intros []; cbn; intros H; try discriminate; bools; subst; auto; now apply seteqb_sym.
Qed.
Lemma node_eqb_trans : forall a b c, node_eqb a b = true -> node_eqb b c = true -> node_eqb a c = true.
Proof.
  induction a; intros [] []; cbn; intros H H'; try discriminate; bools; subst; eauto using seteqb_trans.
Qed.

(** *** Nodes and positions *)
Fixpoint size (n : rnode) : nat :=
  match n with
  | NRel _ _ => 1
  | NSel m _ | NMap m _ | NGroup m _ _ | NSort m _ | NProj m _ | NDup m => S (size m)
  | NCross l r | NTheta l r _ | NUnion l r | NInter l r | NDiff l r => S (size l + size r)
  end.
Lemma node_eqb_size : forall a b, node_eqb a b = true -> size a = size b.
Proof. induction a; intros []; cbn; intros H; try discriminate; bools; subst; auto. Qed.
Lemma size_child n c : In c (children n) -> size c < size n.
Proof. destruct n; cbn; intros H; repeat (destruct H as [<-|H]; [lia|]); destruct H. Qed.
Lemma sub_nil n : sub n [] = Some n.
Proof. reflexivity. Qed.
Lemma sub_app p : forall n q, sub n (p ++ q) = match sub n p with Some m => sub m q | None => None end.
Proof. induction p as [|i p IH]; intros n q; cbn [sub app]; [reflexivity|]. destruct (nth_error (children n) i); [apply IH|reflexivity]. Qed.
Lemma sub_snoc n p i : sub n (p ++ [i]) = match sub n p with Some m => nth_error (children m) i | None => None end.
Proof. rewrite sub_app. destruct (sub n p) as [m|]; [|reflexivity]. cbn. destruct (nth_error (children m) i); reflexivity. Qed.
Lemma sub_size p : forall n m, sub n p = Some m -> size m <= size n.
Proof.
  induction p as [|i p IH]; intros n m H; cbn in H; [injection H as <-; lia|]. destruct (nth_error (children n) i) as [c|] eqn:E; [|discriminate]. apply nth_error_In, size_child in E. apply IH in H. lia.
Qed.
Lemma sub_size_lt p n m : p <> [] -> sub n p = Some m -> size m < size n.
Proof.
  destruct p as [|i p]; [congruence|]. intros _ H. cbn in H. destruct (nth_error (children n) i) as [c|] eqn:E; [|discriminate]. apply nth_error_In, size_child in E. apply sub_size in H. lia.
Qed.
Lemma ntabs_children n : forall c, In c (children n) -> incl (ntabs c) (ntabs n).
Proof. destruct n; cbn; intros c H; repeat (destruct H as [<-|H]; [intros t Ht; try exact Ht; apply in_app_iff; auto|]); destruct H. Qed.
Lemma ntabs_pos n : exists t, In t (ntabs n).
Proof. induction n as [t cs|n [t Ht]|l [t Ht]|l [t Ht]|n [t Ht]|n [t Ht]|n [t Ht]|n [t Ht]|l [t Ht]|l [t Ht]|l [t Ht]|n [t Ht]]; exists t; cbn; auto; apply in_app_iff; auto. Qed.
Lemma ntabs_two n l r : children n = [l; r] -> ntabs n = ntabs l ++ ntabs r.
Proof. destruct n; cbn; intros H; try discriminate; injection H as <- <-; reflexivity. Qed.
Lemma NoDup_child n c : NoDup (ntabs n) -> In c (children n) -> NoDup (ntabs c).
Proof.
  assert (A : forall l r : list tbl, NoDup (l ++ r) -> NoDup l /\ NoDup r).
  { induction l as [|x l IH]; cbn; intros r N; [split; [constructor|exact N]|]. inversion N as [|? ? Hx N']; subst. destruct (IH r N') as [H1 H2]. split; [|exact H2]. constructor; [|exact H1]. intros Hin. apply Hx, in_app_iff. now left. }
  destruct n; cbn; intros N H; repeat (destruct H as [<-|H]); try destruct H; auto; apply A in N; tauto.
Qed.
Lemma sub_tabs p : forall n m, sub n p = Some m -> incl (ntabs m) (ntabs n).
Proof.
  induction p as [|i p IH]; intros n m H; cbn in H; [injection H as <-; apply incl_refl|]. destruct (nth_error (children n) i) as [c|] eqn:E; [|discriminate]. apply nth_error_In in E.
  intros t Ht. apply (ntabs_children n c E). now apply (IH c m H).
Qed.
Lemma children_disjoint n i j a b t : NoDup (ntabs n) -> i <> j -> nth_error (children n) i = Some a -> nth_error (children n) j = Some b -> In t (ntabs a) -> ~ In t (ntabs b).
Proof.
  intros N Hij Ha Hb H1 H2. destruct (children n) as [|l [|r [|? ?]]] eqn:E.
  - destruct i; discriminate.
  - destruct i as [|[|i]]; try discriminate; destruct j as [|[|j]]; try discriminate. congruence.
  - rewrite (ntabs_two n l r E) in N. assert (D : forall u, In u (ntabs l) -> ~ In u (ntabs r)).
    { intros u Hu Hv. revert N Hu. generalize (ntabs l). induction l0 as [|x l0 IH]; cbn [app In]; intros N Hu; [destruct Hu|]. inversion N as [|? ? Hn N']; subst. destruct Hu as [<-|Hu]; [apply Hn, in_app_iff; auto|auto]. }
    destruct i as [|[|[|i]]]; try discriminate; destruct j as [|[|[|j]]]; try discriminate; cbn in *; try congruence; injection Ha as <-; injection Hb as <-; [now apply (D t)|now apply (D t)].
  - destruct n; discriminate.
Qed.
(** Distinct tables: positions are determined by their nodes. *)
Lemma sub_inj p : forall n q a b, NoDup (ntabs n) -> sub n p = Some a -> sub n q = Some b -> node_eqb a b = true -> p = q.
Proof.
  induction p as [|i p IH]; intros n q a b N Ha Hb E.
  - cbn in Ha. injection Ha as <-. destruct q as [|j q]; [reflexivity|]. apply sub_size_lt in Hb; [|discriminate]. apply node_eqb_size in E. lia.
  - destruct q as [|j q]; [cbn in Hb; injection Hb as <-; apply sub_size_lt in Ha; [|discriminate]; apply node_eqb_size in E; lia|].
    cbn in Ha, Hb. destruct (nth_error (children n) i) as [c|] eqn:Ec; [|discriminate]. destruct (nth_error (children n) j) as [e|] eqn:Ee; [|discriminate].
    destruct (Nat.eq_dec i j) as [->|Hij].
    + rewrite Ec in Ee. injection Ee as <-. f_equal. apply (IH c q a b); auto. apply nth_error_In in Ec. now apply (NoDup_child n).
    + exfalso. destruct (ntabs_pos a) as [t Ht]. apply (children_disjoint n i j c e t N Hij Ec Ee); [now apply (sub_tabs p c a)|]. apply (sub_tabs q e b Hb). now rewrite <- (node_eqb_tabs a b E).
Qed.

(** *** Leaves *)
Lemma leaf_below q : forall n m, sub n q = Some m -> exists w, In w (leaves n) /\ prefix q w.
Proof.
  assert (Hn : forall n, exists w, In w (leaves n)).
  { induction n as [t cs|n [w Hw]|l [w Hw]|l [w Hw]|n [w Hw]|n [w Hw]|n [w Hw]|n [w Hw]|l [w Hw]|l [w Hw]|l [w Hw]|n [w Hw]]; [exists []; now left| | | | | | | | | | |]; exists (0 :: w); cbn; try (now apply in_map);
      apply in_app_iff; left; now apply in_map. }
  assert (Hc : forall n i c, nth_error (children n) i = Some c -> forall w, In w (leaves c) -> In (i :: w) (leaves n)).
  { intros n i c E w Hw. destruct n; cbn in *; destruct i as [|[|i]]; cbn in E; try discriminate E; try (destruct i; discriminate E); injection E as <-; try (now apply in_map);
      apply in_app_iff; [left|right|left|right|left|right|left|right|left|right]; now apply in_map. }
  induction q as [|i q IH]; intros n m H; [destruct (Hn n) as [w Hw]; exists w; split; [exact Hw|now exists w]|].
  cbn in H. destruct (nth_error (children n) i) as [c|] eqn:E; [|discriminate]. destruct (IH c m H) as (w & Hw & s & ->). exists (i :: q ++ s). split; [now apply (Hc n i c)|now exists s].
Qed.
Lemma leaves_valid n : forall w, In w (leaves n) -> exists m, sub n w = Some m.
Proof.
  induction n as [t cs|n IH q|l IHl r IHr|l IHl r IHr q|n IH es|n IH gc ag|n IH ks|n IH ts|l IHl r IHr|l IHl r IHr|l IHl r IHr|n IH]; cbn; intros w H;
    try (apply in_map_iff in H as (v & <- & Hv); destruct (IH v Hv) as [m Hm]; exists m; exact Hm);
    try (apply in_app_iff in H as [H|H]; apply in_map_iff in H as (v & <- & Hv); [destruct (IHl v Hv) as [m Hm]|destruct (IHr v Hv) as [m Hm]]; exists m; exact Hm).
  destruct H as [<-|[]]. eexists. reflexivity.
Qed.
Lemma leaves_NoDup n : NoDup (leaves n).
Proof.
  assert (M : forall i (l : list pos), NoDup l -> NoDup (map (cons i) l)).
  { intros i l N. induction N as [|x l Hx N IH]; cbn; constructor; [|exact IH]. rewrite in_map_iff. intros (y & E & Hy). injection E as ->. contradiction. }
  assert (A : forall l r : list pos, NoDup l -> NoDup r -> NoDup (map (cons 0) l ++ map (cons 1) r)).
  { intros l r Hl Hr. apply NoDup_app_intro; [now apply M|now apply M|]. intros x Hx Hy. apply in_map_iff in Hx as (a & <- & _). apply in_map_iff in Hy as (b & E & _). discriminate. }
  induction n; cbn; auto. constructor; [intros []|constructor].
Qed.
Lemma keep_first_all root l : forall seen, (forall p q, In p (l ++ seen) -> In q (l ++ seen) -> same_node root p q = true -> p = q) -> NoDup (l ++ seen) -> keep_first root seen l = l.
Proof.
  induction l as [|p l IH]; intros seen H N; cbn [keep_first]; [reflexivity|].
  destruct (existsb (same_node root p) seen) eqn:E.
  - apply existsb_exists in E as (q & Hq & E). assert (p = q) as -> by (apply H; cbn; auto; right; apply in_app_iff; auto). cbn in N. inversion N as [|? ? Hn _]; subst. exfalso. apply Hn, in_app_iff. now right.
  - f_equal. assert (P : Permutation ((p :: l) ++ seen) (l ++ p :: seen)) by (cbn; apply Permutation_middle).
    apply IH; [intros a b Ha Hb; apply H; eapply Permutation_in; [apply Permutation_sym; exact P|assumption|apply Permutation_sym; exact P|assumption]|]. eapply Permutation_NoDup; [exact P|exact N].
Qed.
Lemma leaf_set_all root : NoDup (ntabs root) -> leaf_set root = leaves root.
Proof.
  intros N. unfold leaf_set. apply keep_first_all; rewrite app_nil_r; [|apply leaves_NoDup]. intros p q Hp Hq E.
  apply leaves_valid in Hp as [a Ha]. apply leaves_valid in Hq as [b Hb]. unfold same_node in E. rewrite Ha, Hb in E. now apply (sub_inj p root q a b).
Qed.

(** *** Rebuilding *)
Lemma node_ext a b : bare a = bare b -> children a = children b -> a = b.
Proof. destruct a, b; cbn; intros E C; try discriminate; try (injection C as <- <-); try (injection C as <-); congruence. Qed.
Lemma with_children_spec n cs : length cs = length (children n) -> exists m, with_children n cs = Ok m /\ bare m = bare n /\ children m = cs.
Proof.
  destruct n; cbn; destruct cs as [|x [|y [|z cs]]]; cbn; intros H; try discriminate; eexists; (split; [reflexivity|]); split; reflexivity.
Qed.
Lemma updated_In d n v : updated d n = Some v -> exists k, In (k, v) d /\ node_eqb k n = true.
Proof.
  induction d as [|[k w] d IH]; cbn; [discriminate|]. destruct (node_eqb k n) eqn:E; [intros H; injection H as <-; eauto|]. intros H. destruct (IH H) as (k' & Hk & Ek). eauto.
Qed.
Lemma updated_Some d n k v : In (k, v) d -> node_eqb k n = true -> is_updated d n = true.
Proof.
  unfold is_updated. induction d as [|[k' w] d IH]; cbn; [intros []|]. intros [E|H] Ek; [injection E as -> ->; now rewrite Ek|]. destruct (node_eqb k' n); [reflexivity|auto].
Qed.
Lemma is_updated_cons d k v n : is_updated ((k, v) :: d) n = node_eqb k n || is_updated d n.
Proof. unfold is_updated. cbn. destruct (node_eqb k n); reflexivity. Qed.

(** The tree with another node at a position. *)
Fixpoint put (n : rnode) (p : pos) (u : rnode) : rnode :=
  match p with
  | [] => u
  | i :: r =>
      match nth_error (children n) i with
      | None => n
      | Some c => match with_children n (firstn i (children n) ++ put c r u :: skipn (S i) (children n)) with Ok m => m | Raise _ => n end
      end
  end.
Lemma put_step n i r u c : nth_error (children n) i = Some c -> bare (put n (i :: r) u) = bare n /\ children (put n (i :: r) u) = firstn i (children n) ++ put c r u :: skipn (S i) (children n).
Proof.
  intros E. cbn [put]. rewrite E. destruct (with_children_spec n (firstn i (children n) ++ put c r u :: skipn (S i) (children n))) as (m & -> & B & C); [|auto].
  assert (i < length (children n)) by (apply nth_error_Some; congruence). rewrite app_length. cbn [length]. rewrite firstn_length, skipn_length. lia.
Qed.
Lemma nth_replace {A} (l : list A) i x j : i < length l -> nth_error (firstn i l ++ x :: skipn (S i) l) j = if j =? i then Some x else nth_error l j.
Proof.
  revert i j. induction l as [|a l IH]; intros i j H; cbn in H; [lia|]. destruct i as [|i]; destruct j as [|j]; try reflexivity. apply (IH i j). lia.
Qed.
Lemma put_sub p : forall n s u, sub n p = Some s ->
  sub (put n p u) p = Some u /\ (forall q, prefix q p -> q <> p -> option_map bare (sub (put n p u) q) = option_map bare (sub n q)) /\ (forall q, ~ prefix q p -> ~ prefix p q -> sub (put n p u) q = sub n q).
Proof.
  induction p as [|i p IH]; intros n s u H.
  - cbn. split; [reflexivity|]. split; [intros q (t & E) Hq; destruct q; [congruence|discriminate]|]. intros q _ Hq. exfalso. apply Hq. now exists q.
  - cbn in H. destruct (nth_error (children n) i) as [c|] eqn:E; [|discriminate]. destruct (put_step n i p u c E) as [B C]. destruct (IH c s u H) as (I1 & I2 & I3).
    assert (Hi : i < length (children n)) by (apply nth_error_Some; congruence).
    assert (N : forall j, nth_error (children (put n (i :: p) u)) j = if j =? i then Some (put c p u) else nth_error (children n) j) by (intros j; rewrite C; now apply nth_replace).
    split; [cbn [sub]; rewrite N, Nat.eqb_refl; exact I1|]. split.
    + intros q (t & Eq) Hq. destruct q as [|j q]; [cbn [sub option_map]; now rewrite B|]. cbn in Eq. injection Eq as <- Eq. cbn [sub]. rewrite N, Nat.eqb_refl, E. apply I2; [now exists t|congruence].
    + intros q H1 H2. destruct q as [|j q]; [exfalso; apply H1; now exists (i :: p)|]. cbn [sub]. rewrite N. destruct (j =? i) eqn:Ej; [|reflexivity]. apply Nat.eqb_eq in Ej. subst j. rewrite E.
      apply I3; intros (t & Et); [apply H1|apply H2]; exists t; cbn; congruence.
Qed.
Lemma put_changed n p s u : sub n p = Some s -> changed_at n p u (put n p u).
Proof. intros H. destruct (put_sub p n s u H) as (A & B & C). split; auto. Qed.
(** With the same inputs, the shape stays the same. *)
Lemma put_shape p : forall n s u q, sub n p = Some s -> children u = children s ->
  match sub n q, sub (put n p u) q with
  | Some a, Some b => (q = p -> b = u) /\ (q <> p -> bare b = bare a) /\ length (children b) = length (children a)
  | None, None => True
  | _, _ => False
  end.
Proof.
  induction p as [|i p IH]; intros n s u q H Hu.
  - cbn in H. injection H as ->. cbn [put]. destruct q as [|j q]; [cbn; rewrite Hu; repeat split; congruence|]. cbn [sub]. rewrite Hu. destruct (nth_error (children s) j) as [c|]; [|exact I].
    destruct (sub c q); [|exact I]. repeat split; congruence.
  - cbn in H. destruct (nth_error (children n) i) as [c|] eqn:E; [|discriminate]. destruct (put_step n i p u c E) as [B C].
    assert (Hi : i < length (children n)) by (apply nth_error_Some; congruence).
    assert (N : forall j, nth_error (children (put n (i :: p) u)) j = if j =? i then Some (put c p u) else nth_error (children n) j) by (intros j; rewrite C; now apply nth_replace).
    destruct q as [|j q].
    + cbn [sub]. split; [discriminate|]. split; [intros _; exact B|]. rewrite C, app_length. cbn [length]. rewrite firstn_length, skipn_length. lia.
    + cbn [sub]. rewrite N. destruct (j =? i) eqn:Ej.
      * apply Nat.eqb_eq in Ej. subst j. rewrite E. specialize (IH c s u q H Hu). destruct (sub c q), (sub (put c p u) q); auto. destruct IH as (A1 & A2 & A3). repeat split; [intros Eq; apply A1; congruence|intros Eq; apply A2; congruence|exact A3].
      * destruct (nth_error (children n) j) as [e|]; [|exact I]. destruct (sub e q); [|exact I]. apply Nat.eqb_neq in Ej. repeat split; congruence.
Qed.

(** *** The copy of a tree of distinct tables *)
Definition no_side (p : pos) : list pos := [].
Definition weight (queue : list pos) : nat := fold_right (fun p k => S (length p) + k) 0 queue.
Lemma weight_app a b : weight (a ++ b) = weight a + weight b.
Proof. unfold weight. induction a as [|x a IH]; cbn [fold_right app]; lia. Qed.
Lemma removelast_length {A} (l : list A) : l <> [] -> S (length (removelast l)) = length l.
Proof. intros H. destruct l as [|x l]; [congruence|]. rewrite (app_removelast_last x H) at 2. rewrite app_length. cbn [length]. lia. Qed.
Lemma weight_above p : weight (above no_side p) <= length p.
Proof. unfold above, no_side. destruct p as [|i p]; [cbn; lia|]. rewrite app_nil_r. pose proof (removelast_length (i :: p) ltac:(discriminate)) as H. cbn [weight fold_right]. lia. Qed.

Section Copy.
  Context (root : rnode) (Hn : NoDup (ntabs root)) (p0 : pos) (init : rnode) (H0 : sub root p0 = Some init) (upd : rnode -> rnode) (as_root : bool).
  Context (Hu : children (upd init) = children init).
  Let u := upd init.
  Let T := put root p0 u.

  Definition good (d : updates) : Prop := forall k v, In (k, v) d -> exists q, sub root q = Some k /\ sub T q = Some v.
  Definition covered (d : updates) (queue : list pos) : Prop :=
    forall q n, sub root q = Some n -> is_updated d n = true \/ exists w, In w queue /\ prefix q w.
  Definition valid (queue : list pos) : Prop := forall w, In w queue -> exists n, sub root w = Some n.

  Lemma good_updated d n q v : good d -> sub root q = Some n -> updated d n = Some v -> sub T q = Some v.
  Proof.
    intros G Hq H. apply updated_In in H as (k & Hk & E). destruct (G k v Hk) as (q' & H1 & H2). rewrite (sub_inj q' root q k n Hn H1 Hq E) in H2. exact H2.
  Qed.
  Lemma T_shape q a : sub root q = Some a -> exists b, sub T q = Some b /\ (q = p0 -> b = u) /\ (q <> p0 -> bare b = bare a) /\ length (children b) = length (children a).
  Proof. intros Ha. pose proof (put_shape p0 root init u q H0 Hu) as H. rewrite Ha in H. fold T in H. destruct (sub T q) as [b|]; [|contradiction]. exists b. tauto. Qed.
  Lemma children_copy d q cur cs : good d -> sub root q = Some cur -> updated_all d (children cur) = Ok cs -> exists b, sub T q = Some b /\ children b = cs.
  Proof.
    intros G Hq H. destruct (T_shape q cur Hq) as (b & Hb & _ & _ & Hl). exists b. split; [exact Hb|].
    assert (N : forall l i, updated_all d l = Ok i -> length i = length l /\ forall j c, nth_error l j = Some c -> exists v, nth_error i j = Some v /\ updated d c = Some v).
    { clear. induction l as [|c l IH]; intros i H; cbn in H; [injection H as <-; split; [reflexivity|intros [|j] c H; discriminate]|].
      destruct (updated d c) as [v|] eqn:E; [|discriminate]. destruct (updated_all d l) as [vs|]; [|discriminate]. cbn in H. injection H as <-. destruct (IH vs eq_refl) as [I1 I2].
      split; [cbn; congruence|]. intros [|j] c' H; cbn in *; [injection H as <-; eauto|eauto]. }
    destruct (N _ _ H) as [N1 N2]. clear N. apply (nth_ext _ _ root root); [congruence|]. intros j Hj. 
    destruct (nth_error (children cur) j) as [c|] eqn:Ec; [|apply nth_error_None in Ec; lia]. destruct (N2 j c Ec) as (v & Hv & Uv).
    assert (Hc : sub root (q ++ [j]) = Some c) by (rewrite sub_snoc, Hq; exact Ec). pose proof (good_updated d c _ v G Hc Uv) as Hs. rewrite sub_snoc, Hb in Hs.
    rewrite (nth_error_nth _ _ _ Hs), (nth_error_nth _ _ _ Hv). reflexivity.
  Qed.
  Lemma copy_step d q cur : good d -> sub root q = Some cur -> existsb (fun c => negb (is_updated d c)) (children cur) = false ->
    exists n, rbind (updated_all d (children cur)) (fun cs => with_children cur cs) = Ok n /\ (node_eqb cur init = true -> q = p0 /\ sub T q = Some (upd n) /\ upd n = u) /\ (node_eqb cur init = false -> q <> p0 /\ sub T q = Some n).
  Proof.
    intros G Hq Hp.
    assert (E : exists cs, updated_all d (children cur) = Ok cs).
    { clear - Hp. induction (children cur) as [|c l IH]; cbn [updated_all]; [eauto|]. cbn in Hp. apply orb_false_iff in Hp as [H1 H2]. apply negb_false_iff in H1. unfold is_updated in H1. destruct (updated d c); [|discriminate].
      destruct (IH H2) as [cs ->]. cbn. eauto. }
    destruct E as [cs E]. rewrite E. cbn [rbind]. destruct (children_copy d q cur cs G Hq E) as (b & Hb & Cb). destruct (T_shape q cur Hq) as (b' & Hb' & T1 & T2 & T3). rewrite Hb in Hb'. injection Hb' as <-.
    destruct (with_children_spec cur cs) as (n & En & Bn & Cn); [congruence|]. exists n. split; [exact En|]. split; intros Ei.
    - assert (q = p0) as -> by now apply (sub_inj q root p0 cur init). rewrite H0 in Hq. injection Hq as <-. specialize (T1 eq_refl). subst b. assert (n = init) as ->. { apply node_ext; [exact Bn|]. rewrite Cn, <- Cb. exact Hu. }
      split; [reflexivity|]. split; [exact Hb|reflexivity].
    - assert (Hne : q <> p0). { intros ->. rewrite H0 in Hq. injection Hq as <-. rewrite node_eqb_refl in Ei. discriminate. } split; [exact Hne|]. rewrite Hb. f_equal. apply node_ext; [|congruence]. rewrite Bn. now apply T2.
  Qed.
  Lemma covered_step d d' p rest cur : covered d (p :: rest) -> sub root p = Some cur ->
    (forall n, is_updated d n = true -> is_updated d' n = true) -> (is_updated d' cur = true \/ (d' = d /\ existsb (fun c => negb (is_updated d c)) (children cur) = true)) ->
    covered d' (rest ++ above no_side p).
  Proof.
    intros C Hp Hd Hc q n Hq. destruct (C q n Hq) as [H|(w & [<-|Hw] & Hpre)]; [left; auto| |right; exists w; split; [apply in_app_iff; now left|exact Hpre]].
    destruct Hpre as (s & Es). destruct (list_eq_dec Nat.eq_dec q p) as [->|Hne].
    - rewrite Hp in Hq. injection Hq as <-. destruct Hc as [Hc|[-> Hc]]; [now left|right]. apply existsb_exists in Hc as (c & Hc & Hno). apply negb_true_iff in Hno. apply In_nth_error in Hc as [j Hj].
      assert (Hcj : sub root (p ++ [j]) = Some c) by (rewrite sub_snoc, Hp; exact Hj). destruct (C (p ++ [j]) c Hcj) as [H|(w & [<-|Hw] & (s' & Es'))]; [congruence| |].
      + exfalso. apply (f_equal (@length nat)) in Es'. rewrite !app_length in Es'. cbn in Es'. lia.
      + exists w. split; [apply in_app_iff; now left|]. exists ([j] ++ s'). rewrite Es', <- app_assoc. reflexivity.
    - right. exists (removelast p). split.
      + apply in_app_iff. right. unfold above. destruct p as [|i p]; [destruct q; [congruence|discriminate]|]. now left.
      + destruct (exists_last (l := s)) as (s' & x & ->); [intros ->; rewrite app_nil_r in Es; congruence|]. exists s'. rewrite Es, app_assoc, removelast_last. reflexivity.
  Qed.
  Lemma valid_step p rest : valid (p :: rest) -> valid (rest ++ above no_side p).
  Proof.
    intros V w Hw. apply in_app_iff in Hw as [Hw|Hw]; [apply V; now right|]. unfold above, no_side in Hw. destruct p as [|i p]; [destruct Hw|]. rewrite app_nil_r in Hw. destruct Hw as [<-|[]].
    destruct (V (i :: p) (or_introl eq_refl)) as [n Hw']. destruct (exists_last (l := i :: p)) as (s' & x & Es); [discriminate|]. rewrite Es in Hw' |- *. rewrite removelast_last. rewrite sub_snoc in Hw'. destruct (sub root s') as [m|]; [eauto|discriminate].
  Qed.

  Lemma copy_loop_ok : forall fuel queue d root' init', weight queue <= fuel -> good d -> covered d queue -> valid queue ->
    (as_root = true -> is_updated d init = false) ->
    (as_root = false -> (is_updated d root = true -> root' = Some T) /\ (is_updated d init = true -> init' = Some u)) ->
    copy_loop no_side root init upd as_root fuel queue d root' init' = Ok (if as_root then (Some u, Some u) else (Some T, Some u)).
  Proof.
    induction fuel as [|fuel IH]; intros queue d root' init' W G C V Hr Hi.
    - destruct queue as [|p rest]; [|cbn in W; lia]. cbn. destruct (C [] root eq_refl) as [U|(w & [] & _)]. destruct (C p0 init H0) as [U'|(w & [] & _)]. destruct as_root; [rewrite Hr in U' by reflexivity; discriminate|]. destruct (Hi eq_refl) as [-> ->]; auto.
    - destruct queue as [|p rest]; [cbn; destruct (C [] root eq_refl) as [U|(w & [] & _)]; destruct (C p0 init H0) as [U'|(w & [] & _)]; destruct as_root; [rewrite Hr in U' by reflexivity; discriminate|]; destruct (Hi eq_refl) as [-> ->]; auto|].
      cbn [copy_loop]. destruct (V p (or_introl eq_refl)) as [cur Hp]. rewrite Hp.
      assert (W' : weight (rest ++ above no_side p) <= fuel). { rewrite weight_app. pose proof (weight_above p). cbn [weight fold_right] in W. fold (weight rest) in W. lia. }
      assert (V' : valid (rest ++ above no_side p)) by now apply valid_step.
      destruct (is_updated d cur) eqn:Ed; [cbn [orb]; apply IH; auto; apply (covered_step d d p rest cur); auto|]. cbn [orb].
      destruct (existsb (fun c => negb (is_updated d c)) (children cur)) eqn:Ep; [apply IH; auto; apply (covered_step d d p rest cur); auto|].
      destruct (copy_step d p cur G Hp Ep) as (n & En & Hc1 & Hc2). destruct (updated_all d (children cur)) as [cs|]; [|discriminate]. cbn [rbind] in *. rewrite En. cbn [rbind].
      assert (Hroot : node_eqb cur root = true -> p = []). { intros E. exact (sub_inj p root [] cur root Hn Hp eq_refl E). }
      assert (Hroot' : forall v, sub T p = Some v -> forall n', is_updated ((cur, v) :: d) n' = true -> n' = root -> (if node_eqb cur root then Some v else root') = root' \/ v = T).
      { intros v Hv n' _ _. destruct (node_eqb cur root) eqn:Er; [|now left]. right. rewrite (Hroot eq_refl) in Hv. cbn in Hv. congruence. }
      assert (Hgood : forall v, sub T p = Some v -> good ((cur, v) :: d)). { intros v Hv k w [E|Hin]; [injection E as <- <-; eauto|now apply G]. }
      assert (Hcov : forall v, covered ((cur, v) :: d) (rest ++ above no_side p)).
      { intros v. apply (covered_step d _ p rest cur); auto; [intros m Hm; rewrite is_updated_cons, Hm; apply orb_true_r|]. left. rewrite is_updated_cons, node_eqb_refl. reflexivity. }
      destruct (node_eqb cur init) eqn:Ei.
      + destruct (Hc1 eq_refl) as (-> & Hv & Hun). rewrite Hun in *. destruct as_root; [reflexivity|]. apply IH; auto; [discriminate|]. intros _. split; [|reflexivity]. intros Hup. rewrite is_updated_cons in Hup.
        destruct (node_eqb cur root) eqn:Er; [rewrite (Hroot eq_refl) in Hv; cbn in Hv; congruence|]. apply (proj1 (Hi eq_refl)). exact Hup.
      + destruct (Hc2 eq_refl) as (Hne & Hv). apply IH; auto.
        * intros Ha. rewrite is_updated_cons, Ei. cbn. auto.
        * intros Ha. rewrite Ha in *. cbn [negb andb]. destruct (Hi eq_refl) as [Hi1 Hi2]. split; intros Hup; rewrite is_updated_cons in Hup.
          -- destruct (node_eqb cur root) eqn:Er; [rewrite (Hroot eq_refl) in Hv; cbn in Hv; congruence|]. apply Hi1. exact Hup.
          -- rewrite Ei in Hup. cbn in Hup. auto.
  Qed.
  Lemma mutate_ok ordl : (forall l, Permutation (ordl l) l) -> exists fuel, mutate ordl no_side root init upd as_root fuel = Ok (if as_root then u else T, u).
  Proof.
    intros Ho. exists (weight (ordl (leaf_set root))). unfold mutate. rewrite copy_loop_ok; [destruct as_root; reflexivity|lia|intros k v []| | |reflexivity|].
    - intros q n Hq. right. destruct (leaf_below q root n Hq) as (w & Hw & Hp). exists w. split; [|exact Hp]. apply (Permutation_in _ (Permutation_sym (Ho _))). now rewrite leaf_set_all.
    - intros w Hw. apply (Permutation_in _ (Ho _)) in Hw. rewrite leaf_set_all in Hw by exact Hn. now apply leaves_valid.
    - intros _. split; discriminate.
  Qed.
End Copy.

(** *** Copies in general *)
Lemma node_eqb_rebuild n m cs : with_children n cs = Ok m -> Forall2 (fun c v => node_eqb c v = true) (children n) cs -> node_eqb n m = true.
Proof.
  destruct n; cbn; destruct cs as [|x [|y [|z cs]]]; intros H F; try discriminate; injection H as <-; inversion F as [|? ? ? ? F1 F2]; subst; try (inversion F2; subst); cbn;
    bools; auto; try apply Nat.eqb_refl; try apply deqb_refl; try (apply seteqb_seteq; intros ?; reflexivity).
Qed.
Lemma copy_loop_same side ar root init : forall fuel queue d root' init' r i,
  (forall k v, In (k, v) d -> node_eqb k v = true) -> (forall n, root' = Some n -> node_eqb root n = true) -> (forall n, init' = Some n -> node_eqb init n = true) ->
  copy_loop side root init (fun m => m) ar fuel queue d root' init' = Ok (r, i) -> (ar = false -> forall n, r = Some n -> node_eqb root n = true) /\ (forall n, i = Some n -> node_eqb init n = true).
Proof.
  induction fuel as [|fuel IH]; intros [|p rest] d root' init' r i Hd Hr Hi H; cbn [copy_loop] in H; try (injection H as <- <-; auto); try discriminate.
  destruct (sub root p) as [cur|]; [|discriminate]. destruct (_ || _); [now apply IH in H|]. destruct (updated_all d (children cur)) as [cs|] eqn:Ec; [|discriminate]. cbn [rbind] in H.
  destruct (with_children cur cs) as [n|] eqn:En; [|discriminate]. cbn [rbind] in H.
  assert (F : Forall2 (fun c v => node_eqb c v = true) (children cur) cs).
  { clear - Hd Ec. revert cs Ec. induction (children cur) as [|c l IHl]; intros cs Ec; cbn in Ec; [injection Ec as <-; constructor|]. destruct (updated d c) as [v|] eqn:E; [|discriminate].
    destruct (updated_all d l) as [vs|]; [|discriminate]. cbn in Ec. injection Ec as <-. constructor; [|now apply IHl]. apply updated_In in E as (k & Hk & Ek). apply (node_eqb_trans c k v); [now apply node_eqb_sym|now apply Hd]. }
  pose proof (node_eqb_rebuild cur n cs En F) as Hn.
  assert (Hd' : forall k v, In (k, v) ((cur, n) :: d) -> node_eqb k v = true) by (intros k v [E|Hin]; [injection E as <- <-; exact Hn|now apply Hd]).
  assert (Hroot : forall b m, (if b && node_eqb cur root then Some n else root') = Some m -> node_eqb root m = true).
  { intros b m E. destruct (b && node_eqb cur root) eqn:Er; [|now apply Hr]. injection E as <-. apply andb_true_iff in Er as [_ Er]. apply (node_eqb_trans root cur n); [now apply node_eqb_sym|exact Hn]. }
  destruct (node_eqb cur init) eqn:Ei.
  - assert (Hin : node_eqb init n = true) by (apply (node_eqb_trans init cur n); [now apply node_eqb_sym|exact Hn]).
    destruct ar; [injection H as <- <-; split; [discriminate|intros m E; injection E as <-; exact Hin]|]. apply IH in H; auto; [intros m; exact (Hroot true m)|]. intros m E. injection E as <-. exact Hin.
  - apply IH in H; auto. intros m. apply (Hroot (negb ar) m).
Qed.
Section Same.
  Context {V : Type} {EV : EqD V} (null : V) (M : rsem V) (db : tbl -> list (tuple (V := V))).
  Lemma node_eqb_rels : forall a b, node_eqb a b = true -> rels a = rels b.
  Proof. induction a; intros []; cbn; intros H; try discriminate; bools; subst; auto; rewrite ?(IHa1 r), ?(IHa2 r0) by assumption; f_equal; auto. Qed.
  Lemma node_eqb_eval : forall a b, node_eqb a b = true -> eval null M db a = eval null M db b.
  Proof.
    induction a; intros []; cbn; intros H; try discriminate; bools; subst; auto; try (f_equal; f_equal; now apply IHa);
      try (erewrite IHa1, IHa2, (node_eqb_rels _ _) by eassumption; reflexivity). all: try (erewrite IHa by eassumption; reflexivity).
  Qed.
  Lemma node_eqb_out : forall a b, node_eqb a b = true -> out null M db a = out null M db b.
  Proof.
    induction a; intros []; cbn [node_eqb out]; intros H; try discriminate; bools; subst; auto; try (erewrite node_eqb_eval by eassumption; reflexivity);
      try (erewrite IHa1, IHa2 by eassumption; reflexivity); try (erewrite IHa by eassumption; reflexivity).
  Qed.
End Same.
