(** C277: exploring the costs of operators. *)
From Coq Require Import List Bool Arith ZArith Lia Permutation.
From Verif Require Import PyBase TExpl_model TExpl_spec.
Import ListNotations.
Local Open Scope nat_scope.

Lemma product_In {A} (l : list (list A)) s : In s (product l) <-> Forall2 (fun x xs => In x xs) s l.
Proof.
  revert s. induction l as [|xs l IH]; intros s; cbn.
  - split; [intros [<-|[]]; constructor | intros F; inversion F; left; reflexivity].
  - rewrite in_flat_map. split.
    + intros (a & A0 & I0). apply in_map_iff in I0 as (s' & <- & I0). constructor; [exact A0 | apply IH; exact I0].
    + intros F. inversion F as [|a ? s' ? A0 F']; subst. exists a. split; [exact A0|]. apply in_map_iff. exists s'. split; [reflexivity | apply IH; exact F'].
Qed.
Lemma NoDup_app' {A} (l m : list A) : NoDup l -> NoDup m -> (forall x, In x l -> In x m -> False) -> NoDup (l ++ m).
Proof.
  induction l as [|x l IH]; intros N M D; [exact M|]. inversion N; subst. cbn. constructor.
  - rewrite in_app_iff. intros [H|H]; [contradiction | apply (D x); [left; reflexivity | exact H]].
  - apply IH; [assumption .. |]. intros y Y Z0. apply (D y); [right; exact Y | exact Z0].
Qed.
Lemma product_NoDup {A} (l : list (list A)) : Forall (@NoDup A) l -> NoDup (product l).
Proof.
  induction 1 as [|xs l N F IH]; [constructor; [intros [] | constructor]|]. cbn. induction N as [|x xs X N' IHx]; [constructor|]. cbn. apply NoDup_app'; [|exact IHx|].
  - apply FinFun.Injective_map_NoDup; [intros a b [= E]; exact E | exact IH].
  - intros s S1 S2. apply in_map_iff in S1 as (s' & <- & _). apply in_flat_map in S2 as (y & Y & S2). apply in_map_iff in S2 as (s'' & E & _). injection E as -> ->. contradiction.
Qed.
Lemma set_operators_ok l : forall a, (forall j o, In (j, o) l -> 2 <= List.length j) -> NoDup (map fst l) -> (forall j, In j (map fst l) -> ~ In j (dkeys a)) ->
  set_operators a l = Ok (a ++ l).
Proof.
  induction l as [|[j o] l IH]; intros a B N D; cbn [set_operators]; [rewrite app_nil_r; reflexivity|].
  assert (J := B j o (or_introl eq_refl)). destruct (Nat.ltb_spec (List.length j) 2); [lia|]. inversion N as [|? ? N1 N2]; subst.
  assert (E : dset a j o = a ++ [(j, o)]).
  { assert (NA := D j (or_introl eq_refl)). clear - NA. induction a as [|[k v] a IH]; [reflexivity|]. cbn. destruct (eqd j k) as [->|NE]; [exfalso; apply NA; left; reflexivity|]. f_equal. apply IH. intros H. apply NA. right. exact H. }
  rewrite E. rewrite IH; [rewrite <- app_assoc; reflexivity | intros j' o' H'; apply (B j' o'); right; exact H' | exact N2|].
  intros j' H' K. unfold dkeys in K. rewrite map_app, in_app_iff in K. destruct K as [K|[<-|[]]]; [apply (D j'); [right; exact H' | exact K] | contradiction].
Qed.
Lemma combine_comb (available : dict join (list nat)) s : Forall2 (fun x xs => In x xs) s (dvalues available) ->
  combination available (combine (dkeys available) s) /\ map fst (combine (dkeys available) s) = dkeys available /\ map snd (combine (dkeys available) s) = s.
Proof.
  revert s. induction available as [|[j ops] av IH]; intros s F; inversion F as [|x ? s' ? X F']; subst; cbn; [repeat constructor|].
  destruct (IH s' F') as (C & K & V). repeat split; [constructor; [split; [reflexivity | exact X] | exact C] | f_equal; exact K | f_equal; exact V].
Qed.
Lemma comb_combine (available : dict join (list nat)) a : combination available a -> exists s, Forall2 (fun x xs => In x xs) s (dvalues available) /\ a = combine (dkeys available) s.
Proof.
  induction 1 as [|[j ops] [k o] av a [E I0] F (s & S & ->)]; [exists []; split; constructor|]. cbn in E, I0. subst k. exists (o :: s). split; [constructor; assumption | reflexivity].
Qed.
Lemma rmapM_all {A B} (f : A -> res B) (g : A -> B) l : (forall x, In x l -> f x = Ok (g x)) -> rmapM f l = Ok (map g l).
Proof. induction l as [|x l IH]; intros H; [reflexivity|]. cbn. rewrite (H x (or_introl eq_refl)). cbn. rewrite IH by (intros y Y; apply H; right; exact Y). reflexivity. Qed.
Lemma av_size available : well_formed available -> forall s, Forall2 (fun x xs => In x xs) s (dvalues available) -> set_operators [] (combine (dkeys available) s) = Ok (combine (dkeys available) s).
Proof.
  intros [N W] s F. destruct (combine_comb available s F) as (C & K & V). rewrite set_operators_ok; [reflexivity | | rewrite K; exact N | intros j _ []].
  intros j o H. assert (J : In j (dkeys available)) by (rewrite <- K; apply in_map_iff; exists (j, o); auto). apply in_map_iff in J as ([j' ops] & <- & J). apply (W j' ops J).
Qed.
(* The exhaustive exploration tries each combination exactly once. *)
Theorem C277_exhaustive_partial : forall available, well_formed available ->
  exists l, generate_all available = Ok l /\ NoDup l /\ forall a, In a l <-> combination available a.
Proof.
  intros available W. exists (map (combine (dkeys available)) (product (dvalues available))).
  assert (S : forall s, In s (product (dvalues available)) -> Forall2 (fun x xs => In x xs) s (dvalues available)) by (intros s; apply product_In).
  split; [unfold generate_all; apply rmapM_all; intros s I0; apply (av_size _ W); apply S; exact I0|]. split.
  - assert (N : NoDup (product (dvalues available))).
    { apply product_NoDup. apply Forall_forall. intros ops I0. apply in_map_iff in I0 as ([j ops'] & <- & I0). apply (proj2 W j ops' I0). }
    revert S N. generalize (product (dvalues available)). intros l S N. induction N as [|s l NI N IH]; cbn; constructor; [|apply IH; intros s' I0; apply S; right; exact I0].
    intros I0. apply in_map_iff in I0 as (s' & E & I0). apply NI. destruct (combine_comb available s (S s (or_introl eq_refl))) as (_ & _ & V). destruct (combine_comb available s' (S s' (or_intror I0))) as (_ & _ & V').
    rewrite <- V, <- E, V'. exact I0.
  - intros a. rewrite in_map_iff. split.
    + intros (s & <- & I0). apply combine_comb. apply S. exact I0.
    + intros C. destruct (comb_combine _ _ C) as (s & F & ->). exists s. split; [reflexivity | apply product_In; exact F].
Qed.
Print Assumptions C277_exhaustive_partial.

Lemma draw_ok choice i available : well_formed available -> (forall i j ops, ops <> [] -> In (choice i j ops) ops) -> (forall j ops, In (j, ops) available -> ops <> []) ->
  exists a, draw choice i available = Ok a /\ combination available a.
Proof.
  intros W CH NE.
  assert (M : rmapM (fun e => rmap (pair (fst e)) (choose choice i (fst e) (snd e))) available = Ok (map (fun e => (fst e, choice i (fst e) (snd e))) available)).
  { apply rmapM_all. intros [j ops] I0. cbn. unfold choose. destruct ops as [|o ops]; [exfalso; apply (NE j [] I0); reflexivity | reflexivity]. }
  assert (C : combination available (map (fun e => (fst e, choice i (fst e) (snd e))) available)).
  { assert (H : forall l, (forall j ops, In (j, ops) l -> ops <> []) -> combination l (map (fun e => (fst e, choice i (fst e) (snd e))) l)).
    { induction l as [|[j ops] l IH]; intros H; constructor; [split; [reflexivity | apply CH; apply (H j); left; reflexivity] | apply IH; intros j' ops' I0; apply (H j'); right; exact I0]. }
    apply H. exact NE. }
  exists (map (fun e => (fst e, choice i (fst e) (snd e))) available). split; [|exact C]. unfold draw. rewrite M. cbn [rbind].
  destruct (comb_combine _ _ C) as (s & F & E). rewrite E. apply (av_size _ W s F).
Qed.
Lemma sample_ok choice hash available n : well_formed available -> (forall i j ops, ops <> [] -> In (choice i j ops) ops) -> (forall j ops, In (j, ops) available -> ops <> []) ->
  forall tries i seen plans, (forall a, In a plans -> combination available a) -> NoDup plans -> (forall a, In a plans -> In (hash a) seen) -> List.length plans <= n ->
  exists l, sample_loop choice hash tries i n available seen plans = Ok l /\ (forall a, In a l -> combination available a) /\ NoDup l /\ List.length plans <= List.length l <= n /\ (0 < tries -> 0 < n -> (forall a, In (hash a) seen -> plans <> []) -> l <> []).
Proof.
  intros W CH NE. induction tries as [|tries IH]; intros i seen plans P N H L; cbn [sample_loop]; [exists plans; repeat split; auto; lia|].
  destruct (Nat.ltb_spec (List.length plans) n) as [LT|GE].
  - destruct (draw_ok choice i available W CH NE) as (a & D & C). rewrite D. cbn [rbind]. destruct (mem (hash a) seen) eqn:M.
    + destruct (IH (S i) seen plans P N H L) as (l & E & Q1 & Q2 & Q3 & Q4). exists l. repeat split; auto; try lia. intros _ N0 X. apply mem_In in M. specialize (X a M). destruct l; [destruct plans; [congruence | cbn in Q3; lia] | discriminate].
    + apply mem_nIn in M. destruct (IH (S i) (hash a :: seen) (plans ++ [a])) as (l & E & Q1 & Q2 & Q3 & Q4).
      * intros b B. apply in_app_iff in B as [B|[<-|[]]]; auto.
      * apply NoDup_app'; [exact N | repeat constructor; intros [] |]. intros b B [<-|[]]. apply M. apply H. exact B.
      * intros b B. apply in_app_iff in B as [B|[<-|[]]]; [right; apply H; exact B | left; reflexivity].
      * rewrite app_length. cbn. lia.
      * rewrite app_length in Q3. cbn in Q3. exists l. repeat split; auto; try lia. intros _ _ _ ->. cbn in Q3. lia.
  - exists plans. repeat split; auto. intros _ N0 _ ->. cbn in GE. lia.
Qed.
(* Sampling yields between one and n different combinations, whatever is drawn and however assignments are hashed. *)
Theorem C277_sample_partial : forall choice hash available n, well_formed available -> (forall i j ops, ops <> [] -> In (choice i j ops) ops) ->
  (forall j ops, In (j, ops) available -> ops <> []) -> 0 < n ->
  exists l, sample choice hash n available = Ok l /\ NoDup l /\ (forall a, In a l -> combination available a) /\ 1 <= List.length l <= n.
Proof.
  intros choice hash available n W CH NE N0. unfold sample.
  destruct (sample_ok choice hash available n W CH NE (3 * n) 0 [] []) as (l & E & Q1 & Q2 & Q3 & Q4); [intros a [] | constructor | intros a [] | cbn; lia|].
  exists l. repeat split; auto; try lia. destruct l; [exfalso; apply Q4; [lia | exact N0 | intros a [] | reflexivity] | cbn; lia].
Qed.
Print Assumptions C277_sample_partial.
(* With a limit: different combinations only, no more than the limit, and all of them if the limit allows for it. *)
Lemma product_length {A} (l : list (list A)) : List.length (product l) = fold_right Nat.mul 1 (map (@List.length A) l).
Proof.
  induction l as [|x l IH]; [reflexivity|]. cbn [product map fold_right]. rewrite <- IH. generalize (product l). intros r.
  induction x as [|a x IHx]; [reflexivity|]. cbn [flat_map]. rewrite app_length, map_length, IHx. reflexivity.
Qed.
Lemma rmapM_len {A B} (f : A -> res B) l : forall ys, rmapM f l = Ok ys -> List.length ys = List.length l.
Proof.
  induction l as [|x l IH]; intros ys H; cbn in H; [injection H as <-; reflexivity|]. destruct (f x); [|discriminate]. cbn in H.
  destruct (rmapM f l); [|discriminate]. injection H as <-. cbn. f_equal. apply IH. reflexivity.
Qed.
Theorem C277_limit_partial : forall choice hash available m, well_formed available -> (forall i j ops, ops <> [] -> In (choice i j ops) ops) ->
  (forall j ops, In (j, ops) available -> ops <> []) -> (0 < m)%Z ->
  exists l, explore choice hash available (Some m) = Ok l /\ NoDup l /\ (forall a, In a l -> combination available a) /\ (Z.of_nat (List.length l) <= m)%Z
    /\ l <> [] /\ ((forall all, NoDup all -> (forall a, In a all <-> combination available a) -> (Z.of_nat (List.length all) <= m)%Z) -> forall a, combination available a -> In a l).
Proof.
  intros choice hash available m W CH NE M0. destruct (C277_exhaustive_partial available W) as (all & G & ND & A).
  assert (L : List.length all = fold_right Nat.mul 1 (map (@List.length nat) (dvalues available))).
  { unfold generate_all in G. rewrite (rmapM_len _ _ _ G). apply product_length. }
  unfold explore. rewrite <- L. destruct (Z.ltb_spec m (Z.of_nat (List.length all))) as [LT|GE].
  - destruct (C277_sample_partial choice hash available (Z.to_nat m) W CH NE ltac:(lia)) as (l & E & N & C & K).
    exists l. split; [exact E|]. split; [exact N|]. split; [exact C|]. split; [lia|]. split; [intros ->; cbn in K; lia|].
    intros H. specialize (H all ND A). lia.
  - exists all. split; [exact G|]. split; [exact ND|]. split; [intros a I0; apply A; exact I0|]. split; [lia|]. split; [|intros _ a C; apply A; exact C].
    intros ->. cbn in L. assert (Z0 : forall l : dict join (list nat), (forall j ops, In (j, ops) l -> ops <> []) -> fold_right Nat.mul 1 (map (@List.length nat) (dvalues l)) <> 0).
    { induction l as [|[j ops] l IH]; intros H; [discriminate|]. cbn. intros Q. apply Nat.eq_mul_0 in Q as [Q|Q]; [|apply IH in Q; [exact Q|intros j' ops' I0; apply (H j' ops'); right; exact I0]].
      destruct ops; [|discriminate]. apply (H j []); [left; reflexivity|reflexivity]. }
    apply (Z0 available NE). symmetry. exact L.
Qed.
Print Assumptions C277_limit_partial.
(* The public method fails for all join orders with a join. *)
Theorem C277_explore_refuted : forall choice hash all t allowed supported m, joins_of t <> [] -> explore_costs choice hash all t allowed supported m = Raise TypeError.
Proof.
  intros choice hash all t allowed supported m J. unfold explore_costs, unknown_costs. destruct (iterjoins t) eqn:E; [|reflexivity].
  exfalso. apply J. clear J. destruct t as [| |a b]; [reflexivity .. |]. cbn in E. destruct (iterjoins a); [|discriminate]. destruct (iterjoins b); discriminate.
Qed.
Print Assumptions C277_explore_refuted.
(* Without max_combinations it fails for the others, too. *)
Theorem C277_default_refuted : forall choice hash all t allowed supported, explore_costs choice hash all t allowed supported None = Raise TypeError.
Proof. intros choice hash all t allowed supported. unfold explore_costs, unknown_costs. destruct (iterjoins t); reflexivity. Qed.
Print Assumptions C277_default_refuted.
Example C277_ex : generate_all [([1; 2], [7; 8]); ([1; 2; 3], [7; 8; 9])] =
    Ok [[([1; 2], 7); ([1; 2; 3], 7)]; [([1; 2], 7); ([1; 2; 3], 8)]; [([1; 2], 7); ([1; 2; 3], 9)]; [([1; 2], 8); ([1; 2; 3], 7)]; [([1; 2], 8); ([1; 2; 3], 8)]; [([1; 2], 8); ([1; 2; 3], 9)]]
  /\ sample (fun i j ops => nth (i mod 2) ops 0) (fun a => fold_right (fun e n => snd e + 10 * n) 0 a) 2 [([1; 2], [7; 8]); ([1; 2; 3], [7; 8; 9])]
     = Ok [[([1; 2], 7); ([1; 2; 3], 7)]; [([1; 2], 8); ([1; 2; 3], 8)]].
Proof. split; reflexivity. Qed.
Example C277_wf : well_formed [([1; 2], [7; 8]); ([1; 2; 3], [7; 8; 9])].
Proof. split; [repeat constructor; cbn; intuition discriminate|]. intros j ops [[= <- <-]|[[= <- <-]|[]]]; (split; [cbn; lia | repeat constructor; cbn; intuition discriminate]). Qed.
