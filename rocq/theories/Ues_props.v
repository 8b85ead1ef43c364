(** Property theorems for C22 (the UES bounds never under-estimate) and C74 (frequency maintenance). *)
From Coq Require Import List Bool Arith ZArith Lia.
From Verif Require Import PyBase Card_model Card_spec Card_proofs Ues_model Ues_spec Ues_proofs.
Import ListNotations.
Local Open Scope Z_scope.

Lemma occ_nat c (R : rel) z : 0 <= z -> (forall v, Z.of_nat (occurrences c v R) <= z) -> forall v, (occurrences c v R <= Z.to_nat z)%nat.
Proof. intros Hz H v. specialize (H v). lia. Qed.
Lemma connects_size t1 t2 cond p R S fa fb (a := fst p) (b := snd p) :
  t1 <> t2 -> connects t1 t2 p -> In p cond -> 0 <= fa -> 0 <= fb ->
  let Ra := if Nat.eqb (fst a) t1 then R else S in let Rb := if Nat.eqb (fst b) t1 then R else S in
  (forall v, Z.of_nat (occurrences a v Ra) <= fa) -> (forall v, Z.of_nat (occurrences b v Rb) <= fb) ->
  Z.of_nat (length (join t2 cond R S)) <= Z.of_nat (length Ra) * fb /\ Z.of_nat (length (join t2 cond R S)) <= Z.of_nat (length Rb) * fa.
Proof.
  intros Hne Hc Hin Ha Hb Ra Rb HA HB. assert (Hs := connects_sides _ _ _ Hne Hc). subst Ra Rb a b. destruct p as [a b]. cbn [fst snd] in *.
  destruct Hc as [[E1 E2]|[E1 E2]]; cbn [fst snd] in *.
  - destruct (Nat.eqb_spec (fst a) t1); [|congruence]. destruct (Nat.eqb_spec (fst b) t1); [congruence|].
    destruct (Nat.eqb_spec (fst a) t2); [congruence|].
    assert (J1 := join_le_left t2 cond (a, b) a b R S (Z.to_nat fb) Hin Hs (occ_nat _ _ _ Hb HB)).
    assert (J2 := join_le_right t2 cond (a, b) a b R S (Z.to_nat fa) Hin Hs (occ_nat _ _ _ Ha HA)). nia.
  - destruct (Nat.eqb_spec (fst a) t1); [congruence|]. destruct (Nat.eqb_spec (fst b) t1); [|congruence].
    destruct (Nat.eqb_spec (fst a) t2); [|congruence].
    assert (J1 := join_le_left t2 cond (a, b) b a R S (Z.to_nat fa) Hin Hs (occ_nat _ _ _ Ha HA)).
    assert (J2 := join_le_right t2 cond (a, b) b a R S (Z.to_nat fb) Hin Hs (occ_nat _ _ _ Hb HB)). nia.
Qed.

(** C22 for one n:m predicate.  With correct inputs (and intermediate results that doubles represent exactly) the bound is
    at least the number of rows of the join when the row bounds are multiples of the frequencies; in general it falls short
    by at most the product of the two frequencies.  The join may be any conjunction containing the predicate. *)
Theorem C22_n_m_partial : forall st t1 t2 cond p R S, t1 <> t2 -> connects t1 t2 p -> In p cond ->
  forall base1 b1 f1 base2 b2 f2,
  correct_input st (fst p) (if Nat.eqb (fst (fst p)) t1 then R else S) base1 b1 f1 ->
  correct_input st (snd p) (if Nat.eqb (fst (snd p)) t1 then R else S) base2 b2 f2 ->
  (b1 + f1) * f2 < 2 ^ 53 -> (b2 + f2) * f1 < 2 ^ 53 ->
  exists z, estimate_n_m st (fst p) (snd p) = Ok (CVal z) /\
    Z.of_nat (length (join t2 cond R S)) <= z + f1 * f2 /\
    ((f1 | b1) -> (f2 | b2) -> Z.of_nat (length (join t2 cond R S)) <= z).
Proof.
  intros st t1 t2 cond p R S Hne Hc Hin base1 b1 f1 base2 b2 f2 (_ & _ & KB1 & LB1 & KF1 & LF1 & F1) (_ & _ & KB2 & LB2 & KF2 & LF2 & F2) O1 O2.
  destruct (connects_size t1 t2 cond p R S f1 f2 Hne Hc Hin ltac:(lia) ltac:(lia) F1 F2) as [J1 J2].
  destruct (n_m_value st (fst p) (snd p) b1 b2 f1 f2 KB1 KB2 KF1 KF2) as [z (E & L & D)]; try lia.
  exists z. split; [easy|].
  set (A := if Nat.eqb (fst (fst p)) t1 then R else S) in *. set (B := if Nat.eqb (fst (snd p)) t1 then R else S) in *.
  assert (Hmin : Z.of_nat (length (join t2 cond R S)) <= Z.min (b1 * f2) (b2 * f1)).
  { apply Z.min_glb; [etransitivity; [exact J1|]|etransitivity; [exact J2|]]; apply Z.mul_le_mono_nonneg_r; lia. }
  split; [lia|]. intros D1 D2. rewrite (D D1 D2) in Hmin. exact Hmin.
Qed.
Print Assumptions C22_n_m_partial.
(** Two relations with three rows each: every value of [0.0] occurs three times, the values of [1.0] once or twice. *)
Definition exR : rel := [fun _ => Some 7; fun _ => Some 7; fun _ => Some 7]%nat.
Definition exS : rel := [fun _ => Some 7; fun _ => Some 7; fun _ => Some 8]%nat.
Definition ex_st : stats := {| base_est := [(0%nat, CVal 3); (1%nat, CVal 4)]; upper_bounds := []; freqs := [((0, 0)%nat, ONum (NInt 3)); ((1, 0)%nat, ONum (NInt 2))] |}.
Example C22_ex : correct_input ex_st (0, 0)%nat exR 3 3 3 /\ correct_input ex_st (1, 0)%nat exS 4 4 2 /\ (3 | 3) /\ (2 | 4) /\
  length (join 1 [((0, 0), (1, 0))]%nat exR exS) = 6%nat /\ estimate_n_m ex_st (0, 0)%nat (1, 0)%nat = Ok (CVal 6).
Proof.
  repeat split; try reflexivity; try (vm_compute; congruence); try (now right); try (now exists 1); try (now exists 2).
  - eexists. split; reflexivity.
  - intros v. unfold occurrences, exR. cbn [filter]. destruct (deqb (Some 7%nat) (Some v)); cbn [length]; lia.
  - eexists. split; reflexivity.
  - intros v. unfold occurrences, exS. cbn [filter]. destruct (deqb (Some 7%nat) (Some v)) eqn:E1, (deqb (Some 8%nat) (Some v)) eqn:E2; cbn [length]; try lia.
    apply deqb_true in E1. apply deqb_true in E2. congruence.
Qed.

(** C22 for a primary key/foreign key predicate: the bound is never too small (the frequency of the foreign key times the
    rows of the primary key table), whether or not the key is unique. *)
Theorem C22_pk_fk : forall st t1 t2 cond p R S, t1 <> t2 -> connects t1 t2 p -> In p cond ->
  forall base1 b1 f1 base2 b2 f2,
  correct_input st (fst p) (if Nat.eqb (fst (fst p)) t1 then R else S) base1 b1 f1 ->
  correct_input st (snd p) (if Nat.eqb (fst (snd p)) t1 then R else S) base2 b2 f2 ->
  (f1 * base2 < 2 ^ 53 -> exists z, estimate_pk_fk st (fst p) (snd p) = Ok (CVal z) /\ Z.of_nat (length (join t2 cond R S)) <= z) /\
  (f2 * base1 < 2 ^ 53 -> exists z, estimate_pk_fk st (snd p) (fst p) = Ok (CVal z) /\ Z.of_nat (length (join t2 cond R S)) <= z).
Proof.
  intros st t1 t2 cond p R S Hne Hc Hin base1 b1 f1 base2 b2 f2 (K1 & L1 & _ & _ & KF1 & LF1 & F1) (K2 & L2 & _ & _ & KF2 & LF2 & F2).
  destruct (connects_size t1 t2 cond p R S f1 f2 Hne Hc Hin ltac:(lia) ltac:(lia) F1 F2) as [J1 J2].
  set (A := if Nat.eqb (fst (fst p)) t1 then R else S) in *. set (B := if Nat.eqb (fst (snd p)) t1 then R else S) in *.
  split; intros HO; eexists; (split; [apply pk_fk_value; try eassumption; lia|]).
  - etransitivity; [exact J2|]. rewrite (Z.mul_comm f1). apply Z.mul_le_mono_nonneg_r; lia.
  - etransitivity; [exact J1|]. rewrite (Z.mul_comm f2). apply Z.mul_le_mono_nonneg_r; lia.
Qed.
Print Assumptions C22_pk_fk.
Example C22_pk_fk_ex : estimate_pk_fk ex_st (0, 0)%nat (1, 0)%nat = Ok (CVal 12) /\ estimate_pk_fk ex_st (1, 0)%nat (0, 0)%nat = Ok (CVal 6).
Proof. split; reflexivity. Qed.

(** C22 for the estimate of a whole join condition: the smallest of the bounds of its predicates is still a bound for the
    join under all of them. *)
Theorem C22_condition_partial : forall pkfk st t1 t2 R S preds (nbase nbound nfreq : col -> Z), t1 <> t2 ->
  (forall p, In p preds -> connects t1 t2 p /\
     correct_input st (fst p) (if Nat.eqb (fst (fst p)) t1 then R else S) (nbase (fst p)) (nbound (fst p)) (nfreq (fst p)) /\
     correct_input st (snd p) (if Nat.eqb (fst (snd p)) t1 then R else S) (nbase (snd p)) (nbound (snd p)) (nfreq (snd p)) /\
     (nbound (fst p) + nfreq (fst p)) * nfreq (snd p) < 2 ^ 53 /\ (nbound (snd p) + nfreq (snd p)) * nfreq (fst p) < 2 ^ 53 /\
     nfreq (fst p) * nbase (snd p) < 2 ^ 53 /\ nfreq (snd p) * nbase (fst p) < 2 ^ 53 /\
     (pkfk (fst (fst p)) (fst (snd p)) = true \/ pkfk (fst (snd p)) (fst (fst p)) = true \/
      ((nfreq (fst p) | nbound (fst p)) /\ (nfreq (snd p) | nbound (snd p))))) ->
  exists c, estimate_for pkfk st preds = Ok c /\
    ((preds = [] /\ c = CInf) \/ exists z, c = CVal z /\ Z.of_nat (length (join t2 preds R S)) <= z).
Proof.
  intros pkfk st t1 t2 R S preds nbase nbound nfreq Hne H. unfold estimate_for.
  assert (G : forall l cur, (forall p, In p l -> In p preds) -> (cur = CInf \/ exists z, cur = CVal z /\ Z.of_nat (length (join t2 preds R S)) <= z) ->
    exists c, estimate_loop pkfk st l cur = Ok c /\ ((l = [] /\ c = cur) \/ exists z, c = CVal z /\ Z.of_nat (length (join t2 preds R S)) <= z)).
  { induction l as [|[a b] l IH]; intros cur Hsub Hcur; [exists cur; split; [easy|now left]|].
    cbn [estimate_loop]. destruct (H (a, b) (Hsub (a, b) (or_introl eq_refl))) as (Hc & C1 & C2 & O1 & O2 & O3 & O4 & Hd). cbn [fst snd] in *.
    assert (E : exists z, (if pkfk (fst a) (fst b) then estimate_pk_fk st a b else if pkfk (fst b) (fst a) then estimate_pk_fk st b a else estimate_n_m st a b) = Ok (CVal z)
      /\ Z.of_nat (length (join t2 preds R S)) <= z).
    { assert (Hin : In (a, b) preds) by (apply Hsub; now left).
      destruct (C22_pk_fk st t1 t2 preds (a, b) R S Hne Hc Hin _ _ _ _ _ _ C1 C2) as [P1 P2]. cbn [fst snd] in *.
      destruct (pkfk (fst a) (fst b)) eqn:Epk; [now apply P1|]. destruct (pkfk (fst b) (fst a)) eqn:Epk2; [now apply P2|].
      destruct Hd as [Hd|[Hd|[D1 D2]]]; try discriminate.
      destruct (C22_n_m_partial st t1 t2 preds (a, b) R S Hne Hc Hin _ _ _ _ _ _ C1 C2 O1 O2) as [z (Ez & _ & Lz)]. exists z. split; [exact Ez|]. now apply Lz. }
    destruct E as [z [Ez Lz]]. rewrite Ez. cbn [rbind].
    destruct (IH (if clt (CVal z) (OCard cur) then CVal z else cur)) as [c [Ec Hcc]].
    - intros p Hp. apply Hsub. now right.
    - destruct (clt (CVal z) (OCard cur)); [right; eauto|exact Hcur].
    - exists c. split; [exact Ec|]. right. destruct Hcc as [[-> ->]|Hcc]; [|exact Hcc].
      destruct (clt (CVal z) (OCard cur)) eqn:El; [eauto|]. destruct Hcur as [->|Hcur]; [discriminate El|exact Hcur]. }
  destruct (G preds CInf (fun p Hp => Hp) (or_introl eq_refl)) as [c [Ec [[H1 H2]|H1]]]; exists c; split; auto.
Qed.
Print Assumptions C22_condition_partial.
Example C22_condition_ex : estimate_for (fun _ _ => false) ex_st [((0, 0), (1, 0))]%nat = Ok (CVal 6) /\ estimate_for (fun a b => Nat.eqb a 0) ex_st [((0, 0), (1, 0))]%nat = Ok (CVal 12).
Proof. split; reflexivity. Qed.

(** C22 fails in general: dividing two cardinalities rounds.  A table with 14 rows, in which one value occurs 10 times and
    another one 4 times, joined with 14 distinct values: the bound is 10, the join has 14 rows. *)
Definition badR : rel := (repeat (fun _ => Some 1) 10 ++ repeat (fun _ => Some 2) 4)%nat.
Definition badS : rel := map (fun n => fun _ => Some n) (seq 0 14).
Definition bad_st : stats := {| base_est := [(0%nat, CVal 14); (1%nat, CVal 14)]; upper_bounds := []; freqs := [((0, 0)%nat, ONum (NInt 10)); ((1, 0)%nat, ONum (NInt 1))] |}.
Lemma occ_cons c v r (R : rel) : occurrences c v (r :: R) = ((if deqb (r c) (Some v) then 1 else 0) + occurrences c v R)%nat.
Proof. unfold occurrences. cbn [filter]. now destruct (deqb (r c) (Some v)). Qed.
Lemma occ_seq c v n : forall a, (occurrences c v (map (fun n => fun _ => Some n) (seq a n)) <= if (a <=? v)%nat then 1 else 0)%nat.
Proof.
  induction n as [|n IH]; intros a; [cbn; lia|]. cbn [seq map]. rewrite occ_cons. specialize (IH (S a)).
  destruct (deqb (Some a) (Some v)) eqn:E.
  - apply deqb_true in E. injection E as ->. destruct (Nat.leb_spec (S v) v); [lia|]. rewrite Nat.leb_refl. lia.
  - destruct (Nat.leb_spec (S a) v); destruct (Nat.leb_spec a v); lia.
Qed.
Theorem C22_refuted : correct_input bad_st (0, 0)%nat badR 14 14 10 /\ correct_input bad_st (1, 0)%nat badS 14 14 1 /\
  estimate_for (fun _ _ => false) bad_st [((0, 0), (1, 0))]%nat = Ok (CVal 10) /\ length (join 1 [((0, 0), (1, 0))]%nat badR badS) = 14%nat.
Proof.
  assert (L : 14 < 2 ^ 53) by reflexivity.
  split; [|split; [|split; reflexivity]].
  - repeat split; try reflexivity; try (vm_compute; congruence); try (now right); [eexists; split; reflexivity|].
    intros v. unfold badR. cbn [repeat app]. rewrite !occ_cons. unfold occurrences. cbn [filter length].
    destruct (deqb (Some 1%nat) (Some v)) eqn:E1, (deqb (Some 2%nat) (Some v)) eqn:E2; try lia.
    apply deqb_true in E1. apply deqb_true in E2. congruence.
  - repeat split; try reflexivity; try (vm_compute; congruence); try (now right); [eexists; split; reflexivity|].
    intros v. assert (H := occ_seq (1, 0)%nat v 14 0). unfold badS. destruct (0 <=? v)%nat; lia.
Qed.
Print Assumptions C22_refuted.
