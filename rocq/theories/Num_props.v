(** Property theorems for C39 (BoundedInt), C41 (Version). *)
From Coq Require Import List Bool Arith ZArith Lia.
From Verif Require Import PyBase Num_model Num_spec Num_proofs.
Import ListNotations.
Local Open Scope Z_scope.

(** C39: no sequence of assignments and arithmetic operations leaves the range, and none raises. *)
Theorem C39_bounded_int_stays_in_range : forall ops v mn mx b, bi_init v mn mx = Ok b ->
  exists b', bi_run b ops = Ok b' /\ in_range (b_value b') mn mx.
Proof. exact bi_run_range. Qed.
Print Assumptions C39_bounded_int_stays_in_range.
Example C39_ex : exists b, bi_init 5 (Some 0) (Some 10) = Ok b /\
  bi_run b [BAdd 20; BNeg; BSet 7; BPow 2; BMul (-3)] = Ok (BI 0 (Some 0) (Some 10)).
Proof. eexists. split; reflexivity. Qed.

(** C39: the constructor clamps to the nearest allowed value and rejects exactly the empty ranges. *)
Theorem C39_bounded_int_constructor : forall v mn mx,
  (exists b, bi_init v mn mx = Ok b /\ clamped v (b_value b) mn mx /\ b_min b = mn /\ b_max b = mx /\ bi_valid b) \/
  (bi_init v mn mx = Raise ValueError /\ exists a b, mn = Some a /\ mx = Some b /\ b < a).
Proof. exact bi_init_spec. Qed.
Print Assumptions C39_bounded_int_constructor.

(** C39: every operation yields the exact result, clamped to the nearest allowed value. *)
Theorem C39_bounded_int_clamps_exact_result : forall b o, bi_valid b ->
  exists b', bi_step b o = Ok b' /\ clamped (exact_result (b_value b) o) (b_value b') (b_min b) (b_max b) /\
             b_min b' = b_min b /\ b_max b' = b_max b /\ bi_valid b'.
Proof. exact bi_step_spec. Qed.
Print Assumptions C39_bounded_int_clamps_exact_result.
Example C39_ex2 : bi_valid (BI 3 (Some 1) None) /\ bi_step (BI 3 (Some 1) None) BNeg = Ok (BI 1 (Some 1) None).
Proof. repeat split; simpl; intros; try discriminate. injection H as <-. lia. Qed.

(** C41: the comparison operators decide the lexicographic order. *)
Theorem C41_version_lt : forall a b, ver_lt a b = true <-> older a b.
Proof. exact ver_lt_older. Qed.
Print Assumptions C41_version_lt.
Theorem C41_version_le : forall a b, ver_le a b = true <-> (older a b \/ a = b).
Proof. exact ver_le_older. Qed.
Print Assumptions C41_version_le.
Theorem C41_version_eq : forall a b, ver_eq a b = true <-> a = b.
Proof. exact ver_eq_eq. Qed.
Print Assumptions C41_version_eq.
(** C41: it is a strict total order, and the four operators are consistent with each other. *)
Theorem C41_version_total_order :
  (forall a, ver_lt a a = false) /\
  (forall a b c, ver_lt a b = true -> ver_lt b c = true -> ver_lt a c = true) /\
  (forall a b, ver_lt a b = true \/ a = b \/ ver_lt b a = true) /\
  (forall a b, ver_lt a b = true -> ver_lt b a = false) /\
  (forall a b, ver_le a b = negb (ver_lt b a)) /\
  (forall a b, ver_gt a b = ver_lt b a) /\ (forall a b, ver_ge a b = ver_le b a).
Proof.
  exact (conj ver_lt_irrefl (conj ver_lt_trans (conj ver_total (conj ver_asym (conj ver_le_not_lt
    (conj (fun a b => eq_trans (f_equal negb (ver_le_not_lt a b)) (negb_involutive _)) (fun a b => eq_sym (ver_le_not_lt b a)))))))).
Qed.
Print Assumptions C41_version_total_order.
Example C41_ex : ver_lt [15; 2] [15; 10] = true /\ ver_lt [15] [15; 0] = true /\ ver_gt [16] [15; 9] = true.
Proof. repeat split. Qed.
