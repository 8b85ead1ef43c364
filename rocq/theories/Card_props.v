(** Property theorems for C36 (order of cardinalities) and C37 (arithmetic on cardinalities). *)
From Coq Require Import List Bool Arith ZArith QArith Lia.
From Verif Require Import PyBase Card_model Card_spec Card_proofs.
Import ListNotations.
Local Open Scope Z_scope.

(** C36, what holds: [<] decides the order of the extended numbers for all cardinalities and numbers but NaN. *)
Theorem C36_lt_partial : forall a b x y, cmeans a x -> omeans b y -> (clt a b = true <-> below x y).
Proof. exact clt_spec. Qed.
Print Assumptions C36_lt_partial.
Example C36_ex : cmeans (CVal 5) (Fin 5) /\ omeans (OCard CInf) PosInf /\ clt (CVal 5) (OCard CInf) = true /\ clt CInf (OCard (CVal 5)) = false.
Proof. repeat split. Qed.
(** C36, what holds for [>]: right on finite cardinalities against anything that is not an infinite cardinality. *)
Theorem C36_gt_partial : forall z b y, omeans b y -> b <> OCard CInf -> (cgt (CVal z) b = true <-> below y (Fin (inject_Z z))).
Proof. exact cgt_spec. Qed.
Print Assumptions C36_gt_partial.
(** C36: exactly one of [<], [==], [>] holds between finite cardinalities, [<=] and [>=] are their unions, nothing raises. *)
Theorem C36_total_order_partial : forall x y,
  ceq (CVal x) (OCard (CVal y)) = Ok (x =? y) /\
  clt (CVal x) (OCard (CVal y)) = (x <? y) /\ cgt (CVal x) (OCard (CVal y)) = (y <? x) /\
  cle (CVal x) (OCard (CVal y)) = (x <? y) || (x =? y) /\ cge (CVal x) (OCard (CVal y)) = (y <? x) || (x =? y).
Proof.
  intros x y. unfold ceq, clt, cgt, cle, cge, ccmp. cbn. rewrite Z.gtb_ltb, Z.geb_leb. repeat split.
  - destruct (Z.leb_spec x y), (Z.ltb_spec x y), (Z.eqb_spec x y); cbn; lia.
  - destruct (Z.leb_spec y x), (Z.ltb_spec y x), (Z.eqb_spec x y); cbn; lia.
Qed.
Print Assumptions C36_total_order_partial.
Example C36_total_ex : clt (CVal 3) (OCard (CVal 7)) = true /\ cge (CVal 7) (OCard (CVal 7)) = true.
Proof. split; reflexivity. Qed.
(** C36: against plain numbers every operator of a finite cardinality is right and [==] does not raise. *)
Theorem C36_plain_numbers_partial : forall z n y, omeans (ONum n) y ->
  (clt (CVal z) (ONum n) = true <-> below (Fin (inject_Z z)) y) /\ (cgt (CVal z) (ONum n) = true <-> below y (Fin (inject_Z z))) /\
  exists e, ceq (CVal z) (ONum n) = Ok e /\ (e = true <-> same (Fin (inject_Z z)) y).
Proof.
  intros z n y Hn. split; [|split].
  - now apply clt_spec.
  - apply cgt_spec; [assumption|discriminate].
  - assert (Hz : cmeans (CVal z) (Fin (inject_Z z))) by reflexivity.
    destruct (ceq (CVal z) (ONum n)) as [e|x] eqn:E; [|destruct n as [w|[| |]]; discriminate]. exists e. split; [reflexivity|]. split.
    + intros ->. destruct (ceq_spec _ _ _ _ Hz Hn E) as [H|[H _]]; [exact H|discriminate].
    + intros H. rewrite (ceq_spec_conv _ _ _ _ Hz Hn H) in E. congruence.
Qed.
Print Assumptions C36_plain_numbers_partial.
Example C36_plain_ex : omeans (ONum (NFlt (FFin 5 (-1)))) (Fin (5 # 2)) /\ clt (CVal 2) (ONum (NFlt (FFin 5 (-1)))) = true.
Proof. split; reflexivity. Qed.
(** C36: [==] raises exactly when one of two different cardinalities is not valid. *)
Theorem C36_eq_raises : forall a b, ceq a b = Raise StateError <-> exists c, b = OCard c /\ a <> c /\ (is_valid a = false \/ is_valid c = false).
Proof. exact ceq_raises. Qed.
Print Assumptions C36_eq_raises.
(** C36: [min] and, more generally, everything built on [<] works with infinity. *)
Theorem C36_min : forall a b x y, cmeans a x -> cmeans b y ->
  (cmin a b = a \/ cmin a b = b) /\ (forall m, cmeans (cmin a b) m -> ~ below x m /\ ~ below y m).
Proof. exact cmin_spec. Qed.
Print Assumptions C36_min.

(** C36 is refuted: every finite cardinality is both smaller and greater than infinity, and infinity is not greater. *)
Theorem C36_gt_infinity_refuted : forall z, clt (CVal z) (OCard CInf) = true /\ cgt (CVal z) (OCard CInf) = true /\ cgt CInf (OCard (CVal z)) = false.
Proof. intros z. repeat split. Qed.
Print Assumptions C36_gt_infinity_refuted.
Theorem C36_ge_infinity_refuted : (forall z, cge (CVal z) (OCard CInf) = true) /\ cle CInf (OCard CInf) = false /\ cge CInf (OCard CInf) = false /\ ceq CInf (OCard CInf) = Ok true.
Proof. repeat split. Qed.
Print Assumptions C36_ge_infinity_refuted.
Theorem C36_eq_infinity_refuted : forall z, ceq (CVal z) (OCard CInf) = Raise StateError /\ ceq CInf (OCard (CVal z)) = Raise StateError.
Proof. intros z. split; reflexivity. Qed.
Print Assumptions C36_eq_infinity_refuted.
(** [max] therefore never returns infinity. *)
Theorem C36_max_infinity_refuted : forall z, cmax (CVal z) CInf = CVal z /\ cmax CInf (CVal z) = CVal z.
Proof. intros z. split; reflexivity. Qed.
Print Assumptions C36_max_infinity_refuted.

(** C37, what holds: on cardinalities below 2^53 with a result below 2^53, [+], [-] and [*] are the integer operations. *)
Theorem C37_exact_partial : forall o a b c, exact_op o a b = Some c -> Z.abs a < 2 ^ 53 -> Z.abs b < 2 ^ 53 -> Z.abs c < 2 ^ 53 ->
  cop o (CVal a) (OCard (CVal b)) = Ok (CVal c).
Proof. exact cop_exact. Qed.
Print Assumptions C37_exact_partial.
Example C37_ex : exact_op Mul 94906265 94906265 = Some 9007199136250225 /\ cop Mul (CVal 94906265) (OCard (CVal 94906265)) = Ok (CVal 9007199136250225).
Proof. split; reflexivity. Qed.
(** C37: division of such cardinalities yields one of the two integers next to the exact quotient, hence the exact quotient
    if it is an integer. *)
Theorem C37_division : forall a b lo hi, Z.abs a < 2 ^ 53 -> 0 < b < 2 ^ 53 -> lo * b <= a <= hi * b ->
  exists c, cop Div (CVal a) (OCard (CVal b)) = Ok (CVal c) /\ lo <= c <= hi.
Proof. exact cop_div. Qed.
Print Assumptions C37_division.
Example C37_division_ex : 1 * 10 <= 14 <= 2 * 10 /\ cop Div (CVal 14) (OCard (CVal 10)) = Ok (CVal 1).
Proof. split; [lia|reflexivity]. Qed.
(** C37: an unknown operand makes the result unknown (unless the other one cannot be converted, or is a zero divisor). *)
Theorem C37_nan_left_partial : forall o x f, oget x = Ok f -> (o = Div -> fzero f = false) -> cop o CNan x = Ok CNan.
Proof. exact nan_left. Qed.
Print Assumptions C37_nan_left_partial.
Theorem C37_nan_right_partial : forall o c f, cget c = Ok f -> cop o c (OCard CNan) = Ok CNan.
Proof. exact nan_right. Qed.
Print Assumptions C37_nan_right_partial.
Example C37_nan_ex : oget (OCard CInf) = Ok (FInf false) /\ cop Mul CNan (OCard CInf) = Ok CNan /\ cop Div (CVal 7) (OCard CNan) = Ok CNan.
Proof. repeat split. Qed.
(** C37: infinity absorbs addition of non-NaN values, subtraction of and multiplication and division by finite non-zero values. *)
Theorem C37_inf_add_partial : forall c f, cget c = Ok f -> c <> CNan -> cop Add CInf (OCard c) = Ok CInf /\ cop Add c (OCard CInf) = Ok CInf.
Proof. exact inf_add. Qed.
Print Assumptions C37_inf_add_partial.
Theorem C37_inf_sub_partial : forall z f, cget (CVal z) = Ok f -> cop Sub CInf (OCard (CVal z)) = Ok CInf.
Proof. exact inf_sub. Qed.
Print Assumptions C37_inf_sub_partial.
Theorem C37_inf_mul_partial : forall z f, z <> 0 -> cget (CVal z) = Ok f -> cop Mul CInf (OCard (CVal z)) = Ok CInf /\ cop Mul (CVal z) (OCard CInf) = Ok CInf.
Proof. exact inf_mul. Qed.
Print Assumptions C37_inf_mul_partial.
Theorem C37_inf_div_partial : forall z f, z <> 0 -> cget (CVal z) = Ok f -> cop Div CInf (OCard (CVal z)) = Ok CInf.
Proof. exact inf_div. Qed.
Print Assumptions C37_inf_div_partial.
Example C37_inf_ex : cget (CVal 12) = Ok (FFin 6755399441055744 (-49)) /\ cop Add (CVal 12) (OCard CInf) = Ok CInf.
Proof. split; reflexivity. Qed.
(** C37: equal cardinalities have equal hashes. *)
Theorem C37_hash : forall a b, ceq a (OCard b) = Ok true -> chashkey a = chashkey b.
Proof. intros [| |z] [| |w]; cbn; try discriminate; auto. intros [= H]. apply Z.eqb_eq in H. now subst. Qed.
Print Assumptions C37_hash.
Theorem C37_hash_distinct : forall a b, chashkey a = chashkey b -> a = b.
Proof. intros [| |z] [| |w]; cbn; congruence. Qed.
Print Assumptions C37_hash_distinct.
(** ... but a plain number that is equal to a cardinality is not covered: 5 == Cardinality(5), with hash tuples that differ
    from the number itself.  (The hash of the integer is the integer, the key here is a triple.) *)

(** C37 is refuted: sums above 2^53 are rounded, differences may be negative, [0 * inf], [inf - inf] and [inf / inf] are
    unknown, a finite value divided by infinity is zero, and dividing NaN by zero raises. *)
Theorem C37_sum_refuted : cop Add (CVal (2 ^ 53)) (OCard (CVal 1)) = Ok (CVal (2 ^ 53)).
Proof. vm_compute. reflexivity. Qed.
Print Assumptions C37_sum_refuted.
Theorem C37_product_refuted : exists c, cop Mul (CVal (2 ^ 27 + 1)) (OCard (CVal (2 ^ 27 + 1))) = Ok (CVal c) /\ c <> (2 ^ 27 + 1) * (2 ^ 27 + 1).
Proof. eexists. split; [vm_compute; reflexivity|discriminate]. Qed.
Print Assumptions C37_product_refuted.
Theorem C37_infinity_refuted : cop Sub CInf (OCard CInf) = Ok CNan /\ cop Mul (CVal 0) (OCard CInf) = Ok CNan /\
  cop Div (CVal 5) (OCard CInf) = Ok (CVal 0) /\ cop Sub (CVal 5) (OCard CInf) = Ok CInf.
Proof. repeat split. Qed.
Print Assumptions C37_infinity_refuted.
Theorem C37_raises_refuted : cop Div CNan (OCard (CVal 0)) = Raise ZeroDivisionError /\ cop Add CNan (OCard (CVal (2 ^ 1024))) = Raise OtherError.
Proof. split; vm_compute; reflexivity. Qed.
Print Assumptions C37_raises_refuted.

(** C36: two cardinalities compare equal exactly if they are the same, including the unknown and the infinite one. *)
Theorem C36_eq_same : forall a b, ceq a (OCard b) = Ok true <-> a = b.
Proof.
  intros [| |x] [| |y]; cbn; try (split; [reflexivity|congruence]); try (split; congruence).
  split; [intros [= H]; apply Z.eqb_eq in H; now subst|intros [= ->]; now rewrite Z.eqb_refl].
Qed.
Print Assumptions C36_eq_same.
(** C37: the remainder.  For a divisor [d] it is the number [r] between 0 and [d] with [a = q*d + r]; divmod returns that [q]
    and [r]; an infinite divisor leaves the value unchanged; unknown operands give an unknown result. *)
Theorem C37_remainder : forall a d, 0 < d -> exists q r, cmod (CVal a) (CVal d) = Ok (CVal r) /\ cdivmod (CVal a) (CVal d) = Ok (Some q, Some r) /\
  a = q * d + r /\ 0 <= r < d.
Proof.
  intros a d Hd. exists (a / d), (a mod d). cbn. destruct (Z.eqb_spec d 0); [lia|]. repeat split.
  - rewrite Z.mul_comm. apply Z.div_mod. lia.
  - apply Z.mod_pos_bound. lia.
  - apply Z.mod_pos_bound. lia.
Qed.
Print Assumptions C37_remainder.
Theorem C37_remainder_special : forall a c, cmod (CVal a) CInf = Ok (CVal a) /\ cdivmod (CVal a) CInf = Ok (Some 0, Some a) /\
  cmod (CVal a) CNan = Ok CNan /\ cmod CNan c = Ok CNan /\ cmod CInf c = Ok CNan /\
  cmod (CVal a) (CVal 0) = Raise ZeroDivisionError /\ cdivmod (CVal a) (CVal 0) = Raise ZeroDivisionError.
Proof. intros a c. repeat split. Qed.
Print Assumptions C37_remainder_special.
Example C37_remainder_ex : cmod (CVal 19) (CVal 10) = Ok (CVal 9) /\ cdivmod (CVal 19) (CVal 10) = Ok (Some 1, Some 9).
Proof. split; reflexivity. Qed.
(** C37 is refuted for floor division: the quotient is rounded before it is floored, so [a // b] differs from [divmod(a, b)]. *)
Theorem C37_floordiv_refuted : cfloordiv (CVal 19) (OCard (CVal 10)) = Ok (CVal 2) /\ cdivmod (CVal 19) (CVal 10) = Ok (Some 1, Some 9).
Proof. split; vm_compute; reflexivity. Qed.
Print Assumptions C37_floordiv_refuted.
(** What holds: [a // b] is at most one too large. *)
Theorem C37_floordiv_partial : forall a b, Z.abs a < 2 ^ 53 -> 0 < b < 2 ^ 53 ->
  exists c, cfloordiv (CVal a) (OCard (CVal b)) = Ok (CVal c) /\ a / b <= c <= a / b + 1.
Proof.
  intros a b Ha Hb. apply cop_div; [assumption|assumption|].
  pose proof (Z.div_mod a b ltac:(lia)). pose proof (Z.mod_pos_bound a b ltac:(lia)). split; nia.
Qed.
Print Assumptions C37_floordiv_partial.
