(** C276: dates and timestamps between Python and Postgres. *)
From Coq Require Import ZArith Bool Lia.
From Verif Require Import PyBase DT_model.
Local Open Scope Z_scope.

(** The order of the server. *)
Definition before (a b : server_value) : Prop :=
  match a, b with NegInf, _ => True | _, PosInf => True | Fin x, Fin y => x <= y | _, _ => False end.
Ltac dt := repeat match goal with
  | |- context [?a <? ?b] => destruct (Z.ltb_spec a b)
  | |- context [?a =? ?b] => destruct (Z.eqb_spec a b)
  | H : context [?a <? ?b] |- _ => destruct (Z.ltb_spec a b)
  | H : context [?a =? ?b] |- _ => destruct (Z.eqb_spec a b)
  end.
(* What is loaded keeps the order of the server; values within the range are exact, larger ones and infinity become the maximum. *)
Theorem C276_load_partial : forall lo hi, lo < hi -> forall v w x y, load lo hi v = Ok x -> load lo hi w = Ok y ->
  lo <= x <= hi /\ (before v w -> x <= y) /\ (forall z, v = Fin z -> lo <= z <= hi -> x = z) /\ (forall z, v = Fin z -> hi < z -> x = hi).
Proof.
  intros lo hi R v w x y V W. destruct v, w; cbn in *; unfold plain_load in *; dt; try discriminate; repeat match goal with H : Ok _ = Ok _ |- _ => injection H as ? end; subst;
    repeat split; intros; try contradiction; try lia; try (match goal with H : Fin _ = Fin _ |- _ => injection H as ? end; lia); try discriminate.
Qed.
Print Assumptions C276_load_partial.
(* Values of the server that are too small cannot be read. *)
Theorem C276_small_refuted : forall lo hi z, lo < hi -> z < lo -> load lo hi (Fin z) = Raise OtherError.
Proof. intros lo hi z R L. cbn. unfold plain_load. dt; try lia. reflexivity. Qed.
Print Assumptions C276_small_refuted.
(* Python dates survive being sent and read back; dates of the server survive being read and sent back, except for the largest ones. *)
Theorem C276_dates_partial : forall lo hi, lo < hi ->
  (forall z, lo <= z <= hi -> load lo hi (dump_date lo hi z) = Ok z)
  /\ (forall v x, load lo hi v = Ok x -> (forall z, v = Fin z -> lo < z < hi) -> dump_date lo hi x = v).
Proof.
  intros lo hi R. split.
  - intros z Z0. unfold dump_date. dt; subst; cbn; try reflexivity. unfold plain_load. dt; try lia. reflexivity.
  - intros v x V F. destruct v as [| |z]; cbn in V; [injection V as <-; unfold dump_date; dt; try lia; reflexivity ..|].
    specialize (F z eq_refl). unfold plain_load in V. unfold dump_date. dt; try discriminate; try lia; injection V as <-; dt; try lia; reflexivity.
Qed.
Print Assumptions C276_dates_partial.
Theorem C276_dates_refuted : forall lo hi, lo < hi -> rmap (dump_date lo hi) (load lo hi (Fin hi)) = Ok PosInf.
Proof. intros lo hi R. cbn. unfold plain_load. dt; try lia. cbn. unfold dump_date. dt; try lia; reflexivity. Qed.
Print Assumptions C276_dates_refuted.
(* Timestamps survive being sent and read back ... *)
Theorem C276_stamps_partial : forall lo hi s, lo <= at_ s <= hi -> load_stamp lo hi (aware s) (dump_stamp lo hi s) = Ok s
  /\ forall z tz, lo <= z <= hi -> rmap (dump_stamp lo hi) (load_stamp lo hi tz (Fin z)) = Ok (Fin z).
Proof.
  intros lo hi [a z] R. cbn in R. split.
  - unfold dump_stamp, load_stamp, dump_custom, stamp_eq. cbn. destruct a; cbn; unfold plain_load; dt; try lia; reflexivity.
  - intros x tz X. unfold load_stamp. cbn. unfold plain_load. dt; try lia. cbn. unfold dump_stamp, dump_custom, stamp_eq. destruct tz; reflexivity.
Qed.
Print Assumptions C276_stamps_partial.
(* ... but an infinite timestamp that is read and sent back has become finite, with and without time zone. *)
Theorem C276_stamps_refuted : forall lo hi tz, rmap (dump_stamp lo hi) (load_stamp lo hi tz PosInf) = Ok (Fin hi) /\ rmap (dump_stamp lo hi) (load_stamp lo hi tz NegInf) = Ok (Fin lo).
Proof. intros lo hi []; split; reflexivity. Qed.
Print Assumptions C276_stamps_refuted.
Example C276_ex : load 0 100 PosInf = Ok 100 /\ load 0 100 (Fin 7) = Ok 7 /\ load 0 100 (Fin 200) = Ok 100 /\ dump_date 0 100 7 = Fin 7 /\ dump_date 0 100 100 = PosInf /\ dump_stamp 0 100 (mkStamp true 100) = Fin 100.
Proof. repeat split. Qed.
