(** Frozensets of numbers as canonical lists: sorted, without repetition. *)
From Coq Require Import List Bool Arith Lia Sorting.Sorted.
From Verif Require Import PyBase.
Import ListNotations.

Notation fs := (list nat) (only parsing).
Fixpoint fs_add (x : nat) (l : fs) : fs :=
  match l with [] => [x] | y :: r => if x <? y then x :: l else if x =? y then l else y :: fs_add x r end.
Definition mkfs (l : list nat) : fs := fold_right fs_add [] l.

Lemma fs_add_In x l y : In y (fs_add x l) <-> y = x \/ In y l.
Proof.
  induction l as [|z l IH]; cbn [fs_add].
  - cbn. intuition congruence.
  - destruct (Nat.ltb_spec x z).
    + cbn. intuition congruence.
    + destruct (Nat.eqb_spec x z) as [E|E]; [subst; cbn; intuition congruence|]. cbn [In]. rewrite IH. tauto.
Qed.
Lemma mkfs_In l x : In x (mkfs l) <-> In x l.
Proof. induction l as [|y l IH]; cbn; [tauto|]. rewrite fs_add_In, IH. intuition congruence. Qed.
Lemma fs_add_sorted x l : StronglySorted lt l -> StronglySorted lt (fs_add x l).
Proof.
  induction l as [|z l IH]; cbn [fs_add]; intros H; [repeat constructor|]. inversion H as [|? ? Hs Hf]; subst.
  destruct (Nat.ltb_spec x z) as [Hlt|Hge].
  - constructor; [assumption|]. constructor; [assumption|]. eapply Forall_impl; [|eassumption]. intros; lia.
  - destruct (Nat.eqb_spec x z) as [->|Hne]; [assumption|]. constructor; [auto|]. apply Forall_forall. intros y Hy. apply fs_add_In in Hy as [->|Hy]; [lia|].
    rewrite Forall_forall in Hf. auto.
Qed.
Lemma mkfs_sorted l : StronglySorted lt (mkfs l).
Proof. induction l; cbn; [constructor|now apply fs_add_sorted]. Qed.
Lemma sorted_ext l : StronglySorted lt l -> forall m, StronglySorted lt m -> seteq l m -> l = m.
Proof.
  induction 1 as [|x l Hl IH Hx]; intros m Hm Heq.
  - destruct m as [|y m]; [reflexivity|]. destruct (proj2 (Heq y) (or_introl eq_refl)).
  - destruct Hm as [|y m Hm Hy]; [destruct (proj1 (Heq x) (or_introl eq_refl))|]. rewrite Forall_forall in Hx, Hy.
    assert (x = y).
    { destruct (proj1 (Heq x) (or_introl eq_refl)) as [->|H1]; [reflexivity|]. destruct (proj2 (Heq y) (or_introl eq_refl)) as [->|H2]; [reflexivity|].
      specialize (Hx y H2). specialize (Hy x H1). lia. }
    subst y. f_equal. apply IH; [assumption|]. intros z. specialize (Heq z). cbn in Heq. split; intros Hz.
    + destruct (proj1 Heq (or_intror Hz)) as [->|]; [|assumption]. specialize (Hx z Hz). lia.
    + destruct (proj2 Heq (or_intror Hz)) as [->|]; [|assumption]. specialize (Hy z Hz). lia.
Qed.
(** Two frozensets are equal iff they have the same members. *)
Lemma mkfs_eq l m : mkfs l = mkfs m <-> seteq l m.
Proof.
  split.
  - intros H x. rewrite <- (mkfs_In l), <- (mkfs_In m), H. reflexivity.
  - intros H. apply sorted_ext; try apply mkfs_sorted. intros x. rewrite !mkfs_In. apply H.
Qed.
Lemma mkfs_NoDup l : NoDup (mkfs l).
Proof.
  assert (H := mkfs_sorted l). induction H as [|x m Hm IH Hx]; constructor; [|assumption]. intros Hin. rewrite Forall_forall in Hx. specialize (Hx x Hin). lia.
Qed.
Lemma mkfs_id l : StronglySorted lt l -> mkfs l = l.
Proof. intros H. apply sorted_ext; [apply mkfs_sorted|assumption|]. intros x. apply mkfs_In. Qed.
Lemma mkfs_mkfs l : mkfs (mkfs l) = mkfs l.
Proof. apply mkfs_id, mkfs_sorted. Qed.
Lemma mkfs_nil l : mkfs l = [] <-> l = [].
Proof.
  split; [|intros ->; reflexivity]. destruct l as [|x l]; [reflexivity|]. intros H. exfalso.
  assert (Hx : In x (mkfs (x :: l))) by (apply mkfs_In; now left). rewrite H in Hx. destruct Hx.
Qed.
