(** Property theorems for C04 (text of arithmetic expressions). *)
From Coq Require Import List Bool Arith ZArith Lia.
From Verif Require Import PyBase Prec MPrint_model MPrint_spec MPrint_proofs.
Import ListNotations.

(** The reading of an arithmetic text is unique. *)
Theorem C04_reading_unique : forall ts t t', mreads ts t -> mreads ts t' -> t = t'.
Proof. intros ts t t'. apply reads_unique. intros s s' k. apply mdisjoint. Qed.
Print Assumptions C04_reading_unique.

(** C04, what holds: the text of a [faithful] expression contains no comment, can be read, and what is read has the value
    of the expression, for every arithmetic in which [+], [*] and [||] are associative.  Missing: the expressions that are
    not [faithful], for which the claim is refuted below. *)
Theorem C04_value_partial : forall e, faithful e = true ->
  no_comment (mprint e) = true /\
  (exists t, mreads (tokens (mprint e)) t) /\
  forall t, mreads (tokens (mprint e)) t -> forall (A : arith) (r : nat -> AV A), tval A r t = mval A r e.
Proof.
  intros e Hf. split; [now apply faithful_no_comment|].
  destruct (proj1 (okA_okB e) Hf 0) as [t [H1 H2]]; [lia|intros; lia|].
  split; [exists t; exact H1|]. intros t' Ht A r. rewrite (C04_reading_unique _ _ _ Ht H1). apply H2.
Qed.
Print Assumptions C04_value_partial.
(** [((a * (b - -3)) - c / 4) + (a + b)*(-c)*(b % 7)]: a tree with eight operators, brackets and negative numbers. *)
Definition m4 : mexpr :=
  MBin MAdd (MBin MSub (MBin MMul (MAtom 0) (MBin MSub (MAtom 1) (MNum (-3)))) (MBin MDiv (MAtom 2) (MNum 4)))
            (MMany MMul (MBin MAdd (MAtom 0) (MAtom 1)) [MUn MSub (MAtom 2); MBin MMod (MAtom 1) (MNum 7)]).
Example C04_ex : faithful m4 = true /\ no_comment (mprint m4) = true /\
  tokens (mprint m4) = [TL; TL; TAtom (AAtom 0); TSym MMul; TL; TAtom (AAtom 1); TSym MSub; TSym MSub; TAtom (ANum 3); TR; TR; TSym MSub; TAtom (AAtom 2); TSym MDiv;
    TAtom (ANum 4); TR; TSym MAdd; TL; TAtom (AAtom 0); TSym MAdd; TAtom (AAtom 1); TR; TSym MMul; TL; TSym MSub; TAtom (AAtom 2); TR; TSym MMul; TL;
    TAtom (AAtom 1); TSym MMod; TAtom (ANum 7); TR].
Proof. repeat split. Qed.


Definition v3 (x : nat) : Z := match x with 0 => 17%Z | 1 => 5%Z | _ => 3%Z end.
Lemma atom_g k x : k <= 4 -> g 4 mblvl mulvl k [TAtom (AAtom x)] (EAtom (AAtom x)).
Proof. intros Hk. apply (g_down 4 mblvl mulvl k 4); [assumption|lia|]. apply g_atom. Qed.
(** [x o y c z], read with [o] first, and with [c] first. *)
Lemma reads_left o c : mlvl c <= mlvl o ->
  mreads [TAtom (AAtom 0); TSym o; TAtom (AAtom 1); TSym c; TAtom (AAtom 2)] (EBin c (EBin o (EAtom (AAtom 0)) (EAtom (AAtom 1))) (EAtom (AAtom 2))).
Proof.
  intros H. pose proof (mlvl_le o). apply (g_down 4 mblvl mulvl 0 (mlvl c)); [lia|lia|].
  apply (bin_g c [_; _; _] _ [_]); [|apply atom_g; lia]. apply (g_down 4 mblvl mulvl (mlvl c) (mlvl o)); [lia|lia|].
  apply (bin_g o [_] _ [_]); apply atom_g; lia.
Qed.
Lemma reads_right o c : mlvl o < mlvl c ->
  mreads [TAtom (AAtom 0); TSym o; TAtom (AAtom 1); TSym c; TAtom (AAtom 2)] (EBin o (EAtom (AAtom 0)) (EBin c (EAtom (AAtom 1)) (EAtom (AAtom 2)))).
Proof.
  intros H. pose proof (mlvl_le c). apply (g_down 4 mblvl mulvl 0 (mlvl o)); [lia|lia|].
  apply (bin_g o [_] _ [_; _; _]); [apply atom_g; lia|]. apply (g_down 4 mblvl mulvl (S (mlvl o)) (mlvl c)); [lia|lia|].
  apply (bin_g c [_] _ [_]); apply atom_g; lia.
Qed.

(** C04 is refuted, and [faithful] is exact for all expressions with two operators: each of them that is not [faithful] is
    read with a different value over the integers ([x = 17], [y = 5], [z = 3]). *)
Theorem C04_two_operators_refuted : forall o c,
  let l := MBin o (MBin c (MAtom 0) (MAtom 1)) (MAtom 2) in
  let r := MBin o (MAtom 0) (MBin c (MAtom 1) (MAtom 2)) in
  (faithful l = false -> exists t, mreads (tokens (mprint l)) t /\ tval ZA v3 t <> mval ZA v3 l) /\
  (faithful r = false -> exists t, mreads (tokens (mprint r)) t /\ tval ZA v3 t <> mval ZA v3 r).
Proof.
  intros o c. cbv zeta. split; intros H; destruct o, c; try discriminate H; clear H; eexists;
    (split; [first [apply reads_left; cbn; lia|apply reads_right; cbn; lia]|vm_compute; discriminate]).
Qed.
Print Assumptions C04_two_operators_refuted.
(** Among them [a - (b - c)], [a / (b / c)], [(a + b) * c]. *)
Example C04_ex_refuted : map faithful
  [MBin MSub (MAtom 0) (MBin MSub (MAtom 1) (MAtom 2)); MBin MDiv (MAtom 0) (MBin MDiv (MAtom 1) (MAtom 2)); MBin MMul (MBin MAdd (MAtom 0) (MAtom 1)) (MAtom 2);
   MBin MMod (MAtom 0) (MBin MMul (MAtom 1) (MAtom 2))] = [false; false; false; false].
Proof. reflexivity. Qed.

(** A sign in front of a sum only applies to its first operand, and two minus signs start a comment. *)
Theorem C04_sign_refuted :
  (exists t, mreads (tokens (mprint (MUn MSub (MBin MAdd (MAtom 0) (MAtom 1))))) t /\ tval ZA v3 t <> mval ZA v3 (MUn MSub (MBin MAdd (MAtom 0) (MAtom 1)))) /\
  (forall e, no_comment (mprint (MUn MSub (MUn MSub e))) = false) /\
  (forall z, (z < 0)%Z -> no_comment (mprint (MUn MSub (MNum z))) = false).
Proof.
  split; [|split].
  - exists (EBin MAdd (EUn MSub (EAtom (AAtom 0))) (EAtom (AAtom 1))). split; [|vm_compute; discriminate].
    apply (g_down 4 mblvl mulvl 0 1); [lia|lia|]. apply (bin_g MAdd [_; _] _ [_]); [|apply atom_g; cbn; lia].
    apply (g_down 4 mblvl mulvl 1 3); [lia|lia|]. apply g_un; [lia|reflexivity|]. apply atom_g. lia.
  - reflexivity.
  - intros z Hz. cbn. destruct (Z.ltb_spec z 0); [reflexivity|lia].
Qed.
Print Assumptions C04_sign_refuted.
