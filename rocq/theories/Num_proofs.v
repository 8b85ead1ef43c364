From Coq Require Import List Bool Arith ZArith Lia.
From Verif Require Import PyBase Num_model Num_spec.
Import ListNotations.
Local Open Scope Z_scope.

Lemma snap_clamped v mn mx : (forall a b, mn = Some a -> mx = Some b -> a <= b) -> clamped v (snap v mn mx) mn mx.
Proof.
  intros H. unfold clamped, in_range, snap.
  destruct mn as [a|], mx as [b|]; simpl.
  - specialize (H a b eq_refl eq_refl).
    destruct (Z.ltb_spec v a); rewrite Z.gtb_ltb; destruct (Z.ltb_spec b v); try destruct (Z.ltb_spec b a);
      (split; [split; intros m [= <-]; lia|intros w [Hw1 Hw2]; specialize (Hw1 _ eq_refl); specialize (Hw2 _ eq_refl); lia]).
  - destruct (Z.ltb_spec v a); (split; [split; intros m; [intros [= <-]; lia|discriminate]|
      intros w [Hw1 Hw2]; specialize (Hw1 _ eq_refl); lia]).
  - rewrite Z.gtb_ltb. destruct (Z.ltb_spec b v); (split; [split; intros m; [discriminate|intros [= <-]; lia]|
      intros w [Hw1 Hw2]; specialize (Hw2 _ eq_refl); lia]).
  - split; [split; intros m; discriminate|]. intros w _. lia.
Qed.

Definition bi_valid (b : bint) : Prop :=
  in_range (b_value b) (b_min b) (b_max b) /\ (forall x y, b_min b = Some x -> b_max b = Some y -> x <= y).

Lemma bi_init_spec v mn mx :
  (exists b, bi_init v mn mx = Ok b /\ clamped v (b_value b) mn mx /\ b_min b = mn /\ b_max b = mx /\ bi_valid b) \/
  (bi_init v mn mx = Raise ValueError /\ exists a b, mn = Some a /\ mx = Some b /\ b < a).
Proof.
  unfold bi_init, bi_valid. destruct mn as [a|], mx as [b|]; simpl.
  - rewrite Z.gtb_ltb. destruct (Z.ltb_spec b a).
    + right. eauto 6.
    + left. exists (BI (snap v (Some a) (Some b)) (Some a) (Some b)).
      assert (C : clamped v (snap v (Some a) (Some b)) (Some a) (Some b)) by (apply snap_clamped; intros ? ? [= <-] [= <-]; assumption).
      repeat split; try apply C; simpl; try reflexivity. intros ? ? [= <-] [= <-]; assumption.
  - left. exists (BI (snap v (Some a) None) (Some a) None).
    assert (C : clamped v (snap v (Some a) None) (Some a) None) by (apply snap_clamped; discriminate).
    repeat split; try apply C; simpl; try reflexivity. discriminate.
  - left. exists (BI (snap v None (Some b)) None (Some b)).
    assert (C : clamped v (snap v None (Some b)) None (Some b)) by (apply snap_clamped; discriminate).
    repeat split; try apply C; simpl; try reflexivity. discriminate.
  - left. exists (BI (snap v None None) None None).
    assert (C : clamped v (snap v None None) None None) by (apply snap_clamped; discriminate).
    repeat split; try apply C; simpl; try reflexivity. discriminate.
Qed.

Lemma bi_init_again b v : bi_valid b ->
  exists b', bi_init v (b_min b) (b_max b) = Ok b' /\ clamped v (b_value b') (b_min b) (b_max b) /\
             b_min b' = b_min b /\ b_max b' = b_max b /\ bi_valid b'.
Proof.
  intros [_ H]. destruct (bi_init_spec v (b_min b) (b_max b)) as [(b' & ?)|(_ & x & y & E1 & E2 & L)]; [eauto|].
  specialize (H _ _ E1 E2). lia.
Qed.

(** operations a client can apply to a bounded integer, with the exact result that is then clamped *)
Inductive bop := BSet (v : Z) | BAdd (o : Z) | BMul (o : Z) | BNeg | BPow (e : nat).
Definition bi_step (b : bint) (o : bop) : res bint :=
  match o with
  | BSet v => Ok (bi_set b v)
  | BAdd x => bi_add b x
  | BMul x => bi_mul b x
  | BNeg => bi_neg b
  | BPow e => bi_pow b e
  end.
Definition exact_result (v : Z) (o : bop) : Z :=
  match o with BSet w => w | BAdd x => v + x | BMul x => v * x | BNeg => - v | BPow e => v ^ Z.of_nat e end.

Lemma bi_step_spec b o : bi_valid b ->
  exists b', bi_step b o = Ok b' /\ clamped (exact_result (b_value b) o) (b_value b') (b_min b) (b_max b) /\
             b_min b' = b_min b /\ b_max b' = b_max b /\ bi_valid b'.
Proof.
  intros H. destruct o; simpl; try (apply bi_init_again; assumption).
  eexists. split; [reflexivity|]. simpl. destruct H as [_ H].
  pose proof (snap_clamped v _ _ H) as C. repeat split; try apply C; simpl; try reflexivity. assumption.
Qed.

Fixpoint bi_run (b : bint) (ops : list bop) : res bint :=
  match ops with [] => Ok b | o :: r => rbind (bi_step b o) (fun b' => bi_run b' r) end.
Lemma bi_run_range ops v mn mx b : bi_init v mn mx = Ok b ->
  exists b', bi_run b ops = Ok b' /\ in_range (b_value b') mn mx.
Proof.
  intros Hi. destruct (bi_init_spec v mn mx) as [(b0 & E & C & E1 & E2 & Hv)|(E & _)]; [|congruence].
  rewrite Hi in E. injection E as <-. clear Hi C. subst mn mx.
  revert b Hv. induction ops as [|o ops IH]; intros b Hv; simpl; [exists b; split; [reflexivity|apply Hv]|].
  destruct (bi_step_spec b o Hv) as (b' & E & _ & E1 & E2 & Hv'). rewrite E. simpl. rewrite <- E1, <- E2. apply IH. assumption.
Qed.

(** ** Version *)
Lemma ver_loop_older a b d :
  ver_le_loop a b d = true <->
  (exists p x y r s, a = p ++ x :: r /\ b = p ++ y :: s /\ x < y) \/
  (d = true /\ ((exists s, b = a ++ s) \/ (exists s, a = b ++ s))).
Proof.
  revert b. induction a as [|x a IH]; intros [|y b]; simpl.
  - split; [intros; right; eauto|]. intros [(p & ? & ? & ? & ? & E & _)|[]]; [destruct p; discriminate|assumption].
  - split; [intros; right; eauto|]. intros [(p & ? & ? & ? & ? & E & _)|[]]; [destruct p; discriminate|assumption].
  - split; [intros; right; eauto|]. intros [(p & ? & ? & ? & ? & _ & E & _)|[]]; [destruct p; discriminate|assumption].
  - destruct (Z.ltb_spec x y) as [Hl|Hl].
    + split; [|reflexivity]. intros _. left. exists [], x, y, a, b. auto.
    + destruct (Z.ltb_spec y x) as [Hl'|Hl'].
      * split; [discriminate|]. intros [(p & u & v & r & s & E1 & E2 & L)|(_ & [(s & E)|(s & E)])].
        -- destruct p; simpl in *; injection E1 as -> ->; injection E2 as -> ->; lia.
        -- injection E; lia.
        -- injection E; lia.
      * assert (x = y) by lia. subst y. rewrite IH. split.
        -- intros [(p & u & v & r & s & -> & -> & L)|(Hd & [(s & ->)|(s & ->)])].
           ++ left. exists (x :: p), u, v, r, s. auto.
           ++ right. split; [assumption|]. left. exists s. reflexivity.
           ++ right. split; [assumption|]. right. exists s. reflexivity.
        -- intros [(p & u & v & r & s & E1 & E2 & L)|(Hd & [(s & E)|(s & E)])].
           ++ destruct p as [|z p]; simpl in *; inversion E1; inversion E2; subst; [lia|].
              left. exists p, u, v, r, s. auto.
           ++ right. injection E as ->. eauto.
           ++ right. injection E as ->. eauto.
Qed.

Lemma ver_lt_older a b : ver_lt a b = true <-> older a b.
Proof.
  unfold ver_lt, older. rewrite ver_loop_older, Nat.ltb_lt. split.
  - intros [H|(L & [(s & ->)|(s & ->)])]; [auto| |].
    + destruct s as [|y s]; [rewrite app_nil_r in L; lia|]. right. eauto.
    + rewrite app_length in L. lia.
  - intros [H|(y & s & ->)]; [auto|]. right. rewrite app_length. simpl. split; [lia|]. eauto.
Qed.
Lemma ver_le_older a b : ver_le a b = true <-> (older a b \/ a = b).
Proof.
  unfold ver_le, older. rewrite ver_loop_older, Nat.leb_le. split.
  - intros [H|(L & [(s & ->)|(s & ->)])]; [auto| |].
    + destruct s as [|y s]; [rewrite app_nil_r; auto|]. left. right. eauto.
    + rewrite app_length in L. destruct s; [rewrite app_nil_r; auto|simpl in L; lia].
  - intros [[H|(y & s & ->)]|<-]; [auto| |].
    + right. rewrite app_length. split; [lia|]. eauto.
    + right. split; [lia|]. left. exists []. rewrite app_nil_r. reflexivity.
Qed.
Lemma all_eqb_eq a b : length a = length b -> (all_eqb a b = true <-> a = b).
Proof.
  revert b. induction a as [|x a IH]; intros [|y b]; simpl; intros L; try discriminate; [tauto|].
  destruct (Z.eqb_spec x y) as [->|n].
  - rewrite IH by congruence. split; [intros ->|intros [= ->]]; reflexivity.
  - split; [discriminate|]. congruence.
Qed.
Lemma ver_eq_eq a b : ver_eq a b = true <-> a = b.
Proof.
  unfold ver_eq. destruct (Nat.eqb_spec (length a) (length b)) as [E|E]; simpl.
  - apply all_eqb_eq. assumption.
  - split; [discriminate|]. intros ->. congruence.
Qed.

(** laws of the comparison operators *)
Lemma ver_lt_irrefl a : ver_lt a a = false.
Proof. unfold ver_lt. rewrite Nat.ltb_irrefl. induction a as [|x a IH]; simpl; [reflexivity|]. rewrite Z.ltb_irrefl. apply IH. Qed.
Lemma loop_trich a b d d' : (negb d = d') -> (length a = length b -> True) ->
  ver_le_loop a b d = negb (ver_le_loop b a d').
Proof.
  intros Hd _. revert b. induction a as [|x a IH]; intros [|y b]; simpl; try (subst; rewrite negb_involutive; reflexivity).
  destruct (Z.ltb_spec x y), (Z.ltb_spec y x); try reflexivity; [lia|]. apply IH.
Qed.
Lemma ver_le_not_lt a b : ver_le a b = negb (ver_lt b a).
Proof.
  unfold ver_le, ver_lt. apply loop_trich; [|auto].
  destruct (Nat.leb_spec (length a) (length b)), (Nat.ltb_spec (length b) (length a)); simpl; try reflexivity; lia.
Qed.
Lemma ver_lt_trans a b c : ver_lt a b = true -> ver_lt b c = true -> ver_lt a c = true.
Proof.
  unfold ver_lt. revert b c. induction a as [|x a IH]; intros [|y b] [|z c]; simpl; auto; try discriminate.
  destruct (Z.ltb_spec x y), (Z.ltb_spec y x), (Z.ltb_spec y z), (Z.ltb_spec z y), (Z.ltb_spec x z), (Z.ltb_spec z x);
    auto; try discriminate; try lia.
  intros H5 H6. eapply IH; [exact H5|exact H6].
Qed.
Lemma ver_total a b : ver_lt a b = true \/ a = b \/ ver_lt b a = true.
Proof.
  destruct (ver_lt b a) eqn:E; [auto|]. assert (L : ver_le a b = true) by (rewrite ver_le_not_lt, E; reflexivity).
  apply ver_le_older in L as [L| ->]; [|auto]. apply ver_lt_older in L. auto.
Qed.
Lemma ver_asym a b : ver_lt a b = true -> ver_lt b a = false.
Proof. intros H. destruct (ver_lt b a) eqn:E; [|reflexivity]. rewrite <- (ver_lt_irrefl a). symmetry. eauto using ver_lt_trans. Qed.
