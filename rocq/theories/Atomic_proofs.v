From Coq Require Import List Bool Arith ZArith Lia.
From Verif Require Import PyBase Atomic_model.
Import ListNotations.
Local Open Scope Z_scope.

(** ** Specification: the operations executed one after the other *)
Definition seq_op (v : Z) (o : aop) : Z * list Z :=
  match o with
  | Increment b => (v + b, [])
  | Reset_ => (0, [])
  | Get => (v, [v])
  | Set_ w => (w, [])
  | Pos => (v, [v])
  end.
(** final value of a sequential history of (thread, operation) *)
Fixpoint seq_value (v : Z) (h : list (nat * aop)) : Z :=
  match h with [] => v | (_, o) :: r => seq_value (fst (seq_op v o)) r end.
(** results thread [i] observes in the history *)
Fixpoint seq_out (v : Z) (h : list (nat * aop)) (i : nat) : list Z :=
  match h with
  | [] => []
  | (j, o) :: r => (if (j =? i)%nat then snd (seq_op v o) else []) ++ seq_out (fst (seq_op v o)) r i
  end.
Definition ops_of (i : nat) (h : list (nat * aop)) : list aop := map snd (filter (fun e => (fst e =? i)%nat) h).

(** ** basic facts *)
Lemma seq_value_snoc v h i o : seq_value v (h ++ [(i, o)]) = fst (seq_op (seq_value v h) o).
Proof. revert v. induction h as [|[j p] h IH]; intros v; simpl; auto. Qed.
Lemma seq_out_snoc v h i o j : seq_out v (h ++ [(i, o)]) j = seq_out v h j ++ (if (i =? j)%nat then snd (seq_op (seq_value v h) o) else []).
Proof.
  revert v. induction h as [|[k p] h IH]; intros v; simpl.
  - rewrite app_nil_r. reflexivity.
  - rewrite IH, app_assoc. reflexivity.
Qed.
Lemma ops_of_snoc i h j o : ops_of i (h ++ [(j, o)]) = ops_of i h ++ (if (j =? i)%nat then [o] else []).
Proof. unfold ops_of. rewrite filter_app, map_app. simpl. destruct (j =? i)%nat; reflexivity. Qed.

Lemma nth_update_same {A} (l : list A) i x : (i < length l)%nat -> nth_error (update l i x) i = Some x.
Proof. revert i. induction l as [|y l IH]; intros [|i] H; simpl in *; try lia; [reflexivity|]. apply IH. lia. Qed.
Lemma nth_update_other {A} (l : list A) i j x : i <> j -> nth_error (update l i x) j = nth_error l j.
Proof. revert i j. induction l as [|y l IH]; intros [|i] [|j] H; simpl; try reflexivity; try lia. apply IH. lia. Qed.
Lemma update_length {A} (l : list A) i x : length (update l i x) = length l.
Proof. revert i. induction l as [|y l IH]; intros [|i]; simpl; auto. Qed.

Definition safe (o : aop) : Prop := o <> Pos.

(** body of a safe operation *)
Definition body (o : aop) : list instr :=
  match o with
  | Increment b => [Load; StoreAdd b]
  | Reset_ => [StoreC 0]
  | Get => [Load; Ret]
  | Set_ v => [StoreC v]
  | Pos => []
  end.
Lemma compile_safe o : safe o -> compile o = Acq :: body o ++ [Rel].
Proof. destruct o; intros H; try reflexivity. destruct H; reflexivity. Qed.

(** effect of straight-line code on (value, register, results) *)
Fixpoint exec (c : list instr) (m : Z * Z * list Z) : Z * Z * list Z :=
  match c with
  | [] => m
  | k :: r =>
    let '(v, g, out) := m in
    exec r (match k with
            | Load => (v, v, out) | StoreAdd b => (g + b, g, out) | StoreC w => (w, g, out)
            | Ret => (v, g, out ++ [g]) | Acq | Rel => (v, g, out) end)
  end.
Lemma exec_app c d m : exec (c ++ d) m = exec d (exec c m).
Proof. revert m. induction c as [|k c IH]; intros [[v g] out]; simpl; auto. Qed.
Lemma exec_body o v g out : safe o -> exists g', exec (body o) (v, g, out) = (fst (seq_op v o), g', out ++ snd (seq_op v o)).
Proof. destruct o; intros H; simpl; try (rewrite app_nil_r); try (eexists; reflexivity). destruct H; reflexivity. Qed.

(** ** The invariant *)
Section Inv.
  Variable v0 : Z.
  Variable progs : list (list aop).
  Hypothesis Hsafe : forall p o, In p progs -> In o p -> safe o.

  (** what a thread still has to do *)
  Definition idle (h : list (nat * aop)) (i : nat) (t : thread) : Prop :=
    t_out t = seq_out v0 h i /\
    exists p, nth_error progs i = Some p /\
    ((t_cur t = [] /\ p = ops_of i h ++ t_prog t) \/
     (exists o, t_cur t = compile o /\ p = ops_of i h ++ o :: t_prog t)).
  Definition busy (h : list (nat * aop)) (i : nat) (t : thread) (v : Z) : Prop :=
    exists p o done rest g0, nth_error progs i = Some p /\ p = ops_of i h ++ o :: t_prog t /\
      body o = done ++ rest /\ t_cur t = rest ++ [Rel] /\
      exec done (seq_value v0 h, g0, seq_out v0 h i) = (v, t_reg t, t_out t).

  Definition inv (s : state) (h : list (nat * aop)) : Prop :=
    length (s_threads s) = length progs /\ (forall e, In e h -> (fst e < length progs)%nat) /\
    match s_lock s with
    | None => s_value s = seq_value v0 h /\ (forall i t, nth_error (s_threads s) i = Some t -> idle h i t)
    | Some k => (exists t, nth_error (s_threads s) k = Some t /\ busy h k t (s_value s)) /\
                (forall i t, i <> k -> nth_error (s_threads s) i = Some t -> idle h i t)
    end.

  Lemma inv_init : inv (init v0 progs) [].
  Proof.
    unfold inv, init. simpl. rewrite map_length. split; [reflexivity|]. split; [tauto|]. split; [reflexivity|].
    intros i t H. rewrite nth_error_map in H. destruct (nth_error progs i) as [p|] eqn:E; [|discriminate].
    injection H as <-. split; [reflexivity|]. exists p. split; [assumption|]. left. auto.
  Qed.

  Lemma prog_safe i p o l r : nth_error progs i = Some p -> p = l ++ o :: r -> safe o.
  Proof. intros H ->. apply (Hsafe (l ++ o :: r)); [eapply nth_error_In; eassumption|]. apply in_app_iff. simpl; auto. Qed.

  Lemma idle_snoc h i j o t : i <> j -> idle h i t -> idle (h ++ [(j, o)]) i t.
  Proof.
    intros Hne [H1 H2]. apply Nat.eqb_neq in Hne. rewrite Nat.eqb_sym in Hne. split.
    - rewrite seq_out_snoc, Hne, app_nil_r. assumption.
    - rewrite ops_of_snoc, Hne, app_nil_r. assumption.
  Qed.

  Lemma body_no_lock o k r d : safe o -> body o = d ++ k :: r -> k <> Acq /\ k <> Rel.
  Proof.
    intros Hs E. assert (H : In k (body o)) by (rewrite E; apply in_app_iff; simpl; auto).
    destruct o; simpl in H; intuition; subst; discriminate.
  Qed.

  Lemma inv_step s h i s' : inv s h -> step s i = Some s' -> exists h', inv s' h'.
  Proof.
    intros [HL [HB HI]] Hs. unfold step in Hs.
    destruct (nth_error (s_threads s) i) as [t|] eqn:Ht; [|discriminate].
    assert (Hi : (i < length (s_threads s))%nat) by (apply nth_error_Some; congruence).
    destruct (s_lock s) as [k|] eqn:Hl.
    - destruct HI as [(tk & Htk & Hb) Hid].
      destruct (Nat.eq_dec i k) as [->|Hne].
      + (* the lock holder moves *)
        rewrite Htk in Ht. injection Ht as <-.
        destruct Hb as (p & o & dn & rest & g0 & Hp & Ep & Eb & Ec & Ee).
        assert (So : safe o) by (eapply prog_safe; eassumption).
        rewrite Ec in Hs. destruct rest as [|c rest]; simpl in Hs.
        * (* release *)
          injection Hs as <-. exists (h ++ [(k, o)]). unfold inv. simpl. rewrite update_length. split; [assumption|]. split; [intros e He; apply in_app_iff in He as [He|[<-|[]]]; [auto|simpl; lia]|].
          rewrite app_nil_r in Eb. subst dn.
          destruct (exec_body o (seq_value v0 h) g0 (seq_out v0 h k) So) as (g' & Ex). rewrite Ex in Ee. injection Ee as Ev Eg Eo.
          split; [rewrite seq_value_snoc; auto|]. intros j tj Hj. destruct (Nat.eq_dec k j) as [<-|Hn].
          -- rewrite nth_update_same in Hj by assumption. injection Hj as <-. split; simpl.
             ++ rewrite seq_out_snoc, Nat.eqb_refl. auto.
             ++ exists p. split; [assumption|]. left. split; [reflexivity|]. rewrite ops_of_snoc, Nat.eqb_refl, <- app_assoc. exact Ep.
          -- rewrite nth_update_other in Hj by assumption. apply idle_snoc; [congruence|]. apply Hid; [congruence|assumption].
        * destruct (body_no_lock _ _ _ _ So Eb) as [N1 N2].
          assert (Eb' : body o = (dn ++ [c]) ++ rest) by (rewrite <- app_assoc; exact Eb).
          assert (G : forall v' g' out', exec [c] (s_value s, t_reg tk, t_out tk) = (v', g', out') ->
             inv (ST v' (Some k) (update (s_threads s) k (TH (t_prog tk) (rest ++ [Rel]) g' out'))) h).
          { intros v' g' out' Hx. unfold inv. simpl. rewrite update_length. split; [assumption|]. split; [assumption|]. split.
            - eexists. split; [apply nth_update_same; assumption|]. exists p, o, (dn ++ [c]), rest, g0. simpl.
              repeat split; try assumption. rewrite exec_app, Ee. exact Hx.
            - intros j tj Hn Hj. rewrite nth_update_other in Hj by congruence. apply Hid; assumption. }
          destruct c; try congruence; injection Hs as <-; exists h; apply G; reflexivity.
      + (* another thread moves *)
        assert (Hidle := Hid i t Hne Ht). destruct Hidle as [Ho (p & Hp & Hc)].
        assert (G : forall t', idle h i t' -> inv (ST (s_value s) (Some k) (update (s_threads s) i t')) h).
        { intros t' Ht'. unfold inv. simpl. rewrite update_length. split; [assumption|]. split; [assumption|]. split.
          - exists tk. rewrite nth_update_other by assumption. auto.
          - intros j tj Hn Hj. destruct (Nat.eq_dec i j) as [<-|Hn2].
            + rewrite nth_update_same in Hj by assumption. injection Hj as <-. assumption.
            + rewrite nth_update_other in Hj by assumption. apply Hid; assumption. }
        destruct Hc as [[Ec Ep]|(o & Ec & Ep)]; rewrite Ec in Hs.
        * destruct (t_prog t) as [|o p'] eqn:Epr; [discriminate|]. injection Hs as <-. exists h. apply G.
          split; [assumption|]. exists p. split; [assumption|]. right. exists o. auto.
        * rewrite compile_safe in Hs by (eapply prog_safe; eassumption). simpl in Hs. discriminate.
    - destruct HI as [Hv Hid]. destruct (Hid i t Ht) as [Ho (p & Hp & Hc)].
      destruct Hc as [[Ec Ep]|(o & Ec & Ep)]; rewrite Ec in Hs.
      + destruct (t_prog t) as [|o p'] eqn:Epr; [discriminate|]. injection Hs as <-. exists h.
        unfold inv. simpl. rewrite update_length. split; [assumption|]. split; [assumption|]. split; [assumption|].
        intros j tj Hj. destruct (Nat.eq_dec i j) as [<-|Hn2].
        * rewrite nth_update_same in Hj by assumption. injection Hj as <-. split; [assumption|]. exists p. split; [assumption|].
          right. exists o. auto.
        * rewrite nth_update_other in Hj by assumption. auto.
      + assert (So : safe o) by (eapply prog_safe; eassumption).
        rewrite compile_safe in Hs by assumption. simpl in Hs. injection Hs as <-. exists h.
        unfold inv. simpl. rewrite update_length. split; [assumption|]. split; [assumption|]. split.
        * eexists. split; [apply nth_update_same; assumption|]. exists p, o, [], (body o), (t_reg t). simpl.
          repeat split; try assumption. rewrite Hv, Ho. reflexivity.
        * intros j tj Hn Hj. rewrite nth_update_other in Hj by congruence. auto.
  Qed.

  Lemma inv_run sched s h s' : inv s h -> run s sched = Some s' -> exists h', inv s' h'.
  Proof.
    revert s h. induction sched as [|i r IH]; intros s h I; simpl; [intros [= <-]; eauto|].
    destruct (step s i) as [s1|] eqn:E; [|discriminate]. destruct (inv_step _ _ _ _ I E) as [h1 I1]. eauto.
  Qed.

  (** progress: as long as a thread has work left, some thread can move *)
  Lemma inv_progress s h : inv s h -> ~ finished s -> exists i s', step s i = Some s'.
  Proof.
    intros [HL [HB HI]] Hf. destruct (s_lock s) as [k|] eqn:Hl.
    - destruct HI as [(t & Ht & p & o & dn & rest & g0 & Hp & Ep & Eb & Ec & Ee) _]. exists k. unfold step. rewrite Ht, Ec.
      destruct rest as [|c rest]; simpl; [eauto|].
      destruct (body_no_lock _ _ _ _ (prog_safe _ _ _ _ _ Hp Ep) Eb) as [N1 N2]. destruct c; try congruence; eauto.
    - destruct HI as [Hv Hid].
      assert (E : exists i t, nth_error (s_threads s) i = Some t /\ ~ (t_prog t = [] /\ t_cur t = [])).
      { destruct (Exists_dec (fun t => ~ (t_prog t = [] /\ t_cur t = [])) (s_threads s)) as [e|ne].
        - intros t. destruct (t_prog t); [destruct (t_cur t)|]; [right|left|left]; intuition congruence.
        - apply Exists_exists in e as (t & Hin & Hn). apply In_nth_error in Hin as [i Hi]. eauto.
        - exfalso. apply Hf. intros t Hin. destruct (t_prog t) eqn:E1; [destruct (t_cur t) eqn:E2; [auto|]|];
            exfalso; apply ne; apply Exists_exists; exists t; rewrite E1; try rewrite E2; intuition congruence. }
      destruct E as (i & t & Ht & Hn). exists i. unfold step. rewrite Ht.
      destruct (Hid i t Ht) as [Ho (p & Hp & [[Ec Ep]|(o & Ec & Ep)])]; rewrite Ec.
      + destruct (t_prog t) as [|o p'] eqn:E1; [exfalso; apply Hn; auto|]. eauto.
      + rewrite compile_safe by (eapply prog_safe; eassumption). rewrite Hl. eauto.
  Qed.
End Inv.

(** Every schedule is finite: each step consumes an instruction. *)
Definition cost_op (o : aop) : nat := S (length (compile o)).
Definition thread_work (t : thread) : nat := (list_sum (map cost_op (t_prog t)) + length (t_cur t))%nat.
Definition total (s : state) : nat := list_sum (map thread_work (s_threads s)).
Lemma total_update ts i t t' : nth_error ts i = Some t -> (thread_work t' < thread_work t)%nat ->
  (list_sum (map thread_work (update ts i t')) < list_sum (map thread_work ts))%nat.
Proof.
  revert i. induction ts as [|u ts IH]; intros [|i] H L; simpl in *; try discriminate.
  - injection H as ->. lia.
  - specialize (IH _ H L). lia.
Qed.
Lemma step_total s i s' : step s i = Some s' -> (total s' < total s)%nat.
Proof.
  unfold step, total. destruct (nth_error (s_threads s) i) as [t|] eqn:Ht; [|discriminate].
  destruct (t_cur t) as [|c r] eqn:Ec.
  - destruct (t_prog t) as [|o p] eqn:Ep; [discriminate|]. intros [= <-]. simpl. eapply total_update; [eassumption|].
    unfold thread_work. simpl. rewrite Ec, Ep. simpl. unfold cost_op. lia.
  - destruct c; try (destruct (s_lock s); [discriminate|]); intros [= <-]; simpl; eapply total_update; try eassumption;
      unfold thread_work; simpl; rewrite Ec; simpl; lia.
Qed.
Lemma run_bounded sched s s' : run s sched = Some s' -> (length sched + total s' <= total s)%nat.
Proof.
  revert s. induction sched as [|i r IH]; intros s; simpl; [intros [= <-]; lia|].
  destruct (step s i) as [s1|] eqn:E; [|discriminate]. intros H. specialize (IH _ H). apply step_total in E. lia.
Qed.

(** ** Linearizability *)
Lemma finished_linearized v0 progs sched s : (forall p o, In p progs -> In o p -> o <> Pos) ->
  run (init v0 progs) sched = Some s -> finished s ->
  exists h, s_value s = seq_value v0 h /\ (forall e, In e h -> (fst e < length progs)%nat) /\
    (forall i, (i < length progs)%nat -> nth_error progs i = Some (ops_of i h) /\
               exists t, nth_error (s_threads s) i = Some t /\ t_out t = seq_out v0 h i).
Proof.
  intros Hs Hr Hf. destruct (inv_run v0 progs Hs _ _ _ _ (inv_init v0 progs) Hr) as [h [HL [HB HI]]].
  exists h. destruct (s_lock s) as [k|] eqn:El.
  - destruct HI as [(t & Ht & p & o & dn & rest & g0 & Hp & Ep & Eb & Ec & Ee) _].
    destruct (Hf t) as [_ F]; [eapply nth_error_In; eassumption|]. rewrite F in Ec. destruct rest; discriminate.
  - destruct HI as [Hv Hid]. split; [assumption|]. split; [assumption|]. intros i Hi.
    destruct (nth_error (s_threads s) i) as [t|] eqn:Ht; [|apply nth_error_None in Ht; lia].
    destruct (Hid i t Ht) as [Ho (p & Hp & Hc)]. destruct (Hf t) as [F1 F2]; [eapply nth_error_In; eassumption|].
    split; [|eauto]. rewrite F1, F2 in Hc. destruct Hc as [[_ ->]|(o & Ec & _)].
    + rewrite app_nil_r in Hp. assumption.
    + destruct o; discriminate.
Qed.

Lemma deadlock_free v0 progs sched s : (forall p o, In p progs -> In o p -> o <> Pos) ->
  run (init v0 progs) sched = Some s -> finished s \/ exists i s', step s i = Some s'.
Proof.
  intros Hs Hr. destruct (inv_run v0 progs Hs _ _ _ _ (inv_init v0 progs) Hr) as [h I].
  assert (D : finished s \/ ~ finished s).
  { assert (Hd : forall t, {t_prog t = [] /\ t_cur t = []} + {~ (t_prog t = [] /\ t_cur t = [])}).
    { intros t. destruct (t_prog t); [destruct (t_cur t)|]; [left; auto|right|right]; intros [? ?]; discriminate. }
    destruct (Forall_dec _ Hd (s_threads s)) as [F|F]; rewrite Forall_forall in F; [left|right]; exact F. }
  destruct D as [D|D]; [auto|]. right. eapply inv_progress; eassumption.
Qed.

(** ** Sum of the increments *)
Definition incr_by (o : aop) : Z := match o with Increment b => b | _ => 0 end.
Definition zsum (l : list Z) : Z := fold_right Z.add 0 l.
Lemma zsum_app l m : zsum (l ++ m) = zsum l + zsum m.
Proof. induction l as [|x l IH]; simpl; [reflexivity|]. rewrite IH. lia. Qed.
Lemma seq_value_incr v h : (forall e, In e h -> exists b, snd e = Increment b \/ snd e = Get) ->
  seq_value v h = v + zsum (map (fun e => incr_by (snd e)) h).
Proof.
  revert v. induction h as [|[i o] h IH]; intros v H; simpl; [lia|].
  rewrite IH by (intros; apply H; simpl; auto). destruct (H (i, o) (or_introl eq_refl)) as (b & [E|E]); simpl in E; subst; simpl; lia.
Qed.

Lemma ops_of_cons k i o h : ops_of k ((i, o) :: h) = (if (i =? k)%nat then [o] else []) ++ ops_of k h.
Proof. unfold ops_of. simpl. destruct (i =? k)%nat; reflexivity. Qed.
(** the history restricted to threads 0..n-1, summed thread by thread *)
Lemma sum_by_thread (h : list (nat * aop)) n : (forall e, In e h -> (fst e < n)%nat) ->
  zsum (map (fun e => incr_by (snd e)) h) = zsum (map (fun i => zsum (map incr_by (ops_of i h))) (seq 0 n)).
Proof.
  intros H. induction h as [|[i o] h IH].
  - simpl. unfold ops_of. simpl. clear H. induction (seq 0 n); simpl; auto.
  - simpl. rewrite IH by (intros; apply H; simpl; auto).
    assert (Hi : (i < n)%nat) by (apply (H (i, o)); simpl; auto). clear IH H.
    assert (E : forall l, NoDup l -> In i l -> incr_by o + zsum (map (fun k => zsum (map incr_by (ops_of k h))) l) =
                zsum (map (fun k => zsum (map incr_by (ops_of k ((i, o) :: h)))) l)).
    { assert (Z0 : forall l, ~ In i l -> zsum (map (fun k => zsum (map incr_by (ops_of k h))) l) = zsum (map (fun k => zsum (map incr_by (ops_of k ((i, o) :: h)))) l)).
      { induction l as [|k l IH]; simpl; intros Hn; [reflexivity|]. rewrite IH by tauto. rewrite (ops_of_cons k).
        destruct (Nat.eqb_spec i k); [exfalso; apply Hn; auto|]. reflexivity. }
      induction l as [|k l IH]; simpl; intros Hnd Hin; [tauto|]. inversion Hnd; subst.
      destruct (Nat.eq_dec k i) as [->|Hne].
      - rewrite Z0 by assumption. rewrite (ops_of_cons i), Nat.eqb_refl. simpl. lia.
      - destruct Hin as [Hin|Hin]; [congruence|]. rewrite <- IH by assumption. rewrite (ops_of_cons k).
        destruct (Nat.eqb_spec i k); [congruence|]. simpl. lia. }
    apply E; [apply seq_NoDup|]. apply in_seq. lia.
Qed.

Lemma nth_error_ext {A} (l m : list A) : (forall i, nth_error l i = nth_error m i) -> l = m.
Proof.
  revert m. induction l as [|x l IH]; intros [|y m] H; [reflexivity| | |].
  - specialize (H 0%nat). discriminate.
  - specialize (H 0%nat). discriminate.
  - pose proof (H 0%nat) as H0. injection H0 as ->. f_equal. apply IH. intros i. exact (H (S i)).
Qed.
Lemma increments_sum v0 progs sched s :
  (forall p o, In p progs -> In o p -> exists b, o = Increment b \/ o = Get) ->
  run (init v0 progs) sched = Some s -> finished s -> s_value s = v0 + zsum (map incr_by (concat progs)).
Proof.
  intros Ho Hr Hf.
  destruct (finished_linearized v0 progs sched s) as (h & Hv & Hb & Hi); [|assumption|assumption|].
  { intros p o H1 H2. destruct (Ho p o H1 H2) as (b & [->| ->]); discriminate. }
  rewrite Hv, seq_value_incr.
  - rewrite (sum_by_thread h (length progs)) by assumption. f_equal.
    assert (E : map (fun i => zsum (map incr_by (ops_of i h))) (seq 0 (length progs)) = map (fun p => zsum (map incr_by p)) progs).
    { apply nth_error_ext. intros i. rewrite !nth_error_map. destruct (Nat.lt_ge_cases i (length progs)) as [L|L].
      - destruct (Hi i L) as [Hp _]. rewrite Hp.
        assert (X : nth_error (seq 0 (length progs)) i = Some i).
        { rewrite (nth_error_nth' _ 0%nat) by (rewrite seq_length; assumption). rewrite seq_nth by assumption. reflexivity. }
        rewrite X. reflexivity.
      - assert (X : nth_error (seq 0 (length progs)) i = None) by (apply nth_error_None; rewrite seq_length; assumption).
        assert (Y : nth_error progs i = None) by (apply nth_error_None; assumption).
        rewrite X, Y. reflexivity. }
    rewrite E. clear. induction progs as [|p r IH]; simpl; [reflexivity|]. rewrite map_app, zsum_app, IH. reflexivity.
  - intros e He. specialize (Hb e He). destruct (Hi (fst e) Hb) as [Hp _]. apply nth_error_In in Hp.
    apply (Ho _ (snd e) Hp). unfold ops_of. apply in_map_iff. exists e. split; [reflexivity|]. apply filter_In. rewrite Nat.eqb_refl. auto.
Qed.
