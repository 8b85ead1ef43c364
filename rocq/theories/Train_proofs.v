(** Lemmas about training data and the training of stages. *)
From Coq Require Import List Bool Arith Lia.
From Verif Require Import PyBase Train_model Train_spec.
Import ListNotations.

Lemma satisfies_In s other f : In f (satisfies s other) <-> In f other /\ ~ In f s.
Proof. unfold satisfies. rewrite filter_In, dedup_In, negb_true_iff, mem_nIn. tauto. Qed.
Lemma violations_true s other : violations_bool (satisfies s other) = true <-> incl other s.
Proof.
  unfold violations_bool. destruct (satisfies s other) as [|x r] eqn:E.
  - split; [|reflexivity]. intros _ f Hf. destruct (in_dec Nat.eq_dec f s) as [H|H]; [assumption|].
    assert (X : In f (satisfies s other)) by (apply satisfies_In; auto). rewrite E in X. destruct X.
  - split; [discriminate|]. intros H. assert (X : In x (satisfies s other)) by (rewrite E; now left). apply satisfies_In in X. exfalso. firstorder.
Qed.
Lemma contains_negb m : contains_violations m = negb (violations_bool m).
Proof. destruct m; reflexivity. Qed.
Lemma provides_incl s fs : provides s fs = true <-> incl fs s.
Proof. apply subsetb_incl. Qed.

Section Data.
  Context {V : Type}.
  Implicit Types (t : tdata V) (row : list (option V)).

  Lemma filter_combine (cs : list nat) row w : NoDup cs -> length row = length cs -> In w cs ->
    map snd (filter (fun e => fst e =? w) (combine cs row)) = [cell cs row w].
  Proof.
    revert row. induction cs as [|c r IH]; intros row N L I; [destruct I|]. destruct row as [|v row]; [discriminate|]. cbn in L.
    inversion N as [|? ? Nc Nr]; subst. cbn. destruct (c =? w) eqn:E.
    - apply Nat.eqb_eq in E. subst c. cbn. f_equal. clear -Nc. revert row. induction r as [|c r IH]; intros row; [reflexivity|]. destruct row; [reflexivity|]. cbn.
      destruct (c =? w) eqn:E; [apply Nat.eqb_eq in E; subst; exfalso; apply Nc; now left|]. apply IH. intros X. apply Nc. now right.
    - apply Nat.eqb_neq in E. apply IH; [assumption|lia|]. destruct I; [congruence|assumption].
  Qed.
  Lemma filter_cols (cs : list nat) w : NoDup cs -> In w cs -> filter (fun c => c =? w) cs = [w].
  Proof.
    induction cs as [|c r IH]; intros N I; [destruct I|]. inversion N as [|? ? Nc Nr]; subst. cbn. destruct (c =? w) eqn:E.
    - apply Nat.eqb_eq in E. subst c. f_equal. clear -Nc. induction r as [|c r IH]; [reflexivity|]. cbn.
      destruct (c =? w) eqn:E; [apply Nat.eqb_eq in E; subst; exfalso; apply Nc; now left|]. apply IH. intros X. apply Nc. now right.
    - apply Nat.eqb_neq in E. apply IH; [assumption|]. destruct I; [congruence|assumption].
  Qed.
  Lemma pick_ok (cs want : list nat) row : NoDup cs -> length row = length cs -> incl want cs -> pick cs want row = map (cell cs row) want.
  Proof.
    intros N L I. unfold pick. induction want as [|w r IH]; cbn; [reflexivity|]. rewrite filter_combine by (auto; apply I; now left). cbn. f_equal.
    apply IH. intros x Hx. apply I. now right.
  Qed.
  Lemma pick_cols_ok (cs want : list nat) : NoDup cs -> incl want cs -> pick_cols cs want = want.
  Proof.
    intros N I. unfold pick_cols. induction want as [|w r IH]; cbn; [reflexivity|]. rewrite filter_cols by (auto; apply I; now left). cbn. f_equal.
    apply IH. intros x Hx. apply I. now right.
  Qed.
  Lemma pd_select_ok want (f : frame V) : wf_frame f -> incl want (fcols f) -> pd_select want f = Ok (mkframe want (map (fun r => map (cell (fcols f) r) want) (frows f))).
  Proof.
    intros [N L] I. unfold pd_select. assert (forallb (fun w => mem w (fcols f)) want = true) as ->.
    { apply forallb_forall. intros w Hw. apply mem_In. auto. }
    rewrite pick_cols_ok by assumption. do 2 f_equal. apply map_ext_in. intros r Hr. apply pick_ok; auto.
  Qed.
  Lemma cell_map (cs : list nat) (g : nat -> option V) c : NoDup cs -> In c cs -> cell cs (map g cs) c = g c.
  Proof.
    induction cs as [|x r IH]; intros N I; [destruct I|]. cbn. inversion N; subst. destruct (x =? c) eqn:E; [apply Nat.eqb_eq in E; now subst|].
    apply Nat.eqb_neq in E. apply IH; [assumption|]. destruct I; [congruence|assumption].
  Qed.
  Lemma cell_app (cs cs' : list nat) (g : nat -> option V) c : In c cs -> NoDup cs -> cell (cs ++ cs') (map g (cs ++ cs')) c = g c.
  Proof.
    induction cs as [|x r IH]; intros I N; [destruct I|]. cbn. inversion N; subst. destruct (x =? c) eqn:E; [apply Nat.eqb_eq in E; now subst|].
    apply Nat.eqb_neq in E. apply IH; [|assumption]. destruct I; [congruence|assumption].
  Qed.
  Lemma has_dup_false cs : NoDup cs -> has_dup cs = false.
  Proof.
    intros N. unfold has_dup. assert (H : dedup cs = cs).
    { induction N as [|x r Nx N IH]; cbn; [reflexivity|]. rewrite (proj2 (mem_nIn x r) Nx). now rewrite IH. }
    rewrite H, Nat.eqb_refl. reflexivity.
  Qed.
  Lemma NoDup_union (a b : list nat) : NoDup a -> NoDup b -> NoDup (a ++ filter (fun c => negb (mem c a)) b).
  Proof.
    intros Na Nb. assert (H : forall x, In x (filter (fun c => negb (mem c a)) b) -> ~ In x a).
    { intros x Hx. apply filter_In in Hx. destruct Hx as [_ Hx]. apply negb_true_iff in Hx. now apply mem_nIn in Hx. }
    assert (N : NoDup (filter (fun c => negb (mem c a)) b)) by (now apply NoDup_filter).
    revert H N. generalize (filter (fun c => negb (mem c a)) b). intros l H N. induction Na as [|x r Nx Na IH]; cbn; [assumption|]. constructor.
    - intros X. apply in_app_or in X. destruct X as [X|X]; [tauto|]. apply (H x X). now left.
    - apply IH. intros y Hy X. apply (H y Hy). now right.
  Qed.
  (** Concatenating data frames: all rows are kept, and so are their values. *)
  Lemma pd_concat_ok (a b : frame V) : wf_frame a -> wf_frame b -> exists m : frame V, pd_concat a b = Ok m /\ wf_frame m /\ incl (fcols a) (fcols m)
    /\ (forall cs, incl cs (fcols a) -> incl cs (fcols b) ->
        map (fun r => map (cell (fcols m) r) cs) (frows m)
        = map (fun r => map (cell (fcols a) r) cs) (frows a) ++ map (fun r => map (cell (fcols b) r) cs) (frows b)).
  Proof.
    intros [Na La] [Nb Lb]. unfold pd_concat. destruct (deqb (fcols a) (fcols b)) eqn:E.
    - apply (proj1 (deqb_eq _ _)) in E. eexists. split; [reflexivity|]. cbn. split; [|split; [intros x Hx; exact Hx|]].
      + split; [assumption|]. cbn. intros r Hr. apply in_app_or in Hr. destruct Hr; [auto|]. rewrite E. auto.
      + intros cs _ _. rewrite map_app. now rewrite E.
    - rewrite !has_dup_false by assumption. cbn [orb]. set (cs' := filter _ (fcols b)). eexists. split; [reflexivity|]. cbn.
      assert (N : NoDup (fcols a ++ cs')) by (now apply NoDup_union).
      split; [|split; [intros x Hx; apply in_or_app; auto|]].
      + split; [assumption|]. cbn. intros r Hr. apply in_app_or in Hr. destruct Hr as [Hr|Hr]; apply in_map_iff in Hr; destruct Hr as (r' & <- & _);
        now rewrite map_length.
      + intros cs I1 I2. rewrite map_app, !map_map. f_equal; apply map_ext_in; intros r Hr; apply map_ext_in; intros c Hc.
        * apply (cell_map (fcols a ++ cs') (cell (fcols a) r)); [assumption|]. apply in_or_app. auto.
        * apply (cell_map (fcols a ++ cs') (cell (fcols b) r)); [assumption|]. apply in_or_app. auto.
  Qed.

  Lemma rmapM_dget (d : dict nat nat) fs : (forall f, In f fs -> exists c, dget d f = Some c) ->
    rmapM (fun f => match dget d f with Some c => Ok c | None => Raise KeyError end) fs = Ok (map (fun f => match dget d f with Some c => c | None => 0 end) fs).
  Proof.
    induction fs as [|f r IH]; intros H; cbn; [reflexivity|]. destruct (H f (or_introl eq_refl)) as (c & ->). cbn. rewrite IH; [reflexivity|].
    intros x Hx. apply H. now right.
  Qed.
  Lemma dkeys_dget (d : dict nat nat) f : In f (dkeys d) -> exists c, dget d f = Some c.
  Proof.
    intros H. apply (dmem_In d) in H. unfold dmem in H. destruct (dget d f) as [c|]; [now exists c|discriminate].
  Qed.
  (** as_df, when the columns that are asked for do not change their names *)
  Lemma as_df_cols t fs : wf_data t -> incl fs (td_spec t) ->
    (forall f c, In f fs -> dget (td_map t) f = Some c -> dget (td_map t) c = None \/ dget (td_map t) c = Some c) ->
    as_df t (Some fs) = Ok (mkframe (map (fun f => match dget (td_map t) f with Some c => c | None => 0 end) fs) (view t fs)).
  Proof.
    intros (Wf & Wd & Wc) I S. unfold as_df. rewrite (proj2 (violations_true (td_spec t) fs) I). cbn [negb].
    assert (G : forall f, In f fs -> exists c, dget (td_map t) f = Some c) by (intros f Hf; apply dkeys_dget, I, Hf).
    rewrite rmapM_dget by assumption. cbn [rbind]. set (cols := map _ fs).
    rewrite pd_select_ok; [|assumption|].
    - cbn [rmap rbind]. unfold pd_rename. cbn [fcols frows]. f_equal. f_equal.
      + unfold cols. rewrite map_map. apply map_ext_in. intros f Hf. destruct (G f Hf) as (c & E). rewrite E. destruct (S f c Hf E) as [-> | ->]; reflexivity.
      + unfold view. apply map_ext. intros r. unfold cols. rewrite map_map. apply map_ext_in. intros f Hf. unfold feat. destruct (G f Hf) as (c & E). now rewrite E.
    - intros c Hc. unfold cols in Hc. apply in_map_iff in Hc. destruct Hc as (f & <- & Hf). destruct (G f Hf) as (c & E). rewrite E. eauto.
  Qed.
  Lemma merge_with_ok t (d : tdata V) : wf_data t -> wf_data d -> alike t d -> NoDup (map (fun f => match dget (td_map t) f with Some c => c | None => 0 end) (td_spec t)) ->
    exists m : tdata V, merge_with t d = Ok m /\ wf_data m /\ td_map m = td_map t /\ td_source m = None /\ view m (td_spec t) = view t (td_spec t) ++ view d (td_spec t).
  Proof.
    intros Wt Wd A N. unfold merge_with.
    assert (I : incl (td_spec t) (td_spec d)).
    { intros f Hf. destruct (dkeys_dget _ _ Hf) as (c & E). destruct (A f c E) as [E' _]. unfold td_spec. apply dget_key. congruence. }
    rewrite contains_negb, (proj2 (violations_true (td_spec d) (td_spec t)) I). cbn [negb].
    assert (C : forall f, In f (td_spec t) -> exists c, dget (td_map t) f = Some c /\ dget (td_map d) f = Some c).
    { intros f Hf. destruct (dkeys_dget _ _ Hf) as (c & E). exists c. split; [exact E|]. now apply A. }
    rewrite as_df_cols; [|assumption|assumption|].
    2:{ intros f c Hf E. destruct (C f Hf) as (c' & E1 & E2). rewrite E in E2. injection E2 as <-. now apply (A f). }
    cbn [rbind].
    assert (Ec : map (fun f => match dget (td_map d) f with Some c => c | None => 0 end) (td_spec t) = map (fun f => match dget (td_map t) f with Some c => c | None => 0 end) (td_spec t)).
    { apply map_ext_in. intros f Hf. destruct (C f Hf) as (c & -> & ->). reflexivity. }
    rewrite Ec. set (cols := map _ (td_spec t)) in *. destruct Wt as (Wf & Wk & Wc).
    destruct (pd_concat_ok (td_df t) (mkframe cols (view d (td_spec t)))) as (m & Em & Wm & Im & Vm); [assumption| |].
    { split; [assumption|]. cbn. intros r Hr. unfold view in Hr. apply in_map_iff in Hr. destruct Hr as (r' & <- & _). unfold cols. now rewrite !map_length. }
    rewrite Em. cbn [rbind]. eexists. split; [reflexivity|]. split; [|split; [reflexivity|split; [reflexivity|]]].
    - split; [assumption|]. split; [assumption|]. cbn. intros f c E. apply Im. now apply (Wc f).
    - assert (Ic : incl cols (fcols (td_df t))).
      { intros c Hc. unfold cols in Hc. apply in_map_iff in Hc. destruct Hc as (f & <- & Hf). destruct (C f Hf) as (c & E & _). rewrite E. now apply (Wc f). }
      assert (V1 : forall x rs, map (fun row => map (fun f => match dget (td_map t) f with Some c => cell x row c | None => None end) (td_spec t)) rs
                    = map (fun row => map (cell x row) cols) rs).
      { intros x rs. apply map_ext. intros r. unfold cols. rewrite map_map. apply map_ext_in. intros f Hf. destruct (C f Hf) as (c & -> & _). reflexivity. }
      unfold view, feat. cbn [td_map td_df]. rewrite !V1. rewrite (Vm cols); [|assumption|cbn; intros x Hx; exact Hx]. cbn [fcols frows]. f_equal.
      unfold view. rewrite map_map. apply map_ext. intros r. 
      assert (Q : forall fs, NoDup (map (fun f => match dget (td_map t) f with Some c => c | None => 0 end) fs) ->
        forall g : nat -> option V, map (cell (map (fun f => match dget (td_map t) f with Some c => c | None => 0 end) fs) (map g fs))
                            (map (fun f => match dget (td_map t) f with Some c => c | None => 0 end) fs) = map g fs).
      { clear. intros fs. generalize (fun f => match dget (td_map t) f with Some c => c | None => 0 end). intros h N g.
        induction fs as [|f r IH]; cbn; [reflexivity|]. inversion N as [|? ? Nf Nr]; subst. rewrite Nat.eqb_refl. f_equal.
        etransitivity; [|exact (IH Nr)]. apply map_ext_in. intros c Hc. destruct (h f =? c) eqn:E; [|reflexivity]. apply Nat.eqb_eq in E. subst c. tauto. }
      apply (Q (td_spec t) N).
  Qed.
  (** A table of values determines the tables of fewer features. *)
  Lemma view_sub t fs gs : incl gs fs -> NoDup fs -> view t gs = map (fun vs => map (cell fs vs) gs) (view t fs).
  Proof.
    intros I N. unfold view. rewrite map_map. apply map_ext. intros r. apply map_ext_in. intros g Hg. symmetry. now rewrite cell_map by (auto).
  Qed.
  Lemma conform_ok t s : incl s (td_spec t) -> conform_to t s = Ok (mktd (td_df t) (td_source t) (filter (fun e => provides s [fst e]) (td_map t))).
  Proof. intros I. unfold conform_to. now rewrite (proj2 (violations_true (td_spec t) s) I). Qed.
  Lemma dget_filter (d : dict nat nat) (p : nat -> bool) f : dget (filter (fun e => p (fst e)) d) f = if p f then dget d f else None.
  Proof.
    induction d as [|[k v] r IH]; cbn; [destruct (p f); reflexivity|]. destruct (p k) eqn:Pk; cbn.
    - destruct (eqd f k) as [->|D]; [now rewrite Pk|exact IH].
    - rewrite IH. destruct (eqd f k) as [->|D]; [now rewrite Pk|reflexivity].
  Qed.
  Lemma conform_view t s : forall fs, incl fs s -> view (mktd (td_df t) (td_source t) (filter (fun e => provides s [fst e]) (td_map t))) fs = view t fs.
  Proof.
    intros fs I. unfold view. cbn [td_df]. apply map_ext. intros r. apply map_ext_in. intros f Hf. unfold feat. cbn [td_map td_df].
    rewrite (dget_filter (td_map t) (fun x => provides s [x])). assert (provides s [f] = true) as ->; [|reflexivity]. apply provides_incl. intros x [<-|[]]. auto.
  Qed.
  Lemma merge_fold l t : wf_data t -> (forall d, In d l -> wf_data d /\ alike t d) ->
    NoDup (map (fun f => match dget (td_map t) f with Some c => c | None => 0 end) (td_spec t)) ->
    exists m, fold_left (fun acc d => rbind acc (fun m => merge_with m d)) l (Ok t) = Ok m /\ wf_data m /\ td_map m = td_map t
      /\ view m (td_spec t) = flat_map (fun d => view d (td_spec t)) (t :: l).
  Proof.
    revert t. induction l as [|d r IH]; intros t Wt H N; cbn [fold_left].
    - exists t. cbn. rewrite app_nil_r. auto.
    - cbn [rbind]. destruct (H d (or_introl eq_refl)) as [Wd A]. destruct (merge_with_ok t d Wt Wd A N) as (m & E & Wm & Mm & _ & Vm). rewrite E.
      destruct (IH m) as (m' & E' & Wm' & Mm' & Vm'); [assumption| | |].
      + intros x Hx. destruct (H x (or_intror Hx)) as [Wx Ax]. split; [assumption|]. unfold alike. rewrite Mm. exact Ax.
      + unfold td_spec in *. now rewrite Mm.
      + exists m'. split; [exact E'|]. split; [assumption|]. split; [congruence|]. unfold td_spec in *. rewrite Mm in Vm'. rewrite Vm'. cbn. rewrite Vm. now rewrite <- app_assoc.
  Qed.
End Data.

(** ** Stages *)
Lemma firsts_filter seen x l : firsts (x :: seen) l = firsts seen (filter (fun y => negb (y =? x)) l).
Proof.
  revert seen. induction l as [|y r IH]; intros seen; cbn [firsts filter]; [reflexivity|].
  destruct (Nat.eqb_spec y x) as [->|D]; cbn [negb].
  - rewrite (proj2 (mem_In x (x :: seen))) by (now left). apply IH.
  - cbn [firsts]. assert (E : mem y (x :: seen) = mem y seen).
    { unfold mem. cbn. rewrite (proj2 (deqb_neq y x) D). reflexivity. }
    rewrite E. destruct (mem y seen); [apply IH|]. f_equal. rewrite <- IH.
    assert (P : forall s1 s2 l, (forall z, In z s1 <-> In z s2) -> firsts s1 l = firsts s2 l).
    { clear. intros s1 s2 l. revert s1 s2. induction l as [|z l IH]; intros s1 s2 H; cbn; [reflexivity|].
      assert (M : mem z s1 = mem z s2).
      { destruct (mem z s1) eqn:E1, (mem z s2) eqn:E2; auto; [apply mem_In in E1; apply mem_nIn in E2|apply mem_nIn in E1; apply mem_In in E2]; exfalso; firstorder. }
      rewrite M. destruct (mem z s2); [now apply IH|]. f_equal. apply IH. intros y. cbn. now rewrite H. }
    apply P. intros z. cbn. tauto.
Qed.
Lemma firsts_In seen l x : In x (firsts seen l) <-> In x l /\ ~ In x seen.
Proof.
  revert seen. induction l as [|y r IH]; intros seen; cbn [firsts In]; [tauto|]. destruct (mem y seen) eqn:M.
  - apply mem_In in M. rewrite IH. split; [tauto|]. intros [[<-|H] N]; tauto.
  - apply mem_nIn in M. cbn [In]. rewrite IH. cbn [In]. split; [intros [<-|[H N]]; tauto|]. intros [[<-|H] N]; [auto|].
    destruct (Nat.eq_dec y x) as [->|D]; [auto|]. right. tauto.
Qed.
Lemma firsts_NoDup seen l : NoDup (firsts seen l).
Proof.
  revert seen. induction l as [|y r IH]; intros seen; cbn [firsts]; [constructor|]. destruct (mem y seen); [apply IH|]. constructor; [|apply IH].
  rewrite firsts_In. cbn. tauto.
Qed.
Lemma filter_filter {A} (p q : A -> bool) l : filter p (filter q l) = filter (fun x => q x && p x) l.
Proof. induction l as [|x r IH]; cbn; [reflexivity|]. destruct (q x); cbn; [destruct (p x); now rewrite IH|apply IH]. Qed.

Section Training.
  Context {W M : Type} (name : nat -> nat) (classes : nat -> cls) (needs has_done : cls -> bool) (done : nat -> W -> bool) (fit : nat -> W -> res (W * M)).
  Context (log : W -> list nat).
  Definition pending (stages : list nat) (w : W) : list nat := filter (fun i => needs (classes i) && negb (done i w)) stages.
  Hypothesis Hcls : forall i, needs (classes i) = true -> has_done (classes i) = true.
  Hypothesis Hfit : forall i w w' m, fit i w = Ok (w', m) -> done i w' = true /\ (forall j, j <> i -> done j w' = done j w) /\ log w' = log w ++ [i].
  Notation train := (train name classes needs has_done done fit).

  Lemma pending_after i w w' m r : fit i w = Ok (w', m) -> pending r w' = filter (fun y => negb (y =? i)) (pending r w).
  Proof.
    intros E. destruct (Hfit i w w' m E) as (H1 & H2 & _). unfold pending. rewrite filter_filter. apply filter_ext. intros j.
    destruct (Nat.eqb_spec j i) as [->|D]; [rewrite H1|rewrite (H2 j D)]; cbn; now rewrite ?andb_false_r, ?andb_true_r.
  Qed.
  Lemma train_ok stages : forall w ms, (forall i v, In i stages -> needs (classes i) = true -> exists p, fit i v = Ok p) ->
    exists w' ms', train stages w ms = Ok (w', ms') /\ log w' = log w ++ firsts [] (pending stages w)
      /\ (forall i, done i w' = done i w || mem i (pending stages w))
      /\ (forall n, In n (dkeys ms') <-> In n (dkeys ms) \/ exists i, In i (pending stages w) /\ name i = n).
  Proof.
    induction stages as [|i r IH]; intros w ms F; cbn [Train_model.train].
    - exists w, ms. split; [reflexivity|]. cbn. rewrite app_nil_r. split; [reflexivity|]. split; [intros i; now rewrite orb_false_r|].
      intros n. split; [auto|]. intros [H|(i & [] & _)]. exact H.
    - assert (Fr : forall i v, In i r -> needs (classes i) = true -> exists p, fit i v = Ok p) by (intros j v Hj; apply F; now right).
      change (pending (i :: r) w) with (if needs (classes i) && negb (done i w) then i :: pending r w else pending r w).
      destruct (needs (classes i)) eqn:N; cbn [negb andb]; [|now apply IH].
      unfold ask_done. rewrite (Hcls i N). cbn [rbind]. destruct (done i w) eqn:D; cbn [negb]; [now apply IH|].
      destruct (F i w (or_introl eq_refl) N) as ([w1 m1] & E). rewrite E. cbn [rbind fst snd].
      destruct (IH w1 (dset ms (name i) m1) Fr) as (w' & ms' & E' & L & Dn & K). exists w', ms'. split; [exact E'|].
      destruct (Hfit i w w1 m1 E) as (H1 & H2 & H3). rewrite (pending_after i w w1 m1 r E) in *.
      split; [|split].
      + rewrite L, H3. cbn [firsts]. change (mem i []) with false. cbn [negb]. rewrite firsts_filter, <- app_assoc. reflexivity.
      + intros j. rewrite Dn. unfold mem at 2. cbn [existsb]. fold (mem j (pending r w)). unfold deqb. destruct (eqd j i) as [->|Dj].
        * rewrite H1, D. cbn. reflexivity.
        * rewrite (H2 j Dj). cbn [orb]. f_equal.
          destruct (mem j (pending r w)) eqn:M1, (mem j (filter (fun y => negb (y =? i)) (pending r w))) eqn:M2; auto; exfalso.
          -- apply mem_In in M1. apply mem_nIn in M2. apply M2. apply filter_In. split; [assumption|]. apply negb_true_iff. now apply Nat.eqb_neq.
          -- apply mem_nIn in M1. apply mem_In in M2. apply filter_In in M2. tauto.
      + intros n. rewrite K. split.
        * intros [H|(j & Hj & Ej)].
          -- apply dkeys_dset in H. destruct H as [->|H]; [right; exists i; cbn; auto|auto].
          -- apply filter_In in Hj. right. exists j. cbn. tauto.
        * intros [H|(j & [<-|Hj] & Ej)].
          -- left. apply dkeys_dset. auto.
          -- left. apply dkeys_dset. auto.
          -- destruct (Nat.eq_dec j i) as [->|Dj]; [left; apply dkeys_dset; auto|]. right. exists j. split; [|assumption]. apply filter_In.
             split; [assumption|]. apply negb_true_iff. now apply Nat.eqb_neq.
  Qed.
  Lemma train_nothing stages : forall w ms, pending stages w = [] -> train stages w ms = Ok (w, ms).
  Proof.
    induction stages as [|i r IH]; intros w ms P; cbn [Train_model.train]; [reflexivity|].
    change (pending (i :: r) w) with (if needs (classes i) && negb (done i w) then i :: pending r w else pending r w) in P.
    destruct (needs (classes i)) eqn:N; cbn [negb andb] in *; [|now apply IH]. unfold ask_done. rewrite (Hcls i N). cbn [rbind].
    destruct (done i w); cbn [negb] in P; [now apply IH|discriminate].
  Qed.
  Lemma fit_completed_ok stages w : fit_completed classes needs has_done done stages w = Ok (match pending stages w with [] => true | _ => false end).
  Proof.
    induction stages as [|i r IH]; cbn [fit_completed]; [reflexivity|].
    change (pending (i :: r) w) with (if needs (classes i) && negb (done i w) then i :: pending r w else pending r w).
    destruct (needs (classes i)) eqn:N; cbn [negb andb]; [|exact IH]. unfold ask_done. rewrite (Hcls i N). cbn [rbind].
    destruct (done i w); cbn [negb]; [exact IH|reflexivity].
  Qed.
  Lemma train_fails stages : forall w ms e, (forall i v, (exists p, fit i v = Ok p) \/ fit i v = Raise e) ->
    (exists i, In i (pending stages w) /\ forall v, fit i v = Raise e) -> train stages w ms = Raise e.
  Proof.
    induction stages as [|i r IH]; intros w ms e F (j & Hj & Ej); cbn [Train_model.train]; [destruct Hj|].
    change (pending (i :: r) w) with (if needs (classes i) && negb (done i w) then i :: pending r w else pending r w) in Hj.
    destruct (needs (classes i)) eqn:N; cbn [negb andb] in *; [|apply IH; eauto]. unfold ask_done. rewrite (Hcls i N). cbn [rbind].
    destruct (done i w); cbn [negb] in Hj; [apply IH; eauto|]. destruct (F i w) as [([w1 m1] & E)|E]; rewrite E; cbn [rbind fst snd]; [|reflexivity].
    apply IH; [assumption|]. exists j. split; [|assumption]. rewrite (pending_after i w w1 m1 r E). apply filter_In.
    destruct Hj as [<-|Hj]; [rewrite Ej in E; discriminate|]. split; [assumption|]. apply negb_true_iff, Nat.eqb_neq. intros ->. rewrite Ej in E. discriminate.
  Qed.
End Training.
