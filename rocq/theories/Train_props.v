(** C110 to C113: training specifications, training data, repositories, and the training of pipelines. *)
From Coq Require Import List Bool Arith Lia.
From Verif Require Import PyBase Train_model Train_spec Train_proofs.
Import ListNotations.

(** ** C110: specifications *)
Theorem C110_missing_features s other f : In f (satisfies s other) <-> In f other /\ ~ In f s.
Proof. apply satisfies_In. Qed.
Print Assumptions C110_missing_features.
Theorem C110_satisfies_iff s other : violations_bool (satisfies s other) = true <-> (forall f, In f other -> In f s).
Proof. apply violations_true. Qed.
Print Assumptions C110_satisfies_iff.
Theorem C110_contains_violations s other : contains_violations (satisfies s other) = negb (violations_bool (satisfies s other)).
Proof. apply contains_negb. Qed.
Print Assumptions C110_contains_violations.
Theorem C110_provides_iff s fs : provides s fs = true <-> (forall f, In f fs -> In f s).
Proof. apply provides_incl. Qed.
Print Assumptions C110_provides_iff.
Theorem C110_preorder s t u : violations_bool (satisfies s s) = true
  /\ (violations_bool (satisfies s t) = true -> violations_bool (satisfies t u) = true -> violations_bool (satisfies s u) = true).
Proof. rewrite !violations_true. split; [intros f H; exact H|]. intros H1 H2 f H. auto. Qed.
Print Assumptions C110_preorder.
(** Equal means mutually satisfying; equal specifications have the same hash and are interchangeable. *)
Theorem C110_equality s t (hash : list nat -> nat) : (forall a b, (forall f, In f a <-> In f b) -> hash a = hash b) ->
  (spec_eq s t = true <-> violations_bool (satisfies s t) = true /\ violations_bool (satisfies t s) = true)
  /\ (spec_eq s t = true -> spec_hash hash s = spec_hash hash t)
  /\ (spec_eq s t = true -> forall u, violations_bool (satisfies s u) = violations_bool (satisfies t u) /\ violations_bool (satisfies u s) = violations_bool (satisfies u t)).
Proof.
  intros Hh. unfold spec_eq. assert (E : seteqb s t = true <-> incl s t /\ incl t s).
  { rewrite seteqb_seteq. unfold seteq, incl. firstorder. }
  split; [rewrite E, !violations_true; tauto|]. split.
  - intros H. apply E in H. apply Hh. unfold incl in H. firstorder.
  - intros H u. apply E in H. destruct H as [H1 H2].
    assert (B : forall b c : bool, (b = true <-> c = true) -> b = c) by (intros [] [] [X Y]; auto; symmetry; auto).
    split; apply B; rewrite !violations_true; split; intros H f Hf; auto.
Qed.
Print Assumptions C110_equality.
Example C110_case : satisfies [1; 2] [2; 3; 3] = [3] /\ violations_bool (satisfies [1; 2] [2; 3]) = false /\ violations_bool (satisfies [1; 2; 3] [3; 2; 2]) = true
  /\ spec_eq [1; 2; 2] [2; 1] = true /\ provides [1; 2] [2] = true /\ provides [1; 2] [3] = false.
Proof. repeat split. Qed.

(** ** C111: training data *)
(** conform_to works exactly if the features are there; it keeps their values and forgets the other features. *)
Theorem C111_conform_to {V} (t : tdata V) s :
  ((forall f, In f s -> In f (td_spec t)) ->
     exists t', conform_to t s = Ok t' /\ (forall f, In f (td_spec t') <-> In f s) /\ view t' s = view t s /\ td_df t' = td_df t)
  /\ (~ (forall f, In f s -> In f (td_spec t)) -> conform_to t s = Raise ValueError).
Proof.
  split.
  - intros I. eexists. split; [apply (conform_ok t s I)|]. split; [|split; [apply conform_view; intros f H; exact H|reflexivity]].
    intros f. unfold td_spec at 1. cbn [td_map]. rewrite <- dget_key, (dget_filter (td_map t) (fun x => provides s [x])).
    destruct (provides s [f]) eqn:P.
    + apply provides_incl in P. rewrite dget_key. split; [intros _; apply P; now left|]. intros H. now apply I.
    + split; [congruence|]. intros H. exfalso. assert (X : provides s [f] = true) by (apply provides_incl; intros x [<-|[]]; exact H). congruence.
  - intros N. unfold conform_to. destruct (violations_bool (satisfies (td_spec t) s)) eqn:E; [|reflexivity]. apply violations_true in E. tauto.
Qed.
Print Assumptions C111_conform_to.
(** as_df: the columns are called like the features, if they already were. *)
Theorem C111_as_df_partial {V} (t : tdata V) s : wf_data t -> (forall f, In f s -> dget (td_map t) f = Some f) ->
  as_df t (Some s) = Ok (mkframe s (view t s)).
Proof.
  intros W H. rewrite as_df_cols; [|assumption| |].
  - do 2 f_equal. rewrite <- (map_id s) at 2. apply map_ext_in. intros f Hf. now rewrite (H f Hf).
  - intros f Hf. unfold td_spec. apply dget_key. rewrite (H f Hf). discriminate.
  - intros f c Hf E. rewrite (H f Hf) in E. injection E as <-. auto.
Qed.
Print Assumptions C111_as_df_partial.
Theorem C111_as_df_rejects {V} (t : tdata V) s : ~ (forall f, In f s -> In f (td_spec t)) -> as_df t (Some s) = Raise ValueError.
Proof.
  intros N. unfold as_df. destruct (violations_bool (satisfies (td_spec t) s)) eqn:E; [|reflexivity]. apply violations_true in E. tauto.
Qed.
Print Assumptions C111_as_df_rejects.
(** merge_with: all samples of both data sets, if their features are in columns of the same names. *)
Theorem C111_merge_with_partial {V} (t d : tdata V) : wf_data t -> wf_data d -> alike t d ->
  NoDup (map (fun f => match dget (td_map t) f with Some c => c | None => 0 end) (td_spec t)) ->
  exists m, merge_with t d = Ok m /\ wf_data m /\ td_map m = td_map t /\ td_source m = None /\ view m (td_spec t) = view t (td_spec t) ++ view d (td_spec t).
Proof. apply merge_with_ok. Qed.
Print Assumptions C111_merge_with_partial.
Theorem C111_merge_with_rejects {V} (t d : tdata V) : ~ (forall f, In f (td_spec t) -> In f (td_spec d)) -> merge_with t d = Raise ValueError.
Proof.
  intros N. unfold merge_with. rewrite contains_negb. destruct (violations_bool (satisfies (td_spec d) (td_spec t))) eqn:E; [|reflexivity].
  apply violations_true in E. tauto.
Qed.
Print Assumptions C111_merge_with_rejects.
(** from_df names the features like the columns, so that the results above apply. *)
Theorem C111_from_df {V} (parse : V -> res V) q (f : frame V) src t : wf_frame f -> from_df parse q f src = Ok t ->
  wf_data t /\ td_source t = src /\ length (frows (td_df t)) = length (frows f)
  /\ (forall g, dget (td_map t) g = if mem g (fcols f) then Some g else None) /\ (~ In q (fcols f) -> td_df t = f).
Proof.
  intros [N L] E. unfold from_df in E. set (mc := fun e : nat * option V => _) in E.
  assert (X : exists rows, (if mem q (fcols f) then rmapM (fun r => rmapM mc (combine (fcols f) r)) (frows f) else Ok (frows f)) = Ok rows
    /\ t = mktd (mkframe (fcols f) rows) src (dict_of (map (fun c => (c, c)) (fcols f)))).
  { destruct (if mem q (fcols f) then _ else _) as [rows|]; cbn in E; [|discriminate]. injection E as <-. now exists rows. }
  clear E. destruct X as (rows & E & ->). cbn [td_df td_source td_map].
  assert (R : length rows = length (frows f) /\ (forall r, In r rows -> length r = length (fcols f)) /\ (~ In q (fcols f) -> rows = frows f)).
  { destruct (mem q (fcols f)) eqn:M.
    - assert (RL : forall {A B} (g : A -> res B) l l', rmapM g l = Ok l' -> length l' = length l /\ forall y, In y l' -> exists x, In x l /\ g x = Ok y).
      { clear. intros A B g l. induction l as [|a r IH]; intros l'; cbn; [intros [= <-]; split; [reflexivity|intros y []]|].
        destruct (g a) as [b|] eqn:Ea; cbn; [|discriminate]. destruct (rmapM g r) as [bs|]; cbn; [|discriminate]. intros [= <-].
        destruct (IH bs eq_refl) as [H1 H2]. split; [cbn; now rewrite H1|]. intros y [<-|Hy]; [exists a; auto|]. destruct (H2 y Hy) as (x & Hx & Ex). exists x. auto. }
      destruct (RL _ _ _ _ _ E) as [H1 H2]. split; [assumption|]. split; [|intros X; apply mem_In in M; tauto].
      intros r Hr. destruct (H2 r Hr) as (x & Hx & Ex). destruct (RL _ _ _ _ _ Ex) as [H3 _]. rewrite H3, combine_length, (L x Hx). lia.
    - injection E as <-. auto. }
  destruct R as (R1 & R2 & R3).
  assert (D : forall g, dget (dict_of (map (fun c => (c, c)) (fcols f))) g = if mem g (fcols f) then Some g else None).
  { intros g. rewrite dict_of_spec. clear. induction (fcols f) as [|c r IH]; [reflexivity|]. cbn [map lastval]. rewrite IH.
    unfold mem. cbn [existsb]. fold (mem g r). unfold deqb. destruct (eqd g c) as [->|X]; destruct (mem _ r); reflexivity. }
  split; [|split; [reflexivity|split; [assumption|split; [assumption|]]]].
  - split; [split; cbn; assumption|]. split; [apply dwf_fold_dset; constructor|]. cbn [td_map td_df fcols]. intros g c Hg. rewrite D in Hg.
    destruct (mem g (fcols f)) eqn:M; [|discriminate]. injection Hg as <-. now apply mem_In.
  - intros X. rewrite (R3 X). destruct f; reflexivity.
Qed.
Print Assumptions C111_from_df.
(** The data set has columns 10 and 11 for the features 1 and 2. *)
Definition ds1 : tdata nat := mktd (mkframe [10; 11] [[Some 5; Some 6]; [Some 7; None]]) None [(1, 10); (2, 11)].
Definition ds2 : tdata nat := mktd (mkframe [11; 12; 10] [[Some 8; Some 0; Some 9]]) None [(1, 10); (2, 11); (3, 12)].
Example C111_case : wf_data ds1 /\ wf_data ds2 /\ alike ds1 ds2 /\ view ds1 [2; 1] = [[Some 6; Some 5]; [None; Some 7]]
  /\ (exists m, merge_with ds1 ds2 = Ok m /\ view m [1; 2] = [[Some 5; Some 6]; [Some 7; None]; [Some 9; Some 8]]).
Proof.
  split; [|split; [|split; [|split; [reflexivity|]]]].
  - split; [split; [repeat constructor; cbn; lia|cbn; intros r [<-|[<-|[]]]; reflexivity]|]. split; [repeat constructor; cbn; lia|].
    cbn. intros f c. destruct (eqd f 1); [intros [= <-]; auto|]. destruct (eqd f 2); [intros [= <-]; auto|discriminate].
  - split; [split; [repeat constructor; cbn; lia|cbn; intros r [<-|[]]; reflexivity]|]. split; [repeat constructor; cbn; lia|].
    cbn. intros f c. destruct (eqd f 1); [intros [= <-]; auto|]. destruct (eqd f 2); [intros [= <-]; auto|]. destruct (eqd f 3); [intros [= <-]; auto|discriminate].
  - intros f c H. cbn in *. destruct (eqd f 1) as [->|]; [injection H as <-; cbn; auto|]. destruct (eqd f 2) as [->|]; [injection H as <-; cbn; auto|discriminate].
  - eexists. split; reflexivity.
Qed.
(** In general the columns of the data frame are not called like the features, *)
Theorem C111_as_df_refuted : ~ (forall (t : tdata nat) s f, wf_data t -> as_df t s = Ok f -> forall x, In x (td_spec t) -> s = None -> In x (fcols f)).
Proof.
  intros H. specialize (H ds1 None (mkframe [10; 11] [[Some 5; Some 6]; [Some 7; None]]) (proj1 C111_case) eq_refl 1 (or_introl eq_refl) eq_refl).
  cbn in H. lia.
Qed.
Print Assumptions C111_as_df_refuted.
Theorem C111_as_df_spec_refuted : exists (t : tdata nat) s f, wf_data t /\ (forall x, In x s -> In x (td_spec t)) /\ as_df t (Some s) = Ok f /\ fcols f <> s.
Proof.
  exists ds1, [1; 2], (mkframe [10; 11] [[Some 5; Some 6]; [Some 7; None]]). split; [apply C111_case|]. split; [intros x H; exact H|]. split; [reflexivity|].
  cbn. discriminate.
Qed.
Print Assumptions C111_as_df_spec_refuted.
(** and when data sets with different column names are merged, then values are lost. *)
Definition ds3 : tdata nat := mktd (mkframe [1; 2] [[Some 8; Some 9]]) None [(1, 1); (2, 2)].
Theorem C111_merge_with_refuted : exists (t d m : tdata nat), wf_data t /\ wf_data d /\ (forall f, In f (td_spec t) <-> In f (td_spec d))
  /\ merge_with t d = Ok m /\ view m (td_spec t) <> view t (td_spec t) ++ view d (td_spec t) /\ In [None; None] (view m (td_spec t)) /\ ~ In [None; None] (view d (td_spec t)).
Proof.
  exists ds1, ds3. eexists. split; [apply C111_case|]. split; [|split; [|split; [reflexivity|split; [discriminate|split; [cbn; auto|]]]]].
  - split; [split; [repeat constructor; cbn; lia|cbn; intros r [<-|[]]; reflexivity]|]. split; [repeat constructor; cbn; lia|].
    cbn. intros f c. destruct (eqd f 1) as [->|]; [intros [= <-]; auto|]. destruct (eqd f 2) as [->|]; [intros [= <-]; auto|discriminate].
  - intros f. cbn. tauto.
  - cbn. intros [H|[]]. discriminate.
Qed.
Print Assumptions C111_merge_with_refuted.

(** ** C112: repositories *)
Theorem C112_retrieve_all {V} (r : list (tdata V)) s :
  (forall t, In t (retrieve_all r s) <-> In t r /\ forall f, In f s -> In f (td_spec t))
  /\ (forall t, retrieve_all (register r t) s = retrieve_all r s ++ retrieve_all [t] s).
Proof.
  split; [intros t; unfold retrieve_all; now rewrite filter_In, violations_true|]. intros t. unfold retrieve_all, register. now rewrite filter_app.
Qed.
Print Assumptions C112_retrieve_all.
Theorem C112_retrieve_first {V} (r : list (tdata V)) s :
  (retrieve_first r s = Ok None <-> retrieve_all r s = [])
  /\ (forall t l, retrieve_all r s = t :: l -> exists t', retrieve_first r s = Ok (Some t') /\ (forall f, In f (td_spec t') <-> In f s) /\ view t' s = view t s).
Proof.
  assert (F : find (fun t => violations_bool (satisfies (td_spec t) s)) r = match retrieve_all r s with [] => None | t :: _ => Some t end).
  { induction r as [|t l IH]; cbn; [reflexivity|]. destruct (violations_bool _); [reflexivity|exact IH]. }
  unfold retrieve_first. rewrite F.
  assert (C : forall t l, retrieve_all r s = t :: l -> forall f, In f s -> In f (td_spec t)).
  { intros t l E. apply C112_retrieve_all with (r := r). rewrite E. now left. }
  split.
  - destruct (retrieve_all r s) as [|t l] eqn:E; [tauto|]. destruct (proj1 (C111_conform_to t s) (C t l eq_refl)) as (t' & -> & _). cbn. split; discriminate.
  - intros t l E. rewrite E. destruct (proj1 (C111_conform_to t s) (C t l E)) as (t' & -> & H1 & H2 & _). cbn. exists t'. auto.
Qed.
Print Assumptions C112_retrieve_first.
(** retrieve_merged: all samples of all matching data sets, if the later ones have all features of the first one, in columns of the same names. *)
Theorem C112_retrieve_merged_partial {V} (r : list (tdata V)) s t l : retrieve_all r s = t :: l -> wf_data t -> (forall d, In d l -> wf_data d /\ alike t d) ->
  NoDup (map (fun f => match dget (td_map t) f with Some c => c | None => 0 end) (td_spec t)) ->
  exists m, retrieve_merged r s = Ok (Some m) /\ (forall f, In f s -> In f (td_spec m)) /\ view m s = flat_map (fun d => view d s) (t :: l).
Proof.
  intros E Wt A N. unfold retrieve_merged. rewrite E.
  assert (C : forall d, In d (t :: l) -> forall f, In f s -> In f (td_spec d)) by (intros d Hd; apply C112_retrieve_all with (r := r); now rewrite E).
  destruct l as [|d l'].
  - exists t. split; [reflexivity|]. split; [apply C; now left|]. cbn. now rewrite app_nil_r.
  - unfold merge. destruct (merge_fold (d :: l') t Wt A N) as (m & -> & Wm & Mm & Vm). cbn [rbind].
    assert (Sm : td_spec m = td_spec t) by (unfold td_spec; now rewrite Mm).
    destruct (proj1 (C111_conform_to m s)) as (m' & -> & H1 & H2 & _); [rewrite Sm; apply C; now left|].
    cbn [rmap rbind]. exists m'. split; [reflexivity|]. split; [intros f; apply H1|]. rewrite H2.
    assert (Nk : NoDup (td_spec t)) by apply Wt.
    rewrite (view_sub m (td_spec t) s) by (auto; intros f; apply C; now left). rewrite Vm. rewrite flat_map_concat_map, concat_map, map_map.
    rewrite flat_map_concat_map. f_equal. apply map_ext_in. intros x Hx. symmetry. apply view_sub; [|assumption]. intros f. apply C. now left.
Qed.
Print Assumptions C112_retrieve_merged_partial.
Theorem C112_retrieve_merged_none {V} (r : list (tdata V)) s : retrieve_merged r s = Ok None <-> (forall t, In t r -> ~ forall f, In f s -> In f (td_spec t)).
Proof.
  assert (X : retrieve_all r s = [] <-> (forall t, In t r -> ~ forall f, In f s -> In f (td_spec t))).
  { split.
    - intros E t Ht H. assert (Y : In t (retrieve_all r s)) by (apply C112_retrieve_all; auto). rewrite E in Y. destruct Y.
    - intros H. destruct (retrieve_all r s) as [|t l] eqn:E; [reflexivity|]. exfalso.
      assert (Y : In t (retrieve_all r s)) by (rewrite E; now left). apply C112_retrieve_all in Y. destruct Y as [Y1 Y2]. exact (H t Y1 Y2). }
  rewrite <- X. unfold retrieve_merged. destruct (retrieve_all r s) as [|t [|d l]]; [tauto|split; discriminate|].
  split; [|discriminate]. destruct (merge _ s); discriminate.
Qed.
Print Assumptions C112_retrieve_merged_none.
Example C112_case : exists m, retrieve_merged [ds1; ds2] [2] = Ok (Some m) /\ view m [2] = [[Some 6]; [None]; [Some 8]] /\ td_spec m = [2].
Proof. eexists. split; [reflexivity|]. split; reflexivity. Qed.
(** A single data set is handed out with all of its features. *)
Theorem C112_single_refuted : exists (r : list (tdata nat)) s m, retrieve_merged r s = Ok (Some m) /\ spec_eq (td_spec m) s = false.
Proof. exists [ds2], [2], ds2. split; reflexivity. Qed.
Print Assumptions C112_single_refuted.
(** Data sets that all have the features asked for cannot be merged, if the first one has further features. *)
Theorem C112_merge_refuted : exists (r : list (tdata nat)) s, length (retrieve_all r s) = 2 /\ (forall t, In t r -> wf_data t)
  /\ retrieve_merged r s = Raise ValueError /\ is_ok (retrieve_merged (rev r) s) = true.
Proof.
  exists [ds2; ds1], [2]. split; [reflexivity|]. split; [|split; reflexivity]. intros t [<-|[<-|[]]]; apply C111_case.
Qed.
Print Assumptions C112_merge_refuted.

(** ** C113: training *)
(** A class that can be instantiated and that can be fitted also knows whether it has been fitted. *)
Theorem C113_complete_classes c : can_create c = true ->
  (requires_db c = true -> o_done_db c = true) /\ (requires_wl c = true -> o_done_wl c = true)
  /\ (requires_s c = true -> o_spec_s c = true /\ o_done_s c = true).
Proof. destruct c as [[] [] [] [] [] [] [] o]; cbn; intros H; try discriminate; repeat split; intros; try discriminate; reflexivity. Qed.
Print Assumptions C113_complete_classes.
Theorem C113_incomplete_classes c : can_create c = false <->
  o_fit_db c <> o_done_db c \/ o_fit_wl c <> o_done_wl c \/ ~ (o_fit_s c = o_spec_s c /\ o_spec_s c = o_done_s c).
Proof. destruct c as [[] [] [] [] [] [] [] o]; cbn; split; intros H; try discriminate; try reflexivity; intuition congruence. Qed.
Print Assumptions C113_incomplete_classes.

(** Exactly the stages that need training and have not been trained are trained, once each. *)
Theorem C113_train {W M} (name : nat -> nat) (classes : nat -> cls) needs has_done (done : nat -> W -> bool) (fit : nat -> W -> res (W * M)) (log : W -> list nat) stages w :
  (forall i, needs (classes i) = true -> has_done (classes i) = true) ->
  (forall i w w' m, fit i w = Ok (w', m) -> done i w' = true /\ (forall j, j <> i -> done j w' = done j w) /\ log w' = log w ++ [i]) ->
  (forall i v, In i stages -> needs (classes i) = true -> exists p, fit i v = Ok p) ->
  exists w' ms ran, train name classes needs has_done done fit stages w [] = Ok (w', ms) /\ log w' = log w ++ ran /\ NoDup ran
    /\ (forall i, In i ran <-> In i stages /\ needs (classes i) = true /\ done i w = false)
    /\ (forall i, In i stages -> needs (classes i) = true -> done i w' = true)
    /\ (forall n, In n (dkeys ms) <-> exists i, In i ran /\ name i = n)
    /\ fit_completed classes needs has_done done stages w' = Ok true
    /\ train name classes needs has_done done fit stages w' [] = Ok (w', []).
Proof.
  intros Hc Hf Ht. destruct (train_ok name classes needs has_done done fit log Hc Hf stages w [] Ht) as (w' & ms & E & L & D & K).
  exists w', ms, (firsts [] (pending classes needs done stages w)).
  assert (P : forall i, In i (pending classes needs done stages w) <-> In i stages /\ needs (classes i) = true /\ done i w = false).
  { intros i. unfold pending. rewrite filter_In, andb_true_iff, negb_true_iff. reflexivity. }
  assert (T : forall i, In i stages -> needs (classes i) = true -> done i w' = true).
  { intros i Hi Ni. rewrite D. destruct (done i w) eqn:Di; [reflexivity|]. cbn. apply mem_In. apply P. auto. }
  assert (Q : pending classes needs done stages w' = []).
  { destruct (pending classes needs done stages w') as [|i r] eqn:Ep; [reflexivity|]. exfalso. assert (X : In i (pending classes needs done stages w')) by (rewrite Ep; now left).
    unfold pending in X. apply filter_In in X. destruct X as [X1 X2]. apply andb_true_iff in X2. destruct X2 as [X2 X3]. rewrite (T i X1 X2) in X3. discriminate. }
  split; [exact E|]. split; [exact L|]. split; [apply firsts_NoDup|]. split; [intros i; rewrite firsts_In, P; cbn; tauto|]. split; [exact T|].
  split; [|split].
  - intros n. rewrite K. cbn. split; [intros [[]|(i & Hi & En)]|intros (i & Hi & En); right]; exists i; (split; [|exact En]);
      [rewrite firsts_In; cbn; tauto|apply firsts_In in Hi; tauto].
  - rewrite (fit_completed_ok classes needs has_done done Hc). now rewrite Q.
  - now apply train_nothing.
Qed.
Print Assumptions C113_train.
(** Without stages that need training, nothing happens. *)
Theorem C113_nothing_to_do {W M} (name : nat -> nat) (classes : nat -> cls) needs has_done (done : nat -> W -> bool) (fit : nat -> W -> res (W * M)) stages w :
  requires_training classes needs stages = false -> train name classes needs has_done done fit stages w [] = Ok (w, []).
Proof.
  unfold requires_training. induction stages as [|i r IH]; cbn; [reflexivity|]. destruct (needs (classes i)); cbn; [discriminate|exact IH].
Qed.
Print Assumptions C113_nothing_to_do.
(** If a stage that has to be trained finds no samples, then the training is refused. *)
Theorem C113_missing_samples {W M V} (name : nat -> nat) (classes : nat -> cls) (done : nat -> W -> bool) (log : W -> list nat) (r : list (tdata V)) spec_of
  (fit : nat -> tdata V -> W -> res (W * M)) stages w i :
  (forall i, can_create (classes i) = true) ->
  (forall i d w w' m, fit i d w = Ok (w', m) -> done i w' = true /\ (forall j, j <> i -> done j w' = done j w) /\ log w' = log w ++ [i]) ->
  (forall i d v, exists p, fit i d v = Ok p) -> (forall i, is_ok (retrieve_merged r (spec_of i)) = true) ->
  In i stages -> requires_s (classes i) = true -> done i w = false ->
  (forall t, In t r -> ~ forall f, In f (spec_of i) -> In f (td_spec t)) ->
  train_on_samples name classes done (samples_for (inr r) spec_of) fit stages w = Raise ValueError.
Proof.
  intros Hc Hf Ht Hr Hi Ni Di Hn. unfold train_on_samples.
  assert (F : forall j v, (exists p, fit_sample (samples_for (inr r) spec_of) fit j v = Ok p) \/ fit_sample (samples_for (inr r) spec_of) fit j v = Raise ValueError).
  { intros j v. unfold fit_sample, samples_for. specialize (Hr j). destruct (retrieve_merged r (spec_of j)) as [[d|]|]; cbn; [left; apply Ht|right; reflexivity|discriminate]. }
  apply (train_fails name classes requires_s o_done_s done _ log); [|  |exact F|].
  - intros j Hj. apply (C113_complete_classes _ (Hc j)). exact Hj.
  - intros j v v' m E. unfold fit_sample in E. destruct (samples_for (inr r) spec_of j) as [[d|]|]; cbn in E; try discriminate. now apply (Hf j d v v' m).
  - exists i. split; [unfold pending; apply filter_In; rewrite Ni, Di; auto|]. intros v. unfold fit_sample, samples_for.
    rewrite (proj2 (C112_retrieve_merged_none r (spec_of i)) Hn). reflexivity.
Qed.
Print Assumptions C113_missing_samples.
(** Three stages, the first two are the same object, the third is already trained. *)
Definition all_cls : cls := mkcls true true true true true true true true.
Definition w_done (i : nat) (w : list nat * list nat) : bool := mem i (fst w).
Definition w_fit (i : nat) (w : list nat * list nat) : res ((list nat * list nat) * nat) := Ok ((i :: fst w, snd w ++ [i]), i + 100).
Example C113_case : train (fun i => i) (fun _ => all_cls) requires_db o_done_db w_done w_fit [1; 1; 2; 3] ([2], []) [] = Ok (([3; 1; 2], [1; 3]), [(1, 101); (3, 103)])
  /\ can_create all_cls = true /\ can_create (mkcls false false false false true false true false) = false.
Proof. repeat split. Qed.
Example C113_case_hypotheses : forall i w w' m, w_fit i w = Ok (w', m) -> w_done i w' = true /\ (forall j, j <> i -> w_done j w' = w_done j w) /\ snd w' = snd w ++ [i].
Proof.
  unfold w_fit, w_done. intros i w w' m [= <- _]. cbn [fst snd]. split; [apply mem_In; now left|]. split; [|reflexivity]. intros j D. unfold mem. cbn.
  now rewrite (proj2 (deqb_neq j i) D).
Qed.
(** The metrics of a stage are overwritten by those of another stage with the same name. *)
Theorem C113_metrics_refuted : exists (name : nat -> nat) w ms, train name (fun _ => all_cls) requires_db o_done_db w_done w_fit [1; 2] ([], []) [] = Ok (w, ms)
  /\ snd w = [1; 2] /\ length ms = 1.
Proof. exists (fun _ => 7), ([2; 1], [1; 2]), [(7, 102)]. repeat split. Qed.
Print Assumptions C113_metrics_refuted.
