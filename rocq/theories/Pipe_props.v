(** Property theorems for C46 and C68 (optimization pipelines). *)
From Coq Require Import List Bool Arith Lia.
From Verif Require Import PyBase Check_model Check_spec Check_proofs Check_props Pipe_model Pipe_spec Pipe_proofs.
Import ListNotations.

(** A component that rejects database system 1 and all queries above 9, and one that accepts everything. *)
Definition picky : comp nat nat := mkcomp 1 (CAtom (mkatom 1 1 0 (fun q => mkres (q <? 10) (RStr 5)) (fun d => mkres (d =? 0) (RStr 6)))).
Definition fine : comp nat nat := mkcomp 2 CEmpty.
(** A component with an unrelated check that is always fulfilled. *)
Definition other : comp nat nat := mkcomp 3 (CAtom (mkatom 2 2 0 (fun q => all_passed) (fun d => all_passed))).

(** C46: the incremental pipeline only ever runs with components that support its database system. *)
Theorem C46_incremental : forall Q D is_sql (d0 : D) (ops : list (nop Q D)) d cs q c,
  In (Ran d cs q) (run (n_step is_sql) (n_start d0) ops) -> In c cs -> supports_db d c.
Proof.
  intros Q D is_sql d0 ops d cs q c Hin Hc. apply run_In in Hin as (pre & op & post & _ & E). apply n_ran in E as (_ & -> & -> & _).
  apply (exec_inv (n_step is_sql) n_good (n_inv is_sql) pre (n_start d0)); [intros c' []|exact Hc].
Qed.
Print Assumptions C46_incremental.
(** C46 is false for the integrated pipeline: a new algorithm is used without being checked; calling build() does not help if it
    fails. *)
Theorem C46_integrated_refuted : let s := i_init 1 in
  ~ supports_db 1 picky /\
  In (Ran 1 [picky] 3) (run (i_step (fun _ => true)) s [IUse fine; IBuild; IUse picky; IRun 3]) /\
  run (i_step (fun _ => true)) s [IUse fine; IBuild; IUse picky; IBuild; IRun 3] = [Done; Done; Done; Failed StateError; Ran 1 [picky] 3].
Proof. split; [discriminate|]. split; [vm_compute; auto|reflexivity]. Qed.
Print Assumptions C46_integrated_refuted.
(** C46: it holds as long as every new algorithm is built at once and no call fails. *)
Theorem C46_integrated_partial : forall Q D is_sql (d0 : D) (ops : list (iop Q D)), careful ops -> no_failure (run (i_step is_sql) (i_init d0) ops) ->
  forall d cs q c, In (Ran d cs q) (run (i_step is_sql) (i_init d0) ops) -> In c cs -> supports_db d c.
Proof. intros Q D is_sql d0 ops Hc Hn d cs q c Hin H. exact (i_careful is_sql ops Hc (i_init d0) (fun Hb => match Bool.diff_false_true Hb with end) Hn d cs q Hin c H). Qed.
Print Assumptions C46_integrated_partial.
Example C46_integrated_ex : let ops := [IUse picky; IBuild; IRun 3; ISetDb 0; IUse fine; IBuild; IRun 12] in careful ops /\
  run (i_step (fun _ => true)) (i_init 0) ops = [Done; Done; Ran 0 [picky] 3; Done; Done; Done; Ran 0 [fine] 12].
Proof. split; [repeat constructor|reflexivity]. Qed.

(** C46: the textbook pipeline runs only if build() was called after the last change, and if the merged check of exactly its
    components accepts the database system. *)
Theorem C46_textbook_partial : forall Q D is_sql (d0 : D) e c n (ops : list (top Q D)) d cs q, In (Ran d cs q) (run (t_step is_sql) (t_init d0 e c n) ops) ->
  passed (check_db (merge_checks (map cp_check cs)) d) = true /\
  forall a, (forall x, In x cs -> cp_check x = CEmpty \/ cp_check x = CAtom a) -> forall x, In x cs -> supports_db d x.
Proof.
  intros Q D is_sql d0 e c n ops d cs q Hin. apply run_In in Hin as (pre & op & post & _ & E). apply t_ran in E as (_ & Hb & -> & -> & _).
  assert (Hg : t_good (exec (t_step is_sql) (t_init d0 e c n) pre)) by (apply (exec_inv (t_step is_sql) t_good (t_inv is_sql)); intros H; discriminate).
  destruct (Hg Hb) as [H1 H2]. set (s := exec _ _ _) in *. rewrite H1 in H2. split; [assumption|]. intros a Ha x Hx. unfold supports_db.
  destruct (merge_single a (map cp_check (t_comps s))) as [[E He]|E].
  - intros k Hk. apply in_map_iff in Hk as (y & <- & Hy). auto.
  - rewrite (He (cp_check x)); [reflexivity|]. now apply in_map.
  - rewrite E in H2. destruct (Ha x Hx) as [->| ->]; [reflexivity|exact H2].
Qed.
Print Assumptions C46_textbook_partial.
(** C46 is false as soon as two components have different checks: the merged check accepts every database system. *)
Theorem C46_textbook_refuted : ~ supports_db 1 picky /\ In (Ran 1 [picky; other; fine] 3) (run (t_step (fun _ => true)) (t_init 1 picky other fine) [TBuild; TRun 3]).
Proof. split; [discriminate|vm_compute; auto]. Qed.
Print Assumptions C46_textbook_refuted.
(** C46: after a change nothing runs until build() succeeds. *)
Definition t_change {Q D} (o : top Q D) : Prop := match o with TEst _ | TCost _ | TEnum _ => True | _ => False end.
Theorem C46_textbook_rebuild : forall Q D is_sql (s : textbook Q D) o ops d cs q, t_change o -> ~ In TBuild ops -> ~ In (Ran d cs q) (run (t_step is_sql) s (o :: ops)).
Proof.
  intros Q D is_sql s o ops d cs q Ho Hnb. assert (Hb : forall ops s, t_built s = false -> ~ In TBuild ops -> ~ In (Ran d cs q) (run (t_step is_sql) s ops)).
  { clear. induction ops as [|o ops IH]; intros s Hb Hn Hin; [destruct Hin|]. cbn [run] in Hin. destruct (t_step is_sql s o) as [s' out] eqn:E. destruct Hin as [->|Hin].
    - pose proof (t_ran is_sql s d cs q o) as H. rewrite E in H. destruct (H eq_refl) as (_ & Hb' & _). congruence.
    - refine (IH s' _ _ Hin); [|intros H; apply Hn; now right]. destruct o; cbn in E; try (injection E as <- _; cbn; assumption || reflexivity). exfalso. apply Hn. now left. }
  intros Hin. cbn [run] in Hin. destruct (t_step is_sql s o) as [s' out] eqn:E. destruct Hin as [->|Hin].
  - destruct o; try contradiction; cbn in E; injection E as _ E; discriminate.
  - refine (Hb ops s' _ Hnb Hin). destruct o; try contradiction; cbn in E; injection E as <- _; reflexivity.
Qed.
Print Assumptions C46_textbook_rebuild.

(** C46: the same for the multi-stage pipeline, where the merged check also contains earlier checks. *)
Theorem C46_multi_partial : forall Q D (d0 : D) (ops : list (mop Q D)) d cs q, In (Ran d cs q) (run m_step (m_init d0) ops) ->
  exists c0, passed (check_db (merge_checks (c0 :: map cp_check cs)) d) = true.
Proof.
  intros Q D d0 ops d cs q Hin. apply run_In in Hin as (pre & op & post & _ & E). apply m_ran in E as (_ & Hb & -> & -> & _).
  assert (Hg : m_good (exec m_step (m_init d0) pre)) by (apply (exec_inv m_step m_good m_inv); intros H; discriminate). apply (Hg Hb).
Qed.
Print Assumptions C46_multi_partial.
Theorem C46_multi_refuted : ~ supports_db 1 picky /\ In (Ran 1 [other; picky] 3) (run m_step (m_init 1) [MJoin other; MOp picky; MBuild; MRun 3]).
Proof. split; [discriminate|vm_compute; auto]. Qed.
Print Assumptions C46_multi_refuted.
Definition m_change {Q D} (o : mop Q D) : Prop := match o with MBuild | MRun _ => False | _ => True end.
Theorem C46_multi_rebuild : forall Q D (s : multi Q D) o ops d cs q, m_change o -> ~ In MBuild ops -> ~ In (Ran d cs q) (run m_step s (o :: ops)).
Proof.
  intros Q D s o ops d cs q Ho Hnb. assert (Hb : forall ops s, m_built s = false -> ~ In MBuild ops -> ~ In (Ran d cs q) (run m_step s ops)).
  { clear. induction ops as [|o ops IH]; intros s Hb Hn Hin; [destruct Hin|]. cbn [run] in Hin. destruct (m_step s o) as [s' out] eqn:E. destruct Hin as [->|Hin].
    - pose proof (m_ran s d cs q o) as H. rewrite E in H. destruct (H eq_refl) as (_ & Hb' & _). congruence.
    - refine (IH s' _ _ Hin); [|intros H; apply Hn; now right]. destruct o; cbn in E; try (injection E as <- _; cbn; assumption || reflexivity). exfalso. apply Hn. now left. }
  intros Hin. cbn [run] in Hin. destruct (m_step s o) as [s' out] eqn:E. destruct Hin as [->|Hin].
  - destruct o; try contradiction; cbn in E; injection E as _ E; discriminate.
  - refine (Hb ops s' _ Hnb Hin). destruct o; try contradiction; cbn in E; injection E as <- _; reflexivity.
Qed.
Print Assumptions C46_multi_rebuild.

(** C68: what the merged check accepts, all components accept, provided that equal checks behave alike. *)
Lemma merge_supports {Q D} (c0 : check Q D) cs q (H : forall a b : atom Q D, atom_eqb a b = true -> passed (a_query a q) = passed (a_query b q)) :
  passed (check_query (merge_checks (c0 :: map cp_check cs)) q) = true <-> passed (check_query c0 q) = true /\ forall c, In c cs -> supports_query q c.
Proof.
  rewrite (C45_merge_partial Q D (c0 :: map cp_check cs) q) by auto. split.
  - intros Ha. split; [apply Ha; now left|]. intros c Hc. apply Ha. right. now apply in_map.
  - intros [H0 Ha] c [<-|Hc]; [assumption|]. apply in_map_iff in Hc as (x & <- & Hx). now apply Ha.
Qed.

(** C68: a built integrated pipeline runs exactly the queries its algorithm supports. *)
Theorem C68_integrated : forall Q D is_sql (s : integrated Q D) c q, i_alg s = Some c -> i_built s = true ->
  (snd (i_step is_sql s (IRun q)) = Ran (i_db s) [c] q <-> supports_query q c) /\ (snd (i_step is_sql s (IRun q)) = Failed StateError <-> ~ supports_query q c).
Proof.
  intros Q D is_sql s c q Ha Hb. cbn. rewrite Hb, Ha. unfold supports_query, ensure_all_passed. destruct (passed (check_query (cp_check c) q)); cbn; intuition (try congruence; try discriminate).
Qed.
Print Assumptions C68_integrated.
(** C68: the incremental pipeline runs exactly the supported queries ... *)
Theorem C68_incremental_partial : forall Q D is_sql (s : incremental Q D) q, is_sql q = true ->
  ((exists d cs, snd (n_step is_sql s (NRun q)) = Ran d cs q) <-> forall c, In c (n_comps s) -> supports_query q c).
Proof.
  intros Q D is_sql s q Hq. split.
  - intros (d & cs & E). apply n_ran in E as (_ & _ & -> & [H|H]); [congruence|exact H].
  - intros H. exists (n_db s), (n_comps s). cbn. rewrite (proj2 (ensure_each_query is_sql (fun c => check_query (cp_check c) q) q (n_comps s))); [reflexivity|now right].
Qed.
Print Assumptions C68_incremental_partial.
(** C68: ... but set queries (UNION etc.) are never rejected, and neither are they in the textbook pipeline: a failed check is only
    reported for instances of SqlQuery. *)
Theorem C68_set_queries_refuted : let is_sql (q : nat) := negb (q =? 12) in ~ supports_query 12 picky /\
  run (n_step is_sql) (n_start 0) [NStep picky; NRun 12; NRun 13] = [Done; Ran 0 [picky] 12; Failed RuntimeError] /\
  run (t_step is_sql) (t_init 0 fine picky fine) [TBuild; TRun 12; TRun 13] = [Done; Ran 0 [fine; picky; fine] 12; Failed RuntimeError].
Proof. split; [discriminate|split; reflexivity]. Qed.
Print Assumptions C68_set_queries_refuted.
(** C68: the textbook pipeline. *)
Theorem C68_textbook_partial : forall Q D is_sql (d0 : D) e c n pre q, (forall a b : atom Q D, atom_eqb a b = true -> passed (a_query a q) = passed (a_query b q)) -> is_sql q = true ->
  let s := exec (t_step is_sql) (t_init d0 e c n) pre in t_built s = true ->
  (snd (t_step is_sql s (TRun q)) = Ran (t_db s) (t_comps s) q <-> forall x, In x (t_comps s) -> supports_query q x).
Proof.
  intros Q D is_sql d0 e c n pre q Heq Hq s Hb.
  assert (Hg : t_good s) by (apply (exec_inv (t_step is_sql) t_good (t_inv is_sql)); intros H; discriminate). destruct (Hg Hb) as [H1 _].
  assert (Hm : passed (check_query (t_check s) q) = true <-> forall x, In x (t_comps s) -> supports_query q x).
  { rewrite H1. rewrite (C45_merge_partial Q D (map cp_check (t_comps s)) q) by auto. split; [intros H x Hx; apply H; now apply in_map|]. intros H k Hk. apply in_map_iff in Hk as (x & <- & Hx). now apply H. }
  rewrite <- Hm. cbn [t_step snd]. rewrite Hb. unfold ensure_all_passed. rewrite Hq. destruct (passed (check_query (t_check s) q)); cbn; intuition discriminate.
Qed.
Print Assumptions C68_textbook_partial.
(** C68: the multi-stage pipeline only runs supported queries ... *)
Theorem C68_multi_partial : forall Q D (d0 : D) (ops : list (mop Q D)) d cs q, (forall a b : atom Q D, atom_eqb a b = true -> passed (a_query a q) = passed (a_query b q)) ->
  In (Ran d cs q) (run m_step (m_init d0) ops) -> forall c, In c cs -> supports_query q c.
Proof.
  intros Q D d0 ops d cs q Heq Hin c Hc. apply run_In in Hin as (pre & op & post & _ & E). apply m_ran in E as (_ & Hb & -> & -> & Hp).
  assert (Hg : m_good (exec m_step (m_init d0) pre)) by (apply (exec_inv m_step m_good m_inv); intros H; discriminate). destruct (Hg Hb) as [[c0 E] _]. rewrite E in Hp. apply merge_supports in Hp as [_ Hp]; auto.
Qed.
Print Assumptions C68_multi_partial.
(** C68: ... but it keeps rejecting queries on behalf of components that have been replaced. *)
Theorem C68_multi_refuted : supports_query 12 fine /\
  run m_step (m_init 0) [MJoin picky; MBuild; MJoin fine; MBuild; MRun 12] = [Done; Done; Done; Done; Failed RuntimeError].
Proof. split; reflexivity. Qed.
Print Assumptions C68_multi_refuted.
(** C68: a merged check that rejects nothing lets the query pass: the rejections of a freshly set up pipeline are justified. *)
Theorem C68_multi_fresh : forall Q D (s : multi Q D) q, (forall a b : atom Q D, atom_eqb a b = true -> passed (a_query a q) = passed (a_query b q)) ->
  let s' := fst (m_step s MBuild) in m_built s' = true ->
  (snd (m_step s' (MRun q)) = Ran (m_db s) (m_comps s) q <-> passed (check_query (m_check s) q) = true /\ forall c, In c (m_comps s) -> supports_query q c).
Proof.
  intros Q D s q Heq s' Hb. rewrite <- (merge_supports (m_check s) (m_comps s) q Heq).
  assert (E : m_check s' = merge_checks (m_check s :: map cp_check (m_comps s)) /\ m_comps s' = m_comps s /\ m_db s' = m_db s) by (unfold s'; cbn; destruct (passed _); auto). destruct E as (E1 & E2 & E3).
  cbn [m_step snd]. rewrite Hb, E1, E2, E3. destruct (passed (check_query _ q)); intuition discriminate.
Qed.
Print Assumptions C68_multi_fresh.
