(** Lemmas about the pipelines. *)
From Coq Require Import List Bool Arith Lia.
From Verif Require Import PyBase Check_model Check_spec Check_proofs Pipe_model Pipe_spec.
Import ListNotations.

Section P.
  Context {Q D : Type} (is_sql : Q -> bool).
  Notation check := (check Q D). Notation comp := (comp Q D).

  Lemma run_In {S O} (step : S -> O -> S * outcome Q D) ops : forall s o, In o (run step s ops) -> exists pre op post, ops = pre ++ op :: post /\ snd (step (exec step s pre) op) = o.
  Proof.
    induction ops as [|x ops IH]; intros s o H; cbn in H; [destruct H|]. destruct (step s x) as [s' out] eqn:E. destruct H as [<-|H].
    - exists [], x, ops. split; [reflexivity|]. cbn. now rewrite E.
    - destruct (IH s' o H) as (pre & op & post & -> & Eo). exists (x :: pre), op, post. split; [reflexivity|]. cbn. rewrite E. exact Eo.
  Qed.
  Lemma exec_inv {S O} (step : S -> O -> S * outcome Q D) (P : S -> Prop) : (forall s o, P s -> P (fst (step s o))) -> forall ops s, P s -> P (exec step s ops).
  Proof. intros H ops. induction ops as [|o ops IH]; intros s Hs; [exact Hs|]. exact (IH _ (H s o Hs)). Qed.
  Lemma ensure_ok r c : ensure_all_passed is_sql r c = Ok tt <-> passed r = true \/ exists q, c = QueryContext q /\ is_sql q = false.
  Proof.
    unfold ensure_all_passed. destruct (passed r); [intuition|]. destruct c as [|q|]; try (split; [discriminate|intros [H|(q & H & _)]; discriminate]).
    destruct (is_sql q) eqn:E; (split; [try discriminate|]).
    - intros [H|(q' & H & E')]; [discriminate|]. injection H as <-. congruence.
    - intros _. right. exists q. auto.
    - reflexivity.
  Qed.
  Lemma ensure_res r c : ensure_all_passed is_sql r c = Ok tt \/ exists e, ensure_all_passed is_sql r c = Raise e.
  Proof. destruct (ensure_all_passed is_sql r c) as [[]|e]; eauto. Qed.

  (** Integrated: careful and without failures. *)
  Definition i_good (s : integrated Q D) : Prop := i_built s = true -> forall c, i_alg s = Some c -> supports_db (i_db s) c.
  Lemma i_careful ops : careful ops -> forall s, i_good s -> no_failure (run (i_step is_sql) s ops) -> forall d cs q, In (Ran d cs q) (run (i_step is_sql) s ops) -> forall c, In c cs -> supports_db d c.
  Proof.
    intros H. induction H as [|c0 ops H IH|d0 ops H IH|ops H IH|q0 ops H IH]; intros s Hg Hn d cs q Hin c Hc.
    - destruct Hin.
    - cbn [run i_step i_alg i_db i_built] in Hin, Hn. destruct (ensure_res (check_db (cp_check c0) (i_db s)) NoContext) as [E|(e & E)]; rewrite E in Hin, Hn.
      + destruct Hin as [Hin|[Hin|Hin]]; [discriminate|discriminate|]. refine (IH _ _ _ d cs q Hin c Hc).
        * intros _ c1 Hc1. cbn in Hc1. injection Hc1 as <-. apply ensure_ok in E as [E|(q' & E & _)]; [exact E|discriminate].
        * intros e Hf. apply (Hn e). right. now right.
      + exfalso. apply (Hn e). right. now left.
    - cbn in Hin, Hn. destruct Hin as [Hin|Hin]; [discriminate|]. refine (IH _ _ _ d cs q Hin c Hc); [intros Hb; discriminate|]. intros e Hf. apply (Hn e). now right.
    - cbn [run i_step] in Hin, Hn. destruct (i_alg s) as [a|] eqn:Ea.
      + destruct (ensure_res (check_db (cp_check a) (i_db s)) NoContext) as [E|(e & E)]; rewrite E in Hin, Hn.
        * destruct Hin as [Hin|Hin]; [discriminate|]. refine (IH _ _ _ d cs q Hin c Hc); [|intros e Hf; apply (Hn e); now right]. intros _ c1 Hc1. cbn in Hc1. injection Hc1 as <-. apply ensure_ok in E as [E|(q' & E & _)]; [exact E|discriminate].
        * exfalso. apply (Hn e). now left.
      + exfalso. apply (Hn StateError). now left.
    - cbn [run i_step] in Hin, Hn. assert (Hrest : In (Ran d cs q) (run (i_step is_sql) s ops) -> supports_db d c).
      { intros Hr. refine (IH s Hg _ d cs q Hr c Hc). intros e Hf. apply (Hn e). now right. }
      destruct Hin as [Hin|Hin]; [|auto]. clear Hrest IH. destruct (i_built s) eqn:Eb; [|discriminate]. destruct (i_alg s) as [a|] eqn:Ea; [|discriminate].
      destruct (ensure_res (check_query (cp_check a) q0) NoContext) as [E|(e & E)]; rewrite E in Hin; cbn in Hin; [|discriminate]. injection Hin as <- <- <-. destruct Hc as [<-|[]]. now apply Hg.
  Qed.

  (** Textbook and multi-stage. *)
  Definition t_good (s : textbook Q D) : Prop := t_built s = true -> t_check s = merge_checks (map cp_check (t_comps s)) /\ passed (check_db (t_check s) (t_db s)) = true.
  Lemma t_inv s o : t_good s -> t_good (fst (t_step is_sql s o)).
  Proof.
    intros H. destruct o; cbn [t_step fst]; try (intros Hb; discriminate); [|exact H]. cbv zeta. destruct (ensure_res (check_db (merge_checks (map cp_check (t_comps s))) (t_db s)) DbContext) as [E|(e & E)]; rewrite E; cbn [fst].
    - intros _. split; [reflexivity|]. apply ensure_ok in E as [E|(q & E & _)]; [exact E|discriminate].
    - intros Hb. cbn in Hb. destruct (H Hb) as [H1 H2]. rewrite H1 in H2. exfalso. unfold ensure_all_passed in E. rewrite H2 in E. discriminate.
  Qed.
  Lemma t_ran (s : textbook Q D) d cs q op : snd (t_step is_sql s op) = Ran d cs q -> op = TRun q /\ t_built s = true /\ d = t_db s /\ cs = t_comps s /\ (passed (check_query (t_check s) q) = true \/ is_sql q = false).
  Proof.
    destruct op as [c|c|c| |q']; cbn [t_step snd]; try discriminate.
    - cbv zeta. destruct (ensure_all_passed is_sql _ DbContext); discriminate.
    - destruct (t_built s); [|discriminate]. destruct (ensure_res (check_query (t_check s) q') (QueryContext q')) as [E|(e & E)]; rewrite E; [|discriminate]. cbn. intros [= <- <- <-]. repeat split.
      apply ensure_ok in E as [E|(q2 & E & E2)]; [now left|injection E as <-; now right].
  Qed.
  Definition m_good (s : multi Q D) : Prop := m_built s = true ->
    (exists c0, m_check s = merge_checks (c0 :: map cp_check (m_comps s))) /\ (exists c0, passed (check_db (merge_checks (c0 :: map cp_check (m_comps s))) (m_db s)) = true).
  Lemma m_inv s o : m_good s -> m_good (fst (m_step s o)).
  Proof.
    intros H. destruct o; cbn [m_step fst]; try (intros Hb; discriminate); [|exact H]. cbv zeta. destruct (passed _) eqn:E; cbn [fst]; unfold m_good; cbn [m_built m_check m_db]; intros Hb.
    - split; eexists; [reflexivity|exact E].
    - split; [eexists; reflexivity|]. apply (H Hb).
  Qed.
  Lemma m_ran (s : multi Q D) d cs q op : snd (m_step s op) = Ran d cs q -> op = MRun q /\ m_built s = true /\ d = m_db s /\ cs = m_comps s /\ passed (check_query (m_check s) q) = true.
  Proof.
    destruct op as [c|c|c|c|c| |q']; cbn [m_step snd]; try discriminate.
    - cbv zeta. destruct (passed _); discriminate.
    - destruct (m_built s); [|discriminate]. destruct (passed _) eqn:E; [|discriminate]. intros [= <- <- <-]. repeat split. exact E.
  Qed.
  (** The merged check of components that have at most one check between them. *)
  Lemma merge_single (a : atom Q D) cs : (forall c, In c cs -> c = CEmpty \/ c = CAtom a) -> merge_checks cs = CEmpty /\ (forall c, In c cs -> c = CEmpty) \/ merge_checks cs = CAtom a.
  Proof.
    intros H. destruct (merge_parts cs) as [M1 M2]. assert (Hp : forall b, In b (parts (merge_checks cs)) -> b = a). { intros b Hb. destruct (M1 b Hb) as (c & Hc & Hbc). destruct (H c Hc) as [->| ->]; [destruct Hbc|]. destruct Hbc as [->|[]]. reflexivity. }
    destruct (merge_checks cs) as [|b|l] eqn:E.
    - left. split; [reflexivity|]. intros c Hc. destruct (H c Hc) as [->| ->]; [reflexivity|]. destruct (M2 _ a Hc (or_introl eq_refl)) as (b & [] & _).
    - right. f_equal. apply Hp. now left.
    - exfalso. assert (Hl : exists x y r, l = x :: y :: r /\ atom_eqb y x = false).
      { unfold merge_checks in E. destruct cs as [|c0 cs0]; [discriminate|]. cbv zeta in E. set (m := to_set atom_eqb _) in E. assert (Hd : forall l s, (exists x y r, s = x :: y :: r /\ atom_eqb y x = false) \/ length s <= 1 -> let t := fold_left (set_add (@atom_eqb Q D)) l s in (exists x y r, t = x :: y :: r /\ atom_eqb y x = false) \/ length t <= 1).
        { clear. induction l as [|z l IH]; intros s Hs; cbn; [exact Hs|]. apply IH. unfold set_add. destruct (existsb (atom_eqb z) s) eqn:E; [exact Hs|]. destruct Hs as [(x & y & r & -> & Ex)|Hs]; [left; exists x, y, (r ++ [z]); split; [reflexivity|assumption]|].
          destruct s as [|x [|y s]]; cbn in Hs; try lia; [right; cbn; lia|]. left. exists x, z, []. split; [reflexivity|]. cbn in E. now rewrite orb_false_r in E. }
        assert (Hm : (exists x y r, m = x :: y :: r /\ atom_eqb y x = false) \/ length m <= 1) by (apply (Hd _ []); right; cbn; lia). destruct m as [|x [|y m']]; try discriminate. injection E as <-. destruct Hm as [Hm|Hm]; [exact Hm|cbn in Hm; lia]. }
      destruct Hl as (x & y & r & -> & Exy). assert (x = a) by (apply Hp; now left). assert (y = a) by (apply Hp; right; now left). subst. now rewrite atom_eqb_refl in Exy.
  Qed.

  (** Incremental. *)
  Lemma ensure_each_db (f : comp -> result) cs : ensure_each is_sql f DbContext cs = Ok tt <-> forall c, In c cs -> passed (f c) = true.
  Proof.
    induction cs as [|c cs IH]; cbn [ensure_each]; [split; [contradiction|reflexivity]|]. destruct (ensure_res (f c) DbContext) as [E|(e & E)]; rewrite E; cbn [rbind].
    - rewrite IH. apply ensure_ok in E as [E|(q & E & _)]; [|discriminate]. split; [intros H c' [<-|Hc]; auto|intros H c' Hc; apply H; now right].
    - split; [discriminate|]. intros H. assert (E' : ensure_all_passed is_sql (f c) DbContext = Ok tt) by (apply ensure_ok; left; apply H; now left). congruence.
  Qed.
  Lemma ensure_each_query (f : comp -> result) q cs : ensure_each is_sql f (QueryContext q) cs = Ok tt <-> is_sql q = false \/ forall c, In c cs -> passed (f c) = true.
  Proof.
    induction cs as [|c cs IH]; cbn [ensure_each]; [split; [right; contradiction|reflexivity]|]. destruct (ensure_res (f c) (QueryContext q)) as [E|(e & E)]; rewrite E; cbn [rbind].
    - rewrite IH. apply ensure_ok in E as [E|(q' & E & E')]; [|injection E as <-; intuition]. split; (intros [H|H]; [now left|right]); [intros c' [<-|Hc]; auto|intros c' Hc; apply H; now right].
    - split; [discriminate|]. intros H. assert (E' : ensure_all_passed is_sql (f c) (QueryContext q) = Ok tt) by (apply ensure_ok; destruct H as [H|H]; [right; eauto|left; apply H; now left]). congruence.
  Qed.
  Lemma ensure_each_res (f : comp -> result) c cs : ensure_each is_sql f c cs = Ok tt \/ exists e, ensure_each is_sql f c cs = Raise e.
  Proof. destruct (ensure_each is_sql f c cs) as [[]|e]; eauto. Qed.
  Definition n_good (s : incremental Q D) : Prop := forall c, In c (n_comps s) -> supports_db (n_db s) c.
  Lemma n_inv s o : n_good s -> n_good (fst (n_step is_sql s o)).
  Proof.
    intros H. destruct o as [d|i|c|q]; cbn [n_step fst]; unfold integrity; cbv zeta; [| | |exact H].
    - match goal with |- context [ensure_each is_sql ?f ?c ?l] => destruct (ensure_each_res f c l) as [E|(e & E)]; rewrite E end; [|exact H]. cbn [fst]. pose proof (proj1 (ensure_each_db _ _) E) as E'; clear E; rename E' into E. intros c Hc. apply E. cbn. exact Hc.
    - match goal with |- context [ensure_each is_sql ?f ?c ?l] => destruct (ensure_each_res f c l) as [E|(e & E)]; rewrite E end; [|exact H]. cbn [fst]. pose proof (proj1 (ensure_each_db _ _) E) as E'; clear E; rename E' into E. intros c Hc. apply E. cbn. unfold n_comps in Hc. cbn in Hc.
      destruct i as [i|]; [exact Hc|]. apply in_or_app. now right.
    - match goal with |- context [ensure_each is_sql ?f ?c ?l] => destruct (ensure_each_res f c l) as [E|(e & E)]; rewrite E end; [|exact H]. cbn [fst]. pose proof (proj1 (ensure_each_db _ _) E) as E'; clear E; rename E' into E. intros c' Hc. apply E. unfold n_comps in Hc. cbn [n_init n_steps n_db] in *.
      apply in_app_or in Hc as [Hc|Hc]; [apply in_or_app; now left|]. apply in_app_or in Hc as [Hc|[<-|[]]]; apply in_or_app; right; [right; assumption|now left].
  Qed.
  Lemma n_ran (s : incremental Q D) d cs q op : snd (n_step is_sql s op) = Ran d cs q -> op = NRun q /\ d = n_db s /\ cs = n_comps s /\ (is_sql q = false \/ forall c, In c cs -> supports_query q c).
  Proof.
    destruct op as [d'|i|c|q']; cbn [n_step snd]; unfold integrity; cbv zeta; try (match goal with |- context [ensure_each is_sql ?f ?c ?l] => destruct (ensure_each_res f c l) as [E|(e & E)]; rewrite E end; discriminate).
    match goal with |- context [ensure_each is_sql ?f ?c ?l] => destruct (ensure_each_res f c l) as [E|(e & E)]; rewrite E end; [|discriminate]. cbn. intros [= <- <- <-]. repeat split. exact (proj1 (ensure_each_query _ _ _) E).
  Qed.
End P.
