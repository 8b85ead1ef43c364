(** Lemmas about the benchmark loop. *)
From Coq Require Import List Bool Arith Lia.
From Verif Require Import PyBase Bench_model Bench_spec.
Import ListNotations.

Lemma rmapM_app {A B} (f : A -> res B) l m x y : rmapM f l = Ok x -> rmapM f m = Ok y -> rmapM f (l ++ m) = Ok (x ++ y).
Proof.
  revert x. induction l as [|a l IH]; intros x Hx Hy; cbn in *; [injection Hx as <-; exact Hy|]. destruct (f a) as [b|e]; [|discriminate]. cbn in *. destruct (rmapM f l) as [bs|e]; [|discriminate]. cbn in *. injection Hx as <-. now rewrite (IH bs eq_refl Hy).
Qed.
Lemma increasing_app l m : increasing l -> increasing m -> (forall x y, In x l -> In y m -> x < y) -> increasing (l ++ m).
Proof.
  induction l as [|x l IH]; intros H1 H2 H; [exact H2|]. cbn in *. destruct H1 as [Hx H1]. split; [|apply IH; auto]. intros y Hy. apply in_app_or in Hy as [Hy|Hy]; auto.
Qed.
Lemma increasing_seq a n : increasing (seq a n).
Proof. revert a. induction n as [|n IH]; intros a; cbn; [exact Logic.I|]. split; [|apply IH]. intros y Hy. apply in_seq in Hy. lia. Qed.
Lemma Forall2_map_r {A B C} (P : A -> C -> Prop) (f : B -> C) l m : Forall2 (fun x y => P x (f y)) l m -> Forall2 P l (map f m).
Proof. induction 1; constructor; auto. Qed.

(** Rows of a sample. *)
Definition rows_at (s : sample) (i : nat) (es : list entry) : list row := map (fun ie => row_of s (fst ie) (snd ie)) (combine (seq i (length es)) es).
Lemma rows_at_cons s i e es : rows_at s i (e :: es) = row_of s i e :: rows_at s (S i) es.
Proof. reflexivity. Qed.
Lemma sample_rows_ok s : s_entries s = [] \/ s_stamps s = length (s_entries s) -> sample_rows s = Ok (rows_at s 0 (s_entries s)).
Proof. unfold sample_rows, rows_at. destruct (s_entries s) as [|e es]; [reflexivity|]. intros [H|H]; [discriminate|]. rewrite H. now rewrite Nat.eqb_refl. Qed.
Lemma rows_at_index s i es : map r_index (rows_at s i es) = seq (s_init s + i) (length es).
Proof. revert i. induction es as [|e es IH]; intros i; [reflexivity|]. rewrite rows_at_cons. cbn [map length seq]. rewrite IH. cbn. now rewrite Nat.add_succ_r. Qed.
Lemma rows_at_len s i es : length (rows_at s i es) = length es.
Proof. unfold rows_at. rewrite map_length, combine_length, seq_length. lia. Qed.
(** Rows only depend on the header of the sample. *)
Definition same_head (s s' : sample) : Prop := s_label s = s_label s' /\ s_wrep s = s_wrep s' /\ s_init s = s_init s' /\ s_opt s = s_opt s'.
Lemma row_of_head s s' i e : same_head s s' -> row_of s i e = row_of s' i e.
Proof. intros (H1 & H2 & H3 & H4). unfold row_of. now rewrite H1, H2, H3, H4. Qed.

Section Bench.
  Context (act : action) (reps : nat) (output callback learning : bool) (opt_out : nat -> nat -> optres) (exec_out : nat -> nat -> nat -> execres).
  Notation exec_reps := (exec_reps act output callback exec_out).
  Notation exec_once := (exec_once act output callback exec_out).
  Notation run_query := (run_query act reps output callback learning opt_out exec_out).
  Notation run_queries := (run_queries act reps output callback learning opt_out exec_out).
  Notation run_reps := (run_reps act reps output callback learning opt_out exec_out).
  Notation execute_workload := (execute_workload act reps output callback learning opt_out exec_out).
  Notation report := (report opt_out exec_out).
  Notation describes := (describes opt_out exec_out).

  (** The entry for a given outcome. *)
  Definition xentry (w l r : nat) : entry := match exec_out w l r with XOk v => mkentry SOk 0 (Some v) | XTimeout => mkentry STimeout 0 None | XFail e => mkentry SExecErr e None | XPrep => mkentry SExecErr 0 None end.
  Definition is_good (y : row) : bool := match r_status y with SOk | STimeout => true | _ => false end.
  Definition call_of (y : row) : nat * status * option nat := (r_label y, r_status y, r_result y).
  Definition more (f : effects) (rows : list row) : effects :=
    mkeff (f_out f ++ (if output then filter is_good rows else [])) (f_calls f ++ (if callback then map call_of (filter is_good rows) else [])) (f_learn f).
  Definition extend (s : sample) (n : nat) (es : list entry) : sample := mksample (s_label s) (s_wrep s) (s_init s) (s_opt s) (s_stamps s + n) (s_entries s ++ es).

  Lemma more_nil f : more f [] = f.
  Proof. unfold more. cbn. destruct f, output, callback; cbn; now rewrite !app_nil_r. Qed.
  Lemma more_app f x y : more (more f x) y = more f (x ++ y).
  Proof. unfold more. rewrite filter_app, map_app. destruct output, callback; cbn; now rewrite <- ?app_assoc, ?app_nil_r. Qed.
  Lemma emit_entry s e f : emit output callback (add_entry s e) f = more f [row_of s (length (s_entries s)) e].
  Proof.
    unfold emit, last_ok, last_row, last_call, add_entry. cbn [s_entries]. rewrite rev_app_distr. cbn [rev app]. unfold more. cbn [filter is_good row_of r_status]. unfold is_good. cbn [r_status row_of]. rewrite rev_length.
    destruct e as [st rs rv]. destruct st; cbn; destruct output, callback; cbn; rewrite ?app_nil_r; try reflexivity; destruct f; reflexivity.
  Qed.

  Lemma exec_reps_all n : forall r w l s f, (forall r', r <= r' < r + n -> exec_out w l r' <> XPrep /\ (act = ALog \/ forall e, exec_out w l r' <> XFail e)) ->
    let es := map (xentry w l) (seq r n) in exec_reps n r w l s f = Ok (extend s n es, more f (rows_at s (length (s_entries s)) es)).
  Proof.
    induction n as [|n IH]; intros r w l s f H.
    - cbn. unfold extend, rows_at. cbn. rewrite more_nil, app_nil_r, Nat.add_0_r. now destruct s.
    - cbn [Bench_model.exec_reps seq map]. cbv zeta. set (e := xentry w l r).
      assert (E : exec_once w l r s f = Ok (add_entry (start_execution s) e, more f [row_of s (length (s_entries s)) e])).
      { unfold Bench_model.exec_once, e, xentry. destruct (H r ltac:(lia)) as [Hp Hf]. destruct (exec_out w l r) as [v| |x|] eqn:Ex; try (now rewrite emit_entry); [|contradiction]. destruct Hf as [->|Hf]; [now rewrite emit_entry|]. now destruct (Hf x). }
      rewrite E. cbn [rbind fst snd]. rewrite IH by (intros r' Hr; apply H; lia). cbv zeta. f_equal. f_equal.
      + unfold extend, add_entry, start_execution. cbn. rewrite <- app_assoc. cbn. f_equal. lia.
      + rewrite more_app. f_equal. rewrite rows_at_cons. cbn [app]. f_equal. unfold add_entry, start_execution. cbn [s_entries]. rewrite app_length. cbn [length]. rewrite Nat.add_1_r.
        apply map_ext. intros [i x]. reflexivity.
  Qed.
  Lemma emit_nothing s f : s_entries s = [] -> emit output callback s f = f.
  Proof. intros E. unfold emit, last_ok. rewrite E. reflexivity. Qed.
  Lemma exec_reps_none n : forall r w l s f, act = AIgnore -> s_entries s = [] -> (forall r', r <= r' < r + n -> exists e, exec_out w l r' = XFail e) ->
    exec_reps n r w l s f = Ok (extend s n [], f).
  Proof.
    induction n as [|n IH]; intros r w l s f Ha Es H.
    - cbn. unfold extend. rewrite app_nil_r, Nat.add_0_r. now destruct s.
    - cbn [Bench_model.exec_reps]. unfold Bench_model.exec_once. destruct (H r ltac:(lia)) as [e ->]. rewrite Ha. rewrite emit_nothing by exact Es. cbn [rbind fst snd]. rewrite <- Ha. rewrite IH; try assumption; [|intros r' Hr; apply H; lia].
      unfold extend, start_execution. cbn. do 2 f_equal. f_equal. lia.
  Qed.
  Lemma feedback_ok l es : forall f, (forall e, In e es -> n_status e <> STimeout /\ (n_status e = SOk -> n_result e <> None)) ->
    exists f', feedback l es f = Ok f' /\ f_out f' = f_out f /\ f_calls f' = f_calls f.
  Proof.
    induction es as [|e es IH]; intros f H; [exists f; auto|]. cbn [feedback]. destruct (H e (or_introl eq_refl)) as [H1 H2]. assert (H' : forall e', In e' es -> n_status e' <> STimeout /\ (n_status e' = SOk -> n_result e' <> None)) by (intros e' He; apply H; now right).
    destruct (n_status e); [|contradiction|apply IH; assumption|apply IH; assumption]. destruct (n_result e) as [v|]; [|now destruct (H2 eq_refl)].
    destruct (IH (mkeff (f_out f) (f_calls f) (f_learn f ++ [(l, Some v)])) H') as (f' & E & E1 & E2). exists f'. auto.
  Qed.
  Lemma xentries_fine w l a b : (learning = true -> forall w l r, exec_out w l r <> XTimeout) -> forall e, In e (map (xentry w l) (seq a b)) -> learning = true -> n_status e <> STimeout /\ (n_status e = SOk -> n_result e <> None).
  Proof.
    intros H e He Hl. apply in_map_iff in He as (r & <- & _). specialize (H Hl w l r). unfold xentry. destruct (exec_out w l r); try contradiction; cbn; split; intros; try discriminate.
  Qed.

  (** What the samples of a state amount to. *)
  Definition covers (t : state) (rows : list row) : Prop := exists rowss, rmapM sample_rows (t_samples t) = Ok rowss /\ concat rowss = rows.
  Lemma covers_snoc t c f s rows : covers t rows -> (s_entries s = [] \/ s_stamps s = length (s_entries s)) -> covers (mkst c (t_samples t ++ [s]) f) (rows ++ rows_at s 0 (s_entries s)).
  Proof.
    intros (rowss & E & <-) Hs. exists (rowss ++ [rows_at s 0 (s_entries s)]). split; [|rewrite concat_app; cbn; now rewrite app_nil_r]. cbn. apply rmapM_app; [exact E|]. cbn. rewrite sample_rows_ok by exact Hs. reflexivity.
  Qed.
  Lemma next_counter_snoc c ss s f : next_counter (mkst c (ss ++ [s]) f) = c + length (s_entries s).
  Proof. unfold next_counter. cbn. now rewrite rev_app_distr. Qed.
  Lemma describes_rows w l s : s_label s = l -> s_wrep s = w -> s_opt s = optimized opt_out (w, l, 0) -> forall n r (g : nat -> entry),
    (forall r', report (w, l, r') = (n_status (g r'), n_reason (g r'), n_result (g r'))) -> Forall2 describes (map (fun r => (w, l, r)) (seq r n)) (rows_at s r (map g (seq r n))).
  Proof.
    intros Hl Hw Ho n. induction n as [|n IH]; intros r g Hg; [constructor|]. cbn [seq map]. rewrite rows_at_cons. constructor; [|apply IH; exact Hg]. unfold Bench_spec.describes, row_of. cbn [r_label r_wrep r_qrep r_status r_reason r_result r_opt].
    rewrite Hl, Hw, Ho, Hg. repeat split.
  Qed.
  Lemma report_x w l r : (forall e, opt_out w l <> OFail e) -> report (w, l, r) = (n_status (xentry w l r), n_reason (xentry w l r), n_result (xentry w l r)).
  Proof. intros H. unfold Bench_spec.report, xentry. destruct (opt_out w l) as [|q|e]; [| |now destruct (H e)]; destruct (exec_out w l r); reflexivity. Qed.
  Lemma map_repeat_seq {A} (x : A) n r : repeat x n = map (fun _ => x) (seq r n).
  Proof. revert r. induction n as [|n IH]; intros r; cbn; [reflexivity|]. now rewrite <- IH. Qed.

  (** ** Logging *)
  Definition log_inv (t : state) (sl : list (nat * nat * nat)) (rows : list row) : Prop :=
    covers t rows /\ Forall2 describes sl rows /\ map r_index rows = seq 1 (length sl) /\ next_counter t = 1 + length sl.
  (** Which rows are written as they come. *)
  Definition written (y : row) : bool := match r_status y with SExecErr => false | _ => true end.
  Definition eff_inv (t : state) (rows : list row) : Prop :=
    (reps = 1 \/ (forall w l e, opt_out w l <> OFail e) -> f_out (t_eff t) = if output then filter written rows else []) /\
    f_calls (t_eff t) = (if callback then map call_of (filter is_good rows) else []).
  Lemma log_query w l t sl rows : act = ALog -> (forall w l r, exec_out w l r <> XPrep) -> (learning = true -> forall w l r, exec_out w l r <> XTimeout) -> log_inv t sl rows -> eff_inv t rows ->
    exists t' new, run_query w t l = Ok t' /\ log_inv t' (sl ++ map (fun r => (w, l, r)) (seq 0 reps)) (rows ++ new) /\ eff_inv t' (rows ++ new) /\ t_samples t' <> [].
  Proof.
    intros Ha Hp Hl (Hc & Hd & Hi & Hn) [He1 He2]. set (c := next_counter t) in *.
    assert (Hfin : forall s f, s_label s = l -> s_wrep s = w -> s_init s = c -> s_stamps s = length (s_entries s) -> length (s_entries s) = reps -> Forall2 describes (map (fun r => (w, l, r)) (seq 0 reps)) (rows_at s 0 (s_entries s)) ->
      log_inv (mkst c (t_samples t ++ [s]) f) (sl ++ map (fun r => (w, l, r)) (seq 0 reps)) (rows ++ rows_at s 0 (s_entries s))).
    { intros s f H1 H2 H3 H4 H5 H6. split; [apply covers_snoc; auto|]. split; [now apply Forall2_app|]. split.
      - rewrite map_app, Hi, rows_at_index, H3, H5, app_length, map_length, seq_length. rewrite Hn. rewrite seq_app. f_equal. f_equal. lia.
      - rewrite next_counter_snoc, H5, Hn, app_length, map_length, seq_length. lia. }
    unfold Bench_model.run_query. fold c. destruct (opt_out w l) as [|q|e] eqn:Eo.
    - (* no optimization *)
      set (s := mksample l w c None 0 []). rewrite exec_reps_all by (intros r' _; split; [apply Hp|now left]). cbv zeta. cbn [rbind fst snd rmap]. set (es := map (xentry w l) (seq 0 reps)). change (s_entries s) with (@nil entry). cbn [length].
      eexists _, (rows_at (extend s reps es) 0 es). split; [reflexivity|]. assert (Ees : s_entries (extend s reps es) = es) by reflexivity. assert (Elen : length es = reps) by (unfold es; now rewrite map_length, seq_length).
      split; [|split].
      + rewrite <- Ees at 3. apply Hfin; try reflexivity; rewrite ?Ees; [symmetry; exact Elen|exact Elen|]. apply describes_rows; try reflexivity; [cbn; now rewrite Eo|]. intros r'. apply report_x. intros e. rewrite Eo. discriminate.
      + unfold eff_inv. cbn [t_eff more f_out f_calls]. rewrite !filter_app, map_app. change (rows_at s 0 es) with (rows_at (extend s reps es) 0 es). split; [|destruct callback; [now rewrite He2|rewrite He2; reflexivity]].
        intros Hr. rewrite (He1 Hr). destruct output; [|reflexivity]. f_equal. apply filter_ext_in. intros y Hy. unfold rows_at in Hy. apply in_map_iff in Hy as ([i x] & <- & Hx). apply in_combine_r in Hx. unfold es in Hx. apply in_map_iff in Hx as (r & <- & _).
        unfold is_good, written, row_of, xentry. cbn. destruct (exec_out w l r); reflexivity.
      + cbn. now destruct (t_samples t).
    - (* optimized *)
      set (s := mksample l w c (Some q) 0 []). rewrite exec_reps_all by (intros r' _; split; [apply Hp|now left]). cbv zeta. cbn [rbind fst snd]. set (es := map (xentry w l) (seq 0 reps)). change (s_entries s) with (@nil entry). cbn [length]. set (f1 := more (t_eff t) (rows_at s 0 es)).
      assert (Ees : s_entries (extend s reps es) = es) by reflexivity. assert (Elen : length es = reps) by (unfold es; now rewrite map_length, seq_length).
      assert (Hfb : exists f', (if learning then feedback l (s_entries (extend s reps es)) f1 else Ok f1) = Ok f' /\ f_out f' = f_out f1 /\ f_calls f' = f_calls f1).
      { destruct learning eqn:El; [|exists f1; auto]. apply feedback_ok. intros e He. apply (xentries_fine w l 0 reps) with (e := e); auto. }
      destruct Hfb as (f' & -> & Ef1 & Ef2). cbn [rmap]. eexists _, (rows_at (extend s reps es) 0 es). split; [reflexivity|]. split; [|split].
      + rewrite <- Ees at 3. apply Hfin; try reflexivity; rewrite ?Ees; [symmetry; exact Elen|exact Elen|]. apply describes_rows; try reflexivity; [cbn; now rewrite Eo|]. intros r'. apply report_x. intros e. rewrite Eo. discriminate.
      + unfold eff_inv. cbn [t_eff]. rewrite Ef1, Ef2. unfold f1. cbn [more f_out f_calls]. rewrite !filter_app, map_app. change (rows_at s 0 es) with (rows_at (extend s reps es) 0 es). split; [|destruct callback; [now rewrite He2|rewrite He2; reflexivity]].
        intros Hr. rewrite (He1 Hr). destruct output; [|reflexivity]. f_equal. apply filter_ext_in. intros y Hy. unfold rows_at in Hy. apply in_map_iff in Hy as ([i x] & <- & Hx). apply in_combine_r in Hx. unfold es in Hx. apply in_map_iff in Hx as (r & <- & _).
        unfold is_good, written, row_of, xentry. cbn. destruct (exec_out w l r); reflexivity.
      + cbn. now destruct (t_samples t).
    - (* optimization failure *)
      rewrite Ha. set (x := mkentry SOptErr e None). set (s := mksample l w c None reps (repeat x reps)). assert (Ees : s_entries s = repeat x reps) by reflexivity.
      eexists _, (rows_at s 0 (repeat x reps)). split; [reflexivity|]. split; [|split].
      + rewrite <- Ees. apply Hfin; try reflexivity; rewrite ?Ees; rewrite ?repeat_length; try reflexivity. rewrite (map_repeat_seq x reps 0). apply describes_rows; try reflexivity; [cbn; now rewrite Eo|]. intros r'. cbn. now rewrite Eo.
      + unfold eff_inv. cbn [t_eff]. assert (Hbad : forall i n, filter is_good (rows_at s i (repeat x n)) = []) by (intros i n; revert i; induction n as [|n IH]; intros i; [reflexivity|]; cbn [repeat]; rewrite rows_at_cons; cbn; apply IH).
        split.
        * intros Hr. destruct Hr as [Hr|Hr]; [|now destruct (Hr w l e)]. rewrite filter_app. destruct output; [|apply He1; now left]. cbn [f_out]. rewrite (He1 (or_introl Hr)). f_equal. unfold last_row. rewrite Ees, Hr. reflexivity.
        * rewrite filter_app, Hbad, app_nil_r. destruct output; exact He2.
      + cbn. now destruct (t_samples t).
  Qed.
  Lemma log_queries w ls : forall t sl rows, act = ALog -> (forall w l r, exec_out w l r <> XPrep) -> (learning = true -> forall w l r, exec_out w l r <> XTimeout) -> log_inv t sl rows -> eff_inv t rows ->
    exists t' new, run_queries w t ls = Ok t' /\ log_inv t' (sl ++ flat_map (fun l => map (fun r => (w, l, r)) (seq 0 reps)) ls) (rows ++ new) /\ eff_inv t' (rows ++ new) /\ (t_samples t <> [] \/ ls <> [] -> t_samples t' <> []).
  Proof.
    induction ls as [|l ls IH]; intros t sl rows Ha Hp Hl Hi He.
    - exists t, []. cbn. rewrite !app_nil_r. split; [reflexivity|]. split; [assumption|]. split; [assumption|]. intros [H|H]; [assumption|now destruct H].
    - cbn [Bench_model.run_queries flat_map]. destruct (log_query w l t sl rows Ha Hp Hl Hi He) as (t1 & new1 & E & Hi1 & He1 & Hne). rewrite E. cbn [rbind]. destruct (IH t1 _ _ Ha Hp Hl Hi1 He1) as (t2 & new2 & E2 & Hi2 & He2 & Hne2).
      exists t2, (new1 ++ new2). split; [exact E2|]. rewrite !app_assoc. split; [exact Hi2|]. split; [exact He2|]. intros _. apply Hne2. now left.
  Qed.
  Lemma log_reps n : forall w t sl rows order, act = ALog -> (forall w l r, exec_out w l r <> XPrep) -> (learning = true -> forall w l r, exec_out w l r <> XTimeout) -> log_inv t sl rows -> eff_inv t rows ->
    exists t' new, run_reps n w t order = Ok t' /\ log_inv t' (sl ++ flat_map (fun w => flat_map (fun l => map (fun r => (w, l, r)) (seq 0 reps)) (order w)) (seq w n)) (rows ++ new) /\ eff_inv t' (rows ++ new) /\
      (t_samples t <> [] \/ (exists w', w <= w' < w + n /\ order w' <> []) -> t_samples t' <> []).
  Proof.
    induction n as [|n IH]; intros w t sl rows order Ha Hp Hl Hi He.
    - exists t, []. cbn. rewrite !app_nil_r. split; [reflexivity|]. split; [assumption|]. split; [assumption|]. intros [H|(w' & H & _)]; [assumption|lia].
    - cbn [Bench_model.run_reps seq flat_map]. destruct (log_queries w (order w) t sl rows Ha Hp Hl Hi He) as (t1 & new1 & E & Hi1 & He1 & Hne). rewrite E. cbn [rbind]. destruct (IH (S w) t1 _ _ order Ha Hp Hl Hi1 He1) as (t2 & new2 & E2 & Hi2 & He2 & Hne2).
      exists t2, (new1 ++ new2). split; [exact E2|]. rewrite !app_assoc. split; [exact Hi2|]. split; [exact He2|]. intros H. apply Hne2. destruct H as [H|(w' & Hw & Ho)]; [left; apply Hne; now left|]. destruct (Nat.eq_dec w' w) as [->|Hneq]; [left; apply Hne; now right|]. right. exists w'. split; [lia|assumption].
  Qed.
  Lemma all_rows_covers t rows : covers t rows -> t_samples t <> [] -> all_rows t = Ok rows.
  Proof. intros (rowss & E & <-) Hne. unfold all_rows. destruct (t_samples t) as [|s ss]; [contradiction|]. now rewrite E. Qed.
  Lemma log_total wreps order : act = ALog -> (forall w l r, exec_out w l r <> XPrep) -> (learning = true -> forall w l r, exec_out w l r <> XTimeout) -> (exists w, 1 <= w <= wreps /\ order w <> []) ->
    exists rows f, execute_workload wreps order = Ok (rows, f) /\ Forall2 describes (slots wreps reps order) rows /\ map r_index rows = seq 1 (length (slots wreps reps order)) /\
      (reps = 1 \/ (forall w l e, opt_out w l <> OFail e) -> f_out f = if output then filter written rows else []) /\ f_calls f = (if callback then map call_of (filter is_good rows) else []).
  Proof.
    intros Ha Hp Hl (w & Hw & Ho). destruct (log_reps wreps 1 start [] [] order Ha Hp Hl) as (t & rows & E & (Hc & Hd & Hi & _) & [He1 He2] & Hne).
    - repeat split; try constructor. exists []. split; reflexivity.
    - split; [intros _|]; cbn; [destruct output|destruct callback]; reflexivity.
    - exists rows, (t_eff t). cbn [app] in *. unfold Bench_model.execute_workload. rewrite E. cbn [rbind]. rewrite (all_rows_covers t rows Hc); [|apply Hne; right; exists w; split; [lia|assumption]]. cbn. repeat split; assumption.
  Qed.

  (** ** Ignoring *)
  Notation failed := (failed opt_out exec_out).
  Definition ign_inv (t : state) (sl : list (nat * nat * nat)) (rows : list row) : Prop :=
    covers t rows /\ Forall2 describes (filter (fun x => negb (failed x)) sl) rows /\ increasing (map r_index rows) /\ (forall i, In i (map r_index rows) -> i < next_counter t).
  (** Either all executions of a query fail or none. *)
  Definition uniform : Prop := forall w l, (forall r, exists e, exec_out w l r = XFail e) \/ (forall r e, exec_out w l r <> XFail e).
  Lemma filter_all {A} (f : A -> bool) l : (forall x, In x l -> f x = true) -> filter f l = l.
  Proof. induction l as [|x l IH]; intros H; cbn; [reflexivity|]. rewrite (H x (or_introl eq_refl)), IH; [reflexivity|]. intros y Hy. apply H. now right. Qed.
  Lemma filter_none {A} (f : A -> bool) l : (forall x, In x l -> f x = false) -> filter f l = [].
  Proof. induction l as [|x l IH]; intros H; cbn; [reflexivity|]. rewrite (H x (or_introl eq_refl)). apply IH. intros y Hy. apply H. now right. Qed.
  Lemma ign_exec w l t sl rows o (b : bool) : act = AIgnore -> (forall w l r, exec_out w l r <> XPrep) -> (learning = true -> forall w l r, exec_out w l r <> XTimeout) -> uniform -> ign_inv t sl rows ->
    (forall e, opt_out w l <> OFail e) -> o = optimized opt_out (w, l, 0) -> (b = true -> learning = true) -> let c := next_counter t in
    exists t' new, rbind (exec_reps reps 0 w l (mksample l w c o 0 []) (t_eff t)) (fun sf => rmap (fun f => mkst c (t_samples t ++ [fst sf]) f) (if b then feedback l (s_entries (fst sf)) (snd sf) else Ok (snd sf))) = Ok t' /\
      ign_inv t' (sl ++ map (fun r => (w, l, r)) (seq 0 reps)) (rows ++ new) /\ t_samples t' <> [].
  Proof.
    intros Ha Hp Hl Hu (Hc & Hd & Hi & Hn) Hno Ho Hb c. set (s := mksample l w c o 0 []). destruct (Hu w l) as [Hall|Hnone].
    - rewrite exec_reps_none; [|exact Ha|reflexivity|intros r' _; apply Hall]. cbn [rbind fst snd].
      assert (Ef : (if b then feedback l (s_entries (extend s reps [])) (t_eff t) else Ok (t_eff t)) = Ok (t_eff t)) by (destruct b; reflexivity). rewrite Ef. cbn [rmap].
      exists (mkst c (t_samples t ++ [extend s reps []]) (t_eff t)), []. rewrite app_nil_r. split; [reflexivity|]. split; [|cbn; now destruct (t_samples t)].
      split; [|split; [|split]].
      + pose proof (covers_snoc t c (t_eff t) (extend s reps []) rows Hc (or_introl eq_refl)) as Hcs. cbn [extend s_entries s app] in Hcs. unfold rows_at in Hcs. cbn in Hcs. rewrite app_nil_r in Hcs. exact Hcs.
      + rewrite filter_app, (filter_none _ (map _ _)), app_nil_r; [exact Hd|]. intros x Hx. apply in_map_iff in Hx as (r & <- & _). unfold Bench_spec.failed. rewrite report_x by exact Hno. unfold xentry. destruct (Hall r) as [e ->]. reflexivity.
      + exact Hi.
      + intros i Hin. rewrite next_counter_snoc. specialize (Hn i Hin). fold c in Hn. lia.
    - rewrite exec_reps_all by (intros r' _; split; [apply Hp|right; apply Hnone]). cbv zeta. cbn [rbind fst snd]. set (es := map (xentry w l) (seq 0 reps)). change (s_entries s) with (@nil entry). cbn [length]. set (f1 := more (t_eff t) (rows_at s 0 es)).
      assert (Ees : s_entries (extend s reps es) = es) by reflexivity. assert (Elen : length es = reps) by (unfold es; now rewrite map_length, seq_length).
      assert (Hfb : exists f', (if b then feedback l (s_entries (extend s reps es)) f1 else Ok f1) = Ok f').
      { destruct b; [|exists f1; reflexivity]. destruct (feedback_ok l es f1) as (f' & Ef & _); [intros e He; apply (xentries_fine w l 0 reps) with (e := e); auto|]. exists f'. exact Ef. }
      destruct Hfb as (f' & Ef). rewrite Ef. cbn [rmap]. exists (mkst c (t_samples t ++ [extend s reps es]) f'), (rows_at (extend s reps es) 0 es). split; [reflexivity|]. split; [|cbn; now destruct (t_samples t)].
      split; [|split; [|split]].
      + rewrite <- Ees at 3. apply covers_snoc; [exact Hc|]. right. rewrite Ees. cbn. now rewrite Elen.
      + rewrite filter_app. apply Forall2_app; [exact Hd|]. rewrite filter_all; [apply describes_rows; try reflexivity; [exact Ho|intros r'; now apply report_x]|]. intros x Hx. apply in_map_iff in Hx as (r & <- & _). unfold Bench_spec.failed. rewrite report_x by exact Hno.
        unfold xentry. specialize (Hnone r). specialize (Hp w l r). destruct (exec_out w l r) as [v| |e|]; try reflexivity; [now destruct (Hnone e)|contradiction].
      + rewrite map_app, rows_at_index, Elen. cbn [extend s_init s]. rewrite Nat.add_0_r. apply increasing_app; [exact Hi|apply increasing_seq|]. intros x y Hx Hy. apply in_seq in Hy. specialize (Hn x Hx). fold c in Hn. lia.
      + intros i Hin. rewrite map_app, rows_at_index, Elen in Hin. cbn [extend s_init s] in Hin. rewrite Nat.add_0_r in Hin. rewrite next_counter_snoc, Ees, Elen. apply in_app_or in Hin as [Hin|Hin]; [specialize (Hn i Hin); fold c in Hn; lia|apply in_seq in Hin; lia].
  Qed.
  Lemma ign_query w l t sl rows : act = AIgnore -> (forall w l r, exec_out w l r <> XPrep) -> (learning = true -> forall w l r, exec_out w l r <> XTimeout) -> uniform -> ign_inv t sl rows ->
    exists t' new, run_query w t l = Ok t' /\ ign_inv t' (sl ++ map (fun r => (w, l, r)) (seq 0 reps)) (rows ++ new) /\ ((t_samples t <> [] \/ (forall e, opt_out w l <> OFail e)) -> t_samples t' <> []).
  Proof.
    intros Ha Hp Hl Hu Hinv. unfold Bench_model.run_query. destruct (opt_out w l) as [|q|e] eqn:Eo.
    - destruct (ign_exec w l t sl rows None false Ha Hp Hl Hu Hinv) as (t' & new & E & Hi & Hne); [intros e; rewrite Eo; discriminate|cbn; now rewrite Eo|discriminate|]. exists t', new. split; [exact E|]. split; [exact Hi|]. intros _. exact Hne.
    - destruct (ign_exec w l t sl rows (Some q) learning Ha Hp Hl Hu Hinv) as (t' & new & E & Hi & Hne); [intros e; rewrite Eo; discriminate|cbn; now rewrite Eo|auto|]. exists t', new. split; [exact E|]. split; [exact Hi|]. intros _. exact Hne.
    - destruct Hinv as (Hc & Hd & Hi & Hn). rewrite Ha. exists (mkst (next_counter t) (t_samples t) (t_eff t)), []. rewrite app_nil_r. split; [reflexivity|]. split; [|intros [H|H]; [exact H|now destruct (H e)]].
      split; [exact Hc|]. split; [|split].
      + rewrite filter_app, (filter_none _ (map _ _)), app_nil_r; [exact Hd|]. intros x Hx. apply in_map_iff in Hx as (r & <- & _). cbn. unfold Bench_spec.failed, Bench_spec.report. now rewrite Eo.
      + exact Hi.
      + intros i Hin. specialize (Hn i Hin). unfold next_counter at 1. cbn [t_samples t_counter]. destruct (rev (t_samples t)); lia.
  Qed.
  Lemma ign_queries w ls : forall t sl rows, act = AIgnore -> (forall w l r, exec_out w l r <> XPrep) -> (learning = true -> forall w l r, exec_out w l r <> XTimeout) -> uniform -> ign_inv t sl rows ->
    exists t' new, run_queries w t ls = Ok t' /\ ign_inv t' (sl ++ flat_map (fun l => map (fun r => (w, l, r)) (seq 0 reps)) ls) (rows ++ new) /\ ((t_samples t <> [] \/ exists l, In l ls /\ forall e, opt_out w l <> OFail e) -> t_samples t' <> []).
  Proof.
    induction ls as [|l ls IH]; intros t sl rows Ha Hp Hl Hu Hi.
    - exists t, []. cbn. rewrite !app_nil_r. split; [reflexivity|]. split; [assumption|]. intros [H|(l & [] & _)]; assumption.
    - cbn [Bench_model.run_queries flat_map]. destruct (ign_query w l t sl rows Ha Hp Hl Hu Hi) as (t1 & new1 & E & Hi1 & Hne). rewrite E. cbn [rbind]. destruct (IH t1 _ _ Ha Hp Hl Hu Hi1) as (t2 & new2 & E2 & Hi2 & Hne2).
      exists t2, (new1 ++ new2). split; [exact E2|]. rewrite !app_assoc. split; [exact Hi2|]. intros [H|(l' & [<-|Hin] & Ho)]; apply Hne2; [left; apply Hne; now left|left; apply Hne; now right|right; eauto].
  Qed.
  Lemma ign_reps n : forall w t sl rows order, act = AIgnore -> (forall w l r, exec_out w l r <> XPrep) -> (learning = true -> forall w l r, exec_out w l r <> XTimeout) -> uniform -> ign_inv t sl rows ->
    exists t' new, run_reps n w t order = Ok t' /\ ign_inv t' (sl ++ flat_map (fun w => flat_map (fun l => map (fun r => (w, l, r)) (seq 0 reps)) (order w)) (seq w n)) (rows ++ new) /\
      (t_samples t <> [] \/ (exists w' l, w <= w' < w + n /\ In l (order w') /\ forall e, opt_out w' l <> OFail e) -> t_samples t' <> []).
  Proof.
    induction n as [|n IH]; intros w t sl rows order Ha Hp Hl Hu Hi.
    - exists t, []. cbn. rewrite !app_nil_r. split; [reflexivity|]. split; [assumption|]. intros [H|(w' & l & H & _)]; [assumption|lia].
    - cbn [Bench_model.run_reps seq flat_map]. destruct (ign_queries w (order w) t sl rows Ha Hp Hl Hu Hi) as (t1 & new1 & E & Hi1 & Hne). rewrite E. cbn [rbind]. destruct (IH (S w) t1 _ _ order Ha Hp Hl Hu Hi1) as (t2 & new2 & E2 & Hi2 & Hne2).
      exists t2, (new1 ++ new2). split; [exact E2|]. rewrite !app_assoc. split; [exact Hi2|]. intros H. apply Hne2. destruct H as [H|(w' & l & Hw & Hin & Ho)]; [left; apply Hne; now left|]. destruct (Nat.eq_dec w' w) as [->|Hneq]; [left; apply Hne; right; eauto|]. right. exists w', l. split; [lia|auto].
  Qed.
  Lemma ign_total wreps order : act = AIgnore -> (forall w l r, exec_out w l r <> XPrep) -> (learning = true -> forall w l r, exec_out w l r <> XTimeout) -> uniform ->
    (exists w l, 1 <= w <= wreps /\ In l (order w) /\ forall e, opt_out w l <> OFail e) ->
    exists rows f, execute_workload wreps order = Ok (rows, f) /\ Forall2 describes (filter (fun x => negb (failed x)) (slots wreps reps order)) rows /\ increasing (map r_index rows).
  Proof.
    intros Ha Hp Hl Hu (w & l & Hw & Hin & Ho). destruct (ign_reps wreps 1 start [] [] order Ha Hp Hl Hu) as (t & rows & E & (Hc & Hd & Hi & _) & Hne).
    - split; [exists []; split; reflexivity|]. split; [constructor|]. split; [exact Logic.I|]. intros i [].
    - exists rows, (t_eff t). cbn [app] in *. unfold Bench_model.execute_workload. rewrite E. cbn [rbind]. rewrite (all_rows_covers t rows Hc); [|apply Hne; right; exists w, l; split; [lia|auto]]. cbn. repeat split; assumption.
  Qed.
End Bench.
