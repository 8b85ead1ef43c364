(** Property theorems for C344-C348 (progress of benchmarks, loggers, copies of the output, stored workloads). *)
From Coq Require Import List Bool Arith Ascii String Lia.
From Verif Require Import PyBase Ident_model Log_model Log_spec.
Import ListNotations.

(** ** C344: custom loggers are told about each query, with the number of the repetition. *)
Lemma custom_queries reps qs : forall i l, exists m, Forall2 (fun q x => x = (fst q, i)) qs m /\ fold_left custom (flat_map (query_events reps) qs) (i, l) = (i, l ++ m).
Proof.
  assert (R : forall n s, fold_left custom (repeat ERep n) s = s) by (induction n; intros s; [reflexivity|apply IHn]).
  induction qs as [|q qs IH]; intros i l; [exists []; split; [constructor|rewrite app_nil_r; reflexivity]|].
  destruct (IH i (l ++ [(fst q, i)])) as (m & F & E). exists ((fst q, i) :: m). split; [constructor; auto|]. cbn [flat_map]. unfold query_events at 1. cbn [app fold_left custom fst snd].
  rewrite fold_left_app. replace (fold_left custom (if snd q then repeat ERep reps else []) (i, l ++ [(fst q, i)])) with (i, l ++ [(fst q, i)]) by (destruct (snd q); [rewrite R|]; reflexivity).
  rewrite E, <- app_assoc. reflexivity.
Qed.
Theorem C344_messages : forall reps runs, exists m, messages 1 runs m /\ snd (fold_left custom (benchmark reps runs) (0, [])) = m.
Proof.
  intros reps runs. unfold benchmark.
  assert (G : forall runs i l, exists m, messages (S i) runs m /\ fold_left custom (flat_map (fun qs => EWorkload :: flat_map (query_events reps) qs) runs) (i, l) = (i + List.length runs, l ++ m)).
  { clear runs. induction runs as [|qs runs IH]; intros i l; [exists []; split; [constructor|]; cbn; rewrite app_nil_r, Nat.add_0_r; reflexivity|].
    destruct (custom_queries reps qs (S i) l) as (m & F & E). destruct (IH (S i) (l ++ m)) as (m' & M & E'). exists (m ++ m'). split; [constructor; assumption|].
    cbn [flat_map app fold_left custom fst snd]. rewrite fold_left_app, E, E', <- app_assoc. cbn [List.length]. f_equal. lia. }
  destruct (G runs 0 []) as (m & M & E). exists m. split; [exact M|]. rewrite fold_left_app, E. reflexivity.
Qed.
Print Assumptions C344_messages.
Example C344_ex : snd (fold_left custom (benchmark 2 [[("a"%string, true); ("b"%string, false)]; [("b"%string, true)]]) (0, [])) = [("a"%string, 1); ("b"%string, 1); ("b"%string, 2)]. Proof. reflexivity. Qed.

(** ** C345: all progress bars are complete after a benchmark.
    Partial: for the bars of repetitions. *)
Lemma tqdm_reps n : forall b, fold_left tqdm (repeat ERep n) b = {| b_workload := b_workload b; b_query := b_query b; b_rep := b_rep b + n; b_initial := b_initial b |}.
Proof. induction n as [|n IH]; intros b; cbn; [rewrite Nat.add_0_r; destruct b; reflexivity|]. rewrite IH. cbn. f_equal. lia. Qed.
Lemma tqdm_queries reps qs : forall b, exists r, fold_left tqdm (flat_map (query_events reps) qs) b
  = {| b_workload := b_workload b; b_query := b_query b + List.length qs; b_rep := r; b_initial := b_initial b |} /\
  (forall qs' q, qs = qs' ++ [(q, true)] -> r = reps) /\ (qs = [] -> r = b_rep b).
Proof.
  induction qs as [|[q ok] qs IH]; intros b; [exists (b_rep b); split; [cbn; rewrite Nat.add_0_r; destruct b; reflexivity|]; split; [intros [|] ? E; discriminate|reflexivity]|].
  cbn [flat_map]. unfold query_events at 1. cbn [app fold_left tqdm fst snd]. rewrite fold_left_app.
  set (b1 := fold_left tqdm (if ok then repeat ERep reps else []) _).
  assert (B : b_workload b1 = b_workload b /\ b_query b1 = S (b_query b) /\ b_initial b1 = b_initial b /\ (ok = true -> b_rep b1 = reps)) by (unfold b1; destruct ok; [rewrite tqdm_reps|]; repeat split; discriminate).
  destruct B as (B1 & B2 & B3 & B4). destruct (IH b1) as (r & E & L & Z). exists r. rewrite E, B1, B2, B3. split; [f_equal; cbn [List.length]; lia|]. split; [|discriminate].
  intros [|x qs'] q' Q; cbn in Q.
  - injection Q as <- -> ->. rewrite (Z eq_refl). apply B4. reflexivity.
  - injection Q as <- Q. exact (L qs' q' Q).
Qed.
Definition bars_after (reps : nat) (runs : list (list (string * bool))) : bars := fold_left tqdm (benchmark reps runs) no_progress.
Lemma tqdm_runs reps runs : forall b, b_initial b = false -> exists q r, fold_left tqdm (flat_map (fun qs => EWorkload :: flat_map (query_events reps) qs) runs) b
  = {| b_workload := b_workload b + List.length runs; b_query := q; b_rep := r; b_initial := false |} /\
  (forall runs' qs, runs = runs' ++ [qs] -> q = List.length qs /\ forall qs' x, qs = qs' ++ [(x, true)] -> r = reps) /\ (runs = [] -> q = b_query b /\ r = b_rep b).
Proof.
  induction runs as [|qs runs IH]; intros b I; [exists (b_query b), (b_rep b); split; [cbn; rewrite Nat.add_0_r; destruct b; cbn in *; congruence|]; split; [intros [|] ? E; discriminate|auto]|].
  cbn [flat_map app fold_left tqdm]. rewrite I, fold_left_app.
  destruct (tqdm_queries reps qs {| b_workload := S (b_workload b); b_query := 0; b_rep := b_rep b; b_initial := false |}) as (r1 & E1 & L1 & _). rewrite E1. cbn [b_workload b_query b_initial].
  destruct (IH {| b_workload := S (b_workload b); b_query := 0 + List.length qs; b_rep := r1; b_initial := false |} eq_refl) as (q & r & E & L & Z). rewrite E. exists q, r. cbn [b_workload b_query b_rep] in *.
  split; [f_equal; cbn [List.length]; lia|]. split; [|discriminate]. intros [|x runs'] qs' Q; cbn in Q.
  - injection Q as -> ->. destruct (Z eq_refl) as [-> ->]. split; [reflexivity|exact L1].
  - injection Q as <- Q. exact (L runs' qs' Q).
Qed.
Lemma bars_spec reps qs runs : exists q r, fold_left tqdm (flat_map (fun qs => EWorkload :: flat_map (query_events reps) qs) (qs :: runs)) no_progress
  = {| b_workload := List.length runs; b_query := q; b_rep := r; b_initial := false |} /\
  (forall runs' l, qs :: runs = runs' ++ [l] -> q = List.length l /\ forall l' x, l = l' ++ [(x, true)] -> r = reps).
Proof.
  cbn [flat_map app fold_left tqdm b_initial no_progress]. rewrite fold_left_app.
  destruct (tqdm_queries reps qs {| b_workload := b_workload no_progress; b_query := b_query no_progress; b_rep := b_rep no_progress; b_initial := false |}) as (r1 & E1 & L1 & _).
  rewrite E1. destruct (tqdm_runs reps runs {| b_workload := 0; b_query := 0 + List.length qs; b_rep := r1; b_initial := false |} eq_refl) as (q & r & E & L & Z).
  cbn [b_workload b_query b_initial no_progress] in *. rewrite E. exists q, r. split; [reflexivity|]. intros [|x runs'] l Q; cbn in Q.
  - injection Q as -> ->. destruct (Z eq_refl) as [-> ->]. split; [reflexivity|exact L1].
  - injection Q as <- Q. exact (L runs' l Q).
Qed.
Theorem C345_bars_partial : forall reps runs, b_workload (bars_after reps runs) = List.length runs /\
  (forall runs' qs q, runs = runs' ++ [qs ++ [(q, true)]] -> b_rep (bars_after reps runs) = reps).
Proof.
  intros reps [|qs runs]; [split; [reflexivity|]; intros [|] ? ? E; discriminate|]. unfold bars_after, benchmark. rewrite fold_left_app.
  destruct (bars_spec reps qs runs) as (q & r & E & L). rewrite E. cbn. split; [reflexivity|]. intros runs' l x Q. destruct (L _ _ Q) as [_ R]. exact (R _ _ eq_refl).
Qed.
Print Assumptions C345_bars_partial.
(* Until the last step, the bar of queries is complete for each workload, and the one of workloads shows the completed ones. *)
Theorem C345_before : forall reps runs qs, let b := fold_left tqdm (flat_map (fun qs => EWorkload :: flat_map (query_events reps) qs) (runs ++ [qs])) no_progress in
  b_workload b = List.length runs /\ b_query b = List.length qs.
Proof.
  intros reps runs qs b. unfold b. destruct (runs ++ [qs]) as [|x rest] eqn:X; [destruct runs; discriminate|].
  destruct (bars_spec reps x rest) as (q & r & E & L). rewrite E. cbn. destruct (L runs qs (eq_sym X)) as [Q _]. split; [|exact Q].
  assert (S (List.length rest) = List.length (runs ++ [qs])) by (rewrite X; reflexivity). rewrite app_length in H. cbn in H. lia.
Qed.
Print Assumptions C345_before.
(* The bar of queries is empty at the end. *)
Theorem C345_bars_refuted : forall reps runs, runs <> [] -> b_query (bars_after reps runs) = 0 /\
  forall n q r, 0 < q -> ~ complete n q r (bars_after reps runs).
Proof.
  intros reps [|qs runs] N; [congruence|]. assert (Z : b_query (bars_after reps (qs :: runs)) = 0).
  { unfold bars_after, benchmark. rewrite fold_left_app. destruct (bars_spec reps qs runs) as (q & r & E & _). rewrite E. reflexivity. }
  split; [exact Z|]. intros n q r P (_ & Q & _). lia.
Qed.
Print Assumptions C345_bars_refuted.
Example C345_ex : bars_after 3 [[("a"%string, true); ("b"%string, true)]] = {| b_workload := 1; b_query := 0; b_rep := 3; b_initial := false |}. Proof. reflexivity. Qed.

(** ** C346: loggers print the prefix and all arguments if they are enabled, and nothing otherwise.
    Partial: without pretty printing. *)
Theorem C346_log_partial : forall p words args, prefix_words p words -> log true false p args = Ok (Some (words ++ args)).
Proof. intros p words args W. inversion W; subst; cbn; try reflexivity. apply deqb_neq in H. rewrite H. reflexivity. Qed.
Print Assumptions C346_log_partial.
Theorem C346_disabled : forall pretty p args, log false pretty p args = Ok None.
Proof. intros [] p args; reflexivity. Qed.
Print Assumptions C346_disabled.
(* With pretty printing, prefixes are lost and there must be exactly one argument. *)
Theorem C346_log_refuted : forall p a b args, log true true p [a] = Ok (Some [a]) /\ log true true p (a :: b :: args) = Raise TypeError /\ log true true p [] = Raise TypeError.
Proof. intros p a b args. repeat split. Qed.
Print Assumptions C346_log_refuted.
Example C346_ex : log true false (PText "UES") ["table"; "t"]%string = Ok (Some ["UES"; "table"; "t"]%string) /\ prefix_words (PText "UES") ["UES"%string]. Proof. split; [reflexivity|]. constructor. discriminate. Qed.

(** ** C347: after tee_stdout(), what is printed goes to the console and to the files.
    Partial: without flush. *)
Lemma write_console o m w : console (write o m w) = console w ++ [m].
Proof. revert w. induction o as [|f b IH]; intros w; [reflexivity|]. cbn. apply IH. Qed.
Lemma content_set w f g l : content {| console := console w; files := dset (files w) f l |} g = if eqd g f then l else content w g.
Proof. unfold content. cbn [files]. rewrite dset_spec. destruct (eqd g f); reflexivity. Qed.
Lemma write_other o m w f : ~ receives o f -> content (write o m w) f = content w f.
Proof.
  revert w. induction o as [|g b IH]; intros w N; [reflexivity|]. cbn [write]. rewrite content_set. destruct (eqd f g) as [->|]; [contradiction N; constructor|]. apply IH. intros R. apply N. constructor. exact R.
Qed.
Lemma write_file o m w f : distinct o -> receives o f -> content (write o m w) f = content w f ++ [m].
Proof.
  intros D. revert w. induction D as [|g b N D IH]; intros w R; [inversion R|]. cbn [write]. rewrite content_set. destruct (eqd f g) as [->|X].
  - rewrite write_other by exact N. reflexivity.
  - inversion R; subst; [congruence|]. apply IH. assumption.
Qed.
Theorem C347_tee_partial : forall o m w, distinct o -> let (w', r) := print o m false w in r = Ok tt /\ console w' = console w ++ [m] /\
  (forall f, receives o f -> content w' f = content w f ++ [m]) /\ (forall f, ~ receives o f -> content w' f = content w f).
Proof.
  intros o m w D. unfold print. split; [destruct o; reflexivity|]. split; [apply write_console|]. split; [intros f; apply write_file; exact D|intros f; apply write_other].
Qed.
Print Assumptions C347_tee_partial.
(* With flush=True, an AttributeError is raised. *)
Theorem C347_tee_refuted : forall f b m w, snd (print (Tee f b) m true w) = Raise AttributeError.
Proof. reflexivity. Qed.
Print Assumptions C347_tee_refuted.
Example C347_ex : let o := Tee 2 (Tee 1 Original) in distinct o /\ fst (print o "m" false {| console := []; files := [(1, ["x"%string])] |}) = {| console := ["m"%string]; files := [(1, ["x"; "m"]%string); (2, ["m"%string])] |}.
Proof. split; [|reflexivity]. constructor; [intros R; inversion R as [|? ? ? R2]; subst; inversion R2|]. constructor; [intros R; inversion R|constructor]. Qed.

(** ** C348: persist_workload() stores each query in a file that is named by its label. *)
Lemma name_inj a b : (a ++ ".sql")%string = (b ++ ".sql")%string -> a = b.
Proof.
  assert (L : forall a, String.length (a ++ ".sql") = String.length a + 4) by (intros x; induction x; cbn; congruence).
  revert b. induction a as [|c a IH]; intros [|d b] E; [reflexivity| | |].
  - exfalso. assert (X := f_equal String.length E). rewrite !L in X. cbn in X. lia.
  - exfalso. assert (X := f_equal String.length E). rewrite !L in X. cbn in X. lia.
  - cbn in E. injection E as -> E. f_equal. apply IH. exact E.
Qed.
Lemma persist_other format entries : forall dir n, (forall e, In e entries -> n <> (fst e ++ ".sql")%string) -> dget (persist format entries dir) n = dget dir n.
Proof.
  unfold persist. induction entries as [|e es IH]; intros dir n N; [reflexivity|]. cbn [fold_left]. rewrite IH by (intros x I; apply N; right; exact I).
  apply dset_other. apply N. left. reflexivity.
Qed.
Theorem C348_stored : forall format entries dir, NoDup (map fst entries) ->
  (forall l q, In (l, q) entries -> dget (persist format entries dir) (l ++ ".sql")%string = Some (format q ++ newline)%string) /\
  (forall n, (forall l q, In (l, q) entries -> n <> (l ++ ".sql")%string) -> dget (persist format entries dir) n = dget dir n).
Proof.
  intros format entries dir N. split; [|intros n H; apply persist_other; intros [l q] I; exact (H l q I)].
  revert dir. induction entries as [|[l0 q0] es IH]; intros dir l q I; [destruct I|]. cbn in N. inversion N as [|? ? N1 N2]; subst.
  change (persist format ((l0, q0) :: es) dir) with (persist format es (dset dir (l0 ++ ".sql")%string (format q0 ++ newline)%string)).
  destruct I as [E|I]; [injection E as <- <-|apply IH; assumption]. rewrite persist_other; [apply dset_same|].
  intros e I E. apply name_inj in E. apply N1. rewrite E. apply in_map. exact I.
Qed.
Print Assumptions C348_stored.
Example C348_ex : persist (fun q => q) [("a"%string, "SELECT 1"%string); ("b"%string, "SELECT 2"%string)] [] = [("a.sql"%string, ("SELECT 1" ++ newline)%string); ("b.sql"%string, ("SELECT 2" ++ newline)%string)]. Proof. reflexivity. Qed.
