(** C246: preparing queries for a benchmark. *)
From Coq Require Import String List Bool Arith Lia.
From Verif Require Import PyBase Clause_model Clause_spec Clause_proofs Clause_props QPrep_model QPrep_spec.
Import ListNotations.
Open Scope string_scope.
Open Scope list_scope.

Section S.
Context (star count : content) (plan analyze : sub).

Definition select_of (x : projection) : option content := match x with PKeep => None | PStar => Some star | PCount => Some count end.
Definition explain_of (m : mode) : option sub := match m with MDefault => None | MPlan => Some plan | MAnalyze => Some analyze end.

Lemma project_ok projection output explain cs ana warm stmts x q : asks_projection projection cs x -> fits q -> (x = PKeep \/ is_set q = false) ->
  exists q', project star count (make_prep projection output explain cs ana warm stmts) q = Ok q' /\ fits q' /\ replaced (select_of x) None q q'.
Proof.
  intros A F S.
  assert (K : project star count (make_prep projection output explain cs ana warm stmts) q = match x with PKeep => Ok q | PStar => with_select q star | PCount => with_select q count end).
  { destruct A as [[-> ->]|[N A]]; [reflexivity|]. unfold project, make_prep. cbn [p_projection]. destruct cs as [[]|]; [congruence| |]; destruct A; reflexivity. }
  rewrite K. destruct x.
  - exists q. split; [reflexivity|]. split; [exact F|]. repeat split.
  - destruct S as [S|S]; [discriminate|]. destruct (C79_with_select_partial q star F S) as (q' & E & F' & G & H). exists q'. split; [exact E|]. split; [exact F'|]. split; [intros s N _; apply H; exact N|]. split; [exact G|]. apply H. discriminate.
  - destruct S as [S|S]; [discriminate|]. destruct (C79_with_select_partial q count F S) as (q' & E & F' & G & H). exists q'. split; [exact E|]. split; [exact F'|]. split; [intros s N _; apply H; exact N|]. split; [exact G|]. apply H. discriminate.
Qed.

Lemma output_ok projection output0 explain cs ana warm stmts m q : asks_mode output0 explain ana m -> fits q ->
  exists q', output plan analyze (make_prep projection output0 explain cs ana warm stmts) q = Ok q' /\ fits q' /\ replaced None (explain_of m) q q'.
Proof.
  intros A F.
  assert (K : output plan analyze (make_prep projection output0 explain cs ana warm stmts) q = match m with MDefault => Ok q | MPlan => as_explain q plan | MAnalyze => as_explain q analyze end).
  { destruct A as [[-> ->]|[(N & -> & ->)|(N1 & N2 & A)]]; [reflexivity| |].
    - destruct ana as [[]|]; [congruence|reflexivity|reflexivity].
    - unfold output, make_prep. cbn [p_output]. destruct ana as [[]|]; [congruence| |]; (destruct explain as [[]|]; [congruence| |]); destruct A; reflexivity. }
  rewrite K. destruct m.
  - exists q. split; [reflexivity|]. split; [exact F|]. repeat split.
  - destruct (C79_as_explain q plan F) as (q' & E & F' & G & H). exists q'. split; [exact E|]. split; [exact F'|]. split; [intros s _ N; apply H; exact N|]. split; [apply H; discriminate|exact G].
  - destruct (C79_as_explain q analyze F) as (q' & E & F' & G & H). exists q'. split; [exact E|]. split; [exact F'|]. split; [intros s _ N; apply H; exact N|]. split; [apply H; discriminate|exact G].
Qed.

Lemma prewarm_set projection output explain cs ana warm stmts m : asks_mode output explain ana m ->
  p_prewarm (make_prep projection output explain cs ana warm stmts) = match m with MPlan => false | _ => warm end.
Proof.
  intros A. destruct A as [[-> ->]|[(N & -> & ->)|(N1 & N2 & A)]].
  - cbn. reflexivity.
  - destruct ana as [[]|]; [congruence| |]; cbn; destruct warm; reflexivity.
  - unfold make_prep. cbn [p_prewarm]. destruct ana as [[]|]; [congruence| |]; (destruct explain as [[]|]; [congruence| |]); destruct A; cbn; destruct warm; reflexivity.
Qed.

Lemma run_stmts_all db l : (forall seen s, In s l -> d_statement db seen s = Ok tt) -> forall seen,
  run_stmts db seen l = (Ok tt, seen ++ map (fun s => Stmt s false) l).
Proof.
  induction l as [|s l IH]; intros H seen; cbn [run_stmts map]; [rewrite app_nil_r; reflexivity|].
  rewrite H by (left; reflexivity). rewrite IH by (intros seen' s' Hs; apply H; right; exact Hs). rewrite <- app_assoc. reflexivity.
Qed.
Lemma run_stmts_fail db l e : forall seen seen', run_stmts db seen l = (Raise e, seen') -> exists l1 s l2, l = l1 ++ s :: l2 /\ seen' = seen ++ map (fun s => Stmt s false) (l1 ++ [s]).
Proof.
  induction l as [|s l IH]; intros seen seen' H; cbn in H; [discriminate|]. destruct (d_statement db seen s) as [[]|e'].
  - apply IH in H as (l1 & s' & l2 & -> & ->). exists (s :: l1), s', l2. split; [reflexivity|]. cbn. rewrite <- app_assoc. reflexivity.
  - injection H as -> <-. exists [], s, l. split; reflexivity.
Qed.

(** What is sent to a database before the query. *)
Definition sent_before (db : database) (warm : bool) (m : mode) (stmts : list string) (q : query) (l : list effect) : Prop :=
  exists a, l = a ++ map (fun s => Stmt s false) stmts
   /\ ((warm = true /\ m <> MPlan /\ d_prewarm db = true /\ a = [Prewarm q]) \/ ((warm = false \/ m = MPlan \/ d_prewarm db = false) /\ a = [])).

Lemma warm_cases db warm m : (warm = true /\ m <> MPlan /\ d_prewarm db = true /\ match m with MPlan => false | _ => warm end && d_prewarm db = true)
  \/ ((warm = false \/ m = MPlan \/ d_prewarm db = false) /\ match m with MPlan => false | _ => warm end && d_prewarm db = false).
Proof. destruct warm, m, (d_prewarm db); cbn; auto; left; repeat split; discriminate. Qed.
End S.

(* The prepared query differs from the original one in the SELECT and EXPLAIN clauses that were asked for only.  Before it is
   executed, the tables are prewarmed, if that was asked for, and the preparatory statements are executed in order. *)
Theorem C246_prepare_query_partial : forall star count plan analyze projection output explain cs ana warm stmts x m q seen,
  asks_projection projection cs x -> asks_mode output explain ana m -> fits q -> (x = PKeep \/ is_set q = false) ->
  let p := make_prep projection output explain cs ana warm (Some stmts) in
  exists q', replaced (select_of star count x) (explain_of plan analyze m) q q'
   /\ prepare_query star count plan analyze p None seen q = (Ok q', seen)
   /\ forall db, (forall s t, d_warm_tables db s t = Ok tt) -> (forall s t, In t stmts -> d_statement db s t = Ok tt) ->
        exists l, prepare_query star count plan analyze p (Some db) seen q = (Ok q', seen ++ l) /\ sent_before db warm m stmts q' l.
Proof.
  intros star count plan analyze projection output0 explain cs ana warm stmts x m q seen A B F S p.
  destruct (project_ok star count projection output0 explain cs ana warm (Some stmts) x q A F S) as (q1 & E1 & F1 & R1).
  destruct (output_ok plan analyze projection output0 explain cs ana warm (Some stmts) m q1 B F1) as (q2 & E2 & F2 & R2).
  exists q2. fold p in E1, E2.
  assert (E : rbind (project star count p q) (output plan analyze p) = Ok q2) by (rewrite E1; exact E2).
  split; [|split].
  - destruct R1 as (A1 & A2 & A3), R2 as (B1 & B2 & B3). split; [intros s N1 N2; rewrite B1, A1 by assumption; reflexivity|]. split; [rewrite B2, A2; reflexivity|]. rewrite B3. destruct (explain_of plan analyze m); [reflexivity|exact A3].
  - unfold prepare_query. rewrite E. reflexivity.
  - intros db HW HS. unfold prepare_query. rewrite E. unfold p at 1. rewrite (prewarm_set projection output0 explain cs ana warm (Some stmts) m B).
    change (p_stmts p) with stmts. unfold sent_before.
    destruct (warm_cases db warm m) as [(W1 & W2 & W3 & W)|(W1 & W)]; rewrite W.
    + rewrite HW, (run_stmts_all db stmts HS). eexists. rewrite <- app_assoc. split; [reflexivity|]. eexists. split; [reflexivity|]. left. auto.
    + rewrite (run_stmts_all db stmts HS). eexists. split; [reflexivity|]. exists []. split; [reflexivity|]. right. auto.
Qed.
Print Assumptions C246_prepare_query_partial.

(* Nothing but the query itself is executed after the preparation, it is executed exactly once and not answered from the cache,
   and its own failures are outcomes. *)
Theorem C246_execute_query_partial : forall star count plan analyze projection output explain cs ana warm stmts x m q seen db timeout,
  asks_projection projection cs x -> asks_mode output explain ana m -> fits q -> (x = PKeep \/ is_set q = false) ->
  (forall s t, d_warm_tables db s t = Ok tt) -> (forall s t, In t stmts -> d_statement db s t = Ok tt) -> (timeout = None \/ d_timeout db = true) ->
  let p := make_prep projection output explain cs ana warm (Some stmts) in
  exists q' l o, replaced (select_of star count x) (explain_of plan analyze m) q q' /\ sent_before db warm m stmts q' l
   /\ execute_query star count plan analyze (Some p) timeout db seen q
      = (Ok o, seen ++ l ++ [match timeout with Some (S t) => RunTimeout q' (S t) | _ => Run q' false true end])
   /\ (forall t, o = TimedOut t -> timeout = Some t /\ t <> 0).
Proof.
  intros star count plan analyze projection output0 explain cs ana warm stmts x m q seen db timeout A B F S HW HS HT p.
  destruct (C246_prepare_query_partial star count plan analyze projection output0 explain cs ana warm stmts x m q seen A B F S) as (q' & R & _ & K).
  destruct (K db HW HS) as (l & E & L). fold p in E.
  exists q', l. unfold execute_query. destruct timeout as [[|t]|].
  - destruct (d_timeout db); rewrite E, app_assoc; eexists; (split; [exact R|split; [exact L|split; [reflexivity|]]]); intros t H; exfalso; revert H; (destruct (d_query db (seen ++ l) q'); [unfold stopwatch; destruct (d_stopwatch db); [destruct (d_last_runtime db _)|]|]; discriminate).
  - destruct HT as [HT|HT]; [discriminate|]. rewrite HT, E, app_assoc. eexists. split; [exact R|]. split; [exact L|]. split; [reflexivity|].
    intros t0 H. destruct (d_query_timeout db (seen ++ l) q' (Datatypes.S t)) as [[r|]|]; [|injection H as <-; split; [reflexivity|discriminate]|discriminate].
    unfold stopwatch in H. destruct (d_stopwatch db); [destruct (d_last_runtime db _)|]; discriminate.
  - destruct (d_timeout db); rewrite E, app_assoc; eexists; (split; [exact R|split; [exact L|split; [reflexivity|]]]); intros t H; exfalso; revert H; (destruct (d_query db (seen ++ l) q'); [unfold stopwatch; destruct (d_stopwatch db); [destruct (d_last_runtime db _)|]|]; discriminate).
Qed.
Print Assumptions C246_execute_query_partial.

(* A failing preparatory statement ends the preparation: the statements after it and the query are not executed. *)
Theorem C246_failing_statement : forall star count plan analyze p db seen q e seen',
  d_prewarm db = false -> prepare_query star count plan analyze p (Some db) seen q = (Raise e, seen') ->
  exists l1 l2, p_stmts p = l1 ++ l2 /\ seen' = seen ++ map (fun s => Stmt s false) l1
   /\ execute_query star count plan analyze (Some p) None db seen q = (Raise e, seen').
Proof.
  intros star count plan analyze p db seen q e seen' N H.
  assert (X : execute_query star count plan analyze (Some p) None db seen q = (Raise e, seen')).
  { unfold execute_query. rewrite H. destruct (d_timeout db); reflexivity. }
  unfold prepare_query in H. destruct (rbind (project star count p q) (output plan analyze p)) as [q'|e'].
  - rewrite N, andb_false_r in H. destruct (run_stmts db seen (p_stmts p)) as [[[]|e'] s'] eqn:E; [discriminate|]. injection H as -> ->.
    apply run_stmts_fail in E as (l1 & s & l2 & E & ->). exists (l1 ++ [s]), l2. rewrite <- app_assoc. auto.
  - injection H as -> <-. exists [], (p_stmts p). rewrite app_nil_r. auto.
Qed.
Print Assumptions C246_failing_statement.

(* Not for set queries with a projection and not for misspelled output modes, which are ignored.  And an error of the preparation is
   no outcome of the execution, other than errors of the query itself: it ends the benchmark whatever the error handling. *)
Definition db0 (prewarm : bool) (bad : string) : database :=
  mkdb prewarm true false (fun _ _ => Ok tt) (fun _ s => if String.eqb s bad then Raise OtherError else Ok tt) (fun _ _ => Ok 1) (fun _ _ _ => Ok None) (fun _ => Ok 0).
Theorem C246_prepare_query_refuted :
  (exists q p, fits q /\ p = make_prep "count_star" "default" None None None false None
     /\ forall star count plan analyze seen, prepare_query star count plan analyze p None seen q = (Raise ValueError, seen))
  /\ (exists p, p = make_prep "none" "Explain" None None None false None
     /\ forall star count plan analyze seen q, prepare_query star count plan analyze p None seen q = (Ok q, seen))
  /\ (exists p db, forall star count plan analyze q, fits q ->
       execute_query star count plan analyze (Some p) None db [] q = (Raise OtherError, [Stmt "SET x" false])
       /\ execute_query star count plan analyze None None (mkdb false false false (fun _ _ => Ok tt) (fun _ _ => Ok tt) (fun _ _ => Raise OtherError) (fun _ _ _ => Ok None) (fun _ => Ok 0)) [] q
          = (Ok (Failed OtherError), [Run q false true])).
Proof.
  split; [|split].
  - exists q3. eexists. split; [split; reflexivity|]. split; [reflexivity|]. intros. reflexivity.
  - eexists. split; [reflexivity|]. intros. reflexivity.
  - exists (make_prep "none" "default" None None None false (Some ["SET x"])), (db0 false "SET x"). intros. split; reflexivity.
Qed.
Print Assumptions C246_prepare_query_refuted.

(* a query prepared for EXPLAIN ANALYZE with COUNT STAR by the deprecated flags *)
Example C246_ex :
  let p := make_prep "star" "explain" None (Some true) (Some true) true (Some ["SET a"; "SET b"]) in
  asks_projection "star" (Some true) PCount /\ asks_mode "explain" None (Some true) MAnalyze /\ fits q1 /\ is_set q1 = false
  /\ exists q', execute_query 40 41 (mkSub false 50) (mkSub false 51) (Some p) (Some 5) (db0 true "") [] q1
                = (Ok (TimedOut 5), [Prewarm q'; Stmt "SET a" false; Stmt "SET b" false; RunTimeout q' 5])
       /\ clause_at q' SSelect = Some (CSelect 41) /\ clause_at q' SExplain = Some (CExplain (mkSub false 51)) /\ clause_at q' SWhere = clause_at q1 SWhere.
Proof.
  split; [left; auto|]. split; [left; auto|]. split; [reflexivity|]. split; [reflexivity|]. eexists. split; [reflexivity|]. repeat split.
Qed.
