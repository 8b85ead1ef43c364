(** Property theorems for C303-C308 (plans and estimates of Postgres, its operator settings and the hinting backend). *)
From Coq Require Import List Bool Arith ZArith Ascii String Lia.
From Verif Require Import PyBase Ident_model PgOpt_model PgOpt_spec.
Import ListNotations.

Section WithServer.
  Context (answer : settings -> option explain -> nat -> nat -> res (list (list py))).

  Lemma exec_sets s ps : exists s', after s ps s' /\ exec answer s (map (fun p => SSet (fst p) (snd p)) ps) = (s', Ok None).
  Proof.
    revert s. induction ps as [|[n v] ps IH]; intros s; [exists s; split; [constructor|reflexivity]|].
    destruct (IH (dset s n v)) as [s' [A E]]. exists s'. split; [now constructor|]. cbn [map exec step fst snd]. rewrite E. reflexivity.
  Qed.
  Lemma after_fun s ps s1 s2 : after s ps s1 -> after s ps s2 -> s1 = s2.
  Proof. intros H. revert s2. induction H; intros s2 H2; inversion H2; subst; auto. Qed.
  Lemma exec_app_sets s ps x : ps <> [] -> exists s' a, after s ps s' /\
    exec answer s' [x] = (fst (exec answer s' [x]), a) /\
    exec answer s (map (fun p => SSet (fst p) (snd p)) ps ++ [x]) = (fst (exec answer s' [x]), rbind a (fun _ => Ok None)).
  Proof.
    intros Hn. revert s Hn. induction ps as [|[n v] ps IH]; intros s Hn; [congruence|].
    destruct ps as [|p ps].
    - exists (dset s n v), (snd (exec answer (dset s n v) [x])). split; [repeat constructor|]. split; [apply surjective_pairing|].
      cbn [map app fst snd]. change (exec answer s (SSet n v :: [x])) with
        (let '(s2, b) := exec answer (dset s n v) [x] in (s2, rbind b (fun _ => Ok (A := option (list (list py))) None))).
      destruct (exec answer (dset s n v) [x]) as [s2 b]. reflexivity.
    - destruct (IH (dset s n v) ltac:(discriminate)) as (s' & a & A & E1 & E2). exists s', a. split; [now constructor|]. split; [exact E1|].
      cbn [map app fst snd] in E2 |- *. change (exec answer s (SSet n v :: SSet (fst p) (snd p) :: map (fun p => SSet (fst p) (snd p)) ps ++ [x])) with
        (let '(s2, b) := exec answer (dset s n v) (SSet (fst p) (snd p) :: map (fun p => SSet (fst p) (snd p)) ps ++ [x]) in
         (s2, rbind b (fun _ => Ok (A := option (list (list py))) None))).
      rewrite E2. destruct a; reflexivity.
  Qed.
End WithServer.

(** ** C303: the plan of a query is the one that the server uses for it.
    Partial: for queries without preparatory statements. *)
Theorem C303_query_plan_partial : forall answer plan s q, explains answer plan -> q_prep q = [] ->
  query_plan answer s q = (s, Ok (plan s XPlan (q_block q) (q_body q))).
Proof.
  intros answer plan s [p b x n] H Hp. cbn in Hp. subst p. unfold query_plan, execute_text, script, with_explain. cbn. rewrite H. reflexivity.
Qed.
Print Assumptions C303_query_plan_partial.
(** The preparatory statements are sent within the text of the query: they are applied, but their (missing) result is taken for
    the plan, which ends in an IndexError for all queries that have any. *)
Theorem C303_query_plan_refuted : forall answer plan s q, explains answer plan -> q_prep q <> [] ->
  exists s', after s (q_prep q) s' /\ query_plan answer s q = (s', Raise IndexError).
Proof.
  intros answer plan s q H Hp. unfold query_plan, execute_text, script. cbn [with_explain q_prep q_block q_explain q_body].
  destruct (exec_app_sets answer s (q_prep q) (SQuery (Some XPlan) (q_block q) (q_body q)) Hp) as (s' & a & A & E1 & E2).
  exists s'. split; [exact A|]. rewrite E2. cbn in E1. rewrite H in E1. cbn in E1. cbn. rewrite H. cbn.
  injection E1 as <-. reflexivity.
Qed.
Print Assumptions C303_query_plan_refuted.
Definition ex_plan (s : settings) (x : explain) (b q : nat) : doc :=
  {| d_rows := match dget s "enable_nestloop"%string with Some _ => 7 | None => 5 end; d_cost := Z.of_nat (b + q); d_id := q |}.
Definition ex_answer (s : settings) (x : option explain) (b q : nat) : res (list (list py)) :=
  match x with Some x => Ok [[VList [VDoc (Some (ex_plan s x b q))]]] | None => Ok [[VOther 1; VOther 2]] end.
Example C303_ex : explains ex_answer ex_plan /\
  (let q p := {| q_prep := p; q_block := 1; q_explain := None; q_body := 4 |} in
   snd (query_plan ex_answer [] (q [])) = Ok {| d_rows := 5; d_cost := 5; d_id := 4 |} /\
   snd (query_plan ex_answer [] (q [("enable_nestloop", "off")]%string)) = Raise IndexError).
Proof. split; [intros s x b q; reflexivity|split; reflexivity]. Qed.

(** ** C304: the estimates are those of the plan. *)
Theorem C304_estimates : forall answer plan s q, explains answer plan ->
  fst (cardinality_estimate answer s q) = fst (query_plan answer s q) /\ fst (cost_estimate answer s q) = fst (query_plan answer s q) /\
  snd (cardinality_estimate answer s q) = rbind (snd (query_plan answer s q)) (fun d => Ok (d_rows d)) /\
  snd (cost_estimate answer s q) = rbind (snd (query_plan answer s q)) (fun d => Ok (d_cost d)).
Proof.
  intros answer plan s q H. unfold cardinality_estimate, cost_estimate, query_plan, execute_text.
  assert (E : exists s1 r, exec answer s (script (with_explain XPlan q)) = (s1, Ok r) /\ (r = None \/ exists d, r = Some [[VList [VDoc (Some d)]]])).
  { unfold script. cbn [with_explain q_prep q_block q_explain q_body]. destruct (q_prep q) as [|p ps] eqn:Ep.
    - cbn. rewrite H. cbn. eexists _, _. split; [reflexivity|]. right. eexists. reflexivity.
    - destruct (exec_app_sets answer s (p :: ps) (SQuery (Some XPlan) (q_block q) (q_body q)) ltac:(discriminate)) as (s' & a & _ & E1 & E2).
      rewrite E2. cbn in E1. rewrite H in E1. cbn in E1. injection E1 as <-. cbn. eexists _, _. split; [reflexivity|]. now left. }
  destruct E as (s1 & r & -> & [->|[d ->]]); repeat split.
Qed.
Print Assumptions C304_estimates.
Example C304_ex :
  let q := {| q_prep := []; q_block := 1; q_explain := Some XAnalyze; q_body := 4 |} in
  snd (cardinality_estimate ex_answer [("enable_nestloop", "off")]%string q) = Ok 7%Z /\ snd (cost_estimate ex_answer [] q) = Ok 5%Z.
Proof. split; reflexivity. Qed.

(** ** C305: analyze_plan executes the query after its preparatory statements and gives its plan, or None after a timeout. *)
Theorem C305_analyze_plan : forall answer plan s q, analyzes answer plan ->
  exists s', after s (q_prep q) s' /\
    analyze_plan answer s q = (s', match plan s' (q_block q) (q_body q) with
                                   | Ok d => Ok (Some d)
                                   | Raise TimeoutError => Ok None
                                   | Raise e => Raise e
                                   end).
Proof.
  intros answer plan s q H. unfold analyze_plan, execute_query. cbn [with_explain q_prep q_block q_explain q_body].
  destruct (q_prep q) as [|p ps] eqn:Ep.
  - exists s. split; [constructor|]. unfold script. cbn [with_explain q_prep q_block q_explain q_body]. rewrite Ep. cbn. rewrite H.
    destruct (plan s (q_block q) (q_body q)) as [d|e]; cbn; [reflexivity|]. destruct e; reflexivity.
  - destruct (exec_sets answer s (p :: ps)) as [s' [A E]]. exists s'. split; [exact A|]. rewrite E.
    unfold script, drop_prep. cbn. rewrite H. destruct (plan s' (q_block q) (q_body q)) as [d|e]; cbn; [reflexivity|]. destruct e; reflexivity.
Qed.
Print Assumptions C305_analyze_plan.
Example C305_ex :
  analyzes ex_answer (fun s b q => Ok (ex_plan s XAnalyze b q)) /\
  analyze_plan ex_answer [] {| q_prep := [("enable_nestloop", "off")]%string; q_block := 0; q_explain := None; q_body := 3 |}
  = ([("enable_nestloop", "off")]%string, Ok (Some {| d_rows := 7; d_cost := 3; d_id := 3 |})).
Proof. split; [intros s b q; reflexivity|reflexivity]. Qed.

(** ** C306: parse_plan understands raw and simplified results and plain documents alike. *)
Theorem C306_parse_plan : forall d,
  let rs := Some [[VList [VDoc (Some d)]]] in
  parse_plan (raw_value rs) = Ok d /\ rbind (simplify rs) parse_plan = Ok d /\
  parse_plan (VDoc (Some d)) = Ok d /\ parse_plan (VList [VDoc (Some d)]) = Ok d /\ parse_plan (VTuple [VList [VDoc (Some d)]]) = Ok d.
Proof. intros d. repeat split. Qed.
Print Assumptions C306_parse_plan.
(** Whatever is accepted contains the document; documents without a plan are refused. *)
Inductive within (d : doc) : py -> Prop :=
| wi_here : within d (VDoc (Some d))
| wi_list v l : within d v -> within d (VList (v :: l))
| wi_tuple v l : within d v -> within d (VTuple (v :: l)).
Theorem C306_only_plans : forall v, (forall d, parse_plan v = Ok d -> within d v) /\ parse_plan (VDoc None) = Raise ValueError.
Proof.
  intros v. split; [|reflexivity]. intros d. unfold parse_plan, explain_plan.
  repeat match goal with
  | |- rbind (match ?v with _ => _ end) _ = _ -> _ => destruct v as [[?|]|[|? ?]|[|? ?]|?]; cbn; try discriminate
  | |- (match ?v with _ => _ end) = _ -> _ => destruct v as [[?|]|[|? ?]|[|? ?]|?]; cbn; try discriminate
  end; intros E; injection E as <-; repeat constructor.
Qed.
Print Assumptions C306_only_plans.
Example C306_ex : parse_plan (VList [VTuple [VList [VDoc (Some {| d_rows := 1; d_cost := 2; d_id := 3 |})]]]) = Ok {| d_rows := 1; d_cost := 2; d_id := 3 |}.
Proof. reflexivity. Qed.

(** ** C307: configure_operator enables and disables an operator.  It never does: an attribute of a method is asked for. *)
Theorem C307_configure_refuted : forall s o enabled, configure_operator s o enabled = (s, Raise AttributeError).
Proof. intros s [] enabled; reflexivity. Qed.
Print Assumptions C307_configure_refuted.
(** What is right: every operator has a setting, and different operators have different settings. *)
Theorem C307_settings_partial : forall o o', exists n n', setting_of o = Some n /\ setting_of o' = Some n' /\ (n = n' -> o = o').
Proof. intros [] []; eexists _, _; (split; [reflexivity|split; [reflexivity|]]); intros H; try reflexivity; discriminate. Qed.
Print Assumptions C307_settings_partial.
Example C307_ex : setting_of Memoize = Some "enable_memoize"%string. Proof. reflexivity. Qed.

(** ** C308: the hinting backend. *)
Lemma prefixb_spec p s : prefixb p s = true <-> exists r, s = (p ++ r)%string.
Proof.
  revert s. induction p as [|a p IH]; intros s; cbn [prefixb].
  - split; [intros _; exists s; reflexivity|reflexivity].
  - destruct s as [|b s]; [split; [discriminate|intros [r H]; discriminate]|]. rewrite andb_true_iff, IH, Ascii.eqb_eq. split.
    + intros [-> [r ->]]. exists r. reflexivity.
    + intros [r H]. cbn in H. injection H as -> ->. split; [reflexivity|now exists r].
Qed.
Lemma append_assoc (a b c : string) : ((a ++ b) ++ c = a ++ b ++ c)%string.
Proof. induction a; cbn; congruence. Qed.
Lemma append_nil_r (a : string) : (a ++ "" = a)%string.
Proof. induction a; cbn; congruence. Qed.
Lemma srev_app s acc : srev s acc = (srev s "" ++ acc)%string.
Proof.
  revert acc. induction s as [|a s IH]; intros acc; [reflexivity|]. cbn [srev]. rewrite (IH (String a acc)), (IH (String a "")), append_assoc. reflexivity.
Qed.
Lemma srev_cat a b : srev (a ++ b) "" = (srev b "" ++ srev a "")%string.
Proof.
  induction a as [|c a IH]; cbn [append srev]; [now rewrite append_nil_r|].
  rewrite (srev_app (a ++ b)), IH, (srev_app a (String c "")), append_assoc. reflexivity.
Qed.
Lemma srev_invol s : srev (srev s "") "" = s.
Proof. induction s as [|a s IH]; [reflexivity|]. cbn [srev]. rewrite (srev_app s (String a "")), srev_cat, IH. reflexivity. Qed.
Lemma suffixb_spec p s : suffixb p s = true <-> exists a, s = (a ++ p)%string.
Proof.
  unfold suffixb. rewrite prefixb_spec. split.
  - intros [r H]. exists (srev r ""). rewrite <- (srev_invol s), H, srev_cat, srev_invol. reflexivity.
  - intros [a ->]. exists (srev a ""). now rewrite srev_cat.
Qed.
Lemma is_on_spec o : is_on o = true <-> o = Some "on"%string.
Proof. destruct o as [v|]; cbn; [rewrite String.eqb_eq; split; congruence|split; discriminate]. Qed.
Lemma has_library v lib : proper_names v lib ->
  (existsb (fun f => suffixb lib f) (v_files v) = true <-> exists f, In f (v_files v) /\ is_library lib f).
Proof.
  intros H. rewrite existsb_exists. split.
  - intros (f & I1 & S1). apply suffixb_spec in S1 as [a E]. exists f. split; [exact I1|]. exact (H f a I1 E).
  - intros (f & I1 & dir & ->). exists (dir ++ "/" ++ lib)%string. split; [exact I1|]. apply suffixb_spec. exists (dir ++ "/")%string.
    now rewrite append_assoc.
Qed.
(** With a visible server and no switch turned off: the backend is one that can be used, and there is none only if no backend can
    be used.  Missing: remote servers, switches that are off, and libraries with similar names, see below. *)
Theorem C308_backend_partial : forall v,
  observable v -> not_off (v_hint v) -> not_off (v_lab v) ->
  proper_names v ("pg_lab." ++ extension v) -> proper_names v ("pg_hint_plan." ++ extension v) ->
  (forall b, infer_backend v = (b, false) -> usable v b) /\
  (infer_backend v = (NoBackend, true) <-> forall b, ~ usable v b).
Proof.
  intros v (Hp & Hh & c & rest & Hc & Hs) Nh Nl Pl Ph. unfold infer_backend. rewrite Hp.
  assert (L : local_host v = true) by (unfold local_host; now apply mem_In).
  assert (F : found_pg v = true) by (unfold found_pg; apply existsb_exists; exists c; split; [exact Hc|apply prefixb_spec; eauto]).
  rewrite L, F. cbn [negb orb]. change (lib_ext v) with (extension v).
  destruct (is_on (v_hint v)) eqn:Eh; [|destruct (is_on (v_lab v)) eqn:El].
  - apply is_on_spec in Eh. split; [intros b E; injection E as <-; now left|]. split; [discriminate|]. intros H. contradiction (H PgHintPlan). now left.
  - apply is_on_spec in El. split; [intros b E; injection E as <-; now left|]. split; [discriminate|]. intros H. contradiction (H PgLab). now left.
  - assert (Dh : v_hint v = None) by (destruct Nh as [|N]; [assumption|apply is_on_spec in N; congruence]).
    assert (Dl : v_lab v = None) by (destruct Nl as [|N]; [assumption|apply is_on_spec in N; congruence]).
    destruct (existsb (fun f => suffixb ("pg_lab." ++ extension v) f) (v_files v)) eqn:X1.
    + apply (has_library v _ Pl) in X1. split; [intros b E; injection E as <-; right; auto|]. split; [discriminate|].
      intros H. contradiction (H PgLab). right. auto.
    + destruct (existsb (fun f => suffixb ("pg_hint_plan." ++ extension v) f) (v_files v)) eqn:X2.
      * apply (has_library v _ Ph) in X2. split; [intros b E; injection E as <-; right; auto|]. split; [discriminate|].
        intros H. contradiction (H PgHintPlan). right. auto.
      * split; [intros b E; discriminate|]. split; [intros _|reflexivity]. intros [] U; cbn [usable] in U; [| |exact U].
        -- destruct U as [U|[_ U]]; [congruence|]. apply (has_library v _ Ph) in U. congruence.
        -- destruct U as [U|[_ U]]; [congruence|]. apply (has_library v _ Pl) in U. congruence.
Qed.
Print Assumptions C308_backend_partial.
(** Whatever is observed: a backend that is switched on is used, pg_hint_plan first, and hinting is inactive exactly without a backend. *)
Theorem C308_switched_on : forall v,
  (v_hint v = Some "on"%string -> infer_backend v = (PgHintPlan, false)) /\
  (v_hint v <> Some "on"%string -> v_lab v = Some "on"%string -> infer_backend v = (PgLab, false)) /\
  (snd (infer_backend v) = true <-> fst (infer_backend v) = NoBackend).
Proof.
  intros v. unfold infer_backend. split; [|split].
  - intros ->. reflexivity.
  - intros H ->. destruct (is_on (v_hint v)) eqn:E; [apply is_on_spec in E; contradiction|reflexivity].
  - repeat match goal with |- context [if ?b then _ else _] => destruct b; [cbn; split; discriminate|] end. cbn. split; reflexivity.
Qed.
Print Assumptions C308_switched_on.
(** Whether files are seen or not: if the server is not a Postgres process of this machine, they are not looked at, and pg_hint_plan
    is assumed. *)
Theorem C308_not_observable : forall v, v_hint v <> Some "on"%string -> v_lab v <> Some "on"%string -> ~ observable v ->
  infer_backend v = (PgHintPlan, false).
Proof.
  intros v Nh Nl N. unfold infer_backend.
  destruct (is_on (v_hint v)) eqn:Eh; [apply is_on_spec in Eh; contradiction|]. destruct (is_on (v_lab v)) eqn:El; [apply is_on_spec in El; contradiction|].
  destruct (v_posix v) eqn:P; [|reflexivity]. cbn [negb]. destruct (local_host v) eqn:L; [|reflexivity]. destruct (found_pg v) eqn:F; [|reflexivity].
  contradiction N. split; [exact P|]. split; [unfold local_host in L; now apply mem_In in L|].
  unfold found_pg in F. apply existsb_exists in F as (c & I & X). apply prefixb_spec in X as [r X]. eauto.
Qed.
Print Assumptions C308_not_observable.
(** A backend is reported although it cannot be used: (1) hints of pg_hint_plan are switched off, (2) a remote server without any
    backend, (3) a library with a similar name. *)
Theorem C308_backend_refuted : exists v1 v2 v3,
  infer_backend v1 = (PgHintPlan, false) /\ observable v1 /\ v_hint v1 = Some "off"%string /\ (forall b, ~ usable v1 b) /\
  infer_backend v2 = (PgHintPlan, false) /\ v_files v2 = [] /\ (forall b, ~ usable v2 b) /\
  infer_backend v3 = (PgLab, false) /\ observable v3 /\ (forall b, ~ usable v3 b).
Proof.
  exists {| v_hint := Some "off"%string; v_lab := None; v_posix := true; v_darwin := false; v_host := "localhost"; v_commands := ["postgres:"%string];
            v_files := ["/usr/lib/pg_hint_plan.so"%string] |},
         {| v_hint := None; v_lab := None; v_posix := true; v_darwin := false; v_host := "db.example.org"; v_commands := []; v_files := [] |},
         {| v_hint := None; v_lab := None; v_posix := true; v_darwin := false; v_host := "localhost"; v_commands := ["postgres:"%string];
            v_files := ["/usr/lib/not_pg_lab.so"%string] |}.
  assert (O : forall c, slower c = "postgres:"%string -> exists rest, slower c = ("postgres" ++ rest)%string) by (intros c ->; exists ":"%string; reflexivity).
  assert (N : forall (lib f dir : string), f = (dir ++ "/" ++ lib)%string -> suffixb ("/" ++ lib) f = true)
    by (intros lib f dir ->; apply suffixb_spec; exists dir; reflexivity).
  split; [reflexivity|]. split; [repeat split; [cbn; tauto|]; exists "postgres:"%string, ":"%string; split; [now left|reflexivity]|].
  split; [reflexivity|]. split.
  { intros [] U; cbn in U; [destruct U as [U|[U _]]; discriminate| |exact U].
    destruct U as [U|[_ (f & [<-|[]] & dir & E)]]; [discriminate|]. apply N in E. vm_compute in E. discriminate. }
  split; [reflexivity|]. split; [reflexivity|]. split.
  { intros [] U; cbn in U; [| |exact U]; destruct U as [U|[_ (f & [] & _)]]; discriminate. }
  split; [reflexivity|]. split; [repeat split; [cbn; tauto|]; exists "postgres:"%string, ":"%string; split; [now left|reflexivity]|].
  intros [] U; cbn in U; [| |exact U]; destruct U as [U|[_ (f & [<-|[]] & dir & E)]]; try discriminate; apply N in E; vm_compute in E; discriminate.
Qed.
Print Assumptions C308_backend_refuted.
Example C308_ex :
  let v := {| v_hint := None; v_lab := None; v_posix := true; v_darwin := false; v_host := "127.0.0.1"; v_commands := ["grep"; "Postgres:"]%string;
              v_files := ["/lib/libc.so"; "/usr/lib/pg_hint_plan.so"]%string |} in
  observable v /\ infer_backend v = (PgHintPlan, false).
Proof. cbn. split; [|reflexivity]. repeat split; [cbn; tauto|]. exists "Postgres:"%string, ":"%string. split; [right; now left|reflexivity]. Qed.
