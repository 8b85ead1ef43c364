(** What an experiment log should say: the runs in the order of their starts with what became of them. *)
From Coq Require Import String Ascii List Bool Arith.
From Verif Require Import PyBase BLog_model.
Import ListNotations.
Open Scope string_scope.
Open Scope list_scope.

(** Values that Python can write: the text of a number has one of the characters of numbers *)
Inductive wf : json -> Prop :=
| wf_null : wf JNull
| wf_bool b : wf (JBool b)
| wf_num t : t <> [] -> Forall (fun c => is_num c = true) t -> wf (JNum t)
| wf_str s : wf (JStr s)
| wf_arr l : Forall wf l -> wf (JArr l)
| wf_obj l : Forall (fun kv => wf (snd kv)) l -> wf (JObj l).
Definition wf_run (r : run) : Prop := wf (r_db r) /\ wf (r_optimizer r) /\ wf (r_wl_reps r) /\ wf (r_query_reps r) /\ wf (r_prep r) /\ wf (r_timeout r).

Inductive outcome := Running | Completed (now : text) | Error (now typ msg : text).
Definition end_of (o : outcome) : json := match o with Running => JNull | Completed t | Error t _ _ => JStr t end.
Definition status_of (o : outcome) : json := JStr (str (match o with Running => "running" | Completed _ => "completed" | Error _ _ _ => "failed" end)).
Definition error_of (o : outcome) : list (text * json) := match o with Error _ typ msg => [(str "error", JObj [(str "type", JStr typ); (str "message", JStr msg)])] | _ => [] end.
Definition entry (x : run * outcome) : json :=
  let (r, o) := x in
  JObj ([(str "experiment", JStr (r_name r)); (str "start_time", JStr (r_start r)); (str "end_time", end_of o); (str "status", status_of o);
         (str "workload", JObj [(str "name", JStr (r_workload r)); (str "queries", JObj (map (fun q => (fst q, JObj [(str "query", JStr (snd q))])) (r_queries r)))]);
         (str "target_db", r_db r); (str "optimizer", r_optimizer r); (str "result_file", JStr (r_file r)); (str "workload_repetitions", r_wl_reps r);
         (str "per_query_repetitions", r_query_reps r); (str "shuffled", JBool (r_shuffled r)); (str "query_preparation", r_prep r); (str "query_timeout", r_timeout r)]
    ++ error_of o).

(** The outcome of a run: the event that ended it. *)
Definition ends (r : run) (e : event) (o : outcome) : Prop :=
  match e with Start _ => False | Done r' now => r' = r /\ o = Completed now | Failed r' now typ msg => r' = r /\ o = Error now typ msg end.
Definition started (es : list event) : list run := flat_map (fun e => match e with Start r => [r] | _ => [] end) es.
Definition ident (r : run) : text * text := (r_name r, r_start r).
(** A history: runs differ in name or start time, only a run that has been started and has not ended ends; timestamps have at least the
    19 characters of YYYY-MM-DDTHH:MM:SS *)
Inductive history : list event -> Prop :=
| h_nil : history []
| h_start es r : history es -> wf_run r -> ~ In (ident r) (map ident (started es)) -> history (es ++ [Start r])
| h_end es e r o : history es -> ends r e o -> In r (started es) -> (forall e' o', In e' es -> ~ ends r e' o') ->
    19 <= List.length (match e with Done _ now | Failed _ now _ _ => now | Start _ => [] end) -> history (es ++ [e]).
(** [log] are the entries after the events [es] *)
Definition is_log (es : list event) (log : list (run * outcome)) : Prop :=
  map fst log = started es /\
  forall r o, In (r, o) log -> match o with Running => forall e o', In e es -> ~ ends r e o' | _ => exists e, In e es /\ ends r e o end.
