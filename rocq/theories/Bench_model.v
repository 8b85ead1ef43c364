(** Model of the benchmark loop, postbound/bench.py 492-1233.

    Labels and results are numbers.  The outcome of the optimization of a query and of each of its executions is given by two
    arbitrary functions, indexed by the workload repetition, the label, and the query repetition.  The order of the queries in each
    workload repetition (shuffled or not) is a function as well.  Run times, time stamps and configurations are left out; the
    five columns that are always extended together (status, failure_reasons, result_sets, exec_times, db_configs) are one
    list of entries, the time stamps, which are extended separately, are only counted. *)
From Coq Require Import List Bool Arith.
From Verif Require Import PyBase.
Import ListNotations.

(** _optimize_query 492-508 and _execute_query 530-567.  [XPrep]: the query preparation fails, which happens outside of the try
    block. *)
Inductive optres := ONone | OOk (q : nat) | OFail (e : nat).
Inductive execres := XOk (v : nat) | XTimeout | XFail (e : nat) | XPrep.
(** ExecStatus 60; the empty failure reason is 0. *)
Inductive status := SOk | STimeout | SOptErr | SExecErr.
Inductive action := ALog | ARaise | AIgnore.
Record entry := mkentry { n_status : status; n_reason : nat; n_result : option nat }.
(** _ResultSample 630-869 *)
Record sample := mksample { s_label : nat; s_wrep : nat; s_init : nat; s_opt : option nat; s_stamps : nat; s_entries : list entry }.
Record row := mkrow { r_index : nat; r_label : nat; r_wrep : nat; r_qrep : nat; r_status : status; r_reason : nat; r_result : option nat; r_opt : option nat }.
(** Rows written to the progressive output, results handed to the callback and to learn_from_feedback. *)
Record effects := mkeff { f_out : list row; f_calls : list (nat * status * option nat); f_learn : list (nat * option nat) }.
(** _ExecutionResults 872-916 *)
Record state := mkst { t_counter : nat; t_samples : list sample; t_eff : effects }.

Section Bench.
  Context (act : action) (reps : nat) (output callback learning : bool)
          (opt_out : nat -> nat -> optres) (exec_out : nat -> nat -> nat -> execres).

  Definition add_entry (s : sample) (e : entry) : sample :=
    mksample (s_label s) (s_wrep s) (s_init s) (s_opt s) (s_stamps s) (s_entries s ++ [e]).
  Definition start_execution (s : sample) : sample :=
    mksample (s_label s) (s_wrep s) (s_init s) (s_opt s) (S (s_stamps s)) (s_entries s).
  Definition row_of (s : sample) (i : nat) (e : entry) : row :=
    mkrow (s_init s + i) (s_label s) (s_wrep s) (S i) (n_status e) (n_reason e) (n_result e) (s_opt s).
  (** to_df(only_last=True), 746-764 *)
  Definition last_row (s : sample) : list row :=
    match rev (s_entries s) with [] => [] | e :: r => [row_of s (length r) e] end.
  (** last_successful 725-726 *)
  Definition last_ok (s : sample) : bool :=
    match rev (s_entries s) with e :: _ => match n_status e with SOk | STimeout => true | _ => false end | [] => false end.
  Definition last_call (s : sample) : list (nat * status * option nat) :=
    match rev (s_entries s) with e :: _ => [(s_label s, n_status e, n_result e)] | [] => [] end.
  (** 953-957 *)
  Definition emit (s : sample) (f : effects) : effects :=
    if last_ok s then mkeff (f_out f ++ (if output then last_row s else [])) (f_calls f ++ (if callback then last_call s else [])) (f_learn f) else f.
  (** _exec_ctl_loop 919-957 *)
  Definition exec_once (w lbl r : nat) (s : sample) (f : effects) : res (sample * effects) :=
    let s := start_execution s in
    match exec_out w lbl r with
    | XPrep => Raise OtherError
    | XOk v => let s := add_entry s (mkentry SOk 0 (Some v)) in Ok (s, emit s f)
    | XTimeout => let s := add_entry s (mkentry STimeout 0 None) in Ok (s, emit s f)
    | XFail e =>
        match act with
        | ALog => let s := add_entry s (mkentry SExecErr e None) in Ok (s, emit s f)
        | ARaise => Raise OtherError
        | AIgnore => Ok (s, emit s f)
        end
    end.
  Fixpoint exec_reps (n r : nat) (w lbl : nat) (s : sample) (f : effects) : res (sample * effects) :=
    match n with
    | 0 => Ok (s, f)
    | S n => rbind (exec_once w lbl r s f) (fun sf => exec_reps n (S r) w lbl (fst sf) (snd sf))
    end.
  (** The feedback loop 1006-1016: results without failures, a missing result fails the assertion. *)
  Fixpoint feedback (lbl : nat) (es : list entry) (f : effects) : res effects :=
    match es with
    | [] => Ok f
    | e :: es =>
        match n_status e with
        | SOptErr | SExecErr => feedback lbl es f
        | _ => match n_result e with None => Raise AssertionError | Some v => feedback lbl es (mkeff (f_out f) (f_calls f) (f_learn f ++ [(lbl, Some v)])) end
        end
    end.
  (** next_query 891-905 *)
  Definition next_counter (t : state) : nat :=
    match rev (t_samples t) with [] => t_counter t | s :: _ => t_counter t + length (s_entries s) end.
  (** One iteration of _workload_ctl_loop 960-1016 *)
  Definition run_query (w : nat) (t : state) (lbl : nat) : res state :=
    let c := next_counter t in
    match opt_out w lbl with
    | OFail e =>
        let s := mksample lbl w c None reps (repeat (mkentry SOptErr e None) reps) in
        match act with
        | ALog => Ok (mkst c (t_samples t ++ [s]) (if output then mkeff (f_out (t_eff t) ++ last_row s) (f_calls (t_eff t)) (f_learn (t_eff t)) else t_eff t))
        | ARaise => Raise OtherError
        | AIgnore => Ok (mkst c (t_samples t) (t_eff t))
        end
    | o =>
        let s := mksample lbl w c (match o with OOk q => Some q | _ => None end) 0 [] in
        rbind (exec_reps reps 0 w lbl s (t_eff t)) (fun sf =>
          rmap (fun f => mkst c (t_samples t ++ [fst sf]) f)
               (if match o with ONone => false | _ => learning end then feedback lbl (s_entries (fst sf)) (snd sf) else Ok (snd sf)))
    end.
  Fixpoint run_queries (w : nat) (t : state) (lbls : list nat) : res state :=
    match lbls with [] => Ok t | l :: lbls => rbind (run_query w t l) (fun t => run_queries w t lbls) end.
  (** execute_workload 1212-1226: workload repetitions are counted from 1. *)
  Fixpoint run_reps (n w : nat) (t : state) (order : nat -> list nat) : res state :=
    match n with 0 => Ok t | S n => rbind (run_queries w t (order w)) (fun t => run_reps n (S w) t order) end.
  (** to_df 765-784: pandas refuses columns of different lengths. *)
  Definition sample_rows (s : sample) : res (list row) :=
    match s_entries s with
    | [] => Ok []
    | es => if s_stamps s =? length es then Ok (map (fun ie => row_of s (fst ie) (snd ie)) (combine (seq 0 (length es)) es)) else Raise ValueError
    end.
  (** _ExecutionResults.to_df 913-916: pandas refuses to concatenate nothing. *)
  Definition all_rows (t : state) : res (list row) :=
    match t_samples t with [] => Raise ValueError | ss => rmap (@concat row) (rmapM sample_rows ss) end.
  Definition start : state := mkst 1 [] (mkeff [] [] []).
  Definition execute_workload (wreps : nat) (order : nat -> list nat) : res (list row * effects) :=
    rbind (run_reps wreps 1 start order) (fun t => rmap (fun rows => (rows, t_eff t)) (all_rows t)).
End Bench.
