(** Model of the progress of benchmarks, postbound/bench.py 569-624 with the loops 960-1004 and 1212-1231; of make_logger,
    postbound/util/logging.py 26-78; of tee_stdout 122-134; and of persist_workload, postbound/experiments/ceb.py 848-863.

    Simplifications: progress bars are counters; a message is the list of its words; labels of queries do not have path separators; files
    are their contents. *)
From Coq Require Import List Bool Arith Ascii String.
From Verif Require Import PyBase Ident_model.
Import ListNotations.

(** ** Progress of benchmarks *)
Inductive event := EWorkload | EQuery (label : string) | ERep.
(** _workload_ctl_loop 967-1004: queries whose optimization fails are not executed. *)
Definition query_events (reps : nat) (q : string * bool) : list event := EQuery (fst q) :: (if snd q then repeat ERep reps else []).
(** 1213-1231; [runs] are the queries of each repetition (in their order) and whether their optimization succeeds. *)
Definition benchmark (reps : nat) (runs : list (list (string * bool))) : list event :=
  flat_map (fun qs => EWorkload :: flat_map (query_events reps) qs) runs ++ [EWorkload].
(** _TqdmLogger 600-624 *)
Record bars := { b_workload : nat; b_query : nat; b_rep : nat; b_initial : bool }.
Definition tqdm (b : bars) (e : event) : bars :=
  match e with
  | EWorkload => if b_initial b then {| b_workload := b_workload b; b_query := b_query b; b_rep := b_rep b; b_initial := false |}
                 else {| b_workload := S (b_workload b); b_query := 0; b_rep := b_rep b; b_initial := false |}
  | EQuery _ => {| b_workload := b_workload b; b_query := S (b_query b); b_rep := 0; b_initial := b_initial b |}
  | ERep => {| b_workload := b_workload b; b_query := b_query b; b_rep := S (b_rep b); b_initial := b_initial b |}
  end.
Definition no_progress : bars := {| b_workload := 0; b_query := 0; b_rep := 0; b_initial := true |}.
(** _CustomLogger 581-597: the number of the repetition and the messages (label, number of the repetition). *)
Definition custom (s : nat * list (string * nat)) (e : event) : nat * list (string * nat) :=
  match e with
  | EWorkload => (S (fst s), snd s)
  | EQuery l => (fst s, snd s ++ [(l, fst s)])
  | ERep => s
  end.

(** ** make_logger *)
Inductive prefix := PText (s : string) | PCall (s : string).              (* a callable and what it returns *)
(** The words that are printed by a call, if any. *)
Definition log (enabled pretty : bool) (p : prefix) (args : list string) : res (option (list string)) :=
  if pretty && enabled then                                                (* 75-76: pprint.pprint(..., stream=file) *)
    match args with [a] => Ok (Some [a]) | _ => Raise TypeError end
  else if enabled then
    match p with
    | PText s => Ok (Some (if deqb s ""%string then args else s :: args))
    | PCall s => Ok (Some (s :: args))
    end
  else Ok None.

(** ** tee_stdout *)
Inductive stdout := Original | Tee (file : nat) (below : stdout).
Record world := { console : list string; files : dict nat (list string) }.
Definition content (w : world) (f : nat) : list string := match dget (files w) f with Some l => l | None => [] end.
(** _TeeLogger.write 128-130 *)
Fixpoint write (o : stdout) (m : string) (w : world) : world :=
  match o with
  | Original => {| console := console w ++ [m]; files := files w |}
  | Tee f b => let w' := write b m w in {| console := console w'; files := dset (files w') f (content w' f ++ [m]) |}
  end.
(** print(m, flush=...): _TeeLogger does not have flush(). *)
Definition print (o : stdout) (m : string) (flush : bool) (w : world) : world * res unit :=
  (write o m w, match o with Tee _ _ => if flush then Raise AttributeError else Ok tt | Original => Ok tt end).

(** ** persist_workload *)
Definition newline : string := String (ascii_of_nat 10) EmptyString.
(* labels are texts, as the type Workload[str] says *)
Definition persist (format : string -> string) (entries : list (string * string)) (dir : dict string string) : dict string string :=
  fold_left (fun d e => dset d (fst e ++ ".sql")%string (format (snd e) ++ newline)%string) entries dir.
