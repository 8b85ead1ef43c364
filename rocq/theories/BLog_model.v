(** Model of the experiment log of benchmarks, postbound/bench.py 370-458, and of the JSON text that json.dump writes (Python's json module).

    A text is a list of characters.  A file is None (it does not exist) or a text.  Numbers are kept as the text that Python writes for them.
    Of the escapes in JSON strings only those of the quote, the backslash and the newline are modelled; json.dump writes other special
    characters as \uXXXX, which is the same in all texts below.  Opening a file, reading and writing it do not fail. *)
From Coq Require Import String Ascii List Bool Arith.
From Verif Require Import PyBase.
Import ListNotations.
Open Scope string_scope.
Open Scope list_scope.
Open Scope char_scope.

Definition text := list ascii.
Definition str (s : string) : text := list_ascii_of_string s.
Definition nl : ascii := ascii_of_nat 10.
Definition quote : ascii := ascii_of_nat 34.
Definition bslash : ascii := ascii_of_nat 92.

Inductive json := JNull | JBool (b : bool) | JNum (t : text) | JStr (s : text) | JArr (l : list json) | JObj (l : list (text * json)).

Definition esc1 (c : ascii) : text := if Ascii.eqb c quote then [bslash; quote] else if Ascii.eqb c bslash then [bslash; bslash] else if Ascii.eqb c nl then [bslash; "n"] else [c].
Definition esc (s : text) : text := flat_map esc1 s.
Definition dstr (s : text) : text := quote :: esc s ++ [quote].

(** json.dumps(v) is [dump None 0 v], json.dumps(v, indent=n) is [dump (Some n) 0 v] *)
Definition brk (i : option nat) (lvl : nat) : text := match i with None => [] | Some n => nl :: repeat " " (n * lvl) end.
Definition sep (i : option nat) (lvl : nat) : text := match i with None => [","; " "] | Some n => "," :: brk i lvl end.
Fixpoint join (s : text) (l : list text) : text := match l with [] => [] | [x] => x | x :: r => x ++ s ++ join s r end.
Fixpoint dump (i : option nat) (lvl : nat) (v : json) : text :=
  match v with
  | JNull => str "null"
  | JBool b => str (if b then "true" else "false")
  | JNum t => t
  | JStr s => dstr s
  | JArr [] => str "[]"
  | JArr l => "[" :: brk i (S lvl) ++ join (sep i (S lvl)) (map (dump i (S lvl)) l) ++ brk i lvl ++ ["]"]
  | JObj [] => str "{}"
  | JObj l => "{" :: brk i (S lvl) ++ join (sep i (S lvl)) (map (fun kv : text * json => match kv with (k, x) => dstr k ++ [":"; " "] ++ dump i (S lvl) x end) l) ++ brk i lvl ++ ["}"]
  end.

(** json.loads: a recursive descent parser *)
Definition is_ws (c : ascii) : bool := Ascii.eqb c " " || Ascii.eqb c nl.
Fixpoint skip (t : text) : text := match t with c :: r => if is_ws c then skip r else t | [] => [] end.
Definition is_num (c : ascii) : bool := existsb (Ascii.eqb c) (str "0123456789+-.eE").
Fixpoint span_num (t : text) : text * text := match t with c :: r => if is_num c then (fun p => (c :: fst p, snd p)) (span_num r) else ([], t) | [] => ([], []) end.
Fixpoint prefix (p t : text) : option text := match p, t with [], _ => Some t | c :: p', d :: t' => if Ascii.eqb c d then prefix p' t' else None | _ :: _, [] => None end.
(** the rest of a string after its opening quote *)
Fixpoint pstr (t : text) : option (text * text) :=
  match t with
  | [] => None
  | c :: r =>
      if Ascii.eqb c quote then Some ([], r)
      else if Ascii.eqb c bslash then
        match r with
        | d :: r' => match pstr r' with Some (s, t') => Some ((if Ascii.eqb d "n" then nl else d) :: s, t') | None => None end
        | [] => None
        end
      else match pstr r with Some (s, t') => Some (c :: s, t') | None => None end
  end.
Definition expect (c : ascii) (t : text) : option text := match skip t with d :: r => if Ascii.eqb d c then Some r else None | [] => None end.
Fixpoint pval (n : nat) (t : text) : option (json * text) :=
  match n with
  | O => None
  | S m =>
      match skip t with
      | [] => None
      | c :: r =>
          if Ascii.eqb c quote then match pstr r with Some (s, t') => Some (JStr s, t') | None => None end
          else if Ascii.eqb c "[" then
            match expect "]" r with Some t' => Some (JArr [], t') | None => match parr m r with Some (l, t') => Some (JArr l, t') | None => None end end
          else if Ascii.eqb c "{" then
            match expect "}" r with Some t' => Some (JObj [], t') | None => match pobj m r with Some (l, t') => Some (JObj l, t') | None => None end end
          else match prefix (str "null") (c :: r), prefix (str "true") (c :: r), prefix (str "false") (c :: r) with
               | Some t', _, _ => Some (JNull, t')
               | _, Some t', _ => Some (JBool true, t')
               | _, _, Some t' => Some (JBool false, t')
               | _, _, _ => match span_num (c :: r) with ([], _) => None | (d, t') => Some (JNum d, t') end
               end
      end
  end
with parr (n : nat) (t : text) : option (list json * text) :=      (* the elements up to "]" *)
  match n with
  | O => None
  | S m =>
      match pval m t with
      | None => None
      | Some (v, t1) =>
          match expect "]" t1 with
          | Some t2 => Some ([v], t2)
          | None => match expect "," t1 with
                    | Some t2 => match parr m t2 with Some (l, t3) => Some (v :: l, t3) | None => None end
                    | None => None
                    end
          end
      end
  end
with pobj (n : nat) (t : text) : option (list (text * json) * text) :=
  match n with
  | O => None
  | S m =>
      match expect quote t with
      | None => None
      | Some t0 =>
          match pstr t0 with
          | None => None
          | Some (k, t1) =>
              match expect ":" t1 with
              | None => None
              | Some t2 =>
                  match pval m t2 with
                  | None => None
                  | Some (v, t3) =>
                      match expect "}" t3 with
                      | Some t4 => Some ([(k, v)], t4)
                      | None => match expect "," t3 with
                                | Some t4 => match pobj m t4 with Some (l, t5) => Some ((k, v) :: l, t5) | None => None end
                                | None => None
                                end
                      end
                  end
              end
          end
      end
  end.
(** json.load: the whole text has to be one value *)
Definition load (t : text) : res json :=
  match pval (S (List.length t)) t with Some (v, r) => match skip r with [] => Ok v | _ => Raise ValueError end | None => Raise ValueError end.

(** ** The log *)
Definition file := option text.
(** f.seek(0) and writing [t] into a file opened with "r+": what the old text has beyond [t] stays *)
Definition overwrite (old t : text) : text := t ++ skipn (List.length t) old.

(** a run: the name of the experiment, cfg.start_time (isoformat()) and what is logged of the rest of its configuration, 384-397;
    the JSON values are those of the JsonizeEncoder *)
Record run := Run { r_name : text; r_start : text; r_workload : text; r_queries : list (text * text); r_db : json; r_optimizer : json; r_file : text;
  r_wl_reps : json; r_query_reps : json; r_shuffled : bool; r_prep : json; r_timeout : json }.
(** log_data, 379-397 *)
Definition log_data (r : run) : json :=
  JObj [(str "experiment", JStr (r_name r)); (str "start_time", JStr (r_start r)); (str "end_time", JNull); (str "status", JStr (str "running"));
        (str "workload", JObj [(str "name", JStr (r_workload r)); (str "queries", JObj (map (fun q : text * text => match q with (k, t) => (k, JObj [(str "query", JStr t)]) end) (r_queries r)))]);
        (str "target_db", r_db r); (str "optimizer", r_optimizer r); (str "result_file", JStr (r_file r)); (str "workload_repetitions", r_wl_reps r);
        (str "per_query_repetitions", r_query_reps r); (str "shuffled", JBool (r_shuffled r)); (str "query_preparation", r_prep r); (str "query_timeout", r_timeout r)].

(** _init_benchmark_log, 370-409 *)
Definition init_log (r : run) (f : file) : res file :=
  match f with
  | None => Ok (Some (dump None 0 (JArr [log_data r])))
  | Some t =>
      rbind (load t) (fun v =>
        match v with
        | JArr l => Ok (Some (overwrite t (dump (Some 2) 0 (JArr (l ++ [log_data r])))))
        | _ => Raise TypeError
        end)
  end.

(** log_entry[k] and log_entry[k] = v *)
Fixpoint jget (k : text) (l : list (text * json)) : option json := match l with (k', v) :: r => if list_eq_dec ascii_dec k' k then Some v else jget k r | [] => None end.
Fixpoint jset (k : text) (v : json) (l : list (text * json)) : list (text * json) :=
  match l with (k', x) :: r => if list_eq_dec ascii_dec k' k then (k', v) :: r else (k', x) :: jset k v r | [] => [(k, v)] end.
Definition is_str (s : text) (v : json) : bool := match v with JStr t => if list_eq_dec ascii_dec t s then true else false | _ => false end.

(** the loop over the entries, 424-430 and 449-456, with the changes [upd] to an entry *)
Definition update_entry (r : run) (upd : list (text * json) -> list (text * json)) (v : json) : res json :=
  match v with
  | JObj l =>
      match jget (str "experiment") l, jget (str "start_time") l with
      | Some e, Some s => Ok (if is_str (r_name r) e && is_str (r_start r) s then JObj (upd l) else v)
      | _, _ => Raise KeyError
      end
  | _ => Raise TypeError
  end.
Definition update_log (r : run) (upd : list (text * json) -> list (text * json)) (f : file) : res file :=
  match f with
  | None => Raise OtherError     (* FileNotFoundError *)
  | Some t =>
      rbind (load t) (fun v =>
        match v with
        | JArr l => rbind (rmapM (update_entry r upd) l) (fun l' => Ok (Some (overwrite t (dump (Some 2) 0 (JArr l')))))
        | _ => Raise TypeError
        end)
  end.
(** _finalize_benchmark_log, 412-432; [now] is datetime.now().isoformat() *)
Definition finalize_log (r : run) (now : text) : file -> res file :=
  update_log r (fun l => jset (str "status") (JStr (str "completed")) (jset (str "end_time") (JStr now) l)).
(** _failed_benchmark_log, 435-458, with the name of the class of the exception and its message *)
Definition failed_log (r : run) (now typ msg : text) : file -> res file :=
  update_log r (fun l => jset (str "error") (JObj [(str "type", JStr typ); (str "message", JStr msg)]) (jset (str "status") (JStr (str "failed")) (jset (str "end_time") (JStr now) l))).

(** what execute_workload (1202, 1228, 1232) does to the log in the course of time; runs may overlap *)
Inductive event := Start (r : run) | Done (r : run) (now : text) | Failed (r : run) (now typ msg : text).
Definition step (f : file) (e : event) : res file :=
  match e with Start r => init_log r f | Done r now => finalize_log r now f | Failed r now typ msg => failed_log r now typ msg f end.
Fixpoint steps (f : file) (es : list event) : res file := match es with [] => Ok f | e :: r => rbind (step f e) (fun f' => steps f' r) end.
