(** Model of frozendict, postbound/util/dicts.py 305-338 (with collections.UserDict, on which it is based); of read_df and write_df,
    postbound/util/_df.py 12-75; of prepare_export, postbound/bench.py 1236-1274; of run_cmd and ProcResult, postbound/util/proc.py 12-107;
    and of score_matrix, postbound/util/stats.py 26-37.

    Simplifications: keys and values of dictionaries are numbers; data frames are given by their columns; pandas and the processes that
    are run are functions; paths of directories are absolute. *)
From Coq Require Import List Bool Arith ZArith Ascii String.
From Verif Require Import PyBase Ident_model.
Import ListNotations.

(** ** frozendict *)
Record fdict := { f_data : list (nat * nat); f_frozen : bool }.
(** __setitem__ 327-330, __delitem__ 332-335 *)
Definition fset (d : fdict) (k v : nat) : fdict * res unit :=
  if f_frozen d then (d, Raise TypeError) else ({| f_data := dset (f_data d) k v; f_frozen := false |}, Ok tt).
Definition fdel (d : fdict) (k : nat) : fdict * res unit :=
  if f_frozen d then (d, Raise TypeError)
  else match dget (f_data d) k with
       | Some _ => ({| f_data := ddel (f_data d) k; f_frozen := false |}, Ok tt)
       | None => (d, Raise KeyError)
       end.
(** MutableMapping.update: one __setitem__ per entry *)
Fixpoint fupdate (d : fdict) (l : list (nat * nat)) : fdict * res unit :=
  match l with
  | [] => (d, Ok tt)
  | (k, v) :: r => match fset d k v with (d', Ok _) => fupdate d' r | (d', Raise e) => (d', Raise e) end
  end.
(** __init__ 318-325 *)
Definition fcreate (l : list (nat * nat)) : res fdict :=
  match fupdate {| f_data := []; f_frozen := false |} l with
  | (d, Ok _) => Ok {| f_data := f_data d; f_frozen := true |}
  | (_, Raise e) => Raise e
  end.
(** What can be done with it: [d[k] = v], [del d[k]], update(), clear(), pop(), popitem(), setdefault(), [d |= l]. *)
Inductive fop := FSet (k v : nat) | FDel (k : nat) | FUpdate (l : list (nat * nat)) | FClear | FPop (k : nat) | FPopitem
| FSetdefault (k v : nat) | FIor (l : list (nat * nat)).
Definition fapply (d : fdict) (o : fop) : fdict * res unit :=
  match o with
  | FSet k v => fset d k v
  | FDel k => fdel d k
  | FUpdate l => fupdate d l
  | FClear | FPop _ | FPopitem => (d, Raise TypeError)         (* 321-323: None cannot be called *)
  | FSetdefault k v => match dget (f_data d) k with Some _ => (d, Ok tt) | None => fset d k v end
  | FIor l => ({| f_data := fold_left (fun m e => dset m (fst e) (snd e)) l (f_data d); f_frozen := f_frozen d |}, Ok tt)    (* UserDict.__ior__ works on data *)
  end.
(** UserDict.copy(): an empty copy (frozen as the original) is updated with the entries. *)
Definition fcopy (d : fdict) : res fdict :=
  match fupdate {| f_data := []; f_frozen := f_frozen d |} (f_data d) with (c, Ok _) => Ok c | (_, Raise e) => Raise e end.
(** UserDict.__or__: a new dictionary of the same class *)
Definition for_ (d : fdict) (l : list (nat * nat)) : res fdict := fcreate (fold_left (fun m e => dset m (fst e) (snd e)) l (f_data d)).

(** ** Data frames *)
(** Entries: texts, missing values, numbers, other objects (complex ones: lists, tuples, dictionaries and objects with __json__). *)
Inductive cell := CStr (s : string) | CNone | CNum (z : Z) | CObj (complex : bool) (id : nat).
(** [c_object]: the type of the column is "object" *)
Record column := { c_name : string; c_object : bool; c_cells : list cell }.
Inductive format := Csv | Parquet | Excel | JsonF | Hdf | Feather | Orc.
(** read_df 18-34 *)
Definition read_format (suffix : string) : res format :=
  let s := slower suffix in
  if deqb s ".csv"%string then Ok Csv else if deqb s ".parquet"%string then Ok Parquet else
  if mem s [".xlsx"; ".xls"]%string then Ok Excel else if deqb s ".json"%string then Ok JsonF else
  if mem s [".hdf"; ".h5"; ".hdf5"]%string then Ok Hdf else if deqb s ".feather"%string then Ok Feather else
  if deqb s ".orc"%string then Ok Orc else Raise ValueError.
(** write_df 59-75 *)
Definition write_format (suffix : string) : res format :=
  let s := slower suffix in
  if deqb s ".csv"%string then Ok Csv else if deqb s ".parquet"%string then Ok Parquet else
  if mem s [".xlsx"; ".xls"]%string then Ok Excel else if deqb s ".json"%string then Ok JsonF else
  if mem s [".hdf"; ".h5"; ".hdf5"]%string then Ok Hdf else if deqb s ".feather"%string then Ok Feather else
  if deqb s ".orc"%string then Ok Orc else Raise ValueError.
Section Frames.
  (** json.dumps with the encoder of PostBOUND (Enc_model.v) *)
  Context (dumps : cell -> res string).
  (** to_json, util/jsonize.py 59-67 *)
  Definition to_json (c : cell) : res cell := match c with CNone => Ok CNone | _ => rmap CStr (dumps c) end.
  Definition is_str (c : cell) : bool := match c with CStr _ => true | _ => false end.
  Definition convert (c : column) : res column :=
    rbind (rmapM to_json (c_cells c)) (fun l => Ok {| c_name := c_name c; c_object := c_object c; c_cells := l |}).
  (** 52-57; the columns are replaced one after the other in the data frame of the caller. *)
  Definition df_column (c : column) : res column :=
    if negb (c_object c) then Ok c else if forallb is_str (c_cells c) then Ok c else convert c.
  Fixpoint df_columns (l : list column) : list column * option exn :=
    match l with
    | [] => ([], None)
    | c :: r => match df_column c with
                | Ok c' => let (r', e) := df_columns r in (c' :: r', e)
                | Raise e => (l, Some e)
                end
    end.
  (** write_df: the data frame of the caller afterwards and what is written. *)
  Definition write_df (df : list column) (suffix : string) : list column * res (format * list column) :=
    match df_columns df with
    | (df', Some e) => (df', Raise e)
    | (df', None) => (df', rbind (write_format suffix) (fun f => Ok (f, df')))
    end.
  (** prepare_export 1262-1274: the first row decides, on a copy. *)
  Definition is_complex (c : cell) : bool := match c with CObj b _ => b | _ => false end.
  Definition prepare_export (df : list column) : res (list column) :=
    rmapM (fun c => match c_cells c with [] => Ok c | x :: _ => if is_complex x then convert c else Ok c end) df.
End Frames.

(** ** Processes *)
Record proc := { pr_out : string; pr_err : string; pr_code : Z }.
Definition proc_bool (p : proc) : bool := Z.eqb (pr_code p) 0.                                   (* 53-54 *)
Definition raise_if_error (p : proc) : res unit := if Z.eqb (pr_code p) 0 then Ok tt else Raise RuntimeError.    (* 46-51 *)
Inductive command := CmdStr (s : string) | CmdList (l : list string) | CmdTuple (l : list string) | CmdIterator (l : list string).
(** 99-101 *)
Definition invocation (c : command) (args : list string) : res (list string) :=
  match c with
  | CmdStr s => Ok (s :: args)
  | CmdList [] => Raise IndexError
  | CmdList (x :: r) => Ok (x :: r ++ args)
  | CmdTuple [] => Raise IndexError
  | CmdTuple (_ :: _) => Raise TypeError                     (* tuple + list *)
  | CmdIterator _ => Raise TypeError
  end.
(** 96-107: the working directory of PostBOUND afterwards and the result.  [is_dir]: existing directories; [run]: what the process does in
    a directory, or the exception of subprocess.run. *)
Definition run_cmd (is_dir : string -> bool) (run : string -> list string -> res proc) (cwd : string) (c : command) (args : list string)
  (work_dir : option string) : string * res proc :=
  let w := match work_dir with Some w => w | None => cwd end in
  match invocation c args with
  | Raise e => (cwd, Raise e)
  | Ok i => if is_dir w then match run w i with Ok p => (cwd, Ok p) | Raise e => (w, Raise e) end else (cwd, Raise OtherError)
  end.

(** ** score_matrix *)
Definition matrix := nat -> nat -> Z.
Definition mset (m : matrix) (i j : nat) (v : Z) : matrix := fun a b => if (a =? i) && (b =? j) then v else m a b.
Definition enumerate {A} (l : list A) : list (nat * A) := combine (seq 0 (List.length l)) l.
(** The number of rows (and columns) and the entries. *)
Definition score_matrix {A} (elems : list A) (scoring : A -> A -> Z) : nat * matrix :=
  (List.length elems,
   fold_left (fun m p => fold_left (fun m q => mset m (fst p) (fst q) (scoring (snd p) (snd q))) (enumerate elems) m) (enumerate elems) (fun _ _ => 1%Z)).
