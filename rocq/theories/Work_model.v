(** Model of workloads, postbound/workloads.py 92-921.

    Labels and queries are arbitrary types with decidable equality.  natsort.natsorted is an arbitrary function [nsort], random
    choices (random.sample) are given by an arbitrary function [choice] that permutes the population; names and root
    directories are left out. *)
From Coq Require Import List Bool Arith ZArith Ascii String.
From Verif Require Import PyBase Ident_model Dicts_model.
Import ListNotations.

(** Slices l[:n] and l[-n:] *)
Definition py_take {A} (n : Z) (l : list A) : list A := if (0 <=? n)%Z then firstn (Z.to_nat n) l else firstn (List.length l - Z.to_nat (- n)) l.
Definition py_from_end {A} (n : Z) (l : list A) : list A := if (0 <=? - n)%Z then skipn (Z.to_nat (- n)) l else skipn (List.length l - Z.to_nat n) l.

Section W.
  Context {L Q : Type} {EL : EqD L} {EQ : EqD Q} (nsort : list L -> list L).
  (** The fields data (of UserDict), _sorted_labels, _sorted_queries and _label_mapping 224-238 *)
  Record workload := mkw { w_data : dict L Q; w_labels : list L; w_queries : list Q; w_map : dict Q L }.
  Definition item (d : dict L Q) (l : L) : res Q := match dget d l with Some q => Ok q | None => Raise KeyError end.
  (** __init__ 224-238, _update_query_order 585-587.  UserDict.__init__ inserts the given items one by one. *)
  Definition new (qs : dict L Q) : res workload :=
    let data := dict_of qs in
    let labels := nsort (dkeys data) in
    rmap (fun queries => mkw data labels queries (invert data)) (rmapM (item data) labels).
  (** entries 275-285, head 287-302, label_of 304-322 *)
  Definition entries (w : workload) : list (L * Q) := combine (w_labels w) (w_queries w).
  Definition head (w : workload) : option (L * Q) := match w_labels w, w_queries w with l :: _, q :: _ => Some (l, q) | _, _ => None end.
  Definition label_of (w : workload) (q : Q) : res L := match dget (w_map w) q with Some l => Ok l | None => Raise KeyError end.
  (** {label: self.data[label] for label in labels} *)
  Definition sub_dict (w : workload) (labels : list L) : res (dict L Q) := rmap (fun es => dict_of es) (rmapM (fun l => rmap (fun q => (l, q)) (item (w_data w) l)) labels).
  (** with_labels 324-341 *)
  Definition with_labels (w : workload) (labels : list L) : res workload := new (filter (fun e => mem (fst e) labels) (w_data w)).
  (** first 343-362, last 364-383 *)
  Definition first (w : workload) (n : Z) : res workload := rbind (sub_dict w (py_take n (w_labels w))) new.
  Definition last (w : workload) (n : Z) : res workload := rbind (sub_dict w (py_from_end n (w_labels w))) new.
  (** random.sample: refuses negative and too large samples. *)
  Definition sample_of (choice : list L -> list L) (population : list L) (k : Z) : res (list L) :=
    if ((k <? 0) || (Z.of_nat (List.length population) <? k))%Z then Raise ValueError else Ok (firstn (Z.to_nat k) (choice population)).
  (** pick_random 385-403 *)
  Definition pick_random (choice : list L -> list L) (w : workload) (n : Z) : res workload :=
    let n := Z.min n (Z.of_nat (List.length (w_queries w))) in
    rbind (sample_of choice (w_labels w) n) (fun labels => rbind (sub_dict w labels) new).
  (** filter_by 442-464 (with_prefix 405-440 is a special case) *)
  Definition filter_by (w : workload) (p : L -> Q -> bool) : res workload := new (filter (fun e => p (fst e) (snd e)) (w_data w)).
  (** shuffle 560-573, ordered 575-583 *)
  Definition shuffle (choice : list L -> list L) (w : workload) : res workload :=
    rbind (new (w_data w)) (fun w' =>
      rbind (sample_of choice (w_labels w) (Z.of_nat (List.length (w_data w)))) (fun labels =>
        rmap (fun queries => mkw (w_data w') labels queries (w_map w')) (rmapM (item (w_data w')) labels))).
  Definition ordered (w : workload) : res workload := new (w_data w).
  (** The dict operator |: later values win, earlier positions are kept. *)
  Definition dor (a b : dict L Q) : dict L Q := fold_left (fun d e => dset d (fst e) (snd e)) b a.
  (** __add__ 589-594 and __or__ 630-636 *)
  Definition add (w w' : workload) : res workload := new (dor (w_data w') (w_data w)).
  (** __sub__ 596-611, __and__ 613-628 *)
  Definition sub_labels (w : workload) (labels : list L) : res workload := new (filter (fun e => negb (mem (fst e) labels)) (w_data w)).
  Definition sub (w w' : workload) : res workload := new (difference (w_data w) (w_data w')).
  Definition and_labels (w : workload) (labels : list L) : res workload := new (filter (fun e => mem (fst e) labels) (w_data w)).
  Definition and_ (w w' : workload) : res workload := new (intersection (w_data w) (w_data w')).
  (** Inherited from UserDict: item assignment and deletion only touch [data]. *)
  Definition set_item (w : workload) (l : L) (q : Q) : res workload := Ok (mkw (dset (w_data w) l q) (w_labels w) (w_queries w) (w_map w)).
  Definition del_item (w : workload) (l : L) : res workload :=
    if dmem (w_data w) l then Ok (mkw (ddel (w_data w) l) (w_labels w) (w_queries w) (w_map w)) else Raise KeyError.
End W.
Arguments workload : clear implicits.
Arguments mkw {L Q}. Arguments w_data {L Q}. Arguments w_labels {L Q}. Arguments w_queries {L Q}. Arguments w_map {L Q}.

(** relabel 466-489, map 491-521 and transform 523-558 *)
Definition relabel {L M Q} {EL : EqD L} {EM : EqD M} {EQ : EqD Q} (nsort : list M -> list M) (w : workload L Q) (f : L -> Q -> M) : res (workload M Q) :=
  new nsort (dict_of (map (fun e => (f (fst e) (snd e), snd e)) (w_data w))).
Definition wmap {L Q R} {EL : EqD L} {EQ : EqD Q} {ER : EqD R} (nsort : list L -> list L) (w : workload L Q) (f : Q -> R) : res (workload L R) :=
  new nsort (dict_of (map (fun e => (fst e, f (snd e))) (w_data w))).
Definition transform {L M Q R} {EL : EqD L} {EM : EqD M} {EQ : EqD Q} {ER : EqD R} (nsort : list M -> list M) (w : workload L Q) (f : L -> Q -> M * R) : res (workload M R) :=
  new nsort (dict_of (map (fun e => f (fst e) (snd e)) (w_data w))).

(** generate_workload 878-921; [labels] None or empty: numbers from 1. *)
Fixpoint enumerate_from {A} (n : nat) (l : list A) : list (A * nat) := match l with [] => [] | x :: l => (x, n) :: enumerate_from (S n) l end.
Definition generate_workload {Q} {EQ : EqD Q} (nsort : list nat -> list nat) (queries : list Q) (labels : dict Q nat) : res (workload nat Q) :=
  new nsort (invert (match labels with [] => dict_of (enumerate_from 1 queries) | _ => labels end)).

(** ** Reading workloads *)
Inductive policy := PRaise | PWarn | PIgnore.
Section Read.
  Context {Q : Type} {EQ : EqD Q} (pol : policy).
  Open Scope string_scope.
  (** A file is given by its stem and by what parsing its contents yields.  The loop of Workload.read 195-220 and read_workload
      715-738: [cur] is the local variable parsed_query. *)
  Fixpoint read_files (prefix : string) (files : list (string * option Q)) (cur : option Q) (qs : dict string Q) : res (dict string Q) :=
    match files with
    | [] => Ok qs
    | (stem, Some q) :: files => read_files prefix files (Some q) (dset qs (prefix ++ stem) q)
    | (stem, None) :: files =>
        match pol with
        | PRaise => Raise ValueError
        | _ => match cur with None => Raise UnboundLocalError | Some q => read_files prefix files cur (dset qs (prefix ++ stem) q) end
        end
    end.
  (** Workload.read 127-222 *)
  Definition read (nsort : list string -> list string) (label_prefix : string) (files : list (string * option Q)) : res (workload string Q) :=
    rbind (read_files label_prefix files None []) (new nsort).
  (** read_workload 657-764 with recurse_subdirectories.  A directory is its stem, its matching files and its subdirectories.  The
      encoding, which is not passed on to subdirectories, is left out. *)
  Inductive dir := Dir (stem : string) (files : list (string * option Q)) (subdirs : list dir).
  Definition ends_with_slash (s : string) : bool := match rev (list_ascii_of_string s) with c :: _ => Ascii.eqb c "/"%char | [] => false end.
  Definition sub_prefix (prefix : string) (stem : string) : string :=
    ((if negb (String.eqb prefix "") && negb (ends_with_slash prefix) then prefix ++ "/" else prefix) ++ stem) ++ "/".
  Section Sub.
    Context (rec : string -> dir -> res (dict string Q)) (prefix : string).
    Fixpoint read_subdirs (ds : list dir) (qs : dict string Q) : res (dict string Q) :=
      match ds with
      | [] => Ok qs
      | (Dir stem _ _ as d) :: ds => rbind (rec (sub_prefix prefix stem) d) (fun sub => read_subdirs ds (dor qs sub))
      end.
  End Sub.
  Fixpoint read_tree (prefix : string) (d : dir) : res (dict string Q) :=
    match d with
    | Dir _ files subdirs => rbind (read_files "" files None []) (fun qs => read_subdirs read_tree prefix subdirs qs)
    end.
  Definition read_workload (nsort : list string -> list string) (recurse : bool) (prefix : string) (d : dir) : res (workload string Q) :=
    rbind (if recurse then read_tree prefix d else match d with Dir _ files _ => read_files "" files None [] end) (new nsort).
End Read.
Arguments dir : clear implicits.
