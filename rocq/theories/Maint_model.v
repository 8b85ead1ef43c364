(** Model of maintaining statistics and the buffer pool of Postgres:
    postbound/postgres.py 1758-1860        PostgresStatisticsInterface.update_statistics
    postbound/postgres.py 938-1086         PostgresInterface.prewarm_tables, cooldown_tables
    postbound/postgres.py 1269-1295        _fetch_index_relnames
    postbound/util/dicts.py 157-165        generate_multi

    Simplifications: names are numbers and are valid in SQL texts; table references are equal if name, schema and alias agree; the
    arguments are lists of references (single references and sets are such lists, too).  Sets are enumerated in some order. *)
From Coq Require Import List Bool Arith ZArith.
From Verif Require Import PyBase.
Import ListNotations.
Local Open Scope nat_scope.

Record tab := mkTab { b_name : nat; b_schema : option nat; b_alias : option nat; b_virtual : bool }.
#[global] Instance tab_EqD : EqD tab. Proof. unfold EqD. repeat decide equality. Defined.
Record col := mkCol { l_name : nat; l_tab : option tab }.
#[global] Instance col_EqD : EqD col. Proof. unfold EqD. repeat decide equality. Defined.

(** The statements sent to the server, by the texts of their names *)
Inductive stmt :=
| SetTarget (t c : nat) (n : nat)             (* ALTER TABLE t ALTER COLUMN c SET STATISTICS n *)
| Analyze (l : list (nat * list nat))         (* ANALYZE t1(c1, c2), t2(...) *)
| SetDistinct (t c : nat) (n : nat).          (* ALTER TABLE t ALTER COLUMN c SET (n_distinct = n) *)

(** generate_multi: dictionary from keys to lists *)
Definition multi_add {V} (d : dict tab (list V)) (k : tab) (v : V) : dict tab (list V) := dset d k (match dget d k with None => [v] | Some l => l ++ [v] end).
Definition generate_multi {V} (l : list (tab * V)) : dict tab (list V) := fold_left (fun d e => multi_add d (fst e) (snd e)) l [].

Section Update.
  (** the schema: tables, views, columns of a table; the number of distinct values of a column as counted *)
  Context (tables : list tab) (is_view : tab -> bool) (columns_of : tab -> list nat) (count_distinct : nat -> tab -> res nat).
  Definition schema_columns (t : tab) : list col := map (fun c => mkCol c (Some t)) (columns_of t).
  (** 1790-1803: an empty list of columns or tables counts as missing *)
  Definition given {A} (o : option (list A)) : list A := match o with None => [] | Some l => l end.
  Definition choose_columns (cols : option (list col)) (tabs : option (list tab)) : res (list col) :=
    match given cols with
    | _ :: _ => Ok (given cols)
    | [] =>
        match (match given tabs with [] => filter (fun t => negb (is_view t)) tables | _ => given tabs end) with
        | [] => match cols with None => Raise AssertionError | Some l => Ok l end
        | ts => Ok (dedup (flat_map schema_columns ts))
        end
    end.
  (** 1806-1808: columns without a table fail later, in the text of ANALYZE or when counting *)
  Definition bound (c : col) : res (tab * nat) := match l_tab c with None => Raise AttributeError | Some t => Ok (t, l_name c) end.
  (** 1811-1835; in the loop the statements are sent one by one *)
  Fixpoint prepare (mcv : bool) (cs : list col) : res (list stmt) :=
    match cs with
    | [] => Ok []
    | c :: cs =>
        match l_tab c with
        | None => Raise StateError
        | Some t => rbind (count_distinct (l_name c) t) (fun n => rmap (fun r => if mcv then SetTarget (b_name t) (l_name c) n :: r else r) (prepare mcv cs))
        end
    end.
  (** the dictionary distinct_values *)
  Fixpoint distincts (cs : list col) (d : dict col nat) : res (dict col nat) :=
    match cs with
    | [] => Ok d
    | c :: cs => match l_tab c with
                 | None => Raise StateError
                 | Some t => rbind (count_distinct (l_name c) t) (fun n => distincts cs (dset d c n))
                 end
    end.
  Definition update_statistics (cols : option (list col)) (tabs : option (list tab)) (perfect_mcv perfect_distinct : bool) : res (list stmt) :=
    rbind (choose_columns cols tabs) (fun cs =>
    rbind (if perfect_mcv || perfect_distinct then prepare perfect_mcv cs else Ok []) (fun targets =>
    rbind (if perfect_distinct then distincts cs [] else Ok []) (fun ds =>
    rbind (rmapM bound cs) (fun pairs =>
    let analyze := Analyze (map (fun e => (b_name (fst e), snd e)) (generate_multi pairs)) in
    Ok (targets ++ analyze :: map (fun e => SetDistinct (match l_tab (fst e) with Some t => b_name t | None => 0 end) (l_name (fst e)) (snd e)) ds))))).
End Update.

(** * The buffer pool *)
(** the names of a table's indexes, and whether they are the primary index: by name only *)
Section Buffer.
  Context (has_extension : bool) (indexes : nat -> list (nat * bool)).
  (** [set(...)], an element once *)
  Definition relations (names : list nat) (exclude_pages primary secondary : bool) : list nat :=
    let chosen := if primary || secondary
                  then map fst (filter (fun e => (snd e && primary) || (negb (snd e) && secondary)) (flat_map indexes names)) else [] in
    dedup (if exclude_pages then chosen else names ++ chosen).
  (** prewarm_tables 938-1011: the relations of the query, if one is sent *)
  Definition prewarm (ts : list tab) (exclude_pages primary secondary : bool) : res (option (list nat)) :=
    if negb has_extension then Raise StateError
    else match ts with
         | [] => Ok None
         | _ => match relations (dedup (map b_name (filter (fun t => negb (b_virtual t)) ts))) exclude_pages primary secondary with
                | [] => Ok None | l => Ok (Some l)
                end
         end.
  (** cooldown_tables 1013-1086: virtual tables are kept *)
  Definition cooldown (ts : list tab) (exclude_pages primary secondary : bool) : res (option (list nat)) :=
    if negb has_extension then Raise StateError
    else match ts with
         | [] => Ok None
         | _ => match relations (dedup (map b_name ts)) exclude_pages primary secondary with
                | [] => Ok None | l => Ok (Some l)
                end
         end.
End Buffer.
