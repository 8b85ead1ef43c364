(** Model of the parser's schema cache, postbound/parser.py 117-201.

    A database schema is an identity (schemas are equal if they belong to the same database, db/_db.py 1590-1591) together with
    its catalog: the columns of a table in the current or a named database schema (db/_db.py 817-866), and whether it lists any
    tables at all, which decides whether the schema object counts as true (db/_db.py 1584-1585). *)
From Coq Require Import List Bool Arith String.
From Verif Require Import PyBase Ident_model.
Import ListNotations.

Section SchemaCache.
  Context {D : Type} {E : EqD D} (catalog : D -> option string -> string -> list string) (has_tables : D -> bool).
  (** Table references with their database schema; an empty schema name is the same as none. *)
  Record tab := mkt { t_schema : option string; t_name : string; t_alias : string; t_virtual : bool }.
  Record scache := mksc { sc_schema : option D; sc_cols : dict string (list string) }.
  Definition fresh : scache := mksc None [].
  (** initialize_with 132-141 *)
  Definition initialize_with (c : scache) (s : option D) : scache :=
    match sc_schema c with
    | Some d => if match s with Some d' => negb (deqb d d') | None => true end then mksc s [] else c
    | None => mksc s (sc_cols c)
    end.
  (** bool(self._schema) *)
  Definition usable (c : scache) : option D := match sc_schema c with Some d => if has_tables d then Some d else None | None => None end.
  (** _inflate_cache 180-201: entries are pairs and thus true, even if there are no columns *)
  Definition inflate (c : scache) (name : string) : scache * list string :=
    match dget (sc_cols c) name with
    | Some cols => (c, cols)
    | None => match usable c with
              | None => (c, [])
              | Some d => let cols := catalog d None name in (mksc (sc_schema c) (dset (sc_cols c) name cols), cols)
              end
    end.
  (** lookup_column 143-167 *)
  Fixpoint find_table (c : scache) (col : string) (ts : list tab) : scache * option tab :=
    match ts with
    | [] => (c, None)
    | t :: ts => if t_virtual t then find_table c col ts
                 else let '(c, cols) := inflate c (t_name t) in if mem col cols then (c, Some t) else find_table c col ts
    end.
  Definition lookup_column (c : scache) (col : string) (ts : list tab) : scache * option tab :=
    match usable c with None => (c, None) | Some _ => find_table c col ts end.
  (** columns_of 169-178 *)
  Definition columns_of (c : scache) (t : tab) : scache * list string :=
    match usable c with None => (c, []) | Some _ => inflate c (t_name t) end.

  Inductive sop := Init (s : option D) | Lookup (col : string) (ts : list tab) | ColumnsOf (t : tab).
  Inductive answer := AInit | ATable (t : option tab) | ACols (l : list string).
  Definition sstep (c : scache) (o : sop) : scache * answer :=
    match o with
    | Init s => (initialize_with c s, AInit)
    | Lookup col ts => let '(c, t) := lookup_column c col ts in (c, ATable t)
    | ColumnsOf t => let '(c, l) := columns_of c t in (c, ACols l)
    end.
  Fixpoint srun (c : scache) (ops : list sop) : list answer :=
    match ops with [] => [] | o :: ops => let '(c, a) := sstep c o in a :: srun c ops end.
End SchemaCache.
