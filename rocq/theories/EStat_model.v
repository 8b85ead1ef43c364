(** Model of the statistics interface, postbound/db/_db.py 1965-2995 (DatabaseStatistics), with its implementations
    postbound/postgres.py 1862-1952 and postbound/duckdb.py 385-455 (MySQL's cannot be instantiated, see Conn_model.v).

    Simplifications: names are numbers, [public] is schema 0 and the only schema of the search path; texts of queries are identified
    with the names they contain; a row maps column names to integers or NULL; negative bin numbers are left out; the answers of
    the system catalog are given by a record, its frequencies and row counts in whole rows.  The construction of histograms from
    pg_stats is modelled in Stats_model.v and left open here. *)
From Coq Require Import List Bool Arith ZArith QArith.
From Verif Require Import PyBase.
Import ListNotations.
Local Open Scope nat_scope.

Notation value := (option Z).
Definition trows := list (nat -> value).
Definition public : nat := 0.
Record tref := mkT { t_name : nat; t_schema : option nat; t_virtual : bool }.
Record cref := mkC { c_name : nat; c_table : option tref }.

(** * The database: contents per schema and name, and what it answers to the queries below (NULLs are sorted last) *)
Definition world := nat -> nat -> option trows.
Inductive squery := QCount (t : nat) | QDistinct (c t : nat) | QMinMax (c t : nat) | QMcv (c t : nat) (k : option nat) | QFreq (c t : nat).
Inductive answer := AScalar (n : nat) | ARow (a b : value) | ARows (l : list (value * nat)).
#[global] Instance squery_EqD : EqD squery. Proof. unfold EqD. repeat decide equality. Defined.
Definition values (c : nat) (rs : trows) : list value := map (fun r => r c) rs.
Definition nonnull (l : list value) : list Z := flat_map (fun v => match v with Some x => [x] | None => [] end) l.
Definition vcount (v : value) (l : list value) : nat := List.length (filter (deqb v) l).
Definition groups (l : list value) : list (value * nat) := map (fun v => (v, vcount v l)) (dedup l).
Definition le_value (a b : value) : bool := match a, b with _, None => true | None, Some _ => false | Some x, Some y => (x <=? y)%Z end.
Section Sort.
  Context {A : Type} (leb : A -> A -> bool).
  Fixpoint insert (x : A) (l : list A) : list A := match l with [] => [x] | y :: r => if leb x y then x :: l else y :: insert x r end.
  Definition sort (l : list A) : list A := fold_right insert [] l.
End Sort.
Definition by_count (a b : value * nat) : bool := (snd b <? snd a) || ((snd a =? snd b) && le_value (fst a) (fst b)).
Definition by_value (a b : value * nat) : bool := le_value (fst a) (fst b).
Definition fold_opt (f : Z -> Z -> Z) (l : list Z) : value := match l with [] => None | x :: r => Some (fold_left f r x) end.
Definition ask (w : world) (q : squery) : res answer :=
  let on t f := match w public t with Some rs => Ok (f rs) | None => Raise OtherError end in
  match q with
  | QCount t => on t (fun rs => AScalar (List.length rs))
  | QDistinct c t => on t (fun rs => AScalar (List.length (dedup (nonnull (values c rs)))))
  | QMinMax c t => on t (fun rs => ARow (fold_opt Z.min (nonnull (values c rs))) (fold_opt Z.max (nonnull (values c rs))))
  | QMcv c t k => on t (fun rs => let l := sort by_count (groups (values c rs)) in ARows (match k with None => l | Some k => firstn k l end))
  | QFreq c t => on t (fun rs => ARows (sort by_value (groups (values c rs))))
  end.

(** * Executing queries with the cache, see Cache_model.v *)
Record state := mkS { s_cache : dict squery answer; s_enabled : bool }.
Definition cached (s : state) (flag : option bool) : bool := match flag with Some b => b | None => s_enabled s end.
Definition execute (w : world) (s : state) (q : squery) (flag : option bool) : state * res answer :=
  match (if cached s flag then dget (s_cache s) q else None) with
  | Some a => (s, Ok a)
  | None => match ask w q with
            | Raise e => (s, Raise e)
            | Ok a => (if cached s flag then mkS (dset (s_cache s) q a) (s_enabled s) else s, Ok a)
            end
  end.

(** * DatabaseStatistics *)
(** __init__ 2019-2030 *)
Record config := mkCfg { f_emulated : bool; f_fallback : bool; f_cache : option bool }.
(** _determine_caching_behavior 2971-2991 *)
Definition caching (g : config) (flag : option bool) : option bool := match flag with None => f_cache g | Some b => Some b end.
(** What callers get: a number, a pair, pairs of values and frequencies, or a histogram by its lower bound, bounds and frequencies. *)
Definition hist3 : Type := value * list value * list nat.
Inductive sval := SNum (n : option Z) | SPair (a b : value) | SMcv (l : list (value * nat)) | SHist (h : option hist3).
Definition to_sval (a : answer) : sval := match a with AScalar n => SNum (Some (Z.of_nat n)) | ARow a b => SPair a b | ARows l => SMcv l end.
Definition ret {A B} (f : A -> res B) (x : state * res A) : state * res B := (fst x, rbind (snd x) f).

Section Calc.
  Context (w : world) (g : config).
  (** _calculate_total_rows 2697-2721, _calculate_distinct_values 2723-2750, _calculate_min_max_values 2752-2779 *)
  Definition calc_total (s : state) (t : tref) (flag : option bool) : state * res answer := execute w s (QCount (t_name t)) (caching g flag).
  Definition calc_distinct (s : state) (c : nat) (t : tref) (flag : option bool) : state * res answer := execute w s (QDistinct c (t_name t)) (caching g flag).
  Definition calc_min_max (s : state) (c : nat) (t : tref) (flag : option bool) : state * res answer := execute w s (QMinMax c (t_name t)) (caching g flag).
  (** _calculate_most_common_values 2781-2834 *)
  Definition limit (k : option Z) : option nat := match k with None => None | Some k => if (k <=? 0)%Z then None else Some (Z.to_nat k) end.
  Definition calc_mcv (s : state) (c : nat) (t : tref) (k : option Z) (flag : option bool) : state * res answer :=
    execute w s (QMcv c (t_name t) (limit k)) (caching g flag).
  (** _infer_histogram_bounds 1735-1755; the bin number is not zero here *)
  Fixpoint infer_loop (size cum : nat) (l : list (value * nat)) : list value * list nat :=
    match l with
    | [] => ([], [])
    | (v, f) :: r => let cum := cum + f in
        if cum <? size then infer_loop size cum r else let (bs, ks) := infer_loop size 0 r in (v :: bs, cum :: ks)
    end.
  (** Histogram.__init__ 1803-1809: no bounds are a ValueError *)
  Definition mk_hist (lo : value) (b : list value * list nat) : res sval :=
    match fst b with [] => Raise ValueError | _ => Ok (SHist (Some (lo, fst b, snd b))) end.
  (** _calculate_histogram 2836-2869: the flag is not passed to _calculate_total_rows *)
  Definition calc_histogram (s : state) (c : nat) (t : tref) (n_bins : nat) (flag : option bool) : state * res sval :=
    let '(s, r) := calc_total s t None in
    match r with
    | Raise e => (s, Raise e)
    | Ok (AScalar 0) => (s, Ok (SHist None))
    | Ok (AScalar n) =>
        ret (fun a => match a with
                      | ARows [] => Raise AssertionError
                      | ARows (((v, _) :: _) as l) => mk_hist v (infer_loop (n / n_bins) 0 l)
                      | _ => Raise TypeError
                      end) (execute w s (QFreq c (t_name t)) (caching g flag))
    | Ok _ => (s, Raise TypeError)
    end.
End Calc.

(** MostCommonValues.__init__ 1619-1628: sorting by (frequency, value), descending.  NULL (None) and a value of the same frequency cannot
    be compared; each sort compares them or another such pair. *)
Definition null_tie (l : list (value * nat)) : bool :=
  existsb (fun a => match fst a with Some _ => false | None => existsb (fun b => match fst b with Some _ => snd a =? snd b | None => false end) l end) l.
Definition mcv_desc (a b : value * nat) : bool :=
  (snd b <? snd a) || ((snd a =? snd b) && match fst a, fst b with Some x, Some y => (y <=? x)%Z | _, _ => true end).
Definition common_values (l : list (value * nat)) : res sval := if null_tie l then Raise TypeError else Ok (SMcv (sort mcv_desc l)).

(** * Statistics of the systems *)
Inductive system := Postgres | DuckDB.
(** The system catalog: which names the search path finds, and the statistics per schema, table and column. *)
Record catalog := mkCat {
  k_visible : nat -> bool;
  k_rows : nat -> nat -> option Z;
  k_distinct : nat -> nat -> nat -> option Q;
  k_mcv : nat -> nat -> nat -> list (value * nat);
  k_hist : nat -> nat -> nat -> res (option hist3) }.
Definition schema_of (t : tref) : nat := match t_schema t with Some s => s | None => public end.
(** [int(q)] *)
Definition trunc (q : Q) : Z := Z.quot (Qnum q) (Zpos (Qden q)).

Section Retrieve.
  Context (sys : system) (w : world) (g : config) (k : catalog).
  (** _retrieve_total_rows_from_stats, postgres.py 1862-1870, duckdb.py 401-423.  In Postgres [name::regclass] is resolved with the search path
      and has to be in the given schema. *)
  Definition stats_rows (t : tref) : res (option Z) :=
    match sys with
    | Postgres => if k_visible k (t_name t) then Ok (if schema_of t =? public then k_rows k public (t_name t) else None) else Raise OtherError
    | DuckDB => Ok (k_rows k (schema_of t) (t_name t))
    end.
  (** _retrieve_distinct_values_from_stats, postgres.py 1872-1905, duckdb.py 425-432 *)
  Definition pg_distinct (c : nat) (t : tref) : res (option Z) :=
    match k_distinct k (schema_of t) (t_name t) c with
    | None => Ok None
    | Some d => if (Qle_bool 0 d) then Ok (Some (trunc d))
                else rbind (stats_rows t) (fun n => match n with None => Raise AssertionError | Some n => Ok (Some (trunc (inject_Z (-1 * n) * d))) end)
    end.
  Definition unsupported {A} (s : state) : state * res A := (s, Raise OtherError).
  Definition stats_distinct (s : state) (c : nat) (t : tref) : state * res sval :=
    match sys with
    | Postgres => (s, rmap SNum (pg_distinct c t))
    | DuckDB => if f_fallback g then ret (fun a => Ok (to_sval a)) (calc_distinct w g s c t None) else unsupported s
    end.
  (** _retrieve_min_max_values_from_stats, postgres.py 1907-1913, duckdb.py 434-439 *)
  Definition stats_min_max (s : state) (c : nat) (t : tref) : state * res sval :=
    if f_fallback g then ret (fun a => Ok (to_sval a)) (calc_min_max w g s c t (match sys with Postgres => Some true | DuckDB => None end))
    else unsupported s.
  (** _retrieve_most_common_values_from_stats, postgres.py 1915-1952, duckdb.py 441-446 *)
  Definition stats_mcv (s : state) (c : nat) (t : tref) (n : option Z) : state * res (list (value * nat)) :=
    match sys with
    | Postgres => (s, let l := k_mcv k (schema_of t) (t_name t) c in Ok (match limit n with None => l | Some n => firstn n l end))
    | DuckDB => if f_fallback g then ret (fun a => match a with ARows l => Ok l | _ => Raise TypeError end) (calc_mcv w g s c t n None) else unsupported s
    end.
  (** _retrieve_histogram_from_stats, postgres.py 1954-2037 (see Stats_model.v), duckdb.py 448-455 *)
  Definition stats_histogram (s : state) (c : nat) (t : tref) : state * res sval :=
    match sys with
    | Postgres => (s, rmap SHist (k_hist k (schema_of t) (t_name t) c))
    | DuckDB => if f_fallback g then calc_histogram w g s c t 100 None else unsupported s
    end.

  (** * The public methods: total_rows 2085-2125, num_distinct 2201-2245, min_max 2297-2340, most_common_values 2342-2393, histogram 2665-2695 *)
  Inductive stat := TotalRows (t : tref) | NumDistinct (c : cref) | MinMax (c : cref) | MostCommon (c : cref) (n : option Z) | HistogramOf (c : cref) (n_bins : option nat).
  Definition use_emulation (emulated : option bool) : bool := match emulated with Some b => b | None => f_emulated g end.
  (** UnboundColumnError and VirtualTableError *)
  Definition on_column (s : state) (c : cref) (f : nat -> tref -> state * res sval) : state * res sval :=
    match c_table c with
    | None => (s, Raise StateError)
    | Some t => if t_virtual t then (s, Raise StateError) else f (c_name c) t
    end.
  Definition call (s : state) (x : stat) (emulated cache : option bool) : state * res sval :=
    let emu := use_emulation emulated in
    let flag := caching g cache in
    let plain := ret (fun a => Ok (to_sval a)) in
    match x with
    | TotalRows t =>
        if t_virtual t then (s, Raise StateError)
        else if emu then plain (calc_total w g s t flag) else (s, rmap SNum (stats_rows t))
    | NumDistinct c => on_column s c (fun c t => if emu then plain (calc_distinct w g s c t flag) else stats_distinct s c t)
    | MinMax c => on_column s c (fun c t => if emu then plain (calc_min_max w g s c t flag) else stats_min_max s c t)
    | MostCommon c n => on_column s c (fun c t =>
        if emu then ret (fun a => match a with ARows l => common_values l | _ => Raise TypeError end) (calc_mcv w g s c t n flag)
        else ret common_values (stats_mcv s c t n))
    | HistogramOf c n_bins => on_column s c (fun c t =>
        if emu
        then match n_bins with None | Some 0 => (s, Raise ValueError) | Some n => calc_histogram w g s c t n cache end
        else stats_histogram s c t)
    end.
End Retrieve.
