(** Model of cardinality estimation: CardinalityEstimator, postbound/_stages.py 592-760, and the estimators of postbound/opt/_cardinalities.py.

    The enumeration of intermediates and the estimates for them are interleaved in the code (a generator); here all intermediates are
    enumerated first, which only matters for which of two exceptions is raised. *)
From Coq Require Import List Bool Arith ZArith.
From Verif Require Import PyBase Collections_model FSet Pred_model QPred_model Card_model Hint_model JT_model.
Import ListNotations.

Section FilterR.
  Context {A : Type} (f : A -> res bool).
  Fixpoint filterR (l : list A) : res (list A) :=
    match l with [] => Ok [] | x :: r => rbind (f x) (fun b => rbind (filterR r) (fun k => Ok (if b then x :: k else k))) end.
End FilterR.

Section Estimator.
  Context {E : Type} (ecols : E -> list col).
  (** The query: its tables in the order in which Python iterates over the set, and its predicates with their tables, if there are any. *)
  Context (tabs : list nat) (preds : option (list (pred E) * list nat)).
  (** query.predicates().joins_tables(join), _qal.py 4661-4673. *)
  Definition query_joins (j : list nat) : res bool :=
    match preds with None => Ok false | Some (js, root) => joins_tables ecols js root j end.
  (** generate_intermediates, 688-719. *)
  Definition generate_intermediates (cross : bool) : res (list fs) :=
    rmap (map mkfs) (filterR (fun j => match j with [] => Ok false | _ => if cross then Ok true else query_joins j end) (powerset tabs)).

  (** calculate_estimate of the estimator at hand. *)
  Context {W : Type} (est : fs -> res card).
  Definition empty_params : pparams card W := mkpp [] [] [] None.
  (** The loops of 739-742 and 755-758: math.isnan() converts to float. *)
  Definition add_estimate (j : fs) (p : pparams card W) : res (pparams card W) :=
    rbind (est j) (fun c => rbind (cget c) (fun f => match f with FNan => Ok p | _ => Ok (pp_add_card p j c) end)).
  Fixpoint add_estimates (l : list fs) (p : pparams card W) : res (pparams card W) :=
    match l with [] => Ok p | j :: r => rbind (add_estimate j p) (add_estimates r) end.
  (** estimate_cardinalities, 721-743. *)
  Definition estimate_cardinalities (cross : bool) : res (pparams card W) :=
    rbind (generate_intermediates cross) (fun l => add_estimates l empty_params).
  (** generate_plan_parameters, 745-760. *)
  Definition generate_plan_parameters {A} (cross : bool) (join_order : option (jt nat A)) : res (pparams card W) :=
    match join_order with
    | None => estimate_cardinalities cross
    | Some t => add_estimates (map (fun n => mkfs (jt_tables n)) (jt_iternodes t)) empty_params
    end.
End Estimator.

(** ** PreciseCardinalities, 20-76 *)
Section Count.
  Context {Row : Type}.
  (** The fragment of a query (transform.py 313-481) as as_count_star_query (697-717) leaves it: the rows of FROM and WHERE, the grouping
      key of GROUP BY, the groups that HAVING keeps, whether there is an ORDER BY, and LIMIT/OFFSET. *)
  Record fragment := Frag { f_rows : list Row; f_group : option (Row -> nat); f_having : option (list Row -> bool); f_order : bool; f_limit : option nat; f_offset : nat }.
  Definition groups (f : fragment) : list (list Row) :=
    match f_group f with
    | None => [f_rows f]
    | Some k => map (fun x => filter (fun r => k r =? x) (f_rows f)) (dedup (map k (f_rows f)))
    end.
  (** SELECT COUNT ( * ): sorting by a column is only possible if the query is grouped by it. *)
  Definition count_rows (f : fragment) : res (list nat) :=
    if f_order f && match f_group f with None => true | Some _ => false end then Raise OtherError
    else let l := filter (match f_having f with Some h => h | None => fun _ => true end) (groups f) in
         let l := skipn (f_offset f) (map (@length Row) l) in
         Ok (match f_limit f with Some n => firstn n l | None => l end).
  (** Cardinality(execute_query(..)), 71: a result with one row is unwrapped (simplify_result_set, db/_db.py 257-286), a list is no number. *)
  Definition precise (f : fragment) : res card :=
    rbind (count_rows f) (fun l => match l with [n] => Ok (CVal (Z.of_nat n)) | _ => Raise TypeError end).
End Count.
Arguments fragment : clear implicits.

(** calculate_estimate with its cache, 63-76; [count] is what [precise] gives for the count query on the current contents of the database. *)
Section Precise.
  Context {Q D : Type} {EQ : EqD Q} (count : D -> Q -> res card).
  Inductive command := Estimate (q : Q) | Change (d : D) | ResetCache.
  Definition calculate (cache_enabled : bool) (cache : dict Q card) (d : D) (q : Q) : res (card * dict Q card) :=
    match dget cache q with
    | Some c => Ok (c, cache)
    | None => rmap (fun c => (c, dset cache q c)) (count d q)
    end.
  Fixpoint session (enabled : bool) (cache : dict Q card) (d : D) (l : list command) : list (res card) :=
    match l with
    | [] => []
    | Change d' :: r => session enabled cache d' r
    | ResetCache :: r => session enabled [] d r
    | Estimate q :: r => match calculate enabled cache d q with
                         | Ok (c, cache') => Ok c :: session enabled cache' d r
                         | Raise e => Raise e :: session enabled cache d r
                         end
    end.
End Precise.
Arguments Estimate {Q D}. Arguments Change {Q D}. Arguments ResetCache {Q D}.

(** ** PreComputedCardinalities, 95-303
    A cell of the tables column: a set (from the converter), the JSON text of a set, or the Python text of a set. *)
Inductive cell := CSet (s : fs) | CJson (s : fs) | CRepr (s : fs).
Record sample := Sample { s_label : nat; s_tabs : cell; s_card : card }.
(** read_csv with the converter _parse_tables, 79-92, 178-180: JSONDecodeError is a ValueError. *)
Definition parse_cell (c : cell) : res cell := match c with CJson s => Ok (CSet s) | _ => Raise ValueError end.
Definition read_csv (file : list sample) : res (list sample) :=
  rmapM (fun x => rmap (fun c => Sample (s_label x) c (s_card x)) (parse_cell (s_tabs x))) file.
(** to_csv, 303: sets are written with str(). *)
Definition write_csv (df : list sample) : list sample :=
  map (fun x => Sample (s_label x) (match s_tabs x with CSet s => CRepr s | c => c end) (s_card x)) df.

Inductive style := SActual | SEstimated | SOther.
Section PreComputed.
  Context (default : option card) (live : bool) (sty : style) (save error_on_missing : bool).
  (** The two ways to ask the database (actual: true); [None]: the tables are no fragment of the query. *)
  Context (ask : bool -> nat -> fs -> option (res card)).
  Record store := Store { st_df : list sample; st_file : list sample; st_asked : nat }.
  Definition matches (label : nat) (s : fs) (x : sample) : bool :=
    (s_label x =? label) && match s_tabs x with CSet s' => deqb s' s | _ => false end.
  (** _dump_fallback_estimate, 269-303. *)
  Definition dump (st : store) (label : nat) (s : fs) (c : card) : store :=
    let df := st_df st ++ [Sample label (CJson s) c] in Store df (write_csv df) (st_asked st).
  (** _attempt_fallback_estimate, 218-267; n_samples = 0. *)
  Definition fallback (st : store) (label : nat) (s : fs) : res (option card * store) :=
    match default with
    | Some c => Ok (Some c, st)
    | None =>
        if negb live then Ok (Some CNan, st)
        else match sty with
             | SOther => match ask true label s with None => Ok (Some CNan, st) | Some _ => Raise ValueError end
             | _ => match ask (match sty with SActual => true | _ => false end) label s with
                    | None => Ok (Some CNan, st)
                    | Some r => rbind r (fun c => let st' := Store (st_df st) (st_file st) (S (st_asked st)) in
                                                  Ok (Some c, if save then dump st' label s c else st'))
                    end
             end
    end.
  (** calculate_estimate, 182-209. *)
  Definition pre_estimate (st : store) (label : nat) (tables : list nat) : res (card * store) :=
    let s := mkfs tables in
    match filter (matches label s) (st_df st) with
    | [x] => Ok (s_card x, st)
    | _ :: _ => Raise ValueError
    | [] => rbind (fallback st label s) (fun '(o, st') =>
              match o with
              | Some c => Ok (c, st')
              | None => if error_on_missing then Raise ValueError else Ok (CNan, st')
              end)
    end.
  (** __init__, 141-180. *)
  Definition open_store (file : list sample) : res store := rmap (fun df => Store df file 0) (read_csv file).
  Fixpoint pre_estimates (st : store) (l : list (nat * list nat)) : res (list card * store) :=
    match l with
    | [] => Ok ([], st)
    | (label, tables) :: r => rbind (pre_estimate st label tables) (fun '(c, st1) => rbind (pre_estimates st1 r) (fun '(cs, st2) => Ok (c :: cs, st2)))
    end.
End PreComputed.

(** ** CardinalityDistortion, 306-366.  [rnd lo hi] is random.uniform(lo, hi). *)
Inductive strategy := Fixed | Random | Unknown.
(** min() and max() of floats return their first argument if neither is smaller (greater); comparisons of finite values are exact. *)
Definition flt (a b : fval) : bool :=
  match a, b with
  | FFin m e, FFin m' e' => (fnum m e * fden e' <? fnum m' e' * fden e)%Z
  | FInf true, FFin _ _ | FFin _ _, FInf false | FInf true, FInf false => true
  | _, _ => false
  end.
Definition fone : fval := FFin 1 0.
Definition fmin (a b : fval) : fval := if flt b a then b else a.
Definition fmax (a b : fval) : fval := if flt a b then b else a.
Definition distort (s : strategy) (factor : fval) (rnd : fval -> fval -> fval) (est : res card) : res card :=
  rbind est (fun c =>
    if negb (is_valid c) then Ok CNan
    else match s with
         | Unknown => Raise ValueError
         | Fixed => cop Mul c (ONum (NFlt factor))
         | Random => cop Mul c (ONum (NFlt (rnd (fmin factor fone) (fmax factor fone))))
         end).
