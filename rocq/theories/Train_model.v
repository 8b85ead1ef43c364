(** Model of training data and of training optimization stages: postbound/train/_train.py, postbound/_pipelines.py 179-302,
    postbound/_stages.py 20-153, 187-346.

    Features, columns and names are numbers.  Pandas data frames are modelled by their column names and rows (None is NaN); the index is
    left out. *)
From Coq Require Import List Bool Arith.
From Verif Require Import PyBase.
Import ListNotations.

(** ** TrainingSpec and SpecViolations, _train.py 46-213.  [tspec] is the list of features; feature_set is the set of its elements. *)
Definition tspec := list nat.
Definition provides (s : tspec) (fs : list nat) : bool := subsetb fs s.                    (* 104-115; requires is the same, 117-127 *)
Definition satisfies (s other : tspec) : list nat := filter (fun f => negb (mem f s)) (dedup other).   (* 129-152: the missing features *)
Definition contains_violations (missing : list nat) : bool := match missing with [] => false | _ => true end.   (* 199-201 *)
Definition violations_bool (missing : list nat) : bool := negb (match missing with [] => false | _ => true end).   (* 203-204 *)
Definition spec_eq (s t : tspec) : bool := seteqb s t.                                     (* 160-163 *)
Definition spec_hash (hash : list nat -> nat) (s : tspec) : nat := hash s.                 (* 157-158 *)

Section Data.
  Context {V : Type}.
  Record frame := mkframe { fcols : list nat; frows : list (list (option V)) }.

  (** Pandas: DataFrame.rename(columns=...), selection of columns, concat. *)
  Definition pd_rename (d : dict nat nat) (f : frame) : frame :=
    mkframe (map (fun c => match dget d c with Some c' => c' | None => c end) (fcols f)) (frows f).
  Definition pick (cs want : list nat) (row : list (option V)) : list (option V) :=
    flat_map (fun w => map snd (filter (fun e => fst e =? w) (combine cs row))) want.
  Definition pick_cols (cs want : list nat) : list nat := flat_map (fun w => filter (fun c => c =? w) cs) want.
  Definition pd_select (want : list nat) (f : frame) : res frame :=
    if forallb (fun w => mem w (fcols f)) want
    then Ok (mkframe (pick_cols (fcols f) want) (map (pick (fcols f) want) (frows f)))
    else Raise KeyError.
  Fixpoint cell (cs : list nat) (row : list (option V)) (c : nat) : option V :=
    match cs, row with
    | c' :: cs, v :: row => if c' =? c then v else cell cs row c
    | _, _ => None
    end.
  Definition has_dup (cs : list nat) : bool := negb (length (dedup cs) =? length cs).
  Definition pd_concat (a b : frame) : res frame :=
    if deqb (fcols a) (fcols b) then Ok (mkframe (fcols a) (frows a ++ frows b))
    else if has_dup (fcols a) || has_dup (fcols b) then Raise OtherError
    else let cs := fcols a ++ filter (fun c => negb (mem c (fcols a))) (fcols b) in
         Ok (mkframe cs (map (fun r => map (cell (fcols a) r) cs) (frows a) ++ map (fun r => map (cell (fcols b) r) cs) (frows b))).

  (** ** TrainingData, 217-460 *)
  Record tdata := mktd { td_df : frame; td_source : option nat; td_map : dict nat nat }.
  Definition td_spec (t : tdata) : tspec := dkeys (td_map t).                              (* 321 *)
  (** from_df 265-293.  [query] is the column "query". *)
  Definition from_df (parse : V -> res V) (query : nat) (f : frame) (source : option nat) : res tdata :=
    let map_cell := fun e : nat * option V => if fst e =? query then match snd e with Some v => rmap Some (parse v) | None => Raise TypeError end else Ok (snd e) in
    rbind (if mem query (fcols f) then rmapM (fun r => rmapM map_cell (combine (fcols f) r)) (frows f) else Ok (frows f)) (fun rows =>
    Ok (mktd (mkframe (fcols f) rows) source (dict_of (map (fun c => (c, c)) (fcols f))))).
  (** 372-404 *)
  Definition conform_to (t : tdata) (s : tspec) : res tdata :=
    if negb (violations_bool (satisfies (td_spec t) s)) then Raise ValueError
    else Ok (mktd (td_df t) (td_source t) (filter (fun e => provides s [fst e]) (td_map t))).
  (** 406-421: the renaming maps features to columns, not columns to features. *)
  Definition as_df (t : tdata) (s : option tspec) : res frame :=
    match s with
    | None => Ok (pd_rename (td_map t) (td_df t))
    | Some s =>
        if negb (violations_bool (satisfies (td_spec t) s)) then Raise ValueError
        else rbind (rmapM (fun f => match dget (td_map t) f with Some c => Ok c | None => Raise KeyError end) s) (fun cols =>
             rmap (pd_rename (td_map t)) (pd_select cols (td_df t)))
    end.
  (** 423-441 *)
  Definition merge_with (t other : tdata) : res tdata :=
    if contains_violations (satisfies (td_spec other) (td_spec t)) then Raise ValueError
    else rbind (as_df other (Some (td_spec t))) (fun o =>
         rbind (pd_concat (td_df t) o) (fun m => Ok (mktd m None (td_map t)))).
  (** 296-309; an empty list cannot be unpacked. *)
  Definition merge (l : list tdata) (s : tspec) : res tdata :=
    match l with
    | [] => Raise ValueError
    | t :: r => rbind (fold_left (fun acc d => rbind acc (fun m => merge_with m d)) r (Ok t)) (fun m => conform_to m s)
    end.

  (** ** TrainingDataRepository, 463-504 *)
  Definition repo := list tdata.
  Definition register (r : repo) (t : tdata) : repo := r ++ [t].
  Definition retrieve_all (r : repo) (s : tspec) : list tdata := filter (fun t => violations_bool (satisfies (td_spec t) s)) r.
  Definition retrieve_first (r : repo) (s : tspec) : res (option tdata) :=
    match find (fun t => violations_bool (satisfies (td_spec t) s)) r with
    | None => Ok None
    | Some t => rmap Some (conform_to t s)
    end.
  Definition retrieve_merged (r : repo) (s : tspec) : res (option tdata) :=
    match retrieve_all r s with
    | [] => Ok None
    | [t] => Ok (Some t)
    | l => rmap Some (merge l s)
    end.
End Data.
Arguments frame V : clear implicits.
Arguments tdata V : clear implicits.

(** ** Optimization stages, _stages.py.  A class is given by the methods that it overrides. *)
Record cls := mkcls { o_fit_db : bool; o_done_db : bool; o_fit_wl : bool; o_done_wl : bool; o_fit_s : bool; o_spec_s : bool; o_done_s : bool; o_online : bool }.
(** 34-43 *)
Definition missing_impls (overridden : list bool) : list bool :=
  let missing := filter negb overridden in if length missing =? length overridden then [] else missing.
(** 123-153: may objects of the class be created? *)
Definition can_create (c : cls) : bool :=
  match missing_impls [o_fit_db c; o_done_db c], missing_impls [o_fit_wl c; o_done_wl c], missing_impls [o_fit_s c; o_spec_s c; o_done_s c] with
  | [], [], [] => true
  | _, _, _ => false
  end.
(** 187-198, 230-240, 290-300 *)
Definition requires_db (c : cls) : bool := o_fit_db c.
Definition requires_wl (c : cls) : bool := o_fit_wl c.
Definition requires_s (c : cls) : bool := o_fit_s c.

(** ** Training a pipeline, _pipelines.py 179-260.  Stage objects are numbers; [W] is the state of the world, [M] are the metrics that a
    training returns.  Methods that are not overridden raise NotImplementedError ([OtherError]). *)
Section Training.
  Context {W M : Type}.
  Context (name : nat -> nat) (classes : nat -> cls).
  Context (needs : cls -> bool) (has_done : cls -> bool) (done : nat -> W -> bool) (fit : nat -> W -> res (W * M)).
  Definition ask_done (i : nat) (w : W) : res bool := if has_done (classes i) then Ok (done i w) else Raise OtherError.
  (** train_on_database 193-199, train_on_workload 217-223 *)
  Fixpoint train (stages : list nat) (w : W) (ms : dict nat M) : res (W * dict nat M) :=
    match stages with
    | [] => Ok (w, ms)
    | i :: r =>
        if negb (needs (classes i)) then train r w ms
        else rbind (ask_done i w) (fun b => if b then train r w ms
             else rbind (fit i w) (fun p => train r (fst p) (dset ms (name i) (snd p))))
    end.
  Definition requires_training (stages : list nat) : bool := existsb (fun i => needs (classes i)) stages.
  (** sample_fit_completed 262-267 *)
  Fixpoint fit_completed (stages : list nat) (w : W) : res bool :=
    match stages with
    | [] => Ok true
    | i :: r => if negb (needs (classes i)) then fit_completed r w
                else rbind (ask_done i w) (fun b => if b then fit_completed r w else Ok false)
    end.
End Training.
(** train_on_samples 229-260: each stage gets the samples for its own specification. *)
Section Samples.
  Context {W M D : Type} (name : nat -> nat) (classes : nat -> cls) (done : nat -> W -> bool).
  Context (sample : nat -> res (option D)) (fit : nat -> D -> W -> res (W * M)).
  Definition fit_sample (i : nat) (w : W) : res (W * M) :=
    rbind (sample i) (fun o => match o with None => Raise ValueError | Some d => fit i d w end).
  Definition train_on_samples (stages : list nat) (w : W) : res (W * dict nat M) :=
    train name classes requires_s o_done_s done fit_sample stages w [].
End Samples.
Definition samples_for {V} (samples : tdata V + list (tdata V)) (spec_of : nat -> tspec) (i : nat) : res (option (tdata V)) :=
  match samples with inl t => Ok (Some t) | inr r => retrieve_merged r (spec_of i) end.
