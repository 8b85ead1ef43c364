(** Specification vocabulary for C271 and C272: what the server makes of the statements. *)
From Coq Require Import List Bool Arith ZArith.
From Verif Require Import PyBase Maint_model.
Import ListNotations.
Local Open Scope nat_scope.

(** The columns a caller asks for, as (table, column) names. *)
Definition requested (tables : list tab) (is_view : tab -> bool) (columns_of : tab -> list nat) (cols : option (list col)) (tabs : option (list tab)) (t c : nat) : Prop :=
  match cols, tabs with
  | Some (x :: xs), _ => exists k b, In k (x :: xs) /\ l_tab k = Some b /\ b_name b = t /\ l_name k = c
  | _, Some (y :: ys) => exists b, In b (y :: ys) /\ b_name b = t /\ In c (columns_of b)
  | _, _ => exists b, In b tables /\ is_view b = false /\ b_name b = t /\ In c (columns_of b)
  end.
(** The ANALYZE commands among the statements. *)
Definition analyzed (l : list stmt) : list (list (nat * list nat)) := flat_map (fun s => match s with Analyze x => [x] | _ => [] end) l.

(** The server keeps a fixed number of distinct values per column (0: none) and the statistics of the last ANALYZE, which takes the
    fixed number or an estimate.  A column listed twice for a table is an error. *)
Record server := mkServer { fixed : nat -> nat -> nat; known : nat -> nat -> option nat }.
Definition put {A} (f : nat -> nat -> A) (t c : nat) (v : A) : nat -> nat -> A := fun t' c' => if (t' =? t) && (c' =? c) then v else f t' c'.
Definition analyze_column (estimate : nat -> nat -> nat) (t : nat) (s : server) (c : nat) : server :=
  mkServer (fixed s) (put (known s) t c (Some (if fixed s t c =? 0 then estimate t c else fixed s t c))).
Fixpoint has_dup (l : list nat) : bool := match l with [] => false | x :: r => existsb (Nat.eqb x) r || has_dup r end.
Definition serve (estimate : nat -> nat -> nat) (s : server) (x : stmt) : option server :=
  match x with
  | SetTarget _ _ _ => Some s
  | SetDistinct t c n => Some (mkServer (put (fixed s) t c n) (known s))
  | Analyze l => if existsb (fun e => has_dup (snd e)) l then None
                 else Some (fold_left (fun s e => fold_left (analyze_column estimate (fst e)) (snd e) s) l s)
  end.
Fixpoint serve_all (estimate : nat -> nat -> nat) (s : server) (l : list stmt) : option server :=
  match l with [] => Some s | x :: r => match serve estimate s x with None => None | Some s => serve_all estimate s r end end.

(** The relations whose pages are meant: base tables and the chosen indexes. *)
Definition meant (indexes : nat -> list (nat * bool)) (ts : list tab) (exclude_pages primary secondary : bool) (r : nat) : Prop :=
  exists t, In t ts /\ b_virtual t = false /\
    ((exclude_pages = false /\ r = b_name t) \/ exists p, In (r, p) (indexes (b_name t)) /\ (if p then primary else secondary) = true).
