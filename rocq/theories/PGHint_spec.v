(** What C31 means: join orders, identifiers that can be told apart in a hint, and the hint lines of operators. *)
From Coq Require Import List Bool Arith ZArith String Ascii Permutation.
From Verif Require Import PyBase Hint_model JT_model Lim_model.
Import ListNotations.
Open Scope string_scope.

(** The join order of a tree. *)
Inductive order := OrdTab (t : nat) | OrdJoin (outer inner : order).
Fixpoint order_of {A} (t : jt nat A) : option order :=
  match t with
  | JEmpty _ => None
  | JScan _ x _ => Some (OrdTab x)
  | JJoin _ o i _ => match order_of o, order_of i with Some a, Some b => Some (OrdJoin a b) | _, _ => None end
  end.
Fixpoint order_tables (o : order) : list nat := match o with OrdTab t => [t] | OrdJoin a b => (order_tables a ++ order_tables b)%list end.

(** Identifiers that form one word in a hint: not empty, without spaces and parentheses. *)
Definition delim (c : ascii) : bool := Ascii.eqb c " " || Ascii.eqb c "(" || Ascii.eqb c ")".
Fixpoint no_delim (s : string) : Prop := match s with EmptyString => True | String c r => delim c = false /\ no_delim r end.
Definition word (s : string) : Prop := s <> "" /\ no_delim s.

(** [line] is a hint with keyword [kw] for exactly the given tables (in any order), with or without parallel workers. *)
Definition hint_for (name : nat -> string) (kw : string) (tabs : list nat) (line : string) : Prop :=
  exists ts, Permutation ts tabs /\
    (line = kw ++ "(" ++ String.concat " " (map name ts) ++ ")" \/
     exists n, line = kw ++ "(" ++ String.concat " " (map name ts) ++ " (workers=" ++ n ++ "))").

(** The same, with the number of workers exactly if there is more than one. *)
Definition hint_with_workers (name : nat -> string) (kw : string) (tabs : list nat) (w : option nat) (line : string) : Prop :=
  exists ts, Permutation ts tabs /\
    ((forall n, w = Some n -> n <= 1) /\ line = kw ++ "(" ++ String.concat " " (map name ts) ++ ")" \/
     exists n, w = Some n /\ 1 < n /\ line = kw ++ "(" ++ String.concat " " (map name ts) ++ " (workers=" ++ num (Z.of_nat n) ++ "))").

(** The keywords of the operators in the documentation of pg_lab and pg_hint_plan.  pg_lab has one keyword for both kinds of index scans. *)
Inductive lab_keyword : physop -> string -> Prop :=
| lk_nlj : lab_keyword (PJoin 0) "NestLoop" | lk_hash : lab_keyword (PJoin 1) "HashJoin" | lk_merge : lab_keyword (PJoin 2) "MergeJoin"
| lk_seq : lab_keyword (PScan 0) "SeqScan" | lk_idx : lab_keyword (PScan 1) "IdxScan" | lk_idxo : lab_keyword (PScan 2) "IdxScan"
| lk_bit : lab_keyword (PScan 3) "BitmapScan".
Inductive hp_keyword : physop -> string -> Prop :=
| hk_nlj : hp_keyword (PJoin 0) "NestLoop" | hk_hash : hp_keyword (PJoin 1) "HashJoin" | hk_merge : hp_keyword (PJoin 2) "MergeJoin"
| hk_seq : hp_keyword (PScan 0) "SeqScan" | hk_idx : hp_keyword (PScan 1) "IndexScan" | hk_idxo : hp_keyword (PScan 2) "IndexOnlyScan"
| hk_bit : hp_keyword (PScan 3) "BitmapScan".

(** The scan and join operators of an assignment: operator, tables, workers. *)
Definition assigned (p : poa) (o : physop) (tabs : list nat) (w : option nat) : Prop :=
  (exists t a, In (t, a) (scans p) /\ o = PScan (sa_op a) /\ tabs = [sa_tab a] /\ w = sa_par a) \/
  (exists k a, In (k, a) (joins p) /\ o = PJoin (ja_op a) /\ tabs = ja_join a /\ w = ja_par a).
(** More than one worker. *)
Definition many (w : option nat) : Prop := exists n, w = Some n /\ 1 < n.
(** The workers of all operators in the order of the assignment. *)
Definition worker_list (p : poa) : list (option nat) := (map (fun e => sa_par (snd e)) (scans p) ++ map (fun e => ja_par (snd e)) (joins p))%list.
(** At most one operator has more than one worker. *)
Definition at_most_one_parallel (p : poa) : Prop :=
  forall i j w v, nth_error (worker_list p) i = Some w -> nth_error (worker_list p) j = Some v -> many w -> many v -> i = j.
