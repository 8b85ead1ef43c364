(** What a text about a query plan is supposed to tell. *)
From Coq Require Import String Ascii List Bool Arith.
From Verif Require Import PyBase PText_model.
Import ListNotations.
Open Scope list_scope.

(** the lines of a text: split at each newline *)
Fixpoint lines (t : text) : list text :=
  match t with
  | [] => [[]]
  | c :: r => if Ascii.eqb c newline then [] :: lines r else match lines r with l :: ls => (c :: l) :: ls | [] => [[c]] end
  end.
Definition text_dec : forall a b : text, {a = b} + {a <> b} := list_eq_dec ascii_dec.
Definition one_line (t : text) : Prop := ~ In newline t.

(** ordered trees, and their nodes in preorder with the depth *)
Inductive rose (A : Type) := Rose (a : A) (ks : list (rose A)).
Arguments Rose {A}.
Fixpoint preorder {A} (d : nat) (r : rose A) : list (nat * A) :=
  match r with Rose a ks => (d, a) :: flat_map (preorder (S d)) ks end.
Fixpoint rose_map {A B} (f : A -> B) (r : rose A) : rose B := match r with Rose a ks => Rose (f a) (map (rose_map f) ks) end.

(** the plan without its subplans *)
Fixpoint main_tree (p : plan) : rose node := match p with Plan n ks _ => Rose n (map main_tree ks) end.
(** the plan with each subplan as a last child; the flag is set if the subplan is the only child *)
Fixpoint full_tree (p : plan) : rose (node * bool) :=
  match p with
  | Plan n ks sub =>
      Rose (n, match ks, sub with [], Some _ => true | _, _ => false end)
           (map full_tree ks ++ match sub with Some s => [full_tree s] | None => [] end)
  end.
(** no node has a subplan *)
Fixpoint plain (p : plan) : Prop :=
  match p with Plan n ks sub => sub = None /\ fold_right (fun k acc => plain k /\ acc) True ks end.
(** all nodes, with those of subplans *)
Fixpoint all_nodes (p : plan) : list node :=
  match p with Plan n ks sub => n :: flat_map all_nodes ks ++ match sub with Some s => all_nodes s | None => [] end end.


(** the lines below the header: the metadata of the node, or the requested fields.  A field that is named twice is shown once, at its
    first place. *)
Definition value (n : node) (f : text) : text := match n_attr n f with Ok v => v | Raise _ => [] end.
Definition shown (fields : list text) (n : node) : list text :=
  match fields with
  | [] => default_lines n
  | _ => [str "[" ++ join (str " ") (map (fun f => f ++ str "=" ++ value n f) (rev (dedup (rev fields)))) ++ str "]"]
  end.
(** the lines of ast() and inspect() for a node at some depth *)
Definition ast_line (x : nat * node) : text :=
  match x with (d, n) => if Nat.eqb d 0 then header n else spaces (2 * d) ++ str "->  " ++ header n end.
Definition inspect_block (fields : list text) (x : nat * (node * bool)) : list text :=
  match x with
  | (d, (n, blank)) =>
      (if Nat.eqb d 0 then header n else spaces (6 * d - 4) ++ str "->  " ++ header n)
      :: map (fun c => spaces (match fields with [] => 6 * d + 2 | _ => 6 * d - 4 + 3 end) ++ c) (shown fields n)
      ++ (if blank then [[]] else [])
  end.
(** nothing that is printed contains a newline *)
Definition clean (fields : list text) (p : plan) : Prop :=
  forall n, In n (all_nodes p) -> one_line (header n) /\ forall c, In c (shown fields n) -> one_line c.
Definition look (fields : list text) (x : node * bool) : text * list text * bool := (header (fst x), shown fields (fst x), snd x).
(** what explain() tells about a node: the pieces of metadata; a missing number of hits or misses is NaN if the other one is known *)
Definition no_comma (t : text) : Prop := ~ In ","%char t.
Definition cache_info (n : node) : option (text * text) :=
  let or_nan o := match o with Some t => t | None => str "nan" end in
  match n_hits n, n_misses n with None, None => None | h, m => Some (or_nan h, or_nan m) end.
Definition same_metadata (n m : node) : Prop :=
  n_card n = n_card m /\ n_cost n = n_cost m /\ n_analyze n = n_analyze m /\ cache_info n = cache_info m /\ n_workers n = n_workers m /\
  n_lookup n = n_lookup m /\ n_index n = n_index m /\ n_sort n = n_sort m.
(** numbers, index names and sort keys without commas *)
Definition plain_values (n : node) : Prop :=
  no_comma (n_card n) /\ (forall c t, n_analyze n = Some (c, t) -> no_comma c) /\ (forall h, n_hits n = Some h -> no_comma h) /\
  (forall i, n_index n = Some i -> no_comma i) /\ (forall k, In k (n_sort n) -> no_comma k).
