(** Model of copying and modifying relational algebra trees: RelNode.mutate and _RelNodeUpdateManager, postbound/relalg.py 229-281 and
    2523-2716, parse_relalg 4266-4284 with its final copy, hash values 105, 392-396, 433-434 and leaf() 139-149.

    The objects of a tree are its positions.  [side] gives the sideways passes of an object, i.e. further nodes that use it as an input
    (317-335).  Modifications are functions on nodes that leave the inputs alone: new values for predicates, columns and so on.  Passing
    new input nodes to mutate (2643-2698) is not covered.  Dictionaries of nodes compare keys with [node_eqb], i.e. hash values are
    assumed to agree for equal nodes here. *)
From Coq Require Import List Bool Arith.
From Verif Require Import PyBase Pred_model Rel_model.
Import ListNotations.

(** children(), e.g. 501, 610, 1068-1069. *)
Definition children (n : rnode) : list rnode :=
  match n with
  | NRel _ _ => []
  | NSel m _ | NMap m _ | NGroup m _ _ | NSort m _ | NProj m _ | NDup m => [m]
  | NCross l r | NTheta l r _ | NUnion l r | NInter l r | NDiff l r => [l; r]
  end.
(** _update_child_nodes on a clone, 338-369 and 1119-1122. *)
Definition with_children (n : rnode) (cs : list rnode) : res rnode :=
  match n, cs with
  | NRel t c, [] => Ok (NRel t c)
  | NSel _ p, [m] => Ok (NSel m p)
  | NMap _ es, [m] => Ok (NMap m es)
  | NGroup _ gc ag, [m] => Ok (NGroup m gc ag)
  | NSort _ ks, [m] => Ok (NSort m ks)
  | NProj _ ts, [m] => Ok (NProj m ts)
  | NDup _, [m] => Ok (NDup m)
  | NCross _ _, [l; r] => Ok (NCross l r)
  | NTheta _ _ p, [l; r] => Ok (NTheta l r p)
  | NUnion _ _, [l; r] => Ok (NUnion l r)
  | NInter _ _, [l; r] => Ok (NInter l r)
  | NDiff _ _, [l; r] => Ok (NDiff l r)
  | _, _ => Raise ValueError
  end.

(** Positions: the indices of the inputs on the way from the root. *)
Definition pos := list nat.
Fixpoint sub (n : rnode) (p : pos) : option rnode :=
  match p with [] => Some n | i :: r => match nth_error (children n) i with Some c => sub c r | None => None end end.

(** leaf(), 139-149. *)
Definition leaf (n : rnode) : option rnode :=
  match children n with [] => Some n | [c] => Some c | _ => None end.

(** _collect_leaf_nodes, 2523-2543: a set of nodes, the first one of equal nodes is kept. *)
Fixpoint leaves (n : rnode) : list pos :=
  match n with
  | NRel _ _ => [[]]
  | NSel m _ | NMap m _ | NGroup m _ _ | NSort m _ | NProj m _ | NDup m => map (cons 0) (leaves m)
  | NCross l r | NTheta l r _ | NUnion l r | NInter l r | NDiff l r => map (cons 0) (leaves l) ++ map (cons 1) (leaves r)
  end.
Definition same_node (root : rnode) (p q : pos) : bool :=
  match sub root p, sub root q with Some a, Some b => node_eqb a b | _, _ => false end.
Fixpoint keep_first (root : rnode) (seen l : list pos) : list pos :=
  match l with
  | [] => []
  | p :: r => if existsb (same_node root p) seen then keep_first root seen r else p :: keep_first root (p :: seen) r
  end.
Definition leaf_set (root : rnode) : list pos := keep_first root [] (leaves root).

(** self._updated_nodes: the updated nodes by their originals. *)
Definition updates := list (rnode * rnode).
Fixpoint updated (d : updates) (n : rnode) : option rnode :=
  match d with [] => None | (k, v) :: r => if node_eqb k n then Some v else updated r n end.
Definition is_updated (d : updates) (n : rnode) : bool := match updated d n with Some _ => true | None => false end.
Fixpoint updated_all (d : updates) (l : list rnode) : res (list rnode) :=
  match l with
  | [] => Ok []
  | c :: r => match updated d c with Some v => rbind (updated_all d r) (fun vs => Ok (v :: vs)) | None => Raise KeyError end
  end.

Section Mutate.
  Context (ordl : list pos -> list pos) (side : pos -> list pos).
  Context (root init : rnode) (upd : rnode -> rnode) (as_root : bool).

  (** _update_node_working_set, 2700-2716. *)
  Definition above (p : pos) : list pos := match p with [] => [] | _ => [removelast p] end ++ side p.
  (** make_relalg_copy, 2571-2618, up to the assertions. *)
  Fixpoint copy_loop (fuel : nat) (queue : list pos) (d : updates) (root' init' : option rnode) : res (option rnode * option rnode) :=
    match fuel, queue with
    | _, [] => Ok (root', init')
    | 0, _ => Raise OutOfFuel
    | S k, p :: rest =>
        match sub root p with
        | None => Raise OtherError                                     (* does not happen, all positions exist *)
        | Some cur =>
            let q := rest ++ above p in
            if is_updated d cur || existsb (fun c => negb (is_updated d c)) (children cur) then copy_loop k q d root' init'
            else rbind (updated_all d (children cur)) (fun cs => rbind (with_children cur cs) (fun n =>
              if node_eqb cur init then
                if as_root then Ok (Some (upd n), Some (upd n))
                else copy_loop k q ((cur, upd n) :: d) (if node_eqb cur root then Some (upd n) else root') (Some (upd n))
              else copy_loop k q ((cur, n) :: d) (if negb as_root && node_eqb cur root then Some n else root') init'))
        end
    end.
  (** mutate, 279-281: the new root and the updated node. *)
  Definition mutate (fuel : nat) : res (rnode * rnode) :=
    rbind (copy_loop fuel (ordl (leaf_set root)) [] None None) (fun '(r, i) =>
      match i, r with Some i, Some r => Ok (r, i) | _, _ => Raise AssertionError end).
End Mutate.

(** parse_relalg, 4266-4284. *)
Definition parse_relalg (ordp : list rpred -> list rpred) (ordn : list rnode -> list rnode) (ordl : list pos -> list pos) (side : pos -> list pos)
    (fuel : nat) (q : query) : res rnode :=
  rbind (parse ordp ordn q) (fun n => rmap fst (mutate ordl side n n (fun m => m) false fuel)).

(** *** Hash values *)
(** A node with its stored hash value [_hash_val]. *)
Inductive hnode (X H : Type) := HN (h : H) (x : X) (cs : list (hnode X H)).
Arguments HN {X H}.
Section Hash.
  Context {X H : Type} (mix : X -> list H -> H).
  Definition hval (n : hnode X H) : H := match n with HN h _ _ => h end.
  Definition hsub (n : hnode X H) : list (hnode X H) := match n with HN _ _ cs => cs end.
  (** The constructor, 102-106: the hash values of the inputs are there already. *)
  Definition hmake (x : X) (cs : list (hnode X H)) : hnode X H := HN (mix x (map hval cs)) x cs.
  (** _rehash, 392-396. *)
  Fixpoint rehash (n : hnode X H) : hnode X H := match n with HN _ x cs => HN (mix x (map hval cs)) x (map rehash cs) end.
  (** A clone with other attributes, 2601-2611, keeps its hash value until _rehash. *)
  Fixpoint hupdate (n : hnode X H) (p : pos) (x' : X) : hnode X H :=
    match n, p with
    | HN h _ cs, [] => HN h x' cs
    | HN h x cs, i :: r => HN h x ((fix go k l := match l with [] => [] | c :: l' => (if k =? i then hupdate c r x' else c) :: go (S k) l' end) 0 cs)
    end.
  (** mutate, as far as attributes and hash values are concerned. *)
  Definition hmutate (n : hnode X H) (p : pos) (x' : X) : hnode X H := rehash (hupdate n p x').
End Hash.
