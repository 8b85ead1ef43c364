(** Model of the exhaustive and the random enumeration of join orders and of the graph walks behind them:
    postbound/opt/enumeration.py 29-206, postbound/opt/randomized.py 32-285, postbound/util/nx.py 75-187 and 298-395.

    A join graph is a list of nodes and a list of edges, each edge in the orientation in which networkx reports it.  Nodes of
    a partially contracted graph are join trees; a TableReference node is the tree that consists of its scan (the code
    wraps it in JoinTree.scan before it becomes part of a join).  Annotations of nodes and edges are left out.  The order in
    which networkx iterates over nodes and edges after a contraction is simplified: the model keeps the previous order.  It only
    influences the order of the generated trees.  random.choice and random.random are streams of arbitrary numbers. *)
From Coq Require Import List Bool Arith.
From Verif Require Import PyBase Graph.
Import ListNotations.

(** JoinTree without annotations (JT_model.v has the whole class). *)
Inductive jtree := Leaf (t : nat) | Node (o i : jtree).
#[global] Instance EqD_jtree : EqD jtree. Proof. intros x y. decide equality. apply Nat.eq_dec. Defined.
Definition graph := (list jtree * list (jtree * jtree))%type.

(** nx.contracted_nodes(g, u, v, self_loops=False) followed by relabel_nodes({u: w}), enumeration.py 92-105: [v] disappears, its
    edges go to [u], an edge between [u] and [v] is dropped, an edge that exists already is not added again. *)
Definition subst_node (u v w x : jtree) : jtree := if deqb x u then w else if deqb x v then w else x.
Definition has_edge (es : list (jtree * jtree)) (e : jtree * jtree) : bool := mem e es || mem (snd e, fst e) es.
Fixpoint simple_edges (es : list (jtree * jtree)) : list (jtree * jtree) :=
  match es with [] => [] | e :: r => let r := simple_edges r in if has_edge r e then r else e :: r end.
Definition contract (u v w : jtree) (g : graph) : graph :=
  (map (subst_node u v w) (filter (fun x => negb (deqb x v)) (fst g)),
   simple_edges (map (fun e => (subst_node u v w (fst e), subst_node u v w (snd e)))
     (filter (fun e => negb (deqb e (u, v) || deqb e (v, u))) (snd g)))).

(** _enumerate_join_graph, enumeration.py 57-106.  The recursion stops at a single node; [fuel] bounds its depth. *)
Fixpoint enumerate (fuel : nat) (g : graph) : list jtree :=
  match fuel with
  | 0 => []
  | S fuel =>
      match fst g with
      | [x] => [x]
      | _ => flat_map (fun e => enumerate fuel (contract (fst e) (snd e) (Node (fst e) (snd e)) g) ++ enumerate fuel (contract (fst e) (snd e) (Node (snd e) (fst e)) g)) (snd g)
      end
  end.

(** The graph of a query before contraction. *)
Definition lift (ns : list nat) (es : list (nat * nat)) : graph := (map Leaf ns, map (fun e => (Leaf (fst e), Leaf (snd e))) es).

(** Duplicate elimination by hash, enumeration.py 173-181. *)
Fixpoint dedup_hash (hash : jtree -> nat) (seen : list nat) (ts : list jtree) : list jtree :=
  match ts with [] => [] | t :: r => if mem (hash t) seen then dedup_hash hash seen r else t :: dedup_hash hash (hash t :: seen) r end.

(** JoinTree.join_with(table, partner_direction), _hints.py; [None] is the empty tree. *)
Definition join_with (inner : bool) (t : option jtree) (x : nat) : option jtree :=
  match t with None => Some (Leaf x) | Some t => Some (if inner then Node t (Leaf x) else Node (Leaf x) t) end.
Definition linear_tree (inner : bool) (walk : list nat) : option jtree := fold_left (join_with inner) walk None.

(** ** Walks over the join graph *)
(** graph.adj[x] *)
Definition nadj (es : list (nat * nat)) (x : nat) : list nat :=
  dedup (flat_map (fun e => (if fst e =? x then [snd e] else []) ++ (if snd e =? x then [fst e] else [])) es).

(** _walk_frontier, nx.py 298-348.  The walk is kept in reverse; the frontier always holds the same nodes. *)
Fixpoint walk_frontier (fuel : nat) (ns : list nat) (es : list (nat * nat)) (walk frontier : list nat) : list (list nat) :=
  match fuel with
  | 0 => []
  | S fuel =>
      let avail := flat_map (fun x => filter (fun y => negb (mem y walk) && negb (mem y frontier)) (nadj es x)) frontier in
      match avail with
      | [] => if length walk <? length ns then flat_map (fun y => walk_frontier fuel ns es (y :: walk) (y :: frontier)) (filter (fun y => negb (mem y frontier)) ns)
              else [rev walk]
      | _ :: _ => flat_map (fun y => walk_frontier fuel ns es (y :: walk) (y :: frontier)) avail
      end
  end.
(** nx_frontier_walks 351-395 *)
Definition frontier_walks (ns : list nat) (es : list (nat * nat)) : list (list nat) :=
  flat_map (fun x => walk_frontier (S (length ns)) ns es [x] [x]) ns.
(** ExhaustiveJoinOrderEnumerator._linear_join_orders 183-206 *)
Definition linear_orders (inner : bool) (ns : list nat) (es : list (nat * nat)) : list (option jtree) := map (linear_tree inner) (frontier_walks ns es).

Inductive structure := Bushy | LeftDeep | RightDeep.
Section Orders.
  Context (hash : jtree -> nat).
  (** ExhaustiveJoinOrderEnumerator.all_join_orders_for 133-181: the trees that are yielded, or the exception raised by the
      first [next].  In the linear case the generator is created but never consumed (156-158). *)
  Definition all_join_orders (s : structure) (ns : list nat) (es : list (nat * nat)) : res (list jtree) :=
    match s with
    | Bushy =>
        match ns with
        | [] => Ok []
        | [t] => Ok [Leaf t]
        | _ => if connectedb ns es then Ok (dedup_hash hash [] (enumerate (length ns) (lift ns es))) else Raise ValueError
        end
    | _ => Ok []
    end.
End Orders.

(** ** Random choices *)
(** random.choice(l): IndexError for an empty list. *)
Definition choose {A} (c : nat) (l : list A) : res A :=
  match l with [] => Raise IndexError | x :: _ => Ok (nth (c mod length l) l x) end.
(** One contraction of _sample_join_graph, randomized.py 111-125; [flip] says which side becomes the outer one. *)
Definition sample_step (c : nat) (flip : bool) (g : graph) : res graph :=
  rmap (fun e => contract (fst e) (snd e) (if flip then Node (fst e) (snd e) else Node (snd e) (fst e)) g) (choose c (snd g)).
Fixpoint sample_loop (fuel : nat) (cs : nat -> nat * bool) (k : nat) (g : graph) : res jtree :=
  match fuel with
  | 0 => Raise OutOfFuel
  | S fuel =>
      match fst g with
      | [] => Raise IndexError
      | [x] => Ok x
      | _ => rbind (sample_step (fst (cs k)) (snd (cs k)) g) (sample_loop fuel cs (S k))
      end
  end.
(** graph.adj[x] for a join tree node: KeyError for an unknown node *)
Definition tadj (g : graph) (x : jtree) : res (list jtree) :=
  if mem x (fst g) then Ok (dedup (flat_map (fun e => (if deqb (fst e) x then [snd e] else []) ++ (if deqb (snd e) x then [fst e] else [])) (snd g))) else Raise KeyError.
(** _sample_join_graph, randomized.py 63-128 *)
Definition sample_graph (fuel : nat) (cs : nat -> nat * bool) (base : option nat) (g : graph) : res jtree :=
  match base with
  | None => sample_loop fuel cs 0 g
  | Some t =>
      rbind (tadj g (Leaf t)) (fun nb =>
      rbind (choose (fst (cs 0)) nb) (fun p =>
        sample_loop fuel cs 1 (contract (Leaf t) p (if snd (cs 0) then Node (Leaf t) p else Node p (Leaf t)) g)))
  end.

(** nx_random_walk, nx.py 75-130: the loop after the first node; [cur] is current_node. *)
Fixpoint random_walk_loop (fuel : nat) (cs : nat -> nat) (k : nat) (ns : list nat) (es : list (nat * nat)) (shell visited : list nat) (cur : nat) : res (list nat) :=
  match fuel with
  | 0 => Raise OutOfFuel
  | S fuel =>
      if length visited <? length ns then
        if mem cur ns then
          let shell := dedup (shell ++ filter (fun n => negb (mem n visited)) (nadj es cur)) in
          match shell with
          | [] => rbind (choose (cs k) (filter (fun n => negb (mem n visited)) ns)) (fun x => rmap (cons x) (random_walk_loop fuel cs (S k) ns es shell (x :: visited) x))
          | _ :: _ => rbind (choose (cs k) shell) (fun x => rmap (cons x) (random_walk_loop fuel cs (S k) ns es (filter (fun y => negb (y =? x)) shell) (x :: visited) x))
          end
        else Raise KeyError
      else Ok []
  end.
Definition random_walk (fuel : nat) (cs : nat -> nat) (ns : list nat) (es : list (nat * nat)) (start : option nat) : res (list nat) :=
  match start with
  | Some x => rmap (cons x) (random_walk_loop fuel cs 0 ns es [] [x] x)
  | None => rbind (choose (cs 0) ns) (fun x => rmap (cons x) (random_walk_loop fuel cs 1 ns es [] [x] x))
  end.
(** RandomJoinOrderGenerator: one drawn order, randomized.py 220-285.  [base] is the base_table parameter. *)
Definition draw_linear (inner : bool) (fuel : nat) (cs : nat -> nat) (ns : list nat) (es : list (nat * nat)) (base : option nat) : res (option jtree) :=
  rmap (linear_tree inner) (random_walk fuel cs ns es base).
Definition draw_bushy (fuel : nat) (cs : nat -> nat * bool) (ns : list nat) (es : list (nat * nat)) (base : option nat) : res jtree :=
  sample_graph fuel cs base (lift ns es).
(** random_join_orders_for with eliminate_duplicates, 209-218: from the stream of drawn orders, the next one whose hash is
    new; [None] if there is none within the next [fuel] draws. *)
Fixpoint next_new (hash : jtree -> nat) (seen : list nat) (draws : nat -> jtree) (k fuel : nat) : option jtree :=
  match fuel with 0 => None | S fuel => if mem (hash (draws k)) seen then next_new hash seen draws (S k) fuel else Some (draws k) end.

(** nx_bfs_tree, nx.py 133-187, without edge data.  [cond] is the condition; sorted() at 182 discards its result.  The
    queue is popped at its front. *)
Fixpoint bfs_loop (fuel : nat) (es : list (nat * nat)) (cond : nat -> bool) (queue visited : list nat) : res (list nat) :=
  match fuel with
  | 0 => Raise OutOfFuel
  | S fuel =>
      match queue with
      | [] => Ok []
      | x :: q =>
          let visited := x :: visited in
          if cond x then rmap (cons x) (bfs_loop fuel es cond (q ++ filter (fun n => negb (mem n visited)) (nadj es x)) visited)
          else bfs_loop fuel es cond q visited
      end
  end.
Definition bfs_tree (fuel : nat) (ns : list nat) (es : list (nat * nat)) (start : nat) (cond : nat -> bool) : res (list nat) :=
  if mem start ns then bfs_loop fuel es cond (nadj es start) [start] else Raise KeyError.
