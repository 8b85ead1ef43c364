(** Model of postbound/util/collections.py (combinatorial helpers and queues). *)
From Coq Require Import List Bool Arith ZArith Lia.
From Verif Require Import PyBase.
Import ListNotations.

(** [itertools.combinations(lst, size)] (Python standard library, documented contract: lexicographic order of
    positions). *)
Fixpoint combinations {T} (k : nat) (l : list T) : list (list T) :=
  match k, l with
  | O, _ => [[]]
  | S _, [] => []
  | S k', x :: r => map (cons x) (combinations k' r) ++ combinations k r
  end.

(** util/collections.py 230-249, [powerset]: chain of the combinations of size 0..len. *)
Definition powerset {T} (l : list T) : list (list T) :=
  flat_map (fun size => combinations size l) (seq 0 (length l + 1)).

(** [enumerate(lst)] *)
Definition enumerate {T} (l : list T) : list (nat * T) := combine (seq 0 (length l)) l.

(** util/collections.py 278-300, [pairs]: two nested loops, skipping [b_idx <= a_idx]. *)
Definition pairs {T} (l : list T) : list (T * T) :=
  flat_map (fun '(a_idx, a) =>
    flat_map (fun '(b_idx, b) => if b_idx <=? a_idx then [] else [(a, b)]) (enumerate l)) (enumerate l).

(** [range(0, stop, step)] for a positive step; [stop] may be negative (empty range). The list of start offsets is
    [0, step, 2*step, ...] while smaller than [stop]. *)
Fixpoint range_step (fuel start step : nat) (stop : nat) : list nat :=
  match fuel with
  | O => []
  | S f => if start <? stop then start :: range_step f (start + step) step stop else []
  end.
(** util/collections.py 252-275, [sliding_window]. [size] and [step] are non-negative; [step = 0] raises ValueError
    in [range]. [stop = len - size + 1] is computed in the integers (nothing if negative). *)
Definition sliding_window {T} (l : list T) (size step : nat) : res (list (list T)) :=
  match step with
  | O => Raise ValueError
  | _ => Ok (map (fun i => firstn size (skipn i l))
                 (range_step (length l + 1) 0 step (length l + 1 - size)))
  end.

(** util/collections.py 40-52, [flatten]: containers are spliced, scalars kept. *)
Definition flatten {T} (xs : list (T + list T)) : list T :=
  flat_map (fun x => match x with inl s => [s] | inr c => c end) xs.

(** util/collections.py 303-319, [set_union]. *)
Definition set_union {T} {E : EqD T} (sets : list (list T)) : list T :=
  fold_left (fun u s => dedup (u ++ s)) sets [].

(** ** Queue, util/collections.py 357-462

    Elements are arbitrary Python objects: [truthy] is [bool(x)]; [pop]/[head] return [None] on the empty queue,
    modelled by [option]. *)
Section Queue.
  Context {T : Type} (truthy : T -> bool).
  Definition queue := list T.
  (** 369-377 (and the aliases [push], [append]) *)
  Definition q_enqueue (q : queue) (v : T) : queue := q ++ [v].
  (** 405-413 *)
  Definition q_extend (q : queue) (vs : list T) : queue := q ++ vs.
  (** 415-423 *)
  Definition q_head (q : queue) : option T := match q with [] => None | x :: _ => Some x end.
  (** 436-447: [item = self.head(); if item: self.data.pop(0); return item] *)
  Definition q_pop (q : queue) : option T * queue :=
    let item := q_head q in
    match item with
    | Some x => if truthy x then (item, tl q) else (item, q)
    | None => (item, q)
    end.
End Queue.

(** ** SizedQueue, util/collections.py 465-547. [capacity] is a non-negative integer. *)
Record sized_queue (T : Type) := SQ { sq_data : list T; sq_capacity : nat }.
Arguments SQ {T} _ _.
Arguments sq_data {T} _.
Arguments sq_capacity {T} _.
(** 490-492: the constructor stores the data as is *)
Definition sq_init {T} (capacity : nat) (data : list T) : sized_queue T := SQ data capacity.
(** 494-502: [if len(data) >= capacity: data.pop(0)]; popping from an empty list raises IndexError *)
Definition sq_append {T} (q : sized_queue T) (v : T) : res (sized_queue T) :=
  if sq_capacity q <=? length (sq_data q) then
    match sq_data q with
    | [] => Raise IndexError
    | _ :: r => Ok (SQ (r ++ [v]) (sq_capacity q))
    end
  else Ok (SQ (sq_data q ++ [v]) (sq_capacity q)).
(** 504-512: [(data + values)[: capacity]] *)
Definition sq_extend {T} (q : sized_queue T) (vs : list T) : sized_queue T :=
  SQ (firstn (sq_capacity q) (sq_data q ++ vs)) (sq_capacity q).
(** 524-532 *)
Definition sq_pop {T} (q : sized_queue T) : option T * sized_queue T :=
  match sq_data q with
  | [] => (None, q)
  | x :: r => (Some x, SQ r (sq_capacity q))
  end.
