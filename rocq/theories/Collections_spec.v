(** What the helpers of util/collections.py are supposed to do, independent of their implementation. *)
From Coq Require Import List Bool Arith ZArith Lia.
Import ListNotations.

(** [sublist s l]: [s] arises from [l] by crossing out elements. *)
Inductive sublist {T} : list T -> list T -> Prop :=
| sub_nil : sublist [] []
| sub_keep x s l : sublist s l -> sublist (x :: s) (x :: l)
| sub_skip x s l : sublist s l -> sublist s (x :: l).

(** An ideal FIFO queue driven by a list of client operations; the answers are what the client sees. *)
Inductive qop (T : Type) := Push (x : T) | PushAll (xs : list T) | Pop | Peek.
Arguments Push {T} _. Arguments PushAll {T} _. Arguments Pop {T}. Arguments Peek {T}.

Fixpoint ideal_fifo {T} (q : list T) (ops : list (qop T)) : list (option T) * list T :=
  match ops with
  | [] => ([], q)
  | Push x :: r => ideal_fifo (q ++ [x]) r
  | PushAll xs :: r => ideal_fifo (q ++ xs) r
  | Peek :: r => let (o, q') := ideal_fifo q r in (match q with [] => None | x :: _ => Some x end :: o, q')
  | Pop :: r =>
      match q with
      | [] => let (o, q') := ideal_fifo [] r in (None :: o, q')
      | x :: q1 => let (o, q') := ideal_fifo q1 r in (Some x :: o, q')
      end
  end.

Definition pushed {T} (ops : list (qop T)) : list T :=
  flat_map (fun o => match o with Push x => [x] | PushAll xs => xs | _ => [] end) ops.

(** The last [n] elements of a list. *)
Definition lastn {T} (n : nat) (l : list T) : list T := skipn (length l - n) l.
