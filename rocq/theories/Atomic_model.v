(** Model of util/num.py [AtomicInt] (20-231) with its lock, under arbitrary thread interleavings.

    [threading.Lock] is not re-entrant: acquiring it blocks while it is held, even by the same thread. Each method is
    compiled to the sequence of shared-memory accesses it performs; [x += y] is a load followed by a store. *)
From Coq Require Import List Bool Arith ZArith Lia.
From Verif Require Import PyBase.
Import ListNotations.
Local Open Scope Z_scope.

Inductive instr :=
| Acq | Rel            (* enter / leave [with self._lock] *)
| Load                 (* read self._value into a register *)
| StoreAdd (by_ : Z)   (* self._value = register + by *)
| StoreC (v : Z)       (* self._value = v *)
| Ret.                 (* the register is the result of the call *)

Inductive aop :=
| Increment (by_ : Z)  (* 27-29 *)
| Reset_               (* 31-33 *)
| Get                  (* 35-37; also __int__, __abs__, __add__, ... which read the value once under the lock *)
| Set_ (v : Z)         (* 39-41 *)
| Pos.                 (* 130-132: [with self._lock: return +self.value], the property takes the lock again *)

Definition compile (o : aop) : list instr :=
  match o with
  | Increment b => [Acq; Load; StoreAdd b; Rel]
  | Reset_ => [Acq; StoreC 0; Rel]
  | Get => [Acq; Load; Ret; Rel]
  | Set_ v => [Acq; StoreC v; Rel]
  | Pos => [Acq; Acq; Load; Rel; Ret; Rel]
  end.

(** A thread: operations not yet started, rest of the running operation, register, results so far. *)
Record thread := TH { t_prog : list aop; t_cur : list instr; t_reg : Z; t_out : list Z }.
Record state := ST { s_value : Z; s_lock : option nat; s_threads : list thread }.

Fixpoint update {A} (l : list A) (i : nat) (x : A) : list A :=
  match l, i with
  | [], _ => []
  | _ :: r, O => x :: r
  | y :: r, S j => y :: update r j x
  end.

(** One step of thread [i]; [None] if it cannot move. *)
Definition step (s : state) (i : nat) : option state :=
  match nth_error (s_threads s) i with
  | None => None
  | Some t =>
    let put v l t' := Some (ST v l (update (s_threads s) i t')) in
    match t_cur t with
    | [] => match t_prog t with
            | [] => None
            | o :: p => put (s_value s) (s_lock s) (TH p (compile o) (t_reg t) (t_out t))
            end
    | Acq :: c => match s_lock s with
                  | None => put (s_value s) (Some i) (TH (t_prog t) c (t_reg t) (t_out t))
                  | Some _ => None
                  end
    | Rel :: c => put (s_value s) None (TH (t_prog t) c (t_reg t) (t_out t))
    | Load :: c => put (s_value s) (s_lock s) (TH (t_prog t) c (s_value s) (t_out t))
    | StoreAdd b :: c => put (t_reg t + b) (s_lock s) (TH (t_prog t) c (t_reg t) (t_out t))
    | StoreC v :: c => put v (s_lock s) (TH (t_prog t) c (t_reg t) (t_out t))
    | Ret :: c => put (s_value s) (s_lock s) (TH (t_prog t) c (t_reg t) (t_out t ++ [t_reg t]))
    end
  end.

(** Running a schedule (list of thread ids); a blocked or finished thread must not be scheduled. *)
Fixpoint run (s : state) (sched : list nat) : option state :=
  match sched with
  | [] => Some s
  | i :: r => match step s i with Some s' => run s' r | None => None end
  end.

Definition init (v : Z) (progs : list (list aop)) : state := ST v None (map (fun p => TH p [] 0 []) progs).
Definition finished (s : state) : Prop := forall t, In t (s_threads s) -> t_prog t = [] /\ t_cur t = [].

(** Integer operators, util/num.py 58-219: result of [AtomicInt(x) op y] / [y op AtomicInt(x)] where the plain integer
    operator is total. *)
Inductive binop := OpAdd | OpMul | OpAnd | OpOr | OpXor.
Definition int_op (o : binop) : Z -> Z -> Z :=
  match o with OpAdd => Z.add | OpMul => Z.mul | OpAnd => Z.land | OpOr => Z.lor | OpXor => Z.lxor end.
(** __add__ 58-62, __mul__ 115-119, __and__ 64-67, __or__ 125-128, __xor__ 216-219 *)
Definition atomic_op (o : binop) (self other : Z) : Z := int_op o self other.
(** __radd__ 143-146, __rmul__ 168-171, __rand__ 148-151 (adds!), __ror__ 173-176, __rxor__ 202-205 *)
Definition atomic_rop (o : binop) (self other : Z) : Z :=
  match o with
  | OpAdd => other + self
  | OpMul => other * self
  | OpAnd => other + self
  | OpOr => Z.lor other self
  | OpXor => Z.lxor other self
  end.
