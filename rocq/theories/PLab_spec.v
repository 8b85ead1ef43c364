(** What the hints of an entire plan mean. *)
From Coq Require Import List Bool Arith ZArith String Permutation.
From Verif Require Import PyBase Hint_model Card_model PGHint_spec QPlan_model QPlan_spec.
Import ListNotations.

(** The join order of a plan: scans are leaves, nodes with one input are ignored, nodes with two inputs are joins. *)
Inductive shape : plan -> order -> Prop :=
| sh_scan p t : is_scan p = true -> base (data p) = Some t -> shape p (OrdTab t)
| sh_one p c o : is_scan p = false -> kids p = [c] -> shape c o -> shape p o
| sh_two p a b x y : is_scan p = false -> kids p = [a; b] -> shape a x -> shape b y -> shape p (OrdJoin x y).
Fixpoint order_text (name : nat -> string) (o : order) : string :=
  match o with OrdTab t => name t | OrdJoin a b => "(" ++ order_text name a ++ " " ++ order_text name b ++ ")" end%string.

(** The keywords of pg_lab, also for intermediate operators. *)
Inductive keyword : physop -> string -> Prop :=
| kw_op o k : lab_keyword o k -> keyword o k
| kw_mat : keyword (PInter 2) "Material"
| kw_memo : keyword (PInter 1) "Memo".
(** A node with its cardinality: the actual one, if it is known, otherwise the estimated one. *)
Inductive rows (d : pdata) : Z -> Prop :=
| rows_actual z : m_card (meas d) = CVal z -> rows d z
| rows_estimated z : (forall z, m_card (meas d) <> CVal z) -> est d = CVal z -> rows d z.
(** [n] is above all scans and joins. *)
Inductive on_top : plan -> plan -> Prop :=
| ot_self p : is_scan p = false -> is_join p = false -> on_top p p
| ot_below p c n : is_scan p = false -> is_join p = false -> kids p = [c] -> on_top c n -> on_top p n.
