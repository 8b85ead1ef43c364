(** Model of [Cardinality], postbound/_core.py 22-397, including the floating point arithmetic it computes with. *)
From Coq Require Import List Bool Arith ZArith Lia.
From Verif Require Import PyBase.
Import ListNotations.
Local Open Scope Z_scope.

(** * IEEE 754 double precision numbers (the Python type [float])
    A finite value is [m * 2^e].  Signed zeros are not distinguished: no operation below can tell them apart, because
    Python raises on every division by zero. *)
Inductive fval := FNan | FInf (neg : bool) | FFin (m e : Z).
(** A finite value as a fraction. *)
Definition fnum (m e : Z) : Z := if 0 <=? e then m * 2 ^ e else m.
Definition fden (e : Z) : Z := if 0 <=? e then 1 else 2 ^ (- e).

(** Rounding of [n/d] to an integer, ties to even (also Python's [round] of a float). *)
Definition rhe (n d : Z) : Z :=
  let q := n / d in let r := n mod d in
  if 2 * r <? d then q else if d <? 2 * r then q + 1 else if Z.even q then q else q + 1.
(** The exponent at which [n/d] has a 53 bit mantissa. *)
Definition fexp (n d : Z) : Z :=
  let k := Z.log2 (Z.abs n) - Z.log2 d in
  let below := if 0 <=? k then Z.abs n <? d * 2 ^ k else Z.abs n * 2 ^ (- k) <? d in
  (if below then k - 1 else k) - 52.
(** The correctly rounded double for [n/d]. *)
Definition fl (n d : Z) : fval :=
  if n =? 0 then FFin 0 0
  else
    let e := Z.max (fexp n d) (-1074) in
    let m := if 0 <=? e then rhe n (d * 2 ^ e) else rhe (n * 2 ^ (- e)) d in
    if (0 <? e) && (2 ^ 1024 <=? Z.abs m * 2 ^ e) then FInf (n <? 0) else FFin m e.

(** [float(z)]: an OverflowError for integers beyond the range. *)
Definition float_of_int (z : Z) : res fval := match fl z 1 with FFin m e => Ok (FFin m e) | _ => Raise OtherError end.

Definition fneg (x : fval) : bool := match x with FInf b => b | FFin m _ => m <? 0 | FNan => false end.
Definition fzero (x : fval) : bool := match x with FFin m _ => m =? 0 | _ => false end.
Definition fadd (x y : fval) : fval :=
  match x, y with
  | FNan, _ | _, FNan => FNan
  | FInf a, FInf b => if Bool.eqb a b then FInf a else FNan
  | FInf a, FFin _ _ => FInf a
  | FFin _ _, FInf b => FInf b
  | FFin m e, FFin m' e' => fl (fnum m e * fden e' + fnum m' e' * fden e) (fden e * fden e')
  end.
Definition fopp (x : fval) : fval := match x with FNan => FNan | FInf b => FInf (negb b) | FFin m e => FFin (- m) e end.
Definition fsub (x y : fval) : fval := fadd x (fopp y).
Definition fmul (x y : fval) : fval :=
  match x, y with
  | FNan, _ | _, FNan => FNan
  | FFin m e, FFin m' e' => fl (fnum m e * fnum m' e') (fden e * fden e')
  | _, _ => if fzero x || fzero y then FNan else FInf (xorb (fneg x) (fneg y))
  end.
(** Python's float division raises on a zero divisor, whatever the dividend is. *)
Definition fdiv (x y : fval) : res fval :=
  if fzero y then Raise ZeroDivisionError
  else match x, y with
       | FNan, _ | _, FNan => Ok FNan
       | FInf a, FInf b => Ok FNan
       | FInf a, FFin m _ => Ok (FInf (xorb a (m <? 0)))
       | FFin _ _, FInf _ => Ok (FFin 0 0)
       | FFin m e, FFin m' e' =>
           let n := fnum m e * fden e' in let d := fnum m' e' * fden e in
           Ok (fl (if d <? 0 then - n else n) (Z.abs d))
       end.

(** * Cardinality *)
Inductive card := CNan | CInf | CVal (z : Z).
(** A plain Python number. *)
Inductive num := NInt (z : Z) | NFlt (f : fval).

(** __init__, 76-80: both infinities count as infinite; finite values are rounded. *)
Definition card_of_float (f : fval) : card :=
  match f with FNan => CNan | FInf _ => CInf | FFin m e => CVal (rhe (fnum m e) (fden e)) end.
Definition card_of (n : num) : card := match n with NInt z => CVal z | NFlt f => card_of_float f end.
(** get / __float__, 117-123 and 341-346. *)
Definition cget (c : card) : res fval := match c with CNan => Ok FNan | CInf => Ok (FInf false) | CVal z => float_of_int z end.
Definition nget (n : num) : res fval := match n with NInt z => float_of_int z | NFlt f => Ok f end.
Definition is_valid (c : card) : bool := match c with CVal _ => true | _ => false end.
(** The [value] property, 85-92. *)
Definition cvalue (c : card) : res Z := match c with CVal z => Ok z | _ => Raise StateError end.

(** The right operand of an operator: another cardinality or a plain number. *)
Inductive operand := OCard (c : card) | ONum (n : num).
Definition oget (o : operand) : res fval := match o with OCard c => cget c | ONum n => nget n end.

(** __add__ 131-136, __sub__ 147-152, __mul__ 159-164, __truediv__ 171-176. *)
Inductive aop := Add | Sub | Mul | Div.
Definition fop (o : aop) (x y : fval) : res fval :=
  match o with Add => Ok (fadd x y) | Sub => Ok (fsub x y) | Mul => Ok (fmul x y) | Div => fdiv x y end.
Definition cop (o : aop) (c : card) (x : operand) : res card :=
  rbind (cget c) (fun a => rbind (oget x) (fun b => rmap card_of_float (fop o a b))).
(** __radd__ 138-141 and the other reflected operators: a plain number on the left. *)
Definition crop (o : aop) (n : num) (c : card) : res card :=
  rbind (nget n) (fun a => rbind (cget c) (fun b => rmap card_of_float (fop o a b))).

(** Comparison of an integer with a float (exact in Python). *)
Definition zf_lt (z : Z) (f : fval) : bool :=
  match f with FNan => false | FInf neg => negb neg | FFin m e => z * fden e <? fnum m e end.
Definition zf_gt (z : Z) (f : fval) : bool :=
  match f with FNan => false | FInf neg => neg | FFin m e => fnum m e <? z * fden e end.
Definition zf_eq (z : Z) (f : fval) : bool := match f with FFin m e => z * fden e =? fnum m e | _ => false end.
Definition zf_le z f := zf_lt z f || zf_eq z f.
Definition zf_ge z f := zf_gt z f || zf_eq z f.

(** The common shape of __lt__ 274-289, __le__ 291-306, __gt__ 308-323, __ge__ 325-340. *)
Definition ccmp (zz : Z -> Z -> bool) (zf : Z -> fval -> bool) (a : card) (b : operand) : bool :=
  match a with
  | CVal x => match b with
              | OCard CNan => false
              | OCard CInf => true
              | OCard (CVal y) => zz x y
              | ONum (NInt y) => zz x y
              | ONum (NFlt f) => zf x f
              end
  | _ => false
  end.
Definition clt := ccmp Z.ltb zf_lt.
Definition cle := ccmp Z.leb zf_le.
Definition cgt := ccmp Z.gtb zf_gt.
Definition cge := ccmp Z.geb zf_ge.
(** __eq__, 364-383. *)
Definition ceq (a : card) (b : operand) : res bool :=
  match a, b with
  | CNan, OCard CNan => Ok true
  | CInf, OCard CInf => Ok true
  | _, OCard c => rbind (cvalue a) (fun x => rmap (Z.eqb x) (cvalue c))
  | CVal x, ONum (NInt y) => Ok (x =? y)
  | CVal x, ONum (NFlt f) => Ok (zf_eq x f)
  | CNan, ONum (NFlt FNan) => Ok true
  | CInf, ONum (NFlt (FInf _)) => Ok true
  | _, ONum _ => Ok false
  end.
(** The tuple given to [hash], 385-387. *)
Definition chashkey (c : card) : bool * bool * Z :=
  match c with CNan => (true, false, -1) | CInf => (false, true, -1) | CVal z => (false, false, z) end.

(** Python's [max] and [min] of two values. *)
Definition cmax (a b : card) : card := if cgt b (OCard a) then b else a.
Definition cmin (a b : card) : card := if clt b (OCard a) then b else a.

(** __mod__ 246-266 for cardinalities. *)
Definition cmod (a b : card) : res card :=
  match a with
  | CVal x => match b with CNan => Ok CNan | CInf => Ok a | CVal y => if y =? 0 then Raise ZeroDivisionError else Ok (CVal (x mod y)) end
  | _ => Ok CNan
  end.
(** __divmod__ 211-222 for cardinalities: quotient and remainder as plain numbers ([None] for NaN). *)
Definition cdivmod (a b : card) : res (option Z * option Z) :=
  match a with
  | CVal x => match b with
              | CNan => Ok (None, None)
              | CInf => Ok (Some 0, Some x)
              | CVal y => if y =? 0 then Raise ZeroDivisionError else Ok (Some (x / y), Some (x mod y))
              end
  | _ => Ok (None, None)
  end.
(** __floordiv__ 235-236: [math.floor] of a cardinality is the cardinality itself (203-205). *)
Definition cfloordiv (a : card) (b : operand) : res card := cop Div a b.
