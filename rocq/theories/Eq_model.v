(** Model of equality and hashing of expressions and predicates (postbound/qal/_qal.py 204-3363, and the views 3843-3938,
    4083-4172).  Python's hash of a tuple is an arbitrary function [htup] of the hashes of its members, the hash of
    everything atomic is an arbitrary function [hat] of it. *)
From Coq Require Import List Bool Arith ZArith String.
From Verif Require Import PyBase Pred_model MPrint_model Ident_model Expr_model.
Import ListNotations.

(** Python's equality of literals: booleans are integers. *)
Definition sval_num (v : sval) : option Z := match v with VInt z => Some z | VBool true => Some 1%Z | VBool false => Some 0%Z | _ => None end.
Definition sval_eqb (v w : sval) : bool :=
  match v, w with
  | VNull, VNull => true
  | VStr a, VStr b => deqb a b
  | _, _ => match sval_num v, sval_num w with Some a, Some b => deqb a b | _, _ => false end
  end.
(** Atomic things that are hashed; equal literals are the same atom. *)
Inductive hatom :=
| HNum (z : Z) | HStr (s : string) | HNone | HCol (c : col) | HTab (t : tbl) | HQuery (q : nat) | HMath (op : mop) | HBin (op : binop) | HUn (op : unop)
| HBetween | HIn | HNot | HAnd | HOr | HQuant (all : bool).
Definition hval_atom (v : sval) : hatom := match v with VNull => HNone | VStr s => HStr s | VInt z => HNum z | VBool b => HNum (if b then 1 else 0)%Z end.

Section ListEq.
  Context {A B : Type} (f : A -> B -> bool).
  (** Equality of tuples. *)
  Fixpoint leqb (l : list A) (m : list B) : bool :=
    match l, m with [], [] => true | x :: l, y :: m => f x y && leqb l m | _, _ => false end.
  (** Equality of optional values. *)
  Definition oeqb (o : option A) (p : option B) : bool := match o, p with Some x, Some y => f x y | None, None => true | _, _ => false end.
End ListEq.

Section Hash.
  Context (htup : list Z -> Z) (hat : hatom -> Z).
  Definition hopt {A} (h : A -> Z) (o : option A) : Z := match o with Some x => h x | None => hat HNone end.
  Definition hbool (b : bool) : Z := hat (HNum (if b then 1 else 0)).

  Section PHash.
    Context {E : Type} (h : E -> Z).
    (** The hashes of predicates: 2540, 2676-2683, 2862, 3021, 3259. *)
    Fixpoint phash (p : pred E) : Z :=
      match p with
      | PBin op a b => htup [hat (HBin op); h a; h b]
      | PBetween a lo hi => htup [hat HBetween; h a; h lo; h hi]
      | PIn a vs => htup [hat HIn; h a; htup (map h vs)]
      | PUn op a => htup [hat (HUn op); h a]
      | PNot q => htup [hat HNot; htup [phash q]]
      | PAnd ps => htup [hat HAnd; htup (map phash ps)]
      | POr ps => htup [hat HOr; htup (map phash ps)]
      end.
  End PHash.
  (** The hashes of expressions: 246, 311, 399-406, 556, 726, 907-909, 1061, 1150 (the constructor of FunctionExpression
      replaces the hash), 1265, 1336-1343, 1483, 1630. *)
  Fixpoint xhash (e : sx) : Z :=
    match e with
    | XStatic v => hat (hval_atom v)
    | XStar t => htup [hat (HStr "*"); hopt (fun t => hat (HTab t)) t]
    | XCast a ty ps arr => htup [xhash a; hat (HStr ty); htup (map xhash ps); hbool arr]
    | XMath op a bs => htup [hat (HMath op); xhash a; match bs with [] => hat HNone | [b] => xhash b | _ => htup (map xhash bs) end]
    | XCol c => hat (HCol c)
    | XFun f args d flt => htup [hat (HStr f); hbool d; htup (map xhash args); hopt (phash xhash) flt]
    | XArr es => htup (map xhash es)
    | XAcc a i l h => htup [hat (HStr "ARRAY_GET"); hbool false;
        htup (xhash a :: oapp (fun e => [xhash e]) i ++ oapp (fun e => [xhash e]) l ++ oapp (fun e => [xhash e]) h); hat HNone]
    | XSub q => hat (HQuery (sq_id q))
    | XWin f ps os flt => htup [xhash f; htup (map xhash ps); htup (map xhash os); hopt (phash xhash) flt]
    | XCase cs s el => htup [htup (map (fun c => htup [xhash (fst c); xhash (snd c)]) cs); hopt xhash s; hopt xhash el]
    | XQuant al a => htup [xhash a; hat (HQuant al)]
    | XP p => phash xhash p
    end.

  Section PEq.
    Context {E : Type} (h : E -> Z) (f : E -> E -> bool).
    (** [set(values) == set(other.values)]; members are found by hash and equality. *)
    Definition same (v w : E) : bool := Z.eqb (h v) (h w) && f v w.
    Definition set_eqb (vs ws : list E) : bool :=
      forallb (fun v => existsb (fun w => same v w) ws) vs && forallb (fun w => existsb (fun v => same v w) vs) ws.
    (** Equality of predicates: 2620, 2783, 2959, 3075, 3358. *)
    Fixpoint peqb (p q : pred E) : bool :=
      match p, q with
      | PBin op a b, PBin op' a' b' => deqb op op' && f a a' && f b b'
      | PBetween a lo hi, PBetween a' lo' hi' => f a a' && f lo lo' && f hi hi'
      | PIn a vs, PIn a' vs' => f a a' && set_eqb vs vs'
      | PUn op a, PUn op' a' => deqb op op' && f a a'
      | PNot p, PNot q => peqb p q
      | PAnd ps, PAnd qs => leqb peqb ps qs
      | POr ps, POr qs => leqb peqb ps qs
      | _, _ => false
      end.
  End PEq.
  (** Equality of expressions: 285, 350, 478, 675, 763, 1009, 1091, 1220, 1300, 1426, 1568, 1669. *)
  Fixpoint xeqb (e e' : sx) : bool :=
    match e, e' with
    | XStatic v, XStatic w => sval_eqb v w
    | XStar t, XStar u => deqb t u
    | XCast a ty ps arr, XCast a' ty' ps' arr' => xeqb a a' && deqb ty ty' && leqb xeqb ps ps' && Bool.eqb arr arr'
    | XMath op a bs, XMath op' a' bs' => deqb op op' && xeqb a a' && leqb xeqb bs bs'
    | XCol c, XCol d => deqb c d
    | XFun f args d flt, XFun f' args' d' flt' => deqb f f' && leqb xeqb args args' && Bool.eqb d d' && oeqb (peqb xhash xeqb) flt flt'
    | XArr es, XArr es' => leqb xeqb es es'
    | XAcc a i l h, XAcc a' i' l' h' => xeqb a a' && oeqb xeqb i i' && oeqb xeqb l l' && oeqb xeqb h h'
    | XSub q, XSub q' => deqb (sq_id q) (sq_id q')
    | XWin f ps os flt, XWin f' ps' os' flt' => xeqb f f' && leqb xeqb ps ps' && leqb xeqb os os' && oeqb (peqb xhash xeqb) flt flt'
    | XCase cs s el, XCase cs' s' el' => leqb (fun c c' => xeqb (fst c) (fst c') && xeqb (snd c) (snd c')) cs cs' && oeqb xeqb s s' && oeqb xeqb el el'
    | XQuant al a, XQuant al' a' => xeqb a a' && Bool.eqb al al'
    | XP p, XP q => peqb xhash xeqb p q
    | _, _ => false
    end.
  Definition pred_eqb : pred sx -> pred sx -> bool := peqb xhash xeqb.
  Definition pred_hash : pred sx -> Z := phash xhash.

  (** ** Simplified views *)
  Inductive view := Plain (p : pred sx) | Filt (p : pred sx) (s : simple) | Join (p : pred sx) (l r : col).
  Definition uhash (u : uval) : Z := match u with UCol c => hat (HCol c) | UVal v => hat (hval_atom v) end.
  (** SimpleFilter.__init__ 3850, SimpleJoin.__init__ 4083. *)
  Definition view_hash (v : view) : Z :=
    match v with
    | Plain p => pred_hash p
    | Filt _ (SBin c op u) => htup [hat (HCol c); hat (HBin op); uhash u]
    | Filt _ (SBetween c lo hi) => htup [hat (HCol c); hat HBetween; htup [uhash lo; uhash hi]]
    | Filt _ (SIn c us) => htup [hat (HCol c); hat HIn; htup (map uhash us)]
    | Join _ l r => htup [hat (HCol l); hat (HCol r)]
    end.
  (** [v == w]: the predicates' own methods do not know the views; SimpleFilter.__eq__ 3934-3938, SimpleJoin.__eq__
      4168-4172. *)
  Definition view_eqb (v w : view) : bool :=
    match v, w with
    | Plain p, Plain q => pred_eqb p q
    | Plain _, _ => false
    | Filt p _, Filt q _ | Filt p _, Plain q => pred_eqb p q
    | Join p _ _, Join q _ _ | Join p _ _, Plain q => pred_eqb p q
    | Filt _ _, Join _ _ _ | Join _ _ _, Filt _ _ => false
    end.
  (** Views as the constructors make them. *)
  Definition view_ok (v : view) : Prop :=
    match v with
    | Plain _ => True
    | Filt p s => wrap_filter p = Ok s
    | Join p l r => match p with
                    | PBin OpEq a b => is_join x_direct p = true /\ unwrap_expr a = Ok (UCol l) /\ unwrap_expr b = Ok (UCol r)
                    | _ => False
                    end
    end.
End Hash.
