(* Equality and hash values of clauses, table sources and queries.

   postbound/qal/_qal.py: the constructors and __eq__ methods cited at [ohash]
   and [oeqb] below.

   Everything a query is made of is an [obj]; the classes are told apart by the
   constructors.  Simplifications: expressions and predicates other than
   subqueries are a class and a list of members ([OExpr]), equality and hash
   values of which are those of the tuple of class and members (their real
   methods are modelled in Eq_model.v); strings, numbers, columns and table
   references are atoms.  Methods test isinstance(other, type(self)), and
   Python asks an object of a proper subclass first, hence objects of different
   classes are never equal. *)
From Coq Require Import List Bool Arith ZArith.
From Verif Require Import PyBase.
Import ListNotations.

Definition str := nat.    (* 0 is the empty string *)
Definition tbl := nat.    (* a TableReference *)
Inductive atom := AStr (s : str) | ATbl (t : tbl) | ABool (b : bool) | AInt (z : Z) | ANone.
#[global] Instance EqD_atom : EqD atom.
Proof.
  intros a b. unfold EqD in *.
  decide equality; first [apply Nat.eq_dec | apply Bool.bool_dec | apply Z.eq_dec].
Defined.

(* SQL's FETCH directions, _qal.py 7549 *)
Inductive dir := DFirst | DNext | DPrior | DLast.
#[global] Instance EqD_dir : EqD dir.
Proof. intros a b. unfold EqD in *. decide equality. Defined.

(* the target_name parameter of WithQuery: str | TableReference *)
Inductive tname := NStr (s : str) | NRef (t : tbl).

Inductive obj :=
| OAtom (a : atom)
| OExpr (cls : nat) (args : list obj)
| OSubquery (q : obj)
| OWith (q : obj) (name : tname) (materialized : option bool)
| OValuesWith (values : obj) (table : atom) (columns : list obj) (materialized : option bool)
| OCte (withs : list obj) (recursive : bool)
| OProjection (e : obj) (name : str)
| OSelect (dtype : nat) (dcols targets : list obj)
| ODirect (t : tbl)
| OSubSource (e : obj) (name : str) (lateral : bool)
| OValuesSource (table : atom) (columns : list obj) (values : obj)
| OFuncSource (f : obj) (alias : atom)
| OJoinSource (l r : obj) (cond : option obj) (jt : nat)
| OFrom (kind : nat) (items : list obj)
| OWhere (p : obj)
| OGroup (cols : list obj) (distinct : bool)
| OHaving (c : obj)
| OOrderExpr (c : obj) (ascending nulls_first : option bool)
| OOrder (es : list obj)
| OLimit (pg : bool) (limit offset : option Z) (d : dir)
| OExplain (pg : bool) (analyze : bool) (format : option str)
| OHint (prep query : str)
| OUnion (l r : obj) (all : bool)
| OSql (cls : nat) (slots : list (option obj))
| OSet (l r : obj) (op : nat) (cte order limit hints explain : option obj).

(* the format of EXPLAIN as it is stored: "" becomes None, _qal.py 5236 *)
Definition format_of (f : option str) : option str := match f with Some 0 => None | f => f end.

(* the clauses that are not None, _qal.py 8933-8952 *)
Fixpoint some {A} (l : list (option A)) : list A :=
  match l with [] => [] | Some x :: rest => x :: some rest | None :: rest => some rest end.

Section ListEq.
  Context {A B : Type} (f : A -> B -> bool).
  Fixpoint all2 (l : list A) (m : list B) : bool :=
    match l, m with [], [] => true | x :: l, y :: m => f x y && all2 l m | _, _ => false end.
  Definition opt2 (o : option A) (p : option B) : bool :=
    match o, p with Some x, Some y => f x y | None, None => true | _, _ => false end.
End ListEq.

Section SomeEq.
  Context (f : obj -> obj -> bool).
  (* some l == some m, written without the intermediate list [some l] *)
  Fixpoint slots2 (l : list (option obj)) (m : list obj) : bool :=
    match l with
    | [] => match m with [] => true | _ => false end
    | None :: l => slots2 l m
    | Some x :: l => match m with [] => false | y :: m => f x y && slots2 l m end
    end.
End SomeEq.

Section Hash.
  (* hash() of tuples and of atoms are arbitrary functions; TableReference.identifier() *)
  Context (htup : list Z -> Z) (hat : atom -> Z) (ident : tbl -> str).

  Definition hbool (b : bool) : Z := hat (ABool b).
  Definition hopt {A} (h : A -> Z) (o : option A) : Z := match o with Some x => h x | None => hat ANone end.
  Definition hnat (n : nat) : Z := hat (AInt (Z.of_nat n)).

  (* the hash of the SqlQuery "SELECT * FROM (VALUES ...) AS t" that is the
     query of a ValuesWithQuery, _qal.py 5513-5519 with 8501-8514; [star] is
     the hash of Select.star() *)
  Definition hvalues (star source : Z) : Z :=
    htup [hat ANone; hat ANone; hat ANone; star; htup [source]; hat ANone; hat ANone; hat ANone; hat ANone; hat ANone].

  Fixpoint ohash (o : obj) : Z :=
    match o with
    | OAtom a => hat a
    | OExpr c args => htup (hnat c :: map ohash args)
    | OSubquery q => ohash q                                                              (* 1265 *)
    | OWith q n _ => htup [ohash q; match n with NStr s => hat (AStr s) | NRef t => hat (ATbl t) end]     (* 5347 *)
    | OValuesWith vs t cs _ =>
        htup [hvalues (hnat 0) (htup [hat t; htup (map ohash cs); ohash vs]); hat t]      (* 5513-5520, 6474 *)
    | OCte ws r => htup [htup (map ohash ws); hbool r]                                    (* 5632 *)
    | OProjection e n => htup [ohash e; hat (AStr n)]                                     (* 5798 *)
    | OSelect d dcs ts => htup [hnat d; htup (map ohash dcs); htup (map ohash ts)]        (* 5980 *)
    | ODirect t => hat (ATbl t)                                                           (* 6258 *)
    | OSubSource e n l => htup [ohash e; hat (AStr n); hbool l]                           (* 6307-6309 *)
    | OValuesSource t cs vs => htup [hat t; htup (map ohash cs); ohash vs]                (* 6474 *)
    | OFuncSource f a => htup [ohash f; hat a]                                            (* 6606 *)
    | OJoinSource l r c jt => htup [ohash l; ohash r; hopt ohash c; hnat jt]              (* 6751-6753 *)
    | OFrom _ items => htup (map ohash items)                                             (* 6960 *)
    | OWhere p => ohash p                                                                 (* 7141 *)
    | OGroup cs d => htup [htup (map ohash cs); hbool d]                                  (* 7220 *)
    | OHaving c => ohash c                                                                (* 7303 *)
    | OOrderExpr c a n => htup [ohash c; hopt hbool a; hopt hbool n]                      (* 7384 *)
    | OOrder es => htup (map ohash es)                                                    (* 7496 *)
    | OLimit _ l o d =>
        htup [hopt (fun z => hat (AInt z)) l; hopt (fun z => hat (AInt z)) o;
              hnat (match d with DFirst => 0 | DNext => 1 | DPrior => 2 | DLast => 3 end)]  (* 7588 *)
    | OExplain pg a f =>
        (* 5238; PostgresExplainClause (postgres.py 2152) passes the stored format on *)
        htup [hbool a; hopt (fun s => hat (AStr s)) (if pg : bool then format_of f else f)]
    | OHint p q => htup [hat (AStr p); hat (AStr q)]                                      (* 5105 *)
    | OUnion l r a => htup [ohash l; ohash r; hbool a]                                    (* 7687 *)
    | OSql _ slots => htup (map (hopt ohash) slots)                                       (* 8501-8514 *)
    | OSet l r op cte _ limit hints explain =>
        htup [ohash l; ohash r; hnat op; hopt ohash cte; hopt ohash limit; hopt ohash hints; hopt ohash explain]  (* 9474-9484 *)
    end.

  Definition name_of (n : tname) : str := match n with NStr s => s | NRef t => ident t end.   (* 5343-5345 *)

  Fixpoint oeqb (o p : obj) : bool :=
    match o, p with
    | OAtom a, OAtom b => deqb a b
    | OExpr c args, OExpr c' args' => deqb c c' && all2 oeqb args args'
    | OSubquery q, OSubquery q' => oeqb q q'                                              (* 1300 *)
    | OWith q n _, OWith q' n' _ => deqb (name_of n) (name_of n') && oeqb q q'            (* 5450-5455 *)
    | OValuesWith vs t cs _, OValuesWith vs' t' cs' _ =>
        oeqb vs vs' && all2 oeqb cs cs' && deqb t t'                                      (* 5574-5580 *)
    | OCte ws r, OCte ws' r' => all2 oeqb ws ws' && Bool.eqb r r'                         (* 5712-5717 *)
    | OProjection e n, OProjection e' n' => oeqb e e' && deqb n n'                        (* 5842-5847 *)
    | OSelect d dcs ts, OSelect d' dcs' ts' =>
        deqb d d' && all2 oeqb ts ts' && all2 oeqb dcs dcs'                               (* 6103-6109 *)
    | ODirect t, ODirect t' => deqb t t'                                                  (* 6260 *)
    | OSubSource e n _, OSubSource e' n' _ => oeqb e e' && deqb n n'                      (* 6415-6420 *)
    | OValuesSource t cs vs, OValuesSource t' cs' vs' =>
        deqb t t' && all2 oeqb cs cs' && oeqb vs vs'                                      (* 6557-6563 *)
    | OFuncSource f a, OFuncSource f' a' => oeqb f f' && deqb a a'                        (* 6656-6661 *)
    | OJoinSource l r c jt, OJoinSource l' r' c' jt' =>
        oeqb l l' && oeqb r r' && opt2 oeqb c c' && deqb jt jt'                           (* 6905-6912 *)
    | OFrom k items, OFrom k' items' => deqb k k' && all2 oeqb items items'               (* 7011 *)
    | OWhere p, OWhere p' => oeqb p p'                                                    (* 7176 *)
    | OGroup cs d, OGroup cs' d' => all2 oeqb cs cs' && Bool.eqb d d'                     (* 7270-7275 *)
    | OHaving c, OHaving c' => oeqb c c'                                                  (* 7335 *)
    | OOrderExpr c a n, OOrderExpr c' a' n' => oeqb c c' && deqb a a' && deqb n n'        (* 7429-7435 *)
    | OOrder es, OOrder es' => all2 oeqb es es'                                           (* 7539 *)
    | OLimit pg l o _, OLimit pg' l' o' _ => Bool.eqb pg pg' && deqb l l' && deqb o o'    (* 7637-7642 *)
    | OExplain pg a f, OExplain pg' a' f' =>
        Bool.eqb pg pg' && Bool.eqb a a' && deqb (format_of f) (format_of f')             (* 5285-5290 *)
    | OHint p q, OHint p' q' => deqb p p' && deqb q q'                                    (* 5153-5158 *)
    | OUnion l r a, OUnion l' r' a' => oeqb l l' && oeqb r r' && Bool.eqb a a'            (* 7774-7780 *)
    | OSql c slots, OSql c' slots' => deqb c c' && slots2 oeqb slots (some slots')        (* 9174-9175 *)
    | OSet l r op cte order limit hints explain, OSet l' r' op' cte' order' limit' hints' explain' =>
        oeqb l l' && oeqb r r' && deqb op op' && opt2 oeqb cte cte' && opt2 oeqb order order'
        && opt2 oeqb limit limit' && opt2 oeqb hints hints' && opt2 oeqb explain explain' (* 10007-10018 *)
    | _, _ => false
    end.

  (* ExceptClause and IntersectClause *)
  Inductive setclause := SExcept (l r : obj) | SIntersect (l r : obj).
  (* ExceptClause.__eq__ 7855-7859 and IntersectClause.__eq__ 7950-7954 access
     an attribute that does not exist *)
  Definition setclause_eqb (a b : setclause) : res bool :=
    match a, b with
    | SExcept _ _, SExcept _ _ | SIntersect _ _, SIntersect _ _ => Raise AttributeError
    | _, _ => Ok false
    end.
  Definition setclause_hash (a : setclause) : Z :=
    match a with SExcept l r | SIntersect l r => htup [ohash l; ohash r] end.             (* 7805, 7885 *)
End Hash.
