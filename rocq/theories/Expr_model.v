(** Model of PostBOUND's SQL expressions (postbound/qal/_qal.py 95-1677): which columns and tables they report, their
    equality and hash, how columns are renamed in them (postbound/transform.py 1429-1693), and how filters are simplified
    (_qal.py 3634-3941).

    Subqueries are opaque: an identity together with what the query reports as its tables and columns.  Literals are NULL,
    integers, booleans and strings (floats, in particular NaN, are left out).  Function names are assumed to be upper
    case already (FunctionExpression.__init__, 900). *)
From Coq Require Import List Bool Arith ZArith String.
From Verif Require Import PyBase Pred_model MPrint_model Ident_model.
Import ListNotations.

(** The value of a StaticValueExpression, 219-296. *)
Inductive sval := VNull | VInt (z : Z) | VBool (b : bool) | VStr (s : string).
(** A query inside of a SubqueryExpression, 1244-1305. *)
Record sq := mksq { sq_id : nat; sq_tabs : list tbl; sq_cols : list col }.

(** SqlExpression and its subclasses. *)
Inductive sx : Type :=
| XStatic (v : sval)                                                     (* StaticValueExpression, 219 *)
| XStar (t : option tbl)                                                 (* StarExpression, 299 *)
| XCast (e : sx) (ty : string) (params : list sx) (arr : bool)           (* CastExpression, 359 *)
| XMath (op : mop) (e : sx) (more : list sx)                             (* MathExpression, 507: no, one or several further arguments *)
| XCol (c : col)                                                         (* ColumnExpression, 705 *)
| XFun (f : string) (args : list sx) (dist : bool) (flt : option (pred sx))       (* FunctionExpression, 796 *)
| XArr (es : list sx)                                                    (* ArrayExpression, 1032 *)
| XAcc (a : sx) (idx lo hi : option sx)                                  (* ArrayAccessExpression, 1099 *)
| XSub (q : sq)                                                          (* SubqueryExpression, 1244 *)
| XWin (f : sx) (part : list sx) (ord : list sx) (flt : option (pred sx))         (* WindowExpression, 1308; ord: the expressions of the OrderBy *)
| XCase (cases : list (sx * sx)) (simple els : option sx)                (* CaseExpression, 1453 *)
| XQuant (all : bool) (e : sx)                                           (* QuantifierExpression, 1589 *)
| XP (p : pred sx).                                                      (* AbstractPredicate is a SqlExpression, 2078 *)

Definition olist {A} (o : option A) : list A := match o with Some x => [x] | None => [] end.
Definition oapp {A B} (f : A -> list B) (o : option A) : list B := match o with Some x => f x | None => [] end.

(** The results for all expressions of a predicate, in order (iterexpressions, 2595, 2757, 2923, 3056, 3323). *)
Section PFlat.
  Context {E X : Type} (f : E -> list X).
  Fixpoint pflat (p : pred E) : list X :=
    match p with
    | PBin _ a b => f a ++ f b
    | PBetween a lo hi => f a ++ f lo ++ f hi
    | PIn a vs => f a ++ flat_map f vs
    | PUn _ a => f a
    | PNot q => pflat q
    | PAnd ps | POr ps => flat_map pflat ps
    end.
End PFlat.

(** ** What expressions report

    One traversal covers the methods, which differ only in what the leaves contribute and in two places:
    [tuples] - are the further arguments of an arithmetic expression with three or more arguments visited?
    [filters] - is the FILTER predicate of a function visited?
    The first component is the result of the method, the second one the combined result for all of [iterchildren()]. *)
Section Walk.
  Context {X : Type} (lcol : col -> list X) (lstar : option tbl -> list X) (lsub : sq -> list X) (tuples filters : bool).

  Fixpoint walk (e : sx) : list X * list X :=
    let own e := fst (walk e) in
    let below e := snd (walk e) in
    match e with
    | XStatic _ => ([], [])                                              (* 266-276 *)
    | XStar t => (lstar t, [])                                           (* 329-341 *)
    | XCol c => (lcol c, [])                                             (* 742-754 *)
    | XSub q => (lsub q, [])                                             (* 1281-1291 *)
    | XCast a _ ps _ => let w := own a ++ flat_map own ps in (w, w)      (* 453-469 *)
    | XMath _ a bs =>                                                    (* 602-644: [isinstance(self.second_arg, list)] never holds for the stored tuple *)
        let w := own a ++ flat_map own bs in
        (match bs with _ :: _ :: _ => if tuples then w else own a | _ => w end, w)
    | XFun _ args _ flt =>                                               (* 978-1000 *)
        let w := flat_map own args in
        (w ++ (if filters then oapp (pflat own) flt else []), w)
    | XArr es => let w := flat_map own es in (w, w)                      (* 1072-1082 *)
    | XAcc a i l h =>                                                    (* the methods of FunctionExpression on the arguments, 1147-1150 *)
        let w := own a ++ oapp own i ++ oapp own l ++ oapp own h in (w, w)
    | XWin f ps os flt =>                                                (* 1392-1417 *)
        let w := below f ++ flat_map below ps ++ flat_map own os ++ oapp (pflat own) flt in (w, w)
    | XCase cs s el =>                                                   (* 1531-1553 *)
        let w := flat_map (fun c => below (fst c) ++ below (snd c)) cs ++ oapp below s ++ oapp below el in (w, w)
    | XQuant _ a => (own a, own a)                                       (* 1650-1660 *)
    | XP p => let w := pflat own p in (w, w)                             (* 2182-2234, 2587-2596, 2743-2758, 2912-2924, 3050-3057, 3304-3324 *)
    end.
End Walk.

(** columns(), as a list that stands for the set. *)
Definition x_columns (e : sx) : list col := fst (walk (fun c => [c]) (fun _ => []) sq_cols false true e).
(** itercolumns(). *)
Definition x_itercolumns (e : sx) : list col := fst (walk (fun c => [c]) (fun _ => []) sq_cols true true e).
(** tables(). *)
Definition x_tables (e : sx) : list tbl := fst (walk (fun c => olist (c_tab c)) olist sq_tabs false true e).
(** _collect_column_expression_columns, 2002-2024 with _collect_base_expressions, 1949-1975: everything below
    [iterchildren()] except for subqueries. *)
Definition x_direct (e : sx) : list col := fst (walk (fun c => [c]) (fun _ => []) (fun _ => []) true false e).

Section MapM.
  Context {A B : Type} (f : A -> res B).
  Definition omapM (o : option A) : res (option B) :=
    match o with Some x => rbind (f x) (fun y => Ok (Some y)) | None => Ok None end.
  Fixpoint lmapM (l : list A) : res (list B) :=
    match l with [] => Ok [] | x :: r => rbind (f x) (fun y => rbind (lmapM r) (fun ys => Ok (y :: ys))) end.
End MapM.
Section PMapM.
  Context {A B : Type} (f : A -> res B).
  Fixpoint pmapM (p : pred A) : res (pred B) :=
    match p with
    | PBin op a b => rbind (f a) (fun a' => rbind (f b) (fun b' => Ok (PBin op a' b')))
    | PBetween a lo hi => rbind (f a) (fun a' => rbind (f lo) (fun lo' => rbind (f hi) (fun hi' => Ok (PBetween a' lo' hi'))))
    | PIn a vs => rbind (f a) (fun a' => rbind (lmapM f vs) (fun vs' => Ok (PIn a' vs')))
    | PUn op a => rbind (f a) (fun a' => Ok (PUn op a'))
    | PNot q => rbind (pmapM q) (fun q' => Ok (PNot q'))
    | PAnd ps => rbind (lmapM pmapM ps) (fun ps' => Ok (PAnd ps'))
    | POr ps => rbind (lmapM pmapM ps) (fun ps' => Ok (POr ps'))
    end.
End PMapM.

(** ** Renaming columns: rename_columns_in_expression, transform.py 1429-1598, rename_columns_in_predicate 1618-1693.
    [ren] is the dictionary lookup with the column itself as default; [rsub] is rename_columns_in_query on subqueries. *)
Section Rename.
  Context (ren : col -> col) (rsub : sq -> res sq).

  Fixpoint rename (e : sx) : res sx :=
    match e with
    | XStatic _ | XStar _ => Ok e
    | XCol c => Ok (XCol (ren c))
    | XP p => rbind (pmapM rename p) (fun p' => Ok (XP p'))
    | XCast a ty ps arr => rbind (rename a) (fun a' => rbind (lmapM rename ps) (fun ps' => Ok (XCast a' ty ps' arr)))
    | XMath op a bs =>
        rbind (rename a) (fun a' =>
        match bs with
        | [] => Ok (XMath op a' [])
        | [b] => rbind (rename b) (fun b' => Ok (XMath op a' [b']))
        | _ => Raise ValueError                                          (* a tuple is no known expression, 1597-1598 *)
        end)
    | XAcc a i l h =>                                                    (* 1517-1522: the constructor has no parameters of these names *)
        rbind (rename a) (fun _ => rbind (omapM rename i) (fun _ => rbind (omapM rename l) (fun _ => rbind (omapM rename h) (fun _ => Raise TypeError))))
    | XFun f args d flt => rbind (lmapM rename args) (fun args' => Ok (XFun f args' d None))      (* 1523-1530: no filter_where *)
    | XSub q => rbind (rsub q) (fun q' => Ok (XSub q'))
    | XWin f ps os flt =>
        rbind (rename f) (fun f' => rbind (lmapM rename ps) (fun ps' => rbind (lmapM rename os) (fun os' =>
        rbind (omapM (pmapM rename) flt) (fun flt' => Ok (XWin f' ps' os' flt')))))
    | XCase cs s el =>
        rbind (lmapM (fun c => rbind (match fst c with XP p => rbind (pmapM rename p) (fun p' => Ok (XP p')) | _ => Raise ValueError end)   (* 1564, 1692-1693 *)
                                (fun a => rbind (rename (snd c)) (fun b => Ok (a, b)))) cs) (fun cs' =>
        rbind (omapM rename s) (fun s' => rbind (omapM rename el) (fun el' => Ok (XCase cs' s' el'))))
    | XQuant al a => rbind (rename a) (fun a' => Ok (XQuant al a'))
    | XArr es => rbind (lmapM rename es) (fun es' => Ok (XArr es'))
    end.
End Rename.
Definition rename_predicate ren rsub (p : pred sx) : res (pred sx) := pmapM (rename ren rsub) p.
(** [available_renamings.get(column, column)]. *)
Definition lookup_renaming (d : dict col col) (c : col) : col := match dget d c with Some c' => c' | None => c end.

(** ** Simplified filters: _unwrap_expression, _qal.py 3634-3657 *)
Inductive uval := UCol (c : col) | UVal (v : sval).
Fixpoint unwrap_expr (e : sx) : res uval :=
  match e with
  | XStatic v => Ok (UVal v)
  | XCol c => Ok (UCol c)
  | XCast a _ _ _ => unwrap_expr a
  | _ => Raise ValueError
  end.
(** The triple of SimpleFilter: column, operation, value(s). *)
Inductive simple := SBin (c : col) (op : binop) (v : uval) | SBetween (c : col) (lo hi : uval) | SIn (c : col) (vs : list uval).
(** _attempt_filter_unwrap, 3664-3715; SimpleFilter.wrap / __init__, 3787, 3843-3851. *)
Definition wrap_filter (p : pred sx) : res simple :=
  if negb (is_filter x_direct p) || negb (is_base p) then Raise ValueError else
  match p with
  | PBin op lhs rhs =>
      rbind (unwrap_expr lhs) (fun l => rbind (unwrap_expr rhs) (fun r =>
      let '(a, b) := match l with UCol _ => (l, r) | UVal _ => (r, l) end in
      match a with UCol c => Ok (SBin c op b) | UVal _ => Raise AssertionError end))
  | PBetween lhs lo hi =>
      rbind (unwrap_expr lhs) (fun l => rbind (unwrap_expr lo) (fun lo' => rbind (unwrap_expr hi) (fun hi' =>
      match l with UCol c => Ok (SBetween c lo' hi') | UVal _ => Raise AssertionError end)))
  | PIn lhs vs =>
      rbind (unwrap_expr lhs) (fun l => rbind (lmapM unwrap_expr vs) (fun vs' =>
      match l with UCol c => Ok (SIn c vs') | UVal _ => Raise AssertionError end))
  | _ => Raise ValueError
  end.
(** SimpleFilter.wrap_all, 3816-3841: ValueErrors are skipped, other exceptions are not caught. *)
Fixpoint wrap_all (ps : list (pred sx)) : res (list simple) :=
  match ps with
  | [] => Ok []
  | p :: r => match wrap_filter p with
              | Ok s => rbind (wrap_all r) (fun l => Ok (s :: l))
              | Raise ValueError => wrap_all r
              | Raise e => Raise e
              end
  end.
(** SimpleFilter.can_wrap, 3789-3814. *)
Definition can_wrap (p : pred sx) : bool := is_ok (wrap_filter p).
