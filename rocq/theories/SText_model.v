(** The text of explicit joins and of set queries.

    postbound/qal/_qal.py 6672-6753, 6917-6920   JoinType, JoinTableSource.__init__, JoinTableSource.__str__
    postbound/qal/_qal.py 7782-7786, 7861-7864, 7956-7959   UnionClause.__str__, ExceptClause.__str__, IntersectClause.__str__
    postbound/qal/_qal.py 8038-8056, 9776-9817, 9948-9970   _stringify_clause, SetQuery.clauses, SetQuery.stringify
    postbound/qal/_formatter.py 336-428          _quick_format_tablesource
    postbound/qal/_formatter.py 927-997          _quick_format_set_query

    Simplifications.  Join conditions, table sources other than joins, WITH blocks and plain SELECT statements are opaque and
    printed as one piece of text: table sources other than joins start and end with a name or a parenthesis, conditions stand for
    themselves.  Indentation and line breaks are blanks; for joins (where every piece is separated) they are left out altogether.
    ORDER BY and LIMIT are one piece, EXPLAIN is added by its own function.  Hint blocks are comments and left out. *)
From Coq Require Import List Bool Arith.
From Verif Require Import PyBase Src_model.
Import ListNotations.
Set Implicit Arguments.

(** ** Joins *)
(** A DirectTableSource ([direct]), another table source that is no join, or a join. *)
Inductive jsrc := JLeaf (direct : bool) (name : nat) | JJoin (l r : jsrc) (cond : option nat) (j : jtype).
(** JoinTableSource.__init__, 6734-6753 *)
Definition mk_join (l r : jsrc) (cond : option nat) (j : jtype) : res jsrc :=
  match cond with
  | None => if auto_join j then Ok (JJoin l r None JCross) else Raise ValueError
  | Some c => Ok (JJoin l r (Some c) j)
  end.
Inductive jtok := TLeaf (direct : bool) (name : nat) | TJoin (j : jtype) | TOn (c : nat) | TL | TR.
(** JoinTableSource.__str__, 6917-6920.  Of the joins that need a condition all have one. *)
Definition on_ (cond : option nat) : list jtok := match cond with Some c => [TOn c] | None => [] end.
Fixpoint str_join (s : jsrc) : list jtok :=
  match s with
  | JLeaf d n => [TLeaf d n]
  | JJoin l r cond j => if auto_join j then str_join l ++ [TJoin j] ++ str_join r else str_join l ++ [TJoin j] ++ str_join r ++ on_ cond
  end.
(** _quick_format_tablesource, 336-428: the four cases of a join *)
Fixpoint quick_join (s : jsrc) : list jtok :=
  match s with
  | JLeaf d n => [TLeaf d n]
  | JJoin l r cond j =>
      match l, r with
      | JLeaf true a, JLeaf true b => [TLeaf true a; TJoin j; TLeaf true b] ++ on_ cond
      | JJoin _ _ _ _, JLeaf true b => quick_join l ++ [TJoin j; TLeaf true b] ++ on_ cond
      | JLeaf true a, JJoin _ _ _ _ => [TLeaf true a; TJoin j; TL] ++ quick_join r ++ [TR] ++ on_ cond
      | _, _ => quick_join l ++ [TJoin j] ++ quick_join r ++ on_ cond
      end
  end.

(** ** Set queries *)
(** A SELECT statement with its WITH block and ORDER BY / LIMIT, or a set query with both. *)
Inductive sq := SLeaf (w : option nat) (core : nat) (o : option nat) | SSet (op : setop) (l r : sq) (w o : option nat).
Inductive piece := PWith (n : nat) | PCore (n : nat) | POp (op : setop) | PTail (n : nat) | PExplain | PL | PR | PBlank.
Definition p_with (w : option nat) : list piece := match w with Some n => [PWith n] | None => [] end.
Definition p_tail (o : option nat) : list piece := match o with Some n => [PTail n] | None => [] end.
(** SqlQuery.stringify, 9118-9137: the clauses, separated by blanks; SetQuery.stringify, 9948-9970: [rstrip("; ")] removes the
    blank that _stringify_clause puts behind each clause. *)
Fixpoint str_set (q : sq) : list piece :=
  match q with
  | SLeaf w n o => (match w with Some k => [PWith k; PBlank] | None => [] end) ++ [PCore n] ++ (match o with Some k => [PBlank; PTail k] | None => [] end)
  | SSet op l r w o => p_with w ++ (str_set l ++ [PBlank; POp op; PBlank] ++ str_set r) ++ p_tail o
  end.
(** The same for a query with an EXPLAIN block in front, 9797, 8938 *)
Definition str_explain (q : sq) : list piece :=
  match q with SLeaf _ _ _ => [PExplain; PBlank] ++ str_set q | SSet _ _ _ _ _ => [PExplain] ++ str_set q end.
(** _quick_format_set_query, 927-997 *)
Fixpoint quick_set (q : sq) : list piece :=
  match q with
  | SLeaf w n o => (match w with Some k => [PWith k; PBlank] | None => [] end) ++ [PCore n] ++ (match o with Some k => [PBlank; PTail k] | None => [] end)
  | SSet op l r w o =>
      (match w with Some k => [PWith k; PBlank] | None => [] end)
      ++ [PL] ++ quick_set l ++ [PR; PBlank; POp op; PBlank; PL] ++ quick_set r ++ [PR] ++ (match o with Some k => [PBlank; PTail k] | None => [] end)
  end.
Definition quick_explain (q : sq) : list piece := [PExplain; PBlank] ++ quick_set q.
