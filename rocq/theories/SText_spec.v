(** How a database system reads explicit joins and set operations: the grammar of SQL, with the precedence and associativity of the
    operators built in (PostgreSQL, gram.y: table_ref, joined_table, select_clause, simple_select). *)
From Coq Require Import List Bool Arith.
From Verif Require Import PyBase Src_model SText_model.
Import ListNotations.
Set Implicit Arguments.

(** ** Joins: CROSS JOIN and NATURAL JOIN are left-associative, the other joins extend up to their ON. *)
Inductive j_prim : list jtok -> jsrc -> Prop :=
| jp_leaf d n : j_prim [TLeaf d n] (JLeaf d n)
| jp_par ts s : j_ref ts s -> j_prim ([TL] ++ ts ++ [TR]) s
with j_ref : list jtok -> jsrc -> Prop :=
| jr_prim ts s : j_prim ts s -> j_ref ts s
| jr_auto ts l us r j : auto_join j = true -> j_ref ts l -> j_prim us r -> j_ref (ts ++ [TJoin j] ++ us) (JJoin l r None j)
| jr_on ts l us r j c : auto_join j = false -> j_ref ts l -> j_ref us r -> j_ref (ts ++ [TJoin j] ++ us ++ [TOn c]) (JJoin l r (Some c) j).
Scheme j_prim_mut := Minimality for j_prim Sort Prop with j_ref_mut := Minimality for j_ref Sort Prop.
Combined Scheme j_mut from j_prim_mut, j_ref_mut.
Definition reads_join (ts : list jtok) (s : jsrc) : Prop := forall s', j_ref ts s' <-> s' = s.

(** The joins that SQL knows: conditions exactly where they are needed. *)
Fixpoint sql_join (s : jsrc) : Prop :=
  match s with JLeaf _ _ => True | JJoin l r c j => sql_join l /\ sql_join r /\ (c = None <-> auto_join j = true) end.
Definition direct (s : jsrc) : bool := match s with JLeaf true _ => true | _ => false end.
Definition is_join (s : jsrc) : bool := match s with JLeaf _ _ => false | JJoin _ _ _ _ => true end.
(** No CROSS JOIN or NATURAL JOIN has a join on its right-hand side (except if it is parenthesised: [par l r]). *)
Fixpoint flat_auto (par : jsrc -> bool) (s : jsrc) : Prop :=
  match s with JLeaf _ _ => True | JJoin l r _ j => flat_auto par l /\ flat_auto par r /\ (auto_join j = true -> is_join r = true -> par l = true) end.

(** What a join means: rows map tables to values, None is NULL. *)
Definition row := list (nat * option nat).
Fixpoint names (s : jsrc) : list nat := match s with JLeaf _ n => [n] | JJoin l r _ _ => names l ++ names r end.
Definition nulls (s : jsrc) : row := map (fun n => (n, None)) (names s).
Section Eval.
  Context (db : nat -> list nat) (cond : nat -> row -> bool).
  Fixpoint eval (s : jsrc) : list row :=
    match s with
    | JLeaf _ n => map (fun v => [(n, Some v)]) (db n)
    | JJoin l r c j =>
        let L := eval l in let R := eval r in
        let ok x := match c with Some k => cond k x | None => true end in
        let both := flat_map (fun a => map (app a) (filter (fun b => ok (a ++ b)) R)) L in
        let lonely := map (fun a => a ++ nulls r) (filter (fun a => negb (existsb (fun b => ok (a ++ b)) R)) L) in
        let ronely := map (fun b => nulls l ++ b) (filter (fun b => negb (existsb (fun a => ok (a ++ b)) L)) R) in
        match j with JOuter => both ++ lonely ++ ronely | JLeft => both ++ lonely | JRight => both ++ ronely | _ => both end
    end.
End Eval.

(** ** Set operations: INTERSECT binds tighter than UNION and EXCEPT, all are left-associative; WITH, ORDER BY and LIMIT belong to the
    whole query unless there are parentheses. *)
Inductive s_prim : list piece -> sq -> Prop :=
| sp_core n : s_prim [PCore n] (SLeaf None n None)
| sp_par ts q : s_full ts q -> s_prim ([PL] ++ ts ++ [PR]) q
with s_inter : list piece -> sq -> Prop :=
| si_prim ts q : s_prim ts q -> s_inter ts q
| si_op ts l us r : s_inter ts l -> s_prim us r -> s_inter (ts ++ [POp Intersect] ++ us) (SSet Intersect l r None None)
with s_union : list piece -> sq -> Prop :=
| su_inter ts q : s_inter ts q -> s_union ts q
| su_op ts l us r op : op <> Intersect -> s_union ts l -> s_inter us r -> s_union (ts ++ [POp op] ++ us) (SSet op l r None None)
with s_full : list piece -> sq -> Prop :=
| sf_core w n o : s_full (p_with w ++ [PCore n] ++ p_tail o) (SLeaf w n o)
| sf_inter w o ts l us r : s_inter ts l -> s_prim us r -> s_full (p_with w ++ (ts ++ [POp Intersect] ++ us) ++ p_tail o) (SSet Intersect l r w o)
| sf_union w o ts l us r op : op <> Intersect -> s_union ts l -> s_inter us r -> s_full (p_with w ++ (ts ++ [POp op] ++ us) ++ p_tail o) (SSet op l r w o)
| sf_par ts q : s_full ts q -> s_full ([PL] ++ ts ++ [PR]) q.
Scheme s_prim_mut := Minimality for s_prim Sort Prop with s_inter_mut := Minimality for s_inter Sort Prop
  with s_union_mut := Minimality for s_union Sort Prop with s_full_mut := Minimality for s_full Sort Prop.
Combined Scheme s_mut from s_prim_mut, s_inter_mut, s_union_mut, s_full_mut.

(** Two words without a blank in between are one word, which is none of the language.  WITH blocks end with a parenthesis. *)
Definition starts_word (p : piece) : bool := match p with PL | PR | PBlank => false | _ => true end.
Definition ends_word (p : piece) : bool := match p with PL | PR | PBlank | PWith _ => false | _ => true end.
Inductive lexes : list piece -> list piece -> Prop :=
| l_nil : lexes [] []
| l_blank ps ts : lexes ps ts -> lexes (PBlank :: ps) ts
| l_last p : p <> PBlank -> lexes [p] [p]
| l_next p p' ps ts : p <> PBlank -> ends_word p && starts_word p' = false -> lexes (p' :: ps) ts -> lexes (p :: p' :: ps) (p :: ts).
(** The text is read as [q] and nothing else. *)
Definition reads_set (ps : list piece) (q : sq) : Prop := exists ts, lexes ps ts /\ forall q', s_full ts q' <-> q' = q.
Definition unreadable (ps : list piece) : Prop := forall ts q, lexes ps ts -> ~ s_full ts q.

(** Trees that need no parentheses. *)
Definition bare (q : sq) : Prop := match q with SLeaf w _ o | SSet _ _ _ w o => w = None /\ o = None end.
Definition op_of (q : sq) : option setop := match q with SLeaf _ _ _ => None | SSet op _ _ _ _ => Some op end.
Fixpoint left_deep (q : sq) : Prop :=
  match q with
  | SLeaf _ _ _ => True
  | SSet op l r _ _ => bare l /\ bare r /\ left_deep l /\ left_deep r
      /\ (op = Intersect -> (op_of l = None \/ op_of l = Some Intersect) /\ op_of r = None)
      /\ (op <> Intersect -> op_of r = None \/ op_of r = Some Intersect)
  end.

(** The rows of a set query (without ORDER BY and LIMIT, duplicates not counted). *)
Fixpoint has_row (db : nat -> nat -> bool) (q : sq) (x : nat) : bool :=
  match q with
  | SLeaf _ n _ => db n x
  | SSet Union l r _ _ | SSet UnionAll l r _ _ => has_row db l x || has_row db r x
  | SSet Intersect l r _ _ => has_row db l x && has_row db r x
  | SSet Except l r _ _ => has_row db l x && negb (has_row db r x)
  end.
