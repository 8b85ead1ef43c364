(** What renaming or merging tables should do: replace the tables wherever they are mentioned. *)
From Coq Require Import List Bool Arith.
From Verif Require Import PyBase RTab_model.
Import ListNotations.

Section All.
  Context {A : Type} (P : A -> Prop).
  Fixpoint All (l : list A) : Prop := match l with [] => True | x :: r => P x /\ All r end.
  Definition AllO (o : option A) : Prop := match o with Some x => P x | None => True end.
End All.

(** ** Substitution: [f] replaces tables, [h] replaces columns.
    A comma separated FROM clause does not mention the same table twice: the first mention is kept. *)
Fixpoint uniq (seen : list tref) (ts : list tref) : list tref :=
  match ts with
  | [] => []
  | t :: r => if mem t seen then uniq seen r else t :: uniq (t :: seen) r
  end.
Definition direct_tables (ss : list source) : list tref := flat_map (fun s => match s with SDirect t => [t] | _ => [] end) ss.

Definition sub_name (f : tref -> tref) (n : nat) : nat := ident (f (virt n)).
Fixpoint sub_e (f : tref -> tref) (h : col -> col) (e : expr) : expr :=
  match e with
  | ECol c => ECol (h c)
  | EStar t => EStar (option_map f t)
  | ENode k es => ENode k (map (sub_e f h) es)
  | EFilt g p => EFilt (sub_e f h g) (sub_e f h p)
  | EWin es ord => EWin (map (sub_e f h) es) (map (sub_e f h) ord)
  | ESub q => ESub (sub_q f h q)
  | EBroken es => EBroken (map (sub_e f h) es)
  end
with sub_s (f : tref -> tref) (h : col -> col) (s : source) : source :=
  match s with
  | SDirect t => SDirect (f t)
  | SSub q n => SSub (sub_q f h q) (option_map (sub_name f) n)
  | SJoin k l r c => SJoin k (sub_s f h l) (sub_s f h r) (option_map (sub_e f h) c)
  end
with sub_c (f : tref -> tref) (h : col -> col) (c : clause) : clause :=
  match c with
  | CSelect ts don => CSelect (map (sub_e f h) ts) (map (sub_e f h) don)
  | CFrom FImplicit ss => CFrom FImplicit (map SDirect (uniq [] (map f (direct_tables ss))))
  | CFrom k ss => CFrom k (map (sub_s f h) ss)
  | CCond k p => CCond k (sub_e f h p)
  | CGroup es => CGroup (map (sub_e f h) es)
  | COrder es => COrder (map (sub_e f h) es)
  | COther n => COther n
  | CWith l => CWith (map (fun p => (sub_q f h (fst p), sub_name f (snd p))) l)
  | CSet k l r => CSet k (sub_q f h l) (sub_q f h r)
  end
with sub_q (f : tref -> tref) (h : col -> col) (q : query) : query := match q with Query cs => Query (map (sub_c f h) cs) end.

(** [from] becomes [to]; each of [tables] becomes [to]; columns follow their tables. *)
Definition one (from to t : tref) : tref := if eqd t from then to else t.
Definition many (tables : list tref) (to t : tref) : tref := if mem t tables then to else t.
Definition follow (f : tref -> tref) (c : col) : col := mkcol (cn c) (option_map f (ct c)).
(** With prefix_column_names, the columns of the renamed table also get the identifier of that table as a prefix. *)
Definition follow_prefixed (pre : nat -> nat -> nat) (from to : tref) (c : col) : col :=
  if eqd (ct c) (Some from) then mkcol (pre (ident from) (cn c)) (Some to) else c.

(** ** All columns and all tables that are mentioned (also as the name of a subquery or of a common table expression) *)
Definition ocat {A B} (g : A -> list B) (o : option A) : list B := match o with Some x => g x | None => [] end.
Fixpoint cols_e (e : expr) : list col :=
  match e with
  | ECol c => [c]
  | EStar _ => []
  | ENode _ es | EBroken es => flat_map cols_e es
  | EFilt g p => cols_e g ++ cols_e p
  | EWin es ord => flat_map cols_e es ++ flat_map cols_e ord
  | ESub q => cols_q q
  end
with cols_s (s : source) : list col :=
  match s with
  | SDirect _ => []
  | SSub q _ => cols_q q
  | SJoin _ l r c => cols_s l ++ cols_s r ++ ocat cols_e c
  end
with cols_c (c : clause) : list col :=
  match c with
  | CSelect ts don => flat_map cols_e ts ++ flat_map cols_e don
  | CFrom _ ss => flat_map cols_s ss
  | CCond _ p => cols_e p
  | CGroup es | COrder es => flat_map cols_e es
  | COther _ => []
  | CWith l => flat_map (fun p => cols_q (fst p)) l
  | CSet _ l r => cols_q l ++ cols_q r
  end
with cols_q (q : query) : list col := match q with Query cs => flat_map cols_c cs end.

Fixpoint refs_e (e : expr) : list tref :=
  match e with
  | ECol c => ocat (fun t => [t]) (ct c)
  | EStar t => ocat (fun t => [t]) t
  | ENode _ es | EBroken es => flat_map refs_e es
  | EFilt g p => refs_e g ++ refs_e p
  | EWin es ord => flat_map refs_e es ++ flat_map refs_e ord
  | ESub q => refs_q q
  end
with refs_s (s : source) : list tref :=
  match s with
  | SDirect t => [t]
  | SSub q n => refs_q q ++ ocat (fun n => [virt n]) n
  | SJoin _ l r c => refs_s l ++ refs_s r ++ ocat refs_e c
  end
with refs_c (c : clause) : list tref :=
  match c with
  | CSelect ts don => flat_map refs_e ts ++ flat_map refs_e don
  | CFrom _ ss => flat_map refs_s ss
  | CCond _ p => refs_e p
  | CGroup es | COrder es => flat_map refs_e es
  | COther _ => []
  | CWith l => flat_map (fun p => refs_q (fst p) ++ [virt (snd p)]) l
  | CSet _ l r => refs_q l ++ refs_q r
  end
with refs_q (q : query) : list tref := match q with Query cs => flat_map refs_c cs end.

(** ** The queries for which renaming the tables [olds] to [to] works: no ORDER BY, set operation, DISTINCT ON, FILTER, quantifier, simple CASE,
    array access or longer arithmetic.  In comma separated FROM clauses, tables have different identifiers, and the identifier of [to] is used for
    [to] itself only, or for the single table that is renamed.  Other FROM clauses ([ex]) do not use the identifier of [to] at all, their subqueries have
    names, and mention no column of the renamed table. *)
Fixpoint ok_e (ex : bool) (olds : list tref) (to : tref) (e : expr) : Prop :=
  match e with
  | ECol _ | EStar _ => True
  | ENode (KPlain _) es => All (ok_e ex olds to) es
  | EWin es ord => All (ok_e ex olds to) es /\ ord = []
  | ESub q => ok_q ex olds to q
  | _ => False
  end
with ok_s (ex : bool) (olds : list tref) (to : tref) (s : source) : Prop :=
  match s with
  | SDirect _ => True
  | SSub q n => ok_q ex olds to q /\ (forall c t, In c (cols_q q) -> In t olds -> ct c <> Some t)
                /\ exists m, n = Some m /\ forall t, In t olds -> ident t = m -> t = virt m
  | SJoin _ l r c => (ok_s ex olds to) l /\ (ok_s ex olds to) r /\ AllO (ok_e ex olds to) c
  end
with ok_c (ex : bool) (olds : list tref) (to : tref) (c : clause) : Prop :=
  match c with
  | CSelect ts don => All (ok_e ex olds to) ts /\ don = []
  | CFrom FImplicit ss => ss = map SDirect (direct_tables ss) /\ ss <> [] /\ NoDup (map ident (direct_tables ss))
                          /\ forall t, In t (direct_tables ss) -> ident t = ident to -> t = to \/ olds = [t]
  | CFrom _ ss => ex = true /\ All (ok_s ex olds to) ss /\ forall t, In t (flat_map refs_s ss) -> ident t <> ident to
  | CCond _ p => ok_e ex olds to p
  | CGroup es => All (ok_e ex olds to) es
  | COrder _ => False
  | COther _ => True
  | CWith l => All (fun p => ok_q ex olds to (fst p)) l
  | CSet _ _ _ => False
  end
with ok_q (ex : bool) (olds : list tref) (to : tref) (q : query) : Prop := match q with Query cs => All (ok_c ex olds to) cs end.
