(** Model of move_into_subquery, postbound/transform.py 483-497, 519-638.

    Tables and column names are numbers.  Expressions are columns and functions; renaming columns in them is
    rename_columns_in_expression (1429-1598) for the expressions it supports.  [q_rest] are the expressions of all clauses other than FROM
    and WHERE; these clauses keep their type and only have their columns renamed (631-637, C16).  A DirectTableSource around another table
    source ([IWrap]) is what ImplicitFromClause.create_for (qal/_qal.py 7035-7054) makes of a table source. *)
From Coq Require Import List Bool Arith.
From Verif Require Import PyBase Pred_model Trans_model.
Import ListNotations.

Inductive xpr := XCol (c : col) | XFun (n : nat) (args : list xpr).
Fixpoint xcols (e : xpr) : list col := match e with XCol c => [c] | XFun _ l => flat_map xcols l end.
Fixpoint ren_e (f : col -> col) (e : xpr) : xpr := match e with XCol c => XCol (f c) | XFun n l => XFun n (map (ren_e f) l) end.
Lemma xpr_ind' (P : xpr -> Prop) (Hc : forall c, P (XCol c)) (Hf : forall n l, Forall P l -> P (XFun n l)) : forall e, P e.
Proof. fix IH 1. intros [c|n l]; [apply Hc|]. apply Hf. induction l; constructor; [apply IH|assumption]. Qed.
#[global] Instance EqD_xpr : EqD xpr.
Proof.
  unfold EqD. fix IH 1. intros [c|n l] [d|m k]; try (right; discriminate).
  - destruct (eqd c d); [left|right]; congruence.
  - destruct (Nat.eq_dec n m); [|right; congruence].
    assert ({l = k} + {l <> k}) as [->|]; [|left; congruence|right; congruence].
    revert k. induction l as [|x r IHr]; intros [|y s]; [left; reflexivity|right; discriminate..|].
    destruct (IH x y); [|right; congruence]. destruct (IHr s); [left; congruence|right; congruence].
Defined.
Notation prd := (pred xpr).

(** The subquery: SELECT s_cols FROM s_from WHERE s_where *)
Record subq := mksub { s_cols : list col; s_from : list tbl; s_where : option prd }.
Inductive item := IDirect (t : tbl) | IJoin (l r : item) (c : option prd) | ISub (s : subq) (name : tbl) | IWrap (i : item).
Record query := mkq { q_rest : list xpr; q_from : list item; q_where : option prd }.

Definition olist {A} (o : option A) : list A := match o with Some x => [x] | None => [] end.
(** CompoundPredicate.create_and of a list that may be empty *)
Definition and_opt (l : list prd) : option prd := match l with [] => None | [p] => Some p | _ => Some (PAnd l) end.

(** TableSource.tables(), qal/_qal.py 6242, 6397, 6859.  [inr] is an element that is a table source instead of a TableReference. *)
Fixpoint item_tables (i : item) : list (tbl + item) :=
  match i with
  | IDirect t => [inl t]
  | IJoin l r _ => item_tables l ++ item_tables r
  | ISub s name => map inl (s_from s) ++ [inl name]
  | IWrap j => [inr j]
  end.
(** TableSource.predicates(), 6254, 6409, 6884-6900 *)
Fixpoint item_pred (i : item) : option prd :=
  match i with
  | IDirect _ | IWrap _ => None
  | ISub s _ => s_where s
  | IJoin l r c => and_opt (olist (item_pred l) ++ olist (item_pred r) ++ olist c)
  end.
(** SqlQuery.predicates(), 8803-8833, with From.predicates 6988-6996 and QueryPredicates.and_ 4702-4741 *)
Definition q_pred (q : query) : option prd :=
  and_opt (olist (q_where q) ++ olist (and_opt (flat_map (fun i => olist (item_pred i)) (q_from q)))).

(** clause.columns() of the clauses other than FROM, transform.py 572-574 *)
Definition q_cols (q : query) : list col := flat_map xcols (q_rest q) ++ flat_map (pcols xcols) (olist (q_where q)).
(** SqlQuery.tables(), 8700-8729 *)
Definition ctabs_all (cs : list col) : list tbl := flat_map (fun c => olist (c_tab c)) cs.
Definition q_tables (q : query) : list (tbl + item) := flat_map item_tables (q_from q) ++ map inl (ctabs_all (q_cols q)).

Section Move.
  Context (virtual : tbl -> bool).
  (** [ord l]: the elements of the set of the predicates in [l], in some order (filters(), joins() and 4926-4937); [ts]: the set of tables in its iteration order, [name]: the name of the
      subquery (585). *)
  Context (ord : list prd -> list prd) (ts : list tbl) (name : tbl).

  (** 592-600 *)
  Definition sub_preds (p : option prd) : res (list prd) :=
    match p with
    | None => Ok []
    | Some p =>
        rbind (query_predicates xcols (ord (collect_joins xcols p)) (ptabs xcols p)) (fun m =>
          Ok (flat_map (fun t => olist (and_opt (filters_for xcols (ord (collect_filters xcols p)) t))) ts
              ++ olist (and_opt (ord (map_joins_between m ts ts)))))
    end.
  (** 621-623 *)
  Definition remove_all (ps : list prd) (w : option prd) : option prd :=
    fold_left (fun w x => match w with Some w => remove_pred x w | None => None end) ps w.
  (** [table_source.tables() < tables], 616 *)
  Definition inside (i : item) : bool :=
    forallb (fun t => match t with inl t => mem t ts | inr _ => false end) (item_tables i)
    && existsb (fun t => negb (existsb (fun u => match u with inl u => deqb t u | inr _ => false end) (item_tables i))) ts.

  Definition move (q : query) : res query :=
    match q_from q with
    | [] => Raise ValueError
    | _ =>
        (* table.virtual does not exist for table sources *)
        if existsb (fun t => match t with inl t => virtual t | inr _ => false end) (q_tables q) then Raise ValueError
        else if existsb (fun t => match t with inl _ => false | inr _ => true end) (q_tables q) then Raise AttributeError
        else if length ts <? 2 then Raise ValueError
        else
          rbind (sub_preds (q_pred q)) (fun sp =>
          let cols := filter (fun c => match c_tab c with Some t => mem t ts | None => false end) (dedup (q_cols q)) in
          if length (dedup (map c_name cols)) <? length cols then Raise ValueError
          else match cols with
          | [] => Raise ValueError                       (* Select.create_for, _qal.py 5965-5966 *)
          | _ =>
              let ren c := if mem c cols then mkcol (Some name) (c_name c) else c in
              let sub := mksub cols ts (and_opt sp) in
              Ok (mkq (map (ren_e ren) (q_rest q))
                      (map IWrap (filter (fun i => negb (inside i)) (q_from q)) ++ [IWrap (ISub sub name)])
                      (option_map (rename_pred (ren_e ren)) (remove_all sp (q_where q))))
          end)
    end.
End Move.
