(** Model of the translation of SQL queries to relational algebra, postbound/relalg.py.

    Covered are queries over base tables (FROM lists, no explicit joins, which the code rejects, 3519-3522), WHERE, GROUP BY,
    HAVING, ORDER BY and SELECT without nested subqueries, common table expressions and window functions, and set operations
    between such queries.  The links between a node and its parent, which do not affect the structure of the tree, are the
    subject of [RelMut_model].

    Python sets are lists here.  Where the code iterates over a set of predicates or of nodes, the order is given by the
    arbitrary functions [ordp] and [ordn]. *)
From Coq Require Import List Bool Arith.
From Verif Require Import PyBase Pred_model.
Import ListNotations.

(** The expressions with arguments: functions (FunctionExpression, standard aggregates separately, _qal.py 966-976), arithmetic
    (with at most two arguments, see C05 for the rest), casts, CASE, ANY/ALL, arrays, and everything the parser does not know
    (predicates used as expressions). *)
Inductive rkind := KFun (f : nat) | KAgg (f : nat) | KMath (op : nat) | KCast (ty : nat) | KCase | KQuant (all : bool) | KArr | KOther (n : nat).
(** Literals, [*], columns and expressions with arguments ([iterchildren()]). *)
Inductive rx := RVal (v : nat) | RStar | RCol (c : col) | RApp (k : rkind) (args : list rx).

#[global] Instance EqD_rkind : EqD rkind.
Proof. intros a b. unfold EqD in *. decide equality; apply eqd. Defined.
#[global] Instance EqD_rx : EqD rx.
Proof.
  unfold EqD. fix IH 1. intros [v| |c|k l] [v'| |c'|k' l']; try (right; discriminate).
  - destruct (eqd v v'); [left|right]; congruence.
  - left; reflexivity.
  - destruct (eqd c c'); [left|right]; congruence.
  - destruct (eqd k k'); [|right; congruence].
    assert ({l = l'} + {l <> l'}) as [->|]; [|left; congruence|right; congruence].
    revert l'. induction l as [|x r IHr]; intros [|y s]; [left; reflexivity|right; discriminate..|].
    destruct (IH x y); [|right; congruence]. destruct (IHr s); [left; congruence|right; congruence].
Defined.

Lemma rx_ind2 (P : rx -> Prop) (Hv : forall v, P (RVal v)) (Hs : P RStar) (Hc : forall c, P (RCol c))
  (Ha : forall k l, Forall P l -> P (RApp k l)) : forall e, P e.
Proof.
  fix IH 1. intros [v| |c|k l]; [apply Hv|apply Hs|apply Hc|]. apply Ha. induction l; constructor; [apply IH|assumption].
Qed.

(** columns(), _qal.py 266-1000. *)
Fixpoint xcols (e : rx) : list col :=
  match e with RCol c => [c] | RApp _ l => flat_map xcols l | _ => [] end.
Notation xtabs := (etabs xcols).
Notation rpred := (pred rx).
Notation rptabs := (ptabs xcols).

(** iterexpressions() of a predicate, _qal.py 2595, 2757, 2923, 3056, 3323. *)
Fixpoint pexprs (p : rpred) : list rx :=
  match p with
  | PBin _ a b => [a; b]
  | PBetween a lo hi => [a; lo; hi]
  | PIn a vs => a :: vs
  | PUn _ a => [a]
  | PNot q => pexprs q
  | PAnd ps | POr ps => flat_map pexprs ps
  end.

Definition is_agg (e : rx) : bool := match e with RApp (KAgg _) _ => true | _ => false end.
(** _needs_mapping, 2754-2770. *)
Definition needs_mapping (e : rx) : bool := match e with RVal _ | RStar => false | _ => true end.
(** _collect_all_expressions, 3128-3156; [collect_all_t] is the variant for the arguments of aggregates. *)
Fixpoint collect_all (e : rx) : list rx :=
  if is_agg e then [e]
  else filter needs_mapping (e :: match e with RApp _ l => flat_map collect_all l | _ => [] end).
Definition collect_all_t (e : rx) : list rx :=
  filter needs_mapping (e :: match e with RApp _ l => flat_map collect_all l | _ => [] end).

(** EvaluationPhase, 2813-2826. *)
Definition BaseTable := 1.
Definition Join := 2.
Definition PostJoin := 3.
Definition PostAggregation := 4.

(** [max] of a generator: fails for an empty one. *)
Fixpoint rmax (l : list (res nat)) : res nat :=
  match l with
  | [] => Raise ValueError
  | [x] => x
  | x :: r => rbind x (fun a => rbind (rmax r) (fun b => Ok (Nat.max a b)))
  end.

(** _SubqueryDetector, 2866-2957, on expressions without subqueries: it only can fail, since [functools.reduce] does for an
    expression without children. *)
Fixpoint detect (e : rx) : res unit :=
  match e with
  | RApp _ [] => Raise TypeError
  | RApp _ l => (fix go l := match l with [] => Ok tt | x :: r => rbind (detect x) (fun _ => go r) end) l
  | _ => Ok tt
  end.
Definition pdetect (p : rpred) : res unit := rbind (rmapM detect (pexprs p)) (fun _ => Ok tt).

(** _determine_expression_phase, 3159-3197. *)
Fixpoint expr_phase (e : rx) : res nat :=
  match e with
  | RVal _ | RStar | RCol _ => Ok BaseTable
  | RApp (KAgg _) _ => Ok PostAggregation
  | RApp (KOther _) _ => Raise ValueError
  | RApp _ l =>
      rbind (rmax (map expr_phase l)) (fun child => Ok (Nat.max (if many (xtabs e) then Join else BaseTable) child))
  end.

(** _determine_predicate_phase, 3200-3236. *)
Definition is_bin (p : rpred) : bool := match p with PBin _ _ _ => true | _ => false end.
Definition pred_phase (p : rpred) : res nat :=
  rbind (pdetect p) (fun _ =>
    if length (rptabs p) =? 1 then Ok BaseTable
    else rbind (rmax (map expr_phase (filter needs_mapping (pexprs p)))) (fun ph =>
      if Join <? ph then Ok ph else Ok (if is_bin p then Join else PostJoin))).

(** _filter_eval_phase, 3239-3285. *)
Fixpoint keep_phase (ps : list rpred) (ph : nat) : res (list rpred) :=
  match ps with
  | [] => Ok []
  | q :: r => rbind (pred_phase q) (fun x => rbind (keep_phase r ph) (fun l => Ok (if x =? ph then q :: l else l)))
  end.
Definition filter_phase (p : rpred) (ph : nat) : res (option rpred) :=
  rbind (pred_phase p) (fun x =>
    if x <? ph then Ok None
    else match p with
         | PAnd ps => rbind (keep_phase ps ph) (fun l => match l with [] => Ok None | _ => rmap Some (create_and l) end)
         | _ => Ok (if x =? ph then Some p else None)
         end).

(** RelNode and its subclasses Relation 1004, Selection 449, CrossProduct 559, ThetaJoin 1139, Map 1781 (the derived expressions of
    its mapping), Grouping 1376 (group columns and aggregates), Sort 1654, Projection 1268, Union 669, Intersection 780, Difference 892,
    DuplicateElimination 1926. *)
Inductive rnode :=
| NRel (t : tbl) (cols : list col)
| NSel (n : rnode) (p : rpred)
| NCross (l r : rnode)
| NTheta (l r : rnode) (p : rpred)
| NMap (n : rnode) (es : list rx)
| NGroup (n : rnode) (gc aggs : list rx)
| NSort (n : rnode) (keys : list (rx * bool))
| NProj (n : rnode) (targets : list rx)
| NUnion (l r : rnode)
| NInter (l r : rnode)
| NDiff (l r : rnode)
| NDup (n : rnode).

(** __eq__ of the nodes: relations are compared by their table only, 1129-1130. *)
Fixpoint node_eqb (a b : rnode) : bool :=
  match a, b with
  | NRel t _, NRel u _ => t =? u
  | NSel n p, NSel m q => node_eqb n m && deqb p q
  | NCross l r, NCross l' r' | NUnion l r, NUnion l' r' | NInter l r, NInter l' r' | NDiff l r, NDiff l' r' => node_eqb l l' && node_eqb r r'
  | NTheta l r p, NTheta l' r' q => node_eqb l l' && node_eqb r r' && deqb p q
  | NMap n es, NMap m fs => node_eqb n m && seteqb es fs
  | NGroup n gc ag, NGroup m gc' ag' => node_eqb n m && deqb gc gc' && seteqb ag ag'
  | NSort n ks, NSort m ks' => node_eqb n m && deqb ks ks'
  | NProj n ts, NProj m ts' => node_eqb n m && deqb ts ts'
  | NDup n, NDup m => node_eqb n m
  | _, _ => false
  end.
(** A Python set of nodes built from a list: the first one of equal nodes is kept. *)
Fixpoint ndedup_from (seen l : list rnode) : list rnode :=
  match l with
  | [] => []
  | x :: r => if existsb (node_eqb x) seen then ndedup_from seen r else x :: ndedup_from (x :: seen) r
  end.
Definition ndedup (l : list rnode) : list rnode := ndedup_from [] l.

(** tables(), 179-199 and 1071-1074. *)
Fixpoint ntabs (n : rnode) : list tbl :=
  match n with
  | NRel t _ => [t]
  | NSel m _ | NMap m _ | NGroup m _ _ | NSort m _ | NProj m _ | NDup m => ntabs m
  | NCross l r | NTheta l r _ | NUnion l r | NInter l r | NDiff l r => ntabs l ++ ntabs r
  end.
(** provided_expressions(), 201-212, 1076-1077, 1453-1455, 1849-1852. *)
Fixpoint provided (n : rnode) : list rx :=
  match n with
  | NRel _ cs => map RCol cs
  | NSel m _ | NSort m _ | NProj m _ | NDup m => provided m
  | NMap m es => provided m ++ es
  | NGroup _ gc ag => gc ++ ag
  | NCross l r | NTheta l r _ | NUnion l r | NInter l r | NDiff l r => provided l ++ provided r
  end.

(** A query block.  An empty GROUP BY or ORDER BY list stands for the absence of the clause, [None] in SELECT for [SELECT *]. *)
Record squery := mksel { q_from : list tbl; q_where : option rpred; q_group : list rx; q_having : option rpred;
                         q_order : list (rx * bool); q_select : option (list rx); q_distinct : bool; q_limit : option nat }.
Inductive setop := SUnion | SUnionAll | SIntersect | SExcept.
Inductive query := QSel (q : squery) | QSet (op : setop) (l r : query) (order : list (rx * bool)).

(** SqlQuery.columns() / SetQuery.columns(): the columns of all clauses. *)
Definition opt_pcols (o : option rpred) : list col := match o with Some p => pcols xcols p | None => [] end.
Definition sel_cols (q : squery) : list col :=
  opt_pcols (q_where q) ++ flat_map xcols (q_group q) ++ opt_pcols (q_having q)
  ++ flat_map (fun k => xcols (fst k)) (q_order q) ++ match q_select q with Some ts => flat_map xcols ts | None => [] end.
Fixpoint qcols (q : query) : list col :=
  match q with
  | QSel s => sel_cols s
  | QSet _ l r order => qcols l ++ qcols r ++ flat_map (fun k => xcols (fst k)) order
  end.

Section Parser.
  Context (ordp : list rpred -> list rpred) (ordn : list rnode -> list rnode).

  (** The calculation of missing expressions: _ensure_predicate_applicability 4191-4221 and its many inlined copies. *)
  Definition missing (required prov : list rx) : list rx := dedup (filter (fun e => negb (mem e prov)) required).
  Definition with_map (n : rnode) (required : list rx) : rnode :=
    match missing required (provided n) with [] => n | es => NMap n es end.
  Definition pneeds (p : rpred) : list rx := flat_map collect_all (pexprs p).
  (** _convert_predicate, 3742-3929, for predicates without subqueries. *)
  Definition convert_predicate (p : rpred) (n : rnode) : rnode := NSel (with_map n (pneeds p)) p.

  (** _BaseTableLookup.__call__, 3116-3125: without subqueries, everything but a single table ends in an error. *)
  Definition base_lookup (p : rpred) : res tbl :=
    if is_join xcols p then Raise ValueError else match rptabs p with [t] => Ok t | _ => Raise ValueError end.

  (** _split_filter_predicate, 4138-4172. *)
  Definition raw_add (acc : dict tbl (list rpred)) (e : tbl * rpred) : dict tbl (list rpred) :=
    dset acc (fst e) (match dget acc (fst e) with Some l => l | None => [] end ++ [snd e]).
  Fixpoint build_ands (raw : dict tbl (list rpred)) : res (list (tbl * rpred)) :=
    match raw with
    | [] => Ok []
    | (t, ps) :: r => rbind (create_and (ordp (dedup ps))) (fun p => rbind (build_ands r) (fun d => Ok ((t, p) :: d)))
    end.
  Fixpoint split_filter (p : rpred) : res (list (tbl * rpred)) :=
    if is_filter xcols p then
      match p with
      | PAnd ps =>
          rbind ((fix go l acc :=
                    match l with
                    | [] => Ok acc
                    | q :: r => rbind (split_filter q) (fun d => go r (fold_left raw_add d acc))
                    end) ps [])
                build_ands
      | _ => rbind (base_lookup p) (fun t => Ok [(t, p)])
      end
    else Raise ValueError.
  (** _split_join_predicate, 4174-4189. *)
  Definition split_join (p : rpred) : res (list rpred) :=
    if is_join xcols p then Ok (match p with PAnd ps => ordp (dedup ps) | _ => [p] end) else Raise ValueError.

  (** _add_expression, 4052-4122, and _ensure_expression_applicability, 4223-4252. *)
  Definition add_expression (e : rx) (n : rnode) : res rnode :=
    if mem e (provided n) then Ok n
    else match e with
         | RCol _ | RVal _ => Ok n
         | RApp (KFun _) l | RApp (KAgg _) l | RApp (KMath _) l | RApp (KCast _) l | RApp KCase l => Ok (with_map n (flat_map collect_all l))
         | _ => Raise ValueError
         end.

  (** _convert_join_predicate, 3931-4050. *)
  Definition frags := dict tbl rnode.
  Definition resolve (f : frags) (t : tbl) : res rnode := match dget f t with Some n => Ok n | None => Raise KeyError end.
  Fixpoint distribute (es : list rx) (l r : rnode) : res (list rx * list rx) :=
    match es with
    | [] => Ok ([], [])
    | e :: es' =>
        if subsetb (xtabs e) (ntabs l) then rbind (distribute es' l r) (fun '(a, b) => Ok (e :: a, b))
        else if subsetb (xtabs e) (ntabs r) then rbind (distribute es' l r) (fun '(a, b) => Ok (a, e :: b))
        else Raise ValueError
    end.
  Definition map_if (n : rnode) (es : list rx) : rnode := match es with [] => n | _ => NMap n es end.
  Definition join_nodes (p : rpred) (a b : rx) (l r : rnode) : res rnode :=
    rbind (add_expression a l) (fun l1 =>
    rbind (add_expression b r) (fun r1 =>
    rbind (distribute (missing (pneeds p) (provided l1 ++ provided r1)) l1 r1) (fun '(el, er) =>
      Ok (NTheta (map_if l1 el) (map_if r1 er) p)))).
  Definition convert_join (f : frags) (p : rpred) : res rnode :=
    rbind (rmapM (resolve f) (rptabs p)) (fun ns =>
      match ordn (ndedup ns) with
      | [n] => Ok (NSel (with_map n (pneeds p)) p)
      | [x; y] =>
          match p with
          | PBin _ a b =>
              if subsetb (xtabs a) (ntabs x) && subsetb (xtabs b) (ntabs y) then join_nodes p a b x y
              else if subsetb (xtabs a) (ntabs y) && subsetb (xtabs b) (ntabs x) then join_nodes p a b y x
              else Raise ValueError
          | _ => Raise ValueError                                      (* compound predicates never belong to the join phase *)
          end
      | _ => Raise ValueError
      end).

  (** _add_predicate, 3668-3740, per phase. *)
  Fixpoint apply_base (d : list (tbl * rpred)) (f : frags) : res frags :=
    match d with
    | [] => Ok f
    | (t, p) :: r => rbind (resolve f t) (fun n => apply_base r (dset f t (convert_predicate p n)))
    end.
  Definition base_phase (w : option rpred) (f : frags) : res frags :=
    match w with
    | None => Ok f
    | Some p => rbind (filter_phase p BaseTable) (fun o =>
        match o with None => Ok f | Some q => rbind (split_filter q) (fun d => apply_base d f) end)
    end.
  Definition set_all (f : frags) (n : rnode) : frags := fold_left (fun f t => dset f t n) (ntabs n) f.
  Fixpoint apply_joins (ps : list rpred) (f : frags) : res frags :=
    match ps with
    | [] => Ok f
    | p :: r => rbind (convert_join f p) (fun n => apply_joins r (set_all f n))
    end.
  Definition join_phase (w : option rpred) (f : frags) : res frags :=
    match w with
    | None => Ok f
    | Some p => rbind (filter_phase p Join) (fun o =>
        match o with None => Ok f | Some q => rbind (split_join q) (fun ps => apply_joins ps f) end)
    end.
  Definition late_phase (w : option rpred) (ph : nat) (n : rnode) : res rnode :=
    match w with
    | None => Ok n
    | Some p => rbind (filter_phase p ph) (fun o => Ok (match o with None => n | Some q => convert_predicate q n end))
    end.

  (** _generate_initial_join_order, 3526-3555, without the join predicates themselves. *)
  Definition cross_heads (f : frags) : res rnode :=
    match ordn (ndedup (dvalues f)) with [] => Raise ValueError | n :: r => Ok (fold_left NCross r n) end.

  (** _add_aggregation, 3557-3618. *)
  Fixpoint aggs_of (e : rx) : list rx :=
    if is_agg e then [e] else match e with RApp _ l => flat_map aggs_of l | _ => [] end.
  Definition query_aggs (q : squery) : list rx :=
    dedup (match q_select q with Some ts => flat_map aggs_of ts | None => [] end
           ++ match q_having q with Some h => flat_map aggs_of (pexprs h) | None => [] end).
  Definition args (e : rx) : list rx := match e with RApp _ l => l | _ => [] end.
  Definition add_aggregation (q : squery) (n : rnode) : rnode :=
    match q_group q, query_aggs q with
    | [], [] => n
    | gc, ag => NGroup (with_map n (flat_map (fun a => flat_map collect_all_t (args a)) ag)) gc ag
    end.

  (** _add_ordering, 3653-3666. *)
  Fixpoint add_keys (ks : list (rx * bool)) (n : rnode) : res rnode :=
    match ks with [] => Ok n | k :: r => rbind (add_expression (fst k) n) (add_keys r) end.
  Definition add_ordering (ks : list (rx * bool)) (n : rnode) : res rnode :=
    match ks with [] => Ok n | _ => rmap (fun m => NSort m ks) (add_keys ks n) end.

  (** _add_final_projection, 3620-3651. *)
  Definition final_projection (q : squery) (n : rnode) : rnode :=
    match q_select q with None => n | Some ts => NProj (with_map n (flat_map collect_all ts)) ts end.

  (** The fields of the parser that outlive one query block: fragments and required columns, 3335-3354. *)
  Record state := mkst { st_frags : frags; st_cols : list col }.
  Definition required_cols (cs : list col) (t : tbl) : list col := dedup (filter (fun c => deqb (c_tab c) (Some t)) cs).
  Definition add_tables (cs : list col) (ts : list tbl) (f : frags) : frags :=
    fold_left (fun f t => dset f t (NRel t (required_cols cs t))) ts f.

  (** generate_relnode, 3356-3411. *)
  Definition gen_select (q : squery) (st : state) : res (rnode * state) :=
    let f0 := add_tables (st_cols st) (q_from q) (st_frags st) in
    rbind (base_phase (q_where q) f0) (fun f1 =>
    rbind (join_phase (q_where q) f1) (fun f2 =>
    rbind (cross_heads f2) (fun n1 =>
    rbind (late_phase (q_where q) PostJoin n1) (fun n2 =>
    rbind (late_phase (q_having q) PostAggregation (add_aggregation q n2)) (fun n3 =>
    rbind (add_ordering (q_order q) n3) (fun n4 =>
      Ok (final_projection q n4, mkst f2 (st_cols st)))))))).

  Definition combine (op : setop) (l r : rnode) : rnode :=
    match op with
    | SUnion => NDup (NUnion l r) | SUnionAll => NUnion l r | SIntersect => NInter l r | SExcept => NDiff l r
    end.
  (** _update_query, 3413-3418. *)
  Definition update_query (q : query) (st : state) : state := mkst (st_frags st) (st_cols st ++ qcols q).
  (** _parse_set_query, 3420-3468: both sides are handled by one parser. *)
  Fixpoint generate (q : query) (st : state) : res (rnode * state) :=
    match q with
    | QSel s => gen_select s st
    | QSet op l r order =>
        rbind (generate l (update_query l (mkst [] []))) (fun '(nl, s1) =>
        rbind (generate r (update_query r s1)) (fun '(nr, _) =>
        rbind (add_ordering order (combine op nl nr)) (fun n => Ok (n, st))))
    end.

  (** parse_relalg, 4266-4284, up to the final copy. *)
  Definition parse (q : query) : res rnode := rmap fst (generate q (update_query q (mkst [] []))).
End Parser.
