(* C16, C79: queries as collections of clauses *)
From Coq Require Import List Bool.
From Verif Require Import PyBase Clause_model Clause_spec Clause_proofs.
Import ListNotations.

(* A query to try things on:
   EXPLAIN 1; WITH 2 SELECT 3 FROM (implicit) 4 WHERE 5 ORDER BY 6 LIMIT 7 (PostgreSQL) *)
Definition q1 : query :=
  QSql QImplicit (Some (mkHint 8 9)) (Some (mkSub false 1)) (Some 2) 3 (Some (mkFrom FImplicit 4)) (Some 5) None None
    (Some 6) (Some (mkSub true 7)).
Definition q2 : query := QSql QImplicit None None None 3 None None None None None None.
(* a UNION ALL of two queries *)
Definition q3 : query := QSet OpUnionAll q2 q2 None None None (Some 6) None.

(* ---- C16: round trip ---- *)

Theorem C16_round_trip_partial : forall q, fits q -> build (clauses q) = Ok q.
Proof.
  intros q Hf.
  destruct (build_slots (clauses q) (clause_at q)) as (q' & H1 & H2 & H3).
  - apply last_at_clauses.
  - intros c c'. apply set_unique.
  - apply slots_kind.
  - rewrite H1. f_equal. apply query_slots; [exact H2|exact Hf|].
    intros s. rewrite H3. now apply fits_norm_at.
Qed.
Print Assumptions C16_round_trip_partial.

(* ... and the rebuilt query equals the original in the sense of ==, both ways. *)
Theorem C16_round_trip_equal_partial : forall q, fits q ->
  exists q', build (clauses q) = Ok q' /\ query_eq q q' = true /\ query_eq q' q = true.
Proof. intros q Hf. exists q. split; [now apply C16_round_trip_partial|]. split; apply query_eq_refl. Qed.
Print Assumptions C16_round_trip_equal_partial.

(* Everything build_query produces is such a query: a second round changes nothing. *)
Theorem C16_built_fits : forall cs q, build cs = Ok q -> fits q /\ build (clauses q) = Ok q.
Proof.
  intros cs q H. assert (Hf := build_fits cs q H). split; [exact Hf|now apply C16_round_trip_partial].
Qed.
Print Assumptions C16_built_fits.

Example round_trip_q1 : fits q1 /\ clauses q1 <> [] /\ build (clauses q1) = Ok q1.
Proof. repeat split; discriminate. Qed.
Example round_trip_q3 : fits q3 /\ build (clauses q3) = Ok q3.
Proof. repeat split. Qed.
Example built_example : exists q, build [CSelect 1; CFrom (mkFrom FPlain 2); CFrom (mkFrom FExplicit 3)] = Ok q
  /\ clause_at q SFrom = Some (CFrom (mkFrom FExplicit 3)).
Proof. eexists. split; reflexivity. Qed.

(* Not every query that can be constructed survives: an ExplicitSqlQuery without
   FROM clause comes back as ImplicitSqlQuery, and is not equal to it. *)
Theorem C16_round_trip_class_refuted :
  ~ (forall q q', build (clauses q) = Ok q' -> query_eq q q' = true).
Proof.
  intros H. specialize (H (QSql QExplicit None None None 3 None None None None None None) q2 eq_refl). discriminate.
Qed.
Print Assumptions C16_round_trip_class_refuted.

(* Equality of queries is the identity of their classes and clauses. *)
Theorem C16_equality : forall q q', query_eq q q' = true <-> q = q'.
Proof. intros q q'. split; [apply query_eq_true|intros ->; apply query_eq_refl]. Qed.
Print Assumptions C16_equality.

(* ---- C16: adding ---- *)

(* Adding clauses that are no set operations: the (last) given clause takes
   the slot, all other slots keep their clause. *)
Theorem C16_add_clause_partial : forall q new,
  fits q ->
  (forall c, In c new -> slot_of c <> SSetop) ->
  (is_set q = true -> forall c, In c new -> select_only (slot_of c) = false) ->
  exists q', add_clause q new = Ok q' /\ fits q'
   /\ forall s, clause_at q' s = match last_at new s with Some c => Some c | None => clause_at q s end.
Proof.
  intros q new Hf Hn Hs. unfold add_clause.
  set (f := fun c => negb (mem (type_of c) (map type_of new))).
  assert (HL : forall s, last_at (filter f (clauses q) ++ new) s = match last_at new s with Some c => Some c | None => clause_at q s end).
  { intros s. rewrite last_at_app. destruct (last_at new s) as [c|] eqn:E; [reflexivity|].
    rewrite last_at_filter_clauses. destruct (clause_at q s) as [c|] eqn:E2; [|reflexivity].
    assert (Hfc : f c = true); [|now rewrite Hfc].
    unfold f. apply negb_true_iff. apply mem_nIn. intros Hin. apply in_map_iff in Hin. destruct Hin as (x & Hx & Hin).
    apply type_slot in Hx. apply (proj1 (last_at_None new s) E x Hin). rewrite Hx. now apply clause_at_In in E2. }
  assert (HN : last_at new SSetop = None) by now apply last_at_None.
  destruct (build_slots (filter f (clauses q) ++ new) _ HL) as (q' & H1 & H2 & H3).
  - intros c c' Hc Hc' Sc Sc'.
    assert (HH : forall x, In x (filter f (clauses q) ++ new) -> is_setc x = true -> In x (clauses q)).
    { intros x Hx Sx. apply in_app_or in Hx. destruct Hx as [Hx|Hx]; [now apply filter_In in Hx|].
      apply deqb_true in Sx. destruct (Hn x Hx Sx). }
    apply (set_unique q); auto.
  - rewrite HN. destruct (slots_kind q) as [[A B]|[A B]]; [left|right].
    + split; [exact A|]. destruct (last_at new SSelect); [discriminate|exact B].
    + split; [exact A|]. intros s Hse.
      assert (Hi : is_set q = true) by (destruct q; [cbn in A; congruence|reflexivity]).
      destruct (last_at new s) as [c|] eqn:E; [|now apply B].
      apply last_at_slot in E. destruct E as [<- E]. rewrite (Hs Hi c E) in Hse. discriminate.
  - exists q'. split; [exact H1|]. split; [exact H2|]. intros s. rewrite H3.
    destruct (last_at new s) as [c|] eqn:E; [|now apply fits_norm_at].
    cbn. f_equal. apply last_at_slot in E. destruct E as [_ E]. specialize (Hn c E). destruct c; try reflexivity; cbn in Hn; congruence.
Qed.
Print Assumptions C16_add_clause_partial.

(* In words for a single clause: that clause is there and no other slot changed. *)
Theorem C16_add_one_partial : forall q c,
  fits q -> slot_of c <> SSetop -> (is_set q = true -> select_only (slot_of c) = false) ->
  exists q', add_clause q [c] = Ok q' /\ fits q' /\ clause_at q' (slot_of c) = Some c
   /\ forall s, s <> slot_of c -> clause_at q' s = clause_at q s.
Proof.
  intros q c Hf Hn Hs. destruct (C16_add_clause_partial q [c] Hf) as (q' & H1 & H2 & H3).
  - intros x [<-|[]]. exact Hn.
  - intros Hi x [<-|[]]. now apply Hs.
  - exists q'. split; [exact H1|]. split; [exact H2|]. split.
    + rewrite H3. cbn [last_at]. now rewrite deqb_refl.
    + intros s Hne. rewrite H3. cbn [last_at]. destruct (deqb (slot_of c) s) eqn:E; [|reflexivity].
      apply deqb_true in E. congruence.
Qed.
Print Assumptions C16_add_one_partial.

Example add_q1 : exists q', add_clause q1 [CGroup 12] = Ok q' /\ q' <> q1 /\ clause_at q' SGroup = Some (CGroup 12).
Proof. eexists. split; [reflexivity|]. split; [discriminate|reflexivity]. Qed.

(* Set operations and select queries do not mix: the error is raised. *)
Theorem C16_add_mixing_raises : forall q c,
  (is_set q = false /\ slot_of c = SSetop) \/ (is_set q = true /\ select_only (slot_of c) = true) ->
  add_clause q [c] = Raise ValueError.
Proof.
  intros q c H. unfold add_clause. cbn [map].
  set (f := fun c0 => negb (mem (type_of c0) [type_of c])).
  assert (HK : forall s x, s <> slot_of c -> clause_at q s = Some x -> last_at (filter f (clauses q) ++ [c]) s <> None).
  { intros s x Hs Hx. rewrite last_at_app. cbn [last_at]. destruct (deqb (slot_of c) s) eqn:E; [discriminate|].
    rewrite last_at_filter_clauses, Hx. assert (F : f x = true); [|rewrite F; discriminate].
    unfold f. apply negb_true_iff, mem_nIn. intros [Ht|[]]. apply type_slot in Ht. apply clause_at_In in Hx. destruct Hx as [_ Hx]. congruence. }
  assert (HC : last_at (filter f (clauses q) ++ [c]) (slot_of c) <> None).
  { rewrite last_at_app. cbn [last_at]. rewrite deqb_refl. discriminate. }
  destruct H as [[H1 H2]|[H1 H2]]; destruct q as [cls hi ex ct se fr wh gr ha od li|op l r hi ex ct od li]; try discriminate.
  - apply (build_misplaced _ SSelect); [now rewrite <- H2|reflexivity|].
    apply (HK SSelect (CSelect se)); [rewrite H2; discriminate|reflexivity].
  - apply (build_misplaced _ (slot_of c)); [|exact H2|exact HC].
    apply (HK SSetop (set_clause op l r)); [|reflexivity]. intros E. rewrite <- E in H2. discriminate.
Qed.
Print Assumptions C16_add_mixing_raises.

(* Adding another set operation to a set query: it is lost without error. *)
Theorem C16_add_set_operation_refuted :
  exists q c, fits q /\ slot_of c = SSetop /\ add_clause q [c] = Ok q /\ clause_at q SSetop <> Some c.
Proof. exists q3, (CExcept q1 q2). repeat split; cbn; discriminate. Qed.
Print Assumptions C16_add_set_operation_refuted.

(* It works for a set operation of the same kind (UNION or UNION ALL / EXCEPT /
   INTERSECT), apart from the EXPLAIN of the inputs. *)
Theorem C16_add_same_set_operation_partial : forall q c d,
  fits q -> clause_at q SSetop = Some d -> type_of c = type_of d ->
  exists q', add_clause q [c] = Ok q' /\ fits q' /\ clause_at q' SSetop = Some (norm c)
   /\ forall s, s <> SSetop -> clause_at q' s = clause_at q s.
Proof.
  intros q c d Hf Hd Ht. unfold add_clause. cbn [map]. set (f := fun c0 => negb (mem (type_of c0) [type_of c])).
  assert (Hc : slot_of c = SSetop).
  { apply type_slot in Ht. rewrite Ht. now apply clause_at_In in Hd. }
  assert (HL : forall s, last_at (filter f (clauses q) ++ [c]) s = if deqb SSetop s then Some c else clause_at q s).
  { intros s. rewrite last_at_app. cbn [last_at]. rewrite Hc. destruct (deqb SSetop s) eqn:E; [reflexivity|].
    rewrite last_at_filter_clauses. destruct (clause_at q s) as [x|] eqn:E2; [|reflexivity].
    assert (F : f x = true); [|now rewrite F]. unfold f. apply negb_true_iff, mem_nIn. intros [Hx|[]].
    apply type_slot in Hx. apply clause_at_In in E2. destruct E2 as [_ E2]. apply deqb_false in E. congruence. }
  destruct (build_slots _ _ HL) as (q' & H1 & H2 & H3).
  - assert (HH : forall x, In x (filter f (clauses q) ++ [c]) -> is_setc x = true -> x = c).
    { intros x Hx Sx. apply in_app_or in Hx. destruct Hx as [Hx|[Hx|[]]]; [|now symmetry].
      apply filter_In in Hx. destruct Hx as [Hx Fx]. apply deqb_true in Sx. apply clauses_slot_unique in Hx. rewrite Sx in Hx.
      assert (x = d) by congruence. subst x. unfold f in Fx. rewrite <- Ht in Fx. cbn [mem] in Fx.
      apply negb_true_iff, mem_nIn in Fx. destruct Fx. now left. }
    intros x y Hx Hy Sx Sy. rewrite (HH x Hx Sx), (HH y Hy Sy). reflexivity.
  - right. split; [discriminate|]. destruct (slots_kind q) as [[A _]|[_ B]]; [congruence|].
    intros s Hs. destruct (deqb SSetop s) eqn:E; [apply deqb_true in E; subst s; discriminate|now apply B].
  - exists q'. split; [exact H1|]. split; [exact H2|]. split.
    + rewrite H3. reflexivity.
    + intros s Hs. rewrite H3. destruct (deqb SSetop s) eqn:E; [apply deqb_true in E; congruence|now apply fits_norm_at].
Qed.
Print Assumptions C16_add_same_set_operation_partial.

Example add_same_q3 : exists q', add_clause q3 [CUnion q2 q1 false] = Ok q' /\ q' <> q3.
Proof. eexists. split; [reflexivity|discriminate]. Qed.

(* ---- C16: dropping ---- *)

Definition dropped (drop : list (ctype + clause)) (c : clause) : bool :=
  existsb (fun d => match d with inl t => deqb (type_of c) t | inr x => deqb (type_of c) (type_of x) end) drop.

Lemma mem_dropped drop c :
  mem (type_of c) (map (fun d => match d with inl t => t | inr c => type_of c end) drop) = dropped drop c.
Proof.
  destruct (dropped drop c) eqn:E.
  - apply mem_In. apply existsb_exists in E. destruct E as (d & Hd & E). apply in_map_iff. exists d. split; [|exact Hd].
    destruct d; apply deqb_true in E; congruence.
  - apply mem_nIn. intros Hin. apply in_map_iff in Hin. destruct Hin as (d & Hd & Hin).
    assert (HT : dropped drop c = true); [|congruence]. apply existsb_exists. exists d. split; [exact Hin|].
    destruct d; rewrite <- Hd; apply deqb_refl.
Qed.

(* Exactly the clauses with one of the given types disappear. *)
Theorem C16_drop_clause : forall q drop,
  fits q ->
  (forall c, clause_at q SSelect = Some c \/ clause_at q SSetop = Some c -> dropped drop c = false) ->
  exists q', drop_clause q drop = Ok q' /\ fits q'
   /\ forall s, clause_at q' s = match clause_at q s with
                                 | Some c => if dropped drop c then None else Some c
                                 | None => None
                                 end.
Proof.
  intros q drop Hf Hd. unfold drop_clause.
  set (f := fun c => negb (mem (type_of c) (map (fun d => match d with inl t => t | inr c0 => type_of c0 end) drop))).
  assert (HL : forall s, last_at (filter f (clauses q)) s = match clause_at q s with Some c => if dropped drop c then None else Some c | None => None end).
  { intros s. rewrite last_at_filter_clauses. destruct (clause_at q s) as [c|]; [|reflexivity].
    unfold f. rewrite mem_dropped. destruct (dropped drop c); reflexivity. }
  destruct (build_slots _ _ HL) as (q' & H1 & H2 & H3).
  - intros c c' Hc Hc'. apply filter_In in Hc, Hc'. apply (set_unique q); tauto.
  - destruct (slots_kind q) as [[A B]|[A B]]; [left|right].
    + rewrite A. split; [reflexivity|]. destruct (clause_at q SSelect) as [c|]; [|congruence].
      rewrite (Hd c (or_introl eq_refl)). discriminate.
    + destruct (clause_at q SSetop) as [c|]; [|congruence]. rewrite (Hd c (or_intror eq_refl)). split; [discriminate|].
      intros s Hs. now rewrite (B s Hs).
  - exists q'. split; [exact H1|]. split; [exact H2|]. intros s. rewrite H3.
    assert (N := fits_norm_at q s Hf). destruct (clause_at q s) as [c|]; [|reflexivity]. destruct (dropped drop c); [reflexivity|exact N].
Qed.
Print Assumptions C16_drop_clause.

(* Without its SELECT clause or its set operation there is no query. *)
Theorem C16_drop_required_raises : forall q drop c,
  clause_at q SSelect = Some c \/ clause_at q SSetop = Some c -> dropped drop c = true ->
  drop_clause q drop = Raise ValueError.
Proof.
  intros q drop c Hc Hd. unfold drop_clause.
  set (f := fun c => negb (mem (type_of c) (map (fun d => match d with inl t => t | inr c0 => type_of c0 end) drop))).
  assert (F : f c = false) by (unfold f; rewrite mem_dropped, Hd; reflexivity).
  apply build_nothing; rewrite last_at_filter_clauses; destruct q; cbn [clause_at] in *; destruct Hc as [Hc|Hc]; try discriminate; try reflexivity;
    injection Hc as <-; now rewrite F.
Qed.
Print Assumptions C16_drop_required_raises.

Example drop_q1 : exists q', drop_clause q1 [inl TWhere; inr (COrder 99)] = Ok q' /\ clause_at q' SWhere = None /\ clause_at q' SOrder = None
  /\ clause_at q' SFrom = clause_at q1 SFrom.
Proof. eexists. split; [reflexivity|]. repeat split. Qed.
Example drop_select_q1 : drop_clause q1 [inl TSelect] = Raise ValueError.
Proof. reflexivity. Qed.

(* The type must be the exact class: dropping From or Limit leaves an
   ImplicitFromClause or a PostgresLimitClause in place, though they are
   instances of the dropped class. *)
Theorem C16_drop_by_class_refuted :
  ~ (forall q t q' s c, drop_clause q [inl t] = Ok q' -> clause_at q s = Some c -> isinstance c t = true -> clause_at q' s = None).
Proof.
  intros H. specialize (H q1 TFrom q1 SFrom (CFrom (mkFrom FImplicit 4)) eq_refl eq_refl eq_refl). discriminate.
Qed.
Print Assumptions C16_drop_by_class_refuted.

Theorem C16_drop_limit_class_refuted :
  exists q c, fits q /\ clause_at q SLimit = Some c /\ isinstance c TLimit = true /\ drop_clause q [inl TLimit] = Ok q.
Proof. exists q1, (CLimit (mkSub true 7)). repeat split. Qed.
Print Assumptions C16_drop_limit_class_refuted.

(* dropping an added clause restores the original *)
Theorem C16_drop_added_partial : forall q c,
  fits q -> clause_at q (slot_of c) = None -> slot_of c <> SSetop -> (is_set q = true -> select_only (slot_of c) = false) ->
  rbind (add_clause q [c]) (fun q' => drop_clause q' [inr c]) = Ok q.
Proof.
  intros q c Hf Hc Hn Hs.
  assert (Hse : slot_of c <> SSelect).
  { intros E. rewrite E in *. destruct q; [discriminate|]. specialize (Hs eq_refl). discriminate. }
  destruct (C16_add_one_partial q c Hf Hn Hs) as (q' & -> & Hf' & H1 & H2). cbn [rbind].
  assert (HD : forall s x, s <> slot_of c -> clause_at q' s = Some x -> dropped [inr c] x = false).
  { intros s x Hne Hx. unfold dropped. cbn [existsb]. rewrite orb_false_r.
    destruct (deqb (type_of x) (type_of c)) eqn:E; [|reflexivity].
    apply deqb_true in E. apply type_slot in E. apply clause_at_In in Hx. destruct Hx as [_ Hx]. congruence. }
  destruct (C16_drop_clause q' [inr c] Hf') as (q'' & -> & Hf'' & H3).
  - intros x [Hx|Hx]; eapply HD; try exact Hx; congruence.
  - f_equal. apply query_slots; [exact Hf''|exact Hf|]. intros s. rewrite H3.
    destruct (eqd s (slot_of c)) as [->|Hne].
    + rewrite H1, Hc. unfold dropped. cbn [existsb]. now rewrite deqb_refl.
    + destruct (clause_at q' s) as [x|] eqn:E; [rewrite (HD s x Hne E)|]; rewrite <- (H2 s Hne); now symmetry.
Qed.
Print Assumptions C16_drop_added_partial.

Example drop_added_q1 : rbind (add_clause q1 [CGroup 12]) (fun q' => drop_clause q' [inr (CGroup 12)]) = Ok q1.
Proof. reflexivity. Qed.

(* ---- C16: replacing ---- *)

(* A clause is replaced iff some replacement is an instance of its class, and
   then by the first of these; nothing else changes.  (The inputs of a new set
   operation lose their EXPLAIN.) *)
Theorem C16_replace_clause : forall q reps,
  fits q ->
  exists q', replace_clause q reps = Ok q' /\ fits q'
   /\ forall s, match clause_at q s with
                | None => clause_at q' s = None
                | Some c => match find (fun r => isinstance r (type_of c)) reps with
                            | None => clause_at q' s = Some c
                            | Some r => slot_of r = s /\ clause_at q' s = Some (norm r)
                            end
                end.
Proof.
  intros q reps Hf. unfold replace_clause. rewrite replace_loop_map by apply clauses_slots_NoDup.
  assert (HL : forall s, last_at (map (repl reps) (clauses q)) s = omap (repl reps) (clause_at q s)).
  { intros s. now rewrite last_at_map_repl, last_at_clauses. }
  destruct (build_slots _ _ HL) as (q' & H1 & H2 & H3).
  - intros c c' Hc Hc' Sc Sc'. apply in_map_iff in Hc, Hc'. destruct Hc as (x & <- & Hx), Hc' as (y & <- & Hy).
    unfold is_setc in *. rewrite repl_slot in *. f_equal. apply (set_unique q); assumption.
  - destruct (slots_kind q) as [[A B]|[A B]]; [left|right].
    + rewrite A. split; [reflexivity|]. destruct (clause_at q SSelect); [discriminate|congruence].
    + split; [destruct (clause_at q SSetop); [discriminate|congruence]|]. intros s Hs. now rewrite (B s Hs).
  - exists q'. split; [exact H1|]. split; [exact H2|]. intros s. rewrite H3.
    assert (N := fits_norm_at q s Hf). destruct (clause_at q s) as [c|] eqn:E; [|reflexivity]. cbn [omap] in *. unfold repl.
    destruct (find _ reps) as [r|] eqn:F; [|exact N]. split; [|reflexivity].
    apply find_some in F. apply clause_at_In in E. rewrite (isinstance_slot r c); tauto.
Qed.
Print Assumptions C16_replace_clause.

(* The result does not depend on the order in which the set of replacements is
   iterated, if they are for different slots. *)
Theorem C16_replace_order_irrelevant : forall q reps reps',
  fits q -> (forall r, In r reps <-> In r reps') ->
  (forall r r', In r reps -> In r' reps -> slot_of r = slot_of r' -> r = r') ->
  replace_clause q reps = replace_clause q reps'.
Proof.
  intros q reps reps' Hf Hp Hu.
  destruct (C16_replace_clause q reps Hf) as (a & -> & Fa & Ha).
  destruct (C16_replace_clause q reps' Hf) as (b & -> & Fb & Hb).
  f_equal. apply query_slots; [exact Fa|exact Fb|]. intros s. specialize (Ha s). specialize (Hb s).
  destruct (clause_at q s) as [c|]; [|congruence].
  destruct (find _ reps) as [r|] eqn:F1, (find _ reps') as [r'|] eqn:F2.
  - destruct Ha as [Ha1 ->], Hb as [Hb1 ->]. apply find_some in F1, F2. destruct F1 as [F1 _], F2 as [F2 _].
    apply Hp in F2. rewrite (Hu r r' F1 F2); congruence.
  - apply find_some in F1. destruct F1 as [F1 I1]. apply Hp in F1. exact (False_ind _ (Bool.diff_true_false (eq_trans (eq_sym I1) (find_none _ _ F2 r F1)))).
  - apply find_some in F2. destruct F2 as [F2 I2]. apply Hp in F2. exact (False_ind _ (Bool.diff_true_false (eq_trans (eq_sym I2) (find_none _ _ F1 r' F2)))).
  - congruence.
Qed.
Print Assumptions C16_replace_order_irrelevant.

Example replace_q1 : exists q', replace_clause q1 [CWhere 20; CFrom (mkFrom FImplicit 21); CGroup 22] = Ok q'
  /\ clause_at q' SWhere = Some (CWhere 20) /\ clause_at q' SFrom = Some (CFrom (mkFrom FImplicit 21))
  /\ clause_at q' SGroup = None /\ clause_at q' SOrder = clause_at q1 SOrder.
Proof. eexists. split; [reflexivity|]. repeat split. Qed.

(* An implicit FROM clause cannot be replaced by an explicit one, though both
   are FROM clauses: the replacement is lost without error. *)
Theorem C16_replace_from_lost_refuted :
  exists q f, fits q /\ clause_at q SFrom <> None /\ slot_of (CFrom f) = SFrom
   /\ replace_clause q [CFrom f] = Ok q /\ clause_at q SFrom <> Some (CFrom f).
Proof. exists q1, (mkFrom FExplicit 4). repeat split; discriminate. Qed.
Print Assumptions C16_replace_from_lost_refuted.

(* ---- C79: the special transformations ---- *)

(* as_explain *)
Theorem C79_as_explain : forall q e, fits q ->
  exists q', as_explain q e = Ok q' /\ fits q' /\ clause_at q' SExplain = Some (CExplain e)
   /\ forall s, s <> SExplain -> clause_at q' s = clause_at q s.
Proof.
  intros q e Hf. unfold as_explain. set (f := fun c => negb (isinstance c TExplain)).
  assert (FE : forall s c, clause_at q s = Some c -> s <> SExplain -> f c = true).
  { intros s c Hc Hs. apply clause_at_In in Hc. destruct Hc as [_ Hc]. unfold f.
    destruct c as [h|[[] x]|x|x|[[] x]|x|x|x|x|[[] x]|l r a|l r|l r]; try reflexivity; cbn in Hc; congruence. }
  assert (HL : forall s, last_at (filter f (clauses q) ++ [CExplain e]) s = if deqb SExplain s then Some (CExplain e) else clause_at q s).
  { intros s. rewrite last_at_app. cbn [last_at slot_of]. destruct (deqb SExplain s) eqn:E; [reflexivity|].
    apply deqb_false in E. rewrite last_at_filter_clauses. destruct (clause_at q s) as [c|] eqn:Ec; [|reflexivity].
    rewrite (FE s c Ec) by congruence. reflexivity. }
  destruct (build_slots _ _ HL) as (q' & H1 & H2 & H3).
  - assert (HH : forall x, In x (filter f (clauses q) ++ [CExplain e]) -> is_setc x = true -> In x (clauses q)).
    { intros x Hx Sx. apply in_app_or in Hx. destruct Hx as [Hx|[<-|[]]]; [now apply filter_In in Hx|discriminate]. }
    intros c c' Hc Hc' Sc Sc'. apply (set_unique q); auto.
  - destruct (slots_kind q) as [[A B]|[A B]]; [left|right]; (split; [exact A|]); [exact B|].
    intros s Hs. destruct (deqb SExplain s) eqn:E; [apply deqb_true in E; subst s; discriminate|now apply B].
  - exists q'. split; [exact H1|]. split; [exact H2|]. split; [rewrite H3; reflexivity|].
    intros s Hs. rewrite H3. destruct (deqb SExplain s) eqn:E; [apply deqb_true in E; congruence|now apply fits_norm_at].
Qed.
Print Assumptions C79_as_explain.

(* the last explain wins, whatever was there before *)
Theorem C79_as_explain_idempotent : forall q e1 e2, fits q ->
  rbind (as_explain q e1) (fun q' => as_explain q' e2) = as_explain q e2.
Proof.
  intros q e1 e2 Hf. destruct (C79_as_explain q e1 Hf) as (a & -> & Fa & A1 & A2). cbn [rbind].
  destruct (C79_as_explain a e2 Fa) as (b & -> & Fb & B1 & B2).
  destruct (C79_as_explain q e2 Hf) as (c & -> & Fc & C1 & C2).
  f_equal. apply query_slots; [exact Fb|exact Fc|]. intros s.
  destruct (eqd s SExplain) as [->|Hs]; [congruence|]. rewrite B2, C2, A2 by exact Hs. reflexivity.
Qed.
Print Assumptions C79_as_explain_idempotent.

Example explain_q1 : exists q', as_explain q1 (mkSub true 30) = Ok q' /\ clause_at q' SExplain = Some (CExplain (mkSub true 30)).
Proof. eexists. split; reflexivity. Qed.
Example explain_q3 : exists q', as_explain q3 (mkSub true 30) = Ok q'.
Proof. eexists. reflexivity. Qed.

(* as_star_query, as_count_star_query *)
Theorem C79_with_select_partial : forall q c, fits q -> is_set q = false ->
  exists q', with_select q c = Ok q' /\ fits q' /\ clause_at q' SSelect = Some (CSelect c)
   /\ forall s, s <> SSelect -> clause_at q' s = clause_at q s.
Proof.
  intros q c Hf Hs.
  assert (HE : with_select q c = add_clause q [CSelect c]).
  { reflexivity. }
  rewrite HE. destruct (C16_add_one_partial q (CSelect c) Hf) as (q' & H1 & H2 & H3 & H4); [discriminate|congruence|].
  exists q'. repeat split; assumption.
Qed.
Print Assumptions C79_with_select_partial.

(* ... but not for set queries, for which an error is raised *)
Theorem C79_star_of_set_query_refuted : forall q c, is_set q = true -> with_select q c = Raise ValueError.
Proof.
  intros q c Hs.
  assert (HE : with_select q c = add_clause q [CSelect c]).
  { reflexivity. }
  rewrite HE. apply C16_add_mixing_raises. right. split; [exact Hs|reflexivity].
Qed.
Print Assumptions C79_star_of_set_query_refuted.

Example star_q1 : exists q', with_select q1 40 = Ok q' /\ q' <> q1.
Proof. eexists. split; [reflexivity|discriminate]. Qed.
Example star_q3 : is_set q3 = true /\ with_select q3 40 = Raise ValueError.
Proof. split; reflexivity. Qed.

(* drop_hints *)
Theorem C79_drop_hints : forall q p, fits q ->
  exists q', drop_hints q p = Ok q' /\ fits q'
   /\ clause_at q' SHint = match clause_at q SHint with
                           | Some (CHint h) => if p : bool then Some (CHint (mkHint 0 (h_query h))) else None
                           | _ => None
                           end
   /\ forall s, s <> SHint -> clause_at q' s = clause_at q s.
Proof.
  intros q p Hf. unfold drop_hints. set (f := fun c => negb (isinstance c THint)).
  set (new := match q_hints q with Some h => if p then Some (CHint (mkHint 0 (h_query h))) else None | None => None end).
  assert (HB : build_query (map Some (filter f (clauses q)) ++ [new]) = build (filter f (clauses q) ++ olist new)).
  { unfold build, build_query. rewrite map_app, !fold_left_app. destruct new as [n|]; [reflexivity|].
    cbn [olist map fold_left bstep]. destruct (fold_left bstep (map Some (filter f (clauses q))) acc0). reflexivity. }
  rewrite HB.
  assert (FE : forall s c, clause_at q s = Some c -> s <> SHint -> f c = true).
  { intros s c Hc Hs. apply clause_at_In in Hc. destruct Hc as [_ Hc]. unfold f.
    destruct c as [h|[[] x]|x|x|[[] x]|x|x|x|x|[[] x]|l r a|l r|l r]; try reflexivity; cbn in Hc; congruence. }
  assert (Hnew : forall x, new = Some x -> slot_of x = SHint).
  { intros x Hx. subst new. destruct (q_hints q); [|discriminate]. destruct p; [|discriminate]. injection Hx as <-. reflexivity. }
  assert (HF : forall c, clause_at q SHint = Some c -> f c = false).
  { intros c Hc. apply clause_at_In in Hc. destruct Hc as [_ Hc].
    destruct c as [h|[[] x]|x|x|[[] x]|x|x|x|x|[[] x]|l r a|l r|l r]; try discriminate. reflexivity. }
  assert (HL : forall s, last_at (filter f (clauses q) ++ olist new) s = if deqb SHint s then new else clause_at q s).
  { intros s. rewrite last_at_app.
    assert (E : last_at (olist new) s = if deqb SHint s then new else None).
    { destruct new as [x|]; cbn [olist last_at]; [rewrite (Hnew x eq_refl)|]; destruct (deqb SHint s); reflexivity. }
    rewrite E, last_at_filter_clauses. destruct (deqb SHint s) eqn:D.
    - apply deqb_true in D. subst s. destruct new as [x|]; [reflexivity|].
      destruct (clause_at q SHint) as [c|] eqn:Ec; [|reflexivity]. now rewrite (HF c eq_refl).
    - apply deqb_false in D. destruct (clause_at q s) as [c|] eqn:Ec; [|reflexivity].
      rewrite (FE s c Ec) by congruence. reflexivity. }
  destruct (build_slots _ _ HL) as (q' & H1 & H2 & H3).
  - assert (HH : forall x, In x (filter f (clauses q) ++ olist new) -> is_setc x = true -> In x (clauses q)).
    { intros x Hx Sx. apply in_app_or in Hx. destruct Hx as [Hx|Hx]; [now apply filter_In in Hx|].
      destruct new as [n|]; [|destruct Hx]. destruct Hx as [<-|[]]. apply deqb_true in Sx. rewrite (Hnew n eq_refl) in Sx. discriminate. }
    intros c c' Hc Hc' Sc Sc'. apply (set_unique q); auto.
  - destruct (slots_kind q) as [[A B]|[A B]]; [left|right]; (split; [exact A|]); [exact B|].
    intros s Hs. destruct (deqb SHint s) eqn:E; [apply deqb_true in E; subst s; discriminate|now apply B].
  - exists q'. split; [exact H1|]. split; [exact H2|]. split.
    + rewrite H3. rewrite deqb_refl. subst new.
      destruct q as [cls [hi|] ex ct se fr wh gr ha od li|op l r [hi|] ex ct od li], p; reflexivity.
    + intros s Hs. rewrite H3. destruct (deqb SHint s) eqn:E; [apply deqb_true in E; congruence|now apply fits_norm_at].
Qed.
Print Assumptions C79_drop_hints.

(* a query without hints is not changed *)
Theorem C79_drop_hints_unhinted : forall q p, fits q -> clause_at q SHint = None -> drop_hints q p = Ok q.
Proof.
  intros q p Hf Hh. destruct (C79_drop_hints q p Hf) as (q' & -> & F' & H1 & H2). f_equal.
  apply query_slots; [exact F'|exact Hf|]. intros s. destruct (eqd s SHint) as [->|Hs]; [now rewrite H1, Hh|now apply H2].
Qed.
Print Assumptions C79_drop_hints_unhinted.

Example hints_q1 : exists a b, drop_hints q1 false = Ok a /\ drop_hints q1 true = Ok b
  /\ clause_at a SHint = None /\ clause_at b SHint = Some (CHint (mkHint 0 9)).
Proof. do 2 eexists. repeat split. Qed.
