(** Property theorems for C317-C321 (entry point of the parser, RelOptInfo, stages as complete algorithms). *)
From Coq Require Import List Bool Arith Ascii String Lia.
From Verif Require Import PyBase Ident_model PQ_model PQ_spec.
Import ListNotations.

(** ** C317: the schema for binding columns.
    Partial: no schema is given, or binding is enabled. *)
Theorem C317_schema_partial : forall bind auto given pool, given = None \/ enabled bind auto = true ->
  wanted_schema (enabled bind auto) given pool (fst (binding_schema bind auto given pool)).
Proof.
  intros bind auto given pool H. unfold wanted_schema, binding_schema.
  assert (E : effective bind auto = enabled bind auto) by (destruct bind as [[]|]; reflexivity). rewrite E.
  destruct given as [g|].
  - destruct H as [H|H]; [discriminate|]. rewrite H. split; [discriminate|]. split; [intros _ g' G; injection G as <-; reflexivity|discriminate].
  - destruct (enabled bind auto); repeat split; try discriminate; destruct pool as [|s [|s' r]]; reflexivity.
Qed.
Print Assumptions C317_schema_partial.
(* A given schema is used even if binding is disabled. *)
Theorem C317_schema_refuted : forall auto g pool, binding_schema (Some false) auto (Some g) pool = (Some g, false) /\
  ~ wanted_schema (enabled (Some false) auto) (Some g) pool (fst (binding_schema (Some false) auto (Some g) pool)).
Proof. intros auto g pool. split; [reflexivity|]. intros (H & _ & _). cbn in H. specialize (H eq_refl). discriminate. Qed.
Print Assumptions C317_schema_refuted.
(* There is a warning exactly if the schema has to be taken from a pool without a unique database. *)
Theorem C317_warning : forall bind auto given pool,
  snd (binding_schema bind auto given pool) = true <-> given = None /\ enabled bind auto = true /\ List.length pool <> 1.
Proof.
  intros bind auto given pool. unfold binding_schema. assert (E : effective bind auto = enabled bind auto) by (destruct bind as [[]|]; reflexivity). rewrite E.
  destruct given as [g|]; [cbn; split; [discriminate|intros [H _]; discriminate]|].
  destruct (enabled bind auto); [|cbn; split; [discriminate|intros (_ & H & _); discriminate]].
  destruct pool as [|s [|s' r]]; cbn; split; auto; intros; try discriminate; try (repeat split; lia); lia.
Qed.
Print Assumptions C317_warning.
Example C317_ex : binding_schema None true None [4; 5] = (Some 4, true) /\ binding_schema (Some false) true None [4] = (None, false). Proof. split; reflexivity. Qed.

(** ** C318: EXPLAIN options.
    Partial: ANALYZE is not switched off. *)
Lemma explain_loop_spec : forall l a f, match explain_loop l a f with
  | Ok e => known l /\ e_analyze e = (a || existsb (fun o => match o with OAnalyze _ => true | _ => false end) l)
            /\ e_format e = fold_left (fun g o => match o with OFormat h => h | _ => g end) l f
  | Raise e => e = RuntimeError /\ ~ known l
  end.
Proof.
  induction l as [|[v|g|n] l IH]; intros a f; cbn [explain_loop].
  - cbn. rewrite orb_false_r. repeat split. intros n [].
  - specialize (IH true f). destruct (explain_loop l true f) as [e|e].
    + destruct IH as (K & A & F). split; [intros n [H|H]; [discriminate|exact (K n H)]|]. cbn. rewrite A, orb_true_r. split; [reflexivity|exact F].
    + destruct IH as [-> K]. split; [reflexivity|]. intros H. apply K. intros n I. apply (H n). right. exact I.
  - specialize (IH a g). destruct (explain_loop l a g) as [e|e].
    + destruct IH as (K & A & F). split; [intros n [H|H]; [discriminate|exact (K n H)]|]. cbn. split; [exact A|exact F].
    + destruct IH as [-> K]. split; [reflexivity|]. intros H. apply K. intros n I. apply (H n). right. exact I.
  - split; [reflexivity|]. intros H. apply (H n). left. reflexivity.
Qed.
Lemma no_analyze l : existsb (fun o => match o with OAnalyze _ => true | _ => false end) l = false <-> forall v, ~ In (OAnalyze v) l.
Proof.
  split.
  - intros H v I. assert (E : existsb (fun o => match o with OAnalyze _ => true | _ => false end) l = true) by (apply existsb_exists; exists (OAnalyze v); auto). congruence.
  - intros H. destruct (existsb _ l) eqn:E; [|reflexivity]. apply existsb_exists in E as ([v| |] & I & X); try discriminate. contradiction (H v).
Qed.
Lemma last_format l f : (forall g, ~ In (OFormat g) l) -> fold_left (fun g o => match o with OFormat h => h | _ => g end) l f = f.
Proof. revert f. induction l as [|o l IH]; intros f H; [reflexivity|]. cbn. destruct o as [v|g|n]; [|contradiction (H g); left; reflexivity|]; apply IH; intros h I; apply (H h); right; exact I. Qed.
Theorem C318_explain_partial : forall l, known l -> (forall v, In (OAnalyze v) l -> v <> Some false) ->
  exists e, parse_explain l = Ok e /\ (forall a, analyzes l a -> e_analyze e = a) /\ (forall f, formats l f -> e_format e = f).
Proof.
  intros l K N. unfold parse_explain. assert (S := explain_loop_spec l false "TEXT"). destruct (explain_loop l false "TEXT") as [e|e]; [|destruct S; contradiction].
  destruct S as (_ & A & F). exists e. split; [reflexivity|]. split.
  - intros a H. rewrite A. cbn. inversion H; subst.
    + apply no_analyze. assumption.
    + assert (V : match v with Some b => b | None => true end = true) by (destruct v as [[]|]; [reflexivity|exfalso; apply (N (Some false)); [apply in_elt|reflexivity]|reflexivity]).
      rewrite V. apply existsb_exists. exists (OAnalyze v). split; [apply in_elt|reflexivity].
  - intros f H. rewrite F. inversion H; subst.
    + apply last_format. assumption.
    + rewrite fold_left_app. cbn. apply last_format. assumption.
Qed.
Print Assumptions C318_explain_partial.
(* EXPLAIN (ANALYZE false) becomes EXPLAIN ANALYZE: the query would be executed. *)
Theorem C318_explain_refuted : parse_explain [OAnalyze (Some false)] = Ok {| e_analyze := true; e_format := "TEXT" |} /\ analyzes [OAnalyze (Some false)] false.
Proof. split; [reflexivity|]. exact (an_last [] [] (Some false) (fun w H => H)). Qed.
Print Assumptions C318_explain_refuted.
(* Unknown options are refused, and the format is always right. *)
Theorem C318_format : forall l, (known l -> exists e, parse_explain l = Ok e /\ forall f, formats l f -> e_format e = f) /\ (~ known l -> parse_explain l = Raise RuntimeError).
Proof.
  intros l. unfold parse_explain. assert (S := explain_loop_spec l false "TEXT"). destruct (explain_loop l false "TEXT") as [e|e].
  - destruct S as (K & A & F). split; [|contradiction]. intros _. exists e. split; [reflexivity|]. intros f H. rewrite F. inversion H; subst; [apply last_format; assumption|].
    rewrite fold_left_app. cbn. apply last_format. assumption.
  - destruct S as [-> K]. split; [contradiction|reflexivity].
Qed.
Print Assumptions C318_format.
Example C318_ex : parse_explain [OAnalyze None; OFormat "JSON"] = Ok {| e_analyze := true; e_format := "JSON" |} /\ parse_explain [] = Ok {| e_analyze := false; e_format := "TEXT" |}
  /\ formats [OFormat "XML"; OAnalyze None; OFormat "JSON"] "JSON".
Proof. split; [reflexivity|]. split; [reflexivity|]. exact (fm_last [OFormat "XML"; OAnalyze None] [] "JSON" (fun g H => H)). Qed.

(** ** C319: which texts are accepted by parse_query.
    Partial: everything but set queries. *)
Theorem C319_accepted_partial : forall text accept hints schema id hint, text <> ""%string ->
  parse_query text accept hints schema [Select false id] hint
  = Ok {| p_set := false; p_id := id; p_schema := schema; p_explain := None; p_hint := if hints then hint else None |}
  /\ (forall l e, parse_explain l = Ok e -> parse_query text accept hints schema [Explain l (Select false id)] hint
      = Ok {| p_set := false; p_id := id; p_schema := schema; p_explain := Some e; p_hint := if hints then hint else None |}).
Proof.
  intros text accept hints schema id hint N. unfold parse_query. assert (D : deqb text ""%string = false) by (apply deqb_neq; exact N). rewrite D. split.
  - cbn. rewrite andb_false_r. reflexivity.
  - intros l e E. rewrite E. cbn. rewrite andb_false_r. reflexivity.
Qed.
Print Assumptions C319_accepted_partial.
(* Everything else is refused: empty texts, several statements or none, and other statements. *)
Theorem C319_refused : forall text accept hints schema stmts hint,
  (text = ""%string -> parse_query text accept hints schema stmts hint = Raise RuntimeError) /\
  (text <> ""%string -> List.length stmts <> 1 -> parse_query text accept hints schema stmts hint = Raise ValueError) /\
  (text <> ""%string -> forall id, parse_query text accept hints schema [Other id] hint = Raise ValueError) /\
  (forall p, parse_query text accept hints schema stmts hint = Ok p -> text <> ""%string /\
     exists s, stmts = [s] /\ (s = Select (p_set p) (p_id p) /\ p_explain p = None \/ exists l e, s = Explain l (Select (p_set p) (p_id p)) /\ parse_explain l = Ok e /\ p_explain p = Some e)).
Proof.
  intros text accept hints schema stmts hint. unfold parse_query. destruct (deqb text ""%string) eqn:D.
  - apply deqb_true in D. repeat split; try congruence; discriminate.
  - apply deqb_neq in D. split; [congruence|]. split.
    + intros _ N. destruct stmts as [|s [|s' r]]; cbn in N; try reflexivity. congruence.
    + split; [reflexivity|]. intros p. destruct stmts as [|s [|s' r]]; try discriminate. destruct s as [b i|l q|n]; cbn.
      * rewrite andb_false_r. intros Q. injection Q as <-. split; [exact D|]. eexists. split; [reflexivity|]. left. split; reflexivity.
      * destruct (parse_explain l) as [e|] eqn:E; [|discriminate]. cbn. destruct q as [b i|l' q|n]; try discriminate. rewrite andb_false_r. intros Q. injection Q as <-.
        split; [exact D|]. eexists. split; [reflexivity|]. right. exists l, e. repeat split. exact E.
      * discriminate.
Qed.
Print Assumptions C319_refused.
(* Set queries are returned although they were not asked for, whatever the parameters are. *)
Theorem C319_set_queries_refuted : forall text accept hints schema id hint, text <> ""%string ->
  exists p, parse_query text accept hints schema [Select true id] hint = Ok p /\ p_set p = true.
Proof.
  intros text accept hints schema id hint N. unfold parse_query. assert (D : deqb text ""%string = false) by (apply deqb_neq; exact N). rewrite D. cbn.
  rewrite andb_false_r. eexists. split; reflexivity.
Qed.
Print Assumptions C319_set_queries_refuted.
Example C319_ex : parse_query "SELECT 1 UNION SELECT 2" false true None [Select true 3] None = Ok {| p_set := true; p_id := 3; p_schema := None; p_explain := None; p_hint := None |}.
Proof. reflexivity. Qed.

(** ** C320: a relation of the dynamic programming contains a table or another relation if it has all of their tables.
    Partial: not for the relation itself. *)
Lemma subsetb_incl a b : subsetb a b = true <-> incl a b.
Proof. unfold subsetb. rewrite forallb_forall. split; intros H x I; [apply (proj1 (mem_In _ _)); auto | apply mem_In; auto]. Qed.
Theorem C320_contains_partial : forall rel i, ~ incl rel (item_tables i) -> (rel_contains rel i = true <-> incl (item_tables i) rel).
Proof.
  intros rel i N. unfold rel_contains. rewrite andb_true_iff, negb_true_iff, subsetb_incl. split; [tauto|]. intros H. split; [exact H|].
  destruct (subsetb rel (item_tables i)) eqn:E; [|reflexivity]. apply subsetb_incl in E. contradiction.
Qed.
Print Assumptions C320_contains_partial.
Theorem C320_contains_refuted : forall rel t, rel_contains rel (IRel rel) = false /\ rel_contains [t] (ITable t) = false.
Proof.
  intros rel t. unfold rel_contains. cbn [item_tables]. assert (R : forall l, subsetb l l = true) by (intros l; apply subsetb_incl; apply incl_refl). rewrite !R. split; reflexivity.
Qed.
Print Assumptions C320_contains_refuted.
(* Nothing is contained that has other tables; relations are equal exactly if they have the same tables. *)
Theorem C320_sound : forall rel i, (rel_contains rel i = true -> incl (item_tables i) rel) /\ forall other, rel_eq rel other = true <-> forall t, In t rel <-> In t other.
Proof.
  intros rel i. split.
  - unfold rel_contains. rewrite andb_true_iff, subsetb_incl. tauto.
  - intros other. unfold rel_eq. rewrite andb_true_iff, !subsetb_incl. split; [intros [A B] t; split; auto|intros H; split; intros t I; apply H; exact I].
Qed.
Print Assumptions C320_sound.
Example C320_ex : rel_contains [1; 2; 3] (IRel [3; 1]) = true /\ rel_contains [1; 2] (ITable 2) = true /\ rel_contains [1; 2] (ITable 3) = false. Proof. repeat split. Qed.

(** ** C321: as_complete_algorithm uses the given stage, for all of its interfaces and nothing else. *)
Theorem C321_stage : forall s database pool d e, as_complete s database pool = Ok (d, e) ->
  (database = Some d \/ database = None /\ pool = [d]) /\ described e = Ok (st_id s) /\
  (em_order e = Some (st_id s) <-> st_order s = true) /\ (em_ops e = Some (st_id s) <-> st_ops s = true) /\ (em_params e = Some (st_id s) <-> st_params s = true) /\
  (forall i, em_order e = Some i \/ em_ops e = Some i \/ em_params e = Some i -> i = st_id s).
Proof.
  intros [o p q i] database pool d e. unfold as_complete. cbn [st_order st_ops st_params st_id].
  assert (D : forall (r : res nat) k, rbind r k = Ok (d, e) -> exists x, r = Ok x /\ k x = Ok (d, e)) by (intros [x|] k H; [eauto|discriminate]).
  intros H. apply D in H as (x & X & H). destruct (negb o && negb p && negb q) eqn:B; [discriminate|]. inversion H; subst. split.
  - destruct database as [y|]; [left; congruence|right]. split; [reflexivity|]. destruct pool as [|y [|z r]]; congruence.
  - split; [destruct o, p, q; try reflexivity; discriminate|]. cbn [em_order em_ops em_params]. destruct o, p, q; cbn; repeat split; try discriminate; try congruence; intros j [J|[J|J]]; congruence.
Qed.
Print Assumptions C321_stage.
Theorem C321_refused : forall s database pool, (exists x, as_complete s database pool = Ok x) <->
  (st_order s = true \/ st_ops s = true \/ st_params s = true) /\ (database <> None \/ List.length pool = 1).
Proof.
  intros [o p q i] database pool. unfold as_complete. cbn [st_order st_ops st_params st_id].
  assert (B : (negb o && negb p && negb q = false) <-> (o = true \/ p = true \/ q = true)) by (destruct o, p, q; cbn; intuition discriminate). rewrite <- B. clear B.
  destruct (negb o && negb p && negb q); destruct database as [y|]; try destruct pool as [|y [|z r]]; cbn; split;
    try (intros [x H]; discriminate); try (intros [H _]; discriminate); try (intros [_ [H|H]]; congruence || discriminate);
    intros H; try (split; [reflexivity|]; first [left; discriminate|right; reflexivity]); eexists; reflexivity.
Qed.
Print Assumptions C321_refused.
Example C321_ex : as_complete {| st_order := false; st_ops := true; st_params := false; st_id := 9 |} None [4] = Ok (4, {| em_order := None; em_ops := Some 9; em_params := None |}). Proof. reflexivity. Qed.
