(** Property theorems for C368-C371 (types, operators and CASE expressions of the parser). *)
From Coq Require Import List Bool String Ascii.
From Verif Require Import PyBase Ident_model Pty_model Pty_spec.
Import ListNotations.

(** ** C368: different types give different targets of casts.  Not so for types of different schemas, and for the one-byte type "char". *)
Theorem C368_types_refuted : ~ forall ns ms t, parse_type (Some ns) = Ok t -> parse_type (Some ms) = Ok t -> ns = ms.
Proof. intros H. specialize (H ["sales"; "status"] ["audit"; "status"] "status")%string. discriminate H; reflexivity. Qed.
Print Assumptions C368_types_refuted.

Theorem C368_char_refuted : ~ forall n m t, parse_type (Some ["pg_catalog"%string; n]) = Ok t -> parse_type (Some ["pg_catalog"%string; m]) = Ok t -> n = m.
Proof. intros H. specialize (H "char" "bpchar" "char")%string. discriminate H; reflexivity. Qed.
Print Assumptions C368_char_refuted.

(** Names which are not themselves the standard name of another type are kept apart. *)
Definition standard_names : list string := ["char"; "bigserial"; "integer"; "smallint"; "bigint"; "real"; "double precision"; "bool"]%string.
Lemma type_map_cases : forall n, (exists t, dget type_map n = Some t /\ In t standard_names) \/ dget type_map n = None.
Proof.
  intros n. unfold type_map. cbn [dget].
  repeat match goal with |- context [if eqd n ?s then _ else _] => destruct (eqd n s); [left; eexists; split; [reflexivity|cbn; tauto]|] end.
  right. reflexivity.
Qed.
Theorem C368_types_partial : forall p q n m t,
  (List.length p <= 1)%nat -> (List.length q <= 1)%nat -> ~ In n standard_names -> ~ In m standard_names ->
  parse_type (Some (p ++ [n])) = Ok t -> parse_type (Some (q ++ [m])) = Ok t -> n = m.
Proof.
  assert (G : forall p n, List.length p <= 1 -> parse_type (Some (p ++ [n])) = Ok (match dget type_map n with Some t => t | None => n end)).
  { intros [|a [|b p]] n L; [reflexivity|reflexivity|cbn in L; exfalso; inversion L as [|x Y]; inversion Y]. }
  intros p q n m t P Q N M. rewrite (G p n P), (G q m Q). intros A B. assert (C : match dget type_map n with Some t => t | None => n end = match dget type_map m with Some t => t | None => m end) by congruence. clear G A B P Q p q t. rename C into A.
  destruct (type_map_cases n) as [(t & D & I)|D], (type_map_cases m) as [(u & D' & I')|D']; rewrite D, D' in A; subst.
  - revert D D'. unfold type_map. cbn [dget].
    repeat match goal with |- context [if eqd n ?s then _ else _] => destruct (eqd n s) end; intros X; try discriminate X; injection X as <-; subst;
    repeat match goal with |- context [if eqd m ?s then _ else _] => destruct (eqd m s) end; intros Y; try discriminate Y; congruence.
  - contradiction.
  - contradiction.
  - reflexivity.
Qed.
Print Assumptions C368_types_partial.
Example C368_ex : parse_type (Some ["pg_catalog"; "int4"]%string) = Ok "integer"%string /\ parse_type (Some ["mood"%string]) = Ok "mood"%string. Proof. split; reflexivity. Qed.

(** ** C369: the formats of types that are accepted, and the built-in types get their standard names. *)
Theorem C369_formats :
  (forall ns, (exists t, parse_type (Some ns) = Ok t) <-> exists p n, ns = p ++ [n] /\ (p = [] \/ exists s, p = [s])) /\
  (forall ns, 2 < List.length ns -> parse_type (Some ns) = Raise OtherError) /\ parse_type None = Raise OtherError /\
  (forall p n t, parse_type (Some (p ++ [n])) = Ok t -> t = n \/ In (n, t)
    [("bpchar", "char"); ("serial8", "bigserial"); ("int4", "integer"); ("int2", "smallint"); ("int8", "bigint"); ("float4", "real");
     ("float8", "double precision"); ("boolean", "bool")]%string) /\
  (forall p, List.length p <= 1 -> forall n t, In (n, t)
    [("bpchar", "char"); ("serial8", "bigserial"); ("int4", "integer"); ("int2", "smallint"); ("int8", "bigint"); ("float4", "real");
     ("float8", "double precision"); ("boolean", "bool")]%string -> parse_type (Some (p ++ [n])) = Ok t).
Proof.
  split; [|split; [|split; [|split]]].
  - intros ns. split.
    + intros (t & H). destruct ns as [|a [|b [|c ns]]]; try discriminate H; [exists [], a; auto|exists [a], b; split; [reflexivity|right; exists a; reflexivity]].
    + intros (p & n & -> & [->|(s & ->)]); eexists; reflexivity.
  - intros ns L. unfold parse_type. apply PeanoNat.Nat.ltb_lt in L. rewrite L. reflexivity.
  - reflexivity.
  - intros p n t. unfold parse_type. destruct (Nat.ltb 2 (List.length (p ++ [n]))); [discriminate|]. rewrite rev_app_distr. cbn [rev app].
    intros H. assert (C : match dget type_map n with Some t => t | None => n end = t) by congruence. clear H. revert C. unfold type_map. cbn [dget].
    repeat match goal with |- context [if eqd n ?s then _ else _] => destruct (eqd n s); [intros <-; subst; right; cbn; tauto|] end. intros <-. left. reflexivity.
  - intros p L n t I. destruct p as [|a [|b p]]; [| |cbn in L; exfalso; inversion L as [|x Y]; inversion Y];
    cbn in I; repeat destruct I as [I|I]; try (injection I as <- <-; reflexivity); destruct I.
Qed.
Print Assumptions C369_formats.
Example C369_ex : parse_type (Some ["db"; "s"; "t"]%string) = Raise OtherError /\ parse_type (Some []) = Raise IndexError. Proof. split; reflexivity. Qed.

(** ** C370: operators are never confused: the operator has the text it was parsed from, and all others are errors of the parser. *)
Definition op_text (o : operator) : string := match o with MathOp t | LogicalOp t | CompoundOp t => t end.
Theorem C370_operators : forall names,
  (forall s, names = [Some s] -> opname s ->
     (exists o, parse_operator names = Ok o /\ (op_text o = s \/ (s = "!=" /\ op_text o = "<>")%string) /\ ((exists t, o = MathOp t) <-> In s ["+"; "-"; "*"; "/"; "%"; "||"]%string) /\ (forall t, o <> CompoundOp t) /\
        In s ["="; "<"; "<="; ">"; ">="; "<>"; "!="; "+"; "-"; "*"; "/"; "%"; "||"; "@>"; "<@"; "&&"]%string) \/
     (parse_operator names = Raise OtherError /\ ~ In s ["="; "<"; "<="; ">"; ">="; "<>"; "!="; "+"; "-"; "*"; "/"; "%"; "||"; "@>"; "<@"; "&&"]%string)) /\
  ((forall s, names <> [Some s]) -> parse_operator names = Raise OtherError).
Proof.
  intros names. split.
  - intros s -> H. unfold parse_operator, operator_map. cbn [dget].
    assert (B : forall c r, ~ opchar c -> s <> String c r) by (intros c r O ->; inversion H; contradiction).
    assert (U : ~ opchar "A"%char /\ ~ opchar "O"%char /\ ~ opchar "N"%char) by (unfold opchar; cbn; repeat split; intros K; repeat destruct K as [K|K]; try discriminate K; exact K).
    destruct U as (UA & UO & UN).
    repeat match goal with |- context [if eqd s ?x then _ else _] => destruct (eqd s x) as [->|];
      [first [exfalso; eapply B; [|reflexivity]; assumption
             |left; eexists; split; [reflexivity|]; split; [cbn; auto|]; split; [split; [intros (t & K); try discriminate K; cbn; tauto|cbn; intros K; repeat destruct K as [K|K]; try discriminate K; try (destruct K; fail); eexists; reflexivity]|split; [intros t; discriminate|cbn; tauto]]]|] end.
    right. split; [reflexivity|]. cbn. intros K. repeat destruct K as [K|K]; try (symmetry in K; contradiction); exact K.
  - intros H. destruct names as [|[s|] [|b r]]; try reflexivity. exfalso. exact (H s eq_refl).
Qed.
Print Assumptions C370_operators.
Example C370_ex : parse_operator [Some "!="%string] = Ok (LogicalOp "<>") /\ parse_operator [Some "~~*"%string] = Raise OtherError /\ parse_operator [Some "pg_catalog"%string; Some "+"%string] = Raise OtherError.
Proof. repeat split; reflexivity. Qed.

(** ** C371: a parsed CASE expression has the value that SQL gives to the CASE it was parsed from. *)
Section Case.
  Context {J E V : Type} (parse : J -> res E) (is_predicate : E -> bool) (unary : E -> E) (jv : J -> V) (ev : E -> V) (holds : V -> Prop) (same : V -> V -> Prop) (null : V).
  Definition rel2 (a : J * J) (b : E * E) : Prop := ev (fst b) = jv (fst a) /\ ev (snd b) = jv (snd a).
  Definition relo (a : option J) (b : option E) : Prop := match a, b with Some j, Some e => ev e = jv j | None, None => True | _, _ => False end.
  Lemma applies_rel : forall a b w x, relo a b -> ev x = jv w -> (applies ev holds same b x <-> applies jv holds same a w).
  Proof. intros [a|] [b|] w x R X; cbn in *; [rewrite R, X; tauto|contradiction|contradiction|rewrite X; tauto]. Qed.
  Lemma none_rel : forall a b, relo a b -> forall l k, Forall2 rel2 l k ->
    (Forall (fun p => ~ applies ev holds same b (fst p)) k <-> Forall (fun p => ~ applies jv holds same a (fst p)) l).
  Proof.
    intros a b R l k F. induction F as [|[w r] [x y] l k [X Y] F IH]; [split; constructor|]. cbn in X.
    split; intros H; inversion H; subst; constructor; try (apply IH; assumption); cbn in *; rewrite ?(applies_rel a b w x R X) in *; assumption.
  Qed.
  Lemma value_rel : forall a b d f, relo a b -> relo d f -> forall l k, Forall2 rel2 l k -> forall v,
    (case_value ev holds same null k b f v <-> case_value jv holds same null l a d v).
  Proof.
    intros a b d f R S l k F v. unfold case_value.
    assert (D : match f with Some e => ev e | None => null end = match d with Some e => jv e | None => null end) by (destruct d, f; cbn in *; auto; contradiction).
    rewrite (none_rel a b R l k F), D. split; (intros [H|H]; [left|right; exact H]).
    - destruct H as (k1 & x & y & k2 & -> & N & A & ->). apply Forall2_app_inv_r in F. destruct F as (l1 & l' & F1 & F2 & ->).
      inversion F2 as [|[w r] z l2 k2' [X Y] F3]; subst. cbn in X, Y. exists l1, w, r, l2. rewrite <- (none_rel a b R l1 k1 F1), <- (applies_rel a b w x R X). auto.
    - destruct H as (l1 & w & r & l2 & -> & N & A & ->). apply Forall2_app_inv_l in F. destruct F as (k1 & k' & F1 & F2 & ->).
      inversion F2 as [|z [x y] l2' k2 [X Y] F3]; subst. cbn in X, Y. exists k1, x, y, k2. rewrite (none_rel a b R l1 k1 F1), (applies_rel a b w x R X). auto.
  Qed.
End Case.

Theorem C371_case_value : forall {J E V : Type} (parse : J -> res E) is_predicate unary (jv : J -> V) (ev : E -> V) holds same null c ce,
  (forall j e, parse j = Ok e -> ev e = jv j) -> (forall e, ev (unary e) = ev e) ->
  parse_case parse is_predicate unary c = Ok ce ->
  forall v, case_value ev holds same null (ce_cases ce) (ce_simple ce) (ce_else ce) v <-> case_value jv holds same null (pc_args c) (pc_arg c) (pc_default c) v.
Proof.
  intros J E V parse isp un jv ev holds same null [args arg def] ce P U H.
  unfold parse_case in H. cbn [pc_args pc_arg pc_default] in *.
  destruct (rmapM (parse_when parse isp un) args) as [cs|] eqn:A; [|discriminate H]. cbn in H.
  destruct (parse_opt parse arg) as [s|] eqn:B; [|discriminate H]. cbn in H. destruct (parse_opt parse def) as [d|] eqn:D; [|discriminate H]. cbn in H.
  assert (O : forall j o, parse_opt parse j = Ok o -> relo jv ev j o).
  { intros [j|] o; cbn; [|intros Q; injection Q as <-; exact I]. destruct (parse j) eqn:Q; [|discriminate]. cbn. intros Z; injection Z as <-. auto. }
  assert (F : Forall2 (rel2 jv ev) args cs).
  { revert cs A H. clear - P U. intros cs A _. revert cs A. induction args as [|[w r] args IH]; cbn; intros cs; [intros Q; injection Q as <-; constructor|].
    unfold parse_when at 1, parse_predicate. cbn [fst snd]. destruct (parse w) as [e|] eqn:W; [|discriminate]. cbn. destruct (parse r) as [y|] eqn:R; [|discriminate]. cbn.
    destruct (rmapM (parse_when parse isp un) args) as [ys|] eqn:M; [|discriminate]. cbn. intros Q; injection Q as <-. constructor; [|apply IH; reflexivity].
    split; cbn; [destruct (isp e); [|rewrite U]|]; auto. }
  destruct cs as [|c0 cs]; [discriminate H|]. unfold make_case in H. injection H as <-. cbn [ce_cases ce_simple ce_else]. apply value_rel; auto.
Qed.
Print Assumptions C371_case_value.

(** Parsing succeeds exactly if there is a case and all parts can be parsed, and all conditions are predicates then. *)
Theorem C371_case_total : forall {J E : Type} (parse : J -> res E) is_predicate unary c,
  ((exists ce, parse_case parse is_predicate unary c = Ok ce) <->
    pc_args c <> [] /\ (forall w r, In (w, r) (pc_args c) -> (exists e, parse w = Ok e) /\ exists e, parse r = Ok e) /\
    (forall j, pc_arg c = Some j \/ pc_default c = Some j -> exists e, parse j = Ok e)) /\
  ((forall e, is_predicate (unary e) = true) -> forall ce, parse_case parse is_predicate unary c = Ok ce -> forall p r, In (p, r) (ce_cases ce) -> is_predicate p = true).
Proof.
  intros J E parse isp un [args arg def].
  assert (W : forall l, (exists cs, rmapM (parse_when parse isp un) l = Ok cs) <-> forall w r, In (w, r) l -> (exists e, parse w = Ok e) /\ exists e, parse r = Ok e).
  { induction l as [|[w r] l IH]; [split; [intros _ w r []|intros _; exists []; reflexivity]|]. cbn [rmapM]. unfold parse_when at 1, parse_predicate. cbn [fst snd]. split.
    - intros (cs & H). destruct (parse w) as [e|] eqn:P; [|discriminate H]. cbn in H. destruct (parse r) as [y|] eqn:R; [|discriminate H]. cbn in H.
      destruct (rmapM (parse_when parse isp un) l) as [ys|] eqn:M; [|discriminate H].
      intros w' r' [I|I]; [injection I as <- <-; split; eexists; eassumption|]. apply (proj1 IH); [eexists; reflexivity|exact I].
    - intros H. destruct (H w r (or_introl eq_refl)) as ((e & ->) & (y & ->)). destruct (proj2 IH) as (cs & ->); [intros w' r' I; apply H; right; exact I|]. cbn. eexists; reflexivity. }
  assert (L : forall l cs, rmapM (parse_when parse isp un) l = Ok cs -> (cs = [] <-> l = [])).
  { intros [|a l] cs; cbn; [intros Q; injection Q as <-; tauto|]. destruct (parse_when parse isp un a); [|discriminate]. cbn. destruct (rmapM (parse_when parse isp un) l); [|discriminate]. cbn. intros Q; injection Q as <-. split; discriminate. }
  assert (O : forall j, (exists o, parse_opt parse j = Ok o) <-> forall x, j = Some x -> exists e, parse x = Ok e).
  { intros [j|]; cbn; [|split; [discriminate|eexists; reflexivity]]. split.
    - intros (o & H) x Q; injection Q as <-. destruct (parse j); [eexists; reflexivity|discriminate H].
    - intros H. destruct (H j eq_refl) as (e & ->). eexists; reflexivity. }
  unfold parse_case. cbn [pc_args pc_arg pc_default]. split; [split|].
  - intros (ce & H). destruct (rmapM (parse_when parse isp un) args) as [cs|] eqn:A; [|discriminate H]. cbn in H.
    destruct (parse_opt parse arg) as [s|] eqn:B; [|discriminate H]. cbn in H. destruct (parse_opt parse def) as [d|] eqn:D; [|discriminate H]. cbn in H.
    split; [intros Z; apply (L _ _ A) in Z; subst cs; discriminate H|]. split; [apply W; eexists; exact A|].
    intros j [Q|Q]; [apply (proj1 (O arg)) with (x := j)|apply (proj1 (O def)) with (x := j)]; try exact Q; eexists; eassumption.
  - intros (N & H & K). destruct (proj2 (W args) H) as (cs & A). rewrite A. cbn.
    destruct (proj2 (O arg)) as (s & ->); [intros x Q; apply K; auto|]. cbn. destruct (proj2 (O def)) as (d & ->); [intros x Q; apply K; auto|]. cbn.
    destruct cs; [exfalso; apply N; apply (L _ _ A); reflexivity|]. eexists; reflexivity.
  - intros U ce H. destruct (rmapM (parse_when parse isp un) args) as [cs|] eqn:A; [|discriminate H]. cbn in H.
    destruct (parse_opt parse arg) as [s|]; [|discriminate H]. cbn in H. destruct (parse_opt parse def) as [d|]; [|discriminate H]. cbn in H.
    assert (C : ce_cases ce = cs) by (unfold make_case in H; destruct cs; [discriminate H|injection H as <-; reflexivity]). rewrite C. clear - A U.
    revert cs A. induction args as [|[w r] args IH]; cbn; intros cs; [intros Q; injection Q as <-; intros p r []|].
    unfold parse_when at 1, parse_predicate. cbn [fst snd]. destruct (parse w) as [e|]; [|discriminate]. cbn. destruct (parse r) as [y|]; [|discriminate]. cbn.
    destruct (rmapM (parse_when parse isp un) args) as [ys|] eqn:M; [|discriminate]. cbn. intros Q; injection Q as <-. intros p q [I|I]; [injection I as <- <-|exact (IH ys eq_refl p q I)].
    destruct (isp e) eqn:Z; [exact Z|apply U].
Qed.
Print Assumptions C371_case_total.
Example C371_ex : parse_case (fun j => if Nat.eqb j 9 then Raise OtherError else Ok (j, false)) snd (fun e => (fst e, true)) {| pc_args := [(1, 2); (3, 4)]; pc_arg := Some 5; pc_default := None |}
  = Ok {| ce_cases := [((1, true), (2, false)); ((3, true), (4, false))]; ce_simple := Some (5, false); ce_else := None |}. Proof. reflexivity. Qed.
