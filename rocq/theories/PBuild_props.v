(** Property theorems for C292-C297 (building predicates, required tables, output names). *)
From Coq Require Import List Bool Arith ZArith Ascii String Lia.
From Verif Require Import PyBase Pred_model MPrint_model Ident_model Expr_model Expr_spec Expr_proofs Expr_props PBuild_model PBuild_spec.
Import ListNotations.

Fixpoint pyv_ind' (P : pyv -> Prop)
  (Hs : forall v, scalar v -> P v) (Ht : forall l, (forall v, In v l -> P v) -> P (YTuple l)) (Hl : forall l, P (YList l)) (v : pyv) : P v :=
  match v with
  | YTuple l => Ht l ((fix go (l : list pyv) : forall v, In v l -> P v :=
      match l return forall v, In v l -> P v with
      | [] => fun v H => match H with end
      | x :: r => fun v H => match H with or_introl E => eq_ind x P (pyv_ind' P Hs Ht Hl x) v E | or_intror J => go r v J end
      end) l)
  | YList l => Hl l
  | YNull => Hs YNull I | YInt z => Hs (YInt z) I | YBool b => Hs (YBool b) I | YStr s => Hs (YStr s) I
  | YExpr e => Hs (YExpr e) I | YCol c => Hs (YCol c) I | YQuery q => Hs (YQuery q) I
  end.
Lemma hashable_frozen v : hashable v = true <-> frozen v.
Proof.
  induction v as [v Hs|l IH|l] using pyv_ind'.
  - destruct v; cbn in *; try contradiction; split; intros; try reflexivity; constructor.
  - cbn [hashable]. rewrite forallb_forall. split.
    + intros H. constructor. intros v Hv. apply IH; auto.
    + intros H v Hv. inversion H; subst. apply IH; auto.
  - cbn. split; [discriminate|intros H; inversion H].
Qed.
Lemma frozen_list l : forallb hashable l = true <-> frozen (YTuple l).
Proof. rewrite <- hashable_frozen. reflexivity. Qed.

(** ** C292: values become the documented expressions. *)
Theorem C292_as_expression : forall v,
  (forall e, as_expression v = Ok e <-> denotes v e) /\
  (forall x, as_expression v = Raise x <-> x = TypeError /\ ~ frozen v) /\
  (forall e, as_expression v = Ok (BX e) -> as_expression (YExpr e) = as_expression v).
Proof.
  intros v.
  assert (H1 : forall e, as_expression v = Ok e <-> denotes v e).
  { intros e. destruct v as [|z|b|s|e'|c|q|l|l]; cbn [as_expression].
    1-3, 5-7: split; [intros H; injection H as <-; constructor|intros H; inversion H; subst; reflexivity].
    - destruct (String.eqb_spec s "*") as [->|Hs].
      + split; [intros H; injection H as <-; constructor|intros H; inversion H; subst; [reflexivity|congruence]].
      + split; [intros H; injection H as <-; now constructor|intros H; inversion H; subst; congruence].
    - destruct (forallb hashable l) eqn:Hh.
      + split; [intros H; injection H as <-; constructor; now apply frozen_list|intros H; inversion H; subst; reflexivity].
      + split; [discriminate|]. intros H. inversion H; subst.
        match goal with F : frozen _ |- _ => apply frozen_list in F; congruence end.
    - split; [discriminate|intros H; inversion H]. }
  split; [exact H1|split].
  - intros x. rewrite <- hashable_frozen.
    destruct v as [|z|b|s|e'|c|q|l|l]; cbn [as_expression hashable]; try (split; [discriminate|intros [_ H]; contradiction (H eq_refl)]).
    + destruct (forallb hashable l) eqn:Hh; [split; [discriminate|intros [_ H]; contradiction (H eq_refl)]|].
      split; [intros H; injection H as <-; split; [reflexivity|discriminate]|intros [-> _]; reflexivity].
    + split; [intros H; injection H as <-; split; [reflexivity|discriminate]|intros [-> _]; reflexivity].
  - intros e H. rewrite H. reflexivity.
Qed.
Print Assumptions C292_as_expression.
Example C292_ex :
  as_expression (YStr "*") = Ok (BX (XStar None)) /\ as_expression (YStr "**") = Ok (BX (XStatic (VStr "**"))) /\
  as_expression (YCol cRa) = Ok (BX (XCol cRa)) /\ as_expression (YTuple [YInt 1; YNull]) = Ok (BTup [YInt 1; YNull]) /\
  as_expression (YTuple [YInt 1; YList []]) = Raise TypeError.
Proof. repeat split. Qed.

(** ** C293: operators may be spelled as text, in any case. *)
Lemma text_of_spelling t o : In (t, o) spellings -> resolve_op (OText t) = Ok o.
Proof. intros H. cbn in H. repeat (destruct H as [H|H]; [injection H as <- <-; reflexivity|]). contradiction. Qed.
Lemma resolve_upper s : resolve_op (OText s) = resolve_op (OText (supper s)).
Proof.
  unfold resolve_op. f_equal. assert (E : supper (supper s) = supper s).
  { unfold supper. induction s as [|a s IH]; [reflexivity|]. cbn. rewrite IH. f_equal.
    destruct a as [[] [] [] [] [] [] [] []]; reflexivity. }
  now rewrite E.
Qed.
Lemma resolve_spelled s o : resolve_op (OText s) = Ok o -> In (supper s, o) spellings.
Proof.
  unfold resolve_op, lop_of_text. set (u := supper s).
  destruct (String.eqb_spec u "!=") as [->|N1]; [cbn; intros H; injection H as <-; cbn; tauto|].
  destruct (String.eqb_spec u "==") as [->|N2]; [cbn; intros H; injection H as <-; cbn; tauto|].
  destruct (find _ lops) as [o'|] eqn:F; [|discriminate]. intros H. injection H as ->.
  apply find_some in F as [_ F]. apply String.eqb_eq in F. rewrite <- F. destruct o; cbn; tauto.
Qed.
Lemma resolve_result s : (exists o, resolve_op (OText s) = Ok o) \/ resolve_op (OText s) = Raise ValueError.
Proof. unfold resolve_op, lop_of_text. destruct (find _ lops); eauto. Qed.
Theorem C293_operators : forall c s args,
  (forall o, In (supper s, o) spellings -> as_predicate c (OText s) args = as_predicate c (OMember o) args) /\
  ((forall o, ~ In (supper s, o) spellings) -> as_predicate c (OText s) args = Raise ValueError).
Proof.
  intros c s args. split.
  - intros o H. unfold as_predicate. rewrite resolve_upper, (text_of_spelling _ _ H). reflexivity.
  - intros H. unfold as_predicate. destruct (resolve_result s) as [[o E]|E]; [|now rewrite E].
    contradiction (H o (resolve_spelled s o E)).
Qed.
Print Assumptions C293_operators.
(** Every operator has a spelling. *)
Theorem C293_all_spelled : forall o, exists s, In (s, o) spellings /\ forall c args, as_predicate c (OText s) args = as_predicate c (OMember o) args.
Proof.
  intros o. assert (H : exists s, In (s, o) spellings /\ supper s = s).
  { destruct o; cbn; eexists; (split; [|shelve]).
    all: repeat (first [left; reflexivity|right]).
    Unshelve. all: reflexivity. }
  destruct H as [s [H1 H2]]. exists s. split; [exact H1|]. intros c args. apply C293_operators. now rewrite H2.
Qed.
Print Assumptions C293_all_spelled.
Example C293_ex :
  as_predicate cRa (OText "not like") [YStr "a%"] = Ok (BBin LNotLike cRa (BX (XStatic (VStr "a%")))) /\
  as_predicate cRa (OText "!=") [YInt 3] = Ok (BBin LNotEqual cRa (BX (lit 3))) /\
  as_predicate cRa (OText "NOT IN") [YInt 3] = Raise ValueError.
Proof. repeat split. Qed.

(** ** C294: comparisons take exactly one operand. *)
Theorem C294_comparison : forall c o args p, o <> LBetween -> o <> LoIn ->
  (as_predicate c (OMember o) args = Ok p <-> exists v e, args = [v] /\ denotes v e /\ p = BBin o c e) /\
  (List.length args <> 1 -> as_predicate c (OMember o) args = Raise ValueError).
Proof.
  intros c o args p H1 H2.
  assert (E : as_predicate c (OMember o) args = match args with [a] => rbind (as_expression a) (fun e => Ok (BBin o c e)) | _ => Raise ValueError end)
    by (unfold as_predicate; cbn [resolve_op rbind]; destruct o; congruence || reflexivity).
  rewrite E. clear E. destruct args as [|a [|b r]].
  - split; [split; [discriminate|intros (v & e & X & _); discriminate]|reflexivity].
  - split; [|cbn; congruence]. destruct (C292_as_expression a) as [HA _]. destruct (as_expression a) as [e|x] eqn:Ea; cbn [rbind].
    + split.
      * intros X. injection X as <-. exists a, e. repeat split. now apply HA.
      * intros (v & e' & X & D & ->). injection X as <-. apply HA in D. congruence.
    + split; [discriminate|]. intros (v & e' & X & D & ->). injection X as <-. apply HA in D. congruence.
  - split; [split; [discriminate|intros (v & e & X & _); discriminate]|reflexivity].
Qed.
Print Assumptions C294_comparison.
Example C294_ex :
  as_predicate cRa (OMember LEqual) [YCol cSc] = Ok (BBin LEqual cRa (BX (XCol cSc))) /\
  as_predicate cRa (OMember LEqual) [YInt 1; YInt 2] = Raise ValueError.
Proof. repeat split. Qed.

(** ** C295: BETWEEN takes two values or a pair.
    Partial: a single string of two characters is taken apart as well, see below. *)
Theorem C295_between_partial : forall c args,
  (forall lo hi l h, interval args lo hi -> denotes lo l -> denotes hi h -> as_predicate c (OMember LBetween) args = Ok (BBetween c l h)) /\
  (forall p, as_predicate c (OMember LBetween) args = Ok p -> (forall s, args <> [YStr s]) ->
     exists lo hi l h, interval args lo hi /\ denotes lo l /\ denotes hi h /\ p = BBetween c l h).
Proof.
  intros c args. unfold as_predicate. cbn [resolve_op rbind]. split.
  - intros lo hi l h Hi Hl Hh. apply C292_as_expression in Hl. apply C292_as_expression in Hh.
    inversion Hi; subst; cbn [bounds unpack_pair unpack2 rbind fst snd]; rewrite Hl; cbn [rbind]; rewrite Hh; reflexivity.
  - intros p H Hn. destruct (bounds args) as [[lo hi]|x] eqn:B; [|discriminate]. cbn [rbind fst snd] in H.
    destruct (as_expression lo) as [l|] eqn:El; [|discriminate]. cbn [rbind] in H.
    destruct (as_expression hi) as [h|] eqn:Eh; [|discriminate]. cbn [rbind] in H. injection H as <-.
    apply C292_as_expression in El. apply C292_as_expression in Eh. exists lo, hi, l, h. repeat split; auto.
    destruct args as [|a [|b r]]; cbn [bounds] in B; [discriminate| |injection B as <- <-; constructor].
    destruct a as [|z|b|s|e'|q|q|t|t]; cbn [unpack_pair] in B; try discriminate; try (contradiction (Hn s eq_refl)).
    all: destruct t as [|x [|y [|w t]]]; cbn in B; try discriminate; injection B as <- <-; constructor.
Qed.
Print Assumptions C295_between_partial.
(** Neither two values nor a pair, but accepted: [R.a BETWEEN 'a' AND 'z'] is built from the single value 'az'. *)
Theorem C295_between_refuted : exists c args p,
  as_predicate c (OMember LBetween) args = Ok p /\ forall lo hi, ~ interval args lo hi.
Proof.
  exists cRa, [YStr "az"], (BBetween cRa (BX (XStatic (VStr "a"))) (BX (XStatic (VStr "z")))).
  split; [reflexivity|]. intros lo hi H. inversion H.
Qed.
Print Assumptions C295_between_refuted.
Example C295_ex :
  as_predicate cRa (OText "between") [YTuple [YInt 1; YInt 5]] = Ok (BBetween cRa (BX (lit 1)) (BX (lit 5))) /\
  as_predicate cRa (OText "between") [YInt 1; YInt 5; YInt 7] = Ok (BBetween cRa (BX (lit 1)) (BX (lit 5))) /\
  as_predicate cRa (OText "between") [YTuple [YInt 1; YInt 5; YInt 7]] = Raise ValueError.
Proof. repeat split. Qed.

(** ** C296: IN takes values and iterables of values.
    Partial: iterables may not be nested any further, see below. *)
Lemma flatten_leaves args : (forall v, In v args -> shallow v) -> flatten args = flat_map leaves args.
Proof.
  assert (S1 : forall l, (forall x, In x l -> scalar x) -> flat_map leaves l = l).
  { induction l as [|x l IH]; [reflexivity|]. intros H. cbn [flat_map]. rewrite IH by (intros y I; apply H; now right).
    assert (Hx : scalar x) by (apply H; now left). destruct x; cbn in *; contradiction || reflexivity. }
  induction args as [|v r IH]; [reflexivity|]. intros H. unfold flatten in *. cbn [flat_map]. rewrite IH by (intros y I; apply H; now right).
  f_equal. assert (Hv : shallow v) by (apply H; now left). destruct v; cbn [leaves]; try reflexivity; symmetry; apply S1; exact Hv.
Qed.
Lemma mapM_denotes vs es : rmapM as_expression vs = Ok es <-> Forall2 denotes vs es.
Proof.
  revert es. induction vs as [|v vs IH]; intros es; cbn [rmapM].
  - split; [intros H; injection H as <-; constructor|intros H; inversion H; reflexivity].
  - destruct (C292_as_expression v) as [HA _]. destruct (as_expression v) as [e|x] eqn:Ev; cbn [rbind].
    + destruct (rmapM as_expression vs) as [es'|x]; cbn [rbind].
      * split; [intros H; injection H as <-; constructor; [now apply HA|now apply IH]|].
        intros H. inversion H; subst. match goal with D : denotes v _ |- _ => apply HA in D end.
        match goal with D : Forall2 _ _ _ |- _ => apply IH in D end. congruence.
      * split; [discriminate|]. intros H. inversion H; subst. match goal with D : Forall2 _ vs _ |- _ => apply IH in D end. discriminate.
    + split; [discriminate|]. intros H. inversion H; subst. match goal with D : denotes v _ |- _ => apply HA in D end. discriminate.
Qed.
Theorem C296_in_partial : forall c args p, (forall v, In v args -> shallow v) ->
  (as_predicate c (OMember LoIn) args = Ok p <-> exists es, Forall2 denotes (flat_map leaves args) es /\ es <> [] /\ p = BIn c es) /\
  (flat_map leaves args = [] -> as_predicate c (OMember LoIn) args = Raise ValueError).
Proof.
  intros c args p H. unfold as_predicate. cbn [resolve_op rbind]. rewrite (flatten_leaves args H). split.
  - pose proof (mapM_denotes (flat_map leaves args)) as M. destruct (rmapM as_expression (flat_map leaves args)) as [es|x]; cbn [rbind].
    + split.
      * intros E. exists es. destruct es as [|e r]; [discriminate|]. injection E as <-. repeat split; [now apply M|discriminate].
      * intros (es' & F & N & ->). apply M in F. injection F as ->. destruct es'; [congruence|reflexivity].
    + split; [discriminate|]. intros (es' & F & _). apply M in F. discriminate.
  - intros ->. reflexivity.
Qed.
Print Assumptions C296_in_partial.
(** Nested iterables: a list inside of a list is an error, a tuple inside of one is kept as a single value. *)
Theorem C296_in_refuted : exists c args1 args2 args3 es,
  Forall2 denotes (flat_map leaves args1) es /\ Forall2 denotes (flat_map leaves args2) es /\ Forall2 denotes (flat_map leaves args3) es /\
  as_predicate c (OMember LoIn) args1 = Ok (BIn c es) /\
  as_predicate c (OMember LoIn) args2 = Raise TypeError /\
  as_predicate c (OMember LoIn) args3 = Ok (BIn c [BTup [YInt 1; YInt 2]]).
Proof.
  exists cRa, [YList [YInt 1; YInt 2]], [YList [YList [YInt 1; YInt 2]]], [YTuple [YTuple [YInt 1; YInt 2]]], [BX (lit 1); BX (lit 2)].
  repeat split; repeat constructor.
Qed.
Print Assumptions C296_in_refuted.
Example C296_ex : (forall v, In v [YInt 1; YTuple [YStr "x"; YCol cSc]] -> shallow v) /\
  as_predicate cRa (OText "in") [YInt 1; YTuple [YStr "x"; YCol cSc]] = Ok (BIn cRa [BX (lit 1); BX (XStatic (VStr "x")); BX (XCol cSc)]).
Proof. split; [|reflexivity]. intros v [<-|[<-|[]]]; cbn; [exact I|]. intros x [<-|[<-|[]]]; exact I. Qed.

(** ** C297: the tables that have to be available for a predicate. *)
Notation rlcol := (fun c => olist (c_tab c)).
Notation rlstar := (fun _ : option tbl => @nil tbl).
Lemma occX_needs unb t e : occX rlcol rlstar unb t e -> needs unb t e.
Proof.
  induction 1 as [c H|s H|q H|e e' He' _ IH]; [|contradiction|now constructor|eapply nd_part; eauto].
  constructor. destruct (c_tab c) as [u|]; cbn in H; [destruct H as [->|[]]; reflexivity|contradiction].
Qed.
Lemma needs_occX unb t e : starless e -> needs unb t e -> occX rlcol rlstar unb t e.
Proof.
  intros Hs H. induction H as [c H| |q H|e e' He' _ IH].
  - apply oc_col. rewrite H. now left.
  - inversion Hs as [e' H1 H2]; subst. contradiction (H1 t eq_refl).
  - now apply oc_sub.
  - eapply oc_part; [exact He'|]. apply IH. inversion Hs; subst; auto.
Qed.
Lemma pflat_pexprs {E X} (f : E -> list X) p x : In x (pflat f p) <-> exists e, In e (pexprs p) /\ In x (f e).
Proof.
  revert p. fix F 1. intros [op a b|a lo hi|a vs|op a|p|ps|ps]; cbn [pflat pexprs].
  - rewrite in_app_iff. cbn [In]. split; [intros [H|H]; eauto 6|intros (e & [<-|[<-|[]]] & H); auto].
  - rewrite !in_app_iff. cbn [In]. split; [intros [H|[H|H]]; eauto 7|intros (e & [<-|[<-|[<-|[]]]] & H); auto].
  - rewrite in_app_iff, in_flat_map. cbn [In]. split; [intros [H|(e & H1 & H2)]; eauto 6|intros (e & [<-|H1] & H); eauto].
  - cbn [In]. split; [intros H; eauto|intros (e & [<-|[]] & H); auto].
  - apply F.
  - induction ps as [|p ps IH]; cbn [flat_map]; [cbn; firstorder|]. rewrite in_app_iff, IH, (F p).
    setoid_rewrite in_app_iff. firstorder.
  - induction ps as [|p ps IH]; cbn [flat_map]; [cbn; firstorder|]. rewrite in_app_iff, IH, (F p).
    setoid_rewrite in_app_iff. firstorder.
Qed.
(** No table is reported that is not needed: for all predicates. *)
Theorem C297_required_needed : forall unb p t, In t (required_tables unb p) -> exists e, In e (pexprs p) /\ needs unb t e.
Proof.
  intros unb p t H. unfold required_tables in H. apply pflat_pexprs in H as (e & H1 & H2). exists e. split; [exact H1|].
  apply occX_needs. eapply walk_sound. left. exact H2.
Qed.
Print Assumptions C297_required_needed.
(** Exactly the needed tables are reported, if there is no [R.*] and no part that iterchildren() skips.
    Missing: the excluded shapes, see below. *)
Theorem C297_required_partial : forall unb p t,
  (forall e, In e (pexprs p) -> covered true false e /\ starless e) ->
  (In t (required_tables unb p) <-> exists e, In e (pexprs p) /\ needs unb t e).
Proof.
  intros unb p t H. split; [apply C297_required_needed|]. intros (e & He & Hn). unfold required_tables. apply pflat_pexprs.
  exists e. split; [exact He|]. destruct (H e He) as [Hc Hs]. eapply walk_complete; [exact Hc|]. now apply needs_occX.
Qed.
Print Assumptions C297_required_partial.
Ltac allstarless := constructor; [intros ?; discriminate|let x := fresh in let H := fresh in intros x H; cbn in H; repeat (destruct H as [<-|H]; [allstarless|]); try destruct H].
(** [R.a = (SELECT MIN(S.b) FROM S)] requires R only; with a reference to T inside of the subquery, T is required as well. *)
Example C297_ex :
  let p q := PBin OpEq (XCol cRa) (XSub q) in
  let unb q := if sq_id q =? 1 then [] else [2] in
  let q1 := mksq 1 [1] [cSc] in let q2 := mksq 2 [1; 2] [cSc; cTd] in
  (forall e, In e (pexprs (p q2)) -> covered true false e /\ starless e) /\
  required_tables unb (p q1) = [0] /\ required_tables unb (p q2) = [0; 2].
Proof. cbn. split; [|split; reflexivity]. intros e [<-|[<-|[]]]; split; [allparts|allstarless|allparts|allstarless]. Qed.
(** Tables are missed: columns that are results of a CASE, FILTER conditions of aggregates, and [R.*]. *)
Theorem C297_required_refuted : exists unb p1 p2 p3 t,
  (exists e, In e (pexprs p1) /\ needs unb t e) /\ ~ In t (required_tables unb p1) /\
  (exists e, In e (pexprs p2) /\ needs unb t e) /\ ~ In t (required_tables unb p2) /\
  (exists e, In e (pexprs p3) /\ needs unb t e) /\ ~ In t (required_tables unb p3).
Proof.
  exists (fun _ => []),
    (PBin OpEq (XCol cRa) (XCase [(XP (PBin OpEq (XCol cRb) (lit 1)), XCol cSc)] None None)),
    (PBin OpEq (XCol cRa) (XFun "COUNT" [XCol cRb] false (Some (PBin OpEq (XCol cSc) (lit 1))))),
    (PBin OpEq (XCol cRa) (XFun "COUNT" [XStar (Some 1)] false None)), 1.
  cbn. split; [|split; [lia|split; [|split; [lia|split; [|lia]]]]]; (eexists; split; [right; left; reflexivity|]).
  - eapply nd_part with (e' := XCol cSc); [cbn; tauto|now constructor].
  - eapply nd_part with (e' := XCol cSc); [cbn; tauto|now constructor].
  - eapply nd_part with (e' := XStar (Some 1)); [cbn; tauto|constructor].
Qed.
Print Assumptions C297_required_refuted.

(** ** C298: output names of a SELECT clause. *)
Definition step_out (out : dict string col) (t : sx * string) : dict string col :=
  if String.eqb (snd t) "" then out else match dedup (x_columns (fst t)) with [c] => dset out (snd t) c | _ => out end.
(** Exactly one column is reported for the expression. *)
Definition sole (e : sx) (c : col) : Prop := forall c', In c' (x_columns e) <-> c' = c.
Lemma dedup_sole e c : dedup (x_columns e) = [c] <-> sole e c.
Proof.
  split.
  - intros H c'. rewrite <- dedup_In, H. cbn. intuition.
  - intros H. pose proof (dedup_NoDup (x_columns e)) as ND.
    assert (A : forall x, In x (dedup (x_columns e)) <-> x = c) by (intros x; rewrite dedup_In; apply H).
    destruct (dedup (x_columns e)) as [|a [|b l]].
    + contradiction (proj2 (A c) eq_refl).
    + f_equal. apply A. now left.
    + exfalso. inversion ND; subst. assert (a = c) by (apply A; now left). assert (b = c) by (apply A; right; now left).
      subst. match goal with N : ~ In _ _ |- _ => apply N; now left end.
Qed.
Lemma step_other out t n : snd t <> n -> dget (step_out out t) n = dget out n.
Proof.
  intros H. unfold step_out. destruct (String.eqb (snd t) ""); [reflexivity|].
  destruct (dedup (x_columns (fst t))) as [|c [|? ?]]; try reflexivity. apply dset_other. congruence.
Qed.
Lemma out_names targets : output_names targets = fold_left step_out targets [].
Proof. reflexivity. Qed.
Lemma out_last targets n c : n <> ""%string ->
  (dget (output_names targets) n = Some c <-> exists e, last_named (fun e => exists c, sole e c) n targets e /\ sole e c).
Proof.
  intros Hn. rewrite out_names. induction targets as [|[e m] ts IH] using rev_ind.
  - cbn. split; [discriminate|]. intros (e & H & _). inversion H as [b x a _ _ E]. destruct b; discriminate.
  - rewrite fold_left_app. cbn [fold_left]. set (out := fold_left step_out ts []) in *.
    assert (L : forall e', last_named (fun e => exists c, sole e c) n (ts ++ [(e, m)]) e' <->
              (m = n /\ (exists c, sole e c) /\ e' = e) \/ (~ (m = n /\ exists c, sole e c) /\ last_named (fun e => exists c, sole e c) n ts e')).
    { intros e'. split.
      - intros H. inversion H as [b x a Px Ha E]. subst x. destruct a as [|t a] using rev_ind.
        + apply app_inj_tail in E as [-> E]. injection E as <- <-. left. auto.
        + clear IHa. rewrite app_comm_cons, app_assoc in E. apply app_inj_tail in E as [<- ->]. right. split.
          * intros [-> P]. apply (Ha e); [apply in_or_app; right; now left|exact P].
          * constructor; [exact Px|]. intros y Iy. apply Ha. apply in_or_app. now left.
      - intros [(-> & P & ->)|[N H]].
        + constructor; [exact P|]. intros y [].
        + inversion H as [b x a Px Ha E]. subst. rewrite <- app_assoc. cbn [app]. constructor; [exact Px|].
          intros y Iy. apply in_app_iff in Iy as [Iy|[Iy|[]]]; [now apply Ha|]. injection Iy as -> ->. intros P. apply N. auto. }
    destruct (string_dec m n) as [->|Hm].
    + unfold step_out. cbn [snd fst]. destruct (String.eqb_spec n ""); [contradiction|].
      destruct (dedup (x_columns e)) as [|c1 [|c2 l]] eqn:D.
      * rewrite IH. split; intros (e' & H1 & H2).
        -- exists e'. split; [|exact H2]. apply L. right. split; [|exact H1]. intros [_ [c' S]]. apply dedup_sole in S. congruence.
        -- exists e'. split; [|exact H2]. apply L in H1 as [(_ & [c' S] & ->)|[_ H1]]; [apply dedup_sole in S; congruence|exact H1].
      * rewrite dset_same. apply dedup_sole in D. split.
        -- intros E. injection E as <-. exists e. split; [|exact D]. apply L. left. eauto.
        -- intros (e' & H1 & H2). apply L in H1 as [(_ & _ & ->)|[N _]]; [|exfalso; apply N; eauto].
           f_equal. symmetry. apply D. apply H2. reflexivity.
      * rewrite IH. split; intros (e' & H1 & H2).
        -- exists e'. split; [|exact H2]. apply L. right. split; [|exact H1]. intros [_ [c' S]]. apply dedup_sole in S. congruence.
        -- exists e'. split; [|exact H2]. apply L in H1 as [(_ & [c' S] & ->)|[_ H1]]; [apply dedup_sole in S; congruence|exact H1].
    + rewrite step_other by exact Hm. rewrite IH. split; intros (e' & H1 & H2); exists e'; (split; [|exact H2]).
      * apply L. right. split; [|exact H1]. intros [X _]. contradiction.
      * apply L in H1 as [[X _]|[_ H1]]; [contradiction|exact H1].
Qed.
Lemma out_empty targets : dget (output_names targets) ""%string = None.
Proof.
  rewrite out_names. induction targets as [|[e m] ts IH] using rev_ind; [reflexivity|]. rewrite fold_left_app. cbn [fold_left].
  destruct (string_dec m "") as [->|Hm]; [exact IH|]. now rewrite step_other.
Qed.
(** Each output name is the alias of a projection that contains the column; an alias of a plain column that no later
    projection reuses is always reported, with its column. *)
Theorem C298_output_names_partial : forall targets n c,
  (dget (output_names targets) n = Some c -> exists e, In (e, n) targets /\ n <> ""%string /\ occ c e) /\
  (forall before after, targets = before ++ (XCol c, n) :: after -> n <> ""%string -> (forall e, ~ In (e, n) after) ->
     dget (output_names targets) n = Some c).
Proof.
  intros targets n c. split.
  - intros H. assert (Hn : n <> ""%string) by (intros ->; rewrite out_empty in H; discriminate).
    apply (out_last targets n c Hn) in H as (e & H1 & H2). exists e. split; [|split; [exact Hn|]].
    + inversion H1; subst. apply in_or_app. right. now left.
    + apply (proj1 (C05_reported_occurs e)). apply H2. reflexivity.
  - intros before after -> Hn Ha. apply (out_last _ n c Hn). exists (XCol c).
    assert (S0 : sole (XCol c) c) by (intros c'; cbn; intuition).
    split; [|exact S0]. constructor; [eauto|]. intros e' H. contradiction (Ha e' H).
Qed.
Print Assumptions C298_output_names_partial.
(** Names are reported for projections that are not 1:1: [MIN(R.a) AS m] is said to be R.a, and so is
    [CASE WHEN R.a = 1 THEN S.c END AS x]. *)
Theorem C298_output_names_refuted : exists targets n1 n2 c,
  (forall e, In (e, n1) targets -> exists f, e = XFun f [XCol c] false None) /\ dget (output_names targets) n1 = Some c /\
  (exists e c', In (e, n2) targets /\ occ c' e /\ c' <> c) /\ dget (output_names targets) n2 = Some c.
Proof.
  exists [(XFun "MIN" [XCol cRa] false None, "m"%string);
          (XCase [(XP (PBin OpEq (XCol cRa) (lit 1)), XCol cSc)] None None, "x"%string)], "m"%string, "x"%string, cRa.
  split; [|split; [reflexivity|split; [|reflexivity]]].
  - intros e [H|[H|[]]]; [|discriminate]. injection H as <-. eauto.
  - eexists _, cSc. split; [right; left; reflexivity|]. split; [|discriminate].
    eapply occ_part with (e' := XCol cSc); [cbn; tauto|constructor].
Qed.
Print Assumptions C298_output_names_refuted.
Example C298_ex :
  output_names [(XCol cRa, "foo"); (XCol cRb, "bar"); (XFun "MY_UDF" [XCol cRa; XCol cRb] false None, "c"); (XCol cSc, ""); (XCol cTd, "foo")]%string
  = [("foo", cTd); ("bar", cRb)]%string.
Proof. reflexivity. Qed.
(** What exactly is reported: the last projection of that name whose columns() is a single column. *)
Theorem C298_output_names_exact_partial : forall targets n c,
  dget (output_names targets) n = Some c <->
  n <> ""%string /\ exists e, last_named (fun e => exists c, sole e c) n targets e /\ sole e c.
Proof.
  intros targets n c. destruct (string_dec n "") as [->|Hn].
  - rewrite out_empty. split; [discriminate|intros [H _]; congruence].
  - rewrite (out_last targets n c Hn). tauto.
Qed.
Print Assumptions C298_output_names_exact_partial.
