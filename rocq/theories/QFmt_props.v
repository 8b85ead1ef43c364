(** C244: the quick format of a query has the tokens of str(query). *)
From Coq Require Import String List Bool Arith Lia.
From Verif Require Import PyBase QFmt_model QFmt_spec QFmt_proofs QFmt_main.
Import ListNotations.
Open Scope string_scope.
Open Scope list_scope.

(** *** [pr (Some i)] is str() of the prettified expression *)
Lemma prettify_shape i e : is_leaf (prettify i e) = is_leaf e /\ is_compound (prettify i e) = is_compound e /\ (forall op, needs op (prettify i e) = needs op e) /\ forall t, braketify (prettify i e) t = braketify e t.
Proof. destruct e; repeat split. Qed.
Lemma in_prettify vs i : Forall (fun e => forall i, pr (Some i) e = pr None (prettify i e)) vs ->
  match map (prettify i) vs with [ESub _ _ as v] => pr None v | _ => paren (commas (map (pr None) (map (prettify i) vs))) end =
  match vs with [ESub _ _ as v] => pr (Some i) v | _ => paren (commas (map (pr (Some i)) vs)) end.
Proof.
  intros H. assert (X : map (pr None) (map (prettify i) vs) = map (pr (Some i)) vs) by (rewrite map_map; apply map_ext_Forall; eapply Forall_impl; [|exact H]; intros e He; cbn beta in *; rewrite He; reflexivity).
  destruct vs as [|v [|v' vs]]; [reflexivity| |].
  - cbn [map] in *. destruct v; try (cbn [prettify] in *; f_equal; f_equal; exact X). reflexivity.
  - rewrite X. cbn [map]. destruct v; reflexivity.
Qed.
Lemma pr_prettify e : forall i, pr (Some i) e = pr None (prettify i e).
Proof.
  set (R := fun e => forall i, pr (Some i) e = pr None (prettify i e)).
  assert (ML : forall l i, Forall R l -> map (pr None) (map (prettify i) l) = map (pr (Some i)) l) by (intros l i H; rewrite map_map; apply map_ext_Forall; eapply Forall_impl; [|exact H]; intros x Hx; symmetry; apply Hx).
  enough (K : R e /\ R (ENot e)) by apply K.
  assert (NI : forall e, match e with EIn _ _ => False | _ => True end -> R e -> R e /\ R (ENot e)).
  { intros x N Hx. split; [exact Hx|]. intros i. assert (E : forall m y, match y with EIn _ _ => False | _ => True end -> pr m (ENot y) = [W "NOT"; Sp] ++ pr m y) by (intros m y; destruct y; try reflexivity; intros []).
    rewrite (E _ _ N). cbn [prettify]. rewrite E, (Hx i); [reflexivity|]. destruct x; try exact I; destruct N. }
  apply (ie (fun e => R e /\ R (ENot e)) (fun _ => True) (fun _ => True) (fun _ => True)); clear e; auto; try (intros; apply NI; [exact I|]).
  - intros i; reflexivity.
  - intros i; reflexivity.
  - rename H into Ha, H0 into Hf. intros i. cbn [prettify pr]. rewrite ML by (eapply Forall_impl; [|exact Ha]; intros x Hx; apply Hx). rewrite map_length. f_equal. f_equal. destruct f as [x|]; [|reflexivity]. cbn [opt option_map]. destruct Hf as [Hx _]. rewrite (Hx i). reflexivity.
  - intros i; reflexivity.
  - intros i. cbn [prettify pr]. rewrite map_map. f_equal. f_equal; [|f_equal].
    + f_equal. destruct s as [x|]; [|reflexivity]. cbn in *. destruct H0 as [Hx _]. rewrite (Hx (i + 2)). reflexivity.
    + apply map_ext_Forall. eapply Forall_impl; [|exact H]. intros [x y] [[Hx _] [Hy _]]. cbn beta iota. rewrite (Hx (i + 2)), (Hy (i + 2)). reflexivity.
    + destruct e as [x|]; [|reflexivity]. cbn in *. destruct H1 as [Hx _]. rewrite (Hx (i + 2)). reflexivity.
  - intros i. cbn [prettify pr]. destruct (prettify_shape i e) as (-> & _). destruct H as [Hx _]. rewrite (Hx i). reflexivity.
  - intros i. cbn [prettify pr]. destruct (prettify_shape i a) as (_ & _ & -> & _). destruct (prettify_shape i b) as (_ & _ & -> & _). destruct H as [Ha _], H0 as [Hb _]. rewrite (Ha i), (Hb i). reflexivity.
  - intros i. cbn [prettify pr]. destruct H as [Ha _]. rewrite (Ha i). reflexivity.
  - intros i. cbn [prettify pr]. destruct H as [Ha _], H0 as [Hb _]. rewrite (Ha i), (Hb i). reflexivity.
  - intros i. cbn [prettify pr]. destruct H as [Ha _], H0 as [Hb _], H1 as [Hc _]. rewrite (Ha i), (Hb i), (Hc i). reflexivity.
  - intros a vs [Ha _] Hv. assert (Hv' : Forall R vs) by (eapply Forall_impl; [|exact Hv]; intros x Hx; apply Hx).
    split; intros i; pose proof (in_prettify vs i Hv') as K; cbn [prettify pr]; rewrite (Ha i); do 2 f_equal; symmetry; exact K.
  - intros i. cbn [prettify pr]. apply H.
  - intros i. cbn [prettify pr]. destruct H as [Ha _]. rewrite (Ha i). reflexivity.
  - destruct H as [_ H]. exact H.
  - intros i. cbn [prettify pr]. rewrite ML by (eapply Forall_impl; [|exact H]; intros x Hx; apply Hx). reflexivity.
  - intros i. cbn [prettify pr]. rewrite map_map. f_equal. f_equal. apply map_ext_Forall. eapply Forall_impl; [|exact H]. intros x [Hx _]. cbn beta. destruct (prettify_shape i x) as (_ & -> & _). rewrite (Hx i). reflexivity.
Qed.
(** formatting an expression that has been formatted before *)
Lemma prettify_twice e : forall i j, prettify i (prettify j e) = prettify i e.
Proof.
  apply (ie (fun e => forall i j, prettify i (prettify j e) = prettify i e) (fun _ => True) (fun _ => True) (fun _ => True)); clear e; auto; intros; cbn [prettify]; try (f_equal; auto);
  repeat match goal with
  | |- map _ (map _ _) = map _ _ => rewrite map_map; apply map_ext_Forall; eapply Forall_impl; [|eassumption]; cbn beta
  | |- option_map _ (option_map _ ?o) = option_map _ ?o => destruct o; [cbn in *; f_equal; auto|reflexivity]
  end; auto.
  intros [x y] [Hx Hy]. rewrite Hx, Hy. reflexivity.
Qed.

(** ** C244 *)
(** format_quick(query) and str(query) are the same tokens, also if more text follows, e.g. a semicolon. *)
Theorem C244_quick_format_tokens_partial q : ok_q q = true -> forall d, match d with W _ :: _ => False | _ => True end ->
  tokens (fq q ++ d) = tokens (strq q ++ d).
Proof. intros H d Hd. destruct main_all as (_ & _ & _ & M). destruct (M q H) as (A & _). apply A. exact Hd. Qed.
Print Assumptions C244_quick_format_tokens_partial.

(** The same for each expression, with every indentation. *)
Theorem C244_expression_tokens_partial e : ok_e e = true -> forall i, tokens (pr None (prettify i e)) = tokens (pr None e).
Proof.
  intros H i. destruct main_all as (M & _). destruct (M e) as (Q & _). destruct (Q H) as [A _]. rewrite <- pr_prettify. pose proof (eqv_use _ _ (A i) "" []) as K. rewrite !app_nil_r in K. exact K.
Qed.
Print Assumptions C244_expression_tokens_partial.

Definition simple_q (ctes : option (list cte * bool)) (ts : list (expr * option string)) (f : option (list string + list source)) (wh : option expr) (lim : option (option nat * option nat)) : query :=
  Query None None ctes None ts f wh None None None lim.
Definition lit (n : nat) : expr := ELit [Some n].
(** WITH c AS MATERIALIZED (SELECT R.a FROM R WHERE R.b = 'x'), d AS (...)
    SELECT DISTINCT ON (c.a) c.a AS u, CASE WHEN ... END, count(DISTINCT R.b) FROM c, LATERAL (SELECT ...) AS s WHERE ... AND ... GROUP BY ... *)
Example C244_ex :
  let inner := simple_q None [(ECol "R.a", None)] (Some (inl ["R"; "S"; "T"; "U"])) (Some (EAnd [EBin "=" (ECol "R.b") (lit 1); ENot (EIn (ECol "R.c") [ESub None (simple_q None [(ECol "x", None)] (Some (inl ["X"])) None None)])])) None in
  let q := Query (Some [P "/*+"; W "h"; P "*/"]) (Some (w "EXPLAIN")) (Some ([CQuery inner "c" (Some true); CQuery inner "d" None], false)) (Some [ECol "c.a"])
    [(ECol "c.a", Some "u"); (ECase None [(EBin "<" (ECol "c.a") (lit 2), lit 3)] None (Some (lit 4)), None); (EFun "count" [ECol "R.b"] true None, None)]
    (Some (inr [SDirect "c"; SSub inner true (Some "s")])) (Some (EAnd [EOr [EBin "=" (ECol "c.a") (lit 1); ENot (EExists (ESub None inner))]; EBetween (ECol "s.a") (lit 1) (EMath "*" (lit 2) (EMath "-" (lit 3) (lit 1)))]))
    (Some ([ECol "c.a"; ECol "c.b"; ECol "c.c"; ECol "c.d"], true)) (Some (EBin ">" (EFun "max" [ECol "c.a"] false None) (lit 1))) (Some [(ECol "c.a", [Sp; W "DESC"])]) (Some (Some 10, None)) in
  ok_q q = true /\ fq q <> strq q /\ tokens (fq q) = tokens (strq q) /\ List.length (tokens (fq q)) > 150.
Proof. vm_compute. repeat split; try discriminate. lia. Qed.

(** What makes the property false in general: *)
Definition differs (q : query) : Prop := tokens (fq q) <> tokens (strq q).
Theorem C244_quick_format_tokens_refuted :
  (* a literal with a newline in a subquery: two blanks are inserted into the literal *)
  (exists q, differs (simple_q None [(ECol "R.a", None)] (Some (inl ["R"])) (Some (EBin "=" (ECol "R.a") (ESub None q))) None) /\ tokens (fq q) = tokens (strq q)) /\
  (* CAST(R.a AS int[]) becomes CAST(R.a AS int) *)
  differs (simple_q None [(ECast (ECol "R.a") "int" true, None)] (Some (inl ["R"])) None None) /\
  tokens (fq (simple_q None [(ECast (ECol "R.a") "int" true, None)] (Some (inl ["R"])) None None)) =
    tokens (strq (simple_q None [(ECast (ECol "R.a") "int" false, None)] (Some (inl ["R"])) None None)) /\
  (* WITH v AS MATERIALIZED (VALUES ...) loses MATERIALIZED *)
  tokens (fq (simple_q (Some ([CValues [[lit 1]] "v" ["a"] (Some true)], false)) [(ECol "v.a", None)] (Some (inl ["v"])) None None)) =
    tokens (strq (simple_q (Some ([CValues [[lit 1]] "v" ["a"] None], false)) [(ECol "v.a", None)] (Some (inl ["v"])) None None)) /\
  (* LIMIT 0 is not part of the formatted query: all rows are produced *)
  tokens (fq (simple_q None [(ECol "R.a", None)] (Some (inl ["R"])) None (Some (Some 0, None)))) =
    tokens (strq (simple_q None [(ECol "R.a", None)] (Some (inl ["R"])) None None)) /\
  differs (simple_q None [(ECol "R.a", None)] (Some (inl ["R"])) None (Some (Some 0, None))) /\
  (* LIMIT and OFFSET change places, VALUES among several CTEs becomes a SELECT, CASE as result of CASE loses its brackets *)
  differs (simple_q None [(ECol "R.a", None)] (Some (inl ["R"])) None (Some (Some 1, Some 1))) /\
  differs (simple_q (Some ([CValues [[lit 1]] "v" ["a"] None; CValues [[lit 1]] "u" ["a"] None], false)) [(ECol "v.a", None)] (Some (inl ["v"])) None None) /\
  differs (simple_q None [(ECase None [(EPred (ECol "R.a"), EMath "+" (lit 1) (lit 2))] None None, None)] (Some (inl ["R"])) None None).
Proof.
  split; [exists (simple_q None [(ELit [Some 1; None; Some 2], None)] (Some (inl ["S"])) None None); split; [vm_compute; intros H; discriminate|vm_compute; reflexivity]|].
  repeat split; try (vm_compute; reflexivity); vm_compute; intros H; discriminate.
Qed.
Print Assumptions C244_quick_format_tokens_refuted.
