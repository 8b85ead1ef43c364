(** Property theorems for C299-C302 (writing queries for MySQL). *)
From Coq Require Import List Bool Arith Ascii String Lia.
From Verif Require Import PyBase MyFmt_model MyFmt_spec.
Import ListNotations.

(** ** C299: literals are read by MySQL as the values they stand for. *)
Lemma aeqb_refl c : Ascii.eqb c c = true. Proof. apply Ascii.eqb_refl. Qed.
Lemma aeqb_neq c d : c <> d -> Ascii.eqb c d = false. Proof. intros H. now apply Ascii.eqb_neq. Qed.
Lemma read_std s : ~ In bsl s -> read_to sq (flat_map (fun c => if Ascii.eqb c sq then [sq; sq] else [c]) s ++ [sq]) = Some (s, []).
Proof.
  induction s as [|c s IH]; intros H; [reflexivity|]. cbn [flat_map].
  assert (IH' := IH (fun I => H (or_intror I))). clear IH.
  destruct (Ascii.eqb_spec c sq) as [->|N].
  - cbn [app read_to]. rewrite aeqb_refl. rewrite IH'. reflexivity.
  - cbn [app read_to]. rewrite (aeqb_neq c sq N), (aeqb_neq c bsl) by (intros ->; apply H; now left). rewrite IH'. reflexivity.
Qed.
Lemma read_dq s : ~ In bsl s -> ~ In dq s -> read_to dq (s ++ [dq]) = Some (s, []).
Proof.
  induction s as [|c s IH]; intros H1 H2; [reflexivity|]. cbn [app read_to].
  rewrite (aeqb_neq c dq) by (intros ->; apply H2; now left). rewrite (aeqb_neq c bsl) by (intros ->; apply H1; now left).
  rewrite IH; [reflexivity| |]; intros I; [apply H1|apply H2]; now right.
Qed.
Lemma unescape_len c : List.length (unescape c) = 1 \/ (List.length (unescape c) = 2 /\ (c = "%"%char \/ c = "_"%char)).
Proof.
  unfold unescape.
  repeat match goal with |- context [if Ascii.eqb ?a ?b then _ else _] => destruct (Ascii.eqb a b); [left; reflexivity|] end.
  destruct (Ascii.eqb_spec c "%"%char) as [->|]; [right; cbn; auto|]. destruct (Ascii.eqb_spec c "_"%char) as [->|]; [right; cbn; auto|].
  left. reflexivity.
Qed.
(** A string with an unescaped double quote is cut short. *)
Lemma read_short n : forall s out, List.length s <= n -> read_to dq (s ++ [dq]) = Some (out, []) ->
  List.length out <= List.length s /\ (In dq s -> List.length out < List.length s).
Proof.
  induction n as [|n IH]; intros s out Hl H.
  - destruct s; [|cbn in Hl; lia]. cbn in H. injection H as <-. cbn. split; [lia|contradiction].
  - destruct s as [|c s]; [cbn in H; injection H as <-; cbn; split; [lia|contradiction]|]. cbn [List.length] in *. cbn [app read_to] in H.
    destruct (Ascii.eqb_spec c dq) as [->|N].
    + destruct s as [|c' s].
      * cbn [app] in H. rewrite aeqb_refl in H. cbn in H. discriminate.
      * cbn [app] in H. destruct (Ascii.eqb_spec c' dq) as [->|N'].
        -- destruct (read_to dq (s ++ [dq])) as [[o r]|] eqn:R; [|discriminate]. cbn in H. injection H as <- ->.
           cbn [List.length] in *. destruct (IH s o ltac:(lia) R) as [L _]. split; [lia|intros _; lia].
        -- injection H as <- H. discriminate.
    + destruct (Ascii.eqb_spec c bsl) as [->|N'].
      * destruct s as [|c' s]; [cbn in H; discriminate|]. cbn [app] in H.
        destruct (read_to dq (s ++ [dq])) as [[o r]|] eqn:R; [|discriminate]. cbn [option_map fst snd] in H. injection H as <- ->.
        cbn [List.length] in *. destruct (IH s o ltac:(lia) R) as [L1 L2]. rewrite app_length.
        destruct (unescape_len c') as [->|[-> E]]; [split; [lia|intros _; lia]|]. split; [lia|].
        intros [X|[X|X]]; [discriminate|subst c'; destruct E; discriminate|]. specialize (L2 X). lia.
      * destruct (read_to dq (s ++ [dq])) as [[o r]|] eqn:R; [|discriminate]. cbn [option_map fst snd] in H. injection H as <- ->.
        destruct (IH s o ltac:(lia) R) as [L1 L2]. cbn [List.length]. split; [lia|]. intros [X|X]; [congruence|]. specialize (L2 X). lia.
Qed.
(** What holds.  Missing: NULL and double quotes without ANSI_QUOTES, backslashes. *)
Theorem C299_literal_partial : forall ansi v, wf_lit v ->
  (match v with LNull => ansi = true | LNum _ => True | LTxt s => ~ In bsl s /\ (ansi = false -> ~ In dq s) end) ->
  exists e t, format_expr ansi (ELit v) = Ok e /\ lit_text e t /\ reads ansi t v.
Proof.
  intros ansi v Hw H. destruct ansi; cbn [format_expr replace_static replace_casts prettify]; eexists _, _; (split; [reflexivity|split; [constructor|]]).
  - destruct v as [|t|s]; cbn [std_lit].
    + split; reflexivity.
    + destruct t as [|c t]; cbn in Hw; [contradiction|]. unfold reads. destruct (Ascii.eqb_spec c sq) as [->|]; [discriminate|].
      destruct (Ascii.eqb_spec c dq) as [->|]; [discriminate|]. now rewrite Hw.
    + cbn [app reads]. rewrite aeqb_refl. exists s. split; [|reflexivity]. apply read_std, H.
  - destruct v as [|t|s]; cbn [my_lit].
    + discriminate.
    + destruct t as [|c t]; cbn in Hw; [contradiction|]. unfold reads. destruct (Ascii.eqb_spec c sq) as [->|]; [discriminate|].
      destruct (Ascii.eqb_spec c dq) as [->|]; [discriminate|]. now rewrite Hw.
    + cbn [app reads]. change (Ascii.eqb dq sq) with false. rewrite aeqb_refl. split; [reflexivity|]. exists s.
      split; [|reflexivity]. apply read_dq; tauto.
Qed.
Print Assumptions C299_literal_partial.
Example C299_ex :
  (exists t, lit_text (EMyLit (LTxt (la "it's"))) t /\ reads false t (LTxt (la "it's")) /\ string_of_list_ascii t = """it's"""%string) /\
  reads true (std_lit (LTxt (la "it's"))) (LTxt (la "it's")).
Proof.
  split; [eexists; split; [constructor|split; [|reflexivity]]|]; cbn.
  - split; [reflexivity|]. eexists; split; reflexivity.
  - eexists; split; reflexivity.
Qed.
(** Without ANSI_QUOTES, NULL becomes the string 'None', no string with a double quote can be read back, and backslashes are lost. *)
Theorem C299_literal_refuted :
  (forall e t v, format_expr false (ELit LNull) = Ok e -> lit_text e t -> reads false t v -> v = LTxt (la "None")) /\
  (forall s e t, In dq s -> format_expr false (ELit (LTxt s)) = Ok e -> lit_text e t -> ~ reads false t (LTxt s)) /\
  (exists s, forall ansi e t, format_expr ansi (ELit (LTxt s)) = Ok e -> lit_text e t -> ~ reads ansi t (LTxt s)).
Proof.
  split; [|split].
  - intros e t v H L R. cbn in H. injection H as <-. inversion L; subst. cbn in R. destruct R as [_ (s & E & ->)]. injection E as <-. reflexivity.
  - intros s e t Hs H L R. cbn in H. injection H as <-. inversion L; subst. cbn [my_lit app reads] in R.
    change (Ascii.eqb dq sq) with false in R. rewrite aeqb_refl in R. destruct R as [_ (s' & E & X)]. injection X as <-.
    destruct (read_short _ s s (le_n _) E) as [_ F]. specialize (F Hs). lia.
  - exists (la "C:\new"). intros ansi e t H L R. destruct ansi; cbn in H; injection H as <-; inversion L; subst; cbn in R.
    + destruct R as (s & E & X). injection E as <-. discriminate.
    + destruct R as [_ (s & E & X)]. injection E as <-. discriminate.
Qed.
Print Assumptions C299_literal_refuted.

(** ** C300: EXPLAIN clauses have the syntax of MySQL.
    Partial: only if no format is requested. *)
Theorem C300_explain_partial : forall a, mysql_explain a None (formatted_explain {| x_analyze := a; x_format := None |}).
Proof. intros []; constructor. Qed.
Print Assumptions C300_explain_partial.
(** The clause that is built and thrown away would be correct. *)
Theorem C300_clause_partial : forall x, mysql_explain (x_analyze x) (x_format x) (my_explain x).
Proof. intros [[] [f|]]; [apply me_both|apply me_analyze|apply me_format|apply me_plain]. Qed.
Print Assumptions C300_clause_partial.
(** With a format, which is the default of Explain.plan(), the text is not understood by MySQL. *)
Theorem C300_explain_refuted : forall a f a' f', ~ mysql_explain a' f' (formatted_explain {| x_analyze := a; x_format := Some f |}).
Proof. intros [] f a' f' H; cbn in H; inversion H. Qed.
Print Assumptions C300_explain_refuted.
Example C300_ex : string_of_list_ascii (formatted_explain {| x_analyze := true; x_format := Some (la "JSON") |}) = "EXPLAIN (ANALYZE, FORMAT JSON)"%string.
Proof. reflexivity. Qed.

(** ** C301: queries with casts can be formatted. *)
Fixpoint ex_ind' (P : ex -> Prop) (H1 : forall v, P (ELit v)) (H2 : forall v, P (EMyLit v)) (H3 : forall c, P (ECol c))
  (H4 : forall e ty ps arr, P e -> P (ECast e ty ps arr)) (H5 : forall e ty, P e -> P (EMyCast e ty))
  (H6 : forall f args, (forall a, In a args -> P a) -> P (EFun f args)) (e : ex) : P e :=
  let F := ex_ind' P H1 H2 H3 H4 H5 H6 in
  match e with
  | ELit v => H1 v | EMyLit v => H2 v | ECol c => H3 c
  | ECast a ty ps arr => H4 a ty ps arr (F a) | EMyCast a ty => H5 a ty (F a)
  | EFun f args => H6 f args ((fix go (l : list ex) : forall a, In a l -> P a :=
      match l return forall a, In a l -> P a with
      | [] => fun a H => match H with end
      | x :: r => fun a H => match H with or_introl E => eq_ind x P (F x) a E | or_intror J => go r a J end
      end) args)
  end.
Lemma mapM_ok {A B} (f : A -> res B) l : (forall a, In a l -> exists b, f a = Ok b) -> exists r, mapM f l = Ok r.
Proof.
  induction l as [|a l IH]; intros H; [eexists; reflexivity|]. cbn [mapM]. destruct (H a (or_introl eq_refl)) as [b ->]. cbn [rbind].
  destruct IH as [r ->]; [intros x I; apply H; now right|]. eexists. reflexivity.
Qed.
Lemma prettify_plain e : plain e -> exists e', prettify e = Ok e'.
Proof.
  induction e as [v|v|c|e ty ps arr IH|e ty IH|f args IH] using ex_ind'; intros H; inversion H; subst; cbn [prettify]; eauto.
  - destruct IH as [e' ->]; [assumption|]. cbn. eauto.
  - destruct (mapM_ok prettify args) as [r E]; [intros a I; apply IH; auto|]. rewrite E. cbn. eauto.
Qed.
(** Which expressions of a clause can be formatted: all but casts.  Missing: casts, see below. *)
Theorem C301_format_partial : forall ansi e, plain e -> ((exists e', format_expr ansi e = Ok e') <-> no_cast e).
Proof.
  intros ansi e H. unfold format_expr. destruct e as [v|v|c|e ty ps arr|e ty|f args]; inversion H; subst.
  - split; [exact (fun _ => I)|]. intros _. destruct ansi; cbn; eauto.
  - split; [exact (fun _ => I)|]. intros _. destruct ansi; cbn; eauto.
  - split; [|contradiction]. assert (E : replace_casts (if ansi then ECast e ty ps arr else replace_static (ECast e ty ps arr)) = EMyCast e ty) by (destruct ansi; reflexivity).
    rewrite E. cbn [prettify]. destruct (prettify_plain e) as [e' ->]; [assumption|]. cbn. intros [x X]. discriminate.
  - split; [exact (fun _ => I)|]. intros _. assert (E : replace_casts (if ansi then EFun f args else replace_static (EFun f args)) = EFun f args) by (destruct ansi; reflexivity).
    rewrite E. now apply prettify_plain.
Qed.
Print Assumptions C301_format_partial.
(** Every cast in a SELECT target or as an operand of a predicate makes format_query fail with a TypeError. *)
Theorem C301_format_refuted : forall ansi e ty ps arr, plain e -> format_expr ansi (ECast e ty ps arr) = Raise TypeError.
Proof.
  intros ansi e ty ps arr H. unfold format_expr.
  assert (E : replace_casts (if ansi then ECast e ty ps arr else replace_static (ECast e ty ps arr)) = EMyCast e ty) by (destruct ansi; reflexivity).
  rewrite E. cbn [prettify]. destruct (prettify_plain e H) as [e' ->]. reflexivity.
Qed.
Print Assumptions C301_format_refuted.
Example C301_ex :
  plain (EFun (la "UPPER") [ECast (ECol (la "R.a")) (la "CHAR") [la "5"] false]) /\
  format_expr false (EFun (la "UPPER") [ECast (ECol (la "R.a")) (la "CHAR") [la "5"] false]) = Ok (EFun (la "UPPER") [ECast (ECol (la "R.a")) (la "CHAR") [la "5"] false]) /\
  format_expr false (ECast (ECol (la "R.a")) (la "CHAR") [la "5"] false) = Raise TypeError.
Proof. split; [|split; reflexivity]. constructor. intros a [<-|[]]. repeat constructor. Qed.

(** ** C302: what is sent to the server. *)
Definition preps (q : myq) : list text := match q_prep q with [] => [] | p => [p] end.
Definition explain_text (q : myq) : text := match q_explain q with Some x => std_explain x ++ la " " | None => [] end.
(** Preparatory statements are sent first, and once; the query follows, or, for a plan, its EXPLAIN without a clause of its own.
    Missing: hint blocks, see below. *)
Theorem C302_sent_partial : forall q, q_block q = [] ->
  execute_query q = preps q ++ [with_hints (explain_text q) [] (q_rest q)] /\
  plan_query q = preps q ++ [with_hints (la "EXPLAIN FORMAT = JSON ") [] (q_rest q)].
Proof.
  intros [p b x r] Hb. cbn in Hb. subst b. unfold execute_query, plan_query, prepare, preps, explain_text. cbn [q_prep q_block q_explain q_rest].
  destruct p as [|c p]; destruct x as [x|]; cbn [q_prep q_block q_explain q_rest str_query hint_text app]; split; unfold with_hints, str_query;
    cbn [q_prep q_block q_explain q_rest app]; rewrite <- ?app_assoc; reflexivity.
Qed.
Print Assumptions C302_sent_partial.
(** The statements that are executed before do not depend on the hint block, and there is exactly one statement after them. *)
Theorem C302_preparation_partial : forall q, exists t u, execute_query q = preps q ++ [t] /\ plan_query q = preps q ++ [u].
Proof.
  intros [p b x r]. unfold execute_query, plan_query, prepare, preps. cbn [q_prep q_block q_explain q_rest].
  destruct p as [|c p]; eexists _, _; split; reflexivity.
Qed.
Print Assumptions C302_preparation_partial.
(** Texts: a plan is requested for texts that do not start with EXPLAIN FORMAT = JSON by putting this in front. *)
Theorem C302_text_partial : forall t,
  (forall r, t = la "EXPLAIN FORMAT = JSON" ++ r -> plan_of_text t = [t]) /\
  ((forall r, t <> la "EXPLAIN FORMAT = JSON" ++ r) -> plan_of_text t = [la "EXPLAIN FORMAT = JSON " ++ t]).
Proof.
  assert (S1 : forall p r, starts p (p ++ r) = true).
  { induction p as [|a p IH]; intros r; [destruct r; reflexivity|]. cbn. now rewrite aeqb_refl, IH. }
  assert (S2 : forall p t, starts p t = true -> exists r, t = p ++ r).
  { induction p as [|a p IH]; intros t H; [now exists t|]. destruct t as [|b t]; [discriminate|]. cbn in H.
    apply andb_true_iff in H as [H1 H2]. apply Ascii.eqb_eq in H1 as ->. destruct (IH t H2) as [r ->]. now exists r. }
  intros t. split.
  - intros r ->. unfold plan_of_text, plan_text. now rewrite S1.
  - intros H. unfold plan_of_text, plan_text. destruct (starts plan_prefix t) eqn:E; [|reflexivity].
    destruct (S2 _ _ E) as [r X]. contradiction (H r X).
Qed.
Print Assumptions C302_text_partial.
(** The hint block of a query is put in front of the statement instead of after SELECT, where MySQL would read it, both when the
    query is executed and when its plan is requested; and a text with an EXPLAIN of its own gets a second one. *)
Theorem C302_sent_refuted : exists q,
  q_block q <> [] /\
  execute_query q = [q_block q ++ nl ++ la "SELECT " ++ q_rest q ++ la ";"] /\
  execute_query q <> [with_hints [] (q_block q) (q_rest q)] /\
  plan_query q = [la "EXPLAIN FORMAT = JSON " ++ q_block q ++ nl ++ la "SELECT " ++ q_rest q ++ la ";"] /\
  plan_query q <> [with_hints (la "EXPLAIN FORMAT = JSON ") (q_block q) (q_rest q)] /\
  plan_of_text (la "EXPLAIN SELECT 1") = [la "EXPLAIN FORMAT = JSON EXPLAIN SELECT 1"].
Proof.
  exists {| q_prep := []; q_block := la "/*+ NO_BNL(R) */"; q_explain := None; q_rest := la "* FROM R" |}.
  repeat split; try reflexivity; vm_compute; discriminate.
Qed.
Print Assumptions C302_sent_refuted.
Example C302_ex :
  map string_of_list_ascii (plan_query {| q_prep := la "SET x=1;"; q_block := []; q_explain := Some {| x_analyze := false; x_format := None |}; q_rest := la "* FROM R" |})
  = ["SET x=1;"; "EXPLAIN FORMAT = JSON SELECT * FROM R;"]%string.
Proof. reflexivity. Qed.
