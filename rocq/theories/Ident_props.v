(** Property theorems for C18 (JSON round trip of references), C19 (quoting of identifiers) and C58 (table references). *)
From Coq Require Import List Bool Arith Ascii String Lia.
From Verif Require Import PyBase Ident_model Ident_spec Ident_proofs.
Import ListNotations.
Local Open Scope string_scope.

Definition no_dquote (s : string) : Prop := sall (fun c => negb (Ascii.eqb c dquote)) s = true.

(** C19, what holds: a non-empty name without double quotes is denoted by its quoted form, provided that every word the
    lexer reserves is in the library's keyword list.  Missing from the full claim: names that contain double quotes,
    the empty name and reserved words missing from the list; all three are refuted below. *)
Theorem C19_quote_partial : forall (reserved : string -> Prop) s,
  (forall w, reserved w -> In (supper w) sql_keywords) -> s <> "" -> no_dquote s -> denotes reserved (quote s) s.
Proof. exact quote_denotes. Qed.
Print Assumptions C19_quote_partial.
Example C19_ex : (forall w, In w ["order"; "select"] -> In (supper w) sql_keywords) /\
  quote "order" = String dquote ("order" ++ String dquote "") /\ quote "MyTab" = String dquote ("MyTab" ++ String dquote "") /\
  quote "tab_1" = "tab_1".
Proof. split; [|repeat split]. intros w [<-|[<-|[]]]; vm_compute; tauto. Qed.

(** C19: exactly the names without double quotes are denoted correctly. *)
Theorem C19_quote_characterization : forall (reserved : string -> Prop) s,
  (forall w, reserved w -> In (supper w) sql_keywords) -> s <> "" -> (denotes reserved (quote s) s <-> no_dquote s).
Proof. intros r s Hr Hs. split; [now apply quote_bad|now apply quote_denotes]. Qed.
Print Assumptions C19_quote_characterization.

(** C19 is refuted by a name that contains a double quote, whatever the reserved words are. *)
Definition dq_name : string := String "a" (String dquote "b").
Theorem C19_quote_refuted : exists s, s <> "" /\ forall reserved, ~ denotes reserved (quote s) s.
Proof.
  exists dq_name. split; [discriminate|]. intros r H. apply quote_bad in H; [|discriminate]. vm_compute in H. discriminate.
Qed.
Print Assumptions C19_quote_refuted.
(** The quoted form of such a name is not even one token. *)
Theorem C19_quote_not_a_token_refuted : forall reserved n, ~ denotes reserved (quote dq_name) n.
Proof.
  intros r n H. change (quote dq_name) with (String dquote (String "a" (String dquote (String "b" (String dquote ""))))) in H.
  inversion H as [body name Hd Hn H1 H2|c d body name Hl Hf Hr Hres H1 H2]; subst.
  - inversion Hd as [|c body name Hc Hd'|]; subst. inversion Hd' as [|c body name' Hc' Hd''|]; subst. now apply Hc'.
  - destruct Hl as [Hl|[Hl|Hl]]; unfold in_range in Hl; cbn in Hl; lia.
Qed.
Print Assumptions C19_quote_not_a_token_refuted.

(** C19 is also refuted by words PostgreSQL reserves that are missing from the keyword list: they stay unquoted. *)
Theorem C19_reserved_refuted : forall s, In s missing_keywords -> quote s = s /\ forall reserved : string -> Prop, reserved s -> ~ denotes reserved (quote s) s.
Proof.
  intros s Hs. assert (Hq : quote s = s) by (cbn in Hs; repeat (destruct Hs as [<-|Hs]; [reflexivity|]); destruct Hs).
  split; [exact Hq|]. intros r Hr H. rewrite Hq in H. inversion H as [body name Hd Hn H1 H2|c d body name Hl Hf Hrest Hres H1 H2]; subst.
  - cbn in Hs. repeat (destruct Hs as [Hs|Hs]; [discriminate|]). destruct Hs.
  - contradiction.
Qed.
Print Assumptions C19_reserved_refuted.

(** C19: quoting is injective, so different names never print alike. *)
Theorem C19_quote_injective : forall s t, quote s = quote t -> s = t.
Proof. exact quote_inj. Qed.
Print Assumptions C19_quote_injective.

(** C18, what holds: every table reference the constructor accepts comes back attribute by attribute if it has no schema;
    with a schema everything but the schema comes back. *)
Theorem C18_table_json_partial : forall full alias virtual t, mk_table full alias virtual "" = Ok t -> load_table_json (t_json t) = Ok (Some t).
Proof. intros f a v t H. apply mk_table_ok in H as [-> Hv]. now apply load_table_rt. Qed.
Print Assumptions C18_table_json_partial.
Example C18_ex : exists t, mk_table "title" "t" false "" = Ok t /\ load_table_json (t_json t) = Ok (Some t).
Proof. eexists. split; reflexivity. Qed.
Theorem C18_table_json_schema_partial : forall full alias virtual schema t, mk_table full alias virtual schema = Ok t ->
  exists u, load_table_json (t_json t) = Ok (Some u) /\ t_full u = t_full t /\ t_alias u = t_alias t /\
            t_virtual u = t_virtual t /\ t_schema u = "".
Proof. intros f a v s t H. apply mk_table_ok in H as [_ Hv]. now apply load_table_general. Qed.
Print Assumptions C18_table_json_schema_partial.
Theorem C18_column_json_partial : forall c, cr_name c <> "" ->
  (forall t, cr_table c = Some t -> mk_table (t_full t) (t_alias t) (t_virtual t) "" = Ok t) -> load_column_json (cr_json c) = Ok (Some c).
Proof.
  intros c Hc Ht. apply load_column_rt; [assumption|]. intros t E. destruct (mk_table_ok _ _ _ _ _ (Ht t E)) as [Ht' Hv].
  split; [assumption|]. rewrite Ht'. reflexivity.
Qed.
Print Assumptions C18_column_json_partial.
(** C18 is refuted by any reference with a schema: writer and reader use different keys. *)
Theorem C18_table_json_refuted : forall full alias virtual schema t, schema <> "" -> mk_table full alias virtual schema = Ok t ->
  exists u, load_table_json (t_json t) = Ok (Some u) /\ t_eqb u t = false.
Proof.
  intros f a v s t Hs H. apply mk_table_ok in H as [-> Hv]. destruct (load_table_general _ Hv) as [u [H1 [_ [_ [_ H5]]]]].
  exists u. split; [exact H1|]. unfold t_eqb. rewrite H5. cbn [t_schema]. destruct s as [|c s]; [congruence|].
  replace (deqb (normalize "") (normalize (String c s))) with false; [now rewrite !andb_false_r|].
  symmetry. destruct (deqb_spec (normalize "") (normalize (String c s))); [discriminate|reflexivity].
Qed.
Print Assumptions C18_table_json_refuted.
Example C18_refuted_ex : exists t, mk_table "title" "" false "imdb" = Ok t /\ t_schema t <> "".
Proof. eexists. split; [reflexivity|discriminate]. Qed.

(** C58: equality of references is an equivalence that agrees with the hash, for tables and for columns. *)
Theorem C58_table_eq_hash : forall t u, t_eqb t u = true <-> t_hashkey t = t_hashkey u.
Proof. exact t_eqb_key. Qed.
Print Assumptions C58_table_eq_hash.
Theorem C58_column_eq_hash : forall c d, cr_eqb c d = true <-> cr_hashkey c = cr_hashkey d.
Proof. exact cr_eqb_key. Qed.
Print Assumptions C58_column_eq_hash.
(** C58: equality is independent of letter case and of the virtual flag. *)
Theorem C58_table_eq_spec : forall t u, t_eqb t u = true <->
  slower (t_full t) = slower (t_full u) /\ slower (t_alias t) = slower (t_alias u) /\ slower (t_schema t) = slower (t_schema u).
Proof.
  intros t u. rewrite t_eqb_key. unfold t_hashkey, normalize. split; [intros [= -> -> ->]; auto|intros [-> [-> ->]]; auto].
Qed.
Print Assumptions C58_table_eq_spec.
(** C58: the order of table references is a strict weak order on identifiers, consistent with case folding. *)
Theorem C58_table_order : forall t u v,
  t_ltb t t = false /\ (t_ltb t u = true -> t_ltb u v = true -> t_ltb t v = true) /\
  (t_ltb t u = true \/ slower (t_identifier t) = slower (t_identifier u) \/ t_ltb u t = true).
Proof. intros t u v. split; [apply sltb_irrefl|split; [apply sltb_trans|apply sltb_total]]. Qed.
Print Assumptions C58_table_order.
(** C58: columns without a table come first, columns of the same table are ordered by name, columns of different tables by the
    identifier of the table. *)
Theorem C58_column_order_spec : forall c d, cr_ltb c d = true <->
  match cr_table c, cr_table d with
  | None, Some _ => True
  | None, None => sltb (slower (cr_name c)) (slower (cr_name d)) = true
  | Some _, None => False
  | Some t, Some u => if t_eqb t u then sltb (slower (cr_name c)) (slower (cr_name d)) = true else sltb (slower (t_identifier t)) (slower (t_identifier u)) = true
  end.
Proof.
  intros [a [t|]] [b [u|]]; unfold cr_ltb, t_ltb, normalize; cbn [cr_table cr_name ot_eqb]; try tauto; try (split; [discriminate|tauto]).
  destruct (t_eqb t u); reflexivity.
Qed.
Print Assumptions C58_column_order_spec.
(** C58: the order of columns is strict. *)
Theorem C58_column_order : forall c d e, cr_ltb c c = false /\ (cr_ltb c d = true -> cr_ltb d e = true -> cr_ltb c e = true).
Proof. exact cr_ltb_order. Qed.
Print Assumptions C58_column_order.
Example C58_column_order_ex : cr_ltb (mkcref "z" None) (mkcref "a" (Some (mktref "T" "" false ""))) = true /\
  cr_ltb (mkcref "a" (Some (mktref "T" "" false ""))) (mkcref "B" (Some (mktref "t" "" false ""))) = true.
Proof. split; reflexivity. Qed.

(** C58: dropping the alias and making a table virtual keep the table's name and schema. *)
Theorem C58_drop_alias : forall t u, t_drop_alias t = Ok u -> t_full u = t_full t /\ t_schema u = t_schema t /\ t_alias u = "" /\ t_virtual t = false.
Proof.
  intros t u. unfold t_drop_alias. destruct (t_virtual t) eqn:E; [discriminate|]. intros H. apply mk_table_ok in H as [-> _]. auto.
Qed.
Print Assumptions C58_drop_alias.
Theorem C58_make_virtual : forall t u, t_make_virtual t = Ok u -> t_eqb u t = true.
Proof. intros t u H. apply mk_table_ok in H as [-> _]. apply t_eqb_key. reflexivity. Qed.
Print Assumptions C58_make_virtual.
(** C58 is refuted for [with_alias] and for [update] without a schema argument: the result refers to a table without schema. *)
Theorem C58_with_alias_loses_schema_refuted : forall t a, t_full t <> "" -> exists u, t_with_alias t a = Ok u /\ t_full u = t_full t /\ t_alias u = a /\ t_schema u = "".
Proof.
  intros t a H. unfold t_with_alias, mk_table. destruct (deqb_spec (t_full t) ""); [contradiction|]. cbn. eauto.
Qed.
Print Assumptions C58_with_alias_loses_schema_refuted.
Example C58_refuted_ex : exists t u, mk_table "title" "" false "imdb" = Ok t /\ t_with_alias t "t" = Ok u /\ t_str t = "imdb.title" /\ t_str u = "title AS t".
Proof. do 2 eexists. repeat split; reflexivity. Qed.
Theorem C58_update_loses_schema_refuted : exists t u, mk_table "title" "t" false "imdb" = Ok t /\
  t_update_default t None (Some "t2") None = Ok u /\ t_schema t = "imdb" /\ t_schema u = "".
Proof. do 2 eexists. repeat split; reflexivity. Qed.
Print Assumptions C58_update_loses_schema_refuted.
(** C58, what holds for [update] and [with_alias]: without a schema they change exactly the requested attributes. *)
Theorem C58_with_alias_partial : forall t a u, t_schema t = "" -> t_with_alias t a = Ok u -> u = mktref (t_full t) a (t_virtual t) (t_schema t).
Proof.
  intros t a u Hs H. unfold t_with_alias in H. destruct (deqb (t_full t) ""); [discriminate|]. apply mk_table_ok in H as [-> _]. now rewrite Hs.
Qed.
Print Assumptions C58_with_alias_partial.
