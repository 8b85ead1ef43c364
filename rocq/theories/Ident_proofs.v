(** Lemmas about identifiers and references. *)
From Coq Require Import List Bool Arith Ascii String Lia.
From Verif Require Import PyBase Ident_model Ident_spec.
Import ListNotations.
Local Open Scope string_scope.

Lemma delimited_noquote s : sall (fun c => negb (Ascii.eqb c dquote)) s = true -> delimited (s ++ String dquote "") s.
Proof.
  induction s as [|c s IH]; intros H; cbn; [constructor|]. cbn in H. apply andb_true_iff in H as [Hc Hs]. apply delim_char; [|auto].
  intros ->. unfold dquote in Hc. rewrite Ascii.eqb_refl in Hc. discriminate.
Qed.

Lemma leb_range lo hi n : ((lo <=? n) && (n <=? hi))%nat = true <-> lo <= n <= hi.
Proof. rewrite andb_true_iff, !Nat.leb_le. tauto. Qed.

Lemma ident_char_ok c : ident_char c = true -> (letter_or_us c \/ in_range 48 57 c \/ nat_of_ascii c = 36) /\ fold_case c c.
Proof.
  unfold ident_char, is_lower, is_digit, letter_or_us, fold_case, in_range. intros H.
  assert (Hc : (97 <= nat_of_ascii c <= 122) \/ (48 <= nat_of_ascii c <= 57) \/ nat_of_ascii c = 95 \/ nat_of_ascii c = 36).
  { repeat (apply orb_true_iff in H as [H|H]); try (apply leb_range in H); auto.
    - apply Ascii.eqb_eq in H. subst c. right. right. left. reflexivity.
    - apply Ascii.eqb_eq in H. subst c. right. right. right. reflexivity. }
  split; [lia|]. right. split; [lia|reflexivity].
Qed.
Lemma ident_start_ok c : ident_start c = true -> letter_or_us c /\ fold_case c c.
Proof.
  unfold ident_start, is_lower, letter_or_us, fold_case, in_range. intros H.
  assert (Hc : (97 <= nat_of_ascii c <= 122) \/ nat_of_ascii c = 95).
  { apply orb_true_iff in H as [H|H]; [apply leb_range in H; auto|]. apply Ascii.eqb_eq in H. subst c. right. reflexivity. }
  split; [lia|]. right. split; [lia|reflexivity].
Qed.
Lemma regular_ok s : sall ident_char s = true -> regular_rest s s.
Proof.
  induction s as [|c s IH]; intros H; [constructor|]. cbn in H. apply andb_true_iff in H as [Hc Hs].
  apply ident_char_ok in Hc as [H1 H2]. constructor; auto.
Qed.

Lemma quote_denotes (reserved : string -> Prop) s :
  (forall w, reserved w -> In (supper w) sql_keywords) ->
  s <> "" -> sall (fun c => negb (Ascii.eqb c dquote)) s = true -> denotes reserved (quote s) s.
Proof.
  intros Hr Hne Hq. unfold quote. destruct (deqb_spec s ""); [contradiction|].
  destruct (ident_pattern s && negb (mem (supper s) sql_keywords)) eqn:Hp.
  - apply andb_true_iff in Hp as [Hp Hk]. apply negb_true_iff, mem_nIn in Hk. destruct s as [|c s]; [congruence|]. cbn in Hp.
    apply andb_true_iff in Hp as [Hc Hs]. apply ident_start_ok in Hc as [H1 H2]. apply den_regular; auto.
    now apply regular_ok.
  - apply den_quoted; [|assumption]. now apply delimited_noquote.
Qed.

Lemma delimited_fun b n : delimited b n -> forall n', delimited b n' -> n = n'.
Proof.
  induction 1 as [|c body name Hc _ IH|body name _ IH]; intros n' H'; inversion H'; subst; try congruence; f_equal; auto.
Qed.

(** A name that contains a double quote is never denoted by its quoted form. *)
Lemma delimited_len b n : delimited b n -> String.length n < String.length b.
Proof. induction 1; cbn; lia. Qed.
Lemma length_snoc s c : String.length (s ++ String c "") = S (String.length s).
Proof. induction s as [|d s IH]; cbn; [reflexivity|now rewrite IH]. Qed.
Lemma quote_bad_aux s : delimited (s ++ String dquote "") s -> sall (fun c => negb (Ascii.eqb c dquote)) s = true.
Proof.
  induction s as [|c s IH]; intros Hd; [reflexivity|]. change (delimited (String c (s ++ String dquote "")) (String c s)) in Hd. remember (String c (s ++ String dquote "")) as b eqn:Hb.
  remember (String c s) as n eqn:Hn. destruct Hd as [|c' body name Hc Hd|body name Hd].
  - discriminate.
  - injection Hb as -> ->. injection Hn as ->. cbn. apply andb_true_iff. split; [apply negb_true_iff, Ascii.eqb_neq; exact Hc|auto].
  - exfalso. injection Hb as <- Hb. injection Hn as ->. apply delimited_len in Hd.
    assert (Hl : String.length (String (ascii_of_nat 34) body) = S (String.length s)) by (rewrite <- length_snoc with (c := dquote); exact (f_equal String.length Hb)).
    cbn in Hl. lia.
Qed.
Lemma quote_bad reserved s : s <> "" -> denotes reserved (quote s) s -> sall (fun c => negb (Ascii.eqb c dquote)) s = true.
Proof.
  intros Hne. unfold quote. destruct (deqb_spec s ""); [contradiction|].
  destruct (ident_pattern s && negb (mem (supper s) sql_keywords)) eqn:Hp.
  - intros _. apply andb_true_iff in Hp as [Hp _]. destruct s as [|c s]; [congruence|]. cbn in Hp. apply andb_true_iff in Hp as [Hc Hs].
    assert (Hic : forall c, ident_char c = true -> negb (Ascii.eqb c dquote) = true).
    { clear. intros c H. apply negb_true_iff, Ascii.eqb_neq. intros ->. vm_compute in H. discriminate. }
    cbn. apply andb_true_iff. split.
    + apply negb_true_iff, Ascii.eqb_neq. intros ->. vm_compute in Hc. discriminate.
    + clear - Hs Hic. induction s as [|c s IH]; [reflexivity|]. cbn in *. apply andb_true_iff in Hs as [H1 H2]. rewrite Hic by assumption. now apply IH.
  - intros H. inversion H as [body name Hd Hn H1 H2|c d body name Hl Hf Hr Hres H1 H2]; subst.
    + now apply quote_bad_aux.
    + exfalso. destruct Hl as [Hl|[Hl|Hl]]; unfold in_range in *; cbn in Hl; lia.
Qed.

Lemma quote_inj s t : quote s = quote t -> s = t.
Proof.
  unfold quote. destruct (deqb_spec s ""), (deqb_spec t ""); subst; auto.
  - destruct (ident_pattern t && negb (mem (supper t) sql_keywords)); [congruence|discriminate].
  - destruct (ident_pattern s && negb (mem (supper s) sql_keywords)); [congruence|discriminate].
  - assert (Hstart : forall u, ident_pattern u = true -> u <> String dquote "" /\ forall r, u <> String dquote r).
    { intros u Hu. split; [|intros r]; intros ->; cbn in Hu; discriminate. }
    destruct (ident_pattern s && negb (mem (supper s) sql_keywords)) eqn:Hs, (ident_pattern t && negb (mem (supper t) sql_keywords)) eqn:Ht; auto.
    + intros ->. apply andb_true_iff in Hs as [Hs _]. exfalso. destruct (Hstart _ Hs) as [_ H]. eapply H. reflexivity.
    + intros <-. apply andb_true_iff in Ht as [Ht _]. exfalso. destruct (Hstart _ Ht) as [_ H]. eapply H. reflexivity.
    + unfold wrap_quotes. intros H. injection H as H. clear - H. revert t H. induction s as [|c s IH]; intros [|d t] H; cbn in H; auto.
      * injection H as _ H. destruct t; discriminate.
      * injection H as _ H. destruct s; discriminate.
      * injection H as -> H. f_equal. auto.
Qed.

(** References. *)
Lemma t_eqb_refl t : t_eqb t t = true.
Proof. unfold t_eqb. now rewrite !deqb_refl. Qed.
Lemma t_eqb_key t u : t_eqb t u = true <-> t_hashkey t = t_hashkey u.
Proof.
  unfold t_eqb, t_hashkey. split.
  - intros H. apply andb_true_iff in H as [H H3]. apply andb_true_iff in H as [H1 H2]. apply deqb_true in H1, H2, H3. congruence.
  - intros [= -> -> ->]. now rewrite !deqb_refl.
Qed.
Lemma cr_eqb_key c d : cr_eqb c d = true <-> cr_hashkey c = cr_hashkey d.
Proof.
  unfold cr_eqb, cr_hashkey. rewrite andb_true_iff. destruct (cr_table c) as [t|], (cr_table d) as [u|]; cbn [ot_eqb].
  - rewrite t_eqb_key. split; [intros [H Hk]; apply deqb_true in H; now rewrite H, Hk|]. intros H.
    pose proof (f_equal fst H) as H1. pose proof (f_equal snd H) as H2. cbn [fst snd] in H1, H2. rewrite H1.
    split; [apply deqb_refl|]. exact (f_equal (fun o => match o with Some x => x | None => t_hashkey t end) H2).
  - split; [intros [_ H]; discriminate|intros [=]].
  - split; [intros [_ H]; discriminate|intros [=]].
  - split; [intros [H _]; apply deqb_true in H; now rewrite H|]. intros [= ->]. split; [apply deqb_refl|reflexivity].
Qed.

Definition t_valid (t : tref) : Prop := (t_full t <> "" \/ t_alias t <> "") /\ (t_schema t <> "" -> t_full t <> "").
Lemma mk_table_ok full alias virtual schema t : mk_table full alias virtual schema = Ok t ->
  t = mktref full alias virtual schema /\ t_valid t.
Proof.
  unfold mk_table, t_valid. destruct (deqb_spec full ""), (deqb_spec alias ""), (deqb_spec schema ""); subst; cbn; try discriminate;
    intros [= <-]; cbn; intuition congruence.
Qed.
Lemma mk_table_valid t : t_valid t -> mk_table (t_full t) (t_alias t) (t_virtual t) (t_schema t) = Ok t.
Proof.
  destruct t as [f a v s]. unfold mk_table, t_valid. cbn. destruct (deqb_spec f ""), (deqb_spec a ""), (deqb_spec s ""); subst; cbn; intuition congruence.
Qed.

Lemma load_table_rt t : t_valid t -> t_schema t = "" -> load_table_json (t_json t) = Ok (Some t).
Proof.
  intros Hv Hs. change (load_table_json (t_json t)) with (rmap Some (mk_table (t_full t) (t_alias t) (t_virtual t) "")). rewrite <- Hs,  mk_table_valid by assumption. reflexivity.
Qed.
Lemma load_table_general t : t_valid t -> exists u, load_table_json (t_json t) = Ok (Some u) /\
  t_full u = t_full t /\ t_alias u = t_alias t /\ t_virtual u = t_virtual t /\ t_schema u = "".
Proof.
  intros Hv. change (load_table_json (t_json t)) with (rmap Some (mk_table (t_full t) (t_alias t) (t_virtual t) "")).
  assert (Hok : mk_table (t_full t) (t_alias t) (t_virtual t) "" = Ok (mktref (t_full t) (t_alias t) (t_virtual t) "")).
  { apply (mk_table_valid (mktref (t_full t) (t_alias t) (t_virtual t) "")). destruct Hv as [H1 H2]. split; cbn; [assumption|congruence]. }
  rewrite Hok. cbn. eauto 8.
Qed.
Lemma load_column_rt c : cr_name c <> "" -> (forall t, cr_table c = Some t -> t_valid t /\ t_schema t = "") -> load_column_json (cr_json c) = Ok (Some c).
Proof.
  intros Hn Ht. destruct c as [n [t|]]; cbn in Hn.
  - destruct (Ht t eq_refl) as [Hv Hs]. pose proof (load_table_rt t Hv Hs) as H.
    change (load_column_json (cr_json (mkcref n (Some t)))) with (rbind (load_table_json (t_json t)) (fun t => rmap Some (mk_column n t))).
    rewrite H. cbn [rbind]. unfold mk_column. destruct (deqb_spec n ""); [contradiction|reflexivity].
  - change (load_column_json (cr_json (mkcref n None))) with (rmap Some (mk_column n None)).
    unfold mk_column. destruct (deqb_spec n ""); [contradiction|reflexivity].
Qed.

Lemma sltb_cons a s b t : sltb (String a s) (String b t) = true <-> nat_of_ascii a < nat_of_ascii b \/ (a = b /\ sltb s t = true).
Proof.
  cbn [sltb]. rewrite orb_true_iff, andb_true_iff, Nat.ltb_lt, Nat.eqb_eq. split; intros [H|[H1 H2]]; auto.
  - right. split; [|assumption]. now rewrite <- (ascii_nat_embedding a), H1, ascii_nat_embedding.
  - right. subst. auto.
Qed.
Lemma sltb_irrefl s : sltb s s = false.
Proof.
  induction s as [|c s IH]; [reflexivity|]. destruct (sltb (String c s) (String c s)) eqn:E; [|reflexivity].
  apply sltb_cons in E as [E|[_ E]]; [lia|congruence].
Qed.
Lemma sltb_trans s : forall t u, sltb s t = true -> sltb t u = true -> sltb s u = true.
Proof.
  induction s as [|a s IH]; intros [|b t] [|c u] H1 H2; try discriminate; auto. apply sltb_cons in H1, H2. apply sltb_cons.
  destruct H1 as [H1|[-> H1]], H2 as [H2|[-> H2]]; [left; lia|left; lia|left; lia|right; eauto].
Qed.
Lemma sltb_total s : forall t, sltb s t = true \/ s = t \/ sltb t s = true.
Proof.
  induction s as [|a s IH]; intros [|b t]; auto. rewrite !sltb_cons.
  destruct (Nat.lt_trichotomy (nat_of_ascii a) (nat_of_ascii b)) as [H|[H|H]]; auto.
  assert (a = b) as -> by now rewrite <- (ascii_nat_embedding a), H, ascii_nat_embedding.
  destruct (IH t) as [H'|[->|H']]; auto.
Qed.

Lemma t_eqb_ident t u : t_eqb t u = true -> slower (t_identifier t) = slower (t_identifier u).
Proof.
  unfold t_eqb, normalize, t_identifier. rewrite !andb_true_iff. intros [[H1 H2] _]. apply deqb_true in H1, H2.
  destruct (deqb (t_alias t) "") eqn:E1, (deqb (t_alias u) "") eqn:E2; auto.
  - apply deqb_true in E1. rewrite E1 in H2. destruct (t_alias u); [rewrite deqb_refl in E2; discriminate|discriminate].
  - apply deqb_true in E2. rewrite E2 in H2. destruct (t_alias t); [rewrite deqb_refl in E1; discriminate|discriminate].
Qed.
Lemma t_eqb_trans t u v : t_eqb t u = true -> t_eqb u v = true -> t_eqb t v = true.
Proof. rewrite !t_eqb_key. congruence. Qed.
Lemma t_eqb_sym t u : t_eqb t u = t_eqb u t.
Proof. apply eq_true_iff_eq. rewrite !t_eqb_key. split; congruence. Qed.
Lemma cr_ltb_order c d e : cr_ltb c c = false /\ (cr_ltb c d = true -> cr_ltb d e = true -> cr_ltb c e = true).
Proof.
  split.
  - unfold cr_ltb. destruct (cr_table c) as [t|]; cbn; [rewrite t_eqb_refl|]; apply sltb_irrefl.
  - unfold cr_ltb. destruct (cr_table c) as [t|], (cr_table d) as [u|], (cr_table e) as [v|]; cbn; try discriminate; auto; [|apply sltb_trans].
    unfold t_ltb. destruct (t_eqb t u) eqn:E1, (t_eqb u v) eqn:E2, (t_eqb t v) eqn:E3; try apply sltb_trans.
    + rewrite (t_eqb_trans t u v E1 E2) in E3. discriminate.
    + rewrite t_eqb_sym in E1. rewrite (t_eqb_trans u t v E1 E3) in E2. discriminate.
    + unfold normalize. rewrite (t_eqb_ident t u E1). auto.
    + rewrite t_eqb_sym in E2. rewrite (t_eqb_trans t v u E3 E2) in E1. discriminate.
    + unfold normalize. rewrite (t_eqb_ident u v E2). auto.
    + unfold normalize. rewrite (t_eqb_ident t v E3). intros H1 H2.
      pose proof (sltb_trans _ _ _ H1 H2) as H. rewrite sltb_irrefl in H. discriminate.
Qed.
