From Coq Require Import String Ascii List Bool Arith Lia.
From Verif Require Import PyBase PHint_model PHint_spec.
Import ListNotations.
Open Scope list_scope.

(** ** the lexer *)
Lemma lex_app s a b : lex s (a ++ b) = (fst (lex (fst (lex s a)) b), snd (lex s a) ++ snd (lex (fst (lex s a)) b)).
Proof.
  revert s. induction a as [|c a IH]; intros s; cbn [app lex].
  - cbn [fst snd app]. destruct (lex s b); reflexivity.
  - destruct (lex_step s c) as [s1 o1]. rewrite IH. destruct (lex s1 a) as [s2 o2]. cbn [fst snd]. destruct (lex s2 b). cbn [fst snd].
    rewrite app_assoc. reflexivity.
Qed.
Lemma space_outside c : is_space c = true -> outside c = N.
Proof.
  intros H. unfold outside. destruct (Ascii.eqb_spec c quote) as [->|_]; [discriminate|]. destruct (Ascii.eqb_spec c dquote) as [->|_]; [discriminate|].
  destruct (Ascii.eqb_spec c dash) as [->|_]; [discriminate|]. destruct (Ascii.eqb_spec c slash) as [->|_]; [discriminate|]. reflexivity.
Qed.
Lemma lex_blanks b : blanks b -> lex N b = (N, []).
Proof.
  induction b as [|c b IH]; intros H; [reflexivity|]. cbn [lex lex_step]. rewrite (space_outside c (Forall_inv H)), (IH (Forall_inv_tail H)). reflexivity.
Qed.
Lemma lstrip_split t : exists b, t = b ++ lstrip t /\ blanks b /\ (forall c, hd_error (lstrip t) = Some c -> is_space c = false).
Proof.
  induction t as [|c t (b & E & F & H)]; [exists []; repeat split; [constructor | discriminate]|]. cbn [lstrip].
  destruct (is_space c) eqn:S0.
  - exists (c :: b). split; [cbn; f_equal; exact E|]. split; [constructor; assumption | exact H].
  - exists []. split; [reflexivity|]. split; [constructor|]. intros d Hd. injection Hd as <-. exact S0.
Qed.
Lemma lstrip_blanks b t : blanks b -> lstrip (b ++ t) = lstrip t.
Proof. induction b as [|c b IH]; intros H; [reflexivity|]. cbn. rewrite (Forall_inv H). apply IH. exact (Forall_inv_tail H). Qed.
Lemma lstrip_id c t : is_space c = false -> lstrip (c :: t) = c :: t.
Proof. intros H. cbn. rewrite H. reflexivity. Qed.
Lemma lex_lstrip t : lex N (lstrip t) = lex N t.
Proof.
  destruct (lstrip_split t) as (b & E & F & _). rewrite E at 2. rewrite lex_app, (lex_blanks b F). cbn. destruct (lex N (lstrip t)); reflexivity.
Qed.
Lemma comments_lstrip t : comments (lstrip t) = comments t.
Proof. unfold comments. rewrite lex_lstrip. reflexivity. Qed.
Lemma lex_line acc c rest : ~ In newline c -> lex (L acc) (c ++ newline :: rest) = (fst (lex N rest), [acc ++ c] ++ snd (lex N rest)).
Proof.
  revert acc. induction c as [|x c IH]; intros acc H.
  - cbn [app lex lex_step]. rewrite Ascii.eqb_refl, app_nil_r. destruct (lex N rest). reflexivity.
  - cbn [app lex lex_step]. destruct (Ascii.eqb_spec x newline) as [->|D]; [exfalso; apply H; left; reflexivity|].
    rewrite IH; [|intros F; apply H; right; exact F]. cbn [app]. rewrite <- app_assoc. reflexivity.
Qed.
Lemma line_end acc c : ~ In newline c -> lex (L acc) c = (L (acc ++ c), []).
Proof.
  revert acc. induction c as [|x c IH]; intros acc H; [cbn; rewrite app_nil_r; reflexivity|].
  cbn [lex lex_step]. destruct (Ascii.eqb_spec x newline) as [->|D]; [exfalso; apply H; left; reflexivity|].
  rewrite IH; [|intros F; apply H; right; exact F]. rewrite <- app_assoc. reflexivity.
Qed.
Lemma first_newline (r : text) : (exists a b, r = a ++ newline :: b /\ ~ In newline a) \/ ~ In newline r.
Proof.
  induction r as [|c r IH]; [right; intros []|]. destruct (Ascii.eqb_spec c newline) as [->|D].
  - left. exists [], r. split; [reflexivity | intros []].
  - destruct IH as [(a & b & -> & N0) | N0].
    + left. exists (c :: a), b. split; [reflexivity|]. intros [F|F]; [apply D; exact F | exact (N0 F)].
    + right. intros [F|F]; [apply D; exact F | exact (N0 F)].
Qed.
Lemma comments_dashes r : comments (str "--" ++ r) <> [].
Proof.
  unfold comments. cbn [str list_ascii_of_string app lex lex_step outside]. change (lex_step ND "-"%char) with (L [dash; dash], @nil text).
  change (outside "-"%char) with ND. cbn [lex_step]. change (Ascii.eqb "-" dash) with true. cbv iota.
  destruct (first_newline r) as [(a & b & -> & H)|H].
  - rewrite lex_line; [|exact H]. cbn. discriminate.
  - rewrite (line_end _ r H). cbn. discriminate.
Qed.
Lemma nopair_app_l x y a b : nopair x y (a ++ b) -> nopair x y a.
Proof.
  induction a as [|c a IH]; intros H; [exact I|]. cbn in H. destruct H as [H0 H]. split; [|exact (IH H)].
  destruct a as [|d a]; [exact I | exact H0].
Qed.
Lemma nopair_app_r x y a b : nopair x y (a ++ b) -> nopair x y b.
Proof. induction a as [|c a IH]; intros H; [exact H|]. apply IH. exact (proj2 H). Qed.
Lemma prefix_cons2 x y a t : prefix [x; y] (a :: t) = true -> a = x /\ exists r, t = y :: r.
Proof.
  cbn. intros H. apply andb_true_iff in H as [H1 H2]. apply Ascii.eqb_eq in H1. destruct t as [|b t]; [discriminate|].
  apply andb_true_iff in H2 as [H2 _]. apply Ascii.eqb_eq in H2. subst. split; [reflexivity | exists t; reflexivity].
Qed.
Lemma find_pair x y a b : x <> y -> nopair x y (a ++ [x]) -> find [x; y] (a ++ x :: y :: b) = Some (List.length a).
Proof.
  intros D. induction a as [|c a IH]; intros H.
  - cbn. rewrite !Ascii.eqb_refl. reflexivity.
  - cbn [app] in *. assert (P : prefix [x; y] (c :: a ++ x :: y :: b) = false).
    { destruct (prefix [x; y] (c :: a ++ x :: y :: b)) eqn:P; [|reflexivity]. exfalso. apply prefix_cons2 in P as (-> & r & P).
      destruct a as [|d a]; cbn in P; injection P as P _; [congruence|]. subst d. cbn in H. tauto. }
    cbn [find]. rewrite P. rewrite (IH (proj2 H)). reflexivity.
Qed.
Lemma find_no_pair x y t : nopair x y t -> find [x; y] t = None.
Proof.
  induction t as [|c t IH]; intros H; [reflexivity|].
  assert (P : prefix [x; y] (c :: t) = false).
  { destruct (prefix [x; y] (c :: t)) eqn:P; [|reflexivity]. exfalso. apply prefix_cons2 in P as (-> & r & ->). cbn in H. tauto. }
  cbn [find]. rewrite P. rewrite (IH (proj2 H)). reflexivity.
Qed.
Lemma find_char x a b : ~ In x a -> find [x] (a ++ x :: b) = Some (List.length a).
Proof.
  induction a as [|c a IH]; intros H.
  - cbn. rewrite Ascii.eqb_refl. reflexivity.
  - cbn [app find prefix]. destruct (Ascii.eqb_spec x c) as [->|D]; [exfalso; apply H; left; reflexivity|]. cbn [andb].
    rewrite IH; [reflexivity | intros F; apply H; right; exact F].
Qed.
Lemma prefix_dashes t : prefix (str "--") t = true -> exists r, t = str "--" ++ r.
Proof.
  intros H. destruct t as [|a t]; [discriminate|]. change (str "--") with [dash; dash] in *. apply prefix_cons2 in H as (-> & r & ->). exists r. reflexivity.
Qed.
Lemma lex_block acc c rest : forall m, nopair slash star ((if Nat.eqb m 2 then [slash] else []) ++ c ++ [star]) ->
  nopair star slash ((if Nat.eqb m 1 then [star] else []) ++ c ++ [star]) -> m < 3 ->
  lex (B 1 acc m) (c ++ star :: slash :: rest) = (fst (lex N rest), [acc ++ c ++ str "*/"] ++ snd (lex N rest)).
Proof.
  revert acc. induction c as [|x c IH]; intros acc m H1 H2 Hm.
  - cbn [app] in *. cbn [lex lex_step]. change (Ascii.eqb star slash) with false. rewrite andb_false_r.
    change (Ascii.eqb star star) with true. rewrite andb_true_r. destruct (Nat.eqb_spec m 2) as [M2|N2].
    + exfalso. cbn in H1. tauto.
    + cbn [app lex lex_step]. change (Ascii.eqb slash slash) with true. cbn [Nat.eqb andb]. destruct (lex N rest). cbn [fst snd app].
      rewrite <- app_assoc. reflexivity.
  - cbn [app lex lex_step].
    destruct (Nat.eqb m 1 && Ascii.eqb x slash) eqn:C1.
    { exfalso. apply andb_true_iff in C1 as [C1 C2]. rewrite C1 in H2. apply Ascii.eqb_eq in C2. subst x. cbn in H2. tauto. }
    destruct (Nat.eqb m 2 && Ascii.eqb x star) eqn:C2.
    { exfalso. apply andb_true_iff in C2 as [C2 C3]. rewrite C2 in H1. apply Ascii.eqb_eq in C3. subst x. cbn in H1. tauto. }
    assert (T1 : nopair slash star ((x :: c) ++ [star])) by exact (nopair_app_r _ _ _ _ H1).
    assert (T2 : nopair star slash ((x :: c) ++ [star])) by exact (nopair_app_r _ _ _ _ H2).
    assert (T1' : nopair slash star (c ++ [star])) by exact (proj2 T1). assert (T2' : nopair star slash (c ++ [star])) by exact (proj2 T2).
    rewrite IH.
    + cbn [fst snd app]. rewrite <- app_assoc. reflexivity.
    + destruct (Ascii.eqb_spec x star) as [->|_]; [exact T1'|]. destruct (Ascii.eqb_spec x slash) as [->|_]; [exact T1 | exact T1'].
    + destruct (Ascii.eqb_spec x star) as [->|_]; [exact T2|]. destruct (Ascii.eqb_spec x slash) as [->|_]; [exact T2' | exact T2'].
    + destruct (Ascii.eqb x star); [lia|]. destruct (Ascii.eqb x slash); lia.
Qed.

(** ** the items *)
Definition raw_comment (i : item) : text := match i with Line _ c => str "--" ++ c | Block _ c => str "/*" ++ c ++ str "*/" end.
Lemma lex_item i rest : item_ok i -> lex N (item_text i ++ rest) = (fst (lex N rest), raw_comment i :: snd (lex N rest)).
Proof.
  intros H. destruct i as [pre c | pre c]; cbn [item_ok item_text raw_comment] in *.
  - destruct H as [Hb Hn]. rewrite <- !app_assoc. rewrite lex_app, (lex_blanks pre Hb). cbn [fst snd app].
    change (lex N (str "--" ++ c ++ newline :: rest)) with
      (let (s2, o2) := (let (s2, o2) := lex (L [dash; dash]) (c ++ newline :: rest) in (s2, [] ++ o2)) in (s2, [] ++ o2)).
    rewrite lex_line; [|exact Hn]. cbn [fst snd app]. reflexivity.
  - destruct H as (Hl & H1 & H2 & H3 & H4). rewrite <- !app_assoc. rewrite lex_app, Hl. cbn [fst snd app].
    change (lex N (str "/*" ++ c ++ str "*/" ++ rest)) with
      (let (s2, o2) := (let (s2, o2) := lex (B 1 [slash; star] 0) (c ++ star :: slash :: rest) in (s2, [] ++ o2)) in (s2, [] ++ o2)).
    rewrite lex_block; [cbn [fst snd app]; reflexivity | exact H3 | exact (nopair_app_r _ _ [star] _ H4) | lia].
Qed.
Lemma comments_items items body : Forall item_ok items -> comments (concat (map item_text items) ++ body) = map raw_comment items ++ comments body.
Proof.
  unfold comments. intros H. assert (E : lex N (concat (map item_text items) ++ body) = (fst (lex N body), map raw_comment items ++ snd (lex N body))).
  { induction items as [|i items IH]; cbn [map concat app]; [destruct (lex N body); reflexivity|].
    rewrite <- app_assoc. rewrite (lex_item i _ (Forall_inv H)). rewrite (IH (Forall_inv_tail H)). reflexivity. }
  rewrite E. destruct (lex N body) as [s cs]. cbn [fst snd]. rewrite app_assoc. reflexivity.
Qed.
Lemma strip_head c t : is_space c = false -> trimmed_end (c :: t) (strip (c :: t)).
Proof.
  intros H. unfold strip. rewrite (lstrip_id c t H). destruct (lstrip_split (rev (c :: t))) as (b & E & F & Hd).
  exists (rev b). split; [|split].
  - apply (f_equal (@rev ascii)) in E. rewrite rev_involutive, rev_app_distr in E. exact E.
  - unfold blanks. apply Forall_rev. exact F.
  - rewrite rev_involutive. exact Hd.
Qed.
Lemma skipn_len {A} (a b : list A) : skipn (List.length a) (a ++ b) = b.
Proof. induction a; [reflexivity | exact IHa]. Qed.
Lemma firstn_len {A} (a b : list A) : firstn (List.length a) (a ++ b) = a.
Proof. induction a; [reflexivity | cbn; f_equal; exact IHa]. Qed.

Lemma hint_items set_cmds body : body_ok body -> forall items fuel current, Forall item_ok items ->
  List.length (concat (map item_text items) ++ body) < fuel ->
  hint_block fuel (concat (map item_text items) ++ body) set_cmds current = Ok (make_hint set_cmds (current ++ map (fun i => strip (raw_comment i)) items)) /\
  hint_block fuel (newline :: concat (map item_text items) ++ body) set_cmds current = hint_block fuel (concat (map item_text items) ++ body) set_cmds current.
Proof.
  intros [Bc Bp] items. 
  assert (NL : forall fuel t current, hint_block fuel (newline :: t) set_cmds current = hint_block fuel t set_cmds current).
  { intros [|fuel] t current; [reflexivity|]. cbn [hint_block lstrip]. reflexivity. }
  induction items as [|i items IH]; intros fuel current OK F; (split; [|apply NL]).
  - cbn [map concat app] in *. rewrite app_nil_r. destruct fuel as [|fuel]; [lia|]. cbn [hint_block].
    destruct (lstrip_split body) as (b & E & _ & _).
    assert (P1 : find (str "/*") (lstrip body) = None).
    { apply (find_no_pair slash star). rewrite E in Bp. exact (nopair_app_r _ _ _ _ Bp). }
    rewrite P1. assert (P2 : prefix (str "--") (lstrip body) = false).
    { destruct (prefix (str "--") (lstrip body)) eqn:P; [|reflexivity]. exfalso. apply prefix_dashes in P as (r & P).
      apply (comments_dashes r). rewrite <- P, comments_lstrip. exact Bc. }
    rewrite P2. reflexivity.
  - pose proof (Forall_inv OK) as Oi. pose proof (Forall_inv_tail OK) as Or. cbn [map concat] in *. rewrite <- app_assoc in *.
    set (rest := concat (map item_text items) ++ body) in *. destruct fuel as [|fuel]; [lia|]. rewrite app_length in F.
    destruct i as [pre c | pre c]; cbn [item_ok item_text raw_comment] in *.
    + destruct Oi as [Hb Hn]. rewrite !app_length in F. cbn [List.length str list_ascii_of_string] in F.
      assert (LS : lstrip ((pre ++ str "--" ++ c ++ [newline]) ++ rest) = (str "--" ++ c) ++ newline :: rest).
      { rewrite <- !app_assoc. rewrite lstrip_blanks; [reflexivity | exact Hb]. }
      cbn [hint_block]. rewrite LS.
      assert (P : prefix (str "--") ((str "--" ++ c) ++ newline :: rest) = true) by reflexivity. rewrite P. rewrite andb_false_r.
      assert (NN : ~ In newline (str "--" ++ c)).
      { intros H. apply in_app_or in H as [H|H]; [|exact (Hn H)]. cbn in H. destruct H as [H|[H|[]]]; discriminate. }
      rewrite (find_char newline _ rest NN). rewrite skipn_len, firstn_len. rewrite NL.
      destruct (IH fuel (current ++ [strip (str "--" ++ c)]) Or) as [R _]; [lia|]. rewrite R. rewrite <- app_assoc. reflexivity.
    + destruct Oi as (Hl & H1 & H2 & H3 & H4). rewrite !app_length in F. cbn [List.length str list_ascii_of_string] in F.
      destruct (lstrip_split pre) as (b & E & Fb & Hd).
      set (p := lstrip pre) in *.
      assert (LS : lstrip ((pre ++ str "/*" ++ c ++ str "*/") ++ rest) = p ++ slash :: star :: c ++ star :: slash :: rest).
      { rewrite E. rewrite <- !app_assoc. rewrite lstrip_blanks; [|exact Fb]. destruct p as [|x p0]; [reflexivity|].
        cbn [app]. rewrite lstrip_id; [reflexivity|]. apply Hd. reflexivity. }
      cbn [hint_block]. rewrite LS.
      assert (P : prefix (str "--") (p ++ slash :: star :: c ++ star :: slash :: rest) = false).
      { destruct (prefix (str "--") (p ++ slash :: star :: c ++ star :: slash :: rest)) eqn:P; [|reflexivity]. exfalso.
        apply prefix_dashes in P as (r & P).
        assert (Lp : lex N p = (N, [])) by (unfold p; rewrite lex_lstrip; exact Hl).
        destruct p as [|x [|y p0]]; cbn [app] in P; try discriminate.
        - change (str "--" ++ r) with ("-"%char :: "-"%char :: r) in P. injection P as -> -> P. apply (comments_dashes p0). unfold comments. change (str "--" ++ p0) with ("-"%char :: "-"%char :: p0). rewrite Lp. reflexivity. }
      assert (FS : find (str "/*") (p ++ slash :: star :: c ++ star :: slash :: rest) = Some (List.length p)).
      { apply (find_pair slash star); [discriminate|]. rewrite E, <- app_assoc in H1. exact (nopair_app_r _ _ _ _ H1). }
      assert (FE : find (str "*/") (p ++ slash :: star :: c ++ star :: slash :: rest) = Some (List.length (p ++ slash :: star :: c))).
      { replace (p ++ slash :: star :: c ++ star :: slash :: rest) with ((p ++ slash :: star :: c) ++ star :: slash :: rest)
          by (rewrite <- app_assoc; reflexivity).
        apply (find_pair star slash); [discriminate|]. rewrite E, <- app_assoc in H2. apply nopair_app_r in H2.
        clear - H2 H4. rewrite <- app_assoc. cbn [app]. revert H2. induction p as [|x p IH]; intros H2.
        - cbn [app]. split; [intros [X ?]; discriminate X | exact H4].
        - cbn [app] in *. destruct H2 as [H2 H2']. split; [|exact (IH H2')]. destruct p as [|y p]; [exact H2 | exact H2]. }
      rewrite FS, FE, P. cbn [negb andb].
      assert (SK : skipn (List.length (p ++ slash :: star :: c) + 2) (p ++ slash :: star :: c ++ star :: slash :: rest) = rest).
      { replace (p ++ slash :: star :: c ++ star :: slash :: rest) with (((p ++ slash :: star :: c) ++ [star; slash]) ++ rest)
          by (rewrite <- !app_assoc; reflexivity).
        replace (List.length (p ++ slash :: star :: c) + 2) with (List.length ((p ++ slash :: star :: c) ++ [star; slash]))
          by (rewrite app_length; reflexivity). apply skipn_len. }
      assert (FN : firstn (List.length (p ++ slash :: star :: c) + 2 - List.length p) (skipn (List.length p) (p ++ slash :: star :: c ++ star :: slash :: rest))
                   = str "/*" ++ c ++ str "*/").
      { rewrite skipn_len. replace (List.length (p ++ slash :: star :: c) + 2 - List.length p) with (List.length (str "/*" ++ c ++ str "*/")).
        - replace (slash :: star :: c ++ star :: slash :: rest) with ((str "/*" ++ c ++ str "*/") ++ rest)
            by (rewrite <- !app_assoc; reflexivity). apply firstn_len.
        - rewrite !app_length. cbn [List.length str list_ascii_of_string]. lia. }
      rewrite SK, FN.
      destruct (IH fuel (current ++ [strip (str "/*" ++ c ++ str "*/")]) Or) as [R _]; [lia|]. rewrite R. rewrite <- app_assoc. reflexivity.
Qed.
