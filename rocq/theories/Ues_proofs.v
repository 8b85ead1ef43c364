(** Lemmas about the UES bounds. *)
From Coq Require Import List Bool Arith ZArith Lia.
From Verif Require Import PyBase Card_model Card_spec Card_proofs Ues_model Ues_spec.
Import ListNotations.

(** * Counting *)
Definition cnt {A} (p : A -> bool) (l : list A) : nat := length (filter p l).
Lemma cnt_app {A} (p : A -> bool) l l' : cnt p (l ++ l') = cnt p l + cnt p l'.
Proof. unfold cnt. now rewrite filter_app, app_length. Qed.
Lemma cnt_map {A B} (p : B -> bool) (f : A -> B) l : cnt p (map f l) = cnt (fun x => p (f x)) l.
Proof. unfold cnt. induction l as [|x l IH]; cbn; [easy|]. destruct (p (f x)); cbn; now rewrite ?IH. Qed.
Lemma cnt_filter {A} (p q : A -> bool) l : cnt p (filter q l) = cnt (fun x => q x && p x) l.
Proof. unfold cnt. induction l as [|x l IH]; cbn; [easy|]. destruct (q x); cbn; [destruct (p x); cbn|]; now rewrite ?IH. Qed.
Lemma cnt_le {A} (p q : A -> bool) l : (forall x, In x l -> p x = true -> q x = true) -> cnt p l <= cnt q l.
Proof.
  unfold cnt. induction l as [|x l IH]; intros H; cbn; [lia|].
  assert (IH' := IH (fun y Hy => H y (or_intror Hy))). specialize (H x (or_introl eq_refl)).
  destruct (p x); cbn; [rewrite (H eq_refl); cbn; lia|]. destruct (q x); cbn; lia.
Qed.
Lemma cnt_zero {A} (p : A -> bool) l : (forall x, In x l -> p x = false) -> cnt p l = 0.
Proof. unfold cnt. induction l as [|x l IH]; intros H; cbn; [easy|]. rewrite (H x (or_introl eq_refl)). apply IH. intros y Hy. apply H. now right. Qed.
Lemma cnt_true {A} (l : list A) : cnt (fun _ => true) l = length l.
Proof. unfold cnt. induction l; cbn; congruence. Qed.

Lemma prod_le {A B} (q : A * B -> bool) (g : A -> bool) k R S :
  (forall a b, In a R -> q (a, b) = true -> g a = true) -> (forall a, In a R -> g a = true -> cnt (fun b => q (a, b)) S <= k) ->
  cnt q (list_prod R S) <= cnt g R * k.
Proof.
  induction R as [|a R IH]; intros Hg Hk; [cbn; lia|].
  cbn [list_prod]. rewrite cnt_app, cnt_map.
  assert (IH' := IH (fun a' b Ha => Hg a' b (or_intror Ha)) (fun a' Ha => Hk a' (or_intror Ha))).
  unfold cnt at 3. cbn [filter]. destruct (g a) eqn:E; cbn [length].
  - specialize (Hk a (or_introl eq_refl) E). unfold cnt in *. lia.
  - rewrite (cnt_zero (fun b => q (a, b))); [unfold cnt in *; lia|].
    intros b _. destruct (q (a, b)) eqn:Eq; [|easy]. apply Hg in Eq; [congruence|now left].
Qed.
Lemma prod_cons {A B} (q : A * B -> bool) (a : B) R S :
  cnt q (list_prod S (a :: R)) = cnt (fun b => q (b, a)) S + cnt q (list_prod S R).
Proof.
  induction S as [|b S IH]; [easy|]. cbn [list_prod]. rewrite !cnt_app, !cnt_map, IH.
  unfold cnt. cbn [filter]. destruct (q (b, a)); cbn [length]; lia.
Qed.
Lemma prod_swap {A B} (q : A * B -> bool) R S : cnt q (list_prod R S) = cnt (fun ba => q (snd ba, fst ba)) (list_prod S R).
Proof.
  induction R as [|a R IH]; [now induction S|].
  cbn [list_prod]. rewrite cnt_app, cnt_map, prod_cons, IH. reflexivity.
Qed.
Lemma prod_le2 {A B} (q : A * B -> bool) (g : B -> bool) k R S :
  (forall a b, In b S -> q (a, b) = true -> g b = true) -> (forall b, In b S -> g b = true -> cnt (fun a => q (a, b)) R <= k) ->
  cnt q (list_prod R S) <= cnt g S * k.
Proof.
  intros Hg Hk. rewrite prod_swap. apply prod_le; cbn [fst snd]; [|exact Hk]. intros a b Ha. now apply Hg.
Qed.

(** * Joins *)
Definition matches t cond (rs : row * row) : bool := forallb (sql_eq (combine_rows t (fst rs) (snd rs))) cond.
Lemma join_length t cond R S : length (join t cond R S) = cnt (matches t cond) (list_prod R S).
Proof. unfold join. change (cnt (fun r => forallb (sql_eq r) cond) (map (fun rs => combine_rows t (fst rs) (snd rs)) (list_prod R S)) = cnt (matches t cond) (list_prod R S)). now rewrite cnt_map. Qed.
Lemma join_occ t cond R S c v : occurrences c v (join t cond R S) =
  cnt (fun rs => matches t cond rs && deqb (combine_rows t (fst rs) (snd rs) c) (Some v)) (list_prod R S).
Proof.
  unfold join. change (cnt (fun r => deqb (r c) (Some v)) (filter (fun r => forallb (sql_eq r) cond) (map (fun rs => combine_rows t (fst rs) (snd rs)) (list_prod R S))) =
    cnt (fun rs => matches t cond rs && deqb (combine_rows t (fst rs) (snd rs) c) (Some v)) (list_prod R S)).
  now rewrite cnt_filter, cnt_map.
Qed.

Lemma match_values t cond p a b r s : In p cond -> sides t p a b -> matches t cond (r, s) = true -> exists x, r a = Some x /\ s b = Some x.
Proof.
  intros Hin (Ha & Hb & Hp) Hm. unfold matches in Hm. rewrite forallb_forall in Hm. specialize (Hm p Hin).
  unfold sql_eq in Hm. unfold combine_rows in Hm. cbn [fst snd] in Hm.
  apply Nat.eqb_neq in Ha. apply Nat.eqb_eq in Hb.
  destruct Hp as [-> | ->]; cbn [fst snd] in Hm; rewrite Ha, Hb in Hm;
    destruct (r a) as [x|]; destruct (s b) as [y|]; try discriminate; apply Nat.eqb_eq in Hm; subst; eauto.
Qed.
Lemma row_matches t cond p a b r S fb : In p cond -> sides t p a b -> (forall v, occurrences b v S <= fb) ->
  cnt (fun s => matches t cond (r, s)) S <= fb.
Proof.
  intros Hin Hs Hf. destruct (r a) as [x|] eqn:E.
  - etransitivity; [|exact (Hf x)]. apply cnt_le. intros s _ Hm.
    destruct (match_values _ _ _ _ _ _ _ Hin Hs Hm) as [y [H1 H2]]. rewrite E in H1. injection H1 as <-. rewrite H2. apply deqb_refl.
  - rewrite cnt_zero; [lia|]. intros s _. destruct (matches t cond (r, s)) eqn:Em; [|easy].
    destruct (match_values _ _ _ _ _ _ _ Hin Hs Em) as [y [H1 H2]]. congruence.
Qed.
Lemma row_matches2 t cond p a b s R fa : In p cond -> sides t p a b -> (forall v, occurrences a v R <= fa) ->
  cnt (fun r => matches t cond (r, s)) R <= fa.
Proof.
  intros Hin Hs Hf. destruct (s b) as [x|] eqn:E.
  - etransitivity; [|exact (Hf x)]. apply cnt_le. intros r _ Hm.
    destruct (match_values _ _ _ _ _ _ _ Hin Hs Hm) as [y [H1 H2]]. rewrite E in H2. injection H2 as <-. rewrite H1. apply deqb_refl.
  - rewrite cnt_zero; [lia|]. intros r _. destruct (matches t cond (r, s)) eqn:Em; [|easy].
    destruct (match_values _ _ _ _ _ _ _ Hin Hs Em) as [y [H1 H2]]. congruence.
Qed.
Lemma join_le_left t cond p a b R S fb : In p cond -> sides t p a b -> (forall v, occurrences b v S <= fb) ->
  length (join t cond R S) <= length R * fb.
Proof.
  intros Hin Hs Hf. rewrite join_length, <- (cnt_true R). apply prod_le; [easy|].
  intros r _ _. eapply row_matches; eauto.
Qed.
Lemma join_le_right t cond p a b R S fa : In p cond -> sides t p a b -> (forall v, occurrences a v R <= fa) ->
  length (join t cond R S) <= length S * fa.
Proof.
  intros Hin Hs Hf. rewrite join_length, <- (cnt_true S). apply prod_le2; [easy|].
  intros r _ _. eapply row_matches2; eauto.
Qed.
(** A column of the left side keeps its frequency times the matches per row. *)
Lemma occ_left t cond p a b R S c v fb : In p cond -> sides t p a b -> fst c <> t -> (forall v, occurrences b v S <= fb) ->
  occurrences c v (join t cond R S) <= occurrences c v R * fb.
Proof.
  intros Hin Hs Hc Hf. rewrite join_occ. unfold occurrences at 1.
  apply (prod_le _ (fun r => deqb (r c) (Some v))).
  - intros r s _ H. apply andb_true_iff in H. destruct H as [_ H]. unfold combine_rows in H. cbn [fst snd] in H. apply Nat.eqb_neq in Hc. now rewrite Hc in H.
  - intros r _ _. etransitivity; [|eapply (row_matches t cond p a b r S fb); eauto].
    apply cnt_le. intros s _ H. apply andb_true_iff in H. apply H.
Qed.
(** The two columns of a predicate. *)
Lemma occ_pair t cond p a b R S c v : In p cond -> sides t p a b -> c = a \/ c = b ->
  occurrences c v (join t cond R S) <= occurrences a v R * occurrences b v S.
Proof.
  intros Hin Hs Hc. rewrite join_occ. unfold occurrences at 1.
  assert (Hv : forall r s, matches t cond (r, s) && deqb (combine_rows t r s c) (Some v) = true -> r a = Some v /\ s b = Some v).
  { intros r s H. apply andb_true_iff in H. destruct H as [Hm H]. apply deqb_true in H. cbn [fst snd] in H.
    destruct (match_values _ _ _ _ _ _ _ Hin Hs Hm) as [x [H1 H2]]. destruct Hs as (Ha & Hb & _). unfold combine_rows in H.
    destruct Hc as [-> | ->].
    - apply Nat.eqb_neq in Ha. rewrite Ha in H. rewrite H1 in H. injection H as ->. auto.
    - apply Nat.eqb_eq in Hb. rewrite Hb in H. rewrite H2 in H. injection H as ->. auto. }
  apply (prod_le _ (fun r => deqb (r a) (Some v))).
  - intros r s _ H. apply (Hv r s) in H. destruct H as [H _]. rewrite H. apply deqb_refl.
  - intros r _ _. unfold occurrences. apply cnt_le. intros s _ H. apply (Hv r s) in H. destruct H as [_ H]. rewrite H. apply deqb_refl.
Qed.
Lemma occ_pos_row t cond p a b R S r : In p cond -> sides t p a b -> In r (join t cond R S) ->
  exists x, 1 <= occurrences a x R /\ 1 <= occurrences b x S.
Proof.
  intros Hin Hs Hr. unfold join in Hr. apply filter_In in Hr. destruct Hr as [Hr Hm].
  apply in_map_iff in Hr. destruct Hr as [[i s] [<- Hp]]. apply in_prod_iff in Hp. destruct Hp as [Hi Hss].
  destruct (match_values t cond p a b i s Hin Hs Hm) as [x [H1 H2]]. exists x.
  assert (G : forall (c : col) (q : row) (X : rel), In q X -> q c = Some x -> 1 <= occurrences c x X).
  { intros c q X Hq Hqc. unfold occurrences. assert (In q (filter (fun r => deqb (r c) (Some x)) X)).
    - apply filter_In. split; [easy|]. rewrite Hqc. apply deqb_refl.
    - destruct (filter (fun r : col -> option nat => deqb (r c) (Some x)) X); [easy|cbn; lia]. }
  split; [eapply G; eauto|eapply G; eauto].
Qed.
Lemma connects_sides t1 t2 p : t1 <> t2 -> connects t1 t2 p -> sides t2 p (if Nat.eqb (fst (fst p)) t2 then snd p else fst p) (if Nat.eqb (fst (fst p)) t2 then fst p else snd p).
Proof.
  intros Hne H. destruct p as [a b]. unfold connects in H. cbn [fst snd] in *. unfold sides.
  destruct H as [[H1 H2]|[H1 H2]]; destruct (Nat.eqb_spec (fst a) t2); try congruence; repeat split; auto; congruence.
Qed.

(** * The arithmetic *)
Local Open Scope Z_scope.
Lemma oget_int x z : int_of x = Some z -> oget x = cget (CVal z).
Proof. destruct x as [[| |c]|[n|f]]; cbn; intros H; try discriminate; injection H as ->; reflexivity. Qed.
Lemma cop_operand o a x z : int_of x = Some z -> cop o a x = cop o a (OCard (CVal z)).
Proof. intros H. unfold cop. now rewrite (oget_int x z H). Qed.
Lemma mul_int a x z : int_of x = Some z -> 0 <= a -> 0 <= z -> a < 2 ^ 53 -> z < 2 ^ 53 -> a * z < 2 ^ 53 -> cop Mul (CVal a) x = Ok (CVal (a * z)).
Proof. intros H ? ? ? ? ?. rewrite (cop_operand _ _ _ _ H). apply cop_exact; [reflexivity|lia|lia|nia]. Qed.
Lemma times_int x z c : int_of x = Some z -> 0 <= c -> 0 <= z -> c < 2 ^ 53 -> z < 2 ^ 53 -> z * c < 2 ^ 53 -> times x (CVal c) = Ok (CVal (z * c)).
Proof.
  intros H ? ? ? ? ?. assert (E : times x (CVal c) = cop Mul (CVal z) (OCard (CVal c))).
  { destruct x as [d|n]; cbn in *.
    - destruct d; try discriminate. injection H as ->. reflexivity.
    - destruct n; try discriminate. injection H as ->. reflexivity. }
  rewrite E. apply cop_exact; [reflexivity|lia|lia|nia].
Qed.
Lemma div_int a x z : int_of x = Some z -> 0 <= a < 2 ^ 53 -> 0 < z < 2 ^ 53 ->
  exists q, cop Div (CVal a) x = Ok (CVal q) /\ 0 <= q /\ a < (q + 1) * z /\ (q - 1) * z < a /\ ((z | a) -> q * z = a).
Proof.
  intros H Ha Hz. rewrite (cop_operand _ _ _ _ H).
  assert (Hdm := Z.div_mod a z ltac:(lia)). assert (Hm := Z.mod_pos_bound a z ltac:(lia)).
  assert (Hq0 : 0 <= a / z) by (apply Z.div_pos; lia).
  destruct (cop_div a z (a / z) (if a mod z =? 0 then a / z else a / z + 1)) as [c [Hc Hr]]; [lia|lia| |].
  - destruct (Z.eqb_spec (a mod z) 0); nia.
  - exists c. split; [easy|]. destruct (Z.eqb_spec (a mod z) 0) as [E|E].
    + assert (c = a / z) by lia. subst c. repeat split; [lia|nia|nia|nia].
    + repeat split; [lia|nia|nia|]. intros [k Hk]. exfalso. apply E. rewrite Hk. apply Z.mod_mul. lia.
Qed.
Lemma is_zero_card z : is_zero (OCard (CVal z)) = (z =? 0).
Proof. reflexivity. Qed.
Lemma is_zero_int x z : int_of x = Some z -> is_zero x = (z =? 0).
Proof. destruct x as [[| |c]|[n|f]]; cbn; intros H; try discriminate; injection H as ->; reflexivity. Qed.
Lemma fetch_known st c z : known_bound st (fst c) z -> fetch_bound st c = Ok (CVal z).
Proof. intros [H|[H1 H2]]; unfold fetch_bound; [now rewrite H|]. rewrite H1. unfold key. unfold known_base in H2. now rewrite H2. Qed.

Lemma n_m_value st c1 c2 b1 b2 f1 f2 : known_bound st (fst c1) b1 -> known_bound st (fst c2) b2 -> known_freq st c1 f1 -> known_freq st c2 f2 ->
  0 <= b1 < 2 ^ 53 -> 0 <= b2 < 2 ^ 53 -> 0 <= f1 < 2 ^ 53 -> 0 <= f2 < 2 ^ 53 ->
  (b1 + f1) * f2 < 2 ^ 53 -> (b2 + f2) * f1 < 2 ^ 53 ->
  exists z, estimate_n_m st c1 c2 = Ok (CVal z) /\ Z.min (b1 * f2) (b2 * f1) <= z + f1 * f2 /\
    ((f1 | b1) -> (f2 | b2) -> Z.min (b1 * f2) (b2 * f1) = z).
Proof.
  intros Hb1 Hb2 [x1 [Hx1 Hi1]] [x2 [Hx2 Hi2]] ? ? ? ? Ho1 Ho2.
  unfold estimate_n_m. rewrite (fetch_known _ _ _ Hb1), (fetch_known _ _ _ Hb2). cbn [rbind]. unfold key. rewrite Hx1, Hx2. cbn [rbind].
  cbn [existsb]. rewrite !is_zero_card, (is_zero_int _ _ Hi1), (is_zero_int _ _ Hi2).
  destruct (Z.eqb_spec b1 0) as [->|Hb10]; cbn [orb].
  { exists 0. split; [easy|]. split; [nia|]. nia. }
  destruct (Z.eqb_spec b2 0) as [->|Hb20]; cbn [orb].
  { exists 0. split; [easy|]. split; [nia|]. nia. }
  destruct (Z.eqb_spec f1 0) as [->|Hf10]; cbn [orb].
  { exists 0. split; [easy|]. split; nia. }
  destruct (Z.eqb_spec f2 0) as [->|Hf20]; cbn [orb].
  { exists 0. split; [easy|]. split; nia. }
  destruct (div_int b1 x1 f1 Hi1) as [q1 (E1 & P1 & L1 & U1 & D1)]; [lia|lia|].
  destruct (div_int b2 x2 f2 Hi2) as [q2 (E2 & P2 & L2 & U2 & D2)]; [lia|lia|].
  rewrite E1, E2. cbn [rbind].
  assert (Em : cmin (CVal q1) (CVal q2) = CVal (Z.min q1 q2)).
  { unfold cmin, clt, ccmp. destruct (Z.ltb_spec q2 q1); f_equal; lia. }
  rewrite Em.
  assert (Hm0 : 0 <= Z.min q1 q2) by lia.
  assert (B1 : Z.min q1 q2 * f1 < b1 + f1) by nia.
  assert (B2 : Z.min q1 q2 * f2 < b2 + f2) by nia.
  set (m := Z.min q1 q2) in *.
  assert (B3 : m <= m * f1) by (clear - Hm0 Hf10 H1; nia).
  assert (B4 : m * f1 <= m * f1 * f2) by (clear - Hm0 Hf20 H1 H2; assert (0 <= m * f1) by nia; nia).
  assert (B5 : m * f1 * f2 <= (b1 + f1) * f2) by (clear - B1 H2; nia).
  rewrite (mul_int _ x1 f1 Hi1); [|lia|lia|lia|lia|lia]. cbn [rbind].
  rewrite (mul_int _ x2 f2 Hi2); [|lia|lia|lia|lia|lia].
  eexists. split; [reflexivity|]. subst m. clear - L1 L2 D1 D2 H1 H2. split.
  - destruct (Z.min_spec q1 q2) as [[_ ->]|[_ ->]].
    + etransitivity; [apply Z.le_min_l|]. nia.
    + etransitivity; [apply Z.le_min_r|]. nia.
  - intros HD1 HD2. specialize (D1 HD1). specialize (D2 HD2). subst b1 b2.
    assert (P : 0 <= f1 * f2) by nia. replace (q2 * f2 * f1) with (q2 * (f1 * f2)) by ring. rewrite <- (Z.mul_assoc q1), <- (Z.mul_assoc (Z.min q1 q2)).
    now rewrite Z.mul_min_distr_nonneg_r.
Qed.
Lemma pk_fk_value st fk pk b f : known_base st (fst pk) b -> known_freq st fk f -> 0 <= b < 2 ^ 53 -> 0 <= f < 2 ^ 53 -> f * b < 2 ^ 53 ->
  estimate_pk_fk st fk pk = Ok (CVal (f * b)).
Proof.
  intros Hb [x [Hx Hi]] ? ? ?. unfold estimate_pk_fk, key. unfold known_base in Hb. rewrite Hb, Hx. cbn [rbind]. now apply times_int.
Qed.
