(** Lemmas about cardinalities. *)
From Coq Require Import List Bool Arith ZArith QArith Lia.
From Verif Require Import PyBase Card_model Card_spec.
Import ListNotations.
Local Open Scope Z_scope.

(** ** Rounding *)
Lemma rhe_between n d lo hi : 0 < d -> lo * d <= n -> n <= hi * d -> lo <= rhe n d <= hi.
Proof.
  intros Hd Hlo Hhi. unfold rhe. pose proof (Z.div_mod n d ltac:(lia)) as Hn. pose proof (Z.mod_pos_bound n d Hd) as Hr.
  set (q := n / d) in *. set (r := n mod d) in *.
  assert (lo <= q) by nia. assert (Hq : q <= hi) by nia.
  assert (Hq' : r <> 0 -> q + 1 <= hi) by (intros; nia).
  destruct (Z.ltb_spec (2 * r) d); [lia|]. assert (r <> 0) by lia. destruct (Z.ltb_spec d (2 * r)); [lia|]. destruct (Z.even q); lia.
Qed.
Lemma rhe_exact n d q : 0 < d -> n = q * d -> rhe n d = q.
Proof. intros Hd ->. pose proof (rhe_between (q * d) d q q Hd). lia. Qed.
(** The result is one of the nearest integers. *)
Lemma rhe_nearest n d : 0 < d -> 2 * Z.abs (rhe n d * d - n) <= d.
Proof.
  intros Hd. unfold rhe. pose proof (Z.div_mod n d ltac:(lia)) as Hn. pose proof (Z.mod_pos_bound n d Hd) as Hr.
  set (q := n / d) in *. set (r := n mod d) in *.
  destruct (Z.ltb_spec (2 * r) d); [nia|]. destruct (Z.ltb_spec d (2 * r)); [nia|]. destruct (Z.even q); nia.
Qed.

Lemma fden_pos e : 0 < fden e.
Proof. unfold fden. destruct (Z.leb_spec 0 e); [lia|]. apply Z.pow_pos_nonneg; lia. Qed.

Lemma fexp_small n d : 0 < d -> n <> 0 -> Z.abs n < 2 ^ 53 * d -> fexp n d <= 0.
Proof.
  intros Hd Hn Hlt. unfold fexp. set (k := Z.log2 (Z.abs n) - Z.log2 d).
  assert (Hk : k <= 53).
  { unfold k. destruct (Z.log2_spec (Z.abs n) ltac:(lia)) as [H1 _]. destruct (Z.log2_spec d Hd) as [_ H2].
    assert (H3 : 2 ^ Z.log2 (Z.abs n) < 2 ^ (53 + Z.succ (Z.log2 d))).
    { pose proof (Z.log2_nonneg d). rewrite Z.pow_add_r by lia. nia. }
    apply Z.pow_lt_mono_r_iff in H3; [lia|lia|]. pose proof (Z.log2_nonneg d). lia. }
  destruct (Z.eq_dec k 53) as [->|Hne].
  - change (0 <=? 53) with true. cbv iota. destruct (Z.ltb_spec (Z.abs n) (d * 2 ^ 53)); [lia|]. rewrite Z.mul_comm in Hlt. lia.
  - match goal with |- (if ?b then _ else _) - _ <= _ => destruct b end; lia.
Qed.

(** A quotient of moderate size is rounded to a double between its neighbouring integers. *)
Lemma fl_between n d lo hi : 0 < d -> Z.abs n < 2 ^ 53 * d -> lo * d <= n <= hi * d ->
  exists m e, fl n d = FFin m e /\ lo * fden e <= fnum m e <= hi * fden e.
Proof.
  intros Hd Hlt [Hlo Hhi]. unfold fl. destruct (Z.eqb_spec n 0) as [->|Hn].
  - exists 0, 0. split; [reflexivity|]. unfold fnum, fden. simpl. nia.
  - pose proof (fexp_small n d Hd Hn Hlt) as He. set (e := Z.max (fexp n d) (-1074)). assert (He' : e <= 0) by lia.
    destruct (Z.ltb_spec 0 e); [lia|]. cbn [andb]. eexists _, e. split; [reflexivity|]. unfold fnum, fden.
    destruct (Z.leb_spec 0 e) as [H0|H0].
    + replace e with 0 by lia. change (2 ^ 0) with 1. rewrite !Z.mul_1_r. now apply rhe_between.
    + assert (0 < 2 ^ (- e)) by (apply Z.pow_pos_nonneg; lia). apply rhe_between; [assumption|nia|nia].
Qed.
Lemma fl_int z : Z.abs z < 2 ^ 53 -> exists m e, fl z 1 = FFin m e /\ fnum m e = z * fden e.
Proof.
  intros H. destruct (fl_between z 1 z z ltac:(lia) ltac:(lia) ltac:(lia)) as [m [e [H1 H2]]]. exists m, e. split; [assumption|lia].
Qed.
Lemma float_of_int_small z : Z.abs z < 2 ^ 53 -> exists m e, float_of_int z = Ok (FFin m e) /\ fnum m e = z * fden e.
Proof. intros H. destruct (fl_int z H) as [m [e [H1 H2]]]. exists m, e. unfold float_of_int. rewrite H1. auto. Qed.
Lemma float_of_int_fin z f : float_of_int z = Ok f -> exists m e, f = FFin m e.
Proof. unfold float_of_int. destruct (fl z 1); intros [= <-]; eauto. Qed.

Lemma card_between n d lo hi : 0 < d -> Z.abs n < 2 ^ 53 * d -> lo * d <= n <= hi * d -> exists c, card_of_float (fl n d) = CVal c /\ lo <= c <= hi.
Proof.
  intros Hd Hlt Hb. destruct (fl_between n d lo hi Hd Hlt Hb) as [m [e [-> [H1 H2]]]]. cbn. eexists. split; [reflexivity|].
  apply rhe_between; [apply fden_pos|lia|lia].
Qed.
Lemma card_exact n d z : 0 < d -> Z.abs z < 2 ^ 53 -> n = z * d -> card_of_float (fl n d) = CVal z.
Proof.
  intros Hd Hz ->. destruct (card_between (z * d) d z z Hd) as [c [-> Hc]]; [rewrite Z.abs_mul, (Z.abs_eq d) by lia; nia|lia|]. f_equal. lia.
Qed.

Lemma fnum_opp m e : fnum (- m) e = - fnum m e.
Proof. unfold fnum. destruct (0 <=? e); lia. Qed.

Lemma cop_exact o a b c : exact_op o a b = Some c -> Z.abs a < 2 ^ 53 -> Z.abs b < 2 ^ 53 -> Z.abs c < 2 ^ 53 ->
  cop o (CVal a) (OCard (CVal b)) = Ok (CVal c).
Proof.
  intros Ho Ha Hb Hc. destruct (float_of_int_small a Ha) as [m [e [E1 E2]]]. destruct (float_of_int_small b Hb) as [m' [e' [E1' E2']]].
  unfold cop. cbn [cget oget]. rewrite E1, E1'. cbn [rbind]. pose proof (fden_pos e). pose proof (fden_pos e').
  destruct o; cbn in Ho; try discriminate; injection Ho as <-; cbn [fop rmap rbind]; f_equal; cbn [fadd fsub fopp fmul];
    apply card_exact; try nia; rewrite ?fnum_opp; rewrite E2, E2'; ring.
Qed.

(** Division of cardinalities: the result lies between the neighbouring integers of the exact quotient. *)
Lemma cop_div a b lo hi : Z.abs a < 2 ^ 53 -> 0 < b < 2 ^ 53 -> lo * b <= a <= hi * b ->
  exists c, cop Div (CVal a) (OCard (CVal b)) = Ok (CVal c) /\ lo <= c <= hi.
Proof.
  intros Ha Hb Hq. destruct (float_of_int_small a Ha) as [m [e [E1 E2]]]. destruct (float_of_int_small b ltac:(lia)) as [m' [e' [E1' E2']]].
  unfold cop. cbn [cget oget]. rewrite E1, E1'. cbn [rbind fop]. pose proof (fden_pos e) as P1. pose proof (fden_pos e') as P2.
  assert (Hm' : m' <> 0). { intros ->. unfold fnum in E2'. destruct (0 <=? e'); nia. }
  unfold fdiv. cbn [fzero]. destruct (Z.eqb_spec m' 0); [contradiction|]. rewrite E2, E2'.
  destruct (Z.ltb_spec (b * fden e' * fden e) 0); [nia|]. cbn [rmap rbind]. rewrite Z.abs_eq by nia.
  destruct (card_between (a * fden e * fden e') (b * fden e' * fden e) lo hi) as [c [Hc Hc']]; [nia| | |exists c; rewrite Hc; auto].
  - rewrite !Z.abs_mul, (Z.abs_eq (fden e)), (Z.abs_eq (fden e')) by lia.
    assert (Z.abs a < 2 ^ 53 * b) by nia. assert (0 < fden e * fden e') by nia. nia.
  - assert (0 < fden e * fden e') by nia. nia.
Qed.

(** ** NaN and infinity *)
Lemma nan_left o x f : oget x = Ok f -> (o = Div -> fzero f = false) -> cop o CNan x = Ok CNan.
Proof.
  intros Hx Hz. unfold cop. cbn [cget rbind]. rewrite Hx. cbn [rbind]. destruct o; cbn; auto. unfold fdiv. rewrite Hz by reflexivity.
  destruct f; reflexivity.
Qed.
Lemma nan_right o c f : cget c = Ok f -> cop o c (OCard CNan) = Ok CNan.
Proof. intros Hc. unfold cop. rewrite Hc. cbn [rbind oget cget]. destruct o, f; reflexivity. Qed.

Lemma inf_add c f : cget c = Ok f -> c <> CNan -> cop Add CInf (OCard c) = Ok CInf /\ cop Add c (OCard CInf) = Ok CInf.
Proof.
  intros Hc Hn. unfold cop. cbn [oget cget rbind]. rewrite Hc. cbn [rbind fop].
  destruct c as [| |z]; [congruence| |]; cbn in Hc; [injection Hc as <-; auto|]. apply float_of_int_fin in Hc as [m [e ->]]. auto.
Qed.
Lemma inf_sub z f : cget (CVal z) = Ok f -> cop Sub CInf (OCard (CVal z)) = Ok CInf.
Proof. intros Hc. unfold cop. cbn [oget]. rewrite Hc. cbn in Hc. apply float_of_int_fin in Hc as [m [e ->]]. reflexivity. Qed.
Lemma fl_zero_iff z m e : fl z 1 = FFin m e -> z <> 0 -> m <> 0.
Proof.
  unfold fl. destruct (Z.eqb_spec z 0); [congruence|]. intros H _. set (ee := Z.max (fexp z 1) (-1074)) in *.
  match type of H with (if ?b then _ else _) = _ => destruct b; [discriminate|] end.
  pose proof (f_equal (fun f => match f with FFin m _ => m | _ => 0 end) H) as Hm. cbv beta iota in Hm. subst m.
  assert (Hb : fexp z 1 <= Z.log2 (Z.abs z)).
  { unfold fexp. change (Z.log2 1) with 0. rewrite Z.sub_0_r. match goal with |- (if ?b then _ else _) - _ <= _ => destruct b end; lia. }
  pose proof (Z.log2_nonneg (Z.abs z)). destruct (Z.log2_spec (Z.abs z) ltac:(lia)) as [Hl _].
  destruct (Z.leb_spec 0 ee) as [Hs|Hs].
  - assert (Hee : ee <= Z.log2 (Z.abs z)) by lia. assert (Hp : 2 ^ ee <= Z.abs z).
    { etransitivity; [|exact Hl]. apply Z.pow_le_mono_r; lia. }
    assert (0 < 2 ^ ee) by (apply Z.pow_pos_nonneg; lia). rewrite Z.mul_1_l.
    destruct (Z.lt_ge_cases z 0) as [Hz|Hz].
    + pose proof (rhe_between z (2 ^ ee) (- Z.abs z) (-1) ltac:(lia) ltac:(nia) ltac:(lia)). lia.
    + pose proof (rhe_between z (2 ^ ee) 1 (Z.abs z) ltac:(lia) ltac:(lia) ltac:(nia)). lia.
  - assert (0 < 2 ^ (- ee)) by (apply Z.pow_pos_nonneg; lia). rewrite (rhe_exact _ 1 (z * 2 ^ (- ee))) by lia. nia.
Qed.
Lemma inf_mul z f : z <> 0 -> cget (CVal z) = Ok f -> cop Mul CInf (OCard (CVal z)) = Ok CInf /\ cop Mul (CVal z) (OCard CInf) = Ok CInf.
Proof.
  intros Hz Hc. unfold cop. cbn [oget]. rewrite Hc. cbn [cget rbind fop rmap]. cbn in Hc. pose proof Hc as Hc'.
  apply float_of_int_fin in Hc as [m [e ->]]. unfold float_of_int in Hc'. destruct (fl z 1) as [| |m' e'] eqn:E; try discriminate.
  injection Hc' as -> ->. apply fl_zero_iff in E; [|assumption]. cbn [fmul fzero orb]. destruct (Z.eqb_spec m 0); [contradiction|]. auto.
Qed.
Lemma inf_div z f : z <> 0 -> cget (CVal z) = Ok f -> cop Div CInf (OCard (CVal z)) = Ok CInf.
Proof.
  intros Hz Hc. unfold cop. cbn [oget]. rewrite Hc. cbn [cget rbind fop rmap]. cbn in Hc. pose proof Hc as Hc'.
  apply float_of_int_fin in Hc as [m [e ->]]. unfold float_of_int in Hc'. destruct (fl z 1) as [| |m' e'] eqn:E; try discriminate.
  injection Hc' as -> ->. apply fl_zero_iff in E; [|assumption]. unfold fdiv. cbn [fzero]. destruct (Z.eqb_spec m 0); [contradiction|]. reflexivity.
Qed.

(** ** Order *)
Lemma two_power_frac m e : (two_power m e == fnum m e # Z.to_pos (fden e))%Q.
Proof.
  unfold two_power, fnum, fden. destruct e as [|p|p]; cbn [Z.leb Z.compare]; try (unfold Qeq; cbn [Qnum Qden inject_Z]; lia).
  change (- Z.neg p) with (Z.pos p). unfold Qeq. cbn [Qnum Qden]. rewrite <- Pos2Z.inj_pow. reflexivity.
Qed.
Lemma inject_lt x m e : (inject_Z x < two_power m e)%Q <-> x * fden e < fnum m e.
Proof. rewrite two_power_frac. unfold Qlt. cbn. rewrite Z2Pos.id by apply fden_pos. lia. Qed.
Lemma inject_gt x m e : (two_power m e < inject_Z x)%Q <-> fnum m e < x * fden e.
Proof. rewrite two_power_frac. unfold Qlt. cbn. rewrite Z2Pos.id by apply fden_pos. lia. Qed.
Lemma inject_eq x m e : (inject_Z x == two_power m e)%Q <-> x * fden e = fnum m e.
Proof. rewrite two_power_frac. unfold Qeq. cbn. rewrite Z2Pos.id by apply fden_pos. lia. Qed.
Lemma below_inv x y : below x y -> match x, y with Fin p, Fin q => (p < q)%Q | Fin _, PosInf => True | NegInf, Fin _ => True | NegInf, PosInf => True | _, _ => False end.
Proof. destruct 1; auto. Qed.

Lemma zlt_Q x y : (inject_Z x < inject_Z y)%Q <-> x < y.
Proof. unfold Qlt. cbn. lia. Qed.

(** [<] is right for every cardinality and number that stands for a value. *)
Lemma clt_spec a b x y : cmeans a x -> omeans b y -> (clt a b = true <-> below x y).
Proof.
  intros Ha Hb. split.
  - destruct a as [| |z]; [destruct Ha|discriminate|]. cbn in Ha. subst x. destruct b as [[| |w]|[w|[|neg|m e]]]; cbn in Hb; subst; try contradiction; cbn.
    + constructor.
    + rewrite Z.ltb_lt. intros. constructor. now apply zlt_Q.
    + rewrite Z.ltb_lt. intros. constructor. now apply zlt_Q.
    + destruct neg; [discriminate|]. constructor.
    + rewrite Z.ltb_lt. intros. constructor. now apply inject_lt.
  - intros H. apply below_inv in H. destruct a as [| |z]; [destruct Ha|cbn in Ha; subst x; destruct H|]. cbn in Ha. subst x.
    destruct b as [[| |w]|[w|[|neg|m e]]]; cbn in Hb; subst; try contradiction; cbn in *; try reflexivity.
    + apply Z.ltb_lt. now apply zlt_Q.
    + apply Z.ltb_lt. now apply zlt_Q.
    + destruct neg; [destruct H|reflexivity].
    + apply Z.ltb_lt. now apply inject_lt.
Qed.
Lemma cgt_spec z b y : omeans b y -> b <> OCard CInf -> (cgt (CVal z) b = true <-> below y (Fin (inject_Z z))).
Proof.
  intros Hb Hni. split.
  - destruct b as [[| |w]|[w|[|neg|m e]]]; cbn in Hb; subst; try contradiction; try congruence; cbn.
    + rewrite Z.gtb_ltb, Z.ltb_lt. intros. constructor. now apply zlt_Q.
    + rewrite Z.gtb_ltb, Z.ltb_lt. intros. constructor. now apply zlt_Q.
    + destruct neg; [|discriminate]. constructor.
    + rewrite Z.ltb_lt. intros. constructor. now apply inject_gt.
  - intros H. apply below_inv in H. destruct b as [[| |w]|[w|[|neg|m e]]]; cbn in Hb; subst; try contradiction; try congruence; cbn in *.
    + rewrite Z.gtb_ltb. apply Z.ltb_lt. now apply zlt_Q.
    + rewrite Z.gtb_ltb. apply Z.ltb_lt. now apply zlt_Q.
    + destruct neg; [reflexivity|destruct H].
    + apply Z.ltb_lt. now apply inject_gt.
Qed.
Lemma ceq_spec a b x y : cmeans a x -> omeans b y -> ceq a b = Ok true -> same x y \/ (x = PosInf /\ y = NegInf).
Proof.
  intros Ha Hb H. destruct a as [| |z], b as [[| |w]|[w|[|neg|m e]]]; cbn in *; subst; try contradiction; try discriminate; auto.
  all: try (destruct neg; cbn; now auto).
  all: try (left; exact I).
  all: left; injection H as H; apply Z.eqb_eq in H; try (now apply inject_eq); subst; cbn; reflexivity.
Qed.
Lemma ceq_spec_conv a b x y : cmeans a x -> omeans b y -> same x y -> ceq a b = Ok true.
Proof.
  intros Ha Hb H. destruct a as [| |z], b as [[| |w]|[w|[|neg|m e]]]; cbn in *; subst; try contradiction; auto.
  all: try (destruct neg; solve [destruct H|reflexivity]).
  all: try (assert (z = w) by (unfold same, Qeq in H; cbn in H; lia); subst; now rewrite Z.eqb_refl).
  apply inject_eq in H. now rewrite H, Z.eqb_refl.
Qed.
Lemma ceq_raises a b : ceq a b = Raise StateError <-> exists c, b = OCard c /\ a <> c /\ (is_valid a = false \/ is_valid c = false).
Proof.
  split.
  - intros H. destruct a as [| |z], b as [[| |w]|[w|[|neg|m e]]]; cbn in H; try discriminate; eexists; (split; [reflexivity|split; [congruence|cbn; auto]]).
  - intros [c [-> [H1 H2]]]. destruct a as [| |z], c as [| |w]; cbn in *; try congruence; try reflexivity. destruct H2; discriminate.
Qed.
Lemma cmin_spec a b x y : cmeans a x -> cmeans b y -> (cmin a b = a \/ cmin a b = b) /\ (forall m, cmeans (cmin a b) m -> ~ below x m /\ ~ below y m).
Proof.
  intros Ha Hb. unfold cmin. destruct (clt b (OCard a)) eqn:E.
  - apply (clt_spec b (OCard a) y x Hb Ha) in E. split; [auto|]. intros m Hm. assert (m = y) as ->. { destruct b; cbn in *; try contradiction; congruence. }
    apply below_inv in E. split; intros H; apply below_inv in H; destruct x, y; try contradiction; auto.
    + now apply (Qlt_irrefl q), Qlt_trans with q0.
    + now apply (Qlt_irrefl q0) in H.
    + now apply (Qlt_irrefl q) in H.
  - split; [auto|]. intros m Hm. assert (m = x) as ->. { destruct a; cbn in *; try contradiction; congruence. }
    split; intros H.
    + apply below_inv in H. destruct x; try contradiction. now apply (Qlt_irrefl q) in H.
    + apply (clt_spec b (OCard a) y x Hb Ha) in H. congruence.
Qed.
