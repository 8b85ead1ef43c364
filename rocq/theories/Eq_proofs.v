(** Lemmas about equality, hashing, renaming and simplified views. *)
From Coq Require Import List Bool Arith ZArith String Lia.
From Verif Require Import PyBase Pred_model Pred_spec Pred_proofs MPrint_model Ident_model Expr_model Expr_spec Expr_proofs Eq_model.
Import ListNotations.

Lemma sval_eqb_refl v : sval_eqb v v = true.
Proof. destruct v as [|z|[]|s]; cbn; try reflexivity; apply deqb_refl. Qed.
Lemma deqb_sym {A} `{EqD A} (a b : A) : deqb a b = deqb b a.
Proof. destruct (deqb a b) eqn:E1, (deqb b a) eqn:E2; try reflexivity; [apply deqb_true in E1|apply deqb_true in E2]; subst; rewrite deqb_refl in *; discriminate. Qed.
Lemma sval_eqb_sym v w : sval_eqb v w = sval_eqb w v.
Proof. destruct v as [|z|[]|s], w as [|z'|[]|s']; cbn; try reflexivity; apply deqb_sym. Qed.
Lemma sval_eqb_atom v w : sval_eqb v w = true -> hval_atom v = hval_atom w.
Proof. destruct v as [|z|[]|s], w as [|z'|[]|s']; cbn; intros H; try discriminate; try apply deqb_true in H; subst; reflexivity. Qed.

Section Lists.
  Context {A : Type} (f : A -> A -> bool).
  Lemma leqb_refl l : (forall x, In x l -> f x x = true) -> leqb f l l = true.
  Proof. induction l as [|x l IH]; cbn; intros H; [reflexivity|]. rewrite H by auto. apply IH. auto. Qed.
  Lemma leqb_sym l : (forall x y, In x l -> f x y = f y x) -> forall m, leqb f l m = leqb f m l.
  Proof. induction l as [|x l IH]; intros H [|y m]; cbn; try reflexivity. rewrite (H x y) by (now left). rewrite IH; [reflexivity|]. intros a b Ha. apply H. now right. Qed.
  Lemma leqb_map {B} (h : A -> B) l : forall m, leqb f l m = true -> (forall x y, In x l -> f x y = true -> h x = h y) -> map h l = map h m.
  Proof.
    induction l as [|x l IH]; intros [|y m]; cbn; intros H Hh; try discriminate; [reflexivity|]. apply andb_true_iff in H as [H1 H2].
    rewrite (Hh x y) by auto. f_equal. apply IH; auto.
  Qed.
  Lemma oeqb_refl o : (forall x, o = Some x -> f x x = true) -> oeqb f o o = true.
  Proof. destruct o; cbn; auto. Qed.
  Lemma oeqb_sym o : (forall x y, o = Some x -> f x y = f y x) -> forall p, oeqb f o p = oeqb f p o.
  Proof. destruct o; intros H [y|]; cbn; auto. Qed.
  Lemma oeqb_map {B} (h : A -> B) o p : oeqb f o p = true -> (forall x y, o = Some x -> f x y = true -> h x = h y) -> option_map h o = option_map h p.
  Proof. destruct o, p; cbn; intros H Hh; try discriminate; [|reflexivity]. f_equal. auto. Qed.
End Lists.

(** ** Equality and hash *)
Section H.
  Context (htup : list Z -> Z) (hat : hatom -> Z).
  Notation xhash := (xhash htup hat). Notation xeqb := (xeqb htup hat).

  Lemma peqb_refl p : (forall e, In e (pexprs p) -> xeqb e e = true) -> peqb xhash xeqb p p = true.
  Proof.
    induction p as [op a b|a lo hi|a vs|op a|p IH|ps IH|ps IH] using pred_ind'; cbn [pexprs peqb]; intros H.
    - rewrite deqb_refl, !H; cbn; auto.
    - rewrite !H; cbn; auto.
    - rewrite H by (now left). unfold set_eqb, same. cbn. apply andb_true_iff. split; apply forallb_forall; intros v Hv; apply existsb_exists; exists v;
        (split; [assumption|]); rewrite Z.eqb_refl, H; auto; now right.
    - rewrite deqb_refl, H; cbn; auto.
    - auto.
    - apply leqb_refl. intros q Hq. rewrite Forall_forall in IH. apply IH; [assumption|]. intros e He. apply H. apply in_flat_map. eauto.
    - apply leqb_refl. intros q Hq. rewrite Forall_forall in IH. apply IH; [assumption|]. intros e He. apply H. apply in_flat_map. eauto.
  Qed.
  Lemma forallb_ext_in {A} (g g' : A -> bool) l : (forall x, In x l -> g x = g' x) -> forallb g l = forallb g' l.
  Proof. induction l as [|a l IH]; cbn; intros H; [reflexivity|]. rewrite H, IH; auto. Qed.
  Lemma existsb_ext_in {A} (g g' : A -> bool) l : (forall x, In x l -> g x = g' x) -> existsb g l = existsb g' l.
  Proof. induction l as [|a l IH]; cbn; intros H; [reflexivity|]. rewrite H, IH; auto. Qed.
  Lemma set_eqb_sym vs ws : (forall e e', In e vs -> xeqb e e' = xeqb e' e) -> set_eqb xhash xeqb vs ws = set_eqb xhash xeqb ws vs.
  Proof.
    intros H. unfold set_eqb. rewrite andb_comm. f_equal; apply forallb_ext_in; intros w Hw; apply existsb_ext_in; intros v Hv; unfold same; rewrite Z.eqb_sym; f_equal; auto.
  Qed.
  Lemma peqb_sym p : (forall e e', In e (pexprs p) -> xeqb e e' = xeqb e' e) -> forall q, peqb xhash xeqb p q = peqb xhash xeqb q p.
  Proof.
    induction p as [op a b|a lo hi|a vs|op a|p IH|ps IH|ps IH] using pred_ind'; intros H [op' a' b'|a' lo' hi'|a' vs'|op' a'|q|qs|qs]; cbn [peqb pexprs] in *; try reflexivity.
    - rewrite (deqb_sym op), (H a a'), (H b b'); cbn; auto.
    - rewrite (H a a'), (H lo lo'), (H hi hi'); cbn; auto.
    - rewrite (H a a') by (now left). f_equal. apply set_eqb_sym. intros e e' He. apply H. now right.
    - rewrite (deqb_sym op), (H a a'); cbn; auto.
    - auto.
    - apply leqb_sym. intros x y Hx. rewrite Forall_forall in IH. apply IH; [assumption|]. intros e e' He. apply H. apply in_flat_map. eauto.
    - apply leqb_sym. intros x y Hx. rewrite Forall_forall in IH. apply IH; [assumption|]. intros e e' He. apply H. apply in_flat_map. eauto.
  Qed.

  Ltac inparts := cbn; rewrite ?in_app_iff; cbn; eauto 7.
  Lemma xeqb_refl e : xeqb e e = true.
  Proof.
    induction e as [e IH] using sx_ind'.
    destruct e as [v|t|a ty ps arr|op a bs|c|f args d flt|es|a i l h|q|f ps os flt|cs s el|al a|p]; cbn [Eq_model.xeqb parts] in *.
    - apply sval_eqb_refl. - apply deqb_refl.
    - rewrite IH by (now left). rewrite deqb_refl, eqb_reflx, leqb_refl; [reflexivity|]. intros; apply IH; inparts.
    - rewrite IH by (now left). rewrite deqb_refl, leqb_refl; [reflexivity|]. intros; apply IH; inparts.
    - apply deqb_refl.
    - rewrite deqb_refl, eqb_reflx, leqb_refl by (intros; apply IH; inparts). cbn. apply oeqb_refl. intros p ->. apply peqb_refl. intros e He. apply IH. inparts.
    - apply leqb_refl. auto.
    - rewrite IH by (now left). rewrite !oeqb_refl; [reflexivity| | |]; intros x ->; apply IH; inparts.
    - apply deqb_refl.
    - rewrite IH by (now left). rewrite !leqb_refl by (intros; apply IH; inparts). cbn. apply oeqb_refl. intros p ->. apply peqb_refl. intros e He. apply IH. inparts.
    - rewrite leqb_refl.
      + cbn. rewrite !oeqb_refl; [reflexivity| |]; intros x ->; apply IH; inparts.
      + intros [x y] Hxy. cbn. rewrite !IH; [reflexivity| |]; apply in_app_iff; left; apply in_flat_map; exists (x, y); cbn; auto.
    - rewrite IH, eqb_reflx; cbn; auto.
    - apply peqb_refl. auto.
  Qed.
  Lemma eqb_sym' (a b : bool) : Bool.eqb a b = Bool.eqb b a.
  Proof. destruct a, b; reflexivity. Qed.
  Lemma xeqb_sym e : forall e', xeqb e e' = xeqb e' e.
  Proof.
    induction e as [e IH] using sx_ind'. intros e'.
    destruct e as [v|t|a ty ps arr|op a bs|c|f args d flt|es|a i l h|q|f ps os flt|cs s el|al a|p];
      destruct e' as [v'|t'|a' ty' ps' arr'|op' a' bs'|c'|f' args' d' flt'|es'|a' i' l' h'|q'|f' ps' os' flt'|cs' s' el'|al' a'|p']; cbn [Eq_model.xeqb parts] in *; try reflexivity.
    - apply sval_eqb_sym. - apply deqb_sym.
    - rewrite (IH a) by (now left). rewrite (deqb_sym ty), (eqb_sym' arr), (leqb_sym xeqb ps); [reflexivity|]. intros; apply IH; inparts.
    - rewrite (IH a) by (now left). rewrite (deqb_sym op), (leqb_sym xeqb bs); [reflexivity|]. intros; apply IH; inparts.
    - apply deqb_sym.
    - rewrite (deqb_sym f), (eqb_sym' d), (leqb_sym xeqb args) by (intros; apply IH; inparts). f_equal. apply oeqb_sym. intros p q ->. apply peqb_sym. intros e e' He. apply IH. inparts.
    - apply leqb_sym. auto.
    - rewrite (IH a) by (now left). rewrite (oeqb_sym xeqb i), (oeqb_sym xeqb l), (oeqb_sym xeqb h); [reflexivity| | |]; intros x y ->; apply IH; inparts.
    - apply deqb_sym.
    - rewrite (IH f) by (now left). rewrite (leqb_sym xeqb ps), (leqb_sym xeqb os) by (intros; apply IH; inparts). f_equal. apply oeqb_sym. intros p q ->. apply peqb_sym. intros e e' He. apply IH. inparts.
    - rewrite (oeqb_sym xeqb s), (oeqb_sym xeqb el) by (intros x y ->; apply IH; inparts). f_equal. f_equal. apply leqb_sym. intros [x y] [x' y'] Hxy. cbn.
      rewrite (IH x), (IH y); [reflexivity| |]; apply in_app_iff; left; apply in_flat_map; exists (x, y); cbn; auto.
    - rewrite (IH a) by (now left). now rewrite (eqb_sym' al).
    - apply peqb_sym. auto.
  Qed.

  Lemma phash_eq p : no_in_here p = true -> (forall e e', In e (pexprs p) -> xeqb e e' = true -> xhash e = xhash e') ->
    forall q, peqb xhash xeqb p q = true -> phash htup hat xhash p = phash htup hat xhash q.
  Proof.
    induction p as [op a b|a lo hi|a vs|op a|p IH|ps IH|ps IH] using pred_ind'; cbn [no_in_here pexprs]; intros Hn H [op' a' b'|a' lo' hi'|a' vs'|op' a'|q|qs|qs]; cbn [peqb phash];
      intros Hq; try discriminate; repeat (apply andb_true_iff in Hq as [Hq ?]).
    - apply deqb_true in Hq. subst. rewrite (H a a'), (H b b'); cbn; auto.
    - rewrite (H a a'), (H lo lo'), (H hi hi'); cbn; auto.
    - apply deqb_true in Hq. subst. rewrite (H a a'); cbn; auto.
    - rewrite (IH Hn H q Hq). reflexivity.
    - do 4 f_equal. rewrite Forall_forall in IH. rewrite forallb_forall in Hn. apply (leqb_map (peqb xhash xeqb)); [assumption|]. intros x y Hx Hxy.
      apply IH; auto. intros e e' He. apply H. apply in_flat_map. eauto.
    - do 4 f_equal. rewrite Forall_forall in IH. rewrite forallb_forall in Hn. apply (leqb_map (peqb xhash xeqb)); [assumption|]. intros x y Hx Hxy.
      apply IH; auto. intros e e' He. apply H. apply in_flat_map. eauto.
  Qed.

  Lemma hopt_map {A} (h : A -> Z) o p : option_map h o = option_map h p -> hopt hat h o = hopt hat h p.
  Proof. destruct o, p; cbn; intros H; try discriminate; [now injection H|reflexivity]. Qed.
  Lemma xhash_eq e : no_in e -> forall e', xeqb e e' = true -> xhash e = xhash e'.
  Proof.
    induction e as [e IH0] using sx_ind'. intros Hn e'. inversion Hn as [e0 Hh Hall]; subst.
    assert (IH : forall x, In x (parts e) -> forall y, xeqb x y = true -> xhash x = xhash y) by (intros x Hx; apply IH0; auto). clear IH0 Hn Hall.
    assert (IHp : forall p q, no_in_here p = true -> (forall x, In x (pexprs p) -> In x (parts e)) -> peqb xhash xeqb p q = true -> phash htup hat xhash p = phash htup hat xhash q)
      by (intros p q Hp Hin; apply phash_eq; auto).
    destruct e as [v|t|a ty ps arr|op a bs|c|f args d flt|es|a i l h|q|f ps os flt|cs s el|al a|p];
      destruct e' as [v'|t'|a' ty' ps' arr'|op' a' bs'|c'|f' args' d' flt'|es'|a' i' l' h'|q'|f' ps' os' flt'|cs' s' el'|al' a'|p']; cbn [Eq_model.xeqb parts Eq_model.xhash] in *;
      intros H; try discriminate; repeat match type of H with _ && _ = true => apply andb_true_iff in H as [H ?] end.
    - now rewrite (sval_eqb_atom _ _ H).
    - apply deqb_true in H. now subst.
    - rewrite (IH a (or_introl eq_refl) a' H). repeat match goal with H : deqb _ _ = true |- _ => apply deqb_true in H | H : Bool.eqb _ _ = true |- _ => apply eqb_prop in H end. subst.
      rewrite (leqb_map xeqb xhash ps ps'); [reflexivity|assumption|]. intros x y Hx. apply IH. inparts.
    - apply deqb_true in H. subst. match goal with H : xeqb a a' = true |- _ => rewrite (IH a (or_introl eq_refl) a' H) end.
      assert (Hm : map xhash bs = map xhash bs') by (apply (leqb_map xeqb xhash bs bs'); [assumption|]; intros x y Hx; apply IH; inparts).
      destruct bs as [|b [|b2 bs]], bs' as [|b' [|b2' bs']]; cbn [map] in Hm; try discriminate Hm; try reflexivity.
      + injection Hm as ->. reflexivity.
      + cbn [map]. now rewrite Hm.
    - apply deqb_true in H. now subst.
    - apply deqb_true in H. match goal with H : Bool.eqb _ _ = true |- _ => apply eqb_prop in H end. subst.
      rewrite (leqb_map xeqb xhash args args') by (try assumption; intros x y Hx; apply IH; inparts).
      do 5 f_equal. apply hopt_map. apply (oeqb_map (peqb xhash xeqb)); [assumption|]. intros p q -> Hpq. apply IHp; [exact Hh| |assumption]. intros x Hx. inparts.
    - rewrite (leqb_map xeqb xhash es es'); auto.
    - rewrite (IH a (or_introl eq_refl) a' H).
      assert (Hopt : forall o o', (forall x, o = Some x -> In x (olist i ++ olist l ++ olist h)) -> oeqb xeqb o o' = true -> oapp (fun e => [xhash e]) o = oapp (fun e => [xhash e]) o').
      { intros [x|] [y|] Hin Heq; cbn in *; try discriminate; [|reflexivity]. rewrite (IH x) with (y := y); [reflexivity| |assumption]. right. auto. }
      rewrite (Hopt i i'), (Hopt l l'), (Hopt h h'); auto; intros x ->; inparts.
    - apply deqb_true in H. now rewrite H.
    - rewrite (IH f (or_introl eq_refl) f' H). rewrite (leqb_map xeqb xhash ps ps'), (leqb_map xeqb xhash os os') by (try assumption; intros x y Hx; apply IH; inparts).
      do 5 f_equal. apply hopt_map. apply (oeqb_map (peqb xhash xeqb)); [assumption|]. intros p q -> Hpq. apply IHp; [exact Hh| |assumption]. intros x Hx. inparts.
    - rewrite (leqb_map _ (fun c => htup [xhash (fst c); xhash (snd c)]) cs cs' H).
      + do 2 f_equal. f_equal; [|f_equal]; apply hopt_map; (eapply oeqb_map; [eassumption|]); intros x y -> Hxy; (apply IH; [|assumption]); inparts.
      + intros [x y] [x' y'] Hxy Heq. cbn in *. apply andb_true_iff in Heq as [H1' H2']. rewrite (IH x) with (y := x'), (IH y) with (y := y'); auto; apply in_app_iff; left; apply in_flat_map; exists (x, y); cbn; auto.
    - rewrite (IH a (or_introl eq_refl) a' H). match goal with H : Bool.eqb _ _ = true |- _ => apply eqb_prop in H end. now subst.
    - apply IHp; [exact Hh|auto|assumption].
  Qed.

  (** Equality is transitive. *)
  Lemma leqb_trans {A} (f : A -> A -> bool) l : (forall x y z, In x l -> f x y = true -> f y z = true -> f x z = true) ->
    forall m n, leqb f l m = true -> leqb f m n = true -> leqb f l n = true.
  Proof.
    induction l as [|x l IH]; intros Hf [|y m] [|z n]; cbn; intros H1 H2; try discriminate; [reflexivity|].
    apply andb_true_iff in H1 as [H1 H1']. apply andb_true_iff in H2 as [H2 H2']. rewrite (Hf x y z) by (auto; now left). cbn. apply (IH) with (m := m); auto.
    intros a b c Ha. apply Hf. now right.
  Qed.
  Lemma oeqb_trans {A} (f : A -> A -> bool) o : (forall x y z, o = Some x -> f x y = true -> f y z = true -> f x z = true) ->
    forall p q, oeqb f o p = true -> oeqb f p q = true -> oeqb f o q = true.
  Proof. destruct o; intros Hf [y|] [z|]; cbn; intros; try discriminate; eauto. Qed.
  Lemma set_eqb_trans vs ws us : (forall x y z, In x vs -> xeqb x y = true -> xeqb y z = true -> xeqb x z = true) ->
    set_eqb xhash xeqb vs ws = true -> set_eqb xhash xeqb ws us = true -> set_eqb xhash xeqb vs us = true.
  Proof.
    intros Ht H1 H2. unfold set_eqb in *. apply andb_true_iff in H1 as [H1 H1'], H2 as [H2 H2']. rewrite forallb_forall in *. apply andb_true_iff. split; apply forallb_forall.
    - intros v Hv. specialize (H1 v Hv). apply existsb_exists in H1 as [w [Hw E1]]. specialize (H2 w Hw). apply existsb_exists in H2 as [u [Hu E2]].
      apply existsb_exists. exists u. split; [assumption|]. unfold same in *. apply andb_true_iff in E1 as [Z1 E1], E2 as [Z2 E2]. apply Z.eqb_eq in Z1, Z2. rewrite Z1, Z2, Z.eqb_refl. cbn. eauto.
    - intros u Hu. specialize (H2' u Hu). apply existsb_exists in H2' as [w [Hw E2]]. specialize (H1' w Hw). apply existsb_exists in H1' as [v [Hv E1]].
      apply existsb_exists. exists v. split; [assumption|]. unfold same in *. apply andb_true_iff in E1 as [Z1 E1], E2 as [Z2 E2]. apply Z.eqb_eq in Z1, Z2. rewrite Z1, Z2, Z.eqb_refl. cbn. eauto.
  Qed.
  Ltac andbs := repeat match goal with H : _ && _ = true |- _ => apply andb_true_iff in H as [H ?] end.
  Ltac deqbs := repeat match goal with H : deqb _ _ = true |- _ => apply deqb_true in H | H : Bool.eqb _ _ = true |- _ => apply eqb_prop in H end.
  Lemma peqb_trans p : (forall x y z, In x (pexprs p) -> xeqb x y = true -> xeqb y z = true -> xeqb x z = true) ->
    forall q s, peqb xhash xeqb p q = true -> peqb xhash xeqb q s = true -> peqb xhash xeqb p s = true.
  Proof.
    induction p as [op a b|a lo hi|a vs|op a|p IH|ps IH|ps IH] using pred_ind'; intros H [op' a' b'|a' lo' hi'|a' vs'|op' a'|q|qs|qs] [op'' a'' b''|a'' lo'' hi''|a'' vs''|op'' a''|s|ss|ss];
      cbn [peqb pexprs] in *; intros H1 H2; try discriminate; andbs; deqbs; subst.
    - rewrite deqb_refl, (H a a' a''), (H b b' b''); cbn; auto.
    - rewrite (H a a' a''), (H lo lo' lo''), (H hi hi' hi''); cbn; auto.
    - rewrite (H a a' a'') by (auto; now left). cbn. apply set_eqb_trans with (ws := vs'); auto. intros x y z Hx. apply H. now right.
    - rewrite deqb_refl, (H a a' a''); cbn; auto.
    - eauto.
    - apply leqb_trans with (m := qs); auto. intros x y z Hx. rewrite Forall_forall in IH. apply IH; [assumption|]. intros e e' e'' He. apply H. apply in_flat_map. eauto.
    - apply leqb_trans with (m := qs); auto. intros x y z Hx. rewrite Forall_forall in IH. apply IH; [assumption|]. intros e e' e'' He. apply H. apply in_flat_map. eauto.
  Qed.
  Lemma sval_eqb_trans u v w : sval_eqb u v = true -> sval_eqb v w = true -> sval_eqb u w = true.
  Proof. destruct u as [|z|[]|s], v as [|z'|[]|s'], w as [|z''|[]|s'']; cbn; intros H1 H2; try discriminate; deqbs; subst; try reflexivity; try apply deqb_refl; discriminate. Qed.
  Lemma xeqb_trans e : forall e' e'', xeqb e e' = true -> xeqb e' e'' = true -> xeqb e e'' = true.
  Proof.
    induction e as [e IH] using sx_ind'. intros e' e''.
    destruct e as [v|t|a ty ps arr|op a bs|c|f args d flt|es|a i l h|q|f ps os flt|cs s el|al a|p];
      destruct e' as [v'|t'|a' ty' ps' arr'|op' a' bs'|c'|f' args' d' flt'|es'|a' i' l' h'|q'|f' ps' os' flt'|cs' s' el'|al' a'|p']; try discriminate;
      destruct e'' as [v''|t''|a'' ty'' ps'' arr''|op'' a'' bs''|c''|f'' args'' d'' flt''|es''|a'' i'' l'' h''|q''|f'' ps'' os'' flt''|cs'' s'' el''|al'' a''|p'']; try discriminate; cbn [Eq_model.xeqb parts] in *;
      intros H1 H2; andbs; deqbs; subst; rewrite ?deqb_refl, ?eqb_reflx; cbn [andb].
    - eapply sval_eqb_trans; eassumption.
    - reflexivity.
    - rewrite (IH a) with (e' := a') (e'' := a'') by (auto; now left). cbn. rewrite andb_true_r. apply leqb_trans with (m := ps'); auto. intros; eapply IH; try eassumption; inparts.
    - rewrite (IH a) with (e' := a') (e'' := a'') by (auto; now left). cbn. apply leqb_trans with (m := bs'); auto. intros; eapply IH; try eassumption; inparts.
    - reflexivity.
    - rewrite andb_true_r. apply andb_true_iff. split.
      + apply leqb_trans with (m := args'); auto. intros; eapply IH; try eassumption; inparts.
      + apply oeqb_trans with (p := flt'); auto. intros p q z ->. apply peqb_trans. intros x y w Hx. apply IH. inparts.
    - apply leqb_trans with (m := es'); auto. intros x y z Hx. apply IH. exact Hx.
    - rewrite (IH a) with (e' := a') (e'' := a'') by (auto; now left). cbn.
      rewrite (oeqb_trans xeqb i) with (p := i'), (oeqb_trans xeqb l) with (p := l'), (oeqb_trans xeqb h) with (p := h'); auto; intros x y z ->; apply IH; inparts.
    - rewrite H1, H2. apply deqb_refl.
    - rewrite (IH f) with (e' := f') (e'' := f'') by (auto; now left). cbn.
      rewrite (leqb_trans xeqb ps) with (m := ps'), (leqb_trans xeqb os) with (m := os') by (auto; intros; eapply IH; try eassumption; inparts). cbn.
      apply oeqb_trans with (p := flt'); auto. intros p q z ->. apply peqb_trans. intros x y w Hx. apply IH. inparts.
    - rewrite (oeqb_trans xeqb s) with (p := s'), (oeqb_trans xeqb el) with (p := el') by (auto; intros x y z ->; apply IH; inparts). rewrite !andb_true_r.
      apply leqb_trans with (m := cs'); auto. intros [x1 y1] [x2 y2] [x3 y3] Hin E1 E2. cbn in *. andbs.
      rewrite (IH x1) with (e' := x2), (IH y1) with (e' := y2); auto; apply in_app_iff; left; apply in_flat_map; exists (x1, y1); cbn; auto.
    - rewrite (IH a) with (e' := a') (e'' := a''); auto. now left.
    - apply peqb_trans with (q := p'); auto. intros x y z Hx. apply IH. exact Hx.
  Qed.

  (** Equal expressions have the same value. *)
  Context (A : algebra) (r : col -> W A) (HA : sql_algebra A).
  Lemma sval_same v w : sval_eqb v w = true -> wop A (LStatic v) [] = wop A (LStatic w) [].
  Proof.
    destruct HA as [Hb _]. destruct v as [|z|b|s], w as [|z'|b'|s']; cbn; intros H; try discriminate; try reflexivity;
      try (destruct b; discriminate); try (destruct b'; discriminate); rewrite ?Hb; try destruct b; try destruct b'; try discriminate; try apply deqb_true in H; subst; reflexivity.
  Qed.
  Lemma peqb_eval p : (forall e e', In e (pexprs p) -> xeqb e e' = true -> eval A r e = eval A r e') ->
    forall q, peqb xhash xeqb p q = true -> peval A (eval A r) p = peval A (eval A r) q.
  Proof.
    induction p as [op a b|a lo hi|a vs|op a|p IH|ps IH|ps IH] using pred_ind'; cbn [pexprs]; intros H [op' a' b'|a' lo' hi'|a' vs'|op' a'|q|qs|qs]; cbn [peqb peval];
      intros Hq; try discriminate; andbs; deqbs; subst.
    - rewrite (H a a'), (H b b'); cbn; auto.
    - rewrite (H a a'), (H lo lo'), (H hi hi'); cbn; auto.
    - rewrite (H a a') by (auto; now left). destruct HA as [_ [Hin _]]. apply Hin. unfold set_eqb in *. andbs. rewrite forallb_forall in *. intros x. rewrite !in_map_iff. split.
      + intros [v [<- Hv]]. match goal with H : forall x, In x vs -> _ |- _ => specialize (H v Hv); apply existsb_exists in H as [w [Hw E]] end. unfold same in E. andbs.
        exists w. split; [|assumption]. symmetry. apply H; [now right|assumption].
      + intros [w [<- Hw]]. match goal with H : forall x, In x vs' -> _ |- _ => specialize (H w Hw); apply existsb_exists in H as [v [Hv E]] end. unfold same in E. andbs.
        exists v. split; [|assumption]. apply H; [now right|assumption].
    - rewrite (H a a'); cbn; auto.
    - now rewrite (IH H q).
    - f_equal. rewrite Forall_forall in IH. apply (leqb_map (peqb xhash xeqb)); [assumption|]. intros x y Hx Hxy. apply IH; auto. intros e e' He. apply H. apply in_flat_map. eauto.
    - f_equal. rewrite Forall_forall in IH. apply (leqb_map (peqb xhash xeqb)); [assumption|]. intros x y Hx Hxy. apply IH; auto. intros e e' He. apply H. apply in_flat_map. eauto.
  Qed.
  Lemma leqb_length {B} (f : B -> B -> bool) l : forall m, leqb f l m = true -> List.length l = List.length m.
  Proof. induction l as [|x l IH]; intros [|y m]; cbn; intros H; try discriminate; [reflexivity|]. apply andb_true_iff in H as [_ H]. f_equal. auto. Qed.
  Lemma oeqb_some {B} (f : B -> B -> bool) o p : oeqb f o p = true -> osome o = osome p.
  Proof. destruct o, p; cbn; intros; try discriminate; reflexivity. Qed.
  Lemma oeqb_oval {B} (f : B -> B -> bool) (ev : B -> W A) o p : oeqb f o p = true -> (forall x y, o = Some x -> f x y = true -> ev x = ev y) -> oval A ev o = oval A ev p.
  Proof. destruct o, p; cbn; intros H Hh; try discriminate; [|reflexivity]. f_equal. auto. Qed.
  Lemma xeqb_eval e : forall e', xeqb e e' = true -> eval A r e = eval A r e'.
  Proof.
    induction e as [e IH] using sx_ind'. intros e'.
    assert (IHp : forall p q, (forall x, In x (pexprs p) -> In x (parts e)) -> peqb xhash xeqb p q = true -> peval A (eval A r) p = peval A (eval A r) q)
      by (intros p q Hin; apply peqb_eval; auto).
    destruct e as [v|t|a ty ps arr|op a bs|c|f args d flt|es|a i l h|q|f ps os flt|cs s el|al a|p];
      destruct e' as [v'|t'|a' ty' ps' arr'|op' a' bs'|c'|f' args' d' flt'|es'|a' i' l' h'|q'|f' ps' os' flt'|cs' s' el'|al' a'|p']; cbn [Eq_model.xeqb parts eval] in *;
      intros H; try discriminate; andbs; deqbs; subst.
    - now apply sval_same.
    - reflexivity.
    - rewrite (IH a) with (e' := a') by (auto; now left). rewrite (leqb_map xeqb (eval A r) ps ps') by (try assumption; intros x y Hx; apply IH; inparts). reflexivity.
    - rewrite (IH a) with (e' := a') by (auto; now left). rewrite (leqb_map xeqb (eval A r) bs bs') by (try assumption; intros x y Hx; apply IH; inparts). reflexivity.
    - reflexivity.
    - rewrite (oeqb_some _ flt flt') by eassumption. rewrite (leqb_map xeqb (eval A r) args args') by (try assumption; intros x y Hx; apply IH; inparts).
      f_equal. f_equal. eapply oeqb_oval; [eassumption|]. intros p q -> Hpq. apply IHp; [|assumption]. intros x Hx. inparts.
    - f_equal. apply (leqb_map xeqb); auto.
    - rewrite (IH a) with (e' := a') by (auto; now left). rewrite (oeqb_some _ i i'), (oeqb_some _ l l'), (oeqb_some _ h h') by eassumption.
      do 2 f_equal. repeat (f_equal; try (eapply oeqb_oval; [eassumption|]; intros x y -> Hxy; (apply IH; [|assumption]); inparts)).
    - destruct HA as [_ [_ Hs]]. now apply Hs.
    - rewrite (IH f) with (e' := f') by (auto; now left). rewrite (oeqb_some _ flt flt') by eassumption. rewrite (leqb_length xeqb ps ps'), (leqb_length xeqb os os') by assumption.
      rewrite (leqb_map xeqb (eval A r) ps ps'), (leqb_map xeqb (eval A r) os os') by (try assumption; intros x y Hx; apply IH; inparts).
      do 4 f_equal. eapply oeqb_oval; [eassumption|]. intros p q -> Hpq. apply IHp; [|assumption]. intros x Hx. inparts.
    - rewrite (oeqb_some _ s s'), (oeqb_some _ el el') by eassumption. rewrite (leqb_length _ cs cs') by eassumption. f_equal. f_equal.
      + rewrite !flat_map_concat_map. f_equal. apply (leqb_map _ (fun c => [eval A r (fst c); eval A r (snd c)]) cs cs' H).
        intros [x y] [x' y'] Hxy Heq. cbn in *. apply andb_true_iff in Heq as [H1' H2']. rewrite (IH x) with (e' := x'), (IH y) with (e' := y'); auto; apply in_app_iff; left; apply in_flat_map; exists (x, y); cbn; auto.
      + f_equal; eapply oeqb_oval; try eassumption; intros x y -> Hxy; (apply IH; [|assumption]); inparts.
    - rewrite (IH a) with (e' := a'); auto. now left.
    - apply IHp; auto.
  Qed.
End H.

(** ** Renaming *)
Lemma rbind_ok {A B} (x : res A) (f : A -> res B) y : rbind x f = Ok y -> exists a, x = Ok a /\ f a = Ok y.
Proof. destruct x; cbn; [eauto|discriminate]. Qed.
Lemma lmapM_ok {A B} (f : A -> res B) l : forall l', lmapM f l = Ok l' -> Forall2 (fun x y => f x = Ok y) l l'.
Proof.
  induction l as [|x l IH]; cbn; intros l' H; [injection H as <-; constructor|]. apply rbind_ok in H as [y [Hy H]]. apply rbind_ok in H as [ys [Hys H]]. injection H as <-. constructor; auto.
Qed.
Lemma lmapM_succeeds {A B} (f : A -> res B) l : (forall x, In x l -> is_ok (f x) = true) -> is_ok (lmapM f l) = true.
Proof.
  induction l as [|x l IH]; cbn; intros H; [reflexivity|]. specialize (H x (or_introl eq_refl)) as Hx. destruct (f x); [|discriminate]. cbn.
  destruct (lmapM f l); [reflexivity|]. apply IH. auto.
Qed.
Lemma pmapM_succeeds {A B} (f : A -> res B) p : (forall x, In x (pexprs p) -> is_ok (f x) = true) -> is_ok (pmapM f p) = true.
Proof.
  assert (Hok : forall X (x : res X), is_ok x = true -> exists a, x = Ok a) by (intros X [a|]; [eauto|discriminate]).
  induction p as [op a b|a lo hi|a vs|op a|p IH|ps IH|ps IH] using pred_ind'; cbn [pexprs pmapM]; intros H.
  - destruct (Hok _ _ (H a ltac:(cbn; auto))) as [x ->], (Hok _ _ (H b ltac:(cbn; auto))) as [y ->]. reflexivity.
  - destruct (Hok _ _ (H a ltac:(cbn; auto))) as [x ->], (Hok _ _ (H lo ltac:(cbn; auto))) as [y ->], (Hok _ _ (H hi ltac:(cbn; auto))) as [z ->]. reflexivity.
  - destruct (Hok _ _ (H a ltac:(cbn; auto))) as [x ->]. destruct (Hok _ _ (lmapM_succeeds f vs ltac:(intros; apply H; now right))) as [y ->]. reflexivity.
  - destruct (Hok _ _ (H a ltac:(cbn; auto))) as [x ->]. reflexivity.
  - destruct (Hok _ _ (IH H)) as [x ->]. reflexivity.
  - destruct (Hok _ _ (lmapM_succeeds (pmapM f) ps ltac:(intros q Hq; rewrite Forall_forall in IH; apply IH; [assumption|]; intros x Hx; apply H; apply in_flat_map; eauto))) as [y ->]. reflexivity.
  - destruct (Hok _ _ (lmapM_succeeds (pmapM f) ps ltac:(intros q Hq; rewrite Forall_forall in IH; apply IH; [assumption|]; intros x Hx; apply H; apply in_flat_map; eauto))) as [y ->]. reflexivity.
Qed.
Lemma Forall2_map_eq {A B C} (R : A -> B -> Prop) (g : A -> C) (g' : B -> C) l l' : Forall2 R l l' -> (forall x y, In x l -> R x y -> g' y = g x) -> map g' l' = map g l.
Proof. induction 1 as [|x y l l' Hxy Hl IH]; cbn; intros H; [reflexivity|]. rewrite (H x y) by auto. f_equal. apply IH. auto. Qed.

Lemma Forall2_length' {A B} (R : A -> B -> Prop) l l' : Forall2 R l l' -> List.length l = List.length l'.
Proof. induction 1; cbn; auto. Qed.

Section Ren.
  Context (A : algebra) (r : col -> W A) (ren : col -> col) (rsub : sq -> res sq).
  Context (Hsub : forall q q', rsub q = Ok q' -> wsub A q' r = wsub A q (fun c => r (ren c))).
  Notation ev := (eval A r). Notation ev' := (eval A (fun c => r (ren c))).

  Lemma pmapM_eval p : (forall e e', In e (pexprs p) -> rename ren rsub e = Ok e' -> ev e' = ev' e) ->
    forall p', pmapM (rename ren rsub) p = Ok p' -> peval A ev p' = peval A ev' p.
  Proof.
    induction p as [op a b|a lo hi|a vs|op a|p IH|ps IH|ps IH] using pred_ind'; cbn [pexprs pmapM]; intros H p' Hp;
      repeat match goal with H : rbind _ _ = Ok _ |- _ => apply rbind_ok in H as [? [? H]] end; injection Hp as <-; cbn [peval].
    - f_equal. rewrite (H a x), (H b x0); cbn; auto.
    - f_equal. rewrite (H a x), (H lo x0), (H hi x1); cbn; auto.
    - f_equal. rewrite (H a x) by (cbn; auto). f_equal. match goal with H : lmapM _ _ = Ok _ |- _ => apply lmapM_ok in H as HF end.
      apply (Forall2_map_eq _ _ _ _ _ HF). intros e e' He. apply H. now right.
    - f_equal. rewrite (H a x); cbn; auto.
    - f_equal. f_equal. apply IH; auto.
    - f_equal. match goal with H : lmapM _ _ = Ok _ |- _ => apply lmapM_ok in H as HF end. rewrite Forall_forall in IH.
      apply (Forall2_map_eq _ _ _ _ _ HF). intros q q' Hq Hqq. apply IH; auto. intros e e' He. apply H. apply in_flat_map. eauto.
    - f_equal. match goal with H : lmapM _ _ = Ok _ |- _ => apply lmapM_ok in H as HF end. rewrite Forall_forall in IH.
      apply (Forall2_map_eq _ _ _ _ _ HF). intros q q' Hq Hqq. apply IH; auto. intros e e' He. apply H. apply in_flat_map. eauto.
  Qed.

  Lemma rename_eval e : no_fun_filter e -> forall e', rename ren rsub e = Ok e' -> ev e' = ev' e.
  Proof.
    induction e as [e IH0] using sx_ind'. intros Hn e' H. inversion Hn as [e0 Hh Hall]; subst.
    assert (IH : forall x, In x (parts e) -> forall y, rename ren rsub x = Ok y -> ev y = ev' x) by (intros x Hx; apply IH0; auto). clear IH0 Hn Hall.
    assert (IHl : forall l l', (forall x, In x l -> In x (parts e)) -> lmapM (rename ren rsub) l = Ok l' -> map ev l' = map ev' l).
    { intros l l' Hin Hl. apply lmapM_ok in Hl. apply (Forall2_map_eq _ _ _ _ _ Hl). intros x y Hx. apply IH; auto. }
    assert (IHo : forall o o', (forall x, o = Some x -> In x (parts e)) -> omapM (rename ren rsub) o = Ok o' -> oval A ev o' = oval A ev' o /\ osome o' = osome o).
    { intros [x|] o' Hin Ho; cbn in Ho; [|injection Ho as <-; auto]. apply rbind_ok in Ho as [y [Hy Ho]]. injection Ho as <-. cbn. rewrite (IH x); auto. }
    assert (IHp : forall o o', (forall p x, o = Some p -> In x (pexprs p) -> In x (parts e)) -> omapM (pmapM (rename ren rsub)) o = Ok o' ->
      oval A (peval A ev) o' = oval A (peval A ev') o /\ osome o' = osome o).
    { intros [p|] o' Hin Ho; cbn in Ho; [|injection Ho as <-; auto]. apply rbind_ok in Ho as [y [Hy Ho]]. injection Ho as <-. cbn. rewrite (pmapM_eval p); eauto. }
    destruct e as [v|t|a ty ps arr|op a bs|c|f args d flt|es|a i l h|q|f ps os flt|cs s el|al a|p]; cbn [rename parts no_filter_node] in *.
    - injection H as <-. reflexivity.
    - injection H as <-. reflexivity.
    - apply rbind_ok in H as [a' [Ha H]]. apply rbind_ok in H as [ps' [Hps H]]. injection H as <-. cbn. rewrite (IH a) by (cbn; auto). rewrite (IHl ps ps'); [reflexivity|cbn; auto|assumption].
    - apply rbind_ok in H as [a' [Ha H]]. destruct bs as [|b [|b2 bs]]; [|apply rbind_ok in H as [b' [Hb H]]|discriminate]; injection H as <-; cbn.
      + rewrite (IH a); cbn; auto.
      + rewrite (IH a), (IH b); cbn; auto.
    - injection H as <-. reflexivity.
    - destruct flt; [discriminate|]. apply rbind_ok in H as [args' [Hargs H]]. injection H as <-. cbn [eval osome oval]. rewrite (IHl args args'); [reflexivity| |assumption]. intros x Hx. apply in_app_iff. now left.
    - apply rbind_ok in H as [es' [Hes H]]. injection H as <-. cbn. rewrite (IHl es es'); auto.
    - repeat apply rbind_ok in H as [? [? H]]. discriminate.
    - apply rbind_ok in H as [q' [Hq H]]. injection H as <-. cbn. now apply Hsub.
    - apply rbind_ok in H as [f' [Hf H]]. apply rbind_ok in H as [ps' [Hps H]]. apply rbind_ok in H as [os' [Hos H]]. apply rbind_ok in H as [flt' [Hflt H]]. injection H as <-.
      destruct (IHp flt flt') as [H1 H2]; [intros p x -> Hx; cbn; rewrite !in_app_iff; auto|assumption|]. cbn [eval]. rewrite H1, H2, (IH f) by (cbn; auto).
      pose proof (lmapM_ok _ _ _ Hps) as HFp. pose proof (lmapM_ok _ _ _ Hos) as HFo. apply Forall2_length' in HFp. apply Forall2_length' in HFo. rewrite <- HFp, <- HFo.
      rewrite (IHl ps ps'), (IHl os os'); [reflexivity| |assumption| |assumption]; intros x Hx; cbn; rewrite !in_app_iff; auto.
    - apply rbind_ok in H as [cs' [Hcs H]]. apply rbind_ok in H as [s' [Hs H]]. apply rbind_ok in H as [el' [Hel H]]. injection H as <-.
      destruct (IHo s s') as [H1 H2]; [intros x ->; rewrite !in_app_iff; cbn; auto|assumption|]. destruct (IHo el el') as [H3 H4]; [intros x ->; rewrite !in_app_iff; cbn; auto|assumption|].
      apply lmapM_ok in Hcs as HF. pose proof (Forall2_length' _ _ _ HF) as Hlen. cbn [eval]. rewrite H1, H2, H3, H4, <- Hlen. f_equal. f_equal.
      assert (Hin : forall c, In c cs -> In (fst c) (flat_map (fun c => [fst c; snd c]) cs) /\ In (snd c) (flat_map (fun c => [fst c; snd c]) cs)).
      { intros c Hc. split; apply in_flat_map; exists c; cbn; auto. }
      assert (Hpart : forall x, In x (flat_map (fun c => [fst c; snd c]) cs) -> forall y, rename ren rsub x = Ok y -> ev y = ev' x).
      { intros x Hx. apply IH. apply in_app_iff. now left. }
      clear - HF Hin Hpart. induction HF as [|c c' cs cs' Hc HF IH]; [reflexivity|]. cbn [flat_map app].
      apply rbind_ok in Hc as [x [Hx Hc]]. apply rbind_ok in Hc as [y [Hy Hc]]. injection Hc as <-. cbn [fst snd].
      assert (Hx' : rename ren rsub (fst c) = Ok x) by (destruct (fst c); try discriminate; exact Hx).
      rewrite (Hpart (fst c)) by (try assumption; apply Hin; now left). rewrite (Hpart (snd c)) by (try assumption; apply Hin; now left). do 2 f_equal.
      apply IH; [|intros z Hz; apply Hpart; cbn; auto]. intros c0 Hc0. split; apply in_flat_map; exists c0; cbn; auto.
    - apply rbind_ok in H as [a' [Ha H]]. injection H as <-. cbn. rewrite (IH a); cbn; auto.
    - apply rbind_ok in H as [p' [Hp H]]. injection H as <-. cbn. apply pmapM_eval; auto.
  Qed.
End Ren.

Lemma rename_succeeds ren rsub e : (forall q, is_ok (rsub q) = true) -> renameable e -> is_ok (rename ren rsub e) = true.
Proof.
  intros Hsub. induction e as [e IH0] using sx_ind'. intros Hn. inversion Hn as [e0 Hh Hall]; subst.
  assert (IH : forall x, In x (parts e) -> exists y, rename ren rsub x = Ok y).
  { intros x Hx. specialize (IH0 x Hx (Hall x Hx)). destruct (rename ren rsub x); [eauto|discriminate]. }
  assert (IHl : forall l, (forall x, In x l -> In x (parts e)) -> exists l', lmapM (rename ren rsub) l = Ok l').
  { intros l Hin. assert (H : is_ok (lmapM (rename ren rsub) l) = true) by (apply lmapM_succeeds; intros x Hx; destruct (IH x (Hin x Hx)) as [y ->]; reflexivity). destruct (lmapM _ l); [eauto|discriminate]. }
  assert (IHp : forall p, (forall x, In x (pexprs p) -> In x (parts e)) -> exists p', pmapM (rename ren rsub) p = Ok p').
  { intros p Hin. assert (H : is_ok (pmapM (rename ren rsub) p) = true) by (apply pmapM_succeeds; intros x Hx; destruct (IH x (Hin x Hx)) as [y ->]; reflexivity). destruct (pmapM _ p); [eauto|discriminate]. }
  assert (IHo : forall o, (forall x, o = Some x -> In x (parts e)) -> exists o', omapM (rename ren rsub) o = Ok o').
  { intros [x|] Hin; cbn; [|eauto]. destruct (IH x (Hin x eq_refl)) as [y ->]. cbn. eauto. }
  clear IH0 Hn.
  destruct e as [v|t|a ty ps arr|op a bs|c|f args d flt|es|a i l h|q|f ps os flt|cs s el|al a|p]; cbn [rename parts renameable_node] in *; try reflexivity; try discriminate.
  - destruct (IH a) as [a' ->]; [cbn; auto|]. destruct (IHl ps) as [ps' ->]; [cbn; auto|]. reflexivity.
  - destruct (IH a) as [a' ->]; [cbn; auto|]. destruct bs as [|b [|b2 bs]]; [reflexivity| |discriminate]. destruct (IH b) as [b' Hb]; [cbn; auto|]. cbn. now rewrite Hb.
  - destruct (IHl args) as [args' ->]; [intros x Hx; apply in_app_iff; auto|]. reflexivity.
  - destruct (IHl es) as [es' ->]; auto.
  - specialize (Hsub q). destruct (rsub q); [reflexivity|discriminate].
  - destruct (IH f) as [f' ->]; [cbn; auto|]. destruct (IHl ps) as [ps' Hps]; [intros x Hx; cbn; rewrite !in_app_iff; auto|]. destruct (IHl os) as [os' Hos]; [intros x Hx; cbn; rewrite !in_app_iff; auto|].
    cbn. rewrite Hps. cbn. rewrite Hos. cbn. destruct flt as [p|]; [|reflexivity]. cbn. destruct (IHp p) as [p' ->]; [intros x Hx; cbn; rewrite !in_app_iff; auto|]. reflexivity.
  - destruct (IHo s) as [s' Hs]; [intros x ->; rewrite !in_app_iff; cbn; auto|]. destruct (IHo el) as [el' Hel]; [intros x ->; rewrite !in_app_iff; cbn; auto|].
    assert (Hcs : exists cs', lmapM (fun c => rbind (match fst c with XP p => rbind (pmapM (rename ren rsub) p) (fun p' => Ok (XP p')) | _ => Raise ValueError end)
      (fun a => rbind (rename ren rsub (snd c)) (fun b => Ok (a, b)))) cs = Ok cs').
    { assert (H : is_ok (lmapM (fun c => rbind (match fst c with XP p => rbind (pmapM (rename ren rsub) p) (fun p' => Ok (XP p')) | _ => Raise ValueError end)
        (fun a => rbind (rename ren rsub (snd c)) (fun b => Ok (a, b)))) cs) = true).
      { apply lmapM_succeeds. intros [x y] Hxy. cbn. rewrite forallb_forall in Hh. specialize (Hh (x, y) Hxy). cbn in Hh.
        destruct (IH x) as [x' Hx']; [apply in_app_iff; left; apply in_flat_map; exists (x, y); cbn; auto|]. destruct (IH y) as [y' Hy']; [apply in_app_iff; left; apply in_flat_map; exists (x, y); cbn; auto|].
        destruct x; try discriminate. cbn in Hx'. rewrite Hx'. cbn. rewrite Hy'. reflexivity. }
      destruct (lmapM _ cs); [eauto|discriminate]. }
    destruct Hcs as [cs' ->]. cbn. rewrite Hs. cbn. rewrite Hel. reflexivity.
  - destruct (IH a) as [a' ->]; [cbn; auto|]. reflexivity.
  - destruct (IHp p) as [p' ->]; auto.
Qed.
