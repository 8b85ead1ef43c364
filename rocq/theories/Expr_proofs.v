(** Lemmas about SQL expressions. *)
From Coq Require Import List Bool Arith ZArith String Lia.
From Verif Require Import PyBase Pred_model Pred_spec Pred_proofs MPrint_model Expr_model Expr_spec.
Import ListNotations.

(** ** Induction over all parts *)
Section PSum.
  Context {E : Type} (f : E -> nat).
  Fixpoint psum (p : pred E) : nat :=
    match p with
    | PBin _ a b => f a + f b
    | PBetween a lo hi => f a + f lo + f hi
    | PIn a vs => f a + list_sum (map f vs)
    | PUn _ a => f a
    | PNot q => psum q
    | PAnd ps | POr ps => list_sum (map psum ps)
    end.
End PSum.
Definition osum {A} (f : A -> nat) (o : option A) : nat := match o with Some x => f x | None => 0 end.
Fixpoint xsize (e : sx) : nat :=
  S match e with
    | XStatic _ | XStar _ | XCol _ | XSub _ => 0
    | XCast a _ ps _ => xsize a + list_sum (map xsize ps)
    | XMath _ a bs => xsize a + list_sum (map xsize bs)
    | XFun _ args _ flt => list_sum (map xsize args) + osum (psum xsize) flt
    | XArr es => list_sum (map xsize es)
    | XAcc a i l h => xsize a + osum xsize i + osum xsize l + osum xsize h
    | XWin f ps os flt => xsize f + list_sum (map xsize ps) + list_sum (map xsize os) + osum (psum xsize) flt
    | XCase cs s el => list_sum (map (fun c => xsize (fst c) + xsize (snd c)) cs) + osum xsize s + osum xsize el
    | XQuant _ a => xsize a
    | XP p => psum xsize p
    end.
Lemma list_sum_in {A} (f : A -> nat) l x : In x l -> f x <= list_sum (map f l).
Proof. induction l as [|a l IH]; [intros []|]. cbn. intros [->|H]; [lia|]. specialize (IH H). unfold list_sum in IH. lia. Qed.
Lemma psum_in {E} (f : E -> nat) p e : In e (pexprs p) -> f e <= psum f p.
Proof.
  induction p as [op a b|a lo hi|a vs|op a|p IH|ps IH|ps IH] using pred_ind'; cbn; intros H.
  - destruct H as [<-|[<-|[]]]; lia.
  - destruct H as [<-|[<-|[<-|[]]]]; lia.
  - destruct H as [<-|H]; [lia|]. apply (list_sum_in f) in H. lia.
  - destruct H as [<-|[]]; lia.
  - auto.
  - apply in_flat_map in H as [q [Hq H]]. rewrite Forall_forall in IH. specialize (IH q Hq H). apply (list_sum_in (psum f)) in Hq. lia.
  - apply in_flat_map in H as [q [Hq H]]. rewrite Forall_forall in IH. specialize (IH q Hq H). apply (list_sum_in (psum f)) in Hq. lia.
Qed.
Lemma olist_in {A} (o : option A) x : In x (olist o) -> o = Some x.
Proof. destruct o; cbn; [intros [->|[]]; reflexivity|intros []]. Qed.
Lemma parts_smaller e e' : In e' (parts e) -> xsize e' < xsize e.
Proof.
  destruct e as [v|t|a ty ps arr|op a bs|c|f args d flt|es|a i l h|q|f ps os flt|cs s el|al a|p]; cbn [parts xsize]; intros H; try destruct H as [<-|H]; try contradiction; try lia;
    repeat match goal with
    | H : In _ (_ ++ _) |- _ => apply in_app_iff in H as [H|H]
    | H : In _ (olist ?o) |- _ => apply olist_in in H; subst; cbn [osum]
    | H : In _ (oapp _ ?o) |- _ => destruct o; [cbn [oapp osum] in *|destruct H]
    | H : In _ (pexprs _) |- _ => apply (psum_in xsize) in H
    | H : In _ [] |- _ => destruct H
    | H : In _ (flat_map _ _) |- _ => apply in_flat_map in H as [[x y] [Hxy H]]; apply (list_sum_in (fun c => xsize (fst c) + xsize (snd c))) in Hxy; cbn in Hxy, H; destruct H as [<-|[<-|[]]]
    | H : In _ ?l |- _ => apply (list_sum_in xsize) in H
    end; lia.
Qed.
Lemma sx_ind' (P : sx -> Prop) : (forall e, (forall e', In e' (parts e) -> P e') -> P e) -> forall e, P e.
Proof.
  intros H e. remember (xsize e) as n eqn:En. revert e En. induction n as [n IH] using (well_founded_induction lt_wf). intros e ->.
  apply H. intros e' He'. apply (IH (xsize e')); [now apply parts_smaller|reflexivity].
Qed.

(** ** What is reported *)
Lemma pflat_in {E X} (f : E -> list X) p x : In x (pflat f p) <-> exists e, In e (pexprs p) /\ In x (f e).
Proof.
  induction p as [op a b|a lo hi|a vs|op a|p IH|ps IH|ps IH] using pred_ind'; cbn [pflat pexprs].
  - rewrite in_app_iff. split.
    + intros [H|H]; [exists a|exists b]; cbn; auto.
    + intros [e [[<-|[<-|[]]] H]]; auto.
  - rewrite !in_app_iff. split.
    + intros [H|[H|H]]; [exists a|exists lo|exists hi]; cbn; auto.
    + intros [e [[<-|[<-|[<-|[]]]] H]]; auto.
  - rewrite in_app_iff, in_flat_map. split.
    + intros [H|[v [Hv H]]]; [exists a|exists v]; cbn; auto.
    + intros [e [[<-|He] H]]; eauto.
  - split; [intros H; exists a; cbn; auto|]. intros [e [[<-|[]] H]]; auto.
  - exact IH.
  - rewrite in_flat_map. rewrite Forall_forall in IH. split.
    + intros [q [Hq H]]. apply IH in H as [e [He H]]; [|assumption]. exists e. split; [apply in_flat_map; eauto|assumption].
    + intros [e [He H]]. apply in_flat_map in He as [q [Hq He]]. exists q. split; [assumption|]. apply IH; eauto.
  - rewrite in_flat_map. rewrite Forall_forall in IH. split.
    + intros [q [Hq H]]. apply IH in H as [e [He H]]; [|assumption]. exists e. split; [apply in_flat_map; eauto|assumption].
    + intros [e [He H]]. apply in_flat_map in He as [q [Hq He]]. exists q. split; [assumption|]. apply IH; eauto.
Qed.

Section Occurs.
  Context {X : Type} (lcol : col -> list X) (lstar : option tbl -> list X) (lsub : sq -> list X) (tuples filters : bool).
  Notation walk := (walk lcol lstar lsub tuples filters).
  Notation own e := (fst (walk e)).
  Notation below e := (snd (walk e)).

  (** The leaf contributions that occur anywhere. *)
  Inductive occX (x : X) : sx -> Prop :=
  | oc_col c : In x (lcol c) -> occX x (XCol c)
  | oc_star t : In x (lstar t) -> occX x (XStar t)
  | oc_sub q : In x (lsub q) -> occX x (XSub q)
  | oc_part e e' : In e' (parts e) -> occX x e' -> occX x e.

  Lemma oapp_in {A B} (f : A -> list B) o x : In x (oapp f o) <-> exists a, o = Some a /\ In x (f a).
  Proof. destruct o; cbn; split; [eauto|intros [a' [[= ->] H]]; exact H|intros []|intros [a [? _]]; discriminate]. Qed.

  (** Nothing is invented. *)
  Lemma walk_sound e x : In x (own e) \/ In x (below e) -> occX x e.
  Proof.
    revert x. induction e as [e IH] using sx_ind'. intros x.
    assert (IHo : forall e', In e' (parts e) -> In x (own e') -> occX x e) by (intros e' H1 H2; eapply oc_part; eauto).
    assert (IHb : forall e', In e' (parts e) -> In x (below e') -> occX x e) by (intros e' H1 H2; eapply oc_part; eauto).
    clear IH.
    destruct e as [v|t|a ty ps arr|op a bs|c|f args d flt|es|a i l h|q|f ps os flt|cs s el|al a|p]; cbn [Expr_model.walk fst snd parts] in *; intros H.
    - destruct H as [[]|[]].
    - destruct H as [H|[]]. now apply oc_star.
    - assert (H' : In x (own a ++ flat_map (fun e => own e) ps)) by tauto. clear H. apply in_app_iff in H' as [H|H]; [apply (IHo a); [now left|assumption]|].
      apply in_flat_map in H as [e' [He' H]]. apply (IHo e'); [now right|assumption].
    - assert (H' : In x (own a ++ flat_map (fun e => own e) bs)).
      { destruct H as [H|H]; [|exact H]. destruct bs as [|b [|b' bs]]; [exact H|exact H|]. destruct tuples; [exact H|]. apply in_app_iff. now left. }
      clear H. apply in_app_iff in H' as [H|H]; [apply (IHo a); [now left|assumption]|].
      apply in_flat_map in H as [e' [He' H]]. apply (IHo e'); [now right|assumption].
    - destruct H as [H|[]]. now apply oc_col.
    - assert (H' : In x (flat_map (fun e => own e) args) \/ In x (oapp (pflat (fun e => own e)) flt)).
      { destruct H as [H|H]; [|now left]. apply in_app_iff in H as [H|H]; [now left|]. destruct filters; [now right|destruct H]. }
      clear H. destruct H' as [H|H].
      + apply in_flat_map in H as [e' [He' H]]. apply (IHo e'); [apply in_app_iff; now left|assumption].
      + apply oapp_in in H as [p [-> H]]. apply pflat_in in H as [e' [He' H]]. apply (IHo e'); [apply in_app_iff; now right|assumption].
    - assert (H' : In x (flat_map (fun e => own e) es)) by tauto. apply in_flat_map in H' as [e' [He' H']]. eauto.
    - assert (H' : In x (own a ++ oapp (fun e => own e) i ++ oapp (fun e => own e) l ++ oapp (fun e => own e) h)) by tauto. clear H.
      rewrite !in_app_iff, !oapp_in in H'. destruct H' as [H|[[e' [-> H]]|[[e' [-> H]]|[e' [-> H]]]]]; (eapply IHo; [|eassumption]); cbn; rewrite ?in_app_iff; cbn; auto.
    - destruct H as [H|[]]. now apply oc_sub.
    - assert (H' : In x (below f ++ flat_map (fun e => below e) ps ++ flat_map (fun e => own e) os ++ oapp (pflat (fun e => own e)) flt)) by tauto. clear H.
      rewrite !in_app_iff, !in_flat_map, oapp_in in H'. destruct H' as [H|[[e' [He' H]]|[[e' [He' H]]|[p [-> H]]]]].
      + eapply IHb; [|exact H]. now left.
      + eapply IHb; [|exact H]. right. rewrite !in_app_iff. auto.
      + eapply IHo; [|exact H]. right. rewrite !in_app_iff. auto.
      + apply pflat_in in H as [e' [He' H]]. eapply IHo; [|exact H]. right. rewrite !in_app_iff. auto.
    - assert (H' : In x (flat_map (fun c => below (fst c) ++ below (snd c)) cs ++ oapp (fun e => below e) s ++ oapp (fun e => below e) el)) by tauto. clear H.
      rewrite !in_app_iff, in_flat_map, !oapp_in in H'. destruct H' as [[c [Hc H]]|[[e' [-> H]]|[e' [-> H]]]].
      + apply in_app_iff in H as [H|H]; (eapply IHb; [|exact H]); apply in_app_iff; left; apply in_flat_map; exists c; cbn; auto.
      + eapply IHb; [|exact H]. rewrite !in_app_iff. cbn. auto.
      + eapply IHb; [|exact H]. rewrite !in_app_iff. cbn. auto.
    - eapply IHo; [now left|]. tauto.
    - assert (H' : In x (pflat (fun e => own e) p)) by tauto. apply pflat_in in H' as [e' [He' H']]. eauto.
  Qed.

  Notation here := (here tuples filters).
  Notation covered := (covered tuples filters).

  Lemma below_own e : passes e = true -> here e = true -> forall x, In x (own e) -> In x (below e).
  Proof.
    destruct e as [v|t|a ty ps arr|op a bs|c|f args d flt|es|a i l h|q|f ps os flt|cs s el|al a|p]; cbn [passes Expr_spec.here Expr_model.walk fst snd]; intros Hp Hh x H; try discriminate; auto.
    - destruct bs as [|b [|b' bs]]; auto. rewrite Hh in H |- *. exact H.
    - destruct flt; [discriminate|]. rewrite in_app_iff in H. destruct H as [H|H]; [exact H|]. destruct filters; destruct H.
  Qed.

  Lemma walk_complete e x : covered e -> occX x e -> In x (own e).
  Proof.
    intros Hc Ho. induction Ho as [c H|t H|q H|e e' He' Ho IH]; [exact H|exact H|exact H|].
    inversion Hc as [e0 Hh Hall]; subst. specialize (IH (Hall e' He')).
    assert (IHb : passes e' = true -> In x (below e')).
    { intros Hp. apply below_own; [assumption| |assumption]. specialize (Hall e' He'). now inversion Hall. }
    clear Hc Hall Ho.
    destruct e as [v|t|a ty ps arr|op a bs|c|f args d flt|es|a i l h|q|f ps os flt|cs s el|al a|p]; cbn [Expr_spec.here Expr_model.walk fst snd parts] in *.
    - destruct He'. - destruct He'.
    - apply in_app_iff. destruct He' as [->|He']; [now left|right]. apply in_flat_map. eauto.
    - assert (Hall : In x (own a ++ flat_map (fun e => own e) bs)).
      { apply in_app_iff. destruct He' as [->|He']; [now left|right]. apply in_flat_map. eauto. }
      destruct bs as [|b [|b' bs]]; [exact Hall|exact Hall|]. rewrite Hh in Hall |- *. exact Hall.
    - destruct He'.
    - apply in_app_iff. apply in_app_iff in He' as [He'|He']; [left; apply in_flat_map; eauto|right].
      destruct flt as [p|]; [|destruct He']. cbn in Hh, He'. rewrite Hh in IH |- *. cbn. apply pflat_in. eauto.
    - apply in_flat_map. eauto.
    - rewrite !in_app_iff, !oapp_in. destruct He' as [->|He']; [now left|right]. rewrite !in_app_iff in He'.
      destruct He' as [He'|[He'|He']]; apply olist_in in He'; subst; [left|right; left|right; right]; eauto.
    - destruct He'.
    - apply andb_true_iff in Hh as [Hf Hps]. rewrite forallb_forall in Hps. rewrite !in_app_iff, !in_flat_map, oapp_in. destruct He' as [->|He']; [left; auto|right].
      rewrite !in_app_iff in He'. destruct He' as [He'|[He'|He']]; [left; eauto|right; left; eauto|right; right].
      destruct flt as [p|]; [|destruct He']. cbn in He'. exists p. split; [reflexivity|]. apply pflat_in. eauto.
    - apply andb_true_iff in Hh as [Hcs Hse]. rewrite forallb_forall in Hcs, Hse. rewrite !in_app_iff, in_flat_map, !oapp_in.
      rewrite !in_app_iff in He'. destruct He' as [He'|[He'|He']].
      + left. apply in_flat_map in He' as [c [Hc He']]. exists c. split; [assumption|]. apply in_app_iff. specialize (Hcs c Hc). apply andb_true_iff in Hcs as [H1 H2].
        destruct He' as [<-|[<-|[]]]; auto.
      + right. left. apply olist_in in He'. subst. exists e'. split; [reflexivity|]. apply IHb, Hse. cbn. now left.
      + right. right. apply olist_in in He'. subst. exists e'. split; [reflexivity|]. apply IHb, Hse. apply in_app_iff. right. now left.
    - destruct He' as [->|[]]. exact IH.
    - apply pflat_in. eauto.
  Qed.
End Occurs.

Lemma occ_occX c e : occ c e <-> occX (fun c => [c]) (fun _ => []) sq_cols c e.
Proof.
  split; intros H.
  - induction H as [|q H|e e' He' _ IH]; [apply oc_col; now left|now apply oc_sub|eapply oc_part; eauto].
  - induction H as [c' [->|[]]|t []|q H|e e' He' _ IH]; [apply occ_col|now apply occ_sub|eapply occ_part; eauto].
Qed.
Lemma occd_occX c e : occd c e <-> occX (fun c => [c]) (fun _ => []) (fun _ => []) c e.
Proof.
  split; intros H.
  - induction H as [|e e' He' _ IH]; [apply oc_col; now left|eapply oc_part; eauto].
  - induction H as [c' [->|[]]|t []|q []|e e' He' _ IH]; [apply occd_col|eapply occd_part; eauto].
Qed.
Lemma occt_occX t e : occt t e <-> occX (fun c => olist (c_tab c)) olist sq_tabs t e.
Proof.
  split; intros H.
  - induction H as [c H| |q H|e e' He' _ IH]; [apply oc_col; rewrite H; now left|apply oc_star; now left|now apply oc_sub|eapply oc_part; eauto].
  - induction H as [c H|t' H|q H|e e' He' _ IH]; [apply occt_col; now apply olist_in in H|apply olist_in in H; subst; apply occt_star|now apply occt_sub|eapply occt_part; eauto].
Qed.
