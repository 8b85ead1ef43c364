(** Proofs about query plans. *)
From Coq Require Import List Bool Arith ZArith Lia.
From Verif Require Import PyBase Hint_model Card_model QPlan_model PGHint_spec QPlan_spec.
Import ListNotations.

(** ** Induction *)
Section Ind.
  Context (P : plan -> Prop).
  Hypothesis H : forall d ks s, (forall c, In c ks -> P c) -> (forall q t, s = Some (q, t) -> P q) -> P (Node d ks s).
  Fixpoint plan_ind2 (p : plan) : P p :=
    match p with
    | Node d ks s =>
        H d ks s
          ((fix go (l : list plan) : forall c, In c l -> P c :=
              match l with [] => fun c Hc => match Hc with end | x :: r => fun c Hc => match Hc with or_introl E => eq_ind x P (plan_ind2 x) c E | or_intror Hr => go r c Hr end end) ks)
          (match s as s0 return (forall q t, s0 = Some (q, t) -> P q) with
           | None => fun q t E => match E in (_ = o) return (match o with Some _ => P q | None => True end) with eq_refl => I end
           | Some (q0, t0) => fun q t E => match E in (_ = o) return (match o with Some (x, _) => P x | None => True end) with eq_refl => plan_ind2 q0 end
           end)
    end.
End Ind.

Lemma node_of_inv p n : node_of p n -> n = p \/ exists c, In c (kids p) /\ node_of c n.
Proof. destruct 1; [now left|right; eauto]. Qed.
Lemma node_all_inv p n : node_all p n -> n = p \/ (exists c, In c (kids p) /\ node_all c n) \/ exists q t, subplan p = Some (q, t) /\ node_all q n.
Proof. destruct 1; [now left|right; left; eauto|right; right; eauto]. Qed.
Lemma node_of_trans p n : node_of p n -> forall m, node_of n m -> node_of p m.
Proof. induction 1 as [p|p c n Hc _ IH]; intros m Hm; [assumption|]. eapply no_kid; [eassumption|auto]. Qed.
Lemma node_all_trans p n : node_all p n -> forall m, node_all n m -> node_all p m.
Proof. induction 1 as [p|p c n Hc _ IH|p q t n Hs _ IH]; intros m Hm; [assumption| |]; [eapply na_kid|eapply na_sub]; eauto. Qed.
Lemma node_of_all p n : node_of p n -> node_all p n.
Proof. induction 1; [apply na_self|eapply na_kid; eassumption]. Qed.

(** ** Traversals *)
Lemma iternodes_spec p : forall n, In n (iternodes p) <-> node_of p n.
Proof.
  induction p as [d ks s IH _] using plan_ind2. intros n. cbn [iternodes]. rewrite in_app_iff, in_flat_map. cbn [In]. split.
  - intros [(c & Hc & Hn)|[<-|[]]]; [|apply no_self]. eapply no_kid; [exact Hc|]. now apply IH.
  - intros Hn. destruct (node_of_inv _ _ Hn) as [->|(c & Hc & Hn')]; [auto|]. left. exists c. split; [assumption|]. now apply IH.
Qed.
Lemma iter_all_spec p : forall n, In n (iter_all p) <-> node_all p n.
Proof.
  induction p as [d ks s IH IHs] using plan_ind2. intros n. cbn [iter_all In]. rewrite in_app_iff, in_flat_map. split.
  - intros [<-|[(c & Hc & Hn)|Hn]]; [apply na_self|eapply na_kid; [exact Hc|now apply IH]|]. destruct s as [[q t]|]; [|destruct Hn].
    eapply na_sub; [reflexivity|]. now apply (IHs q t).
  - intros Hn. destruct (node_all_inv _ _ Hn) as [->|[(c & Hc & Hn')|(q & t & Hs & Hn')]]; [auto| |].
    + right. left. exists c. split; [assumption|]. now apply IH.
    + cbn [subplan] in Hs. subst s. right. right. now apply (IHs q t).
Qed.
Lemma find_all_spec f p : find_all f p = filter f (iter_all p).
Proof.
  induction p as [d ks s IH IHs] using plan_ind2. cbn [find_all iter_all filter]. rewrite filter_app.
  assert (E1 : flat_map (find_all f) ks = filter f (flat_map iter_all ks)).
  { clear IHs. induction ks as [|c ks IHk]; [reflexivity|]. cbn [flat_map]. rewrite filter_app, (IH c) by now left. rewrite IHk; [reflexivity|]. intros x Hx. apply IH. now right. }
  rewrite E1. assert (E2 : match s with Some (q, _) => find_all f q | None => [] end = filter f (match s with Some (q, _) => iter_all q | None => [] end)).
  { destruct s as [[q t]|]; [|reflexivity]. now apply (IHs q t). }
  rewrite E2. destruct (f (Node d ks s)); reflexivity.
Qed.
Lemma max_list l : (forall n, In n l -> n <= fold_right Nat.max 0 l) /\ (l <> [] -> In (fold_right Nat.max 0 l) l).
Proof.
  induction l as [|x l [IH1 IH2]]; [split; [intros n []|congruence]|]. cbn [fold_right]. split.
  - intros n [<-|Hn]; [lia|]. specialize (IH1 n Hn). lia.
  - intros _. destruct l as [|y l]; [left; cbn; lia|]. specialize (IH2 ltac:(discriminate)). destruct (Nat.max_dec x (fold_right Nat.max 0 (y :: l))) as [->| ->]; [now left|now right].
Qed.
Lemma depth_path p : path p (plan_depth p) /\ forall k, path p k -> k <= plan_depth p.
Proof.
  induction p as [d ks s IH _] using plan_ind2. cbn [plan_depth]. destruct (max_list (map plan_depth ks)) as [M1 M2]. split.
  - destruct ks as [|c ks]; [apply path_one|]. specialize (M2 ltac:(discriminate)). apply in_map_iff in M2 as (x & Hx & Hin). rewrite <- Hx.
    change (1 + plan_depth x) with (S (plan_depth x)). apply (path_more (Node d (c :: ks) s) x); [exact Hin|]. now apply IH.
  - intros k Hk. inversion Hk as [|? c k' Hc Hp]; subst; [lia|]. cbn [kids] in Hc. destruct (IH c Hc) as [_ H2]. specialize (H2 k' Hp).
    specialize (M1 (plan_depth c) (in_map _ _ _ Hc)). lia.
Qed.
Lemma tables_spec p : forall t, In t (tables p) <-> mentions p t.
Proof.
  induction p as [d ks s IH IHs] using plan_ind2. intros t. cbn [tables]. rewrite dedup_In. unfold own_tables. rewrite !in_app_iff, in_flat_map. split.
  - intros [[H|[H|H]]|[(c & Hc & Ht)|H]].
    + destruct (base d) as [b|] eqn:E; [|destruct H]. destruct H as [->|[]]. exists (Node d ks s). split; [apply na_self|]. left. exact E.
    + exists (Node d ks s). split; [apply na_self|]. right. left. exact H.
    + exists (Node d ks s). split; [apply na_self|]. right. right. left. exact H.
    + apply (IH c Hc) in Ht as (n & Hn & Hm). exists n. split; [|assumption]. eapply na_kid; [exact Hc|assumption].
    + destruct s as [[q [x|]]|]; [| |destruct H].
      * apply in_app_iff in H as [H|[<-|[]]].
        -- apply (IHs q (Some x) eq_refl) in H as (n & Hn & Hm). exists n. split; [|assumption]. eapply na_sub; [reflexivity|assumption].
        -- exists (Node d ks (Some (q, Some x))). split; [apply na_self|]. right. right. right. exists q. reflexivity.
      * rewrite app_nil_r in H. apply (IHs q None eq_refl) in H as (n & Hn & Hm). exists n. split; [|assumption]. eapply na_sub; [reflexivity|assumption].
  - intros (n & Hn & Hm). destruct (node_all_inv _ _ Hn) as [->|[(c & Hc & Hn')|(q & x & Hs & Hn')]].
    + cbn [data subplan] in Hm. destruct Hm as [Hm|[Hm|[Hm|[q Hm]]]]; [left; left; rewrite Hm; now left|auto|auto|]. right. right. rewrite Hm. apply in_or_app. right. now left.
    + right. left. exists c. split; [assumption|]. apply (IH c Hc). exists n. auto.
    + cbn [subplan] in Hs. subst s. right. right. apply in_or_app. left. apply (IHs q x eq_refl). exists n. auto.
Qed.
Lemma tables_mono p n : node_all p n -> incl (tables n) (tables p).
Proof. intros Hn t Ht. rewrite tables_spec in *. destruct Ht as (m & Hm & H). exists m. split; [|assumption]. eapply node_all_trans; eassumption. Qed.

Lemma lookup_sound p : forall needle n, lookup p needle = Ok (Some n) -> node_of p n /\ seteq (tables n) needle.
Proof.
  induction p as [d ks s IH _] using plan_ind2. intros needle n H. cbn [lookup] in H. destruct (seteqb needle (tables (Node d ks s))) eqn:E.
  - injection H as <-. split; [apply no_self|]. apply seteqb_seteq in E. intros x. symmetry. apply E.
  - destruct (negb (subsetb needle (tables (Node d ks s)))); [discriminate|]. clear E.
    assert (G : forall l, incl l ks -> first_of (fun c => lookup c needle) l = Ok (Some n) -> exists c, In c ks /\ lookup c needle = Ok (Some n)).
    { induction l as [|c l IHl]; intros Hl HF; cbn [first_of] in HF; [discriminate|]. destruct (lookup c needle) as [[x|]|] eqn:Ec; cbn [rbind] in HF; try discriminate.
      - exists c. split; [apply Hl; now left|]. rewrite Ec. exact HF.
      - apply IHl; [intros y Hy; apply Hl; now right|exact HF]. }
    destruct (G ks (incl_refl _) H) as (c & Hc & Hl). destruct (IH c Hc _ _ Hl) as [Hn Ht]. split; [|assumption]. eapply no_kid; [exact Hc|assumption].
Qed.
Lemma lookup_total p : forall needle, exists o, lookup p needle = Ok o.
Proof.
  induction p as [d ks s IH _] using plan_ind2. intros needle. cbn [lookup]. destruct (seteqb _ _); [eexists; reflexivity|]. destruct (negb _); [eexists; reflexivity|].
  induction ks as [|c ks IHk]; [eexists; reflexivity|]. cbn [first_of]. destruct (IH c (or_introl eq_refl) needle) as [[x|] ->]; cbn [rbind]; [eexists; reflexivity|].
  apply IHk. intros y Hy. apply IH. now right.
Qed.
Lemma lookup_none p : forall needle, lookup p needle = Ok None -> forall n, node_of p n -> ~ seteq (tables n) needle.
Proof.
  induction p as [d ks s IH _] using plan_ind2. intros needle H n Hn Heq. cbn [lookup] in H. destruct (seteqb needle (tables (Node d ks s))) eqn:E; [discriminate|].
  assert (Hsub : subsetb needle (tables (Node d ks s)) = true).
  { apply subsetb_incl. intros x Hx. apply Heq in Hx. revert x Hx. apply tables_mono, node_of_all, Hn. }
  rewrite Hsub in H. cbn [negb] in H. destruct (node_of_inv _ _ Hn) as [->|(c & Hc & Hn')].
  { assert (seteqb needle (tables (Node d ks s)) = true); [|congruence]. apply seteqb_seteq. intros x. symmetry. apply Heq. }
  cbn [kids] in Hc. clear Hn Hsub E. induction ks as [|k ks IHk]; [destruct Hc|]. cbn [first_of] in H. destruct (lookup_total k needle) as [o Ek]. rewrite Ek in H. cbn [rbind] in H.
  destruct o as [x|]; [discriminate|]. destruct Hc as [->|Hc].
  - apply (IH c (or_introl eq_refl) needle Ek n Hn' Heq).
  - apply IHk; [intros y Hy; apply IH; now right|exact H|exact Hc].
Qed.

(** find_first_node *)
Lemma find_first_sound f outer p : forall n, find_first f outer p = Ok (Some n) -> node_all p n /\ f n = true.
Proof.
  induction p as [d ks s IH IHs] using plan_ind2. intros n H. cbn [find_first] in H. destruct (f (Node d ks s)) eqn:E; [injection H as <-; split; [apply na_self|assumption]|].
  destruct ks as [|a [|b [|c ks]]]; try discriminate.
  - destruct (IH a (or_introl eq_refl) n H) as [Hn Hf]. split; [|assumption]. eapply na_kid; [now left|assumption].
  - assert (K : forall x, In x [a; b] -> forall m, find_first f outer x = Ok (Some m) -> node_all (Node d [a; b] s) m /\ f m = true).
    { intros x Hx m Hm. destruct (IH x Hx m Hm) as [Hn Hf]. split; [|assumption]. eapply na_kid; [exact Hx|assumption]. }
    destruct (if outer then find_first f outer a else find_first f outer b) as [[x|]|] eqn:E1; cbn [rbind] in H; try discriminate.
    + injection H as ->. destruct outer; [apply (K a)|apply (K b)]; cbn; auto.
    + destruct (if outer then find_first f outer b else find_first f outer a) as [[x|]|] eqn:E2; cbn [rbind] in H; try discriminate.
      * injection H as ->. destruct outer; [apply (K b)|apply (K a)]; cbn; auto.
      * destruct s as [[q t]|]; [|discriminate]. destruct (IHs q t eq_refl n H) as [Hn Hf]. split; [|assumption]. eapply na_sub; [reflexivity|assumption].
Qed.
Lemma simple_kid p c : simple p -> In c (kids p) -> simple c.
Proof. intros H Hc n Hn. apply H. eapply na_kid; eassumption. Qed.
Lemma simple_sub p q t : simple p -> subplan p = Some (q, t) -> simple q.
Proof. intros H Hc n Hn. apply H. eapply na_sub; eassumption. Qed.
(** On simple plans the outer direction finds the first node of the depth first order. *)
Lemma find_first_outer f p : simple p -> find_first f true p = Ok (hd_error (filter f (iter_all p))).
Proof.
  induction p as [d ks s IH IHs] using plan_ind2. intros Hs. cbn [find_first iter_all filter]. destruct (f (Node d ks s)) eqn:E; [reflexivity|].
  assert (Hh : forall l m : list plan, hd_error (l ++ m) = match hd_error l with Some x => Some x | None => hd_error m end) by (intros [|x l] m; reflexivity).
  destruct (Hs _ (na_self _)) as [Hlen Hsub]. cbn [kids subplan] in Hlen, Hsub.
  assert (K : forall c, In c ks -> find_first f true c = Ok (hd_error (filter f (iter_all c)))) by (intros c Hc; apply IH; [assumption|]; eapply simple_kid; [exact Hs|exact Hc]).
  destruct ks as [|a [|b [|c ks]]].
  - cbn in Hsub. rewrite Hsub by lia. reflexivity.
  - cbn in Hsub. rewrite Hsub by lia. cbn [flat_map]. rewrite !app_nil_r. apply K. now left.
  - rewrite (K a) by (now left). rewrite (K b) by (right; now left). cbn [rbind flat_map]. rewrite app_nil_r, !filter_app, !Hh.
    destruct (hd_error (filter f (iter_all a))); [reflexivity|]. destruct (hd_error (filter f (iter_all b))); [reflexivity|]. cbn [rbind].
    destruct s as [[q t]|]; [|reflexivity]. apply (IHs q t eq_refl). eapply simple_sub; [exact Hs|reflexivity].
  - cbn in Hlen. lia.
Qed.
Lemma find_first_complete f outer p : simple p -> exists o, find_first f outer p = Ok o /\ (o = None -> forall n, node_all p n -> f n = false).
Proof.
  induction p as [d ks s IH IHs] using plan_ind2. intros Hs. cbn [find_first]. destruct (f (Node d ks s)) eqn:E; [eexists; split; [reflexivity|discriminate]|].
  destruct (Hs _ (na_self _)) as [Hlen Hsub]. cbn [kids subplan] in Hlen, Hsub.
  assert (K : forall c, In c ks -> exists o, find_first f outer c = Ok o /\ (o = None -> forall n, node_all c n -> f n = false)) by (intros c Hc; apply IH; [assumption|]; eapply simple_kid; [exact Hs|exact Hc]).
  destruct ks as [|a [|b [|c ks]]].
  - cbn in Hsub. rewrite Hsub by lia. eexists. split; [reflexivity|]. intros _ n Hn. destruct (node_all_inv _ _ Hn) as [->|[(c & Hc & _)|(q & t & Hq & _)]]; [rewrite Hsub in E by lia; exact E|destruct Hc|discriminate].
  - cbn in Hsub. rewrite Hsub in * by lia. destruct (K a (or_introl eq_refl)) as (o & Ho & Hn). exists o. split; [exact Ho|]. intros Eo n Hin.
    destruct (node_all_inv _ _ Hin) as [->|[(c & [<-|[]] & Hc)|(q & t & Hq & _)]]; [exact E|now apply Hn|discriminate].
  - destruct (K a (or_introl eq_refl)) as (oa & Ha & Hna). destruct (K b (or_intror (or_introl eq_refl))) as (ob & Hb & Hnb).
    assert (S' : exists o, match s with Some (q, _) => find_first f outer q | None => Ok None end = Ok o /\ (o = None -> forall q t, s = Some (q, t) -> forall n, node_all q n -> f n = false)).
    { destruct s as [[q t]|]; [|exists None; split; [reflexivity|intros _ ? ? ?; discriminate]]. destruct (IHs q t eq_refl) as (o & Ho & Hn); [eapply simple_sub; [exact Hs|reflexivity]|].
      exists o. split; [exact Ho|]. intros Eo q' t' [= <- <-]. now apply Hn. }
    destruct S' as (os & Hos & Hns).
    assert (FIN : oa = None -> ob = None -> os = None -> forall n, node_all (Node d [a; b] s) n -> f n = false).
    { intros Ea Eb Es n Hn. destruct (node_all_inv _ _ Hn) as [->|[(c & Hc & Hn')|(q & t & Hq & Hn')]]; [exact E| |eapply Hns; eassumption].
      cbn [kids] in Hc. destruct Hc as [<-|[<-|[]]]; auto. }
    destruct outer; rewrite Ha, Hb; cbn [rbind].
    + destruct oa; [eexists; split; [reflexivity|discriminate]|]. cbn [rbind]. destruct ob; [eexists; split; [reflexivity|discriminate]|]. rewrite Hos. exists os. split; [reflexivity|]. auto.
    + destruct ob; [eexists; split; [reflexivity|discriminate]|]. cbn [rbind]. destruct oa; [eexists; split; [reflexivity|discriminate]|]. rewrite Hos. exists os. split; [reflexivity|]. auto.
  - cbn in Hlen. lia.
Qed.

(** ** Shapes *)
Lemma no_sub_all p n : no_subplans p -> node_all p n -> node_of p n.
Proof.
  intros H Hn. induction Hn as [p|p c n Hc _ IH|p q t n Hs _ IH]; [apply no_self| |].
  - eapply no_kid; [exact Hc|]. apply IH. intros m Hm. apply H. eapply no_kid; eassumption.
  - rewrite (H p (no_self p)) in Hs. discriminate.
Qed.
Lemma no_sub_kid p c : no_subplans p -> In c (kids p) -> no_subplans c.
Proof. intros H Hc n Hn. apply H. eapply no_kid; eassumption. Qed.
Lemma child_join_spec q : simple q -> no_subplans q -> exists b, child_join (Some q) = Ok b /\ (b = true <-> has_join q).
Proof.
  intros Hs Hn. unfold child_join. destruct (find_first_complete is_join true q Hs) as (o & Ho & Hnone). rewrite Ho. unfold rmap. cbn [rbind]. destruct o as [x|].
  - exists true. split; [reflexivity|]. split; [|reflexivity]. intros _. destruct (find_first_sound _ _ _ _ Ho) as [Hx Hj]. exists x. split; [now apply no_sub_all|assumption].
  - exists false. split; [reflexivity|]. split; [discriminate|]. intros (n & Hin & Hj). rewrite (Hnone eq_refl n) in Hj; [discriminate|now apply node_of_all].
Qed.

(** ** canonical *)
Section MapM.
  Context (f : plan -> res plan).
  Fixpoint pmapM (l : list plan) : res (list plan) :=
    match l with [] => Ok [] | c :: r => rbind (f c) (fun c' => rbind (pmapM r) (fun r' => Ok (c' :: r'))) end.
End MapM.
Lemma pmapM_Forall2 f l l' : pmapM f l = Ok l' -> Forall2 (fun x y => f x = Ok y) l l'.
Proof.
  revert l'. induction l as [|x l IH]; intros l' H; cbn [pmapM] in H; [injection H as <-; constructor|]. destruct (f x) as [y|] eqn:E; cbn [rbind] in H; [|discriminate].
  destruct (pmapM f l) as [r|]; cbn [rbind] in H; [|discriminate]. injection H as <-. constructor; [assumption|]. now apply IH.
Qed.
Lemma Forall2_pmapM f l l' : Forall2 (fun x y => f x = Ok y) l l' -> pmapM f l = Ok l'.
Proof. induction 1 as [|x y l l' H _ IH]; [reflexivity|]. cbn [pmapM]. rewrite H, IH. reflexivity. Qed.
Lemma canonical_eq d ks s : canonical (Node d ks s) =
  rbind (match s with Some (q, t) => rmap (fun q' => Some (q', t)) (canonical q) | None => Ok None end) (fun s' =>
  if op_scan d then Ok (Node d [] s')
  else if op_join d then rmap (fun ks' => Node d ks' s') (pmapM canonical ks)
  else match ks with [c] => canonical c | _ => Raise AttributeError end).
Proof. reflexivity. Qed.
Lemma Forall2_In_r {X Y} (R : X -> Y -> Prop) l m : Forall2 R l m -> forall y, In y m -> exists x, In x l /\ R x y.
Proof. induction 1 as [|x y l m H _ IH]; intros z Hz; [destruct Hz|]. destruct Hz as [<-|Hz]; [exists x; split; [now left|assumption]|]. destruct (IH z Hz) as (w & Hw & Hr). exists w. split; [now right|assumption]. Qed.
Lemma canonical_nodes p : forall q, canonical p = Ok q -> forall n, node_all q n -> (is_scan n = true /\ kids n = []) \/ is_join n = true.
Proof.
  induction p as [d ks s IH IHs] using plan_ind2. intros q H n Hn. rewrite canonical_eq in H.
  destruct (match s with Some (q, t) => rmap (fun q' => Some (q', t)) (canonical q) | None => Ok None end) as [s'|] eqn:Es; cbn [rbind] in H; [|discriminate].
  assert (Hsub : forall q0 t0, s' = Some (q0, t0) -> forall m, node_all q0 m -> (is_scan m = true /\ kids m = []) \/ is_join m = true).
  { intros q0 t0 -> m Hm. destruct s as [[q1 t1]|]; [|discriminate]. unfold rmap in Es. destruct (canonical q1) as [q1'|] eqn:E1; cbn [rbind] in Es; [|discriminate]. injection Es as -> ->. eapply IHs; [reflexivity|exact E1|exact Hm]. }
  destruct (op_scan d) eqn:Esc; [|destruct (op_join d) eqn:Ej].
  - injection H as <-. destruct (node_all_inv _ _ Hn) as [->|[(c & Hc & _)|(q0 & t0 & Hq & Hm)]]; [left; split; [exact Esc|reflexivity]|destruct Hc|]. eapply Hsub; eassumption.
  - unfold rmap in H. destruct (pmapM canonical ks) as [ks'|] eqn:Ek; cbn [rbind] in H; [|discriminate]. injection H as <-.
    destruct (node_all_inv _ _ Hn) as [->|[(c & Hc & Hm)|(q0 & t0 & Hq & Hm)]]; [right; exact Ej| |eapply Hsub; eassumption].
    cbn [kids] in Hc. destruct (Forall2_In_r _ _ _ (pmapM_Forall2 _ _ _ Ek) c Hc) as (x & Hx & Ex). eapply IH; eassumption.
  - destruct ks as [|c [|? ?]]; try discriminate. eapply IH; [now left|exact H|exact Hn].
Qed.
Lemma canonical_idem p : forall q, canonical p = Ok q -> canonical q = Ok q.
Proof.
  induction p as [d ks s IH IHs] using plan_ind2. intros q H. rewrite canonical_eq in H.
  destruct (match s with Some (q, t) => rmap (fun q' => Some (q', t)) (canonical q) | None => Ok None end) as [s'|] eqn:Es; cbn [rbind] in H; [|discriminate].
  assert (Hs' : match s' with Some (q, t) => rmap (fun q' => Some (q', t)) (canonical q) | None => Ok None end = Ok s').
  { destruct s as [[q1 t1]|]; [|injection Es as <-; reflexivity]. unfold rmap in Es. destruct (canonical q1) as [q1'|] eqn:E1; cbn [rbind] in Es; [|discriminate]. injection Es as <-.
    unfold rmap. rewrite (IHs q1 t1 eq_refl q1' E1). reflexivity. }
  destruct (op_scan d) eqn:Esc; [|destruct (op_join d) eqn:Ej].
  - injection H as <-. rewrite canonical_eq, Hs', Esc. reflexivity.
  - unfold rmap in H. destruct (pmapM canonical ks) as [ks'|] eqn:Ek; cbn [rbind] in H; [|discriminate]. injection H as <-. rewrite canonical_eq, Hs', Esc, Ej.
    cbn [rbind]. unfold rmap. rewrite (Forall2_pmapM canonical ks' ks'); [reflexivity|]. apply pmapM_Forall2 in Ek. clear - Ek IH.
    induction Ek as [|x y l l' Hxy _ IHk]; constructor; [eapply IH; [now left|exact Hxy]|]. apply IHk. intros c Hc. apply IH. now right.
  - destruct ks as [|c [|? ?]]; try discriminate. eapply IH; [now left|exact H].
Qed.
Lemma plan_order_fun p o : plan_order p o -> forall o', plan_order p o' -> o = o'.
Proof.
  induction 1 as [p t Hs Hb|p a b x y Hj Hk _ IHa _ IHb|p c x Hs Hj Hk _ IH]; intros o' H'; inversion H'; subst; unfold is_scan, is_join, op_scan, op_join in *; try congruence;
    try (destruct (oper (data p)) as [[]|]; congruence).
  - rewrite Hk in *. match goal with E : [_; _] = [_; _] |- _ => injection E as -> -> end. f_equal; auto.
  - rewrite Hk in *. match goal with E : [_] = [_] |- _ => injection E as -> end. auto.
Qed.
Lemma canonical_order p : forall q o, canonical p = Ok q -> (plan_order p o <-> plan_order q o).
Proof.
  induction p as [d ks s IH _] using plan_ind2. intros q o H. rewrite canonical_eq in H.
  destruct (match s with Some (q, t) => rmap (fun q' => Some (q', t)) (canonical q) | None => Ok None end) as [s'|] eqn:Es; cbn [rbind] in H; [|discriminate]. clear Es.
  destruct (op_scan d) eqn:Esc; [|destruct (op_join d) eqn:Ej].
  - injection H as <-. assert (J : op_join d = false) by (unfold op_scan, op_join in *; destruct (oper d) as [[]|]; congruence).
    split; intros HH; inversion HH; subst; unfold is_scan, is_join in *; cbn [data kids] in *; try congruence; apply po_scan; assumption.
  - unfold rmap in H. destruct (pmapM canonical ks) as [ks'|] eqn:Ek; cbn [rbind] in H; [|discriminate]. injection H as <-. apply pmapM_Forall2 in Ek.
    split; intros HH; inversion HH; subst; unfold is_scan, is_join in *; cbn [data kids] in *; try congruence; subst.
    + inversion Ek as [|? a' ? l' Ha Hl]; subst. inversion Hl as [|? b' ? l'' Hb Hl']; subst. inversion Hl'; subst.
      apply (po_join _ a' b'); [exact Ej|reflexivity|apply (proj1 (IH a (or_introl eq_refl) _ _ Ha)); assumption|apply (proj1 (IH b (or_intror (or_introl eq_refl)) _ _ Hb)); assumption].
    + inversion Ek as [|a' ? l' ? Ha Hl]; subst. inversion Hl as [|b' ? l'' ? Hb Hl']; subst. inversion Hl'; subst.
      apply (po_join _ a' b'); [exact Ej|reflexivity|apply (proj2 (IH a' (or_introl eq_refl) _ _ Ha)); assumption|apply (proj2 (IH b' (or_intror (or_introl eq_refl)) _ _ Hb)); assumption].
  - destruct ks as [|c [|? ?]]; try discriminate. rewrite <- (IH c (or_introl eq_refl) q o H). split; intros HH.
    + inversion HH; subst; unfold is_scan, is_join in *; cbn [data kids] in *; congruence.
    + eapply po_aux; [exact Esc|exact Ej|reflexivity|exact HH].
Qed.
Lemma canonical_tables p : forall q, canonical p = Ok q -> forall t, mentions q t -> mentions p t.
Proof.
  enough (G : forall p q, canonical p = Ok q -> forall n, node_all q n -> exists m, node_all p m /\ data m = data n /\ forall r x, subplan n = Some (r, x) -> exists r', subplan m = Some (r', x)).
  { intros q H t (n & Hn & Hm). destruct (G p q H n Hn) as (m & Hm' & Hd & Hsub). exists m. split; [assumption|]. rewrite Hd. destruct Hm as [H1|[H1|[H1|[r H1]]]]; auto. right. right. right. eapply Hsub. exact H1. }
  clear p. intros p. induction p as [d ks s IH IHs] using plan_ind2. intros q H n Hn. rewrite canonical_eq in H.
  destruct (match s with Some (q, t) => rmap (fun q' => Some (q', t)) (canonical q) | None => Ok None end) as [s'|] eqn:Es; cbn [rbind] in H; [|discriminate].
  assert (Hsub : forall q0 t0, s' = Some (q0, t0) -> exists q1, s = Some (q1, t0) /\ canonical q1 = Ok q0).
  { intros q0 t0 ->. destruct s as [[q1 t1]|]; [|discriminate]. unfold rmap in Es. destruct (canonical q1) as [q1'|] eqn:E1; cbn [rbind] in Es; [|discriminate]. injection Es as -> ->. eauto. }
  assert (SELF : forall ks', n = Node d ks' s' -> exists m, node_all (Node d ks s) m /\ data m = data n /\ forall r x, subplan n = Some (r, x) -> exists r', subplan m = Some (r', x)).
  { intros ks' ->. exists (Node d ks s). split; [apply na_self|]. split; [reflexivity|]. cbn [subplan]. intros r x Hx. destruct (Hsub r x Hx) as (q1 & -> & _). eauto. }
  assert (SUB : forall q0 t0, s' = Some (q0, t0) -> node_all q0 n -> exists m, node_all (Node d ks s) m /\ data m = data n /\ forall r x, subplan n = Some (r, x) -> exists r', subplan m = Some (r', x)).
  { intros q0 t0 Hq Hn0. destruct (Hsub q0 t0 Hq) as (q1 & Hs1 & Hc1). destruct (IHs q1 t0 Hs1 q0 Hc1 n Hn0) as (m & Hm & HH). exists m. split; [|assumption]. eapply na_sub; [exact Hs1|assumption]. }
  destruct (op_scan d) eqn:Esc; [|destruct (op_join d) eqn:Ej].
  - injection H as <-. destruct (node_all_inv _ _ Hn) as [Hx|[(c & Hc & _)|(q0 & t0 & Hq & Hm)]]; [eapply SELF; exact Hx|destruct Hc|eapply SUB; eassumption].
  - unfold rmap in H. destruct (pmapM canonical ks) as [ks'|] eqn:Ek; cbn [rbind] in H; [|discriminate]. injection H as <-.
    destruct (node_all_inv _ _ Hn) as [Hx|[(c & Hc & Hm)|(q0 & t0 & Hq & Hm)]]; [eapply SELF; exact Hx| |eapply SUB; eassumption].
    cbn [kids] in Hc. destruct (Forall2_In_r _ _ _ (pmapM_Forall2 _ _ _ Ek) c Hc) as (x & Hx & Ex). destruct (IH x Hx c Ex n Hm) as (m & Hm' & HH). exists m. split; [|assumption]. eapply na_kid; eassumption.
  - destruct ks as [|c [|? ?]]; try discriminate. destruct (IH c (or_introl eq_refl) q H n Hn) as (m & Hm' & HH). exists m. split; [|assumption]. eapply na_kid; [now left|assumption].
Qed.

(** ** Equality *)
Lemma all2_Forall2 f l m : all2 f l m = true <-> Forall2 (fun x y => f x y = true) l m.
Proof.
  split.
  - revert m. induction l as [|x l IH]; intros [|y m] H; cbn [all2] in H; try discriminate; [constructor|]. apply andb_true_iff in H as [H1 H2]. constructor; auto.
  - induction 1 as [|x y l m H _ IH]; [reflexivity|]. cbn [all2]. now rewrite H, IH.
Qed.
Lemma plan_eqb_spec p q : plan_eqb p q = true <-> ntype (data p) = ntype (data q) /\ base (data p) = base (data q) /\ Forall2 (fun x y => plan_eqb x y = true) (kids p) (kids q).
Proof.
  destruct p as [d ks s], q as [e ls s']. cbn [plan_eqb data kids]. rewrite !andb_true_iff, all2_Forall2, Nat.eqb_eq, deqb_eq. tauto.
Qed.
Lemma plan_eqb_refl p : plan_eqb p p = true.
Proof. induction p as [d ks s IH _] using plan_ind2. apply plan_eqb_spec. split; [reflexivity|]. split; [reflexivity|]. cbn [kids]. induction ks as [|c ks IHk]; [constructor|]. constructor; [apply IH; now left|]. apply IHk. intros x Hx. apply IH. now right. Qed.
Lemma plan_eqb_sym p : forall q, plan_eqb p q = true -> plan_eqb q p = true.
Proof.
  induction p as [d ks s IH _] using plan_ind2. intros q H. apply plan_eqb_spec in H as (H1 & H2 & H3). apply plan_eqb_spec. split; [now symmetry|]. split; [now symmetry|].
  cbn [kids data] in *. clear H1 H2. revert H3. generalize (kids q). induction ks as [|c ks IHk]; intros l H3; inversion H3; subst; [constructor|]. constructor; [refine (IH c (or_introl eq_refl) _ _); assumption|]. apply IHk; [|assumption]. intros x Hx. apply IH. now right.
Qed.
Lemma plan_eqb_trans p : forall q r, plan_eqb p q = true -> plan_eqb q r = true -> plan_eqb p r = true.
Proof.
  induction p as [d ks s IH _] using plan_ind2. intros q r H H'. apply plan_eqb_spec in H as (H1 & H2 & H3). apply plan_eqb_spec in H' as (H1' & H2' & H3'). apply plan_eqb_spec. split; [congruence|]. split; [congruence|].
  cbn [kids data] in *. clear H1 H2 H1' H2'. revert H3 H3'. generalize (kids q), (kids r). induction ks as [|c ks IHk]; intros l m H3 H3'; inversion H3; subst; inversion H3'; subst; [constructor|]. constructor; [eapply IH; [now left|eassumption|eassumption]|].
  eapply IHk; [|eassumption|eassumption]. intros x Hx. apply IH. now right.
Qed.
Lemma plan_eqb_hash hty hbase htup p : forall q, plan_eqb p q = true -> plan_hash hty hbase htup p = plan_hash hty hbase htup q.
Proof.
  induction p as [d ks s IH _] using plan_ind2. intros [e ls s'] H. apply plan_eqb_spec in H as (H1 & H2 & H3). cbn [data kids] in *. cbn [plan_hash]. rewrite H1, H2. enough (map (plan_hash hty hbase htup) ks = map (plan_hash hty hbase htup) ls) as -> by reflexivity. clear H1 H2.
  induction H3 as [|x y l m Hxy _ IHl]; [reflexivity|]. cbn [map]. f_equal; [refine (IH x (or_introl eq_refl) _ _); assumption|]. apply IHl. intros z Hz. apply IH. now right.
Qed.
