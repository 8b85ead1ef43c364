(** Lemmas about the conversions of query plans. *)
From Coq Require Import List Bool Arith ZArith Lia String.
From Verif Require Import PyBase FSet Hint_model Hint_proofs Card_model Card_spec Card_proofs JT_model QPlan_model PGHint_spec QPlan_spec QPlan_proofs QConv_model QConv_spec.
Import ListNotations.
Local Open Scope nat_scope.
Local Open Scope list_scope.

(** ** Join trees *)
Lemma tree_from_spec src p t : tree_of (node_card src) p t -> tree_from src p = Ok t.
Proof.
  induction 1 as [p t Hs Hb|p a b x y Hj Hk _ IHa _ IHb|p c x Hs Hj Hk _ IH]; destruct p as [d ks s]; unfold is_scan, is_join in *; cbn [data kids] in *; subst; cbn [tree_from].
  - now rewrite Hs, Hb.
  - assert (op_scan d = false) as -> by (unfold op_scan, op_join in *; destruct (oper d) as [[]|]; congruence). rewrite Hj, IHa, IHb. reflexivity.
  - now rewrite Hs, Hj.
Qed.
Lemma tree_from_conv src p : forall t, tree_from src p = Ok t -> complete t -> tree_of (node_card src) p t.
Proof.
  induction p as [d ks s IH _] using plan_ind2. intros t H Hc. cbn [tree_from] in H.
  destruct (op_scan d) eqn:Es.
  - injection H as <-. destruct (base d) as [x|] eqn:Eb; [|destruct Hc]. now apply (to_scan _ (Node d ks s)).
  - destruct (op_join d) eqn:Ej.
    + destruct ks as [|a [|b [|? ?]]]; try discriminate. destruct (tree_from src a) as [o|] eqn:Ea; [|discriminate]. cbn [rbind] in H. destruct (tree_from src b) as [i|] eqn:Eb; [|discriminate]. cbn [rbind] in H. injection H as <-.
      destruct Hc as [H1 H2]. apply (to_join _ (Node d [a; b] s) a b); auto; [apply (IH a)|apply (IH b)]; auto; [now left|right; now left].
    + destruct ks as [|a [|? ?]]; try discriminate. apply (to_aux _ (Node d [a] s) a); auto. apply (IH a); auto. now left.
Qed.
Lemma tree_order f p t : tree_of f p t -> exists o, order_of t = Some o /\ plan_order p o.
Proof.
  induction 1 as [p t Hs Hb|p a b x y Hj Hk _ (oa & Ea & Ha) _ (ob & Eb & Hb)|p c x Hs Hj Hk _ (o & Eo & Ho)].
  - eexists. split; [reflexivity|now apply po_scan].
  - exists (OrdJoin oa ob). cbn [order_of]. rewrite Ea, Eb. split; [reflexivity|now apply (po_join p a b)].
  - exists o. split; [assumption|now apply (po_aux p c)].
Qed.
Lemma order_tree f p o : plan_order p o -> exists t, tree_of f p t /\ order_of t = Some o.
Proof.
  induction 1 as [p t Hs Hb|p a b x y Hj Hk _ (ta & Ha & Ea) _ (tb & Hb & Eb)|p c x Hs Hj Hk _ (t & Ht & E)].
  - exists (JScan false t (f (data p))). split; [now apply to_scan|reflexivity].
  - exists (JJoin false ta tb (f (data p))). split; [now apply (to_join f p a b)|]. cbn [order_of]. now rewrite Ea, Eb.
  - exists t. split; [now apply (to_aux f p c)|assumption].
Qed.

(** ** Merging what the nodes say *)
Lemma preorder_spec p : forall n, In n (preorder p) <-> node_of p n.
Proof.
  induction p as [d ks s IH _] using plan_ind2. intros n. cbn [preorder In]. rewrite in_flat_map. split.
  - intros [<-|(c & Hc & Hn)]; [apply no_self|]. eapply no_kid; [exact Hc|]. now apply (IH c Hc).
  - intros H. apply node_of_inv in H as [->|(c & Hc & Hn)]; [now left|]. right. exists c. cbn [kids] in Hc. split; [exact Hc|]. now apply (IH c Hc).
Qed.
Lemma all_say_node {X} (says : plan -> list X) d ks s : all_say says (Node d ks s) = says (Node d ks s) ++ flat_map (all_say says) ks.
Proof.
  unfold all_say. cbn [preorder flat_map]. f_equal. induction ks as [|c ks IH]; [reflexivity|]. cbn [flat_map]. now rewrite flat_map_app, IH.
Qed.
Lemma dmerge_wf2 {K V} {E : EqD K} (a b : dict K V) : dwf a -> dwf (dmerge a b).
Proof. apply dmerge_wf. Qed.

(** One of the dictionaries of the result: [get] selects it, [view] forgets the workers. *)
Section Merging.
  Context {R K V W : Type} {EK : EqD K} (merge : R -> R -> R) (get : R -> dict K V) (view : V -> W) (says : plan -> list (K * W)).
  Context (Hmerge : forall a b, get (merge a b) = dmerge (get a) (get b)).
  Definition tells (r : R) (l : list (K * W)) : Prop := dwf (get r) /\ forall k, option_map view (dget (get r) k) = lastval l k.
  Lemma tells_merge a b l m : tells a l -> tells b m -> tells (merge a b) (l ++ m).
  Proof.
    intros [Wa Ha] [Wb Hb]. split; [rewrite Hmerge; now apply dmerge_wf2|]. intros k. rewrite Hmerge, dmerge_spec, lastval_app by assumption. rewrite <- Ha, <- Hb.
    destruct (dget (get b) k); reflexivity.
  Qed.
  Lemma tells_kids (f : plan -> res R) ks : (forall c, In c ks -> forall r, f c = Ok r -> tells r (all_say says c)) ->
    forall acc l r, tells acc l -> merge_kids f merge acc ks = Ok r -> tells r (l ++ flat_map (all_say says) ks).
  Proof.
    induction ks as [|c ks IH]; intros H acc l r Ha Hr; cbn [merge_kids flat_map] in *; [injection Hr as <-; now rewrite app_nil_r|].
    destruct (f c) as [x|] eqn:Ex; [|discriminate]. cbn [rbind] in Hr. rewrite app_assoc. apply (IH (fun c' Hc' => H c' (or_intror Hc')) (merge acc x)); [|exact Hr].
    apply tells_merge; [exact Ha|]. now apply (H c (or_introl eq_refl)).
  Qed.
End Merging.

Lemma node_ops_tells incl d ks s a : node_ops incl d (tables (Node d ks s)) = Ok a ->
  tells oa_scans fst a (scan_says (Node d ks s)) /\ tells oa_joins fst a (join_says (Node d ks s)) /\ tells oa_inters id a (inter_says (Node d ks s)).
Proof.
  unfold node_ops, scan_says, join_says, inter_says. cbn [data]. generalize (tables (Node d ks s)). intros T H.
  assert (N : forall (K V : Type), dwf ([] : dict K V)) by (intros; constructor). assert (O : forall (K V : Type) (k : K) (v : V), dwf [(k, v)]) by (intros; constructor; [intros []|constructor]).
  destruct (oper d) as [[o|o|o]|]; [| |  |discriminate]; [|destruct (_ <? 2); [discriminate|]|]; injection H as <-; (split; [|split]); (split; [first [apply N|apply O]|]); intros k; cbn [oa_scans oa_joins oa_inters lastval dget]; try reflexivity; unfold dget, deqb; repeat match goal with |- context [eqd k ?x] => destruct (eqd k x) end; reflexivity.
Qed.
Lemma ops_from_tells p : forall incl a, ops_from incl p = Ok a ->
  tells oa_scans fst a (all_say scan_says p) /\ tells oa_joins fst a (all_say join_says p) /\ tells oa_inters id a (all_say inter_says p).
Proof.
  induction p as [d ks s IH _] using plan_ind2. intros incl a H. rewrite !all_say_node. cbn [ops_from] in H.
  assert (Hgen : rbind (node_ops incl d (tables (Node d ks s))) (fun a => merge_kids (ops_from false) oa_merge a ks) = Ok a ->
    tells oa_scans fst a (scan_says (Node d ks s) ++ flat_map (all_say scan_says) ks) /\ tells oa_joins fst a (join_says (Node d ks s) ++ flat_map (all_say join_says) ks) /\
    tells oa_inters id a (inter_says (Node d ks s) ++ flat_map (all_say inter_says) ks)).
  { intros H'. destruct (node_ops incl d (tables (Node d ks s))) as [b|] eqn:Eb; [|discriminate]. cbn [rbind] in H'. apply node_ops_tells in Eb as (T1 & T2 & T3). split; [|split].
    - eapply (tells_kids oa_merge oa_scans fst scan_says (fun _ _ => eq_refl)); [|exact T1|exact H']. intros c Hc r Hr. now apply (IH c Hc false r Hr).
    - eapply (tells_kids oa_merge oa_joins fst join_says (fun _ _ => eq_refl)); [|exact T2|exact H']. intros c Hc r Hr. now apply (IH c Hc false r Hr).
    - eapply (tells_kids oa_merge oa_inters id inter_says (fun _ _ => eq_refl)); [|exact T3|exact H']. intros c Hc r Hr. now apply (IH c Hc false r Hr). }
  destruct (oper d) as [o|] eqn:Eo; [now apply Hgen|]. destruct ks as [|c [|c' ks]]; try (now apply Hgen).
  assert (E : scan_says (Node d [c] s) = [] /\ join_says (Node d [c] s) = [] /\ inter_says (Node d [c] s) = []) by (unfold scan_says, join_says, inter_says; cbn [data]; rewrite Eo; auto).
  destruct E as (-> & -> & ->). cbn [app flat_map]. rewrite !app_nil_r. now apply (IH c (or_introl eq_refl) false).
Qed.
Lemma params_from_tells t p : forall r, params_from t p = Ok r -> tells qp_cards id r (all_say (card_says (target_card t)) p) /\ tells qp_workers id r (all_say workers_say p).
Proof.
  induction p as [d ks s IH _] using plan_ind2. intros r H. rewrite !all_say_node. cbn [params_from] in H.
  assert (N : forall (K V : Type), dwf ([] : dict K V)) by (intros; constructor). assert (O : forall (K V : Type) (k : K) (v : V), dwf [(k, v)]) by (intros; constructor; [intros []|constructor]).
  split.
  - eapply (tells_kids qp_merge qp_cards id (card_says (target_card t)) (fun _ _ => eq_refl)); [| |exact H]; [intros c Hc x Hx; now apply (IH c Hc x Hx)|].
    unfold card_says, node_params. cbn [data]. generalize (tables (Node d ks s)). intros T. destruct (target_card t d); (split; [first [apply N|apply O]|]); intros k; cbn [qp_cards lastval dget]; try reflexivity; unfold dget, deqb; repeat match goal with |- context [eqd k ?x] => destruct (eqd k x) end; reflexivity.
  - eapply (tells_kids qp_merge qp_workers id workers_say (fun _ _ => eq_refl)); [| |exact H]; [intros c Hc x Hx; now apply (IH c Hc x Hx)|].
    unfold workers_say, node_params. cbn [data]. generalize (tables (Node d ks s)). intros T. destruct (pworkers d =? 0); (split; [first [apply N|apply O]|]); intros k; cbn [qp_workers lastval dget]; try reflexivity; unfold dget, deqb; repeat match goal with |- context [eqd k ?x] => destruct (eqd k x) end; reflexivity.
Qed.
Lemma merge_kids_total {R} (f : plan -> res R) merge ks : (forall c, In c ks -> exists r, f c = Ok r) -> forall acc, exists r, merge_kids f merge acc ks = Ok r.
Proof.
  induction ks as [|c ks IH]; intros H acc; cbn [merge_kids]; [eexists; reflexivity|]. destruct (H c (or_introl eq_refl)) as [x ->]. cbn [rbind]. apply IH. intros c' Hc'. apply H. now right.
Qed.
Lemma merge_kids_inv {R} (f : plan -> res R) merge ks : forall acc r, merge_kids f merge acc ks = Ok r -> forall c, In c ks -> exists x, f c = Ok x.
Proof.
  induction ks as [|c ks IH]; intros acc r H c' Hc; [destruct Hc|]. cbn [merge_kids] in H. destruct (f c) as [x|] eqn:Ex; [|discriminate]. destruct Hc as [<-|Hc]; [eauto|]. cbn [rbind] in H. eapply IH; eassumption.
Qed.
Lemma params_from_total t p : exists r, params_from t p = Ok r.
Proof. induction p as [d ks s IH _] using plan_ind2. cbn [params_from]. apply merge_kids_total. exact IH. Qed.
Lemma lastval_In {K V} {E : EqD K} (l : list (K * V)) k v : NoDup (map fst l) -> In (k, v) l -> lastval l k = Some v.
Proof. intros Hn Hi. rewrite (lastval_wf l k Hn). now apply In_dget. Qed.
Lemma lastval_inv {K V} {E : EqD K} (l : list (K * V)) k v : lastval l k = Some v -> In (k, v) l.
Proof.
  induction l as [|[k' v'] l IH]; cbn [lastval]; [discriminate|]. destruct (lastval l k); [intros H; right; now apply IH|]. destruct (eqd k k') as [->|]; [|discriminate]. intros H. injection H as ->. now left.
Qed.
Lemma lastval_some {K V} {E : EqD K} (l : list (K * V)) k v : In (k, v) l -> exists w, lastval l k = Some w.
Proof.
  induction l as [|[k' v'] l IH]; intros H; [destruct H|]. cbn [lastval]. destruct (lastval l k) as [w|] eqn:Ew; [eauto|]. destruct H as [H|H]; [injection H as -> ->; destruct (eqd k k); [eauto|congruence]|]. destruct (IH H) as [w Hw]. congruence.
Qed.

(** ** JSON *)
Section XInd.
  Context (P : xplan -> Prop) (H : forall d ks s, (forall c, In c ks -> P c) -> (forall q t, s = Some (q, t) -> P q) -> P (XNode d ks s)).
  Fixpoint xplan_ind2 (p : xplan) : P p :=
    match p with
    | XNode d ks s =>
        H d ks s ((fix all l : forall c, In c l -> P c := match l with [] => fun c F => match F with end | x :: r => fun c F => match F with or_introl E => eq_ind x P (xplan_ind2 x) c E | or_intror G => all r c G end end) ks)
          (match s as s0 return (forall q t, s0 = Some (q, t) -> P q) with
           | Some (q0, t0) => fun q t E => eq_ind q0 P (xplan_ind2 q0) q (f_equal (fun o => match o with Some (a, _) => a | None => q0 end) E)
           | None => fun q t E => match E in _ = o return match o with Some _ => P q | None => True end with eq_refl => I end
           end)
    end.
End XInd.
Lemma card_json c : exact_card c -> exists f, cget c = Ok f /\ card_of_float f = c.
Proof.
  destruct c as [| |z]; intros H; [eexists; split; reflexivity|eexists; split; reflexivity|]. cbn [exact_card] in H. destruct (float_of_int_small z H) as (m & e & E1 & E2).
  exists (FFin m e). split; [exact E1|]. cbn [card_of_float]. rewrite E2. f_equal. pose proof (fden_pos e). now apply rhe_exact.
Qed.
Lemma op_json o : known_op (Some o) -> exists s, op_value o = Some s /\ read_op s = Some o.
Proof.
  destruct o as [n|n|n]; cbn [known_op]; intros H; (destruct n as [|[|[|[|n]]]]; [..|lia]); try lia; eexists; split; reflexivity.
Qed.
Lemma read_write p : (forall n, xnode p n -> writable n) -> exists j, write_plan p = Ok j /\ read_plan j = Ok p.
Proof.
  induction p as [d ks s IH _] using xplan_ind2. intros H. destruct (H _ (xn_self _)) as (H1 & H2 & -> & H4 & H5 & H6).
  assert (K : exists js, mapk write_plan ks = Ok js /\ mapk read_plan js = Ok ks).
  { assert (Hk : forall c, In c ks -> exists j, write_plan c = Ok j /\ read_plan j = Ok c) by (intros c Hc; apply (IH c Hc); intros n Hn; apply H; eapply xn_kid; eassumption).
    clear - Hk. induction ks as [|c ks IHk]; [exists []; split; reflexivity|]. destruct (Hk c (or_introl eq_refl)) as (j & E1 & E2). destruct IHk as (js & E3 & E4); [intros x Hx; apply Hk; now right|].
    exists (j :: js). cbn [mapk]. rewrite E1, E3, E2. cbn [rbind]. rewrite E4. split; reflexivity. }
  destruct K as (js & K1 & K2). destruct (card_json _ H5) as (f & F1 & F2). destruct (card_json _ H6) as (g & G1 & G2).
  cbn [write_plan]. unfold write_data. rewrite F1, G1. cbn [rbind]. rewrite K1. cbn [rbind]. eexists. split; [reflexivity|]. cbn [read_plan]. rewrite K2. cbn [rbind]. unfold read_data. cbn [j_sort]. rewrite H1. cbn [rbind].
  cbn [j_type j_oper j_base j_pred j_index j_workers j_lookup j_card j_cost j_extra j_acard j_time j_hits j_misses j_mextra]. rewrite F2, G2, H2.
  destruct d as [d1 op d3 d4 d5 d6 d7 d8 d9 d10 d11 d12 d13 d14 d15 d16]. cbn [x_type x_oper x_base x_pred x_sort x_index x_workers x_lookup x_card x_cost x_extra x_acard x_time x_hits x_misses x_mextra] in *. subst.
  destruct op as [o|]; [|reflexivity]. destruct (op_json o H4) as (t & -> & ->). reflexivity.
Qed.
