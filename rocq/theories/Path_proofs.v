(* Lemmas about path pruning. *)
From Coq Require Import List QArith ZArith Sorted Bool Arith Lia Lqa.
From Verif Require Import PyBase Path_model Path_spec.
Import ListNotations.

(* ---- sort keys ---- *)

Lemma compatible_true k o :
  compatible k o = true <->
  k_asc k = k_asc o /\ exists m, In m (k_members k) /\ In m (k_members o).
Proof.
  unfold compatible. destruct (Bool.eqb (k_asc k) (k_asc o)) eqn:E; cbn [negb].
  - apply Bool.eqb_prop in E.
    destruct (filter (fun m => mem m (k_members o)) (k_members k)) as [|m l] eqn:F.
    + split; [discriminate|]. intros [_ [m [H1 H2]]].
      assert (In m (filter (fun m => mem m (k_members o)) (k_members k))).
      { apply filter_In. split; [exact H1|]. now apply mem_In. }
      rewrite F in H. destruct H.
    + split; [|reflexivity]. intros _. split; [exact E|]. exists m.
      assert (H : In m (filter (fun m => mem m (k_members o)) (k_members k))) by (rewrite F; now left).
      apply filter_In in H. destruct H as [H1 H2]. apply mem_In in H2. now split.
  - split; [discriminate|]. intros [H _]. rewrite H, Bool.eqb_reflx in E. discriminate.
Qed.

Lemma compatible_before k o r s :
  compatible k o = true -> class_holds k r -> class_holds k s -> class_holds o r -> class_holds o s ->
  (before k r s <-> before o r s) /\ (tied k r s <-> tied o r s).
Proof.
  rewrite compatible_true. intros [Ha [m [Hk Ho]]] Kr Ks Or Os.
  unfold before, tied. rewrite Ha. split; split; intros H m' Hm'.
  - specialize (H m Hk). rewrite (Or m' m Hm' Ho), (Os m' m Hm' Ho). exact H.
  - specialize (H m Ho). rewrite (Kr m' m Hm' Hk), (Ks m' m Hm' Hk). exact H.
  - specialize (H m Hk). rewrite (Or m' m Hm' Ho), (Os m' m Hm' Ho). exact H.
  - specialize (H m Ho). rewrite (Kr m' m Hm' Hk), (Ks m' m Hm' Hk). exact H.
Qed.

Definition all_hold (ks : list skey) (r : row) : Prop := forall k, In k ks -> class_holds k r.

Lemma all_hold_cons k ks r : all_hold (k :: ks) r -> class_holds k r /\ all_hold ks r.
Proof. intros H. split; [apply H; now left|]. intros k' Hk. apply H. now right. Qed.

Lemma subsumes_loop_lexle s o r t :
  (List.length o <= List.length s)%nat -> subsumes_loop s o = true ->
  all_hold s r -> all_hold s t -> all_hold o r -> all_hold o t ->
  lexle s r t -> lexle o r t.
Proof.
  revert o. induction s as [|k s IH]; intros [|q o] Hlen H Sr St Or Ot Hl; cbn [lexle]; try exact I.
  - cbn in Hlen. lia.
  - cbn [subsumes_loop] in H. destruct (compatible k q) eqn:C; cbn [negb] in H; [|discriminate].
    apply all_hold_cons in Sr. apply all_hold_cons in St. apply all_hold_cons in Or. apply all_hold_cons in Ot.
    destruct (compatible_before k q r t C) as [Hb Ht]; try tauto.
    cbn [lexle] in Hl. destruct Hl as [Hl|[Hl1 Hl2]].
    + left. now apply Hb.
    + right. split; [now apply Ht|]. apply IH; try tauto. cbn [List.length] in Hlen. lia.
Qed.

Lemma sorting_subsumes_true s o :
  sorting_subsumes s o = true -> (List.length o <= List.length s)%nat /\ subsumes_loop s o = true.
Proof.
  unfold sorting_subsumes. destruct s as [|k s], o as [|q o]; intros H.
  - now split.
  - discriminate.
  - split; [cbn; lia|reflexivity].
  - destruct (Nat.ltb_spec (List.length (k :: s)) (List.length (q :: o))); [discriminate|]. now split.
Qed.

Lemma same_loop_lexle s o r t :
  List.length s = List.length o -> same_loop s o = true ->
  all_hold s r -> all_hold s t -> all_hold o r -> all_hold o t ->
  (lexle s r t <-> lexle o r t).
Proof.
  revert o. induction s as [|k s IH]; intros [|q o] Hlen H Sr St Or Ot; cbn [lexle]; try tauto; try discriminate.
  cbn [same_loop] in H. destruct (compatible k q) eqn:C; cbn [negb] in H; [|discriminate].
  apply all_hold_cons in Sr. apply all_hold_cons in St. apply all_hold_cons in Or. apply all_hold_cons in Ot.
  destruct (compatible_before k q r t C) as [Hb Ht]; try tauto.
  assert (E : lexle s r t <-> lexle o r t) by (apply IH; try tauto; now injection Hlen).
  tauto.
Qed.

Lemma same_sorting_true s o :
  same_sorting s o = true -> List.length s = List.length o /\ same_loop s o = true.
Proof.
  unfold same_sorting. destruct (Nat.eqb_spec (List.length s) (List.length o)); cbn [negb]; [now split|discriminate].
Qed.

Lemma same_loop_subsumes s o :
  List.length s = List.length o -> subsumes_loop s o = true -> same_loop s o = true.
Proof.
  revert o. induction s as [|k s IH]; intros [|q o] Hl; cbn; try reflexivity; try discriminate.
  destruct (compatible k q); cbn; [|discriminate]. intros H. apply IH; [now injection Hl|exact H].
Qed.

Lemma sub_len s o :
  sorting_subsumes s o = true -> same_sorting s o = true \/ (List.length o < List.length s)%nat.
Proof.
  intros H. apply sorting_subsumes_true in H. destruct H as [H1 H2].
  destruct (Nat.eq_dec (List.length s) (List.length o)) as [E|E]; [left|right; lia].
  unfold same_sorting. rewrite E, Nat.eqb_refl. cbn [negb]. now apply same_loop_subsumes.
Qed.

Lemma ordered_mono s o rows :
  (forall r t, In r rows -> In t rows -> lexle s r t -> lexle o r t) ->
  ordered s rows -> ordered o rows.
Proof.
  unfold ordered. induction rows as [|r rows IH]; intros H Hs; [constructor|].
  apply StronglySorted_inv in Hs. destruct Hs as [Hs Hf]. constructor.
  - apply IH; [|exact Hs]. intros a b Ha Hb. apply H; now right.
  - rewrite Forall_forall in Hf |- *. intros t Ht. apply H; [now left|now right|]. now apply Hf.
Qed.

Lemma legal_hold ps p r : In p ps -> legal ps r -> all_hold (p_sort p) r.
Proof. intros Hp Hl k Hk. now apply (Hl p k). Qed.

Lemma as_sorted_subsumes ps q p :
  In q ps -> In p ps -> sorting_subsumes (p_sort q) (p_sort p) = true -> as_sorted ps q p.
Proof.
  intros Hq Hp H rows Hf. apply sorting_subsumes_true in H. destruct H as [H1 H2].
  rewrite Forall_forall in Hf.
  apply ordered_mono. intros r t Hr Ht.
  apply subsumes_loop_lexle; try assumption; eapply legal_hold; eauto.
Qed.

Lemma as_sorted_same ps q p :
  In q ps -> In p ps -> same_sorting (p_sort q) (p_sort p) = true -> as_sorted ps q p /\ as_sorted ps p q.
Proof.
  intros Hq Hp H. apply same_sorting_true in H. destruct H as [H1 H2].
  split; intros rows Hf; rewrite Forall_forall in Hf; apply ordered_mono; intros r t Hr Ht;
    apply (same_loop_lexle (p_sort q) (p_sort p) r t); try assumption; eapply legal_hold; eauto.
Qed.

Lemma as_sorted_refl ps p : as_sorted ps p p.
Proof. intros rows _ H. exact H. Qed.

Lemma as_sorted_trans ps a b c : as_sorted ps a b -> as_sorted ps b c -> as_sorted ps a c.
Proof. intros H1 H2 rows Hf Ho. apply H2; [exact Hf|]. now apply H1. Qed.

(* ---- one addition ---- *)

(* old is evicted by new *)
Definition evicts (new old : path) : Prop :=
  sorting_subsumes (p_sort new) (p_sort old) = true /\ new_dominates new old = true.
(* new is turned down because of b *)
Definition beats (b new : path) : Prop :=
  sorting_subsumes (p_sort new) (p_sort b) = true /\ new_dominates new b = false.

Lemma add_loop_In new cur r k q : add_loop new cur = (r, k) -> In q r -> In q cur.
Proof.
  revert r k. induction cur as [|o rest IH]; intros r k H Hq.
  - cbn in H. injection H as <- <-. destruct Hq.
  - cbn [add_loop] in H. destruct (sorting_subsumes (p_sort new) (p_sort o)); cbn [negb] in H.
    + destruct (new_dominates new o).
      * right. eapply IH; eauto.
      * injection H as <- <-. exact Hq.
    + destruct (add_loop new rest) as [r' k'] eqn:E. injection H as <- <-.
      destruct Hq as [<-|Hq]; [now left|]. right. eapply IH; eauto.
Qed.

Lemma add_loop_evicted new cur r k o :
  add_loop new cur = (r, k) -> In o cur -> In o r \/ evicts new o.
Proof.
  revert r k. induction cur as [|c rest IH]; intros r k H Ho; [destruct Ho|].
  cbn [add_loop] in H. destruct (sorting_subsumes (p_sort new) (p_sort c)) eqn:S; cbn [negb] in H.
  - destruct (new_dominates new c) eqn:D.
    + destruct Ho as [<-|Ho]; [right; now split|]. eapply IH; eauto.
    + injection H as <- <-. now left.
  - destruct (add_loop new rest) as [r' k'] eqn:E. injection H as <- <-.
    destruct Ho as [<-|Ho]; [left; now left|].
    destruct (IH r' k' eq_refl Ho) as [H|H]; [left; now right|now right].
Qed.

Lemma add_loop_beaten new cur r : add_loop new cur = (r, false) -> exists b, In b r /\ beats b new.
Proof.
  revert r. induction cur as [|c rest IH]; intros r H; [discriminate|].
  cbn [add_loop] in H. destruct (sorting_subsumes (p_sort new) (p_sort c)) eqn:S; cbn [negb] in H.
  - destruct (new_dominates new c) eqn:D.
    + now apply IH.
    + injection H as <-. exists c. split; [now left|]. now split.
  - destruct (add_loop new rest) as [r' k'] eqn:E. injection H as <- ->.
    destruct (IH r' eq_refl) as [b [Hb Hb2]]. exists b. split; [now right|exact Hb2].
Qed.

Lemma add_list_new cur new :
  In new (add_list cur new) \/ exists b, In b (add_list cur new) /\ In b cur /\ beats b new.
Proof.
  unfold add_list. destruct cur as [|c cur]; [left; now left|].
  destruct (add_loop new (c :: cur)) as [r k] eqn:E. destruct k.
  - left. apply in_or_app. right. now left.
  - destruct (add_loop_beaten _ _ _ E) as [b [H1 H2]]. right. exists b. split; [exact H1|].
    split; [|exact H2]. eapply add_loop_In; eauto.
Qed.

Lemma add_list_old cur new o :
  In o cur -> In o (add_list cur new) \/ evicts new o.
Proof.
  unfold add_list. destruct cur as [|c cur]; [intros []|]. intros Ho.
  destruct (add_loop new (c :: cur)) as [r k] eqn:E.
  destruct (add_loop_evicted _ _ _ _ _ E Ho) as [H|H]; [left|now right].
  destruct k; [apply in_or_app; now left|exact H].
Qed.

Lemma add_list_In cur new q : In q (add_list cur new) -> In q cur \/ q = new.
Proof.
  unfold add_list. destruct cur as [|c cur]; [intros [<-|[]]; now right|].
  destruct (add_loop new (c :: cur)) as [r k] eqn:E. destruct k.
  - intros H. apply in_app_or in H. destruct H as [H|[<-|[]]]; [left|now right]. eapply add_loop_In; eauto.
  - intros H. left. eapply add_loop_In; eauto.
Qed.

(* ---- the whole history ---- *)

Lemma insert_cost_In p l q : In q (insert_cost p l) <-> q = p \/ In q l.
Proof.
  induction l as [|a l IH]; cbn [insert_cost].
  - cbn. intuition.
  - destruct (Qle_bool (p_cost p) (p_cost a)); cbn [In]; [intuition|]. rewrite IH. intuition.
Qed.

Lemma sort_cost_In l q : In q (sort_cost l) <-> In q l.
Proof.
  induction l as [|a l IH]; cbn [sort_cost]; [tauto|]. rewrite insert_cost_In, IH. cbn [In]. intuition.
Qed.

Lemma Qle_bool_false x y : Qle_bool x y = false -> (y < x)%Q.
Proof.
  intros H. apply Qnot_le_lt. intros H'. apply Qle_bool_iff in H'. congruence.
Qed.

Lemma insert_cost_sorted p l :
  StronglySorted (fun a b => p_cost a <= p_cost b)%Q l ->
  StronglySorted (fun a b => p_cost a <= p_cost b)%Q (insert_cost p l).
Proof.
  induction l as [|a l IH]; cbn [insert_cost]; intros H.
  - constructor; constructor.
  - apply StronglySorted_inv in H. destruct H as [H1 H2].
    destruct (Qle_bool (p_cost p) (p_cost a)) eqn:E.
    + apply Qle_bool_iff in E. constructor; [now constructor|]. constructor; [exact E|].
      rewrite Forall_forall in H2 |- *. intros x Hx. specialize (H2 x Hx). lra.
    + apply Qle_bool_false in E. constructor; [now apply IH|].
      rewrite Forall_forall in H2 |- *. intros x Hx. apply insert_cost_In in Hx.
      destruct Hx as [->|Hx]; [lra|now apply H2].
Qed.

Lemma sort_cost_sorted l : StronglySorted (fun a b => p_cost a <= p_cost b)%Q (sort_cost l).
Proof.
  induction l as [|a l IH]; cbn [sort_cost]; [constructor|]. now apply insert_cost_sorted.
Qed.

Lemma set_cheapest_kept r r' b q : set_cheapest r = Ok r' -> (In q (kept b r') <-> In q (kept b r)).
Proof.
  unfold set_cheapest. intros H.
  destruct (sort_cost (r_paths r)) as [|p ps] eqn:E1; [discriminate|].
  destruct (sort_cost (r_partial r)) as [|p' ps'] eqn:E2; injection H as <-; destruct b; cbn [kept r_paths r_partial].
  - tauto.
  - rewrite <- E1. apply sort_cost_In.
  - rewrite <- E2. apply sort_cost_In.
  - rewrite <- E1. apply sort_cost_In.
Qed.

Lemma offered_cons b e es : offered b (e :: es) =
  (match e with EAdd p b' => if Bool.eqb b b' then [p] else [] | ECheapest => [] end ++ offered b es)%list.
Proof. reflexivity. Qed.

Lemma kept_add b r p b' :
  kept b (add_path r p b') = if Bool.eqb b b' then add_list (kept b r) p else kept b r.
Proof. destruct b, b'; reflexivity. Qed.

Section Cover.
Variable G : path -> Prop.
Variable R : nat -> path -> path -> Prop.
Hypothesis Hmono : forall n q p, R n q p -> R (S n) q p.
Hypothesis Hnew : forall n cur new, Forall G cur -> G new ->
  exists q, In q (add_list cur new) /\ R (S n) q new.
Hypothesis Hold : forall n cur new q p, Forall G cur -> G new -> In q cur -> R n q p ->
  exists q', In q' (add_list cur new) /\ R (S n) q' p.

Lemma add_G cur new : Forall G cur -> G new -> Forall G (add_list cur new).
Proof.
  intros Hc Hn. rewrite Forall_forall in *. intros q Hq. apply add_list_In in Hq.
  destruct Hq as [Hq| ->]; [now apply Hc|exact Hn].
Qed.

Lemma run_cover b es : forall r r' n T,
  run r es = Ok r' -> Forall G (kept b r) -> Forall G (offered b es) ->
  (forall p, In p T -> exists q, In q (kept b r) /\ R n q p) ->
  forall p, In p (T ++ offered b es) -> exists q, In q (kept b r') /\ R (n + List.length es) q p.
Proof.
  induction es as [|e es IH]; intros r r' n T Hrun Hk Ho Hc p Hp.
  - cbn in Hrun. injection Hrun as <-. cbn in Hp. rewrite app_nil_r in Hp.
    rewrite Nat.add_0_r. now apply Hc.
  - cbn [run] in Hrun. rewrite offered_cons in Ho, Hp. apply Forall_app in Ho. destruct Ho as [Ho1 Ho2].
    cbn [List.length]. rewrite <- Nat.add_succ_comm.
    destruct e as [new b'|].
    + cbn [step rbind] in Hrun. rewrite app_assoc in Hp.
      refine (IH (add_path r new b') r' (S n) _ Hrun _ Ho2 _ p Hp).
      * rewrite kept_add. destruct (Bool.eqb b b'); [|exact Hk]. apply add_G; [exact Hk|].
        now inversion Ho1.
      * intros p' Hp'. rewrite kept_add. destruct (Bool.eqb b b').
        -- assert (Gn : G new) by now inversion Ho1.
           apply in_app_or in Hp'. destruct Hp' as [Hp'|[<-|[]]].
           ++ destruct (Hc p' Hp') as [q [Hq HR]]. now apply (Hold n (kept b r) new q).
           ++ now apply Hnew.
        -- rewrite app_nil_r in Hp'. destruct (Hc p' Hp') as [q [Hq HR]]. exists q. split; [exact Hq|now apply Hmono].
    + cbn [step] in Hrun. destruct (set_cheapest r) as [r1|] eqn:E; [|discriminate]. cbn [rbind] in Hrun.
      refine (IH r1 r' (S n) T Hrun _ Ho2 _ p Hp).
      * rewrite Forall_forall in *. intros q Hq. apply Hk. now apply (set_cheapest_kept r r1 b q E).
      * intros p' Hp'. destruct (Hc p' Hp') as [q [Hq HR]]. exists q. split; [|now apply Hmono].
        now apply (set_cheapest_kept r r1 b q E).
Qed.

Lemma run_cover_empty b es r' :
  run empty_rel es = Ok r' -> Forall G (offered b es) ->
  forall p, In p (offered b es) -> exists q, In q (kept b r') /\ R (List.length es) q p.
Proof.
  intros Hrun Ho p Hp.
  apply (run_cover b es empty_rel r' 0%nat [] Hrun); try assumption.
  - destruct b; constructor.
  - intros ? [].
Qed.
End Cover.

Lemma run_kept b es : forall r r' q, run r es = Ok r' -> In q (kept b r') -> In q (kept b r) \/ In q (offered b es).
Proof.
  induction es as [|e es IH]; intros r r' q Hrun Hq.
  - cbn in Hrun. injection Hrun as <-. now left.
  - cbn [run] in Hrun. rewrite offered_cons. destruct e as [new b'|].
    + cbn [step rbind] in Hrun. destruct (IH _ _ q Hrun Hq) as [H|H].
      * rewrite kept_add in H. destruct (Bool.eqb b b'); [|now left].
        apply add_list_In in H. destruct H as [H| ->]; [now left|]. right. now left.
      * right. apply in_or_app. now right.
    + cbn [step] in Hrun. destruct (set_cheapest r) as [r1|] eqn:E; [|discriminate]. cbn [rbind] in Hrun.
      destruct (IH _ _ q Hrun Hq) as [H|H]; [left|now right]. now apply (set_cheapest_kept r r1 b q E).
Qed.

(* ---- costs ---- *)

Lemma evicts_cost new old : (0 <= p_cost old)%Q -> evicts new old -> (p_cost new <= fuzz * p_cost old)%Q.
Proof.
  intros Hn [_ H]. unfold new_dominates in H. unfold fuzz.
  destruct (same_sorting (p_sort new) (p_sort old)).
  - apply negb_true_iff in H. apply Qle_bool_false in H. lra.
  - now apply Qle_bool_iff in H.
Qed.

Lemma beats_cost b new : (0 <= p_cost b)%Q -> beats b new -> (p_cost b <= p_cost new)%Q.
Proof.
  intros Hn [_ H]. unfold new_dominates in H.
  destruct (same_sorting (p_sort new) (p_sort b)).
  - apply negb_false_iff in H. now apply Qle_bool_iff in H.
  - apply Qle_bool_false in H. lra.
Qed.

Lemma qpow_pos f n : (0 < f)%Q -> (0 < qpow f n)%Q.
Proof.
  intros Hf. induction n as [|n IH]; cbn [qpow]; [lra|]. now apply Qmult_lt_0_compat.
Qed.

Lemma qpow_fuzz_S n : (qpow fuzz (S n) == fuzz * qpow fuzz n)%Q.
Proof. reflexivity. Qed.
