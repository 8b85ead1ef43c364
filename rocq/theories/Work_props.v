(** C49, C50, C70, C71: workloads and reading workloads. *)
From Coq Require Import List Bool Arith ZArith Lia String Permutation.
From Verif Require Import PyBase Ident_model Dicts_model Work_model Work_spec Work_proofs.
Import ListNotations.

Section Laws.
  Context {L Q : Type} {EL : EqD L} {EQ : EqD Q} (nsort : list L -> list L) (Hs : sorts nsort).
  Lemma new_good ds w : new nsort ds = Ok w -> good w.
  Proof. intros E. destruct (new_ok nsort Hs ds) as (w' & E' & _ & Hg). rewrite E in E'. now injection E' as <-. Qed.
  Lemma shuffle_ok choice w : good w -> sorts choice -> exists w', shuffle nsort choice w = Ok w' /\ good w' /\ w_data w' = w_data w /\ Permutation (w_labels w') (w_labels w).
  Proof.
    intros Hg Hc. unfold shuffle. destruct (new_ok nsort Hs (w_data w)) as (v & E & Ed & Hv). rewrite E. cbn [rbind]. destruct (good_len w Hg) as [Hl _]. unfold sample_of.
    assert (Hb : ((Z.of_nat (List.length (w_data w)) <? 0) || (Z.of_nat (List.length (w_labels w)) <? Z.of_nat (List.length (w_data w))))%Z = false) by (apply orb_false_iff; split; apply Z.ltb_ge; lia). rewrite Hb. cbn [rbind]. rewrite Nat2Z.id, <- Hl. rewrite firstn_all2 by (rewrite (Permutation_length (Hc (w_labels w))); lia).
    destruct Hg as (Hw & Hp & E1 & Hm). assert (Edd : w_data v = w_data w).
    { rewrite Ed. clear - Hw. assert (G : forall (a b : dict L Q), dwf (a ++ b) -> fold_left (fun d e => dset d (fst e) (snd e)) b a = a ++ b).
      { intros a b. revert a. induction b as [|[k q] b IH]; intros a H; cbn; [now rewrite app_nil_r|]. assert (Ek : dset a k q = a ++ [(k, q)]).
        { unfold dwf, dkeys in H. rewrite map_app in H. cbn in H. apply NoDup_remove_2 in H. assert (Hk : ~ In k (map fst a)) by (intros Hk; apply H; apply in_or_app; now left). clear - Hk. induction a as [|[k' q'] a IH]; cbn in *; [reflexivity|]. unfold deqb. destruct (eqd k k') as [->|_]; [tauto|]. f_equal. apply IH. tauto. }
        rewrite Ek, IH by (rewrite <- app_assoc; exact H). now rewrite <- app_assoc. }
      now apply (G []). }
    destruct (items_ok (w_data v) (choice (w_labels w))) as [qs Eq]; [rewrite Edd; intros x Hx; apply (Permutation_in _ Hp); now apply (Permutation_in _ (Hc _))|]. rewrite Eq. cbn. eexists. split; [reflexivity|]. split; [|split; [exact Edd|apply Hc]].
    split; [cbn; rewrite Edd; exact Hw|]. cbn. split; [rewrite Edd; now rewrite (Hc (w_labels w))|]. split; [exact Eq|]. apply Hv.
  Qed.
  Lemma sample_incl choice (l : list L) n ls : sorts choice -> sample_of choice l n = Ok ls -> incl ls l /\ (NoDup l -> NoDup ls) /\ Z.of_nat (List.length ls) = n.
  Proof.
    intros Hc H. unfold sample_of in H. destruct ((n <? 0) || (Z.of_nat (List.length l) <? n))%Z eqn:E; [discriminate|]. injection H as <-. apply orb_false_iff in E as [E1 E2]. apply Z.ltb_ge in E1, E2. split; [|split].
    - intros x Hx. apply (Permutation_in _ (Hc l)). now apply firstn_incl in Hx.
    - intros Hn. apply NoDup_firstn. now apply (Permutation_NoDup (Permutation_sym (Hc l))).
    - rewrite firstn_length, (Permutation_length (Hc l)). lia.
  Qed.
  Lemma made_good w : made nsort w -> good w.
  Proof.
    intros H. induction H as [ds w E|w n w' _ IH E|w n w' _ IH E|w c n w' _ IH Hc E|w p w' _ IH E|w ls w' _ IH E|w c w' _ IH Hc E|w w' _ IH E|w v w' _ IH _ IH' E|w v w' _ IH _ IH' E|w v w' _ IH _ IH' E|w ls w' _ IH E|w ls w' _ IH E]; try (now apply new_good in E).
    - unfold first in E. destruct (sub_dict w _) as [d|]; [|discriminate]. now apply new_good in E.
    - unfold last in E. destruct (sub_dict w _) as [d|]; [|discriminate]. now apply new_good in E.
    - unfold pick_random in E. destruct (sample_of _ _ _) as [ls|]; [|discriminate]. cbn in E. destruct (sub_dict w ls) as [d|]; [|discriminate]. now apply new_good in E.
    - destruct (shuffle_ok c w IH Hc) as (v & Ev & Hv & _). rewrite E in Ev. now injection Ev as <-.
  Qed.
End Laws.

(** C49: however a workload was made, its entries agree with item access and its labels are found. *)
Theorem C49_agree : forall L Q (EL : EqD L) (EQ : EqD Q) (nsort : list L -> list L), sorts nsort -> forall w, made nsort w -> agrees w /\ finds w.
Proof. intros L Q EL EQ nsort Hs w H. apply (made_good nsort Hs) in H. split; [now apply good_agrees|now apply good_finds]. Qed.
Print Assumptions C49_agree.
(** C49: selections by predicate or label. *)
Theorem C49_select : forall L Q (EL : EqD L) (EQ : EqD Q) (nsort : list L -> list L), sorts nsort -> forall w p ls, made nsort w ->
  (exists w', filter_by nsort w p = Ok w' /\ forall l q, binds w' l q <-> binds w l q /\ p l q = true) /\
  (exists w', with_labels nsort w ls = Ok w' /\ forall l q, binds w' l q <-> binds w l q /\ In l ls) /\
  (exists w', and_labels nsort w ls = Ok w' /\ forall l q, binds w' l q <-> binds w l q /\ In l ls) /\
  (exists w', sub_labels nsort w ls = Ok w' /\ forall l q, binds w' l q <-> binds w l q /\ ~ In l ls).
Proof.
  intros L Q EL EQ nsort Hs w p ls H. apply (made_good nsort Hs) in H as (Hw & _). repeat split.
  - destruct (new_filter nsort Hs (w_data w) (fun e => p (fst e) (snd e)) Hw) as (w' & E & _ & Hb). exists w'. split; [exact E|]. intros l q. rewrite Hb. unfold binds. now rewrite item_Ok.
  - destruct (new_filter nsort Hs (w_data w) (fun e => mem (fst e) ls) Hw) as (w' & E & _ & Hb). exists w'. split; [exact E|]. intros l q. rewrite Hb. unfold binds. rewrite item_Ok. cbn. now rewrite mem_In.
  - destruct (new_filter nsort Hs (w_data w) (fun e => mem (fst e) ls) Hw) as (w' & E & _ & Hb). exists w'. split; [exact E|]. intros l q. rewrite Hb. unfold binds. rewrite item_Ok. cbn. now rewrite mem_In.
  - destruct (new_filter nsort Hs (w_data w) (fun e => negb (mem (fst e) ls)) Hw) as (w' & E & _ & Hb). exists w'. split; [exact E|]. intros l q. rewrite Hb. unfold binds. rewrite item_Ok. cbn. now rewrite negb_true_iff, mem_nIn.
Qed.
Print Assumptions C49_select.
(** C49: the algebra of two workloads: | and + prefer the own queries, & and - keep them. *)
Theorem C49_algebra : forall L Q (EL : EqD L) (EQ : EqD Q) (nsort : list L -> list L), sorts nsort -> forall w v, made nsort w -> made nsort v ->
  (exists w', add nsort w v = Ok w' /\ forall l q, binds w' l q <-> binds w l q \/ (binds v l q /\ forall q', ~ binds w l q')) /\
  (exists w', sub nsort w v = Ok w' /\ forall l q, binds w' l q <-> binds w l q /\ forall q', ~ binds v l q') /\
  (exists w', and_ nsort w v = Ok w' /\ forall l q, binds w' l q <-> binds w l q /\ exists q', binds v l q').
Proof.
  intros L Q EL EQ nsort Hs w v H H'. apply (made_good nsort Hs) in H as (Hw & _). apply (made_good nsort Hs) in H' as (Hv & _). repeat split.
  - destruct (new_ok nsort Hs (dor (w_data v) (w_data w))) as (w' & E & Ed & _). exists w'. split; [exact E|]. intros l q. unfold binds. rewrite !item_Ok, Ed. assert (Hd : dwf (dor (w_data v) (w_data w))) by (unfold dor; now apply dwf_fold_dset).
    rewrite dict_of_spec, lastval_wf by exact Hd. rewrite dor_spec by exact Hw. destruct (dget (w_data w) l) as [q1|] eqn:E1.
    + split; [intros [= ->]; now left|]. intros [[= ->]|[_ Hn]]; [reflexivity|]. destruct (Hn q1). now apply item_Ok.
    + split; [intros Hq; right; split; [exact Hq|intros q' Hq'; apply item_Ok in Hq'; congruence]|]. intros [H|[H _]]; [discriminate|exact H].
  - destruct (new_filter nsort Hs (w_data w) (fun e => negb (dmem (w_data v) (fst e))) Hw) as (w' & E & _ & Hb). exists w'. split; [exact E|]. intros l q. rewrite Hb. unfold binds. rewrite item_Ok. cbn. rewrite negb_true_iff, dmem_nIn, <- dget_None. setoid_rewrite item_Ok. destruct (dget (w_data v) l) as [q'|]; split; intros [Ha Hc]; split; auto; try discriminate. now destruct (Hc q').
  - destruct (new_filter nsort Hs (w_data w) (fun e => dmem (w_data v) (fst e)) Hw) as (w' & E & _ & Hb). exists w'. split; [exact E|]. intros l q. rewrite Hb. unfold binds. rewrite item_Ok. cbn. rewrite dmem_In, <- dget_key. setoid_rewrite item_Ok. destruct (dget (w_data v) l) as [q'|]; split; intros [Ha Hc]; split; auto.
    + now exists q'.
    + discriminate.
    + now destruct Hc.
    + destruct Hc as [q' Hq']. discriminate.
Qed.
Print Assumptions C49_algebra.
(** C49: the first entries. *)
Theorem C49_first : forall L Q (EL : EqD L) (EQ : EqD Q) (nsort : list L -> list L), sorts nsort -> forall w (n : nat), made nsort w ->
  exists w', first nsort w (Z.of_nat n) = Ok w' /\ (forall l q, binds w' l q <-> In (l, q) (firstn n (entries w))) /\ List.length (entries w') = Nat.min n (List.length (entries w)).
Proof.
  intros L Q EL EQ nsort Hs w n H. apply (made_good nsort Hs) in H. pose proof H as (Hw & Hp & E & _). assert (Hn : NoDup (w_labels w)) by (apply (Permutation_NoDup (Permutation_sym Hp)); exact Hw).
  unfold first, py_take. rewrite (proj2 (Z.leb_le 0 (Z.of_nat n))) by lia. rewrite Nat2Z.id. destruct (pick_ok nsort Hs w (firstn n (w_labels w)) H (firstn_incl n _) (NoDup_firstn n _ Hn)) as (w' & E' & Hg' & Hb & Hl). exists w'. split; [exact E'|]. split.
  - intros l q. rewrite Hb. unfold entries. rewrite combine_firstn. symmetry. apply (zip_items (w_data w)). now apply rmapM_firstn.
  - destruct (good_len w' Hg') as [H1 H2], (good_len w H) as [H3 H4]. unfold entries. rewrite !combine_length, H1, H2, Hl, firstn_length, H3, H4. lia.
Qed.
Print Assumptions C49_first.
(** C49: the last entries, for a positive number. *)
Theorem C49_last_partial : forall L Q (EL : EqD L) (EQ : EqD Q) (nsort : list L -> list L), sorts nsort -> forall w (n : nat), made nsort w -> n <> 0 ->
  exists w', last nsort w (Z.of_nat n) = Ok w' /\ (forall l q, binds w' l q <-> In (l, q) (skipn (List.length (entries w) - n) (entries w))) /\ List.length (entries w') = Nat.min n (List.length (entries w)).
Proof.
  intros L Q EL EQ nsort Hs w n H Hn0. apply (made_good nsort Hs) in H. pose proof H as (Hw & Hp & E & _). assert (Hn : NoDup (w_labels w)) by (apply (Permutation_NoDup (Permutation_sym Hp)); exact Hw).
  destruct (good_len w H) as [H3 H4]. assert (Hlen : List.length (entries w) = List.length (w_data w)) by (unfold entries; rewrite combine_length; lia).
  unfold last, py_from_end. rewrite (proj2 (Z.leb_gt 0 (- Z.of_nat n))) by lia. rewrite Nat2Z.id. destruct (pick_ok nsort Hs w (skipn (List.length (w_labels w) - n) (w_labels w)) H (skipn_incl _ _) (NoDup_skipn _ _ Hn)) as (w' & E' & Hg' & Hb & Hl). exists w'. split; [exact E'|]. split.
  - intros l q. rewrite Hb, Hlen, <- H3. unfold entries. rewrite skipn_combine. symmetry. apply (zip_items (w_data w)). now apply rmapM_skipn.
  - destruct (good_len w' Hg') as [H1 H2]. rewrite Hlen. unfold entries. rewrite combine_length, H1, H2, Hl, skipn_length, H3. lia.
Qed.
Print Assumptions C49_last_partial.
(** C49: random selections and shuffling, for all choices. *)
Theorem C49_random : forall L Q (EL : EqD L) (EQ : EqD Q) (nsort : list L -> list L), sorts nsort -> forall w choice (n : nat), made nsort w -> sorts choice ->
  (exists w', pick_random nsort choice w (Z.of_nat n) = Ok w' /\ (forall l q, binds w' l q -> binds w l q) /\ List.length (entries w') = Nat.min n (List.length (entries w))) /\
  (exists w', shuffle nsort choice w = Ok w' /\ Permutation (entries w') (entries w) /\ map fst (entries w') = choice (map fst (entries w))).
Proof.
  intros L Q EL EQ nsort Hs w choice n H Hc. apply (made_good nsort Hs) in H. pose proof H as (Hw & Hp & E & _). assert (Hn : NoDup (w_labels w)) by (apply (Permutation_NoDup (Permutation_sym Hp)); exact Hw).
  destruct (good_len w H) as [H3 H4]. assert (Hlen : List.length (entries w) = List.length (w_data w)) by (unfold entries; rewrite combine_length; lia). split.
  - unfold pick_random. destruct (sample_of choice (w_labels w) (Z.min (Z.of_nat n) (Z.of_nat (List.length (w_queries w))))) as [ls|e] eqn:Es.
    + destruct (sample_incl choice _ _ _ Hc Es) as (Hi & Hnd & Hls). destruct (pick_ok nsort Hs w ls H Hi (Hnd Hn)) as (w' & E' & Hg' & Hb & Hl). exists w'. cbn [rbind]. split; [exact E'|]. split; [intros l q Hlq; apply Hb in Hlq; unfold binds; now rewrite item_Ok|].
      destruct (good_len w' Hg') as [H1 H2]. rewrite Hlen. unfold entries. rewrite combine_length, H1, H2, Hl. lia.
    + unfold sample_of in Es. destruct (_ || _)%Z eqn:Eb in Es; [|discriminate]. apply orb_true_iff in Eb as [Eb|Eb]; apply Z.ltb_lt in Eb; lia.
  - destruct (shuffle_ok nsort Hs choice w H Hc) as (w' & E' & Hg' & Hd & Hpl). exists w'. split; [exact E'|]. destruct (good_agrees w H) as [N1 B1], (good_agrees w' Hg') as [N2 B2]. split.
    + apply NoDup_Permutation; [now apply NoDup_map_inv in N2|now apply NoDup_map_inv in N1|]. intros [l q]. rewrite B1, B2. unfold binds. now rewrite Hd.
    + destruct (good_len w' Hg') as [H1 H2]. unfold entries. rewrite !combine_fst by lia. unfold shuffle in E'. destruct (new nsort (w_data w)) as [v|]; [|discriminate]. cbn [rbind] in E'. unfold sample_of in E'. destruct (_ || _)%Z in E'; [discriminate|]. cbn [rbind] in E'. destruct (rmapM _ _) in E'; [|discriminate]. cbn in E'. injection E' as <-. cbn.
      rewrite Nat2Z.id, firstn_all2; [reflexivity|]. rewrite (Permutation_length (Hc _)). lia.
Qed.
Print Assumptions C49_random.
(** C49: relabelling with distinct labels, and transforming the queries. *)
Theorem C49_relabel_partial : forall L M Q R (EL : EqD L) (EM : EqD M) (EQ : EqD Q) (ER : EqD R) (nsort : list L -> list L) (nsort' : list M -> list M), sorts nsort -> sorts nsort' -> forall w f (g : Q -> R), made nsort w ->
  (exists w', wmap nsort w g = Ok w' /\ forall l r, binds w' l r <-> exists q, binds w l q /\ r = g q) /\
  ((forall l q l' q', binds w l q -> binds w l' q' -> f l q = f l' q' -> l = l') -> exists w', relabel nsort' w f = Ok w' /\ forall m q, binds w' m q <-> exists l, binds w l q /\ m = f l q).
Proof.
  intros L M Q R EL EM EQ ER nsort nsort' Hs Hs' w f g H. apply (made_good nsort Hs) in H as (Hw & _). split.
  - unfold wmap. destruct (new_ok nsort Hs (dict_of (map (fun e => (fst e, g (snd e))) (w_data w)))) as (w' & E & Ed & _). exists w'. split; [exact E|]. intros l r. unfold binds at 1. rewrite item_Ok, Ed. rewrite dict_of_spec, (lastval_wf _ _ (dwf_dict_of _)), dict_of_spec.
    rewrite lastval_unique by (rewrite map_map; exact Hw). rewrite in_map_iff. unfold binds. setoid_rewrite item_Ok. setoid_rewrite (dget_iff (w_data w) _ _ Hw). split; [intros ([l' q'] & [= <- <-] & Hin); eauto|intros (q & Hin & ->); exists (l, q); auto].
  - intros Hinj. unfold relabel. destruct (new_ok nsort' Hs' (dict_of (map (fun e => (f (fst e) (snd e), snd e)) (w_data w)))) as (w' & E & Ed & _). exists w'. split; [exact E|]. intros m q. unfold binds at 1. rewrite item_Ok, Ed. rewrite dict_of_spec, (lastval_wf _ _ (dwf_dict_of _)), dict_of_spec.
    assert (Hinj' : forall l q l' q', In (l, q) (w_data w) -> In (l', q') (w_data w) -> f l q = f l' q' -> l = l') by (intros l1 q1 l2 q2 H1 H2; apply Hinj; apply item_Ok; now apply dget_iff).
    rewrite lastval_unique.
    + rewrite in_map_iff. unfold binds. setoid_rewrite item_Ok. setoid_rewrite (dget_iff (w_data w) _ _ Hw). split; [intros ([l' q'] & [= <- <-] & Hin); eauto|intros (l & Hin & ->); exists (l, q); auto].
    + rewrite map_map. cbn. clear - Hw Hinj'. unfold dwf, dkeys in Hw. induction (w_data w) as [|[l q] d IH]; cbn in *; [constructor|]. inversion Hw as [|? ? Hn Hd]; subst. constructor; [|apply IH; [exact Hd|intros; eapply Hinj'; eauto]].
      intros Hin. apply in_map_iff in Hin as ([l' q'] & Ef & Hin). cbn in Ef. apply Hn. rewrite <- (Hinj' l' q' l q (or_intror Hin) (or_introl eq_refl) Ef). apply in_map_iff. now exists (l', q').
Qed.
Print Assumptions C49_relabel_partial.

(** A workload of three queries; natural sorting is the identity here. *)
Definition three : dict nat nat := [(1, 10); (2, 20); (3, 10)].
Definition as_is {A} (l : list A) : list A := l.
Lemma as_is_sorts {A} : sorts (@as_is A).
Proof. intros l. reflexivity. Qed.
Example C49_case : exists w, new as_is three = Ok w /\ made as_is w /\ entries w = [(1, 10); (2, 20); (3, 10)] /\ label_of w 10 = Ok 3 /\ label_of w 99 = Raise KeyError /\
  rmap entries (last as_is w 2) = Ok [(2, 20); (3, 10)] /\ rmap entries (shuffle as_is (@rev nat) w) = Ok [(3, 10); (2, 20); (1, 10)] /\ rmap entries (pick_random as_is (@rev nat) w 5) = Ok [(3, 10); (2, 20); (1, 10)].
Proof. eexists. split; [reflexivity|]. split; [apply (m_new as_is three); reflexivity|]. repeat split; reflexivity. Qed.
(** C49 fails: the last zero entries are all entries. *)
Theorem C49_last_refuted : rbind (new as_is three) (fun w => rmap entries (last as_is w 0)) = Ok [(1, 10); (2, 20); (3, 10)].
Proof. reflexivity. Qed.
Print Assumptions C49_last_refuted.
(** C49 fails: item assignment and deletion do not reach entries(), label_of() and the selections based on them. *)
Theorem C49_mutation_refuted :
  (exists w, rbind (new as_is three) (fun w => set_item w 2 99) = Ok w /\ binds w 2 99 /\ In (2, 20) (entries w) /\ label_of w 20 = Ok 2 /\ label_of w 99 = Raise KeyError) /\
  (exists w, rbind (new as_is three) (fun w => del_item w 2) = Ok w /\ item (w_data w) 2 = Raise KeyError /\ In (2, 20) (entries w) /\ first as_is w 2 = Raise KeyError) /\
  (exists w, rbind (new as_is three) (fun w => set_item w 4 40) = Ok w /\ binds w 4 40 /\ ~ In 4 (map fst (entries w)) /\ shuffle as_is as_is w = Raise ValueError).
Proof.
  repeat split; eexists; repeat (split; [reflexivity|]).
  - split; [cbn; tauto|]. split; reflexivity.
  - split; [cbn; tauto|]. reflexivity.
  - split; [cbn; intuition discriminate|]. reflexivity.
Qed.
Print Assumptions C49_mutation_refuted.
(** C49 fails: queries that get the same new label are lost. *)
Theorem C49_relabel_refuted : rbind (new as_is three) (fun w => rmap entries (relabel as_is w (fun _ q => q))) = Ok [(10, 10); (20, 20)].
Proof. reflexivity. Qed.
Print Assumptions C49_relabel_refuted.

(** C50: with on_error "raise", reading succeeds if and only if all files can be parsed. *)
Theorem C50_raise : forall Q (EQ : EqD Q) nsort, sorts nsort -> forall prefix (files : list (string * option Q)),
  (forall s, ~ In (s, None) files) <-> exists w, read PRaise nsort prefix files = Ok w.
Proof.
  intros Q EQ nsort Hs prefix files. unfold read. destruct (forallb parses files) eqn:Ep.
  - split.
    + intros _. pose proof (read_files_ok PRaise prefix files None [] Ep) as Hok. destruct (read_files PRaise prefix files None []) as [d|]; [|discriminate]. cbn. destruct (new_ok nsort Hs d) as (w & -> & _). eauto.
    + intros _ s Hin. rewrite forallb_forall in Ep. now apply Ep in Hin.
  - split.
    + intros H. exfalso. assert (Hp : forallb parses files = true); [|congruence]. apply forallb_forall. intros [s [q|]] Hin; [reflexivity|]. now destruct (H s).
    + intros [w Hw]. now rewrite (read_files_raise prefix files None [] Ep) in Hw.
Qed.
Print Assumptions C50_raise.
(** C50: if all files (with distinct names) can be parsed, the labels are bound to the queries of their own files, and nothing else. *)
Theorem C50_read_partial : forall Q (EQ : EqD Q) pol nsort, sorts nsort -> forall prefix (files : list (string * option Q)), NoDup (map fst files) -> (forall s, ~ In (s, None) files) ->
  exists w, read pol nsort prefix files = Ok w /\ forall l q, binds w l q <-> exists s, In (s, Some q) files /\ l = (prefix ++ s)%string.
Proof.
  intros Q EQ pol nsort Hs prefix files Hn Hp. assert (Ep : forallb parses files = true) by (apply forallb_forall; intros [s [q|]] Hin; [reflexivity|now destruct (Hp s)]).
  assert (Hw : exists w, read pol nsort prefix files = Ok w).
  { unfold read. pose proof (read_files_ok pol prefix files None [] Ep) as Hok. destruct (read_files pol prefix files None []) as [d|]; [|discriminate]. cbn. destruct (new_ok nsort Hs d) as (w & -> & _). eauto. }
  destruct Hw as [w Hw]. exists w. split; [exact Hw|]. intros l q. rewrite (read_binds pol nsort prefix files w Hs Hn Hw). setoid_rewrite (effective_all files None _ _ Ep). reflexivity.
Qed.
Print Assumptions C50_read_partial.
(** C50: for every error policy and all other files, files that can be parsed are bound to their own queries (if anything is returned
    at all). *)
Theorem C50_parsed_partial : forall Q (EQ : EqD Q) pol nsort, sorts nsort -> forall prefix (files : list (string * option Q)) w, NoDup (map fst files) -> read pol nsort prefix files = Ok w ->
  forall s q, In (s, Some q) files -> binds w (prefix ++ s)%string q.
Proof. intros Q EQ pol nsort Hs prefix files w Hn H s q Hin. apply (read_binds pol nsort prefix files w Hs Hn H). exists s. split; [now apply effective_parsed|reflexivity]. Qed.
Print Assumptions C50_parsed_partial.
Example C50_case : rmap entries (read PWarn as_is "job-" [("1a", Some 7); ("1b", Some 8)]%string) = Ok [("job-1a", 7); ("job-1b", 8)]%string.
Proof. reflexivity. Qed.
(** C50 fails for "warn" and "ignore": a file that cannot be parsed is bound to the query of the file before it; if there is none,
    reading fails. *)
Theorem C50_stale_refuted : forall pol, pol = PWarn \/ pol = PIgnore ->
  rmap entries (read pol as_is "" [("1a", Some 7); ("1b", None); ("1c", Some 9)]%string) = Ok [("1a", 7); ("1b", 7); ("1c", 9)]%string /\
  rmap entries (read pol as_is "" [("1b", None); ("1c", Some 9)]%string) = Raise UnboundLocalError.
Proof. intros pol [->| ->]; split; reflexivity. Qed.
Print Assumptions C50_stale_refuted.
(** C50 fails for files of the same name in different directories (pattern **/*.sql). *)
Theorem C50_names_refuted : rmap entries (read PRaise as_is "" [("1a", Some 7); ("1a", Some 8)]%string) = Ok [("1a", 8)]%string.
Proof. reflexivity. Qed.
Print Assumptions C50_names_refuted.

(** C70: reading directories recursively; files in the root directory, without a prefix. *)
Theorem C70_root_partial : forall Q (EQ : EqD Q) pol nsort, sorts nsort -> forall stem (files : list (string * option Q)), NoDup (map fst files) -> (forall s, ~ In (s, None) files) -> forall recurse,
  exists w, read_workload pol nsort recurse "" (Dir stem files []) = Ok w /\ forall l q, binds w l q <-> In (l, Some q) (labelled "" (Dir stem files [])).
Proof.
  intros Q EQ pol nsort Hs stem files Hn Hp recurse. destruct (C50_read_partial Q EQ pol nsort Hs "" files Hn Hp) as (w & Hw & Hb). exists w. split.
  - unfold read in Hw. unfold read_workload. destruct recurse; cbn [read_tree read_subdirs]; [|exact Hw]. destruct (read_files pol "" files None []); [exact Hw|discriminate].
  - intros l q. rewrite Hb. cbn. rewrite app_nil_r, in_map_iff. split; [intros (s & Hin & ->); exists (s, Some q); auto|]. intros ([s o] & [= <- ->] & Hin). eauto.
Qed.
Print Assumptions C70_root_partial.
(** C70: if all names in the whole tree are distinct, all queries are read, but under their bare names. *)
Theorem C70_tree_partial : forall Q (EQ : EqD Q) pol nsort, sorts nsort -> forall prefix (d : dir Q), NoDup (map fst (unlabelled d)) -> (forall s, ~ In (s, None) (unlabelled d)) ->
  exists w, read_workload pol nsort true prefix d = Ok w /\ forall l q, binds w l q <-> In (l, Some q) (unlabelled d).
Proof.
  intros Q EQ pol nsort Hs prefix d Hn Hp. assert (Ep : forallb parses (unlabelled d) = true) by (apply forallb_forall; intros [s [q|]] Hin; [reflexivity|now destruct (Hp s)]).
  destruct (read_tree_spec pol d prefix Ep) as (r & E & Hwf & Hr). destruct (new_ok nsort Hs r) as (w & Ew & Ed & _). exists w. unfold read_workload. rewrite E. split; [exact Ew|]. intros l q. unfold binds. rewrite item_Ok, Ed, dict_of_spec, lastval_wf, Hr by exact Hwf. rewrite <- somes_In. apply lastval_unique.
  clear - Hn. induction (unlabelled d) as [|[s [q|]] l IH]; cbn in *; [constructor| |]; inversion Hn as [|? ? H1 H2]; subst; [|auto]. constructor; [|auto]. intros Hin. apply H1. apply in_map_iff in Hin as ([s' q'] & E & Hin). cbn in E. subst. apply (proj1 (somes_In _ _ _)) in Hin. apply in_map_iff. now exists (s, Some q').
Qed.
Print Assumptions C70_tree_partial.
Definition tree : dir nat := Dir "root" [] [Dir "easy" [("1", Some 7)]%string []; Dir "hard" [("1", Some 8); ("2", Some 9)]%string []].
(** C70 fails: the names of subdirectories (and a given prefix) do not show up in the labels, and queries are lost. *)
Theorem C70_tree_refuted : labelled "p" tree = [("p/easy/1", Some 7); ("p/hard/1", Some 8); ("p/hard/2", Some 9)]%string /\
  rmap entries (read_workload PRaise as_is true "p" tree) = Ok [("1", 8); ("2", 9)]%string.
Proof. split; reflexivity. Qed.
Print Assumptions C70_tree_refuted.

(** C71: wrapping distinct queries numbers them from 1. *)
Theorem C71_wrap_partial : forall Q (EQ : EqD Q) nsort, sorts nsort -> forall queries : list Q, NoDup queries ->
  exists w, generate_workload nsort queries [] = Ok w /\ forall i q, binds w i q <-> 1 <= i /\ nth_error queries (i - 1) = Some q.
Proof.
  intros Q EQ nsort Hs queries Hn. unfold generate_workload. set (en := enumerate_from 1 queries).
  assert (Hen : forall l n q i, In (q, i) (enumerate_from n l) <-> n <= i /\ nth_error l (i - n) = Some (q : Q)).
  { induction l as [|x l IH]; intros n q i; cbn; [split; [easy|]; intros [_ H]; now destruct (i - n)|]. rewrite IH. split.
    - intros [[= -> ->]|[H1 H2]]; [split; [lia|]; now rewrite Nat.sub_diag|]. split; [lia|]. replace (i - n) with (S (i - S n)) by lia. exact H2.
    - intros [H1 H2]. destruct (Nat.eq_dec i n) as [->|Hne]; [rewrite Nat.sub_diag in H2; injection H2 as ->; now left|]. right. split; [lia|]. replace (i - n) with (S (i - S n)) in H2 by lia. exact H2. }
  assert (Hk : forall l n, map fst (enumerate_from n l) = (l : list Q)) by (induction l as [|x l IH]; intros n; cbn; [reflexivity|]; now rewrite IH).
  assert (Hv : forall l n i, In i (map snd (enumerate_from n (l : list Q))) -> n <= i) by (induction l as [|x l IH]; intros n i; cbn; [easy|]; intros [<-|H]; [lia|]; apply IH in H; lia).
  assert (Hvn : forall l n, NoDup (map snd (enumerate_from n (l : list Q)))) by (induction l as [|x l IH]; intros n; cbn; [constructor|]; constructor; [|apply IH]; intros H; apply Hv in H; lia).
  assert (Hwf : dwf en) by (unfold dwf, dkeys, en; rewrite Hk; exact Hn).
  assert (Hd : forall q i, In (q, i) (dict_of en) <-> In (q, i) en) by (intros q i; rewrite <- (dget_iff _ q i (dwf_dict_of en)), dict_of_spec; now apply lastval_unique).
  destruct (new_ok nsort Hs (invert (dict_of en))) as (w & E & Ed & _). exists w. split; [exact E|]. intros i q. unfold binds. rewrite item_Ok, Ed, dict_of_spec. unfold invert at 1. rewrite (lastval_wf _ i (dwf_dict_of _)). fold (invert (dict_of en)). rewrite invert_spec.
  rewrite lastval_unique.
  - rewrite in_map_iff. rewrite <- Hen. fold en. rewrite <- Hd. split; [intros ([q' i'] & [= -> ->] & Hin); exact Hin|]. intros Hin. exists (q, i). auto.
  - rewrite map_map. rewrite (map_ext _ snd) by (intros [a b]; reflexivity). apply (Permutation_NoDup (l := map snd en)); [|apply Hvn]. apply Permutation_map. apply NoDup_Permutation.
    + apply (NoDup_map_inv fst). exact Hwf.
    + apply (NoDup_map_inv fst). apply (dwf_dict_of en).
    + intros [q' i']. symmetry. apply Hd.
Qed.
Print Assumptions C71_wrap_partial.
Example C71_case : rmap entries (generate_workload as_is [70; 80; 90] []) = Ok [(1, 70); (2, 80); (3, 90)].
Proof. reflexivity. Qed.
(** C71 fails for workloads that contain a query twice: it is only kept once. *)
Theorem C71_wrap_refuted : rmap entries (generate_workload as_is [70; 80; 70] []) = Ok [(3, 70); (2, 80)].
Proof. reflexivity. Qed.
Print Assumptions C71_wrap_refuted.
