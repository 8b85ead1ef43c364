From Coq Require Import List Bool Arith ZArith String Ascii Permutation Lia.
From Verif Require Import PyBase FSet Hint_model Card_model QPlan_model JT_model Lim_model PGHint_model PGHint_spec Duck_model Duck_spec.
Import ListNotations.
Open Scope list_scope.
Open Scope nat_scope.

(** ** Grams *)
Lemma solid_squeeze t : solid t = squeeze t.
Proof. induction t as [|c t IH]; cbn; [reflexivity|]. unfold squeeze in *. cbn. destruct (space c); cbn; congruence. Qed.
Lemma grams_of_in a b c : forall t, In (a, b, c) (grams_of t) <-> exists l r, t = l ++ [a; b; c] ++ r.
Proof.
  induction t as [|x t IH]; [cbn; split; [tauto|]; intros (l & r & E); destruct l; discriminate|].
  assert (U : grams_of (x :: t) = match t with y :: z :: _ => (x, y, z) :: grams_of t | _ => [] end) by reflexivity. rewrite U. clear U. split.
  - destruct t as [|y [|z t]]; cbn [In]; try tauto. intros [[= -> -> ->]|H].
    + exists [], t. reflexivity.
    + apply IH in H as (l & r & E). exists (x :: l), r. cbn. now rewrite E.
  - intros (l & r & E). destruct l as [|w l].
    + cbn in E. injection E as -> ->. now left.
    + cbn in E. injection E as -> E. assert (H : In (a, b, c) (grams_of t)) by (apply IH; exists l, r; exact E).
      destruct t as [|y [|z t]]; [destruct l; discriminate|destruct l as [|? [|]]; discriminate|now right].
Qed.
Lemma trigrams_spec t g : In g (trigrams t) <-> has_gram t g.
Proof.
  destruct g as [[a b] c]. unfold trigrams, has_gram, padded, blank. rewrite grams_of_in. cbn [app]. split.
  - intros (l & r & E). exists l, a, b, c, r. auto.
  - intros (l & a' & b' & c' & r & [= -> -> ->] & E). exists l, r. exact E.
Qed.
Lemma trigrams_pos t : trigrams t <> [].
Proof. unfold trigrams. cbn [app]. destruct (map lower t); discriminate. Qed.
Lemma jaccard_common t u n d : common t u n d <-> jaccard (trigrams t) (trigrams u) = (n, d).
Proof.
  assert (HI : NoDup (filter (fun g => mem g (dedup (trigrams u))) (dedup (trigrams t)))) by (apply NoDup_filter, dedup_NoDup).
  assert (HU : NoDup (dedup (trigrams t ++ trigrams u))) by apply dedup_NoDup.
  assert (SI : forall g, In g (filter (fun g => mem g (dedup (trigrams u))) (dedup (trigrams t))) <-> has_gram t g /\ has_gram u g).
  { intros g. rewrite filter_In, mem_In, !dedup_In, !trigrams_spec. tauto. }
  assert (SU : forall g, In g (dedup (trigrams t ++ trigrams u)) <-> has_gram t g \/ has_gram u g).
  { intros g. rewrite dedup_In, in_app_iff, !trigrams_spec. tauto. }
  unfold jaccard. split.
  - intros (both & all & N1 & N2 & S1 & S2 & -> & ->). f_equal; apply Permutation_length, NoDup_Permutation; auto; intros g; [rewrite SI, S1|rewrite SU, S2]; tauto.
  - intros [= <- <-]. do 2 eexists. split; [exact HI|]. split; [exact HU|]. repeat split; auto; apply SI || apply SU; tauto.
Qed.
Lemma jaccard_den t u : 0 < snd (jaccard (trigrams t) (trigrams u)).
Proof.
  unfold jaccard. cbn [snd]. pose proof (trigrams_pos t) as Hp. destruct (trigrams t) as [|g l]; [contradiction|].
  assert (Hin : In g (dedup ((g :: l) ++ trigrams u))) by (apply dedup_In; now left). destruct (dedup ((g :: l) ++ trigrams u)); [destruct Hin|cbn [List.length]; lia].
Qed.

(** ** Sorting scores *)
Definition pos (x : nat * nat) : Prop := 0 < snd x.
Lemma insert_perm x l : Permutation (insert_desc x l) (x :: l).
Proof. induction l as [|y l IH]; cbn; [constructor; constructor|]. destruct (ratio_le y x); [reflexivity|]. rewrite IH. apply perm_swap. Qed.
Lemma sort_perm l : Permutation (sort_desc l) l.
Proof. induction l as [|x l IH]; cbn; [constructor|]. rewrite insert_perm. now constructor. Qed.
Lemma ratio_le_iff x y : ratio_le x y = true <-> fst x * snd y <= fst y * snd x.
Proof. unfold ratio_le. apply Nat.leb_le. Qed.
Lemma ratio_trans x y z : pos y -> ratio_le x y = true -> ratio_le y z = true -> ratio_le x z = true.
Proof.
  unfold pos. rewrite !ratio_le_iff. destruct x as [a b], y as [c d], z as [e f]; cbn. intros P H1 H2.
  assert (a * d * f <= c * b * f) by nia. assert (c * f * b <= e * d * b) by nia. assert (d * (a * f) <= d * (e * b)) by nia.
  apply (proj2 (Nat.mul_le_mono_pos_l _ _ d P)). exact H3.
Qed.
Lemma ratio_total x y : ratio_le x y = false -> ratio_le y x = true.
Proof. unfold ratio_le. rewrite Nat.leb_gt, Nat.leb_le. lia. Qed.
Fixpoint sorted (l : list (nat * nat)) : Prop := match l with [] => True | x :: r => (forall y, In y r -> ratio_le y x = true) /\ sorted r end.
Lemma insert_sorted x l : pos x -> Forall pos l -> sorted l -> sorted (insert_desc x l).
Proof.
  intros Px. induction l as [|y l IH]; cbn [insert_desc sorted]; intros F H; [split; [intros ? []|exact I]|]. inversion F as [|? ? Py Fl]; subst. destruct H as [Hy Hl].
  destruct (ratio_le y x) eqn:E; cbn [sorted].
  - split; [|split; assumption]. intros z [<-|Hz]; [assumption|]. eapply ratio_trans; [exact Py|apply Hy; exact Hz|exact E].
  - split; [|now apply IH]. intros z Hz. apply (Permutation_in _ (insert_perm x l)) in Hz as [<-|Hz]; [now apply ratio_total|auto].
Qed.
Lemma sort_sorted l : Forall pos l -> sorted (sort_desc l).
Proof.
  induction l as [|x l IH]; cbn; intros F; [exact I|]. inversion F; subst. apply insert_sorted; auto. rewrite Forall_forall in *. intros y Hy.
  apply (Permutation_in _ (sort_perm l)) in Hy. auto.
Qed.
Lemma argmax_spec {K} (l : list (K * (nat * nat))) : forall k v, pos v -> (forall e, In e l -> pos (snd e)) ->
  exists w, In (argmax k v l, w) ((k, v) :: l) /\ (forall e, In e ((k, v) :: l) -> ratio_le (snd e) w = true).
Proof.
  induction l as [|[k' v'] l IH]; cbn [argmax]; intros k v Pv F.
  - exists v. split; [now left|]. intros e [<-|[]]. cbn. apply ratio_le_iff. lia.
  - assert (Pv' : pos v') by (apply (F (k', v')); now left). assert (Fl : forall e, In e l -> pos (snd e)) by (intros; apply F; now right).
    destruct (ratio_le v' v) eqn:E.
    + destruct (IH k v Pv Fl) as (w & Hin & Hm). exists w. split; [destruct Hin as [Hin|Hin]; [now left|right; now right]|].
      intros e [<-|[<-|He]]; [apply Hm; now left| |apply Hm; now right]. cbn. eapply ratio_trans; [exact Pv|exact E|]. apply (Hm (k, v)). now left.
    + destruct (IH k' v' Pv' Fl) as (w & Hin & Hm). exists w. split; [now right|].
      intros e [<-|He]; [|now apply Hm]. cbn. eapply ratio_trans; [exact Pv'|apply ratio_total; exact E|]. apply (Hm (k', v')). now left.
Qed.

(** ** Binding *)
Section Bind.
  Context (fullname : nat -> nat) (filt : nat -> option text).
  Notation bind := (bind_node fullname filt).
  Notation cands tabs rel := (filter (fun t => fullname t =? rel) tabs).
  Definition score (d : rdata) (t : nat) : nat * nat := jaccard (trigrams (squeeze (r_filter d))) (trigrams (filter_text filt t)).
  Lemma score_pos d t : pos (score d t). Proof. apply jaccard_den. Qed.
  Lemma bind_many tabs d rel t0 t1 rest : r_table d = Some rel -> cands tabs rel = t0 :: t1 :: rest ->
    exists s0 s1 ss, sort_desc (map (score d) (t0 :: t1 :: rest)) = s0 :: s1 :: ss
      /\ bind tabs d = if (99 * fst s0 * snd s1 <=? 100 * fst s1 * snd s0) then Ok None else Ok (Some (argmax t0 (score d t0) (map (fun t => (t, score d t)) (t1 :: rest)))).
  Proof.
    intros E Ec. unfold bind_node. rewrite E, Ec. cbv zeta.
    change (sort_desc (map _ (t0 :: t1 :: rest))) with (sort_desc (map (score d) (t0 :: t1 :: rest))).
    destruct (sort_desc (map (score d) (t0 :: t1 :: rest))) as [|s0 [|s1 ss]] eqn:Es.
    - pose proof (Permutation_length (sort_perm (map (score d) (t0 :: t1 :: rest)))) as L. rewrite Es in L. discriminate.
    - pose proof (Permutation_length (sort_perm (map (score d) (t0 :: t1 :: rest)))) as L. rewrite Es in L. discriminate.
    - exists s0, s1, ss. split; reflexivity.
  Qed.
  Lemma bind_ok tabs d : exists o, bind tabs d = Ok o.
  Proof.
    destruct (r_table d) as [rel|] eqn:E; [|unfold bind_node; rewrite E; eauto].
    destruct (cands tabs rel) as [|t0 [|t1 rest]] eqn:Ec; [unfold bind_node; rewrite E, Ec; eauto|unfold bind_node; rewrite E, Ec; eauto|].
    destruct (bind_many tabs d rel t0 t1 rest E Ec) as (s0 & s1 & ss & _ & ->). destruct (_ <=? _); eauto.
  Qed.
  Lemma argmax_cand d t0 rest : In (argmax t0 (score d t0) (map (fun t => (t, score d t)) rest)) (t0 :: rest).
  Proof.
    destruct (argmax_spec (map (fun t => (t, score d t)) rest) t0 (score d t0) (score_pos d t0)) as (w & Hin & _).
    { intros e He. apply in_map_iff in He as (t & <- & _). apply score_pos. }
    destruct Hin as [Hin|Hin]; [left; congruence|]. right. apply in_map_iff in Hin as (t & [= <- _] & Ht). exact Ht.
  Qed.
  Lemma bind_sound tabs d t : bind tabs d = Ok (Some t) -> In t tabs /\ r_table d = Some (fullname t).
  Proof.
    intros H. destruct (r_table d) as [rel|] eqn:E; [|unfold bind_node in H; rewrite E in H; discriminate].
    assert (G : In t (cands tabs rel) -> In t tabs /\ Some rel = Some (fullname t)).
    { rewrite filter_In, Nat.eqb_eq. intros [? ->]. auto. }
    apply G. clear G. destruct (cands tabs rel) as [|t0 [|t1 rest]] eqn:Ec.
    - unfold bind_node in H; rewrite E, Ec in H. discriminate.
    - unfold bind_node in H; rewrite E, Ec in H. injection H as ->. now left.
    - destruct (bind_many tabs d rel t0 t1 rest E Ec) as (s0 & s1 & ss & _ & Hb). rewrite Hb in H. destruct (_ <=? _); [discriminate|]. assert (Et : t = argmax t0 (score d t0) (map (fun t => (t, score d t)) (t1 :: rest))) by congruence. rewrite Et. apply (argmax_cand d t0 (t1 :: rest)).
  Qed.
  Lemma bind_unique tabs d t : NoDup tabs -> r_table d = Some (fullname t) -> In t tabs -> (forall u, In u tabs -> fullname u = fullname t -> u = t) -> bind tabs d = Ok (Some t).
  Proof.
    intros N E Hin U. unfold bind_node. rewrite E. pose proof (NoDup_filter (fun u => fullname u =? fullname t) N) as Nf.
    assert (Ht : In t (cands tabs (fullname t))) by (rewrite filter_In, Nat.eqb_refl; auto).
    assert (Ua : forall u, In u (cands tabs (fullname t)) -> u = t) by (intros u; rewrite filter_In, Nat.eqb_eq; intros [? ?]; auto).
    destruct (cands tabs (fullname t)) as [|t0 [|t1 rest]]; [destruct Ht|destruct Ht as [->|[]]; reflexivity|].
    exfalso. pose proof (Ua t0 (or_introl eq_refl)). pose proof (Ua t1 (or_intror (or_introl eq_refl))). subst. inversion Nf as [|? ? N1 _]; subst. apply N1. now left.
  Qed.
  Lemma better_iff d t u : clearly_better filt d t u <-> 100 * (fst (score d u) * snd (score d t)) < 99 * (fst (score d t) * snd (score d u)).
  Proof.
    unfold clearly_better, filter_string. rewrite !solid_squeeze. split.
    - intros H. apply H; apply jaccard_common; apply surjective_pairing.
    - intros H n m n' m' H1 H2. apply jaccard_common in H1, H2. unfold score, filter_text, none_text in H. rewrite H1, H2 in H. exact H.
  Qed.
  Lemma cancel_cand d t l r s0 ss : Permutation (map (score d) (l ++ t :: r)) (s0 :: ss) -> score d t = s0 -> Permutation (map (score d) (l ++ r)) ss.
  Proof.
    intros P <-. apply Permutation_cons_inv with (a := score d t). rewrite <- P. rewrite !map_app. cbn. apply Permutation_middle.
  Qed.
  (** The choice among several candidates. *)
  Lemma bind_choice tabs d rel t : NoDup tabs -> r_table d = Some rel -> 2 <= List.length (cands tabs rel) ->
    (bind tabs d = Ok (Some t) <-> In t (cands tabs rel) /\ forall u, In u (cands tabs rel) -> u <> t -> clearly_better filt d t u).
  Proof.
    intros N E L. pose proof (NoDup_filter (fun t => fullname t =? rel) N) as Nf.
    destruct (cands tabs rel) as [|t0 [|t1 rest]] eqn:Ec; cbn in L; try lia.
    destruct (bind_many tabs d rel t0 t1 rest E Ec) as (s0 & s1 & ss & Es & Hb).
    set (cs := t0 :: t1 :: rest) in *.
    assert (Hpos : Forall pos (map (score d) cs)) by (apply Forall_forall; intros x Hx; apply in_map_iff in Hx as (u & <- & _); apply score_pos).
    pose proof (sort_sorted _ Hpos) as So. pose proof (sort_perm (map (score d) cs)) as Pm. rewrite Es in So, Pm. destruct So as [M0 [M1 _]].
    assert (P0 : pos s0) by (rewrite Forall_forall in Hpos; apply Hpos; eapply Permutation_in; [exact Pm|now left]).
    assert (P1 : pos s1) by (rewrite Forall_forall in Hpos; apply Hpos; eapply Permutation_in; [exact Pm|right; now left]).
    assert (Max : forall u, In u cs -> ratio_le (score d u) s0 = true).
    { intros u Hu. apply (in_map (score d)) in Hu. apply (Permutation_in _ (Permutation_sym Pm)) in Hu as [<-|Hu]; [apply ratio_le_iff; lia|auto]. }
    (* the result of argmax *)
    set (b := argmax t0 (score d t0) (map (fun t => (t, score d t)) (t1 :: rest))) in *.
    assert (Hbest : In b cs /\ forall u, In u cs -> ratio_le (score d u) (score d b) = true).
    { destruct (argmax_spec (map (fun t => (t, score d t)) (t1 :: rest)) t0 (score d t0) (score_pos d t0)) as (w & Hin & Hm).
      { intros e He. apply in_map_iff in He as (u & <- & _). apply score_pos. }
      assert (Hall : forall e, In e ((t0, score d t0) :: map (fun t => (t, score d t)) (t1 :: rest)) <-> exists u, In u cs /\ e = (u, score d u)).
      { intros e. change ((t0, score d t0) :: map (fun t => (t, score d t)) (t1 :: rest)) with (map (fun t => (t, score d t)) cs). rewrite in_map_iff. split; intros (u & H1 & H2); exists u; auto. }
      fold b in Hin. apply Hall in Hin as (u & Hu & [= <- ->]). split; [exact Hu|]. intros v Hv. apply (Hm (v, score d v)). apply Hall. eauto. }
    destruct Hbest as [Hb_in Hb_max].
    (* candidates apart from the one with the best score are at most s1 *)
    assert (Rest : forall u v, In u cs -> In v cs -> v <> u -> score d u = s0 -> ratio_le (score d v) s1 = true).
    { intros u v Hu Hv Hne Eu. destruct (in_split _ _ Hu) as (l & r & El). rewrite El in Pm. pose proof (cancel_cand d u l r s0 (s1 :: ss) (Permutation_sym Pm) Eu) as P.
      assert (Hv' : In v (l ++ r)) by (rewrite El in Hv; apply in_app_iff in Hv as [?|[?|?]]; [apply in_app_iff; auto|congruence|apply in_app_iff; auto]).
      apply (in_map (score d)) in Hv'. apply (Permutation_in _ P) in Hv' as [<-|Hv']; [apply ratio_le_iff; lia|auto]. }
    rewrite Hb. split.
    - destruct (Nat.leb_spec (99 * fst s0 * snd s1) (100 * fst s1 * snd s0)) as [|Hlt]; [discriminate|]. intros [= <-]. split; [exact Hb_in|].
      (* the score of b is s0 *)
      assert (Eb : score d b = s0).
      { pose proof (in_map (score d) _ _ Hb_in) as Hin. apply (Permutation_in _ (Permutation_sym Pm)) in Hin as [->|Hin]; [reflexivity|]. exfalso.
        assert (Hs1 : ratio_le (score d b) s1 = true) by (destruct Hin as [<-|Hin]; [apply ratio_le_iff; lia|auto]).
        assert (In s0 (map (score d) cs)) as Hs0 by (eapply Permutation_in; [exact Pm|now left]). apply in_map_iff in Hs0 as (w & Ew & Hw).
        pose proof (Hb_max w Hw) as Hwm. rewrite Ew in Hwm. pose proof (ratio_trans _ _ _ (score_pos d b) Hwm Hs1) as Hle. apply ratio_le_iff in Hle. nia. }
      intros u Hu Hne. apply better_iff. rewrite Eb. pose proof (Rest b u Hb_in Hu Hne Eb) as Hr. apply ratio_le_iff in Hr.
      pose proof (score_pos d u) as Pu. unfold pos in *. destruct (score d u) as [a c], s0 as [e f], s1 as [g h]; cbn [fst snd] in *.
      assert (100 * (a * f) * h <= 100 * (g * c) * f) by nia. assert (100 * g * f * c < 99 * e * h * c) by nia.
      assert (h * (100 * (a * f)) < h * (99 * (e * c))) by nia. nia.
    - intros [Ht Hbet]. assert (Strict : forall u, In u cs -> u <> t -> ratio_le (score d t) (score d u) = false).
      { intros u Hu Hne. specialize (Hbet u Hu Hne). apply better_iff in Hbet. unfold ratio_le. apply Nat.leb_gt. nia. }
      assert (Ebt : b = t). { destruct (Nat.eq_dec b t) as [|Hne]; [assumption|]. pose proof (Hb_max t Ht) as X. rewrite (Strict b Hb_in Hne) in X. discriminate. }
      assert (Et : score d t = s0).
      { assert (In s0 (map (score d) cs)) as Hs0 by (eapply Permutation_in; [exact Pm|now left]). apply in_map_iff in Hs0 as (w & Ew & Hw).
        destruct (Nat.eq_dec w t) as [->|Hne]; [assumption|]. pose proof (Max t Ht) as X. rewrite <- Ew in X. rewrite (Strict w Hw Hne) in X. discriminate. }
      destruct (in_split _ _ Ht) as (l & r & El). pose proof Pm as Pm2. rewrite El in Pm2. pose proof (cancel_cand d t l r s0 (s1 :: ss) (Permutation_sym Pm2) Et) as P.
      assert (In s1 (map (score d) (l ++ r))) as Hs1 by (eapply Permutation_in; [symmetry; exact P|now left]). apply in_map_iff in Hs1 as (u & Eu & Hu).
      assert (Hne : u <> t). { intros ->. rewrite El in Nf. apply NoDup_remove_2 in Nf. contradiction. }
      assert (Hu' : In u cs) by (rewrite El; apply in_app_iff in Hu as [?|?]; apply in_app_iff; [auto|right; now right]).
      specialize (Hbet u Hu' Hne). apply better_iff in Hbet. rewrite Et, Eu in Hbet.
      destruct (Nat.leb_spec (99 * fst s0 * snd s1) (100 * fst s1 * snd s0)); [nia|]. now rewrite Ebt.
  Qed.

  (** Nodes without filters. *)
  Lemma lower_blank c : lower c = " "%char -> space c = true.
  Proof. unfold lower, space. destruct c as [[|] [|] [|] [|] [|] [|] [|] [|]]; cbn; intros H; try reflexivity; discriminate H. Qed.
  Lemma no_blank_gram t : t <> [] -> (forall c, In c t -> space c = false) -> ~ has_gram t (" "%char, " "%char, " "%char).
  Proof.
    intros Hne Hs (l & a & b & c & r & [= <- <- <-] & E). unfold padded in E. set (m := map lower t) in *.
    assert (Hm : forall x, In x m -> x <> " "%char).
    { intros x Hx ->. apply in_map_iff in Hx as (y & Ey & Hy). apply lower_blank in Ey. rewrite (Hs y Hy) in Ey. discriminate. }
    assert (Hl : m <> []) by (subst m; destruct t; [contradiction|discriminate]). clearbody m. clear Hs Hne t.
    destruct m as [|x m]; [contradiction|]. pose proof (Hm x (or_introl eq_refl)) as Hx.
    destruct l as [|l0 [|l1 l]]; cbn in E; injection E; intros; try congruence. clear E.
    (* the three blanks are in x :: m ++ two blanks *)
    assert (E : x :: m ++ [" "%char; " "%char] = l ++ " "%char :: " "%char :: " "%char :: r) by congruence. clear - E Hm.
    revert x m Hm E. induction l as [|y l IH]; cbn; intros x m Hm E; injection E as E1 E2; [apply (Hm x); [now left|congruence]|].
    destruct m as [|z m].
    - cbn in E2. destruct l as [|? [|? [|? ?]]]; discriminate.
    - apply (IH z m); [intros w Hw; apply Hm; now right|exact E2].
  Qed.
  Lemma solid_no_space t c : In c (solid t) -> space c = false.
  Proof. rewrite solid_squeeze. unfold squeeze. rewrite filter_In. intros [_ H]. now apply negb_true_iff. Qed.
  Lemma bind_no_filter tabs d rel : r_table d = Some rel -> 2 <= List.length (cands tabs rel) -> solid (r_filter d) = [] ->
    (forall t, In t tabs -> solid (filter_string filt t) <> []) -> bind tabs d = Ok None.
  Proof.
    intros E L Hf Hne. destruct (cands tabs rel) as [|t0 [|t1 rest]] eqn:Ec; cbn in L; try lia.
    destruct (bind_many tabs d rel t0 t1 rest E Ec) as (s0 & s1 & ss & Es & Hb). rewrite Hb.
    assert (In s0 (map (score d) (t0 :: t1 :: rest))) as Hs0. { eapply Permutation_in; [apply sort_perm|]. rewrite Es. now left. }
    apply in_map_iff in Hs0 as (u & <- & Hu). assert (Hin : In u tabs) by (rewrite <- Ec in Hu; apply filter_In in Hu; tauto).
    assert (Hz : fst (score d u) = 0).
    { unfold score. rewrite <- solid_squeeze, Hf. destruct (jaccard (trigrams []) (trigrams (filter_text filt u))) as [n m] eqn:Ej.
      apply jaccard_common in Ej. destruct Ej as (both & all & _ & _ & Hboth & _ & -> & _). cbn. destruct both as [|g both]; [reflexivity|]. exfalso.
      destruct (Hboth g) as [H _]. destruct (H (or_introl eq_refl)) as [H1 H2]. apply trigrams_spec in H1. cbn in H1.
      assert (g = (" "%char, " "%char, " "%char)) as -> by (destruct H1 as [<-|[<-|[]]]; reflexivity).
      revert H2. apply no_blank_gram.
      - unfold filter_text, none_text. rewrite <- solid_squeeze. apply (Hne u Hin).
      - unfold filter_text. rewrite <- solid_squeeze. apply solid_no_space. }
    rewrite Hz. replace (99 * 0 * snd s1) with 0 by lia. reflexivity.
  Qed.
End Bind.

(** ** Plans *)
Section RawInd.
  Context (P : raw -> Prop) (H : forall d ch, (forall c, In c ch -> P c) -> P (Raw d ch)).
  Fixpoint raw_ind2 (x : raw) : P x :=
    match x with
    | Raw d ch => H d ch ((fix go (l : list raw) : forall c, In c l -> P c :=
        match l with [] => fun c Hc => match Hc with end
        | y :: r => fun c Hc => match Hc with or_introl E => eq_ind y P (raw_ind2 y) c E | or_intror Hr => go r c Hr end end) ch)
    end.
End RawInd.
Lemma is_wrapper_iff d ch : is_wrapper d = true <-> wraps (Raw d ch).
Proof.
  unfold is_wrapper, wraps; cbn [rd]. destruct (r_name d) as [n|]; [|tauto]. rewrite orb_true_iff, !Nat.eqb_eq. split; [intros [->| ->]; auto|intros [[=]|[[= ->]|[= ->]]]; auto].
Qed.
Lemma each_ok f l : forall ks, each f l = Ok ks -> Forall2 (fun c k => f c = Ok k) l ks.
Proof.
  induction l as [|c l IH]; cbn; intros ks; [intros [= <-]; constructor|]. destruct (f c) as [k|] eqn:E; [|discriminate]. cbn. destruct (each f l) as [ks'|]; [|discriminate].
  cbn. intros [= <-]. constructor; auto.
Qed.
Lemma sums_nil : sums_to [] (Some 0). Proof. exists []. auto. Qed.
Lemma sums_app l m a b : sums_to l a -> sums_to m b -> sums_to (l ++ m) (nadd a b).
Proof.
  destruct a as [a|], b as [b|]; cbn [sums_to nadd].
  - intros (x & -> & <-) (y & -> & <-). exists (x ++ y). rewrite map_app, list_sum_app. auto.
  - intros _ H. apply in_app_iff. auto.
  - intros H _. apply in_app_iff. auto.
  - intros H _. apply in_app_iff. auto.
Qed.
Lemma nadd_assoc a b c : nadd a (nadd b c) = nadd (nadd a b) c.
Proof. destruct a, b, c; cbn; auto. f_equal. lia. Qed.
Lemma sums_fold (l : list raw) ks : Forall2 (fun c k => sums_to (times c) (m_time (meas (data k)))) l ks ->
  forall acc base, sums_to base acc -> sums_to (base ++ flat_map times l) (fold_left (fun a k => nadd a (m_time (meas (data k)))) ks acc).
Proof.
  induction 1 as [|c k l ks Hc F IH]; intros acc base Hb; cbn [flat_map fold_left]; [now rewrite app_nil_r|]. rewrite app_assoc. apply IH. now apply sums_app.
Qed.
Section Plans.
  Context (fullname : nat -> nat) (filt : nat -> option text) (qtabs : option (list nat)).
  Lemma oper_scan d n : duck_oper d = Some (PScan n) -> is_seq_scan d \/ is_index_scan d.
  Proof.
    unfold duck_oper, is_seq_scan, is_index_scan. destruct (r_name d) as [[|[|[|k]]]|]; try discriminate; destruct (r_kind d) as [[|[|j]]|]; try discriminate; auto.
  Qed.
  Lemma oper_scan_conv d : is_seq_scan d \/ is_index_scan d -> exists n, duck_oper d = Some (PScan n).
  Proof. intros [[[E|E] K]|[[E|E] K]]; unfold duck_oper; rewrite E, K; eauto. Qed.
  Lemma duck_node_states d n b est act t : r_name d = Some n -> duck_base fullname filt qtabs d = Ok b -> est = given_card (r_est d) -> act = given_card (r_act d) ->
    duck_states fullname qtabs d (mkpd n (duck_oper d) b [] [] 0 est None [] (mkmeas act t None None [])).
  Proof.
    intros En Eb -> ->. unfold duck_states; cbn [ntype oper QPlan_model.est meas m_card ftabs ktabs base].
    split; [assumption|]. split; [|split; [|split; [|split]]].
    - unfold duck_oper. rewrite En. destruct n as [|[|[|k]]]; [tauto| | |split; discriminate]; (split; [|discriminate]); destruct (r_kind d) as [[|[|j]]|]; discriminate.
    - unfold duck_oper, is_seq_scan. rewrite En. destruct n as [|[|[|k]]]; [split; [discriminate|intros [[?|?] _]; discriminate]| | |split; [discriminate|intros [[?|?] _]; discriminate]];
        destruct (r_kind d) as [[|[|j]]|]; split; try discriminate; auto; intros [_ ?]; discriminate.
    - unfold duck_oper, is_index_scan. rewrite En. destruct n as [|[|[|k]]]; [split; [discriminate|intros [[?|?] _]; discriminate]| | |split; [discriminate|intros [[?|?] _]; discriminate]];
        destruct (r_kind d) as [[|[|j]]|]; split; try discriminate; auto; intros [_ ?]; discriminate.
    - unfold duck_oper. intros o. rewrite En. destruct n as [|[|[|k]]]; cbn; try discriminate; [intros [= <-]; auto| |]; destruct (r_kind d) as [[|[|j]]|]; try discriminate; intros [= <-]; auto.
    - do 4 (split; [reflexivity|]). split.
      + intros u ->. unfold duck_base in Eb. destruct (duck_oper d) as [[j|j|j]|] eqn:Eo; try discriminate. destruct qtabs as [tabs|]; [|discriminate].
        split; [eapply oper_scan; exact Eo|]. exists tabs. split; [reflexivity|]. eapply bind_sound; exact Eb.
      + intros tabs u -> N Hs Hin Et U. destruct (oper_scan_conv d Hs) as [j Ej]. unfold duck_base in Eb. rewrite Ej in Eb.
        rewrite (bind_unique fullname filt tabs d u N Et Hin U) in Eb. now injection Eb as <-.
  Qed.
  Lemma parse_shows r : forall p, parse_plan fullname filt qtabs r = Ok p ->
    shows (duck_states fullname qtabs) r p /\ sums_to (times r) (m_time (meas (data p))).
  Proof.
    induction r as [d ch IH] using raw_ind2. intros p. cbn [parse_plan]. destruct (is_wrapper d) eqn:Ew.
    - pose proof (proj1 (is_wrapper_iff d ch) Ew) as W. destruct ch as [|c [|]]; try discriminate. intros H. apply IH in H as [H1 H2]; [|now left].
      split; [eapply shows_wrap; eauto; reflexivity|]. cbn [times flat_map]. rewrite app_nil_r.
      destruct W as [E|[E|E]]; cbn [rd] in E; rewrite E; cbn [Nat.eqb orb app]; exact H2.
    - assert (W : ~ wraps (Raw d ch)) by (intros W; apply is_wrapper_iff in W; congruence).
      destruct (duck_base fullname filt qtabs d) as [b|] eqn:Eb; [|discriminate]. cbn [rbind]. destruct (each _ ch) as [ks|] eqn:Ek; [|discriminate]. cbn [rbind].
      intros [= <-]. apply each_ok in Ek. cbn [data meas m_time].
      assert (F : Forall2 (fun c k => shows (duck_states fullname qtabs) c k /\ sums_to (times c) (m_time (meas (data k)))) ch ks).
      { clear - IH Ek. induction Ek; constructor; [apply IH; [now left|assumption]|apply IHEk; intros; apply IH; [now right|assumption]]. }
      destruct (r_name d) as [n|] eqn:En; [|exfalso; apply W; left; exact En].
      assert (T : sums_to (times (Raw d ch)) (nadd (r_time d) (fold_left (fun a k => nadd a (m_time (meas (data k)))) ks (Some 0)))).
      { cbn [times]. rewrite En. replace ((n =? 3) || (n =? 4)) with false; [|unfold is_wrapper in Ew; rewrite En in Ew; now rewrite Ew].
        apply sums_app.
        - destruct (r_time d) as [x|]; cbn [sums_to]; [exists [x]; cbn; split; [reflexivity|lia]|now left].
        - apply (sums_fold ch ks) with (acc := Some 0) (base := []); [|exact sums_nil]. clear -F. induction F; constructor; tauto. }
      split; [|exact T]. constructor; [assumption| |exact T|].
      + apply duck_node_states; auto; cbn; unfold to_card, given_card; reflexivity.
      + cbn [rch]. clear -F. induction F; constructor; tauto.
  Qed.
  (** Parsing fails only at wrappers that do not have exactly one child. *)
  Inductive within_raw : raw -> raw -> Prop :=
  | wr_self r : within_raw r r
  | wr_child r c x : In c (rch r) -> within_raw c x -> within_raw r x.
  Lemma each_total f l : (forall c, In c l -> exists k, f c = Ok k) -> exists ks, each f l = Ok ks.
  Proof.
    induction l as [|c l IH]; intros H; cbn; [eauto|]. destruct (H c (or_introl eq_refl)) as [k ->]. cbn. destruct IH as [ks ->]; [intros; apply H; now right|]. cbn. eauto.
  Qed.
  Lemma duck_base_ok d : exists b, duck_base fullname filt qtabs d = Ok b.
  Proof. unfold duck_base. destruct (duck_oper d) as [[]|]; eauto. destruct qtabs; eauto. apply bind_ok. Qed.
  Lemma parse_total r : (forall x, within_raw r x -> wraps x -> List.length (rch x) = 1) -> exists p, parse_plan fullname filt qtabs r = Ok p.
  Proof.
    induction r as [d ch IH] using raw_ind2. intros H. cbn [parse_plan]. destruct (is_wrapper d) eqn:Ew.
    - pose proof (H _ (wr_self _) (proj1 (is_wrapper_iff d ch) Ew)) as L. cbn [rch] in L. destruct ch as [|c [|]]; try discriminate.
      apply IH; [now left|]. intros x Hx. apply H. eapply wr_child; [|exact Hx]. now left.
    - destruct (duck_base_ok d) as [b ->]. cbn [rbind]. destruct (each_total (parse_plan fullname filt qtabs) ch) as [ks ->]; [|cbn; eauto].
      intros c Hc. apply IH; [assumption|]. intros x Hx. apply H. eapply wr_child; [exact Hc|exact Hx].
  Qed.
  Lemma parse_wrappers r : forall p, parse_plan fullname filt qtabs r = Ok p -> forall x, within_raw r x -> wraps x -> List.length (rch x) = 1.
  Proof.
    induction r as [d ch IH] using raw_ind2. intros p. cbn [parse_plan]. intros E x Hx Wx. inversion Hx as [|? c ? Hc Hx']; subst.
    - rewrite (proj2 (is_wrapper_iff d ch) Wx) in E. cbn [rch]. destruct ch as [|c [|]]; try discriminate. reflexivity.
    - cbn [rch] in Hc. destruct (is_wrapper d) eqn:Ew.
      + destruct ch as [|c' [|]]; try discriminate. destruct Hc as [->|[]]. eapply IH; [now left|exact E|exact Hx'|exact Wx].
      + destruct (duck_base _ _ _ d); [|discriminate]. cbn [rbind] in E. destruct (each _ ch) as [ks|] eqn:Ek; [|discriminate]. apply each_ok in Ek.
        assert (exists k, parse_plan fullname filt qtabs c = Ok k) as [k Hk]. { clear -Ek Hc. induction Ek; [destruct Hc|]. destruct Hc as [->|Hc]; eauto. }
        eapply IH; [exact Hc|exact Hk|exact Hx'|exact Wx].
  Qed.
End Plans.

(** ** Hints *)
Open Scope string_scope.
Lemma existsb_eqb s l : existsb (String.eqb s) l = true <-> In s l.
Proof. rewrite existsb_exists. split; [intros (x & Hx & E); apply String.eqb_eq in E; now subst|intros H; exists s; split; [assumption|apply String.eqb_refl]]. Qed.
Lemma filter_new (a b : list string) (l : string) : In l (a ++ filter (fun s => negb (existsb (String.eqb s) a)) b)%list <-> In l a \/ In l b.
Proof.
  rewrite in_app_iff, filter_In, negb_true_iff. split; [tauto|]. intros [H|H]; [auto|]. destruct (existsb (String.eqb l) a) eqn:E; [left; now apply existsb_eqb|auto].
Qed.
Lemma merge_hints a b l : In l (hints (merge_with a b)) <-> l = "" \/ In l (hints a) \/ In l (hints b).
Proof.
  unfold merge_with; cbn [hints]. rewrite !in_app_iff. cbn [In]. rewrite filter_In, negb_true_iff. split.
  - intros [H|[[<-|[]]|[H _]]]; auto.
  - intros [->|[H|H]]; auto. destruct (existsb (String.eqb l) (hints a)) eqn:E; [left; now apply existsb_eqb|auto].
Qed.
Lemma merge_settings a b l : In l (settings (merge_with a b)) <-> In l (settings a) \/ In l (settings b).
Proof. unfold merge_with; cbn [settings]. apply filter_new. Qed.
Lemma rmapM_in {X Y} (f : X -> res Y) l ys : rmapM f l = Ok ys -> forall y, In y ys <-> exists x, In x l /\ f x = Ok y.
Proof.
  revert ys. induction l as [|x l IH]; cbn; intros ys; [intros [= <-] y; split; [intros []|intros (? & [] & _)]|].
  destruct (f x) as [z|] eqn:E; [|discriminate]. cbn. destruct (rmapM f l) as [zs|]; [|discriminate]. cbn. intros [= <-] y. cbn [In]. rewrite (IH zs eq_refl y). split.
  - intros [<-|(x' & H1 & H2)]; eauto.
  - intros (x' & [<-|H1] & H2); [left; congruence|right; eauto].
Qed.
Lemma rmapM_iff {X Y} (f : X -> res Y) l : is_ok (rmapM f l) = true <-> forall x, In x l -> is_ok (f x) = true.
Proof.
  induction l as [|x l IH]; cbn; [split; [intros _ ? []|reflexivity]|]. destruct (f x) as [y|] eqn:E; cbn.
  - destruct (rmapM f l) as [ys|]; cbn in *.
    + split; [|reflexivity]. intros _ x' [<-|H]; [now rewrite E|]. now apply IH.
    + split; [discriminate|]. intros H. apply IH. intros x' Hx. apply H. now right.
  - split; [discriminate|]. intros H. specialize (H x (or_introl eq_refl)). rewrite E in H. discriminate.
Qed.
Lemma scan_kw_spec n kw : scan_kw n = Some kw <-> duck_keyword (PScan n) kw.
Proof. split; [destruct n as [|[|n]]; cbn; intros [= <-]; constructor|]. inversion 1; subst; reflexivity. Qed.
Lemma join_kw_spec n kw : join_kw n = Some kw <-> duck_keyword (PJoin n) kw.
Proof. split; [destruct n as [|[|[|n]]]; cbn; intros [= <-]; constructor|]. inversion 1; subst; reflexivity. Qed.
Lemma setting_kw_spec o kw : setting_kw o = Some kw <-> duck_setting o kw.
Proof. split; [destruct o as [[|[|n]]|[|[|[|n]]]|n]; cbn; intros [= <-]; constructor|]. inversion 1; subst; reflexivity. Qed.
Lemma feature_map (o : option string) (f : string -> string) y : rmap f (feature o) = Ok y <-> exists s, o = Some s /\ y = f s.
Proof. destruct o as [s|]; cbn; [split; [intros [= <-]; eauto|intros (s' & [= <-] & ->); reflexivity]|split; [discriminate|intros (s & [=] & _)]]. Qed.
Lemma feature_ok (o : option string) (f : string -> string) : is_ok (rmap f (feature o)) = true <-> exists s, o = Some s.
Proof. destruct o; cbn; split; eauto; [discriminate|intros (s & [=])]. Qed.
Lemma walk_text {A} (name : nat -> string) (t : jt nat A) s : walk name t = Ok s <-> exists o, order_of t = Some o /\ s = order_text name o.
Proof.
  revert s. induction t as [a|a x b|a l IHl r IHr b]; intros s; cbn [walk order_of].
  - split; [discriminate|intros (o & [=] & _)].
  - split; [intros [= <-]; eexists; split; reflexivity|intros (o & [= <-] & ->); reflexivity].
  - destruct (walk name l) as [sl|] eqn:El; cbn [rbind].
    + destruct (proj1 (IHl sl) eq_refl) as (ol & -> & ->). destruct (walk name r) as [sr|] eqn:Er; cbn [rbind].
      * destruct (proj1 (IHr sr) eq_refl) as (or & -> & ->). split; [intros [= <-]; eexists; split; reflexivity|intros (o & [= <-] & ->); reflexivity].
      * split; [discriminate|]. intros (o & E & ->). destruct (order_of r) as [or|] eqn:Eo; [|discriminate]. pose proof (proj2 (IHr _) (ex_intro _ or (conj eq_refl eq_refl))). discriminate.
    + split; [discriminate|]. intros (o & E & ->). destruct (order_of l) as [ol|] eqn:Eo; [|discriminate]. pose proof (proj2 (IHl _) (ex_intro _ ol (conj eq_refl eq_refl))). discriminate.
Qed.

Section Gen.
  Context {A C V : Type} (name : nat -> string) (iter : list nat -> list nat) (card_text : C -> option string) (set_name : nat -> string) (set_value : V -> string).
  Hypothesis Hit : forall l, Permutation (iter l) l.
  Notation gen := (@generate_parts A C V name iter card_text set_name set_value).
  Lemma poa_bool_false p : poa_bool p = false -> glob p = [] /\ joins p = [] /\ scans p = [] /\ inters p = [].
  Proof. unfold poa_bool. destruct (glob p), (joins p), (scans p), (inters p); try discriminate. auto. Qed.
  Lemma names_iter ts : names_of name ts (inter_hint name iter ts).
  Proof. exists (iter ts). split; [apply Hit|reflexivity]. Qed.
  Lemma op_parts_ok p h : op_parts name iter p = Ok h ->
    settings h = [] /\ forall l, In l (hints h) <->
      (exists t a kw, In (t, a) (scans p) /\ duck_keyword (PScan (sa_op a)) kw /\ l = kw ++ "(" ++ name t ++ ")")
      \/ (exists ts a kw, In (ts, a) (joins p) /\ duck_keyword (PJoin (ja_op a)) kw /\ l = kw ++ "(" ++ inter_hint name iter ts ++ ")")
      \/ (exists o b kw, In (o, b) (glob p) /\ duck_setting o kw /\ l = "Set(" ++ kw ++ " = " ++ (if b : bool then "'on'" else "'off'") ++ ")").
  Proof.
    unfold op_parts. destruct (poa_bool p) eqn:Eb; cbn [negb].
    - destruct (rmapM _ (scans p)) as [hs|] eqn:Es; [|discriminate]. cbn [rbind]. destruct (rmapM _ (joins p)) as [hj|] eqn:Ej; [|discriminate]. cbn [rbind].
      destruct (inters p); [|discriminate]. cbn [rbind]. destruct (rmapM _ (glob p)) as [hg|] eqn:Eg; [|discriminate]. cbn [rbind]. intros [= <-].
      split; [reflexivity|]. intros l. cbn [hints]. rewrite !in_app_iff, (rmapM_in _ _ _ Es), (rmapM_in _ _ _ Ej), (rmapM_in _ _ _ Eg).
      assert (X1 : (exists x, In x (scans p) /\ rmap (fun o => o ++ "(" ++ name (fst x) ++ ")") (feature (scan_kw (sa_op (snd x)))) = Ok l)
        <-> exists t a kw, In (t, a) (scans p) /\ duck_keyword (PScan (sa_op a)) kw /\ l = kw ++ "(" ++ name t ++ ")").
      { split.
        - intros ([t a] & Hx & E). apply feature_map in E as (s & E1 & ->). exists t, a, s. split; [assumption|]. split; [now apply scan_kw_spec|reflexivity].
        - intros (t & a & kw & Hx & Hk & ->). exists (t, a). split; [assumption|]. apply feature_map. exists kw. split; [now apply scan_kw_spec|reflexivity]. }
      assert (X2 : (exists x, In x (joins p) /\ rmap (fun o => o ++ "(" ++ inter_hint name iter (fst x) ++ ")") (feature (join_kw (ja_op (snd x)))) = Ok l)
        <-> exists ts a kw, In (ts, a) (joins p) /\ duck_keyword (PJoin (ja_op a)) kw /\ l = kw ++ "(" ++ inter_hint name iter ts ++ ")").
      { split.
        - intros ([t a] & Hx & E). apply feature_map in E as (s & E1 & ->). exists t, a, s. split; [assumption|]. split; [now apply join_kw_spec|reflexivity].
        - intros (t & a & kw & Hx & Hk & ->). exists (t, a). split; [assumption|]. apply feature_map. exists kw. split; [now apply join_kw_spec|reflexivity]. }
      assert (X3 : (exists x, In x (glob p) /\ rmap (fun o => "Set(" ++ o ++ " = " ++ (if snd x : bool then "'on'" else "'off'") ++ ")") (feature (setting_kw (fst x))) = Ok l)
        <-> exists o b kw, In (o, b) (glob p) /\ duck_setting o kw /\ l = "Set(" ++ kw ++ " = " ++ (if b : bool then "'on'" else "'off'") ++ ")").
      { split.
        - intros ([t a] & Hx & E). apply feature_map in E as (s & E1 & ->). exists t, a, s. split; [assumption|]. split; [now apply setting_kw_spec|reflexivity].
        - intros (t & a & kw & Hx & Hk & ->). exists (t, a). split; [assumption|]. apply feature_map. exists kw. split; [now apply setting_kw_spec|reflexivity]. }
      rewrite X1, X2, X3. tauto.
    - intros [= <-]. apply poa_bool_false in Eb as (E1 & E2 & E3 & _). rewrite E1, E2, E3. split; [reflexivity|]. intros l. cbn [hints no_parts In].
      split; [intros []|]. intros [(? & ? & ? & [] & _)|[(? & ? & ? & [] & _)|(? & ? & ? & [] & _)]].
  Qed.
  Lemma param_parts_ok (p : @pparams C V) h : param_parts name iter card_text set_name set_value p = Ok h ->
    settings h = map (fun e => set_name (fst e) ++ " = " ++ set_value (snd e) ++ ";") (pp_settings p)
    /\ forall l, In l (hints h) <-> exists ts c n, In (ts, c) (pp_cards p) /\ card_text c = Some n /\ l = "Card(" ++ inter_hint name iter ts ++ " #" ++ n ++ ")".
  Proof.
    unfold param_parts. destruct (pp_workers p); [|discriminate]. cbn [rbind]. intros [= <-]. split; [reflexivity|]. intros l. cbn [hints]. rewrite in_flat_map. split.
    - intros ([ts c] & Hin & Hl). cbn [fst snd] in Hl. destruct (card_text c) as [n|] eqn:E; [|destruct Hl]. destruct Hl as [<-|[]]. exists ts, c, n. auto.
    - intros (ts & c & n & Hin & E & ->). exists (ts, c). split; [assumption|]. cbn [fst snd]. rewrite E. now left.
  Qed.
  Lemma order_parts_ok (t : jt nat A) h : order_parts name t = Ok h ->
    settings h = [] /\ forall l, In l (hints h) <-> 3 <= jt_len t /\ exists o, order_of t = Some o /\ l = "JoinOrder(" ++ order_text name o ++ ")".
  Proof.
    unfold order_parts. destruct (Nat.ltb_spec (jt_len t) 3) as [L|L].
    - intros [= <-]. split; [reflexivity|]. intros l. cbn. split; [intros []|intros [? _]; lia].
    - destruct (walk name t) as [s|] eqn:E; [|discriminate]. cbn [rmap]. intros [= <-]. split; [reflexivity|]. intros l. cbn [hints In].
      apply walk_text in E as (o & Eo & ->). split; [intros [<-|[]]; split; [assumption|eauto]|intros [_ (o' & Eo' & ->)]; left; rewrite Eo in Eo'; now injection Eo' as ->].
  Qed.
  (** All lines. *)
  Definition all_lines (jo : option (jt nat A)) (ops : option poa) (pp : option (@pparams C V)) (l : string) : Prop :=
    (exists t o, jo = Some t /\ 3 <= jt_len t /\ order_of t = Some o /\ l = "JoinOrder(" ++ order_text name o ++ ")")
    \/ (exists p t a kw, ops = Some p /\ In (t, a) (scans p) /\ duck_keyword (PScan (sa_op a)) kw /\ l = kw ++ "(" ++ name t ++ ")")
    \/ (exists p ts a kw, ops = Some p /\ In (ts, a) (joins p) /\ duck_keyword (PJoin (ja_op a)) kw /\ l = kw ++ "(" ++ inter_hint name iter ts ++ ")")
    \/ (exists p o b kw, ops = Some p /\ In (o, b) (glob p) /\ duck_setting o kw /\ l = "Set(" ++ kw ++ " = " ++ (if b : bool then "'on'" else "'off'") ++ ")")
    \/ (exists p ts c n, pp = Some p /\ In (ts, c) (pp_cards p) /\ card_text c = Some n /\ l = "Card(" ++ inter_hint name iter ts ++ " #" ++ n ++ ")").
  Definition all_settings (pp : option (@pparams C V)) (l : string) : Prop :=
    exists p k v, pp = Some p /\ In (k, v) (pp_settings p) /\ l = set_name k ++ " = " ++ set_value v ++ ";".
  Lemma gen_ok jo ops pp r : gen None jo ops pp = Ok r ->
    (forall l, l <> "" -> ((exists h, r = Some h /\ In l (hints h)) <-> all_lines jo ops pp l))
    /\ (forall l, (exists h, r = Some h /\ In l (settings h)) <-> all_settings pp l).
  Proof.
    unfold generate_parts. cbn [rbind].
    destruct (match jo with Some t => order_parts name t | None => Ok no_parts end) as [h0|] eqn:E0; [|discriminate]. cbn [rbind].
    assert (S0 : settings h0 = [] /\ forall l, In l (hints h0) <-> exists t o, jo = Some t /\ 3 <= jt_len t /\ order_of t = Some o /\ l = "JoinOrder(" ++ order_text name o ++ ")").
    { destruct jo as [t|].
      - apply order_parts_ok in E0 as [S H]. split; [assumption|]. intros l. rewrite H. split; [intros [L (o & Eo & ->)]; exists t, o; auto|intros (t' & o & [= <-] & L & Eo & ->); eauto].
      - injection E0 as <-. split; [reflexivity|]. intros l. cbn. split; [intros []|intros (t & o & [=] & _)]. }
    set (h0' := if parts_bool h0 then h0 else no_parts).
    assert (S0' : settings h0' = [] /\ forall l, In l (hints h0') <-> exists t o, jo = Some t /\ 3 <= jt_len t /\ order_of t = Some o /\ l = "JoinOrder(" ++ order_text name o ++ ")").
    { subst h0'. unfold parts_bool. destruct S0 as [S0 H0]. rewrite S0. destruct (hints h0) as [|x l0] eqn:Eh; [|split; [assumption|rewrite Eh; assumption]]. split; [reflexivity|]. exact H0. }
    clearbody h0'. clear S0 E0 h0. destruct S0' as [S0 H0].
    destruct (match ops with Some o => _ | None => Ok h0' end) as [h1|] eqn:E1; [|discriminate]. cbn [rbind].
    assert (S1 : settings h1 = [] /\ forall l, l <> "" -> (In l (hints h1) <-> In l (hints h0') \/
        (exists p t a kw, ops = Some p /\ In (t, a) (scans p) /\ duck_keyword (PScan (sa_op a)) kw /\ l = kw ++ "(" ++ name t ++ ")")
    \/ (exists p ts a kw, ops = Some p /\ In (ts, a) (joins p) /\ duck_keyword (PJoin (ja_op a)) kw /\ l = kw ++ "(" ++ inter_hint name iter ts ++ ")")
    \/ (exists p o b kw, ops = Some p /\ In (o, b) (glob p) /\ duck_setting o kw /\ l = "Set(" ++ kw ++ " = " ++ (if b : bool then "'on'" else "'off'") ++ ")"))).
    { destruct ops as [p|].
      - destruct (poa_bool p) eqn:Eb.
        + destruct (op_parts name iter p) as [ho|] eqn:Eo; [|discriminate]. cbn [rmap] in E1. injection E1 as <-. apply op_parts_ok in Eo as [So Ho]. split.
          * unfold merge_with; cbn [settings]. now rewrite S0, So.
          * intros l Hl. rewrite merge_hints, Ho. split.
            -- intros [?|[?|[(t & a & kw & X)|[(t & a & kw & X)|(t & a & kw & X)]]]]; [contradiction|auto|right; left|right; right; left|right; right; right]; exists p, t, a, kw; tauto.
            -- intros [?|[(q & t & a & kw & [= <-] & X)|[(q & t & a & kw & [= <-] & X)|(q & t & a & kw & [= <-] & X)]]]; [tauto| | |]; right; right; [left|right; left|right; right]; exists t, a, kw; tauto.
        + injection E1 as <-. apply poa_bool_false in Eb as (G1 & G2 & G3 & _). split; [assumption|]. intros l _. split; [auto|].
          intros [?|[(q & t & a & kw & [= <-] & X & _)|[(q & t & a & kw & [= <-] & X & _)|(q & t & a & kw & [= <-] & X & _)]]]; [assumption| | |]; rewrite ?G1, ?G2, ?G3 in X; destruct X.
      - injection E1 as <-. split; [assumption|]. intros l _. split; [auto|]. intros [?|[(q & t & a & kw & [=] & _)|[(q & t & a & kw & [=] & _)|(q & t & a & kw & [=] & _)]]]. assumption. }
    destruct S1 as [S1 H1]. clear E1. destruct (match pp with Some p => _ | None => Ok h1 end) as [h2|] eqn:E2; [|discriminate]. cbn [rbind]. intros [= <-].
    assert (S2 : (forall l, l <> "" -> (In l (hints h2) <-> all_lines jo ops pp l)) /\ (forall l, In l (settings h2) <-> all_settings pp l)).
    { destruct pp as [p|].
      - destruct (param_parts name iter card_text set_name set_value p) as [hp|] eqn:Ep; [|discriminate]. cbn [rmap] in E2. injection E2 as <-. apply param_parts_ok in Ep as [Sp Hp]. split.
        + intros l Hl. rewrite merge_hints, (H1 l Hl), H0, Hp. unfold all_lines. split.
          * intros [?|[[?|[?|[?|?]]]|(ts & c & n & X)]]; [contradiction|auto|auto|auto|auto|]. right; right; right; right. exists p, ts, c, n. tauto.
          * intros [?|[?|[?|[?|(q & ts & c & n & [= <-] & X)]]]]; [auto|auto|auto 6|auto 7|]. right; right. exists ts, c, n. tauto.
        + intros l. rewrite merge_settings, S1, Sp, in_map_iff. split.
          * intros [[]|([k v] & <- & Hin)]. exists p, k, v. auto.
          * intros (q & k & v & [= <-] & Hin & ->). right. exists (k, v). auto.
      - injection E2 as <-. split.
        + intros l Hl. rewrite (H1 l Hl), H0. unfold all_lines. split; [intros [?|[?|[?|?]]]; auto 6|]. intros [?|[?|[?|[?|(q & ts & c & n & [=] & _)]]]]; auto 6.
        + intros l. rewrite S1. split; [intros []|intros (q & k & v & [=] & _)]. }
    destruct S2 as [S2 S3]. split.
    - intros l Hl. rewrite <- (S2 l Hl). unfold parts_bool. split.
      + intros (h & E & Hin). destruct (settings h2) eqn:Es, (hints h2) eqn:Eh; try discriminate; injection E as <-; rewrite Eh in Hin; assumption.
      + intros Hin. exists h2. split; [|assumption]. destruct (hints h2); [destruct Hin|]. destruct (settings h2); reflexivity.
    - intros l. rewrite <- (S3 l). unfold parts_bool. split.
      + intros (h & E & Hin). destruct (settings h2) eqn:Es, (hints h2) eqn:Eh; try discriminate; injection E as <-; rewrite Es in Hin; assumption.
      + intros Hin. exists h2. split; [|assumption]. destruct (settings h2); [destruct Hin|]. reflexivity.
  Qed.
  Lemma all_lines_request jo ops pp l : all_lines jo ops pp l -> exists R, request name card_text jo ops pp R /\ R l.
  Proof.
    intros [(t & o & E & L & Eo & ->)|[(p & t & a & kw & E & Hin & K & ->)|[(p & t & a & kw & E & Hin & K & ->)|[(p & t & a & kw & E & Hin & K & ->)|(p & ts & c & n & E & Hin & K & ->)]]]].
    - eexists. split; [eapply rq_order; eauto|reflexivity].
    - eexists. split; [eapply rq_scan; eauto|reflexivity].
    - eexists. split; [eapply rq_join; eauto|]. cbv beta. eexists. split; [apply names_iter|reflexivity].
    - eexists. split; [eapply rq_set; eauto|reflexivity].
    - eexists. split; [eapply rq_card; eauto|]. cbv beta. eexists. split; [apply names_iter|reflexivity].
  Qed.
  Lemma request_all_lines jo ops pp R : request name card_text jo ops pp R -> exists l, R l /\ all_lines jo ops pp l /\ l <> "".
  Proof.
    unfold all_lines. intros [t o E L Eo|p t a kw E Hin K|p ts a kw E Hin K|p o b kw E Hin K|p ts c n E Hin K]; cbv beta.
    - eexists. split; [reflexivity|]. split; [left; eauto 6|discriminate].
    - eexists. split; [reflexivity|]. split; [right; left; eauto 9|inversion K; subst; discriminate].
    - eexists. split; [eexists; split; [apply names_iter|reflexivity]|]. split; [right; right; left; eauto 9|inversion K; subst; discriminate].
    - eexists. split; [reflexivity|]. split; [right; right; right; left; eauto 9|discriminate].
    - eexists. split; [eexists; split; [apply names_iter|reflexivity]|]. split; [right; right; right; right; eauto 9|discriminate].
  Qed.
  (** When it succeeds. *)
  Lemma op_parts_total p : is_ok (op_parts name iter p) = true <-> @supported C V (Some p) None.
  Proof.
    unfold supported. split.
    - intros H. split; [|intros q [=]]. intros q [= <-]. unfold op_parts in H. destruct (poa_bool p) eqn:Eb; cbn [negb] in H.
      + destruct (rmapM _ (scans p)) as [hs|] eqn:Es; [|discriminate]. cbn [rbind] in H. destruct (rmapM _ (joins p)) as [hj|] eqn:Ej; [|discriminate]. cbn [rbind] in H.
        destruct (inters p); [|discriminate]. cbn [rbind] in H. destruct (rmapM _ (glob p)) as [hg|] eqn:Eg; [|discriminate].
        pose proof (proj1 (rmapM_iff _ _) (f_equal is_ok Es)) as F1. pose proof (proj1 (rmapM_iff _ _) (f_equal is_ok Ej)) as F2. pose proof (proj1 (rmapM_iff _ _) (f_equal is_ok Eg)) as F3.
        split; [|split; [|split; [|reflexivity]]]; intros x y Hx; [apply F1 in Hx|apply F2 in Hx|apply F3 in Hx]; cbv beta in Hx; apply feature_ok in Hx as [s E]; exists s;
          [now apply scan_kw_spec|now apply join_kw_spec|now apply setting_kw_spec].
      + apply poa_bool_false in Eb as (-> & -> & -> & ->). repeat split; try (intros ? ? []).
    - intros [H _]. destruct (H p eq_refl) as (H1 & H2 & H3 & H4). unfold op_parts. destruct (negb (poa_bool p)); [reflexivity|].
      assert (F1 : is_ok (rmapM (fun e => rmap (fun o => o ++ "(" ++ name (fst e) ++ ")") (feature (scan_kw (sa_op (snd e))))) (scans p)) = true).
      { apply rmapM_iff. intros [t a] Hx. apply feature_ok. destruct (H1 t a Hx) as [kw K]. exists kw. now apply scan_kw_spec. }
      assert (F2 : is_ok (rmapM (fun e => rmap (fun o => o ++ "(" ++ inter_hint name iter (fst e) ++ ")") (feature (join_kw (ja_op (snd e))))) (joins p)) = true).
      { apply rmapM_iff. intros [t a] Hx. apply feature_ok. destruct (H2 t a Hx) as [kw K]. exists kw. now apply join_kw_spec. }
      assert (F3 : is_ok (rmapM (fun e => rmap (fun o => "Set(" ++ o ++ " = " ++ (if snd e : bool then "'on'" else "'off'") ++ ")") (feature (setting_kw (fst e)))) (glob p)) = true).
      { apply rmapM_iff. intros [t a] Hx. apply feature_ok. destruct (H3 t a Hx) as [kw K]. exists kw. now apply setting_kw_spec. }
      destruct (rmapM _ (scans p)); [|discriminate]. cbn [rbind]. destruct (rmapM _ (joins p)); [|discriminate]. cbn [rbind]. rewrite H4. cbn [rbind].
      destruct (rmapM _ (glob p)); [reflexivity|discriminate].
  Qed.
  Lemma order_parts_total (t : jt nat A) : is_ok (order_parts name t) = true <-> (3 <= jt_len t -> order_of t <> None).
  Proof.
    unfold order_parts. destruct (Nat.ltb_spec (jt_len t) 3) as [L|L]; [split; [lia|reflexivity]|]. destruct (walk name t) as [s|] eqn:E; cbn.
    - apply walk_text in E as (o & -> & _). split; [discriminate|reflexivity].
    - split; [discriminate|]. intros H. exfalso. destruct (order_of t) as [o|] eqn:Eo; [|now apply H]. pose proof (proj2 (walk_text name t _) (ex_intro _ o (conj Eo eq_refl))). congruence.
  Qed.
  Lemma gen_total jo ops pp : is_ok (gen None jo ops pp) = true <-> supported ops pp /\ (forall t, jo = Some t -> 3 <= jt_len t -> order_of t <> None).
  Proof.
    unfold generate_parts. cbn [rbind]. split.
    - intros H. destruct (match jo with Some t => order_parts name t | None => Ok no_parts end) as [h0|] eqn:E0; [|discriminate]. cbn [rbind] in H.
      destruct (match ops with Some o => _ | None => Ok (if parts_bool h0 then h0 else no_parts) end) as [h1|] eqn:E1; [|discriminate]. cbn [rbind] in H.
      destruct (match pp with Some p => _ | None => Ok h1 end) as [h2|] eqn:E2; [|discriminate]. split; [split|].
      + intros p ->. destruct (poa_bool p) eqn:Eb.
        * destruct (op_parts name iter p) as [ho|] eqn:Eo; [|discriminate]. pose proof (proj1 (op_parts_total p) (f_equal is_ok Eo)) as [S _]. now apply S.
        * apply poa_bool_false in Eb as (-> & -> & -> & ->). repeat split; try (intros ? ? []).
      + intros p ->. unfold param_parts in E2. destruct (pp_workers p); [reflexivity|discriminate].
      + intros t ->. now apply order_parts_total; rewrite E0.
    - intros [[H1 H2] H3].
      destruct (match jo with Some t => order_parts name t | None => Ok no_parts end) as [h0|] eqn:E0.
      2:{ exfalso. destruct jo as [t|]; [|discriminate]. pose proof (proj2 (order_parts_total t) (H3 t eq_refl)) as X. rewrite E0 in X. discriminate. }
      cbn [rbind]. set (h := if parts_bool h0 then h0 else no_parts).
      destruct (match ops with Some o => _ | None => Ok h end) as [h1|] eqn:E1.
      2:{ exfalso. destruct ops as [p|]; [|discriminate]. destruct (poa_bool p); [|discriminate]. pose proof (proj2 (op_parts_total p)) as X.
          destruct (op_parts name iter p); [discriminate|]. specialize (X (conj (fun q E => H1 q E) (fun q (E : None = Some q) => match E with end))). discriminate. }
      cbn [rbind]. destruct pp as [p|]; [|reflexivity]. unfold param_parts. now rewrite (H2 p eq_refl).
  Qed.
End Gen.
