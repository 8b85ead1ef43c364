From Coq Require Import List Bool Arith Lia.
From Verif Require Import PyBase FSet Dicts_model Hint_model Hint_spec.
Import ListNotations.

Lemma rbind_Ok {A B} (x : res A) (f : A -> res B) b : rbind x f = Ok b -> exists a, x = Ok a /\ f a = Ok b.
Proof. destruct x; cbn; [eauto|discriminate]. Qed.
Lemma eqd_seteqb (k l : list nat) X (a b : X) : (if eqd (mkfs l) (mkfs k) then a else b) = (if seteqb k l then a else b).
Proof.
  destruct (eqd (mkfs l) (mkfs k)) as [E|E], (seteqb k l) eqn:F; try reflexivity; exfalso.
  - apply mkfs_eq in E. assert (seteqb k l = true) by (apply seteqb_seteq; intros x; symmetry; apply E). congruence.
  - apply E, mkfs_eq. apply seteqb_seteq in F. intros x. symmetry. apply F.
Qed.
Lemma filter_true {A} (l : list A) : filter (fun _ => true) l = l.
Proof. induction l; cbn; congruence. Qed.

Lemma dmerge_spec {K V} {E : EqD K} (a b : dict K V) k : dwf b -> dget (dmerge a b) k = match dget b k with Some v => Some v | None => dget a k end.
Proof. intros H. unfold dmerge. rewrite fold_dset_spec, lastval_wf by assumption. reflexivity. Qed.
Lemma dmerge_wf {K V} {E : EqD K} (a b : dict K V) : dwf a -> dwf (dmerge a b).
Proof. apply dwf_fold_dset. Qed.
Lemma dset_In {K V} {E : EqD K} (d : dict K V) k v k' v' : dwf d -> In (k', v') (dset d k v) -> (k' = k /\ v' = v) \/ In (k', v') d.
Proof.
  intros Hd H. apply In_dget in H; [|now apply dwf_dset]. rewrite dset_spec in H. destruct (eqd k' k); [left; split; congruence|right; now apply dget_In].
Qed.
Lemma dmerge_In {K V} {E : EqD K} (a b : dict K V) k v : dwf a -> dwf b -> In (k, v) (dmerge a b) -> In (k, v) a \/ In (k, v) b.
Proof.
  intros Ha Hb H. apply In_dget in H; [|now apply dmerge_wf]. rewrite dmerge_spec in H by assumption. destruct (dget b k) eqn:Eb.
  - right. apply dget_In. congruence.
  - left. now apply dget_In.
Qed.

Lemma dget_filter_wf {K V} {E : EqD K} (f : K * V -> bool) (d : dict K V) k : dwf d ->
  dget (filter f d) k = match dget d k with Some v => if f (k, v) then Some v else None | None => None end.
Proof.
  intros Hd. destruct (dget d k) as [v|] eqn:Ed.
  - destruct (f (k, v)) eqn:Ef.
    + apply In_dget; [now apply dwf_filter|]. apply filter_In. split; [now apply dget_In|assumption].
    + apply dget_None. intros H. apply in_map_iff in H as [[k' v'] [Hk H]]. cbn in Hk. subst k'. apply filter_In in H as [H Hf]. apply In_dget in H; [|assumption]. congruence.
  - apply dget_None. intros H. apply in_map_iff in H as [[k' v'] [Hk H]]. cbn in Hk. subst k'. apply filter_In in H as [H _]. apply In_dget in H; [|assumption]. congruence.
Qed.

Lemma empty_wf : poa_wf poa_empty.
Proof. constructor; try constructor; cbn; contradiction. Qed.
Lemma set_scan_wf p a : poa_wf p -> poa_wf (poa_set_scan p a).
Proof.
  intros []. constructor; cbn; try assumption; [now apply dwf_dset|]. intros k b H. apply dset_In in H as [[-> ->]|H]; auto.
Qed.
Lemma set_join_wf p a : poa_wf p -> wf_join a -> poa_wf (poa_set_join p a).
Proof.
  intros [] Ha. constructor; cbn; try assumption; [now apply dwf_dset|]. intros k b H. apply dset_In in H as [[-> ->]|H]; auto.
Qed.
Lemma mk_join_wf id op tabs par a : mk_join id op tabs par = Ok a -> a = mkja id op (mkfs tabs) None par /\ wf_join a.
Proof.
  unfold mk_join. destruct (Nat.ltb_spec (length tabs) 2) as [|Hl]; [discriminate|]. intros [= <-]. split; [reflexivity|]. split; cbn [ja_join ja_dir]; [now rewrite mkfs_mkfs|]. split; [|exact I].
  intros F. apply (proj1 (mkfs_nil _)) in F. rewrite F in Hl. cbn in Hl. lia.
Qed.
Lemma mk_dirjoin_wf id op i o par a : mk_dirjoin id op i o par = Ok a -> a = mkja id op (mkfs (i ++ o)) (Some (mkfs i, mkfs o)) par /\ wf_join a.
Proof.
  unfold mk_dirjoin. destruct i as [|x i]; [discriminate|]. destruct o as [|y o]; [discriminate|].
  assert (E : mkfs (mkfs (x :: i) ++ mkfs (y :: o)) = mkfs ((x :: i) ++ y :: o)).
  { apply mkfs_eq. intros z. rewrite !in_app_iff, !mkfs_In. reflexivity. }
  rewrite E. clear E. remember (x :: i) as xi eqn:Exi. remember (y :: o) as yo eqn:Eyo. destruct (Nat.ltb_spec (length (mkfs (xi ++ yo))) 2) as [|Hl]; [discriminate|].
  intros H. assert (Ha : a = mkja id op (mkfs (xi ++ yo)) (Some (mkfs xi, mkfs yo)) par) by congruence. subst a. split; [reflexivity|]. split; cbn [ja_join ja_dir].
  - now rewrite mkfs_mkfs.
  - split; [intros F; apply (proj1 (mkfs_nil _)) in F; rewrite Exi in F; discriminate|]. split; [intros F; apply (proj1 (mkfs_nil _)) in F; rewrite F in Exi; discriminate|]. split; [intros F; apply (proj1 (mkfs_nil _)) in F; rewrite F in Eyo; discriminate|]. rewrite !mkfs_mkfs. repeat split; [|exact Hl].
    apply mkfs_eq. intros z. rewrite !in_app_iff, !mkfs_In. reflexivity.
Qed.
Lemma add_wf p o q : poa_wf p -> wf_call (KAdd o) -> poa_add p o = Ok q -> poa_wf q.
Proof.
  intros Hp Ho. destruct o as [id op t|id op tabs|op tabs|a|a]; cbn [poa_add].
  - intros [= <-]. now apply set_scan_wf.
  - unfold rmap. intros H. apply rbind_Ok in H as [a [Ha [= <-]]]. apply mk_join_wf in Ha as [_ Ha]. now apply set_join_wf.
  - intros [= <-]. destruct Hp. constructor; cbn; try assumption. now apply dwf_dset.
  - intros [= <-]. now apply set_scan_wf.
  - intros [= <-]. now apply set_join_wf.
Qed.
Lemma set_wf p o en ow : poa_wf p -> poa_wf (poa_set p o en ow).
Proof.
  intros []. unfold poa_set. destruct (negb ow || en); [constructor; cbn; try assumption; now apply dwf_dset|].
  destruct o; constructor; cbn; rewrite ?filter_true; try assumption; try (now apply dwf_dset); now apply dwf_filter.
Qed.
Lemma call_wf p c q : poa_wf p -> wf_call c -> poa_call p c = Ok q -> poa_wf q.
Proof. destruct c as [o|o en ow]; [apply add_wf|]. cbn. intros H _ [= <-]. now apply set_wf. Qed.
Lemma calls_wf cs : forall p q, poa_wf p -> Forall wf_call cs -> poa_calls p cs = Ok q -> poa_wf q.
Proof.
  induction cs as [|c cs IH]; intros p q Hp Hc; cbn; [intros [= <-]; assumption|]. inversion Hc; subst. intros H. apply rbind_Ok in H as [r [Hr H]].
  eapply IH; [|eassumption|eassumption]. eapply call_wf; eassumption.
Qed.
Lemma merge_wf p q : poa_wf p -> poa_wf q -> poa_wf (poa_merge p q).
Proof.
  intros [] []. constructor; cbn; try (now apply dmerge_wf).
  - intros k a H. apply dmerge_In in H as [H|H]; auto.
  - intros k a H. apply dmerge_In in H as [H|H]; auto.
Qed.

(** ** Histories *)
Lemma after_none {X} (entry : call -> option X) gone cs cur : after entry gone cur cs = match cs with [] => cur | c :: r => after entry gone (match entry c with Some x => Some x | None => match cur with Some x => if gone x c then None else Some x | None => None end end) r end.
Proof. destruct cs; reflexivity. Qed.
Lemma scan_call p c q t : poa_call p c = Ok q -> dget (scans q) t = match scan_entry t c with Some a => Some a | None => dget (scans p) t end.
Proof.
  destruct c as [o|o en ow]; cbn [poa_call].
  - destruct o as [id op t'|id op tabs|op tabs|a|a]; cbn [poa_add scan_entry]; unfold rmap; try (intros [= <-]); cbn; try reflexivity.
    + rewrite dset_spec. destruct (eqd t t') as [->|E]; [now rewrite Nat.eqb_refl|]. destruct (Nat.eqb_spec t' t); [congruence|reflexivity].
    + intros H. apply rbind_Ok in H as [a [_ [= <-]]]. reflexivity.
    + rewrite dset_spec. destruct (eqd t (sa_tab a)) as [->|E]; [now rewrite Nat.eqb_refl|]. destruct (Nat.eqb_spec (sa_tab a) t); [congruence|reflexivity].
  - intros [= <-]. unfold poa_set. destruct (negb ow || en); [reflexivity|]. destruct o; cbn; rewrite ?filter_true; reflexivity.
Qed.
Lemma join_call p c q l : wf_call c -> poa_call p c = Ok q -> dget (joins q) (mkfs l) = match join_entry l c with Some a => Some a | None => dget (joins p) (mkfs l) end.
Proof.
  intros Hc. destruct c as [o|o en ow]; cbn [poa_call].
  - destruct o as [id op t'|id op tabs|op tabs|a|a]; cbn [poa_add join_entry]; unfold rmap; try (intros [= <-]); cbn; try reflexivity.
    + intros H. apply rbind_Ok in H as [a [Ha [= <-]]]. apply mk_join_wf in Ha as [-> _]. cbn. rewrite dset_spec. rewrite eqd_seteqb. destruct (seteqb tabs l); reflexivity.
    + destruct Hc as [Hc _]. rewrite dset_spec. pose proof (eqd_seteqb (ja_join a) l _ (Some a) (dget (joins p) (mkfs l))) as E. rewrite <- Hc in E. rewrite E. destruct (seteqb (ja_join a) l); reflexivity.
  - intros [= <-]. unfold poa_set. destruct (negb ow || en); [reflexivity|]. destruct o; cbn; rewrite ?filter_true; reflexivity.
Qed.
Lemma inter_call p c q l : dwf (inters p) -> poa_call p c = Ok q ->
  dget (inters q) (mkfs l) = match inter_entry l c with Some a => Some a | None => match dget (inters p) (mkfs l) with Some x => if removes PInter x c then None else Some x | None => None end end.
Proof.
  intros Hw. assert (Hid : forall x : option nat, match x with Some y => Some y | None => None end = x) by (intros []; reflexivity).
  destruct c as [o|o en ow]; cbn [poa_call].
  - destruct o as [id op t'|id op tabs|op tabs|a|a]; cbn [poa_add inter_entry removes]; unfold rmap; try (intros [= <-]); cbn; rewrite ?Hid; try reflexivity.
    + intros H. apply rbind_Ok in H as [a [_ [= <-]]]. reflexivity.
    + rewrite dset_spec, eqd_seteqb. destruct (seteqb tabs l); reflexivity.
  - intros [= <-]. unfold poa_set. cbn [inter_entry]. destruct en, ow; cbn; rewrite ?Hid; try reflexivity.
    destruct o as [n|n|n]; cbn; rewrite ?Hid.
    + destruct (dget (inters p) (mkfs l)); reflexivity.
    + destruct (dget (inters p) (mkfs l)); reflexivity.
    + rewrite dget_filter_wf by assumption. destruct (dget (inters p) (mkfs l)) as [x|]; [|reflexivity]. cbn. destruct (Nat.eqb_spec x n) as [->|E].
      * rewrite deqb_refl. reflexivity.
      * destruct (deqb (PInter n) (PInter x)) eqn:F; [apply deqb_true in F; congruence|reflexivity].
Qed.
Lemma scan_calls cs : forall p q t, poa_calls p cs = Ok q -> dget (scans q) t = after (scan_entry t) keeps (dget (scans p) t) cs.
Proof.
  induction cs as [|c cs IH]; intros p q t; cbn; [congruence|]. intros H. apply rbind_Ok in H as [r [Hr H]]. rewrite (IH _ _ t H), (scan_call _ _ _ t Hr).
  f_equal. destruct (scan_entry t c), (dget (scans p) t); reflexivity.
Qed.
Lemma join_calls cs : forall p q l, Forall wf_call cs -> poa_calls p cs = Ok q -> dget (joins q) (mkfs l) = after (join_entry l) keeps (dget (joins p) (mkfs l)) cs.
Proof.
  induction cs as [|c cs IH]; intros p q l Hc; cbn; [congruence|]. inversion Hc as [|? ? Hc1 Hc2]; subst. intros H. apply rbind_Ok in H as [r [Hr H]]. rewrite (IH _ _ l Hc2 H), (join_call _ _ _ l Hc1 Hr).
  f_equal. destruct (join_entry l c), (dget (joins p) (mkfs l)); reflexivity.
Qed.
Lemma inter_calls cs : forall p q l, poa_wf p -> Forall wf_call cs -> poa_calls p cs = Ok q -> dget (inters q) (mkfs l) = after (inter_entry l) (removes PInter) (dget (inters p) (mkfs l)) cs.
Proof.
  induction cs as [|c cs IH]; intros p q l Hp Hc; cbn; [congruence|]. inversion Hc; subst. intros H. apply rbind_Ok in H as [r [Hr H]].
  rewrite (IH r q l) by (eauto using call_wf). f_equal. destruct Hp. now apply inter_call.
Qed.
Lemma glob_calls cs : forall p q o, poa_calls p cs = Ok q -> dget (glob q) o =
  fold_left (fun cur c => match c with KSet o' en _ => if deqb o' o then Some en else cur | _ => cur end) cs (dget (glob p) o).
Proof.
  induction cs as [|c cs IH]; intros p q o; cbn [poa_calls fold_left]; [intros [= <-]; reflexivity|]. intros H. apply rbind_Ok in H as [r [Hr H]]. rewrite (IH _ _ o H). f_equal.
  destruct c as [x|x en ow]; cbn [poa_call] in Hr.
  - destruct x as [id op t'|id op tabs|op tabs|a|a]; cbn [poa_add] in Hr; unfold rmap in Hr; try (injection Hr as <-; reflexivity). apply rbind_Ok in Hr as [a [_ [= <-]]]. reflexivity.
  - injection Hr as <-. unfold poa_set.
    assert (E : dget (dset (glob p) x en) o = if deqb x o then Some en else dget (glob p) o).
    { rewrite dset_spec. destruct (eqd o x) as [->|F]; [now rewrite deqb_refl|]. destruct (deqb x o) eqn:G; [apply deqb_true in G; congruence|reflexivity]. }
    destruct (negb ow || en); [exact E|]. destruct x; exact E.
Qed.
Lemma after_no_overwrite {X} (entry : call -> option X) kind opof cs : Forall no_overwrite cs -> forall cur, after entry (fun x => removes kind (opof x)) cur cs = after entry keeps cur cs.
Proof.
  induction 1 as [|c cs Hc Hcs IH]; intros cur; cbn; [reflexivity|]. rewrite IH. f_equal. destruct (entry c); [reflexivity|]. destruct cur as [x|]; [|reflexivity].
  destruct c as [o|o [] []]; cbn in *; try reflexivity. destruct Hc.
Qed.

(** ** Equality *)
Lemma dict_eqb_sound {K V} {E : EqD K} (veq : V -> V -> bool) (d e : dict K V) : dwf d -> dwf e -> dict_eqb veq d e = true ->
  forall k, match dget d k, dget e k with Some v, Some w => veq v w = true | None, None => True | _, _ => False end.
Proof.
  unfold dict_eqb. rewrite andb_true_iff, forallb_forall. intros Hd He [Hl H] k. apply Nat.eqb_eq in Hl.
  assert (Hincl : incl (dkeys d) (dkeys e)).
  { intros x Hx. apply in_map_iff in Hx as [[y v] [<- Hy]]. specialize (H _ Hy). cbn in *. apply dget_key. destruct (dget e y); [discriminate|discriminate H]. }
  destruct (dget d k) as [v|] eqn:Ed.
  - apply dget_In in Ed. specialize (H _ Ed). cbn in H. destruct (dget e k); [assumption|discriminate].
  - destruct (dget e k) as [w|] eqn:Ee; [|exact I]. apply dget_None in Ed. apply Ed.
    apply (NoDup_length_incl (l := dkeys d) (l' := dkeys e)); [assumption| |assumption|].
    + unfold dkeys. rewrite !map_length. lia.
    + apply dget_key. congruence.
Qed.
Lemma dict_eqb_complete {K V} {E : EqD K} (veq : V -> V -> bool) (d e : dict K V) : dwf d -> dwf e ->
  (forall k, match dget d k, dget e k with Some v, Some w => veq v w = true | None, None => True | _, _ => False end) -> dict_eqb veq d e = true.
Proof.
  intros Hd He H. unfold dict_eqb. rewrite andb_true_iff, forallb_forall. split.
  - apply Nat.eqb_eq. unfold dict in *. rewrite <- (map_length fst d), <- (map_length fst e). apply Nat.le_antisymm; apply NoDup_incl_length; try assumption.
    + intros x Hx. specialize (H x). apply dget_key in Hx. apply dget_key. destruct (dget d x), (dget e x); congruence || contradiction.
    + intros x Hx. specialize (H x). apply dget_key in Hx. apply dget_key. destruct (dget d x), (dget e x); congruence || contradiction.
  - intros [k v] Hk. cbn. specialize (H k). apply In_dget in Hk; [|assumption]. rewrite Hk in H. destruct (dget e k); [assumption|contradiction].
Qed.
Lemma sa_eqb_content a b : sa_eqb a b = true -> sa_content a = sa_content b.
Proof.
  unfold sa_eqb, sa_content, par_eqb. rewrite !andb_true_iff. intros [[H1 H2] H3]. apply Nat.eqb_eq in H1, H2. destruct (sa_par a), (sa_par b); try discriminate.
  apply Nat.eqb_eq in H3. congruence.
Qed.
Lemma ja_eqb_content a b : ja_eqb a b = true -> ja_content a = ja_content b.
Proof.
  unfold ja_eqb, ja_content, par_eqb. rewrite !andb_true_iff. intros [[[H1 H2] H3] H4]. apply Nat.eqb_eq in H1. apply deqb_true in H2. destruct (ja_par a), (ja_par b); try discriminate.
  apply Nat.eqb_eq in H3. destruct (ja_dir a) as [[i o]|], (ja_dir b) as [[i' o']|]; try discriminate; [|congruence].
  apply andb_true_iff in H4 as [H4 H5]. apply deqb_true in H4, H5. congruence.
Qed.
Lemma sa_eqb_iff a b : sa_eqb a b = true <-> sa_content a = sa_content b /\ sa_par a <> None.
Proof.
  split.
  - intros H. split; [now apply sa_eqb_content|]. unfold sa_eqb, par_eqb in H. destruct (sa_par a); [discriminate|]. rewrite andb_false_r in H. discriminate.
  - unfold sa_content, sa_eqb. intros [[= -> -> Hp] Hn]. rewrite !Nat.eqb_refl, Hp in *. destruct (sa_par b); [cbn; apply Nat.eqb_refl|congruence].
Qed.
Lemma ja_eqb_iff a b : ja_eqb a b = true <-> ja_content a = ja_content b /\ ja_par a <> None.
Proof.
  split.
  - intros H. split; [now apply ja_eqb_content|]. unfold ja_eqb, par_eqb in H. destruct (ja_par a); [discriminate|]. rewrite andb_false_r in H. discriminate.
  - unfold ja_content, ja_eqb. intros [[= -> -> Hd Hp] Hn]. rewrite Nat.eqb_refl, deqb_refl, Hd, Hp in *. destruct (ja_par b); [|congruence]. cbn. rewrite Nat.eqb_refl. cbn. destruct (ja_dir b) as [[i o]|]; [|reflexivity]. now rewrite !deqb_refl.
Qed.
Lemma poa_eqb_sound p q : poa_wf p -> poa_wf q -> coherent p q -> poa_eqb p q = true ->
  (forall o, dget (glob p) o = dget (glob q) o) /\
  (forall t, option_map sa_content (dget (scans p) t) = option_map sa_content (dget (scans q) t)) /\
  (forall l, option_map ja_content (dget (joins p) l) = option_map ja_content (dget (joins q) l)).
Proof.
  intros [Wg Wj Wi Ws Kj Ks] [Wg' Wj' Wi' Ws' Kj' Ks'] [Cs Cj]. unfold poa_eqb. rewrite !andb_true_iff. intros [[H1 H2] H3]. split; [|split].
  - intros o. pose proof (dict_eqb_sound _ _ _ Wg Wg' H1 o) as H. destruct (dget (glob p) o), (dget (glob q) o); try contradiction; [|reflexivity].
    apply eqb_prop in H. congruence.
  - intros t. pose proof (dict_eqb_sound _ _ _ Ws Ws' H2 t) as H. destruct (dget (scans p) t) as [a|] eqn:Ea, (dget (scans q) t) as [b|] eqn:Eb; try contradiction; [|reflexivity].
    cbn. f_equal. unfold sa_same in H. apply orb_true_iff in H as [H|H]; [|now apply sa_eqb_content]. apply Nat.eqb_eq in H. f_equal. apply Cs; [| |assumption]; apply in_map_iff; eexists; (split; [|eapply dget_In; eassumption]); reflexivity.
  - intros t. pose proof (dict_eqb_sound _ _ _ Wj Wj' H3 t) as H. destruct (dget (joins p) t) as [a|] eqn:Ea, (dget (joins q) t) as [b|] eqn:Eb; try contradiction; [|reflexivity].
    cbn. f_equal. unfold ja_same in H. apply orb_true_iff in H as [H|H]; [|now apply ja_eqb_content]. apply Nat.eqb_eq in H. f_equal. apply Cj; [| |assumption]; apply in_map_iff; eexists; (split; [|eapply dget_In; eassumption]); reflexivity.
Qed.
Lemma poa_eqb_refl p : poa_wf p -> poa_eqb p p = true.
Proof.
  intros []. unfold poa_eqb. rewrite !andb_true_iff. repeat split; (apply dict_eqb_complete; [assumption|assumption|]).
  - intros k. destruct (dget (glob p) k); [apply eqb_reflx|exact I].
  - intros k. destruct (dget (scans p) k); [|exact I]. unfold sa_same. now rewrite Nat.eqb_refl.
  - intros k. destruct (dget (joins p) k); [|exact I]. unfold ja_same. now rewrite Nat.eqb_refl.
Qed.

(** ** Memory *)
Arguments upd : simpl never.
Definition apart (n : nat) (h : heap) : Prop :=
  (forall v, v < n -> rg (var h v) < next h /\ rj (var h v) < next h /\ ri (var h v) < next h /\ rs (var h v) < next h) /\
  (forall v w, v < n -> w < n -> v <> w -> rg (var h v) <> rg (var h w) /\ rj (var h v) <> rj (var h w) /\ ri (var h v) <> ri (var h w) /\ rs (var h v) <> rs (var h w)).
Lemma upd_same {X} (f : nat -> X) k x : upd f k x k = x. Proof. unfold upd. now rewrite Nat.eqb_refl. Qed.
Lemma upd_other {X} (f : nat -> X) k x i : i <> k -> upd f k x i = f i. Proof. unfold upd. intros H. now destruct (Nat.eqb_spec i k). Qed.
Lemma apart_cell n h c : apart n h -> apart n (mkheap c (next h) (var h)).
Proof. intros H. exact H. Qed.
Lemma alloc_apart n h v p : v < n -> apart n h -> apart n (alloc h v p).
Proof.
  intros Hv [H1 H2]. split.
  - intros w Hw. cbn. destruct (Nat.eq_dec w v) as [->|E]; [rewrite upd_same; cbn; lia|]. rewrite upd_other by assumption. specialize (H1 w Hw). lia.
  - intros w u Hw Hu Hne. cbn. destruct (Nat.eq_dec w v) as [->|E], (Nat.eq_dec u v) as [->|F]; try contradiction;
      rewrite ?upd_same, ?upd_other by assumption; cbn; [specialize (H1 u Hu)|specialize (H1 w Hw)|apply H2; assumption]; lia.
Qed.
Lemma alloc_view n h v p w : v < n -> w < n -> apart n h -> view (alloc h v p) w = upd (view h) v p w.
Proof.
  intros Hv Hw [H1 _]. unfold view. cbn. destruct (Nat.eq_dec w v) as [->|E].
  - rewrite !upd_same. cbn. rewrite ?upd_same. now destruct p.
  - rewrite !(upd_other _ v) by assumption. specialize (H1 w Hw). rewrite !upd_other by lia. reflexivity.
Qed.
Lemma put_glob_view n h v d w : v < n -> w < n -> apart n h -> view (put_glob h v d) w = upd (view h) v (let q := view h v in mkpoa d (joins q) (inters q) (scans q)) w.
Proof.
  intros Hv Hw [_ H2]. unfold view, put_glob. cbn. unfold upd. destruct (Nat.eqb_spec w v) as [->|E].
  - rewrite Nat.eqb_refl. cbn. f_equal.
    + destruct (Nat.eqb_spec (rj (var h v)) (rg (var h v))) as [F|F]; [now rewrite F|reflexivity].
    + destruct (Nat.eqb_spec (ri (var h v)) (rg (var h v))) as [F|F]; [now rewrite F|reflexivity].
    + destruct (Nat.eqb_spec (rs (var h v)) (rg (var h v))) as [F|F]; [now rewrite F|reflexivity].
  - specialize (H2 w v Hw Hv E). f_equal.
    + destruct (Nat.eqb_spec (rg (var h w)) (rg (var h v))) as [F|F]; [lia|reflexivity].
    + destruct (Nat.eqb_spec (rj (var h w)) (rg (var h v))) as [F|F]; [now rewrite F|reflexivity].
    + destruct (Nat.eqb_spec (ri (var h w)) (rg (var h v))) as [F|F]; [now rewrite F|reflexivity].
    + destruct (Nat.eqb_spec (rs (var h w)) (rg (var h v))) as [F|F]; [now rewrite F|reflexivity].
Qed.
Lemma put_joins_view n h v d w : v < n -> w < n -> apart n h -> view (put_joins h v d) w = upd (view h) v (let q := view h v in mkpoa (glob q) d (inters q) (scans q)) w.
Proof.
  intros Hv Hw [_ H2]. unfold view, put_joins. cbn. unfold upd. destruct (Nat.eqb_spec w v) as [->|E].
  - rewrite Nat.eqb_refl. cbn. f_equal.
    + destruct (Nat.eqb_spec (rg (var h v)) (rj (var h v))) as [F|F]; [now rewrite F|reflexivity].
    + destruct (Nat.eqb_spec (ri (var h v)) (rj (var h v))) as [F|F]; [now rewrite F|reflexivity].
    + destruct (Nat.eqb_spec (rs (var h v)) (rj (var h v))) as [F|F]; [now rewrite F|reflexivity].
  - specialize (H2 w v Hw Hv E). f_equal.
    + destruct (Nat.eqb_spec (rg (var h w)) (rj (var h v))) as [F|F]; [now rewrite F|reflexivity].
    + destruct (Nat.eqb_spec (rj (var h w)) (rj (var h v))) as [F|F]; [lia|reflexivity].
    + destruct (Nat.eqb_spec (ri (var h w)) (rj (var h v))) as [F|F]; [now rewrite F|reflexivity].
    + destruct (Nat.eqb_spec (rs (var h w)) (rj (var h v))) as [F|F]; [now rewrite F|reflexivity].
Qed.
Lemma put_inters_view n h v d w : v < n -> w < n -> apart n h -> view (put_inters h v d) w = upd (view h) v (let q := view h v in mkpoa (glob q) (joins q) d (scans q)) w.
Proof.
  intros Hv Hw [_ H2]. unfold view, put_inters. cbn. unfold upd. destruct (Nat.eqb_spec w v) as [->|E].
  - rewrite Nat.eqb_refl. cbn. f_equal.
    + destruct (Nat.eqb_spec (rg (var h v)) (ri (var h v))) as [F|F]; [now rewrite F|reflexivity].
    + destruct (Nat.eqb_spec (rj (var h v)) (ri (var h v))) as [F|F]; [now rewrite F|reflexivity].
    + destruct (Nat.eqb_spec (rs (var h v)) (ri (var h v))) as [F|F]; [now rewrite F|reflexivity].
  - specialize (H2 w v Hw Hv E). f_equal.
    + destruct (Nat.eqb_spec (rg (var h w)) (ri (var h v))) as [F|F]; [now rewrite F|reflexivity].
    + destruct (Nat.eqb_spec (rj (var h w)) (ri (var h v))) as [F|F]; [now rewrite F|reflexivity].
    + destruct (Nat.eqb_spec (ri (var h w)) (ri (var h v))) as [F|F]; [lia|reflexivity].
    + destruct (Nat.eqb_spec (rs (var h w)) (ri (var h v))) as [F|F]; [now rewrite F|reflexivity].
Qed.
Lemma put_scans_view n h v d w : v < n -> w < n -> apart n h -> view (put_scans h v d) w = upd (view h) v (let q := view h v in mkpoa (glob q) (joins q) (inters q) d) w.
Proof.
  intros Hv Hw [_ H2]. unfold view, put_scans. cbn. unfold upd. destruct (Nat.eqb_spec w v) as [->|E].
  - rewrite Nat.eqb_refl. cbn. f_equal.
    + destruct (Nat.eqb_spec (rg (var h v)) (rs (var h v))) as [F|F]; [now rewrite F|reflexivity].
    + destruct (Nat.eqb_spec (rj (var h v)) (rs (var h v))) as [F|F]; [now rewrite F|reflexivity].
    + destruct (Nat.eqb_spec (ri (var h v)) (rs (var h v))) as [F|F]; [now rewrite F|reflexivity].
  - specialize (H2 w v Hw Hv E). f_equal.
    + destruct (Nat.eqb_spec (rg (var h w)) (rs (var h v))) as [F|F]; [now rewrite F|reflexivity].
    + destruct (Nat.eqb_spec (rj (var h w)) (rs (var h v))) as [F|F]; [now rewrite F|reflexivity].
    + destruct (Nat.eqb_spec (ri (var h w)) (rs (var h v))) as [F|F]; [now rewrite F|reflexivity].
    + destruct (Nat.eqb_spec (rs (var h w)) (rs (var h v))) as [F|F]; [lia|reflexivity].
Qed.
Lemma upd_ext {X} (f g : nat -> X) k x w : (forall i, i = w -> f i = g i) -> upd f k x w = upd g k x w.
Proof. intros H. unfold upd. destruct (w =? k); auto. Qed.
Lemma step_apart n h c : (forall v, In v (cmd_vars c) -> v < n) -> apart n h -> apart n (h_step h c).
Proof.
  intros Hv Ha. destruct c as [v|v o|v o en ow|v w|u v w|v w]; cbn [h_step cmd_vars] in *.
  - apply alloc_apart; [apply Hv; now left|assumption].
  - destruct o as [id op t|id op tabs|op tabs|a|a]; try exact Ha. destruct (mk_join id op tabs None); exact Ha.
  - destruct (negb ow || en); [exact Ha|].
    assert (Hn : v < n) by (apply Hv; now left). destruct Ha as [H1 H2].
    destruct o; (split;
    [intros x Hx; cbn; destruct (Nat.eq_dec x v) as [->|E]; [rewrite upd_same; cbn; specialize (H1 v Hn); lia|rewrite upd_other by assumption; specialize (H1 x Hx); lia]
    |intros x y Hx Hy Hne; cbn; specialize (H2 x y Hx Hy Hne); destruct (Nat.eq_dec x v) as [->|E], (Nat.eq_dec y v) as [->|F]; try contradiction;
      rewrite ?upd_same, ?upd_other by assumption; cbn; [specialize (H1 y Hy)|specialize (H1 x Hx)|]; lia]).
  - apply alloc_apart; [apply Hv; right; now left|assumption].
  - apply alloc_apart; [apply Hv; right; right; now left|assumption].
  - apply alloc_apart; [apply Hv; right; now left|assumption].
Qed.
Lemma rebind_view n h v w r d : v < n -> w < n -> apart n h ->
  (r = 0 -> view (mkheap (upd (cell h) (next h) (mkpoa [] [] [] (scans d))) (S (next h)) (upd (var h) v (mkobj (rg (var h v)) (rj (var h v)) (ri (var h v)) (next h)))) w
     = upd (view h) v (let q := view h v in mkpoa (glob q) (joins q) (inters q) (scans d)) w) /\
  (r = 1 -> view (mkheap (upd (cell h) (next h) (mkpoa [] (joins d) [] [])) (S (next h)) (upd (var h) v (mkobj (rg (var h v)) (next h) (ri (var h v)) (rs (var h v))))) w
     = upd (view h) v (let q := view h v in mkpoa (glob q) (joins d) (inters q) (scans q)) w) /\
  (r = 2 -> view (mkheap (upd (cell h) (next h) (mkpoa [] [] (inters d) [])) (S (next h)) (upd (var h) v (mkobj (rg (var h v)) (rj (var h v)) (next h) (rs (var h v))))) w
     = upd (view h) v (let q := view h v in mkpoa (glob q) (joins q) (inters d) (scans q)) w).
Proof.
  intros Hv Hw [H1 _]. repeat split; intros _; unfold view; cbn; (destruct (Nat.eq_dec w v) as [->|E];
    [rewrite !upd_same; cbn; rewrite ?upd_same; specialize (H1 v Hv); rewrite !upd_other by lia; reflexivity
    |rewrite !(upd_other _ v) by assumption; specialize (H1 w Hw); rewrite !upd_other by lia; reflexivity]).
Qed.
Lemma step_view n h c : (forall v, In v (cmd_vars c) -> v < n) -> apart n h -> forall w, w < n -> view (h_step h c) w = s_step (view h) c w.
Proof.
  intros Hv Ha w Hw. destruct c as [v|v o|v o en ow|v x|u v x|v x]; cbn [h_step s_step cmd_vars] in *.
  - apply (alloc_view n); [apply Hv; now left|assumption|assumption].
  - assert (Hn : v < n) by (apply Hv; now left). destruct o as [id op t|id op tabs|op tabs|a|a]; cbn [poa_add].
    + apply (put_scans_view n); assumption.
    + destruct (mk_join id op tabs None) as [a|e]; cbn [rmap rbind]; [|reflexivity]. apply (put_joins_view n); assumption.
    + apply (put_inters_view n); assumption.
    + apply (put_scans_view n); assumption.
    + apply (put_joins_view n); assumption.
  - assert (Hn : v < n) by (apply Hv; now left). unfold poa_set.
    assert (Hp := fun d x => put_glob_view n h v d x Hn). set (h' := put_glob h v (dset (glob (view h v)) o en)).
    assert (Ha' : apart n h') by exact Ha.
    assert (Hvv : view h' v = mkpoa (dset (glob (view h v)) o en) (joins (view h v)) (inters (view h v)) (scans (view h v))).
    { unfold h'. rewrite Hp by assumption. now rewrite upd_same. }
    destruct (negb ow || en); [apply Hp; assumption|].
    assert (Hgen : forall P, upd (view h') v P w = upd (view h) v P w).
    { intros P. unfold upd at 1 2. destruct (Nat.eqb_spec w v) as [->|E]; [reflexivity|]. unfold h'. rewrite Hp by assumption. now rewrite upd_other. }
    destruct o as [k|k|k].
    + rewrite (proj1 (rebind_view n h' v w 0 (view h' v) Hn Hw Ha') eq_refl). rewrite Hgen, Hvv. cbn. now rewrite filter_true.
    + rewrite (proj1 (proj2 (rebind_view n h' v w 1 (view h' v) Hn Hw Ha')) eq_refl). rewrite Hgen, Hvv. cbn. now rewrite filter_true.
    + pose proof (proj2 (proj2 (rebind_view n h' v w 2 (mkpoa [] [] (filter (fun e => negb (snd e =? k)) (inters (view h' v))) []) Hn Hw Ha')) eq_refl) as H. cbn [inters] in H.
      rewrite H, Hgen, Hvv. reflexivity.
  - rewrite (alloc_view n); [|apply Hv; right; now left|assumption|assumption]. unfold poa_clone. now destruct (view h v).
  - apply (alloc_view n); [apply Hv; right; right; now left|assumption|assumption].
  - apply (alloc_view n); [apply Hv; right; now left|assumption|assumption].
Qed.
Lemma s_step_ext n c e e' : (forall v, In v (cmd_vars c) -> v < n) -> (forall w, w < n -> e w = e' w) -> forall w, w < n -> s_step e c w = s_step e' c w.
Proof.
  intros Hv He w Hw. destruct c as [v|v o|v o en ow|v x|u v x|v x]; cbn [s_step cmd_vars] in *.
  - unfold upd. destruct (w =? v); auto.
  - rewrite (He v) by (apply Hv; now left). destruct (poa_add (e' v) o); [|auto]. unfold upd. destruct (w =? v); auto.
  - rewrite (He v) by (apply Hv; now left). unfold upd. destruct (w =? v); auto.
  - rewrite (He v) by (apply Hv; now left). unfold upd. destruct (w =? x); auto.
  - rewrite (He v) by (apply Hv; right; now left). rewrite (He u) by (apply Hv; now left). unfold upd. destruct (w =? x); auto.
  - rewrite (He v) by (apply Hv; now left). unfold upd. destruct (w =? x); auto.
Qed.
Lemma run_view n cs : Forall (fun c => forall v, In v (cmd_vars c) -> v < n) cs -> forall h e, apart n h -> (forall w, w < n -> view h w = e w) ->
  forall w, w < n -> view (h_run h cs) w = s_run e cs w.
Proof.
  induction 1 as [|c cs Hc Hcs IH]; intros h e Ha He w Hw; cbn; [auto|]. apply IH; [now apply step_apart| |assumption].
  intros x Hx. rewrite (step_view n) by assumption. now apply (s_step_ext n).
Qed.
Lemma init_apart n : apart n (h_init n).
Proof. split; intros; cbn in *; lia. Qed.

(** ** Integrating workers *)
Lemma in_joins p l a : poa_wf p -> dget (joins p) l = Some a -> l = ja_join a /\ wf_join a.
Proof. intros [] H. apply dget_In in H. auto. Qed.
Definition with_workers (a : jassign) (w : nat) := (ja_op a, ja_join a, ja_dir a, Some w).
Definition joinkey (tabs : fs) : Prop := tabs = mkfs tabs /\ 2 <= length tabs.
Lemma len1 (n : nat) : 2 <= n -> n =? 1 = false.
Proof. intros H. apply Nat.eqb_neq. lia. Qed.
Lemma rebuild fresh a w : wf_join a -> 2 <= length (ja_join a) ->
  match ja_dir a with Some (i, o) => mk_dirjoin fresh (ja_op a) i o (Some w) | None => mk_join fresh (ja_op a) (ja_join a) (Some w) end
  = Ok (mkja fresh (ja_op a) (ja_join a) (ja_dir a) (Some w)).
Proof.
  intros [Hj [_ Hd]] Hl. destruct (ja_dir a) as [[i o]|].
  - destruct Hd as (Hi & Ho & Ei & Eo & Ej & _). unfold mk_dirjoin. destruct i as [|x i]; [contradiction|]. destruct o as [|y o]; [contradiction|].
    rewrite <- Ei, <- Eo, <- Ej. destruct (Nat.ltb_spec (length (ja_join a)) 2); [lia|reflexivity].
  - unfold mk_join. destruct (Nat.ltb_spec (length (ja_join a)) 2); [lia|]. now rewrite <- Hj.
Qed.
Lemma set_join_get p a l : dget (joins (poa_set_join p a)) l = if eqd l (ja_join a) then Some a else dget (joins p) l.
Proof. cbn. apply dset_spec. Qed.
Lemma integrate_ok ws : forall fresh p, poa_wf p -> dwf ws -> (forall k w, In (k, w) ws -> k = mkfs k) -> 
  exists q, poa_integrate fresh p ws false = Ok q /\ poa_wf q /\ glob q = glob p /\ inters q = inters p /\ scans q = scans p /\
    forall l, 2 <= length l -> option_map ja_content (dget (joins q) l) =
      match dget (joins p) l with
      | Some a => Some (match dget ws l with Some w => with_workers a w | None => ja_content a end)
      | None => None
      end.
Proof.
  induction ws as [|[k w] ws IH]; intros fresh p Hp Hw Hk; cbn [poa_integrate].
  - exists p. split; [reflexivity|]. split; [assumption|]. do 3 (split; [reflexivity|]). intros l Hl. cbn. destruct (dget (joins p) l); reflexivity.
  - inversion Hw as [|? ? Hnin Hws]; subst. assert (Ek : k = mkfs k) by (apply (Hk k w); now left).
    assert (Hk' : forall k w, In (k, w) ws -> k = mkfs k) by (intros; eapply Hk; right; eassumption).
    cbn [poa_get]. rewrite <- Ek. destruct (Nat.eqb_spec (length k) 1) as [E1|E1]; cbn [rbind].
    + destruct (IH (S fresh) p Hp Hws Hk') as (q & Hq & Hqw & Hg & Hi & Hs & Hj). exists q. split; [assumption|]. split; [assumption|]. do 3 (split; [assumption|]).
      intros l Hl. rewrite Hj by assumption. cbn [dget]. destruct (eqd l k) as [->|_]; [lia|reflexivity].
    + destruct (dget (joins p) k) as [a|] eqn:Ea.
      * destruct (in_joins p k a Hp Ea) as [Eka Hwa]. assert (Hl2 : 2 <= length (ja_join a)) by (destruct Hwa as [_ [Hl _]]; rewrite <- Eka in *; destruct k as [|? [|]]; cbn in *; [congruence|lia|lia]).
        rewrite (rebuild fresh a w Hwa Hl2). cbn [rbind]. set (b := mkja fresh (ja_op a) (ja_join a) (ja_dir a) (Some w)).
        assert (Hwb : wf_join b) by exact Hwa.
        destruct (IH (S fresh) (poa_set_join p b) (set_join_wf p b Hp Hwb) Hws Hk') as (q & Hq & Hqw & Hg & Hi & Hs & Hj). exists q. split; [assumption|]. split; [assumption|]. do 3 (split; [assumption|]).
        intros l Hl. rewrite Hj by assumption. rewrite set_join_get. cbn [dget]. change (ja_join b) with (ja_join a). rewrite <- Eka. destruct (eqd l k) as [->|_]; [|reflexivity].
        rewrite Ea. assert (En : dget ws k = None) by (apply dget_None; assumption). rewrite En. reflexivity.
      * destruct (IH (S fresh) p Hp Hws Hk') as (q & Hq & Hqw & Hg & Hi & Hs & Hj). exists q. split; [assumption|]. split; [assumption|]. do 3 (split; [assumption|]).
        intros l Hl. rewrite Hj by assumption. cbn [dget]. destruct (eqd l k) as [->|_]; [rewrite Ea|]; reflexivity.
Qed.
Lemma integrate_fail ws : forall fresh p, poa_wf p -> dwf ws -> (forall k w, In (k, w) ws -> k = mkfs k) ->
  (exists k w, In (k, w) ws /\ (length k = 1 \/ dget (joins p) k = None)) -> poa_integrate fresh p ws true = Raise ValueError.
Proof.
  induction ws as [|[k w] ws IH]; intros fresh p Hp Hw Hk (k' & w' & Hin & Hm); [destruct Hin|].
  inversion Hw as [|? ? Hnin Hws]; subst. assert (Ek : k = mkfs k) by (apply (Hk k w); now left).
  assert (Hk' : forall k w, In (k, w) ws -> k = mkfs k) by (intros; eapply Hk; right; eassumption).
  cbn [poa_integrate poa_get]. rewrite <- Ek. destruct (Nat.eqb_spec (length k) 1) as [E1|E1]; cbn [rbind]; [reflexivity|].
  destruct (dget (joins p) k) as [a|] eqn:Ea; [|reflexivity].
  destruct (in_joins p k a Hp Ea) as [Eka Hwa]. assert (Hl2 : 2 <= length (ja_join a)) by (destruct Hwa as [_ [Hl _]]; rewrite <- Eka in *; destruct k as [|? [|]]; cbn in *; [congruence|lia|lia]).
  rewrite (rebuild fresh a w Hwa Hl2). cbn [rbind]. set (b := mkja fresh (ja_op a) (ja_join a) (ja_dir a) (Some w)).
  apply IH; [now apply set_join_wf|assumption|assumption|]. exists k', w'.
  destruct Hin as [[= -> ->]|Hin]; [destruct Hm as [Hm|Hm]; [contradiction|congruence]|]. split; [assumption|]. destruct Hm as [Hm|Hm]; [now left|right].
  rewrite set_join_get. change (ja_join b) with (ja_join a). rewrite <- Eka. destruct (eqd k' k) as [->|_]; [congruence|assumption].
Qed.
Lemma integrate_nofail ws : forall fresh p, poa_wf p -> dwf ws -> (forall k w, In (k, w) ws -> k = mkfs k) ->
  (forall k w, In (k, w) ws -> length k <> 1 /\ dget (joins p) k <> None) -> poa_integrate fresh p ws true = poa_integrate fresh p ws false.
Proof.
  induction ws as [|[k w] ws IH]; intros fresh p Hp Hw Hk Hm; [reflexivity|].
  inversion Hw as [|? ? Hnin Hws]; subst. assert (Ek : k = mkfs k) by (apply (Hk k w); now left).
  assert (Hk' : forall k w, In (k, w) ws -> k = mkfs k) by (intros; eapply Hk; right; eassumption).
  destruct (Hm k w (or_introl eq_refl)) as [Hm1 Hm2].
  cbn [poa_integrate poa_get]. rewrite <- Ek. destruct (Nat.eqb_spec (length k) 1) as [E1|E1]; [contradiction|]. cbn [rbind].
  destruct (dget (joins p) k) as [a|] eqn:Ea; [|congruence].
  destruct (in_joins p k a Hp Ea) as [Eka Hwa]. assert (Hl2 : 2 <= length (ja_join a)) by (destruct Hwa as [_ [Hl _]]; rewrite <- Eka in *; destruct k as [|? [|]]; cbn in *; [congruence|lia|lia]).
  rewrite (rebuild fresh a w Hwa Hl2). cbn [rbind]. set (b := mkja fresh (ja_op a) (ja_join a) (ja_dir a) (Some w)).
  apply IH; [now apply set_join_wf|assumption|assumption|]. intros k' w' Hin. destruct (Hm k' w' (or_intror Hin)) as [Hm3 Hm4]. split; [assumption|].
  rewrite set_join_get. destruct (eqd k' (ja_join b)); [discriminate|assumption].
Qed.

(** ** JSON *)
Lemma mkfs_dedup l : length (mkfs l) = length (dedup l).
Proof.
  apply Nat.le_antisymm; (apply NoDup_incl_length; [first [apply mkfs_NoDup|apply dedup_NoDup]|intros x Hx]).
  - apply dedup_In. exact (proj1 (mkfs_In _ _) Hx).
  - apply mkfs_In. exact (proj1 (dedup_In _ _) Hx).
Qed.
Section Numbered.
  Context {K V W : Type} {E : EqD K} (mk : nat -> K -> V -> W).
  Definition nmap (fresh : nat) (L : list (K * V)) : list (K * W) := map (fun e => (fst (snd e), mk (fst e) (fst (snd e)) (snd (snd e)))) (numbered fresh L).
  Lemma nmap_cons fresh k v L : nmap fresh ((k, v) :: L) = (k, mk fresh k v) :: nmap (S fresh) L.
  Proof. reflexivity. Qed.
  Lemma nmap_keys L : forall fresh, dkeys (nmap fresh L) = dkeys L.
  Proof. induction L as [|[k v] L IH]; intros fresh; [reflexivity|]. rewrite nmap_cons. cbn [dkeys map fst]. f_equal. apply IH. Qed.
  Lemma nmap_get L k : forall fresh, match dget L k with
    | Some v => exists i, fresh <= i < fresh + length L /\ dget (nmap fresh L) k = Some (mk i k v)
    | None => dget (nmap fresh L) k = None end.
  Proof.
    induction L as [|[k' v] L IH]; intros fresh; [reflexivity|]. rewrite nmap_cons. cbn [dget]. destruct (eqd k k') as [->|_].
    - exists fresh. cbn. split; [lia|reflexivity].
    - specialize (IH (S fresh)). destruct (dget L k); [|assumption]. destruct IH as [i [Hi He]]. exists i. cbn. split; [lia|assumption].
  Qed.
  Lemma nmap_dict fresh L k : dwf L -> match dget L k with
    | Some v => exists i, fresh <= i < fresh + length L /\ dget (dict_of (nmap fresh L)) k = Some (mk i k v)
    | None => dget (dict_of (nmap fresh L)) k = None end.
  Proof.
    intros HL. assert (Hw : dwf (nmap fresh L)) by (unfold dwf; rewrite nmap_keys; assumption). rewrite dict_of_spec, lastval_wf by assumption. apply nmap_get.
  Qed.
End Numbered.
Lemma values_get {K A B} {E : EqD K} (key : A -> K) (val : A -> B) (d : dict K A) : (forall k a, In (k, a) d -> k = key a) ->
  dkeys (map (fun a => (key a, val a)) (dvalues d)) = dkeys d /\ forall k, dget (map (fun a => (key a, val a)) (dvalues d)) k = option_map val (dget d k).
Proof.
  induction d as [|[k' a] d IH]; intros H; cbn; [split; reflexivity|]. destruct (IH (fun k b Hk => H k b (or_intror Hk))) as [IH1 IH2].
  rewrite <- (H k' a (or_introl eq_refl)). split; [cbn in *; now f_equal|]. intros k. destruct (eqd k k'); [reflexivity|apply IH2].
Qed.
Lemma dict_of_wf {K V} {E : EqD K} (d : dict K V) k : dwf d -> dget (dict_of d) k = dget d k.
Proof. intros H. now rewrite dict_of_spec, lastval_wf. Qed.
Lemma read_joins (L : list (fs * nat)) : forall fresh, (forall k op, In (k, op) L -> k = mkfs k /\ 2 <= length k) ->
  rmapM (fun e => rmap (fun a => (fst (snd e), a)) (mk_join (fst e) (snd (snd e)) (fst (snd e)) None)) (numbered fresh L)
  = Ok (nmap (fun i k op => mkja i op k None None) fresh L).
Proof.
  induction L as [|[k op] L IH]; intros fresh H; [reflexivity|]. rewrite nmap_cons. unfold numbered. cbn [length seq combine rmapM]. cbn [fst snd].
  destruct (H k op (or_introl eq_refl)) as [Hk Hl]. unfold mk_join at 1. destruct (Nat.ltb_spec (length k) 2); [lia|]. cbn [rmap rbind]. rewrite <- Hk.
  fold (numbered (S fresh) L). rewrite IH by (intros k0 op0 Hk0; apply (H k0 op0); now right). reflexivity.
Qed.
Lemma json_ok fresh p : poa_wf p -> (forall k a, In (k, a) (joins p) -> 2 <= length k) ->
  exists q, poa_read fresh (poa_json p) = Ok q /\ (forall o, dget (glob q) o = dget (glob p) o) /\ (forall l, dget (inters q) l = dget (inters p) l) /\
    (forall t, match dget (scans p) t with Some a => exists i, fresh <= i /\ dget (scans q) t = Some (mksa i (sa_op a) t None) | None => dget (scans q) t = None end) /\
    (forall l, match dget (joins p) l with Some a => exists i, fresh <= i /\ dget (joins q) l = Some (mkja i (ja_op a) l None None) | None => dget (joins q) l = None end) /\
    poa_wf q.
Proof.
  intros [Wg Wj Wi Ws Kj Ks] Hl. unfold poa_read. destruct (values_get sa_tab sa_op (scans p)) as [S1 S2]; [assumption|]. destruct (values_get ja_join ja_op (joins p)) as [J1 J2]; [intros k a H; now apply Kj|].
  cbn [j_glob j_scans j_joins j_inters poa_json]. set (LS := map (fun a => (sa_tab a, sa_op a)) (dvalues (scans p))) in *. set (LJ := map (fun a => (ja_join a, ja_op a)) (dvalues (joins p))) in *.
  assert (WS : dwf LS) by (unfold dwf; rewrite S1; assumption). assert (WJ : dwf LJ) by (unfold dwf; rewrite J1; assumption).
  assert (HJ : forall k op, In (k, op) LJ -> k = mkfs k /\ 2 <= length k).
  { intros k op H. unfold LJ in H. apply in_map_iff in H as [a [Ha H]]. injection Ha as <- <-. apply in_map_iff in H as [[k b] [<- H]]. cbn. destruct (Kj _ _ H) as [E [Hj _]]. split; [assumption|]. rewrite <- E. eapply Hl. eassumption. }
  rewrite read_joins by assumption. cbn [rbind]. eexists. split; [reflexivity|]. cbn [glob inters scans joins].
  change (map (fun e => (fst (snd e), mksa (fst e) (snd (snd e)) (fst (snd e)) None)) (numbered fresh LS)) with (nmap (fun i k op => mksa i op k None) fresh LS).
  split; [intros o; now apply dict_of_wf|]. split; [intros l; now apply dict_of_wf|]. split; [|split].
  - intros t. pose proof (nmap_dict (fun i k op => mksa i op k None) fresh LS t WS) as H. rewrite S2 in H. destruct (dget (scans p) t); cbn in H; [|assumption]. destruct H as [i [Hi H]]. exists i. split; [lia|assumption].
  - intros l. pose proof (nmap_dict (fun i k op => mkja i op k None None) (fresh + length LS) LJ l WJ) as H. rewrite J2 in H. destruct (dget (joins p) l); cbn in H; [|assumption]. destruct H as [i [Hi H]]. exists i. split; [lia|assumption].
  - constructor; cbn [glob inters scans joins]; try apply dwf_dict_of.
    + intros k a H. apply In_dget in H; [|apply dwf_dict_of]. pose proof (nmap_dict (fun i k op => mkja i op k None None) (fresh + length LS) LJ k WJ) as G. rewrite J2 in G. destruct (dget (joins p) k) as [b|] eqn:Eb; cbn in G; [|congruence].
      destruct G as [i [_ G]]. rewrite G in H. injection H as <-. cbn. split; [reflexivity|]. apply dget_In in Eb. destruct (Kj _ _ Eb) as [-> [Hk [Hn _]]]. repeat split; assumption.
    + intros k a H. apply In_dget in H; [|apply dwf_dict_of]. pose proof (nmap_dict (fun i k op => mksa i op k None) fresh LS k WS) as G. rewrite S2 in G. destruct (dget (scans p) k) as [b|] eqn:Eb; cbn in G; [|congruence].
      destruct G as [i [_ G]]. rewrite G in H. injection H as <-. reflexivity.
Qed.
