(** Lemmas about workloads. *)
From Coq Require Import List Bool Arith ZArith Lia String Permutation.
From Verif Require Import PyBase Ident_model Dicts_model Work_model Work_spec.
Import ListNotations.

Lemma rmapM_firstn {A B} (f : A -> res B) n : forall l r, rmapM f l = Ok r -> rmapM f (firstn n l) = Ok (firstn n r).
Proof.
  induction n as [|n IH]; intros l r H; [reflexivity|]. destruct l as [|a l]; cbn in *; [injection H as <-; reflexivity|]. destruct (f a) as [b|e]; [|discriminate]. cbn in *. destruct (rmapM f l) as [bs|e] eqn:E; [|discriminate]. cbn in *. injection H as <-. now rewrite (IH l bs E).
Qed.
Lemma rmapM_skipn {A B} (f : A -> res B) n : forall l r, rmapM f l = Ok r -> rmapM f (skipn n l) = Ok (skipn n r).
Proof.
  induction n as [|n IH]; intros l r H; [exact H|]. destruct l as [|a l]; cbn in *; [injection H as <-; reflexivity|]. destruct (f a) as [b|e]; [|discriminate]. cbn in *. destruct (rmapM f l) as [bs|e] eqn:E; [|discriminate]. cbn in *. injection H as <-. now apply IH.
Qed.
Lemma rmapM_length {A B} (f : A -> res B) : forall l r, rmapM f l = Ok r -> List.length r = List.length l.
Proof.
  induction l as [|a l IH]; intros r H; cbn in *; [injection H as <-; reflexivity|]. destruct (f a) as [b|e]; [|discriminate]. cbn in *. destruct (rmapM f l) as [bs|e] eqn:E; [|discriminate]. cbn in *. injection H as <-. cbn. f_equal. now apply IH.
Qed.
Lemma skipn_combine {A B} n : forall (l : list A) (m : list B), skipn n (combine l m) = combine (skipn n l) (skipn n m).
Proof. induction n as [|n IH]; intros l m; [reflexivity|]. destruct l as [|a l], m as [|b m]; cbn; try reflexivity; [now rewrite combine_nil|apply IH]. Qed.
Lemma firstn_incl {A} n (l : list A) : incl (firstn n l) l.
Proof. intros x Hx. rewrite <- (firstn_skipn n l). apply in_or_app. now left. Qed.
Lemma skipn_incl {A} n (l : list A) : incl (skipn n l) l.
Proof. intros x Hx. rewrite <- (firstn_skipn n l). apply in_or_app. now right. Qed.
Lemma NoDup_app_l {A} (l m : list A) : NoDup (l ++ m) -> NoDup l.
Proof. induction l as [|a l IH]; intros H; [constructor|]. cbn in H. inversion H as [|? ? H1 H2]; subst. constructor; [|auto]. intros Ha. apply H1. apply in_or_app. now left. Qed.
Lemma NoDup_app_r {A} (l m : list A) : NoDup (l ++ m) -> NoDup m.
Proof. induction l as [|a l IH]; intros H; [exact H|]. cbn in H. inversion H; subst. auto. Qed.
Lemma NoDup_firstn {A} n (l : list A) : NoDup l -> NoDup (firstn n l).
Proof. intros H. rewrite <- (firstn_skipn n l) in H. now apply NoDup_app_l in H. Qed.
Lemma NoDup_skipn {A} n (l : list A) : NoDup l -> NoDup (skipn n l).
Proof. intros H. rewrite <- (firstn_skipn n l) in H. now apply NoDup_app_r in H. Qed.
Lemma lastval_In' {K V} {EK : EqD K} (l : list (K * V)) k v : lastval l k = Some v -> In (k, v) l.
Proof.
  induction l as [|[k' v'] l IH]; cbn; [discriminate|]. destruct (lastval l k) as [x|] eqn:E; [intros [= ->]; right; auto|]. destruct (eqd k k') as [->|]; [intros [= ->]; now left|discriminate].
Qed.
Lemma lastval_some' {K V} {EK : EqD K} (l : list (K * V)) k v : In (k, v) l -> exists v', lastval l k = Some v'.
Proof.
  induction l as [|[k' v'] l IH]; cbn; [easy|]. intros [[= -> ->]|H]; [|destruct (IH H) as [x ->]; eauto]. destruct (lastval l k); [eauto|]. destruct (eqd k k); [eauto|contradiction].
Qed.
Lemma lastval_unique {K V} {EK : EqD K} (l : list (K * V)) k v : NoDup (map fst l) -> (lastval l k = Some v <-> In (k, v) l).
Proof. intros H. rewrite (lastval_wf l k H). now apply dget_iff. Qed.
Lemma str_app_inj p : forall a b, (p ++ a = p ++ b)%string -> a = b.
Proof. induction p as [|c p IH]; intros a b H; [exact H|]. cbn in H. injection H as H. auto. Qed.

Section W.
  Context {L Q : Type} {EL : EqD L} {EQ : EqD Q} (nsort : list L -> list L) (Hsort : sorts nsort).
  Definition good (w : workload L Q) : Prop :=
    dwf (w_data w) /\ Permutation (w_labels w) (dkeys (w_data w)) /\ rmapM (item (w_data w)) (w_labels w) = Ok (w_queries w) /\ w_map w = invert (w_data w).
  Lemma item_Ok (d : dict L Q) l q : item d l = Ok q <-> dget d l = Some q.
  Proof. unfold item. destruct (dget d l); split; intros H; inversion H; reflexivity. Qed.
  Lemma items_ok (d : dict L Q) ls : incl ls (dkeys d) -> exists qs, rmapM (item d) ls = Ok qs.
  Proof.
    induction ls as [|l ls IH]; intros H; [exists []; reflexivity|]. destruct IH as [qs E]; [intros x Hx; apply H; now right|]. specialize (H l (or_introl eq_refl)). apply dget_key in H. cbn. unfold item at 1. destruct (dget d l) as [q|]; [|contradiction]. cbn. rewrite E. cbn. eauto.
  Qed.
  Lemma new_ok ds : exists w, new nsort ds = Ok w /\ w_data w = dict_of ds /\ good w.
  Proof.
    unfold new. destruct (items_ok (dict_of ds) (nsort (dkeys (dict_of ds)))) as [qs E]; [intros x Hx; now apply (Permutation_in _ (Hsort _))|]. rewrite E. cbn. eexists. split; [reflexivity|]. split; [reflexivity|]. split; [apply dwf_dict_of|]. split; [apply Hsort|]. split; [exact E|reflexivity].
  Qed.
  Lemma zip_items (d : dict L Q) ls : forall qs, rmapM (item d) ls = Ok qs -> forall l q, In (l, q) (combine ls qs) <-> In l ls /\ dget d l = Some q.
  Proof.
    induction ls as [|x ls IH]; intros qs E l q; cbn in E; [injection E as <-; cbn; tauto|]. destruct (item d x) as [qx|e] eqn:Ex; [|discriminate]. cbn in E. destruct (rmapM (item d) ls) as [qs'|e] eqn:E'; [|discriminate]. cbn in E. injection E as <-. cbn [combine In]. rewrite (IH qs' eq_refl l q). apply item_Ok in Ex. split.
    - intros [[= <- <-]|[H1 H2]]; auto.
    - intros [[<-|H1] H2]; [left; congruence|auto].
  Qed.
  Lemma combine_fst {A B} : forall (l : list A) (m : list B), List.length l = List.length m -> map fst (combine l m) = l.
  Proof. induction l as [|a l IH]; intros [|b m] H; try discriminate; [reflexivity|]. cbn. f_equal. apply IH. now injection H. Qed.
  Lemma good_keys w l : good w -> (In l (w_labels w) <-> exists q, dget (w_data w) l = Some q).
  Proof.
    intros (Hw & Hp & _). split.
    - intros H. apply (Permutation_in _ Hp) in H. apply dget_key in H. destruct (dget (w_data w) l); [eauto|contradiction].
    - intros [q H]. apply (Permutation_in _ (Permutation_sym Hp)). apply dget_key. congruence.
  Qed.
  Lemma good_agrees w : good w -> agrees w.
  Proof.
    intros H. pose proof H as (Hw & Hp & E & _). split.
    - unfold entries. rewrite combine_fst by (symmetry; now apply rmapM_length in E). apply (Permutation_NoDup (Permutation_sym Hp)). exact Hw.
    - intros l q. unfold entries, binds. rewrite (zip_items _ _ _ E), item_Ok. split; [tauto|]. intros Hq. split; [|exact Hq]. apply good_keys; eauto.
  Qed.
  Lemma invert_spec (d : dict L Q) q : dget (invert d) q = lastval (map (fun '(k, v) => (v, k)) d) q.
  Proof. unfold invert. apply dict_of_spec. Qed.
  Lemma good_finds w : good w -> finds w.
  Proof.
    intros (Hw & _ & _ & Hm). unfold finds, label_of, binds. rewrite Hm. split; intros q l H.
    - rewrite invert_spec in H. destruct (lastval _ q) as [l'|] eqn:E; [|discriminate]. injection H as ->. apply lastval_In' in E. apply in_map_iff in E as ([k v] & [= -> ->] & Hin). apply item_Ok. now apply dget_iff.
    - apply item_Ok in H. apply dget_In in H. rewrite invert_spec. assert (Hin : In (q, l) (map (fun '(k, v) => (v, k)) (w_data w))) by (apply in_map_iff; exists (l, q); auto). apply lastval_some' in Hin as [l' ->]. eauto.
  Qed.
  Lemma dict_of_wf (d : dict L Q) l : dwf d -> dget (dict_of d) l = dget d l.
  Proof. intros H. rewrite dict_of_spec. now apply lastval_wf. Qed.
  (** The results of operations. *)
  Lemma new_filter d (f : L * Q -> bool) : dwf d -> exists w, new nsort (filter f d) = Ok w /\ good w /\ forall l q, binds w l q <-> dget d l = Some q /\ f (l, q) = true.
  Proof.
    intros Hd. destruct (new_ok (filter f d)) as (w & E & Ed & Hg). exists w. split; [exact E|]. split; [exact Hg|]. intros l q. unfold binds. rewrite item_Ok, Ed, dict_of_wf by now apply dwf_filter. rewrite (dget_iff _ l q (dwf_filter f d Hd)), filter_In, (dget_iff d l q Hd). tauto.
  Qed.
  Lemma sub_dict_ok w ls : good w -> incl ls (w_labels w) -> exists d, sub_dict w ls = Ok d /\ forall l q, dget d l = Some q <-> In l ls /\ dget (w_data w) l = Some q.
  Proof.
    intros Hg Hi. unfold sub_dict.
    assert (H : exists es, rmapM (fun l => rmap (fun q => (l, q)) (item (w_data w) l)) ls = Ok es /\ forall l q, In (l, q) es <-> In l ls /\ dget (w_data w) l = Some q).
    { induction ls as [|x ls IH]; [exists []; cbn; split; [reflexivity|tauto]|]. destruct IH as (es & E & Hes); [intros y Hy; apply Hi; now right|]. destruct (proj1 (good_keys w x Hg) (Hi x (or_introl eq_refl))) as [q Hq]. exists ((x, q) :: es). cbn. unfold item at 1. rewrite Hq. cbn. rewrite E. cbn. split; [reflexivity|]. intros l q'. cbn. rewrite Hes. split.
      - intros [[= <- <-]|[H1 H2]]; auto.
      - intros [[<-|H1] H2]; [left; congruence|auto]. }
    destruct H as (es & E & Hes). rewrite E. cbn. exists (dict_of es). split; [reflexivity|]. intros l q. rewrite dict_of_spec. split.
    - intros H. apply lastval_In' in H. now apply Hes.
    - intros H. pose proof (proj2 (Hes l q) H) as Hin. apply lastval_some' in Hin as [q' Hq']. pose proof (lastval_In' _ _ _ Hq') as Hin'. apply Hes in Hin' as [_ Hd]. destruct H as [_ H]. congruence.
  Qed.
  Lemma pick_ok w ls : good w -> incl ls (w_labels w) -> NoDup ls -> exists w', rbind (sub_dict w ls) (new nsort) = Ok w' /\ good w' /\ (forall l q, binds w' l q <-> In l ls /\ dget (w_data w) l = Some q) /\ List.length (w_data w') = List.length ls.
  Proof.
    intros Hg Hi Hn. destruct (sub_dict_ok w ls Hg Hi) as (d & E & Hd). destruct (new_ok d) as (w' & E' & Ed & Hg'). exists w'. rewrite E. cbn. split; [exact E'|]. split; [exact Hg'|].
    assert (Hb : forall l q, dget (w_data w') l = Some q <-> In l ls /\ dget (w_data w) l = Some q).
    { intros l q. rewrite Ed, <- Hd, dict_of_spec. unfold sub_dict in E. destruct (rmapM _ ls) as [es|]; [|discriminate]. cbn in E. injection E as <-. now rewrite (lastval_wf (dict_of es) l (dwf_dict_of es)). }
    split; [intros l q; unfold binds; rewrite item_Ok; apply Hb|].
    assert (Hp : Permutation (dkeys (w_data w')) ls).
    { apply NoDup_Permutation; [apply Hg'|exact Hn|]. intros l. rewrite <- dget_key. split.
      - intros H. destruct (dget (w_data w') l) as [q|] eqn:Eq; [|contradiction]. now apply Hb in Eq.
      - intros H. destruct (proj1 (good_keys w l Hg) (Hi l H)) as [q Hq]. rewrite (proj2 (Hb l q) (conj H Hq)). discriminate. }
    apply Permutation_length in Hp. unfold dkeys in Hp. now rewrite map_length in Hp.
  Qed.
  Lemma good_len w : good w -> List.length (w_labels w) = List.length (w_data w) /\ List.length (w_queries w) = List.length (w_data w).
  Proof. intros (_ & Hp & E & _). apply Permutation_length in Hp. unfold dkeys in Hp. rewrite map_length in Hp. apply rmapM_length in E. lia. Qed.
  Lemma dor_spec (a b : dict L Q) l : dwf b -> dget (dor a b) l = match dget b l with Some q => Some q | None => dget a l end.
  Proof. intros H. unfold dor. rewrite fold_dset_spec, lastval_wf by exact H. reflexivity. Qed.
End W.

(** ** Reading *)
Section Read.
  Context {Q : Type} {EQ : EqD Q}.
  Open Scope string_scope.
  (** The entries that end up in the dictionary. *)
  Fixpoint effective (cur : option Q) (files : list (string * option Q)) : list (string * Q) :=
    match files with
    | [] => []
    | (s, Some q) :: files => (s, q) :: effective (Some q) files
    | (s, None) :: files => match cur with Some q => (s, q) :: effective cur files | None => effective cur files end
    end.
  Lemma read_files_spec pol prefix files : forall cur qs r, read_files pol prefix files cur qs = Ok r -> r = fold_left (fun d e => dset d (fst e) (snd e)) (map (fun e => (prefix ++ fst e, snd e)) (effective cur files)) qs.
  Proof.
    induction files as [|[s [q|]] files IH]; intros cur qs r H; cbn in *; [injection H as <-; reflexivity| |].
    - now apply IH in H.
    - destruct pol; [discriminate| |]; (destruct cur as [q|]; [|discriminate]; now apply IH in H).
  Qed.
  Definition parses (f : string * option Q) : bool := match snd f with Some _ => true | None => false end.
  Lemma read_files_ok pol prefix files : forall cur qs, forallb parses files = true -> is_ok (read_files pol prefix files cur qs) = true.
  Proof. induction files as [|[s [q|]] files IH]; intros cur qs H; cbn in *; try discriminate; [reflexivity|]. now apply IH. Qed.
  Lemma read_files_raise prefix files : forall cur qs, forallb parses files = false -> read_files PRaise prefix files cur qs = Raise ValueError.
  Proof. induction files as [|[s [q|]] files IH]; intros cur qs H; cbn in *; try discriminate; [now apply IH|reflexivity]. Qed.
  Lemma effective_parsed files : forall cur s q, In (s, Some q) files -> In (s, q) (effective cur files).
  Proof. induction files as [|[s' [q'|]] files IH]; intros cur s q H; cbn in *; [easy| |]; destruct H as [[= -> ->]|H]; cbn; auto. destruct cur; cbn; auto. Qed.
  Lemma effective_all files : forall cur s q, forallb parses files = true -> (In (s, q) (effective cur files) <-> In (s, Some q) files).
  Proof.
    induction files as [|[s' [q'|]] files IH]; intros cur s q H; cbn in *; try discriminate; [tauto|]. rewrite (IH (Some q') s q H). split; intros [[= -> ->]|H']; auto.
  Qed.
  Lemma effective_stems files : forall cur s, In s (map fst (effective cur files)) -> In s (map fst files).
  Proof. induction files as [|[s' [q'|]] files IH]; intros cur s H; cbn in *; [exact H| |]. - destruct H; eauto. - destruct cur; cbn in H; [destruct H|]; eauto. Qed.
  Lemma effective_NoDup files : forall cur, NoDup (map fst files) -> NoDup (map fst (effective cur files)).
  Proof.
    induction files as [|[s [q|]] files IH]; intros cur H; cbn in *; [constructor| |]; inversion H as [|? ? Hn Hf]; subst.
    - constructor; [|auto]. intros Hs. apply effective_stems in Hs. contradiction.
    - destruct cur as [q|]; cbn; [|auto]. constructor; [|auto]. intros Hs. apply effective_stems in Hs. contradiction.
  Qed.
  Lemma prefixed_NoDup {V} prefix (l : list (string * V)) : NoDup (map fst l) -> NoDup (map fst (map (fun e => (prefix ++ fst e, snd e)) l)).
  Proof.
    intros H. rewrite map_map. cbn. induction l as [|[s v] l IH]; cbn in *; [constructor|]. inversion H as [|? ? Hn Hl]; subst. constructor; [|auto]. intros Hin. apply in_map_iff in Hin as ([s' v'] & E & Hin). cbn in E. apply str_app_inj in E. subst. apply Hn. apply in_map_iff. now exists (s, v').
  Qed.
  Lemma read_binds pol nsort prefix files w : sorts nsort -> NoDup (map fst files) -> read pol nsort prefix files = Ok w -> forall l q, binds w l q <-> exists s, In (s, q) (effective None files) /\ l = prefix ++ s.
  Proof.
    intros Hs Hn H l q. unfold read in H. destruct (read_files pol prefix files None []) as [d|e] eqn:E; [|discriminate]. cbn in H. apply read_files_spec in E. destruct (new_ok nsort Hs d) as (w' & E' & Ed & _). rewrite H in E'. injection E' as <-. unfold binds. rewrite item_Ok, Ed, dict_of_spec.
    assert (Hwf : dwf d) by (rewrite E; apply (dwf_fold_dset _ []); constructor). rewrite lastval_wf by exact Hwf. rewrite E. change (fold_left _ ?l []) with (dict_of l). rewrite dict_of_spec, lastval_unique by (apply prefixed_NoDup; now apply effective_NoDup). rewrite in_map_iff. split.
    - intros ([s q'] & [= <- <-] & Hin). eauto.
    - intros (s & Hin & ->). exists (s, q). auto.
  Qed.
End Read.

(** Directory trees. *)
Section DirInd.
  Context {Q : Type} (P : dir Q -> Prop) (H : forall s fs ds, Forall P ds -> P (Dir s fs ds)).
  Fixpoint dir_ind' (d : dir Q) : P d :=
    match d with
    | Dir s fs ds => H s fs ds ((fix go ds := match ds return Forall P ds with [] => Forall_nil P | x :: r => Forall_cons x (dir_ind' x) (go r) end) ds)
    end.
End DirInd.
Section Tree.
  Context {Q : Type} {EQ : EqD Q} (pol : policy).
  Open Scope list_scope.
  Definition somes (l : list (string * option Q)) : list (string * Q) := flat_map (fun f => match snd f with Some q => [(fst f, q)] | None => [] end) l.
  Lemma somes_app l m : somes (l ++ m) = somes l ++ somes m.
  Proof. apply flat_map_app. Qed.
  Lemma somes_In l s q : In (s, q) (somes l) <-> In (s, Some q) l.
  Proof.
    unfold somes. rewrite in_flat_map. split.
    - intros ([s' [q'|]] & Hin & H); cbn in H; [destruct H as [[= <- <-]|[]]; exact Hin|easy].
    - intros Hin. exists (s, Some q). cbn. auto.
  Qed.
  Lemma effective_somes files : forall cur, forallb parses files = true -> effective cur files = somes files.
  Proof. induction files as [|[s [q|]] files IH]; intros cur H; cbn in *; try discriminate; [reflexivity|]. f_equal. now apply IH. Qed.
  Lemma map_prefix_nil {V} (l : list (string * V)) : map (fun e => ("" ++ fst e, snd e)%string) l = l.
  Proof. induction l as [|[s v] l IH]; cbn; [reflexivity|]. now f_equal. Qed.
  Lemma read_tree_spec d : forall prefix, forallb parses (unlabelled d) = true -> exists r, read_tree pol prefix d = Ok r /\ dwf r /\ forall k, dget r k = lastval (somes (unlabelled d)) k.
  Proof.
    induction d as [st fs ds IH] using dir_ind'. intros prefix Hp. cbn [unlabelled] in *. rewrite forallb_app in Hp. apply andb_prop in Hp as [Hf Hds]. cbn [read_tree]. pose proof (read_files_ok pol "" fs None [] Hf) as Hok. destruct (read_files pol "" fs None []) as [qs|e] eqn:E; [|discriminate]. cbn [rbind]. apply read_files_spec in E. rewrite effective_somes in E by exact Hf. rewrite map_prefix_nil in E.
    assert (Hqs : forall k, dget qs k = lastval (somes fs) k) by (intros k; rewrite E; change (fold_left _ ?l []) with (dict_of l); apply dict_of_spec).
    assert (Hwf : dwf qs) by (rewrite E; apply (dwf_fold_dset _ []); constructor). rewrite somes_app. clear E Hok.
    assert (G : forall ds base acc, Forall (fun d => forall prefix, forallb parses (unlabelled d) = true -> exists r, read_tree pol prefix d = Ok r /\ dwf r /\ forall k, dget r k = lastval (somes (unlabelled d)) k) ds -> forallb parses (flat_map unlabelled ds) = true -> dwf acc -> (forall k, dget acc k = lastval base k) ->
      exists r, read_subdirs (read_tree pol) prefix ds acc = Ok r /\ dwf r /\ forall k, dget r k = lastval (base ++ somes (flat_map unlabelled ds)) k).
    { clear. induction ds as [|d ds IHd]; intros base acc Hall Hp Hwf Hacc.
      - exists acc. cbn. rewrite app_nil_r. auto.
      - inversion Hall as [|? ? Hd Hr]; subst. cbn [flat_map] in *. rewrite forallb_app in Hp. apply andb_prop in Hp as [Hp1 Hp2]. cbn [read_subdirs]. destruct d as [st fs sub] eqn:Ed. rewrite <- Ed in *. destruct (Hd (sub_prefix prefix st) Hp1) as (r1 & E1 & Hw1 & H1). rewrite E1. cbn [rbind].
        destruct (IHd (base ++ somes (unlabelled d)) (dor acc r1) Hr Hp2) as (r & Er & Hwr & Hrr).
        + unfold dor. now apply dwf_fold_dset.
        + intros k. rewrite dor_spec by exact Hw1. rewrite lastval_app, H1, Hacc. reflexivity.
        + exists r. split; [exact Er|]. split; [exact Hwr|]. intros k. rewrite Hrr, somes_app, app_assoc. reflexivity. }
    apply G; assumption.
  Qed.
End Tree.
