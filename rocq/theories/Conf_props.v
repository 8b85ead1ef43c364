(** C54: configurations contain what was put into them. *)
From Coq Require Import List Bool Arith Lia String.
From Verif Require Import PyBase Ident_model Conf_model Conf_spec.
Import ListNotations.

(** Dictionaries whose entries are settings under their own name. *)
Definition good (d : dict string entry) : Prop := dwf d /\ forall k e, In (k, e) d -> exists v, e = ESetting (mks k v).
Lemma new_good : forall d, good d -> new (dvalues d) = Ok (mkc d (format d)).
Proof.
  intros d [Hw He]. unfold new. assert (Hm : rmapM (fun e => rmap (fun p => (p, e)) (param_of e)) (dvalues d) = Ok d).
  { clear Hw. induction d as [|[k e] d IH]; [reflexivity|]. destruct (He k e (or_introl eq_refl)) as [v ->]. unfold dvalues in *. cbn. rewrite IH; [reflexivity|]. intros k' e' H. apply He. now right. }
  rewrite Hm. cbn. assert (Hd : dict_of d = d).
  { clear Hm He. unfold dict_of. assert (Hgen : forall (d acc : dict string entry), dwf (acc ++ d)%list -> fold_left (fun m kv => dset m (fst kv) (snd kv)) d acc = (acc ++ d)%list).
    { clear d Hw. induction d as [|[k e] d IH]; intros acc Hw; cbn; [now rewrite app_nil_r|]. assert (Hk : dset acc k e = (acc ++ [(k, e)])%list).
      { assert (Hn : ~ In k (map fst acc)) by (unfold dwf, dkeys in Hw; rewrite map_app in Hw; cbn in Hw; apply NoDup_remove_2 in Hw; intros Hin; apply Hw, in_app_iff; now left). clear - Hn. induction acc as [|[k' e'] acc IH]; [reflexivity|]. cbn in *. destruct (eqd k k') as [->|Hne]; [exfalso; apply Hn; now left|]. f_equal. apply IH. intros H. apply Hn. now right. }
      rewrite Hk, IH; [now rewrite <- app_assoc|]. now rewrite <- app_assoc. }
    exact (Hgen d [] Hw). }
  now rewrite Hd.
Qed.
Lemma good_dset : forall d p v, good d -> good (dset d p (ESetting (mks p v))).
Proof.
  intros d p v [Hw He]. split; [now apply dwf_dset|]. intros k e Hin. apply In_dget in Hin; [|now apply dwf_dset]. rewrite dset_spec in Hin. destruct (eqd k p) as [->|Hne]; [injection Hin as <-; eauto|]. apply dget_In in Hin. now apply He.
Qed.
Lemma good_ddel : forall d p, good d -> good (ddel d p).
Proof. intros d p [Hw He]. split; [unfold ddel; now apply dwf_filter|]. intros k e Hin. unfold ddel in Hin. apply filter_In in Hin as [Hin _]. now apply He. Qed.
Lemma good_fold : forall kwargs d, good d -> good (fold_left (fun d (x : string * value) => dset d (fst x) (ESetting (mks (fst x) (snd x)))) kwargs d).
Proof. induction kwargs as [|[p v] kw IH]; intros d Hd; [exact Hd|]. cbn. apply IH, good_dset, Hd. Qed.

Definition reads (d : dict string entry) (f : assignment) : Prop := forall p, dget d p = option_map (fun v => ESetting (mks p v)) (f p).
Lemma reads_dset : forall d f p v, reads d f -> reads (dset d p (ESetting (mks p v))) (set1 f p (Some v)).
Proof. intros d f p v H q. rewrite dset_spec. unfold set1. destruct (eqd q p) as [->|Hne]; [now rewrite String.eqb_refl|]. rewrite (proj2 (String.eqb_neq q p) Hne). apply H. Qed.
Lemma reads_fold : forall kwargs d f, reads d f -> reads (fold_left (fun d (x : string * value) => dset d (fst x) (ESetting (mks (fst x) (snd x)))) kwargs d) (fold_left (fun f x => set1 f (fst x) (Some (snd x))) kwargs f).
Proof. induction kwargs as [|[p v] kw IH]; intros d f H; [exact H|]. cbn. apply IH, reads_dset, H. Qed.
Lemma reads_represents : forall d f, good d -> reads d f -> represents (mkc d (format d)) f.
Proof.
  intros d f [Hw He] Hr. set (g := fun x : string * entry => (fst x, match snd x with ESetting s => s_value s | ERaw v => v end)). exists (map g d).
  assert (Hk : map fst (map g d) = dkeys d) by (unfold dkeys; rewrite map_map; reflexivity). rewrite Hk. split; [exact Hw|]. split; [|split; [|split; [reflexivity|exact Hr]]].
  - intros p v. split.
    + intros Hin. apply in_map_iff in Hin as ([k e] & Hg & Hin). destruct (He k e Hin) as [w ->]. cbn in Hg. injection Hg as -> ->. apply In_dget in Hin; [|exact Hw]. rewrite Hr in Hin. destruct (f p); [|discriminate]. cbn in Hin. now injection Hin as ->.
    + intros Hf. specialize (Hr p). rewrite Hf in Hr. apply dget_In in Hr. apply in_map_iff. now exists (p, ESetting (mks p v)).
  - cbn. unfold format. f_equal. unfold dvalues. rewrite !map_map. apply map_ext_in. intros [k e] Hin. destruct (He k e Hin) as [w ->]. reflexivity.
Qed.

(** C54: any sequence of changes that name their parameter leads to exactly the intended values and text. *)
Theorem C54_changes_partial : forall kwargs changes, Forall by_name changes ->
  exists c, rbind (load [] kwargs) (fun c => apply_all c changes) = Ok c /\
  represents c (fold_left effect changes (fold_left (fun f x => set1 f (fst x) (Some (snd x))) kwargs (fun _ => None))).
Proof.
  intros kwargs changes Hb. set (f0 := fold_left (fun f x => set1 f (fst x) (Some (snd x))) kwargs (fun _ => None)).
  assert (H0 : exists d, load [] kwargs = Ok (mkc d (format d)) /\ good d /\ reads d f0).
  { exists (fold_left (fun d (x : string * value) => dset d (fst x) (ESetting (mks (fst x) (snd x)))) kwargs []). split; [|split; [apply good_fold; split; [constructor|intros k e []]|apply reads_fold; intros p; reflexivity]].
    unfold load, new. cbn [app]. rewrite map_map. assert (Hm : rmapM (fun e => rmap (fun p => (p, e)) (param_of e)) (map (fun x : string * value => ESetting (mks (fst x) (snd x))) kwargs) = Ok (map (fun x : string * value => (fst x, ESetting (mks (fst x) (snd x)))) kwargs)).
    { induction kwargs as [|x kw IH]; [reflexivity|]. cbn. now rewrite IH. }
    rewrite Hm. cbn. unfold dict_of. assert (Hd : forall (kw : list (string * value)) acc, fold_left (fun m kv => dset m (fst kv) (snd kv)) (map (fun x => (fst x, ESetting (mks (fst x) (snd x)))) kw) acc = fold_left (fun d x => dset d (fst x) (ESetting (mks (fst x) (snd x)))) kw acc) by (induction kw as [|x kw IH]; intros acc; [reflexivity|]; cbn; apply IH). now rewrite Hd. }
  destruct H0 as (d0 & -> & Hg & Hr). cbn [rbind]. clearbody f0. revert d0 f0 Hg Hr. induction Hb as [|o changes Ho Hb IH]; intros d f Hg Hr; cbn [apply_all fold_left].
  - eexists. split; [reflexivity|]. now apply reads_represents.
  - assert (Hs : exists d', apply (mkc d (format d)) o = Ok (mkc d' (format d')) /\ good d' /\ reads d' (effect f o)).
    { destruct o as [[s|s] v|kw|a|[s|s] v|k [s|v]]; cbn [by_name] in Ho; try contradiction; cbn [apply effect].
      - exists (dset d s (ESetting (mks s v))). unfold add. cbn [arg_str s_param c_settings]. rewrite new_good by now apply good_dset. split; [reflexivity|]. split; [now apply good_dset|now apply reads_dset].
      - eexists. unfold add. cbn [c_settings]. rewrite new_good by now apply good_fold. split; [reflexivity|]. split; [now apply good_fold|now apply reads_fold].
      - exists (ddel d (name_of a)). unfold remove. cbn [c_settings]. fold (name_of a). rewrite new_good by now apply good_ddel. split; [reflexivity|]. split; [now apply good_ddel|]. intros q. rewrite ddel_spec. unfold set1. destruct (eqd q (name_of a)) as [->|Hne]; [now rewrite String.eqb_refl|]. rewrite (proj2 (String.eqb_neq q _) Hne). apply Hr.
      - exists (dset d s (ESetting (mks s v))). unfold update. cbn [arg_str s_param c_settings]. rewrite new_good by now apply good_dset. split; [reflexivity|]. split; [now apply good_dset|now apply reads_dset].
      - subst k. destruct s as [p v]. eexists. split; [reflexivity|]. cbn. split; [now apply good_dset|now apply reads_dset]. }
    destruct Hs as (d' & -> & Hg' & Hr'). cbn [rbind]. now apply IH.
Qed.
Print Assumptions C54_changes_partial.

Open Scope string_scope.
Definition nl : string := String (Ascii.ascii_of_nat 10) "".
Example C54_case : rmap c_data (rbind (load [] [("work_mem", VObj "4MB"); ("enable_nestloop", VBool true)]) (fun c => apply_all c [Update (ByName "enable_nestloop") (VBool false); Add (ByName "jit") (VObj "off"); Remove (ByName "work_mem")])) =
  Ok ("SET enable_nestloop = 'off';" ++ nl ++ "SET jit = 'off';").
Proof. reflexivity. Qed.
(** C54 fails: adding a setting object adds a parameter that does not exist, and the text is not valid SQL. *)
Theorem C54_add_setting_refuted : rmap (fun c => (dkeys (c_settings c), c_data c)) (rbind (load [] []) (fun c => apply c (Add (BySetting (mks "jit" (VBool false))) none))) =
  Ok (["SET jit = 'off';"], "SET SET jit = 'off'; = 'None';").
Proof. reflexivity. Qed.
Print Assumptions C54_add_setting_refuted.
(** C54 fails: updating by a setting object leaves the parameter alone. *)
Theorem C54_update_setting_refuted : rmap c_data (rbind (load [] [("jit", VBool true)]) (fun c => apply c (Update (BySetting (mks "jit" (VBool true))) (VBool false)))) =
  Ok ("SET jit = 'on';" ++ nl ++ "SET SET jit = 'on'; = 'off';").
Proof. reflexivity. Qed.
Print Assumptions C54_update_setting_refuted.
(** C54 fails: after assigning a value to an item, its statement is missing from the text and further changes raise an error. *)
Theorem C54_setitem_refuted : rbind (load [] []) (fun c => apply_all c [SetItem "jit" (ERaw (VObj "off"))]) = Ok (mkc [("jit", ERaw (VObj "off"))] "off") /\
  rbind (load [] []) (fun c => apply_all c [SetItem "jit" (ERaw (VObj "off")); Add (ByName "work_mem") (VObj "4MB")]) = Raise AttributeError.
Proof. split; reflexivity. Qed.
Print Assumptions C54_setitem_refuted.
