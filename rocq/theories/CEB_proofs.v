(** Lemmas about the CEB workload generator. *)
From Coq Require Import String List Bool Arith Lia Ascii Permutation.
From Verif Require Import PyBase Num_model CEB_model CEB_spec.
Import ListNotations.

(** ** Drawing *)
Lemma pick_In : forall A c (l : list A) x, pick c l = Some x -> In x l.
Proof. intros A c l x H. apply nth_error_In in H. exact H. Qed.
Lemma pick_some : forall A c (l : list A), l <> [] -> exists x, pick c l = Some x.
Proof.
  intros A c l Hl. destruct (pick c l) as [x|] eqn:E; [exists x; reflexivity|].
  unfold pick in E. apply nth_error_None in E. destruct l as [|y r]; [congruence|].
  pose proof (Nat.mod_upper_bound c (length (y :: r)) ltac:(discriminate)). lia.
Qed.
Lemma remove_nth_app : forall A (l : list A) i, i < length l ->
  exists a w b, l = a ++ w :: b /\ i = length a /\ remove_nth i l = a ++ b.
Proof.
  induction l as [|x r IH]; cbn; intros i Hi; [lia|]. destruct i as [|i].
  - exists [], x, r. repeat split.
  - destruct (IH i ltac:(lia)) as (a & w & b & -> & -> & E). exists (x :: a), w, b. cbn. rewrite E. repeat split.
Qed.
Lemma draw_scalar_payload : forall dr g p cands v, draw_scalar dr g p cands = Ok v ->
  exists r, In r cands /\ payload (weight_column g) r v.
Proof.
  intros dr g p cands v H. unfold draw_scalar in H. unfold weight_column. destruct (g_samp g); [| |discriminate].
  - destruct (pick _ _) as [r|] eqn:E; [|discriminate]. assert (r = v) by congruence. subst.
    exists v. apply pick_In in E. rewrite dedup_In in E. split; [exact E|constructor].
  - destruct (g_count g) as [i|].
    + destruct (forallb _ _) eqn:F; [|discriminate]. destruct (pick _ _) as [r|] eqn:E; [|discriminate].
      apply pick_In in E. rewrite forallb_forall in F. specialize (F r E). apply Nat.ltb_lt in F.
      destruct (remove_nth_app _ r i F) as (a & w & b & Er & Ei & Ev). exists r. split; [exact E|].
      assert (v = a ++ b) by congruence. subst. constructor.
    + destruct (pick _ _) as [r|] eqn:E; [|discriminate]. assert (r = v) by congruence. subst.
      exists v. apply pick_In in E. split; [exact E|constructor].
Qed.
Lemma randint_range : forall c lo hi n, randint c lo hi = Ok n -> lo <= n <= hi.
Proof.
  intros c lo hi n H. unfold randint in H. destruct (lo <=? hi) eqn:E; [|discriminate]. apply Nat.leb_le in E.
  assert (n = lo + c mod (hi - lo + 1)) by congruence.
  pose proof (Nat.mod_upper_bound c (hi - lo + 1) ltac:(lia)). lia.
Qed.
Lemma remove_nth_In : forall A (l : list A) i x, In x (remove_nth i l) -> In x l.
Proof.
  induction l as [|y r IH]; cbn; intros i x H; [destruct i; cbn in H; tauto|].
  destruct i; [right; exact H|]. destruct H as [->|H]; [left; reflexivity|right; eauto].
Qed.
Lemma remove_nth_NoDup : forall A (l : list A) i x, NoDup l -> nth_error l i = Some x ->
  NoDup (remove_nth i l) /\ ~ In x (remove_nth i l).
Proof.
  induction l as [|y r IH]; intros i x Hn Hx; [destruct i; discriminate|]. inversion Hn as [|? ? Hy Hr]; subst.
  destruct i as [|i]; cbn in *; [assert (x = y) by congruence; subst; auto|].
  destruct (IH i x Hr Hx) as [H1 H2]. split.
  - constructor; [|exact H1]. intros H. apply remove_nth_In in H. auto.
  - intros [->|H]; [|tauto]. apply Hy. eapply nth_error_In; eauto.
Qed.
Lemma remove_nth_length : forall A (l : list A) i, i < length l -> length (remove_nth i l) = length l - 1.
Proof.
  intros A l i Hi. destruct (remove_nth_app _ l i Hi) as (a & w & b & -> & -> & ->). rewrite !app_length. cbn. lia.
Qed.
Lemma sample_spec : forall A dr k p (l : list A), k <= length l ->
  length (sample dr p k l) = k /\ (forall x, In x (sample dr p k l) -> In x l) /\ (NoDup l -> NoDup (sample dr p k l)).
Proof.
  induction k as [|k IH]; intros p l Hk; [cbn; repeat split; [tauto|constructor]|].
  destruct l as [|y r]; [cbn in Hk; lia|]. cbn [sample]. set (l := y :: r) in *.
  set (i := dr p mod length l). assert (Hi : i < length l) by (apply Nat.mod_upper_bound; unfold l; discriminate).
  destruct (nth_error l i) as [x|] eqn:E; [|apply nth_error_None in E; lia].
  destruct (IH (S p) (remove_nth i l)) as (H1 & H2 & H3); [rewrite remove_nth_length by exact Hi; lia|].
  split; [cbn; f_equal; exact H1|]. split.
  - intros z [->|Hz]; [eapply nth_error_In; eauto|]. eapply remove_nth_In; eauto.
  - intros Hn. destruct (remove_nth_NoDup _ l i x Hn E) as [H4 H5]. constructor; [|auto]. intros H. apply H5. auto.
Qed.
Lemma rmapM_nth : forall A B (f : A -> res B) l r, rmapM f l = Ok r -> Forall2 (fun x y => f x = Ok y) l r.
Proof.
  induction l as [|x l IH]; cbn; intros r H; [assert (r = []) by congruence; subst; constructor|].
  destruct (f x) as [y|] eqn:E; [|discriminate]. cbn in H. destruct (rmapM f l) as [ys|] eqn:E2; [|discriminate].
  cbn in H. assert (r = y :: ys) by congruence. subst. constructor; auto.
Qed.
Lemma Forall2_In_r : forall A B (R : A -> B -> Prop) l r, Forall2 R l r -> forall y, In y r -> exists x, In x l /\ R x y.
Proof. induction 1 as [|x y l r Hxy _ IH]; [intros y []|]. intros z [<-|Hz]; [exists x; cbn; auto|].
  destruct (IH z Hz) as (w & Hw & Hr). exists w. cbn. auto. Qed.

(** ** IN predicates *)
Lemma draw_multi_shape : forall dr g p cands v, draw_multi dr g p cands = Ok v -> exists l, v = [VT l].
Proof.
  intros dr g p cands v H. destruct cands as [|c0 cs]; [discriminate|]. unfold draw_multi in H.
  destruct (_ || _); [discriminate|]. destruct (g_samp g).
  - destruct (randint _ _ _) as [n|]; [|discriminate]. cbn [rbind] in H. eexists. symmetry. injection H as H. exact (eq_sym (eq_sym H)).
  - destruct (match g_count g with Some i => _ | None => _ end) as [pop|]; [|discriminate]. cbn [rbind] in H.
    destruct (randint _ _ _) as [n|]; [|discriminate]. cbn [rbind] in H. injection H as H. eauto.
  - destruct (match g_count g with Some i => _ | None => _ end) as [pop|]; [|discriminate]. cbn [rbind] in H.
    destruct (randint _ _ _) as [n|]; [|discriminate]. cbn [rbind] in H. injection H as H. eauto.
Qed.
Lemma draw_multi_uniform : forall dr g p cands v, g_samp g = Uniform -> draw_multi dr g p cands = Ok v ->
  exists rows, v = [VT (map VT rows)] /\ g_min g <= length rows /\ (forall r, In r rows -> In r cands).
Proof.
  intros dr g p cands v Hs H. destruct cands as [|c0 cs]; [discriminate|]. unfold draw_multi in H.
  destruct (_ || _); [discriminate|]. rewrite Hs in H. cbn [rbind] in H.
  destruct (randint _ _ _) as [n|] eqn:E; [|discriminate]. cbn [rbind] in H. apply randint_range in E.
  assert (Hn : n <= length (dedup (c0 :: cs))).
  { unfold max_values in E. destruct (g_max g); lia. }
  destruct (sample_spec _ dr n (S p) (dedup (c0 :: cs)) Hn) as (H1 & H2 & _).
  exists (sample dr (S p) n (dedup (c0 :: cs))). split; [congruence|]. split; [lia|].
  intros r Hr. apply H2 in Hr. rewrite dedup_In in Hr. exact Hr.
Qed.
Lemma draw_multi_weighted : forall dr g p cands v, g_samp g = Weighted -> g_count g = None ->
  draw_multi dr g p cands = Ok v ->
  exists l, v = [VT l] /\ NoDup l /\ g_min g <= length l /\ (forall m, g_max g = Some m -> length l <= m) /\
    (forall x, In x l -> exists r, In r cands /\ nth_error r 0 = Some x).
Proof.
  intros dr g p cands v Hs Hc H. destruct cands as [|c0 cs]; [discriminate|]. unfold draw_multi in H.
  destruct (_ || _); [discriminate|]. rewrite Hs, Hc in H.
  destruct (rmapM (col_of 0) (c0 :: cs)) as [col|] eqn:Ec; [|discriminate]. cbn [rmap rbind] in H.
  destruct (randint _ _ _) as [n|] eqn:E; [|discriminate]. cbn [rbind] in H. apply randint_range in E.
  assert (Hn : n <= length (dedup col)). { unfold max_values in E. destruct (g_max g); lia. }
  destruct (sample_spec _ dr n (S p) (dedup col) Hn) as (H1 & H2 & H3).
  exists (sample dr (S p) n (dedup col)). split; [congruence|]. split; [apply H3, dedup_NoDup|]. split; [lia|]. split.
  - intros m Hm. unfold max_values in E. rewrite Hm in E. lia.
  - intros x Hx. apply H2 in Hx. rewrite dedup_In in Hx. apply rmapM_nth in Ec.
    destruct (Forall2_In_r _ _ _ _ _ Ec x Hx) as (r & Hr & E2). exists r. split; [exact Hr|].
    unfold col_of in E2. destruct (nth_error r 0); congruence.
Qed.
Lemma draw_multi_weights : forall dr g p cands, g_count g <> None -> (forall r, In r cands -> length r = 2) ->
  cands <> [] -> draw_multi dr g p cands = Raise ValueError.
Proof.
  intros dr g p cands Hc Hr Hne. destruct cands as [|c0 cs]; [congruence|]. unfold draw_multi.
  rewrite (Hr c0) by (cbn; auto). reflexivity.
Qed.

(** ** Escaping *)
Lemma append_nil_r : forall s, append s "" = s.
Proof. induction s as [|c s IH]; cbn; [reflexivity|f_equal; exact IH]. Qed.
Lemma append_assoc : forall a b c, append (append a b) c = append a (append b c).
Proof. induction a as [|x a IH]; intros b c; cbn; [reflexivity|f_equal; apply IH]. Qed.
Lemma doubled_id : forall s, ~ has_char quote s -> doubled s = s.
Proof.
  induction s as [|c s IH]; cbn; intros H; [reflexivity|]. destruct (Ascii.eqb_spec c quote) as [->|Hn]; [tauto|].
  f_equal. apply IH. tauto.
Qed.
Lemma join_commas : forall l, commas l (join ", " l).
Proof.
  induction l as [|x l IH]; [constructor|]. destruct l as [|y r]; [constructor|]. cbn [join]. constructor. exact IH.
Qed.
Definition escape_list (l : list val) (dt : string) : res (list string) :=
  (fix go (l : list val) : res (list string) :=
  match l with
  | [] => Ok []
  | x :: r => rbind (escape x PEq dt) (fun t => rbind (go r) (fun ts => Ok (t :: ts)))
  end) l.
Lemma escape_list_cons : forall x r dt, escape_list (x :: r) dt =
  rbind (escape x PEq dt) (fun t => rbind (escape_list r dt) (fun ts => Ok (t :: ts))).
Proof. reflexivity. Qed.
Lemma escape_VT : forall l p dt, escape (VT l) p dt =
  if deqb p PIn then rmap (fun ts => append "(" (append (join ", " ts) ")")) (escape_list l dt) else Raise AssertionError.
Proof. reflexivity. Qed.
Lemma escape_list_Ok : forall ss dt, escape_list (map VS ss) dt = Ok (map (fun s => if is_text dt then append "'" (append s "'") else s) ss).
Proof.
  induction ss as [|s ss IH]; intros dt; cbn [map]; [reflexivity|]. rewrite escape_list_cons, IH. cbn [escape].
  destruct (is_text dt); reflexivity.
Qed.
Lemma escape_list_VT : forall rows dt, rows <> [] -> escape_list (map VT rows) dt = Raise AssertionError.
Proof. intros [|r rows] dt H; [congruence|]. reflexivity. Qed.

(** ** Keys *)
Lemma key_index_last : forall ks k i, key_index ks k = Some i -> last_position ks k i.
Proof.
  induction ks as [|x ks IH]; cbn; intros k i H; [discriminate|].
  destruct (key_index ks k) as [j|] eqn:E.
  - assert (i = S j) by congruence. subst. destruct (IH k j E) as [H1 H2]. split; [exact H1|].
    intros [|j'] Hj; [lia|]. cbn. apply H2. lia.
  - destruct (Nat.eqb_spec x k) as [->|]; [|discriminate]. assert (i = 0) by congruence. subst. split; [reflexivity|].
    intros [|j'] Hj; [lia|]. cbn. intros Hk.
    assert (Hk' : forall ks, key_index ks k = None -> ~ In k ks).
    { clear. induction ks as [|x ks IH]; cbn; [tauto|]. destruct (key_index ks k); [discriminate|].
      destruct (Nat.eqb_spec x k); [discriminate|]. intros _ [E|E]; [congruence|]. revert E. apply IH. reflexivity. }
    apply (Hk' ks E). eapply nth_error_In; eauto.
Qed.
Lemma key_index_None : forall ks k, key_index ks k = None <-> ~ In k ks.
Proof.
  induction ks as [|x ks IH]; cbn; intros k; [tauto|]. specialize (IH k).
  destruct (key_index ks k) as [i|] eqn:E.
  - split; [discriminate|]. intros H. exfalso. apply H. right. destruct (in_dec Nat.eq_dec k ks) as [Hi|Hi]; [exact Hi|].
    apply IH in Hi. discriminate.
  - destruct (Nat.eqb_spec x k) as [->|Hn]; [split; [discriminate|intros H; exfalso; apply H; auto]|].
    split; [|reflexivity]. intros _ [H|H]; [congruence|]. apply IH in H; auto.
Qed.
Lemma placeholders_In : forall g k, In k (placeholders g) <-> In k (g_keys g).
Proof. intros. apply dedup_In. Qed.

(** ** Substitution *)
Section Subst.
Context (sc : schema) (t : template).
Lemma hole_fill : forall k s q, Forall2 (token_filled (fun j => if Nat.eqb j k then Some s else None)) q (fill k s q).
Proof.
  intros k s. induction q as [|x q IH]; cbn; [constructor|]. constructor; [|exact IH].
  destruct x as [u|j]; cbn; [reflexivity|]. destruct (Nat.eqb j k); reflexivity.
Qed.
Lemma token_filled_trans : forall f g q q1 q2, Forall2 (token_filled f) q q1 -> Forall2 (token_filled g) q1 q2 ->
  Forall2 (token_filled (fun k => match f k with Some s => Some s | None => g k end)) q q2.
Proof.
  intros f g q q1 q2 H. revert q2. induction H as [|x y q q1 Hxy _ IH]; intros q2 H2; inversion H2 as [|? z ? q2' Hyz H2']; subst;
    constructor; [|auto]. destruct x as [u|k]; cbn in *; [subst y; exact Hyz|].
  destruct (f k); subst y; exact Hyz.
Qed.
Lemma token_filled_ext : forall f g q q', (forall k, f k = g k) -> Forall2 (token_filled f) q q' -> Forall2 (token_filled g) q q'.
Proof.
  intros f g q q' E H. induction H as [|x y q q' Hxy _ IH]; constructor; [|exact IH].
  destruct x; cbn in *; [exact Hxy|]. rewrite <- E. exact Hxy.
Qed.
(** the texts of the values [vs] *)
Definition texts (vs : list (nat * val)) (f : nat -> option string) : Prop :=
  forall k, match dget vs k with Some v => exists s, hole_text sc t k v = Ok s /\ f k = Some s | None => f k = None end.
Lemma substitute_filled : forall vs q q', substitute sc t q vs = Ok q' ->
  exists f, texts vs f /\ Forall2 (token_filled f) q q'.
Proof.
  induction vs as [|[k v] vs IH]; intros q q' H; cbn [substitute] in H.
  - assert (q = q') by congruence. subst. exists (fun _ => None). split; [intros k; reflexivity|].
    clear. induction q' as [|x q IH]; constructor; [|exact IH]. destruct x; reflexivity.
  - destruct (hole_text sc t k v) as [s|] eqn:E; [|discriminate]. cbn [rbind] in H.
    destruct (IH _ _ H) as (f & Hf & Hq).
    exists (fun j => match (if Nat.eqb j k then Some s else None) with Some s => Some s | None => f j end). split.
    + intros j. cbn [dget]. destruct (Nat.eqb_spec j k) as [->|Hn]; destruct (eqd _ _) as [Ek|Ek]; try congruence.
      * exists s. auto.
      * apply Hf.
    + eapply token_filled_trans; [apply hole_fill|exact Hq].
Qed.
Lemma gen_values_dget : forall s g vs, gen_values s g = Ok vs ->
  (forall k v, dget vs k = Some v -> In k (g_keys g) /\ selected s g k v) /\
  (forall k, dget vs k = None -> ~ In k (g_keys g)) /\ dkeys vs = placeholders g.
Proof.
  intros s g vs H. unfold gen_values in H. destruct (dget (sel s) (g_name g)) as [[|v0 vals]|] eqn:Es; try discriminate.
  set (vals' := v0 :: vals) in *. apply rmapM_nth in H.
  assert (K : dkeys vs = placeholders g).
  { unfold dkeys. induction H as [|k [k' v] ks ps Hk _ IH]; [reflexivity|]. cbn [map]. f_equal; [|exact IH].
    cbn in Hk. destruct (key_index (g_keys g) k); [|discriminate]. destruct (nth_error vals' n); [|discriminate].
    cbn. congruence. }
  split; [|split; [|exact K]].
  - intros k v Hv. apply dget_In in Hv. destruct (Forall2_In_r _ _ _ _ _ H _ Hv) as (k0 & Hk0 & E).
    cbn in E. destruct (key_index (g_keys g) k0) as [i|] eqn:Ei; [|discriminate].
    destruct (nth_error vals' i) as [w|] eqn:En; [|discriminate]. assert (k0 = k) by congruence. assert (w = v) by congruence.
    subst. split; [apply placeholders_In; exact Hk0|]. exists vals', i. split; [exact Es|]. split; [apply key_index_last; exact Ei|exact En].
  - intros k Hk Hin. apply dget_None in Hk. apply Hk. rewrite K. apply placeholders_In. exact Hin.
Qed.
End Subst.

(** ** Choosing values *)
Section Choose.
Context (dr : nat -> nat) (exec : list tok -> list (list val)) (sc : schema) (t : template).
Notation next_value := (next_value dr exec).
Notation choose_loop := (choose_loop dr exec).
Notation choose := (choose dr exec).
Notation choose_all := (choose_all dr exec).

Lemma choose_loop_Ok : forall ch g n redraw s s', choose_loop ch sc t g n redraw s = (Ok tt, s') ->
  exists redraw0 s0 v s1, next_value ch sc t g redraw0 s0 = (Ok v, s1) /\ forallb (passes g v) (placeholders g) = true /\
    v <> [] /\ s' = St (dset (sel s1) (g_name g) v) (pos s1).
Proof.
  intros ch g. induction n as [|n IH]; intros redraw s s' H; cbn [CEB_model.choose_loop] in H; [discriminate|].
  destruct (next_value ch sc t g redraw s) as [[v|e] s1] eqn:E.
  - destruct (forallb _ _) eqn:F; [|eauto]. destruct v as [|x v]; [discriminate|].
    exists redraw, s, (x :: v), s1. repeat split; try assumption; congruence.
  - destruct e; try discriminate. eauto.
Qed.
Lemma choose_loop_list : forall ch g rows, g_tt g = TList rows -> forall n redraw s s',
  choose_loop ch sc t g n redraw s = (Ok tt, s') ->
  exists p v, draw dr g p rows = Ok v /\ forallb (passes g v) (placeholders g) = true /\ v <> [] /\
    sel s' = dset (sel s) (g_name g) v.
Proof.
  intros ch g rows Hg. induction n as [|n IH]; intros redraw s s' H; cbn [CEB_model.choose_loop] in H; [discriminate|].
  unfold CEB_model.next_value in H. rewrite Hg in H. cbn [bindS] in H.
  destruct (draw dr g (pos s) rows) as [v|e] eqn:E.
  - destruct (forallb _ _) eqn:F; [|apply IH in H; exact H]. destruct v as [|x v]; [discriminate|].
    exists (pos s), (x :: v). repeat split; try assumption; try congruence.
    injection H as <-. reflexivity.
  - destruct e; try discriminate. apply IH in H. exact H.
Qed.

(** scalar generators *)
Definition scalar (g : gen) : Prop := ~ In PIn (g_types g).
Lemma scalar_draw : forall g p rows, scalar g -> draw dr g p rows = draw_scalar dr g p rows.
Proof.
  intros g p rows H. unfold draw. destruct (deqb_spec (g_types g) [PIn]) as [E|]; [|reflexivity].
  exfalso. apply H. rewrite E. cbn. auto.
Qed.
Lemma scalar_passes : forall g v, scalar g -> forallb (passes g v) (placeholders g) = true.
Proof.
  intros g v H. apply forallb_forall. intros k _. unfold passes, predicate_for.
  destruct (key_index (g_keys g) k) as [i|]; [|reflexivity]. destruct (nth_error (g_types g) i) as [p|] eqn:E; [|reflexivity].
  destruct p; try reflexivity. exfalso. apply H. eapply nth_error_In; eauto.
Qed.
Lemma draw_scalar_no_sampling_error : forall g p rows, draw_scalar dr g p rows <> Raise RuntimeError.
Proof.
  intros g p rows. unfold draw_scalar. destruct (g_samp g); [| |discriminate].
  - destruct (pick _ _); discriminate.
  - destruct (g_count g); [destruct (forallb _ _); [|discriminate]|]; destruct (pick _ _); discriminate.
Qed.
Lemma choose_list_total : forall f g rows s, scalar g -> g_tt g = TList rows -> rows <> [] ->
  (forall r, In r rows -> r <> []) -> g_samp g <> OtherSampling -> weight_column g = None -> g_tries g <> Some 0 ->
  exists s', choose (S f) sc t g s = (Ok tt, s').
Proof.
  intros f g rows s Hsc Hg Hne Hr Hs Hw Ht. cbn [CEB_model.choose].
  destruct (match g_tries g with Some n => n | None => 10 end) as [|n] eqn:E.
  { destruct (g_tries g) as [m|]; [|discriminate]. subst m. congruence. }
  cbn [CEB_model.choose_loop]. unfold CEB_model.next_value. rewrite Hg. cbn [bindS]. rewrite (scalar_draw g _ _ Hsc).
  assert (Hd : exists v, draw_scalar dr g (pos s) rows = Ok v /\ v <> []).
  { unfold draw_scalar. unfold weight_column in Hw. destruct (g_samp g); [| |congruence].
    - assert (Hne' : dedup rows <> []).
      { destruct rows as [|r rows]; [congruence|]. intros E'. assert (In r (dedup (r :: rows))) by (apply dedup_In; cbn; auto).
        rewrite E' in H. exact H. }
      destruct (pick_some _ (dr (pos s)) _ Hne') as (v & Ev). rewrite Ev. exists v. split; [reflexivity|]. apply Hr.
      apply pick_In in Ev. rewrite dedup_In in Ev. exact Ev.
    - rewrite Hw. destruct (pick_some _ (dr (pos s)) _ Hne) as (v & Ev). rewrite Ev. exists v. split; [reflexivity|]. apply Hr.
      apply pick_In in Ev. exact Ev. }
  destruct Hd as (v & -> & Hv). rewrite (scalar_passes g v Hsc). destruct v as [|x v]; [congruence|]. eauto.
Qed.
Lemma hole_text_no_sampling_error : forall k v, hole_text sc t k v <> Raise RuntimeError.
Proof.
  intros k v. unfold hole_text. destruct (dget (t_lookup t) k) as [g|]; [|discriminate].
  assert (Hc : column_for g k <> Raise RuntimeError).
  { unfold column_for. destruct (key_index _ _); [|discriminate]. destruct (nth_error _ _); discriminate. }
  destruct (column_for g k) as [c|e]; cbn [rbind]; [|congruence].
  assert (Hl : lookup_column sc t c <> Raise RuntimeError).
  { unfold lookup_column. destruct (fst c) as [a|]; [destruct (dget _ _); discriminate|].
    assert (Hw : forall l, tables_without_alias l <> Raise RuntimeError).
    { induction l as [|a l IH]; cbn; [discriminate|]. destruct a as [|a [|b [|c' a']]]; try discriminate.
      destruct (tables_without_alias l); cbn; congruence. }
    specialize (Hw (dkeys (t_aliases t))). destruct (tables_without_alias _) as [tabs|e]; cbn [rbind]; [|congruence].
    destruct (s_lookup _ _ _); cbn; discriminate. }
  destruct (lookup_column sc t c) as [[tab col]|e]; cbn [rbind]; [|congruence].
  destruct (s_dtype sc tab col) as [dt|]; cbn [found rbind]; [|discriminate].
  assert (Hp : predicate_for g k <> Raise RuntimeError).
  { unfold predicate_for. destruct (key_index _ _); [|discriminate]. destruct (nth_error _ _); discriminate. }
  destruct (predicate_for g k) as [p|e]; cbn [rbind]; [|congruence]. clear.
  assert (H : forall w p, escape w p dt <> Raise RuntimeError).
  { induction w as [s|l IH] using val_ind'; intros p'.
    - cbn [escape]. destruct (is_text dt); discriminate.
    - rewrite escape_VT. destruct (deqb p' PIn); [|discriminate].
      assert (Hl : escape_list l dt <> Raise RuntimeError).
      { induction IH as [|x r Hx _ IHr]; [discriminate|]. rewrite escape_list_cons. specialize (Hx PEq).
        destruct (escape x PEq dt); cbn [rbind]; [|congruence]. destruct (escape_list r dt); cbn [rbind]; congruence. }
      destruct (escape_list l dt); cbn; congruence. }
  apply H.
Qed.
Lemma substitute_no_sampling_error : forall vs q, substitute sc t q vs <> Raise RuntimeError.
Proof.
  induction vs as [|[k v] vs IH]; intros q; cbn [substitute]; [discriminate|].
  pose proof (hole_text_no_sampling_error k v). destruct (hole_text sc t k v); cbn [rbind]; [apply IH|congruence].
Qed.
Lemma gen_values_no_sampling_error : forall s g, gen_values s g <> Raise RuntimeError.
Proof.
  intros s g. unfold gen_values. destruct (dget (sel s) (g_name g)) as [[|v0 vals]|]; try discriminate.
  induction (placeholders g) as [|k ks IH]; [intros E; discriminate E|]. cbn [rmapM].
  destruct (key_index (g_keys g) k) as [i|]; cbn [rbind]; [|discriminate].
  destruct (nth_error _ i); cbn [rbind]; [|discriminate]. destruct (rmapM _ ks); cbn; congruence.
Qed.
Lemma find_gen_In : forall n g, find_gen t n = Some g -> In g (t_gens t) /\ g_name g = n.
Proof. intros n g H. apply find_some in H. destruct H as [H1 H2]. apply Nat.eqb_eq in H2. auto. Qed.
(** without redrawing, the dependency loop only reads the state *)
Lemma dep_loop_read : forall ch deps q s r s', dep_loop ch sc t false deps q s = (r, s') ->
  s' = s /\ match r with Ok q' => asks sc t s deps q q' | Raise e => e <> RuntimeError end.
Proof.
  intros ch. induction deps as [|d deps IH]; intros q s r s' H; cbn [dep_loop] in H.
  - assert (s' = s) by congruence. assert (r = Ok q) by congruence. subst. split; [reflexivity|constructor].
  - destruct (find_gen t d) as [g|] eqn:Eg; [|assert (s' = s) by congruence; assert (r = Raise KeyError) by congruence; subst; split; [reflexivity|discriminate]].
    cbn [bindS] in H. destruct (gen_values s g) as [vs|e] eqn:Ev; cbn [rbind] in H.
    + destruct (substitute sc t q vs) as [q1|e] eqn:Es.
      * destruct (IH _ _ _ _ H) as [-> Hr]. split; [reflexivity|]. destruct r as [q'|e]; [|exact Hr].
        destruct (find_gen_In d g Eg) as [Hin Hname].
        destruct (substitute_filled sc t vs q q1 Es) as (f & Hf & Hq).
        destruct (gen_values_dget s g vs Ev) as (G1 & G2 & _).
        refine (asks_cons sc t s d deps g f q q1 q' Hin Hname _ _ Hq Hr).
        -- intros k Hk. specialize (Hf k). destruct (dget vs k) as [v|] eqn:Ek.
           ++ destruct Hf as (x & Hx & Hfx). exists v, x. split; [apply (G1 k v Ek)|auto].
           ++ exfalso. apply (G2 k Ek Hk).
        -- intros k Hk. specialize (Hf k). destruct (dget vs k) as [v|] eqn:Ek; [|exact Hf].
           exfalso. apply Hk. apply (G1 k v Ek).
      * assert (s' = s) by congruence. assert (r = Raise e) by congruence. subst. split; [reflexivity|].
        pose proof (substitute_no_sampling_error vs q). congruence.
    + assert (s' = s) by congruence. assert (r = Raise e) by congruence. subst. split; [reflexivity|].
      pose proof (gen_values_no_sampling_error s g). congruence.
Qed.
Lemma choose_first_try : forall f g s s', scalar g -> (forall q, exec q <> []) -> choose (S f) sc t g s = (Ok tt, s') ->
  exists v, sel s' = dset (sel s) (g_name g) v /\
    match g_tt g with
    | TList rows => exists r, In r rows /\ payload (weight_column g) r v
    | TSql q => exists deps q' r, g_deps g = Some deps /\ asks sc t s deps q q' /\ In r (exec q') /\ payload (weight_column g) r v
    end.
Proof.
  intros f g s s' Hsc He H. cbn [CEB_model.choose] in H.
  destruct (g_tt g) as [q|rows] eqn:Hg.
  - destruct (match g_tries g with Some n => n | None => 10 end) as [|n]; [discriminate|]. cbn [CEB_model.choose_loop] in H.
    unfold CEB_model.next_value in H. rewrite Hg in H. destruct (g_deps g) as [deps|]; [|discriminate].
    destruct (dep_loop (choose f sc t) sc t false deps q s) as [r s1] eqn:Ed.
    destruct (dep_loop_read _ _ _ _ _ _ Ed) as [-> Hr].
    destruct r as [q'|e]; cbn [bindS] in H; [|destruct e; try discriminate; congruence].
    destruct (exec q') as [|r0 rs] eqn:Ee; [exfalso; apply (He q' Ee)|]. cbn [bindS] in H.
    rewrite (scalar_draw g _ _ Hsc) in H.
    pose proof (draw_scalar_no_sampling_error g (pos s) (r0 :: rs)) as Hn.
    destruct (draw_scalar dr g (pos s) (r0 :: rs)) as [v|e] eqn:Edr; [|destruct e; try discriminate; congruence].
    rewrite (scalar_passes g v Hsc) in H. destruct v as [|x v]; [discriminate|].
    exists (x :: v). split; [injection H as <-; reflexivity|].
    destruct (draw_scalar_payload _ _ _ _ _ Edr) as (r & Hin & Hp). exists deps, q', r. rewrite Ee. auto.
  - destruct (choose_loop_list _ g rows Hg _ _ _ _ H) as (p & v & Hd & _ & _ & Hs). exists v. split; [exact Hs|].
    rewrite (scalar_draw g _ _ Hsc) in Hd. apply (draw_scalar_payload _ _ _ _ _ Hd).
Qed.
Lemma asks_mono : forall s s' deps q q', asks sc t s deps q q' -> (forall d, In d deps -> dget (sel s') d = dget (sel s) d) ->
  asks sc t s' deps q q'.
Proof.
  intros s s' deps q q' H. induction H as [|d r g f q q1 q2 Hin Hn Hf Hf' Hq _ IH]; intros E; [constructor|].
  refine (asks_cons sc t s' d r g f q q1 q2 Hin Hn _ Hf' Hq _).
  - intros k Hk. destruct (Hf k Hk) as (v & x & (vs & i & H1 & H2 & H3) & Hx & Hfx). exists v, x. split; [|auto].
    exists vs, i. split; [|auto]. rewrite E by (cbn; auto). exact H1.
  - apply IH. intros d' Hd'. apply E. cbn. auto.
Qed.
Lemma choose_all_answers : forall f (names : forall n, In n (map g_name (t_gens t)) -> exists g, find_gen t n = Some g),
  (forall g, In g (t_gens t) -> scalar g) -> (forall q, exec q <> []) ->
  forall order done s s',
  NoDup (done ++ order) ->
  (forall a n b g, done ++ order = a ++ n :: b -> find_gen t n = Some g -> forall deps d, g_deps g = Some deps -> In d deps -> In d a) ->
  (forall n g, In n done -> find_gen t n = Some g -> answers exec sc t s g) ->
  choose_all (S f) sc t order s = (Ok tt, s') ->
  forall n g, In n (done ++ order) -> find_gen t n = Some g -> answers exec sc t s' g.
Proof.
  intros f _ Hsc He. induction order as [|m order IH]; intros done s s' Hnd Hdep Hdone H n g Hn Hg; cbn [CEB_model.choose_all] in H.
  - assert (s = s') by congruence. subst s'. rewrite app_nil_r in Hn. eauto.
  - destruct (find_gen t m) as [gm|] eqn:Em; [|discriminate].
    destruct (choose (S f) sc t gm s) as [[[]|e] s1] eqn:Ec; cbn [bindS] in H; [|discriminate].
    destruct (find_gen_In m gm Em) as [Hin Hname].
    destruct (choose_first_try f gm s s1 (Hsc gm Hin) He Ec) as (v & Hs1 & Hv).
    replace (done ++ m :: order) with ((done ++ [m]) ++ order) in * by (rewrite <- app_assoc; reflexivity).
    eapply (IH (done ++ [m]) s1 s' Hnd Hdep); [|exact H|exact Hn|exact Hg].
    assert (Hm : ~ In m done).
    { rewrite <- app_assoc in Hnd. cbn in Hnd. apply NoDup_remove_2 in Hnd. intros Hm. apply Hnd. apply in_or_app. auto. }
    intros n0 g0 Hn0 Hg0. apply in_app_or in Hn0. destruct Hn0 as [Hn0|[<-|[]]].
    + specialize (Hdone n0 g0 Hn0 Hg0). intros q Hq. destruct (Hdone q Hq) as (deps & q' & r & v0 & H1 & H2 & H3 & H4 & H5).
      exists deps, q', r, v0. split; [exact H1|]. destruct (find_gen_In n0 g0 Hg0) as [_ Hname0].
      assert (Hdd : forall d, In d deps -> In d done).
      { intros d Hd. destruct (in_split _ _ Hn0) as (a & b & E). subst done.
        assert (In d a) by (apply (Hdep a n0 (b ++ [m] ++ order) g0) with (deps := deps); [rewrite <- !app_assoc; reflexivity|exact Hg0|exact H1|exact Hd]).
        apply in_or_app. auto. }
      split; [|split; [exact H3|split; [|exact H5]]].
      * eapply asks_mono; [exact H2|]. intros d Hd. rewrite Hs1, dset_other; [reflexivity|]. rewrite Hname. intros ->. apply Hm. auto.
      * rewrite Hs1, dset_other; [exact H4|]. rewrite Hname, Hname0. intros E. apply Hm. congruence.
    + assert (g0 = gm) by congruence. subst g0. intros q Hq. rewrite Hq in Hv. destruct Hv as (deps & q' & r & H1 & H2 & H3 & H4).
      exists deps, q', r, v. split; [exact H1|]. split; [|split; [exact H3|split; [|exact H4]]].
      * eapply asks_mono; [exact H2|]. intros d Hd. rewrite Hs1, dset_other; [reflexivity|]. rewrite Hname. intros ->. apply Hm.
        apply (Hdep done m order gm) with (deps := deps); [rewrite <- app_assoc; reflexivity|exact Em|exact H1|exact Hd].
      * rewrite Hs1, Hname. apply dset_same.
Qed.
End Choose.
