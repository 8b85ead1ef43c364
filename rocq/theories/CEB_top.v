(** More lemmas about the CEB workload generator: registration, final queries, workloads. *)
From Coq Require Import String List Bool Arith Lia Ascii DecimalString DecimalNat.
From Verif Require Import PyBase Num_model CEB_model CEB_spec CEB_proofs Collections_proofs.
Import ListNotations.

(** ** Registration *)
Lemma register_keys_Ok : forall g ks lk lk', register_keys g ks lk = (Ok tt, lk') -> NoDup ks ->
  (forall k, dget lk' k = if mem k ks then Some g else dget lk k) /\ (forall k, In k ks -> dget lk k = None).
Proof.
  induction ks as [|k ks IH]; intros lk lk' H Hn; cbn [register_keys] in H.
  - assert (lk' = lk) by congruence. subst. split; [reflexivity|intros k []].
  - inversion Hn as [|? ? Hk Hn']; subst. destruct (dget lk k) eqn:E; [discriminate|].
    destruct (IH _ _ H Hn') as [H1 H2]. split.
    + intros j. rewrite H1. destruct (mem j ks) eqn:Ej.
      * assert (Hj : mem j (k :: ks) = true) by (apply mem_In; right; apply mem_In; exact Ej). rewrite Hj. reflexivity.
      * rewrite dset_spec. destruct (eqd j k) as [->|Hjk].
        -- assert (Hj : mem k (k :: ks) = true) by (apply mem_In; left; reflexivity). rewrite Hj. reflexivity.
        -- assert (Hj : mem j (k :: ks) = false).
           { destruct (mem j (k :: ks)) eqn:E2; [|reflexivity]. apply mem_In in E2. destruct E2 as [E2|E2]; [congruence|].
             apply mem_In in E2. congruence. }
           rewrite Hj. reflexivity.
    + intros j [<-|Hj]; [exact E|]. specialize (H2 j Hj). rewrite dset_spec in H2. destruct (eqd j k); [discriminate|exact H2].
Qed.
Lemma find_gen_None : forall t n, find_gen t n = None <-> ~ In n (map g_name (t_gens t)).
Proof.
  intros t n. unfold find_gen. rewrite in_map_iff. split.
  - intros H (g & <- & Hg). pose proof (find_none _ _ H g Hg) as E. cbn in E. rewrite Nat.eqb_refl in E. discriminate.
  - intros H. destruct (find _ _) as [g|] eqn:E; [|reflexivity]. apply find_some in E. destruct E as [E1 E2].
    apply Nat.eqb_eq in E2. exfalso. apply H. eauto.
Qed.
Lemma built_ok : forall t, built t -> NoDup (map g_name (t_gens t)) /\
  (forall k g, dget (t_lookup t) k = Some g <-> In g (t_gens t) /\ In k (g_keys g)).
Proof.
  induction 1 as [base label aliases|t g t' Hb [IH1 IH2] H].
  - cbn. split; [constructor|]. intros k g. split; [discriminate|intros [[] _]].
  - unfold register_generator in H. destruct (find_gen t (g_name g)) eqn:E; [discriminate|].
    destruct (register_keys g (placeholders g) (t_lookup t)) as [r lk] eqn:Ek. injection H as -> <-. cbn [t_gens t_lookup].
    destruct (register_keys_Ok g _ _ _ Ek (dedup_NoDup _)) as [H1 H2]. apply find_gen_None in E. split.
    + rewrite map_app. cbn. apply NoDup_app_intro; [exact IH1|repeat constructor; intros []|]. intros x Hx [<-|[]]. apply E. exact Hx.
    + intros k g0. rewrite H1, in_app_iff. destruct (mem k (placeholders g)) eqn:Em.
      * apply mem_In in Em. pose proof (H2 k Em) as Hno. apply placeholders_In in Em. split.
        -- intros [= <-]. split; [right; left; reflexivity|exact Em].
        -- intros [[Ho|[->|[]]] Hk0]; [|reflexivity]. assert (dget (t_lookup t) k = Some g0) by (apply IH2; auto). congruence.
      * assert (Hk : ~ In k (g_keys g)). { intros Hk. apply placeholders_In in Hk. apply mem_In in Hk. congruence. }
        rewrite IH2. split; [intros [? ?]; auto|]. intros [[Ho|[->|[]]] Hk0]; [auto|tauto].
Qed.
Lemma built_find : forall t g, built t -> In g (t_gens t) -> find_gen t (g_name g) = Some g.
Proof.
  intros t g Hb Hg. destruct (built_ok t Hb) as [Hn _]. unfold find_gen. revert Hn Hg. induction (t_gens t) as [|x l IH]; [intros _ []|].
  cbn. intros Hn [->|Hg]; [rewrite Nat.eqb_refl; reflexivity|]. inversion Hn as [|? ? Hx Hn']; subst.
  destruct (Nat.eqb_spec (g_name x) (g_name g)) as [E|E]; [|auto]. exfalso. apply Hx. rewrite E. apply in_map. exact Hg.
Qed.

(** ** Final queries *)
Lemma dget_app : forall (a b : dict nat val) k, dget (a ++ b) k = match dget a k with Some v => Some v | None => dget b k end.
Proof. induction a as [|[j v] a IH]; intros b k; cbn [dget app]; [reflexivity|]. destruct (eqd k j); [reflexivity|apply IH]. Qed.
Lemma fill_all_filled : forall sc t s gs q q', fill_all sc t gs q s = Ok q' ->
  exists f, Forall2 (token_filled f) q q' /\
    (forall k, (exists g, In g gs /\ In k (g_keys g)) -> exists g v x, In g gs /\ In k (g_keys g) /\ selected s g k v /\ hole_text sc t k v = Ok x /\ f k = Some x) /\
    (forall k, (forall g, In g gs -> ~ In k (g_keys g)) -> f k = None).
Proof.
  intros sc t s. induction gs as [|g gs IH]; intros q q' H; cbn [fill_all] in H.
  - assert (q = q') by congruence. subst. exists (fun _ => None). split; [|split; [intros k (g & [] & _)|reflexivity]].
    clear. induction q' as [|x q IH]; constructor; [|exact IH]. destruct x; reflexivity.
  - destruct (gen_values s g) as [vs|] eqn:Ev; [|discriminate]. cbn [rbind] in H.
    destruct (substitute sc t q vs) as [q1|] eqn:Es; [|discriminate]. cbn [rbind] in H.
    destruct (substitute_filled sc t vs q q1 Es) as (f & Hf & Hq). destruct (IH _ _ H) as (f' & Hq' & Hk & Hno).
    destruct (gen_values_dget s g vs Ev) as (G1 & G2 & _).
    exists (fun k => match f k with Some x => Some x | None => f' k end). split; [eapply token_filled_trans; eauto|]. split.
    + intros k (g0 & Hg0 & Hk0). specialize (Hf k). destruct (dget vs k) as [v|] eqn:Ek.
      * destruct Hf as (x & Hx & Hfx). destruct (G1 k v Ek) as [Hin Hsel]. exists g, v, x. rewrite Hfx. cbn. auto 6.
      * rewrite Hf. destruct Hg0 as [<-|Hg0]; [exfalso; apply (G2 k Ek Hk0)|].
        destruct (Hk k) as (g1 & v & x & H1 & H2); [eauto|]. exists g1, v, x. cbn. tauto.
    + intros k Hk0. specialize (Hf k). destruct (dget vs k) as [v|] eqn:Ek.
      * exfalso. apply (Hk0 g); [left; reflexivity|]. apply (G1 k v Ek).
      * rewrite Hf. apply Hno. intros g0 Hg0. apply Hk0. right. exact Hg0.
Qed.

(** ** Workloads *)
Lemma show_inj : forall i j, show i = show j -> i = j.
Proof.
  intros i j H. unfold show in H. apply Unsigned.to_uint_inj.
  assert (E : Some (Nat.to_uint i) = Some (Nat.to_uint j)) by (rewrite <- (NilEmpty.usu (Nat.to_uint i)), <- (NilEmpty.usu (Nat.to_uint j)), H; reflexivity).
  congruence.
Qed.
Lemma show_no_dash : forall i, ~ has_char "-"%char (show i).
Proof. intros i. unfold show. induction (Nat.to_uint i); cbn; intros H; [exact H|..]; destruct H as [H|H]; try discriminate; auto. Qed.
Lemma has_char_app : forall c a b, has_char c (append a (String c b)).
Proof. induction a as [|x a IH]; intros b; cbn; auto. Qed.
Lemma label_split : forall a b d e, ~ has_char "-"%char d -> ~ has_char "-"%char e ->
  append a (String "-" d) = append b (String "-" e) -> a = b /\ d = e.
Proof.
  induction a as [|x a IH]; intros [|y b] d e Hd He H; cbn in H.
  - split; congruence.
  - injection H as _ H. exfalso. apply Hd. rewrite H. apply has_char_app.
  - injection H as _ H. exfalso. apply He. rewrite <- H. apply has_char_app.
  - injection H as -> H. destruct (IH b d e Hd He H) as [-> ->]. auto.
Qed.
Lemma query_label_inj : forall a b i j, query_label show a i = query_label show b j -> a = b /\ i = j.
Proof.
  intros a b i j H. unfold query_label in H. destruct (label_split a b (show i) (show j)) as [-> E]; auto using show_no_dash.
  split; [reflexivity|]. apply show_inj. exact E.
Qed.
Lemma dset_fresh : forall (d : dict string string) k v, ~ In k (dkeys d) -> dset d k v = d ++ [(k, v)].
Proof.
  induction d as [|[j w] d IH]; intros k v H; cbn [dset app]; [reflexivity|].
  destruct (eqd k j) as [->|Hn]; [exfalso; apply H; cbn; auto|]. rewrite IH; [reflexivity|]. intros Hin. apply H. cbn. auto.
Qed.
Lemma numbered_app : forall label qs i q, numbered label i (qs ++ [q]) = numbered label i qs ++ [(query_label show label (i + length qs), q)].
Proof.
  induction qs as [|x qs IH]; intros i q; cbn; [rewrite Nat.add_0_r; reflexivity|]. rewrite IH. replace (S i + length qs) with (i + S (length qs)) by lia. reflexivity.
Qed.
Lemma numbered_keys : forall label qs i k, In k (dkeys (numbered label i qs)) -> exists j, i <= j < i + length qs /\ k = query_label show label j.
Proof.
  induction qs as [|x qs IH]; intros i k H; cbn in H; [tauto|]. destruct H as [<-|H].
  - exists i. cbn. split; [lia|reflexivity].
  - destruct (IH (S i) k H) as (j & Hj & ->). exists j. cbn. split; [lia|reflexivity].
Qed.
(** One template. [wl0]: the entries of the templates before it. *)
Lemma template_loop_ok : forall gq label n mx left count tries seen qs wl0 seen' wl',
  length qs = count -> count <= n -> NoDup seen -> (forall q, In q qs -> In q seen) ->
  (forall j, ~ In (query_label show label j) (dkeys wl0)) ->
  (forall k v, dget wl0 k = Some v -> In v seen) ->
  template_loop show left gq label n mx count tries seen (wl0 ++ numbered label 1 qs) = Ok (seen', wl') ->
  exists more, seen' = rev more ++ seen /\ wl' = wl0 ++ numbered label 1 (qs ++ more) /\ NoDup seen' /\ length (qs ++ more) <= n.
Proof.
  intros gq label n mx. induction left as [|left IH]; intros count tries seen qs wl0 seen' wl' Hc Hn Hs Hq Hl Hv H; cbn [template_loop] in H.
  - destruct (negb _); [|discriminate]. exists []. rewrite app_nil_r. assert (seen = seen') by congruence. assert (wl' = wl0 ++ numbered label 1 qs) by congruence.
    subst. cbn. auto.
  - destruct (negb ((count <? n) && (tries <=? mx))) eqn:Ec.
    { exists []. rewrite app_nil_r. assert (seen = seen') by congruence. assert (wl' = wl0 ++ numbered label 1 qs) by congruence. subst. cbn. auto. }
    apply negb_false_iff in Ec. apply andb_prop in Ec. destruct Ec as [Ec Et]. apply Nat.ltb_lt in Ec.
    destruct (gq (S tries)) as [q|]; [|discriminate]. cbn [rbind] in H.
    destruct (mem q seen) eqn:Em.
    + destruct (Nat.eqb (S tries) mx); [discriminate|]. apply (IH count (S tries) seen qs wl0 seen' wl'); auto.
    + assert (Hnew : ~ In q seen) by (intros Hin; apply mem_In in Hin; congruence).
      rewrite dset_fresh in H.
      2:{ unfold dkeys. rewrite map_app, in_app_iff. intros [Hk|Hk]; [apply (Hl (S count)); exact Hk|].
          apply numbered_keys in Hk. destruct Hk as (j & Hj & E). apply query_label_inj in E. lia. }
      rewrite <- app_assoc in H. replace (S count) with (1 + length qs) in H at 2 by lia. rewrite <- numbered_app in H.
      destruct (IH (S count) (S tries) (q :: seen) (qs ++ [q]) wl0 seen' wl') as (more & -> & -> & Hnd & Hlen).
      * rewrite app_length. cbn. lia.
      * lia.
      * constructor; assumption.
      * intros x Hx. apply in_app_or in Hx. destruct Hx as [Hx|[<-|[]]]; [right; auto|left; reflexivity].
      * exact Hl.
      * intros k v Hk. right. eauto.
      * exact H.
      * exists (q :: more). rewrite <- app_assoc in *. cbn [app rev] in *. rewrite <- app_assoc in *. cbn [app] in *. auto.
Qed.

Lemma numbered_dget : forall label qs i k v, dget (numbered label i qs) k = Some v -> In v qs.
Proof.
  induction qs as [|x qs IH]; intros i k v H; cbn [numbered dget] in H; [discriminate|].
  destruct (eqd _ _); [left; congruence|right; eauto].
Qed.
Lemma dget_app_s : forall (a b : dict string string) k, dget (a ++ b) k = match dget a k with Some v => Some v | None => dget b k end.
Proof. induction a as [|[j v] a IH]; intros b k; cbn [dget app]; [reflexivity|]. destruct (eqd k j); [reflexivity|apply IH]. Qed.
Lemma fold_raise : forall n mx ts e, fold_left (fun acc '(label, gq) => rbind acc (fun '(seen, wl) =>
    template_loop show (S (S mx)) gq label n mx 0 0 seen wl)) ts (Raise e) = Raise e.
Proof. induction ts as [|[l g] ts IH]; intros e; cbn [fold_left rbind]; auto. Qed.
Lemma workload_loop_ok : forall n mx ts seen wl0 seen' wl',
  NoDup (map fst ts) -> NoDup seen ->
  (forall t j, In t ts -> ~ In (query_label show (fst t) j) (dkeys wl0)) -> (forall k v, dget wl0 k = Some v -> In v seen) ->
  fold_left (fun acc '(label, gq) => rbind acc (fun '(seen, wl) =>
    template_loop show (S (S mx)) gq label n mx 0 0 seen wl)) ts (Ok (seen, wl0)) = Ok (seen', wl') ->
  exists qss, length qss = length ts /\ wl' = wl0 ++ parts ts qss /\ Forall (fun qs => length qs <= n) qss /\
    seen' = rev (List.concat qss) ++ seen /\ NoDup seen'.
Proof.
  intros n mx. induction ts as [|[label gq] ts IH]; intros seen wl0 seen' wl' Hn Hs Hl Hv H; cbn [fold_left rbind] in H.
  - exists []. assert (seen = seen') by congruence. assert (wl0 = wl') by congruence. subst. cbn. rewrite app_nil_r. auto.
  - cbn [map fst] in Hn. inversion Hn as [|? ? Hx Hn']; subst.
    destruct (template_loop _ _ _ _ _ _ _ _ _ _) as [[seen1 wl1]|e] eqn:E; [|rewrite fold_raise in H; discriminate].
    pose proof (template_loop_ok gq label n mx (S (S mx)) 0 0 seen [] wl0 seen1 wl1) as HT. cbn [numbered] in HT. rewrite app_nil_r in HT.
    destruct HT as (more & E1 & E2 & Hnd & Hlen); auto; [lia|intros q []|intros j; apply (Hl (label, gq) j); left; reflexivity|].
    cbn [app] in E2, Hlen.
    destruct (IH seen1 wl1 seen' wl' Hn' Hnd) as (qss & H1 & H2 & H3 & H4 & H5).
    + intros t j Ht. rewrite E2. unfold dkeys. rewrite map_app, in_app_iff. intros [Hk|Hk]; [apply (Hl t j); [right; exact Ht|exact Hk]|].
      apply numbered_keys in Hk. destruct Hk as (i & _ & Ei). apply query_label_inj in Ei. destruct Ei as [Ei _].
      apply Hx. rewrite <- Ei. apply in_map. exact Ht.
    + intros k v Hk. rewrite E2, dget_app_s in Hk. rewrite E1. apply in_or_app. destruct (dget wl0 k) eqn:Ek.
      * right. apply (Hv k). congruence.
      * left. apply in_rev. rewrite rev_involutive. eapply numbered_dget; eauto.
    + exact H.
    + exists (more :: qss). cbn [length]. split; [congruence|]. split; [rewrite H2, E2, <- app_assoc; reflexivity|].
      split; [constructor; assumption|]. split; [|exact H5]. cbn [List.concat]. rewrite rev_app_distr, <- app_assoc, <- E1. exact H4.
Qed.
(** values stay distinct even if labels clash *)
Lemma dset_values : forall (d : dict string string) k v, ~ In v (dvalues d) -> NoDup (dvalues d) ->
  NoDup (dvalues (dset d k v)) /\ (forall x, In x (dvalues (dset d k v)) -> x = v \/ In x (dvalues d)).
Proof.
  induction d as [|[j w] d IH]; intros k v Hv Hn; cbn [dset].
  - cbn. split; [repeat constructor; intros []|]. intros x [<-|[]]. auto.
  - unfold dvalues in *. cbn [map snd] in *. inversion Hn as [|? ? Hw Hn']; subst. destruct (eqd k j); cbn [map snd].
    + split; [constructor; [intros H; apply Hv; right; exact H|exact Hn']|]. intros x [<-|Hx]; auto. right. right. exact Hx.
    + destruct (IH k v (fun H => Hv (or_intror H)) Hn') as [H1 H2]. split.
      * constructor; [|exact H1]. intros H. apply H2 in H. destruct H as [->|H]; [apply Hv; left; reflexivity|auto].
      * intros x [<-|Hx]; [right; left; reflexivity|]. destruct (H2 x Hx) as [->|Hx']; [auto|right; right; exact Hx'].
Qed.
Lemma template_loop_unique : forall gq label n mx left count tries seen wl seen' wl',
  NoDup (dvalues wl) -> (forall v, In v (dvalues wl) -> In v seen) ->
  template_loop show left gq label n mx count tries seen wl = Ok (seen', wl') ->
  NoDup (dvalues wl') /\ (forall v, In v (dvalues wl') -> In v seen').
Proof.
  intros gq label n mx. induction left as [|left IH]; intros count tries seen wl seen' wl' Hn Hs H; cbn [template_loop] in H.
  - destruct (negb _); [|discriminate]. assert (seen = seen') by congruence. assert (wl = wl') by congruence. subst. auto.
  - destruct (negb _); [assert (seen = seen') by congruence; assert (wl = wl') by congruence; subst; auto|].
    destruct (gq (S tries)) as [q|]; [|discriminate]. cbn [rbind] in H. destruct (mem q seen) eqn:Em.
    + destruct (Nat.eqb (S tries) mx); [discriminate|]. eauto.
    + assert (Hq : ~ In q (dvalues wl)). { intros Hin. apply Hs in Hin. apply mem_In in Hin. congruence. }
      destruct (dset_values wl (query_label show label (S count)) q Hq Hn) as [H1 H2].
      eapply IH; [exact H1| |exact H]. intros v Hv. destruct (H2 v Hv) as [->|Hv']; [left; reflexivity|right; auto].
Qed.
Lemma workload_unique : forall n mx ts seen wl seen' wl',
  NoDup (dvalues wl) -> (forall v, In v (dvalues wl) -> In v seen) ->
  fold_left (fun acc '(label, gq) => rbind acc (fun '(seen, wl) =>
    template_loop show (S (S mx)) gq label n mx 0 0 seen wl)) ts (Ok (seen, wl)) = Ok (seen', wl') -> NoDup (dvalues wl').
Proof.
  intros n mx. induction ts as [|[label gq] ts IH]; intros seen wl seen' wl' Hn Hs H; cbn [fold_left rbind] in H.
  - assert (wl = wl') by congruence. subst. exact Hn.
  - destruct (template_loop _ _ _ _ _ _ _ _ _ _) as [[seen1 wl1]|e] eqn:E; [|rewrite fold_raise in H; discriminate].
    destruct (template_loop_unique _ _ _ _ _ _ _ _ _ _ _ Hn Hs E) as [H1 H2]. eapply IH; [exact H1|exact H2|exact H].
Qed.
(** streams that never repeat *)
Lemma template_loop_fresh : forall (f : nat -> string) gq label n mx, (forall i, gq i = Ok (f i)) -> (forall i j, f i = f j -> i = j) ->
  forall left count tries seen wl, count = tries -> n <= S mx -> count <= n -> n - count < left ->
  (forall i, tries < i -> ~ In (f i) seen) ->
  exists wl', template_loop show left gq label n mx count tries seen wl = Ok (rev (map f (seq (S tries) (n - count))) ++ seen, wl').
Proof.
  intros f gq label n mx Hg Hf. induction left as [|left IH]; intros count tries seen wl Hct Hmx Hn Hl Hs; [lia|]. cbn [template_loop].
  destruct (count <? n) eqn:Ec.
  - apply Nat.ltb_lt in Ec. assert (Et : (tries <=? mx) = true) by (apply Nat.leb_le; lia). rewrite Et. cbn [andb negb].
    rewrite Hg. cbn [rbind].
    assert (Em : mem (f (S tries)) seen = false).
    { destruct (mem (f (S tries)) seen) eqn:E; [|reflexivity]. apply mem_In in E. exfalso. apply (Hs (S tries)); [lia|exact E]. }
    rewrite Em.
    destruct (IH (S count) (S tries) (f (S tries) :: seen) (dset wl (query_label show label (S count)) (f (S tries)))) as (w' & H1).
    + congruence.
    + exact Hmx.
    + lia.
    + lia.
    + intros i Hi [E|Hin]; [apply Hf in E; lia|]. apply (Hs i); [lia|exact Hin].
    + exists w'. rewrite H1. do 2 f_equal. replace (n - count) with (S (n - S count)) by lia. cbn [seq map rev].
      rewrite <- app_assoc. reflexivity.
  - apply Nat.ltb_ge in Ec. cbn [andb negb]. exists wl. replace (n - count) with 0 by lia. reflexivity.
Qed.
Lemma rev_inj_app : forall (a b s : list string), rev a ++ s = rev b ++ s -> a = b.
Proof. intros a b s H. apply app_inv_tail in H. rewrite <- (rev_involutive a), <- (rev_involutive b), H. reflexivity. Qed.
Lemma workload_loop_fresh : forall (f : string -> nat -> string) n mx, n <= S mx ->
  (forall l i m j, f l i = f m j -> l = m /\ i = j) ->
  forall (ts : list (string * (nat -> res string))) seen wl0, NoDup (map fst ts) -> (forall t i, In t ts -> snd t i = Ok (f (fst t) i)) -> NoDup seen ->
  (forall t i, In t ts -> ~ In (f (fst t) i) seen) ->
  (forall t j, In t ts -> ~ In (query_label show (fst t) j) (dkeys wl0)) -> (forall k v, dget wl0 k = Some v -> In v seen) ->
  exists seen', fold_left (fun acc '(label, gq) => rbind acc (fun '(seen, wl) =>
    template_loop show (S (S mx)) gq label n mx 0 0 seen wl)) ts (Ok (seen, wl0)) =
    Ok (seen', wl0 ++ parts ts (map (fun t => map (f (fst t)) (seq 1 n)) ts)).
Proof.
  intros f n mx Hmx Hf. induction ts as [|[label gq] ts IH]; intros seen wl0 Hn Hg Hs Hfr Hl Hv; cbn [fold_left rbind].
  - exists seen. cbn. rewrite app_nil_r. reflexivity.
  - cbn [map fst] in Hn. inversion Hn as [|? ? Hx Hn']; subst.
    destruct (template_loop_fresh (f label) gq label n mx (fun i => Hg (label, gq) i (or_introl eq_refl)) (fun i j E => proj2 (Hf _ _ _ _ E))
      (S (S mx)) 0 0 seen wl0) as (wl1 & E); auto; [lia|lia|intros i _; apply (Hfr (label, gq) i); left; reflexivity|].
    rewrite E. rewrite Nat.sub_0_r in E.
    pose proof (template_loop_ok gq label n mx (S (S mx)) 0 0 seen [] wl0 (rev (map (f label) (seq 1 n)) ++ seen) wl1) as HT. cbn [numbered] in HT. rewrite app_nil_r in HT.
    edestruct HT as (more & E1 & E2 & Hnd & Hlen); [reflexivity|lia|exact Hs|intros q []|intros j; apply (Hl (label, gq) j); left; reflexivity|exact Hv|exact E|].
    apply rev_inj_app in E1. cbn [app] in E2. subst more. rewrite Nat.sub_0_r.
    destruct (IH (rev (map (f label) (seq 1 n)) ++ seen) wl1 Hn') as (seen' & E3).
    + intros t i Ht. apply Hg. right. exact Ht.
    + exact Hnd.
    + intros t i Ht Hin. apply in_app_or in Hin. destruct Hin as [Hin|Hin]; [|apply (Hfr t i); [right; exact Ht|exact Hin]].
      apply in_rev in Hin. apply in_map_iff in Hin. destruct Hin as (j & Ej & _). apply Hf in Ej. destruct Ej as [Ej _].
      apply Hx. rewrite Ej. apply in_map. exact Ht.
    + intros t j Ht. rewrite E2. unfold dkeys. rewrite map_app, in_app_iff. intros [Hk|Hk]; [apply (Hl t j); [right; exact Ht|exact Hk]|].
      apply numbered_keys in Hk. destruct Hk as (i & _ & Ei). apply query_label_inj in Ei. destruct Ei as [Ei _].
      apply Hx. rewrite <- Ei. apply in_map. exact Ht.
    + intros k v Hk. rewrite E2, dget_app_s in Hk. apply in_or_app. destruct (dget wl0 k) eqn:Ek.
      * right. apply (Hv k). congruence.
      * left. apply in_rev. rewrite rev_involutive. eapply numbered_dget; eauto.
    + exists seen'. rewrite E3, E2, <- app_assoc. reflexivity.
Qed.
