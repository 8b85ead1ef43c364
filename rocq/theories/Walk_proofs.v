From Coq Require Import List Bool Arith Lia Sorting.Permutation.
From Verif Require Import PyBase Graph QPred_spec QPred_proofs DP_spec DP_proofs Enum_model Enum_spec Enum_proofs.
Import ListNotations.

Lemma connectedb_hangs ns es : connectedb ns es = true <-> hangs_together (partners es) ns.
Proof.
  rewrite connectedb_spec. unfold connected, hangs_together. assert (H : forall x y, path ns es x y <-> chain (partners es) ns x y) by (apply chain_path; reflexivity).
  split; intros Hc x y Hx Hy; apply H; auto.
Qed.
Lemma nadj_iff es x y : In y (nadj es x) <-> partners es x y.
Proof.
  unfold nadj, partners. rewrite dedup_In, in_flat_map. split.
  - intros ([a b] & Hin & H). cbn [fst snd] in H. apply in_app_or in H as [H|H]; [destruct (Nat.eqb_spec a x)|destruct (Nat.eqb_spec b x)]; try contradiction; destruct H as [<-|[]]; subst; auto.
  - intros [H|H]; eexists; (split; [exact H|]); cbn [fst snd]; apply in_or_app; [left|right]; rewrite Nat.eqb_refl; now left.
Qed.
Lemma mem_seteq (l m : list nat) : seteq l m -> forall x, mem x l = mem x m.
Proof.
  intros H x. destruct (mem x l) eqn:E, (mem x m) eqn:F; try reflexivity; [apply mem_In, H, mem_In in E|apply mem_In, H, mem_In in F]; congruence.
Qed.
Lemma grows_seteq R l : forall s s', seteq s s' -> grows R s l -> grows R s' l.
Proof.
  induction l as [|x l IH]; intros s s' Hs H; [constructor|]. inversion H as [|? ? ? y Hy Hr Hg]; subst. apply (gr_cons _ _ _ _ y); [now apply Hs|assumption|]. eapply IH; [|exact Hg]. intros z. cbn. rewrite (Hs z). reflexivity.
Qed.
Lemma grows_app R l : forall s x, grows R s l -> (exists y, In y (s ++ l) /\ R y x) -> grows R s (l ++ [x]).
Proof.
  induction l as [|z l IH]; intros s x Hg (y & Hy & Hr); cbn.
  - rewrite app_nil_r in Hy. eapply gr_cons; [exact Hy|exact Hr|constructor].
  - inversion Hg as [|? ? ? u Hu Hru Hg']; subst. eapply gr_cons; [exact Hu|exact Hru|]. apply IH; [assumption|]. exists y. split; [|assumption]. cbn. rewrite in_app_iff in *. cbn in Hy. tauto.
Qed.

Section Walks.
  Context (ns : list nat) (es : list (nat * nat)) (Hsimple : simple_graph ns es).
  Notation R := (partners es).
  Lemma R_In x y : R x y -> In x ns /\ In y ns.
  Proof. destruct Hsimple as [_ H]. intros [Hr|Hr]; apply H in Hr; tauto. Qed.
  Lemma all_visited v : NoDup v -> incl v ns -> length ns <= length v -> Permutation v ns.
  Proof. intros H1 H2 H3. apply NoDup_Permutation_bis; [assumption|lia|assumption]. Qed.
  Lemma some_unvisited v : length v < length ns -> exists x, In x ns /\ ~ In x v.
  Proof.
    intros Hl. destruct (Forall_Exists_dec (fun x => In x v) (fun x => in_dec Nat.eq_dec x v) ns) as [H|H].
    - rewrite Forall_forall in H. destruct Hsimple as [Hn _]. pose proof (NoDup_incl_length Hn H). lia.
    - apply Exists_exists in H as (x & Hx & Hn). eauto.
  Qed.
  Lemma frontier_edge v : hangs_together R ns -> v <> [] -> incl v ns -> (exists x, In x ns /\ ~ In x v) -> exists x y, In x v /\ In y ns /\ ~ In y v /\ R x y.
  Proof.
    intros Hc Hne Hi (q & Hq & Hqv). destruct v as [|p v]; [contradiction|]. destruct (crossing R ns (p :: v) Hc p q) as (x & y & H1 & H2 & H3 & H4 & H5); [apply Hi; now left|now left|assumption|assumption|]. exists x, y. auto.
  Qed.

  (** ** nx_random_walk *)
  Definition winv (shell visited : list nat) (cur : nat) : Prop :=
    NoDup visited /\ incl visited ns /\ In cur visited /\ NoDup shell /\
    (forall y, In y shell -> ~ In y visited /\ exists z, In z visited /\ R z y) /\
    (forall z y, In z visited -> z <> cur -> R z y -> ~ In y visited -> In y shell).
  Lemma random_walk_loop_ok fuel : forall cs k shell visited cur, winv shell visited cur -> length ns < fuel + length visited ->
    exists l, random_walk_loop fuel cs k ns es shell visited cur = Ok l /\ Permutation (visited ++ l) ns /\ (hangs_together R ns -> grows R visited l).
  Proof.
    induction fuel as [|fuel IH]; intros cs k shell visited cur (N1 & I1 & C1 & N2 & S1 & S2) Hf.
    { exfalso. pose proof (NoDup_incl_length N1 I1). cbn in Hf. lia. }
    cbn [random_walk_loop]. destruct (Nat.ltb_spec (length visited) (length ns)) as [Hl|Hl].
    2:{ exists []. split; [reflexivity|]. rewrite app_nil_r. split; [now apply all_visited|constructor]. }
    rewrite (proj2 (mem_In cur ns) (I1 _ C1)). set (sh := dedup (shell ++ filter (fun n => negb (mem n visited)) (nadj es cur))).
    assert (Hsh : forall y, In y sh <-> ~ In y visited /\ exists z, In z visited /\ R z y).
    { intros y. unfold sh. rewrite dedup_In, in_app_iff, filter_In, negb_true_iff, mem_nIn, nadj_iff. split.
      - intros [H|[H1 H2]]; [now apply S1|]. split; [assumption|]. eauto.
      - intros (H1 & z & Hz & Hr). destruct (Nat.eq_dec z cur) as [->|Hne]; [right; auto|left; eauto]. }
    assert (Nsh : NoDup sh) by apply dedup_NoDup.
    assert (Hnext : forall x, In x ns -> ~ In x visited -> forall sh', NoDup sh' -> (forall y, In y sh' <-> In y sh /\ y <> x) ->
      exists l, random_walk_loop fuel cs (S k) ns es sh' (x :: visited) x = Ok l /\ Permutation (visited ++ x :: l) ns /\ (hangs_together R ns -> (exists z, In z visited /\ R z x) -> grows R visited (x :: l))).
    { intros x Hx Hxv sh' Nsh' Hsh'. destruct (IH cs (S k) sh' (x :: visited) x) as (l & Hl' & Hp & Hg).
      - split; [now constructor|]. split; [intros y [<-|Hy]; auto|]. split; [now left|]. split; [assumption|]. split.
        + intros y Hy. apply Hsh' in Hy as [Hy Hyx]. apply Hsh in Hy as (Hy1 & z & Hz & Hr). split; [intros [<-|H]; [apply Hyx; reflexivity|contradiction]|]. exists z. split; [now right|assumption].
        + intros z y Hz Hzx Hr Hy. apply Hsh'. destruct Hz as [<-|Hz]; [contradiction|]. split; [apply Hsh; split; [intros H; apply Hy; now right|eauto]|]. intros ->. apply Hy. now left.
      - cbn [length]. lia.
      - exists l. split; [assumption|]. split; [rewrite <- Permutation_middle; exact Hp|]. intros Hc (z & Hz & Hr). eapply gr_cons; eauto. }
    destruct sh as [|s0 sh0] eqn:Esh.
    - destruct (some_unvisited visited Hl) as (q & Hq & Hqv). destruct (choose_ok (cs k) (filter (fun n => negb (mem n visited)) ns)) as (x & -> & Hx).
      { intros E. assert (Hin : In q (filter (fun n => negb (mem n visited)) ns)) by (apply filter_In; split; [assumption|]; now apply negb_true_iff, mem_nIn). rewrite E in Hin. destruct Hin. }
      apply filter_In in Hx as [Hx Hxv]. apply negb_true_iff, mem_nIn in Hxv. cbn [rbind]. destruct (Hnext x Hx Hxv [] (NoDup_nil _)) as (l & -> & Hp & Hg); [intros y; cbn; tauto|]. cbn [rmap rbind]. exists (x :: l). split; [reflexivity|]. split; [assumption|].
      intros Hc. exfalso. destruct (frontier_edge visited Hc) as (a & b & Ha & _ & Hb & Hr); [intros ->; destruct C1|assumption|eauto|]. apply (proj2 (Hsh b)). eauto.
    - rewrite <- Esh in *. destruct (choose_ok (cs k) sh) as (x & Hch & Hx); [rewrite Esh; discriminate|]. rewrite Hch. cbn [rbind]. destruct (proj1 (Hsh x) Hx) as (Hxv & z & Hz & Hr).
      destruct (Hnext x (proj2 (R_In _ _ Hr)) Hxv (filter (fun y => negb (y =? x)) sh)) as (l & El & Hp & Hg).
      + now apply NoDup_filter.
      + intros y. rewrite filter_In, negb_true_iff, Nat.eqb_neq. reflexivity.
      + rewrite El. cbn [rmap rbind]. exists (x :: l). split; [reflexivity|]. split; [assumption|]. eauto.
  Qed.
  Lemma random_walk_ok cs start : ns <> [] -> (forall x, start = Some x -> In x ns) ->
    exists l, random_walk (length ns) cs ns es start = Ok l /\ Permutation l ns /\ (hangs_together R ns -> walk R l) /\ (forall x, start = Some x -> hd_error l = Some x).
  Proof.
    intros Hne Hstart. assert (Hgo : forall k x, In x ns -> exists l, random_walk_loop (length ns) cs k ns es [] [x] x = Ok l /\ Permutation (x :: l) ns /\ (hangs_together R ns -> walk R (x :: l))).
    { intros k x Hx. destruct (random_walk_loop_ok (length ns) cs k [] [x] x) as (l & E & Hp & Hg); [|cbn; lia|exists l; auto].
      split; [constructor; [easy|constructor]|]. split; [intros y [<-|[]]; assumption|]. split; [now left|]. split; [constructor|]. split; [contradiction|]. intros z y [<-|[]]; contradiction. }
    destruct start as [x|].
    - destruct (Hgo 0 x (Hstart x eq_refl)) as (l & E & Hp & Hg). exists (x :: l). unfold random_walk. rewrite E. split; [reflexivity|]. split; [assumption|]. split; [assumption|]. intros y [= <-]. reflexivity.
    - destruct (choose_ok (cs 0) ns Hne) as (x & Hch & Hx). destruct (Hgo 1 x Hx) as (l & E & Hp & Hg). exists (x :: l). unfold random_walk. rewrite Hch. cbn [rbind]. rewrite E. split; [reflexivity|]. split; [assumption|]. split; [assumption|]. discriminate.
  Qed.

  (** ** nx_frontier_walks *)
  Lemma avail_iff w y : In y (flat_map (fun x => filter (fun y => negb (mem y w) && negb (mem y w)) (nadj es x)) w) <-> ~ In y w /\ exists x, In x w /\ R x y.
  Proof.
    rewrite in_flat_map. split.
    - intros (x & Hx & Hy). apply filter_In in Hy as [H1 H2]. apply andb_true_iff in H2 as [H2 _]. apply negb_true_iff, mem_nIn in H2. apply nadj_iff in H1. eauto.
    - intros (Hy & x & Hx & Hr). exists x. split; [assumption|]. apply filter_In. split; [now apply nadj_iff|]. apply mem_nIn in Hy. now rewrite Hy.
  Qed.
  Lemma walk_frontier_sound fuel : forall w l, NoDup w -> incl w ns -> w <> [] -> In l (walk_frontier fuel ns es w w) ->
    exists r, l = rev w ++ r /\ Permutation l ns /\ (hangs_together R ns -> grows R w r).
  Proof.
    induction fuel as [|fuel IH]; intros w l Hn Hi Hne; [contradiction|]. cbn [walk_frontier]. set (av := flat_map _ w).
    assert (Hav : forall y, In y av <-> ~ In y w /\ exists x, In x w /\ R x y) by (intros y; apply avail_iff).
    assert (Hstep : forall y, In y ns -> ~ In y w -> (hangs_together R ns -> exists x, In x w /\ R x y) -> In l (walk_frontier fuel ns es (y :: w) (y :: w)) -> exists r, l = rev w ++ r /\ Permutation l ns /\ (hangs_together R ns -> grows R w r)).
    { intros y Hy Hyw Hadj H. destruct (IH (y :: w) l) as (r & El & Hp & Hg); [now constructor|intros z [<-|Hz]; auto|discriminate|assumption|]. exists (y :: r). split; [rewrite El; cbn; now rewrite <- app_assoc|]. split; [assumption|]. intros Hc. destruct (Hadj Hc) as (x & Hx & Hr). eapply gr_cons; eauto. }
    destruct av as [|a av'] eqn:Eav.
    - destruct (Nat.ltb_spec (length w) (length ns)) as [Hl|Hl].
      + intros H. apply in_flat_map in H as (y & Hy & H). apply filter_In in Hy as [Hy Hyw]. apply negb_true_iff, mem_nIn in Hyw. apply (Hstep y); try assumption. intros Hc. exfalso. destruct (frontier_edge w Hc Hne Hi) as (p & q & H1 & H2 & H3 & H4); [eauto|]. apply (proj2 (Hav q)). eauto.
      + intros [<-|[]]. exists []. rewrite app_nil_r. split; [reflexivity|]. split; [|constructor]. rewrite <- Permutation_rev. now apply all_visited.
    - rewrite <- Eav in *. intros H'. apply in_flat_map in H' as (y & Hy & H'). apply Hav in Hy as (Hyw & x & Hx & Hr). apply (Hstep y); eauto. apply (R_In _ _ Hr).
  Qed.
  Lemma walk_frontier_complete fuel : forall w r, NoDup w -> incl w ns -> length ns < fuel + length w -> Permutation (w ++ r) ns -> grows R w r -> In (rev w ++ r) (walk_frontier fuel ns es w w).
  Proof.
    induction fuel as [|fuel IH]; intros w r Hn Hi Hf Hp Hg.
    { exfalso. pose proof (NoDup_incl_length Hn Hi). cbn in Hf. lia. }
    cbn [walk_frontier]. set (av := flat_map _ w). assert (Hav : forall y, In y av <-> ~ In y w /\ exists x, In x w /\ R x y) by (intros y; apply avail_iff). inversion Hg as [|? x l y Hy Hr Hg']; subst.
    - rewrite app_nil_r in *. assert (Hall : av = []).
      { destruct av as [|a av'] eqn:E; [reflexivity|]. exfalso. destruct (proj1 (Hav a) (or_introl eq_refl)) as (Ha & z & Hz & Hzr). apply Ha. apply (Permutation_in _ (Permutation_sym Hp)). apply (R_In _ _ Hzr). }
      rewrite Hall. rewrite (Permutation_length Hp), Nat.ltb_irrefl. now left.
    - assert (Hnd : NoDup (w ++ x :: l)) by (eapply Permutation_NoDup; [symmetry; exact Hp|apply Hsimple]). assert (Hxw : ~ In x w) by (apply NoDup_remove_2 in Hnd; intros H; apply Hnd, in_or_app; now left).
      assert (Hx : In x av) by (apply Hav; eauto). assert (Hin : In (rev w ++ x :: l) (flat_map (fun y => walk_frontier fuel ns es (y :: w) (y :: w)) av)).
      { apply in_flat_map. exists x. split; [assumption|]. specialize (IH (x :: w) l). cbn [rev] in IH. rewrite <- app_assoc in IH. apply IH; [now constructor|intros z [<-|Hz]; [apply (R_In _ _ Hr)|auto]|cbn [length]; lia|rewrite <- Hp; apply Permutation_middle|assumption]. }
      destruct av; [destruct Hx|exact Hin].
  Qed.
  Lemma frontier_walks_iff l : hangs_together R ns -> ns <> [] -> (In l (frontier_walks ns es) <-> Permutation l ns /\ walk R l).
  Proof.
    intros Hc Hne. unfold frontier_walks. rewrite in_flat_map. split.
    - intros (x & Hx & H). apply walk_frontier_sound in H as (r & -> & Hp & Hg); [|constructor; [easy|constructor]|intros y [<-|[]]; assumption|discriminate]. cbn in *. auto.
    - intros [Hp Hw]. destruct l as [|x r]; [destruct Hw|]. exists x. split; [apply (Permutation_in _ Hp); now left|]. apply (walk_frontier_complete (S (length ns)) [x] r); [constructor; [easy|constructor]|intros y [<-|[]]; apply (Permutation_in _ Hp); now left|cbn; lia|exact Hp|exact Hw].
  Qed.
  Lemma frontier_walks_once l : ns <> [] -> In l (frontier_walks ns es) -> Permutation l ns.
  Proof.
    intros Hne H. unfold frontier_walks in H. apply in_flat_map in H as (x & Hx & H). apply walk_frontier_sound in H as (r & _ & Hp & _); [assumption|constructor; [easy|constructor]|intros y [<-|[]]; assumption|discriminate].
  Qed.

  (** ** Linear trees *)
  Lemma linear_fold inner l : forall t, exists t', fold_left (join_with inner) l (Some t) = Some t' /\ Permutation (leaves t') (leaves t ++ l) /\
    (no_cross R t -> grows R (leaves t) l -> no_cross R t') /\ (inner = true -> left_deep t -> left_deep t') /\ (inner = false -> right_deep t -> right_deep t').
  Proof.
    induction l as [|x l IH]; intros t; cbn [fold_left].
    - exists t. rewrite app_nil_r. auto.
    - cbn [join_with]. destruct (IH (if inner then Node t (Leaf x) else Node (Leaf x) t)) as (t' & E & Hp & Hx & Hl & Hr). exists t'. split; [assumption|]. 
      assert (Hpl : Permutation (leaves (if inner then Node t (Leaf x) else Node (Leaf x) t)) (x :: leaves t)) by (destruct inner; cbn; [symmetry; apply Permutation_cons_append|reflexivity]).
      split; [rewrite Hp, Hpl; cbn; apply Permutation_middle|]. split; [|split].
      + intros Hn Hg. inversion Hg as [|? ? ? y Hy Hrr Hg']; subst. apply Hx.
        * destruct inner; [apply (nc_node _ _ _ y x); try assumption; [constructor|now left]|apply (nc_node _ _ _ x y); try assumption; [constructor|now left|now apply partners_sym]].
        * eapply grows_seteq; [|exact Hg']. intros z. split; intros Hz; [apply (Permutation_in _ (Permutation_sym Hpl))|apply (Permutation_in _ Hpl)]; assumption.
      + intros -> Ht. apply Hl; [reflexivity|now constructor].
      + intros -> Ht. apply Hr; [reflexivity|now constructor].
  Qed.
  Lemma linear_tree_ok inner l : Permutation l ns -> walk R l -> exists t, linear_tree inner l = Some t /\ join_order ns es t /\ (inner = true -> left_deep t) /\ (inner = false -> right_deep t).
  Proof.
    intros Hp Hw. destruct l as [|x l]; [destruct Hw|]. unfold linear_tree. cbn [fold_left join_with]. destruct (linear_fold inner l (Leaf x)) as (t & E & Hpl & Hx & Hl & Hr). exists t. split; [assumption|].
    split; [split; [rewrite Hpl; exact Hp|apply Hx; [constructor|exact Hw]]|]. split; intros ->; [apply Hl|apply Hr]; try reflexivity; constructor.
  Qed.
  Lemma linear_snoc inner l x : linear_tree inner (l ++ [x]) = join_with inner (linear_tree inner l) x.
  Proof. unfold linear_tree. now rewrite fold_left_app. Qed.
  Lemma left_deep_walk t : left_deep t -> no_cross R t -> exists l, linear_tree true l = Some t /\ Permutation l (leaves t) /\ walk R l.
  Proof.
    induction 1 as [x|o x Ho IH]; intros Hx; [exists [x]; split; [reflexivity|]; split; [reflexivity|constructor]|]. inversion Hx as [|? ? a b N1 N2 Ha Hb Hr]; subst. destruct (IH N1) as (l & El & Hp & Hw). exists (l ++ [x]). rewrite linear_snoc, El. split; [reflexivity|].
    cbn. split; [now rewrite Hp|]. cbn in Hb. destruct Hb as [<-|[]]. destruct l as [|y l]; [destruct Hw|]. cbn. apply grows_app; [exact Hw|]. exists a. split; [|assumption]. apply (Permutation_in _ (Permutation_sym Hp)). assumption.
  Qed.
  Lemma right_deep_walk t : right_deep t -> no_cross R t -> exists l, linear_tree false l = Some t /\ Permutation l (leaves t) /\ walk R l.
  Proof.
    induction 1 as [x|o x Ho IH]; intros Hx; [exists [x]; split; [reflexivity|]; split; [reflexivity|constructor]|]. inversion Hx as [|? ? a b N1 N2 Ha Hb Hr]; subst. destruct (IH N2) as (l & El & Hp & Hw). exists (l ++ [x]). rewrite linear_snoc, El. split; [reflexivity|].
    cbn. split; [rewrite Hp; symmetry; apply Permutation_cons_append|]. cbn in Ha. destruct Ha as [<-|[]]. destruct l as [|y l]; [destruct Hw|]. cbn. apply grows_app; [exact Hw|]. exists b. split; [|now apply partners_sym]. apply (Permutation_in _ (Permutation_sym Hp)). assumption.
  Qed.

  (** ** nx_bfs_tree *)
  Definition unvisited (v : list nat) : nat := length (filter (fun x => negb (mem x v)) ns).
  Fixpoint vprefix (v q : list nat) : nat := match q with [] => 0 | x :: q => if mem x v then S (vprefix v q) else 0 end.
  Lemma filter_le {A} (f g : A -> bool) l : (forall x, g x = true -> f x = true) -> length (filter g l) <= length (filter f l).
  Proof. intros H. induction l as [|x l IH]; cbn; [lia|]. destruct (g x) eqn:E; [rewrite (H _ E); cbn; lia|]. destruct (f x); cbn; lia. Qed.
  Lemma unvisited_lt x v : In x ns -> ~ In x v -> unvisited (x :: v) < unvisited v.
  Proof.
    intros Hx Hv. unfold unvisited. apply in_split in Hx as (l1 & l2 & ->). rewrite !filter_app, !app_length. cbn [filter]. apply mem_nIn in Hv. rewrite Hv. assert (E : mem x (x :: v) = true) by (apply mem_In; now left). rewrite E. cbn [negb length].
    assert (H : forall l, length (filter (fun y => negb (mem y (x :: v))) l) <= length (filter (fun y => negb (mem y v)) l)).
    { intros l. apply filter_le. intros y. rewrite !negb_true_iff, !mem_nIn. cbn. tauto. }
    pose proof (H l1). pose proof (H l2). lia.
  Qed.
  Lemma vprefix_app v q r : (forall x, In x r -> ~ In x v) -> vprefix v (q ++ r) = vprefix v q.
  Proof.
    intros H. induction q as [|x q IH]; cbn; [|now rewrite IH]. destruct r as [|y r]; [reflexivity|]. cbn. assert (E : mem y v = false) by (apply mem_nIn, H; now left). now rewrite E.
  Qed.
  Lemma unvisited_same x v : In x v -> unvisited (x :: v) = unvisited v.
  Proof. intros H. unfold unvisited. f_equal. apply filter_ext. intros y. f_equal. apply mem_seteq. intros z. cbn. split; [intros [<-|Hz]; auto|auto]. Qed.
  Lemma vprefix_ext v v' q : seteq v v' -> vprefix v q = vprefix v' q.
  Proof. intros H. induction q as [|x q IH]; cbn; [reflexivity|]. rewrite (mem_seteq v v' H), IH. reflexivity. Qed.

  (** It ends, and reaches everything that can be reached through nodes satisfying the condition. *)
  Lemma bfs_total cond : forall n m queue visited, unvisited visited <= n -> vprefix visited queue <= m -> incl queue ns -> exists fuel l, bfs_loop fuel es cond queue visited = Ok l.
  Proof.
    induction n as [n IHn] using (well_founded_induction lt_wf). induction m as [m IHm] using (well_founded_induction lt_wf). intros queue visited Hn Hm Hq.
    destruct queue as [|x q]; [exists 1, []; reflexivity|].
    set (new := filter (fun y => negb (mem y (x :: visited))) (nadj es x)). assert (Hnew : forall y, In y new -> In y ns /\ ~ In y (x :: visited)).
    { intros y Hy. unfold new in Hy. apply filter_In in Hy as [H1 H2]. apply negb_true_iff, mem_nIn in H2. apply nadj_iff in H1. split; [apply (R_In _ _ H1)|assumption]. }
    set (q' := if cond x then q ++ new else q). assert (Hq' : incl q' ns). { unfold q'. intros y Hy. destruct (cond x); [apply in_app_or in Hy as [Hy|Hy]; [apply Hq; now right|now apply Hnew]|apply Hq; now right]. }
    assert (Hrec : exists fuel l, bfs_loop fuel es cond q' (x :: visited) = Ok l).
    { destruct (in_dec Nat.eq_dec x visited) as [Hx|Hx].
      - assert (Hpre : vprefix visited (x :: q) = S (vprefix visited q)) by (cbn; now rewrite (proj2 (mem_In _ _) Hx)).
        assert (Hse : seteq (x :: visited) visited) by (intros z; cbn; split; [intros [<-|Hz]; auto|auto]).
        assert (Hv : vprefix (x :: visited) q' = vprefix visited q). { unfold q'. destruct (cond x); [rewrite vprefix_app by (intros y Hy; now apply Hnew)|]; now apply vprefix_ext. }
        apply (IHm (vprefix visited q)); [lia|rewrite unvisited_same; assumption|lia|assumption].
      - pose proof (unvisited_lt x visited (Hq x (or_introl eq_refl)) Hx). apply (IHn (unvisited (x :: visited)) ltac:(lia) (vprefix (x :: visited) q')); [lia|lia|assumption]. }
    destruct Hrec as (fuel & l & E). exists (S fuel). cbn [bfs_loop]. fold new. unfold q' in E. destruct (cond x); [exists (x :: l); rewrite E; reflexivity|exists l; exact E].
  Qed.
  Lemma bfs_mem cond fuel : forall queue visited l, bfs_loop fuel es cond queue visited = Ok l ->
    (forall z y, In z visited -> R z y -> cond z = true -> In y visited \/ In y queue) ->
    (forall x, In x queue -> cond x = true -> In x l) /\
    (forall x y, In x l -> R x y -> cond y = true -> In y visited \/ In y l) /\ (forall x, In x l -> cond x = true).
  Proof.
    induction fuel as [|fuel IH]; intros queue visited l; cbn [bfs_loop]; [discriminate|]. destruct queue as [|x q]; [intros [= <-] _; repeat split; contradiction|].
    set (new := filter (fun y => negb (mem y (x :: visited))) (nadj es x)). destruct (cond x) eqn:Ec.
    - destruct (bfs_loop fuel es cond (q ++ new) (x :: visited)) as [l'|] eqn:E; [|discriminate]. cbn [rmap rbind]. intros [= <-] Hinv. destruct (IH _ _ _ E) as (H1 & H2 & H3).
      { intros z y [<-|Hz] Hr Hcz.
        - destruct (in_dec Nat.eq_dec y (x :: visited)) as [H|H]; [auto|]. right. apply in_or_app. right. unfold new. apply filter_In. split; [now apply nadj_iff|]. now apply negb_true_iff, mem_nIn.
        - destruct (Hinv z y Hz Hr Hcz) as [H|[<-|H]]; [left; now right|left; now left|right; apply in_or_app; now left]. }
      split; [|split].
      + intros y [<-|Hy] Hcy; [now left|]. right. apply H1; [apply in_or_app; now left|assumption].
      + intros y z [<-|Hy] Hr Hcz.
        * destruct (in_dec Nat.eq_dec z (x :: visited)) as [[<-|H]|H]; [right; now left|left; assumption|]. right. right. apply H1; [|assumption]. apply in_or_app. right. unfold new. apply filter_In. split; [now apply nadj_iff|]. now apply negb_true_iff, mem_nIn.
        * destruct (H2 y z Hy Hr Hcz) as [[<-|H]|H]; [right; now left|auto|right; now right].
      + intros y [<-|Hy]; auto.
    - intros E Hinv. destruct (IH _ _ _ E) as (H1 & H2 & H3).
      { intros z y [<-|Hz] Hr Hcz; [congruence|]. destruct (Hinv z y Hz Hr Hcz) as [H|[<-|H]]; [left; now right|left; now left|auto]. }
      split; [|split; [|exact H3]].
      + intros y [<-|Hy] Hcy; [congruence|auto].
      + intros y z Hy Hr Hcz. destruct (H2 y z Hy Hr Hcz) as [[<-|H]|H]; [congruence|auto|auto].
  Qed.
  Lemma bfs_not_visited cond fuel : forall queue visited l s, bfs_loop fuel es cond queue visited = Ok l -> In s visited -> ~ In s queue -> ~ In s l.
  Proof.
    induction fuel as [|fuel IH]; intros queue visited l s; cbn [bfs_loop]; [discriminate|]. destruct queue as [|x q]; [intros [= <-]; auto|]. destruct (cond x).
    - destruct (bfs_loop _ _ _ _ _) as [l'|] eqn:E; [|discriminate]. cbn [rmap rbind]. intros [= <-] Hs Hq [<-|Hin]; [apply Hq; now left|]. revert Hin. eapply IH; [exact E|now right|]. intros H. apply in_app_or in H as [H|H]; [apply Hq; now right|]. apply filter_In in H as [_ H]. apply negb_true_iff, mem_nIn in H. apply H. now right.
    - intros E Hs Hq. eapply IH; [exact E|now right|]. intros H. apply Hq. now right.
  Qed.
  Lemma bfs_reaches start fuel l : hangs_together R ns -> In start ns -> bfs_tree fuel ns es start (fun _ => true) = Ok l -> forall x, In x l <-> In x ns /\ x <> start.
  Proof.
    intros Hc Hs. unfold bfs_tree. rewrite (proj2 (mem_In _ _) Hs). intros E x. destruct (bfs_mem _ _ _ _ _ E) as (H1 & H2 & _).
    { intros z y [<-|[]] Hr _. right. now apply nadj_iff. }
    assert (Hns : ~ In start l). { eapply bfs_not_visited; [exact E|now left|]. rewrite nadj_iff. intros [H|H]; apply (proj2 Hsimple) in H; tauto. }
    split.
    - intros Hx. split; [|intros ->; contradiction]. assert (Hsub : forall fuel q v l, bfs_loop fuel es (fun _ => true) q v = Ok l -> incl q ns -> incl l ns).
      { clear - Hsimple. induction fuel as [|fuel IH]; intros q v l; cbn [bfs_loop]; [discriminate|]. destruct q as [|x q]; [intros [= <-] _ y []|]. destruct (bfs_loop _ _ _ _ _) as [l'|] eqn:E; [|discriminate]. cbn [rmap rbind]. intros [= <-] Hq y [<-|Hy]; [apply Hq; now left|].
        eapply IH; [exact E| |exact Hy]. intros z Hz. apply in_app_or in Hz as [Hz|Hz]; [apply Hq; now right|]. apply filter_In in Hz as [Hz _]. apply nadj_iff in Hz. apply (R_In _ _ Hz). }
      eapply Hsub; [exact E| |exact Hx]. intros y Hy. apply nadj_iff in Hy. apply (R_In _ _ Hy).
    - intros [Hx Hne]. specialize (Hc start x Hs Hx). assert (Hg : x = start \/ In x l); [|destruct Hg; [contradiction|assumption]]. clear Hne Hx. remember start as s eqn:Es in Hc. induction Hc as [y Hy|a y z H IH Hr Hz]; [now left|].
      destruct (IH Es) as [->|Hy]; [right; apply H1; [now apply nadj_iff|reflexivity]|]. destruct (H2 y z Hy Hr eq_refl) as [[<-|[]]|H']; auto.
  Qed.
End Walks.
