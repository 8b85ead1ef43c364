From Coq Require Import List Bool Arith ZArith Lia.
From Verif Require Import PyBase Hint_model Card_model QPlan_model QPlan_spec QPlan_proofs Expl_model Expl_spec.
Import ListNotations.

Section Ind.
  Context (P : xnode -> Prop) (H : forall d ch, (forall c, In c ch -> P c) -> P (XN d ch)).
  Fixpoint xnode_ind2 (x : xnode) : P x :=
    match x with
    | XN d ch => H d ch ((fix go (l : list xnode) : forall c, In c l -> P c :=
        match l with [] => fun c Hc => match Hc with end
        | y :: r => fun c Hc => match Hc with or_introl E => eq_ind y P (xnode_ind2 y) c E | or_intror Hr => go r c Hr end end) ch)
    end.
End Ind.

(** ** The loop over the children *)
Definition lasto {A} (o : option A) (l : list A) : option A := fold_left (fun _ q => Some q) l o.
Lemma role_loop_ok g l : forall r r', role_loop g l r = Ok r' ->
  Forall (fun c => is_known (role_of c) = true) l /\
  exists i o s m, Forall2 (fun c q => g c = Ok q) (having is_inner l) i /\ Forall2 (fun c q => g c = Ok q) (having is_outer l) o
    /\ Forall2 (fun c q => g c = Ok q) (having is_sub l) s /\ Forall2 (fun c q => g c = Ok q) (having is_member l) m
    /\ r' = mkroles (lasto (r_inner r) i) (lasto (r_outer r) o) (lasto (r_sub r) s) (r_members r ++ m).
Proof.
  induction l as [|c l IH]; cbn [role_loop]; intros r r'.
  - intros [= <-]. split; [constructor|]. exists [], [], [], []. cbn. rewrite app_nil_r. destruct r. repeat split; constructor.
  - destruct (g c) as [q|] eqn:Eg; [|discriminate]. cbn [rbind]. unfold add_role, having, role_of.
    destruct (x_role (xd c)) eqn:Er; cbn [rbind]; try discriminate; intros Hl; apply IH in Hl; destruct Hl as [Hk (i & o & s & m & Hi & Ho & Hs & Hm & ->)];
      (split; [constructor; [unfold role_of; now rewrite Er|assumption]|]); cbn [filter is_inner is_outer is_sub is_member]; unfold role_of; rewrite ?Er;
      cbn [filter is_inner is_outer is_sub is_member r_inner r_outer r_sub r_members].
    + exists (q :: i), o, s, m. repeat split; auto.
    + exists i, (q :: o), s, m. repeat split; auto.
    + exists i, o, (q :: s), m. repeat split; auto.
    + exists i, o, (q :: s), m. repeat split; auto.
    + exists i, o, (q :: s), m. repeat split; auto.
    + exists i, o, s, (q :: m). rewrite <- app_assoc. repeat split; auto.
Qed.
Lemma role_loop_total g l : (forall c, In c l -> is_known (role_of c) = true /\ exists q, g c = Ok q) -> forall r, exists r', role_loop g l r = Ok r'.
Proof.
  induction l as [|c l IH]; intros H r; cbn [role_loop]; [eauto|]. destruct (H c (or_introl eq_refl)) as [Hk [q Hq]]. rewrite Hq. cbn [rbind].
  unfold add_role. unfold role_of in Hk. destruct (x_role (xd c)); cbn [rbind]; try (apply IH; intros; apply H; now right). discriminate Hk.
Qed.
Lemma role_loop_raise g l : forall r e, role_loop g l r = Raise e ->
  (exists c, In c l /\ g c = Raise e) \/ (exists c, In c l /\ is_known (role_of c) = false /\ e = unknown_role (xd c)).
Proof.
  induction l as [|c l IH]; cbn [role_loop]; intros r e; [discriminate|]. destruct (g c) as [q|e'] eqn:Eg; cbn [rbind].
  - destruct (add_role (xd c) q r) as [r1|e1] eqn:Ea; cbn [rbind].
    + intros H. apply IH in H as [(d & Hd & E)|(d & Hd & E)]; [left|right]; exists d; split; auto; now right.
    + intros [= <-]. right. exists c. split; [now left|]. unfold add_role, role_of in *. destruct (x_role (xd c)); try discriminate. now injection Ea as <-.
  - intros [= <-]. left. exists c. split; [now left|assumption].
Qed.

(** ** Single nodes *)
Lemma times_scaled o k : to_card (times o k) = scaled o k.
Proof. destruct o; cbn; [|reflexivity]. now rewrite Z.mul_comm. Qed.
Lemma parse_table_spec tref d t : parse_table tref d = Some t <-> table_of tref d t.
Proof.
  unfold parse_table, table_of. destruct (x_rel d) as [r|].
  - split.
    + intros [= <-]. exists r. split; [reflexivity|]. destruct (x_alias d) as [a|]; [|left; auto]. destruct (Nat.eqb_spec a r) as [->|N]; [left; auto|right; eauto].
    + intros (r' & [= <-] & [[-> Ha]|(a & Ha & N & ->)]).
      * destruct Ha as [->| ->]; [reflexivity|]. now rewrite Nat.eqb_refl.
      * rewrite Ha. destruct (Nat.eqb_spec a r); [contradiction|reflexivity].
  - split; [discriminate|]. intros (r & [=] & _).
Qed.
Lemma operator_spec d : operator_of (x_type d) (x_oper d).
Proof.
  unfold x_oper, x_is_scan, x_is_join. generalize (x_type d) as t. intros t. do 10 (destruct t as [|t]; [reflexivity|]).
  unfold scan_nodes, join_nodes, inter_nodes. cbn -[Nat.ltb Nat.leb].
  rewrite !(proj2 (Nat.ltb_ge _ _)) by lia. rewrite !andb_false_r. reflexivity.
Qed.
Lemma plan_data_states tref adj d : states tref d (plan_data tref adj d).
Proof.
  unfold states, plan_data; cbn [ntype oper base ftabs ktabs ecost meas m_card m_time m_hits m_misses pworkers].
  split; [reflexivity|]. split; [apply operator_spec|]. split; [intros t; apply parse_table_spec|]. do 3 (split; [reflexivity|]).
  split; [|split].
  - intros H1 H2. unfold true_card, t_bitand, t_bitor. rewrite (proj2 (Nat.eqb_neq _ _) H1), (proj2 (Nat.eqb_neq _ _) H2). apply times_scaled.
  - intros H. unfold true_card, t_bitand, t_bitor. destruct H as [-> | ->]; reflexivity.
  - do 3 (split; [reflexivity|]). unfold x_workers. split.
    + intros H. now rewrite (proj2 (Nat.ltb_lt _ _) H).
    + intros ->. change (0 <? 0) with false. cbv iota. destruct (Nat.ltb_spec 0 (x_planned d)); lia.
Qed.

(** ** The plan mirrors the explain output *)
Lemma place_trans x up p : place x up p -> forall up' c, place p up' c -> place x (up' ++ up) c.
Proof. intros Hp up' c Hc. revert Hp. induction Hc as [y|y up' q c Hq IH Hin]; intros Hp; [exact Hp|]. cbn. apply place_child; auto. Qed.
Lemma below_child x c d : In c (xch x) -> below c d -> below x d.
Proof. intros Hc [up H]. exists (up ++ [x]). exact (place_trans _ _ _ (place_child _ _ _ _ (place_root x) Hc) _ _ H). Qed.
Lemma below_self x : below x x. Proof. exists []. constructor. Qed.
Lemma below_inv x d : below x d -> d = x \/ exists c, In c (xch x) /\ below c d.
Proof.
  intros [up H]. induction H as [y|y up p c Hp IH Hc]; [now left|]. right. destruct IH as [->|(c' & Hc' & Hb)].
  - exists c. split; [assumption|apply below_self].
  - exists c'. split; [assumption|]. destruct Hb as [up' Hb]. exists (p :: up'). now apply place_child.
Qed.
Lemma lasto_app {A} (l : list A) : forall o, length l <= 1 -> lasto o l = match l with [] => o | x :: _ => Some x end.
Proof. destruct l as [|a [|b l]]; cbn; intros; try lia; reflexivity. Qed.
Lemma lasto_cons {A} (l : list A) : forall o, l <> [] -> exists x, In x l /\ lasto o l = Some x.
Proof.
  induction l as [|a l IH]; intros o H; [contradiction|]. cbn. destruct l as [|b l]; [exists a; cbn; auto|].
  destruct (IH (Some a)) as (x & Hx & E); [discriminate|]. exists x. split; [now right|assumption].
Qed.
Lemma child_plans_inputs i o s m : length i <= 1 -> length o <= 1 -> child_plans (mkroles (lasto None i) (lasto None o) s m) = o ++ i ++ m.
Proof. intros Hi Ho. rewrite !lasto_app by assumption. unfold child_plans; cbn. destruct i as [|a [|]], o as [|b [|]]; cbn in *; try lia; reflexivity. Qed.
Lemma Forall2_imp2 {A B} (R S : A -> B -> Prop) l m : (forall a b, In a l -> R a b -> S a b) -> Forall2 R l m -> Forall2 S l m.
Proof. intros H F. induction F; constructor; [apply H; [now left|assumption]|apply IHF; intros; apply H; [now right|assumption]]. Qed.
Lemma Forall2_len {A B} (R : A -> B -> Prop) l m : Forall2 R l m -> length l = length m.
Proof. induction 1; cbn; congruence. Qed.
Lemma having_in f l c : In c (having f l) -> In c l.
Proof. unfold having. rewrite filter_In. tauto. Qed.

Section Mirror.
  Context (tref : nat -> option nat -> nat) (root : xnode) (own : list xnode -> xnode -> pdata -> Prop) (A : Z -> list xnode -> xnode -> Prop).
  Hypothesis (Bin : binary root) (One : one_sub root).
  Hypothesis Hown : forall adj up x, A adj up x -> own up x (plan_data tref adj (xd x)).
  Hypothesis Hstep : forall adj up x c, place root up x -> A adj up x -> In c (xch x) -> A (child_adj adj (xd x)) (x :: up) c.
  Lemma mirror_gen x : forall adj up p, place root up x -> A adj up x -> generate_qep tref adj x = Ok p -> mirrors own up x p.
  Proof.
    induction x as [d ch IH] using xnode_ind2. intros adj up p Hp HA. cbn [generate_qep].
    destruct (role_loop _ ch _) as [r|] eqn:E; [|discriminate]. cbn [rbind]. intros [= <-].
    apply role_loop_ok in E. destruct E as [Hk (i & o & s & m & Hi & Ho & Hs & Hm & ->)]. cbn [r_inner r_outer r_sub r_members app].
    assert (G : forall c q, In c ch -> generate_qep tref (child_adj adj d) c = Ok q -> mirrors own (XN d ch :: up) c q).
    { intros c q Hc Hq. apply (IH c Hc (child_adj adj d)); [now apply place_child|apply (Hstep adj up (XN d ch) c); auto|assumption]. }
    destruct (Bin _ (ex_intro _ up Hp)) as [B1 B2]. pose proof (One _ (ex_intro _ up Hp)) as O1. unfold subs in O1. cbn [xch] in B1, B2, O1.
    rewrite (Forall2_len _ _ _ Ho) in B1. rewrite (Forall2_len _ _ _ Hi) in B2. rewrite (Forall2_len _ _ _ Hs) in O1.
    constructor.
    - apply (Hown adj up (XN d ch) HA).
    - rewrite child_plans_inputs by assumption. unfold inputs; cbn [xch]. repeat apply Forall2_app; eapply Forall2_imp2; try eassumption; cbn;
        intros a b Ha Hg; apply G; auto; eapply having_in; eauto.
    - rewrite lasto_app by assumption. unfold subs; cbn [xch].
      assert (F : Forall2 (mirrors own (XN d ch :: up)) (having is_sub ch) s)
        by (eapply Forall2_imp2; [|eassumption]; cbn; intros a b Ha Hg; apply G; auto; eapply having_in; eauto).
      destruct s as [|q [|]]; cbn [length] in *; [exact F|exact F|lia].
  Qed.
End Mirror.

Lemma mirror_states tref x p : binary x -> one_sub x -> as_qep tref x = Ok p -> mirrors (fun _ c d => states tref (xd c) d) [] x p.
Proof.
  intros B O. apply (mirror_gen tref x (fun _ c d => states tref (xd c) d) (fun _ _ _ => True) B O); auto using place_root.
  intros. apply plan_data_states.
Qed.

(** ** Estimates *)
Lemma region_in c : forall up a, In a (region c up) -> In a up.
Proof.
  intros up. revert c. induction up as [|p r IH]; intros c a; cbn [region]; destruct (is_init (role_of c)); cbn [In]; try tauto.
  rewrite in_app_iff. cbn [In]. intros [H|[H|[]]]; [right; eauto|now left].
Qed.
Lemma find_app {A} (f : A -> bool) l m : find f (l ++ m) = match find f l with Some a => Some a | None => find f m end.
Proof. induction l as [|a l IH]; cbn; [reflexivity|]. now destruct (f a). Qed.
Lemma find_none_all {A} (f : A -> bool) l : (forall a, In a l -> f a = false) -> find f l = None.
Proof. induction l as [|a l IH]; cbn; intros H; [reflexivity|]. rewrite (H a) by auto. auto. Qed.
Lemma processes_step up x c : is_init (role_of c) = false -> processes (x :: up) c = child_adj (processes up x) (xd x).
Proof.
  intros Hc. unfold processes at 1. cbn [region]. rewrite Hc, find_app. unfold processes, child_adj.
  destruct (find _ (region x up)) as [a|] eqn:E.
  - apply find_some in E as [_ E]. apply Nat.ltb_lt in E. destruct (Z.ltb_spec 1 (Z.of_nat (x_planned (xd a)) + 1)); [reflexivity|lia].
  - cbn [find]. cbn [Z.ltb Z.compare]. destruct (Nat.ltb_spec 0 (x_planned (xd x))); [reflexivity|]. replace (x_planned (xd x)) with 0 by lia. reflexivity.
Qed.
Lemma processes_serial up x : (forall a, In a up -> x_planned (xd a) = 0) -> processes up x = 1%Z.
Proof.
  intros H. unfold processes. rewrite find_none_all; [reflexivity|]. intros a Ha. apply region_in in Ha. now rewrite (H a Ha).
Qed.
Lemma mirror_estimates tref x p : binary x -> one_sub x -> init_outside x -> as_qep tref x = Ok p ->
  mirrors (fun up c d => states tref (xd c) d /\ est d = scaled (x_rows (xd c)) (processes up c)) [] x p.
Proof.
  intros B O I E.
  apply (mirror_gen tref x (fun up c d => states tref (xd c) d /\ est d = scaled (x_rows (xd c)) (processes up c)) (fun adj up c => adj = processes up c) B O)
    with (adj := 1%Z); auto using place_root.
  - intros adj up c ->. split; [apply plan_data_states|]. cbn. apply times_scaled.
  - intros adj up y c Hp -> Hc. destruct (is_init (role_of c)) eqn:Ei.
    + pose proof (I (y :: up) c (place_child _ _ _ _ Hp Hc) Ei) as Z. rewrite (processes_serial (y :: up) c Z).
      rewrite (processes_serial up y) by (intros a Ha; apply Z; now right). unfold child_adj. cbn. now rewrite (Z y (or_introl eq_refl)).
    + symmetry. now apply processes_step.
  - unfold processes; cbn [region]. now destruct (is_init (role_of x)).
Qed.

(** ** Failure *)
Lemma gen_total tref x : known_roles x -> forall adj, exists p, generate_qep tref adj x = Ok p.
Proof.
  induction x as [d ch IH] using xnode_ind2. intros K adj. cbn [generate_qep].
  destruct (role_loop_total (generate_qep tref (child_adj adj d)) ch) with (r := mkroles None None None []) as [r ->]; [|cbn; eauto].
  intros c Hc. split; [apply (K (XN d ch) c); [apply below_self|assumption]|]. apply IH; [assumption|].
  intros p c' Hp. apply K. eapply below_child; [exact Hc|exact Hp].
Qed.
Lemma gen_known tref x : forall adj p, generate_qep tref adj x = Ok p -> known_roles x.
Proof.
  induction x as [d ch IH] using xnode_ind2. intros adj p. cbn [generate_qep]. destruct (role_loop _ ch _) as [r|] eqn:E; [|discriminate]. intros _.
  apply role_loop_ok in E. destruct E as [Hk (i & o & s & m & Hi & Ho & Hs & Hm & _)]. intros q c Hq Hc. apply below_inv in Hq.
  destruct Hq as [->|(c' & Hc' & Hq)]; [cbn in Hc; rewrite Forall_forall in Hk; auto|]. cbn [xch] in Hc'.
  assert (exists p', generate_qep tref (child_adj adj d) c' = Ok p') as [p' Hp'].
  { rewrite Forall_forall in Hk. pose proof (Hk c' Hc') as Kc.
    assert (F2 : forall f l, Forall2 (fun c q => generate_qep tref (child_adj adj d) c = Ok q) (having f ch) l -> f (role_of c') = true ->
      exists q, generate_qep tref (child_adj adj d) c' = Ok q).
    { intros f l F Ef. assert (In c' (having f ch)) as Hin by (unfold having; rewrite filter_In; auto). clear - F Hin.
      induction F; [destruct Hin|]. destruct Hin as [->|Hin]; eauto. }
    destruct (role_of c') eqn:Er; try discriminate Kc; [eapply F2 with (f := is_inner)|eapply F2 with (f := is_outer)|eapply F2 with (f := is_sub)
      |eapply F2 with (f := is_sub)|eapply F2 with (f := is_sub)|eapply F2 with (f := is_member)]; eauto. }
  eapply IH; eauto.
Qed.
Lemma gen_raise tref x : forall adj e, generate_qep tref adj x = Raise e -> e = ValueError \/ e = AssertionError.
Proof.
  induction x as [d ch IH] using xnode_ind2. intros adj e. cbn [generate_qep]. destruct (role_loop _ ch _) as [r|e'] eqn:E; [discriminate|]. intros [= <-].
  apply role_loop_raise in E as [(c & Hc & E)|(c & Hc & _ & ->)]; [eapply IH; eauto|]. unfold unknown_role. destruct (_ && _); auto.
Qed.

(** ** Tables *)
Lemma tables_in d ks s t : In t (tables (Node d ks s)) <->
  In t (own_tables d) \/ (exists k, In k ks /\ In t (tables k)) \/ (exists q o, s = Some (q, o) /\ (In t (tables q) \/ o = Some t)).
Proof.
  cbn [tables]. rewrite dedup_In, !in_app_iff, in_flat_map. destruct s as [[q o]|]; cbn [In].
  - rewrite in_app_iff. split.
    + intros [H|[H|[H|H]]]; [now left|right; left; assumption|right; right; exists q, o; auto|]. right; right; exists q, o. split; [reflexivity|]. right. destruct o as [z|]; [|destruct H]. destruct H as [->|[]]. reflexivity.
    + intros [H|[H|(q' & o' & [= <- <-] & [H| ->])]]; auto. right; right; right. now left.
  - split; [intros [H|[H|[]]]; auto|]. intros [H|[H|(q & o & [=] & _)]]; auto.
Qed.
Lemma own_tables_data tref adj d t : In t (own_tables (plan_data tref adj d)) <-> table_of tref d t.
Proof.
  unfold own_tables, plan_data; cbn [base ftabs ktabs]. rewrite app_nil_r. rewrite <- parse_table_spec. destruct (parse_table tref d); cbn; [|split; [tauto|discriminate]].
  split; [intros [->|[]]; reflexivity|intros [= ->]; auto].
Qed.
(** Children of the new node come from children of the old one. *)
Lemma child_plans_in r q : In q (child_plans r) -> r_inner r = Some q \/ r_outer r = Some q \/ In q (r_members r).
Proof. unfold child_plans. destruct (r_inner r), (r_outer r); cbn; intuition congruence. Qed.
Lemma lasto_in {A} (l : list A) : forall o x, lasto o l = Some x -> o = Some x \/ In x l.
Proof. induction l as [|a l IH]; cbn; intros o x H; [auto|]. apply IH in H as [[= ->]|H]; auto. Qed.
Lemma Forall2_in_r {A B} (R : A -> B -> Prop) l m b : Forall2 R l m -> In b m -> exists a, In a l /\ R a b.
Proof. induction 1; intros []; [subst; eexists; split; [now left|assumption]|]. destruct IHForall2 as (a & Ha & HR); auto. exists a. split; [now right|assumption]. Qed.
Lemma Forall2_in_l {A B} (R : A -> B -> Prop) l m a : Forall2 R l m -> In a l -> exists b, In b m /\ R a b.
Proof. induction 1; intros []; [subst; eexists; split; [now left|assumption]|]. destruct IHForall2 as (b & Hb & HR); auto. exists b. split; [now right|assumption]. Qed.
Lemma gen_node tref adj d ch p : generate_qep tref adj (XN d ch) = Ok p ->
  data p = plan_data tref adj d
  /\ (forall k, In k (kids p) -> exists c, In c ch /\ is_sub (role_of c) = false /\ generate_qep tref (child_adj adj d) c = Ok k)
  /\ (forall q o, subplan p = Some (q, o) -> o = None /\ exists c, In c ch /\ is_sub (role_of c) = true /\ generate_qep tref (child_adj adj d) c = Ok q).
Proof.
  cbn [generate_qep]. destruct (role_loop _ ch _) as [r|] eqn:E; [|discriminate]. cbn [rbind]. intros [= <-].
  apply role_loop_ok in E. destruct E as [Hk (i & o & s & m & Hi & Ho & Hs & Hm & ->)]. cbn [r_inner r_outer r_sub r_members app data kids subplan].
  assert (F : forall f l q, Forall2 (fun c q => generate_qep tref (child_adj adj d) c = Ok q) (having f ch) l -> In q l ->
    exists c, In c ch /\ f (role_of c) = true /\ generate_qep tref (child_adj adj d) c = Ok q).
  { intros f l q F2 Hq. destruct (Forall2_in_r _ _ _ _ F2 Hq) as (c & Hc & Hg). unfold having in Hc. rewrite filter_In in Hc. exists c. tauto. }
  split; [reflexivity|]. split.
  - intros k Hkk. apply child_plans_in in Hkk. cbn [r_inner r_outer r_members] in Hkk.
    destruct Hkk as [H|[H|H]]; [apply lasto_in in H as [[=]|H]; destruct (F _ _ _ Hi H) as (c & ? & Ec & ?)
      |apply lasto_in in H as [[=]|H]; destruct (F _ _ _ Ho H) as (c & ? & Ec & ?)|destruct (F _ _ _ Hm H) as (c & ? & Ec & ?)];
      exists c; (split; [assumption|]); (split; [destruct (role_of c); try discriminate Ec; reflexivity|assumption]).
  - intros q t. destruct (lasto None s) as [z|] eqn:El; cbn [option_map]; [|discriminate]. intros [= <- <-]. split; [reflexivity|].
    apply lasto_in in El as [[=]|El]. apply (F _ _ _ Hs El).
Qed.
Lemma node_eta p : p = Node (data p) (kids p) (subplan p). Proof. now destruct p. Qed.
Lemma gen_tables_incl tref x : forall adj p t, generate_qep tref adj x = Ok p -> In t (tables p) -> reads tref x t.
Proof.
  induction x as [d ch IH] using xnode_ind2. intros adj p t E Ht. apply gen_node in E as [Ed [Ek Es]]. rewrite (node_eta p) in Ht.
  apply tables_in in Ht as [Ht|[(k & Hk & Ht)|(q & o & Eq & Ht)]].
  - rewrite Ed in Ht. apply own_tables_data in Ht. exists (XN d ch). split; [apply below_self|assumption].
  - destruct (Ek k Hk) as (c & Hc & _ & Hg). destruct (IH c Hc _ _ _ Hg Ht) as (y & Hy & Hty). exists y. split; [eapply below_child; [exact Hc|exact Hy]|assumption].
  - destruct (Es q o Eq) as [-> (c & Hc & _ & Hg)]. destruct Ht as [Ht|[=]]. destruct (IH c Hc _ _ _ Hg Ht) as (y & Hy & Hty).
    exists y. split; [eapply below_child; [exact Hc|exact Hy]|assumption].
Qed.
Lemma states_own tref d p t : states tref d p -> (In t (own_tables p) <-> table_of tref d t).
Proof.
  intros (_ & _ & Hb & Hf & Hk & _). unfold own_tables. rewrite Hf, Hk, app_nil_r. rewrite <- (Hb t). destruct (base p); cbn; [|split; [tauto|discriminate]].
  split; [intros [->|[]]; reflexivity|intros [= ->]; auto].
Qed.
Lemma known_split x c : known_roles x -> In c (xch x) -> In c (inputs x) \/ In c (subs x).
Proof.
  intros K Hc. pose proof (K x c (below_self x) Hc) as Hk. unfold inputs, subs, having. rewrite !in_app_iff, !filter_In. destruct (role_of c); cbn in *; try discriminate; auto 8.
Qed.
Lemma known_child x c : known_roles x -> In c (xch x) -> known_roles c.
Proof. intros K Hc p e Hp. apply K. eapply below_child; eauto. Qed.
Lemma mirrors_tables tref x : forall up p t, mirrors (fun _ c d => states tref (xd c) d) up x p -> known_roles x -> reads tref x t -> In t (tables p).
Proof.
  induction x as [d ch IH] using xnode_ind2. intros up p t M K (y & Hy & Ht). inversion M as [up' x' e ks s Hown Fk Fs]; subst.
  rewrite tables_in. apply below_inv in Hy as [->|(c & Hc & Hy)].
  - left. now apply (states_own tref d e).
  - pose proof (known_child _ _ K Hc) as Kc. destruct (known_split _ _ K Hc) as [Hi|Hs].
    + right. left. destruct (Forall2_in_l _ _ _ _ Fk Hi) as (k & Hkk & Hm). exists k. split; [assumption|]. eapply (IH c); eauto. exists y; auto.
    + right. right. destruct (Forall2_in_l _ _ _ _ Fs Hs) as (k & Hkk & Hm). destruct s as [[q o]|]; [|destruct Hkk]. destruct Hkk as [->|[]].
      exists k, o. split; [reflexivity|]. left. eapply (IH c); eauto. exists y; auto.
Qed.
(** Plans without subplans: their tables are the tables read. *)
Lemma no_target tref x : forall adj p, generate_qep tref adj x = Ok p -> forall n q o, node_all p n -> subplan n = Some (q, o) -> o = None.
Proof.
  induction x as [d ch IH] using xnode_ind2. intros adj p E n q o Hn Eq. apply gen_node in E as [Ed [Ek Es]].
  destruct (node_all_inv _ _ Hn) as [->|[(k & Hk & Hn')|(q' & o' & Eq' & Hn')]].
  - now destruct (Es q o Eq).
  - destruct (Ek k Hk) as (c & Hc & _ & Hg). eapply (IH c Hc); eauto.
  - destruct (Es q' o' Eq') as [_ (c & Hc & _ & Hg)]. eapply (IH c Hc); eauto.
Qed.

(** ** Equality *)
Definition all_xeq := fix go (l m : list xnode) : bool := match l, m with [], [] => true | x :: r, y :: s => xeq x y && go r s | _, _ => false end.
Lemma xeq_unfold d ca e cb : xeq (XN d ca) (XN e cb) = (x_type d =? x_type e) && deqb (x_rel d) (x_rel e) && deqb (x_alias d) (x_alias e) && all_xeq ca cb.
Proof. reflexivity. Qed.
Lemma xeq_true d ca e cb : xeq (XN d ca) (XN e cb) = true <-> x_type d = x_type e /\ x_rel d = x_rel e /\ x_alias d = x_alias e /\ all_xeq ca cb = true.
Proof. rewrite xeq_unfold, !andb_true_iff, Nat.eqb_eq, !deqb_eq. tauto. Qed.
Lemma xeq_refl x : xeq x x = true.
Proof.
  induction x as [d ch IH] using xnode_ind2. apply xeq_true. repeat split. induction ch as [|c ch IHc]; [reflexivity|]. cbn. rewrite IH by now left.
  apply IHc. intros. apply IH. now right.
Qed.
Lemma xeq_sym x : forall y, xeq x y = true -> xeq y x = true.
Proof.
  induction x as [d ch IH] using xnode_ind2. intros [e cb]. rewrite !xeq_true. intros (-> & -> & -> & H). repeat split.
  revert cb H. induction ch as [|c ch IHc]; intros [|b cb]; cbn; try discriminate; [reflexivity|]. rewrite !andb_true_iff. intros [H1 H2]. split.
  - apply IH; [now left|assumption].
  - apply IHc; [|assumption]. intros. apply IH; [now right|assumption].
Qed.
Lemma xeq_trans x : forall y z, xeq x y = true -> xeq y z = true -> xeq x z = true.
Proof.
  induction x as [d ch IH] using xnode_ind2. intros [e cb] [f cc]. rewrite !xeq_true. intros (-> & -> & -> & H) (-> & -> & -> & H'). repeat split.
  revert cb cc H H'. induction ch as [|c ch IHc]; intros [|b cb] [|a cc]; cbn; try discriminate; try reflexivity. rewrite !andb_true_iff. intros [H1 H2] [H3 H4]. split.
  - apply (IH c) with b; auto. now left.
  - eapply IHc; eauto. intros ? ?. apply IH. now right.
Qed.
Lemma xhash_xeq x : forall y, xhash x = xhash y -> xeq x y = true.
Proof.
  induction x as [d ch IH] using xnode_ind2. intros [e cb]. cbn [xhash]. intros [= Et Er Ea _ _ _ _ _ _ Ec]. apply xeq_true. repeat split; auto.
  revert cb Ec. induction ch as [|c ch IHc]; intros [|b cb]; cbn; try discriminate; [reflexivity|]. intros [= E1 E2]. rewrite (IH c (or_introl eq_refl) b E1).
  apply IHc; [|assumption]. intros. apply IH; [now right|assumption].
Qed.
(** Equal nodes read the same tables. *)
Lemma xeq_reads tref x : forall y t, xeq x y = true -> reads tref x t -> reads tref y t.
Proof.
  induction x as [d ch IH] using xnode_ind2. intros [e cb] t. rewrite xeq_true. intros (Et & Er & Ea & Hc) (n & Hn & Ht). apply below_inv in Hn as [->|(c & Hin & Hn)].
  - exists (XN e cb). split; [apply below_self|]. unfold table_of in *. cbn [xd] in *. rewrite <- Er, <- Ea. exact Ht.
  - cbn [xch] in Hin. assert (exists b, In b cb /\ xeq c b = true) as (b & Hb & E).
    { clear -Hin Hc. revert cb Hc. induction ch as [|a ch IH]; intros [|b cb]; cbn; try discriminate; [destruct Hin|]. rewrite andb_true_iff. intros [H1 H2].
      destruct Hin as [->|Hin]; [exists b; auto|]. destruct (IH Hin cb H2) as (b' & ? & ?). exists b'; auto. }
    destruct (IH c Hin b t E) as (m & Hm & Hmt); [exists n; auto|]. exists m. split; [eapply below_child; [exact Hb|exact Hm]|assumption].
Qed.
