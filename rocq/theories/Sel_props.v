(** C191: enumeration of operators and plans.  C192: random operators and plans.  C193: the native cost model. *)
From Coq Require Import List Bool Arith Lia ZArith Permutation.
From Verif Require Import PyBase FSet Enum_model Hint_model Card_model JT_model JT_spec JT_proofs QPlan_model PgDP_proofs Sel_model Sel_spec Sel_proofs.
Import ListNotations.
Open Scope list_scope.
Open Scope nat_scope.
Set Implicit Arguments.

(** ** C191 *)
(** With scans and joins, exactly the assignments of allowed operators to all tables and all joins are enumerated, each of them once. *)
Theorem C191_all_partial {A} scan_ops join_ops qtabs (t : jt nat A) :
  NoDup qtabs -> over_tables t -> NoDup scan_ops -> NoDup join_ops ->
  exists l sets, op_enumerator scan_ops join_ops qtabs true true t = Ok l /\ (forall s, join_of t s <-> exists s', In s' sets /\ seteq s' s) /\
    (forall a, In a l -> exists f g, from_ops qtabs sets scan_ops join_ops f g /\ assigns a qtabs sets f g) /\
    (forall f g, from_ops qtabs sets scan_ops join_ops f g -> exists a, In a l /\ assigns a qtabs sets f g) /\
    (forall a b f g, In a l -> In b l -> assigns a qtabs sets f g -> assigns b qtabs sets f g -> a = b) /\
    NoDup l /\ length l = length scan_ops ^ length qtabs * length join_ops ^ length sets /\ length sets = length (jt_iterjoins t).
Proof.
  intros N O NS NJ. exists (selections scan_ops join_ops qtabs t), (join_sets t). split; [unfold op_enumerator; cbn [negb andb]; now apply all_ok|].
  split; [intros s; symmetry; apply sets_joins|]. assert (M := sets_distinct O).
  assert (IN : forall a, In a (selections scan_ops join_ops qtabs t) <-> exists sel jsel, (length sel = length qtabs /\ Forall (fun o => In o scan_ops) sel) /\ (length jsel = length (join_sets t) /\ Forall (fun o => In o join_ops) jsel) /\ a = canon qtabs (join_sets t) sel jsel).
  { intros a. unfold selections. rewrite in_concat. split.
    - intros (x & X & AX). apply in_map_iff in X as (sel & <- & S). apply in_map_iff in AX as (jsel & <- & J). apply product_In in S, J. exists sel, jsel. auto.
    - intros (sel & jsel & S & J & ->). eexists. split; [apply in_map_iff; exists sel; split; [reflexivity|now apply product_In]|]. apply in_map_iff. exists jsel. split; [reflexivity|]. now apply product_In. }
  split; [|split; [|split; [|split; [|split]]]].
  - intros a H. apply IN in H as (sel & jsel & [L F] & [K G] & ->). rewrite (canon_choice _ _ _ N M L K). exists (choice qtabs sel), (jchoice (join_sets t) jsel). split; [|now apply canon_assigns].
    rewrite Forall_forall in F, G. split.
    + intros x X. apply F. apply (in_map (choice qtabs sel)) in X. unfold choice in X at 2. now rewrite (choice_map sel N L) in X.
    + intros s S. apply G. assert (C := @choice_map (list nat) _ (map mkfs (join_sets t)) jsel M). rewrite map_length, map_map in C. apply (in_map (fun s => jchoice (join_sets t) jsel (mkfs s))) in S. unfold jchoice in S at 2. now rewrite (C K) in S.
  - intros f g [F G]. exists (canon qtabs (join_sets t) (map f qtabs) (map (fun s => g (mkfs s)) (join_sets t))). split; [|now apply canon_assigns]. apply IN. eexists _, _. split; [|split; [|reflexivity]].
    + split; [apply map_length|]. apply Forall_forall. intros o X. apply in_map_iff in X as (x & <- & X). auto.
    + split; [apply map_length|]. apply Forall_forall. intros o X. apply in_map_iff in X as (x & <- & X). auto.
  - intros a b f g HA HB. apply IN in HA as (sel & jsel & [L _] & [K _] & ->), HB as (sel' & jsel' & [L' _] & [K' _] & ->). intros A1 A2.
    apply (unique_choice N M L K) in A1 as [-> ->]. apply (unique_choice N M L' K') in A2 as [-> ->]. reflexivity.
  - unfold selections. rewrite <- flat_map_concat_map. apply Collections_proofs.NoDup_flat_map; [now apply product_NoDup| |].
    + intros sel S. apply product_In in S as [L _]. assert (X : forall j, In j (product (map (fun _ => join_ops) (join_sets t))) -> length j = length (join_sets t)) by (intros j J; now apply product_In in J as [J _]).
      assert (P := product_NoDup (join_sets t) NJ). revert X P. generalize (product (map (fun _ => join_ops) (join_sets t))) as js. intros js X P. induction P as [|j js P1 P2 IH]; cbn; [constructor|]. constructor; [|apply IH; intros; apply X; now right].
      intros H. apply in_map_iff in H as (j' & E & J). apply canon_inj in E as [_ ->]; auto; apply X; [now right|now left].
    + intros sel sel' a S S' H H'. apply product_In in S as [L _], S' as [L' _]. apply in_map_iff in H as (j & <- & J), H' as (j' & E & J'). apply product_In in J as [J _], J' as [J' _]. apply canon_inj in E as [-> _]; auto.
  - unfold selections. assert (X : forall X Y (h : X -> list Y) l n, (forall x, length (h x) = n) -> length (concat (map h l)) = length l * n).
    { clear. intros X Y h l n H. induction l as [|x l IH]; cbn; [reflexivity|]. now rewrite app_length, IH, H. }
    rewrite (X _ _ _ _ (length join_ops ^ length (join_sets t))); [now rewrite product_length|]. intros x. rewrite map_length. apply product_length.
  - unfold join_sets. apply map_length.
Qed.
Print Assumptions C191_all_partial.
Definition ex_tree : jt nat unit := JJoin false (JJoin false (JScan false 1 tt) (JScan false 2 tt) tt) (JScan false 3 tt) tt.
Example C191_tree_ex : over_tables ex_tree.
Proof.
  split; [|cbn; repeat constructor; cbn; intuition discriminate]. intros lg [p H]. destruct p as [|[|] p]; [discriminate H| |].
  - destruct p as [|[|] p]; discriminate H.
  - destruct p as [|[|] p]; [discriminate H| |]; destruct p as [|[|] p]; discriminate H.
Qed.
Example C191_count_ex : rmap (@length poa) (op_enumerator [0; 1] [0; 1; 2] [1; 2; 3] true true ex_tree) = Ok 72.
Proof. reflexivity. Qed.
(** The allowed operators are those that are asked for and supported; an empty selection means all. *)
Theorem C191_allowed all supports iter given : (forall l, Permutation (iter l) l) ->
  forall o, In o (allowed_ops all supports iter given) <-> supports o = true /\ In o (match given with Some (x :: r) => x :: r | _ => all end).
Proof. intros I o. unfold allowed_ops. split; [intros H; apply (Permutation_in _ (I _)) in H|intros [H1 H2]; apply (Permutation_in _ (Permutation_sym (I _)))]; [rewrite dedup_In, filter_In in H; tauto|]. apply dedup_In, filter_In. auto. Qed.
Print Assumptions C191_allowed.
(** Without scans or without joins nothing is enumerated, although there are assignments. *)
Theorem C191_joins_only_refuted {A} scan_ops join_ops qtabs (t : jt nat A) : op_enumerator scan_ops join_ops qtabs false true t = Ok [].
Proof. reflexivity. Qed.
Print Assumptions C191_joins_only_refuted.
Theorem C191_scans_only_refuted {A} scan_ops join_ops qtabs (t : jt nat A) : op_enumerator scan_ops join_ops qtabs true false t = Raise TypeError.
Proof. reflexivity. Qed.
Print Assumptions C191_scans_only_refuted.
(** No plans are ever enumerated. *)
Theorem C191_plans_refuted {A} scan_ops join_ops qtabs scans joins (orders : list (jt nat A)) p ps : all_plans scan_ops join_ops qtabs scans joins orders <> Ok (p :: ps).
Proof. induction orders as [|t r IH]; cbn; [discriminate|]. destruct (op_enumerator _ _ _ _ _ t) as [[|a l]|e]; cbn; [exact IH|discriminate|discriminate]. Qed.
Print Assumptions C191_plans_refuted.
Theorem C191_plans_raise_refuted {A} scan_ops join_ops qtabs (t : jt nat A) orders : NoDup qtabs -> over_tables t -> NoDup scan_ops -> NoDup join_ops -> scan_ops <> [] -> join_ops <> [] ->
  all_plans scan_ops join_ops qtabs true true (t :: orders) = Raise TypeError.
Proof.
  intros N O NS NJ S J. destruct (C191_all_partial N O NS NJ) as (l & sets & E & _ & _ & X & _). cbn [all_plans]. rewrite E. cbn [rbind]. destruct l as [|a l]; [|reflexivity]. exfalso.
  destruct scan_ops as [|s so]; [congruence|]. destruct join_ops as [|j jo]; [congruence|]. destruct (X (fun _ => s) (fun _ => j)) as (a & [] & _). split; intros; now left.
Qed.
Print Assumptions C191_plans_raise_refuted.

(** ** C192 *)
Lemma choose_some c (l : list nat) : l <> [] -> exists o, choose c l = Ok o /\ In o l.
Proof. intros H. destruct l as [|x l]; [congruence|]. cbn [choose]. eexists. split; [reflexivity|]. apply nth_In, Nat.mod_upper_bound. discriminate. Qed.
Lemma choose_any o (l : list nat) : In o l -> exists c, choose c l = Ok o.
Proof.
  intros H. destruct l as [|x l]; [destruct H|]. apply (In_nth _ _ x) in H as (n & L & E). exists n. cbn [choose]. rewrite Nat.mod_small by exact L. now rewrite E.
Qed.
Lemma draw_joins_sel join_ops l : join_ops <> [] -> forall cs p, exists sel, length sel = length l /\ Forall (fun o => In o join_ops) sel /\ draw_joins join_ops cs p l = set_joins p (combine l sel).
Proof.
  intros NE. induction l as [|s l IH]; intros cs p; [exists []; auto|]. destruct (choose_some (cs 0) NE) as (o & E & I). cbn [draw_joins]. rewrite E. cbn [rbind].
  destruct (mk_join 0 o s None) as [a|e] eqn:M; cbn [rbind].
  - destruct (IH (fun n => cs (S n)) (poa_set_join p a)) as (sel & L & F & D). exists (o :: sel). split; [cbn; auto|]. split; [auto|]. rewrite D. cbn [combine set_joins fst snd]. now rewrite M.
  - destruct (IH cs p) as (sel & L & F & D). exists (o :: sel). split; [cbn; auto|]. split; [auto|]. cbn [combine set_joins fst snd]. now rewrite M.
Qed.
Lemma draw_scans_sel scan_ops l : scan_ops <> [] -> forall cs p, exists sel, length sel = length l /\ Forall (fun o => In o scan_ops) sel /\ draw_scans scan_ops cs p l = Ok (set_scans p (combine l sel)).
Proof.
  intros NE. induction l as [|s l IH]; intros cs p; [exists []; auto|]. destruct (choose_some (cs 0) NE) as (o & E & I). cbn [draw_scans]. rewrite E. cbn [rbind].
  destruct (IH (fun n => cs (S n)) (poa_set_scan p (mksa 0 o s None))) as (sel & L & F & D). exists (o :: sel). split; [cbn; auto|]. split; [auto|]. rewrite D. reflexivity.
Qed.
Lemma draw_joins_any join_ops l sel : length sel = length l -> Forall (fun o => In o join_ops) sel -> exists cs, forall p, draw_joins join_ops cs p l = set_joins p (combine l sel).
Proof.
  revert sel. induction l as [|s l IH]; intros [|o sel] L F; try discriminate; [exists (fun _ => 0); reflexivity|]. inversion F as [|? ? F1 F2]; subst. destruct (IH sel (eq_add_S _ _ L) F2) as [cs C]. destruct (choose_any _ _ F1) as [c E].
  exists (fun n => match n with 0 => c | S n => cs n end). intros p. cbn [draw_joins combine set_joins fst snd]. rewrite E. cbn [rbind]. destruct (mk_join 0 o s None) as [a|e]; cbn [rbind]; [|reflexivity]. apply C.
Qed.
Lemma draw_scans_any scan_ops l sel : length sel = length l -> Forall (fun o => In o scan_ops) sel -> exists cs, forall p, draw_scans scan_ops cs p l = Ok (set_scans p (combine l sel)).
Proof.
  revert sel. induction l as [|s l IH]; intros [|o sel] L F; try discriminate; [exists (fun _ => 0); reflexivity|]. inversion F as [|? ? F1 F2]; subst. destruct (IH sel (eq_add_S _ _ L) F2) as [cs C]. destruct (choose_any _ _ F1) as [c E].
  exists (fun n => match n with 0 => c | S n => cs n end). intros p. cbn [draw_scans combine set_joins fst snd]. rewrite E. cbn [rbind]. apply C.
Qed.
Lemma assigns_perm a l m sets f g : (forall x, In x l <-> In x m) -> assigns a l sets f g -> assigns a m sets f g.
Proof.
  intros P (G & I & S & R). split; [exact G|]. split; [exact I|]. split; [|exact R]. intros t. rewrite S. assert (E : mem t l = mem t m) by (apply eq_true_iff_eq; rewrite !mem_In; apply P). now rewrite E.
Qed.
Section C192.
  Context {A : Type} (scan_ops join_ops : list nat) (iter : list nat -> list nat) (t : jt nat A) (scans joins : bool).
  Hypothesis P : forall l, Permutation (iter l) l.
  Hypothesis O : over_tables t.
  Let tabs := if scans then jt_tables t else [].
  Let sets := if joins then join_sets t else [].
  Let itabs := if scans then iter (jt_tables t) else [].
  Lemma itabs_in x : In x itabs <-> In x tabs.
  Proof. unfold itabs, tabs. destruct scans; [|reflexivity]. split; apply Permutation_in; [apply P|apply Permutation_sym, P]. Qed.
  Lemma itabs_nodup : NoDup itabs.
  Proof. unfold itabs. destruct scans; [|constructor]. apply (Permutation_NoDup (Permutation_sym (P _))), tables_nodup. Qed.
  Lemma sets_nodup : NoDup (map mkfs sets).
  Proof. unfold sets. destruct joins; [now apply sets_distinct|constructor]. Qed.
  Lemma drawn sel jsel : length sel = length itabs -> length jsel = length sets ->
    rbind (set_joins poa_empty (combine sets jsel)) (fun p => Ok (set_scans p (combine itabs sel))) = Ok (canon itabs sets sel jsel).
  Proof.
    intros L K. rewrite set_joins_ok; cbn [Hint_model.joins poa_empty map app].
    - cbn [rbind]. rewrite set_scans_ok; cbn [Hint_model.scans poa_empty glob Hint_model.joins inters map app]; [reflexivity|]. rewrite combine_fst by auto. apply itabs_nodup.
    - rewrite <- (map_map fst mkfs), combine_fst by auto. apply sets_nodup.
    - intros [s o] E. apply in_combine_l in E. cbn. unfold sets in E. destruct joins; [|destruct E]. now apply (sets_two s O).
  Qed.
  Lemma draw_form cs cs' : draw scan_ops join_ops iter scans joins cs cs' t =
    rbind (draw_joins join_ops cs poa_empty sets) (fun p => draw_scans scan_ops cs' p itabs).
  Proof. unfold draw, sets, itabs. destruct joins, scans; reflexivity. Qed.
  (** Whatever is drawn is an assignment of allowed operators to the tables and joins of the join order ... *)
  Lemma draw_sound cs cs' : (scans = true -> scan_ops <> []) -> (joins = true -> join_ops <> []) ->
    exists a f g, draw scan_ops join_ops iter scans joins cs cs' t = Ok a /\ from_ops tabs sets scan_ops join_ops f g /\ assigns a tabs sets f g.
  Proof.
    intros S J. rewrite draw_form.
    assert (X : exists jsel, length jsel = length sets /\ Forall (fun o => In o join_ops) jsel /\ forall p, p = poa_empty -> draw_joins join_ops cs p sets = set_joins p (combine sets jsel)).
    { unfold sets. destruct joins; [|exists []; auto]. destruct (draw_joins_sel (join_sets t) (J eq_refl) cs poa_empty) as (x & X1 & X2 & X3). exists x. split; [auto|]. split; [auto|]. intros p ->. exact X3. }
    destruct X as (jsel & K & G & D). rewrite (D _ eq_refl).
    assert (Y : forall p, exists sel, length sel = length itabs /\ Forall (fun o => In o scan_ops) sel /\ draw_scans scan_ops cs' p itabs = Ok (set_scans p (combine itabs sel))).
    { intros p. unfold itabs. destruct scans; [|exists []; auto]. apply (draw_scans_sel _ (S eq_refl)). }
    destruct (set_joins poa_empty (combine sets jsel)) as [p|e] eqn:E.
    - cbn [rbind]. destruct (Y p) as (sel & L & F & D2). rewrite D2. assert (Z := drawn sel jsel L K). rewrite E in Z. cbn [rbind] in Z. rewrite Z.
      exists (canon itabs sets sel jsel), (choice itabs sel), (jchoice sets jsel). split; [reflexivity|]. rewrite Forall_forall in F, G. split; [split|].
      + intros x X. apply F. apply itabs_in, (in_map (choice itabs sel)) in X. unfold choice in X at 2. now rewrite (choice_map sel itabs_nodup L) in X.
      + intros s X. apply G. assert (C := @choice_map (list nat) _ (map mkfs sets) jsel sets_nodup). rewrite map_length, map_map in C. apply (in_map (fun s => jchoice sets jsel (mkfs s))) in X. unfold jchoice in X at 2. now rewrite (C K) in X.
      + apply (@assigns_perm _ itabs); [apply itabs_in|]. rewrite (canon_choice _ _ _ itabs_nodup sets_nodup L K). apply canon_assigns; [apply itabs_nodup|apply sets_nodup].
    - exfalso. assert (Z := drawn (map (fun _ => 0) itabs) jsel (map_length _ _) K). rewrite E in Z. discriminate Z.
  Qed.
  (** ... and each of them can be drawn. *)
  Lemma draw_complete f g : from_ops tabs sets scan_ops join_ops f g -> exists cs cs' a, draw scan_ops join_ops iter scans joins cs cs' t = Ok a /\ assigns a tabs sets f g.
  Proof.
    intros [F G]. destruct (@draw_joins_any join_ops sets (map (fun s => g (mkfs s)) sets)) as [cs C]; [apply map_length|apply Forall_forall; intros o X; apply in_map_iff in X as (x & <- & X); auto|].
    destruct (@draw_scans_any scan_ops itabs (map f itabs)) as [cs' D]; [apply map_length|apply Forall_forall; intros o X; apply in_map_iff in X as (x & <- & X); apply F; now apply itabs_in|].
    exists cs, cs', (canon itabs sets (map f itabs) (map (fun s => g (mkfs s)) sets)). split.
    - rewrite draw_form, C, <- (@drawn (map f itabs)) by apply map_length. destruct (set_joins _ _); [|reflexivity]. cbn [rbind]. apply D.
    - apply (@assigns_perm _ itabs); [apply itabs_in|]. apply canon_assigns; [apply itabs_nodup|apply sets_nodup].
  Qed.
End C192.
Theorem C192_draw {A} scan_ops join_ops iter (t : jt nat A) scans joins : (forall l, Permutation (iter l) l) -> over_tables t ->
  (scans = true -> scan_ops <> []) -> (joins = true -> join_ops <> []) ->
  exists sets, (forall s, (exists s', In s' sets /\ seteq s' s) <-> joins = true /\ join_of t s) /\
  (forall cs cs', exists a f g, draw scan_ops join_ops iter scans joins cs cs' t = Ok a /\ from_ops (if scans then jt_tables t else []) sets scan_ops join_ops f g /\ assigns a (if scans then jt_tables t else []) sets f g) /\
  (forall f g, from_ops (if scans then jt_tables t else []) sets scan_ops join_ops f g -> exists cs cs' a, draw scan_ops join_ops iter scans joins cs cs' t = Ok a /\ assigns a (if scans then jt_tables t else []) sets f g).
Proof.
  intros P O S J. exists (if joins then join_sets t else []). split; [|split].
  - intros s. destruct joins; [rewrite sets_joins; tauto|]. split; [intros (s' & [] & _)|intros [H _]; discriminate].
  - intros cs cs'. now apply draw_sound.
  - intros f g. now apply draw_complete.
Qed.
Print Assumptions C192_draw.
Example C192_draw_ex : draw [0; 1] [0; 1; 2] (fun l => l) true true (fun n => n) (fun n => n) ex_tree
  = Ok (mkpoa [] [([1; 2], mkja 0 0 [1; 2] None None); ([1; 2; 3], mkja 0 1 [1; 2; 3] None None)] [] [(1, mksa 0 0 1 None); (2, mksa 0 1 2 None); (3, mksa 0 0 3 None)]).
Proof. reflexivity. Qed.
(** Without allowed operators there is an IndexError. *)
Theorem C192_no_operators {A} scan_ops iter (t : jt nat A) cs cs' : jt_iterjoins t <> [] -> draw scan_ops [] iter true true cs cs' t = Raise IndexError.
Proof. intros H. unfold draw, join_sets. destruct (jt_iterjoins t) as [|j l]; [congruence|]. reflexivity. Qed.
Print Assumptions C192_no_operators.
(** Without a join order there is no selection. *)
Theorem C192_no_order_refuted {A} scan_ops join_ops iter cs cs' : @select_random A scan_ops join_ops iter true true cs cs' None = Raise AttributeError.
Proof. reflexivity. Qed.
Print Assumptions C192_no_order_refuted.
(** Elimination of duplicates gives new hash values, and never ends if all assignments have been seen. *)
Theorem C192_new hash seen draws k fuel a : next_assignment hash seen draws k fuel = Some a -> ~ In (hash a) seen /\ exists n, a = draws n.
Proof.
  revert k. induction fuel as [|n IH]; intros k H; cbn in H; [discriminate|]. destruct (mem (hash (draws k)) seen) eqn:M; [now apply IH in H|]. injection H as <-. split; [|now exists k]. now apply mem_nIn.
Qed.
Print Assumptions C192_new.
Theorem C192_exhausted_refuted : exists (ops : list nat) (t : jt nat unit), over_tables t /\ ops <> [] /\ forall hash draws, (forall k, exists cs cs', draw ops ops (fun l => l) true true cs cs' t = Ok (draws k)) ->
  forall fuel, next_assignment hash [hash (draws 0)] draws 1 fuel = None.
Proof.
  exists [0], (JScan false 1 tt). split; [split; [intros lg [[|? ?] H]; discriminate H|repeat constructor; intros []]|]. split; [discriminate|]. intros hash draws D.
  assert (E : forall k, draws k = draws 0). { intros k. destruct (D k) as (c1 & c2 & H), (D 0) as (c3 & c4 & H'). unfold draw in H, H'. cbn in H, H'. congruence. }
  intros fuel. assert (G : forall k, next_assignment hash [hash (draws 0)] draws k fuel = None); [|apply G]. induction fuel as [|n IH]; intros k; cbn; [reflexivity|]. rewrite (E k). unfold deqb. destruct (eqd _ _); [|congruence]. cbn. apply IH.
Qed.
Print Assumptions C192_exhausted_refuted.
(** There is never a random plan. *)
Theorem C192_plans_refuted {A} scan_ops join_ops iter scans joins cs cs' (order : res (jt nat A)) p : random_plan scan_ops join_ops iter scans joins cs cs' order <> Ok p.
Proof. unfold random_plan. destruct order as [t|e]; cbn; [|discriminate]. destruct (draw _ _ _ _ _ _ _ t); discriminate. Qed.
Print Assumptions C192_plans_refuted.

(** ** C193 *)
Section C193.
  Context {Q : Type} (qtabs : Q -> list nat) (fragment : Q -> list nat -> Q) (star count_star : Q -> Q) (ordered : Q -> plan -> res Q)
          (hinted : Q -> plan -> Q) (ask_cost : Q -> answer cost) (ask_plan : Q -> answer plan) (actual : plan -> plan) (pcost : plan -> cost)
          (partner : Q -> plan -> option nat) (topped : nat -> plan -> plan) (key_ok : plan -> option bool) (postgres : bool) (outermost : plan -> option plan).
  Let est r := estimate qtabs fragment star count_star ordered hinted ask_cost ask_plan actual pcost partner topped key_ok postgres r outermost.
  (** The part of the query that a plan computes: the query itself, if the plan has all of its tables. *)
  Definition part_of (q : Q) (p : plan) (q' : Q) : Prop := (seteq (qtabs q) (tables p) /\ q' = q) \/ (~ seteq (qtabs q) (tables p) /\ q' = fragment q (tables p)).
  Definition plain (p : plan) : Prop := forall k, oper (data p) <> Some (PInter k) /\ oper (data p) <> Some (PScan 1) /\ oper (data p) <> Some (PScan 2).
  Definition indexed (p : plan) : Prop := oper (data p) = Some (PScan 1) \/ oper (data p) = Some (PScan 2).
  (** An operator costs what the database estimates for the hinted part of the query. *)
  Lemma plain_cost r q p q' : plain p -> part_of q p q' ->
    est r q p = match ask_cost (hinted q' (actual p)) with Answer c => Ok c | DbError => if r then Raise OtherError else Ok KInf end.
  Proof.
    intros P H. destruct p as [d k s]. unfold est. cbn [estimate].
    assert (I : match oper (data (Node d k s)) with Some (PInter 1) | Some (PInter 2) => true | _ => false end = false).
    { destruct (oper (data (Node d k s))) as [[n|n|n]|] eqn:E; try reflexivity. now destruct (P n) as [P1 _]. }
    rewrite I. cbn [andb negb].
    assert (E : (if negb (seteqb (qtabs q) (tables (Node d k s))) then fragment q (tables (Node d k s)) else q) = q').
    { destruct H as [[H ->]|[H ->]]; destruct (seteqb _ _) eqn:B; cbn; try reflexivity; [apply seteqb_seteq in H; congruence|apply seteqb_seteq in B; tauto]. }
    rewrite E. destruct (oper (data (Node d k s))) as [[n|n|n]|] eqn:O; [|reflexivity| |reflexivity].
    - destruct (P 0) as [_ [P1 P2]]. rewrite O in P1, P2. destruct n as [|[|[|n]]]; [reflexivity|congruence|congruence|reflexivity].
    - now destruct (P n) as [P1 _].
  Qed.
  (** An index scan costs the same, or what the database estimates for such a scan while counting. *)
  Lemma index_cost r q p q' : indexed p -> part_of q p q' ->
    est r q p = match ask_cost (hinted q' (actual p)) with
                | Answer c => Ok c
                | DbError => match ask_plan (hinted (count_star q') (actual p)) with
                             | Answer a => match outermost a with
                                           | Some n => if deqb (oper (data n)) (oper (data p)) then Ok (pcost n) else if r then Raise OtherError else Ok KInf
                                           | None => if r then Raise OtherError else Ok KInf
                                           end
                             | DbError => if r then Raise OtherError else Ok KInf
                             end
                end.
  Proof.
    intros P H. destruct p as [d k s]. unfold est. cbn [estimate].
    assert (E : (if negb (seteqb (qtabs q) (tables (Node d k s))) then fragment q (tables (Node d k s)) else q) = q').
    { destruct H as [[H ->]|[H ->]]; destruct (seteqb _ _) eqn:B; cbn; try reflexivity; [apply seteqb_seteq in H; congruence|apply seteqb_seteq in B; tauto]. }
    destruct P as [P|P]; rewrite P; cbn [andb negb]; rewrite E; unfold cost_index; rewrite P; destruct (ask_cost _); try reflexivity; destruct (ask_plan _) as [a|]; try reflexivity; destruct (outermost a); reflexivity.
  Qed.
  (** Sorting costs what its input costs with the order in the query. *)
  Lemma sort_cost r q d c s q' oq : oper d = Some (PInter 0) -> part_of q (Node d [c] s) q' -> ordered (star (fragment q' (tables (Node d [c] s)))) (Node d [c] s) = Ok oq ->
    est r q (Node d [c] s) = est r oq c.
  Proof.
    intros P H D. unfold est. cbn [estimate]. cbn [data]. rewrite P. cbn [andb negb].
    assert (E : (if negb (seteqb (qtabs q) (tables (Node d [c] s))) then fragment q (tables (Node d [c] s)) else q) = q').
    { destruct H as [[H ->]|[H ->]]; destruct (seteqb _ _) eqn:B; cbn; try reflexivity; [apply seteqb_seteq in H; congruence|apply seteqb_seteq in B; tauto]. }
    rewrite E, D. reflexivity.
  Qed.
  (** Materialize and memoize have no finite cost whatever the database says. *)
  Lemma between_cost r q p c : oper (data p) = Some (PInter 1) \/ oper (data p) = Some (PInter 2) -> est r q p = Ok c -> c = KInf.
  Proof.
    intros P. destruct p as [d k s]. unfold est. cbn [estimate].
    assert (N : forall k p a, find_intermediate k p a = None). { intros k' p a. unfold find_intermediate. induction (iternodes a); [reflexivity|exact IHl]. }
    destruct P as [P|P]; rewrite P; cbn [andb negb]; destruct (seteqb _ _); try discriminate; unfold cost_between; destruct postgres; cbn; try congruence.
    - destruct (key_ok (Node d k s)) as [[|]|]; cbn; try congruence. destruct (partner q (Node d k s)); [|congruence]. destruct (ask_plan _) as [a|]; [|congruence]. rewrite N. congruence.
    - destruct (partner q (Node d k s)); [|congruence]. destruct (ask_plan _) as [a|]; [|congruence]. rewrite N. congruence.
  Qed.
  Lemma between_final r q p : oper (data p) = Some (PInter 1) \/ oper (data p) = Some (PInter 2) -> seteq (qtabs q) (tables p) -> est r q p = Raise ValueError.
  Proof. intros P H. destruct p as [d k s]. unfold est. cbn [estimate]. apply seteqb_seteq in H. destruct P as [P|P]; rewrite P, H; reflexivity. Qed.
End C193.
(** Materialize and memoize cannot be costed with other systems than PostgreSQL; PostgreSQL needs a key for memoize. *)
Theorem C193_other_systems : forall {Q} qtabs fragment star count_star ordered hinted ask_cost ask_plan actual pcost partner topped key_ok outermost r (q : Q) p,
  oper (data p) = Some (PInter 1) \/ oper (data p) = Some (PInter 2) -> ~ seteq (qtabs q) (tables p) ->
  estimate qtabs fragment star count_star ordered hinted ask_cost ask_plan actual pcost partner topped key_ok false r outermost q p = Ok KInf /\
  (oper (data p) = Some (PInter 1) -> key_ok p = None ->
   estimate qtabs fragment star count_star ordered hinted ask_cost ask_plan actual pcost partner topped key_ok true r outermost q p = Raise ValueError).
Proof.
  intros Q qtabs fragment star count_star ordered hinted ask_cost ask_plan actual pcost partner topped key_ok outermost r q p P H. destruct p as [d k s]. cbn [estimate]. cbn [data] in *.
  assert (B : seteqb (qtabs q) (tables (Node d k s)) = false) by (apply not_true_is_false; intros B; apply seteqb_seteq in B; contradiction). rewrite B.
  split; [destruct P as [-> | ->]; reflexivity|]. intros -> K. cbn [andb negb]. unfold cost_between. cbn [negb]. rewrite K. reflexivity.
Qed.
Print Assumptions C193_other_systems.
Theorem C193_plain_partial : forall {Q} qtabs fragment star count_star ordered hinted ask_cost ask_plan actual pcost partner topped key_ok postgres outermost r (q : Q) p q',
  plain p -> part_of qtabs fragment q p q' ->
  estimate qtabs fragment star count_star ordered hinted ask_cost ask_plan actual pcost partner topped key_ok postgres r outermost q p
  = match ask_cost (hinted q' (actual p)) with Answer c => Ok c | DbError => if r then Raise OtherError else Ok KInf end.
Proof. intros. now apply plain_cost. Qed.
Print Assumptions C193_plain_partial.
Theorem C193_index_partial : forall {Q} qtabs fragment star count_star ordered hinted ask_cost ask_plan actual pcost partner topped key_ok postgres outermost r (q : Q) p q',
  indexed p -> part_of qtabs fragment q p q' ->
  estimate qtabs fragment star count_star ordered hinted ask_cost ask_plan actual pcost partner topped key_ok postgres r outermost q p
  = match ask_cost (hinted q' (actual p)) with
    | Answer c => Ok c
    | DbError => match ask_plan (hinted (count_star q') (actual p)) with
                 | Answer a => match outermost a with
                               | Some n => if deqb (oper (data n)) (oper (data p)) then Ok (pcost n) else if r then Raise OtherError else Ok KInf
                               | None => if r then Raise OtherError else Ok KInf
                               end
                 | DbError => if r then Raise OtherError else Ok KInf
                 end
    end.
Proof. intros. now apply index_cost. Qed.
Print Assumptions C193_index_partial.
Theorem C193_sort_partial : forall {Q} qtabs fragment star count_star ordered hinted ask_cost ask_plan actual pcost partner topped key_ok postgres outermost r (q : Q) d c s q' oq,
  oper d = Some (PInter 0) -> part_of qtabs fragment q (Node d [c] s) q' -> ordered (star (fragment q' (tables (Node d [c] s)))) (Node d [c] s) = Ok oq ->
  estimate qtabs fragment star count_star ordered hinted ask_cost ask_plan actual pcost partner topped key_ok postgres r outermost q (Node d [c] s)
  = estimate qtabs fragment star count_star ordered hinted ask_cost ask_plan actual pcost partner topped key_ok postgres r outermost oq c.
Proof. intros. now apply (@sort_cost Q qtabs fragment star count_star ordered hinted ask_cost ask_plan actual pcost partner topped key_ok postgres outermost r q d c s q'). Qed.
Print Assumptions C193_sort_partial.
(** The cost of materialize and memoize nodes is never found. *)
Theorem C193_between_refuted : forall {Q} qtabs fragment star count_star ordered hinted ask_cost ask_plan actual pcost partner topped key_ok postgres outermost r (q : Q) p c,
  oper (data p) = Some (PInter 1) \/ oper (data p) = Some (PInter 2) ->
  estimate qtabs fragment star count_star ordered hinted ask_cost ask_plan actual pcost partner topped key_ok postgres r outermost q p = Ok c -> c = KInf.
Proof. intros *. apply between_cost. Qed.
Print Assumptions C193_between_refuted.
Theorem C193_final : forall {Q} qtabs fragment star count_star ordered hinted ask_cost ask_plan actual pcost partner topped key_ok postgres outermost r (q : Q) p,
  oper (data p) = Some (PInter 1) \/ oper (data p) = Some (PInter 2) -> seteq (qtabs q) (tables p) ->
  estimate qtabs fragment star count_star ordered hinted ask_cost ask_plan actual pcost partner topped key_ok postgres r outermost q p = Raise ValueError.
Proof. intros. now apply between_final. Qed.
Print Assumptions C193_final.
(** The native parameterization never gives parameters. *)
Theorem C193_parameters_refuted {P} (params : res P) p : native_parameters params <> Ok (Some p).
Proof. destruct params; discriminate. Qed.
Print Assumptions C193_parameters_refuted.
(** A hash join of two of three tables is costed by the part of the query with these tables; a failing index scan by counting. *)
Definition ex_data o b := mkpd 0 o b [] [] 0 CNan None [] no_measures.
Definition ex_scan k t := Node (ex_data (Some (PScan k)) (Some t)) [] None.
Definition ex_join := Node (ex_data (Some (PJoin 1)) None) [ex_scan 0 1; ex_scan 0 2] None.
Definition ex_est := @estimate (list nat) (fun q => q) (fun q l => l) (fun q => q) (fun q => 0 :: q) (fun q _ => Ok q) (fun q _ => q)
  (fun q => match q with [1; 2] => Answer (KVal 7) | [_; _; _] => Answer (KVal 9) | _ => DbError end) (fun q => match q with 0 :: _ => Answer (ex_scan 1 5) | _ => DbError end)
  (fun p => p) (fun _ => KVal 3) (fun _ _ => None) (fun _ p => p) (fun _ => None) true false (fun p => Some p).
Example C193_plain_ex : ex_est [1; 2; 3] ex_join = Ok (KVal 7) /\ plain ex_join /\ part_of (fun q => q) (fun _ l => l) [1; 2; 3] ex_join [1; 2].
Proof.
  split; [reflexivity|]. split; [intros k; repeat split; discriminate|]. right. split; [|reflexivity]. intros H. assert (X : In 3 (tables ex_join)) by (apply H; cbn; auto). cbn in X. intuition discriminate.
Qed.
Example C193_index_ex : ex_est [1; 2; 3] (ex_scan 1 3) = Ok (KVal 3) /\ ex_est [1; 2; 3] (ex_scan 2 3) = Ok KInf.
Proof. split; reflexivity. Qed.
Example C193_sort_ex : ex_est [1; 2; 3] (Node (ex_data (Some (PInter 0)) None) [ex_join] None) = Ok (KVal 7).
Proof. reflexivity. Qed.
Example C193_between_ex : ex_est [1; 2; 3] (Node (ex_data (Some (PInter 2)) None) [ex_join] None) = Ok KInf.
Proof. reflexivity. Qed.
