(** Lemmas about the hints of entire plans. *)
From Coq Require Import List Bool Arith ZArith String Permutation Lia.
From Verif Require Import PyBase Hint_model Card_model JT_model Lim_model PGHint_model PGHint_spec PGHint_proofs QPlan_model QPlan_spec QPlan_proofs PLab_model PLab_spec.
Import ListNotations.
Open Scope string_scope.
Open Scope list_scope.
Open Scope nat_scope.
Set Implicit Arguments.

(** ** Join orders *)
Lemma plan_text_shape name p : (forall o, shape p o -> plan_text name p = Ok (order_text name o)) /\ (forall s, plan_text name p = Ok s -> exists o, shape p o /\ s = order_text name o).
Proof.
  split.
  - intros o H. induction H as [p t S B|p c o S K H IH|p a b x y S K H1 IH1 H2 IH2]; destruct p as [d ks q]; unfold is_scan in S; cbn [data kids] in *; cbn [plan_text]; rewrite S.
    + now rewrite B.
    + subst ks. exact IH.
    + subst ks. now rewrite IH1, IH2.
  - revert p. fix IH 1. intros [d ks q] s H. cbn [plan_text] in H. destruct (op_scan d) eqn:S.
    + destruct (base d) as [t|] eqn:B; [|discriminate]. injection H as <-. exists (OrdTab t). split; [|reflexivity]. now apply sh_scan.
    + destruct ks as [|a [|b [|c ks]]]; try discriminate.
      * destruct (IH a s H) as (o & O & E). exists o. split; [|exact E]. now apply (@sh_one _ a).
      * destruct (plan_text name a) as [sa|] eqn:EA; [|discriminate]. destruct (plan_text name b) as [sb|] eqn:EB; [|discriminate]. cbn in H. injection H as <-.
        destruct (IH a sa EA) as (x & X & ->). destruct (IH b sb EB) as (y & Y & ->). exists (OrdJoin x y). split; [|reflexivity]. now apply (@sh_two _ a b).
Qed.
Lemma plan_text_error name p e : plan_text name p = Raise e -> e = AssertionError.
Proof.
  revert p e. fix IH 1. intros [d ks q] e H. cbn [plan_text] in H. destruct (op_scan d); [destruct (base d); [discriminate H|injection H as H; exact (eq_sym H)]|]. destruct ks as [|a [|b [|c ks]]].
  - injection H as H. exact (eq_sym H).
  - exact (IH a e H).
  - destruct (plan_text name a) as [sa|ea] eqn:EA; cbn [rbind] in H.
    + destruct (plan_text name b) as [sb|eb] eqn:EB; cbn [rbind] in H; [discriminate H|]. injection H as <-. exact (IH b _ EB).
    + injection H as <-. exact (IH a _ EA).
  - injection H as H. exact (eq_sym H).
Qed.
(** Orders as join trees. *)
Fixpoint tree_of (o : order) : jt nat unit := match o with OrdTab t => JScan false t tt | OrdJoin a b => JJoin false (tree_of a) (tree_of b) tt end.
Lemma tree_order o : order_of (tree_of o) = Some o.
Proof. induction o as [t|a IHa b IHb]; [reflexivity|]. cbn [tree_of order_of]. now rewrite IHa, IHb. Qed.
Lemma tree_walk name o : walk name (tree_of o) = Ok (order_text name o).
Proof. induction o as [t|a IHa b IHb]; [reflexivity|]. cbn [tree_of walk]. now rewrite IHa, IHb. Qed.

(** ** Breadth first *)
Definition size (p : plan) : nat := List.length (iternodes p).
Lemma iternodes_cons p : Permutation (iternodes p) (p :: flat_map iternodes (kids p)).
Proof. destruct p as [d ks s]. cbn [iternodes kids]. apply Permutation_sym, Permutation_cons_append. Qed.
Lemma bfs_perm fuel : forall q, List.length (flat_map iternodes q) <= fuel -> Permutation (bfs_from fuel q) (flat_map iternodes q).
Proof.
  induction fuel as [|f IH]; intros q H; destruct q as [|n r]; cbn [bfs_from]; try reflexivity.
  - cbn [flat_map] in H. rewrite app_length in H. assert (X := Permutation_length (iternodes_cons n)). cbn in X. lia.
  - cbn [flat_map] in *. rewrite app_length in H. assert (X := Permutation_length (iternodes_cons n)). cbn in X.
    rewrite (iternodes_cons n). cbn [app]. apply perm_skip. rewrite IH; [|rewrite flat_map_app, app_length; lia]. rewrite flat_map_app. apply Permutation_app_comm.
Qed.
Lemma bfs_nodes p : Permutation (bfs p) (iternodes p).
Proof. unfold bfs. rewrite bfs_perm; cbn [flat_map]; rewrite app_nil_r; auto. Qed.

(** ** Lines *)
Definition op_part (l : line) : list (string * list nat) := match l with LOp k t _ => [(k, t)] | _ => [] end.
Definition card_part (l : line) : list (list nat * Z) := match l with LCard t c => [(t, c)] | _ => [] end.
Definition worker_part (l : line) : list nat := match l with LResult w => [w] | LOp _ _ (Some w) => [w] | _ => [] end.
Definition node_key (n : plan) : option string := match oper (data n) with Some o => lab_op o | None => None end.
Definition node_ops (n : plan) : list (string * list nat) := match node_key n with Some k => [(k, tables n)] | None => [] end.
Definition node_cards (n : plan) : list (list nat * Z) := match node_key n, card_of (data n) with Some _, CVal z => [(tables n, z)] | _, _ => [] end.
Definition busy (n : plan) : bool := 0 <? pworkers (data n).

Lemma step_ops s n : flat_map op_part (out (pl_step s n)) = flat_map op_part (out s) ++ node_ops n.
Proof.
  unfold pl_step, node_ops, node_key. destruct (if 0 <? pworkers (data n) then _ else _) as [w|]; [destruct (_ && negb (used s))|]; (destruct (oper (data n)) as [o|]; [destruct (lab_op o)|]); cbn [out negb];
    repeat (match goal with |- context [match ?c with _ => _ end] => destruct c end; cbn [out negb]); rewrite ?flat_map_app; cbn; rewrite ?app_nil_r; reflexivity.
Qed.
Lemma step_cards s n : flat_map card_part (out (pl_step s n)) = flat_map card_part (out s) ++ node_cards n.
Proof.
  unfold pl_step, node_cards, node_key. destruct (if 0 <? pworkers (data n) then _ else _) as [w|]; [destruct (_ && negb (used s))|]; (destruct (oper (data n)) as [o|]; [destruct (lab_op o)|]); cbn [out negb];
    try (destruct (card_of (data n))); repeat (match goal with |- context [if ?c then _ else _] => destruct c end; cbn [out negb]); rewrite ?flat_map_app; cbn; rewrite ?app_nil_r; reflexivity.
Qed.
Lemma fold_parts {X} (f : line -> list X) (g : plan -> list X) : (forall s n, flat_map f (out (pl_step s n)) = flat_map f (out s) ++ g n) ->
  forall l s, flat_map f (out (fold_left pl_step l s)) = flat_map f (out s) ++ flat_map g l.
Proof. intros H. induction l as [|n l IH]; intros s; cbn; [now rewrite app_nil_r|]. now rewrite IH, H, app_assoc. Qed.

(** ** Workers *)
Lemma step_used s n : used s = true -> used (pl_step s n) = true /\ flat_map worker_part (out (pl_step s n)) = flat_map worker_part (out s).
Proof.
  intros U. unfold pl_step. rewrite U, andb_false_r. destruct (if 0 <? pworkers (data n) then _ else _) as [w|]; (destruct (oper (data n)) as [o|]; [destruct (lab_op o)|]); cbn [out negb used]; split; auto; rewrite flat_map_app; destruct (card_of (data n)); cbn; now rewrite app_nil_r.
Qed.
Lemma fold_used l : forall s, used s = true -> used (fold_left pl_step l s) = true /\ flat_map worker_part (out (fold_left pl_step l s)) = flat_map worker_part (out s).
Proof. induction l as [|n l IH]; intros s U; cbn; [auto|]. destruct (step_used s n U) as [U' E]. destruct (IH _ U') as [U2 E2]. split; [exact U2|congruence]. Qed.
(** One step: nothing is used, and the pending workers are those of the node or of an earlier one, or they are used. *)
Lemma step_fresh s n : used s = false -> let w := if busy n then Some (pworkers (data n)) else par s in
  (used (pl_step s n) = false /\ par (pl_step s n) = w /\ flat_map worker_part (out (pl_step s n)) = flat_map worker_part (out s))
  \/ (used (pl_step s n) = true /\ par (pl_step s n) = None /\ exists k, w = Some k /\ flat_map worker_part (out (pl_step s n)) = flat_map worker_part (out s) ++ [k]).
Proof.
  intros U. cbv zeta. unfold pl_step. rewrite U. cbn [negb]. rewrite andb_true_r. fold (busy n).
  destruct (if busy n then _ else _) as [w|]; [destruct (upper s && negb (op_scan (data n) || op_join (data n)))|];
    (destruct (oper (data n)) as [o|]; [destruct (lab_op o) as [k|]|]); cbn [out negb used par]; auto.
  - right. split; [reflexivity|]. split; [reflexivity|]. exists w. split; [reflexivity|]. rewrite !flat_map_app. destruct (card_of (data n)); cbn; now rewrite ?app_nil_r, <- ?app_assoc.
  - right. split; [reflexivity|]. split; [reflexivity|]. exists w. split; [reflexivity|]. now rewrite !flat_map_app.
  - right. split; [reflexivity|]. split; [reflexivity|]. exists w. split; [reflexivity|]. now rewrite !flat_map_app.
  - right. split; [reflexivity|]. split; [reflexivity|]. exists w. split; [reflexivity|]. rewrite !flat_map_app. destruct (card_of (data n)); reflexivity.
  - left. split; [reflexivity|]. split; [reflexivity|]. rewrite !flat_map_app. destruct (card_of (data n)); cbn; now rewrite app_nil_r.
Qed.
Lemma fold_fresh l : forall s, used s = false -> flat_map worker_part (out s) = [] ->
  (flat_map worker_part (out (fold_left pl_step l s)) = [] /\ used (fold_left pl_step l s) = false)
  \/ exists k, flat_map worker_part (out (fold_left pl_step l s)) = [k] /\ (par s = Some k \/ exists n, In n l /\ busy n = true /\ pworkers (data n) = k).
Proof.
  induction l as [|n l IH]; intros s U E; cbn [fold_left]; [now left|]. destruct (step_fresh s n U) as [(U' & P & E')|(U' & P & k & W & E')].
  - rewrite E in E'. destruct (IH _ U' E') as [H|(k & K & H)]; [now left|]. right. exists k. split; [exact K|]. rewrite P in H. destruct H as [H|(m & M & H)].
    + destruct (busy n) eqn:B; [|now left]. injection H as H. right. exists n. split; [now left|]. auto.
    + right. exists m. split; [now right|exact H].
  - right. exists k. rewrite E in E'. cbn in E'. destruct (fold_used l _ U') as [_ F]. split; [congruence|]. destruct (busy n) eqn:B; [|now left]. injection W as W. right. exists n. split; [now left|]. auto.
Qed.
(** Nodes without workers. *)
Lemma fold_idle l : forall s, (forall n, In n l -> busy n = false) -> par s = None ->
  flat_map worker_part (out (fold_left pl_step l s)) = flat_map worker_part (out s) /\ par (fold_left pl_step l s) = None /\ used (fold_left pl_step l s) = used s.
Proof.
  induction l as [|n l IH]; intros s B P; cbn [fold_left]; [auto|]. assert (X : par (pl_step s n) = None /\ used (pl_step s n) = used s /\ flat_map worker_part (out (pl_step s n)) = flat_map worker_part (out s)).
  { unfold pl_step. fold (busy n). rewrite (B n (or_introl eq_refl)), P. destruct (oper (data n)) as [o|]; [destruct (lab_op o)|]; cbn [par used out]; auto. split; [reflexivity|]. split; [reflexivity|]. rewrite flat_map_app. destruct (card_of (data n)); cbn; now rewrite app_nil_r. }
  destruct X as (X1 & X2 & X3). destruct (IH (pl_step s n)) as (I1 & I2 & I3); [intros; apply B; now right|exact X1|]. rewrite I1, I3. auto.
Qed.
Lemma step_out s n : exists l, out (pl_step s n) = out s ++ l.
Proof.
  unfold pl_step. destruct (if 0 <? pworkers (data n) then _ else _) as [w|]; [destruct (_ && negb (used s))|]; (destruct (oper (data n)) as [o|]; [destruct (lab_op o)|]); cbn [out negb];
    repeat (match goal with |- context [if ?c then _ else _] => destruct c end; cbn [out negb]); try (eexists; rewrite <- ?app_assoc; reflexivity); exists []; now rewrite app_nil_r.
Qed.
Lemma fold_out l : forall s x, In x (out s) -> In x (out (fold_left pl_step l s)).
Proof. induction l as [|n l IH]; intros s x H; cbn; [exact H|]. apply IH. destruct (step_out s n) as [m ->]. apply in_or_app. now left. Qed.
Lemma upper_idle l : forall s, (forall n, In n l -> is_scan n = false /\ is_join n = false) -> upper s = true -> upper (fold_left pl_step l s) = true.
Proof.
  induction l as [|n l IH]; intros s B U; cbn [fold_left]; [auto|]. apply IH; [intros; apply B; now right|]. destruct (B n (or_introl eq_refl)) as [S J]. unfold is_scan, is_join in *.
  unfold pl_step. rewrite U, S, J. cbn [orb negb andb]. destruct (if 0 <? pworkers (data n) then _ else _) as [w|]; [destruct (negb (used s))|]; (destruct (oper (data n)) as [o|]; [destruct (lab_op o)|]); cbn [upper negb]; try reflexivity; destruct (used s); reflexivity.
Qed.
Lemma filter_single {X} (f : X -> bool) l x : filter f l = [x] -> exists l1 l2, l = l1 ++ x :: l2 /\ (forall y, In y l1 -> f y = false) /\ (forall y, In y l2 -> f y = false) /\ f x = true.
Proof.
  induction l as [|y l IH]; cbn; [discriminate|]. destruct (f y) eqn:E.
  - intros H. injection H as -> H. exists [], l. split; [reflexivity|]. split; [intros ? []|]. split; [|exact E]. intros z Z. destruct (f z) eqn:F; [|reflexivity]. assert (In z (filter f l)) by now apply filter_In. rewrite H in H0. destruct H0.
  - intros H. destruct (IH H) as (l1 & l2 & -> & A & B & C). exists (y :: l1), l2. split; [reflexivity|]. split; [|auto]. intros z [<-|Z]; auto.
Qed.
Lemma bfs_single p n : filter busy (iternodes p) = [n] -> filter busy (bfs p) = [n].
Proof.
  intros H. assert (P : Permutation (filter busy (bfs p)) [n]).
  { rewrite <- H. assert (G : forall l m : list plan, Permutation l m -> Permutation (filter busy l) (filter busy m)); [|exact (G _ _ (bfs_nodes p))].
    intros l m PM. induction PM as [|x l m PM IH|x y l|l k m P1 IH1 P2 IH2]; cbn [filter].
    - reflexivity.
    - destruct (busy x); [now apply perm_skip|exact IH].
    - destruct (busy x), (busy y); try reflexivity. apply perm_swap.
    - exact (Permutation_trans IH1 IH2). }
  now apply Permutation_sym, Permutation_length_1_inv in P.
Qed.
(** The only parallel node, if it is a scan or join or intermediate operator below a join. *)
Lemma single_op p n k : filter busy (iternodes p) = [n] -> node_key n = Some k -> is_scan n = true \/ is_join n = true ->
  flat_map worker_part (out (fold_left pl_step (bfs p) (mkps false true None []))) = [pworkers (data n)] /\
  In (LOp k (tables n) (Some (pworkers (data n)))) (out (fold_left pl_step (bfs p) (mkps false true None []))).
Proof.
  intros F K SJ. destruct (filter_single _ _ (bfs_single _ F)) as (l1 & l2 & -> & B1 & B2 & B). rewrite fold_left_app. cbn [fold_left]. set (s0 := mkps false true None []).
  destruct (fold_idle l1 s0 B1 eq_refl) as (E1 & P1 & U1). set (s1 := fold_left pl_step l1 s0) in *. cbn in U1.
  assert (X : exists cl, out (pl_step s1 n) = out s1 ++ LOp k (tables n) (Some (pworkers (data n))) :: cl /\ flat_map worker_part cl = [] /\ used (pl_step s1 n) = true).
  { unfold pl_step. fold (busy n). rewrite B. assert (Z : upper s1 && negb (op_scan (data n) || op_join (data n)) = false). { unfold is_scan, is_join in SJ. destruct SJ as [-> | ->]; rewrite ?orb_true_r; apply andb_false_r. }
    rewrite Z. cbn [andb]. unfold node_key in K. destruct (oper (data n)) as [o|]; [|discriminate]. rewrite K, U1. cbn [negb out used]. eexists. split; [reflexivity|]. split; [destruct (card_of (data n)); reflexivity|reflexivity]. }
  destruct X as (cl & X & Y & U2). destruct (fold_used l2 _ U2) as [_ W]. split.
  - rewrite W, X, flat_map_app, E1. cbn. now rewrite Y.
  - apply fold_out. rewrite X. apply in_or_app. right. now left.
Qed.
Lemma top_bfs p n : on_top p n -> forall fuel, size p <= fuel -> exists l1 l2, bfs_from fuel [p] = l1 ++ n :: l2 /\ forall m, In m (l1 ++ [n]) -> is_scan m = false /\ is_join m = false.
Proof.
  intros H. induction H as [p S J|p c n S J K H IH]; intros fuel F.
  - assert (X := Permutation_length (iternodes_cons p)). unfold size in F. cbn in X. destruct fuel as [|f]; [lia|]. cbn [bfs_from]. exists [], (bfs_from f ([] ++ kids p)). split; [reflexivity|]. intros m [<-|[]]. auto.
  - assert (X := Permutation_length (iternodes_cons p)). unfold size in F. rewrite K in X. cbn in X. rewrite app_nil_r in X. destruct fuel as [|f]; [lia|]. cbn [bfs_from app]. rewrite K. destruct (IH f) as (l1 & l2 & E & G); [unfold size; lia|]. rewrite E.
    exists (p :: l1), l2. split; [reflexivity|]. intros m [<-|M]; auto.
Qed.
(** The only parallel node, if it is above all scans and joins. *)
Lemma single_top p n : filter busy (iternodes p) = [n] -> on_top p n ->
  flat_map worker_part (out (fold_left pl_step (bfs p) (mkps false true None []))) = [pworkers (data n)] /\ In (LResult (pworkers (data n))) (out (fold_left pl_step (bfs p) (mkps false true None []))).
Proof.
  intros F T. assert (F' := bfs_single _ F). destruct (top_bfs T (le_n _)) as (l1 & l2 & E & G). fold (bfs p) in E. unfold size in E. change (bfs_from (List.length (iternodes p)) [p]) with (bfs p) in E. rewrite E in *.
  assert (BN : busy n = true). { assert (In n (filter busy (l1 ++ n :: l2))) by (rewrite F'; now left). apply filter_In in H. tauto. }
  rewrite filter_app in F'. cbn [filter] in F'. rewrite BN in F'. assert (Z : filter busy l1 = []). { destruct (filter busy l1) as [|a r]; [reflexivity|]. cbn in F'. injection F' as _ F'. destruct r; discriminate. }
  assert (B1 : forall y, In y l1 -> busy y = false). { intros y Y. destruct (busy y) eqn:B; [|reflexivity]. assert (In y (filter busy l1)) by now apply filter_In. rewrite Z in H. destruct H. }
  rewrite fold_left_app. cbn [fold_left]. set (s0 := mkps false true None []). destruct (fold_idle l1 s0 B1 eq_refl) as (E1 & P1 & U1). assert (UP : upper (fold_left pl_step l1 s0) = true) by (apply upper_idle; [intros m M; apply G; apply in_or_app; now left|reflexivity]).
  set (s1 := fold_left pl_step l1 s0) in *. cbn in U1. assert (GN : is_scan n = false /\ is_join n = false) by (apply G; apply in_or_app; right; now left). unfold is_scan, is_join in GN. destruct GN as [GS GJ].
  assert (X : exists cl, out (pl_step s1 n) = out s1 ++ LResult (pworkers (data n)) :: cl /\ flat_map worker_part cl = [] /\ used (pl_step s1 n) = true).
  { unfold pl_step. fold (busy n). rewrite BN, UP, GS, GJ, U1. cbn [orb negb andb]. destruct (oper (data n)) as [o|]; [destruct (lab_op o) as [k|]|]; cbn [out used].
    - rewrite <- app_assoc. eexists. split; [reflexivity|]. split; [destruct (card_of (data n)); reflexivity|reflexivity].
    - exists []. auto.
    - exists []. auto. }
  destruct X as (cl & X & Y & U2). destruct (fold_used l2 _ U2) as [_ W]. split.
  - rewrite W, X, flat_map_app, E1. cbn. now rewrite Y.
  - apply fold_out. rewrite X. apply in_or_app. right. now left.
Qed.
