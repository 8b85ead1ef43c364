(** C271 and C272: updating statistics, the buffer pool. *)
From Coq Require Import List Bool Arith ZArith Lia.
From Verif Require Import PyBase Maint_model Maint_spec.
Import ListNotations.
Local Open Scope nat_scope.

(** ** generate_multi *)
Lemma multi_get {V} (l : list (tab * V)) : forall d k,
  dget (fold_left (fun d e => multi_add d (fst e) (snd e)) l d) k =
  match map snd (filter (fun e => deqb k (fst e)) l), dget d k with
  | [], o => o
  | vs, None => Some vs
  | vs, Some ws => Some (ws ++ vs)
  end.
Proof.
  induction l as [|[t v] l IH]; intros d k; cbn [fold_left filter map fst snd]; [reflexivity|].
  rewrite IH. unfold multi_add. rewrite !dset_spec. assert (D : (if eqd k t then true else false) = deqb k t) by reflexivity. destruct (eqd k t) as [E|N]; rewrite <- D; [subst k|].
  - cbn [map snd]. destruct (map snd (filter _ l)) as [|w ws]; destruct (dget d t); try reflexivity. rewrite <- app_assoc. reflexivity.
  - destruct (map snd (filter _ l)); destruct (dget d k); reflexivity.
Qed.
Lemma multi_wf {V} (l : list (tab * V)) : forall d, dwf d -> dwf (fold_left (fun d e => multi_add d (fst e) (snd e)) l d).
Proof. induction l as [|e l IH]; intros d W; [exact W|]. cbn. apply IH. apply dwf_dset. exact W. Qed.
Lemma multi_In {V} (l : list (tab * V)) k vs : In (k, vs) (generate_multi l) <-> vs = map snd (filter (fun e => deqb k (fst e)) l) /\ vs <> [].
Proof.
  assert (W : dwf (generate_multi l)) by (apply multi_wf; constructor).
  assert (G := multi_get l [] k). fold (generate_multi l) in G. cbn [dget] in G. split.
  - intros I0. apply (dget_iff _ _ _ W) in I0. rewrite I0 in G. destruct (map snd _) as [|w ws]; [discriminate|]. injection G as ->. split; [reflexivity | discriminate].
  - intros [-> N]. apply dget_In. rewrite G. destruct (map snd _); [congruence | reflexivity].
Qed.

(** ** C271: updating statistics *)
Lemma rmapM_bound cs ps : rmapM bound cs = Ok ps -> Forall2 (fun c p => l_tab c = Some (fst p) /\ snd p = l_name c) cs ps.
Proof.
  revert ps. induction cs as [|c cs IH]; intros ps H; cbn in H; [injection H as <-; constructor|].
  unfold bound in H at 1. destruct (l_tab c) as [t|] eqn:T; [|discriminate]. cbn [rbind] in H. destruct (rmapM bound cs) as [r|e] eqn:R; [|discriminate]. injection H as <-.
  constructor; [split; [exact T | reflexivity] | apply IH; reflexivity].
Qed.
Lemma prepare_shape count mcv cs l : prepare count mcv cs = Ok l -> analyzed l = [] /\ Forall (fun x => exists t c n, x = SetTarget t c n) l.
Proof.
  revert l. induction cs as [|c cs IH]; intros l H; cbn in H; [injection H as <-; split; [reflexivity | constructor]|].
  destruct (l_tab c) as [t|]; [|discriminate]. destruct (count (l_name c) t) as [n|]; [|discriminate]. cbn [rbind] in H. destruct (prepare count mcv cs) as [r|]; [|discriminate].
  cbn [rmap rbind] in H. injection H as <-. destruct (IH _ eq_refl) as [A F]. destruct mcv; [|split; assumption]. split; [exact A|]. constructor; [repeat eexists | exact F].
Qed.
Lemma analyzed_app a b : analyzed (a ++ b) = analyzed a ++ analyzed b.
Proof. apply flat_map_app. Qed.
Lemma analyzed_distinct (ds : dict col nat) (f g : col * nat -> nat) (h : col * nat -> nat) : analyzed (map (fun e => SetDistinct (f e) (g e) (h e)) ds) = [].
Proof. induction ds as [|e ds IH]; [reflexivity | exact IH]. Qed.
Lemma update_shape tables is_view columns_of count cols tabs mcv pd l :
  update_statistics tables is_view columns_of count cols tabs mcv pd = Ok l ->
  exists cs ps targets ds, choose_columns tables is_view columns_of cols tabs = Ok cs /\ Forall2 (fun c p => l_tab c = Some (fst p) /\ snd p = l_name c) cs ps
    /\ Forall (fun x => exists t c n, x = SetTarget t c n) targets /\ analyzed targets = []
    /\ (if pd then distincts count cs [] else Ok []) = Ok ds
    /\ l = targets ++ Analyze (map (fun e => (b_name (fst e), snd e)) (generate_multi ps))
             :: map (fun e => SetDistinct (match l_tab (fst e) with Some t => b_name t | None => 0 end) (l_name (fst e)) (snd e)) ds.
Proof.
  unfold update_statistics. intros H. destruct (choose_columns _ _ _ _ _) as [cs|]; [|discriminate]. cbn [rbind] in H.
  destruct (if mcv || pd then prepare count mcv cs else Ok []) as [targets|] eqn:P; [|discriminate]. cbn [rbind] in H.
  destruct (if pd then distincts count cs [] else Ok []) as [ds|] eqn:D; [|discriminate]. cbn [rbind] in H.
  destruct (rmapM bound cs) as [ps|] eqn:B; [|discriminate]. cbn [rbind] in H. injection H as <-.
  exists cs, ps, targets, ds. apply rmapM_bound in B.
  assert (T : analyzed targets = [] /\ Forall (fun x => exists t c n, x = SetTarget t c n) targets).
  { destruct (mcv || pd); [eapply prepare_shape; exact P|]. injection P as <-. split; [reflexivity | constructor]. }
  destruct T as [T1 T2]. repeat (split; [assumption || reflexivity|]). reflexivity.
Qed.
Lemma chosen tables is_view columns_of cols tabs cs : choose_columns tables is_view columns_of cols tabs = Ok cs ->
  forall t c, requested tables is_view columns_of cols tabs t c <-> exists k b, In k cs /\ l_tab k = Some b /\ b_name b = t /\ l_name k = c.
Proof.
  assert (SC : forall ts t c, (exists k b, In k (dedup (flat_map (schema_columns columns_of) ts)) /\ l_tab k = Some b /\ b_name b = t /\ l_name k = c)
     <-> exists b, In b ts /\ b_name b = t /\ In c (columns_of b)).
  { intros ts t c. split.
    - intros (k & b & K & T & N & L). rewrite dedup_In in K. apply in_flat_map in K as (b' & B & K). apply in_map_iff in K as (c' & <- & K). cbn in T, L. injection T as ->. subst c'.
      exists b. repeat split; assumption.
    - intros (b & B & N & C). exists (mkCol c (Some b)), b. split; [|repeat split; exact N]. rewrite dedup_In. apply in_flat_map. exists b. split; [exact B|].
      apply in_map_iff. exists c. split; [reflexivity | exact C]. }
  intros H t c. unfold choose_columns in H.
  assert (CASES : (exists x xs, cols = Some (x :: xs) /\ cs = x :: xs)
     \/ (given cols = [] /\ exists y ys, tabs = Some (y :: ys) /\ cs = dedup (flat_map (schema_columns columns_of) (y :: ys)))
     \/ (given cols = [] /\ given tabs = [] /\ cs = dedup (flat_map (schema_columns columns_of) (filter (fun t => negb (is_view t)) tables)))).
  { destruct cols as [[|x xs]|]; cbn [given] in H.
    - right. destruct tabs as [[|y ys]|]; cbn [given] in *.
      + right. split; [reflexivity|]. split; [reflexivity|]. destruct (filter _ tables); injection H as <-; reflexivity.
      + left. split; [reflexivity|]. exists y, ys. split; [reflexivity|]. injection H as <-. reflexivity.
      + right. split; [reflexivity|]. split; [reflexivity|]. destruct (filter _ tables); injection H as <-; reflexivity.
    - left. exists x, xs. split; [reflexivity|]. injection H as <-. reflexivity.
    - right. destruct tabs as [[|y ys]|]; cbn [given] in *.
      + right. split; [reflexivity|]. split; [reflexivity|]. destruct (filter _ tables); [discriminate|]. injection H as <-. reflexivity.
      + left. split; [reflexivity|]. exists y, ys. split; [reflexivity|]. injection H as <-. reflexivity.
      + right. split; [reflexivity|]. split; [reflexivity|]. destruct (filter _ tables); [discriminate|]. injection H as <-. reflexivity. }
  destruct CASES as [(x & xs & -> & ->)|[(G & y & ys & -> & ->)|(G & G' & ->)]].
  - reflexivity.
  - rewrite SC. destruct cols as [[|x xs]|]; try discriminate; reflexivity.
  - rewrite SC. assert (R : requested tables is_view columns_of cols tabs t c <-> exists b, In b tables /\ is_view b = false /\ b_name b = t /\ In c (columns_of b)).
    { destruct cols as [[|? ?]|]; try discriminate; destruct tabs as [[|? ?]|]; try discriminate; reflexivity. }
    rewrite R. split; intros (b & B); exists b; rewrite filter_In in *; [destruct B as (B1 & B2 & B3 & B4); rewrite B2; repeat split; assumption|].
    destruct B as ((B1 & B2) & B3 & B4). repeat split; try assumption. apply negb_true_iff. exact B2.
Qed.
Lemma Forall2_In_l {A B} (R : A -> B -> Prop) l m : Forall2 R l m -> forall x, In x l -> exists y, In y m /\ R x y.
Proof. induction 1 as [|a b l m H F IH]; intros x []; [subst; exists b; split; [left; reflexivity | exact H]|]. destruct (IH x H0) as (y & Y & E). exists y. split; [right; exact Y | exact E]. Qed.
Lemma Forall2_In_r {A B} (R : A -> B -> Prop) l m : Forall2 R l m -> forall y, In y m -> exists x, In x l /\ R x y.
Proof. induction 1 as [|a b l m H F IH]; intros y []; [subst; exists a; split; [left; reflexivity | exact H]|]. destruct (IH y H0) as (x & X & E). exists x. split; [right; exact X | exact E]. Qed.

(* One ANALYZE is sent, for exactly the columns asked for. *)
Theorem C271_columns : forall tables is_view columns_of count cols tabs mcv pd l,
  update_statistics tables is_view columns_of count cols tabs mcv pd = Ok l ->
  exists a, analyzed l = [a] /\ forall t c, (exists cs, In (t, cs) a /\ In c cs) <-> requested tables is_view columns_of cols tabs t c.
Proof.
  intros tables is_view columns_of count cols tabs mcv pd l H.
  destruct (update_shape _ _ _ _ _ _ _ _ _ H) as (cs & ps & targets & ds & CH & F & T & AT & _ & ->).
  eexists. split; [rewrite analyzed_app, AT; cbn [app]; cbn [analyzed flat_map]; fold (analyzed (map (fun e : col * nat => SetDistinct (match l_tab (fst e) with Some t => b_name t | None => 0 end) (l_name (fst e)) (snd e)) ds)); rewrite analyzed_distinct; reflexivity|].
  intros t c. rewrite (chosen _ _ _ _ _ _ CH). split.
  - intros (vs & V & C). apply in_map_iff in V as ([b ws] & E & V). cbn in E. injection E as <- <-. apply multi_In in V as [-> _].
    apply in_map_iff in C as (p & <- & P). apply filter_In in P as [P D]. apply deqb_true in D as ->. destruct (Forall2_In_r _ _ _ F _ P) as (k & K & L & N).
    exists k, (fst p). repeat split; auto.
  - intros (k & b & K & L & <- & <-). destruct (Forall2_In_l _ _ _ F _ K) as (p & P & L' & N). assert (fst p = b) by congruence.
    exists (map snd (filter (fun e => deqb b (fst e)) ps)). assert (IC : In (l_name k) (map snd (filter (fun e => deqb b (fst e)) ps))).
    { apply in_map_iff. exists p. split; [exact N|]. apply filter_In. split; [exact P|]. rewrite H0. apply deqb_refl. }
    split; [|exact IC]. apply in_map_iff. exists (b, map snd (filter (fun e => deqb b (fst e)) ps)). split; [reflexivity|]. apply multi_In. split; [reflexivity|]. intros E. rewrite E in IC. contradiction.
Qed.
Print Assumptions C271_columns.

Lemma has_dup_NoDup l : has_dup l = false <-> NoDup l.
Proof.
  induction l as [|x l IH]; cbn; [split; [constructor | reflexivity]|]. rewrite orb_false_iff, IH. split.
  - intros [E N]. constructor; [|exact N]. intros I0. apply not_true_iff_false in E. apply E. apply existsb_exists. exists x. split; [exact I0 | apply Nat.eqb_refl].
  - intros N. inversion N; subst. split; [|assumption]. apply not_true_iff_false. intros E. apply existsb_exists in E as (y & Y & E). apply Nat.eqb_eq in E. subst. contradiction.
Qed.
Lemma chosen_NoDup tables is_view columns_of cols tabs cs : NoDup (given cols) -> choose_columns tables is_view columns_of cols tabs = Ok cs -> NoDup cs.
Proof.
  intros N H. unfold choose_columns in H. destruct (given cols) as [|x xs] eqn:G; [|injection H as <-; exact N].
  destruct (match given tabs with [] => _ | _ => _ end) as [|b bs]; [|injection H as <-; apply dedup_NoDup].
  destruct cols as [l|]; [|discriminate]. injection H as <-. cbn in G. subst l. constructor.
Qed.
Lemma multi_names cs ps : NoDup cs -> Forall2 (fun c p => l_tab c = Some (fst p) /\ snd p = l_name c) cs ps ->
  forall b, NoDup (map snd (filter (fun e => deqb b (fst e)) ps)).
Proof.
  intros N F b. induction F as [|c [t n] cs ps [L E] F IH]; [constructor|]. inversion N as [|? ? NI ND]; subst. cbn [filter fst]. destruct (deqb b t) eqn:D; [|apply IH; exact ND].
  cbn [map snd]. constructor; [|apply IH; exact ND]. intros I0. apply in_map_iff in I0 as ([t' n'] & E' & I0). apply filter_In in I0 as [I0 D']. apply deqb_true in D, D'. cbn in *. subst.
  destruct (Forall2_In_r _ _ _ F _ I0) as (k & K & L' & N'). cbn in *. apply NI. replace c with k; [exact K|]. destruct c, k. cbn in *. congruence.
Qed.
Lemma serve_targets est s targets r : Forall (fun x => exists t c n, x = SetTarget t c n) targets -> serve_all est s (targets ++ r) = serve_all est s r.
Proof. induction 1 as [|x l (t & c & n & ->) F IH]; [reflexivity | exact IH]. Qed.
Lemma serve_fixed est ds : forall s, exists s', serve_all est s (map (fun e : col * nat => SetDistinct (match l_tab (fst e) with Some t => b_name t | None => 0 end) (l_name (fst e)) (snd e)) ds) = Some s' /\ known s' = known s.
Proof. induction ds as [|e ds IH]; intros s; [exists s; split; reflexivity|]. cbn [map serve_all serve]. destruct (IH (mkServer (put (fixed s) (match l_tab (fst e) with Some t => b_name t | None => 0 end) (l_name (fst e)) (snd e)) (known s))) as (s' & E & K). exists s'. split; [exact E | exact K]. Qed.
(* Columns that are given once are accepted by the server. *)
Theorem C271_accepted_partial : forall est tables is_view columns_of count cols tabs mcv pd l s, NoDup (given cols) ->
  update_statistics tables is_view columns_of count cols tabs mcv pd = Ok l -> exists s', serve_all est s l = Some s'.
Proof.
  intros est tables is_view columns_of count cols tabs mcv pd l s N H.
  destruct (update_shape _ _ _ _ _ _ _ _ _ H) as (cs & ps & targets & ds & CH & F & T & _ & _ & ->). apply (chosen_NoDup _ _ _ _ _ _ N) in CH.
  rewrite (serve_targets est s targets _ T). cbn [serve_all serve].
  replace (existsb _ _) with false.
  - destruct (serve_fixed est ds (fold_left (fun s e => fold_left (analyze_column est (fst e)) (snd e) s) (map (fun e => (b_name (fst e), snd e)) (generate_multi ps)) s)) as (s' & E & _). exists s'. exact E.
  - symmetry. apply not_true_iff_false. intros E. apply existsb_exists in E as (x & X & E). apply in_map_iff in X as ([b vs] & <- & X). cbn in E. apply multi_In in X as [-> _].
    apply not_false_iff_true in E. apply E. apply has_dup_NoDup. eapply multi_names; [exact CH | exact F].
Qed.
Print Assumptions C271_accepted_partial.
Theorem C271_duplicates_refuted : ~ forall est tables is_view columns_of count cols tabs mcv pd l s,
  update_statistics tables is_view columns_of count cols tabs mcv pd = Ok l -> exists s', serve_all est s l = Some s'.
Proof.
  intros H. destruct (H (fun _ _ => 0) [] (fun _ => false) (fun _ => []) (fun _ _ => Ok 3) (Some [mkCol 1 (Some (mkTab 5 None None false)); mkCol 1 (Some (mkTab 5 None None false))]) None false false _
     (mkServer (fun _ _ => 0) (fun _ _ => None)) eq_refl) as [s' E]. discriminate.
Qed.
Print Assumptions C271_duplicates_refuted.

(** *** the perfect number of distinct values *)
Lemma analyze_columns est t cs : forall s, fixed (fold_left (analyze_column est t) cs s) = fixed s
  /\ forall t' c, known (fold_left (analyze_column est t) cs s) t' c = if (t' =? t) && existsb (Nat.eqb c) cs then Some (if fixed s t' c =? 0 then est t' c else fixed s t' c) else known s t' c.
Proof.
  induction cs as [|x cs IH]; intros s; cbn [fold_left existsb]; [split; [reflexivity|]; intros; rewrite andb_false_r; reflexivity|].
  destruct (IH (analyze_column est t s x)) as [F K]. split; [rewrite F; reflexivity|]. intros t' c. rewrite K. cbn [analyze_column fixed known]. unfold put.
  destruct (Nat.eqb_spec t' t); [subst|reflexivity]. cbn [andb]. destruct (existsb (Nat.eqb c) cs); [rewrite orb_true_r; reflexivity|]. rewrite orb_false_r.
  destruct (Nat.eqb_spec c x); [subst|]; reflexivity.
Qed.
Definition listed (a : list (nat * list nat)) (t c : nat) : bool := existsb (fun e => (t =? fst e) && existsb (Nat.eqb c) (snd e)) a.
Lemma analyze_tables est a : forall s, let s' := fold_left (fun s e => fold_left (analyze_column est (fst e)) (snd e) s) a s in fixed s' = fixed s
  /\ forall t c, known s' t c = if listed a t c then Some (if fixed s t c =? 0 then est t c else fixed s t c) else known s t c.
Proof.
  induction a as [|[t0 cs] a IH]; intros s; cbn [fold_left listed existsb fst snd]; [split; reflexivity|].
  destruct (analyze_columns est t0 cs s) as [F K]. destruct (IH (fold_left (analyze_column est t0) cs s)) as [F' K']. cbv zeta in *. split; [rewrite F'; exact F|].
  intros t c. rewrite K', F, K. unfold listed. destruct (existsb (fun e => _) a); [rewrite orb_true_r; reflexivity|]. rewrite orb_false_r. reflexivity.
Qed.
Lemma listed_spec a t c : listed a t c = true <-> exists cs, In (t, cs) a /\ In c cs.
Proof.
  unfold listed. rewrite existsb_exists. split.
  - intros ([t0 cs] & I0 & E). cbn in E. apply andb_true_iff in E as [E1 E2]. apply Nat.eqb_eq in E1 as <-. apply existsb_exists in E2 as (x & X & E). apply Nat.eqb_eq in E as <-. exists cs. split; assumption.
  - intros (cs & I0 & C). exists (t, cs). split; [exact I0|]. cbn. rewrite Nat.eqb_refl. apply existsb_exists. exists c. split; [exact C | apply Nat.eqb_refl].
Qed.
Section Truth.
  Context (truth : nat -> nat -> nat) (count : nat -> tab -> res nat) (TR : forall c t, count c t = Ok (truth (b_name t) c)).
  Definition rows_true (ds : dict col nat) := forall k n, In (k, n) ds -> exists b, l_tab k = Some b /\ n = truth (b_name b) (l_name k).
  Lemma distincts_true cs : forall d ds, rows_true d -> dwf d -> distincts count cs d = Ok ds -> rows_true ds /\ dwf ds /\ forall k, In k (dkeys ds) <-> In k cs \/ In k (dkeys d).
  Proof.
    induction cs as [|c cs IH]; intros d ds R W H; cbn in H; [injection H as <-; split; [exact R | split; [exact W | intros k; cbn; tauto]]|].
    destruct (l_tab c) as [t|] eqn:L; [|discriminate]. rewrite TR in H. cbn [rbind] in H. apply IH in H.
    - destruct H as (H1 & H2 & H3). split; [exact H1|]. split; [exact H2|]. intros k. rewrite H3, dkeys_dset. cbn. intuition congruence.
    - intros k n I0. apply (dget_iff _ _ _ (dwf_dset _ _ _ W)) in I0. rewrite dset_spec in I0. destruct (eqd k c) as [->|]; [injection I0 as <-; exists t; split; [exact L | reflexivity]|]. apply dget_In in I0. apply R. exact I0.
    - apply dwf_dset. exact W.
  Qed.
  Lemma serve_fixed_values est ds : rows_true ds -> forall s s', serve_all est s (map (fun e : col * nat => SetDistinct (match l_tab (fst e) with Some t => b_name t | None => 0 end) (l_name (fst e)) (snd e)) ds) = Some s' ->
    known s' = known s /\ (forall t c, fixed s' t c = fixed s t c \/ fixed s' t c = truth t c) /\ forall k b, In k (dkeys ds) -> l_tab k = Some b -> fixed s' (b_name b) (l_name k) = truth (b_name b) (l_name k).
  Proof.
    intros R. induction ds as [|[k n] ds IH]; intros s s' H; [injection H as <-; split; [reflexivity | split; [left; reflexivity | contradiction]]|].
    cbn [map serve_all serve fst snd] in H. destruct (R k n (or_introl eq_refl)) as (b & L & ->). rewrite L in H.
    assert (R' : rows_true ds) by (intros k' n' I0; apply R; right; exact I0). destruct (IH R' _ _ H) as (K & A & B). cbn [known fixed] in K, A. split; [exact K|]. split.
    - intros t c. destruct (A t c) as [E|E]; [|right; exact E]. unfold put in E. destruct (Nat.eqb_spec t (b_name b)); [|left; exact E]. destruct (Nat.eqb_spec c (l_name k)); [|left; exact E]. subst. right. exact E.
    - intros k' b' [<-|I0] L'; [|apply B; assumption]. cbn [fst] in L' |- *. assert (b' = b) by congruence. subst b'. destruct (A (b_name b) (l_name k)) as [E|E]; [|exact E]. rewrite E. unfold put. rewrite !Nat.eqb_refl. reflexivity.
  Qed.
End Truth.
(* After the first call ANALYZE has used the estimate; after the second one the true number is known. *)
Theorem C271_distinct_partial : forall est truth count tables is_view columns_of cols tabs mcv l s s1 s2,
  (forall c t, count c t = Ok (truth (b_name t) c)) ->
  update_statistics tables is_view columns_of count cols tabs mcv true = Ok l -> serve_all est s l = Some s1 -> serve_all est s1 l = Some s2 ->
  forall t c, requested tables is_view columns_of cols tabs t c ->
    known s1 t c = Some (if fixed s t c =? 0 then est t c else fixed s t c)
    /\ fixed s1 t c = truth t c
    /\ (truth t c <> 0 -> known s2 t c = Some (truth t c)).
Proof.
  intros est truth count tables is_view columns_of cols tabs mcv l s s1 s2 TR H S1 S2 t c RQ.
  destruct (C271_columns _ _ _ _ _ _ _ _ _ H) as (a & A & AC).
  destruct (update_shape _ _ _ _ _ _ _ _ _ H) as (cs & ps & targets & ds & CH & F & T & AT & D & ->). cbv iota in D.
  rewrite analyzed_app, AT in A. cbn [app analyzed flat_map] in A. injection A as A _. subst a.
  assert (LI := proj2 (listed_spec _ t c) (proj2 (AC t c) RQ)).
  assert (DW : dwf ([] : dict col nat)) by constructor. assert (DR : rows_true truth []) by (intros ? ? []).
  destruct (distincts_true truth count TR cs [] ds DR DW D) as (R & W & DK).
  rewrite (serve_targets est s targets _ T) in S1. rewrite (serve_targets est s1 targets _ T) in S2. cbn [serve_all serve] in S1, S2.
  destruct (existsb _ _); [discriminate|].
  set (an := map (fun e => (b_name (fst e), snd e)) (generate_multi ps)) in *.
  destruct (analyze_tables est an s) as [F1 K1]. destruct (analyze_tables est an s1) as [F2 K2]. cbv zeta in *.
  destruct (serve_fixed_values truth est ds R _ _ S1) as (K1' & _ & B1). destruct (serve_fixed_values truth est ds R _ _ S2) as (K2' & _ & B2).
  apply (chosen _ _ _ _ _ _ CH) in RQ as (k & b & K & L & <- & <-).
  assert (FX : fixed s1 (b_name b) (l_name k) = truth (b_name b) (l_name k)) by (apply B1; [apply DK; left; exact K | exact L]).
  split; [rewrite K1', K1, LI; reflexivity|]. split; [exact FX|]. intros NZ. rewrite K2', K2, LI, FX. destruct (Nat.eqb_spec (truth (b_name b) (l_name k)) 0); [contradiction | reflexivity].
Qed.
Print Assumptions C271_distinct_partial.
Definition srv0 : server := mkServer (fun _ _ => 0) (fun _ _ => None).
Definition tA : tab := mkTab 5 None None false.
Theorem C271_distinct_refuted : ~ forall est truth count cols l s s',
  (forall c t, count c t = Ok (truth (b_name t) c)) -> update_statistics [] (fun _ => false) (fun _ => []) count (Some cols) None false true = Ok l -> serve_all est s l = Some s' ->
  forall t c, requested [] (fun _ => false) (fun _ => []) (Some cols) None t c -> known s' t c = Some (truth t c).
Proof.
  intros H. specialize (H (fun _ _ => 10) (fun _ _ => 12) (fun _ _ => Ok 12) [mkCol 1 (Some tA)] _ srv0 _ (fun _ _ => eq_refl) eq_refl eq_refl 5 1).
  cbn in H. discriminate H. exists (mkCol 1 (Some tA)), tA. repeat split. left. reflexivity.
Qed.
Print Assumptions C271_distinct_refuted.
Example C271_ex : update_statistics [tA; mkTab 6 None None false; mkTab 7 None None false] (fun t => b_name t =? 6) (fun t => [b_name t; 1]) (fun c t => Ok (c + 10)) None None true true
  = Ok [SetTarget 5 5 15; SetTarget 5 1 11; SetTarget 7 7 17; SetTarget 7 1 11; Analyze [(5, [5; 1]); (7, [7; 1])]; SetDistinct 5 5 15; SetDistinct 5 1 11; SetDistinct 7 7 17; SetDistinct 7 1 11].
Proof. reflexivity. Qed.

(** ** C272: the buffer pool *)
Lemma relations_spec idx names ex p q r : In r (relations idx names ex p q) <->
  (ex = false /\ In r names) \/ exists n b, In n names /\ In (r, b) (idx n) /\ (if b then p else q) = true.
Proof.
  unfold relations. rewrite dedup_In.
  assert (C : In r (if p || q then map fst (filter (fun e => (snd e && p) || (negb (snd e) && q)) (flat_map idx names)) else [])
    <-> exists n b, In n names /\ In (r, b) (idx n) /\ (if b then p else q) = true).
  { split.
    - destruct (p || q); [|contradiction]. intros H. apply in_map_iff in H as ([r' b] & <- & H). apply filter_In in H as [H E]. apply in_flat_map in H as (n & N & H). exists n, b. split; [exact N|]. split; [exact H|].
      cbn in E. destruct b; cbn in E; rewrite ?orb_false_r in E; exact E.
    - intros (n & b & N & H & E). replace (p || q) with true by (destruct b, p, q; try discriminate; reflexivity). apply in_map_iff. exists (r, b). split; [reflexivity|]. apply filter_In. split; [apply in_flat_map; exists n; split; assumption|].
      cbn. destruct b; rewrite E; [reflexivity | apply orb_true_r]. }
  destruct ex; [|rewrite in_app_iff]; rewrite C; intuition congruence.
Qed.
Theorem C272_prewarm : forall idx ts ex p q, exists o, prewarm true idx ts ex p q = Ok o /\ prewarm false idx ts ex p q = Raise StateError
  /\ (o = None -> forall r, ~ meant idx ts ex p q r)
  /\ (forall l, o = Some l -> l <> [] /\ NoDup l /\ forall r, In r l <-> meant idx ts ex p q r).
Proof.
  intros idx ts ex p q.
  assert (M : forall r, In r (relations idx (dedup (map b_name (filter (fun t => negb (b_virtual t)) ts))) ex p q) <-> meant idx ts ex p q r).
  { intros r. rewrite relations_spec. unfold meant.
    assert (N : forall n, In n (dedup (map b_name (filter (fun t => negb (b_virtual t)) ts))) <-> exists t, In t ts /\ b_virtual t = false /\ n = b_name t).
    { intros n. rewrite dedup_In, in_map_iff. split; [intros (t & <- & H); apply filter_In in H as [H E]; apply negb_true_iff in E; exists t; repeat split; assumption|].
      intros (t & H & E & ->). exists t. split; [reflexivity|]. apply filter_In. rewrite E. split; [exact H | reflexivity]. }
    split.
    - intros [[E H]|(n & b & H & I0 & B)]; apply N in H as (t & T & V & ->); exists t; (split; [exact T|]; split; [exact V|]); [left; split; [exact E | reflexivity] | right; exists b; split; assumption].
    - intros (t & T & V & [[E ->]|(b & I0 & B)]); [left; split; [exact E|]; apply N; exists t; repeat split; assumption | right; exists (b_name t), b; split; [apply N; exists t; repeat split; assumption | split; assumption]]. }
  unfold prewarm. cbn [negb]. destruct ts as [|t0 ts0] eqn:TS.
  - exists None. split; [reflexivity|]. split; [reflexivity|]. split; [intros _ r (t & [] & _) | discriminate].
  - rewrite <- TS in *. assert (ND : NoDup (relations idx (dedup (map b_name (filter (fun t => negb (b_virtual t)) ts))) ex p q)) by (unfold relations; apply dedup_NoDup).
    destruct (relations _ _ _ _ _) as [|x l] eqn:RL.
    + exists None. repeat (split; [reflexivity|]). split; [intros _ r H; apply M in H; contradiction | discriminate].
    + exists (Some (x :: l)). repeat (split; [reflexivity|]). split; [discriminate|]. intros l' [= <-]. split; [discriminate|]. split; [exact ND | exact M].
Qed.
Print Assumptions C272_prewarm.
Theorem C272_cooldown_partial : forall ext idx ts ex p q, (forall t, In t ts -> b_virtual t = false) -> cooldown ext idx ts ex p q = prewarm ext idx ts ex p q.
Proof.
  intros ext idx ts ex p q H. unfold cooldown, prewarm. destruct ext; [|reflexivity]. cbn [negb]. destruct ts as [|t ts]; [reflexivity|].
  replace (filter (fun t => negb (b_virtual t)) (t :: ts)) with (t :: ts); [reflexivity|]. symmetry. revert H. generalize (t :: ts). induction l as [|x l IH]; intros H; [reflexivity|].
  cbn. rewrite (H x (or_introl eq_refl)). cbn. f_equal. apply IH. intros y Y. apply H. right. exact Y.
Qed.
Print Assumptions C272_cooldown_partial.
(* Virtual tables, e.g. of subqueries, are cooled down, too: there is no such relation. *)
Theorem C272_cooldown_refuted : ~ forall idx ts ex p q l, cooldown true idx ts ex p q = Ok (Some l) -> forall r, In r l -> meant idx ts ex p q r.
Proof.
  intros H. destruct (H (fun _ => []) [mkTab 9 None (Some 9) true] false true true [9] eq_refl 9 (or_introl eq_refl)) as (t & [<-|[]] & V & _). discriminate.
Qed.
Print Assumptions C272_cooldown_refuted.
Example C272_ex : prewarm true (fun n => if n =? 5 then [(50, true); (51, false)] else []) [tA; mkTab 9 None (Some 9) true; mkTab 6 None None false; mkTab 5 None (Some 2) false] false true false = Ok (Some [6; 5; 50])
  /\ prewarm true (fun _ => [(50, true)]) [tA] true false true = Ok None.
Proof. split; reflexivity. Qed.
