(** C99-C102: cardinality estimation. *)
From Coq Require Import List Bool Arith ZArith Lia.
From Verif Require Import PyBase Collections_model Collections_spec Collections_proofs FSet Pred_model Pred_spec Pred_proofs QPred_model QPred_spec QPred_proofs QPred2_proofs QPred3_proofs Pred_props QPred_props Card_model Card_proofs Hint_model Hint_proofs DP_proofs JT_model CEst_model CEst_spec CEst_proofs.
Import ListNotations.
Local Open Scope nat_scope.

(** ** C99: estimate_cardinalities asks for each intermediate exactly once and keeps exactly the valid estimates. *)
Theorem C99_all_intermediates (E : Type) (ecols : E -> list col) (tabs : list nat) (preds : option (list (pred E) * list nat)) (js : list (pred E)) :
  NoDup tabs -> exists l, generate_intermediates ecols tabs preds true = Ok l /\ NoDup l /\ forall s, In s l <-> intermediate ecols tabs js true s.
Proof.
  intros Hn. destruct (generate_with ecols tabs Hn preds true (fun _ => true) (fun _ => True)) as (l & A & B & C); [intros; split; [reflexivity|tauto]|auto|].
  exists l. split; [exact A|]. split; [exact B|]. intros s. rewrite C. unfold intermediate. firstorder.
Qed.
Print Assumptions C99_all_intermediates.
(** Without cross products.  Missing: queries with tables that no predicate mentions (false, see below). *)
Theorem C99_connected_intermediates_partial (E : Type) (ecols : E -> list col) (tabs : list nat) (js : list (pred E)) (root : list nat) :
  NoDup tabs -> (forall j, In j js -> jp_ok ecols j) -> incl tabs root ->
  exists l, generate_intermediates ecols tabs (Some (js, root)) false = Ok l /\ NoDup l /\ forall s, In s l <-> intermediate ecols tabs js false s.
Proof.
  intros Hn Hj Hr. destruct (generate_with ecols tabs Hn (Some (js, root)) false (fun j => match joins_tables ecols js root j with Ok b => b | Raise _ => false end) (tables_connected ecols js)) as (l & A & B & C).
  - intros j Hs Hne. cbn [query_joins]. destruct j as [|t [|u r]]; [congruence| |].
    + destruct (C09_singleton E ecols js root t) as (b & Eb & Hb). unfold Pred_model.tbl in *. rewrite Eb. split; [reflexivity|]. rewrite Hb. split; [intros _ x y [<-|[]] [<-|[]]; constructor; now left|]. intros _. apply Hr. apply (sublist_In [t] tabs t Hs). now left.
    + destruct (joins_tables_spec ecols js root (t :: u :: r) Hj) as (b & Eb & Hb); [cbn; lia|]. unfold Pred_model.tbl in *. rewrite Eb. split; [reflexivity|exact Hb].
  - intros a b Hab. apply connected_ext, Hab.
  - exists l. split; [exact A|]. split; [exact B|]. intros s. rewrite C. unfold intermediate. split.
    + intros (j & H1 & H2 & H3 & H4 & H5). exists j. do 4 (split; [assumption|]). now right.
    + intros (j & H1 & H2 & H3 & H4 & [H5|H5]); [discriminate|]. exists j. do 4 (split; [assumption|]). assumption.
Qed.
Print Assumptions C99_connected_intermediates_partial.
Example C99_intermediates_ex : NoDup [2; 0; 1] /\ (forall j, In j [exj1; exj3] -> jp_ok xcols j) /\ incl [2; 0; 1] [0; 1; 2]
  /\ generate_intermediates xcols [2; 0; 1] (Some ([exj1; exj3], [0; 1; 2])) false = Ok [[2]; [0]; [1]; [1; 2]; [0; 1]; [0; 1; 2]].
Proof.
  split; [repeat constructor; cbn; intuition discriminate|]. split; [intros j [<-|[<-|[]]]; eexists; vm_compute; reflexivity|]. split; [intros x Hx; cbn in *; tauto|]. vm_compute. reflexivity.
Qed.
(** A table that no predicate mentions gets no estimate, and a query without predicates gets none at all. *)
Theorem C99_base_tables_refuted :
  (intermediate xcols [0; 1; 2] [exj1] false [2] /\ generate_intermediates xcols [0; 1; 2] (Some ([exj1], [0; 1])) false = Ok [[0]; [1]; [0; 1]])
  /\ (intermediate xcols [0] [] false [0] /\ generate_intermediates xcols [0] None false = Ok []).
Proof.
  split; (split; [|vm_compute; reflexivity]).
  - exists [2]. split; [discriminate|]. split; [intros x [<-|[]]; cbn; auto|]. split; [repeat constructor; auto|]. split; [reflexivity|]. right. intros x y [<-|[]] [<-|[]]. constructor. now left.
  - exists [0]. split; [discriminate|]. split; [intros x [<-|[]]; cbn; auto|]. split; [repeat constructor; auto|]. split; [reflexivity|]. right. intros x y [<-|[]] [<-|[]]. constructor. now left.
Qed.
Print Assumptions C99_base_tables_refuted.

(** The parameterization has the estimates of the intermediates that are known, and nothing else. *)
Theorem C99_estimates (E W : Type) (ecols : E -> list col) (tabs : list nat) (preds : option (list (pred E) * list nat)) (cross : bool) (est : fs -> res card) (l : list fs) :
  generate_intermediates ecols tabs preds cross = Ok l -> (forall s, In s l -> exists c f, est s = Ok c /\ cget c = Ok f) ->
  exists p : pparams card W, estimate_cardinalities ecols tabs preds est cross = Ok p /\ pp_workers p = [] /\ pp_settings p = [] /\ pp_mode p = None /\
    forall s c, dget (pp_cards p) s = Some c <-> In s l /\ est s = Ok c /\ c <> CNan.
Proof.
  intros Hg He. unfold estimate_cardinalities. rewrite Hg. cbn [rbind].
  destruct (@add_ok W est l) with (p := @empty_params W) as (p & -> & A & B & C & D).
  { intros j Hj. split; [|now apply He]. unfold generate_intermediates in Hg. destruct (filterR _ _) as [k|]; [|discriminate]. injection Hg as <-. apply in_map_iff in Hj as (x & <- & _). apply mkfs_mkfs. }
  exists p. repeat (split; [assumption || reflexivity|]). intros s c. rewrite D. destruct (mem s l) eqn:M.
  - apply mem_In in M. destruct (He s M) as (c' & f & -> & _). cbn. destruct c'; (split; [intros H; try discriminate; injection H as <-; repeat split; auto; discriminate|]); intros (_ & [= <-] & Hc); congruence.
  - cbn. split; [discriminate|]. intros (Hs & _). apply mem_In in Hs. congruence.
Qed.
Print Assumptions C99_estimates.
(** With a join order: the estimates for its nodes. *)
Theorem C99_join_order (E W A : Type) (ecols : E -> list col) (tabs : list nat) (preds : option (list (pred E) * list nat)) (cross : bool) (est : fs -> res card) (t : jt nat A) :
  (forall s, exists c f, est s = Ok c /\ cget c = Ok f) ->
  exists p : pparams card W, generate_plan_parameters ecols tabs preds est cross (Some t) = Ok p /\
    forall s c, dget (pp_cards p) s = Some c <-> (exists n, In n (jt_iternodes t) /\ s = mkfs (jt_tables n)) /\ est s = Ok c /\ c <> CNan.
Proof.
  intros He. cbn [generate_plan_parameters]. destruct (@add_ok W est (map (fun n => mkfs (jt_tables n)) (jt_iternodes t))) with (p := @empty_params W) as (p & -> & _ & _ & _ & D).
  { intros j Hj. split; [|apply He]. apply in_map_iff in Hj as (x & <- & _). apply mkfs_mkfs. }
  exists p. split; [reflexivity|]. intros s c. rewrite D. destruct (mem s _) eqn:M.
  - apply mem_In, in_map_iff in M as (n & Hs & Hn). destruct (He s) as (c' & f & -> & _). cbn. split; [intros H|intros (_ & [= <-] & Hc); destruct c'; congruence].
    split; [exists n; auto|]. destruct c'; try discriminate; injection H as <-; split; congruence.
  - cbn. split; [discriminate|]. intros ((n & Hn & ->) & _). apply mem_nIn in M. exfalso. apply M. apply in_map_iff. eauto.
Qed.
Print Assumptions C99_join_order.
Example C99_estimates_ex : let est := fun s : fs => Ok (match s with [1] => CNan | _ => CVal (Z.of_nat (length s)) end) in
  exists p, estimate_cardinalities (W := nat) xcols [2; 0; 1] (Some ([exj1; exj3], [0; 1; 2])) est false = Ok p
    /\ pp_cards p = [([2], CVal 1); ([0], CVal 1); ([1; 2], CVal 2); ([0; 1], CVal 2); ([0; 1; 2], CVal 3)].
Proof. eexists. split; vm_compute; reflexivity. Qed.

(** ** C100: PreciseCardinalities returns the number of tuples of the intermediate in the current database. *)
Theorem C100_count_partial (Row : Type) (f : fragment Row) :
  f_group f = None -> f_having f = None -> f_order f = false -> f_offset f = 0 -> f_limit f <> Some 0 -> precise f = Ok (CVal (Z.of_nat (length (f_rows f)))).
Proof.
  intros A B C D F. unfold precise, count_rows, groups. rewrite A, B, C, D. cbn. destruct (f_limit f) as [[|n]|]; [congruence|destruct n; reflexivity|reflexivity].
Qed.
Print Assumptions C100_count_partial.
Example C100_count_ex : precise (Frag [5; 6; 5] None None false (Some 10) 0) = Ok (CVal 3).
Proof. reflexivity. Qed.
(** GROUP BY with two groups: an exception; with HAVING that keeps one of them: the size of that group; ORDER BY and LIMIT 0: exceptions. *)
Theorem C100_clauses_refuted : let rows := [5; 6; 5] in let key := Some (fun x : nat => x) in
  precise (Frag rows key None false None 0) = Raise TypeError
  /\ precise (Frag rows key (Some (fun g => 1 <? length g)) false None 0) = Ok (CVal 2)
  /\ precise (Frag rows None None true None 0) = Raise OtherError
  /\ precise (Frag rows None None false (Some 0) 0) = Raise TypeError.
Proof. repeat split. Qed.
Print Assumptions C100_clauses_refuted.
(** The cache: right if it is reset after each change of the database. *)
Theorem C100_current_partial (Q D : Type) (EQ : EqD Q) (count : D -> Q -> res card) (enabled : bool) (d : D) (l : list command) :
  reset_after_change false l -> session count enabled [] d l = current count d l.
Proof. intros H. apply (session_ok count enabled l false); [exact H|discriminate]. Qed.
Print Assumptions C100_current_partial.
Example C100_current_ex : let l := [Estimate 0; Estimate 0; Change 7; ResetCache; Estimate 0] in
  reset_after_change false l /\ session (fun d q => Ok (CVal (Z.of_nat (d + q)))) true [] 3 l = [Ok (CVal 3); Ok (CVal 3); Ok (CVal 7)].
Proof. split; [cbn; auto|reflexivity]. Qed.
(** In any case the answer has been right at some time. *)
Theorem C100_outdated (Q D : Type) (EQ : EqD Q) (count : D -> Q -> res card) (enabled : bool) (d : D) (l : list command) :
  Forall (fun '(q, r) => exists d', In d' (d :: flat_map (fun x => match x with Change d' => [d'] | _ => [] end) l) /\ count d' q = r)
    (combine (flat_map (fun x : command => match x with Estimate q => [q] | _ => [] end) l) (session count enabled [] d l)).
Proof. apply (session_past count enabled l [] d [d]); [now left|discriminate]. Qed.
Print Assumptions C100_outdated.
(** enable_cache = False does not disable the cache. *)
Theorem C100_disabled_cache_refuted : exists (count : nat -> nat -> res card) d l, session count false [] d l <> current count d l.
Proof. exists (fun d _ => Ok (CVal (Z.of_nat d))), 3, [Estimate 0; Change 7; Estimate 0]. vm_compute. discriminate. Qed.
Print Assumptions C100_disabled_cache_refuted.

(** ** C101: PreComputedCardinalities returns the stored cardinality, or the fallback. *)
Theorem C101_lookup (t : table) default live sty save err ask (label : nat) (tables : list nat) (c : card) :
  one_each t -> lookup t label (mkfs tables) = Some c ->
  exists st, open_store (as_file t) = Ok st /\ pre_estimate default live sty save err ask st label tables = Ok (c, st).
Proof.
  intros H1 H2. unfold open_store. rewrite read_file. eexists. split; [reflexivity|]. unfold pre_estimate. cbn [st_df]. now rewrite lookup_filter, H2.
Qed.
Print Assumptions C101_lookup.
Theorem C101_default (t : table) default live sty save err ask (label : nat) (tables : list nat) :
  one_each t -> lookup t label (mkfs tables) = None ->
  exists st, open_store (as_file t) = Ok st /\ pre_estimate (Some default) live sty save err ask st label tables = Ok (default, st).
Proof.
  intros H1 H2. unfold open_store. rewrite read_file. eexists. split; [reflexivity|]. unfold pre_estimate. cbn [st_df]. now rewrite lookup_filter, H2.
Qed.
Print Assumptions C101_default.
(** The database is asked in the requested way; nothing is stored unless this is wanted. *)
Theorem C101_live (t : table) (actual save err : bool) ask (label : nat) (tables : list nat) (c : card) :
  one_each t -> lookup t label (mkfs tables) = None -> ask actual label (mkfs tables) = Some (Ok c) ->
  exists st st', open_store (as_file t) = Ok st /\ pre_estimate None true (if actual then SActual else SEstimated) save err ask st label tables = Ok (c, st') /\
    st_asked st' = S (st_asked st) /\ (save = false -> st_df st' = st_df st /\ st_file st' = as_file t).
Proof.
  intros H1 H2 H3. unfold open_store. rewrite read_file. do 2 eexists. split; [reflexivity|]. unfold pre_estimate. cbn [st_df]. rewrite lookup_filter, H2 by exact H1. cbn [fallback negb].
  destruct actual; rewrite H3; cbn [rbind]; (split; [reflexivity|]); destruct save; (split; [reflexivity|]); try discriminate; auto.
Qed.
Print Assumptions C101_live.
(** The same intermediate of another query, and other intermediates of the same query, do not matter. *)
Example C101_ex : let t := [(1, [1; 2], CVal 70); (1, [1], CVal 7); (2, [1; 2], CVal 9)] in
  one_each t /\ lookup t 1 (mkfs [2; 1]) = Some (CVal 70) /\ lookup t 2 (mkfs [1]) = None.
Proof. split; [|split; reflexivity]. unfold one_each. cbn. repeat constructor; cbn; intuition discriminate. Qed.
(** error_on_missing_card has no effect: missing cardinalities are never reported. *)
Theorem C101_missing_refuted (t : table) (sty : style) (save err : bool) ask (label : nat) (tables : list nat) :
  one_each t -> lookup t label (mkfs tables) = None ->
  exists st, open_store (as_file t) = Ok st /\ pre_estimate None false sty save err ask st label tables = Ok (CNan, st).
Proof.
  intros H1 H2. unfold open_store. rewrite read_file. eexists. split; [reflexivity|]. unfold pre_estimate. cbn [st_df]. now rewrite lookup_filter, H2.
Qed.
Print Assumptions C101_missing_refuted.
(** A stored result of the fallback is not found again: the database is asked each time, and the file gets a row each time. *)
Theorem C101_saved_twice_refuted : let ask := fun _ _ _ => Some (Ok (CVal 5)) in
  exists st st' file, open_store [] = Ok st /\ pre_estimates None true SActual true true ask st [(1, [1; 2]); (1, [1; 2])] = Ok ([CVal 5; CVal 5], st')
    /\ st_asked st' = 2 /\ st_file st' = file /\ length file = 2
    /\ (exists st2, open_store file = Ok st2 /\ pre_estimate None true SActual true true ask st2 1 [1; 2] = Raise ValueError).
Proof. cbn. do 3 eexists. repeat (split; [reflexivity|]). eexists. split; reflexivity. Qed.
Print Assumptions C101_saved_twice_refuted.
(** If the file had any rows before, it cannot be read again. *)
Theorem C101_saved_file_refuted (t : table) (label : nat) (s : fs) (c : card) :
  t <> [] -> open_store (st_file (dump (Store (loaded t) (as_file t) 0) label s c)) = Raise ValueError.
Proof. destruct t as [|[[l s'] c'] t]; [congruence|]. intros _. reflexivity. Qed.
Print Assumptions C101_saved_file_refuted.
(** What works: a new file to which each result is added once. *)
Lemma estimates_saved ask : forall l df n, (forall x, In x df -> exists s, s_tabs x = CJson s) ->
  (forall label tables, In (label, tables) l -> exists c, ask true label (mkfs tables) = Some (Ok c)) ->
  exists cs st, pre_estimates None true SActual true true ask (Store df df n) l = Ok (cs, st) /\ st_df st = df ++ map (fun '(label, tables, c) => Sample label (CJson (mkfs tables)) c) (combine l cs)
    /\ st_file st = st_df st /\ Forall2 (fun '(label, tables) c => ask true label (mkfs tables) = Some (Ok c)) l cs.
Proof.
  assert (Hw : forall df, (forall x, In x df -> exists s, s_tabs x = CJson s) -> write_csv df = df).
  { induction df as [|x df IH]; intros H; cbn; [reflexivity|]. unfold write_csv in IH. rewrite IH by (intros y Hy; apply H; now right). destruct (H x (or_introl eq_refl)) as [s Hs]. destruct x as [a b c]. cbn in Hs. subst b. reflexivity. }
  induction l as [|[label tables] l IH]; intros df n Hd Ha; cbn [pre_estimates].
  - exists [], (Store df df n). cbn. rewrite app_nil_r. repeat split; auto.
  - destruct (Ha label tables (or_introl eq_refl)) as [c Hc]. unfold pre_estimate. cbn [st_df].
    assert (F : filter (matches label (mkfs tables)) df = []). { clear - Hd. induction df as [|x df IH]; cbn; [reflexivity|]. destruct (Hd x (or_introl eq_refl)) as [s Hs]. unfold matches at 1. rewrite Hs, andb_false_r. apply IH. intros y Hy; apply Hd; now right. }
    rewrite F. cbn [fallback negb]. rewrite Hc. cbn [rbind dump st_df st_file st_asked].
    assert (Hd2 : forall x, In x (df ++ [Sample label (CJson (mkfs tables)) c]) -> exists s, s_tabs x = CJson s) by (intros x Hx; apply in_app_or in Hx as [Hx|[<-|[]]]; [now apply Hd|cbn; eauto]).
    unfold dump. cbn [st_df]. rewrite (Hw _ Hd2). destruct (IH _ (S n) Hd2 (fun a b H => Ha a b (or_intror H))) as (cs & st & E1 & E2 & E3 & E4). cbn [st_asked]. rewrite E1. cbn [rbind].
    exists (c :: cs), st. split; [reflexivity|]. split; [rewrite E2, <- app_assoc; reflexivity|]. split; [exact E3|]. constructor; assumption.
Qed.
Theorem C101_saved_partial (ask : bool -> nat -> fs -> option (res card)) (l : list (nat * list nat)) :
  NoDup (map (fun x => (fst x, mkfs (snd x))) l) -> (forall label tables, In (label, tables) l -> exists c, ask true label (mkfs tables) = Some (Ok c)) ->
  exists st cs st', open_store [] = Ok st /\ pre_estimates None true SActual true true ask st l = Ok (cs, st') /\
    exists t, st_file st' = as_file t /\ one_each t /\ forall label tables c, In (label, tables) l -> ask true label (mkfs tables) = Some (Ok c) -> lookup t label (mkfs tables) = Some c.
Proof.
  intros Hn Ha. destruct (estimates_saved ask l [] 0 (fun x H => False_ind _ H) Ha) as (cs & st & E1 & E2 & E3 & E4). exists (Store [] [] 0), cs, st. split; [reflexivity|]. split; [exact E1|].
  exists (map (fun '(label, tables, c) => (label, mkfs tables, c)) (combine l cs)). rewrite E3, E2. cbn [app]. assert (L : length l = length cs) by (clear - E4; induction E4; cbn; congruence).
  assert (M : map fst (map (fun '(label, tables, c) => (label, mkfs tables, c)) (combine l cs)) = map (fun x => (fst x, mkfs (snd x))) l). { clear - L. revert cs L. induction l as [|[a b] l IH]; intros [|c cs] L; cbn in *; try discriminate; auto. f_equal. apply IH. congruence. }
  split; [unfold as_file; rewrite map_map; apply map_ext; now intros [[a b] c]|]. split; [unfold one_each; rewrite M; exact Hn|].
  intros label tables c Hi Hc. clear - Hi Hc E4. unfold lookup. induction E4 as [|[a b] c' l cs Hab E4 IH]; [destruct Hi|]. cbn [combine map find].
  destruct ((a =? label) && (if eqd (mkfs b) (mkfs tables) then true else false)) eqn:E.
  - apply andb_true_iff in E as [E1 E2]. apply Nat.eqb_eq in E1 as ->. destruct (eqd (mkfs b) (mkfs tables)) as [Hb|]; [|discriminate]. rewrite Hb, Hc in Hab. congruence.
  - apply IH. destruct Hi as [[= -> ->]|Hi]; [|exact Hi]. rewrite Nat.eqb_refl in E. destruct (eqd (mkfs tables) (mkfs tables)); [discriminate|congruence].
Qed.
Print Assumptions C101_saved_partial.
Example C101_saved_ex : NoDup (map (fun x => (fst x, mkfs (snd x))) [(1, [2; 1]); (1, [1]); (2, [1; 2])]).
Proof. cbn. repeat constructor; cbn; intuition discriminate. Qed.

(** ** C102: CardinalityDistortion.  The factor is [fnum m e / fden e]; for estimates and products below 2^53. *)
Theorem C102_fixed_partial (z m e lo hi : Z) rnd : (Z.abs z < 2 ^ 53 -> Z.abs (z * fnum m e) < 2 ^ 53 * fden e -> lo * fden e <= z * fnum m e <= hi * fden e ->
  exists c, distort Fixed (FFin m e) rnd (Ok (CVal z)) = Ok (CVal c) /\ lo <= c <= hi)%Z.
Proof. intros A B C. cbn [distort rbind is_valid negb]. now apply mul_between. Qed.
Print Assumptions C102_fixed_partial.
(** 1000 * 1.25 = 1250 *)
Example C102_fixed_ex : distort Fixed (FFin 5 (-2)) (fun a _ => a) (Ok (CVal 1000)) = Ok (CVal 1250).
Proof. vm_compute. reflexivity. Qed.
(** Random distortion stays between the estimate and the estimate times the factor; random.uniform(a, b) is taken to be between a and b. *)
Theorem C102_random_partial (z m e m' e' lo hi : Z) rnd : (0 <= z < 2 ^ 53 -> - 2 ^ 53 < lo -> hi < 2 ^ 53 ->
  rnd (fmin (FFin m e) fone) (fmax (FFin m e) fone) = FFin m' e' -> flt (FFin m' e') (fmin (FFin m e) fone) = false -> flt (fmax (FFin m e) fone) (FFin m' e') = false ->
  lo <= z <= hi -> lo * fden e <= z * fnum m e <= hi * fden e ->
  exists c, distort Random (FFin m e) rnd (Ok (CVal z)) = Ok (CVal c) /\ lo <= c <= hi)%Z.
Proof.
  intros Hz Hlo Hhi Hr H1 H2 Hb Hq. cbn [distort rbind is_valid negb]. rewrite Hr. pose proof (fden_pos e) as P. pose proof (fden_pos e') as P'.
  assert (HB : (lo * fden e' <= z * fnum m' e' <= hi * fden e')%Z).
  { unfold fmin, fmax in *. unfold flt in *. cbn [fone] in *. change (fnum 1 0) with 1%Z in *. change (fden 0) with 1%Z in *. set (n := fnum m e) in *. set (d := fden e) in *. set (n' := fnum m' e') in *. set (d' := fden e') in *. rewrite !Z.mul_1_l, !Z.mul_1_r in *.
    assert (K : ((d' <= n' /\ n' * d <= n * d') \/ (n' <= d' /\ n * d' <= n' * d))%Z).
    { destruct (Z.ltb_spec d n) as [L|L].
      - destruct (Z.ltb_spec n d); [lia|]. rewrite ?Z.mul_1_l, ?Z.mul_1_r in *. left. split; [apply Z.ltb_ge in H1; fold n' d' in H1; change (fnum 1 0) with 1%Z in H1; change (fden 0) with 1%Z in H1; lia|apply Z.ltb_ge in H2; exact H2].
      - destruct (Z.ltb_spec n d); apply Z.ltb_ge in H1, H2; fold n d n' d' in H1, H2; change (fnum 1 0) with 1%Z in *; change (fden 0) with 1%Z in *; right; (split; [|lia]); [lia|]. assert (n = d) by lia. nia. }
    destruct K as [[K1 K2]|[K1 K2]]; split.
    - transitivity (z * d')%Z; [apply Z.mul_le_mono_nonneg_r; lia|apply Z.mul_le_mono_nonneg_l; lia].
    - apply (Z.mul_le_mono_pos_r _ _ d P). transitivity (z * n * d')%Z; [|replace (hi * d' * d)%Z with (hi * d * d')%Z by ring; apply Z.mul_le_mono_nonneg_r; lia].
      replace (z * n' * d)%Z with (z * (n' * d))%Z by ring. replace (z * n * d')%Z with (z * (n * d'))%Z by ring. apply Z.mul_le_mono_nonneg_l; lia.
    - apply (Z.mul_le_mono_pos_r _ _ d P). transitivity (z * n * d')%Z; [replace (lo * d' * d)%Z with (lo * d * d')%Z by ring; apply Z.mul_le_mono_nonneg_r; lia|].
      replace (z * n' * d)%Z with (z * (n' * d))%Z by ring. replace (z * n * d')%Z with (z * (n * d'))%Z by ring. apply Z.mul_le_mono_nonneg_l; lia.
    - transitivity (z * d')%Z; [apply Z.mul_le_mono_nonneg_l; lia|apply Z.mul_le_mono_nonneg_r; lia]. }
  apply mul_between; [lia| |exact HB]. apply Z.abs_lt. split.
  - apply Z.lt_le_trans with (lo * fden e')%Z; [|lia]. rewrite <- Z.mul_opp_l. apply Z.mul_lt_mono_pos_r; lia.
  - apply Z.le_lt_trans with (hi * fden e')%Z; [lia|]. apply Z.mul_lt_mono_pos_r; lia.
Qed.
Print Assumptions C102_random_partial.
(** Factor 0.5 and a random value of 0.75. *)
Example C102_random_ex : let rnd := fun _ _ => FFin 3 (-2) in let f := FFin 1 (-1) in
  flt (rnd fone fone) (fmin f fone) = false /\ flt (fmax f fone) (rnd fone fone) = false /\ distort Random f rnd (Ok (CVal 100)) = Ok (CVal 75).
Proof. repeat split. Qed.
(** Unknown estimates stay unknown. *)
Theorem C102_unknown (s : strategy) f rnd : distort s f rnd (Ok CNan) = Ok CNan.
Proof. reflexivity. Qed.
Print Assumptions C102_unknown.
(** A factor of 1 is not always neutral: large estimates are rounded, infinite ones become unknown. *)
Theorem C102_neutral_refuted rnd : distort Fixed fone rnd (Ok (CVal (2 ^ 53 + 1))) = Ok (CVal (2 ^ 53)) /\ distort Fixed fone rnd (Ok CInf) = Ok CNan.
Proof. split; vm_compute; reflexivity. Qed.
Print Assumptions C102_neutral_refuted.
