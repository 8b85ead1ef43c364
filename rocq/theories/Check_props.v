(** Property theorems for C45 and C67 (pre-checks). *)
From Coq Require Import List Bool Arith Lia.
From Verif Require Import PyBase Pred_model Check_model Check_spec Check_proofs.
Import ListNotations.

(** C45: a compound check accepts a query if and only if all its parts do. *)
Theorem C45_compound_query : forall Q D (cs : list (check Q D)) q, passed (check_query (compound cs) q) = true <-> forall c, In c cs -> passed (check_query c q) = true.
Proof.
  intros Q D cs q. rewrite query_parts, compound_parts. split.
  - intros H c Hc. apply query_parts. intros a Ha. apply H, in_flat_map. eauto.
  - intros H a Ha. apply in_flat_map in Ha as (c & Hc & Ha). exact (proj1 (query_parts c q) (H c Hc) a Ha).
Qed.
Print Assumptions C45_compound_query.
(** C45: a failing compound check reports the reasons of all its failing atomic parts. *)
Theorem C45_compound_reasons : forall Q D (cs : list (check Q D)) q a s, In a (flat_map parts cs) -> passed (a_query a q) = false -> mentions_reason (a_query a q) s ->
  passed (check_query (compound cs) q) = false /\ mentions_reason (check_query (compound cs) q) s.
Proof.
  intros Q D cs q a s Ha Hp Hs. assert (Hf : passed (check_query (compound cs) q) = false).
  { destruct (passed (check_query (compound cs) q)) eqn:E; [|reflexivity]. rewrite (proj1 (query_parts _ q) E a Ha) in Hp. discriminate. }
  split; [assumption|]. exact (proj1 (query_reasons (compound cs) q s Hf) a Ha Hp Hs).
Qed.
Print Assumptions C45_compound_reasons.
(** C45 is false for database systems: a compound check accepts every database system. *)
Theorem C45_compound_db_refuted : let c := hint_check 1 1 (fun (_ : unit) f => f =? 7) [8] in
  passed (check_db (CAtom c : check unit unit) tt) = false /\ passed (check_db (compound [CAtom c; CAtom c]) tt) = true.
Proof. split; reflexivity. Qed.
Print Assumptions C45_compound_db_refuted.
(** C45: merged checks accept a query if and only if all of them do, provided that equal checks behave alike. *)
Theorem C45_merge_partial : forall Q D (cs : list (check Q D)) q,
  (forall a b, In a (flat_map parts cs) -> In b (flat_map parts cs) -> atom_eqb a b = true -> passed (a_query a q) = passed (a_query b q)) ->
  (passed (check_query (merge_checks cs) q) = true <-> forall c, In c cs -> passed (check_query c q) = true).
Proof.
  intros Q D cs q Heq. destruct (merge_parts cs) as [M1 M2]. rewrite query_parts. split.
  - intros H c Hc. apply query_parts. intros a Ha. destruct (M2 c a Hc Ha) as (b & Hb & E). destruct (M1 b Hb) as (d & Hd & Hbd).
    assert (Hab : atom_eqb a b = true). { destruct E as [E|(x & E1 & E2)]; [assumption|]. unfold atom_eqb in *. rewrite !andb_true_iff, !Nat.eqb_eq in *. intuition congruence. }
    rewrite (Heq a b); auto; apply in_flat_map; eauto.
  - intros H a Ha. destruct (M1 a Ha) as (c & Hc & Hac). exact (proj1 (query_parts c q) (H c Hc) a Hac).
Qed.
Print Assumptions C45_merge_partial.
(** C45 is false without that: two custom checks with the default name are one check, and so are two hint checks. *)
Theorem C45_merge_refuted :
  (exists a b : atom bool unit, passed (a_query b true) = false /\ passed (check_query (merge_checks [CAtom a; CAtom b]) true) = true) /\
  (exists f g : list nat, let h l := CAtom (hint_check 1 1 (fun (_ : unit) x => x =? 7) l) : check bool unit in
     passed (check_db (h g) tt) = false /\ passed (check_db (merge_checks [h f; h g]) tt) = true).
Proof.
  split.
  - exists (mkatom 2 3 0 (fun q => all_passed) (fun _ => all_passed)), (mkatom 2 3 0 (fun q => mkres (negb q) (RStr 5)) (fun _ => all_passed)). split; reflexivity.
  - exists [7], [8]. split; reflexivity.
Qed.
Print Assumptions C45_merge_refuted.
(** C45: merging no checks, or only empty ones, accepts everything; a merged check contains no check twice. *)
Theorem C45_merge_once : forall Q D (cs : list (check Q D)) l, merge_checks cs = CCompound l -> 2 <= length l.
Proof.
  intros Q D cs l. unfold merge_checks. destruct cs as [|c cs]; [discriminate|]. cbv zeta. match goal with |- match ?x with _ => _ end = _ -> _ => destruct x as [|a [|b m]] end; try discriminate. intros H. injection H as <-. cbn. lia.
Qed.
Print Assumptions C45_merge_once.
(** C45: merged results pass if all results pass; the converse needs every failure to have a reason. *)
Theorem C45_results_partial : forall rs, (forall r, In r rs -> passed r = false -> exists s, mentions_reason r s) ->
  (passed (merge_results rs) = true <-> forall r, In r rs -> passed r = true) /\
  (forall s, (exists r, In r rs /\ passed r = false /\ mentions_reason r s) <-> passed (merge_results rs) = false /\ mentions_reason (merge_results rs) s).
Proof.
  intros rs Hr. split; [|intros s; apply merge_results_reasons]. rewrite merge_results_pass. split.
  - intros H r Hin. destruct (passed r) eqn:E; [reflexivity|]. destruct (Hr r Hin E) as [s Hs]. apply enlist_iff in Hs. rewrite (H r Hin E) in Hs. destruct Hs.
  - intros H r Hin E. rewrite (H r Hin) in E. discriminate.
Qed.
Print Assumptions C45_results_partial.
Theorem C45_results_refuted : exists rs, (exists r, In r rs /\ passed r = false) /\ passed (merge_results rs) = true.
Proof. exists [mkres false (RList [])]. split; [eexists; split; [now left|reflexivity]|reflexivity]. Qed.
Print Assumptions C45_results_refuted.
Example C45_ex : let a := mkatom 1 1 0 (fun q : nat => if q <? 5 then all_passed else mkres false (RStr 10)) (fun _ : unit => all_passed) in
  let b := mkatom 2 2 0 (fun q : nat => mkres (3 <? q) (if 3 <? q then RList [] else RList [20; 21])) (fun _ : unit => all_passed) in
  let c := merge_checks [CAtom a; CEmpty; CCompound [b; a]] in
  passed (check_query c 4) = true /\ check_query c 2 = mkres false (RList [no_reason; 20; 21]) /\ check_query c 9 = mkres false (RList [10]).
Proof. repeat split. Qed.

(** C67: the equi-join check accepts exactly the equality joins between two columns, combined by AND if that is allowed. *)
Theorem C67_equi : forall E (ecols : E -> list col) is_column conj nesting joins,
  equi_check ecols is_column conj nesting joins = true <->
  forall p, In p joins -> equi_join ecols (fun e => nesting = true \/ is_column e = true) (conj = true) p.
Proof.
  intros E ecols is_column conj nesting joins. unfold equi_check. rewrite forallb_forall. split; intros H p Hp; specialize (H p Hp); now apply equi_iff.
Qed.
Print Assumptions C67_equi.
(** C67: the inner join check never accepts a query with another kind of join. *)
Theorem C67_inner_sound : forall f r, inner_query f = Ok r -> passed r = true -> inner_only f.
Proof. intros f r H Hp. destruct (inner_both (fsize f)) as [_ H2]. exact (proj2 (H2 f (le_n _) r H) Hp). Qed.
Print Assumptions C67_inner_sound.
(** C67 is false in the other direction: a plain inner join is rejected, since the join type is compared with a string. *)
Theorem C67_inner_refuted : let f := FExplicit (SJoin SDirect SDirect InnerJoin) in
  inner_only f /\ exists r, inner_query f = Ok r /\ passed r = false /\ mentions_reason r inner_failure.
Proof. split; [repeat constructor|]. eexists. split; [reflexivity|]. split; [reflexivity|now left]. Qed.
Print Assumptions C67_inner_refuted.
(** C67: as it stands, every explicit join is a failure, and each of them is reported. *)
Theorem C67_inner_reports : forall f r, inner_query f = Ok r ->
  (passed r = true <-> joins_in_from f = 0) /\ (passed r = false -> exists l, reasons r = RList l /\ length l = joins_in_from f).
Proof.
  intros f r H. destruct (inner_counted (fsize f)) as [_ Hc]. pose proof (Hc f (le_n _) r H) as [[Hp E]|(Hp & E & Hpos)].
  - split; [now rewrite Hp, E|]. intros Hf. congruence.
  - split; [rewrite Hp; split; [discriminate|lia]|]. intros _. destruct (reasons r) as [s|l] eqn:Er; [|exists l; split; [reflexivity|exact E]].
    exfalso. assert (Hl : forall n, (forall s0, ssize s0 <= n -> forall r0, inner_source s0 = Ok r0 -> passed r0 = false -> exists l, reasons r0 = RList l) /\ (forall f0, fsize f0 <= n -> forall r0, inner_query f0 = Ok r0 -> passed r0 = false -> exists l, reasons r0 = RList l)).
    { assert (Hm : forall rs, passed (merge_results rs) = false -> exists l, reasons (merge_results rs) = RList l) by (intros rs; unfold merge_results; destruct (flat_map _ rs); cbn; [discriminate|eauto]).
      induction n as [|n [I1 I2]]; [split; [intros [| | | |]; cbn; lia|intros [| | |]; cbn; lia]|]. split.
      - intros [| | |q|a b t] Hn r0; cbn [inner_source]; try (intros [= <-]; discriminate); try discriminate; [apply I2; cbn in Hn; lia|]. destruct (inner_source a); [|discriminate]. destruct (inner_source b); [|discriminate]. cbn [rbind]. intros H0. injection H0 as <-. apply Hm.
      - intros [| |s0|ss] Hn r0; cbn [inner_query]; try (intros [= <-]; discriminate); [apply I1; cbn in Hn; lia|]. match goal with |- rmap _ ?g = _ -> _ => destruct g end; [|discriminate]. cbn [rmap]. intros H0. injection H0 as <-. apply Hm. }
    destruct (Hl (fsize f)) as [_ H2]. destruct (H2 f (le_n _) r H Hp) as [l El]. congruence.
Qed.
Print Assumptions C67_inner_reports.
(** C67: an inner join check fails with an error if a table function occurs, even within an inner join. *)
Theorem C67_inner_function_refuted : inner_query (FFrom [SDirect; SFunction]) = Raise ValueError.
Proof. reflexivity. Qed.
Print Assumptions C67_inner_function_refuted.
Example C67_ex : inner_query (FFrom [SDirect; SSubquery FImplicit; SValues]) = Ok all_passed /\
  equi_check (fun e : col => [e]) (fun _ => true) true false [PAnd [PBin OpEq (mkcol (Some 0) 1) (mkcol (Some 1) 1); PBin OpEq (mkcol (Some 0) 2) (mkcol (Some 1) 2)]] = true.
Proof. split; reflexivity. Qed.
