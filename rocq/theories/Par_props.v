(** C53: parallel query execution pairs every query with its own result. *)
From Coq Require Import List Bool Arith Lia Permutation.
From Verif Require Import PyBase Ident_model Par_model Par_spec.
Import ListNotations.

Section Lemmas.
  Context {Q R : Type} {E : EqD Q} (fates : nat -> Q -> @fate R).
  Lemma drain_ok : (forall i q, fine (fates i q)) -> forall order (p : pool) calls, exists rs, Forall2 (fun x i => exists q, nth_error (p_tasks p) i = Some q /\ x = (q, answer (fates i q))) rs (filter (fun i => i <? length (p_tasks p)) order) /\
    drain fates p order calls = (mkp (p_tasks p) (p_results p ++ rs), calls ++ map (fun x => (fst x, x)) rs, None).
  Proof.
    intros Hf order. induction order as [|i order IH]; intros p calls; cbn [drain filter].
    - exists []. split; [constructor|]. cbn. rewrite !app_nil_r. destruct p; reflexivity.
    - destruct (nth_error (p_tasks p) i) as [q|] eqn:En.
      + assert (Hi : i < length (p_tasks p)) by (apply nth_error_Some; congruence). apply Nat.ltb_lt in Hi. rewrite Hi. unfold worker. specialize (Hf i q) as Hq. 
        set (x := (q, answer (fates i q))). assert (Hw : match fates i q with Rows r => Ok (q, Some r) | Cancelled => Ok (q, None) | Error e => Raise e end = Ok x) by (subst x; destruct (fates i q); cbn in *; [reflexivity|reflexivity|contradiction]). rewrite Hw.
        destruct (IH (mkp (p_tasks p) (p_results p ++ [x])) (calls ++ [(q, x)])) as (rs & H1 & H2). exists (x :: rs). split; [constructor; [exists q; auto|exact H1]|]. rewrite H2. cbn. rewrite <- !app_assoc. reflexivity.
      + assert (Hi : (i <? length (p_tasks p)) = false) by (apply Nat.ltb_ge, nth_error_None; exact En). rewrite Hi. apply IH.
  Qed.
  Lemma filter_seq_all : forall n order, Permutation order (seq 0 n) -> filter (fun i => i <? n) order = order.
  Proof.
    intros n order Hp. assert (H : forall i, In i order -> i < n) by (intros i Hi; apply (Permutation_in _ Hp), in_seq in Hi; lia). clear Hp. induction order as [|i order IH]; [reflexivity|]. cbn [filter]. rewrite (proj2 (Nat.ltb_lt i n)) by (apply H; now left). f_equal. apply IH. intros j Hj. apply H. now right.
  Qed.
End Lemmas.

(** C53: after any number of (complete) drains in any completion orders, every queued query has its own result, and nothing else
    has one -- if the result only depends on the query and no query fails. *)
Theorem C53_results_partial : forall {Q R} {E : EqD Q} (db : Q -> @fate R) ops order, (forall q, fine (db q)) -> complete 0 (ops ++ [Drain order]) ->
  exists p calls, run (fun _ => db) start (ops ++ [Drain order]) [] = (p, calls, None) /\ dwf (result_set p) /\
  forall q, dget (result_set p) q = if mem q (queued ops) then Some (answer (db q)) else None.
Proof.
  intros Q R E db ops order Hf Hc.
  assert (Hgen : forall ops (p : @pool Q R) calls, (forall x, In x (p_results p) -> In (fst x) (p_tasks p) /\ snd x = answer (db (fst x))) -> complete (length (p_tasks p)) (ops ++ [Drain order]) ->
    exists p' calls', run (fun _ => db) p (ops ++ [Drain order]) calls = (p', calls', None) /\ p_tasks p' = p_tasks p ++ queued ops /\ (forall x, In x (p_results p') -> In (fst x) (p_tasks p') /\ snd x = answer (db (fst x))) /\ forall q, In q (p_tasks p') -> In q (map fst (p_results p'))).
  { clear ops Hc. induction ops as [|o ops IH]; intros p calls Hr Hc; cbn [app complete] in Hc.
    - destruct Hc as [Hp _]. cbn [app run]. destruct (drain_ok (fun _ => db) (fun _ q => Hf q) order p calls) as (rs & H1 & H2). rewrite (filter_seq_all _ _ Hp) in H1. rewrite H2. eexists _, _. split; [reflexivity|]. cbn. split; [now rewrite app_nil_r|]. split.
      + intros x Hx. apply in_app_iff in Hx as [Hx|Hx]; [now apply Hr|]. clear - H1 Hx. induction H1 as [|y i rs order Hy H1 IH]; [contradiction|]. destruct Hx as [<-|Hx]; [|now apply IH]. destruct Hy as (q & Hn & ->). split; [now apply nth_error_In in Hn|reflexivity].
      + intros q Hq. apply In_nth_error in Hq as [i Hi]. assert (Hin : In i order) by (apply (Permutation_in _ (Permutation_sym Hp)), in_seq; split; [lia|]; apply nth_error_Some; congruence). rewrite map_app. apply in_app_iff. right. clear - H1 Hin Hi. induction H1 as [|y j rs order Hy H1 IH]; [contradiction|]. destruct Hin as [->|Hin]; [|right; now apply IH]. destruct Hy as (q' & Hn & ->). left. cbn. congruence.
    - destruct o as [q|order']; cbn [complete app] in Hc; cbn [app run queued flat_map].
      + destruct (IH (queue_query p q) calls) as (p' & calls' & H1 & H2 & H3 & H4); [intros x Hx; cbn in *; destruct (Hr x Hx); split; [apply in_app_iff; now left|assumption]|cbn; rewrite app_length; cbn; now rewrite Nat.add_1_r|]. exists p', calls'. split; [exact H1|]. split; [rewrite H2; cbn; now rewrite <- app_assoc|auto].
      + destruct Hc as [Hp Hc]. destruct (drain_ok (fun _ => db) (fun _ q => Hf q) order' p calls) as (rs & H1 & H2). rewrite H2. destruct (IH (mkp (p_tasks p) (p_results p ++ rs)) (calls ++ map (fun x => (fst x, x)) rs)) as (p' & calls' & G1 & G2 & G3 & G4).
        * cbn. intros x Hx. apply in_app_iff in Hx as [Hx|Hx]; [now apply Hr|]. clear - H1 Hx. induction H1 as [|y j rs order Hy H1 IH]; [contradiction|]. destruct Hx as [<-|Hx]; [|now apply IH]. destruct Hy as (q & Hn & ->). split; [now apply nth_error_In in Hn|reflexivity].
        * exact Hc.
        * exists p', calls'. split; [exact G1|]. auto. }
  destruct (Hgen ops start [] (fun x Hx => match Hx with end) Hc) as (p & calls & H1 & H2 & H3 & H4). exists p, calls. split; [exact H1|]. split; [apply dwf_dict_of|]. cbn in H2. intros q. unfold result_set. rewrite dict_of_spec.
  destruct (mem q (queued ops)) eqn:Em.
  - apply mem_In in Em. rewrite <- H2 in Em. specialize (H4 q Em). clear - H3 H4. induction (p_results p) as [|[q' r] l IH] using rev_ind; [contradiction|]. rewrite lastval_app. cbn. destruct (eqd q q') as [<-|Hne].
    + f_equal. apply (H3 (q, r)). apply in_app_iff. right. now left.
    + apply IH; [intros x Hx; apply H3; apply in_app_iff; now left|]. rewrite map_app in H4. apply in_app_iff in H4 as [H4|[H4|[]]]; [exact H4|]. cbn in H4. congruence.
  - apply mem_nIn in Em. rewrite <- H2 in Em. assert (Hn : ~ In q (map fst (p_results p))) by (intros Hin; apply in_map_iff in Hin as (x & <- & Hx); apply Em, (H3 x Hx)). clear - Hn. induction (p_results p) as [|[q' r] l IH] using rev_ind; [reflexivity|]. rewrite lastval_app. cbn. rewrite map_app in Hn. destruct (eqd q q') as [->|Hne]; [exfalso; apply Hn; apply in_app_iff; right; now left|]. apply IH. intros Hin. apply Hn, in_app_iff. now left.
Qed.
Print Assumptions C53_results_partial.
(** C53: one drain invokes the callback exactly once per task, with the right query; the second argument is the pair of the query
    and its result. *)
Theorem C53_callbacks_partial : forall {Q R} {E : EqD Q} (fates : nat -> Q -> @fate R) tasks order, (forall i q, fine (fates i q)) -> Permutation order (seq 0 (length tasks)) ->
  exists calls, snd (fst (drain fates (mkp tasks []) order [])) = calls /\ Permutation calls (map (fun x => (snd x, (snd x, answer (fates (fst x) (snd x))))) (combine (seq 0 (length tasks)) tasks)).
Proof.
  intros Q R E fates tasks order Hf Hp. destruct (drain_ok fates Hf order (mkp tasks []) []) as (rs & H1 & H2). rewrite H2. cbn [fst snd app p_tasks] in *. eexists. split; [reflexivity|]. rewrite (filter_seq_all _ _ Hp) in H1.
  set (f := fun i => match nth_error tasks i with Some q => [(q, (q, answer (fates i q)))] | None => [] end).
  assert (Ha : map (fun x : Q * option R => (fst x, x)) rs = flat_map f order). { clear - H1. induction H1 as [|x i rs order (q & Hn & ->) H1 IH]; [reflexivity|]. cbn. unfold f at 1. cbn in Hn. rewrite Hn. cbn. now f_equal. }
  assert (Hb : forall l k, (forall i q, nth_error l i = Some q -> nth_error tasks (k + i) = Some q) -> map (fun x => (snd x, (snd x, answer (fates (fst x) (snd x))))) (combine (seq k (length l)) l) = flat_map f (seq k (length l))).
  { induction l as [|q l IH]; intros k Hk; [reflexivity|]. cbn. unfold f at 1. specialize (Hk 0 q eq_refl) as H0. rewrite Nat.add_0_r in H0. rewrite H0. cbn. f_equal. apply IH. intros i q' Hi. rewrite Nat.add_succ_l, <- Nat.add_succ_r. now apply Hk. }
  rewrite Ha, Hb by auto. clear - Hp. induction Hp as [|i o o' Hp IH|i j o|o o' o'' H1 IH1 H2 IH2]; cbn; [constructor|now apply Permutation_app_head|rewrite !app_assoc; apply Permutation_app_tail, Permutation_app_comm|now transitivity (flat_map f o')].
Qed.
Print Assumptions C53_callbacks_partial.

(** Queries 1, 2 and 3; the third one is cancelled. *)
Definition demo (q : nat) : @fate nat := if q =? 3 then Cancelled else Rows (10 * q).
Example C53_case : complete 0 ([Queue 1; Queue 2; Drain [1; 0]; Queue 3] ++ [Drain [2; 0; 1]]) /\
  result_set (fst (fst (run (fun _ => demo) start ([Queue 1; Queue 2; Drain [1; 0]; Queue 3] ++ [Drain [2; 0; 1]]) []))) = [(2, Some 20); (1, Some 10); (3, None)].
Proof. split; [|reflexivity]. cbn. split; [apply perm_swap|]. split; [|exact Logic.I]. transitivity [0; 2; 1]; [apply perm_swap|]. apply perm_skip, perm_swap. Qed.
(** C53 fails: the callback does not get the result of the query, but a pair. *)
Theorem C53_callback_refuted : forall r : nat, snd (fst (drain (fun _ (q : nat) => Rows r) (mkp [7] []) [0] [])) = [(7, (7, Some r))].
Proof. reflexivity. Qed.
Print Assumptions C53_callback_refuted.
(** C53 fails: a second drain reports all finished queries again. *)
Theorem C53_repeated_refuted : map fst (snd (fst (run (fun _ => demo) start [Queue 1; Drain [0]; Queue 2; Drain [0; 1]] []))) = [1; 1; 2].
Proof. reflexivity. Qed.
Print Assumptions C53_repeated_refuted.
(** C53 fails: after an error of one query, the results of queries that are done later are missing, although they were executed. *)
Theorem C53_error_refuted : let '(p, calls, e) := run (fun _ (q : nat) => if q =? 1 then Error OtherError else Rows q) start [Queue 1; Queue 2; Drain [0; 1]] [] in e = Some OtherError /\ result_set p = [] /\ calls = [].
Proof. repeat split. Qed.
Print Assumptions C53_error_refuted.
(** C53 fails: if a query is queued twice, only the result that happens to come last is kept. *)
Theorem C53_duplicates_refuted : result_set (fst (fst (run (fun i (q : nat) => Rows i) start [Queue 5; Queue 5; Drain [1; 0]] []))) = [(5, Some 0)].
Proof. reflexivity. Qed.
Print Assumptions C53_duplicates_refuted.
