(** Proofs about util/misc.py [DependencyGraph] (model in Num_model.v). *)
From Coq Require Import List Bool Arith ZArith Lia.
From Verif Require Import PyBase Num_model.
Import ListNotations.

(** ** Specification: a list of registered tasks with their dependencies *)
Definition tasks := list (nat * list nat).
Definition mentioned (ts : tasks) (n : nat) : Prop := exists t ds, In (t, ds) ts /\ (n = t \/ In n ds).
Definition depends (ts : tasks) (n d : nat) : Prop := exists ds, In (n, ds) ts /\ In d ds.
Definition build (ts : tasks) : depgraph := fold_left (fun g '(n, ds) => dg_add_task g n ds) ts dg_empty.

(** ** The iteration *)
Definition edge (g : depgraph) (a b : nat) : Prop := In b (deps_of g a).
Inductive reach (g : depgraph) (src : list nat) : nat -> Prop :=
| reach_src n : In n src -> reach g src n
| reach_edge a b : reach g src a -> edge g a b -> reach g src b.

Record loop_inv (g : depgraph) (src : list nat) (stack provided out : list nat) : Prop := {
  li_out : forall x, In x out <-> In x provided;
  li_nodup : NoDup out;
  li_reach : forall x, In x provided \/ In x stack -> reach g src x;
  li_closed : forall x y, In x provided -> edge g x y -> In y provided \/ In y stack }.

Lemma NoDup_snoc {A} (l : list A) x : NoDup l -> ~ In x l -> NoDup (l ++ [x]).
Proof.
  induction l as [|a l IH]; simpl; intros H n; [repeat constructor; auto|]. inversion H; subst.
  constructor; [|apply IH; tauto]. rewrite in_app_iff. simpl. intuition congruence.
Qed.

Lemma dg_loop_inv g src fuel stack provided out provided' out' :
  dg_loop fuel g stack provided out = Ok (provided', out') ->
  loop_inv g src stack provided out ->
  loop_inv g src [] provided' out' /\ (forall x, In x provided -> In x provided').
Proof.
  revert stack provided out. induction fuel as [|f IH]; intros stack provided out; simpl; [discriminate|].
  destruct (rev stack) as [|d rest] eqn:E.
  - intros [= <- <-]. assert (stack = []) as -> by (rewrite <- (rev_involutive stack), E; reflexivity). auto.
  - assert (stack = rev rest ++ [d]) as ->.
    { rewrite <- (rev_involutive stack), E. reflexivity. }
    destruct (mem d provided) eqn:Hm.
    + intros Hr I. apply mem_In in Hm. apply (IH _ _ _ Hr). destruct I as [I1 I2 I3 I4]. constructor; auto.
      * intros x [H|H]; apply I3; [auto|]. right. apply in_app_iff. auto.
      * intros x y Hx Hy. destruct (I4 x y Hx Hy) as [H|H]; [auto|]. apply in_app_iff in H as [H|[<-|[]]]; auto.
    + intros Hr I. apply mem_nIn in Hm. destruct I as [I1 I2 I3 I4].
      assert (Rd : reach g src d) by (apply I3; right; apply in_app_iff; simpl; auto).
      apply IH in Hr.
      * destruct Hr as [Hr1 Hr2]. split; [assumption|]. intros x Hx. apply Hr2. simpl; auto.
      * constructor.
        -- intros x. rewrite in_app_iff, I1. simpl. tauto.
        -- apply NoDup_snoc; [assumption|]. rewrite I1. assumption.
        -- intros x [[<-|H]|H]; [assumption|auto|]. apply in_app_iff in H as [H|H].
           ++ apply I3. right. apply in_app_iff. auto.
           ++ eapply reach_edge; eassumption.
        -- intros x y [<-|Hx] Hy.
           ++ right. apply in_app_iff. auto.
           ++ destruct (I4 x y Hx Hy) as [H|H]; [simpl; auto|]. apply in_app_iff in H as [H|[<-|[]]]; simpl; auto.
              right. apply in_app_iff. auto.
Qed.

(** termination: every iteration removes one stack entry, and the successors of a node are pushed only once *)
Definition work (d : dict nat (list nat)) (provided : list nat) : nat :=
  list_sum (map (fun e => if mem (fst e) provided then 0 else length (snd e)) d).
Lemma work_step d n provided : dwf d -> ~ In n provided ->
  work d (n :: provided) + length (match dget d n with Some l => l | None => [] end) = work d provided.
Proof.
  unfold dwf, work. intros Hw Hn. induction d as [|[k l] d IH]; simpl; [reflexivity|].
  inversion Hw as [|? ? Hk Hw']; subst. specialize (IH Hw').
  destruct (eqd n k) as [->|Hne].
  - rewrite deqb_refl. simpl. apply mem_nIn in Hn. fold (mem k provided). rewrite Hn.
    assert (E : dget d k = None) by (apply dget_None; exact Hk). rewrite E in IH. simpl in IH.
    unfold mem in *. simpl in *. lia.
  - destruct (deqb_spec k n); [congruence|]. simpl. fold (mem k provided). destruct (mem k provided); unfold mem in *; simpl in *; lia.
Qed.
Lemma dg_loop_terminates g fuel stack provided out : dwf (dg_deps g) ->
  length stack + work (dg_deps g) provided < fuel -> exists r, dg_loop fuel g stack provided out = Ok r.
Proof.
  intros Hw. revert stack provided out. induction fuel as [|f IH]; intros stack provided out Hf; [lia|]. simpl.
  destruct (rev stack) as [|d rest] eqn:E; [eauto|].
  assert (stack = rev rest ++ [d]) as ->.
  { rewrite <- (rev_involutive stack), E. reflexivity. }
  rewrite app_length in Hf. simpl in Hf.
  destruct (mem d provided) eqn:Hm; [apply IH; lia|].
  apply mem_nIn in Hm. apply IH. rewrite app_length. pose proof (work_step _ _ _ Hw Hm) as W. unfold deps_of. lia.
Qed.

Definition total_work (g : depgraph) : nat := list_sum (map (fun e => length (snd e)) (dg_deps g)).
Lemma work_le d provided : work d provided <= list_sum (map (fun e => length (snd e)) d).
Proof. unfold work. induction d as [|[k l] d IH]; simpl; [lia|]. destruct (mem k provided); lia. Qed.
Lemma deps_le g n : length (deps_of g n) <= total_work g.
Proof.
  unfold deps_of, total_work. induction (dg_deps g) as [|[k l] d IH]; simpl; [lia|].
  destruct (eqd n k); [lia|]. lia.
Qed.

(** fold over the sources *)
Lemma dg_iter_from_spec g fuel sources : dwf (dg_deps g) -> 2 * total_work g < fuel -> NoDup sources ->
  (forall s a, In s sources -> ~ edge g a s) ->
  exists out, dg_iter_from fuel g sources = Ok out /\ NoDup out /\ (forall x, In x out <-> reach g sources x).
Proof.
  intros Hw Hf Hn Hs. unfold dg_iter_from.
  set (step := fun acc n => rbind acc (fun '(provided, out) => dg_loop fuel g (deps_of g n) (n :: provided) (out ++ [n]))).
  assert (G : forall rest done provided out, done ++ rest = sources -> loop_inv g done [] provided out ->
     (forall x, In x done -> In x provided) ->
     exists p o, fold_left step rest (Ok (provided, out)) = Ok (p, o) /\ loop_inv g sources [] p o /\
                 (forall x, In x sources -> In x p)).
  { induction rest as [|n rest IH]; intros done provided out E I Hd; cbn [fold_left].
    - rewrite app_nil_r in E. subst. eauto.
    - assert (Hnp : ~ In n provided).
      { intros Hin. destruct I as [_ _ I3 _]. specialize (I3 n (or_introl Hin)).
        inversion I3 as [m Hm|a b Ha Hab]; subst.
        - apply NoDup_remove_2 in Hn. apply Hn. apply in_app_iff. auto.
        - apply (Hs n a); [apply in_app_iff; simpl; auto|assumption]. }
      destruct (dg_loop_terminates g fuel (deps_of g n) (n :: provided) (out ++ [n]) Hw) as [[p o] R].
      { pose proof (deps_le g n). pose proof (work_le (dg_deps g) (n :: provided)). unfold total_work in *. lia. }
      change (step (Ok (provided, out)) n) with (dg_loop fuel g (deps_of g n) (n :: provided) (out ++ [n])). rewrite R.
      destruct I as [I1 I2 I3 I4].
      destruct (dg_loop_inv g (done ++ [n]) _ _ _ _ _ _ R) as [I' Hmono].
      + constructor.
        * intros x. rewrite in_app_iff, I1. simpl. tauto.
        * apply NoDup_snoc; [assumption|]. rewrite I1. assumption.
        * assert (Hmon : forall x, reach g done x -> reach g (done ++ [n]) x).
          { intros x Hx. induction Hx; [apply reach_src, in_app_iff; auto|eapply reach_edge; eassumption]. }
          intros x [[<-|H]|H].
          -- apply reach_src, in_app_iff. simpl; auto.
          -- auto.
          -- eapply reach_edge; [|exact H]. apply reach_src, in_app_iff. simpl; auto.
        * intros x y [<-|Hx] Hy; [auto|]. destruct (I4 x y Hx Hy) as [H|[]]. simpl; auto.
      + apply (IH (done ++ [n])); [rewrite <- app_assoc; exact E|assumption|].
        intros x Hx. apply in_app_iff in Hx as [Hx|[<-|[]]]; apply Hmono; simpl; auto. }
  destruct (G sources [] [] []) as (p & o & R & [I1 I2 I3 I4] & Hp); [reflexivity| |simpl; tauto|].
  { constructor; simpl; try tauto. constructor. }
  rewrite R. simpl. exists o. split; [reflexivity|]. split; [assumption|].
  intros x. rewrite I1. split; [auto|]. induction 1 as [n Hn'|a b Ha IH Hab]; [auto|].
  destruct (I4 _ _ IH Hab) as [H|[]]. assumption.
Qed.

(** ** The construction *)
Lemma set_add_In n l x : In x (set_add n l) <-> x = n \/ In x l.
Proof.
  unfold set_add. destruct (mem n l) eqn:E.
  - apply mem_In in E. split; [auto|]. intros [->|H]; assumption.
  - rewrite in_app_iff. simpl. intuition.
Qed.
Lemma set_add_NoDup n l : NoDup l -> NoDup (set_add n l).
Proof. unfold set_add. destruct (mem n l) eqn:E; [auto|]. intros. apply NoDup_snoc; [assumption|]. apply mem_nIn. assumption. Qed.
Lemma set_remove_In n l x : In x (set_remove n l) <-> x <> n /\ In x l.
Proof.
  unfold set_remove. rewrite filter_In. destruct (deqb_spec n x); simpl; intuition congruence.
Qed.

Lemma deps_of_set g k l d : deps_of (DG (dg_sources g) (dset (dg_deps g) k l) (dg_nodes g)) d = if eqd d k then l else deps_of g d.
Proof. unfold deps_of. simpl. rewrite dset_spec. destruct (eqd d k); reflexivity. Qed.

Record build_inv (ts : tasks) (g : depgraph) : Prop := {
  bi_wf : dwf (dg_deps g);
  bi_sd : NoDup (dg_sources g);
  bi_nodes : forall n, In n (dg_nodes g) <-> mentioned ts n;
  bi_edges : forall d n, edge g d n <-> depends ts n d;
  bi_src : forall n, In n (dg_sources g) <-> mentioned ts n /\ (forall d, ~ depends ts n d) }.

Lemma add_dep_fold node ds : forall g,
  let g' := fold_left (dg_add_dep node) ds g in
  (dwf (dg_deps g) -> dwf (dg_deps g')) /\
  (NoDup (dg_sources g) -> NoDup (dg_sources g')) /\
  (forall n, In n (dg_nodes g') <-> In n (dg_nodes g) \/ In n ds) /\
  (forall d n, edge g' d n <-> edge g d n \/ (n = node /\ In d ds)) /\
  (forall n, In n (dg_sources g') <-> In n (dg_sources g) \/ (In n ds /\ ~ In n (dg_nodes g))).
Proof.
  induction ds as [|dep ds IH]; intros g; simpl.
  - repeat split; try tauto.
  - destruct (IH (dg_add_dep node g dep)) as (H1 & H2 & H3 & H4 & H5).
    assert (E1 : dwf (dg_deps g) -> dwf (dg_deps (dg_add_dep node g dep))).
    { intros W. unfold dg_add_dep. destruct (mem dep (dg_nodes g)); simpl; apply dwf_dset; assumption. }
    assert (E2 : NoDup (dg_sources g) -> NoDup (dg_sources (dg_add_dep node g dep))).
    { intros W. unfold dg_add_dep. destruct (mem dep (dg_nodes g)); simpl; [assumption|apply set_add_NoDup; assumption]. }
    assert (E3 : forall n, In n (dg_nodes (dg_add_dep node g dep)) <-> In n (dg_nodes g) \/ n = dep).
    { intros n. unfold dg_add_dep. destruct (mem dep (dg_nodes g)) eqn:M; simpl.
      - apply mem_In in M. split; [auto|]. intros [H| ->]; assumption.
      - rewrite in_app_iff. simpl. intuition. }
    assert (E4 : forall d n, edge (dg_add_dep node g dep) d n <-> edge g d n \/ (n = node /\ d = dep)).
    { intros d n. unfold edge, dg_add_dep, deps_of.
      assert (X : In n (match dget (dset (dg_deps g) dep (match dget (dg_deps g) dep with Some l => l | None => [] end ++ [node])) d with Some l => l | None => [] end) <->
                  In n (match dget (dg_deps g) d with Some l => l | None => [] end) \/ (n = node /\ d = dep)).
      { rewrite dset_spec. destruct (eqd d dep) as [->|ne]; [rewrite in_app_iff; simpl; intuition|intuition congruence]. }
      destruct (mem dep (dg_nodes g)); exact X. }
    assert (E5 : forall n, In n (dg_sources (dg_add_dep node g dep)) <-> In n (dg_sources g) \/ (n = dep /\ ~ In dep (dg_nodes g))).
    { intros n. unfold dg_add_dep. destruct (mem dep (dg_nodes g)) eqn:M; simpl.
      - apply mem_In in M. tauto.
      - apply mem_nIn in M. rewrite set_add_In. tauto. }
    split; [auto|]. split; [auto|]. split; [|split].
    + intros n. rewrite H3, E3. simpl. intuition.
    + intros d n. rewrite H4, E4. simpl. intuition.
    + intros n. rewrite H5, E5, E3. simpl.
      destruct (in_dec Nat.eq_dec n (dg_nodes g)); destruct (Nat.eq_dec n dep); subst; intuition congruence.
Qed.

Lemma mentioned_snoc ts n ds x : mentioned (ts ++ [(n, ds)]) x <-> mentioned ts x \/ x = n \/ In x ds.
Proof.
  unfold mentioned. split.
  - intros (t & e & H & H'). apply in_app_iff in H as [H|[[= <- <-]|[]]]; [left; eauto|auto].
  - intros [(t & e & H & H')|H]; [exists t, e; rewrite in_app_iff; auto|exists n, ds; rewrite in_app_iff; simpl; auto].
Qed.
Lemma depends_snoc ts n ds x d : depends (ts ++ [(n, ds)]) x d <-> depends ts x d \/ (x = n /\ In d ds).
Proof.
  unfold depends. split.
  - intros (e & H & H'). apply in_app_iff in H as [H|[[= <- <-]|[]]]; [left; eauto|auto].
  - intros [(e & H & H')|[-> H]]; [exists e; rewrite in_app_iff; auto|exists ds; rewrite in_app_iff; simpl; auto].
Qed.

Lemma build_inv_step ts g n ds : build_inv ts g -> ~ In n (map fst ts) -> ~ In n ds -> build_inv (ts ++ [(n, ds)]) (dg_add_task g n ds).
Proof.
  intros [B1 B2 B3 B4 B5] Hn Hself. assert (Hnd : forall d, ~ depends ts n d).
  { intros d (e & H & _). apply Hn. apply in_map_iff. exists (n, e). auto. }
  destruct ds as [|d0 ds0].
  - unfold dg_add_task. constructor; cbn [dg_deps dg_sources dg_nodes].
    + assumption.
    + apply set_add_NoDup. assumption.
    + intros x. rewrite set_add_In, B3, mentioned_snoc. simpl. intuition.
    + intros d x. change (edge g d x <-> depends (ts ++ [(n, [])]) x d). rewrite B4, depends_snoc. simpl. tauto.
    + intros x. rewrite set_add_In, B5, mentioned_snoc. split.
      * intros [->|[H1 H2]]; (split; [tauto|]); intros d; rewrite depends_snoc; simpl; firstorder.
      * intros [H1 H2]. destruct (Nat.eq_dec x n) as [->|ne]; [auto|]. right. split; [simpl in H1; tauto|].
        intros d Hd. apply (H2 d). apply depends_snoc. auto.
  - set (ds := d0 :: ds0) in *.
    pose (g2 := DG (set_remove n (dg_sources g)) (dg_deps g) (set_add n (dg_nodes g))).
    change (dg_add_task g n ds) with (fold_left (dg_add_dep n) ds g2).
    destruct (add_dep_fold n ds g2) as (H1 & H2 & H3 & H4 & H5).
    constructor.
    + apply H1. assumption.
    + apply H2. unfold g2; simpl. apply NoDup_filter. assumption.
    + intros x. rewrite H3. unfold g2; cbn [dg_nodes]. rewrite set_add_In, B3, mentioned_snoc. tauto.
    + intros d x. rewrite H4. change (edge g2 d x) with (edge g d x). rewrite B4, depends_snoc. tauto.
    + intros x. rewrite H5. unfold g2; cbn [dg_nodes dg_sources]. rewrite set_remove_In, set_add_In, B5, B3, mentioned_snoc. split.
      * intros [[H6 [H7 H8]]|[H6 H7]].
        -- split; [tauto|]. intros d. rewrite depends_snoc. intros [H|[-> _]]; [apply (H8 d H)|congruence].
        -- split; [tauto|]. intros d. rewrite depends_snoc. intros [(e & He & _)|[-> _]]; [|tauto].
           apply H7. right. exists x, e. auto.
      * intros [H6 H7]. destruct (Nat.eq_dec x n) as [->|ne].
        -- exfalso. apply (H7 d0). apply depends_snoc. right. split; [reflexivity|simpl; auto].
        -- assert (D : (exists t e, In (t, e) ts /\ (x = t \/ In x e)) \/ ~ (exists t e, In (t, e) ts /\ (x = t \/ In x e))).
           { destruct (in_dec Nat.eq_dec x (dg_nodes g)) as [i|i]; rewrite B3 in i; [left|right]; exact i. }
           destruct D as [D|D].
           ++ left. split; [assumption|]. split; [exact D|]. intros d Hd. apply (H7 d), depends_snoc. auto.
           ++ right. split; [destruct H6 as [H6|[H6|H6]]; [contradiction|congruence|assumption]|].
              intros [H|H]; [congruence|contradiction].
Qed.

Lemma build_spec ts : NoDup (map fst ts) -> (forall n ds, In (n, ds) ts -> ~ In n ds) -> build_inv ts (build ts).
Proof.
  unfold build. induction ts as [|[n ds] ts IH] using rev_ind; intros Hn Hs.
  - simpl. constructor; simpl.
    + constructor.
    + constructor.
    + intros n; split; [tauto|intros (t & ds & [] & _)].
    + intros d n. unfold edge. simpl. split; [tauto|intros (ds & [] & _)].
    + intros n; split; [tauto|intros [(t & ds & [] & _) _]].
  - rewrite fold_left_app. simpl. rewrite map_app in Hn. simpl in Hn.
    apply build_inv_step.
    + apply IH; [apply NoDup_remove_1 in Hn; rewrite app_nil_r in Hn; assumption|].
      intros m es H. apply Hs. apply in_app_iff. auto.
    + apply NoDup_remove_2 in Hn. rewrite app_nil_r in Hn. assumption.
    + apply Hs. apply in_app_iff. simpl; auto.
Qed.

(** Every task exactly once, for acyclic task lists in which every task is registered once, and for every iteration
    order of the set of source nodes. *)
Lemma dg_iter_once (ts : tasks) (rank : nat -> nat) : NoDup (map fst ts) ->
  (forall n d, depends ts n d -> rank d < rank n) ->
  forall order, NoDup order -> (forall x, In x order <-> In x (dg_sources (build ts))) ->
  exists fuel out, dg_iter_from fuel (build ts) order = Ok out /\ NoDup out /\ (forall x, In x out <-> mentioned ts x).
Proof.
  intros Hn Hr order Ho Hos.
  destruct (build_spec ts) as [B1 B2 B3 B4 B5]; [assumption| |].
  { intros n ds H Hin. assert (rank n < rank n) by (apply Hr; exists ds; auto). lia. }
  exists (2 * total_work (build ts) + 1).
  destruct (dg_iter_from_spec (build ts) (2 * total_work (build ts) + 1) order B1) as (out & R & N & I); [lia|assumption| |].
  { intros s a Hs Ha. apply Hos, B5 in Hs as [_ Hs]. apply B4 in Ha. exact (Hs a Ha). }
  exists out. split; [assumption|]. split; [assumption|]. intros x. rewrite I. split.
  - induction 1 as [n H|a b Ha IH Hab].
    + apply Hos, B5 in H. tauto.
    + apply B4 in Hab as (ds & H1 & H2). exists b, ds. auto.
  - assert (G : forall k y, rank y < k -> mentioned ts y -> reach (build ts) order y).
    { induction k as [|k IH]; intros y Hk Hy; [lia|].
      destruct (in_dec Nat.eq_dec y (dg_sources (build ts))) as [i|i]; [apply reach_src, Hos; assumption|].
      assert (E : exists d, depends ts y d).
      { destruct Hy as (t & ds & H & H').
        destruct (find (fun e => deqb y (fst e) && negb (match snd e with [] => true | _ => false end)) ts) as [[t' ds']|] eqn:F.
        - apply find_some in F as [F1 F2]. simpl in F2. apply andb_true_iff in F2 as [F2 F3]. apply deqb_true in F2. subst t'.
          destruct ds' as [|d ds']; [discriminate|]. exists d, (d :: ds'). split; [assumption|simpl; auto].
        - exfalso. apply i. apply B5. split; [exists t, ds; auto|]. intros d (es & He & Hd).
          pose proof (find_none _ _ F _ He) as F'. simpl in F'. rewrite deqb_refl in F'. destruct es; [destruct Hd|discriminate]. }
      destruct E as (d & Hd). apply reach_edge with d.
      - apply IH; [specialize (Hr _ _ Hd); lia|]. destruct Hd as (ds & H1 & H2). exists y, ds. auto.
      - apply B4. assumption. }
    apply (G (S (rank x))). lia.
Qed.
