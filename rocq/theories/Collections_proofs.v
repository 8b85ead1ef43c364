From Coq Require Import List Bool Arith ZArith Lia Sorted Permutation.
From Verif Require Import PyBase Collections_model Collections_spec.
Import ListNotations.

(** ** combinations / powerset *)
Lemma combinations_length {T} k (l : list T) s : In s (combinations k l) -> length s = k.
Proof.
  revert k s. induction l as [|x l IH]; intros [|k] s; simpl.
  - intros [<-|[]]; reflexivity.
  - tauto.
  - intros [<-|[]]; reflexivity.
  - rewrite in_app_iff, in_map_iff. intros [(s' & <- & H)|H]; [simpl; f_equal; eauto|eauto].
Qed.

Lemma combinations_sublist {T} k (l : list T) s : In s (combinations k l) <-> (sublist s l /\ length s = k).
Proof.
  revert k s. induction l as [|x l IH]; intros k s.
  - destruct k; simpl.
    + split; [intros [<-|[]]; split; [constructor|reflexivity]|]. intros [H E]. destruct s; [auto|discriminate].
    + split; [tauto|]. intros [H E]. inversion H; subst. discriminate.
  - destruct k as [|k].
    + simpl. split.
      * intros [<-|[]]. split; [|reflexivity]. clear. induction (x :: l); constructor; auto.
      * intros [_ E]. destruct s; [auto|discriminate].
    + change (combinations (S k) (x :: l)) with (map (cons x) (combinations k l) ++ combinations (S k) l).
      rewrite in_app_iff, in_map_iff. split.
      * intros [(s' & <- & H)|H]; apply IH in H as [H1 H2]; split; try constructor; auto; simpl; congruence.
      * intros [H E]. inversion H; subst.
        -- left. exists s0. split; [reflexivity|]. apply IH. split; [assumption|]. simpl in E. congruence.
        -- right. apply IH. auto.
Qed.

Lemma sublist_length {T} (s l : list T) : sublist s l -> length s <= length l.
Proof. induction 1; simpl; lia. Qed.
Lemma sublist_In {T} (s l : list T) x : sublist s l -> In x s -> In x l.
Proof. induction 1; simpl; intuition. Qed.

Lemma powerset_complete {T} (l s : list T) : In s (powerset l) <-> sublist s l.
Proof.
  unfold powerset. rewrite in_flat_map. split.
  - intros (k & _ & H). apply combinations_sublist in H. tauto.
  - intros H. exists (length s). split; [|apply combinations_sublist; auto].
    apply in_seq. apply sublist_length in H. lia.
Qed.

Lemma NoDup_app_intro {A} (l m : list A) : NoDup l -> NoDup m -> (forall x, In x l -> In x m -> False) -> NoDup (l ++ m).
Proof.
  induction l as [|a l IH]; simpl; intros Hl Hm Hd; [assumption|]. inversion Hl; subst.
  constructor; [|apply IH; eauto]. rewrite in_app_iff. intros [H|H]; [auto|eauto].
Qed.

Lemma combinations_NoDup {T} k (l : list T) : NoDup l -> NoDup (combinations k l).
Proof.
  revert k. induction l as [|x l IH]; intros [|k] Hl; simpl; try solve [repeat constructor; simpl; tauto].
  inversion Hl as [|? ? H2 H3]; subst. apply NoDup_app_intro.
  - apply FinFun.Injective_map_NoDup; [|auto]. intros ? ?; congruence.
  - apply IH; assumption.
  - intros s H1 H4. apply in_map_iff in H1 as (s' & <- & _).
    change (In (x :: s') (combinations (S k) l)) in H4.
    apply combinations_sublist in H4 as [H4 _]. apply H2. eapply sublist_In; [eassumption|simpl; auto].
Qed.

Lemma NoDup_flat_map {A B} (f : A -> list B) (l : list A) :
  NoDup l -> (forall x, In x l -> NoDup (f x)) ->
  (forall x y b, In x l -> In y l -> In b (f x) -> In b (f y) -> x = y) -> NoDup (flat_map f l).
Proof.
  induction l as [|a l IH]; simpl; intros Hl Hf Hd; [constructor|]. inversion Hl; subst.
  apply NoDup_app_intro; [auto|apply IH; eauto|].
  intros b Hb Hb'. apply in_flat_map in Hb' as (y & Hy & Hb').
  assert (a = y) by (eapply Hd; eauto). subst. auto.
Qed.

Lemma powerset_NoDup {T} (l : list T) : NoDup l -> NoDup (powerset l).
Proof.
  intros H. unfold powerset. apply NoDup_flat_map; [apply seq_NoDup|intros; apply combinations_NoDup; assumption|].
  intros x y b _ _ H1 H2. apply combinations_length in H1, H2. congruence.
Qed.

(** two sub-lists of a duplicate-free list with the same elements are the same list *)
Lemma sublist_ext {T} (l s t : list T) : NoDup l -> sublist s l -> sublist t l -> (forall x, In x s <-> In x t) -> s = t.
Proof.
  intros Hl Hs. revert t Hl. induction Hs as [|x s l Hs IH|x s l Hs IH]; intros t Hl Ht E.
  - inversion Ht. reflexivity.
  - inversion Hl; subst. inversion Ht; subst.
    + f_equal. apply IH; auto. intros y. specialize (E y). simpl in E. split; intros Hy.
      * destruct (proj1 E (or_intror Hy)) as [<-|E']; [|assumption]. exfalso. apply H1. eapply sublist_In; [|exact Hy]; assumption.
      * destruct (proj2 E (or_intror Hy)) as [<-|E']; [|assumption]. exfalso. apply H1. eapply sublist_In; [|exact Hy]; assumption.
    + exfalso. apply H1. eapply sublist_In; [eassumption|]. apply E. simpl; auto.
  - inversion Hl; subst. inversion Ht; subst.
    + exfalso. apply H1. apply (sublist_In s); [assumption|]. apply E. simpl; auto.
    + auto.
Qed.

Lemma filter_sublist {T} (P : T -> bool) (l : list T) : sublist (filter P l) l.
Proof. induction l as [|x l IH]; simpl; [constructor|]. destruct (P x); constructor; assumption. Qed.

Lemma powerset_unique {T} (l : list T) (P : T -> bool) : NoDup l ->
  exists! s, In s (powerset l) /\ (forall x, In x s <-> (In x l /\ P x = true)).
Proof.
  intros H. exists (filter P l). split.
  - split; [apply powerset_complete, filter_sublist|]. intros x. apply filter_In.
  - intros t [Ht E]. apply powerset_complete in Ht. apply (sublist_ext l); auto using filter_sublist.
    intros x. rewrite filter_In, E. tauto.
Qed.

Lemma sorted_const_blocks {B} (f : nat -> list (list B)) (n m : nat) :
  (forall k s, In s (f k) -> length s = k) ->
  StronglySorted le (map (@length B) (flat_map f (seq n m))).
Proof.
  intros Hf. revert n. induction m as [|m IH]; intros n; simpl; [constructor|].
  rewrite map_app.
  assert (Hmin : Forall (fun k => n <= k) (map (@length B) (flat_map f (seq (S n) m)))).
  { apply Forall_forall. intros k Hk. apply in_map_iff in Hk as (s & <- & Hs).
    apply in_flat_map in Hs as (k & Hk & Hs). apply Hf in Hs. apply in_seq in Hk. lia. }
  assert (Hc : Forall (fun k => k = n) (map (@length B) (f n))).
  { apply Forall_forall. intros k Hk. apply in_map_iff in Hk as (s & <- & Hs). eauto. }
  induction Hc as [|k r E Hc IHc]; simpl; [apply IH|].
  subst. constructor; [assumption|]. apply Forall_app. split.
  - eapply Forall_impl; [|exact Hc]. simpl; intros; lia.
  - assumption.
Qed.

Lemma powerset_by_size {T} (l : list T) : StronglySorted le (map (@length T) (powerset l)).
Proof. apply sorted_const_blocks. intros k s. apply combinations_length. Qed.

Lemma combinations_map {A B} (f : A -> B) k (l : list A) : combinations k (map f l) = map (map f) (combinations k l).
Proof.
  revert k. induction l as [|x l IH]; intros [|k]; simpl; try reflexivity.
  rewrite map_app, !map_map. change (combinations (S k) (map f l)) with (combinations (S k) (map f l)).
  rewrite IH. rewrite IH, map_map. reflexivity.
Qed.
Lemma powerset_map {A B} (f : A -> B) (l : list A) : powerset (map f l) = map (map f) (powerset l).
Proof.
  unfold powerset. rewrite map_length. induction (seq 0 (length l + 1)) as [|k r IH]; simpl; [reflexivity|].
  rewrite map_app, IH, combinations_map. reflexivity.
Qed.

Lemma combinations_count {T} k (l m : list T) : length l = length m -> length (combinations k l) = length (combinations k m).
Proof.
  revert k m. induction l as [|x l IH]; intros [|k] [|y m]; simpl; intros E; try discriminate; try reflexivity.
  rewrite !app_length, !map_length. injection E as E. rewrite (IH k m E). f_equal. apply (IH (S k) m E).
Qed.

(** number of sub-collections: 2^n. Pascal's rule on the sum of the combination counts. *)
Definition ncomb {T} (l : list T) k := length (combinations k l).
Definition sumn (f : nat -> nat) (n : nat) : nat := list_sum (map f (seq 0 n)).
Lemma sumn_S f n : sumn f (S n) = sumn f n + f n.
Proof. unfold sumn. rewrite seq_S, map_app, list_sum_app. simpl. lia. Qed.
Lemma sumn_ext f g n : (forall k, k < n -> f k = g k) -> sumn f n = sumn g n.
Proof. induction n; intros H; [reflexivity|]. rewrite !sumn_S, IHn, H by (intros; auto; apply H; lia). reflexivity. Qed.
Lemma sumn_shift f n : sumn f (S n) = f 0 + sumn (fun k => f (S k)) n.
Proof. induction n; [unfold sumn; simpl; lia|]. rewrite sumn_S, IHn, sumn_S. lia. Qed.
Lemma sumn_plus f g n : sumn (fun k => f k + g k) n = sumn f n + sumn g n.
Proof. induction n; [reflexivity|]. rewrite !sumn_S, IHn. lia. Qed.
Lemma combinations_too_many {T} k (l : list T) : length l < k -> combinations k l = [].
Proof.
  revert k. induction l as [|x l IH]; intros [|k] H; simpl in *; try lia; [reflexivity|].
  rewrite IH by lia. rewrite (IH (S k)) by lia. reflexivity.
Qed.
Lemma powerset_length {T} (l : list T) : length (powerset l) = 2 ^ length l.
Proof.
  assert (E : forall n, length (flat_map (fun size => combinations size l) (seq 0 n)) = sumn (ncomb l) n).
  { intros n. unfold sumn, ncomb. induction (seq 0 n); simpl; [reflexivity|]. rewrite app_length. lia. }
  unfold powerset. rewrite E, Nat.add_1_r. clear E.
  induction l as [|x l IH]; [reflexivity|].
  change (length (x :: l)) with (S (length l)). rewrite sumn_shift.
  assert (E2 : sumn (fun k => ncomb (x :: l) (S k)) (S (length l)) = sumn (fun k => ncomb l k + ncomb l (S k)) (S (length l))).
  { apply sumn_ext. intros k _. unfold ncomb.
    change (combinations (S k) (x :: l)) with (map (cons x) (combinations k l) ++ combinations (S k) l).
    rewrite app_length, map_length. reflexivity. }
  rewrite E2, sumn_plus, IH.
  assert (E3 : ncomb (x :: l) 0 + sumn (fun k => ncomb l (S k)) (S (length l)) = 2 ^ length l).
  { replace (ncomb (x :: l) 0) with (ncomb l 0) by (destruct l; reflexivity).
    rewrite <- (sumn_shift (ncomb l) (S (length l))), sumn_S, IH.
    unfold ncomb. rewrite combinations_too_many by lia. simpl. lia. }
  simpl (2 ^ S (length l)). lia.
Qed.

(** ** pairs *)
Definition index_pairs (n : nat) : list (nat * nat) :=
  flat_map (fun i => map (fun j => (i, j)) (filter (fun j => negb (j <=? i)) (seq 0 n))) (seq 0 n).

Lemma index_pairs_In n i j : In (i, j) (index_pairs n) <-> i < j < n.
Proof.
  unfold index_pairs. rewrite in_flat_map. split.
  - intros (i' & Hi & H). apply in_map_iff in H as (j' & E & H). injection E as -> ->.
    apply filter_In in H as [H1 H2]. apply in_seq in H1. apply negb_true_iff, Nat.leb_gt in H2. lia.
  - intros H. exists i. split; [apply in_seq; lia|]. apply in_map_iff. exists j. split; [reflexivity|].
    apply filter_In. split; [apply in_seq; lia|]. apply negb_true_iff, Nat.leb_gt. lia.
Qed.
Lemma index_pairs_NoDup n : NoDup (index_pairs n).
Proof.
  unfold index_pairs. apply NoDup_flat_map; [apply seq_NoDup| |].
  - intros i _. apply FinFun.Injective_map_NoDup; [intros ? ?; congruence|]. apply NoDup_filter, seq_NoDup.
  - intros x y b _ _ H1 H2. apply in_map_iff in H1 as (? & <- & _). apply in_map_iff in H2 as (? & [= ->] & _). reflexivity.
Qed.

Lemma enumerate_map {T} (l : list T) (d : T) : enumerate l = map (fun i => (i, nth i l d)) (seq 0 (length l)).
Proof.
  unfold enumerate.
  assert (G : forall (l pre : list T), combine (seq (length pre) (length l)) l = map (fun i => (i, nth i (pre ++ l) d)) (seq (length pre) (length l))).
  { induction l0 as [|x l0 IH]; intros pre; simpl; [reflexivity|].
    rewrite app_nth2 by lia. rewrite Nat.sub_diag. simpl. f_equal.
    specialize (IH (pre ++ [x])). rewrite app_length in IH. simpl in IH. rewrite Nat.add_1_r in IH.
    rewrite IH. apply map_ext. intros i. rewrite <- app_assoc. reflexivity. }
  exact (G l []).
Qed.

Lemma pairs_index {T} (l : list T) (d : T) :
  pairs l = map (fun '(i, j) => (nth i l d, nth j l d)) (index_pairs (length l)).
Proof.
  unfold pairs, index_pairs. rewrite (enumerate_map l d).
  rewrite !flat_map_concat_map, !concat_map, !map_map. f_equal. apply map_ext. intros i.
  rewrite !flat_map_concat_map, !map_map.
  induction (seq 0 (length l)) as [|j r IH]; simpl; [reflexivity|].
  destruct (j <=? i); simpl; rewrite IH; reflexivity.
Qed.

Lemma pairs_spec {T} (l : list T) (d : T) : exists idx,
  pairs l = map (fun '(i, j) => (nth i l d, nth j l d)) idx /\ NoDup idx /\
  (forall i j, In (i, j) idx <-> i < j < length l).
Proof.
  exists (index_pairs (length l)). split; [apply pairs_index|]. split; [apply index_pairs_NoDup|apply index_pairs_In].
Qed.

(** ** sliding_window *)
Lemma range_step_spec fuel start step stop : 0 < step -> stop <= start + fuel ->
  exists n, range_step fuel start step stop = map (fun k => start + k * step) (seq 0 n) /\
            (forall k, k < n <-> start + k * step < stop).
Proof.
  revert start. induction fuel as [|f IH]; intros start Hs Hf.
  - exists 0. split; [reflexivity|]. intros k. nia.
  - simpl. destruct (Nat.ltb_spec start stop) as [Hl|Hl].
    + destruct (IH (start + step)) as (n & E & Hn); [assumption|lia|].
      exists (S n). rewrite E. split.
      * simpl. rewrite Nat.add_0_r. f_equal. rewrite <- seq_shift, map_map. apply map_ext. intros k. lia.
      * intros [|k]; [nia|]. specialize (Hn k). nia.
    + exists 0. split; [reflexivity|]. intros k. nia.
Qed.

Lemma sliding_window_spec {T} (l : list T) size step : 0 < step ->
  exists n, sliding_window l size step = Ok (map (fun k => firstn size (skipn (k * step) l)) (seq 0 n)) /\
            (forall k, k < n <-> k * step + size <= length l).
Proof.
  intros Hs. unfold sliding_window. destruct step as [|step']; [lia|].
  destruct (range_step_spec (length l + 1) 0 (S step') (length l + 1 - size)) as (n & E & Hn); [lia|lia|].
  exists n. rewrite E, map_map. split; [reflexivity|]. intros k. rewrite Hn. lia.
Qed.

Lemma window_length {T} (l : list T) size k step : k * step + size <= length l ->
  length (firstn size (skipn (k * step) l)) = size.
Proof. intros H. rewrite firstn_length, skipn_length. lia. Qed.

(** ** Queue *)
Section QueueRun.
  Context {T : Type} (truthy : T -> bool).
  Fixpoint queue_run (q : list T) (ops : list (qop T)) : list (option T) * list T :=
    match ops with
    | [] => ([], q)
    | Push x :: r => queue_run (q_enqueue q x) r
    | PushAll xs :: r => queue_run (q_extend q xs) r
    | Peek :: r => let (o, q') := queue_run q r in (q_head q :: o, q')
    | Pop :: r => let (a, q1) := q_pop truthy q in let (o, q') := queue_run q1 r in (a :: o, q')
    end.

  Lemma queue_run_fifo q ops : (forall x, In x (q ++ pushed ops) -> truthy x = true) -> queue_run q ops = ideal_fifo q ops.
  Proof.
    revert q. induction ops as [|[x|xs| |] ops IH]; intros q H; simpl.
    - reflexivity.
    - apply IH. unfold q_enqueue. rewrite <- app_assoc. exact H.
    - apply IH. unfold q_extend. rewrite <- app_assoc. exact H.
    - destruct q as [|x q]; simpl.
      + rewrite IH by assumption. reflexivity.
      + unfold q_pop. simpl. rewrite (H x) by (simpl; auto). simpl. rewrite IH; [reflexivity|].
        intros y Hy. apply H. simpl. auto.
    - rewrite IH by assumption. reflexivity.
  Qed.
End QueueRun.

(** ** SizedQueue *)
Fixpoint sq_appends {T} (q : sized_queue T) (vs : list T) : res (sized_queue T) :=
  match vs with [] => Ok q | v :: r => rbind (sq_append q v) (fun q' => sq_appends q' r) end.

Lemma lastn_snoc {T} n (l : list T) v : 0 < n -> lastn n (l ++ [v]) = (if n <=? length (lastn n l) then tl (lastn n l) else lastn n l) ++ [v].
Proof.
  intros Hn. unfold lastn. rewrite app_length. simpl. rewrite skipn_length.
  destruct (Nat.leb_spec n (length l - (length l - n))) as [H|H].
  - replace (length l + 1 - n) with (S (length l - n)) by lia.
    rewrite skipn_app. replace (S (length l - n) - length l) with 0 by lia. simpl skipn at 2. f_equal.
    assert (G : forall k (m : list T), skipn (S k) m = tl (skipn k m)).
    { induction k as [|k IH]; intros [|y m]; simpl; try reflexivity. rewrite <- IH. reflexivity. }
    apply G.
  - replace (length l + 1 - n) with 0 by lia. replace (length l - n) with 0 by lia. reflexivity.
Qed.

Lemma sq_append_lastn {T} cap (h : list T) v : 0 < cap ->
  sq_append (SQ (lastn cap h) cap) v = Ok (SQ (lastn cap (h ++ [v])) cap).
Proof.
  intros Hc. unfold sq_append. simpl. rewrite lastn_snoc by assumption.
  destruct (Nat.leb_spec cap (length (lastn cap h))) as [H|H]; [|reflexivity].
  destruct (lastn cap h) as [|x r] eqn:E; [simpl in H; lia|]. reflexivity.
Qed.

Lemma sq_appends_lastn {T} cap (h vs : list T) : 0 < cap ->
  sq_appends (SQ (lastn cap h) cap) vs = Ok (SQ (lastn cap (h ++ vs)) cap).
Proof.
  intros Hc. revert h. induction vs as [|v vs IH]; intros h; simpl.
  - rewrite app_nil_r. reflexivity.
  - rewrite sq_append_lastn by assumption. simpl. rewrite IH, <- app_assoc. reflexivity.
Qed.

(** any mixture of append / extend / pop keeps the capacity *)
Inductive sqop (T : Type) := SAppend (x : T) | SExtend (xs : list T) | SPop.
Arguments SAppend {T} _. Arguments SExtend {T} _. Arguments SPop {T}.
Fixpoint sq_run {T} (q : sized_queue T) (ops : list (sqop T)) : res (sized_queue T) :=
  match ops with
  | [] => Ok q
  | SAppend x :: r => rbind (sq_append q x) (fun q' => sq_run q' r)
  | SExtend xs :: r => sq_run (sq_extend q xs) r
  | SPop :: r => sq_run (snd (sq_pop q)) r
  end.

Lemma sq_run_capacity {T} (ops : list (sqop T)) (q : sized_queue T) : 0 < sq_capacity q ->
  length (sq_data q) <= sq_capacity q ->
  exists q', sq_run q ops = Ok q' /\ sq_capacity q' = sq_capacity q /\ length (sq_data q') <= sq_capacity q'.
Proof.
  revert q. induction ops as [|[x|xs|] ops IH]; intros q H0 H; simpl.
  - eauto.
  - unfold sq_append. destruct (Nat.leb_spec (sq_capacity q) (length (sq_data q))) as [Hl|Hl].
    + destruct (sq_data q) as [|y r] eqn:E; [simpl in *; lia|]. simpl.
      destruct (IH (SQ (r ++ [x]) (sq_capacity q))) as (q' & R & C & L); simpl; [assumption| |eauto].
      rewrite app_length. simpl in *. lia.
    + simpl. destruct (IH (SQ (sq_data q ++ [x]) (sq_capacity q))) as (q' & R & C & L); simpl; [assumption| |eauto].
      rewrite app_length. simpl. lia.
  - destruct (IH (sq_extend q xs)) as (q' & R & C & L); simpl; [assumption| |eauto].
    rewrite firstn_length. lia.
  - unfold sq_pop. destruct (sq_data q) as [|y r] eqn:E; simpl.
    + destruct (IH q) as (q' & R & C & L); [assumption| |eauto]. rewrite E; simpl; lia.
    + destruct (IH (SQ r (sq_capacity q))) as (q' & R & C & L); simpl; [assumption| |eauto]. simpl in *; lia.
Qed.

(** ** set_union / flatten *)
Lemma set_union_spec {T} {E : EqD T} (sets : list (list T)) x : In x (set_union sets) <-> exists s, In s sets /\ In x s.
Proof.
  unfold set_union.
  assert (G : forall sets u, In x (fold_left (fun u s => dedup (u ++ s)) sets u) <-> In x u \/ exists s, In s sets /\ In x s).
  { induction sets0 as [|s r IH]; intros u; simpl.
    - split; [auto|]. intros [H|(s & [] & _)]; assumption.
    - rewrite IH, dedup_In, in_app_iff. split.
      + intros [[H|H]|(s' & H & H')]; [auto|right; exists s; auto|right; exists s'; auto].
      + intros [H|(s' & [->|H] & H')]; [auto|auto|right; exists s'; auto]. }
  rewrite G. simpl. split; [intros [[]|H]; assumption|auto].
Qed.
Lemma set_union_NoDup {T} {E : EqD T} (sets : list (list T)) : NoDup (set_union sets).
Proof.
  unfold set_union. assert (G : forall sets u, NoDup u -> NoDup (fold_left (fun u s => dedup (u ++ s)) sets u)).
  { induction sets0 as [|s r IH]; intros u H; simpl; [assumption|]. apply IH, dedup_NoDup. }
  apply G. constructor.
Qed.
