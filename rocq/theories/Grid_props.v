(** Property theorems for C360-C362 (grids of plots, layouts). *)
From Coq Require Import List Bool Arith Lia FinFun.
From Verif Require Import PyBase Grid_model Grid_spec.
Import ListNotations.

(** ** C360: each label has its own cell of the grid, in reading order; exactly the other cells are switched off.
    Partial: there are at least two columns, and the labels fill the first row. *)
Lemma next_cell c i : 0 < c -> let col := (i mod c + 1) mod c in S i mod c = col /\ S i / c = (if col =? 0 then i / c + 1 else i / c).
Proof.
  intros P col. assert (D := Nat.div_mod i c). assert (B := Nat.mod_upper_bound i c). set (q := i / c) in *. set (m := i mod c) in *. unfold col.
  destruct (Nat.eq_dec (m + 1) c) as [E|E].
  - rewrite E, Nat.mod_same by lia. cbn. assert (X : S i = (q + 1) * c) by nia. rewrite X, Nat.mod_mul, Nat.div_mul by lia. auto.
  - rewrite (Nat.mod_small (m + 1) c) by lia. assert (X : S i = m + 1 + q * c) by nia. destruct (Nat.eqb_spec (m + 1) 0); [lia|].
    rewrite X, Nat.mod_add, Nat.div_add, Nat.mod_small, Nat.div_small by lia. auto.
Qed.
Lemma draw_spec a r c n : 0 < c -> (forall i, i < n -> (if 1 <? r then item2 a (i / c) (i mod c) else item a (i mod c)) = Ok (i / c, i mod c)) ->
  forall k i, i + k = n -> draw a r c k (i / c) (i mod c) = Ok (map (fun j => (j / c, j mod c)) (seq i k), n / c).
Proof.
  intros P A. induction k as [|k IH]; intros i E; [cbn; replace i with n by lia; reflexivity|]. cbn [draw]. rewrite A by lia. cbn [rbind].
  destruct (next_cell c i P) as [M D]. cbv zeta in M, D. rewrite <- M. rewrite <- M in D. rewrite <- D, IH by lia. reflexivity.
Qed.
Lemma rows_spec n c : 0 < c -> rows_for n c ((n + c - 1) / c).
Proof.
  intros P. assert (D := Nat.div_mod (n + c - 1) c). assert (B := Nat.mod_upper_bound (n + c - 1) c). set (q := (n + c - 1) / c) in *. split; [nia|]. intros r L. nia.
Qed.
Lemma rmapM_ok {A B} (f : A -> res B) (g : A -> B) l : (forall x, In x l -> f x = Ok (g x)) -> rmapM f l = Ok (map g l).
Proof. induction l as [|x l IH]; intros H; [reflexivity|]. cbn. rewrite (H x) by (left; reflexivity). cbn. rewrite IH by (intros y I; apply H; right; exact I). reflexivity. Qed.
Theorem C360_grid_partial : forall labels ncols, 0 < labels -> 1 < ncols -> (ncols <= labels) ->
  exists rows cells off, rows_for labels ncols rows /\ make_grid labels ncols = Ok (cells, off) /\ Forall2 (cell ncols) (seq 0 labels) cells /\ NoDup cells /\
  forall p, In p off <-> fst p < rows /\ snd p < ncols /\ ~ In p cells.
Proof.
  intros n c N C L. set (r := (n + c - 1) / c). exists r, (map (fun j => (j / c, j mod c)) (seq 0 n)), (if negb (n mod c =? 0) then map (fun e => (n / c, c - e - 1)) (seq 0 (c - n mod c)) else []).
  assert (P : 0 < c) by lia. assert (R : rows_for n c r) by (apply rows_spec; lia). destruct R as [R1 R2]. split; [split; assumption|].
  assert (Dn := Nat.div_mod n c). assert (Bn := Nat.mod_upper_bound n c).
  assert (Q : forall j, j < n -> j / c < r) by (intros j J; apply Nat.div_lt_upper_bound; [lia|]; nia).
  assert (RP : 0 < r) by (specialize (Q 0 N); lia).
  assert (IC : forall p, In p (map (fun j => (j / c, j mod c)) (seq 0 n)) <-> snd p < c /\ fst p * c + snd p < n).
  { intros [x y]. rewrite in_map_iff. cbn. split.
    - intros (j & E & J). injection E as <- <-. apply in_seq in J. assert (D := Nat.div_mod j c). assert (B := Nat.mod_upper_bound j c). split; nia.
    - intros [Y X]. exists (x * c + y). split; [|apply in_seq; lia]. rewrite (Nat.add_comm (x * c)), Nat.div_add, Nat.mod_add, Nat.div_small, Nat.mod_small by lia. reflexivity. }
  split; [|split; [|split]].
  - unfold make_grid. destruct (Nat.eqb_spec c 0); [lia|]. fold r. unfold subplots. destruct (Nat.eqb_spec r 0); [lia|]. cbn [rbind].
    destruct (Nat.eq_dec r 1) as [E1|E1].
    + (* one row: no cell is left *)
      assert (n = c) by nia. subst n. replace r with 1. destruct c as [|[|c']]; try lia. set (c := S (S c')) in *. cbn [rbind].
      assert (DR := draw_spec (Row c) 1 c c P). rewrite Nat.mod_same by lia. cbn [negb Nat.eqb]. 
      assert (H : draw (Row c) 1 c c 0 0 = Ok (map (fun j => (j / c, j mod c)) (seq 0 c), c / c)).
      { specialize (fun A => DR A c 0 eq_refl). rewrite Nat.div_small, Nat.mod_small in DR by lia. apply DR. intros i I. replace (1 <? 1) with false by reflexivity. rewrite Nat.div_small, Nat.mod_small by lia.
        unfold item. destruct (Nat.ltb_spec i c); [reflexivity|lia]. }
      rewrite H. reflexivity.
    + assert (S0 : match r, c with 1, 1 => Single | 1, _ => Row c | _, 1 => Column r | _, _ => Matrix r c end = Matrix r c) by (destruct r as [|[|r']]; [lia|lia|]; destruct c as [|[|c']]; [lia|lia|reflexivity]).
      rewrite S0. cbn [rbind].
      assert (H : draw (Matrix r c) r c n 0 0 = Ok (map (fun j => (j / c, j mod c)) (seq 0 n), n / c)).
      { assert (DR := draw_spec (Matrix r c) r c n P). specialize (fun A => DR A n 0 eq_refl). rewrite Nat.div_small, Nat.mod_small in DR by lia. apply DR. intros i I.
        destruct (Nat.ltb_spec 1 r); [|lia]. unfold item2. assert (B := Nat.mod_upper_bound i c). destruct (Nat.ltb_spec (i / c) r); [|specialize (Q i I); lia]. destruct (Nat.ltb_spec (i mod c) c); [reflexivity|lia]. }
      rewrite H. cbn [rbind fst snd]. destruct (Nat.eqb_spec (n mod c) 0) as [Z|Z]; cbn [negb]; [reflexivity|].
      rewrite (rmapM_ok _ (fun e => (n / c, c - e - 1))); [reflexivity|]. intros e I. apply in_seq in I. unfold item2.
      assert (n / c < r) by nia. destruct (Nat.ltb_spec (n / c) r); [|lia]. destruct (Nat.ltb_spec (c - e - 1) c); [reflexivity|lia].
  - assert (G : forall l, Forall2 (cell c) l (map (fun j => (j / c, j mod c)) l)).
    { induction l as [|j l IH]; cbn; constructor; [|exact IH]. unfold cell. cbn. assert (D := Nat.div_mod j c). assert (B := Nat.mod_upper_bound j c). split; nia. }
    apply G.
  - apply Injective_map_NoDup; [|apply seq_NoDup]. intros i j E. injection E as E1 E2. rewrite (Nat.div_mod i c), (Nat.div_mod j c) by lia. rewrite E1, E2. reflexivity.
  - intros [x y]. rewrite IC. cbn [fst snd]. destruct (Nat.eqb_spec (n mod c) 0) as [Z|Z]; cbn [negb].
    + split; [intros []|]. intros (X & Y & H). apply H. split; [exact Y|]. assert (r <= n / c) by (apply R2; nia). nia.
    + rewrite in_map_iff. assert (r = n / c + 1) by (assert (r <= n / c + 1) by (apply R2; nia); nia). split.
      * intros (e & E & I). injection E as <- <-. apply in_seq in I. split; [lia|]. split; [lia|]. intros [_ H']. nia.
      * intros (X & Y & H'). assert (x = n / c) by nia. subst x. exists (c - y - 1). split; [f_equal; lia|]. apply in_seq. assert (n mod c <= y) by nia. lia.
Qed.
Print Assumptions C360_grid_partial.
Example C360_ex : make_grid 5 3 = Ok ([(0, 0); (0, 1); (0, 2); (1, 0); (1, 1)], [(1, 2)]). Proof. reflexivity. Qed.
(* Fewer labels than columns, and grids with one column, raise a TypeError; no labels a ValueError. *)
Theorem C360_grid_refuted : forall ncols, (forall labels, 0 < labels < ncols -> make_grid labels ncols = Raise TypeError) /\
  (forall labels, 0 < labels -> make_grid labels 1 = Raise TypeError) /\ (0 < ncols -> make_grid 0 ncols = Raise ValueError).
Proof.
  intros c. split; [|split].
  - intros n [N L]. unfold make_grid. destruct (Nat.eqb_spec c 0); [lia|]. assert (R : (n + c - 1) / c = 1) by (symmetry; apply (Nat.div_unique _ _ _ (n - 1)); lia). rewrite R.
    unfold subplots. cbn [Nat.eqb]. destruct c as [|[|c']]; try lia. set (c := S (S c')) in *. cbn [rbind].
    assert (H : draw (Row c) 1 c n 0 0 = Ok (map (fun j => (j / c, j mod c)) (seq 0 n), n / c)).
    { assert (DR := draw_spec (Row c) 1 c n ltac:(lia)). specialize (fun A => DR A n 0 eq_refl). rewrite (Nat.div_small 0), (Nat.mod_small 0) in DR by lia. apply DR. intros i I. replace (1 <? 1) with false by reflexivity.
      rewrite Nat.div_small, Nat.mod_small by lia. unfold item. destruct (Nat.ltb_spec i c); [reflexivity|lia]. }
    rewrite H. cbn [rbind fst snd]. rewrite Nat.mod_small, Nat.div_small by lia. destruct (Nat.eqb_spec n 0); [lia|]. cbn [negb]. destruct (c - n) as [|k] eqn:K; [lia|]. cbn [seq rmapM item2].
    destruct (Nat.ltb_spec 0 c); [reflexivity|lia].
  - intros n N. unfold make_grid. cbn [Nat.eqb]. replace (n + 1 - 1) with n by lia. rewrite Nat.div_1_r. unfold subplots. destruct (Nat.eqb_spec n 0); [lia|]. cbn [rbind].
    destruct n as [|[|n]]; [lia|reflexivity|]. reflexivity.
  - intros P. unfold make_grid. destruct (Nat.eqb_spec c 0); [lia|]. rewrite Nat.div_small by lia. reflexivity.
Qed.
Print Assumptions C360_grid_refuted.

(** ** C361: the distances of the layout are symmetric and given by the score of the elements in their order. *)
Section C361.
  Context {E : Type} {EE : EqD E} {S : Type} (score : E -> E -> S).
  Lemma dneq (x y : E) : x <> y -> deqb x y = false. Proof. apply deqb_neq. Qed.
  Lemma notin_mem (x : E) l : ~ In x l -> mem x l = false. Proof. intros N. destruct (mem x l) eqn:M; [|reflexivity]. apply mem_In in M. contradiction. Qed.
  Lemma mem_cons (x b : E) l : mem x (b :: l) = deqb x b || mem x l. Proof. reflexivity. Qed.
  Definition row (a : E) (l : list E) (d : dict (E * E) S) := fold_left (fun d b => dset (dset d (a, b) (score a b)) (b, a) (score a b)) l d.
  Lemma row_spec a l : forall d, ~ In a l -> NoDup l -> forall x y,
    dget (row a l d) (x, y) = if deqb x a && mem y l then Some (score a y) else if deqb y a && mem x l then Some (score a x) else dget d (x, y).
  Proof.
    unfold row. induction l as [|b l IH]; intros d N U x y; [cbn; rewrite !andb_false_r; reflexivity|]. cbn [fold_left]. inversion U as [|? ? U1 U2]; subst.
    assert (Nb : a <> b) by (intros ->; apply N; left; reflexivity). assert (Na : ~ In a l) by (intros I; apply N; right; exact I).
    rewrite IH by assumption. rewrite !dset_spec, !mem_cons. destruct (eqd (x, y) (b, a)) as [X|X]; [injection X as -> ->|].
    - rewrite (dneq b a), !deqb_refl by congruence. cbn. rewrite (notin_mem b l) by assumption. reflexivity.
    - destruct (eqd (x, y) (a, b)) as [Y|Y]; [injection Y as -> ->|].
      + rewrite !deqb_refl. cbn. rewrite (notin_mem b l) by assumption. rewrite (dneq b a) by congruence. reflexivity.
      + destruct (deqb x a) eqn:A; [apply deqb_true in A as ->; rewrite (dneq y b) by congruence; rewrite (dneq a b) by assumption; reflexivity|]. cbn.
        destruct (deqb y a) eqn:B; [apply deqb_true in B as ->; rewrite (dneq x b) by congruence; reflexivity|]. reflexivity.
  Qed.
  Lemma head_spec a l d : ~ In a l -> NoDup l -> forall x y, dget (row a (a :: l) d) (x, y) =
    if deqb x a && mem y (a :: l) then Some (score a y) else if deqb y a && mem x (a :: l) then Some (score a x) else dget d (x, y).
  Proof.
    intros N U x y. change (row a (a :: l) d) with (row a l (dset (dset d (a, a) (score a a)) (a, a) (score a a))). rewrite row_spec by assumption. rewrite !dset_spec, !mem_cons.
    destruct (eqd (x, y) (a, a)) as [X|X]; [injection X as -> ->; rewrite !deqb_refl, (notin_mem a l) by assumption; reflexivity|].
    destruct (deqb x a) eqn:A; [apply deqb_true in A as ->; rewrite (dneq y a) by congruence; reflexivity|]. reflexivity.
  Qed.
  Lemma distances_spec l : NoDup l -> forall d,
    (forall x y, before x y l -> dget (distances score l d) (x, y) = Some (score x y) /\ dget (distances score l d) (y, x) = Some (score x y)) /\
    (forall x y, ~ In x l \/ ~ In y l -> dget (distances score l d) (x, y) = dget d (x, y)).
  Proof.
    induction l as [|a l IH]; intros U d; [split; [intros x y B; inversion B|reflexivity]|]. inversion U as [|? ? U1 U2]; subst.
    change (distances score (a :: l) d) with (distances score l (row a (a :: l) d)). destruct (IH U2 (row a (a :: l) d)) as [P Q]. split.
    - intros x y B. inversion B as [? H|? ? H]; subst; [|apply P; exact H]. rewrite !Q by auto. rewrite !head_spec by assumption. rewrite !mem_cons, !deqb_refl.
      destruct (deqb y a) eqn:Z; [apply deqb_true in Z as ->; cbn; auto|]. destruct H as [->|H]; [rewrite deqb_refl in Z; discriminate|]. apply mem_In in H. rewrite H. cbn. auto.
    - intros x y N. rewrite Q by (destruct N as [N|N]; [left|right]; intros I; apply N; right; exact I). rewrite head_spec by assumption.
      destruct N as [N|N].
      + rewrite (dneq x a) by (intros ->; apply N; left; reflexivity). rewrite (notin_mem x (a :: l)) by exact N. rewrite andb_false_r. reflexivity.
      + rewrite (notin_mem y (a :: l)) by exact N. rewrite (dneq y a) by (intros ->; apply N; left; reflexivity). rewrite andb_false_r. reflexivity.
  Qed.
End C361.
Theorem C361_distances : forall {E S : Type} {EE : EqD E} (score : E -> E -> S) l, NoDup l ->
  (forall x y, before x y l -> dget (distances score l []) (x, y) = Some (score x y) /\ dget (distances score l []) (y, x) = Some (score x y)) /\
  (forall x y, In x l -> In y l -> dget (distances score l []) (x, y) <> None /\ dget (distances score l []) (x, y) = dget (distances score l []) (y, x)) /\
  (forall x y, ~ In x l \/ ~ In y l -> dget (distances score l []) (x, y) = None).
Proof.
  intros E S EE score l U. destruct (distances_spec score l U []) as [P Q]. split; [exact P|]. split; [|exact Q].
  assert (T : forall (x y : E) l, In x l -> In y l -> before x y l \/ before y x l).
  { clear. intros x y l. induction l as [|a l IH]; intros I J; [destruct I|]. destruct I as [->|I]; [left; apply bf_here; destruct J; auto|].
    destruct J as [->|J]; [right; apply bf_here; auto|]. destruct (IH I J); [left|right]; apply bf_later; assumption. }
  intros x y I J. destruct (T x y l I J) as [B|B]; destruct (P _ _ B) as [H1 H2]; rewrite H1, H2; split; congruence.
Qed.
Print Assumptions C361_distances.
Example C361_ex : dget (distances (fun a b => a - b) [7; 3] []) (3, 7) = Some 4 /\ NoDup [7; 3]. Proof. split; [reflexivity|]. repeat constructor; cbn; intuition discriminate. Qed.

(** ** C362: the graph of the other layout has exactly one edge for each pair of elements, including the elements themselves. *)
Theorem C362_attractions : forall {E S : Type} (score : E -> E -> S) l,
  (forall x y s, In (x, y, s) (attractions score l) <-> before x y l /\ s = score x y) /\ 2 * List.length (attractions score l) = List.length l * (List.length l + 1).
Proof.
  intros E S score l. split.
  - intros x y s. induction l as [|a l IH]; [split; [intros []|intros [B _]; inversion B]|]. cbn [attractions]. rewrite in_app_iff, in_map_iff, IH. split.
    + intros [(b & Q & I)|[B ->]]; [injection Q as <- <- <-; split; [|reflexivity]; apply bf_here; cbn in I; destruct I; auto|split; [apply bf_later; exact B|reflexivity]].
    + intros [B ->]. inversion B as [? H|? ? H]; subst; [left; exists y; split; [reflexivity|]; destruct H; [left; auto|right; assumption]|right; auto].
  - induction l as [|a l IH]; [reflexivity|]. cbn [attractions]. rewrite app_length, map_length. cbn [List.length]. lia.
Qed.
Print Assumptions C362_attractions.
Example C362_ex : attractions (fun a b => a * b) [2; 5] = [(2, 2, 4); (2, 5, 10); (5, 5, 25)]. Proof. reflexivity. Qed.
