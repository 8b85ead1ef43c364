(** Property theorems for C34 (discounted operator costs) and C75 (integrating plans and recommending operators). *)
From Coq Require Import List Bool Arith QArith Lia.
From Verif Require Import PyBase Tonic_model Tonic_spec.
Import ListNotations.
Local Open Scope nat_scope.

(** * C34 *)
Lemma sum_map_scale g (f : nat -> Q) l : (fold_right Qplus 0 (map (fun i => g * f i) l) == g * fold_right Qplus 0 (map f l))%Q.
Proof. induction l as [|x l IH]; cbn; [ring|]. rewrite IH. ring. Qed.
Lemma sum_ext (f h : nat -> Q) l : (forall i, In i l -> (f i == h i)%Q) -> (fold_right Qplus 0 (map f l) == fold_right Qplus 0 (map h l))%Q.
Proof. induction l as [|x l IH]; intros H; cbn; [reflexivity|]. rewrite IH by (intros; apply H; now right). rewrite (H x) by now left. reflexivity. Qed.
Lemma discounted_snoc g cs c : (discounted g (cs ++ [c]) == c + g * discounted g cs)%Q.
Proof.
  unfold discounted. rewrite app_length, Nat.add_comm. cbn [length Nat.add seq map fold_right]. rewrite rev_app_distr. cbn [rev app nth Z.of_nat].
  rewrite <- seq_shift, map_map. cbn [qpow]. rewrite <- sum_map_scale.
  assert (E : forall i, In i (seq 0 (length cs)) -> (qpow g (S i) * nth (S i) (c :: rev cs) 0 == g * (qpow g i * nth i (rev cs) 0))%Q).
  { intros i _. cbn [nth qpow]. ring. }
  rewrite (sum_ext _ _ _ E). ring.
Qed.

Definition run_updates (gamma : Q) (hist : list (op * Q)) (d : dict op Q) : res (dict op Q) :=
  fold_left (fun r h => rbind r (fun d => update_costs gamma d (Some (fst h)) (CFin (snd h)))) hist (Ok d).
(** C34: after any history of updates the cost of an operator is the discounted sum of its costs (plus the discounted old
    value, if it had one); operators that do not occur in the history keep their entry. *)
Theorem C34_history : forall gamma hist d, exists d', run_updates gamma hist d = Ok d' /\
  forall o, match costs_of o hist with
            | [] => dget d' o = dget d o
            | cs => exists v, dget d' o = Some v /\
                      (v == discounted gamma cs + qpow gamma (length cs) * match dget d o with Some x => x | None => 0 end)%Q
            end.
Proof.
  intros gamma hist d. induction hist as [|[o c] hist IH] using rev_ind.
  - exists d. split; [reflexivity|]. intros o. reflexivity.
  - destruct IH as [d1 [E1 H1]]. unfold run_updates in *. rewrite fold_left_app, E1. cbn [fold_left rbind fst snd update_costs].
    eexists. split; [reflexivity|]. intros o'. specialize (H1 o'). unfold costs_of in *. rewrite filter_app, map_app. cbn [filter fst].
    destruct (Nat.eqb_spec o o') as [->|Hne]; cbn [map snd].
    + unfold op in *. set (cs := map snd (filter (fun h : nat * Q => Nat.eqb (fst h) o') hist)) in *.
      assert (G : exists v, dget (dset d1 o' (c + gamma * match dget d1 o' with Some x => x | None => 0 end)%Q) o' = Some v /\
        (v == discounted gamma (cs ++ [c]) + qpow gamma (length (cs ++ [c])) * match dget d o' with Some x => x | None => 0 end)%Q).
      { rewrite dset_same. eexists. split; [reflexivity|]. rewrite discounted_snoc, app_length, Nat.add_comm. cbn [length Nat.add qpow].
        destruct cs as [|x cs'].
        - rewrite H1. cbn. ring.
        - destruct H1 as [v [-> Hv]]. rewrite Hv. ring. }
      destruct (cs ++ [c]) eqn:E; [now apply app_eq_nil in E|]. exact G.
    + rewrite app_nil_r, dset_other by congruence. exact H1.
Qed.
Print Assumptions C34_history.
Example C34_ex : exists v, rmap (fun d => dget d 3) (run_updates (1 # 2) [(3, 8%Q); (4, 7%Q); (3, 6%Q); (3, 5%Q)] []) = Ok (Some v) /\ (v == 10)%Q.
Proof. eexists. split; reflexivity. Qed.

Lemma argminQ_spec : forall d best, exists v, In (argminQ best d, v) (best :: d) /\ forall o' v', In (o', v') (best :: d) -> (v <= v')%Q.
Proof.
  induction d as [|kv d IH]; intros best.
  - exists (snd best). cbn. split; [left; now destruct best|]. intros o' v' [->|[]]. apply Qle_refl.
  - cbn [argminQ]. destruct (Qle_bool (snd best) (snd kv)) eqn:E; cbn [negb].
    + apply Qle_bool_iff in E. destruct (IH best) as [v [H1 H2]]. exists v. split; [destruct H1 as [H1|H1]; [left|right; right]; easy|].
      intros o' v' [H|[H|H]]; [apply (H2 o'); now left| |apply (H2 o'); now right]. subst kv.
      apply (Qle_trans _ (snd best)); [apply (H2 (fst best)); left; now destruct best|exact E].
    + destruct (IH kv) as [v [H1 H2]]. exists v. split; [right; exact H1|].
      intros o' v' [H|H]; [|now apply (H2 o')]. subst best.
      apply (Qle_trans _ (snd kv)); [apply (H2 (fst kv)); left; now destruct kv|].
      destruct (Qlt_le_dec (snd kv) v'); [now apply Qlt_le_weak|]. exfalso. cbn [snd] in E. apply Bool.not_true_iff_false in E. apply E. now apply Qle_bool_iff.
Qed.
(** C34: the recommendation is a stored operator with minimal cost, given as soon as there are two operators to choose from. *)
Theorem C34_recommendation : forall d, dwf d ->
  match current_recommendation d with
  | Some o => exists v, dget d o = Some v /\ forall o' v', dget d o' = Some v' -> (v <= v')%Q
  | None => length d <= 1
  end.
Proof.
  intros d Hd. destruct d as [|kv [|kv2 d]]; cbn [current_recommendation length]; try lia.
  destruct (argminQ_spec (kv2 :: d) kv) as [v [H1 H2]]. exists v. split.
  - apply In_dget; [exact Hd|exact H1].
  - intros o' v' H. apply (H2 o'). now apply dget_In.
Qed.
Print Assumptions C34_recommendation.
Example C34_recommendation_ex : current_recommendation [(3, 10%Q); (4, 7%Q); (5, 7%Q)] = Some 4.
Proof. reflexivity. Qed.
(** C34: invalid updates are refused. *)
Theorem C34_invalid : forall gamma d o c, update_costs gamma d o c = Raise ValueError <-> o = None \/ c = CInfinite \/ c = CNaN.
Proof. intros gamma d [o|] [q| |]; cbn; split; intros H; try discriminate; auto; destruct H as [H|[H|H]]; discriminate. Qed.
Print Assumptions C34_invalid.

(** * C75 *)
Section Paths.
  Variables (tlt : tab -> tab -> bool) (fa : bool) (filt : tab -> option nat) (gamma : Q).
  Let mk := make_id fa filt.
  Definition bump (d : dict op Q) (o : op) (c : Q) : dict op Q := dset d o (c + gamma * match dget d o with Some x => x | None => 0 end)%Q.

  Lemma node_at_set n i c j q : node_at (set_child n i c) (j :: q) = if eqd j i then node_at c q else node_at n (j :: q).
  Proof. destruct n as [cs ch s]. cbn [set_child node_at children]. rewrite dset_spec. now destruct (eqd j i). Qed.
  Lemma node_at_child n i q : node_at (child n i) q = node_at n (i :: q).
  Proof. reflexivity. Qed.
  Lemma node_update_spec n o c : exists n', node_update gamma n o c = Ok n' /\ costs n' = bump (costs n) o c /\ subquery n' = subquery n /\
    forall i q, node_at n' (i :: q) = node_at n (i :: q).
  Proof. destruct n as [cs ch s]. eexists. cbn. repeat split. Qed.

  (** The joins above the first one: their tables and costs. *)
  Inductive chain : list plan -> list (tab * (op * Q)) -> Prop :=
  | chain_nil : chain [] []
  | chain_outer o c l t rest xs : has_join l = true -> scan_branch l = false -> chain rest xs -> chain (PJoin o c l (PScan t) :: rest) ((t, (o, c)) :: xs)
  | chain_inner o c r t rest xs : has_join r = true -> scan_branch r = false -> chain rest xs -> chain (PJoin o c (PScan t) r :: rest) ((t, (o, c)) :: xs).
  Definition ids (xs : list (tab * (op * Q))) (k : nat) : list qid := map mk (firstn k (map fst xs)).
  (** [n'] is [n] with the updates [xs] along their path. *)
  Definition updated (n n' : qnode) (xs : list (tab * (op * Q))) : Prop :=
    (forall k t o c, nth_error xs k = Some (t, (o, c)) -> costs (node_at n' (ids xs (k + 1))) = bump (costs (node_at n (ids xs (k + 1)))) o c) /\
    (forall path, (forall k, k < length xs -> path <> ids xs (k + 1)) -> costs (node_at n' path) = costs (node_at n path)) /\
    (forall path, subquery (node_at n' path) = subquery (node_at n path)).

  Lemma set_child_top n i c : costs (set_child n i c) = costs n /\ subquery (set_child n i c) = subquery n.
  Proof. now destruct n. Qed.
  Lemma updated_step n t o c ch ch' xs : node_update gamma (child n (mk t)) o c = Ok ch -> updated ch ch' xs ->
    updated n (set_child n (mk t) ch') ((t, (o, c)) :: xs).
  Proof.
    intros Hu (H1 & H2 & H3). destruct (node_update_spec (child n (mk t)) o c) as [ch0 (E0 & C0 & S0 & N0)]. rewrite Hu in E0. injection E0 as <-.
    destruct (set_child_top n (mk t) ch') as [T1 T2].
    assert (Htop : costs ch' = costs ch).
    { apply (H2 []). intros k Hk. unfold ids. destruct xs as [|x xs]; [cbn in Hk; lia|]. rewrite Nat.add_1_r. discriminate. }
    split; [|split].
    - intros k t' o' c' Hk. destruct k as [|k].
      + cbn [nth_error] in Hk. injection Hk as <- <- <-. cbn [ids Nat.add map fst firstn]. rewrite node_at_set. destruct (eqd (mk t) (mk t)) as [_|Hne]; [|congruence].
        cbn [node_at]. fold (child n (mk t)). rewrite Htop. exact C0.
      + cbn [nth_error] in Hk. specialize (H1 k t' o' c' Hk).
        assert (Ei : ids ((t, (o, c)) :: xs) (S k + 1) = mk t :: ids xs (k + 1)) by reflexivity. rewrite Ei, node_at_set.
        destruct (eqd (mk t) (mk t)) as [_|Hne]; [|congruence]. rewrite H1. f_equal.
        assert (Hn : exists i q, ids xs (k + 1) = i :: q).
        { rewrite Nat.add_1_r. destruct xs as [|x xs]; [destruct k; discriminate Hk|]. unfold ids. cbn. eauto. }
        destruct Hn as (i & q & ->). rewrite (N0 i q). reflexivity.
    - intros path Hp. destruct path as [|j q]; [exact T1|]. rewrite node_at_set. destruct (eqd j (mk t)) as [->|Hj]; [|reflexivity].
      assert (Hq : q <> []). { intros ->. apply (Hp 0); [cbn; lia|reflexivity]. }
      rewrite H2.
      + destruct q as [|i q]; [easy|]. rewrite N0. reflexivity.
      + intros k Hk Hqk. apply (Hp (S k)); [cbn; lia|]. rewrite Hqk. reflexivity.
    - intros path. destruct path as [|j q]; [exact T2|]. rewrite node_at_set. destruct (eqd j (mk t)) as [->|Hj]; [|reflexivity].
      rewrite H3. destruct q as [|i q]; [exact S0|]. rewrite N0. reflexivity.
  Qed.
  Lemma updated_nil n : updated n n [].
  Proof. split; [intros [|k]; discriminate|]. split; auto. Qed.

  Lemma integrate_chain : forall joins xs, chain joins xs -> forall fuel n skip, length joins < fuel ->
    exists n', integrate tlt fa filt gamma fuel n joins skip = Ok n' /\ updated n n' xs.
  Proof.
    induction 1 as [|o c l t rest xs Hl Hs Hc IH|o c r t rest xs Hr Hs Hc IH]; intros fuel n skip Hf; (destruct fuel as [|fuel]; [cbn in Hf; lia|]).
    - exists n. split; [reflexivity|apply updated_nil].
    - cbn [integrate]. unfold bushy. rewrite Hl. cbn [has_join andb]. rewrite Hs. cbn [andb fetch_base].
      destruct (node_update_spec (child n (mk t)) o c) as [ch [E _]]. fold (mk t). rewrite E. cbn [rbind].
      destruct (IH fuel ch false) as [ch' [E' U']]; [cbn [length] in Hf; lia|]. rewrite E'. cbn [rbind].
      eexists. split; [reflexivity|]. now apply (updated_step n t o c ch ch' xs).
    - cbn [integrate]. unfold bushy. rewrite Hr. cbn [has_join andb scan_branch]. rewrite Hs. cbn [andb fetch_base].
      destruct (node_update_spec (child n (mk t)) o c) as [ch [E _]]. fold (mk t). rewrite E. cbn [rbind].
      destruct (IH fuel ch false) as [ch' [E' U']]; [cbn [length] in Hf; lia|]. rewrite E'. cbn [rbind].
      eexists. split; [reflexivity|]. now apply (updated_step n t o c ch ch' xs).
  Qed.
  Lemma chain_snoc joins xs j x : chain joins xs -> chain [j] [x] -> chain (joins ++ [j]) (xs ++ [x]).
  Proof. induction 1 as [| |]; intros H'; [exact H'| |]; cbn [app]; constructor; auto. Qed.

  Lemma linear_chain p ts js : linear_plan tlt p ts js -> has_join p = true /\ scan_branch p = false /\ 2 <= depth p /\ length (iterate p) < psize p /\
    exists o c a b rest xs, iterate p = PJoin o c (PScan a) (PScan b) :: rest /\ chain rest xs /\
      ts = [smaller tlt a b; larger tlt a b] ++ map fst xs /\ js = (o, c) :: map snd xs.
  Proof.
    induction 1 as [o c a b|o c p t ts js H IH|o c p t ts js H IH].
    - cbn. repeat split; try lia. exists o, c, a, b, [], []. repeat split. constructor.
    - destruct IH as (I1 & I2 & I3 & I4 & o0 & c0 & a & b & rest & xs & E & Hc & -> & ->). repeat split; auto.
      + cbn [depth]. lia.
      + cbn [iterate depth psize]. destruct (Nat.ltb_spec 1 (depth p)); [|lia]. rewrite app_length. cbn [length]. lia.
      + exists o0, c0, a, b, (rest ++ [PJoin o c p (PScan t)]), (xs ++ [(t, (o, c))]). cbn [iterate depth]. destruct (Nat.ltb_spec 1 (depth p)); [|lia].
        rewrite E. repeat split.
        * apply chain_snoc; [exact Hc|]. now repeat constructor.
        * rewrite map_app, <- app_assoc. reflexivity.
        * rewrite map_app. reflexivity.
    - destruct IH as (I1 & I2 & I3 & I4 & o0 & c0 & a & b & rest & xs & E & Hc & -> & ->). repeat split; auto.
      + cbn [depth]. lia.
      + cbn [iterate depth psize]. destruct (Nat.ltb_spec (depth p) 1); [lia|]. rewrite app_length. cbn [length]. lia.
      + exists o0, c0, a, b, (rest ++ [PJoin o c (PScan t) p]), (xs ++ [(t, (o, c))]). cbn [iterate depth]. destruct (Nat.ltb_spec (depth p) 1); [lia|].
        rewrite E. repeat split.
        * apply chain_snoc; [exact Hc|]. now repeat constructor.
        * rewrite map_app, <- app_assoc. reflexivity.
        * rewrite map_app. reflexivity.
  Qed.

  Lemma integrate_linear root p ts js : linear_plan tlt p ts js ->
    exists root', integrate_costs tlt fa filt gamma root p = Ok root' /\
      (forall k o c, nth_error js k = Some (o, c) ->
         costs (node_at root' (map mk (firstn (k + 2) ts))) = bump (costs (node_at root (map mk (firstn (k + 2) ts)))) o c) /\
      (forall path, (forall k, k < length js -> path <> map mk (firstn (k + 2) ts)) -> costs (node_at root' path) = costs (node_at root path)) /\
      (forall path, subquery (node_at root' path) = subquery (node_at root path)).
  Proof.
    intros H. destruct (linear_chain p ts js H) as (_ & _ & _ & Hlen & o & c & a & b & rest & xs & E & Hc & Hts & Hjs).
    unfold integrate_costs. rewrite E. rewrite E in Hlen. cbn [length] in Hlen.
    destruct (2 * psize p) as [|[|fuel]] eqn:Ef; [lia|lia|].
    set (t1 := smaller tlt a b) in *. set (t2 := larger tlt a b) in *.
    assert (Et : (if tlt b a then (b, a) else (a, b)) = (t1, t2)) by (unfold t1, t2, smaller, larger; now destruct (tlt b a)).
    cbn [integrate bushy has_join andb scan_branch fetch_base]. unfold bushy. cbn [has_join andb]. rewrite Et. fold (mk t1) (mk t2).
    destruct (node_update_spec (child (child root (mk t1)) (mk t2)) o c) as [ch [Eu _]]. rewrite Eu. cbn [rbind].
    destruct (integrate_chain rest xs Hc fuel ch false) as [ch' [Ec Uc]]; [lia|]. rewrite Ec. cbn [rbind].
    assert (U := updated_step (child root (mk t1)) t2 o c ch ch' xs Eu Uc). destruct U as (U1 & U2 & U3).
    eexists. split; [reflexivity|]. set (n1 := set_child (child root (mk t1)) (mk t2) ch') in *.
    destruct (set_child_top root (mk t1) n1) as [T1 T2].
    assert (Ei : forall k, map mk (firstn (k + 2) ts) = mk t1 :: ids ((t2, (o, c)) :: xs) (k + 1)).
    { intros k. rewrite Hts. replace (k + 2) with (S (S k)) by lia. replace (k + 1) with (S k) by lia. reflexivity. }
    split; [|split].
    - intros k o' c' Hk. rewrite Ei. rewrite node_at_set. destruct (eqd (mk t1) (mk t1)) as [_|Hne]; [|congruence].
      assert (Hk' : exists t, nth_error ((t2, (o, c)) :: xs) k = Some (t, (o', c'))).
      { rewrite Hjs in Hk. change ((o, c) :: map snd xs) with (map snd ((t2, (o, c)) :: xs)) in Hk. rewrite nth_error_map in Hk.
        destruct (nth_error ((t2, (o, c)) :: xs) k) as [[t [o1 c1]]|]; [|discriminate]. cbn in Hk. injection Hk as -> ->. eauto. }
      destruct Hk' as [t Hk']. apply U1 in Hk'. exact Hk'.
    - intros path Hp. destruct path as [|j q]; [exact T1|]. rewrite node_at_set. destruct (eqd j (mk t1)) as [->|]; [|reflexivity].
      apply U2. intros k Hk ->. apply (Hp k); [rewrite Hjs; cbn [length] in *; now rewrite map_length|]. now rewrite Ei.
    - intros path. destruct path as [|j q]; [exact T2|]. rewrite node_at_set. destruct (eqd j (mk t1)) as [->|]; [|reflexivity]. apply U3.
  Qed.
End Paths.

(** C75: integrating a linear plan updates, for every join, exactly the node at the path of the tables joined so far, with the
    operator and cost of this join; all other nodes (also in subqueries) keep their costs. *)
Theorem C75_integrate_partial : forall tlt fa filt gamma root p ts js, linear_plan tlt p ts js ->
  exists root', integrate_costs tlt fa filt gamma root p = Ok root' /\
    (forall k o c, nth_error js k = Some (o, c) -> let path := map (table_id fa filt) (firstn (k + 2) ts) in
       update_costs gamma (costs (node_at root path)) (Some o) (CFin c) = Ok (costs (node_at root' path))) /\
    (forall path, (forall k, k < length js -> path <> map (table_id fa filt) (firstn (k + 2) ts)) -> costs (node_at root' path) = costs (node_at root path)) /\
    (forall path, subquery (node_at root' path) = subquery (node_at root path)).
Proof.
  intros tlt fa filt gamma root p ts js H. destruct (integrate_linear tlt fa filt gamma root p ts js H) as [root' (E & H1 & H2 & H3)].
  exists root'. split; [exact E|]. split; [|split; [exact H2|exact H3]].
  intros k o c Hk path. specialize (H1 k o c Hk). change (table_id fa filt) with (make_id fa filt) in path. subst path. rewrite H1. reflexivity.
Qed.
Print Assumptions C75_integrate_partial.
Definition tlt0 (a b : tab) : bool := fst a <? fst b.
Definition t (n : nat) : tab := (n, 0).
Definition pl3 (o1 o2 : op) (c1 c2 : Q) : plan := PJoin o2 c2 (PJoin o1 c1 (PScan (t 2)) (PScan (t 1))) (PScan (t 3)).
Example C75_ex : linear_plan tlt0 (pl3 7 8 4%Q 9%Q) [t 1; t 2; t 3] [(7, 4%Q); (8, 9%Q)] /\
  exists r, integrate_costs tlt0 false (fun _ => None) 1%Q empty_node (pl3 7 8 4%Q 9%Q) = Ok r /\
    costs (node_at r [([t 1], None); ([t 2], None)]) = [(7, 4%Q)] /\ costs (node_at r [([t 1], None); ([t 2], None); ([t 3], None)]) = [(8, 9%Q)].
Proof.
  split.
  - unfold pl3. change [t 1; t 2; t 3] with ([smaller tlt0 (t 2) (t 1); larger tlt0 (t 2) (t 1)] ++ [t 3]).
    change [(7, 4%Q); (8, 9%Q)] with ([(7, 4%Q)] ++ [(8, 9%Q)]). apply lin_outer, lin_base.
  - eexists. split; [reflexivity|]. split; reflexivity.
Qed.

(** C75 fails for plans with further nodes: only the deepest branch is followed, so the costs of a join are lost when the other
    branch is a scan below enough auxiliary nodes (say, a sort and a materialisation). *)
Theorem C75_integrate_refuted : exists p, In (PJoin 7 4%Q (PScan (t 1)) (PScan (t 2))) [match p with PJoin _ _ _ r => r | _ => p end] /\
  exists r, integrate_costs tlt0 false (fun _ => None) 1%Q empty_node p = Ok r /\
    r = QNode [] [([t 3], None, QNode [(8, (9 + 1 * 0)%Q)] [] None)] None.
Proof.
  exists (PJoin 8 9%Q (PAux (PAux (PScan (t 3)))) (PJoin 7 4%Q (PScan (t 1)) (PScan (t 2)))). split; [now left|]. eexists. split; reflexivity.
Qed.
Print Assumptions C75_integrate_refuted.

Section Recommend.
  Variables (tlt : tab -> tab -> bool) (fa : bool) (filt : tab -> option nat).
  Let mk := make_id fa filt.
  Lemma canon_drop l : canon (map drop_alias l) = canon l.
  Proof. unfold canon. induction l as [|x l IH]; [reflexivity|]. cbn [map fold_right]. now rewrite IH. Qed.
  (** What the node at the path of [ts] contributes. *)
  Definition advice (root : qnode) (ts : list tab) : list (list tab * op) :=
    match current_recommendation (costs (node_at root (map mk ts))) with Some o => [(canon ts, o)] | None => [] end.
  Inductive tchain : list (jtree * jtree) -> list tab -> Prop :=
  | tchain_nil : tchain [] []
  | tchain_step l t rest ts : t_is_scan l = false -> tchain rest ts -> tchain ((l, TScan t) :: rest) (t :: ts).
  Lemma node_at_app n p q : node_at n (p ++ q) = node_at (node_at n p) q.
  Proof. revert n. induction p as [|i p IH]; intros n; [reflexivity|]. cbn [app node_at]. apply IH. Qed.
  Lemma recommend_chain root : forall joins ts, tchain joins ts -> forall fuel done skip, length joins < fuel ->
    recommend tlt fa filt fuel (node_at root (map mk done)) (map drop_alias done) joins skip =
      Ok (flat_map (fun m => advice root (done ++ firstn m ts)) (seq 0 (length ts))).
  Proof.
    induction 1 as [|l t0 rest ts Hl Hc IH]; intros fuel done skip Hf; (destruct fuel as [|fuel]; [cbn in Hf; lia|]); [reflexivity|].
    cbn [recommend]. rewrite Hl. cbn [t_is_scan negb andb rbind]. fold (mk t0).
    assert (E : child (node_at root (map mk done)) (mk t0) = node_at root (map mk (done ++ [t0]))) by (rewrite map_app, node_at_app; reflexivity).
    rewrite E. replace (map drop_alias done ++ [drop_alias t0]) with (map drop_alias (done ++ [t0])) by now rewrite map_app.
    rewrite IH by (cbn [length] in Hf; lia). cbn [rmap rbind length seq flat_map firstn]. rewrite app_nil_r. do 2 f_equal.
    - unfold advice. rewrite canon_drop. reflexivity.
    - rewrite <- seq_shift, !flat_map_concat_map, map_map. f_equal. apply map_ext. intros m. cbn [firstn]. now rewrite <- app_assoc.
  Qed.
  Lemma tchain_snoc joins ts l x : tchain joins ts -> t_is_scan l = false -> tchain (joins ++ [(l, TScan x)]) (ts ++ [x]).
  Proof. induction 1; intros H'; cbn [app]; constructor; auto. constructor. Qed.
  Lemma left_deep_chain p ts : left_deep tlt p ts -> t_is_scan p = false /\ 2 <= tdepth p /\ length (titerate p) < tsize p /\
    exists a b rest xs, titerate p = (TScan a, TScan b) :: rest /\ tchain rest xs /\ ts = [smaller tlt a b; larger tlt a b] ++ xs.
  Proof.
    induction 1 as [a b|p x ts H IH].
    - cbn. repeat split; try lia. exists a, b, [], []. repeat split. constructor.
    - destruct IH as (I1 & I2 & I3 & a & b & rest & xs & E & Hc & ->). repeat split.
      + cbn [tdepth]. lia.
      + cbn [titerate tdepth tsize]. destruct (Nat.ltb_spec 1 (tdepth p)); [|lia]. rewrite app_length. cbn [length]. lia.
      + exists a, b, (rest ++ [(p, TScan x)]), (xs ++ [x]). cbn [titerate tdepth]. destruct (Nat.ltb_spec 1 (tdepth p)); [|lia].
        rewrite E. repeat split. now apply tchain_snoc.
  Qed.
  Lemma recommend_left_deep root p ts : left_deep tlt p ts ->
    recommend_operators tlt fa filt root p = Ok (flat_map (fun m => advice root (firstn m ts)) (seq 0 (length ts))).
  Proof.
    intros H. destruct (left_deep_chain p ts H) as (_ & _ & Hlen & a & b & rest & xs & E & Hc & Hts).
    unfold recommend_operators. rewrite E in *. cbn [length] in Hlen. destruct (2 * tsize p) as [|[|fuel]] eqn:Ef; [lia|lia|].
    set (t1 := smaller tlt a b) in *. set (t2 := larger tlt a b) in *.
    assert (Et : (if tlt b a then (b, a) else (a, b)) = (t1, t2)) by (unfold t1, t2, smaller, larger; now destruct (tlt b a)).
    cbn [recommend t_is_scan negb andb base_table rbind]. rewrite Et. fold (mk t1) (mk t2).
    change (child (child root (mk t1)) (mk t2)) with (node_at root (map mk [t1; t2])). change ([] ++ [drop_alias t1]) with (map drop_alias [t1]).
    change (map drop_alias [t1] ++ [drop_alias t2]) with (map drop_alias [t1; t2]).
    rewrite (recommend_chain root rest xs Hc) by lia. rewrite Hts. cbn [rmap rbind app length seq flat_map firstn].
    assert (Ef2 : flat_map (fun m => advice root (firstn m (t1 :: t2 :: xs))) (seq 2 (length xs)) =
      flat_map (fun m => advice root (t1 :: t2 :: firstn m xs)) (seq 0 (length xs))).
    { rewrite <- (seq_shift _ 1), <- (seq_shift _ 0), !flat_map_concat_map, !map_map. reflexivity. }
    rewrite Ef2. reflexivity.
  Qed.
End Recommend.

(** C75: for a left-deep join order of [n] tables, the recommendations are those of the nodes on its path, for every proper
    prefix of the tables. *)
Theorem C75_recommend_partial : forall tlt fa filt root p ts, left_deep tlt p ts ->
  recommend_operators tlt fa filt root p =
    Ok (flat_map (fun m => match current_recommendation (costs (node_at root (map (table_id fa filt) (firstn m ts)))) with
                           | Some o => [(canon (firstn m ts), o)] | None => [] end) (seq 0 (length ts))).
Proof. intros. now apply recommend_left_deep. Qed.
Print Assumptions C75_recommend_partial.

(** Two plans for the same join order with different operators, integrated one after the other. *)
Definition trained : qnode :=
  match integrate_costs tlt0 false (fun _ => None) 1%Q empty_node (pl3 7 8 4%Q 9%Q) with
  | Ok r => match integrate_costs tlt0 false (fun _ => None) 1%Q r (pl3 8 7 3%Q 5%Q) with Ok r' => r' | Raise _ => empty_node end
  | Raise _ => empty_node
  end.
Definition order3 : jtree := TJoin (TJoin (TScan (t 2)) (TScan (t 1))) (TScan (t 3)).
Example C75_recommend_ex : left_deep tlt0 order3 [t 1; t 2; t 3] /\ recommend_operators tlt0 false (fun _ => None) trained order3 = Ok [([t 1; t 2], 8)].
Proof. split; [|reflexivity]. change [t 1; t 2; t 3] with ([smaller tlt0 (t 2) (t 1); larger tlt0 (t 2) (t 1)] ++ [t 3]). apply ld_step, ld_base. Qed.
(** C75 fails for the last join: its node has costs for two operators, but no recommendation is given. *)
Theorem C75_recommend_refuted :
  current_recommendation (costs (node_at trained [([t 1], None); ([t 2], None); ([t 3], None)])) = Some 7 /\
  exists rs, recommend_operators tlt0 false (fun _ => None) trained order3 = Ok rs /\ ~ exists o, In ([t 1; t 2; t 3], o) rs.
Proof. split; [reflexivity|]. eexists. split; [reflexivity|]. intros [o [H|[]]]. discriminate. Qed.
Print Assumptions C75_recommend_refuted.
(** ... for right-deep orders: the table of the next join is taken from the wrong child, which may even be a join ... *)
Theorem C75_right_deep_refuted :
  (forall root, exists n, recommend_operators tlt0 false (fun _ => None) root (TJoin (TScan (t 4)) (TJoin (TJoin (TScan (t 1)) (TScan (t 2))) (TScan (t 3)))) = Raise n) /\
  exists root, current_recommendation (costs (node_at root [([t 1], None); ([t 2], None); ([t 3], None)])) = Some 7 /\
    recommend_operators tlt0 false (fun _ => None) root (TJoin (TScan (t 4)) (TJoin (TScan (t 3)) (TJoin (TScan (t 1)) (TScan (t 2))))) = Ok [].
Proof.
  split.
  - intros root. exists StateError. unfold recommend_operators.
    cbn [tsize Nat.mul Nat.add titerate tdepth Nat.max Nat.ltb Nat.leb app recommend t_is_scan negb andb base_table rbind tlt0 t fst].
    cbn. reflexivity.
  - exists (QNode [] [(([t 1], None), QNode [] [(([t 2], None), QNode [] [(([t 3], None), QNode [(7, 1%Q); (8, 2%Q)] [] None)] None)] None)] None). split; reflexivity.
Qed.
Print Assumptions C75_right_deep_refuted.
(** ... and for queries with aliases: the assignment is for tables without aliases, which are not the tables of the query. *)
Theorem C75_alias_refuted : exists root, 
  recommend_operators tlt0 false (fun _ => None) root (TJoin (TJoin (TScan (1, 5)) (TScan (2, 6))) (TScan (3, 7))) = Ok [([(1, 0); (2, 0)], 8)].
Proof. exists trained. reflexivity. Qed.
Print Assumptions C75_alias_refuted.

(** * C76 *)
(** C76 fails: for left-deep join orders of more than two tables, looking for unknown costs always fails with a TypeError, and
    for two tables nothing is reported. *)
Section Detect.
  Variables (tlt : tab -> tab -> bool) (fa : bool) (filt : tab -> option nat) (allowed : list op).
  Lemma detect_left_deep root p ts : left_deep tlt p ts ->
    detect_unknown_costs tlt fa filt allowed root p = if length ts =? 2 then Ok [] else Raise TypeError.
  Proof.
    intros H. destruct (left_deep_chain tlt p ts H) as (_ & _ & Hlen & a & b & rest & xs & E & Hc & Hts).
    unfold detect_unknown_costs. rewrite E in *. cbn [length] in Hlen. destruct (2 * tsize p) as [|[|[|fuel]]] eqn:Ef; [lia|lia|lia|].
    assert (Et : (if tlt b a then (b, a) else (a, b)) = (smaller tlt a b, larger tlt a b)) by (unfold smaller, larger; now destruct (tlt b a)).
    cbn [detect length Nat.leb rbind t_is_scan negb andb base_table]. rewrite Et. cbn [app length Nat.leb rbind].
    rewrite Hts. destruct Hc as [|l x rest xs Hl Hc]; [reflexivity|]. cbn [tables_in_qeps_path rmap rbind app length Nat.eqb]. reflexivity.
  Qed.
End Detect.
Theorem C76_refuted : forall tlt fa filt allowed root p ts, left_deep tlt p ts ->
  detect_unknown_costs tlt fa filt allowed root p = if length ts =? 2 then Ok [] else Raise TypeError.
Proof. exact detect_left_deep. Qed.
Print Assumptions C76_refuted.
Example C76_ex : left_deep tlt0 (TJoin (TScan (t 2)) (TScan (t 1))) [t 1; t 2] /\ detect_unknown_costs tlt0 false (fun _ => None) [7; 8] empty_node (TJoin (TScan (t 2)) (TScan (t 1))) = Ok [].
Proof. split; [exact (ld_base tlt0 (t 2) (t 1))|reflexivity]. Qed.

(** * C77 *)
(** C77 fails for every QEP-S: none can be loaded from its own JSON. *)
Theorem C77_refuted : forall n, load (dump n) = Raise AttributeError.
Proof.
  fix IH 1. intros [cs ch [s|]]; cbn [dump load]; [|reflexivity]. rewrite (IH s). reflexivity.
Qed.
Print Assumptions C77_refuted.
(** C77, what holds: a node without children loads if the key "subquery" is absent. *)
Theorem C77_partial : forall cs, load (JNode cs [] None) = Ok (QNode cs [] None).
Proof. reflexivity. Qed.
Print Assumptions C77_partial.
(** The stored representation is complete: it determines the QEP-S. *)
Theorem C77_json_determines : forall n m, dump n = dump m -> n = m.
Proof.
  fix IH 1. intros [cs ch s] [cs' ch' s'] H. cbn [dump] in H.
  assert (Hc : cs = cs') by congruence.
  assert (Hs : match s with Some s => dump s | None => JNull end = match s' with Some s => dump s | None => JNull end) by congruence.
  assert (Hch : map (fun kv => (fst kv, dump (snd kv))) ch = map (fun kv => (fst kv, dump (snd kv))) ch') by congruence.
  clear H. subst cs'. f_equal.
  - revert ch' Hch. induction ch as [|[i c] ch IHch]; intros [|[i' c'] ch'] Hch; try discriminate Hch; [reflexivity|].
    cbn [map fst snd] in Hch.
    assert (Hi : i = i') by congruence. assert (Hd : dump c = dump c') by congruence.
    rewrite (IH c c' Hd), Hi. f_equal. apply IHch. congruence.
  - destruct s as [s|], s' as [s'|].
    + now rewrite (IH s s' Hs).
    + destruct s. discriminate Hs.
    + destruct s'. discriminate Hs.
    + reflexivity.
Qed.
Print Assumptions C77_json_determines.
(** Loading never silently loses nodes: JSON with children is refused, and what is loaded has the stored costs. *)
Theorem C77_no_silent_loss_partial : forall cs ch sub,
  (forall n, load (JNode cs ch sub) = Ok n -> ch = [] /\ costs n = cs /\ children n = [] /\
     match sub, subquery n with Some j, Some s => load j = Ok s | None, None => True | _, _ => False end)
  /\ (ch <> [] -> exists e, load (JNode cs ch sub) = Raise e).
Proof.
  intros cs ch sub. cbn [load]. split.
  - intros n H. destruct sub as [j|]; cbn [rmap rbind] in H.
    + destruct (load j) as [s|] eqn:E; [|discriminate]. cbn in H. destruct ch; [|discriminate]. injection H as <-. repeat split.
    + destruct ch; [|discriminate]. injection H as <-. repeat split.
  - intros Hne. destruct ch as [|c ch]; [congruence|]. destruct sub as [j|]; cbn [rmap rbind]; [|now eexists].
    destruct (load j); cbn; now eexists.
Qed.
Print Assumptions C77_no_silent_loss_partial.
Example C77_no_silent_loss_ex :
  load (JNode [(1, 3%Q)] [] (Some (JNode [(2, 4%Q)] [] None))) = Ok (QNode [(1, 3%Q)] [] (Some (QNode [(2, 4%Q)] [] None)))
  /\ load (JNode [] [(([(1, 0)], None), JNode [] [] None)] None) = Raise KeyError.
Proof. now split. Qed.
