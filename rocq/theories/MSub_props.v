(** Properties of move_into_subquery. *)
From Coq Require Import List Bool Arith Lia Permutation.
From Verif Require Import PyBase Pred_model Trans_model MSub_model MSub_spec MSub_proofs MSub_sem MSub_top.
Import ListNotations.

(** Numbers; XFun n [] is the constant n. *)
Definition NI : interp nat :=
  mkI nat 0 (fun n _ => n) (fun op a b => match op with OpEq => Some (Nat.eqb a b) | OpLt => Some (a <? b) | _ => None end)
    (fun _ _ _ => None) (fun _ _ => None) (fun op a => match op with UBare => Some (negb (Nat.eqb a 0)) | _ => None end).
Definition cc (t n : nat) := XCol (mkcol (Some t) n).
Definition k (n : nat) := XFun n [].
Definition eq_ (a b : xpr) : prd := PBin OpEq a b.
Definition rowl (l : list nat) : nat -> nat := fun n => nth n l 0.
Definition nov (t : tbl) := false.
(** tables 0, 1 and 2; the columns of table t are 3t, 3t+1, 3t+2 *)
Definition db0 (t : tbl) : list (nat -> nat) :=
  match t with
  | 0 => [rowl [1; 5; 0]; rowl [2; 6; 0]]
  | 1 => [rowl [0; 0; 0; 5; 7; 0]; rowl [0; 0; 0; 6; 8; 0]]
  | 2 => [rowl [0; 0; 0; 0; 0; 0; 7; 70; 0]; rowl [0; 0; 0; 0; 0; 0; 8; 80; 0]]
  | _ => []
  end.

(** SELECT T.z FROM R, S, T WHERE R.a = 1 AND R.x = S.y AND S.w = T.v *)
Definition q0 : query := mkq [cc 2 7] [IDirect 0; IDirect 1; IDirect 2]
  (Some (PAnd [eq_ (cc 0 0) (k 1); eq_ (cc 0 1) (cc 1 3); eq_ (cc 1 4) (cc 2 6)])).
Definition q0' : query := mkq [cc 2 7]
  [IWrap (IDirect 2); IWrap (ISub (mksub [mkcol (Some 0) 0; mkcol (Some 0) 1; mkcol (Some 1) 3; mkcol (Some 1) 4] [0; 1] (Some (PAnd [eq_ (cc 0 0) (k 1); eq_ (cc 0 1) (cc 1 3)]))) 9)]
  (Some (eq_ (cc 9 4) (cc 2 6))).
Example ex_move : move nov dedup [0; 1] 9 q0 = Ok q0'.
Proof. vm_compute. reflexivity. Qed.
Example ex_results : result NI db0 q0 = [[70]] /\ result NI db0 q0' = [[70]].
Proof. vm_compute. split; reflexivity. Qed.

(** C241 *)
Theorem C241_subquery_partial : forall (V : Type) (I : interp V) (db : tbl -> list (nat -> V)) virtual ord ts name q q' F s rest,
  (forall l x, In x (ord l) -> In x l) -> NoDup ts ->
  plain_from q F -> incl ts F -> ~ In name F -> (forall c, In c (q_cols q) -> c_tab c <> Some name) ->
  (forall p, q_where q = Some p -> wfp p = true /\ unmixed p) ->
  move virtual ord ts name q = Ok q' -> q_from q' = rest ++ [IWrap (ISub s name)] ->
  (forall p c t, s_where s = Some p -> In c (pcols xcols p) -> c_tab c = Some t -> In t ts) ->
  (forall p p' y d, s_where s = Some p -> q_where q = Some p' -> In y (conjuncts p) -> In d (conjuncts p') -> y = d \/ ~ within y d) ->
  Permutation (result I db q') (result I db q).
Proof. intros V I db. exact (move_result I db). Qed.
Print Assumptions C241_subquery_partial.
(** the hypotheses hold for the example above *)
Example ex_move_hyps : plain_from q0 [0; 1; 2] /\ (forall p, q_where q0 = Some p -> wfp p = true /\ unmixed p) /\
  exists s rest, q_from q0' = rest ++ [IWrap (ISub s 9)] /\
  (forall p c t, s_where s = Some p -> In c (pcols xcols p) -> c_tab c = Some t -> In t [0; 1]) /\
  (forall p p' y d, s_where s = Some p -> q_where q0 = Some p' -> In y (conjuncts p) -> In d (conjuncts p') -> y = d \/ ~ within y d).
Proof.
  split; [split; [reflexivity|repeat constructor; cbn; intuition discriminate]|]. split.
  { intros p H. injection H as <-. split; [reflexivity|]. intros ps Hp. cbn in Hp. intuition discriminate. }
  eexists. exists [IWrap (IDirect 2)]. split; [reflexivity|]. split.
  - intros p c t H Hc Et. injection H as <-. cbn in Hc. cbn. intuition; subst; cbn in Et; injection Et as <-; auto.
  - intros p p' y d H H' Hy Hd. injection H as <-. injection H' as <-. cbn in Hy, Hd.
    destruct Hy as [<-|[<-|[]]], Hd as [<-|[<-|[<-|[]]]]; try (left; reflexivity); right; intros W; inversion W.
Qed.

(** Predicates are removed from within other predicates as well:
    SELECT T.z FROM R, S, T WHERE S.f AND (S.w = T.v OR (S.y = T.v AND NOT S.f)).  The new condition is S.w = T.v OR S.y = T.v. *)
Definition q1 : query := mkq [cc 2 7] [IDirect 0; IDirect 1; IDirect 2]
  (Some (PAnd [PUn UBare (cc 1 5); POr [eq_ (cc 1 4) (cc 2 6); PAnd [eq_ (cc 1 3) (cc 2 6); PNot (PUn UBare (cc 1 5))]]])).
Definition db1 (t : tbl) : list (nat -> nat) :=
  match t with 0 => [rowl [1; 0; 0]] | 1 => [rowl [0; 0; 0; 7; 9; 1]] | _ => [rowl [0; 0; 0; 0; 0; 0; 7; 70; 0]] end.
Theorem C241_nested_removal_refuted : exists q q' (db : tbl -> list (nat -> nat)), plain_from q [0; 1; 2] /\
  (forall p, q_where q = Some p -> wfp p = true /\ unmixed p) /\
  move nov dedup [0; 1] 9 q = Ok q' /\ result NI db q = [] /\ result NI db q' <> [].
Proof.
  exists q1. eexists. exists db1. split; [split; [reflexivity|repeat constructor; cbn; intuition discriminate]|]. split.
  { intros p H. injection H as <-. split; [reflexivity|]. intros ps Hp. cbn in Hp. destruct Hp as [Hp|[Hp|[]]]; [discriminate|]. injection Hp as <-. split; [cbn; lia|].
    right. intros c [<-|[<-|[]]]; reflexivity. }
  split; [vm_compute; reflexivity|]. split; [vm_compute; reflexivity|]. vm_compute. discriminate.
Qed.
Print Assumptions C241_nested_removal_refuted.

(** The filter part of a disjunction is moved as if it were a condition of its own:
    SELECT R.a FROM R, S, T WHERE (R.a = 1 OR R.x = S.y) *)
Definition q2 : query := mkq [cc 0 0] [IDirect 0; IDirect 1; IDirect 2] (Some (POr [eq_ (cc 0 0) (k 1); eq_ (cc 0 1) (cc 1 3)])).
Theorem C241_mixed_or_refuted : exists q q' (db : tbl -> list (nat -> nat)), plain_from q [0; 1; 2] /\
  move nov dedup [0; 1] 9 q = Ok q' /\ length (result NI db q) <> length (result NI db q').
Proof.
  exists q2. eexists. exists db0. split; [split; [reflexivity|repeat constructor; cbn; intuition discriminate]|].
  split; [vm_compute; reflexivity|]. vm_compute. discriminate.
Qed.
Print Assumptions C241_mixed_or_refuted.

(** The subquery can refer to tables that are not part of it:
    SELECT R.a FROM R, S, T WHERE R.x = S.y AND (R.a = 1 OR T.v = 7) *)
Definition q3 : query := mkq [cc 0 0] [IDirect 0; IDirect 1; IDirect 2]
  (Some (PAnd [eq_ (cc 0 1) (cc 1 3); POr [eq_ (cc 0 0) (k 1); eq_ (cc 2 6) (k 7)]])).
Theorem C241_foreign_column_refuted : exists q q' s p c, plain_from q [0; 1; 2] /\
  (forall p, q_where q = Some p -> wfp p = true /\ unmixed p) /\
  move nov dedup [0; 1] 9 q = Ok q' /\ q_from q' = [IWrap (IDirect 2); IWrap (ISub s 9)] /\
  s_from s = [0; 1] /\ s_where s = Some p /\ In c (pcols xcols p) /\ c_tab c = Some 2.
Proof.
  exists q3. eexists. eexists. eexists. exists (mkcol (Some 2) 6). split; [split; [reflexivity|repeat constructor; cbn; intuition discriminate]|]. split.
  { intros p H. injection H as <-. split; [reflexivity|]. intros ps Hp. cbn in Hp. destruct Hp as [Hp|[Hp|[]]]; [discriminate|]. injection Hp as <-. split; [cbn; lia|].
    left. intros c [<-|[<-|[]]]; reflexivity. }
  split; [vm_compute; reflexivity|]. split; [reflexivity|]. split; [reflexivity|]. split; [reflexivity|]. split; [|reflexivity]. cbn. auto 10.
Qed.
Print Assumptions C241_foreign_column_refuted.

(** An explicit join of exactly the moved tables stays in the FROM clause: its rows are multiplied with those of the subquery.
    SELECT R.a FROM R JOIN S ON R.x = S.y, T *)
Definition q4 : query := mkq [cc 0 0] [IJoin (IDirect 0) (IDirect 1) (Some (eq_ (cc 0 1) (cc 1 3))); IDirect 2] None.
Theorem C241_explicit_join_refuted : exists q q' (db : tbl -> list (nat -> nat)),
  flat_map item_tables (q_from q) = [inl 0; inl 1; inl 2] /\ move nov dedup [0; 1] 9 q = Ok q' /\
  length (result NI db q) < length (result NI db q').
Proof. exists q4. eexists. exists db0. split; [reflexivity|]. split; [vm_compute; reflexivity|]. vm_compute. lia. Qed.
Print Assumptions C241_explicit_join_refuted.

(** Tables that the query does not have are added to it. *)
Theorem C241_other_tables_refuted : exists q q' (db : tbl -> list (nat -> nat)), plain_from q [0; 2] /\
  move nov dedup [0; 1] 9 q = Ok q' /\ length (result NI db q) < length (result NI db q').
Proof.
  exists (mkq [cc 0 0] [IDirect 0; IDirect 2] None). eexists. exists db0. split; [split; [reflexivity|repeat constructor; cbn; intuition discriminate]|].
  split; [vm_compute; reflexivity|]. vm_compute. lia.
Qed.
Print Assumptions C241_other_tables_refuted.

(** C242: what the new query looks like *)
Theorem C242_shape : forall virtual ord ts name q q', move virtual ord ts name q = Ok q' ->
  exists s keep, q_from q' = map IWrap keep ++ [IWrap (ISub s name)] /\ s_from s = ts /\
    (forall i, In i keep <-> In i (q_from q) /\ inside ts i = false) /\
    NoDup (s_cols s) /\ NoDup (map c_name (s_cols s)) /\
    (forall c, In c (s_cols s) <-> In c (q_cols q) /\ exists t, c_tab c = Some t /\ In t ts) /\
    length (q_rest q') = length (q_rest q).
Proof.
  intros virtual ord ts name q q' Hmove. unfold move in Hmove. destruct (q_from q) as [|i0 l0] eqn:EF; [discriminate|]. rewrite <- EF in *.
  destruct (existsb _ (q_tables q)); [discriminate|]. destruct (existsb _ (q_tables q)); [discriminate|].
  destruct (length ts <? 2); [discriminate|].
  destruct (sub_preds ord ts (q_pred q)) as [sp|]; cbn [rbind] in Hmove; [|discriminate].
  set (cols := filter _ _) in Hmove. destruct (length (dedup (map c_name cols)) <? length cols) eqn:Hu; [discriminate|]. apply Nat.ltb_ge in Hu.
  destruct cols as [|c0 cs0] eqn:Ecols; [discriminate|]. rewrite <- Ecols in *. injection Hmove as <-. cbn [q_from q_rest].
  exists (mksub cols ts (and_opt sp)). exists (filter (fun i => negb (inside ts i)) (q_from q)). cbn [s_from s_cols].
  split; [reflexivity|]. split; [reflexivity|]. split.
  { intros i. rewrite filter_In, negb_true_iff. reflexivity. }
  split; [subst cols; apply NoDup_filter, dedup_NoDup|]. split; [apply NoDup_len_dedup; rewrite map_length; exact Hu|]. split; [|apply map_length].
  intros c. unfold cols. rewrite filter_In, dedup_In. split; intros [H1 H2]; (split; [exact H1|]).
  - destruct (c_tab c) as [t|]; [|discriminate]. exists t. split; [reflexivity|]. apply mem_In. exact H2.
  - destruct H2 as (t & -> & Ht). apply mem_In. exact Ht.
Qed.
Print Assumptions C242_shape.
(** No column of a moved table is used outside of the subquery. *)
Theorem C242_renamed : forall virtual ord ts name q q', move virtual ord ts name q = Ok q' -> ~ In name ts ->
  forall e c, In e (q_rest q') -> In c (xcols e) -> forall t, c_tab c = Some t -> ~ In t ts.
Proof.
  intros virtual ord ts name q q' Hmove Hn e c He Hc t Et Ht. unfold move in Hmove. destruct (q_from q) as [|i0 l0] eqn:EF; [discriminate|]. rewrite <- EF in *.
  destruct (existsb _ (q_tables q)); [discriminate|]. destruct (existsb _ (q_tables q)); [discriminate|].
  destruct (length ts <? 2); [discriminate|].
  destruct (sub_preds ord ts (q_pred q)) as [sp|]; cbn [rbind] in Hmove; [|discriminate].
  set (cols := filter _ _) in Hmove. destruct (length (dedup (map c_name cols)) <? length cols) eqn:Hu; [discriminate|].
  destruct cols as [|c0 cs0] eqn:Ecols; [discriminate|]. rewrite <- Ecols in *. injection Hmove as <-. cbn [q_rest] in He.
  apply in_map_iff in He as (e0 & <- & He).
  assert (X : exists c1, In c1 (xcols e0) /\ c = (if mem c1 cols then mkcol (Some name) (c_name c1) else c1)).
  { clear He. revert c Hc Et. induction e0 as [c1|n l IH] using xpr_ind'; intros c Hc Et.
    - cbn in Hc. destruct Hc as [<-|[]]. exists c1. split; [left; reflexivity|reflexivity].
    - cbn in Hc. apply in_flat_map in Hc as (e1 & He1 & Hc). apply in_map_iff in He1 as (e2 & <- & He2). rewrite Forall_forall in IH.
      destruct (IH e2 He2 c Hc Et) as (c1 & H1 & H2). exists c1. split; [cbn; apply in_flat_map; eauto|exact H2]. }
  destruct X as (c1 & H1 & ->). destruct (mem c1 cols) eqn:M; [cbn in Et; injection Et as <-; exact (Hn Ht)|].
  apply mem_nIn in M. apply M. unfold cols. apply filter_In. rewrite dedup_In, Et. split; [|apply mem_In; exact Ht].
  unfold q_cols. apply in_app_iff. left. apply in_flat_map. eauto.
Qed.
Print Assumptions C242_renamed.
(** The tables of the new query are not tables: moving tables of it again, or asking for one, fails. *)
Theorem C242_tables_refuted : exists q q', move nov dedup [0; 1] 9 q = Ok q' /\
  In (inr (IDirect 2)) (q_tables q') /\ ~ In (inl 0) (flat_map item_tables (q_from q')) /\ ~ In (inl 2) (flat_map item_tables (q_from q')) /\
  forall virtual ord ts name, move virtual ord ts name q' = Raise AttributeError \/ move virtual ord ts name q' = Raise ValueError.
Proof.
  exists q0, q0'. split; [vm_compute; reflexivity|]. split; [left; reflexivity|]. split; [cbn; intuition discriminate|]. split; [cbn; intuition discriminate|].
  intros virtual ord ts name. unfold move. cbn [q_from q0']. destruct (existsb _ _); [right; reflexivity|]. left. reflexivity.
Qed.
Print Assumptions C242_tables_refuted.

(** C243: what is rejected *)
Theorem C243_rejected : forall virtual ord ts name q,
  (q_from q = [] -> move virtual ord ts name q = Raise ValueError) /\
  ((exists t, In (inl t) (q_tables q) /\ virtual t = true) -> move virtual ord ts name q = Raise ValueError) /\
  (forall q', move virtual ord ts name q = Ok q' -> 2 <= length ts /\
     (forall t, In (inl t) (q_tables q) -> virtual t = false) /\
     (forall c d, In c (q_cols q) -> In d (q_cols q) -> c_name c = c_name d -> c <> d -> (exists t, c_tab c = Some t /\ In t ts) -> ~ exists t, c_tab d = Some t /\ In t ts) /\
     exists c t, In c (q_cols q) /\ c_tab c = Some t /\ In t ts).
Proof.
  intros virtual ord ts name q. split; [|split].
  - intros H. unfold move. rewrite H. reflexivity.
  - intros (t & Ht & Hv). unfold move. destruct (q_from q); [reflexivity|]. replace (existsb _ (q_tables q)) with true; [reflexivity|]. symmetry. apply existsb_exists. exists (inl t). auto.
  - intros q' H. destruct (C242_shape _ _ _ _ _ _ H) as (s & keep & _ & _ & _ & _ & Hu & Hc & _). unfold move in H. destruct (q_from q) as [|i0 l0]; [discriminate|].
    destruct (existsb _ (q_tables q)) eqn:E1; [discriminate H|]. destruct (existsb _ (q_tables q)) eqn:E2 in H; [discriminate H|]. destruct (length ts <? 2) eqn:E3 in H; [discriminate H|]. apply Nat.ltb_ge in E3.
    split; [exact E3|]. split; [|split].
    + intros t Ht. destruct (virtual t) eqn:Ev; [|reflexivity]. rewrite <- E1. symmetry. apply existsb_exists. exists (inl t). auto.
    + intros c d Ic Id En Ne Tc Td. pose proof (proj2 (Hc c) (conj Ic Tc)) as Sc. pose proof (proj2 (Hc d) (conj Id Td)) as Sd. apply Ne.
      pose proof (find_name (s_cols s) c Hu Sc) as F1. pose proof (find_name (s_cols s) d Hu Sd) as F2. rewrite En in F1. rewrite F1 in F2. injection F2 as ->. reflexivity.
    + destruct (sub_preds ord ts (q_pred q)) as [sp|]; cbn [rbind] in H; [|discriminate]. set (cols := filter _ _) in H. destruct (length (dedup (map c_name cols)) <? length cols) eqn:E4 in H; [discriminate|].
      destruct cols as [|c0 cs] eqn:Ec; [discriminate|]. assert (X : In c0 cols) by (rewrite Ec; left; reflexivity). unfold cols in X. apply filter_In in X as [X1 X2]. rewrite dedup_In in X1.
      destruct (c_tab c0) as [t|] eqn:Et; [|discriminate]. exists c0, t. split; [exact X1|]. split; [exact Et|]. apply mem_In. exact X2.
Qed.
Print Assumptions C243_rejected.
(** Tables of which no column is used cannot be moved, e.g. SELECT T.z FROM R, S, T *)
Example ex_no_columns : move nov dedup [0; 1] 9 (mkq [cc 2 7] [IDirect 0; IDirect 1; IDirect 2] None) = Raise ValueError.
Proof. vm_compute. reflexivity. Qed.
(** Two columns of the same name *)
Example ex_same_name : move nov dedup [0; 1] 9 (mkq [cc 0 7; cc 1 7] [IDirect 0; IDirect 1; IDirect 2] None) = Raise ValueError.
Proof. vm_compute. reflexivity. Qed.
