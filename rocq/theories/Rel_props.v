(** C91-C94: translating queries to relational algebra. *)
From Coq Require Import List Bool Arith Permutation Lia.
From Verif Require Import PyBase Pred_model Pred_spec Pred_proofs Rel_model Rel_spec Rel_proofs RelP_proofs RelF_proofs RelM_proofs RelT_proofs RelA_proofs.
Import ListNotations.

(** *** A small DBMS for the examples *)
(** Values are numbers; functions, arithmetic and so on add up their arguments, aggregates sum over the rows of a group. *)
Fixpoint nval (g : list (col -> nat)) (e : rx) : nat :=
  match e with
  | RVal v => v
  | RStar => length g
  | RCol c => fold_right (fun (r : col -> nat) n => Nat.max (r c) n) 0 g
  | RApp (KAgg _) l => list_sum (map (fun r => list_sum (map (nval [r]) l)) g)
  | RApp _ l => list_sum (map (nval g) l)
  end.
Definition nop (op : binop) (a b : nat) : tv :=
  match op with
  | OpEq => if a =? b then T3 else F3
  | OpGe => if b <=? a then T3 else F3
  | OpGt => if b <? a then T3 else F3
  | _ => U3
  end.
Definition nsem : rsem nat := Build_rsem nat nval nop (fun _ _ => F3).
Lemma max_perm (l m : list nat) : Permutation l m -> fold_right Nat.max 0 l = fold_right Nat.max 0 m.
Proof. induction 1 as [|x l m H IH|x y l|l m k H1 IH1 H2 IH2]; cbn [fold_right]; lia. Qed.
Lemma sum_perm (l m : list nat) : Permutation l m -> list_sum l = list_sum m.
Proof. unfold list_sum. induction 1 as [|x l m H IH|x y l|l m k H1 IH1 H2 IH2]; cbn [fold_right]; lia. Qed.
Lemma nsem_local : local_sem nsem.
Proof.
  intros g h e. change (gval nsem) with nval. revert g h. induction e as [v| |c|k l IH] using rx_ind2; intros g h H.
  - reflexivity.
  - cbn in *. apply Permutation_length in H. unfold read in H. now rewrite !map_length in H.
  - cbn. assert (E : forall x : list (col -> nat), fold_right (fun (r : col -> nat) n => Nat.max (r c) n) 0 x = fold_right Nat.max 0 (map (fun r => r c) x)) by (induction x; cbn; congruence).
    rewrite !E. apply max_perm. apply (Permutation_map (fun l => hd 0 l)) in H. unfold read in H. rewrite !map_map in H. cbn in H. exact H.
  - rewrite Forall_forall in IH. assert (G : forall g h, Permutation (read (flat_map xcols l) g) (read (flat_map xcols l) h) -> map (nval g) l = map (nval h) l).
    { intros x y Hp. apply map_ext_in. intros e He. apply IH; [exact He|]. apply (read_sub 0 _ (flat_map xcols l)); [|exact Hp]. intros c Hc. apply in_flat_map. eauto. }
    cbn [xcols] in H. destruct k; cbn [nval]; try (rewrite (G g h H); reflexivity).
    set (cs := flat_map xcols l) in *. assert (E : forall x : list (col -> nat), map (fun r => list_sum (map (nval [r]) l)) x = map (fun vs => list_sum (map (nval [row_of 0 cs vs]) l)) (read cs x)).
    { intros x. unfold read. rewrite map_map. apply map_ext. intros r. f_equal. apply G. fold cs. unfold read. cbn. rewrite (read_row_of 0 cs cs r (incl_refl cs)). reflexivity. }
    rewrite !E. apply sum_perm, Permutation_map, H.
Qed.

(** Tables R, S and T, and their first two columns. *)
Definition tR : tbl := 0. Definition tS : tbl := 1. Definition tT : tbl := 2.
Definition cRa := mkcol (Some tR) 0. Definition cRb := mkcol (Some tR) 1. Definition cSa := mkcol (Some tS) 0. Definition cSb := mkcol (Some tS) 1.
Definition xRa := RCol cRa. Definition xRb := RCol cRb. Definition xSa := RCol cSa. Definition xSb := RCol cSb.
Definition tup (a b : nat) : nat -> nat := fun i => match i with 0 => a | _ => b end.
Definition db1 (t : tbl) : list (nat -> nat) :=
  match t with 0 => [tup 1 2; tup 1 3; tup 2 5] | 1 => [tup 1 7; tup 2 8] | _ => [] end.
Definition idp (l : list rpred) : list rpred := l.
Definition idn (l : list rnode) : list rnode := l.
Definition sel0 := mksel [tR] None [] None [] (Some [xRa]) false None.

(** ** C91 *)
Section C91.
  Context (ordp : list rpred -> list rpred) (ordn : list rnode -> list rnode).
  Context (Hordp : forall l, Permutation (ordp l) l) (Hordn : forall l, Permutation (ordn l) l).
  Context {V : Type} {EV : EqD V} (null : V) (M : rsem V) (db : tbl -> list (tuple (V := V))) (HM : local_sem M).

  Lemma plain_where q : where_ok q -> bound_in (q_from q) (opt_pcols (q_where q)) /\ good_where (q_where q).
  Proof.
    intros H. unfold where_ok in H. destruct (q_where q) as [p|]; cbn; [|split; [intros c []|exact Logic.I]]. destruct (H p eq_refl) as [H1 H2]. auto.
  Qed.
  Lemma not_one_table from p : bound_in from (pcols xcols p) -> ~ one_table p -> length (rptabs p) <> 1.
  Proof.
    intros B H E. apply H. destruct (rptabs p) as [|t [|u l]] eqn:Et; try discriminate. exists t. split.
    - assert (In t (rptabs p)) as Hin by (rewrite Et; now left). apply In_rptabs in Hin as (c & Hc & _). exists c. exact Hc.
    - apply one_tab_inv; [|exact Et]. intros c Hc En. destruct (B c Hc) as (u & Eu & _). congruence.
  Qed.
  Lemma plain_having q : having_ok q -> good_having (q_having q).
  Proof.
    intros H. unfold having_ok in H. destruct (q_having q) as [p|]; cbn; [|exact Logic.I]. destruct (H p eq_refl) as (B & Ha & Ho & Hr). split; [now apply (not_one_table (q_from q))|]. split; [exact Ha|].
    intros r Hin. destruct (Hr r Hin) as [R1 R2]. split; [|exact R1]. apply (not_one_table (q_from q)); [|exact R2]. intros c Hc. apply B. now apply (top_cols p r).
  Qed.
  Lemma block_same q st0 n st : inside (q_from q) (st_frags st0) -> plain q -> gen_select ordp ordn q st0 = Ok (n, st) ->
    inside (q_from q) (st_frags st) /\
    (forall ts, q_select q = Some ts -> Permutation (out null M db n) (sql_result null M db q)) /\
    (q_select q = None -> grouped q = false -> same_bag (eval null M db n) (sql_groups null M db q)).
  Proof.
    intros Hi [P1 P2 P3 P4 P5] H. destruct (plain_where q P2) as [W1 W2].
    destruct (gen_same ordp ordn Hordp Hordn null M db HM q st0 n st Hi P1 W1 W2 (plain_having q P3) H) as (I & m & -> & G1 & G2).
    split; [exact I|]. unfold final_projection. split.
    - intros ts Ets. rewrite Ets. cbn [out]. rewrite (with_map_eval null M db). unfold sql_result, select_of. rewrite P4, Ets. apply (G1 _ _ (flat_map xcols ts)). apply (list_blind null M HM).
    - intros -> Hg. now apply G2.
  Qed.
End C91.

(** The translated query produces the result of the query: for every order in which Python visits the sets of predicates and nodes,
    every interpretation of functions and operators and every database.  Partial: see [plain]. *)
Theorem C91_translation_partial ordp ordn {V} {EV : EqD V} (null : V) M db q ts n :
  (forall l, Permutation (ordp l) l) -> (forall l, Permutation (ordn l) l) -> local_sem M -> plain q -> q_select q = Some ts ->
  parse ordp ordn (QSel q) = Ok n -> answers null M db q (out null M db n).
Proof.
  intros Hp Hn HM P Hs H. unfold parse, rmap in H. cbn [generate] in H. destruct (gen_select _ _ _ _) as [[n' st]|] eqn:E; [|discriminate]. cbn in H. injection H as ->.
  destruct (block_same ordp ordn Hp Hn null M db HM q (update_query (QSel q) (mkst [] [])) n st (inside_nil _) P E) as (_ & B & _). unfold answers. rewrite (pl_limit q P). now apply (B ts).
Qed.
Print Assumptions C91_translation_partial.
(** The same for [SELECT *]: the groups themselves. *)
Theorem C91_translation_star_partial ordp ordn {V} {EV : EqD V} (null : V) M db q n :
  (forall l, Permutation (ordp l) l) -> (forall l, Permutation (ordn l) l) -> local_sem M -> plain q -> q_select q = None -> grouped q = false ->
  parse ordp ordn (QSel q) = Ok n -> same_bag (eval null M db n) (sql_groups null M db q).
Proof.
  intros Hp Hn HM P Hs Hg H. unfold parse, rmap in H. cbn [generate] in H. destruct (gen_select _ _ _ _) as [[n' st]|] eqn:E; [|discriminate]. cbn in H. injection H as ->.
  destruct (block_same ordp ordn Hp Hn null M db HM q (update_query (QSel q) (mkst [] [])) n st (inside_nil _) P E) as (_ & _ & B). now apply B.
Qed.
Print Assumptions C91_translation_star_partial.

(** An ORDER BY clause is applied last, below the final projection. *)
Theorem C91_order ordp ordn q n : parse ordp ordn (QSel q) = Ok n -> q_order q <> [] -> sorted_by (q_order q) n.
Proof.
  intros H Ho. unfold parse, rmap in H. cbn [generate] in H. unfold gen_select in H.
  destruct (base_phase _ _ _) as [f1|]; [|discriminate]. cbn [rbind] in H. destruct (join_phase _ _ _ _) as [f2|]; [|discriminate]. cbn [rbind] in H. destruct (cross_heads _ _) as [n1|]; [|discriminate]. cbn [rbind] in H.
  destruct (late_phase _ PostJoin _) as [n2|]; [|discriminate]. cbn [rbind] in H. destruct (late_phase _ PostAggregation _) as [n3|]; [|discriminate]. cbn [rbind] in H. destruct (add_ordering (q_order q) n3) as [n4|] eqn:E; [|discriminate]. cbn in H. injection H as <-.
  assert (S4 : sorted_by (q_order q) n4). { unfold add_ordering in E. destruct (q_order q) as [|k ks]; [congruence|]. unfold rmap in E. destruct (add_keys (k :: ks) n3) as [m|]; [|discriminate]. cbn [rbind] in E. injection E as <-. apply sorted_here. }
  unfold final_projection. destruct (q_select q) as [ts|]; [|exact S4]. apply sorted_proj. unfold with_map. destruct (missing _ _); [exact S4|]. now apply sorted_map.
Qed.
Print Assumptions C91_order.

(** SELECT R.a, sum(R.b) FROM R, S WHERE R.a = S.a AND R.b > 1 AND (R.b > 2 OR S.b > 7) GROUP BY R.a HAVING count( * ) > 0 *)
Definition q1 : squery :=
  mksel [tR; tS] (Some (PAnd [PBin OpEq xRa xSa; PBin OpGt xRb (RVal 1); POr [PBin OpGt xRb (RVal 2); PBin OpGt xSb (RVal 7)]]))
        [xRa] (Some (PBin OpGt (RApp (KAgg 0) [RStar]) (RVal 0))) [(xRa, true)] (Some [xRa; RApp (KAgg 1) [xRb]]) false None.
Ltac bound := intros c Hc; cbn in Hc; repeat (destruct Hc as [<-|Hc]; [cbn; eauto 6|]); destruct Hc.
Ltac cases H := repeat (destruct H as [<-|H]); try destruct H.
Example q1_plain : plain q1.
Proof.
  split; try reflexivity.
  - repeat constructor; cbn; intuition discriminate.
  - intros p E. injection E as <-. split; [bound|]. intros r Hr. cbn in Hr. cases Hr; (split; [eexists; cbn; left; reflexivity|reflexivity]).
  - intros p E. injection E as <-. split; [bound|]. split; [reflexivity|]. assert (N : ~ one_table (PBin OpGt (RApp (KAgg 0) [RStar]) (RVal 0))) by (intros (t & (c & []) & _)).
    split; [exact N|]. intros r [<-|[]]. auto.
Qed.
Example q1_result : exists n, parse idp idn (QSel q1) = Ok n /\ out 0 nsem db1 n = [[1; 3]; [2; 5]] /\ sql_result 0 nsem db1 q1 = [[1; 3]; [2; 5]].
Proof. eexists. repeat split; vm_compute; reflexivity. Qed.
Example q1_star : exists n, parse idp idn (QSel (mksel [tR; tS] (Some (PBin OpEq xRa xSa)) [] None [] None false None)) = Ok n /\ length (eval 0 nsem db1 n) = 3.
Proof. eexists. split; vm_compute; reflexivity. Qed.

(** Conditions in HAVING about a single table disappear: [SELECT R.a FROM R GROUP BY R.a HAVING sum(R.b) > 5]. *)
Theorem C91_having_dropped_refuted : exists q ts n, q_select q = Some ts /\ where_ok q /\ NoDup (q_from q) /\ q_distinct q = false /\ q_limit q = None /\
  parse idp idn (QSel q) = Ok n /\ ~ answers 0 nsem db1 q (out 0 nsem db1 n).
Proof.
  exists (mksel [tR] None [xRa] (Some (PBin OpGt (RApp (KAgg 1) [xRb]) (RVal 5))) [] (Some [xRa]) false None). do 2 eexists. split; [reflexivity|].
  split; [intros p E; discriminate|]. split; [repeat constructor; cbn; tauto|]. split; [reflexivity|]. split; [reflexivity|]. split; [vm_compute; reflexivity|].
  intros H. apply Permutation_length in H. vm_compute in H. discriminate.
Qed.
Print Assumptions C91_having_dropped_refuted.
(** So do conditions in WHERE without columns, next to conditions about one table: [SELECT R.a FROM R WHERE R.a = 1 AND abs(1) = 2]. *)
Theorem C91_constant_dropped_refuted : exists q ts n, q_select q = Some ts /\ q_having q = None /\ q_group q = [] /\ q_distinct q = false /\ q_limit q = None /\
  parse idp idn (QSel q) = Ok n /\ ~ answers 0 nsem db1 q (out 0 nsem db1 n).
Proof.
  exists (mksel [tR] (Some (PAnd [PBin OpEq xRa (RVal 1); PBin OpEq (RApp (KFun 0) [RVal 1]) (RVal 2)])) [] None [] (Some [xRa]) false None). do 2 eexists.
  split; [reflexivity|]. split; [reflexivity|]. split; [reflexivity|]. split; [reflexivity|]. split; [reflexivity|]. split; [vm_compute; reflexivity|].
  intros H. apply Permutation_length in H. vm_compute in H. discriminate.
Qed.
Print Assumptions C91_constant_dropped_refuted.
(** DISTINCT and LIMIT are ignored. *)
Theorem C91_distinct_refuted : exists q ts n, q_select q = Some ts /\ where_ok q /\ having_ok q /\ NoDup (q_from q) /\ q_limit q = None /\
  parse idp idn (QSel q) = Ok n /\ ~ answers 0 nsem db1 q (out 0 nsem db1 n).
Proof.
  exists (mksel [tR] None [] None [] (Some [xRa]) true None). do 2 eexists. split; [reflexivity|]. split; [intros p E; discriminate|]. split; [intros p E; discriminate|]. split; [repeat constructor; cbn; tauto|].
  split; [reflexivity|]. split; [vm_compute; reflexivity|]. intros H. apply Permutation_length in H. vm_compute in H. discriminate.
Qed.
Print Assumptions C91_distinct_refuted.
Theorem C91_limit_refuted : exists q ts n, q_select q = Some ts /\ where_ok q /\ having_ok q /\ NoDup (q_from q) /\ q_distinct q = false /\
  parse idp idn (QSel q) = Ok n /\ ~ answers 0 nsem db1 q (out 0 nsem db1 n).
Proof.
  exists (mksel [tR] None [] None [] (Some [xRa]) false (Some 1)). do 2 eexists. split; [reflexivity|]. split; [intros p E; discriminate|]. split; [intros p E; discriminate|]. split; [repeat constructor; cbn; tauto|].
  split; [reflexivity|]. split; [vm_compute; reflexivity|]. intros [H _]. vm_compute in H. discriminate.
Qed.
Print Assumptions C91_limit_refuted.

(** ** C92 *)
(** Queries made of base table conditions, joins between one table on each side, and disjunctions and the like over several tables can be
    translated, in whatever order the sets are visited. *)
Theorem C92_translatable_partial ordp ordn q :
  (forall l, Permutation (ordp l) l) -> (forall l, Permutation (ordn l) l) -> translatable q -> exists n, parse ordp ordn (QSel q) = Ok n.
Proof.
  intros Hp Hn T. unfold parse. cbn [generate]. destruct (gen_total ordp ordn Hp Hn q (update_query (QSel q) (mkst [] [])) T (inside_nil _)) as [r ->]. cbn. eauto.
Qed.
Print Assumptions C92_translatable_partial.
Example q1_translatable : translatable q1.
Proof.
  assert (SR : side xRa tR) by (split; [discriminate|]; split; [intros c [<-|[]]; reflexivity|exact Logic.I]).
  assert (SS : side xSa tS) by (split; [discriminate|]; split; [intros c [<-|[]]; reflexivity|exact Logic.I]).
  split.
  - split; [discriminate|]. repeat constructor; cbn; intuition discriminate.
  - intros p E. injection E as <-. split; [discriminate|]. split; [bound|]. intros r Hr. cbn in Hr.
    cases Hr; (split; [eexists; cbn; left; reflexivity|]; split; [reflexivity|]; split; [intros e He; cbn in He; cases He; exact Logic.I|]).
    + right. exists tR, tS. split; [discriminate|]. auto.
    + left. exists tR. split; [exists cRb; now left|]. intros c Hc. cbn in Hc. cases Hc. reflexivity.
    + exact Logic.I.
  - intros p E. injection E as <-. assert (L : late_condition (PBin OpGt (RApp (KAgg 0) [RStar]) (RVal 0))).
    { split; [now right|]. intros e [<-|[<-|[]]]; cbn; tauto. }
    split; [exact L|]. intros r [<-|[]]. exact L.
  - intros k [<-|[]]. exact Logic.I.
Qed.

(** Valid queries that cannot be translated: constant conditions, functions without arguments, and join conditions with two tables on one side. *)
Theorem C92_constant_refuted : forall ordp ordn from v w, parse ordp ordn (QSel (mksel from (Some (PBin OpEq (RVal v) (RVal w))) [] None [] None false None)) = Raise ValueError.
Proof. reflexivity. Qed.
Print Assumptions C92_constant_refuted.
Theorem C92_no_arguments_refuted : forall ordp ordn from f, parse ordp ordn (QSel (mksel from (Some (PBin OpGt xRa (RApp (KFun f) []))) [] None [] None false None)) = Raise TypeError.
Proof. reflexivity. Qed.
Print Assumptions C92_no_arguments_refuted.
(** R.a + S.a = R.b: whether the translation succeeds can depend on the order in which a Python set is visited. *)
Theorem C92_order_refuted : exists q, where_ok q /\ (forall l, Permutation (@rev rpred l) l) /\ is_ok (parse idp idn (QSel q)) = true /\ is_ok (parse (@rev rpred) idn (QSel q)) = false.
Proof.
  exists (mksel [tR; tS] (Some (PAnd [PBin OpEq xRb xSb; PBin OpEq (RApp (KMath 0) [xRa; xSa]) (RVal 5)])) [] None [] None false None).
  split; [|split; [intros l; symmetry; apply Permutation_rev|split; reflexivity]].
  intros p E. injection E as <-. split; [bound|]. intros r Hr. cbn in Hr. cases Hr; (split; [eexists; cbn; left; reflexivity|reflexivity]).
Qed.
Print Assumptions C92_order_refuted.

(** ** C93 *)
(** In the translated tree, every operator finds the columns, computed values and aggregates that it works on among those provided below. *)
Theorem C93_available_partial ordp ordn q n :
  (forall l, Permutation (ordp l) l) -> (forall l, Permutation (ordn l) l) -> regular q -> parse ordp ordn (QSel q) = Ok n -> avail n.
Proof. intros Hp Hn. now apply avail_all. Qed.
Print Assumptions C93_available_partial.
(** SELECT R.a + 1, sum(R.b + S.b) FROM R, S WHERE f(R.a) = S.a + 1 AND R.b + 2 > 1 GROUP BY R.a HAVING sum(R.b + S.b) > 3 ORDER BY R.a, sum(R.b + S.b) *)
Definition q93 : squery :=
  let s := RApp (KAgg 1) [RApp (KMath 0) [xRb; xSb]] in
  mksel [tR; tS] (Some (PAnd [PBin OpEq (RApp (KFun 0) [xRa]) (RApp (KMath 0) [xSa; RVal 1]); PBin OpGt (RApp (KMath 0) [xRb; RVal 2]) (RVal 1)]))
        [xRa] (Some (PBin OpGt s (RVal 3))) [(xRa, true); (s, false)] (Some [RApp (KMath 0) [xRa; RVal 1]; s]) false None.
Example q93_regular : regular q93.
Proof.
  split.
  - repeat constructor; cbn; intuition discriminate.
  - bound.
  - intros p E. injection E as <-. split; [bound|]. intros r Hr. cbn in Hr. cases Hr; (split; [eexists; cbn; left; reflexivity|reflexivity]).
  - intros g [<-|[]]. exists cRa. reflexivity.
  - intros k l a H Ha. cbn in H. repeat (destruct H as [H|H]; [try discriminate H; injection H as <- <-; cases Ha; reflexivity|]). destruct H.
  - intros _ c H. cbn in H. repeat (destruct H as [H|H]; [try discriminate H; injection H as <-; now left|]). destruct H.
  - intros k [<-|[<-|[]]]; cbn; [intros _; now left|tauto].
Qed.
Example q93_avail : exists n, parse idp idn (QSel q93) = Ok n /\ avail n.
Proof.
  destruct (parse idp idn (QSel q93)) as [n|] eqn:E; [|discriminate]. exists n. split; [reflexivity|]. apply (C93_available_partial idp idn q93 n); [intros; reflexivity|intros; reflexivity|exact q93_regular|exact E].
Qed.

(** ORDER BY R.a + 1 is translated, but nothing computes R.a + 1. *)
Theorem C93_order_refuted : exists n, parse idp idn (QSel (mksel [tR] None [] None [(RApp (KMath 0) [xRa; RVal 1], true)] (Some [xRa]) false None)) = Ok n /\ ~ avail n.
Proof.
  eexists. split; [vm_compute; reflexivity|]. cbn. intros [[_ H] _]. specialize (H _ (or_introl eq_refl)). cbn in H. destruct H as [H|[]]. discriminate.
Qed.
Print Assumptions C93_order_refuted.
(** So is ORDER BY with an aggregate that is not selected, which nothing computes either; moreover its argument is requested above the grouping. *)
Theorem C93_order_aggregate_refuted : exists n, parse idp idn (QSel (mksel [tR] None [xRa] None [(RApp (KAgg 1) [xRb], true)] (Some [xRa]) false None)) = Ok n /\ ~ avail n.
Proof.
  eexists. split; [vm_compute; reflexivity|]. cbn. intros [[[_ H] _] _]. exact (H _ (or_introl eq_refl)).
Qed.
Print Assumptions C93_order_aggregate_refuted.
(** GROUP BY R.a + 1: again, nothing computes R.a + 1. *)
Theorem C93_group_refuted : exists n, parse idp idn (QSel (mksel [tR] None [RApp (KMath 0) [xRa; RVal 1]] None [] (Some [RApp (KAgg 1) [xRb]]) false None)) = Ok n /\ ~ avail n.
Proof.
  eexists. split; [vm_compute; reflexivity|]. cbn. intros [(_ & H & _) _]. specialize (H _ (or_introl eq_refl)). cbn in H. destruct H as [H|[H|[]]]; discriminate.
Qed.
Print Assumptions C93_group_refuted.

(** ** C94 *)
Lemma perm_dedup {A} `{EqD A} (l m : list A) : Permutation l m -> Permutation (dedup l) (dedup m).
Proof. intros P. apply NoDup_Permutation; [apply dedup_NoDup..|]. intros x. rewrite !dedup_In. split; apply Permutation_in; [exact P|now symmetry]. Qed.
Lemma mem_perm {A} `{EqD A} (l m : list A) x : Permutation l m -> mem x l = mem x m.
Proof. intros P. apply eq_true_iff_eq. rewrite !mem_In. split; apply Permutation_in; [exact P|now symmetry]. Qed.

(** Queries whose blocks are plain and have a SELECT list; where two blocks are combined directly, the second one uses all tables of the first. *)
Fixpoint compatible (q : query) : Prop :=
  match q with
  | QSel s => plain s /\ q_select s <> None
  | QSet _ l r _ => compatible l /\ compatible r /\ match l, r with QSel a, QSel b => incl (q_from a) (q_from b) | _, _ => True end
  end.
Section C94.
  Context (ordp : list rpred -> list rpred) (ordn : list rnode -> list rnode).
  Context (Hordp : forall l, Permutation (ordp l) l) (Hordn : forall l, Permutation (ordn l) l).
  Context {V : Type} {EV : EqD V} (null : V) (M : rsem V) (db : tbl -> list (tuple (V := V))) (HM : local_sem M).

  Lemma add_expression_out e n m : add_expression e n = Ok m -> out null M db m = out null M db n.
  Proof.
    unfold add_expression. destruct (mem e (provided n)); [intros H; injection H as <-; auto|].
    assert (W : forall es, out null M db (with_map n es) = out null M db n) by (intros es; unfold with_map; destruct (missing _ _); reflexivity).
    destruct e as [v| |c|k l]; [intros H; injection H as <-; auto|discriminate|intros H; injection H as <-; auto|].
    destruct k; try discriminate; intros H; injection H as <-; apply W.
  Qed.
  Lemma add_keys_out ks : forall n m, add_keys ks n = Ok m -> out null M db m = out null M db n.
  Proof.
    induction ks as [|k ks IH]; intros n m H; cbn [add_keys] in H; [now injection H as <-|]. destruct (add_expression (fst k) n) as [n'|] eqn:E; [|discriminate]. cbn [rbind] in H.
    rewrite (IH _ _ H). now apply add_expression_out in E.
  Qed.
  Lemma add_ordering_out ks n m : add_ordering ks n = Ok m -> out null M db m = out null M db n.
  Proof.
    destruct ks as [|k ks]; cbn [add_ordering]; [intros H; now injection H as <-|]. unfold rmap. destruct (add_keys (k :: ks) n) as [m'|] eqn:E; [|discriminate]. cbn [rbind]. intros H. injection H as <-.
    cbn. now apply add_keys_out in E.
  Qed.
  Lemma combine_out op nl nr l r order : Permutation (out null M db nl) (sql_set null M db l) -> Permutation (out null M db nr) (sql_set null M db r) ->
    Permutation (out null M db (combine op nl nr)) (sql_set null M db (QSet op l r order)).
  Proof.
    intros Hl Hr. destruct op; cbn [combine out sql_set].
    - apply perm_dedup. now apply Permutation_app.
    - now apply Permutation_app.
    - apply perm_dedup. rewrite (filter_ext _ _ (fun x => mem_perm _ _ x Hr)). now apply perm_filter.
    - apply perm_dedup. rewrite (filter_ext (fun x => negb (mem x (out null M db nr))) (fun x => negb (mem x (sql_set null M db r)))) by (intros x; now rewrite (mem_perm _ _ x Hr)). now apply perm_filter.
  Qed.
  Lemma set_same q : compatible q -> forall st n st', match q with QSel s => inside (q_from s) (st_frags st) | _ => True end -> generate ordp ordn q st = Ok (n, st') ->
    Permutation (out null M db n) (sql_set null M db q) /\ match q with QSel s => inside (q_from s) (st_frags st') | QSet _ _ _ _ => st' = st end.
  Proof.
    induction q as [s|op l IHl r IHr order]; intros C st n st' Hi H.
    - destruct C as [P Hs]. cbn [generate] in H. destruct (block_same ordp ordn Hordp Hordn null M db HM s st n st' Hi P H) as (I & B & _). split; [|exact I]. cbn [sql_set].
      destruct (q_select s) as [ts|] eqn:E; [|congruence]. now apply (B ts).
    - destruct C as (Cl & Cr & Ci). cbn [generate] in H. destruct (generate ordp ordn l _) as [[nl s1]|] eqn:El; [|discriminate]. cbn [rbind] in H.
      destruct (generate ordp ordn r _) as [[nr s2]|] eqn:Er; [|discriminate]. cbn [rbind] in H. destruct (add_ordering order (combine op nl nr)) as [m|] eqn:Eo; [|discriminate]. cbn [rbind] in H. injection H as <- <-.
      split; [|reflexivity]. rewrite (add_ordering_out _ _ _ Eo).
      assert (Hl : match l with QSel s => inside (q_from s) (st_frags (update_query l (mkst [] []))) | QSet _ _ _ _ => True end) by (destruct l; [apply inside_nil|exact Logic.I]).
      destruct (IHl Cl _ _ _ Hl El) as [Pl Il].
      assert (Hr : match r with QSel s => inside (q_from s) (st_frags (update_query r s1)) | QSet _ _ _ _ => True end).
      { destruct r as [b|]; [|exact Logic.I]. cbn [update_query st_frags]. destruct l as [a|].
        - destruct Il as [I1 I2]. split; [exact I1|]. intros t x Hx. apply Ci. eauto.
        - rewrite Il. apply inside_nil. }
      destruct (IHr Cr _ _ _ Hr Er) as [Pr _]. now apply combine_out.
  Qed.
End C94.

(** Set operations are translated faithfully if both sides read the same tables (the second one possibly more). *)
Theorem C94_set_queries_partial ordp ordn {V} {EV : EqD V} (null : V) M db q n :
  (forall l, Permutation (ordp l) l) -> (forall l, Permutation (ordn l) l) -> local_sem M -> compatible q ->
  parse ordp ordn q = Ok n -> Permutation (out null M db n) (sql_set null M db q).
Proof.
  intros Hp Hn HM C H. unfold parse, rmap in H. destruct (generate _ _ _ _) as [[n' st]|] eqn:E; [|discriminate]. cbn in H. injection H as ->.
  apply (set_same ordp ordn Hp Hn null M db HM q C (update_query q (mkst [] [])) n st); [|exact E]. destruct q; [apply inside_nil|exact Logic.I].
Qed.
Print Assumptions C94_set_queries_partial.
(** (SELECT R.a FROM R UNION SELECT S.a FROM R, S) EXCEPT SELECT S.a FROM S WHERE S.b > 7 *)
Definition qs1 : query :=
  QSet SExcept (QSet SUnion (QSel sel0) (QSel (mksel [tR; tS] None [] None [] (Some [xSa]) false None)) [])
       (QSel (mksel [tS] (Some (PBin OpGt xSb (RVal 7))) [] None [] (Some [xSa]) false None)) [(xRa, true)].
Example qs1_compatible : compatible qs1.
Proof.
  assert (P : forall from ts, NoDup from -> plain (mksel from None [] None [] ts false None)) by (intros from ts N; split; auto; intros p E; discriminate).
  cbn [qs1 compatible sel0]. split; [split; [split; [apply P; repeat constructor; cbn; intuition discriminate|discriminate]|split; [split; [apply P; repeat constructor; cbn; intuition discriminate|discriminate]|intros t [<-|[]]; now left]]|].
  split; [|exact Logic.I]. split; [|discriminate]. split; try reflexivity; [repeat constructor; cbn; tauto| |intros p E; discriminate].
  intros p E. injection E as <-. split; [bound|]. intros r [<-|[]]. split; [eexists; cbn; left; reflexivity|reflexivity].
Qed.
Example qs1_result : exists n, parse idp idn qs1 = Ok n /\ out 0 nsem db1 n = [[1]] /\ sql_set 0 nsem db1 qs1 = [[1]].
Proof. eexists. repeat split; vm_compute; reflexivity. Qed.

(** Otherwise the tables of the first query leak into the second one: SELECT T.a FROM T UNION SELECT R.a FROM R, where T is empty. *)
Theorem C94_set_queries_refuted : exists a b n, plain a /\ plain b /\ q_select a <> None /\ q_select b <> None /\ parse idp idn (QSet SUnion (QSel a) (QSel b) []) = Ok n /\
  out 0 nsem db1 n = [] /\ Permutation (sql_set 0 nsem db1 (QSet SUnion (QSel a) (QSel b) [])) [[1]; [2]].
Proof.
  assert (P : forall from ts, NoDup from -> plain (mksel from None [] None [] ts false None)) by (intros from ts N; split; auto; intros p E; discriminate).
  exists (mksel [tT] None [] None [] (Some [RCol (mkcol (Some tT) 0)]) false None), sel0. eexists. split; [apply P; repeat constructor; cbn; tauto|]. split; [apply P; repeat constructor; cbn; tauto|].
  split; [discriminate|]. split; [discriminate|]. split; [vm_compute; reflexivity|]. split; vm_compute; reflexivity.
Qed.
Print Assumptions C94_set_queries_refuted.
