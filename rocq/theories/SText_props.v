(** C124, C125: the text of explicit joins and of set queries. *)
From Coq Require Import List Bool Arith.
From Verif Require Import PyBase Src_model SText_model SText_spec SText_proofs.
Import ListNotations.

(** * C124: explicit joins *)
(** str() of a join is read as the same join, provided that CROSS JOINs have no join on their right-hand side. *)
Theorem C124_str_partial : forall s, sql_join s -> flat_auto (fun _ => false) s -> reads_join (str_join s) s.
Proof. intros s H F. apply reads_join_ref, str_join_ref; assumption. Qed.
(** So does format_quick, which also puts parentheses around joins on the right-hand side of plain tables. *)
Theorem C124_quick_partial : forall s, sql_join s -> flat_auto direct s -> reads_join (quick_join s) s.
Proof. intros s H F. apply reads_join_ref, quick_join_ref; assumption. Qed.
(** Both agree on joins of plain tables from left to right. *)
Definition R := JLeaf true 0.
Definition S_ := JLeaf true 1.
Definition T_ := JLeaf true 2.
Definition U := JLeaf true 3.
Example C124_example :
  let s := JJoin (JJoin R S_ (Some 0) JInner) (JJoin T_ U (Some 1) JLeft) (Some 2) JOuter in
  sql_join s /\ flat_auto (fun _ => false) s /\ str_join s = [TLeaf true 0; TJoin JInner; TLeaf true 1; TOn 0; TJoin JOuter; TLeaf true 2; TJoin JLeft; TLeaf true 3; TOn 1; TOn 2]
  /\ quick_join (JJoin R (JJoin S_ T_ None JCross) None JCross) = [TLeaf true 0; TJoin JCross; TL; TLeaf true 1; TJoin JCross; TLeaf true 2; TR].
Proof. cbn. repeat split; intros; discriminate || reflexivity. Qed.
(** R CROSS JOIN (S FULL JOIN T ON ...) is printed without parentheses and read as a different join with a different result. *)
Theorem C124_cross_refuted : exists s s' db cond, sql_join s /\ reads_join (str_join s) s' /\ length (eval db cond s) <> length (eval db cond s').
Proof.
  exists (JJoin R (JJoin S_ T_ (Some 0) JOuter) None JCross), (JJoin (JJoin R S_ None JCross) T_ (Some 0) JOuter), (fun n => match n with 0 => [1; 2] | _ => [1] end), (fun _ _ => false).
  split; [cbn; repeat split; intros; discriminate || reflexivity|]. split; [|vm_compute; discriminate].
  apply reads_join_ref. apply (@jr_on [TLeaf true 0; TJoin JCross; TLeaf true 1] _ [TLeaf true 2]); [reflexivity| |repeat constructor].
  apply (@jr_auto [TLeaf true 0] _ [TLeaf true 1]); [reflexivity|repeat constructor|constructor].
Qed.
(** The same for format_quick if the left-hand side is a join as well. *)
Theorem C124_quick_refuted : exists s s' db cond, sql_join s /\ reads_join (quick_join s) s' /\ length (eval db cond s) <> length (eval db cond s').
Proof.
  exists (JJoin (JJoin R S_ (Some 1) JInner) (JJoin T_ U (Some 0) JOuter) None JCross), (JJoin (JJoin (JJoin R S_ (Some 1) JInner) T_ None JCross) U (Some 0) JOuter),
    (fun n => match n with 0 => [1; 2] | _ => [1] end), (fun c _ => c =? 1).
  split; [cbn; repeat split; intros; discriminate || reflexivity|]. split; [|vm_compute; discriminate].
  apply reads_join_ref. apply (@jr_on [TLeaf true 0; TJoin JInner; TLeaf true 1; TOn 1; TJoin JCross; TLeaf true 2] _ [TLeaf true 3]); [reflexivity| |repeat constructor].
  apply (@jr_auto [TLeaf true 0; TJoin JInner; TLeaf true 1; TOn 1] _ [TLeaf true 2]); [reflexivity| |constructor].
  apply (@jr_on [TLeaf true 0] _ [TLeaf true 1]); [reflexivity| |]; repeat constructor.
Qed.
(** A natural join cannot be created: without condition it becomes a cross join ... *)
Theorem C124_natural_refuted : forall l r j, auto_join j = true -> mk_join l r None j = Ok (JJoin l r None JCross).
Proof. intros l r j H. cbn. rewrite H. reflexivity. Qed.
(** ... and with a condition (which is accepted) str() loses the condition, and format_quick writes a text that cannot be read. *)
Theorem C124_condition_refuted : forall a b c j, auto_join j = true -> exists s, mk_join (JLeaf true a) (JLeaf true b) (Some c) j = Ok s
  /\ reads_join (str_join s) (JJoin (JLeaf true a) (JLeaf true b) None j) /\ forall s', ~ j_ref (quick_join s) s'.
Proof.
  intros a b c j H. eexists. split; [reflexivity|]. split.
  - cbn. rewrite H. apply reads_join_ref. apply (@jr_auto [TLeaf true a] _ [TLeaf true b]); [exact H|repeat constructor|constructor].
  - apply no_join. cbn. rewrite H. reflexivity.
Qed.
(** All joins that the constructor accepts for the other join types are those of SQL. *)
Theorem C124_constructor : forall l r c j s, auto_join j = false -> sql_join l -> sql_join r -> mk_join l r c j = Ok s -> sql_join s /\ exists k, c = Some k /\ s = JJoin l r (Some k) j.
Proof.
  intros l r [k|] j s H Hl Hr E; cbn in E; [injection E as <-|rewrite H in E; discriminate]. split; [|eauto]. cbn. split; [assumption|]. split; [assumption|]. rewrite H. split; discriminate.
Qed.

(** * C125: set queries *)
(** format_quick of a set query is read as the same query. *)
Theorem C125_quick : forall q, reads_set (quick_set q) q.
Proof. intro q. apply reads_full with (ts := words (quick_set q)); [apply spaced_lexes, quick_spaced|apply quick_full]. Qed.
Theorem C125_quick_explain : forall q, exists ts, lexes (quick_explain q) (PExplain :: ts) /\ forall q', s_full ts q' <-> q' = q.
Proof.
  intro q. exists (words (quick_set q)). split.
  - apply (@spaced_lexes ([PExplain; PBlank] ++ quick_set q)). apply spaced_app. split; [reflexivity|]. split; [apply quick_spaced|reflexivity].
  - intro q'. split; [intro H; exact (set_unique (quick_full q) H)|intros ->; apply quick_full].
Qed.
(** str() is read as the same query if the query needs no parentheses and has no ORDER BY and LIMIT. *)
Theorem C125_str_partial : forall q, left_deep q -> (match q with SLeaf _ _ _ => True | SSet _ _ _ _ o => o = None end) -> reads_set (str_set q) q.
Proof. intros q D H. apply reads_full with (ts := words (str_set q)); [apply spaced_lexes, str_spaced; assumption|apply str_full, D]. Qed.
Example C125_example :
  let q := SSet Except (SSet Union (SLeaf None 0 None) (SLeaf None 1 None) None None) (SSet Intersect (SLeaf None 2 None) (SLeaf None 3 None) None None) (Some 9) None in
  left_deep q /\ str_set q = [PWith 9; PCore 0; PBlank; POp Union; PBlank; PCore 1; PBlank; POp Except; PBlank; PCore 2; PBlank; POp Intersect; PBlank; PCore 3].
Proof. cbn. repeat split; auto; intros; try discriminate; intuition congruence. Qed.
(** A EXCEPT (B EXCEPT C) is printed as A EXCEPT B EXCEPT C. *)
Theorem C125_nested_refuted : exists q q' db x, reads_set (str_set q) q' /\ has_row db q x <> has_row db q' x.
Proof.
  exists (SSet Except (SLeaf None 0 None) (SSet Except (SLeaf None 0 None) (SLeaf None 0 None) None None) None None),
    (SSet Except (SSet Except (SLeaf None 0 None) (SLeaf None 0 None) None None) (SLeaf None 0 None) None None), (fun _ _ => true), 0.
  split; [|vm_compute; discriminate]. destruct (C125_str_partial (SSet Except (SSet Except (SLeaf None 0 None) (SLeaf None 0 None) None None) (SLeaf None 0 None) None None)) as (ts & L & H).
  - cbn. repeat split; auto; intros; try discriminate; intuition congruence.
  - reflexivity.
  - exists ts. split; [exact L|exact H].
Qed.
(** (A UNION B) INTERSECT C is printed as A UNION B INTERSECT C. *)
Theorem C125_precedence_refuted : exists q q' db x, reads_set (str_set q) q' /\ has_row db q x <> has_row db q' x.
Proof.
  exists (SSet Intersect (SSet Union (SLeaf None 0 None) (SLeaf None 1 None) None None) (SLeaf None 2 None) None None),
    (SSet Union (SLeaf None 0 None) (SSet Intersect (SLeaf None 1 None) (SLeaf None 2 None) None None) None None), (fun n _ => n =? 0), 0.
  split; [|vm_compute; discriminate]. destruct (C125_str_partial (SSet Union (SLeaf None 0 None) (SSet Intersect (SLeaf None 1 None) (SLeaf None 2 None) None None) None None)) as (ts & L & H).
  - cbn. repeat split; auto; intros; try discriminate; intuition congruence.
  - reflexivity.
  - exists ts. split; [exact L|exact H].
Qed.
(** Every set query with ORDER BY or LIMIT, and every EXPLAIN of one, has a text that cannot be read. *)
Lemma ends_str q : ends (str_set q) = true.
Proof.
  induction q as [w n o|op l IHl r IHr w o]; cbn [str_set].
  - destruct w, o; reflexivity.
  - destruct o; [rewrite app_assoc, ends_app by discriminate; reflexivity|]. cbn [p_tail]. rewrite app_nil_r.
    assert (N : str_set r <> []) by (intro E; rewrite E in IHr; discriminate).
    assert (N2 : [PBlank; POp op; PBlank] ++ str_set r <> []) by discriminate.
    assert (N3 : str_set l ++ [PBlank; POp op; PBlank] ++ str_set r <> []) by (destruct (str_set l); discriminate).
    rewrite ends_app by exact N3. rewrite ends_app by exact N2. rewrite ends_app by exact N. exact IHr.
Qed.
Theorem C125_order_refuted : forall op l r w o, unreadable (str_set (SSet op l r w (Some o))).
Proof.
  intros op l r w o ts q L _. apply lexes_spaced in L. cbn [str_set p_tail] in L. rewrite app_assoc in L. apply spaced_app in L. destruct L as (_ & _ & L). cbn [starts starts_word] in L.
  rewrite andb_true_r in L. pose proof (ends_str (SSet op l r w None)) as E. cbn [str_set p_tail] in E. rewrite app_nil_r in E. congruence.
Qed.
Lemma starts_str q : starts (str_set q) = true.
Proof. induction q as [w n o|op l IHl r IHr w o]; cbn [str_set]; destruct w; try reflexivity. cbn [p_with app]. destruct (str_set l); [discriminate|exact IHl]. Qed.
Theorem C125_explain_refuted : forall op l r w o ts, ~ lexes (str_explain (SSet op l r w o)) ts.
Proof.
  intros op l r w o ts L. apply lexes_spaced in L. cbn [str_explain] in L. apply spaced_app in L. destruct L as (_ & _ & L). rewrite starts_str in L. discriminate.
Qed.
(** The parts of a set query must not have ORDER BY, LIMIT or WITH. *)
Theorem C125_parts_refuted : forall op a b k, unreadable (str_set (SSet op (SLeaf None a (Some k)) (SLeaf None b None) None None)) /\ unreadable (str_set (SSet op (SLeaf None a None) (SLeaf (Some k) b None) None None))
  /\ reads_set (str_set (SSet op (SLeaf (Some k) a None) (SLeaf None b None) None None)) (SSet op (SLeaf None a None) (SLeaf None b None) (Some k) None).
Proof.
  intros op a b k. split; [|split].
  - apply unreadable_run. intros ts L. rewrite (lexes_fun (@spaced_lexes (str_set (SSet op (SLeaf None a (Some k)) (SLeaf None b None) None None)) eq_refl) L). reflexivity.
  - apply unreadable_run. intros ts L. rewrite (lexes_fun (@spaced_lexes (str_set (SSet op (SLeaf None a None) (SLeaf (Some k) b None) None None)) eq_refl) L). destruct op; reflexivity.
  - apply reads_full with (ts := [PWith k; PCore a; POp op; PCore b]); [apply (@spaced_lexes (str_set (SSet op (SLeaf (Some k) a None) (SLeaf None b None) None None)) eq_refl)|].
    apply (@str_full (SSet op (SLeaf None a None) (SLeaf None b None) (Some k) None)). cbn. repeat split; auto.
Qed.

Print Assumptions C124_str_partial. Print Assumptions C124_quick_partial. Print Assumptions C124_cross_refuted. Print Assumptions C124_quick_refuted.
Print Assumptions C124_natural_refuted. Print Assumptions C124_condition_refuted. Print Assumptions C124_constructor.
Print Assumptions C125_quick. Print Assumptions C125_quick_explain. Print Assumptions C125_str_partial. Print Assumptions C125_nested_refuted. Print Assumptions C125_precedence_refuted.
Print Assumptions C125_order_refuted. Print Assumptions C125_explain_refuted. Print Assumptions C125_parts_refuted.
