(** Property theorems for C350-C354 (lookups of join graphs and tables, labels of plans, actual costs). *)
From Coq Require Import List Bool Arith ZArith Ascii String Lia.
From Verif Require Import PyBase Ident_model JG_model Inf_model Inf_spec.
Import ListNotations.

(** ** C350: available_join_paths_for() gives exactly the possible joins of the table, which all start at it. *)
Section C350.
  Context {T C : Type} {ET : EqD T} {EC : EqD C} (tab : C -> T).
  Implicit Types (g : @jg T C) (t u : T).
  Lemma free_in_spec h g t : free_in h g t = false <-> consumed h g t.
  Proof.
    unfold free_in, is_free, consumed, free_at. split.
    - destruct (dget (g_nodes g) t) as [a|] eqn:E; [|discriminate]. intros F. exists a. auto.
    - intros (a & -> & F). exact F.
  Qed.
  Lemma initial_spec h g : initial h g = true <-> fresh h g.
  Proof.
    unfold initial, fresh. rewrite forallb_forall. split.
    - intros F t X. assert (X' := X). destruct X' as (a & D & _). assert (I : In t (dkeys (g_nodes g))) by (apply dget_key; congruence).
      apply free_in_spec in X. rewrite (F t I) in X. discriminate.
    - intros F t I. destruct (free_in h g t) eqn:X; [reflexivity|]. apply free_in_spec in X. contradiction (F t X).
  Qed.
  Lemma neighbours_spec g t u p : (forall v q, ~ In (v, v, q) (g_edges g)) -> In (u, p) (neighbours g t) <-> edge g t u p.
  Proof.
    intros L. unfold neighbours. rewrite in_flat_map. split.
    - intros ([[a b] q] & I & X). cbn in X. destruct (deqb a t) eqn:A.
      + apply deqb_true in A as ->. destruct X as [X|[]]. injection X as <- <-. apply eg_forward. exact I.
      + destruct (deqb b t) eqn:B; [|destruct X]. apply deqb_true in B as ->. destruct X as [X|[]]. injection X as <- <-. apply eg_backward. exact I.
    - intros [I|I].
      + exists (t, u, p). split; [exact I|]. cbn. rewrite deqb_refl. left. reflexivity.
      + exists (u, t, p). split; [exact I|]. cbn. destruct (deqb u t) eqn:U; [apply deqb_true in U as ->; contradiction (L _ _ I)|]. rewrite deqb_refl. left. reflexivity.
  Qed.
  Lemma edge_between_spec g t u p : edge g t u p -> exists q, edge_between g t u = Some q.
  Proof.
    intros E. unfold edge_between. destruct (find (connects t u) (g_edges g)) as [e|] eqn:F; [eexists; reflexivity|]. exfalso.
    destruct E as [I|I]; apply (find_none _ _ F) in I; unfold connects in I; cbn in I; rewrite !deqb_refl in I; [discriminate|]. rewrite orb_true_r in I. discriminate.
  Qed.
  Lemma available_spec h g t u p : edge g t u p -> is_available_join h g t u = true <-> joinable h g t u.
  Proof.
    intros E. destruct (edge_between_spec g t u p E) as [q Q]. unfold is_available_join, joinable. rewrite Q, !orb_true_iff, !andb_true_iff, !negb_true_iff, initial_spec, !free_in_spec.
    assert (X : forall v, free_in h g v = true <-> ~ consumed h g v) by (intros v; rewrite <- free_in_spec; destruct (free_in h g v); split; congruence). rewrite !X. tauto.
  Qed.
  Lemma paths_for h g t : (forall v q, ~ In (v, v, q) (g_edges g)) -> In t (dkeys (g_nodes g)) ->
    exists ps, available_join_paths_for h g t = Ok ps /\ forall s u p, In (s, u, p) ps <-> s = t /\ edge g t u p /\ joinable h g t u.
  Proof.
    intros L I. unfold available_join_paths_for, has_table. assert (M : mem t (dkeys (g_nodes g)) = true) by (apply mem_In; exact I). rewrite M. eexists. split; [reflexivity|].
    intros s u p. rewrite in_map_iff. split.
    - intros ([u' p'] & E & F). injection E as <- <- <-. apply filter_In in F as [N A]. apply (neighbours_spec g t _ _ L) in N. split; [reflexivity|]. split; [exact N|]. apply (available_spec h g t u' p' N). exact A.
    - intros (-> & E & J). exists (u, p). split; [reflexivity|]. apply filter_In. split; [apply neighbours_spec; assumption|]. apply (available_spec h g t u p E). exact J.
  Qed.
End C350.
Theorem C350_paths : forall {T C : Type} {ET : EqD T} {EC : EqD C} h (g : @jg T C) t, (forall v q, ~ In (v, v, q) (g_edges g)) ->
  (In t (dkeys (g_nodes g)) -> exists ps, available_join_paths_for h g t = Ok ps /\ forall s u p, In (s, u, p) ps <-> s = t /\ edge g t u p /\ joinable h g t u) /\
  (~ In t (dkeys (g_nodes g)) -> available_join_paths_for h g t = Raise ValueError).
Proof.
  intros T C ET EC h g t L. split; [apply paths_for; exact L|]. intros N. unfold available_join_paths_for, has_table. destruct (mem t (dkeys (g_nodes g))) eqn:M; [|reflexivity]. apply mem_In in M. contradiction.
Qed.
Print Assumptions C350_paths.
(* Tables 1, 2 and 3, of which 2 and 3 are joined already. *)
Definition ex_graph : @jg nat nat := mkjg [(1, 0); (2, 1); (3, 2)] [(1, 2, [(10, 20)]); (3, 2, [(30, 21)]); (1, 3, [(11, 31)])] [(10, 0); (20, 1); (21, 2); (30, 3); (11, 4); (31, 5)].
Definition ex_heap : heap := mkh [true; false; false] [mkix Primary false; mkix Secondary false; mkix NoIndex false; mkix Primary true; mkix NoIndex false; mkix NoIndex false].
Example C350_ex : available_join_paths_for ex_heap ex_graph 2 = Ok [(2, 1, [(10, 20)])] /\ available_join_paths_for ex_heap ex_graph 1 = Ok [(1, 2, [(10, 20)]); (1, 3, [(11, 31)])]. Proof. split; reflexivity. Qed.

(** ** C351: join_graph[table] gives the state of the table and the indexes of exactly its columns. *)
Theorem C351_info : forall {T C : Type} {ET : EqD T} {EC : EqD C} (tab : C -> T) h (g : @jg T C) t,
  (In t (dkeys (g_nodes g)) -> exists free infos, table_info tab h g t = Ok (free, infos) /\ (free = false <-> consumed h g t) /\
    forall c i, In (c, i) infos <-> tab c = t /\ exists a, In (c, a) (g_index g) /\ i = nth a (h_index h) (mkix NoIndex false)) /\
  (~ In t (dkeys (g_nodes g)) -> table_info tab h g t = Raise KeyError).
Proof.
  intros T C ET EC tab h g t. unfold table_info, has_table. split.
  - intros I. assert (M : mem t (dkeys (g_nodes g)) = true) by (apply mem_In; exact I). rewrite M. unfold is_free. apply dget_key in I. destruct (dget (g_nodes g) t) as [a|] eqn:D; [|congruence]. cbn.
    eexists _, _. split; [reflexivity|]. split.
    + unfold consumed, free_at. split; [intros F; exists a; auto|]. intros (a' & D' & F). congruence.
    + intros c i. rewrite in_map_iff. split.
      * intros ([c' x] & E & F). cbn in E. injection E as <- <-. apply filter_In in F as [N X]. cbn in X. apply deqb_true in X. split; [auto|]. exists x. auto.
      * intros (E & x & N & ->). exists (c, x). split; [reflexivity|]. apply filter_In. split; [exact N|]. cbn. rewrite <- E. apply deqb_refl.
  - intros N. destruct (mem t (dkeys (g_nodes g))) eqn:M; [|reflexivity]. apply mem_In in M. contradiction.
Qed.
Print Assumptions C351_info.
Example C351_ex : table_info (fun c => c / 10) ex_heap ex_graph 2 = Ok (false, [(20, mkix Secondary false); (21, mkix NoIndex false)]). Proof. reflexivity. Qed.

(** ** C352: the information about a table maps names and columns to the information about its columns; other keys raise a KeyError.
    Partial: the name is not empty. *)
Lemma column_eq_spec a b : column_eq a b = true <-> same_column a b.
Proof.
  unfold column_eq, same_column, normalize. rewrite andb_true_iff. split; intros [A B]; split.
  - apply deqb_true in A. exact A.
  - apply deqb_true in B. exact B.
  - rewrite A. apply deqb_refl.
  - rewrite B. apply deqb_refl.
Qed.
Lemma look_spec columns c : match find (fun i => column_eq (ci_column i) c) columns with
  | Some i => In i columns /\ same_column (ci_column i) c | None => forall i, In i columns -> ~ same_column (ci_column i) c end.
Proof.
  destruct (find _ columns) as [i|] eqn:F.
  - apply find_some in F as [I E]. apply column_eq_spec in E. auto.
  - intros i I S. apply column_eq_spec in S. apply (find_none _ _ F) in I. congruence.
Qed.
Definition key_column (table : string) (k : key) : column := match k with KName s => {| c_name := s; c_table := Some table |} | KColumn c => c end.
Theorem C352_lookup_partial : forall table columns k, k <> KName "" ->
  (exists i, get_column table columns k = Ok i /\ In i columns /\ same_column (ci_column i) (key_column table k)) \/
  (get_column table columns k = Raise KeyError /\ forall i, In i columns -> ~ same_column (ci_column i) (key_column table k)).
Proof.
  intros table columns k N. assert (L := look_spec columns (key_column table k)). destruct k as [s|c]; cbn in *.
  - destruct (deqb s ""%string) eqn:E; [apply deqb_true in E as ->; congruence|]. destruct (find _ columns); [left; eexists; split; [reflexivity|exact L]|right; auto].
  - destruct (find _ columns); [left; eexists; split; [reflexivity|exact L]|right; auto].
Qed.
Print Assumptions C352_lookup_partial.
(* The columns that are listed are exactly the keys that are found. *)
Theorem C352_keys : forall table columns, (forall i j, In i columns -> In j columns -> same_column (ci_column i) (ci_column j) -> i = j) ->
  forall c, In c (iterate columns) -> exists i, get_column table columns (KColumn c) = Ok i /\ ci_column i = c /\ In i columns.
Proof.
  intros table columns U c I. unfold iterate in I. apply in_map_iff in I as (i & <- & I). assert (L := look_spec columns (ci_column i)). cbn.
  destruct (find _ columns) as [j|]; [|contradiction (L i I); split; reflexivity]. destruct L as [J S]. rewrite (U j i J I S). exists i. auto.
Qed.
Print Assumptions C352_keys.
(* The empty name raises a ValueError, so that also the test for membership fails. *)
Theorem C352_lookup_refuted : forall table columns, get_column table columns (KName "") = Raise ValueError.
Proof. reflexivity. Qed.
Print Assumptions C352_lookup_refuted.
Definition ex_columns : list colinfo := [{| ci_column := {| c_name := "id"; c_table := Some "t"%string |}; ci_datatype := "int" |}; {| ci_column := {| c_name := "name"; c_table := Some "t"%string |}; ci_datatype := "text" |}].
Example C352_ex : rmap ci_datatype (get_column "t" ex_columns (KName "Name")) = Ok "text"%string /\ get_column "t" ex_columns (KColumn {| c_name := "id"; c_table := None |}) = Raise KeyError. Proof. split; reflexivity. Qed.

(** ** C353: the labels of plans show the operator, and the base table of scans, followed by the annotation.
    Partial: for nodes without subplans. *)
Lemma app_nil_str s : (s ++ "")%string = s. Proof. induction s; cbn; congruence. Qed.
Lemma app_str_assoc a b c : ((a ++ b) ++ c)%string = (a ++ b ++ c)%string. Proof. induction a; cbn; congruence. Qed.
Lemma contains_app s part b : contains s part -> contains (s ++ b)%string part.
Proof. intros (x & y & ->). exists x, (y ++ b)%string. rewrite !app_str_assoc. reflexivity. Qed.
Theorem C353_label_partial : forall annotate target n, has_subplan n = false -> let l := plan_label annotate target n in
  contains l (type_of n) /\ (forall t, table_of n = Some t -> contains l t) /\ exists s, l = (s ++ annotate n)%string.
Proof.
  intros annotate target [k type [[]|]] N; [discriminate|]. cbn [plan_label type_of table_of]. cbv zeta.
  set (l := match k with Join => type | Scan t => ("<<" ++ type ++ ">>" ++ nl ++ t)%string | Auxiliary => type end).
  assert (A : contains l type) by (unfold l; destruct k as [|t|]; [exists ""%string, ""%string; cbn; rewrite app_nil_str; reflexivity|exists "<<"%string, (">>" ++ nl ++ t)%string; reflexivity|exists ""%string, ""%string; cbn; rewrite app_nil_str; reflexivity]).
  assert (B : forall t, table_of (Node k type None) = Some t -> contains l t).
  { intros t E. destruct k; try discriminate. cbn in E. injection E as <-. exists ("<<" ++ type ++ ">>" ++ nl)%string, ""%string. rewrite app_nil_str. unfold l. rewrite !app_str_assoc. reflexivity. }
  destruct (deqb (annotate (Node k type None)) ""%string) eqn:E.
  - apply deqb_true in E. rewrite E. split; [exact A|]. split; [exact B|]. exists l. rewrite app_nil_str. reflexivity.
  - split; [apply contains_app; exact A|]. split; [intros t X; apply contains_app; exact (B t X)|]. exists (l ++ nl)%string. rewrite app_str_assoc. reflexivity.
Qed.
Print Assumptions C353_label_partial.
(* With a subplan, the label shows the root of the subplan instead: it is the same for all operators and base tables. *)
Theorem C353_label_refuted : forall target name root k type k' type', plan_label (fun _ => ""%string) target (Node k type (Some (name, root))) = plan_label (fun _ => ""%string) target (Node k' type' (Some (name, root))) /\
  ~ contains (plan_label (fun _ => ""%string) "" (Node (Scan "title") "Seq Scan" (Some ("s"%string, Node Auxiliary "Agg" None)))) "title".
Proof.
  intros. split; [reflexivity|]. intros (a & b & E). change (plan_label _ _ _) with ("<<SubPlan>> " ++ "" ++ nl ++ "Agg" ++ nl ++ "Subplan: " ++ "s")%string in E.
  revert E. do 30 (destruct a as [|? a]; [cbn; intros E; discriminate E|cbn; intros E; try discriminate E; injection E as <- E; revert E]).
Qed.
Print Assumptions C353_label_refuted.
Example C353_ex : plan_label (fun _ => "cost=1"%string) "" (Node (Scan "title") "Seq Scan" None) = ("<<Seq Scan>>" ++ nl ++ "title" ++ nl ++ "cost=1")%string. Proof. reflexivity. Qed.

(** ** C354: actual_plan_cost() asks the given database, or the one in the pool, for the costs with the actual cardinalities.
    Partial: the database is given. *)
Theorem C354_cost_partial : forall {D Q P : Type} (hints : D -> Q -> P -> Q) cost is_analyze with_actual pool q p d,
  (is_analyze p = true -> actual_plan_cost hints cost is_analyze with_actual pool q p (Some d) = Ok (cost d (hints d q (with_actual p)))) /\
  (is_analyze p = false -> forall db, actual_plan_cost hints cost is_analyze with_actual pool q p db = Raise ValueError).
Proof. intros. unfold actual_plan_cost. split; [intros -> | intros -> db]; reflexivity. Qed.
Print Assumptions C354_cost_partial.
(* The database is never taken from the pool. *)
Theorem C354_cost_refuted : forall {D Q P : Type} (hints : D -> Q -> P -> Q) cost is_analyze with_actual key d q p, is_analyze p = true ->
  actual_plan_cost hints cost is_analyze with_actual [(key, d)] q p None = Raise AttributeError.
Proof. intros. unfold actual_plan_cost. rewrite H. reflexivity. Qed.
Print Assumptions C354_cost_refuted.
Example C354_ex : actual_plan_cost (fun d q p => d + q + p) (fun _ q => Z.of_nat q) (fun p => p <? 5) (fun p => p * 2) [] 3 4 (Some 1) = Ok 12%Z. Proof. reflexivity. Qed.
