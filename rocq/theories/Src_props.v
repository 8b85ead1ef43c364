(** C117-C123: tables, columns, subqueries, bound tables, predicates and result columns of queries. *)
From Coq Require Import List Bool Arith Lia.
From Verif Require Import PyBase Src_model Src_spec Src_proofs.
Import ListNotations.

(* SELECT R.a FROM R, S WHERE R.a = S.b AND EXISTS (SELECT * FROM T WHERE T.c = R.a) *)
Definition R := TTab 0 None.
Definition S_ := TTab 1 None.
Definition T_ := TTab 2 None.
Definition col (t : tref) (n : nat) : expr := ECol (Col (Some t) (NUser n)).
Definition eq_ (a b : expr) : expr := ENode 1 false [a; b].
Definition sel (ta : list expr) (from : list source) (wh : option expr) : query := QSel [] (map (fun e => (e, None)) ta) None (Some (FOther, from)) wh [] None [].
Definition inner := sel [EStar] [SDirect T_] (Some (eq_ (col T_ 2) (col R 0))).
Definition outer := sel [col R 0] [SDirect R; SDirect S_] (Some (EAnd [eq_ (col R 0) (col S_ 1); ENode 2 false [ESub inner]])).
Ltac here := repeat first [apply w_here | match goal with |- within _ _ => eapply w_down; [cbn; solve [eauto 10]|] end].

(** * C117: tables() *)
Theorem C117_sound : forall q t, In (Some t) (tables_q q) -> mentions_table (NQ q) t.
Proof. intros q t. apply (tables_sound (NQ q)). Qed.
Theorem C117_complete_partial : forall q, (forall m, within m (NQ q) -> t_ok m) -> forall t, In (Some t) (tables_q q) <-> mentions_table (NQ q) t.
Proof. intros q H t. split; [apply (tables_sound (NQ q))|apply (@tables_complete (NQ q) H)]. Qed.
Theorem C117_references_partial : forall q,
  (forall s, within (NS s) (NQ q) -> match s with SSub _ None _ => False | SValues None _ => False | _ => True end) -> ~ In None (tables_q q).
Proof. intros q H N. apply (tables_none (NQ q)) in N. destruct N as (s & W & [(q' & l & ->)|(cols & ->)]); exact (H _ W). Qed.
(** SELECT R.a FROM (SELECT R.a FROM R) *)
Theorem C117_unnamed_refuted : exists q, In None (tables_q q).
Proof. exists (sel [col R 0] [SSub (sel [col R 0] [SDirect R] None) None false] None). cbn. auto. Qed.
(** SELECT * FROM f((SELECT R.a FROM R)) *)
Theorem C117_function_refuted : exists q t, mentions_table (NQ q) t /\ ~ In (Some t) (tables_q q).
Proof.
  exists (sel [EStar] [SFun (ENode 0 false [ESub (sel [col R 0] [SDirect R] None)]) None] None), R. split; [|cbn; tauto].
  exists (NS (SDirect R)). split; [|constructor].
  apply w_down with (k := NS (SFun (ENode 0 false [ESub (sel [col R 0] [SDirect R] None)]) None)); [cbn; auto|].
  apply w_down with (k := NE (ENode 0 false [ESub (sel [col R 0] [SDirect R] None)])); [cbn; auto|].
  apply w_down with (k := NE (ESub (sel [col R 0] [SDirect R] None))); [cbn; auto|].
  apply w_down with (k := NQ (sel [col R 0] [SDirect R] None)); [cbn; auto|].
  apply w_down with (k := NS (SDirect R)); [cbn; auto|constructor].
Qed.
(** SELECT * FROM R JOIN S ON R.a IN (SELECT T.c FROM T) *)
Definition in_cond : expr := ENode 3 false [col R 0; ESub (sel [col T_ 2] [SDirect T_] None)].
Theorem C117_on_refuted : exists q t, mentions_table (NQ q) t /\ ~ In (Some t) (tables_q q).
Proof.
  exists (sel [EStar] [SJoin (SDirect R) (SDirect S_) (Some in_cond) JInner] None), T_. split.
  - exists (NS (SDirect T_)). split; [|constructor].
    apply w_down with (k := NS (SJoin (SDirect R) (SDirect S_) (Some in_cond) JInner)); [cbn; auto|].
    apply w_down with (k := NE in_cond); [cbn; auto|]. apply w_down with (k := NE (ESub (sel [col T_ 2] [SDirect T_] None))); [cbn; auto|].
    apply w_down with (k := NQ (sel [col T_ 2] [SDirect T_] None)); [cbn; auto|]. apply w_down with (k := NS (SDirect T_)); [cbn; auto|constructor].
  - cbn. intros [E|[E|[]]]; discriminate.
Qed.
(** WITH c AS (SELECT T.c FROM T) (SELECT c.a FROM c) UNION (SELECT R.a FROM R) *)
Theorem C117_set_refuted : exists q t, mentions_table (NQ q) t /\ ~ In (Some t) (tables_q q).
Proof.
  exists (QSet Union (sel [col (TVirt 7) 0] [SDirect (TVirt 7)] None) (sel [col R 0] [SDirect R] None) [WQuery (sel [col T_ 2] [SDirect T_] None) 7] []), T_. split.
  - exists (NS (SDirect T_)). split; [|constructor]. apply w_down with (k := NW (WQuery (sel [col T_ 2] [SDirect T_] None) 7)); [cbn; auto|].
    apply w_down with (k := NQ (sel [col T_ 2] [SDirect T_] None)); [cbn; auto|]. apply w_down with (k := NS (SDirect T_)); [cbn; auto|constructor].
  - cbn. intuition discriminate.
Qed.
(** SELECT DISTINCT ON ((SELECT T.c FROM T)) R.a FROM R *)
Theorem C117_distinct_refuted : exists q t, mentions_table (NQ q) t /\ ~ In (Some t) (tables_q q).
Proof.
  exists (QSel [] [(col R 0, None)] (Some [ESub (sel [col T_ 2] [SDirect T_] None)]) (Some (FOther, [SDirect R])) None [] None []), T_. split.
  - exists (NS (SDirect T_)). split; [|constructor]. apply w_down with (k := NE (ESub (sel [col T_ 2] [SDirect T_] None))); [cbn; auto|].
    apply w_down with (k := NQ (sel [col T_ 2] [SDirect T_] None)); [cbn; auto|]. apply w_down with (k := NS (SDirect T_)); [cbn; auto|constructor].
  - cbn. intuition discriminate.
Qed.

(** The parts of a query, to check conditions on concrete queries. *)
Fixpoint parts (fuel : nat) (n : node) : list node := match fuel with 0 => [] | S f => n :: flat_map (parts f) (kids n) end.
Lemma parts_all : forall n m, within m n -> forall f, size_n n < f -> In m (parts f n).
Proof.
  intros n m W. induction W as [|n k Hk W IH]; intros f Hf; (destruct f as [|f]; [lia|]); cbn; [auto|right].
  apply in_flat_map. exists k. split; [exact Hk|]. apply IH. apply kids_smaller in Hk. lia.
Qed.
Lemma check_parts (P : node -> Prop) n : Forall P (parts (S (size_n n)) n) -> forall m, within m n -> P m.
Proof. intros F m W. rewrite Forall_forall in F. apply F. apply parts_all with (n := n); [exact W|lia]. Qed.
Example C117_example : (forall m, within m (NQ outer) -> t_ok m) /\ tables_q outer = map Some [R; R; S_; R; S_; T_; T_; R].
Proof.
  split; [|reflexivity]. apply check_parts. cbn. repeat (constructor; [exact I|]). constructor.
Qed.

(** * C118: columns() and itercolumns() *)
Theorem C118_sound_partial : forall q, (forall m, within m (NQ q) -> no_values m) -> forall c, In c (columns_q q) -> mentions_column (NQ q) c.
Proof. intros q H c. apply (@columns_sound (NQ q) c H). Qed.
Theorem C118_complete_partial : forall q, (forall m, within m (NQ q) -> c_ok m) -> forall c, In c (columns_q q) <-> mentions_column (NQ q) c.
Proof.
  intros q H c. split; [|apply (@columns_complete (NQ q) H)]. apply (@columns_sound (NQ q) c). intros m W. apply (H m W).
Qed.
Theorem C118_iter_partial : forall q, (forall m, within m (NQ q) -> i_ok m) -> forall c, In c (itercols_q q) <-> mentions_column (NQ q) c.
Proof.
  intros q H c. split; [|apply (@itercols_complete (NQ q) H)]. apply (@itercols_sound (NQ q) c). intros m W. apply (H m W).
Qed.
Theorem C118_subset : forall q c, In c (columns_q q) -> In c (itercols_q q).
Proof. intros q c. apply (@columns_iter (NQ q) c). Qed.
(** (SELECT R.a FROM R) UNION (SELECT S.b FROM S) ORDER BY x *)
Definition ordered_union : query := QSet Union (sel [col R 0] [SDirect R] None) (sel [col S_ 1] [SDirect S_] None) [] [ECol (Col None (NUser 9))].
Theorem C118_set_refuted : exists q c, In c (itercols_q q) /\ ~ In c (columns_q q).
Proof. exists ordered_union, (Col None (NUser 9)). cbn. split; [auto|intuition discriminate]. Qed.
(** WITH c (x) AS (VALUES (1)) SELECT c.x FROM c: the result has a column whose name is a column *)
Theorem C118_values_refuted : exists q t c, In (ColOf t c) (columns_q q) /\ ~ mentions_column (NQ q) (ColOf t c).
Proof.
  exists (QSel [WValues 7 [NUser 5]] [(col (TVirt 7) 5, None)] None (Some (FOther, [SDirect (TVirt 7)])) None [] None []), (Some (TVirt 7)), (Col (Some (TVirt 7)) (NUser 5)).
  split; [cbn; auto|]. intros (m & W & C). revert C. revert m W. apply (check_parts (fun m => ~ column_at m _)). cbn.
  repeat (constructor; [intro C; inversion C|]). constructor.
Qed.
(** SELECT DISTINCT ON (R.b) R.a FROM R *)
Theorem C118_distinct_refuted : exists q c, mentions_column (NQ q) c /\ ~ In c (itercols_q q).
Proof.
  exists (QSel [] [(col R 0, None)] (Some [col R 1]) (Some (FOther, [SDirect R])) None [] None []), (Col (Some R) (NUser 1)). split; [|cbn; intuition discriminate].
  exists (NE (col R 1)). split; [|constructor]. apply w_down with (k := NE (col R 1)); [cbn; auto|constructor].
Qed.
Example C118_example : (forall m, within m (NQ outer) -> c_ok m /\ i_ok m) /\ length (columns_q outer) = 5 /\ columns_q outer = itercols_q outer.
Proof.
  split; [|split; reflexivity]. apply check_parts. cbn. repeat (constructor; [repeat split; exact I|]). constructor.
Qed.

(** * C119: subqueries() *)
Theorem C119_sound : forall q l, subqueries q = Ok l -> forall s, In s l -> subquery_of q s.
Proof. exact subqueries_sound. Qed.
Theorem C119_complete_partial : forall q, visible q -> exists l, subqueries q = Ok l /\ forall s, In s l <-> subquery_of q s.
Proof. intros q V. destruct (subqueries_complete q V) as (l & E & H). exists l. split; [exact E|]. intro s. split; [apply (subqueries_sound _ E)|apply H]. Qed.
Theorem C119_joins_refuted : forall ctes ta di wh gr hv od l r c j items, In (SJoin l r c j) items ->
  subqueries (QSel ctes ta di (Some (FOther, items)) wh gr hv od) = Raise TypeError.
Proof. intros. cbn [subqueries]. rewrite (@collect_from_join items (SJoin l r c j)); auto. Qed.
(** SELECT * FROM f((SELECT R.a FROM R)) *)
Theorem C119_function_refuted : exists q s, subquery_of q s /\ subqueries q = Ok [].
Proof.
  exists (sel [EStar] [SFun (ENode 0 false [ESub (sel [col R 0] [SDirect R] None)]) None] None), (sel [col R 0] [SDirect R] None).
  split; [|reflexivity]. constructor. apply nested_sel. right. eexists. split; [cbn; left; reflexivity|].
  apply n_down with (k := NE (ENode 0 false [ESub (sel [col R 0] [SDirect R] None)])); cbn; auto.
  apply n_down with (k := NE (ESub (sel [col R 0] [SDirect R] None))); cbn; auto. constructor.
Qed.
(** (SELECT R.a FROM R) UNION (SELECT S.b FROM S) ORDER BY (SELECT T.c FROM T) *)
Theorem C119_set_refuted : exists q s, subquery_of q s /\ subqueries q = Ok [].
Proof.
  exists (QSet Union (sel [col R 0] [SDirect R] None) (sel [col S_ 1] [SDirect S_] None) [] [ESub inner]), inner. split; [|reflexivity].
  apply so_here. apply n_down with (k := NE (ESub inner)); cbn; auto. constructor.
Qed.
Example C119_example : visible outer /\ subqueries outer = Ok [inner] /\ subqueries (sel [EStar] [SSub outer (Some 7) false] None) = Ok [outer].
Proof. split; [|split; reflexivity]. cbn. split; [tauto|]. intros s [<-|[<-|[]]]; exact I. Qed.

(** * C120: bound and unbound tables *)
Theorem C120_bound_partial : forall q, plain q -> exists b, bound_tables q = Ok b /\ forall x, In x b <-> exists t, x = Some t /\ scanned q t.
Proof. intros q P. apply bound_plain; [lia|exact P]. Qed.
Theorem C120_unbound_partial : forall q, plain q -> exists u, unbound_tables q = Ok u /\
  (forall x, In x u -> exists t, x = Some t /\ free_q t q)
  /\ ((forall t, free_q t q -> ~ scanned q t) -> forall t, free_q t q -> In (Some t) u).
Proof. exact unbound_plain. Qed.
Theorem C120_dependent_partial : forall q, plain q -> exists d, is_dependent q = Ok d /\
  (d = true -> exists t, free_q t q) /\ ((forall t, free_q t q -> ~ scanned q t) -> (exists t, free_q t q) -> d = true).
Proof. exact dependent_plain. Qed.
(** SELECT sq.a FROM (SELECT R.a FROM R) AS sq binds everything, but counts as dependent *)
Definition derived : query := sel [col (TVirt 7) 0] [SSub (sel [col R 0] [SDirect R] None) (Some 7) false] None.
Ltac free_inv := repeat match goal with
  | H : In _ (clause_exprs _) |- _ => cbn in H
  | H : In _ (items _) |- _ => cbn in H
  | H : In _ (_ :: _) |- _ => destruct H as [H|H]; [subst|]
  | H : _ = _ \/ _ |- _ => destruct H as [H|H]; [subst|]
  | H : In _ [] |- _ => destruct H
  | H : False |- _ => destruct H
  | H : free_q _ (sel _ _ _) |- _ => unfold sel in H; cbn [map] in H
  | H : free_e _ (col _ _) |- _ => unfold col in H
  | H : free_q _ _ |- _ => inversion H; subst; clear H
  | H : free_e _ _ |- _ => inversion H; subst; clear H
  | H : free_s _ _ _ |- _ => inversion H; subst; clear H
  | H : col_table _ = _ |- _ => cbn in H; injection H as <-
  end.
Theorem C120_derived_refuted : (forall t, ~ free_q t derived) /\ is_dependent derived = Ok true.
Proof.
  split; [|reflexivity]. intros t F. unfold derived, sel in F. cbn [map] in F. free_inv.
  - match goal with H : ~ provided _ _ |- _ => apply H end. exists (SSub (sel [col R 0] [SDirect R] None) (Some 7) false). split; [cbn; auto|constructor].
  - match goal with H : ~ provided _ _ |- _ => apply H end. exists (SDirect R). split; [cbn; auto|constructor].
Qed.
(** SELECT R.a FROM R WHERE R.a IN (SELECT sq.b FROM (SELECT S.b FROM S) AS sq): [sq] counts as unbound *)
Definition nested_derived : query :=
  sel [col R 0] [SDirect R] (Some (ENode 3 false [col R 0; ESub (sel [col (TVirt 7) 1] [SSub (sel [col S_ 1] [SDirect S_] None) (Some 7) false] None)])).
Theorem C120_nested_refuted : (forall t, ~ free_q t nested_derived) /\ exists u, unbound_tables nested_derived = Ok u /\ In (Some (TVirt 7)) u.
Proof.
  split; [|eexists; split; [vm_compute; reflexivity|cbn; auto]]. intros t F. unfold nested_derived, sel in F. cbn [map] in F. free_inv;
  match goal with
  | H : ~ provided (Some (FOther, [SDirect ?x])) ?x |- _ => apply H; exists (SDirect x); split; [cbn; auto|constructor]
  | H : ~ provided _ (TVirt 7) |- _ => apply H; eexists; split; [cbn; left; reflexivity|constructor]
  end.
Qed.
(** SELECT R.a FROM R WHERE T.c = 1 AND EXISTS (SELECT * FROM T): the first T is not bound, but bound_tables() reports it *)
Definition leak : query := sel [col R 0] [SDirect R] (Some (EAnd [eq_ (col T_ 2) EVal; ENode 2 false [ESub (sel [EStar] [SDirect T_] None)]])).
Theorem C120_scope_refuted : plain leak /\ free_q T_ leak /\ is_dependent leak = Ok false /\ unbound_tables leak = Ok [].
Proof.
  split; [|split; [|split; reflexivity]].
  - unfold plain. apply check_parts. cbn.
    repeat (constructor; [first [exact I|split; [reflexivity|split; [reflexivity|eexists; eexists; split; [reflexivity|intros s [<-|[]]; eauto]]]]|]). constructor.
  - apply f_expr with (e := EAnd [eq_ (col T_ 2) EVal; ENode 2 false [ESub (sel [EStar] [SDirect T_] None)]]).
    + cbn. auto.
    + apply f_and with (e := eq_ (col T_ 2) EVal); [cbn; auto|]. apply f_node with (e := col T_ 2); [cbn; auto|]. constructor. reflexivity.
    + intros (s & [<-|[]] & P). inversion P.
Qed.
(** Explicit joins, a subquery without FROM clause, VALUES *)
Theorem C120_joins_refuted : forall ctes ta di wh gr hv od l r c j items, In (SJoin l r c j) items ->
  is_dependent (QSel ctes ta di (Some (FOther, items)) wh gr hv od) = Raise TypeError.
Proof.
  intros. cbn [is_dependent]. unfold bound_tables. cbn [depth_q bound_fuel]. rewrite (C119_joins_refuted ctes ta di wh gr hv od l r c j items H). reflexivity.
Qed.
Theorem C120_nofrom_refuted : exists q, is_dependent q = Raise AttributeError.
Proof. exists (sel [col R 0] [SDirect R] (Some (ENode 3 false [col R 0; ESub (QSel [] [(EVal, None)] None None None [] None [])]))). reflexivity. Qed.
Theorem C120_values_refuted : exists q, is_dependent q = Raise TypeError.
Proof. exists (sel [EStar] [SValues (Some (TVirt 7)) [NUser 0]] None). reflexivity. Qed.
(** Documented: tables() is the disjoint union of bound_tables() and unbound_tables(). *)
Theorem C120_partition_refuted : exists b u, bound_tables derived = Ok b /\ unbound_tables derived = Ok u /\ ~ (forall x, In x (tables_q derived) <-> In x b \/ In x u).
Proof. eexists. eexists. split; [vm_compute; reflexivity|]. split; [vm_compute; reflexivity|]. intro H. specialize (proj1 (H (Some (TVirt 7)))). cbn. intuition discriminate. Qed.
Theorem C120_disjoint : forall ctes ta di from wh gr hv od b u, let q := QSel ctes ta di from wh gr hv od in bound_tables q = Ok b -> unbound_tables q = Ok u ->
  forall x, In x u -> In x (tables_q q) /\ ~ In x b.
Proof. intros ctes ta di from wh gr hv od b u q Eb. unfold q in *. cbn [unbound_tables]. rewrite Eb. cbn [rbind]. intro E. injection E as <-. intros x Hx. rewrite !minus_In in Hx. tauto. Qed.
Example C120_example : plain outer /\ plain inner /\ is_dependent outer = Ok false /\ is_dependent inner = Ok true /\ unbound_tables inner = Ok [Some R]
  /\ free_q R inner /\ (forall t, free_q t inner -> ~ scanned inner t).
Proof.
  assert (P : plain outer /\ plain inner).
  { split; unfold plain; apply check_parts; cbn;
    repeat (constructor; [first [exact I|split; [reflexivity|split; [reflexivity|eexists; eexists; split; [reflexivity|intros s Hs; cbn in Hs; intuition eauto]]]]|]); constructor. }
  destruct P as [P1 P2]. split; [exact P1|]. split; [exact P2|]. split; [reflexivity|]. split; [reflexivity|]. split; [reflexivity|]. split.
  - apply f_expr with (e := eq_ (col T_ 2) (col R 0)); [cbn; auto| |intros (s & [<-|[]] & Q); inversion Q]. apply f_node with (e := col R 0); [cbn; auto|]. constructor. reflexivity.
  - intros t F W. unfold inner in F.
    assert (E : t = R).
    { free_inv; try reflexivity. exfalso. match goal with H : ~ provided _ _ |- _ => apply H end. exists (SDirect T_). split; [cbn; auto|constructor]. }
    subst t. revert W. unfold scanned. intro W. pose proof (@parts_all _ _ W _ (Nat.lt_succ_diag_r _)) as X. cbn in X. intuition discriminate.
Qed.

(** * C121: predicates() *)
Theorem C121_conjunction : forall q o, predicates q = Ok o -> forall v, (match o with None => True | Some p => holds v p end) <-> forall p, pred_of q p -> holds v p.
Proof.
  intros q o E v. destruct (proj1 (preds_ok v) q) as (o' & E' & H); [apply (preds_readable (NQ q) o E)|]. rewrite E in E'. injection E' as <-. exact H.
Qed.
Theorem C121_when_partial : forall q, (exists o, predicates q = Ok o) <-> readable q.
Proof.
  intro q. split; [intros (o & E); exact (preds_readable (NQ q) o E)|]. intro H. destruct (proj1 (preds_ok (fun _ => True)) q H) as (o & E & _). eauto.
Qed.
(** SELECT 1 *)
Theorem C121_nofrom_refuted : forall ta di wh gr hv od, predicates (QSel [] ta di None wh gr hv od) = Raise AttributeError.
Proof. reflexivity. Qed.
(** SELECT * FROM (SELECT R.a FROM R UNION SELECT S.b FROM S) AS u WHERE u.a = 1 *)
Theorem C121_union_refuted : exists q p, pred_of q p /\ predicates q = Raise OtherError.
Proof.
  exists (sel [EStar] [SSub (QSet Union (sel [col R 0] [SDirect R] None) (sel [col S_ 1] [SDirect S_] None) [] []) (Some 7) false] (Some (eq_ (col (TVirt 7) 0) EVal))), (eq_ (col (TVirt 7) 0) EVal).
  split; [constructor|reflexivity].
Qed.
Example C121_example :
  let on := eq_ (col R 0) (col S_ 1) in
  predicates (QSel [WQuery inner 8] [(EStar, None)] None (Some (FOther, [SJoin (SDirect R) (SSub inner (Some 7) false) (Some on) JInner])) (Some (eq_ (col R 3) EVal)) [] None [])
  = Ok (Some (EAnd [EAnd [eq_ (col T_ 2) (col R 0); eq_ (col R 3) EVal]; EAnd [eq_ (col T_ 2) (col R 0); on]])).
Proof. reflexivity. Qed.

(** * C122: output_columns() *)
Theorem C122_names_partial : forall q, starless q -> user_names q -> exists l, output_columns q = Ok l /\ length l = length (col_names q) /\
  forall i, i < length l -> exists c, nth_error l i = Some c /\ named_at (col_names q) i c.
Proof.
  intros q H U. exists (assign (col_names q) 1). split; [apply output_assign; assumption|]. split; [apply assign_length|].
  intros i Hi. rewrite assign_length in Hi. pose proof (assign_nth (col_names q) 1 i) as A. unfold named_at.
  destruct (nth_error (col_names q) i) as [[n|]|] eqn:E; [eauto|eexists; split; [exact A|reflexivity]|]. apply nth_error_None in E. lia.
Qed.
Theorem C122_select_partial : forall ctes ta di from wh gr hv od, starless (QSel ctes ta di from wh gr hv od) ->
  exists l, output_columns (QSel ctes ta di from wh gr hv od) = Ok l /\ length l = length ta /\ forall i, i < length ta -> exists c, nth_error l i = Some c /\ named_at (col_names (QSel ctes ta di from wh gr hv od)) i c.
Proof.
  intros ctes ta di from wh gr hv od H. exists (assign (map tgt ta) 1). split; [cbn [output_columns]; f_equal; apply out_sel_assign; exact H|].
  split; [rewrite assign_length; apply map_length|]. intros i Hi. pose proof (assign_nth (map tgt ta) 1 i) as A. unfold named_at. change (col_names (QSel ctes ta di from wh gr hv od)) with (map tgt ta).
  destruct (nth_error (map tgt ta) i) as [[n|]|] eqn:E; [eauto|eexists; split; [exact A|reflexivity]|]. apply nth_error_None in E. rewrite map_length in E. lia.
Qed.
(** SELECT R.column_x FROM R UNION SELECT S.b FROM S: the name of the left-hand side is lost *)
Theorem C122_prefix_refuted : exists q l, starless q /\ output_columns q = Ok l /\ ~ (forall i c, nth_error l i = Some c -> named_at (col_names q) i c).
Proof.
  exists (QSet Union (sel [ECol (Col (Some R) (NColumn 77))] [SDirect R] None) (sel [col S_ 1] [SDirect S_] None) [] []). eexists. split; [|split; [reflexivity|]].
  - cbn. split; [|split; [|reflexivity]]; intros x [<-|[]]; split; cbn; intros; discriminate.
  - intro H. specialize (H 0 (NUser 1) eq_refl). discriminate.
Qed.
(** SELECT R.a + 1, R.b AS column_1 FROM R: two columns of the same name *)
Theorem C122_clash_refuted : exists q l, starless q /\ output_columns q = Ok l /\ ~ NoDup l.
Proof.
  exists (QSel [] [(ENode 0 false [col R 0; EVal], None); (col R 1, Some (NColumn 1))] None (Some (FOther, [SDirect R])) None [] None []). eexists. split; [|split; [reflexivity|]].
  - intros x [<-|[<-|[]]]; split; cbn; intros; discriminate.
  - intro N. inversion N as [|? ? X _]. apply X. cbn. auto.
Qed.
Example C122_example :
  let q := QSet Union (QSel [] [(ENode 0 false [col R 0], None); (col R 1, None); (EVal, None)] None (Some (FOther, [SDirect R])) None [] None [])
    (QSel [] [(EVal, None); (EVal, None); (col S_ 2, Some (NUser 4))] None (Some (FOther, [SDirect S_])) None [] None []) [] [] in
  starless q /\ user_names q /\ output_columns q = Ok [NColumn 1; NUser 1; NUser 4].
Proof.
  cbn. split; [|split; [|reflexivity]].
  - split; [|split; [|reflexivity]]; intros x H; intuition; subst x; discriminate.
  - split; intros o H; intuition; subst o; exact I.
Qed.

(** * C123: is_scalar() *)
Theorem C123_scalar_partial : forall q keep, is_scalar q = true -> (match q with QSel _ _ _ _ _ _ hv _ => hv = None | _ => True end) ->
  ungrouped_rows keep q = Some 1 /\ length (col_names q) = 1.
Proof.
  intros [ctes ta di from wh gr hv od|op l r w o] keep H Hv; [|discriminate]. cbn in *.
  destruct ta as [|[[| |c|ps|k [] args|q] n] [|]]; try discriminate; destruct di; try discriminate; destruct gr; try discriminate. subst hv. split; reflexivity.
Qed.
(** SELECT count(star) FROM R HAVING count(star) > 10 may have no result row *)
Theorem C123_having_refuted : exists q, is_scalar q = true /\ ungrouped_rows false q = Some 0.
Proof. exists (QSel [] [(ENode 0 true [EStar], None)] None (Some (FOther, [SDirect R])) None [] (Some (ENode 4 false [ENode 0 true [EStar]; EVal])) []). split; reflexivity. Qed.
Example C123_example : is_scalar (sel [ENode 0 true [EStar]] [SDirect R] None) = true /\ is_scalar (sel [col R 0] [SDirect R] None) = false.
Proof. split; reflexivity. Qed.

Print Assumptions C117_sound. Print Assumptions C117_complete_partial. Print Assumptions C117_references_partial. Print Assumptions C117_unnamed_refuted.
Print Assumptions C117_function_refuted. Print Assumptions C117_on_refuted. Print Assumptions C117_set_refuted. Print Assumptions C117_distinct_refuted.
Print Assumptions C118_sound_partial. Print Assumptions C118_complete_partial. Print Assumptions C118_iter_partial. Print Assumptions C118_subset. Print Assumptions C118_set_refuted.
Print Assumptions C118_values_refuted. Print Assumptions C118_distinct_refuted.
Print Assumptions C119_sound. Print Assumptions C119_complete_partial. Print Assumptions C119_joins_refuted. Print Assumptions C119_function_refuted. Print Assumptions C119_set_refuted.
Print Assumptions C120_bound_partial. Print Assumptions C120_unbound_partial. Print Assumptions C120_dependent_partial. Print Assumptions C120_derived_refuted. Print Assumptions C120_nested_refuted.
Print Assumptions C120_scope_refuted. Print Assumptions C120_joins_refuted. Print Assumptions C120_nofrom_refuted. Print Assumptions C120_values_refuted. Print Assumptions C120_partition_refuted. Print Assumptions C120_disjoint.
Print Assumptions C121_conjunction. Print Assumptions C121_when_partial. Print Assumptions C121_nofrom_refuted. Print Assumptions C121_union_refuted.
Print Assumptions C122_names_partial. Print Assumptions C122_select_partial. Print Assumptions C122_prefix_refuted. Print Assumptions C122_clash_refuted.
Print Assumptions C123_scalar_partial. Print Assumptions C123_having_refuted.
