(** C196: pg_lab hints of entire plans.  C197: the hint service of PostgreSQL. *)
From Coq Require Import List Bool Arith ZArith String Permutation Lia.
From Verif Require Import PyBase Hint_model Card_model JT_model Lim_model PGHint_model PGHint_spec PGHint_proofs PGHint_props QPlan_model QPlan_spec QPlan_proofs PLab_model PLab_spec PLab_proofs.
Import ListNotations.
Open Scope string_scope.
Open Scope list_scope.
Open Scope nat_scope.

Lemma iternodes_node p n : In n (iternodes p) <-> node_of p n.
Proof. apply iternodes_spec. Qed.
Lemma key_keyword o k : lab_op o = Some k <-> keyword o k.
Proof.
  split.
  - destruct o as [n|n|n]; destruct n as [|[|[|[|n]]]]; cbn; intros H; try discriminate; injection H as <-; first [apply kw_mat|apply kw_memo|apply kw_op; constructor].
  - intros [o' k' []| |]; reflexivity.
Qed.
Lemma card_rows d z : card_of d = CVal z <-> rows d z.
Proof.
  unfold card_of. split.
  - destruct (m_card (meas d)) as [| |v] eqn:E; cbn; intros H.
    + apply rows_estimated; [intros; congruence|exact H].
    + apply rows_estimated; [intros; congruence|exact H].
    + injection H as <-. now apply rows_actual.
  - intros [v H|v H H2]; [now rewrite H|]. destruct (m_card (meas d)) as [| |v'] eqn:E; cbn; auto. exfalso. now apply (H v').
Qed.

(** ** C196 *)
(** The second line is the join order; plans without a join order are an AssertionError. *)
Theorem C196_join_order name p : (forall o, shape p o -> exists ls, plan_lines name p = Ok (LMode :: LOrder (order_text name o) :: ls)) /\
  ((forall o, ~ shape p o) -> plan_lines name p = Raise AssertionError).
Proof.
  destruct (plan_text_shape name p) as [S C]. split.
  - intros o H. unfold plan_lines. rewrite (S o H). eexists. reflexivity.
  - intros H. unfold plan_lines. destruct (plan_text name p) as [s|e] eqn:E; [destruct (C s eq_refl) as (o & O & _); now apply H in O|]. cbn. now rewrite (plan_text_error _ _ E).
Qed.
Print Assumptions C196_join_order.
(** Different join orders have different lines, if each identifier is one word and no two tables share one. *)
Theorem C196_order_determined name o o' : (forall x, word (name x)) -> (forall x y, In x (order_tables o) -> In y (order_tables o') -> name x = name y -> x = y) ->
  order_text name o = order_text name o' -> o = o'.
Proof.
  intros W I E. assert (X : order_of (tree_of o) = order_of (tree_of o')).
  { apply (walk_injective name (tree_of o) (tree_of o') (order_text name o) W); [|apply tree_walk|rewrite E; apply tree_walk]. intros a b x y. rewrite !tree_order. intros A B. injection A as <-. injection B as <-. apply I. }
  rewrite !tree_order in X. congruence.
Qed.
Print Assumptions C196_order_determined.
(** There is an operator line for each node whose operator has a keyword and no other. *)
Theorem C196_operators name p ls : plan_lines name p = Ok ls ->
  (forall n o k, node_of p n -> oper (data n) = Some o -> keyword o k -> exists w, In (LOp k (tables n) w) ls) /\
  (forall k ts w, In (LOp k ts w) ls -> exists n o, node_of p n /\ oper (data n) = Some o /\ keyword o k /\ ts = tables n) /\
  Permutation (flat_map (fun l => match l with LOp k ts _ => [(k, ts)] | _ => [] end) ls)
              (flat_map (fun n => match oper (data n) with Some o => match lab_op o with Some k => [(k, tables n)] | None => [] end | None => [] end) (iternodes p)).
Proof.
  unfold plan_lines. destruct (plan_text name p) as [s|]; [|discriminate]. cbn [rmap rbind]. intros H. injection H as <-. assert (F := fold_parts op_part node_ops step_ops (bfs p) (mkps false true None [])). cbn [out flat_map app] in F.
  assert (P : Permutation (flat_map op_part (out (fold_left pl_step (bfs p) (mkps false true None [])))) (flat_map node_ops (iternodes p))) by (rewrite F; apply Permutation_flat_map, bfs_nodes).
  set (l := out _) in *. assert (ON : forall n o k, node_of p n -> oper (data n) = Some o -> keyword o k -> In (k, tables n) (flat_map op_part l)).
  { intros n o k N O K. apply (Permutation_in _ (Permutation_sym P)), in_flat_map. exists n. split; [now apply iternodes_node|]. unfold node_ops, node_key. rewrite O, (proj2 (key_keyword o k) K). now left. }
  split; [|split].
  - intros n o k N O K. destruct (proj1 (in_flat_map _ _ _) (ON n o k N O K)) as (x & X & Y). destruct x as [| | |k' t' w|]; cbn in Y; try tauto. destruct Y as [Y|[]]. injection Y as -> ->. exists w. do 2 right. exact X.
  - intros k ts w [H|[H|H]]; try discriminate. assert (Y : In (k, ts) (flat_map op_part l)) by (apply in_flat_map; exists (LOp k ts w); split; [exact H|now left]).
    apply (Permutation_in _ P), in_flat_map in Y as (n & N & Y). apply iternodes_node in N. unfold node_ops, node_key in Y. destruct (oper (data n)) as [o|] eqn:O; [|destruct Y]. destruct (lab_op o) as [k'|] eqn:K; [|destruct Y]. destruct Y as [Y|[]]. injection Y as <- <-.
    exists n, o. split; [exact N|]. split; [exact O|]. split; [now apply key_keyword|reflexivity].
  - cbn [flat_map app]. etransitivity; [exact P|]. erewrite flat_map_ext; [reflexivity|]. intros n. unfold node_ops, node_key. destruct (oper (data n)) as [o|]; reflexivity.
Qed.
Print Assumptions C196_operators.
(** Each of these nodes with a known number of rows has a cardinality line, and there are no others. *)
Theorem C196_cardinalities name p ls : plan_lines name p = Ok ls ->
  forall ts z, In (LCard ts z) ls <-> exists n o k, node_of p n /\ oper (data n) = Some o /\ keyword o k /\ ts = tables n /\ rows (data n) z.
Proof.
  unfold plan_lines. destruct (plan_text name p) as [s|]; [|discriminate]. cbn [rmap rbind]. intros H. injection H as <-. assert (F := fold_parts card_part node_cards step_cards (bfs p) (mkps false true None [])). cbn [out flat_map app] in F.
  intros ts z. assert (E : In (LCard ts z) (LMode :: LOrder s :: out (fold_left pl_step (bfs p) (mkps false true None []))) <-> In (ts, z) (flat_map card_part (out (fold_left pl_step (bfs p) (mkps false true None []))))).
  { rewrite in_flat_map. split; [intros [H|[H|H]]; try discriminate; eexists; split; [exact H|now left]|]. intros (x & X & Y). destruct x; cbn in Y; try tauto. destruct Y as [Y|[]]. injection Y as -> ->. now do 2 right. }
  rewrite E, F. rewrite in_flat_map. split.
  - intros (n & N & H). apply (Permutation_in _ (bfs_nodes p)), iternodes_node in N. unfold node_cards, node_key in H. destruct (oper (data n)) as [o|] eqn:O; [|destruct H]. destruct (lab_op o) as [k|] eqn:K; [|destruct H]. destruct (card_of (data n)) as [| |v] eqn:C; cbn in H; try tauto. destruct H as [H|[]]. injection H as <- <-.
    exists n, o, k. split; [exact N|]. split; [exact O|]. split; [now apply key_keyword|]. split; [reflexivity|]. now apply card_rows.
  - intros (n & o & k & N & O & K & -> & R). exists n. split; [apply (Permutation_in _ (Permutation_sym (bfs_nodes p))); now apply iternodes_node|]. unfold node_cards, node_key. rewrite O, (proj2 (key_keyword o k) K), (proj2 (card_rows _ _) R). now left.
Qed.
Print Assumptions C196_cardinalities.
(** At most one line has workers, and the number is that of some node; without parallel nodes there are none. *)
Definition workers (ls : list line) : list nat := flat_map (fun l => match l with LResult w => [w] | LOp _ _ (Some w) => [w] | _ => [] end) ls.
Theorem C196_workers name p ls : plan_lines name p = Ok ls ->
  workers ls = [] \/ exists n, node_of p n /\ 0 < pworkers (data n) /\ workers ls = [pworkers (data n)].
Proof.
  unfold plan_lines. destruct (plan_text name p) as [s|]; [|discriminate]. cbn [rmap rbind]. intros H. injection H as <-. unfold workers. cbn [flat_map app]. fold worker_part.
  destruct (fold_fresh (bfs p) (mkps false true None []) eq_refl eq_refl) as [[H _]|(k & K & [H|(n & N & B & <-)])]; [left; exact H|discriminate|]. right. exists n. split; [apply iternodes_node; now apply (Permutation_in _ (bfs_nodes p))|]. split; [now apply Nat.ltb_lt|exact K].
Qed.
Print Assumptions C196_workers.
(** A single parallel scan or join gets its workers in its own line, a single parallel node above all scans and joins in a line of its own. *)
Theorem C196_parallel_partial name p ls n : plan_lines name p = Ok ls -> filter (fun n => 0 <? pworkers (data n)) (iternodes p) = [n] ->
  (forall o k, oper (data n) = Some o -> keyword o k -> is_scan n = true \/ is_join n = true -> workers ls = [pworkers (data n)] /\ In (LOp k (tables n) (Some (pworkers (data n)))) ls) /\
  (on_top p n -> workers ls = [pworkers (data n)] /\ In (LResult (pworkers (data n))) ls).
Proof.
  unfold plan_lines. destruct (plan_text name p) as [s|]; [|discriminate]. cbn [rmap rbind]. intros H. injection H as <-. intros F. unfold workers. cbn [flat_map app]. split.
  - intros o k O K SJ. destruct (single_op p F (k := k)) as [A B]; [unfold node_key; rewrite O; now apply key_keyword|exact SJ|]. split; [exact A|]. do 2 right. exact B.
  - intros T. destruct (single_top F T) as [A B]. split; [exact A|]. do 2 right. exact B.
Qed.
Print Assumptions C196_parallel_partial.
Definition pd o b w := mkpd 0 o b [] [] w CNan None [] no_measures.
Definition seq t := Node (pd (Some (PScan 0)) (Some t) 0) [] None.
Definition par_seq t := Node (pd (Some (PScan 0)) (Some t) 4) [] None.
Definition hash a b := Node (pd (Some (PJoin 1)) None 0) [a; b] None.
Definition ex_name t := if t =? 1 then "a" else if t =? 2 then "b" else "c".
Example C196_parallel_ex : rmap (map (line_text ex_name (fun l => l))) (plan_lines ex_name (hash (hash (par_seq 1) (seq 2)) (seq 3)))
  = Ok ["Config(plan_mode=full)"; "JoinOrder(((a b) c))"; "HashJoin(a b c)"; "HashJoin(a b)"; "SeqScan(c)"; "SeqScan(a (workers=4))"; "SeqScan(b)"].
Proof. reflexivity. Qed.
(** The actual cardinality wins, otherwise the estimate is stated. *)
Example C196_cards_ex : rmap (map (line_text ex_name (fun l => l))) (plan_lines ex_name (Node (mkpd 0 (Some (PJoin 1)) None [] [] 0 (CVal 7) None [] no_measures) [seq 1; Node (mkpd 0 (Some (PScan 0)) (Some 2) [] [] 0 (CVal 30) None [] no_measures) [] None] None))
  = Ok ["Config(plan_mode=full)"; "JoinOrder((a b))"; "HashJoin(a b)"; "Card(a b #7)"; "SeqScan(a)"; "SeqScan(b)"; "Card(b #30)"].
Proof. reflexivity. Qed.
(** The workers of an auxiliary node, for example Gather, can end up at an operator of another part of the plan. *)
Theorem C196_gather_refuted : exists p n c ls, node_of p n /\ is_aux n = true /\ pworkers (data n) = 4 /\ kids n = [c] /\ is_scan c = true /\ tables c = [1] /\
  (forall m, node_of p m -> 0 < pworkers (data m) -> m = n) /\ plan_lines ex_name p = Ok ls /\ In (LOp "SeqScan" [1] None) ls /\ In (LOp "SeqScan" [2] (Some 4)) ls.
Proof.
  exists (hash (Node (pd None None 4) [seq 1] None) (seq 2)), (Node (pd None None 4) [seq 1] None), (seq 1). eexists. split; [eapply no_kid; [left; reflexivity|apply no_self]|]. do 5 (split; [reflexivity|]).
  split; [|split; [reflexivity|cbn; split; auto 10]]. intros m M. apply iternodes_node in M. cbn in M. destruct M as [<-|[<-|[<-|[<-|[]]]]]; cbn; intros; [lia|reflexivity|lia|lia].
Qed.
Print Assumptions C196_gather_refuted.
(** The line of a scan can have other tables than the scanned one, if the filter compares with a column of another table. *)
Theorem C196_tables_refuted : exists p n ls, node_of p n /\ is_scan n = true /\ base (data n) = Some 2 /\ plan_lines ex_name p = Ok ls /\
  (forall w, ~ In (LOp "SeqScan" [2] w) ls) /\ In (LOp "SeqScan" [2; 1] None) ls.
Proof.
  exists (hash (seq 1) (Node (mkpd 0 (Some (PScan 0)) (Some 2) [1] [] 0 CNan None [] no_measures) [] None)), (Node (mkpd 0 (Some (PScan 0)) (Some 2) [1] [] 0 CNan None [] no_measures) [] None). eexists.
  split; [eapply no_kid; [right; left; reflexivity|apply no_self]|]. do 3 (split; [reflexivity|]). split; [|cbn; auto 10]. intros w H. cbn in H. intuition discriminate.
Qed.
Print Assumptions C196_tables_refuted.
(** Without such filters, keys and subplans, a scan without inputs has the line of its table. *)
Theorem C196_tables_partial name p ls n t k o : plan_lines name p = Ok ls -> node_of p n -> oper (data n) = Some o -> keyword o k -> kids n = [] -> subplan n = None -> base (data n) = Some t ->
  incl (ftabs (data n) ++ ktabs (data n)) [t] -> exists w, In (LOp k [t] w) ls.
Proof.
  intros L N O K NK NS B I. destruct (C196_operators _ _ _ L) as [H _]. destruct (H n o k N O K) as [w W]. exists w. enough (E : tables n = [t]) by now rewrite E in W.
  destruct n as [d ks s]. cbn [data kids subplan] in *. subst. cbn [tables flat_map app]. unfold own_tables. rewrite B, app_nil_r. cbn [app].
  assert (D : NoDup (dedup (t :: ftabs d ++ ktabs d)) /\ forall x, In x (dedup (t :: ftabs d ++ ktabs d)) <-> x = t).
  { split; [apply dedup_NoDup|]. intros x. rewrite dedup_In. cbn [In]. split; [intros [H1|H1]; [auto|apply I in H1 as [H1|[]]; auto]|auto]. }
  destruct D as [D1 D2]. destruct (dedup (t :: ftabs d ++ ktabs d)) as [|x [|y r]].
  - now destruct (proj2 (D2 t) eq_refl).
  - f_equal. apply D2. now left.
  - exfalso. inversion D1 as [|? ? X _]; subst. apply X. left. transitivity t; [apply D2; right; now left|symmetry; apply D2; now left].
Qed.
Print Assumptions C196_tables_partial.

(** ** C197 *)
Section C197.
  Context {T P : Type} (hintplan pglab : option T -> option poa -> option P -> res string) (parts : plan -> res (T * poa * P)) (labplan : plan -> res string).
  Let gen := pg_generate hintplan pglab parts labplan.
  (** Plans are hinted like their parts by pg_hint_plan and as a whole by pg_lab, parts as they are. *)
  Lemma gen_plan p : gen "pg_hint_plan" (Some p) None None None = rbind (parts p) (fun r => gen "pg_hint_plan" None (Some (fst (fst r))) (Some (snd (fst r))) (Some (snd r))) /\
    gen "pg_lab" (Some p) None None None = labplan p.
  Proof. split; [|reflexivity]. unfold gen, pg_generate. cbn [String.eqb Ascii.eqb Bool.eqb]. destruct (parts p) as [[[t o] x]|e]; reflexivity. Qed.
  Lemma gen_parts jo ops pp : gen "pg_hint_plan" None jo ops pp = hintplan jo ops pp /\ gen "pg_lab" None jo ops pp = pglab jo ops pp.
  Proof. split; unfold gen, pg_generate; cbn; reflexivity. Qed.
  Lemma gen_both b p jo ops pp : jo <> None \/ ops <> None \/ pp <> None -> gen b (Some p) jo ops pp = Raise ValueError.
  Proof. intros H. unfold gen, pg_generate. destruct (String.eqb b "none"); [reflexivity|]. destruct jo, ops, pp; try reflexivity. destruct H as [H|[H|H]]; congruence. Qed.
  Lemma gen_none p jo ops pp : gen "none" p jo ops pp = Raise ValueError.
  Proof. reflexivity. Qed.
End C197.
Theorem C197_service : forall {T P} hintplan pglab (parts : plan -> res (T * poa * P)) labplan,
  let gen := pg_generate hintplan pglab parts labplan in
  (forall p, gen "pg_hint_plan" (Some p) None None None = rbind (parts p) (fun r => gen "pg_hint_plan" None (Some (fst (fst r))) (Some (snd (fst r))) (Some (snd r))) /\ gen "pg_lab" (Some p) None None None = labplan p) /\
  (forall jo ops pp, gen "pg_hint_plan" None jo ops pp = hintplan jo ops pp /\ gen "pg_lab" None jo ops pp = pglab jo ops pp) /\
  (forall b p jo ops pp, jo <> None \/ ops <> None \/ pp <> None -> gen b (Some p) jo ops pp = Raise ValueError) /\
  (forall p jo ops pp, gen "none" p jo ops pp = Raise ValueError).
Proof. intros. split; [apply gen_plan|]. split; [apply gen_parts|]. split; [apply gen_both|apply gen_none]. Qed.
Print Assumptions C197_service.
(** Other backends can be set, but not used. *)
Theorem C197_other_backends {T P} hintplan pglab (parts : plan -> res (T * poa * P)) labplan b jo ops pp : b <> "none" -> b <> "pg_hint_plan" -> b <> "pg_lab" ->
  pg_generate hintplan pglab parts labplan b None jo ops pp = Raise UnboundLocalError.
Proof. intros H1 H2 H3. apply String.eqb_neq in H1, H2, H3. unfold pg_generate. now rewrite H1, H2, H3. Qed.
Print Assumptions C197_other_backends.
