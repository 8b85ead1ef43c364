(** C95, C96: modified copies of relational algebra trees, their equality, hash values and leaves; and the consequences for C91-C94, since
    parse_relalg returns a copy. *)
From Coq Require Import List Bool Arith Permutation Lia.
From Verif Require Import PyBase Pred_model Pred_spec Pred_proofs Rel_model Rel_spec Rel_proofs RelP_proofs RelF_proofs RelM_proofs RelT_proofs RelA_proofs Rel_props RelMut_model RelMut_spec RelMut_proofs.
Import ListNotations.

(** ** C95 *)
(** In a tree of distinct tables, mutate() changes exactly the node it is called on, wherever that is. *)
Theorem C95_mutate_partial ordl root p s upd :
  (forall l, Permutation (ordl l) l) -> NoDup (ntabs root) -> sub root p = Some s -> children (upd s) = children s ->
  exists fuel r, mutate ordl no_side root s upd false fuel = Ok (r, upd s) /\ changed_at root p (upd s) r.
Proof.
  intros Ho N Hp Hc. destruct (mutate_ok root N p s Hp upd false Hc ordl Ho) as [fuel H]. exists fuel, (put root p (upd s)). split; [exact H|]. now apply (put_changed root p s).
Qed.
Print Assumptions C95_mutate_partial.
(** With [as_root], the changed node is a tree of its own. *)
Theorem C95_as_root_partial ordl root p s upd :
  (forall l, Permutation (ordl l) l) -> NoDup (ntabs root) -> sub root p = Some s -> children (upd s) = children s ->
  exists fuel, mutate ordl no_side root s upd true fuel = Ok (upd s, upd s).
Proof. intros Ho N Hp Hc. destruct (mutate_ok root N p s Hp upd true Hc ordl Ho) as [fuel H]. exists fuel. exact H. Qed.
Print Assumptions C95_as_root_partial.
(** A copy without changes, if there is one, is equal to the original, whatever the tree. *)
Theorem C95_copy ordl side root p s fuel r i :
  sub root p = Some s -> mutate ordl side root s (fun m => m) false fuel = Ok (r, i) -> node_eqb root r = true /\ node_eqb s i = true.
Proof.
  intros _ H. unfold mutate in H. destruct (copy_loop _ _ _ _ _ _ _ _ _ _) as [[r0 i0]|] eqn:E; [|discriminate]. cbn [rbind] in H. destruct i0 as [i0|]; [|discriminate]. destruct r0 as [r0|]; [|discriminate]. injection H as <- <-.
  apply copy_loop_same in E as [E1 E2]; [|intros k v []|discriminate|discriminate]. split; [now apply E1|now apply E2].
Qed.
Print Assumptions C95_copy.

Definition idl (l : list pos) : list pos := l.
Definition gtR := PBin OpGt xRb (RVal 1).
Definition new_pred (p : rpred) (n : rnode) : rnode := match n with NSel m _ => NSel m p | _ => n end.
Definition tree1 := NProj (NTheta (NSel (NRel tR [cRa; cRb]) gtR) (NRel tS [cSa]) (PBin OpEq xRa xSa)) [xRa].
Example tree1_ok : NoDup (ntabs tree1) /\ sub tree1 [0; 0] = Some (NSel (NRel tR [cRa; cRb]) gtR).
Proof. split; [repeat constructor; cbn; intuition discriminate|reflexivity]. Qed.
Example tree1_mutate : mutate idl no_side tree1 (NSel (NRel tR [cRa; cRb]) gtR) (new_pred (PBin OpGt xRb (RVal 2))) false 20 =
  Ok (NProj (NTheta (NSel (NRel tR [cRa; cRb]) (PBin OpGt xRb (RVal 2))) (NRel tS [cSa]) (PBin OpEq xRa xSa)) [xRa], NSel (NRel tR [cRa; cRb]) (PBin OpGt xRb (RVal 2))).
Proof. vm_compute. reflexivity. Qed.

(** If the tree contains an equal node elsewhere, that node changes, too. *)
Theorem C95_equal_nodes_refuted : exists root s r i, sub root [1] = Some s /\
  (forall fuel, 10 <= fuel -> mutate idl no_side root s (new_pred (PBin OpGt xRb (RVal 2))) false fuel = Ok (r, i)) /\ sub r [0] <> sub root [0].
Proof.
  exists (NUnion (NSel (NRel tR []) gtR) (NSel (NRel tR []) gtR)). do 3 eexists. split; [reflexivity|]. split; [|shelve]. intros fuel Hf. do 10 (destruct fuel as [|fuel]; [lia|]). vm_compute. reflexivity.
  Unshelve. discriminate.
Qed.
Print Assumptions C95_equal_nodes_refuted.
(** If the tree contains a table twice, it may not be possible to copy it at all. *)
Theorem C95_same_table_refuted : exists root, forall fuel, 10 <= fuel -> mutate idl no_side root root (fun m => m) false fuel = Raise AssertionError.
Proof.
  exists (NUnion (NProj (NRel tR []) [xRa]) (NProj (NRel tR []) [xRb])). intros fuel Hf. do 10 (destruct fuel as [|fuel]; [lia|]). vm_compute. reflexivity.
Qed.
Print Assumptions C95_same_table_refuted.

(** ** C91-C94 for the copy that parse_relalg returns *)
Lemma copy_loop_more side root init upd ar : forall fuel k queue d r i x, copy_loop side root init upd ar fuel queue d r i = Ok x -> copy_loop side root init upd ar (fuel + k) queue d r i = Ok x.
Proof.
  induction fuel as [|fuel IH]; intros k [|p rest] d r i x H.
  1: destruct k; exact H. 1: discriminate H. 1: exact H. cbn [copy_loop Nat.add] in *.
  destruct (sub root p) as [cur|]; [|discriminate]. destruct (_ || _); [now apply IH|]. destruct (updated_all d (children cur)) as [cs|]; [|discriminate]. cbn [rbind] in *. destruct (with_children cur cs) as [n|]; [|discriminate]. cbn [rbind] in *.
  destruct (node_eqb cur init); [destruct ar; [exact H|now apply IH]|now apply IH].
Qed.
Lemma mutate_unique ordl side root init upd ar f1 f2 x y : mutate ordl side root init upd ar f1 = Ok x -> mutate ordl side root init upd ar f2 = Ok y -> x = y.
Proof.
  unfold mutate. intros H1 H2. destruct (copy_loop _ _ _ _ _ f1 _ _ _ _) as [a|] eqn:E1; [|discriminate]. destruct (copy_loop _ _ _ _ _ f2 _ _ _ _) as [b|] eqn:E2; [|discriminate].
  apply (copy_loop_more _ _ _ _ _ _ f2) in E1. apply (copy_loop_more _ _ _ _ _ _ f1) in E2. rewrite Nat.add_comm, E1 in E2. injection E2 as ->. congruence.
Qed.
Lemma parse_relalg_same ordp ordn ordl side fuel q n : parse_relalg ordp ordn ordl side fuel q = Ok n -> exists m, parse ordp ordn q = Ok m /\ node_eqb m n = true.
Proof.
  unfold parse_relalg, rmap. intros H. destruct (parse ordp ordn q) as [m|]; [|discriminate]. cbn [rbind] in H. destruct (mutate _ _ _ _ _ _ _) as [[r i]|] eqn:E; [|discriminate]. cbn in H. injection H as ->.
  exists m. split; [reflexivity|]. apply (C95_copy ordl side m [] m fuel n i eq_refl E).
Qed.
Theorem C91_parse_relalg_partial ordp ordn ordl side fuel {V} {EV : EqD V} (null : V) M db q ts n :
  (forall l, Permutation (ordp l) l) -> (forall l, Permutation (ordn l) l) -> local_sem M -> plain q -> q_select q = Some ts ->
  parse_relalg ordp ordn ordl side fuel (QSel q) = Ok n -> answers null M db q (out null M db n).
Proof.
  intros Hp Hn HM P Hs H. apply parse_relalg_same in H as (m & Hm & E). rewrite <- (node_eqb_out null M db m n E). now apply (C91_translation_partial ordp ordn null M db q ts m).
Qed.
Print Assumptions C91_parse_relalg_partial.

Lemma late_phase_tabs w ph n m : late_phase w ph n = Ok m -> ntabs m = ntabs n.
Proof.
  destruct w as [p|]; cbn [late_phase]; [|intros H; now injection H as <-]. destruct (filter_phase p ph) as [o|]; [|discriminate]. cbn [rbind]. intros H. injection H as <-. destruct o; [|reflexivity]. unfold convert_predicate. cbn. apply with_map_tabs.
Qed.
Lemma add_ordering_tabs ks n m : add_ordering ks n = Ok m -> ntabs m = ntabs n.
Proof.
  assert (K : forall ks n m, add_keys ks n = Ok m -> ntabs m = ntabs n).
  { induction ks0 as [|k ks0 IH]; intros a b H; cbn [add_keys] in H; [now injection H as <-|]. destruct (add_expression (fst k) a) as [c|] eqn:E; [|discriminate]. cbn [rbind] in H. rewrite (IH _ _ H). now apply add_expression_same in E. }
  destruct ks as [|k ks]; cbn [add_ordering]; [intros H; now injection H as <-|]. unfold rmap. destruct (add_keys (k :: ks) n) as [x|] eqn:E; [|discriminate]. cbn [rbind]. intros H. injection H as <-. cbn. now apply K in E.
Qed.
Lemma parse_tabs ordp ordn q n : (forall l, Permutation (ordp l) l) -> (forall l, Permutation (ordn l) l) -> NoDup (q_from q) -> where_ok q -> parse ordp ordn (QSel q) = Ok n -> Permutation (ntabs n) (q_from q).
Proof.
  intros Hp Hn N W H. destruct (plain_where q W) as [W1 W2]. unfold parse, rmap in H. cbn [generate] in H. unfold gen_select in H. cbn [update_query st_frags st_cols] in H.
  destruct (base_phase _ _ _) as [f1|] eqn:E1; [|discriminate]. cbn [rbind] in H. destruct (join_phase _ _ _ _) as [f2|] eqn:E2; [|discriminate]. cbn [rbind] in H. destruct (cross_heads _ _) as [n1|] eqn:E3; [|discriminate]. cbn [rbind] in H.
  destruct (late_phase _ PostJoin _) as [n2|] eqn:E4; [|discriminate]. cbn [rbind] in H. destruct (late_phase _ PostAggregation _) as [n3|] eqn:E5; [|discriminate]. cbn [rbind] in H. destruct (add_ordering (q_order q) n3) as [n4|] eqn:E6; [|discriminate]. cbn in H. injection H as <-.
  assert (HW : forall p, q_where q = Some p -> here (q_from q) p) by (intros p Ep c Hc; apply W1; rewrite Ep; exact Hc).
  destruct (base_phase_inv ordp Hp nsem (q_from q) _ (q_where q) [] f1 (inside_nil _) HW W2 E1) as (D1 & I1 & _).
  destruct (join_phase_inv ordp ordn Hp Hn nsem (q_from q) (q_where q) f1 D1 f2 HW W2 I1 E2) as (D2 & I2 & _).
  destruct (cross_heads_spec ordn Hn (q_from q) f2 D2 n1 N I2 E3) as (_ & P & _).
  assert (Ea : forall m, ntabs (add_aggregation q m) = ntabs m). { intros m. unfold add_aggregation. destruct (q_group q), (query_aggs q); cbn; try apply with_map_tabs; try reflexivity. }
  assert (E : ntabs (final_projection q n4) = ntabs n4) by (unfold final_projection; destruct (q_select q); [cbn; apply with_map_tabs|reflexivity]).
  rewrite E, (add_ordering_tabs _ _ _ E6), (late_phase_tabs _ _ _ _ E5), Ea, (late_phase_tabs _ _ _ _ E4). exact P.
Qed.
Lemma parse_relalg_exact ordp ordn ordl q n : (forall l, Permutation (ordp l) l) -> (forall l, Permutation (ordn l) l) -> (forall l, Permutation (ordl l) l) ->
  NoDup (q_from q) -> where_ok q -> parse ordp ordn (QSel q) = Ok n -> exists fuel, parse_relalg ordp ordn ordl no_side fuel (QSel q) = Ok n.
Proof.
  intros Hp Hn Hl N W H. pose proof (parse_tabs ordp ordn q n Hp Hn N W H) as P. assert (Nn : NoDup (ntabs n)) by (eapply Permutation_NoDup; [apply Permutation_sym, P|exact N]).
  destruct (mutate_ok n Nn [] n eq_refl (fun m => m) false eq_refl ordl Hl) as [fuel Hm]. exists fuel. unfold parse_relalg, rmap. rewrite H. cbn [rbind]. rewrite Hm. reflexivity.
Qed.
Theorem C92_parse_relalg_partial ordp ordn ordl q :
  (forall l, Permutation (ordp l) l) -> (forall l, Permutation (ordn l) l) -> (forall l, Permutation (ordl l) l) -> translatable q ->
  exists fuel n, parse_relalg ordp ordn ordl no_side fuel (QSel q) = Ok n.
Proof.
  intros Hp Hn Hl T. destruct (C92_translatable_partial ordp ordn q Hp Hn T) as [n H]. destruct (parse_relalg_exact ordp ordn ordl q n Hp Hn Hl) as [fuel Hf]; auto; [apply (tr_from q T)| |eauto].
  intros p Ep. destruct (tr_where q T p Ep) as (_ & B & R). split; [exact B|]. intros r Hr. destruct (R r Hr) as (R1 & R2 & _). auto.
Qed.
Print Assumptions C92_parse_relalg_partial.
Theorem C93_parse_relalg_partial ordp ordn ordl fuel q n :
  (forall l, Permutation (ordp l) l) -> (forall l, Permutation (ordn l) l) -> (forall l, Permutation (ordl l) l) -> regular q ->
  parse_relalg ordp ordn ordl no_side fuel (QSel q) = Ok n -> avail n.
Proof.
  intros Hp Hn Hl R H. assert (exists m, parse ordp ordn (QSel q) = Ok m) as [m Hm] by (unfold parse_relalg in H; destruct (parse ordp ordn (QSel q)) as [m|]; [eauto|discriminate]).
  destruct (parse_relalg_exact ordp ordn ordl q m Hp Hn Hl (rg_from q R) (rg_where q R) Hm) as [f2 H2]. assert (n = m) as ->; [|now apply (C93_available_partial ordp ordn q)].
  unfold parse_relalg, rmap in *. rewrite Hm in H, H2. cbn [rbind] in *. destruct (mutate _ _ _ _ _ _ fuel) as [x|] eqn:E1; [|discriminate]. destruct (mutate _ _ _ _ _ _ f2) as [y|] eqn:E2; [|discriminate].
  rewrite (mutate_unique _ _ _ _ _ _ _ _ _ _ E1 E2) in H. congruence.
Qed.
Print Assumptions C93_parse_relalg_partial.
Theorem C94_parse_relalg_partial ordp ordn ordl side fuel {V} {EV : EqD V} (null : V) M db q n :
  (forall l, Permutation (ordp l) l) -> (forall l, Permutation (ordn l) l) -> local_sem M -> compatible q ->
  parse_relalg ordp ordn ordl side fuel q = Ok n -> Permutation (out null M db n) (sql_set null M db q).
Proof.
  intros Hp Hn HM C H. apply parse_relalg_same in H as (m & Hm & E). rewrite <- (node_eqb_out null M db m n E). now apply (C94_set_queries_partial ordp ordn).
Qed.
Print Assumptions C94_parse_relalg_partial.
(** SELECT R.a FROM R UNION SELECT R.b FROM R, S WHERE R.a = S.a *)
Definition qs2 : query := QSet SUnion (QSel sel0) (QSel (mksel [tR; tS] (Some (PBin OpEq xRa xSa)) [] None [] (Some [xRb]) false None)) [].
Example qs2_result : exists n, parse_relalg idp idn idl no_side 20 qs2 = Ok n /\ out 0 nsem db1 n = [[1]; [2]; [3]; [5]].
Proof. eexists. split; [vm_compute; reflexivity|vm_compute; reflexivity]. Qed.
Example q1_relalg : exists n, parse_relalg idp idn idl no_side 30 (QSel q1) = Ok n /\ out 0 nsem db1 n = [[1; 3]; [2; 5]].
Proof. eexists. split; [vm_compute; reflexivity|vm_compute; reflexivity]. Qed.
(** Two queries over the same table: SELECT R.a FROM R UNION SELECT R.b FROM R cannot be translated. *)
Theorem C94_same_table_refuted : exists q, compatible q /\ forall fuel, 10 <= fuel -> parse_relalg idp idn idl no_side fuel q = Raise AssertionError.
Proof.
  exists (QSet SUnion (QSel sel0) (QSel (mksel [tR] None [] None [] (Some [xRb]) false None)) []). split.
  - assert (P : forall from ts, NoDup from -> plain (mksel from None [] None [] ts false None)) by (intros from ts N; split; auto; intros p E; discriminate).
    cbn [compatible sel0]. split; [split; [apply P; repeat constructor; intros []|discriminate]|]. split; [split; [apply P; repeat constructor; intros []|discriminate]|]. apply incl_refl.
  - intros fuel Hf. do 10 (destruct fuel as [|fuel]; [lia|]). vm_compute. reflexivity.
Qed.
Print Assumptions C94_same_table_refuted.

(** ** C96 *)
(** Equality of nodes is an equivalence relation. *)
Theorem C96_equivalence : (forall a, node_eqb a a = true) /\ (forall a b, node_eqb a b = true -> node_eqb b a = true) /\ (forall a b c, node_eqb a b = true -> node_eqb b c = true -> node_eqb a c = true).
Proof. split; [apply node_eqb_refl|]. split; [apply node_eqb_sym|apply node_eqb_trans]. Qed.
Print Assumptions C96_equivalence.
(** Equal nodes work on the same tables and produce the same rows. *)
Theorem C96_equal_meaning {V} {EV : EqD V} (null : V) M db a b : node_eqb a b = true -> ntabs a = ntabs b /\ eval null M db a = eval null M db b /\ out null M db a = out null M db b.
Proof. intros H. split; [now apply node_eqb_tabs|]. split; [now apply node_eqb_eval|now apply node_eqb_out]. Qed.
Print Assumptions C96_equal_meaning.

(** What is stored besides hash values. *)
Inductive skel (X : Type) := Sk (x : X) (cs : list (skel X)).
Arguments Sk {X}.
Fixpoint hskel {X H} (n : hnode X H) : skel X := match n with HN _ x cs => Sk x (map hskel cs) end.
(** All hash values are those that the constructors compute. *)
Inductive fresh {X H} (mix : X -> list H -> H) : hnode X H -> Prop :=
| fresh_node x cs : Forall (fresh mix) cs -> fresh mix (hmake mix x cs).
Section Fresh.
  Context {X H : Type} (mix : X -> list H -> H).
  Lemma hnode_ind2 (P : hnode X H -> Prop) (Hn : forall h x cs, Forall P cs -> P (HN h x cs)) : forall n, P n.
  Proof. fix IH 1. intros [h x cs]. apply Hn. induction cs; constructor; [apply IH|assumption]. Qed.
  Lemma fresh_inv h x cs : fresh mix (HN h x cs) -> h = mix x (map hval cs) /\ Forall (fresh mix) cs.
  Proof. intros F. inversion F; subst. auto. Qed.
  Lemma fresh_unique : forall a b, fresh mix a -> fresh mix b -> hskel a = hskel b -> a = b.
  Proof.
    induction a as [h x cs IH] using hnode_ind2; intros [h' x' cs'] Fa Fb E. apply fresh_inv in Fa as [-> Fa]. apply fresh_inv in Fb as [-> Fb]. cbn in E. injection E as <- E.
    assert (cs = cs') as ->; [|reflexivity]. revert cs' Fb E. induction IH as [|c cs Hc _ IHl]; intros [|c' cs'] Fb E; cbn in E; try discriminate; [reflexivity|]. injection E as E1 E2. inversion Fa; subst. inversion Fb; subst. f_equal; auto.
  Qed.
  Lemma rehash_fresh n : fresh mix n -> rehash mix n = n.
  Proof.
    induction n as [h x cs IH] using hnode_ind2; intros F. apply fresh_inv in F as [-> F]. cbn [rehash]. f_equal. rewrite <- (map_id cs) at 2. apply map_ext_in. intros c Hc. rewrite Forall_forall in IH, F. auto.
  Qed.
End Fresh.
(** Nodes with the attributes and inputs of each other have the same hash value as long as these are the ones computed on creation; copying a
    tree without changes keeps it that way, and so does changing the root. *)
Theorem C96_hash_partial {X H} (mix : X -> list H -> H) :
  (forall a b, fresh mix a -> fresh mix b -> hskel a = hskel b -> hval a = hval b) /\ (forall n, fresh mix n -> fresh mix (rehash mix n)) /\
  (forall n x, fresh mix n -> fresh mix (hmutate mix n [] x)).
Proof.
  split; [|split].
  - intros a b Fa Fb E. now rewrite (fresh_unique mix a b Fa Fb E).
  - intros n F. now rewrite (rehash_fresh mix n F).
  - intros [h x cs] x' F. apply fresh_inv in F as [-> F]. unfold hmutate. cbn [hupdate rehash]. replace (map (rehash mix) cs) with cs; [apply (fresh_node mix x' cs F)|].
    rewrite <- (map_id cs) at 1. apply map_ext_in. intros c Hc. rewrite Forall_forall in F. symmetry. apply rehash_fresh. auto.
Qed.
Print Assumptions C96_hash_partial.
(** After a change further down, the nodes above keep the hash value of the original: the new root is equal to a tree with another hash value. *)
Theorem C96_hash_refuted : exists (mix : nat -> list nat -> nat) n p x m, fresh mix n /\ fresh mix m /\ hskel (hmutate mix n p x) = hskel m /\ hval (hmutate mix n p x) = hval n /\ hval (hmutate mix n p x) <> hval m.
Proof.
  pose (mix := fun x l => x + list_sum l). exists mix, (hmake mix 1 [hmake mix 2 []]), [0], 5, (hmake mix 1 [hmake mix 5 []]).
  split; [repeat (constructor; auto)|]. split; [repeat (constructor; auto)|]. split; [reflexivity|]. split; [reflexivity|]. vm_compute. discriminate.
Qed.
Print Assumptions C96_hash_refuted.

(** leaf() finds the leaf of a node right below it. *)
Theorem C96_leaf_partial n m : (forall c, In c (children n) -> children c = []) -> leaf n = Some m <-> leads_to n m.
Proof.
  intros Hc. unfold leaf. split.
  - intros H. destruct (children n) as [|c [|d l]] eqn:E; [injection H as <-; now apply leads_leaf| |discriminate]. injection H as <-. apply (leads_child n c c E). apply leads_leaf. apply Hc. now left.
  - intros H. inversion H as [n' E|n' c m' E Hl]; subst; rewrite E; [reflexivity|]. f_equal. rewrite E in Hc. pose proof (Hc c (or_introl eq_refl)) as Hcc. inversion Hl as [? E'|? ? ? E' _]; subst; [reflexivity|]. rewrite Hcc in E'. discriminate.
Qed.
Print Assumptions C96_leaf_partial.
(** Otherwise it returns the input node instead. *)
Theorem C96_leaf_refuted : exists n m, leaf n = Some m /\ children m <> [] /\ leads_to n (NRel tR []) /\ m <> NRel tR [].
Proof.
  exists (NProj (NSel (NRel tR []) gtR) [xRa]), (NSel (NRel tR []) gtR). split; [reflexivity|]. split; [discriminate|]. split; [|discriminate]. eapply leads_child; [reflexivity|]. eapply leads_child; [reflexivity|]. now apply leads_leaf.
Qed.
Print Assumptions C96_leaf_refuted.
