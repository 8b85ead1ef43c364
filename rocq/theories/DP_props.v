(** Property theorems for C20 and C21 (the dynamic programming enumerator). *)
From Coq Require Import List Bool Arith Lia Sorting.Permutation.
From Verif Require Import PyBase FSet Pred_model Pred_spec Pred_proofs Collections_spec Collections_proofs QPred_model QPred_spec QPred_proofs DP_model DP_spec DP_proofs.
Import ListNotations.

Section Props.
  Context {C N P I K : Type} (clt : C -> C -> bool) (card : list nat -> N) (cost : qp C N P I K -> C).
  Context (filters_for : nat -> option P) (used_columns : nat -> list K) (indexes_on : K -> list I).
  Context (joins_between : list nat -> list nat -> option P) (joins_tables : list nat -> bool).
  Context (scan_ops : list dscan) (join_ops : list djoin) (iter : list nat -> list nat) (R : nat -> nat -> Prop).
  (** What the theorems assume: iteration enumerates a set, join partners are symmetric, and
      joins_tables decides whether tables hang together (C09). *)
  Definition dp_setting (tabs : list nat) : Prop :=
    (forall S, S = mkfs S -> Permutation (iter S) S) /\ (forall x y, R x y -> R y x) /\ NoDup tabs /\
    (forall j, sublist j tabs -> 2 <= length j -> (joins_tables j = true <-> hangs_together R j)).
  (** The join operators the enumerator knows about, among the allowed ones. *)
  Definition three_operators (op : djoin) : Prop := In op join_ops /\ op <> IdxNLJ.
End Props.

(** C20, for the three documented join operators: the returned plan is cheapest among all cross-product free plans.
    Missing: plans with index nested-loop joins, see below. *)
Theorem C20_optimal_partial : forall (C N P I K : Type) (clt : C -> C -> bool) (card : list nat -> N) (cost : qp C N P I K -> C)
    filters_for used_columns (indexes_on : K -> list I) joins_between joins_tables scan_ops join_ops iter R tabs p,
  dp_setting joins_tables iter R tabs ->
  cost_order clt ->
  monotone card cost filters_for used_columns indexes_on joins_between scan_ops clt R (three_operators join_ops) ->
  dp_generate clt card cost filters_for used_columns indexes_on joins_between joins_tables scan_ops join_ops iter tabs = Ok p ->
  let xplan := xplan card cost filters_for used_columns indexes_on joins_between scan_ops R (three_operators join_ops) in
  xplan p /\ forall q, xplan q -> (forall t, In t (qp_leaves q) <-> In t tabs) -> no_dearer clt p q.
Proof.
  intros C N P I K clt card cost ff uc io jb jt so jo iter R tabs p (Hi & Hr & Hn & Hj) Hc Hm Hp xp.
  destruct (generate_spec True clt (fun _ => Hc) card cost ff uc io jb jt so jo iter Hi R Hr tabs Hn Hj (fun _ => Hm) p Hp) as (X & _ & Ho). split; [exact X|]. intros q Hq Hs. exact (Ho Logic.I q Hq Hs).
Qed.
Print Assumptions C20_optimal_partial.

(** C20: the cost does not depend on the order in which sets are iterated. *)
Theorem C20_order_independent : forall (C N P I K : Type) (clt : C -> C -> bool) (card : list nat -> N) (cost : qp C N P I K -> C)
    filters_for used_columns (indexes_on : K -> list I) joins_between jt1 jt2 scan_ops join_ops iter1 iter2 R tabs1 tabs2 p1 p2,
  dp_setting jt1 iter1 R tabs1 -> dp_setting jt2 iter2 R tabs2 -> Permutation tabs1 tabs2 ->
  cost_order clt ->
  monotone card cost filters_for used_columns indexes_on joins_between scan_ops clt R (three_operators join_ops) ->
  dp_generate clt card cost filters_for used_columns indexes_on joins_between jt1 scan_ops join_ops iter1 tabs1 = Ok p1 ->
  dp_generate clt card cost filters_for used_columns indexes_on joins_between jt2 scan_ops join_ops iter2 tabs2 = Ok p2 ->
  no_dearer clt p1 p2 /\ no_dearer clt p2 p1.
Proof.
  intros C N P I K clt card cost ff uc io jb jt1 jt2 so jo it1 it2 R ts1 ts2 p1 p2 (Hi1 & Hr & Hn1 & Hj1) (Hi2 & _ & Hn2 & Hj2) Hperm Hc Hm H1 H2.
  destruct (generate_spec True clt (fun _ => Hc) card cost ff uc io jb jt1 so jo it1 Hi1 R Hr ts1 Hn1 Hj1 (fun _ => Hm) p1 H1) as (X1 & P1 & O1).
  destruct (generate_spec True clt (fun _ => Hc) card cost ff uc io jb jt2 so jo it2 Hi2 R Hr ts2 Hn2 Hj2 (fun _ => Hm) p2 H2) as (X2 & P2 & O2).
  split; [apply (O1 Logic.I)|apply (O2 Logic.I)]; try assumption; intros x.
  - rewrite (Permutation_trans P2 (Permutation_sym Hperm)). reflexivity.
  - rewrite (Permutation_trans P1 Hperm). reflexivity.
Qed.
Print Assumptions C20_order_independent.

(** C21: every table of the query is scanned exactly once, nothing else is scanned, and every join connects two joinable
    tables of its two inputs. *)
Inductive connects (C N P I K : Type) (R : nat -> nat -> Prop) : qp C N P I K -> Prop :=
| con_scan op t ix bm f e : connects C N P I K R (QScan op t ix bm f e)
| con_join op c o i e a b : In a (qp_leaves o) -> In b (qp_leaves i) -> R a b -> connects C N P I K R o -> connects C N P I K R i -> connects C N P I K R (QJoin op c o i e).
Theorem C21_complete : forall (C N P I K : Type) (clt : C -> C -> bool) (card : list nat -> N) (cost : qp C N P I K -> C)
    filters_for used_columns (indexes_on : K -> list I) joins_between joins_tables scan_ops join_ops iter R tabs p,
  dp_setting joins_tables iter R tabs ->
  dp_generate clt card cost filters_for used_columns indexes_on joins_between joins_tables scan_ops join_ops iter tabs = Ok p ->
  Permutation (qp_leaves p) tabs /\ NoDup (qp_leaves p) /\ connects C N P I K R p.
Proof.
  intros C N P I K clt card cost ff uc io jb jt so jo iter R tabs p (Hi & Hr & Hn & Hj) Hp.
  destruct (generate_spec False clt (False_ind _) card cost ff uc io jb jt so jo iter Hi R Hr tabs Hn Hj (False_ind _) p Hp) as (X & Hperm & _). split; [exact Hperm|].
  split; [apply (Permutation_NoDup (Permutation_sym Hperm) Hn)|]. clear - X. induction X; econstructor; eassumption.
Qed.
Print Assumptions C21_complete.

(** C21: a plan is found if the tables hang together, each can be scanned, and one of the three join operators is allowed. *)
Theorem C21_found_partial : forall (C N P I K : Type) (clt : C -> C -> bool) (card : list nat -> N) (cost : qp C N P I K -> C)
    filters_for used_columns (indexes_on : K -> list I) joins_between joins_tables scan_ops join_ops iter R tabs,
  dp_setting joins_tables iter R tabs ->
  tabs <> [] -> hangs_together R tabs -> (exists op, three_operators join_ops op) ->
  (forall t, In t tabs -> exists op ix bm, scan_option used_columns indexes_on scan_ops t op ix bm) ->
  exists p, dp_generate clt card cost filters_for used_columns indexes_on joins_between joins_tables scan_ops join_ops iter tabs = Ok p.
Proof.
  intros C N P I K clt card cost ff uc io jb jt so jo iter R tabs (Hi & Hr & Hn & Hj) Hne Hh Hop Hsc.
  exact (generate_total False clt (False_ind _) card cost ff uc io jb jt so jo iter Hi R Hr tabs Hn Hj (False_ind _) Hne Hh Hop Hsc).
Qed.
Print Assumptions C21_found_partial.

(** C21: and there is a KeyError if they do not hang together. *)
Theorem C21_disconnected : forall (C N P I K : Type) (clt : C -> C -> bool) (card : list nat -> N) (cost : qp C N P I K -> C)
    filters_for used_columns (indexes_on : K -> list I) joins_between joins_tables scan_ops join_ops iter R tabs,
  dp_setting joins_tables iter R tabs ->
  ~ hangs_together R tabs -> (exists op, three_operators join_ops op) ->
  (forall t, In t tabs -> exists op ix bm, scan_option used_columns indexes_on scan_ops t op ix bm) ->
  dp_generate clt card cost filters_for used_columns indexes_on joins_between joins_tables scan_ops join_ops iter tabs = Raise KeyError.
Proof.
  intros C N P I K clt card cost ff uc io jb jt so jo iter R tabs (Hi & Hr & Hn & Hj) Hh Hop Hsc.
  now apply (generate_keyerror clt card cost ff uc io jb jt so jo iter R tabs).
Qed.
Print Assumptions C21_disconnected.

(** The setting is the one of a query: with the model of QueryPredicates.joins_tables, tables hang together exactly if
    they are connected by join predicates of the query. *)
Theorem C20_setting : forall (E : Type) (ecols : E -> list col) (js : list (pred E)) (root : list tbl) iter tabs,
  (forall S, S = mkfs S -> Permutation (iter S) S) -> NoDup tabs -> (forall j, In j js -> jp_ok ecols j) ->
  dp_setting (fun ts => match QPred_model.joins_tables ecols js root ts with Ok b => b | Raise _ => false end) iter
    (fun t u => exists j, In j js /\ links ecols t u j) tabs.
Proof.
  intros E ecols js root iter tabs Hi Hn Hj. split; [exact Hi|]. split; [|split; [exact Hn|]].
  - intros x y (j & Hin & Hl). exists j. split; [assumption|]. now apply links_sym.
  - intros ts _ Hlen. destruct (joins_tables_spec ecols js root ts Hj Hlen) as (b & -> & Hb). exact Hb.
Qed.
Print Assumptions C20_setting.

(** ** A concrete case *)
Definition dx_cost (p : qp nat nat nat nat nat) : nat :=
  let c p := match e_cost (qp_est p) with Some c => c | None => 0 end in
  match p with
  | QScan SeqScan t _ _ _ _ => 10 + t
  | QScan _ t _ _ _ _ => 12 - t
  | QJoin op _ o i _ => c o + c i + match op with NLJ => length (qp_tables o) * length (qp_tables i) * 5 | HashJ => 7 + length (qp_tables i) | MergeJ => 30 | IdxNLJ => 1 end
  end.
Definition dx_card (ts : list nat) : nat := length ts.
Definition dx_R (x y : nat) : Prop := x = S y \/ y = S x.
Definition dx_used (t : nat) : list nat := [t].
Definition dx_ix (c : nat) : list nat := if c =? 2 then [7] else [].
Definition dx_jb (o i : list nat) : option nat := Some (length o * 10 + length i).
Lemma dx_order : cost_order Nat.ltb.
Proof. split; intros *; rewrite ?Nat.ltb_lt, ?Nat.ltb_ge; lia. Qed.
Lemma dx_monotone so jo : monotone dx_card dx_cost (fun _ => None) dx_used dx_ix dx_jb so Nat.ltb dx_R (three_operators jo).
Proof.
  intros op o o' i i' e e'. cbn zeta beta. intros H1 H2 To Ti Ho Hi.
  assert (A1 := H1). assert (A2 := H2). apply xplan_annotated in A1, A2. unfold annotated in A1, A2. unfold no_dearer in *. rewrite A1, A2. cbn [e_cost qp_set].
  destruct (e_cost (qp_est o)) as [co|] eqn:Eo; [|contradiction]. destruct (e_cost (qp_est o')) as [co'|] eqn:Eo'; [|contradiction].
  destruct (e_cost (qp_est i)) as [ci|] eqn:Ei; [|contradiction]. destruct (e_cost (qp_est i')) as [ci'|] eqn:Ei'; [|contradiction].
  apply Nat.ltb_ge in Ho, Hi. apply Nat.ltb_ge. unfold dx_cost. rewrite Eo, Eo', Ei, Ei', To, Ti. lia.
Qed.
Definition dx_jt (ts : list nat) : bool := match ts with [0; 2] | [2; 0] => false | _ => true end.
Lemma dx_setting tabs : tabs = [1; 0; 2] -> dp_setting dx_jt (fun s => rev s) dx_R tabs.
Proof.
  intros ->. split; [intros S _; apply Permutation_sym, Permutation_rev|]. split; [intros x y [H|H]; [right|left]; exact H|].
  split; [repeat (constructor; [cbn; intuition discriminate|]); constructor|].
  assert (E01 : forall l, In 0 l -> In 1 l -> chain dx_R l 0 1) by (intros l A B; eapply chain_step; [apply chain_refl; exact A|right; reflexivity|exact B]).
  assert (E12 : forall l, In 1 l -> In 2 l -> chain dx_R l 1 2) by (intros l A B; eapply chain_step; [apply chain_refl; exact A|right; reflexivity|exact B]).
  assert (Sy : forall x y, dx_R x y -> dx_R y x) by (intros x y [H|H]; [right|left]; exact H).
  assert (E02 : forall l, In 0 l -> In 1 l -> In 2 l -> chain dx_R l 0 2) by (intros; eapply chain_trans; auto).
  intros j Hs Hl.
  assert (Hj : j = [1; 0; 2] \/ j = [1; 0] \/ j = [1; 2] \/ j = [0; 2]).
  { inversion Hs as [|? ? ? H1|? ? ? H1]; subst; inversion H1 as [|? ? ? H2|? ? ? H2]; subst; inversion H2 as [|? ? ? H3|? ? ? H3]; subst; inversion H3; subst; cbn in Hl; auto; lia. }
  destruct Hj as [-> |[-> |[-> | ->]]]; cbn; (split; [intros H|]); try reflexivity; try discriminate.
  - intros x y Hx Hy. cbn in Hx, Hy. intuition subst; first [apply chain_refl; cbn; tauto | apply E01; cbn; tauto | apply E12; cbn; tauto | apply E02; cbn; tauto | apply chain_sym; [exact Sy|]; first [apply E01; cbn; tauto | apply E12; cbn; tauto | apply E02; cbn; tauto]].
  - intros x y Hx Hy. cbn in Hx, Hy. intuition subst; first [apply chain_refl; cbn; tauto | apply E01; cbn; tauto | apply E12; cbn; tauto | apply E02; cbn; tauto | apply chain_sym; [exact Sy|]; first [apply E01; cbn; tauto | apply E12; cbn; tauto | apply E02; cbn; tauto]].
  - intros x y Hx Hy. cbn in Hx, Hy. intuition subst; first [apply chain_refl; cbn; tauto | apply E01; cbn; tauto | apply E12; cbn; tauto | apply E02; cbn; tauto | apply chain_sym; [exact Sy|]; first [apply E01; cbn; tauto | apply E12; cbn; tauto | apply E02; cbn; tauto]].
  - intros H. exfalso. specialize (H 0 2 (or_introl eq_refl) (or_intror (or_introl eq_refl))). inversion H as [|? y ? Hc Hr Hz]; subst. apply chain_In in Hc as [_ [<-|[<-|[]]]]; destruct Hr; discriminate.
Qed.
Definition dx_all := [NLJ; HashJ; MergeJ; IdxNLJ].
Definition dx_run jo tabs := dp_generate Nat.ltb dx_card dx_cost (fun _ => None) dx_used dx_ix dx_jb dx_jt [SeqScan; IdxScan] jo (fun s => rev s) tabs.
(** The hypotheses hold for a chain of three tables, one of them with an index. *)
Example C20_ex : exists p, dx_run dx_all [1; 0; 2] = Ok p /\ qp_leaves p = [2; 1; 0] /\ e_cost (qp_est p) = Some 44 /\
  dp_setting dx_jt (fun s => rev s) dx_R [1; 0; 2] /\ cost_order Nat.ltb /\ monotone dx_card dx_cost (fun _ => None) dx_used dx_ix dx_jb [SeqScan; IdxScan] Nat.ltb dx_R (three_operators dx_all).
Proof. eexists. split; [vm_compute; reflexivity|]. split; [reflexivity|]. split; [reflexivity|]. split; [now apply dx_setting|]. split; [apply dx_order|apply dx_monotone]. Qed.

(** C20 is false for the operator set that is allowed by default: index nested-loop joins are never considered. *)
Theorem C20_operators_refuted : exists p q, dx_run dx_all [1; 0; 2] = Ok p /\
  DP_spec.xplan dx_card dx_cost (fun _ => None) dx_used dx_ix dx_jb [SeqScan; IdxScan] dx_R (fun op => In op dx_all) q /\
  (forall t, In t (qp_leaves q) <-> In t [1; 0; 2]) /\ ~ no_dearer Nat.ltb p q.
Proof.
  pose (e1 (c : nat) := mkest (Some 1) (Some c)).
  pose (s0 := @QScan nat nat nat nat nat SeqScan 0 None [] None (e1 10)). pose (s1 := @QScan nat nat nat nat nat SeqScan 1 None [] None (e1 11)). pose (s2 := @QScan nat nat nat nat nat IdxScan 2 (Some (2, 7)) [] None (e1 10)).
  pose (j01 := QJoin IdxNLJ (Some 11) s0 s1 (mkest (Some 2) (Some 22))). pose (j := QJoin IdxNLJ (Some 21) j01 s2 (mkest (Some 3) (Some 33))).
  eexists. exists j. split; [vm_compute; reflexivity|]. split; [|split].
  - assert (X0 : DP_spec.xplan dx_card dx_cost (fun _ => None) dx_used dx_ix dx_jb [SeqScan; IdxScan] dx_R (fun op => In op dx_all) s0) by (apply (xp_scan dx_card dx_cost (fun _ => None)); [constructor; now left|reflexivity]).
    assert (X1 : DP_spec.xplan dx_card dx_cost (fun _ => None) dx_used dx_ix dx_jb [SeqScan; IdxScan] dx_R (fun op => In op dx_all) s1) by (apply (xp_scan dx_card dx_cost (fun _ => None)); [constructor; now left|reflexivity]).
    assert (X2 : DP_spec.xplan dx_card dx_cost (fun _ => None) dx_used dx_ix dx_jb [SeqScan; IdxScan] dx_R (fun op => In op dx_all) s2) by (apply (xp_scan dx_card dx_cost (fun _ => None)); [constructor; cbn; auto|reflexivity]).
    refine (xp_join dx_card dx_cost (fun _ => None) dx_used dx_ix dx_jb [SeqScan; IdxScan] dx_R (fun op => In op dx_all) IdxNLJ j01 s2 _ 1 2 _ X2 _ _ _ _ _ _); [|cbn; intuition (subst; discriminate)|cbn; auto|cbn; auto|right; reflexivity|cbn; auto|reflexivity].
    refine (xp_join dx_card dx_cost (fun _ => None) dx_used dx_ix dx_jb [SeqScan; IdxScan] dx_R (fun op => In op dx_all) IdxNLJ s0 s1 _ 0 1 X0 X1 _ _ _ _ _ _); [cbn; intuition (subst; discriminate)|cbn; auto|cbn; auto|right; reflexivity|cbn; auto|reflexivity].
  - intros t. cbn. tauto.
  - cbn. discriminate.
Qed.
Print Assumptions C20_operators_refuted.
(** C21: with index nested-loop joins as the only allowed operator no plan is found although the tables hang together. *)
Theorem C21_operators_refuted : dx_run [IdxNLJ] [1; 0; 2] = Raise ValueError /\ hangs_together dx_R [1; 0; 2] /\
  (forall t, In t [1; 0; 2] -> exists op ix bm, scan_option dx_used dx_ix [SeqScan; IdxScan] t op ix bm).
Proof.
  split; [vm_compute; reflexivity|]. split; [|intros t _; eexists _, _, _; constructor; now left].
  destruct (dx_setting [1; 0; 2] eq_refl) as (_ & _ & _ & H). apply (H [1; 0; 2]); [repeat constructor|cbn; lia|reflexivity].
Qed.
Print Assumptions C21_operators_refuted.
(** C21, concretely: the plan found for the chain, and the error once two tables have no join. *)
Example C21_ex : is_ok (dx_run [HashJ] [1; 0; 2]) = true /\ dx_run [HashJ] [0; 2] = Raise KeyError.
Proof. split; vm_compute; reflexivity. Qed.
