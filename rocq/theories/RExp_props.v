(** Replacing expressions and predicates in queries: C237 - C240. *)
From Coq Require Import List Bool Arith Lia.
From Verif Require Import PyBase Pred_model RExp_model RExp_spec RExp_proofs.
Import ListNotations.

(** ** C237 replace_expressions applies the replacement to each expression once and changes nothing else *)
(** SELECT DISTINCT ON (1) 1: the expressions of DISTINCT ON are kept. *)
Definition swap12 (e : expr) : expr := match e with EAtom 1 => EAtom 2 | EAtom 2 => EAtom 1 | _ => e end.
Lemma swap12_keeps : keeps_subqueries swap12. Proof. intros q. reflexivity. Qed.
Theorem C237_distinct_on_refuted : exists q q', plain_q q /\ (forall n, 1 <= n -> rx_q swap12 n q = Ok q') /\ xs_q true q' <> map swap12 (xs_q true q).
Proof.
  exists (Query [CSelect [(EAtom 1, 0)] (Some [EAtom 1])]), (Query [CSelect [(EAtom 2, 0)] (Some [EAtom 1])]).
  split; [cbn; auto|]. split; [intros [|n] L; [lia|reflexivity]|]. cbn. discriminate.
Qed.

(** A VALUES list without a name cannot be handled, whatever the replacement; neither can a SimpleFilter or SimpleJoin. *)
Theorem C237_values_refuted : forall f rows cols n, rx_q f (S n) (Query [CSelect [(EAtom 0, 0)] None; CFrom FMixed [SValues rows None cols]]) = Raise AttributeError.
Proof. reflexivity. Qed.
Theorem C237_predicate_refuted : forall f k n, rx_q f (S n) (Query [CSelect [(EAtom 0, 0)] None; CWhere (inr k)]) = Raise ValueError.
Proof. reflexivity. Qed.
(** A VALUES list whose table has a name of its own gets a virtual table instead, even if nothing is replaced. *)
Theorem C237_values_table_refuted : forall rows name a cols n,
  rx_q (fun e => e) (S n) (Query [CFrom FMixed [SValues rows (Some (VReal name a)) cols]]) <> Ok (Query [CFrom FMixed [SValues rows (Some (VReal name a)) cols]]).
Proof. intros rows name a cols n. cbn. discriminate. Qed.

(** A replacement that also handles subqueries is applied twice to what is inside a subquery in FROM ... *)
Definition swap12_sub (e : expr) : expr :=
  match e with
  | ESub (Query [CSelect [(EAtom 1, a)] None]) => ESub (Query [CSelect [(EAtom 2, a)] None])
  | ESub (Query [CSelect [(EAtom 2, a)] None]) => ESub (Query [CSelect [(EAtom 1, a)] None])
  | _ => swap12 e
  end.
Theorem C237_twice_refuted : exists q, plain_q q /\ (forall n, 2 <= n -> rx_q swap12_sub n q = Ok q) /\
  swap12_sub (ESub (Query [CSelect [(EAtom 1, 0)] None])) = ESub (Query [CSelect [(EAtom 2, 0)] None]) /\
  q = Query [CSelect [(EAtom 0, 0)] None; CFrom FMixed [SSub (Query [CSelect [(EAtom 1, 0)] None]) (Some 1) false]].
Proof.
  eexists. split; [|split; [|split; [reflexivity|reflexivity]]].
  - cbn. repeat split; discriminate.
  - intros [|[|n]] L; [lia|lia|reflexivity].
Qed.
(** ... and one that moves each subquery into another subquery does not terminate. *)
Definition nest (e : expr) : expr :=
  match e with ESub q => ESub (Query [CSelect [(EAtom 0, 0)] None; CFrom FMixed [SSub q (Some 1) false]]) | _ => e end.
Theorem C237_terminates_refuted : exists q, plain_q q /\ forall n, rx_q nest n q = Raise OutOfFuel.
Proof.
  exists (Query [CSelect [(EAtom 0, 0)] None; CFrom FMixed [SSub (Query [CSelect [(EAtom 1, 0)] None]) (Some 1) false]]).
  split; [cbn; repeat split; discriminate|].
  assert (H : forall n q0, rx_q nest n (Query [CSelect [(EAtom 0, 0)] None; CFrom FMixed [SSub q0 (Some 1) false]]) = Raise OutOfFuel).
  { induction n as [|n IH]; intros q0; [reflexivity|]. cbn [rx_q lmapM rx_c rbind rx_s nest]. rewrite IH. reflexivity. }
  intros n. apply H.
Qed.
(** A replacement must not turn the subquery in FROM into something else. *)
Theorem C237_assertion : forall f q name lat n, (forall q', f (ESub q) <> ESub q') ->
  rx_q f (S n) (Query [CFrom FMixed [SSub q name lat]]) = Raise AssertionError.
Proof.
  intros f q name lat n H. cbn [rx_q lmapM rx_c rbind rx_s]. destruct (f (ESub q)) as [k|k es|q'] eqn:E; [reflexivity|reflexivity|].
  destruct (H q'); reflexivity.
Qed.

(** The replacement keeps subqueries as a whole, all predicates are plain and all VALUES lists have (virtual) names: then every expression
    is replaced once (also in CTEs, in subqueries in FROM and in set operations), in order, and the rest of the query stays as it is. *)
Theorem C237_partial : forall f q, keeps_subqueries f -> plain_q q ->
  exists q', (exists N, forall n, N <= n -> rx_q f n q = Ok q') /\ xs_q false q' = map f (xs_q false q) /\ sk_q q' = sk_q q.
Proof.
  intros f q K P. destruct (total_q f K q P) as (N & q' & H). exists q'. split.
  - exists N. intros n L. exact (rx_mono f N q q' H n L).
  - exact (rx_facts f N K q q' P H).
Qed.
(** The same holds for every successful call. *)
Theorem C237_result_partial : forall f n q q', keeps_subqueries f -> plain_q q -> rx_q f n q = Ok q' ->
  xs_q false q' = map f (xs_q false q) /\ sk_q q' = sk_q q.
Proof. intros f n q q' K P H. exact (rx_facts f n K q q' P H). Qed.

(** WITH t AS (SELECT 1 WHERE 1 = 2) SELECT 2 FROM (SELECT 1) AS s JOIN t ON 1 = 3, (VALUES (1, 2)) AS v GROUP BY 1 ORDER BY 2 *)
Example C237_case :
  let eq a b := inl (PBin OpEq (EAtom a) (EAtom b)) in
  let q := Query [CWith [WQuery (Query [CSelect [(EAtom 1, 0)] None; CWhere (eq 1 2)]) 5 None] false;
                  CSelect [(EAtom 2, 7)] None;
                  CFrom FMixed [SJoin (SSub (Query [CSelect [(EAtom 1, 0)] None]) (Some 6) true) (SDirect 5) (Some (eq 1 3)) JLeft;
                                SValues [[EAtom 1; EAtom 2]] (Some (VVirt 8)) []];
                  CGroup [EAtom 1] false; COrder [(EAtom 2, 1)]] in
  plain_q q /\ xs_q false q = map EAtom [1; 1; 2; 2; 1; 1; 3; 1; 2; 1; 2] /\
  match rx_q swap12 5 q with Ok q' => xs_q false q' = map EAtom [2; 2; 1; 1; 2; 2; 3; 2; 1; 2; 1] | Raise _ => False end.
Proof. cbn. repeat split; discriminate. Qed.

(** ** C238 Replacing nothing and replacing twice *)
Theorem C238_identity : forall q, plain_q q -> exists N, forall n, N <= n -> rx_q (fun e => e) n q = Ok q.
Proof.
  intros q P. destruct (total_q (fun e => e) (fun _ => eq_refl) q P) as (N & q' & H). exists N. intros n L.
  rewrite (rx_mono _ N q q' H n L). f_equal. exact (rx_id _ N (fun _ => eq_refl) q q' P H).
Qed.
Theorem C238_compose : forall f g n q q1 q2, keeps_subqueries f -> keeps_subqueries g ->
  rx_q f n q = Ok q1 -> rx_q g n q1 = Ok q2 -> rx_q (fun e => g (f e)) n q = Ok q2.
Proof. intros f g n q q1 q2 Kf Kg H1 H2. exact (rx_comp f g _ Kf Kg (fun _ => eq_refl) n q q1 q2 H1 H2). Qed.
(** Undoing a replacement gives back the query. *)
Theorem C238_undo : forall f g q, keeps_subqueries f -> keeps_subqueries g -> (forall e, g (f e) = e) -> plain_q q ->
  forall n q1 q2, rx_q f n q = Ok q1 -> rx_q g n q1 = Ok q2 -> q2 = q.
Proof. intros f g q Kf Kg I P n q1 q2 H1 H2. exact (rx_id _ n I q q2 P (rx_comp f g _ Kf Kg (fun _ => eq_refl) n q q1 q2 H1 H2)). Qed.
Example C238_case :
  let q := Query [CSelect [(EAtom 1, 0)] None; CFrom FMixed [SSub (Query [CSelect [(EAtom 2, 0)] None]) (Some 6) true]] in
  rx_q swap12 2 q = Ok (Query [CSelect [(EAtom 2, 0)] None; CFrom FMixed [SSub (Query [CSelect [(EAtom 1, 0)] None]) (Some 6) true]]) /\
  match rx_q swap12 2 q with Ok q1 => rx_q swap12 2 q1 = Ok q | Raise _ => False end.
Proof. split; reflexivity. Qed.

(** ** C239 replace_predicate *)
(** The old predicate can be part of the result, although it is not part of the new predicate: NOT (NOT a) with a for NOT a. *)
Theorem C239_gone_refuted : exists (old new p : pred nat), ~ occurs old new /\ occurs old (replace_pred old new p) /\ wfp p = true.
Proof.
  exists (PNot (PUn UBare 1)), (PUn UBare 1), (PNot (PNot (PUn UBare 1))). split; [|split; [|reflexivity]].
  - intros O. inversion O.
  - vm_compute. constructor.
Qed.
Theorem C239_gone_partial : forall {E} {EE : EqD E} (old new p : pred E), is_base old = true -> ~ occurs old new -> ~ occurs old (replace_pred old new p).
Proof. intros E EE old new p. apply replace_gone. Qed.
(** The result means the same as a predicate in which the old predicate has the truth value of the new one. *)
Theorem C239_meaning : forall {E} {EE : EqD E} {V} (holds : pred E -> V) vnot vand vor (old new p : pred E), is_base old = true ->
  value holds vnot vand vor (replace_pred old new p) =
  value (fun b => if deqb b old then value holds vnot vand vor new else holds b) vnot vand vor p.
Proof. intros. apply replace_base. assumption. Qed.
Example C239_case :
  let a := PUn UBare 1 in let b := PUn UBare 2 in let c := PUn UBare 3 in
  replace_pred a (PAnd [b; c]) (PAnd [a; POr [PNot a; b]]) = PAnd [PAnd [b; c]; POr [PNot (PAnd [b; c]); b]] /\ is_base a = true.
Proof. vm_compute. split; reflexivity. Qed.

(** ** C240 replace_predicate: equivalent predicates, absent predicates, and the rest of the query *)
Theorem C240_equivalent : forall {E} {EE : EqD E} {V} (holds : pred E -> V) vnot vand vor (old new p : pred E),
  value holds vnot vand vor new = value holds vnot vand vor old ->
  value holds vnot vand vor (replace_pred old new p) = value holds vnot vand vor p.
Proof. intros. apply replace_value. assumption. Qed.
Theorem C240_absent : forall {E} {EE : EqD E} {O} (old new : pred E) (w h : option (pred E)) (o : O),
  (forall p, w = Some p \/ h = Some p -> ~ occurs old p) -> replace_predicate old new (w, h, o) = (w, h, o).
Proof.
  intros E EE O old new w h o H. destruct w as [w|], h as [h|]; cbn; try reflexivity; rewrite ?replace_absent by auto; reflexivity.
Qed.
Theorem C240_query : forall {E} {EE : EqD E} {O} (old new : pred E) (w h w' h' : option (pred E)) (o o' : O),
  replace_predicate old new (w, h, o) = (w', h', o') ->
  o' = o /\ (w = None <-> w' = None) /\ (h = None <-> h' = None) /\
  (w = Some old -> w' = Some new) /\ (h = Some old -> h' = Some new).
Proof.
  intros E EE O old new w h w' h' o o' H. destruct w as [w|], h as [h|]; cbn in H; injection H as <- <- <-;
    (split; [reflexivity|]); repeat split; intros X; try discriminate X; try reflexivity; injection X as ->; f_equal;
    destruct old; cbn; rewrite deqb_refl; reflexivity.
Qed.
Example C240_case : replace_predicate (PUn UBare 1) (PUn UBare 2) (Some (PNot (PUn UBare 1)), Some (PUn UBare 1), 7) = (Some (PNot (PUn UBare 2)), Some (PUn UBare 2), 7).
Proof. vm_compute. reflexivity. Qed.

Print Assumptions C237_distinct_on_refuted. Print Assumptions C237_values_refuted. Print Assumptions C237_predicate_refuted.
Print Assumptions C237_values_table_refuted. Print Assumptions C237_twice_refuted. Print Assumptions C237_terminates_refuted.
Print Assumptions C237_assertion. Print Assumptions C237_partial. Print Assumptions C237_result_partial.
Print Assumptions C238_identity. Print Assumptions C238_compose. Print Assumptions C238_undo.
Print Assumptions C239_gone_refuted. Print Assumptions C239_gone_partial. Print Assumptions C239_meaning.
Print Assumptions C240_equivalent. Print Assumptions C240_absent. Print Assumptions C240_query.
