(** Property theorems for C363-C367 (mappings of expressions, walks, wrapped cardinality estimators). *)
From Coq Require Import List Bool Arith ZArith Lia.
From Verif Require Import PyBase Wlk_model Wlk_spec.
Import ListNotations.

(** ** C363: expressions with the same arguments are exactly those which are mapped together. *)
Theorem C363_mapping : forall {E : Type} {EE : EqD E} (children : E -> list E) needs norm es,
  (forall e, In e es -> exists l, dget (mapping children needs norm es) (norm (filter needs (children e))) = Some l /\ In e l) /\
  (forall k l, dget (mapping children needs norm es) k = Some l -> l <> [] /\ NoDup l /\ forall e, In e l <-> In e es /\ norm (filter needs (children e)) = k).
Proof.
  intros E EE children needs norm es. pose (arg := fun e => norm (filter needs (children e))).
  pose (get := fun (m : dict (list E) (list E)) k => match dget m k with Some l => l | None => [] end).
  assert (G : forall es m done, (forall k l, dget m k = Some l -> l <> []) -> (forall k, NoDup (get m k)) -> (forall k e, In e (get m k) <-> In e done /\ arg e = k) ->
    let m' := fold_left (fun m e => let k := arguments children needs norm e in let old := match dget m k with Some l => l | None => [] end in dset m k (if mem e old then old else old ++ [e])) es m in
    (forall k l, dget m' k = Some l -> l <> []) /\ (forall k, NoDup (get m' k)) /\ (forall k e, In e (get m' k) <-> In e (done ++ es) /\ arg e = k)).
  { clear es. induction es as [|x es IH]; intros m done N U H; [rewrite app_nil_r; auto|]. cbn [fold_left]. replace (done ++ x :: es) with ((done ++ [x]) ++ es) by (rewrite <- app_assoc; reflexivity).
    change (arguments children needs norm x) with (arg x). change (match dget m (arg x) with Some l => l | None => [] end) with (get m (arg x)). cbv zeta.
    set (new := if mem x (get m (arg x)) then get m (arg x) else get m (arg x) ++ [x]).
    assert (X : In x new) by (unfold new; destruct (mem x (get m (arg x))) eqn:M; [apply mem_In; exact M|apply in_or_app; right; left; reflexivity]).
    assert (GS : forall k, get (dset m (arg x) new) k = if eqd k (arg x) then new else get m k) by (intros k; unfold get; rewrite dset_spec; destruct (eqd k (arg x)); reflexivity).
    apply IH.
    - intros k l. rewrite dset_spec. destruct (eqd k (arg x)); [intros Q; injection Q as <-; intros Z; rewrite Z in X; destruct X|apply N].
    - intros k. rewrite GS. destruct (eqd k (arg x)); [|apply U]. unfold new. destruct (mem x (get m (arg x))) eqn:M; [apply U|].
      assert (V : NoDup (x :: get m (arg x))) by (constructor; [intros I; apply mem_In in I; congruence|apply U]). apply (NoDup_Add (a := x) (l := get m (arg x))); [|inversion V; auto].
      rewrite <- (app_nil_r (get m (arg x))) at 1. apply Add_app.
    - intros k e. rewrite GS, in_app_iff. destruct (eqd k (arg x)) as [->|Z].
      + assert (I : In e new <-> In e (get m (arg x)) \/ e = x).
        { unfold new. destruct (mem x (get m (arg x))) eqn:M; [apply mem_In in M; split; [auto|intros [I| ->]; assumption]|]. rewrite in_app_iff. cbn. intuition congruence. }
        rewrite I, H. cbn. intuition (subst; auto; try congruence).
      + rewrite H. cbn. intuition (subst; try congruence; auto). }
  destruct (G es [] []) as (N & U & H); [discriminate|intros k; constructor|intros k e; split; [intros []|intros [[] _]]|]. cbv zeta in N, U, H. change (fold_left _ es []) with (mapping children needs norm es) in N. change (fold_left _ es []) with (mapping children needs norm es) in U. change (fold_left _ es []) with (mapping children needs norm es) in H. cbn [app] in H. split.
  - intros e I. assert (J := proj2 (H (arg e) e) (conj I eq_refl)). unfold get in J. change (norm (filter needs (children e))) with (arg e).
    destruct (dget (mapping children needs norm es) (arg e)) as [l|]; [|destruct J]. exists l. auto.
  - intros k l D. split; [exact (N k l D)|]. specialize (U k). specialize (H k). unfold get in U, H. rewrite D in U, H. auto.
Qed.
Print Assumptions C363_mapping.
Example C363_ex : mapping (fun e => [e / 10; 0]) (fun e => 0 <? e) (fun l => l) [12; 13; 25; 12] = [([1], [12; 13]); ([2], [25])]. Proof. reflexivity. Qed.

(** ** C364: walks visit their start and then the nodes of their path; expanding them adds a node at the end. *)
Theorem C364_walk : forall {N D : Type} {EN : EqD N} {ED : EqD D} (w v : walk N D) n d,
  nodes (expand w n d) = nodes w ++ [n] /\ final_node (expand w n d) = n /\ final_node w = last (nodes w) n /\ walk_len w = List.length (nodes w) /\ (walk_eqb w v = true <-> w = v).
Proof.
  intros N D EN ED [s p] [s' p'] n d. unfold nodes, expand, final_node, walk_len, walk_eqb. cbn. split; [rewrite map_app; reflexivity|]. split; [rewrite rev_unit; reflexivity|]. split.
  - destruct p as [|x p] using rev_ind; [reflexivity|]. rewrite rev_unit, map_app. cbn [map]. rewrite last_last. destruct (map fst p); reflexivity.
  - split; [rewrite map_length; reflexivity|]. rewrite andb_true_iff. split; [intros [A B]; apply deqb_true in A; apply deqb_true in B; congruence|]. intros X. injection X as <- <-. rewrite !deqb_refl. auto.
Qed.
Print Assumptions C364_walk.
Example C364_ex : nodes (expand {| w_start := 1; w_path := [(2, Some 7)] |} 3 None) = [1; 2; 3]. Proof. reflexivity. Qed.

(** ** C365: walks can be hashed, and equal walks have equal hash values.
    Partial: no edges are used. *)
Theorem C365_hash_partial : forall {N D : Type} {EN : EqD N} {ED : EqD D} h (w : walk N D), (forall x, In x (w_path w) -> snd x = None) ->
  (exists z, walk_hash h w = Ok z) /\ forall v, walk_eqb w v = true -> walk_hash h v = walk_hash h w.
Proof.
  intros N D EN ED h w A. split.
  - unfold walk_hash. destruct (existsb _ (w_path w)) eqn:E; [|eexists; reflexivity]. apply existsb_exists in E as (x & I & X). rewrite (A x I) in X. discriminate.
  - intros v Q. destruct (C364_walk w v (w_start w) None) as (_ & _ & _ & _ & K). apply K in Q. subst v. reflexivity.
Qed.
Print Assumptions C365_hash_partial.
Theorem C365_hash_refuted : forall {N D : Type} h (w : walk N D) n d, In (n, Some d) (w_path w) -> walk_hash h w = Raise TypeError.
Proof. intros N D h w n d I. unfold walk_hash. assert (E : existsb (fun x => match snd x with Some _ => true | None => false end) (w_path w) = true) by (apply existsb_exists; exists (n, Some d); auto). rewrite E. reflexivity. Qed.
Print Assumptions C365_hash_refuted.
Example C365_ex : walk_hash (fun x => Z.of_nat (fst x)) ({| w_start := 1; w_path := [(2, None)] |} : walk nat nat) = Ok 1%Z. Proof. reflexivity. Qed.

(** ** C366: estimates of wrapped estimators are made while they are initialized for the right query: that of the last setup, and the query for
    the whole table for total numbers of rows. *)
Theorem C366_estimates : forall {Q T R : Type} (star : T -> Q) (estimate : option Q -> option Q -> T -> R) us,
  exists rs, estimates star estimate None us rs /\ snd (fold_left (step star estimate) us (new_wrapper, [])) = rs.
Proof.
  intros Q T R star estimate us. assert (G : forall us w l, w_init w = w_query w -> exists rs, estimates star estimate (w_query w) us rs /\ snd (fold_left (step star estimate) us (w, l)) = l ++ rs).
  { clear us. induction us as [|u us IH]; intros w l I; [exists []; split; [constructor|rewrite app_nil_r; reflexivity]|]. destruct u as [q|t|t]; cbn [fold_left step fst snd].
    - destruct (IH (setup_for_query q w) l eq_refl) as (rs & E & F). exists rs. split; [constructor; exact E|exact F].
    - destruct (IH w (l ++ [estimate_for estimate t w]) I) as (rs & E & F). exists (estimate_for estimate t w :: rs). unfold estimate_for in *. rewrite I in *. split; [constructor; exact E|]. rewrite F, <- app_assoc. reflexivity.
    - unfold estimate_total_rows. destruct (IH (initialize (w_query w) (cleanup (initialize (Some (star t)) (cleanup w)))) (l ++ [estimate (Some (star t)) (Some (star t)) t]) eq_refl) as (rs & E & F).
      exists (estimate (Some (star t)) (Some (star t)) t :: rs). split; [constructor; exact E|]. cbn in F |- *. rewrite F, <- app_assoc. reflexivity. }
  destruct (G us new_wrapper [] eq_refl) as (rs & E & F). exists rs. split; [exact E|exact F].
Qed.
Print Assumptions C366_estimates.
Example C366_ex : snd (fold_left (step (fun t => t * 100) (fun i q t => (i, q, t))) [Setup 7; Filtered 1; Total 2; Filtered 3] (new_wrapper, [])) = [(Some 7, Some 7, 1); (Some 200, Some 200, 2); (Some 7, Some 7, 3)]. Proof. reflexivity. Qed.

(** ** C367: each initialization of a wrapped estimator is followed by its cleanup before the next one.
    Partial: there is only one setup. *)
Theorem C367_paired_partial : forall {Q T R : Type} (star : T -> Q) (estimate : option Q -> option Q -> T -> R) q us, (forall q', ~ In (Setup q') us) ->
  paired (w_calls (fst (fold_left (step star estimate) (Setup q :: us) (new_wrapper, [])))) true.
Proof.
  intros Q T R star estimate q us N. cbn [fold_left step fst snd].
  assert (G : forall us w l, (forall q', ~ In (Setup q') us) -> paired (w_calls w) true -> paired (w_calls (fst (fold_left (step star estimate) us (w, l)))) true).
  { clear. induction us as [|u us IH]; intros w l N P; [exact P|]. assert (N' : forall q', ~ In (Setup q') us) by (intros q' I; apply (N q'); right; exact I). destruct u as [q|t|t]; cbn [fold_left step fst snd].
    - contradiction (N q). left. reflexivity.
    - apply IH; assumption.
    - unfold estimate_total_rows. cbn. apply IH; [exact N'|]. cbn. apply pr_initialize, pr_cleanup, pr_initialize, pr_cleanup. exact P. }
  apply G; [exact N|]. cbn. apply (pr_initialize []). constructor.
Qed.
Print Assumptions C367_paired_partial.
(* The setup for the next query does not clean up: any second setup breaks the order. *)
Lemma paired_last {Q} (l : list (call Q)) q q' b : ~ paired ((l ++ [Initialize q]) ++ [Initialize q']) b.
Proof.
  intros P. inversion P as [E|l' x P' E|l' P' E].
  - destruct l; discriminate.
  - apply app_inj_tail in E as [E _]. subst l'. inversion P' as [E|l2 y P2 E|l2 P2 E]; [destruct l; discriminate|]. apply app_inj_tail in E as [_ E]. discriminate.
  - apply app_inj_tail in E as [_ E]. discriminate.
Qed.
Theorem C367_paired_refuted : forall {Q T R : Type} (star : T -> Q) (estimate : option Q -> option Q -> T -> R) q q' b,
  ~ paired (w_calls (fst (fold_left (step star estimate) [Setup q; Setup q'] (new_wrapper, [])))) b.
Proof. intros. cbn. apply (paired_last []). Qed.
Print Assumptions C367_paired_refuted.
Example C367_ex : w_calls (fst (fold_left (step (fun t => t * 100) (fun i q t => (i, q, t))) [Setup 7; Total 2] (new_wrapper, []))) = [Initialize (Some 7); Cleanup; Initialize (Some 200); Cleanup; Initialize (Some 7)]. Proof. reflexivity. Qed.
