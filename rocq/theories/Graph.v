(** Undirected graphs as used through networkx: the functions [nx.is_connected] and [nx.connected_components] are library
    code; they are modelled by a breadth-first closure which is proved correct against paths here. *)
From Coq Require Import List Bool Arith Lia.
From Verif Require Import PyBase.
Import ListNotations.

Section Graph.
  Context {A : Type} {EA : EqD A}.

  (** ** Specification *)
  Definition adj (es : list (A * A)) (x y : A) : Prop := In (x, y) es \/ In (y, x) es.

  (** A path that stays inside the node set [ns]. *)
  Inductive path (ns : list A) (es : list (A * A)) : A -> A -> Prop :=
  | path_refl x : In x ns -> path ns es x x
  | path_step x y z : path ns es x y -> adj es y z -> In z ns -> path ns es x z.

  Definition connected (ns : list A) (es : list (A * A)) : Prop :=
    forall x y, In x ns -> In y ns -> path ns es x y.

  (** ** Algorithm *)
  Definition nbrs (es : list (A * A)) (x : A) : list A :=
    flat_map (fun e => (if deqb (fst e) x then [snd e] else []) ++ (if deqb (snd e) x then [fst e] else [])) es.

  Definition expand (ns : list A) (es : list (A * A)) (s : list A) : list A :=
    dedup (s ++ filter (fun y => mem y ns) (flat_map (nbrs es) s)).

  Fixpoint iter_expand (n : nat) ns es s : list A :=
    match n with 0 => s | S n => iter_expand n ns es (expand ns es s) end.

  Definition reachable (ns : list A) (es : list (A * A)) (x : A) : list A := iter_expand (length ns) ns es [x].

  (** nx.is_connected on a graph with at least one node (it raises on the empty graph). *)
  Definition connectedb (ns : list A) (es : list (A * A)) : bool :=
    match ns with [] => true | x :: _ => subsetb ns (reachable ns es x) end.

  (** ** Correctness *)
  Lemma In_nbrs es x y : In y (nbrs es x) <-> adj es x y.
  Proof.
    unfold nbrs, adj. rewrite in_flat_map. split.
    - intros ([a b] & He & Hy). cbn in Hy. apply in_app_iff in Hy as [Hy|Hy].
      + destruct (deqb_spec a x) as [->|]; [destruct Hy as [->|[]]; auto|contradiction].
      + destruct (deqb_spec b x) as [->|]; [destruct Hy as [->|[]]; auto|contradiction].
    - intros [H|H]; [exists (x, y)|exists (y, x)]; (split; [assumption|]); cbn; rewrite in_app_iff, deqb_refl; [left|right]; now left.
  Qed.

  Lemma In_expand ns es s y : In y (expand ns es s) <-> In y s \/ (In y ns /\ exists x, In x s /\ adj es x y).
  Proof.
    unfold expand. rewrite dedup_In, in_app_iff, filter_In, in_flat_map, mem_In.
    split; (intros [H|H]; [auto|right]).
    - destruct H as [(x & Hx & Hy) Hn]. apply In_nbrs in Hy. eauto.
    - destruct H as [Hn (x & Hx & Hy)]. split; [|assumption]. exists x. split; [assumption|]. now apply In_nbrs.
  Qed.

  Lemma path_sym ns es x y : path ns es x y -> path ns es y x.
  Proof.
    assert (Hc : forall x y z, path ns es y z -> adj es x y -> In x ns -> path ns es x z).
    { intros x0 y0 z H. induction H as [y0 Hy|y0 u z Hyu IH Ha Hz]; intros Hxy Hx.
      - eapply path_step; [apply path_refl|..]; eauto.
      - eapply path_step; eauto. }
    induction 1 as [x Hx|x u y Hxu IH Ha Hy]; [now apply path_refl|].
    eapply Hc; [exact IH| |assumption]. destruct Ha; [right|left]; assumption.
  Qed.
  Lemma path_trans ns es x y z : path ns es x y -> path ns es y z -> path ns es x z.
  Proof.
  intros H1 H2. induction H2 as [y Hy|y u z Hyu IH Ha Hz]; [assumption|]. eapply path_step; [exact (IH H1)|exact Ha|exact Hz].
Qed.
  Lemma path_In ns es x y : path ns es x y -> In x ns /\ In y ns.
  Proof. induction 1; intuition. Qed.
  Lemma path_mono ns es es' x y : (forall a b, adj es a b -> adj es' a b) -> path ns es x y -> path ns es' x y.
  Proof. intros H. induction 1 as [|? u z Hyu IH Ha Hz]; [now constructor|]. eapply path_step; [exact IH|apply H; exact Ha|exact Hz]. Qed.
  Lemma path_nodes ns ns' es x y : incl ns ns' -> path ns es x y -> path ns' es x y.
  Proof. intros H. induction 1 as [|? u z Hyu IH Ha Hz]; [constructor; auto|]. eapply path_step; [exact IH|exact Ha|auto]. Qed.

  Lemma iter_sound ns es x : forall n s, (forall y, In y s -> path ns es x y) ->
    forall y, In y (iter_expand n ns es s) -> path ns es x y.
  Proof.
    induction n as [|n IH]; intros s H y Hy; cbn in Hy; [auto|]. apply (IH (expand ns es s)); [|assumption].
    intros z Hz. apply In_expand in Hz as [Hz|(Hn & u & Hu & Ha)]; [auto|]. eapply path_step; eauto.
  Qed.

  Definition closed ns es (s : list A) : Prop := forall x y, In x s -> adj es x y -> In y ns -> In y s.

  Lemma closed_expand ns es s : closed ns es s -> seteq (expand ns es s) s.
  Proof.
    intros H y. rewrite In_expand. split; [|auto]. intros [?|(Hn & x & Hx & Ha)]; [assumption|]. eapply H; eauto.
  Qed.
  Lemma closed_seteq ns es s s' : seteq s s' -> closed ns es s -> closed ns es s'.
  Proof. intros He H x y Hx Ha Hy. apply He. apply He in Hx. eapply H; eauto. Qed.
  Lemma iter_closed ns es : forall n s, closed ns es s -> closed ns es (iter_expand n ns es s).
  Proof.
    induction n as [|n IH]; intros s H; cbn; [assumption|]. apply IH.
    eapply closed_seteq; [|exact H]. intros y. symmetry. now apply closed_expand.
  Qed.

  Lemma expand_NoDup ns es s : NoDup (expand ns es s).
  Proof. apply dedup_NoDup. Qed.

  Lemma dec_closed ns es s : closed ns es s \/ exists y, In y ns /\ ~ In y s /\ In y (expand ns es s).
  Proof.
    destruct (existsb (fun y => negb (mem y s)) (expand ns es s)) eqn:He.
    - right. apply existsb_exists in He as (y & Hy & Hn). apply negb_true_iff, mem_nIn in Hn.
      exists y. split; [|auto]. apply In_expand in Hy as [?|[? _]]; [contradiction|assumption].
    - left. intros x y Hx Ha Hy. destruct (mem y s) eqn:Hm; [now apply mem_In|]. exfalso.
      assert (existsb (fun y => negb (mem y s)) (expand ns es s) = true); [|congruence].
      apply existsb_exists. exists y. rewrite Hm. split; [|reflexivity]. apply In_expand. right. eauto.
  Qed.

  Lemma iter_complete ns es : forall n s, NoDup s -> incl s ns -> length ns <= n + length s ->
    closed ns es (iter_expand n ns es s).
  Proof.
    induction n as [|n IH]; intros s Hnd Hin Hlen; cbn.
    - intros x y _ _ Hy.
      destruct (in_dec eqd y s) as [|Hn]; [assumption|exfalso].
      assert (Hl : length (y :: s) <= length ns).
      { apply NoDup_incl_length; [constructor; assumption|]. intros z [<-|Hz]; auto. }
      simpl in Hl. lia.
    - destruct (dec_closed ns es s) as [Hc|(y & Hy & Hns & Hye)].
      + apply iter_closed. eapply closed_seteq; [|exact Hc]. intros z. symmetry. now apply closed_expand.
      + apply IH.
        * apply expand_NoDup.
        * intros z Hz. apply In_expand in Hz as [Hz|[Hz _]]; auto.
        * assert (length (y :: s) <= length (expand ns es s)).
          { apply NoDup_incl_length; [constructor; assumption|].
            intros z [<-|Hz]; [assumption|]. apply In_expand. auto. }
          simpl in *. lia.
  Qed.

  Lemma iter_incl ns es : forall n s, incl s (iter_expand n ns es s).
  Proof.
    induction n as [|n IH]; intros s x Hx; cbn; [assumption|]. apply IH. apply In_expand. auto.
  Qed.

  Lemma reachable_spec ns es x y : In x ns -> (In y (reachable ns es x) <-> path ns es x y).
  Proof.
    intros Hx. split.
    - apply iter_sound. intros z [<-|[]]. now apply path_refl.
    - assert (Hc : closed ns es (reachable ns es x)).
      { apply iter_complete; [repeat constructor; simpl; tauto|intros z [<-|[]]; assumption|lia]. }
      intros H. assert (Hi : In x (reachable ns es x)) by (apply iter_incl; now left).
      clear Hx. induction H as [x Hx|x y z Hxy IH Ha Hz]; [assumption|]. eapply Hc; [exact (IH Hc Hi)|exact Ha|exact Hz].
  Qed.

  Lemma connectedb_spec ns es : connectedb ns es = true <-> connected ns es.
  Proof.
    destruct ns as [|n0 ns']; [split; [intros _ ? ? []|reflexivity]|]. set (ns := n0 :: ns').
    assert (H0 : In n0 ns) by now left. unfold connectedb. fold ns. change (match ns with [] => true | x :: _ => subsetb ns (reachable ns es x) end) with (subsetb ns (reachable ns es n0)).
    rewrite subsetb_incl. split.
    - intros H x y Hx Hy. apply path_trans with n0.
      + apply path_sym. apply reachable_spec; auto.
      + apply reachable_spec; auto.
    - intros H y Hy. apply reachable_spec; auto.
  Qed.
End Graph.
