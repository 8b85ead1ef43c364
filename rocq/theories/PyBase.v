(** Shared vocabulary: Python exceptions as values and insertion-ordered dictionaries. *)
From Coq Require Import List Bool Arith ZArith Lia.
Import ListNotations.

(** ** Exceptions

    A Python call either returns or raises. [OutOfFuel] is not a Python exception: it marks an exhausted recursion
    budget of the model and is excluded by the theorems. *)
Inductive exn : Type :=
| ValueError | TypeError | IndexError | KeyError | AttributeError | AssertionError
| ZeroDivisionError | StateError | NoJoinPredicateError | UnboundLocalError | RuntimeError
| TimeoutError | OtherError | OutOfFuel.

Inductive res (A : Type) : Type :=
| Ok (a : A)
| Raise (e : exn).
Arguments Ok {A} a.
Arguments Raise {A} e.

Definition rbind {A B} (x : res A) (f : A -> res B) : res B :=
  match x with Ok a => f a | Raise e => Raise e end.
Definition rmap {A B} (f : A -> B) (x : res A) : res B := rbind x (fun a => Ok (f a)).

Fixpoint rmapM {A B} (f : A -> res B) (l : list A) : res (list B) :=
  match l with
  | [] => Ok []
  | x :: r => rbind (f x) (fun y => rbind (rmapM f r) (fun ys => Ok (y :: ys)))
  end.

Definition is_ok {A} (x : res A) : bool := match x with Ok _ => true | Raise _ => false end.

(** ** Decidable equality *)
Class EqD (A : Type) := eqd : forall x y : A, {x = y} + {x <> y}.
#[global] Instance EqD_nat : EqD nat := Nat.eq_dec.
#[global] Instance EqD_Z : EqD Z := Z.eq_dec.
#[global] Instance EqD_bool : EqD bool := bool_dec.
#[global] Instance EqD_prod {A B} {EA : EqD A} {EB : EqD B} : EqD (A * B).
Proof. intros [a b] [c d]. destruct (eqd a c), (eqd b d); [left|right|right|right]; congruence. Defined.
#[global] Instance EqD_option {A} {EA : EqD A} : EqD (option A).
Proof. intros [a|] [b|]; [destruct (eqd a b); [left|right]; congruence|right; congruence|right; congruence|left; reflexivity]. Defined.
#[global] Instance EqD_list {A} {EA : EqD A} : EqD (list A).
Proof. intros l m. exact (list_eq_dec eqd l m). Defined.

Definition deqb {A} {E : EqD A} (x y : A) : bool := if eqd x y then true else false.

Lemma deqb_eq {A} {E : EqD A} (x y : A) : deqb x y = true <-> x = y.
Proof. unfold deqb. destruct (eqd x y); intuition congruence. Qed.
Lemma deqb_true {A} {E : EqD A} (x y : A) : deqb x y = true -> x = y.
Proof. apply deqb_eq. Qed.
Lemma deqb_false {A} {E : EqD A} (x y : A) : deqb x y = false -> x <> y.
Proof. unfold deqb. destruct (eqd x y); congruence. Qed.
Lemma deqb_neq {A} {E : EqD A} (x y : A) : deqb x y = false <-> x <> y.
Proof. unfold deqb. destruct (eqd x y); intuition congruence. Qed.
Lemma deqb_refl {A} {E : EqD A} (x : A) : deqb x x = true.
Proof. apply deqb_eq; reflexivity. Qed.
Lemma deqb_spec {A} {E : EqD A} (x y : A) : reflect (x = y) (deqb x y).
Proof. unfold deqb. destruct (eqd x y); constructor; assumption. Qed.

(** membership test, [x in xs] *)
Definition mem {A} {E : EqD A} (x : A) (l : list A) : bool := existsb (deqb x) l.
Lemma mem_In {A} {E : EqD A} (x : A) l : mem x l = true <-> In x l.
Proof.
  unfold mem. rewrite existsb_exists. split.
  - intros (y & H & e). apply deqb_true in e. rewrite e. exact H.
  - intros H. exists x. split; [assumption|apply deqb_refl].
Qed.
Lemma mem_nIn {A} {E : EqD A} (x : A) l : mem x l = false <-> ~ In x l.
Proof. rewrite <- mem_In. destruct (mem x l); intuition congruence. Qed.

(** [set(xs)]: first occurrences *)
Fixpoint dedup {A} {E : EqD A} (l : list A) : list A :=
  match l with
  | [] => []
  | x :: r => if mem x r then dedup r else x :: dedup r
  end.
Lemma dedup_In {A} {E : EqD A} (l : list A) x : In x (dedup l) <-> In x l.
Proof.
  induction l as [|a l IH]; simpl; [tauto|].
  destruct (mem a l) eqn:Ha; simpl; rewrite IH; [|tauto].
  apply mem_In in Ha. split; [tauto|]. intros [<-|H]; assumption.
Qed.
Lemma dedup_NoDup {A} {E : EqD A} (l : list A) : NoDup (dedup l).
Proof.
  induction l as [|a l IH]; simpl; [constructor|].
  destruct (mem a l) eqn:Ha; [assumption|].
  constructor; [|assumption]. rewrite dedup_In. apply mem_nIn. assumption.
Qed.

(** Set comparison of lists *)
Definition subsetb {A} {E : EqD A} (l m : list A) : bool := forallb (fun x => mem x m) l.
Definition seteqb {A} {E : EqD A} (l m : list A) : bool := subsetb l m && subsetb m l.
Definition seteq {A} (l m : list A) : Prop := forall x, In x l <-> In x m.
Lemma subsetb_incl {A} {E : EqD A} (l m : list A) : subsetb l m = true <-> incl l m.
Proof.
  unfold subsetb, incl. rewrite forallb_forall. split; intros H x Hx; apply H in Hx; apply mem_In; assumption.
Qed.
Lemma seteqb_seteq {A} {E : EqD A} (l m : list A) : seteqb l m = true <-> seteq l m.
Proof.
  unfold seteqb, seteq. rewrite andb_true_iff, !subsetb_incl. unfold incl. firstorder.
Qed.

(** ** Python dictionaries: association lists with unique keys in insertion order *)
Section Dict.
  Context {K V : Type} {EK : EqD K}.
  Definition dict := list (K * V).

  (** [d.get(k)] *)
  Fixpoint dget (d : dict) (k : K) : option V :=
    match d with
    | [] => None
    | (k', v) :: r => if eqd k k' then Some v else dget r k
    end.
  (** [k in d] *)
  Definition dmem (d : dict) (k : K) : bool := match dget d k with Some _ => true | None => false end.
  (** [d[k] = v]: an existing key keeps its position *)
  Fixpoint dset (d : dict) (k : K) (v : V) : dict :=
    match d with
    | [] => [(k, v)]
    | (k', v') :: r => if eqd k k' then (k', v) :: r else (k', v') :: dset r k v
    end.
  (** [del d[k]] / [d.pop(k, None)] *)
  Definition ddel (d : dict) (k : K) : dict := filter (fun e => negb (deqb k (fst e))) d.
  (** [dict(pairs)] *)
  Definition dict_of (l : list (K * V)) : dict := fold_left (fun d e => dset d (fst e) (snd e)) l [].
  Definition dkeys (d : dict) : list K := map fst d.
  Definition dvalues (d : dict) : list V := map snd d.
  Definition dwf (d : dict) : Prop := NoDup (dkeys d).

  Lemma dget_In (d : dict) k v : dget d k = Some v -> In (k, v) d.
  Proof.
    induction d as [|[k' v'] d IH]; simpl; [discriminate|].
    destruct (eqd k k'); [intros [= <-]; subst; auto|auto].
  Qed.
  Lemma dget_key (d : dict) k : dget d k <> None <-> In k (dkeys d).
  Proof.
    induction d as [|[k' v'] d IH]; simpl; [tauto|].
    destruct (eqd k k') as [->|n]; [intuition congruence|]. rewrite IH. intuition congruence.
  Qed.
  Lemma dget_None (d : dict) k : dget d k = None <-> ~ In k (dkeys d).
  Proof. rewrite <- dget_key. destruct (dget d k); intuition congruence. Qed.
  Lemma dmem_In (d : dict) k : dmem d k = true <-> In k (dkeys d).
  Proof. unfold dmem. rewrite <- dget_key. destruct (dget d k); intuition congruence. Qed.
  Lemma dmem_nIn (d : dict) k : dmem d k = false <-> ~ In k (dkeys d).
  Proof. rewrite <- dmem_In. destruct (dmem d k); intuition congruence. Qed.
  Lemma In_dget (d : dict) k v : dwf d -> In (k, v) d -> dget d k = Some v.
  Proof.
    unfold dwf. induction d as [|[k' v'] d IH]; simpl; [tauto|].
    intros Hn [E|H]; inversion Hn; subst.
    - injection E as -> ->. destruct (eqd k k); congruence.
    - destruct (eqd k k') as [->|]; [|auto]. exfalso. apply H2. apply in_map_iff. exists (k', v). auto.
  Qed.
  Lemma dget_iff (d : dict) k v : dwf d -> (dget d k = Some v <-> In (k, v) d).
  Proof. intros H; split; [apply dget_In|apply In_dget; assumption]. Qed.

  Lemma dset_same (d : dict) k v : dget (dset d k v) k = Some v.
  Proof.
    induction d as [|[k' v'] d IH]; simpl.
    - destruct (eqd k k); congruence.
    - destruct (eqd k k') as [->|n]; simpl.
      + destruct (eqd k' k'); congruence.
      + destruct (eqd k k'); congruence.
  Qed.
  Lemma dset_other (d : dict) k v k' : k' <> k -> dget (dset d k v) k' = dget d k'.
  Proof.
    intros n. induction d as [|[k2 v2] d IH]; simpl.
    - destruct (eqd k' k); congruence.
    - destruct (eqd k k2) as [->|m]; simpl.
      + destruct (eqd k' k2); congruence.
      + destruct (eqd k' k2); congruence.
  Qed.
  Lemma dset_spec (d : dict) k v k' : dget (dset d k v) k' = if eqd k' k then Some v else dget d k'.
  Proof. destruct (eqd k' k) as [->|]; [apply dset_same|apply dset_other; assumption]. Qed.
  Lemma dkeys_dset (d : dict) k v x : In x (dkeys (dset d k v)) <-> x = k \/ In x (dkeys d).
  Proof.
    rewrite <- !dget_key, dset_spec. destruct (eqd x k); intuition congruence.
  Qed.
  Lemma dwf_dset (d : dict) k v : dwf d -> dwf (dset d k v).
  Proof.
    unfold dwf. induction d as [|[k2 v2] d IH]; simpl; intros H.
    - constructor; [simpl; tauto|constructor].
    - destruct (eqd k k2) as [->|m]; simpl; [assumption|]. inversion H; subst.
      constructor; [|auto]. intros Hin. change (map fst (dset d k v)) with (dkeys (dset d k v)) in Hin.
      apply dkeys_dset in Hin. destruct Hin as [->|Hin]; [congruence|]. apply H2. exact Hin.
  Qed.
  Lemma dget_filter (f : K * V -> bool) (d : dict) k :
    (forall k v v', f (k, v) = f (k, v')) ->
    dget (filter f d) k = match dget d k with Some v => if f (k, v) then Some v else None | None => None end.
  Proof.
    intros Hf. induction d as [|[k2 v2] d IH]; simpl; [reflexivity|].
    destruct (f (k2, v2)) eqn:E; simpl.
    - destruct (eqd k k2) as [->|]; [rewrite E; reflexivity|assumption].
    - destruct (eqd k k2) as [->|]; [|assumption]. rewrite E, IH.
      destruct (dget d k2) as [w|]; [|reflexivity]. rewrite (Hf _ w v2), E. reflexivity.
  Qed.
  Lemma dwf_filter (f : K * V -> bool) (d : dict) : dwf d -> dwf (filter f d).
  Proof.
    unfold dwf. induction d as [|[k2 v2] d IH]; simpl; intros H; [constructor|]. inversion H; subst.
    destruct (f (k2, v2)); simpl; [|auto]. constructor; [|auto]. intros Hin. apply H2.
    apply in_map_iff in Hin as ((k3 & v3) & E & Hin). apply filter_In in Hin as [Hin _].
    simpl in E. subst. apply in_map_iff. exists (k2, v3). auto.
  Qed.
  Lemma ddel_spec (d : dict) k k' : dget (ddel d k) k' = if eqd k' k then None else dget d k'.
  Proof.
    unfold ddel. rewrite dget_filter by reflexivity. simpl.
    destruct (eqd k' k) as [->|n].
    - rewrite deqb_refl. destruct (dget d k); reflexivity.
    - destruct (deqb_spec k k'); [congruence|]. destruct (dget d k'); reflexivity.
  Qed.
  Lemma dwf_fold_dset (l : list (K * V)) (d : dict) : dwf d -> dwf (fold_left (fun d e => dset d (fst e) (snd e)) l d).
  Proof. revert d. induction l as [|e l IH]; simpl; intros d H; [assumption|]. apply IH, dwf_dset, H. Qed.
  Lemma dwf_dict_of l : dwf (dict_of l).
  Proof. apply dwf_fold_dset. constructor. Qed.

  (** value of the last pair with key [k] *)
  Fixpoint lastval (l : list (K * V)) (k : K) : option V :=
    match l with
    | [] => None
    | (k', v) :: r => match lastval r k with Some w => Some w | None => if eqd k k' then Some v else None end
    end.
  Lemma fold_dset_spec (l : list (K * V)) (d : dict) k :
    dget (fold_left (fun d e => dset d (fst e) (snd e)) l d) k = match lastval l k with Some v => Some v | None => dget d k end.
  Proof.
    revert d. induction l as [|[k' v] l IH]; simpl; intros d; [reflexivity|].
    rewrite IH. destruct (lastval l k); [reflexivity|]. simpl. rewrite dset_spec. destruct (eqd k k'); reflexivity.
  Qed.
  Lemma dict_of_spec l k : dget (dict_of l) k = lastval l k.
  Proof. unfold dict_of. rewrite fold_dset_spec. simpl. destruct (lastval l k); reflexivity. Qed.
  Lemma lastval_app l m k : lastval (l ++ m) k = match lastval m k with Some v => Some v | None => lastval l k end.
  Proof.
    induction l as [|[k' v] l IH]; simpl; [destruct (lastval m k); reflexivity|].
    rewrite IH. destruct (lastval m k); reflexivity.
  Qed.
  Lemma lastval_wf (d : dict) k : dwf d -> lastval d k = dget d k.
  Proof.
    unfold dwf. induction d as [|[k2 v2] d IH]; simpl; intros H; [reflexivity|]. inversion H; subst.
    rewrite IH by assumption. destruct (eqd k k2) as [->|].
    - apply dget_None in H2. fold dkeys. rewrite H2. reflexivity.
    - destruct (dget d k); reflexivity.
  Qed.
End Dict.
Arguments dict : clear implicits.
