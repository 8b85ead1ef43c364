(** Property theorems for C44 (util/dicts.py). *)
From Coq Require Import List Bool Arith ZArith Lia.
From Verif Require Import PyBase Dicts_model Dicts_proofs.
Import ListNotations.

(** C44: [merge] without updater prefers the second dictionary ... *)
Theorem C44_merge_default : forall (K V : Type) (EK : EqD K) (a b : dict K V) k, dwf a -> dwf b ->
  dget (merge a b None) k = match dget b k with Some v => Some v | None => dget a k end.
Proof. exact @merge_default_get. Qed.
Print Assumptions C44_merge_default.
(** ... and with an updater combines the conflicting values. *)
Theorem C44_merge_updater : forall (K V : Type) (EK : EqD K) (a b : dict K V) u k, dwf a -> dwf b ->
  dget (merge a b (Some u)) k =
  match dget a k, dget b k with Some x, Some y => Some (u k x y) | Some x, None => Some x | None, o => o end.
Proof. exact @merge_updater_get. Qed.
Print Assumptions C44_merge_updater.
Example C44_ex_merge : let a := [(1, 10); (2, 20)] in let b := [(2, 5); (3, 7)] in
  dwf a /\ dwf b /\ merge a b None = [(1, 10); (2, 5); (3, 7)] /\ merge a b (Some (fun _ x y => x + y)) = [(1, 10); (2, 25); (3, 7)].
Proof. repeat split; repeat constructor; simpl; intuition discriminate. Qed.

Theorem C44_intersection : forall (K V : Type) (EK : EqD K) (a b : dict K V) k,
  dget (intersection a b) k = if dmem b k then dget a k else None.
Proof. exact @intersection_get. Qed.
Print Assumptions C44_intersection.
Theorem C44_difference : forall (K V : Type) (EK : EqD K) (a b : dict K V) k,
  dget (difference a b) k = if dmem b k then None else dget a k.
Proof. exact @difference_get. Qed.
Print Assumptions C44_difference.

(** multi-dictionaries collect all values of a key, in order *)
Theorem C44_generate_multi : forall (K V : Type) (EK : EqD K) (entries : list (K * V)) k,
  dget (generate_multi entries) k = match values_for entries k with [] => None | l => Some l end.
Proof. exact @generate_multi_get. Qed.
Print Assumptions C44_generate_multi.
Theorem C44_aggregate : forall (K V : Type) (EK : EqD K) (ds : list (dict K V)) k,
  dget (aggregate ds) k = match values_for (concat ds) k with [] => None | l => Some l end.
Proof. exact @aggregate_get. Qed.
Print Assumptions C44_aggregate.
Theorem C44_argmin : forall (K : Type) (d : dict K Z), d <> [] ->
  exists k v, argmin d = Ok k /\ In (k, v) d /\ (forall k' v', In (k', v') d -> (v <= v')%Z).
Proof. exact @argmin_spec. Qed.
Print Assumptions C44_argmin.
Theorem C44_argmax : forall (K : Type) (d : dict K Z), d <> [] ->
  exists k v, argmax d = Ok k /\ In (k, v) d /\ (forall k' v', In (k', v') d -> (v' <= v)%Z).
Proof. exact @argmax_spec. Qed.
Print Assumptions C44_argmax.
Example C44_ex_arg : argmin [(1, 5%Z); (2, 3%Z); (3, 3%Z)] = Ok 2 /\ argmax [(1, 5%Z); (2, 3%Z)] = Ok 1.
Proof. split; reflexivity. Qed.

(** C44, full claim for [invert_multi]: false, keys with the same value list overwrite each other. *)
Theorem C44_invert_multi_refuted : exists (m : dict nat (list nat)) v k, dwf m /\
  (exists vs, In (k, vs) m /\ In v vs) /\ ~ In k (match dget (invert_multi m) v with Some l => l | None => [] end).
Proof.
  exists [(1, [7]); (2, [7])], 7, 1. split; [repeat constructor; simpl; intuition discriminate|]. split.
  - exists [7]. simpl. auto.
  - vm_compute. intuition discriminate.
Qed.
Print Assumptions C44_invert_multi_refuted.
(** Missing: dictionaries in which two keys have identical value lists. *)
Theorem C44_invert_multi_partial : forall (K V : Type) (EV : EqD V) (m : dict K (list V)) v, NoDup (map snd m) ->
  forall k, In k (match dget (invert_multi m) v with Some l => l | None => [] end) <-> exists vs, In (k, vs) m /\ In v vs.
Proof. exact @invert_multi_get. Qed.
Print Assumptions C44_invert_multi_partial.
Example C44_ex_invert : NoDup (map snd [(1, [7; 8]); (2, [7])]) /\ invert_multi [(1, [7; 8]); (2, [7])] = [(7, [1; 2]); (8, [1])].
Proof. split; [repeat constructor; simpl; intuition discriminate|reflexivity]. Qed.

(** C44, full claim for [hash_dict]: equal dictionaries have equal hashes. False: insertion order matters. *)
Theorem C44_hash_dict_refuted : exists (a b : dict nat nat) hk hv ht, dwf a /\ dwf b /\
  (forall k, dget a k = dget b k) /\ hash_dict hk hv ht a <> hash_dict hk hv ht b.
Proof.
  exists [(1, 10); (2, 10)], [(2, 10); (1, 10)], Z.of_nat, Z.of_nat, (fun l => fold_left (fun acc z => (acc * 31 + z)%Z) l 7%Z).
  split; [repeat constructor; simpl; intuition discriminate|]. split; [repeat constructor; simpl; intuition discriminate|]. split.
  - intros k. simpl. destruct (eqd k 1), (eqd k 2); congruence.
  - vm_compute. discriminate.
Qed.
Print Assumptions C44_hash_dict_refuted.
