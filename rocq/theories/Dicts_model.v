(** Model of postbound/util/dicts.py. Dictionaries are insertion-ordered association lists (PyBase.dict). *)
From Coq Require Import List Bool Arith ZArith Lia.
From Verif Require Import PyBase.
Import ListNotations.

Section Dicts.
  Context {K V : Type} {EK : EqD K} {EV : EqD V}.

  (** util/dicts.py 65-80 *)
  Definition difference (a b : dict K V) : dict K V := filter (fun e => negb (dmem b (fst e))) a.
  (** util/dicts.py 83-98 *)
  Definition intersection (a b : dict K V) : dict K V := filter (fun e => dmem b (fst e)) a.
  (** util/dicts.py 101-123 *)
  Definition merge (a b : dict K V) (updater : option (K -> V -> V -> V)) : dict K V :=
    match updater with
    | None => dict_of (a ++ b)
    | Some u =>
      fold_left (fun merged '(k, v) =>
        match dget merged k with
        | Some w => dset merged k (u k w v)
        | None => dset merged k v
        end) b (dict_of a)
    end.
  (** util/dicts.py 131-136 *)
  Definition explode (d : dict K (list V)) : list (K * V) := flat_map (fun '(k, vs) => map (fun v => (k, v)) vs) d.

  (** util/dicts.py 139-154 for hashable values. [hk]/[hv] are the element hashes, [ht] is the hash of a tuple of
      hashes. *)
  Definition hash_dict (hk : K -> Z) (hv : V -> Z) (ht : list Z -> Z) (d : dict K V) : Z :=
    ht [ht (map hk (dkeys d)); ht (map hv (dvalues d))].

  (** one step of a [defaultdict(list)] append *)
  Definition multi_append {A B} {EA : EqD A} (c : dict A (list B)) (k : A) (v : B) : dict A (list B) :=
    dset c k (match dget c k with Some l => l ++ [v] | None => [v] end).
  (** util/dicts.py 157-165 *)
  Definition generate_multi (entries : list (K * V)) : dict K (list V) :=
    fold_left (fun c '(k, v) => multi_append c k v) entries [].
  (** util/dicts.py 192-197 *)
  Definition aggregate (ds : list (dict K V)) : dict K (list V) :=
    fold_left (fun c d => fold_left (fun c '(k, v) => multi_append c k v) d c) ds [].

  (** util/dicts.py 175-189 *)
  Definition invert_multi (mapping : dict K (list V)) : dict V (list K) :=
    let level1 := dict_of (map (fun '(k, vs) => (vs, k)) mapping) in
    fold_left (fun l2 '(vs, k) => fold_left (fun l2 v => multi_append l2 v k) vs l2) level1 [].
  (** util/dicts.py 200-208 *)
  Definition invert (mapping : dict K V) : dict V K := dict_of (map (fun '(k, v) => (v, k)) mapping).
End Dicts.

(** util/dicts.py 211-224 [argmin]/[argmax] for integer values: Python's [min] keeps the first minimum and raises
    ValueError on an empty dictionary. *)
Definition argmin {K} (d : dict K Z) : res K :=
  match d with
  | [] => Raise ValueError
  | (k, v) :: r => Ok (fst (fold_left (fun best e => if (snd e <? snd best)%Z then e else best) r (k, v)))
  end.
Definition argmax {K} (d : dict K Z) : res K :=
  match d with
  | [] => Raise ValueError
  | (k, v) :: r => Ok (fst (fold_left (fun best e => if (snd e >? snd best)%Z then e else best) r (k, v)))
  end.

(** util/dicts.py 244-280 [CustomHashDict]: a dictionary keyed by the custom hash of the key. *)
Section CustomHash.
  Context {K V : Type} (h : K -> Z).
  Definition chd_set (d : dict Z V) (k : K) (v : V) : dict Z V := dset d (h k) v.
  Definition chd_get (d : dict Z V) (k : K) : res V := match dget d (h k) with Some v => Ok v | None => Raise KeyError end.
  Definition chd_contains (d : dict Z V) (k : K) : bool := dmem d (h k).
  Definition chd_del (d : dict Z V) (k : K) : res (dict Z V) :=
    if dmem d (h k) then Ok (ddel d (h k)) else Raise KeyError.
End CustomHash.
