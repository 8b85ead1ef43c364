(** Model of column statistics: MostCommonValues and Histogram, postbound/db/_db.py 1600-1962, and of the histograms read from
    PostgreSQL, postbound/postgres.py 1954-2037.  Column values are integers, frequencies natural numbers. *)
From Coq Require Import List Bool Arith ZArith QArith.
From Verif Require Import PyBase.
Import ListNotations.
Local Open Scope nat_scope.

(** * MostCommonValues, 1600-1728 *)
Definition mcv := (Z * nat)%type.
(** The sort key (frequency, value) of [a] is at least that of [b]. *)
Definition mcv_geb (a b : mcv) : bool := (snd b <? snd a) || ((snd a =? snd b) && (fst b <=? fst a)%Z).
(** [list.sort(key=..., reverse=True)], 1621: a stable sort. *)
Fixpoint mcv_insert (x : mcv) (l : list mcv) : list mcv :=
  match l with [] => [x] | y :: r => if mcv_geb x y then x :: l else y :: mcv_insert x r end.
Definition mcv_sort (l : list mcv) : list mcv := fold_right mcv_insert [] l.
(** __init__ 1619-1628 *)
Record mcvs := mkmcvs { mc_list : list mcv; mc_map : dict Z nat; mc_min : nat; mc_max : nat }.
Definition mk_mcvs (l : list mcv) : mcvs :=
  let s := mcv_sort l in
  mkmcvs s (dict_of s) (match s with [] => 0 | _ => snd (last s (0%Z, 0)) end) (match s with [] => 0 | x :: _ => snd x end).
(** frequency_of 1675-1699 *)
Definition mc_frequency_of (m : mcvs) (v : Z) (default : option nat) (bound_missing : bool) : option nat :=
  let fallback := match default with Some d => Some d | None => if bound_missing then Some (mc_min m) else None end in
  match dget (mc_map m) v with Some f => Some f | None => fallback end.
(** top 1701, below 1705 (for [k >= 0]), values 1652, frequencies 1657, __contains__ 1715 *)
Definition mc_top (m : mcvs) (k : nat) : mcvs := mk_mcvs (firstn k (mc_list m)).
Definition mc_below (m : mcvs) (k : nat) : mcvs := mk_mcvs (skipn k (mc_list m)).
Definition mc_values (m : mcvs) : list Z := dkeys (mc_map m).
Definition mc_freqs (m : mcvs) : list nat := dvalues (mc_map m).
Definition mc_contains (m : mcvs) (v : Z) : bool := dmem (mc_map m) v.

(** * bisect (the algorithm of the standard library); [n] bounds the number of iterations. *)
Fixpoint bisect (right : bool) (a : list Z) (v : Z) (n lo hi : nat) : nat :=
  match n with
  | O => lo
  | S n => if lo <? hi then
             let mid := (lo + hi) / 2 in
             let x := nth mid a 0%Z in
             if right then if (v <? x)%Z then bisect right a v n lo mid else bisect right a v n (S mid) hi
             else if (x <? v)%Z then bisect right a v n (S mid) hi else bisect right a v n lo mid
           else lo
  end.
Definition bisect_right (a : list Z) (v : Z) : nat := bisect true a v (List.length a) 0 (List.length a).
Definition bisect_left (a : list Z) (v : Z) : nat := bisect false a v (List.length a) 0 (List.length a).

(** * Histogram, 1758-1962 *)
Inductive interpolation := Bound | ApproxUni.
Record hist := mkhist { h_bounds : list Z; h_freqs : list nat; h_rows : nat; h_lower : Z; h_avg : nat; h_interp : interpolation }.
Definition nsum (l : list nat) : nat := fold_right Nat.add 0 l.
Definition mk_hist (bounds : list Z) (freqs : list nat) (lower : Z) (i : interpolation) : res hist :=
  match bounds with
  | [] => Raise ValueError
  | _ => if List.length bounds =? List.length freqs
         then Ok (mkhist bounds freqs (nsum freqs) lower (nsum freqs / List.length bounds) i) else Raise ValueError
  end.
(** The estimates are integers or, for "approx-uni", floats (here: exact fractions). *)
Definition qn (n : nat) : Q := inject_Z (Z.of_nat n).
Definition frac (v lo hi : Z) : res Q := if (hi - lo =? 0)%Z then Raise ZeroDivisionError else Ok (inject_Z (v - lo) / inject_Z (hi - lo))%Q.
(** frequency_below 1864-1892 *)
Definition h_below (h : hist) (v : Z) : res Q :=
  let u := bisect_right (h_bounds h) v in
  if u =? 0 then Ok 0%Q else if u =? List.length (h_bounds h) then Ok (qn (h_rows h))
  else match h_interp h with
       | Bound => Ok (qn (u * h_avg h))
       | ApproxUni =>
           let lo := u - 1 in
           rmap (fun f => (qn lo + f) * qn (h_avg h))%Q (frac v (nth lo (h_bounds h) 0%Z) (nth u (h_bounds h) 0%Z))
       end.
(** frequency_above 1894-1925; [self._bounds[upper_idx]] fails behind the end. *)
Definition h_above (h : hist) (v : Z) : res Q :=
  let l := bisect_left (h_bounds h) v in
  if l =? 0 then Ok (qn (h_rows h)) else if l =? List.length (h_bounds h) then Ok 0%Q
  else match h_interp h with
       | Bound => Ok (qn (l * h_avg h))
       | ApproxUni =>
           let u := l + 1 in
           match nth_error (h_bounds h) u with
           | None => Raise IndexError
           | Some hi => rmap (fun f => (qn u + f) * qn (h_avg h))%Q (frac v (nth l (h_bounds h) 0%Z) hi)
           end
       end.

(** _infer_histogram_bounds 1735-1755 *)
Fixpoint infer_loop (size : nat) (cum : nat) (l : list (Z * nat)) : list Z * list nat :=
  match l with
  | [] => ([], [])
  | (v, f) :: r =>
      let cum := cum + f in
      if cum <? size then infer_loop size cum r
      else let (bs, ks) := infer_loop size 0 r in (v :: bs, cum :: ks)
  end.
Definition infer_bounds (freqs : list (Z * nat)) (n_bins n_rows : nat) : res (Z * list Z * list nat) :=
  match freqs with
  | [] => Raise ValueError
  | (v, _) :: _ => if n_bins =? 0 then Raise ZeroDivisionError
                   else let (bs, ks) := infer_loop (n_rows / n_bins) 0 freqs in Ok (v, bs, ks)
  end.
(** _calculate_histogram 2834-2872, given the result of its queries: the distinct values with their counts, ordered by value. *)
Definition calculate_histogram (freqs : list (Z * nat)) (n_rows n_bins : nat) (i : interpolation) : res (option hist) :=
  if n_rows =? 0 then Ok None
  else match freqs with
       | [] => Raise AssertionError
       | _ => rbind (infer_bounds freqs n_bins n_rows) (fun '(lo, bs, ks) => rmap Some (mk_hist bs ks lo i))
       end.

(** * Histograms from pg_stats, postgres.py 1954-2037 *)
(** The buckets with the same bound as the previous one are added to it: [while (cur_hist := next(hist_iter)) == prev_hist]. *)
Fixpoint same_run (prev : Z) (bucket : nat) (hs : list Z) : nat * list Z :=
  match hs with
  | h :: r => if (h =? prev)%Z then let (k, r') := same_run prev bucket r in (bucket + k, r') else (0, hs)
  | [] => (0, [])
  end.
(** [min(filter(None, [cur_hist, cur_mcv_val]), default=None)]: zero counts as missing. *)
Definition pg_lower (hs : list Z) (ms : list mcv) : option Z :=
  match filter (fun x => negb (x =? 0)%Z) (firstn 1 hs ++ map fst (firstn 1 ms)) with
  | [] => None
  | x :: r => Some (fold_left Z.min r x)
  end.
(** The loop 1986-2029 with the lower bound so far, the remaining bounds and most common values; [n] bounds the iterations.
    Returns the lower bound and the buckets. *)
Fixpoint pg_loop (n : nat) (bucket : nat) (lo : option Z) (hs : list Z) (ms : list mcv) : res (option Z * list (Z * nat)) :=
  match n with
  | O => Raise OutOfFuel
  | S n =>
      match hs, ms with
      | [], [] => Ok (lo, [])
      | _, _ =>
        let lo := match lo with Some x => Some x | None => pg_lower hs ms end in
        let add x := rmap (fun r => (fst r, x :: snd r)) in
        match hs, ms with
        | [], [] => Ok (lo, [])
        | [], (v, f) :: ms' => add (v, f) (pg_loop n bucket lo [] ms')
        | h :: hs', [] => let (k, r) := same_run h bucket hs' in add (h, bucket + k) (pg_loop n bucket lo r [])
        | h :: hs', (v, f) :: ms' =>
            if (h <? v)%Z then let (k, r) := same_run h bucket hs' in add (h, bucket + k) (pg_loop n bucket lo r ms)
            else if (v <? h)%Z then add (v, f) (pg_loop n bucket lo hs ms') else Raise AssertionError
        end
      end
  end.
(** _retrieve_histogram_from_stats, given the answers of the system catalog: the histogram bounds (ascending), the estimated
    number of rows and the most common values (as MostCommonValues, i.e. ordered by frequency). *)
Definition pg_histogram (hs : list Z) (n_rows : nat) (ms : mcvs) (i : interpolation) : res (option hist) :=
  match hs with
  | [] => Ok None
  | _ => if n_rows =? 0 then Raise AssertionError
         else rbind (pg_loop (S (List.length hs + List.length (mc_list ms))) (n_rows / List.length hs) None hs (mc_list ms)) (fun '(lo, bk) =>
              match lo with
              | None => Raise AssertionError
              | Some lo => rmap Some (mk_hist (map fst bk) (map snd bk) lo i)
              end)
  end.
