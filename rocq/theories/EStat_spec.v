(** Specification vocabulary for C266-C270: what statistics say about the contents of a table. *)
From Coq Require Import List Bool Arith ZArith QArith Sorting.Sorted.
From Verif Require Import PyBase EStat_model.
Import ListNotations.
Local Open Scope nat_scope.

(** The table a reference stands for: unqualified names are looked up in [public]. *)
Definition referenced (w : world) (t : tref) : option trows := match t_schema t with None => w 0 (t_name t) | Some s => w s (t_name t) end.
Definition column (c : nat) (rs : trows) : list (option Z) := map (fun r => r c) rs.
Definition v_dec : forall a b : option Z, {a = b} + {a <> b}.
Proof. decide equality. apply Z.eq_dec. Defined.
Definition occurrences (l : list (option Z)) (v : option Z) : nat := count_occ v_dec l v.
Definition is_least (l : list (option Z)) (v : option Z) : Prop :=
  match v with None => forall x, ~ In (Some x) l | Some x => In (Some x) l /\ forall y, In (Some y) l -> (x <= y)%Z end.
Definition is_greatest (l : list (option Z)) (v : option Z) : Prop :=
  match v with None => forall x, ~ In (Some x) l | Some x => In (Some x) l /\ forall y, In (Some y) l -> (y <= x)%Z end.
Definition distinct_number (l : list (option Z)) (n : nat) : Prop :=
  exists d : list Z, NoDup d /\ (forall x, In x d <-> In (Some x) l) /\ n = List.length d.
(** Each value of the column once, with the number of its rows. *)
Definition tally (l : list (option Z)) (m : list (option Z * nat)) : Prop :=
  NoDup (map fst m) /\ forall v f, In (v, f) m <-> In v l /\ f = occurrences l v.
Definition descending (m : list (option Z * nat)) : Prop := StronglySorted (fun a b => snd b <= snd a) m.
(** The rows up to a bound; NULLs are behind all values. *)
Definition upto (b v : option Z) : bool := match b, v with None, _ => true | Some _, None => false | Some b, Some v => (v <=? b)%Z end.
Definition rows_upto (b : option Z) (l : list (option Z)) : nat := List.length (filter (upto b) l).
Definition total (l : list nat) : nat := fold_right Nat.add 0 l.
Definition fits (l : list (option Z)) (h : hist3) : Prop :=
  let '(lo, bs, ks) := h in
  In lo l /\ rows_upto lo l = occurrences l lo
  /\ List.length bs = List.length ks /\ bs <> []
  /\ forall i b, nth_error bs i = Some b -> In b l /\ total (firstn (S i) ks) = rows_upto b l.

Definition target (x : stat) : option tref :=
  match x with TotalRows t => Some t | NumDistinct c | MinMax c | MostCommon c _ | HistogramOf c _ => c_table c end.
(** The statistic [v] is right for the rows of the table. *)
Definition right (rs : trows) (x : stat) (v : sval) : Prop :=
  match x with
  | TotalRows _ => v = SNum (Some (Z.of_nat (List.length rs)))
  | NumDistinct c => exists n, v = SNum (Some (Z.of_nat n)) /\ distinct_number (column (c_name c) rs) n
  | MinMax c => exists a b, v = SPair a b /\ is_least (column (c_name c) rs) a /\ is_greatest (column (c_name c) rs) b
  | MostCommon c _ => exists m, v = SMcv m /\ tally (column (c_name c) rs) m /\ descending m
  | HistogramOf c _ => (rs = [] /\ v = SHist None) \/ (rs <> [] /\ exists h, v = SHist (Some h) /\ fits (column (c_name c) rs) h)
  end.
(** No value is as frequent as NULL. *)
Definition no_tie (l : list (option Z)) : Prop := forall x, In None l -> In (Some x) l -> occurrences l None <> occurrences l (Some x).
(** What is asked for: all values, a positive number of bins. *)
Definition asked (rs : trows) (x : stat) : Prop :=
  match x with
  | TotalRows _ | NumDistinct _ | MinMax _ => True
  | MostCommon c n => limit n = None /\ no_tie (column (c_name c) rs)
  | HistogramOf c n => exists b, n = Some (S b)
  end.
(** All answers in the cache are those of the database. *)
Definition coherent (w : world) (s : state) : Prop := forall q a, dget (s_cache s) q = Some a -> ask w q = Ok a.
