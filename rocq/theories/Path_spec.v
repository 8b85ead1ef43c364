(* What the sort keys of a path promise, and what it means for path pruning to
   keep enough paths.  Nothing here refers to the comparisons made by the
   pruning itself: sort orders are judged by the row sequences they allow. *)
From Coq Require Import List QArith ZArith Sorted Bool.
From Verif Require Import PyBase Path_model.
Import ListNotations.

(* A row assigns a value to every column and expression. *)
Definition row := member -> Z.

(* The members of an equivalence class have the same value in each row. *)
Definition class_holds (k : skey) (r : row) : Prop :=
  forall m m', In m (k_members k) -> In m' (k_members k) -> r m = r m'.

Definition before (k : skey) (r s : row) : Prop :=
  forall m, In m (k_members k) -> if k_asc k then (r m < s m)%Z else (s m < r m)%Z.

Definition tied (k : skey) (r s : row) : Prop :=
  forall m, In m (k_members k) -> r m = s m.

(* the lexicographic order *)
Fixpoint lexle (ks : list skey) (r s : row) : Prop :=
  match ks with
  | [] => True
  | k :: rest => before k r s \/ (tied k r s /\ lexle rest r s)
  end.

(* a sequence of rows sorted by the keys *)
Definition ordered (ks : list skey) (rows : list row) : Prop :=
  StronglySorted (lexle ks) rows.

(* Rows on which all equivalence classes of all the given paths hold. *)
Definition legal (ps : list path) (r : row) : Prop :=
  forall p k, In p ps -> In k (p_sort p) -> class_holds k r.

(* q is at least as well sorted as p: each sequence of (legal) rows that is
   sorted the way q promises is also sorted the way p promises. *)
Definition as_sorted (ps : list path) (q p : path) : Prop :=
  forall rows, Forall (legal ps) rows -> ordered (p_sort q) rows -> ordered (p_sort p) rows.

(* sort keys as the constructor makes them *)
Definition proper_key (k : skey) : Prop := k_members k <> [].
Definition proper (p : path) : Prop := Forall proper_key (p_sort p) /\ (0 <= p_cost p)%Q.

(* the paths offered to the regular / partial list *)
Definition offered (b : bool) (es : list event) : list path :=
  flat_map (fun e => match e with
                     | EAdd p b' => if Bool.eqb b b' then [p] else []
                     | ECheapest => []
                     end) es.

Definition kept (b : bool) (r : rel) : list path :=
  if b then r_partial r else r_paths r.

Fixpoint qpow (q : Q) (n : nat) : Q :=
  match n with O => 1%Q | S n' => (q * qpow q n')%Q end.

(* the fuzz factor *)
Definition fuzz : Q := 101 # 100.

(* The property to be established: every offered path is covered by one that
   was retained, up to the fuzz factor. *)
Definition covered (f : Q) (ps : list path) (ret : list path) : Prop :=
  forall p, In p ps -> exists q, In q ret /\ (p_cost q <= f * p_cost p)%Q /\ as_sorted ps q p.
