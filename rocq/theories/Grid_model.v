(** Model of make_grid_plot, postbound/vis/plots.py 15-44, and of the distances of kamada_kawai_layout and fruchterman_reingold_layout,
    postbound/vis/fdl.py 33-68.

    Simplifications: data frames are given by the number of their labels; an axis is its position in the figure. *)
From Coq Require Import List Bool Arith.
From Verif Require Import PyBase.
Import ListNotations.

(** plt.subplots removes dimensions of length one from the array of axes. *)
Inductive axes := Single | Row (n : nat) | Column (n : nat) | Matrix (r c : nat).
Definition subplots (r c : nat) : res axes :=
  if r =? 0 then Raise ValueError
  else Ok (match r, c with 1, 1 => Single | 1, _ => Row c | _, 1 => Column r | _, _ => Matrix r c end).
(** ax[i] and ax[i][j]; axes themselves have no items. *)
Definition item (a : axes) (i : nat) : res (nat * nat) :=
  match a with
  | Single => Raise TypeError
  | Row n => if i <? n then Ok (0, i) else Raise IndexError
  | Column n => if i <? n then Ok (i, 0) else Raise IndexError
  | Matrix _ _ => Raise TypeError                              (* a row of axes, which cannot be drawn on *)
  end.
Definition item2 (a : axes) (i j : nat) : res (nat * nat) :=
  match a with
  | Matrix r c => if i <? r then if j <? c then Ok (i, j) else Raise IndexError else Raise IndexError
  | Row n | Column n => if i <? n then Raise TypeError else Raise IndexError
  | Single => Raise TypeError
  end.
(** Lines 29-38: the labels are drawn one after the other; gives the positions and the last row. *)
Fixpoint draw (a : axes) (nrows ncols : nat) (labels row col : nat) : res (list (nat * nat) * nat) :=
  match labels with
  | 0 => Ok ([], row)
  | S labels =>
      rbind (if 1 <? nrows then item2 a row col else item a col) (fun p =>
        let col' := (col + 1) mod ncols in
        let row' := if col' =? 0 then row + 1 else row in
        rmap (fun q => (p :: fst q, snd q)) (draw a nrows ncols labels row' col'))
  end.
(** make_grid_plot: the positions of the labels, and of the axes that are switched off (40-42). *)
Definition make_grid (labels ncols : nat) : res (list (nat * nat) * list (nat * nat)) :=
  if ncols =? 0 then Raise ZeroDivisionError
  else
    let nrows := (labels + ncols - 1) / ncols in
    rbind (subplots nrows ncols) (fun a =>
    rbind (draw a nrows ncols labels 0 0) (fun q =>
    let extra := if negb (labels mod ncols =? 0) then seq 0 (ncols - labels mod ncols) else [] in
    rmap (fun off => (fst q, off)) (rmapM (fun e => item2 a (snd q) (ncols - e - 1)) extra))).

(** ** Layouts: the distances of line 40-45 (a dictionary of dictionaries is one for pairs here). *)
Section Layout.
  Context {E : Type} {EE : EqD E} {S : Type} (score : E -> E -> S).
  Fixpoint distances (l : list E) (d : dict (E * E) S) : dict (E * E) S :=
    match l with
    | [] => d
    | a :: r => distances r (fold_left (fun d b => dset (dset d (a, b) (score a b)) (b, a) (score a b)) (a :: r) d)
    end.
  (** Lines 63-66: the edges of the graph, with loops *)
  Fixpoint attractions (l : list E) : list (E * E * S) := match l with [] => [] | a :: r => map (fun b => (a, b, score a b)) (a :: r) ++ attractions r end.
End Layout.
