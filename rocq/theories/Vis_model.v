(** Model of plot_tree, postbound/vis/trees.py 13-105; of the children that are drawn for query plans, postbound/vis/optimizer.py 356-371;
    of text_diff, postbound/opt/_analysis.py 98-127; of presets.fetch, postbound/opt/presets.py 117-155; and of timeouts of DuckDB,
    postbound/duckdb.py 119-122, 138-163 and 230-234.

    Simplifications: Graphviz graphs are the nodes and edges in the order in which they are added (nodes with the same key are one node of
    the drawing); texts are given by their lines; escaping and styles of labels are left out; queries of DuckDB are given by what happens
    when they are executed. *)
From Coq Require Import List Bool Arith ZArith Ascii String.
From Verif Require Import PyBase Ident_model.
Import ListNotations.

(** ** plot_tree *)
Inductive tree := Node (label : string) (children : list tree).
Definition label_of (t : tree) : string := match t with Node l _ => l end.
Definition children_of (t : tree) : list tree := match t with Node _ c => c end.
Record graph := { g_nodes : list (nat * string); g_edges : list (nat * nat) }.
Section Plot.
  (** node_id_generator, by default hash *)
  Context (key : tree -> nat).
  Fixpoint plot (t : tree) (g : graph) {struct t} : graph :=
    match t with
    | Node l cs =>
        (fix go (cs : list tree) (g : graph) {struct cs} : graph :=
           match cs with
           | [] => g
           | c :: r => go r (plot c {| g_nodes := g_nodes g; g_edges := g_edges g ++ [(key t, key c)] |})      (* 91-101 *)
           end) cs {| g_nodes := g_nodes g ++ [(key t, l)]; g_edges := g_edges g |}                   (* 89 *)
    end.
  Definition plot_tree (t : tree) : graph := plot t {| g_nodes := []; g_edges := [] |}.
End Plot.

(** ** _query_plan_traversal 356-371 *)
Inductive plan := Plan (auxiliary : bool) (id : nat) (children : list plan) (subplan : option plan).
Definition is_aux (p : plan) : bool := match p with Plan a _ _ _ => a end.
Fixpoint traversal (skip : bool) (p : plan) {struct p} : list plan :=
  match p with
  | Plan _ _ cs sp =>
      if skip then
        (fix go (cs : list plan) : list plan := match cs with [] => [] | c :: r => (if is_aux c then traversal true c else [c]) ++ go r end) cs
        ++ match sp with Some c => if is_aux c then traversal true c else [c] | None => [] end
      else cs ++ match sp with Some c => [c] | None => [] end
  end.

(** ** text_diff 117-127 *)
Fixpoint spaces (n : nat) : string := match n with 0 => "" | S n => String " " (spaces n) end.
Definition ljust (s : string) (n : nat) : string := (s ++ spaces (n - String.length s))%string.
Definition text_diff (sep : string) (left right : list string) : res (list string) :=
  match left with
  | [] => Raise ValueError                                   (* max() of nothing *)
  | _ => let n := fold_left Nat.max (map String.length left) 0 in
         Ok (map (fun p => fst p ++ sep ++ snd p)%string (combine (map (fun l => ljust l n) left) right))
  end.

(** ** fetch 150-155 *)
Inductive preset := UES | Native.
Definition fetch (k : string) : res preset :=
  if deqb (supper k) "UES"%string then Ok UES else if deqb k "native"%string then Ok Native else Raise ValueError.

(** ** Timeouts of DuckDB *)
Inductive runtime := NotMeasured | Infinite | Seconds (s : Z).
(** What the worker does: how long it takes, what the result (or exception) is, and what execute() raises if it is interrupted (None: it
    is just about to finish, and returns normally). *)
Record work := { w_time : Z; w_result : res (list nat); w_interrupt : option exn }.
(** execute_with_timeout 144-156: the last runtime and the result. *)
Definition execute_with_timeout (w : work) (timeout : Z) (last : runtime) : runtime * res (option (list nat)) :=
  if (w_time w <=? timeout)%Z then
    match w_result w with
    | Ok rows => (Seconds (w_time w), Ok (Some rows))
    | Raise e => (last, Raise e)
    end
  else match w_interrupt w with
       | Some e => (last, Raise e)                    (* 151: promise.result() raises the exception of the worker *)
       | None => (Infinite, Ok None)
       end.
(** execute_query with a timeout (without cache), 119-122 *)
Definition execute_timeout (w : work) (timeout : Z) (last : runtime) : runtime * res (list nat) :=
  match execute_with_timeout w timeout last with
  | (t, Ok (Some rows)) => (t, Ok rows)
  | (t, Ok None) => (t, Raise TimeoutError)
  | (t, Raise e) => (t, Raise e)
  end.
(** time_query 161-163 *)
Definition time_query (w : work) (timeout : Z) (last : runtime) : res runtime :=
  match execute_timeout w timeout last with (t, Ok _) => Ok t | (_, Raise e) => Raise e end.
