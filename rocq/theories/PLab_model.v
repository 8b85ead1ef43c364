(** Model of the hints of entire query plans for PostgreSQL: _extract_plan_join_order, _iter_plan_bfs and _generate_pglab_plan,
    postbound/postgres.py 2460-2538, and PostgresHintService.generate_hints 2588-2659.  Plans are those of QPlan_model, tables are numbers,
    [name] is TableReference.identifier and [iter] the order of a set of tables.  Warnings are left out. *)
From Coq Require Import List Bool Arith ZArith String.
From Verif Require Import PyBase Hint_model Card_model JT_model Lim_model PGHint_model QPlan_model.
Import ListNotations.
Open Scope string_scope.
Open Scope list_scope.
Open Scope nat_scope.

Section Lab.
  Context (name : nat -> string) (iter : list nat -> list nat).
  (** 2460-2470. *)
  Fixpoint plan_text (p : plan) : res string :=
    match p with
    | Node d ks s =>
        if op_scan d then match base d with Some t => Ok (name t) | None => Raise AssertionError end
        else match ks with
             | [c] => plan_text c
             | [a; b] => rbind (plan_text a) (fun o => rbind (plan_text b) (fun i => Ok ("(" ++ o ++ " " ++ i ++ ")")%string))
             | _ => Raise AssertionError
             end
    end.
  (** 2473-2478: there are as many steps as nodes. *)
  Fixpoint bfs_from (fuel : nat) (queue : list plan) : list plan :=
    match fuel, queue with
    | S f, n :: r => n :: bfs_from f (r ++ kids n)
    | _, _ => []
    end.
  Definition bfs (p : plan) : list plan := bfs_from (List.length (iternodes p)) [p].
  (** The lines of the hint block and their texts, 2484, 2486, 2499, 2529 with 2517, 2533. *)
  Inductive line := LMode | LOrder (order : string) | LResult (w : nat) | LOp (op : string) (tabs : list nat) (w : option nat) | LCard (tabs : list nat) (c : Z).
  Definition line_text (l : line) : string :=
    match l with
    | LMode => "Config(plan_mode=full)"
    | LOrder o => "JoinOrder(" ++ o ++ ")"
    | LResult w => "Result(workers=" ++ num (Z.of_nat w) ++ ")"
    | LOp op tabs w => op ++ "(" ++ inter_text name iter tabs ++ match w with Some n => " (workers=" ++ num (Z.of_nat n) ++ ")" | None => "" end ++ ")"
    | LCard tabs c => "Card(" ++ inter_text name iter tabs ++ " #" ++ num c ++ ")"
    end%string.
  (** The local variables of 2488-2533. *)
  Record pstate := mkps { used : bool; upper : bool; par : option nat; out : list line }.
  (** [node.actual_cardinality or node.estimated_cardinality] 2531. *)
  Definition card_of (d : pdata) : card := if is_valid (m_card (meas d)) then m_card (meas d) else est d.
  Definition pl_step (s : pstate) (n : plan) : pstate :=
    let d := data n in
    let up := upper s && negb (op_scan d || op_join d) in
    let pw := if 0 <? pworkers d then Some (pworkers d) else par s in
    let '(pw, us, ou) := match pw with
                         | Some w => if up && negb (used s) then (None, true, out s ++ [LResult w]) else (pw, used s, out s)
                         | None => (pw, used s, out s)
                         end in
    match oper d with
    | None => mkps us up pw ou
    | Some o =>
        match lab_op o with
        | None => mkps us up pw ou
        | Some kw =>
            let '(meta, pw, us) := match pw with Some w => if negb us then (Some w, None, true) else (None, pw, us) | None => (None, pw, us) end in
            mkps us up pw (ou ++ LOp kw (tables n) meta :: match card_of d with CVal z => [LCard (tables n) z] | _ => [] end)
        end
    end.
  (** 2481-2538. *)
  Definition plan_lines (p : plan) : res (list line) :=
    rmap (fun o => LMode :: LOrder o :: out (fold_left pl_step (bfs p) (mkps false true None []))) (plan_text p).
  Definition pglab_plan (p : plan) : res string := rmap (fun ls => block "/*=pg_lab=" "  " (map line_text ls)) (plan_lines p).
End Lab.

(** generate_hints 2597-2656: the text of the hint.  A backend is set by 2591-2593; [parts] are jointree_from_plan, operators_from_plan and
    parameters_from_plan of 2633-2640. *)
Section Service.
  Context {T P : Type} (hintplan pglab : option T -> option poa -> option P -> res string) (parts : plan -> res (T * poa * P)) (labplan : plan -> res string).
  Definition pg_generate (backend : string) (p : option plan) (jo : option T) (ops : option poa) (pp : option P) : res string :=
    let has := match jo, ops, pp with None, None, None => false | _, _, _ => true end in
    if String.eqb backend "none" then Raise ValueError
    else if match p with Some _ => has | None => false end then Raise ValueError
    else if String.eqb backend "pg_hint_plan" then
      match p with
      | Some q => rbind (parts q) (fun r => let '(t, o, x) := r in hintplan (Some t) (Some o) (Some x))
      | None => hintplan jo ops pp
      end
    else if String.eqb backend "pg_lab" then match p with Some q => labplan q | None => pglab jo ops pp end
    else Raise UnboundLocalError.
End Service.
