(** Model of the DuckDB backend: binding of scan nodes to tables, parsing of plans and generation of hints, postbound/duckdb.py 458-582 and
    658-919, util/stats.py 18-21 and 40-43.  Tables are numbers, [fullname] is TableReference.full_name and [filt] the text of
    SqlQuery.filters_for.  Numbers are exact.  Warnings and the conversion of the LIMIT clause are left out. *)
From Coq Require Import List Bool Arith ZArith String Ascii.
From Verif Require Import PyBase FSet Hint_model Card_model QPlan_model JT_model Lim_model PGHint_model.
Import ListNotations.
Open Scope list_scope.
Open Scope nat_scope.

(** ** Similarity of texts *)
Definition text : Type := list ascii.
(** str.lower for ASCII. *)
Definition lower (c : ascii) : ascii := let n := nat_of_ascii c in if (65 <=? n) && (n <=? 90) then ascii_of_nat (n + 32) else c.
(** White space of str.split for ASCII: blank, tab to carriage return, and 28-31. *)
Definition space (c : ascii) : bool := let n := nat_of_ascii c in (n =? 32) || ((9 <=? n) && (n <=? 13)) || ((28 <=? n) && (n <=? 31)).
Definition squeeze (t : text) : text := filter (fun c => negb (space c)) t.
(** trigrams, util/stats.py 40-43. *)
Definition gram : Type := ascii * ascii * ascii.
#[global] Instance EqD_gram : EqD gram.
Proof. intros a b. unfold EqD. repeat decide equality. Defined.
Definition blank : ascii := " "%char.
Fixpoint grams_of (t : text) : list gram :=
  match t with
  | a :: r => match r with b :: c :: _ => (a, b, c) :: grams_of r | _ => [] end
  | [] => []
  end.
Definition trigrams (t : text) : list gram := grams_of ([blank; blank] ++ map lower t ++ [blank; blank]).
(** jaccard 18-21 as numerator and denominator. *)
Definition jaccard (a b : list gram) : nat * nat :=
  (List.length (filter (fun g => mem g (dedup b)) (dedup a)), List.length (dedup (a ++ b))).
(** Comparison of such numbers. *)
Definition ratio_le (x y : nat * nat) : bool := fst x * snd y <=? fst y * snd x.
(** [sorted(…, reverse=True)] *)
Fixpoint insert_desc (x : nat * nat) (l : list (nat * nat)) : list (nat * nat) :=
  match l with [] => [x] | y :: r => if ratio_le y x then x :: l else y :: insert_desc x r end.
Definition sort_desc (l : list (nat * nat)) : list (nat * nat) := fold_right insert_desc [] l.
(** dicts.argmax, util/dicts.py 219-224: the first key with the maximum value. *)
Fixpoint argmax {K} (k : K) (v : nat * nat) (l : list (K * (nat * nat))) : K :=
  match l with [] => k | (k', v') :: r => if ratio_le v' v then argmax k v r else argmax k' v' r end.

(** ** Plans *)
(** A node of the JSON output: name (None is missing), "Type", "Table", "Filters", "Estimated Cardinality", "operator_cardinality" and
    "operator_timing".  Names: 0 HASH_JOIN, 1 "SEQ_SCAN", 2 "SEQ_SCAN ", 3 EXPLAIN, 4 EXPLAIN_ANALYZE, 5 NESTED_LOOP_JOIN, 6
    PIECEWISE_MERGE_JOIN, 7 CROSS_PRODUCT, others are unary operators.  Types: 0 "Sequential Scan", 1 "Index Scan". *)
Record rdata := mkr { r_name : option nat; r_kind : option nat; r_table : option nat; r_filter : text; r_est : option Z; r_act : option Z; r_time : option nat }.
Inductive raw := Raw (d : rdata) (ch : list raw).
Definition rd (r : raw) : rdata := let 'Raw d _ := r in d.
Definition rch (r : raw) : list raw := let 'Raw _ c := r in c.

Section Parse.
  (** The tables of the query in the order of iteration. *)
  Context (fullname : nat -> nat) (filt : nat -> option text) (qtabs : option (list nat)).
  Definition none_text : text := list_ascii_of_string "None".
  Definition filter_text (t : nat) : text := squeeze (match filt t with Some p => p | None => none_text end).
  (** _bind_node_to_table 458-505. *)
  Definition bind_node (tabs : list nat) (d : rdata) : res (option nat) :=
    match r_table d with
    | None => Ok None
    | Some rel =>
        match filter (fun t => fullname t =? rel) tabs with
        | [] => Ok None
        | [t] => Ok (Some t)
        | t0 :: rest =>
            let node := trigrams (squeeze (r_filter d)) in
            let score t := jaccard node (trigrams (filter_text t)) in
            match sort_desc (map score (t0 :: rest)) with
            | s0 :: s1 :: _ => if (99 * fst s0 * snd s1 <=? 100 * fst s1 * snd s0) then Ok None
                               else Ok (Some (argmax t0 (score t0) (map (fun t => (t, score t)) rest)))
            | _ => Raise IndexError
            end
        end
    end.
  (** Node types 539-554. *)
  Definition duck_oper (d : rdata) : option physop :=
    match r_name d with
    | Some 0 => Some (PJoin 1)
    | Some 1 | Some 2 => match r_kind d with Some 0 => Some (PScan 0) | Some 1 => Some (PScan 1) | _ => None end
    | _ => None
    end.
  Definition duck_base (d : rdata) : res (option nat) :=
    match duck_oper d, qtabs with Some (PScan _), Some tabs => bind_node tabs d | _, _ => Ok None end.
  (** NaN absorbs. *)
  Definition nadd (a b : option nat) : option nat := match a, b with Some x, Some y => Some (x + y) | _, _ => None end.
  Definition to_card (o : option Z) : card := match o with Some z => CVal z | None => CNan end.
  (** Missing names and EXPLAIN 525-536. *)
  Definition is_wrapper (d : rdata) : bool := match r_name d with None => true | Some n => (n =? 3) || (n =? 4) end.
  Section Each.
    Context (f : raw -> res plan).
    Fixpoint each (l : list raw) : res (list plan) :=
      match l with [] => Ok [] | c :: r => rbind (f c) (fun k => rbind (each r) (fun ks => Ok (k :: ks))) end.
  End Each.
  (** parse_duckdb_plan 508-582.  The type of a node with an operator is the name of the operator; nodes keep their number here. *)
  Fixpoint parse_plan (r : raw) : res plan :=
    match r with
    | Raw d ch =>
        if is_wrapper d then match ch with [c] => parse_plan c | _ => Raise AssertionError end
        else
          rbind (duck_base d) (fun base =>
          rbind (each parse_plan ch) (fun ks =>
          let total := nadd (r_time d) (fold_left (fun acc k => nadd acc (m_time (meas (data k)))) ks (Some 0)) in
          let n := match r_name d with Some n => n | None => 0 end in
          Ok (Node (mkpd n (duck_oper d) base [] [] 0 (to_card (r_est d)) None [] (mkmeas (to_card (r_act d)) total None None [])) ks None)))
    end.
End Parse.

(** ** Hints *)
Section Hints.
  Context {A C V : Type} (name : nat -> string) (iter : list nat -> list nat) (card_text : C -> option string) (set_name : nat -> string) (set_value : V -> string).
  Notation tree := (jt nat A).
  Open Scope string_scope.
  (** HintParts 658-731. *)
  Record parts := mkparts { settings : list string; hints : list string }.
  Definition no_parts : parts := mkparts [] [].
  Definition merge_with (a b : parts) : parts :=
    mkparts (settings a ++ filter (fun s => negb (existsb (String.eqb s) (settings a))) (settings b))%list
            (hints a ++ [""] ++ filter (fun h => negb (existsb (String.eqb h) (hints a))) (hints b))%list.
  Definition parts_bool (a : parts) : bool := match settings a, hints a with [], [] => false | _, _ => true end.
  (** _generate_join_order_hint 806-822; the recursion is that of PostgreSQL. *)
  Definition order_parts (t : tree) : res parts :=
    if (jt_len t <? 3)%nat then Ok no_parts else rmap (fun s => mkparts [] ["JoinOrder(" ++ s ++ ")"]) (walk name t).
  (** UnsupportedDatabaseFeatureError is [OtherError]. *)
  Definition feature (o : option string) : res string := match o with Some s => Ok s | None => Raise OtherError end.
  (** _generate_operator_hints 824-878. *)
  Definition scan_kw (op : nat) : option string := match op with 0 => Some "SeqScan" | 1 => Some "IdxScan" | _ => None end.
  Definition join_kw (op : nat) : option string := match op with 0 => Some "NestLoop" | 1 => Some "HashJoin" | 2 => Some "MergeJoin" | _ => None end.
  Definition setting_kw (o : physop) : option string :=
    match o with
    | PScan 0 => Some "enable_seqscan" | PScan 1 => Some "enable_indexscan"
    | PJoin 0 => Some "enable_nestloop" | PJoin 1 => Some "enable_hashjoin" | PJoin 2 => Some "enable_mergejoin"
    | _ => None
    end.
  Definition inter_hint (tabs : list nat) : string := String.concat " " (map name (iter tabs)).
  Definition poa_bool (p : poa) : bool := match glob p, joins p, scans p, inters p with [], [], [], [] => false | _, _, _, _ => true end.
  Definition op_parts (p : poa) : res parts :=
    if negb (poa_bool p) then Ok no_parts
    else
      rbind (rmapM (fun e => rmap (fun o => o ++ "(" ++ name (fst e) ++ ")") (feature (scan_kw (sa_op (snd e))))) (scans p)) (fun hs =>
      rbind (rmapM (fun e => rmap (fun o => o ++ "(" ++ inter_hint (fst e) ++ ")") (feature (join_kw (ja_op (snd e))))) (joins p)) (fun hj =>
      rbind (match inters p with [] => Ok tt | _ => Raise OtherError end) (fun _ =>
      rbind (rmapM (fun e => rmap (fun o => "Set(" ++ o ++ " = " ++ (if snd e : bool then "'on'" else "'off'") ++ ")") (feature (setting_kw (fst e)))) (glob p)) (fun hg =>
      Ok (mkparts [] (hs ++ hj ++ hg)%list))))).
  (** _generate_parameter_hints 880-903; PlanParameterization has no truth value of its own, it is always true. *)
  Definition param_parts (p : @pparams C V) : res parts :=
    let hc := flat_map (fun e => match card_text (snd e) with Some c => ["Card(" ++ inter_hint (fst e) ++ " #" ++ c ++ ")"] | None => [] end) (pp_cards p) in
    rbind (match pp_workers p with [] => Ok tt | _ => Raise OtherError end) (fun _ =>
    Ok (mkparts (map (fun e => set_name (fst e) ++ " = " ++ set_value (snd e) ++ ";") (pp_settings p)) hc)).
  (** generate_hints 738-787: the parts that the hint block is made of, if there is one.  [plan] are the join order, the operators and the
      parameters extracted from the plan. *)
  Definition generate_parts (plan : option (option tree * poa * @pparams C V)) (jo : option tree) (ops : option poa) (pp : option (@pparams C V)) : res (option parts) :=
    let partial := match jo, ops, pp with None, None, None => false | _, _, _ => true end in
    rbind (match plan with
           | Some _ => if partial then Raise ValueError else Ok tt
           | None => Ok tt
           end) (fun _ =>
    let '(jo, ops, pp) := match plan with Some (t, o, p) => (t, Some o, Some p) | None => (jo, ops, pp) end in
    rbind (match jo with Some t => order_parts t | None => Ok no_parts end) (fun h0 =>
    let h0 := if parts_bool h0 then h0 else no_parts in
    rbind (match ops with Some o => if poa_bool o then rmap (merge_with h0) (op_parts o) else Ok h0 | None => Ok h0 end) (fun h1 =>
    rbind (match pp with Some p => rmap (merge_with h1) (param_parts p) | None => Ok h1 end) (fun h2 =>
    Ok (if parts_bool h2 then Some h2 else None))))).
  (** _add_hint_block 905-915: the two parts of the Hint clause. *)
  Definition hint_block (p : parts) : string * string :=
    (String.concat nl (settings p), String.concat nl (["/*=quack_lab="] ++ map (fun h => ("  " ++ h)%string) (hints p) ++ [" */"])%list).
End Hints.

