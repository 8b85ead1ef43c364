(** Independent description of similar texts, of the plans of DuckDB and of hint lines. *)
From Coq Require Import List Bool Arith ZArith String Ascii Permutation.
From Verif Require Import PyBase FSet Hint_model Card_model QPlan_model JT_model Lim_model PGHint_spec Duck_model.
Import ListNotations.
Open Scope list_scope.
Open Scope nat_scope.

(** ** Similarity: three consecutive characters of the text, in lower case and between two blanks *)
Definition padded (t : text) : text := " "%char :: " "%char :: map lower t ++ [" "%char; " "%char].
Definition has_gram (t : text) (g : gram) : Prop := exists l a b c r, g = (a, b, c) /\ padded t = l ++ [a; b; c] ++ r.
(** [n] of [d] grams of two texts are common to both. *)
Definition common (t u : text) (n d : nat) : Prop :=
  exists both all, NoDup both /\ NoDup all /\ (forall g, In g both <-> has_gram t g /\ has_gram u g) /\ (forall g, In g all <-> has_gram t g \/ has_gram u g)
  /\ n = List.length both /\ d = List.length all.
(** Text without white space. *)
Fixpoint solid (t : text) : text := match t with [] => [] | c :: r => if space c then solid r else c :: solid r end.
(** The text of the filter of a table, as Python writes it. *)
Definition filter_string (filt : nat -> option text) (t : nat) : text := match filt t with Some p => p | None => list_ascii_of_string "None" end.
(** [t] is more similar to the node than [u], by more than one percent. *)
Definition clearly_better (filt : nat -> option text) (d : rdata) (t u : nat) : Prop :=
  forall n m n' m', common (solid (r_filter d)) (solid (filter_string filt t)) n m -> common (solid (r_filter d)) (solid (filter_string filt u)) n' m' ->
  100 * (n' * m) < 99 * (n * m').

(** ** Plans *)
Definition wraps (r : raw) : Prop := r_name (rd r) = None \/ r_name (rd r) = Some 3 \/ r_name (rd r) = Some 4.
Definition is_seq_scan (d : rdata) : Prop := (r_name d = Some 1 \/ r_name d = Some 2) /\ r_kind d = Some 0.
Definition is_index_scan (d : rdata) : Prop := (r_name d = Some 1 \/ r_name d = Some 2) /\ r_kind d = Some 1.
(** The joins of DuckDB. *)
Definition is_duck_join (d : rdata) : Prop := exists n, r_name d = Some n /\ In n [0; 5; 6; 7].
Definition given_card (o : option Z) : card := match o with Some z => CVal z | None => CNan end.
(** All times of the operators of a plan. *)
Fixpoint times (p : raw) : list (option nat) :=
  match p with
  | Raw d ch => (match r_name d with None => [] | Some n => if (n =? 3) || (n =? 4) then [] else [r_time d] end) ++ flat_map times ch
  end.
Definition sums_to (l : list (option nat)) (o : option nat) : Prop :=
  match o with
  | Some k => exists ns, l = map Some ns /\ list_sum ns = k
  | None => In None l
  end.
(** A plan mirrors the output: one node for each operator, in the same order. *)
Inductive shows (own : rdata -> pdata -> Prop) : raw -> plan -> Prop :=
| shows_wrap r c p : wraps r -> rch r = [c] -> shows own c p -> shows own r p
| shows_node r d ks : ~ wraps r -> own (rd r) d -> sums_to (times r) (m_time (meas d)) -> Forall2 (shows own) (rch r) ks -> shows own r (Node d ks None).
(** Facts about single nodes. *)
Definition duck_states (fullname : nat -> nat) (qtabs : option (list nat)) (d : rdata) (p : pdata) : Prop :=
  r_name d = Some (ntype p) /\ (oper p = Some (PJoin 1) <-> r_name d = Some 0) /\ (oper p = Some (PScan 0) <-> is_seq_scan d) /\ (oper p = Some (PScan 1) <-> is_index_scan d)
  /\ (forall o, oper p = Some o -> In o [PJoin 1; PScan 0; PScan 1])
  /\ est p = given_card (r_est d) /\ m_card (meas p) = given_card (r_act d) /\ ftabs p = [] /\ ktabs p = []
  /\ (forall t, base p = Some t -> (is_seq_scan d \/ is_index_scan d) /\ exists tabs, qtabs = Some tabs /\ In t tabs /\ r_table d = Some (fullname t))
  /\ (forall tabs t, qtabs = Some tabs -> NoDup tabs -> is_seq_scan d \/ is_index_scan d -> In t tabs -> r_table d = Some (fullname t) ->
      (forall u, In u tabs -> fullname u = fullname t -> u = t) -> base p = Some t).

(** ** Hints *)
Open Scope string_scope.
Fixpoint order_text (name : nat -> string) (o : order) : string :=
  match o with OrdTab t => name t | OrdJoin a b => "(" ++ order_text name a ++ " " ++ order_text name b ++ ")" end.
Inductive duck_keyword : physop -> string -> Prop :=
| dk_seq : duck_keyword (PScan 0) "SeqScan" | dk_idx : duck_keyword (PScan 1) "IdxScan"
| dk_nlj : duck_keyword (PJoin 0) "NestLoop" | dk_hash : duck_keyword (PJoin 1) "HashJoin" | dk_merge : duck_keyword (PJoin 2) "MergeJoin".
Inductive duck_setting : physop -> string -> Prop :=
| ds_seq : duck_setting (PScan 0) "enable_seqscan" | ds_idx : duck_setting (PScan 1) "enable_indexscan"
| ds_nlj : duck_setting (PJoin 0) "enable_nestloop" | ds_hash : duck_setting (PJoin 1) "enable_hashjoin" | ds_merge : duck_setting (PJoin 2) "enable_mergejoin".
(** A set of tables, in any order. *)
Definition names_of (name : nat -> string) (tabs : list nat) (s : string) : Prop := exists ts, Permutation ts tabs /\ s = String.concat " " (map name ts).
(** Requests made by a join order, operators and parameters; each one is the set of lines that answer it. *)
Inductive request {A C V} (name : nat -> string) (card_text : C -> option string) (jo : option (jt nat A)) (ops : option poa) (pp : option (@pparams C V)) : (string -> Prop) -> Prop :=
| rq_order t o : jo = Some t -> 3 <= jt_len t -> order_of t = Some o -> request name card_text jo ops pp (fun l => l = "JoinOrder(" ++ order_text name o ++ ")")
| rq_scan p t a kw : ops = Some p -> In (t, a) (scans p) -> duck_keyword (PScan (sa_op a)) kw -> request name card_text jo ops pp (fun l => l = kw ++ "(" ++ name t ++ ")")
| rq_join p ts a kw : ops = Some p -> In (ts, a) (joins p) -> duck_keyword (PJoin (ja_op a)) kw ->
    request name card_text jo ops pp (fun l => exists s, names_of name ts s /\ l = kw ++ "(" ++ s ++ ")")
| rq_set p o b kw : ops = Some p -> In (o, b) (glob p) -> duck_setting o kw ->
    request name card_text jo ops pp (fun l => l = "Set(" ++ kw ++ " = " ++ (if b : bool then "'on'" else "'off'") ++ ")")
| rq_card p ts c n : pp = Some p -> In (ts, c) (pp_cards p) -> card_text c = Some n ->
    request name card_text jo ops pp (fun l => exists s, names_of name ts s /\ l = "Card(" ++ s ++ " #" ++ n ++ ")").
(** What DuckDB can be asked for. *)
Definition supported {C V} (ops : option poa) (pp : option (@pparams C V)) : Prop :=
  (forall p, ops = Some p ->
     (forall t a, In (t, a) (scans p) -> exists kw, duck_keyword (PScan (sa_op a)) kw) /\ (forall ts a, In (ts, a) (joins p) -> exists kw, duck_keyword (PJoin (ja_op a)) kw)
     /\ (forall o b, In (o, b) (glob p) -> exists kw, duck_setting o kw) /\ inters p = [])
  /\ (forall p, pp = Some p -> pp_workers p = []).
(** The statements before the query. *)
Definition starts_with (s t : string) : Prop := exists r, t = s ++ r.
