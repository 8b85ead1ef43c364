(** Model of the UES upper bounds: [UESBoundEstimator], postbound/opt/ues.py 670-806, and the maintenance of the column
    frequencies in [StatsContainer.trigger_frequency_update] 161-220 with [MaxFrequencyStats] 333-346.

    Tables are numbers, a column is a pair of its table and its own number.  [base_table_estimates] and [upper_bounds] hold
    cardinalities.  A frequency is a plain number or a cardinality ([_uniform_frequency] divides two cardinalities): an
    [operand].  [Cardinality(c)] of a cardinality [c] wraps it once more, which changes no result of the arithmetic and the
    comparisons used here; the model identifies both. *)
From Coq Require Import List Bool Arith ZArith Lia.
From Verif Require Import PyBase Card_model.
Import ListNotations.
Local Open Scope Z_scope.

Definition col : Type := nat * nat.
Record stats := { base_est : dict nat card; upper_bounds : dict nat card; freqs : dict col operand }.

Definition key {K V} `{EqD K} (d : dict K V) (k : K) : res V := match dget d k with Some v => Ok v | None => Raise KeyError end.

(** [x == 0] for a bound or a frequency, 770-772. *)
Definition is_zero (x : operand) : bool :=
  match x with
  | OCard c => match ceq c (ONum (NInt 0)) with Ok b => b | Raise _ => false end
  | ONum (NInt z) => z =? 0
  | ONum (NFlt f) => fzero f
  end.

(** [x * c] for a frequency [x] and a cardinality [c]: __mul__ or __rmul__. *)
Definition times (x : operand) (c : card) : res card :=
  match x with OCard d => cop Mul d (OCard c) | ONum n => crop Mul n c end.

(** _estimate_pk_fk_join, 723-744 ([math.ceil] of a cardinality is the cardinality itself, _core.py 199-201). *)
Definition estimate_pk_fk (st : stats) (fk pk : col) : res card :=
  rbind (key (base_est st) (fst pk)) (fun pk_card =>
  rbind (key (freqs st) fk) (fun f => times f pk_card)).

(** _fetch_bound, 783-806. *)
Definition fetch_bound (st : stats) (c : col) : res card :=
  match dget (upper_bounds st) (fst c) with Some b => Ok b | None => key (base_est st) (fst c) end.

(** _estimate_n_m_join, 746-781. *)
Definition estimate_n_m (st : stats) (c1 c2 : col) : res card :=
  rbind (fetch_bound st c1) (fun b1 =>
  rbind (fetch_bound st c2) (fun b2 =>
  rbind (key (freqs st) c1) (fun f1 =>
  rbind (key (freqs st) c2) (fun f2 =>
  if existsb is_zero [OCard b1; OCard b2; f1; f2] then Ok (CVal 0)
  else
    rbind (cop Div b1 f1) (fun d1 =>
    rbind (cop Div b2 f2) (fun d2 =>
    rbind (cop Mul (cmin d1 d2) f1) (fun x => cop Mul x f2))))))).

(** estimate_for, 696-713.  [preds]: the join partners of the base predicates of the join condition; [pkfk]: the
    [is_pk_fk_join] of the join graph (the first table holds the foreign key). *)
Fixpoint estimate_loop (pkfk : nat -> nat -> bool) (st : stats) (preds : list (col * col)) (cur : card) : res card :=
  match preds with
  | [] => Ok cur
  | (a, b) :: rest =>
      rbind (if pkfk (fst a) (fst b) then estimate_pk_fk st a b
             else if pkfk (fst b) (fst a) then estimate_pk_fk st b a
             else estimate_n_m st a b) (fun bound =>
      estimate_loop pkfk st rest (if clt bound (OCard cur) then bound else cur))
  end.
Definition estimate_for pkfk st preds : res card := estimate_loop pkfk st preds CInf.

(** * Frequency maintenance *)
(** The product of two frequencies. *)
Definition fmult (x y : operand) : res operand :=
  match x, y with
  | ONum (NInt a), ONum (NInt b) => Ok (ONum (NInt (a * b)))
  | ONum a, ONum b => rbind (nget a) (fun u => rbind (nget b) (fun v => Ok (ONum (NFlt (fmul u v)))))
  | OCard c, _ => rmap OCard (cop Mul c y)
  | ONum n, OCard c => rmap OCard (crop Mul n c)
  end.

(** _update_partner_column_frequency, 333-339: both old values are read first. *)
Definition update_partner (fr : dict col operand) (joined partner : col) : res (dict col operand) :=
  rbind (key fr joined) (fun jf => rbind (key fr partner) (fun pf =>
  rbind (fmult jf pf) (fun j' =>
  let fr := dset fr joined j' in
  rbind (key fr partner) (fun pf' => rbind (fmult pf' jf) (fun p' => Ok (dset fr partner p')))))).
(** _update_third_party_column_frequency, 341-346. *)
Definition update_third (fr : dict col operand) (joined third : col) : res (dict col operand) :=
  rbind (key fr third) (fun tf => rbind (key fr joined) (fun jf => rbind (fmult tf jf) (fun t' => Ok (dset fr third t')))).

Fixpoint foldR {A B} (f : A -> B -> res A) (l : list B) (a : A) : res A :=
  match l with [] => Ok a | x :: l => rbind (f a x) (foldR f l) end.

(** [x < y] of two frequencies. *)
Definition fin_lt (m e m' e' : Z) : bool := fnum m e * fden e' <? fnum m' e' * fden e.
Definition freq_lt (x y : operand) : bool :=
  match x, y with
  | OCard c, _ => clt c y
  | ONum n, OCard c => cgt c (ONum n)
  | ONum (NInt a), ONum (NInt b) => a <? b
  | ONum (NInt a), ONum (NFlt f) => zf_lt a f
  | ONum (NFlt f), ONum (NInt a) => zf_gt a f
  | ONum (NFlt (FFin m e)), ONum (NFlt (FFin m' e')) => fin_lt m e m' e'
  | ONum (NFlt (FInf a)), ONum (NFlt (FInf b)) => a && negb b
  | ONum (NFlt (FInf a)), ONum (NFlt (FFin _ _)) => a
  | ONum (NFlt (FFin _ _)), ONum (NFlt (FInf b)) => negb b
  | ONum (NFlt _), ONum (NFlt _) => false
  end.
(** util.argmin, util/dicts.py 211-216: the first key with a minimal value. *)
Fixpoint argmin_loop {K} (best : K * operand) (d : list (K * operand)) : K :=
  match d with
  | [] => fst best
  | kv :: rest => argmin_loop (if freq_lt (snd kv) (snd best) then kv else best) rest
  end.
Definition argmin {K} (d : list (K * operand)) : res K :=
  match d with [] => Raise ValueError | kv :: rest => Ok (argmin_loop kv rest) end.

(** The columns of [table] in a list of pairs, and all columns of the pairs that connect two tables of [ts]. *)
Definition columns_of (table : nat) (preds : list (col * col)) : list col :=
  dedup (filter (fun c => Nat.eqb (fst c) table) (flat_map (fun p => [fst p; snd p]) preds)).
(** 196-204.  [query_joins]: the join partners of all (binary) join predicates of the query.  The joins between a table and
    other tables of the intermediate are the predicates with both columns on different tables of it. *)
Definition third_party_columns (query_joins : list (col * col)) (partner_tables : list nat) : list col :=
  dedup (flat_map (fun p => if mem (fst (fst p)) partner_tables && mem (fst (snd p)) partner_tables
                            && negb (Nat.eqb (fst (fst p)) (fst (snd p))) then [fst p; snd p] else []) query_joins).

(** trigger_frequency_update, 161-220.  [tree_tables]: the tables of the join tree, including [joined]. *)
Definition trigger_frequency_update (query_joins : list (col * col)) (tree_tables : list nat) (joined : nat)
    (cond : list (col * col)) (fr : dict col operand) : res (dict col operand) :=
  let partner_tables := filter (fun t => negb (Nat.eqb t joined)) tree_tables in
  rbind (foldR (fun fr p => let '(a, b) := p in
                 if Nat.eqb (fst a) joined then update_partner fr a b else update_partner fr b a) cond fr) (fun fr1 =>
  rbind (rmapM (fun c => rmap (fun f => (c, f)) (key fr1 c)) (columns_of joined cond)) (fun joined_freqs =>
  rbind (argmin joined_freqs) (fun lowest =>
  foldR (fun fr c => update_third fr lowest c) (third_party_columns query_joins partner_tables) fr1))).
