(** Deleting rows from a Postgres database.
    postbound/postgres.py 4536-4996   WorkloadShifter
    postbound/db/_db.py 1013-1066     DatabaseSchema.primary_key_column
    postbound/db/_db.py 2085-2125, 2697-2719   DatabaseStatistics.total_rows, emulated

    The database is modelled by its tables with their rows, and the SQL statements by what they do: an unqualified table name is
    looked up in the schema public, an unqualified column name is looked up in the innermost query first, a comparison with NULL
    is not true, NULLs are the largest values unless NULLS FIRST/LAST is given, and a statement referring to a missing table or
    column fails.  Statements on a connection in a `with` block are rolled back if one of them fails.  Simplifications: values are
    natural numbers or NULL; no foreign keys with cascades; RANDOM() and TABLESAMPLE are arbitrary choices; the percentages are
    rational numbers; VACUUM changes no rows. *)
From Coq Require Import String List Bool Arith ZArith QArith Qround.
From Verif Require Import PyBase.
Import ListNotations.
Open Scope string_scope.
Open Scope list_scope.
Open Scope nat_scope.

Definition row := list (string * option nat).
Fixpoint get (r : row) (c : string) : option nat :=
  match r with [] => None | (d, v) :: r => if String.eqb d c then v else get r c end.
(** columns, columns of the primary key, rows, last value of the sequence of a serial column *)
Record table := mkT { t_cols : list string; t_pk : list string; t_rows : list row; t_seq : nat }.
(** (schema, name) -> table *)
Definition db := list ((string * string) * table).
Definition is_key (k : string * string) (e : (string * string) * table) : bool := String.eqb (fst k) (fst (fst e)) && String.eqb (snd k) (snd (fst e)).
Fixpoint find_table (d : db) (k : string * string) : option table :=
  match d with [] => None | e :: d => if is_key k e then Some (snd e) else find_table d k end.
Fixpoint set_table (d : db) (k : string * string) (t : table) : db :=
  match d with [] => [(k, t)] | e :: d => if is_key k e then (fst e, t) :: d else e :: set_table d k t end.

(** an unqualified name *)
Definition plain (n : string) : string * string := ("public", n).
Definition with_rows (t : table) (rs : list row) : table := mkT (t_cols t) (t_pk t) rs (t_seq t).
Definition has_col (t : table) (c : string) : bool := existsb (String.eqb c) (t_cols t).
Definition null_eqb (a b : option nat) : bool := match a, b with Some x, Some y => Nat.eqb x y | _, _ => false end.

(** primary_key_column, _db.py 1013-1066: the columns of the key in the current schema *)
Definition primary_key_column (d : db) (n : string) : res (option string) :=
  match find_table d (plain n) with
  | None => Ok None
  | Some t => match t_pk t with [] => Ok None | [c] => Ok (Some c) | _ => Raise ValueError end
  end.

(** round(), to the nearest integer and to the even one in the middle *)
Definition pyround (q : Q) : Z :=
  let f := Qfloor q in
  match Qcompare (q - inject_Z f) (1 # 2) with
  | Lt => f
  | Gt => (f + 1)%Z
  | Eq => if Z.even f then f else (f + 1)%Z
  end.

(** _determine_row_cnt 4944-4996 *)
Definition determine_row_cnt (d : db) (n : string) (n_rows : option Z) (row_pct : option Q) : res Z :=
  match n_rows, row_pct with
  | None, None | Some _, Some _ => Raise ValueError
  | Some k, None => if Z.ltb 0 k then Ok k else Raise ValueError
  | None, Some p =>
      match Qcompare 0 p, Qcompare p 1 with
      | Lt, Lt => match find_table d (plain n) with
                  | None => Raise OtherError
                  | Some t => Ok (pyround (p * inject_Z (Z.of_nat (List.length (t_rows t)))))
                  end
      | _, _ => Raise ValueError
      end
  end.

(** tables and columns as given by the user: a name, or a reference with a schema (empty for none) *)
Inductive tref := TName (n : string) | TRef (schema n : string).
(** the name in table.full_name, 4580 *)
Definition table_name (t : tref) : string := match t with TName n => n | TRef _ n => n end.
(** the parts of a text between its dots, or a column reference with or without table *)
Inductive cref := CText (parts : list string) | CBound (schema tab c : string) | CUnbound (c : string).

Section Ops.
  (** the rows ordered by RANDOM() *)
  Context (shuffle : list row -> list row).

  (** The column [c] in the subquery over delete_samples(sample_id, _pb_rand_val): the columns of the CTE hide those of the table.
      An integer is never equal to a random number. *)
  Definition sample_matches (c : string) (s : option nat) (r : row) : bool :=
    if String.eqb c "sample_id" then null_eqb s s
    else if String.eqb c "_pb_rand_val" then false
    else null_eqb s (get r c).

  (** remove_random 4550-4605 *)
  Definition remove_random (d : db) (tr : tref) (n_rows : option Z) (row_pct : option Q) : res db :=
    let n := table_name tr in
    rbind (determine_row_cnt d n n_rows row_pct) (fun cnt =>
    rbind (primary_key_column d n) (fun pk =>
    match pk with
    | None => Raise ValueError
    | Some c =>
        match find_table d (plain n) with
        | None => Raise OtherError
        | Some t =>
            let samples := map (fun r => get r c) (firstn (Z.to_nat cnt) (shuffle (t_rows t))) in
            Ok (set_table d (plain n) (with_rows t (filter (fun r => negb (existsb (fun s => sample_matches c s r) samples)) (t_rows t))))
        end
    end)).

  (** ORDER BY {order_col} {order_dir} {nulls}, {pk_col} ASC, 4671-4687 *)
  Definition null_leb (nulls_first : bool) (asc : bool) (a b : option nat) : bool :=
    match a, b with
    | None, None => true
    | None, Some _ => nulls_first
    | Some _, None => negb nulls_first
    | Some x, Some y => if asc then Nat.leb x y else Nat.leb y x
    end.
  Definition row_leb (c pk : string) (asc nulls_first : bool) (r r' : row) : bool :=
    let a := get r c in let b := get r' c in
    if null_leb nulls_first asc a b then
      if null_leb nulls_first asc b a then null_leb false true (get r pk) (get r' pk) else true
    else false.
  Fixpoint insert (le : row -> row -> bool) (r : row) (l : list row) : list row :=
    match l with [] => [r] | x :: l' => if le r x then r :: l else x :: insert le r l' end.
  Definition sort (le : row -> row -> bool) (l : list row) : list row := fold_right (insert le) [] l.

  (** remove_ordered 4607-4697 *)
  Definition remove_ordered (d : db) (cr : cref) (n_rows : option Z) (row_pct : option Q) (asc : bool) (nulls_first : option bool) : res db :=
    rbind (match cr with
           | CText [n; c] => Ok (n, c)
           | CText _ => Raise ValueError
           | CBound _ n c => Ok (n, c)
           | CUnbound _ => Raise StateError
           end) (fun nc =>
    let n := fst nc in let c := snd nc in
    rbind (determine_row_cnt d n n_rows row_pct) (fun cnt =>
    rbind (primary_key_column d n) (fun pk =>
    match pk with
    | None => Raise ValueError
    | Some k =>
        match find_table d (plain n) with
        | None => Raise OtherError
        | Some t =>
            if has_col t c then
              let nf := match nulls_first with Some b => b | None => negb asc end in
              let entries := map (fun r => get r k) (firstn (Z.to_nat cnt) (sort (row_leb c k asc nf) (t_rows t))) in
              Ok (set_table d (plain n) (with_rows t (filter (fun r => negb (existsb (fun s => null_eqb s (get r k)) entries)) (t_rows t))))
            else Raise OtherError
        end
    end))).
End Ops.

(** default names 4737-4744, 4785-4787, 4842-4849, 4911-4918; "None" is the text of a missing table name *)
Definition marker_table_name (target : option string) (marker : option string) : string :=
  match marker with Some m => m | None => match target with Some t => t ++ "_delete_marker" | None => "None_delete_marker" end end%string.
Definition marker_column_name (target : option string) (target_column : string) (marker : option string) : string :=
  match marker with Some m => m | None => match target with Some t => t ++ "_" ++ target_column | None => "None_" ++ target_column end end%string.

(** CREATE TABLE IF NOT EXISTS {marker_table} (marker_idx BIGSERIAL PRIMARY KEY, {marker_column} ...) *)
Definition create_marker (d : db) (m mc : string) : db :=
  match find_table d (plain m) with
  | Some _ => d
  | None => set_table d (plain m) (mkT ["marker_idx"; mc] ["marker_idx"] [] 0)
  end.
(** numbering by the sequence of marker_idx *)
Fixpoint number (mc : string) (k : nat) (vs : list (option nat)) : list row :=
  match vs with [] => [] | v :: vs => [("marker_idx", Some (S k)); (mc, v)] :: number mc (S k) vs end.

(** generate_marker_table 4699-4765; [sample pct] is TABLESAMPLE BERNOULLI (pct) *)
Definition generate_marker_table (sample : Z -> list row -> list row) (d : db) (target : string) (marker_pct : Q) (target_column : string) (marker_table marker_column : option string) : res db :=
  let m := marker_table_name (Some target) marker_table in
  let mc := marker_column_name (Some target) target_column marker_column in
  match find_table d (plain target) with
  | None => Raise OtherError
  | Some t =>
      if has_col t target_column then
        let d1 := create_marker d m mc in
        match find_table d1 (plain m) with
        | None => Raise OtherError
        | Some mt =>
            let d2 := set_table d1 (plain m) (with_rows mt []) in
            let pct := pyround (marker_pct * 100) in
            if negb (has_col mt mc) || Z.ltb pct 0 || Z.ltb 100 pct then Raise OtherError
            else match find_table d2 (plain target) with
                 | None => Raise OtherError
                 | Some t' => let vs := map (fun r => get r target_column) (sample pct (t_rows t')) in
                              Ok (set_table d2 (plain m) (mkT (t_cols mt) (t_pk mt) (number mc (t_seq mt) vs) (t_seq mt + List.length vs)))
                 end
        end
      else Raise OtherError
  end.

(** a CSV file with header: all columns of the table *)
Record csv := mkcsv { csv_header : list string; csv_rows : list (list (option nat)) }.

(** export_marker_table 4747-4790: the file *)
Definition export_marker_table (d : db) (target_table marker_table : option string) : res csv :=
  match target_table, marker_table with
  | None, None => Raise ValueError
  | _, _ => match find_table d (plain (marker_table_name target_table marker_table)) with
            | None => Raise OtherError
            | Some t => Ok (mkcsv (t_cols t) (map (fun r => map (get r) (t_cols t)) (t_rows t)))
            end
  end.

(** import_marker_table 4792-4875: COPY with HEADER ignores the names in the header; [column_type] tells whether the type is given *)
Definition truthy (s : option string) : bool := match s with Some s => negb (String.eqb s "") | None => false end.
Definition import_marker_table (d : db) (target_table marker_table : option string) (target_column : string) (marker_column : option string) (column_type : bool) (f : csv) : res db :=
  if negb (truthy target_table) && negb (truthy marker_table) then Raise ValueError else
  let m := marker_table_name target_table marker_table in
  let mc := marker_column_name target_table target_column marker_column in
  rbind (if column_type then Ok tt
         else match target_table with
              | None => Raise AssertionError
              | Some n => match find_table d (plain n) with
                          | None => Raise OtherError
                          | Some t => if has_col t target_column then Ok tt else Raise OtherError
                          end
              end) (fun _ =>
  let d1 := create_marker d m mc in
  match find_table d1 (plain m) with
  | None => Raise OtherError
  | Some mt =>
      if has_col mt "marker_idx" && has_col mt mc && forallb (fun l => Nat.eqb (List.length l) 2) (csv_rows f)
      then Ok (set_table d1 (plain m) (with_rows mt (map (fun l => [("marker_idx", nth 0 l None); (mc, nth 1 l None)]) (csv_rows f))))
      else Raise OtherError
  end).

(** remove_marked 4877-4923 *)
Definition remove_marked (d : db) (target : string) (target_column : string) (marker_table marker_column : option string) : res db :=
  let m := marker_table_name (Some target) marker_table in
  let mc := marker_column_name (Some target) target_column marker_column in
  match find_table d (plain target), find_table d (plain m) with
  | Some t, Some mt =>
      if has_col t target_column && has_col mt mc then
        Ok (set_table d (plain target) (with_rows t (filter (fun r => negb (existsb (fun s => null_eqb (get s mc) (get r target_column)) (t_rows mt))) (t_rows t))))
      else Raise OtherError
  | _, _ => Raise OtherError
  end.
