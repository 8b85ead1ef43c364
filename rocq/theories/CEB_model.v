(** Model of experiments/ceb.py: predicate generators, query templates and the workload generator of the CEB framework.
    Simplifications:
    - a scalar placeholder value is represented by its Python [str] text ([VS]), a tuple value by [VT];
    - templates are token lists: literal text and holes [<<key>>]; inserted values are literal text (so a value that
      itself contains the text of a placeholder is not substituted a second time);
    - random numbers are an arbitrary stream [draws]; a weighted draw may select any candidate (weight zero included);
    - [SamplingError] (866-875, a RuntimeError) is [RuntimeError];
    - names of predicates and placeholders are numbers, the hash of a generator is its name (470-471). *)
From Coq Require Import String List Bool Arith Lia.
From Verif Require Import PyBase Num_model.
Import ListNotations.

Inductive val : Type := VS (s : string) | VT (l : list val).
Fixpoint val_eqb (a b : val) : bool :=
  match a, b with
  | VS x, VS y => String.eqb x y
  | VT l, VT m => (fix go (l m : list val) : bool :=
      match l, m with [], [] => true | x :: l', y :: m' => val_eqb x y && go l' m' | _, _ => false end) l m
  | _, _ => false
  end.
Section ValInd.
  Context (P : val -> Prop).
  Context (HS : forall s, P (VS s)) (HT : forall l, Forall P l -> P (VT l)).
  Fixpoint val_ind' (v : val) : P v :=
    match v with
    | VS s => HS s
    | VT l => HT l ((fix go (l : list val) : Forall P l :=
        match l with [] => Forall_nil _ | x :: r => Forall_cons _ (val_ind' x) (go r) end) l)
    end.
End ValInd.
Lemma val_eqb_eq : forall a b, val_eqb a b = true <-> a = b.
Proof.
  induction a as [s|l IH] using val_ind'; intros [t|m]; cbn; try (split; [discriminate|congruence]).
  - rewrite String.eqb_eq. split; congruence.
  - assert (H : (fix go (l m : list val) : bool :=
      match l, m with [], [] => true | x :: l', y :: m' => val_eqb x y && go l' m' | _, _ => false end) l m = true <-> l = m).
    { revert m. induction IH as [|x r Hx _ IHr]; intros [|y m]; try (split; [discriminate|congruence]).
      - split; reflexivity.
      - rewrite andb_true_iff, Hx, IHr. split; [intros [-> ->]; reflexivity|intros [= -> ->]; auto]. }
    rewrite H. split; congruence.
Qed.
Definition val_dec : forall a b : val, {a = b} + {a <> b}.
Proof.
  intros a b. destruct (val_eqb a b) eqn:E; [left; apply val_eqb_eq, E|right].
  intros ->. assert (val_eqb b b = true) by (apply val_eqb_eq; reflexivity). congruence.
Defined.
#[global] Instance str_EqD : EqD string := string_dec.
#[global] Instance val_EqD : EqD val := val_dec.

(** 21-60: predicate types, template types, sampling methods *)
Inductive ptype := PEq | PLike | PILike | PIn | POther.
#[global] Instance ptype_EqD : EqD ptype. Proof. red; decide equality. Defined.
Inductive sampling := Uniform | Weighted | OtherSampling.
(** a target column: table alias (if the name contains a dot) and column name *)
Definition colname : Type := (option string * string)%type.
Inductive tok := TText (s : string) | THole (k : nat).
Inductive ttype := TSql (sql : list tok) | TList (options : list (list val)).

(** The attributes of [PredicateGenerator] (81-198). [g_deps = None] is the default of the [dependencies] argument,
    [g_count] the zero-based index of the weight column (188-190). *)
Record gen := Gen { g_name : nat; g_keys : list nat; g_types : list ptype; g_cols : list colname; g_tt : ttype;
  g_samp : sampling; g_min : nat; g_max : option nat; g_count : option nat; g_deps : option (list nat); g_tries : option nat }.

(** 62-71 [_make_options_list]; a tuple option is a row, a scalar in a list of tuples is wrapped when it is drawn (309-312). *)
Definition as_row (v : val) : list val := match v with VT l => l | VS s => [VS s] end.
Definition make_options_list (options : list val) : res (list (list val)) :=
  match options with
  | [] => Raise ValueError
  | VT _ :: _ => Ok (map as_row options)
  | VS _ :: _ => Ok (map (fun v => [v]) options)
  end.
(** 74-78 [_remove_weight_col] *)
Fixpoint remove_nth {A} (i : nat) (l : list A) : list A :=
  match l, i with [], _ => [] | _ :: r, O => r | x :: r, S j => x :: remove_nth j r end.

(** 136-198 [PredicateGenerator.__init__]. [TSql []] is an empty SQL query; [_key_lookup] (168) keeps a key once, with its
    last index. *)
Definition make_gen (name : nat) (keys : list nat) (types : list ptype) (cols : list colname)
  (tt : list tok + list val) (samp : sampling) (mn : nat) (mx : option nat) (count : option nat)
  (deps : option (list nat)) (tries : option nat) : res gen :=
  if mem PIn types && (1 <? length keys) then Raise ValueError
  else if negb (Nat.eqb (length keys) (length cols) && Nat.eqb (length cols) (length types)) then Raise ValueError
  else match tt with
    | inl [] => Raise ValueError
    | inl sql => Ok (Gen name keys types cols (TSql sql) samp mn mx (option_map pred count) deps tries)
    | inr vs => rmap (fun rows => Gen name keys types cols (TList rows) samp mn mx (option_map pred count) deps tries)
                  (make_options_list vs)
    end.

(** 168 [_key_lookup]: position of a key; later duplicates win *)
Fixpoint key_index (ks : list nat) (k : nat) : option nat :=
  match ks with
  | [] => None
  | x :: r => match key_index r k with Some i => Some (S i) | None => if Nat.eqb x k then Some 0 else None end
  end.
(** 200-203 [placeholders]: the keys of [_key_lookup], in order of first appearance *)
Definition placeholders (g : gen) : list nat := dedup (g_keys g).

(** ** Drawing values *)
Section Draw.
Context (draws : nat -> nat).

Definition pick {A} (c : nat) (l : list A) : option A := nth_error l (c mod length l).
(** [random.randint] *)
Definition randint (c lo hi : nat) : res nat := if lo <=? hi then Ok (lo + c mod (hi - lo + 1)) else Raise ValueError.
(** [random.sample] and [rng.choice(..., replace=False)] *)
Fixpoint sample {A} (pos k : nat) (l : list A) : list A :=
  match k with
  | O => []
  | S k' => match l with
    | [] => []
    | _ => let i := draws pos mod length l in
           match nth_error l i with
           | Some x => x :: sample (S pos) k' (remove_nth i l)
           | None => []
           end
    end
  end.

(** 349-384 [_draw_scalar_value] *)
Definition draw_scalar (g : gen) (pos : nat) (cands : list (list val)) : res (list val) :=
  match g_samp g with
  | Uniform => match pick (draws pos) (dedup cands) with Some r => Ok r | None => Raise IndexError end
  | Weighted =>
    match g_count g with
    | Some i =>
      if forallb (fun r => i <? length r) cands then
        match pick (draws pos) cands with Some r => Ok (remove_nth i r) | None => Raise IndexError end
      else Raise IndexError
    | None => match pick (draws pos) cands with Some r => Ok r | None => Raise IndexError end
    end
  | OtherSampling => Raise ValueError
  end.

(** 386-442 [_draw_multi_values] *)
Definition max_values (g : gen) (n : nat) : nat := match g_max g with None => n | Some m => Nat.min m n end.
Definition col_of (i : nat) (r : list val) : res val := match nth_error r i with Some v => Ok v | None => Raise IndexError end.
Definition draw_multi (g : gen) (pos : nat) (cands : list (list val)) : res (list val) :=
  match cands with
  | [] => Raise IndexError
  | c0 :: _ =>
    if negb (Nat.eqb (length c0) 1)
       || (match g_count g with Some (S _) => negb (Nat.eqb (length c0) 2) | _ => false end)
    then Raise ValueError
    else match g_samp g with
    | Uniform =>
      let cs := dedup cands in
      rbind (randint (draws pos) (g_min g) (max_values g (length cs))) (fun n =>
      Ok [VT (map VT (sample (S pos) n cs))])
    | _ =>
      rbind (match g_count g with
             | Some i => rbind (rmapM (col_of i) cands) (fun _ => rmapM (col_of (if Nat.eqb i 1 then 0 else 1)) cands)
             | None => rmap dedup (rmapM (col_of 0) cands)
             end) (fun population =>
      rbind (randint (draws pos) (g_min g) (max_values g (length population))) (fun n =>
      Ok [VT (sample (S pos) n population)]))
    end
  end.
(** 304-313: an IN generator has exactly the predicate type list ["IN"] *)
Definition draw (g : gen) (pos : nat) (cands : list (list val)) : res (list val) :=
  if deqb (g_types g) [PIn] then draw_multi g pos cands else draw_scalar g pos cands.

(** 269-279 [predicate_for] / [column_for] *)
Definition predicate_for (g : gen) (k : nat) : res ptype :=
  match key_index (g_keys g) k with
  | None => Raise KeyError
  | Some i => match nth_error (g_types g) i with Some p => Ok p | None => Raise IndexError end
  end.
Definition column_for (g : gen) (k : nat) : res colname :=
  match key_index (g_keys g) k with
  | None => Raise KeyError
  | Some i => match nth_error (g_cols g) i with Some c => Ok c | None => Raise IndexError end
  end.
(** 444-456 [_value_passes_constraints]: [value] is the list of selected values (for an IN predicate it holds one tuple) *)
Definition passes (g : gen) (value : list val) (k : nat) : bool :=
  match predicate_for g k with
  | Ok PIn => (g_min g <=? length value) && (length value <=? match g_max g with Some m => m | None => length value end)
  | _ => true
  end.

(** ** Templates *)
(** 658: the textual data types *)
Definition is_text (dtype : string) : bool :=
  mem dtype ["text"%string; "varchar"%string; "char"%string; "character varying"%string].
Fixpoint join (sep : string) (l : list string) : string :=
  match l with [] => ""%string | [x] => x | x :: r => append x (append sep (join sep r)) end.
(** the text of a value in an f-string; the text of a tuple does not matter here *)
Definition vtext (v : val) : string := match v with VS s => s | VT _ => "(...)"%string end.
(** 646-663 [_escape_col_value] *)
Fixpoint escape (v : val) (p : ptype) (dtype : string) : res string :=
  match v with
  | VT l =>
    if deqb p PIn then
      rmap (fun ts => append "(" (append (join ", " ts) ")"))
        ((fix go (l : list val) : res (list string) :=
            match l with
            | [] => Ok []
            | x :: r => rbind (escape x PEq dtype) (fun t => rbind (go r) (fun ts => Ok (t :: ts)))
            end) l)
    else Raise AssertionError
  | VS s =>
    if is_text dtype then
      let s' := match p with PLike | PILike => append "'%" (append s "%'") | _ => s end in
      Ok (append "'" (append s' "'"))
    else Ok s
  end.

(** The schema: [lookup_column] and [datatype]. The template (486-526): base query, label, table aliases (alias to table,
    519-521), generators in registration order. [lookup] is [_generator_lookup]. *)
Record schema := Schema { s_lookup : string -> list string -> option string; s_dtype : string -> string -> option string }.
Definition found {A} (o : option A) : res A := match o with Some x => Ok x | None => Raise ValueError end.
Record template := Template { t_base : list tok; t_label : string; t_aliases : dict string string;
  t_gens : list gen; t_lookup : dict nat gen }.
Definition new_template (base : list tok) (label : string) (aliases : dict string (option string)) : template :=
  Template base label (map (fun '(a, t) => (a, match t with Some x => if String.eqb x "" then a else x | None => a end)) aliases)
    [] [].
Definition find_gen (t : template) (n : nat) : option gen := find (fun g => Nat.eqb (g_name g) n) (t_gens t).
(** 533-556 [register_generator]; the state is changed step by step, so a failing call leaves what it has done so far *)
Fixpoint register_keys (g : gen) (ks : list nat) (lk : dict nat gen) : res unit * dict nat gen :=
  match ks with
  | [] => (Ok tt, lk)
  | k :: r => match dget lk k with
              | Some _ => (Raise KeyError, lk)
              | None => register_keys g r (dset lk k g)
              end
  end.
Definition register_generator (t : template) (g : gen) : res unit * template :=
  match find_gen t (g_name g) with
  | Some _ => (Raise KeyError, t)
  | None =>
    let '(r, lk) := register_keys g (placeholders g) (t_lookup t) in
    (r, Template (t_base t) (t_label t) (t_aliases t) (t_gens t ++ [g]) lk)
  end.

(** 631-635: the loop unpacks the alias names themselves *)
Fixpoint tables_without_alias (aliases : list string) : res (list string) :=
  match aliases with
  | [] => Ok []
  | String a (String b EmptyString) :: r =>
    rmap (fun l => if Ascii.eqb a b then String a EmptyString :: l else l) (tables_without_alias r)
  | _ :: _ => Raise ValueError
  end.
(** 628-644 [_lookup_column]: the physical table and the column *)
Definition lookup_column (sc : schema) (t : template) (c : colname) : res (string * string) :=
  match fst c with
  | None => rbind (tables_without_alias (dkeys (t_aliases t))) (fun tabs =>
            rmap (fun tab => (tab, snd c)) (found (s_lookup sc (snd c) tabs)))
  | Some a => match dget (t_aliases t) a with Some tab => Ok (tab, snd c) | None => Raise KeyError end
  end.
(** 593-597: the text that replaces a placeholder *)
Definition hole_text (sc : schema) (t : template) (k : nat) (v : val) : res string :=
  match dget (t_lookup t) k with
  | None => Raise KeyError
  | Some g =>
    rbind (column_for g k) (fun c =>
    rbind (lookup_column sc t c) (fun '(tab, col) =>
    rbind (found (s_dtype sc tab col)) (fun dt =>
    rbind (predicate_for g k) (fun p => escape v p dt))))
  end.
Definition fill (k : nat) (s : string) (q : list tok) : list tok :=
  map (fun x => match x with THole j => if Nat.eqb j k then TText s else x | _ => x end) q.
(** 581-600 [substitute_placeholders] *)
Fixpoint substitute (sc : schema) (t : template) (q : list tok) (vs : list (nat * val)) : res (list tok) :=
  match vs with
  | [] => Ok q
  | (k, v) :: r => rbind (hole_text sc t k v) (fun s => substitute sc t (fill k s q) r)
  end.

(** ** Generators in a template. The state: the selected values of each generator and the position in the random stream. *)
Record st := St { sel : dict nat (list val); pos : nat }.
Context (exec : list tok -> list (list val)).
(** 258-267 [PredicateGenerator.selected_values] *)
Definition gen_values (s : st) (g : gen) : res (list (nat * val)) :=
  match dget (sel s) (g_name g) with
  | None | Some [] => Raise StateError
  | Some vs => rmapM (fun k => match key_index (g_keys g) k with
                               | None => Raise KeyError
                               | Some i => match nth_error vs i with Some v => Ok (k, v) | None => Raise IndexError end
                               end) (placeholders g)
  end.
Definition bindS {A B} (m : res A * st) (f : A -> st -> res B * st) : res B * st :=
  match m with (Ok a, s) => f a s | (Raise e, s) => (Raise e, s) end.

(** 334-342: the dependency loop. [choose] redraws a dependency. *)
Fixpoint dep_loop (choose : gen -> st -> res unit * st) (sc : schema) (t : template) (redraw : bool) (deps : list nat)
  (q : list tok) (s : st) : res (list tok) * st :=
  match deps with
  | [] => (Ok q, s)
  | d :: r =>
    match find_gen t d with
    | None => (Raise KeyError, s)
    | Some g =>
      bindS (if redraw then choose g s else (Ok tt, s)) (fun _ s1 =>
      match rbind (gen_values s1 g) (fun vs => substitute sc t q vs) with
      | Ok q' => dep_loop choose sc t redraw r q' s1
      | Raise e => (Raise e, s1)
      end)
    end
  end.
(** 281-347 [_next_predicate_value]; every draw advances the random stream *)
Definition next_value (choose : gen -> st -> res unit * st) (sc : schema) (t : template) (g : gen) (redraw : bool) (s : st)
  : res (list val) * st :=
  bindS (match g_tt g with
         | TList rows => (Ok rows, s)
         | TSql q =>
           match g_deps g with
           | None => (Raise TypeError, s)
           | Some deps =>
             bindS (dep_loop choose sc t redraw deps q s) (fun q' s1 =>
             match exec q' with [] => (Raise RuntimeError, s1) | rows => (Ok rows, s1) end)
           end
         end) (fun rows s1 => (draw g (pos s1) rows, St (sel s1) (pos s1 + 1 + length rows))).
(** 216-243: the loop of [choose_predicate_values] with [n] tries left *)
Fixpoint choose_loop (choose : gen -> st -> res unit * st) (sc : schema) (t : template) (g : gen) (n : nat) (redraw : bool)
  (s : st) : res unit * st :=
  match n with
  | O => (Raise RuntimeError, s)
  | S n' =>
    match next_value choose sc t g redraw s with
    | (Raise RuntimeError, s1) => choose_loop choose sc t g n' true s1
    | (Raise e, s1) => (Raise e, s1)
    | (Ok v, s1) =>
      if forallb (passes g v) (placeholders g) then
        match v with [] => (Raise RuntimeError, s1) | _ => (Ok tt, St (dset (sel s1) (g_name g) v) (pos s1)) end
      else choose_loop choose sc t g n' true s1
    end
  end.
(** 205-243 [choose_predicate_values]; recursion follows the dependencies *)
Fixpoint choose (fuel : nat) (sc : schema) (t : template) (g : gen) (s : st) : res unit * st :=
  match fuel with
  | O => (Raise OutOfFuel, s)
  | S f => choose_loop (choose f sc t) sc t g (match g_tries g with Some n => n | None => 10 end) false s
  end.

(** 602-621 [generate_raw_query] *)
Definition dep_graph (t : template) : res depgraph :=
  fold_left (fun acc g => rbind acc (fun dg =>
    match g_deps g with
    | None | Some [] => Ok (dg_add_task dg (g_name g) [])
    | Some ds => if forallb (fun d => match find_gen t d with Some _ => true | None => false end) ds
                 then Ok (dg_add_task dg (g_name g) ds) else Raise KeyError
    end)) (t_gens t) (Ok dg_empty).
Fixpoint choose_all (fuel : nat) (sc : schema) (t : template) (order : list nat) (s : st) : res unit * st :=
  match order with
  | [] => (Ok tt, s)
  | n :: r => match find_gen t n with
              | None => (Raise KeyError, s)
              | Some g => bindS (choose fuel sc t g s) (fun _ s1 => choose_all fuel sc t r s1)
              end
  end.
Fixpoint fill_all (sc : schema) (t : template) (gs : list gen) (q : list tok) (s : st) : res (list tok) :=
  match gs with
  | [] => Ok q
  | g :: r => rbind (gen_values s g) (fun vs => rbind (substitute sc t q vs) (fun q' => fill_all sc t r q' s))
  end.
Definition generate_raw_query (fuel : nat) (sc : schema) (t : template) (s : st) : res (list tok) * st :=
  match dep_graph t with
  | Raise e => (Raise e, s)
  | Ok dg =>
    match dg_iter fuel dg with
    | Raise e => (Raise e, s)
    | Ok order => bindS (choose_all fuel sc t order s) (fun _ s1 => (fill_all sc t (t_gens t) (t_base t) s1, s1))
    end
  end.
End Draw.

(** ** 721-796 [generate_raw_workload]. A template is its label and the (arbitrary) stream of raw queries it generates;
    the stream is indexed by the number of queries generated so far. [str] of a positive number: [show]. *)
Section Workload.
Context (show : nat -> string).
Definition query_label (label : string) (i : nat) : string := append label (append "-" (show i)).
(** 777-794: [count] queries generated, [tries] made, [left] iterations before the condition [num_tries <= max_tries] fails *)
Fixpoint template_loop (left : nat) (gq : nat -> res string) (label : string) (n max_tries count tries : nat)
  (seen : list string) (wl : dict string string) : res (list string * dict string string) :=
  if negb ((count <? n) && (tries <=? max_tries)) then Ok (seen, wl)
  else match left with
  | O => Raise OutOfFuel
  | S left' =>
    let tries' := S tries in
    rbind (gq tries') (fun q =>
    if mem q seen then
      if Nat.eqb tries' max_tries then Raise RuntimeError
      else template_loop left' gq label n max_tries count tries' seen wl
    else template_loop left' gq label n max_tries (S count) tries' (q :: seen) (dset wl (query_label label (S count)) q))
  end.
Definition workload_loop (templates : list (string * (nat -> res string))) (n max_tries : nat)
  : res (list string * dict string string) :=
  fold_left (fun acc '(label, gq) => rbind acc (fun '(seen, wl) =>
    template_loop (S (S max_tries)) gq label n max_tries 0 0 seen wl)) templates (Ok ([], [])).
Definition generate_raw_workload (templates : list (string * (nat -> res string))) (n : nat) : res (dict string string) :=
  rmap snd (workload_loop templates n (length templates * n * 10)).
End Workload.
