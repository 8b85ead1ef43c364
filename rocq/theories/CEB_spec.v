(** Independent specification for the CEB workload generator (experiments/ceb.py). *)
From Coq Require Import String List Bool Arith Ascii DecimalString.
From Verif Require Import PyBase CEB_model.
Import ListNotations.

(** SQL string literals: quotes around the text, quotes inside doubled *)
Definition quote : ascii := "'"%char.
Fixpoint doubled (s : string) : string :=
  match s with
  | EmptyString => EmptyString
  | String c r => if Ascii.eqb c quote then String c (String c (doubled r)) else String c (doubled r)
  end.
Definition literal (s : string) : string := String quote (append (doubled s) (String quote EmptyString)).
Fixpoint has_char (c : ascii) (s : string) : Prop :=
  match s with EmptyString => False | String d r => c = d \/ has_char c r end.
(** the literal of a value in a predicate: text is quoted (with wildcards for LIKE), everything else is printed as it is *)
Definition scalar_literal (p : ptype) (textual : bool) (s : string) : string :=
  if textual then literal (match p with PLike | PILike => append "%" (append s "%") | _ => s end) else s.
(** the members of an IN list, separated by commas *)
Inductive commas : list string -> string -> Prop :=
| commas_nil : commas [] ""
| commas_one : forall s, commas [s] s
| commas_more : forall s t r u, commas (t :: r) u -> commas (s :: t :: r) (append s (append ", " u)).

(** [r] without its component [i] (all of [r] if there is no weight column) *)
Inductive payload : option nat -> list val -> list val -> Prop :=
| payload_all : forall r, payload None r r
| payload_weight : forall a w b, payload (Some (length a)) (a ++ w :: b) (a ++ b).

(** token-wise substitution: [f] gives the text of the placeholders that are replaced *)
Definition token_filled (f : nat -> option string) (x y : tok) : Prop :=
  match x with
  | TText _ => y = x
  | THole k => match f k with Some s => y = TText s | None => y = x end
  end.

(** templates as users build them: registering generators one by one, successfully *)
Inductive built : template -> Prop :=
| built_new : forall base label aliases, built (new_template base label aliases)
| built_register : forall t g t', built t -> register_generator t g = (Ok tt, t') -> built t'.

(** the value a generator has selected for one of its placeholders: the position of the placeholder counts (the last one,
    should a placeholder be listed twice) *)
Definition last_position (ks : list nat) (k i : nat) : Prop :=
  nth_error ks i = Some k /\ (forall j, i < j -> nth_error ks j <> Some k).
Definition selected (s : st) (g : gen) (k : nat) (v : val) : Prop :=
  exists vs i, dget (sel s) (g_name g) = Some vs /\ last_position (g_keys g) k i /\ nth_error vs i = Some v.

(** [q'] is the candidate query [q] of a generator with these dependencies, if the dependencies have the values of [s] *)
Inductive asks (sc : schema) (t : template) (s : st) : list nat -> list tok -> list tok -> Prop :=
| asks_nil : forall q, asks sc t s [] q q
| asks_cons : forall d r g f q q1 q2, In g (t_gens t) -> g_name g = d ->
    (forall k, In k (g_keys g) -> exists v x, selected s g k v /\ hole_text sc t k v = Ok x /\ f k = Some x) ->
    (forall k, ~ In k (g_keys g) -> f k = None) ->
    Forall2 (token_filled f) q q1 -> asks sc t s r q1 q2 -> asks sc t s (d :: r) q q2.
(** The value of [g] answers its candidate query; only weighted sampling knows weight columns *)
Definition weight_column (g : gen) : option nat := match g_samp g with Weighted => g_count g | _ => None end.
Definition answers (exec : list tok -> list (list val)) (sc : schema) (t : template) (s : st) (g : gen) : Prop :=
  forall q, g_tt g = TSql q -> exists deps q' r v, g_deps g = Some deps /\ asks sc t s deps q q' /\ In r (exec q') /\
    dget (sel s) (g_name g) = Some v /\ payload (weight_column g) r v.

(** workloads: decimal numbers, the queries of a template numbered from [i], all templates one after the other *)
Definition show (n : nat) : string := NilEmpty.string_of_uint (Nat.to_uint n).
(** the entries a template contributes: numbered from [i] *)
Fixpoint numbered (label : string) (i : nat) (qs : list string) : dict string string :=
  match qs with [] => [] | q :: r => (append label (append "-" (show i)), q) :: numbered label (S i) r end.
Definition parts (ts : list (string * (nat -> res string))) (qss : list (list string)) : dict string string :=
  flat_map (fun '(t, qs) => numbered (fst t) 1 qs) (combine ts qss).
