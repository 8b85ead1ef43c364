(* C17: LIMIT clauses keep their meaning when they are printed. *)
From Coq Require Import List ZArith String Ascii Bool DecimalString Decimal DecimalZ DecimalFacts Lia.
From Verif Require Import PyBase Ident_model Lim_model Lim_spec.
Import ListNotations.
Open Scope string_scope.

(* ---- numbers and words ---- *)

Lemma number_num z : number (num z) = Some z.
Proof.
  unfold number, num. rewrite NilZero.isi.
  - cbn [option_map]. now rewrite of_to.
  - destruct z as [|p|p]; cbn; try discriminate. intros H. injection H as H. destruct (DecimalPos.Unsigned.to_uint_nonnil p H).
  - destruct z as [|p|p]; cbn; try discriminate. intros H. injection H as H. destruct (DecimalPos.Unsigned.to_uint_nonnil p H).
Qed.

Fixpoint solid (s : string) : bool :=
  match s with EmptyString => true | String c s' => negb (is_space c) && solid s' end.

Lemma append_assoc a b c : (a ++ b) ++ c = a ++ (b ++ c).
Proof. induction a as [|x a IH]; [reflexivity|]. cbn. now rewrite IH. Qed.
Lemma append_nil a : a ++ "" = a.
Proof. induction a as [|x a IH]; [reflexivity|]. cbn. now rewrite IH. Qed.

Lemma words_solid s : forall w rest, solid s = true -> words_from w (s ++ rest) = words_from (w ++ s) rest.
Proof.
  induction s as [|c s IH]; intros w rest H.
  - now rewrite append_nil.
  - cbn [solid] in H. apply andb_true_iff in H. destruct H as [Hc Hs]. cbn [append words_from].
    apply negb_true_iff in Hc. rewrite Hc, IH by exact Hs. now rewrite append_assoc.
Qed.

Lemma words_sp w s c : is_space c = true -> words_from w (String c s) = push w (words_from "" s).
Proof. intros H. cbn [words_from]. now rewrite H. Qed.

(* a non-empty word *)
Definition word (w : string) : Prop := solid w = true /\ w <> "".

Lemma push_word w ws : word w -> push w ws = w :: ws.
Proof. intros [_ H]. unfold push. destruct (String.eqb_spec w ""); [congruence|reflexivity]. Qed.

Lemma words_cons w c s : word w -> is_space c = true -> words (w ++ String c s) = w :: words s.
Proof.
  intros Hw Hc. unfold words. rewrite words_solid by apply Hw. cbn [append]. rewrite words_sp by exact Hc.
  now apply push_word.
Qed.
Lemma words_last w : word w -> words w = [w].
Proof.
  intros Hw. unfold words. rewrite <- (append_nil w) at 1. rewrite words_solid by apply Hw. cbn [append words_from].
  now apply push_word.
Qed.

Lemma uint_solid u : solid (NilEmpty.string_of_uint u) = true.
Proof. induction u; cbn; auto. Qed.

Lemma num_word z : word (num z).
Proof.
  unfold num, word. assert (HU : forall u, solid (NilZero.string_of_uint u) = true /\ NilZero.string_of_uint u <> "").
  { intros u. unfold NilZero.string_of_uint. destruct u; cbn; (split; [try reflexivity; try apply uint_solid|discriminate]). }
  unfold NilZero.string_of_int. destruct (Z.to_int z) as [u|u].
  - apply HU.
  - split; [cbn; apply HU|discriminate].
Qed.

Lemma upper_word d : word (upper d).
Proof. destruct d; split; now cbn. Qed.

Ltac wd := first [reflexivity | apply num_word | apply upper_word | split; [reflexivity|discriminate]].

(* splitting a printed text into words *)
Lemma words_offset o : words ("OFFSET " ++ num o ++ " ROWS") = ["OFFSET"; num o; "ROWS"].
Proof.
  change ("OFFSET " ++ num o ++ " ROWS") with ("OFFSET" ++ String " " (num o ++ " ROWS")).
  rewrite words_cons by wd. rewrite (words_cons (num o) " " "ROWS") by wd. reflexivity.
Qed.
Lemma words_fetch_sp d n s : words ("FETCH " ++ upper d ++ " " ++ num n ++ " ROWS ONLY" ++ s)
  = "FETCH" :: upper d :: num n :: "ROWS" :: words ("ONLY" ++ s).
Proof.
  change ("FETCH " ++ upper d ++ " " ++ num n ++ " ROWS ONLY" ++ s) with ("FETCH" ++ String " " (upper d ++ String " " (num n ++ String " " ("ROWS" ++ String " " ("ONLY" ++ s))))).
  rewrite !words_cons by wd. reflexivity.
Qed.
Lemma words_fetch d n : words ("FETCH " ++ upper d ++ " " ++ num n ++ " ROWS ONLY") = ["FETCH"; upper d; num n; "ROWS"; "ONLY"].
Proof. exact (words_fetch_sp d n ""). Qed.
Lemma words_offset_sp o s : words (("OFFSET " ++ num o ++ " ROWS") ++ " " ++ s) = "OFFSET" :: num o :: "ROWS" :: words s.
Proof.
  rewrite !append_assoc.
  change ("OFFSET " ++ num o ++ " ROWS" ++ " " ++ s) with ("OFFSET" ++ String " " (num o ++ String " " ("ROWS" ++ String " " s))).
  rewrite !words_cons by wd. reflexivity.
Qed.

(* evaluating a list of words *)
Ltac ev Hf := repeat progress (cbn [List.app std_clause std_item pg_clause pg_item option_map eval onum String.concat]; rewrite ?Hf, ?number_num).

(* ---- Limit.__str__ ---- *)

Definition forward (d : direction) : Prop := d = First \/ d = Next.

Lemma fetch_word_forward d : forward d -> fetch_word (upper d) = true.
Proof. intros [-> | ->]; reflexivity. Qed.

Lemma limit_str_words l :
  words (limit_str l) =
  ((match l_offset l with Some o => ["OFFSET"; num o; "ROWS"] | None => [] end)
   ++ (match l_limit l with Some n => ["FETCH"; upper (l_dir l); num n; "ROWS"; "ONLY"] | None => [] end))%list.
Proof.
  unfold limit_str. destruct (l_offset l) as [o|], (l_limit l) as [n|].
  - change (negb ("OFFSET " ++ num o ++ " ROWS" =? "")) with true.
    change (negb ("FETCH " ++ upper (l_dir l) ++ " " ++ num n ++ " ROWS ONLY" =? "")) with true.
    cbn [andb]. rewrite words_offset_sp, words_fetch. reflexivity.
  - change (negb ("OFFSET " ++ num o ++ " ROWS" =? "")) with true. cbn [andb String.eqb negb].
    rewrite words_offset. reflexivity.
  - change (negb ("FETCH " ++ upper (l_dir l) ++ " " ++ num n ++ " ROWS ONLY" =? "")) with true. cbn [andb String.eqb negb].
    rewrite words_fetch. reflexivity.
  - reflexivity.
Qed.

(* The generic text of a clause has the meaning of the clause in standard SQL
   and in PostgreSQL, for all numbers including 0 and negative ones. *)
Theorem C17_generic_text : forall (A : Type) lim off d l (rows : list A),
  limit_init lim off d = Ok l -> forward d ->
  run_std (limit_str l) rows = window lim off rows /\ run_pg (limit_str l) rows = window lim off rows.
Proof.
  intros A lim off d l rows Hi Hd. unfold limit_init in Hi.
  assert (E : l = mkLimit lim off d) by (destruct lim, off; congruence). subst l. clear Hi.
  unfold run_std, run_pg. rewrite limit_str_words. cbn [l_limit l_offset l_dir].
  assert (Hf := fetch_word_forward d Hd).
  destruct off as [o|], lim as [n|]; ev Hf; split; reflexivity.
Qed.
Print Assumptions C17_generic_text.

Example C17_generic_ex :
  limit_str (mkLimit (Some 0%Z) (Some 12%Z) Next) = "OFFSET 12 ROWS FETCH NEXT 0 ROWS ONLY"
  /\ run_std (limit_str (mkLimit (Some 2%Z) (Some 1%Z) First)) [10; 20; 30; 40] = Some [20; 30].
Proof. now split. Qed.

(* ---- the formatted text ---- *)

Lemma truthy_some z : truthy z = true -> exists n, z = Some n /\ n <> 0%Z.
Proof.
  destruct z as [n|]; cbn; [|discriminate]. intros H. exists n. split; [reflexivity|].
  intros ->. discriminate.
Qed.
Lemma truthy_not z : truthy z = false -> z = None \/ z = Some 0%Z.
Proof.
  destruct z as [n|]; cbn; [|now left]. intros H. right. apply negb_false_iff in H. apply Z.eqb_eq in H. now subst.
Qed.

Lemma skip_falsy {A} off (rows : list A) : truthy off = false -> skip off rows = Some rows.
Proof. intros H. destruct (truthy_not off H) as [-> | ->]; reflexivity. Qed.

(* what the printed numbers mean if a LIMIT of 0 is left out *)
Definition printed (lim : option Z) : option Z := if truthy lim then lim else None.

Lemma window_printed {A} lim off (rows : list A) : lim <> Some 0%Z ->
  window (printed lim) (printed off) rows = window lim off rows.
Proof.
  intros H. unfold printed.
  assert (E1 : (if truthy lim then lim else None) = lim).
  { destruct lim as [n|]; [|reflexivity]. cbn. destruct (Z.eqb_spec n 0) as [->|]; [congruence|reflexivity]. }
  rewrite E1. unfold window. destruct (truthy off) eqn:E; [reflexivity|]. now rewrite (skip_falsy off rows E).
Qed.

Lemma words_limit_nl n o : words ("LIMIT " ++ num n ++ newline ++ "OFFSET " ++ num o) = ["LIMIT"; num n; "OFFSET"; num o].
Proof.
  change ("LIMIT " ++ num n ++ newline ++ "OFFSET " ++ num o) with ("LIMIT" ++ String " " (num n ++ String (ascii_of_nat 10) ("OFFSET" ++ String " " (num o)))).
  rewrite !words_cons by wd. rewrite words_last by wd. reflexivity.
Qed.
Lemma words_limit_sp n o : words ("LIMIT " ++ num n ++ " OFFSET " ++ num o) = ["LIMIT"; num n; "OFFSET"; num o].
Proof.
  change ("LIMIT " ++ num n ++ " OFFSET " ++ num o) with ("LIMIT" ++ String " " (num n ++ String " " ("OFFSET" ++ String " " (num o)))).
  rewrite !words_cons by wd. rewrite words_last by wd. reflexivity.
Qed.
Lemma words_limit n : words ("LIMIT " ++ num n) = ["LIMIT"; num n].
Proof. change ("LIMIT " ++ num n) with ("LIMIT" ++ String " " (num n)). rewrite words_cons by wd. now rewrite words_last by wd. Qed.
Lemma words_off n : words ("OFFSET " ++ num n) = ["OFFSET"; num n].
Proof. change ("OFFSET " ++ num n) with ("OFFSET" ++ String " " (num n)). rewrite words_cons by wd. now rewrite words_last by wd. Qed.

(* number texts are not keywords *)
Lemma pg_item_offset n rest : rest = [] \/ (exists k r, rest = k :: r /\ k <> "ROWS") ->
  pg_item ("OFFSET" :: num n :: rest) = Some (IOffset n, rest).
Proof.
  intros H. destruct H as [-> | (k & r & -> & Hk)].
  - cbn [pg_item]. now rewrite number_num.
  - assert (E : pg_item ("OFFSET" :: num n :: k :: r) = option_map (fun z => (IOffset z, k :: r)) (number (num n))).
    { cbn [pg_item]. destruct k as [|[b0 b1 b2 b3 b4 b5 b6 b7] k]; [reflexivity|].
      repeat (try reflexivity; try (exfalso; apply Hk; reflexivity);
        match goal with
        | |- context [match ?x with true => _ | false => _ end] => is_var x; destruct x
        | |- context [match ?x with EmptyString => _ | String _ _ => _ end] => is_var x; destruct x as [|[? ? ? ? ? ? ? ?] ?]
        end). }
    rewrite E, number_num. reflexivity.
Qed.

Lemma pg_numbers lim off : 
  pg_clause ((if truthy lim then ["LIMIT"; onum lim] else []) ++ (if truthy off then ["OFFSET"; onum off] else []))%list
  = Some (printed lim, printed off).
Proof.
  unfold printed.
  destruct (truthy lim) eqn:E1; [apply truthy_some in E1; destruct E1 as (n & -> & _)|];
  (destruct (truthy off) eqn:E2; [apply truthy_some in E2; destruct E2 as (o & -> & _)|]); cbn [onum List.app].
  - cbn [pg_clause]. change (pg_item ["LIMIT"; num n; "OFFSET"; num o]) with (option_map (fun z => (ILimit z, ["OFFSET"; num o])) (number (num n))).
    rewrite number_num. cbn [option_map]. rewrite pg_item_offset by now left. reflexivity.
  - cbn [pg_clause]. change (pg_item ["LIMIT"; num n]) with (option_map (fun z => (ILimit z, @nil string)) (number (num n))).
    rewrite number_num. reflexivity.
  - unfold pg_clause. rewrite pg_item_offset by now left. reflexivity.
  - reflexivity.
Qed.

Lemma quick_pg_words l : forward (l_dir l) ->
  words (quick_text l Postgres) =
  ((if truthy (l_limit l) then ["LIMIT"; onum (l_limit l)] else []) ++ (if truthy (l_offset l) then ["OFFSET"; onum (l_offset l)] else []))%list.
Proof.
  intros Hd. unfold quick_text, quick_format.
  assert (E : forall (X Y : list string), match l_dir l with First | Next => X | _ => Y end = X) by (intros; destruct Hd as [-> | ->]; reflexivity).
  rewrite E.
  destruct (truthy (l_limit l)) eqn:E1; [apply truthy_some in E1; destruct E1 as (n & -> & _)|];
  (destruct (truthy (l_offset l)) eqn:E2; [apply truthy_some in E2; destruct E2 as (o & -> & _)|]); cbn [onum List.app andb String.concat].
  - rewrite append_assoc. apply words_limit_nl.
  - apply words_limit.
  - apply words_off.
  - reflexivity.
Qed.

(* PostgreSQL formatting: the text means the clause exactly if the limit is
   not 0. *)
Theorem C17_postgres_format_partial : forall lim off d l,
  limit_init lim off d = Ok l -> forward d ->
  (lim <> Some 0%Z <-> forall (rows : list nat), run_pg (quick_text l Postgres) rows = window lim off rows)
  \/ (exists o, off = Some o /\ (o < 0)%Z).
Proof.
  intros lim off d l Hi Hd. unfold limit_init in Hi.
  assert (E : l = mkLimit lim off d) by (destruct lim, off; congruence). subst l. clear Hi.
  destruct (match off with Some o => (o <? 0)%Z | None => false end) eqn:En.
  { right. destruct off as [o|]; [|discriminate]. exists o. split; [reflexivity|]. now apply Z.ltb_lt. }
  left. split.
  - intros H rows. unfold run_pg. rewrite quick_pg_words by exact Hd. cbn [l_limit l_offset].
    rewrite pg_numbers. cbn [eval]. now apply window_printed.
  - intros H ->. assert (Hr := H (repeat 0 (S (match off with Some o => Z.to_nat o | None => 0 end)))).
    unfold run_pg in Hr. rewrite quick_pg_words in Hr by exact Hd. cbn [l_limit l_offset] in Hr.
    rewrite pg_numbers in Hr. cbn [eval] in Hr.
    unfold printed in Hr. cbn [truthy Z.eqb negb] in Hr. unfold window in Hr.
    destruct off as [o|].
    + assert (E : skip (if truthy (Some o) then Some o else None) (repeat 0 (S (Z.to_nat o))) = skip (Some o) (repeat 0 (S (Z.to_nat o)))).
      { destruct (truthy (Some o)) eqn:E; [reflexivity|]. now rewrite (skip_falsy (Some o) _ E). }
      rewrite E in Hr. cbn [skip] in Hr. rewrite En in Hr. cbn in Hr.
      assert (E' : Datatypes.length (skipn (Z.to_nat o) (repeat 0 (S (Z.to_nat o)))) = 1%nat) by (rewrite skipn_length, repeat_length; lia).
      cbn [repeat] in E'. destruct (skipn (Z.to_nat o) (0 :: repeat 0 (Z.to_nat o))); [discriminate|]. discriminate.
    + cbn in Hr. discriminate.
Qed.
Print Assumptions C17_postgres_format_partial.

(* Restricted to valid numbers it is simply: everything but LIMIT 0. *)
Theorem C17_postgres_text_partial : forall (A : Type) lim off d l (rows : list A),
  limit_init lim off d = Ok l -> forward d -> lim <> Some 0%Z ->
  run_pg (quick_text l Postgres) rows = window lim off rows.
Proof.
  intros A lim off d l rows Hi Hd H. unfold limit_init in Hi.
  assert (E : l = mkLimit lim off d) by (destruct lim, off; congruence). subst l. clear Hi.
  unfold run_pg. rewrite quick_pg_words by exact Hd. cbn [l_limit l_offset].
  rewrite pg_numbers. cbn [eval]. now apply window_printed.
Qed.
Print Assumptions C17_postgres_text_partial.

Example C17_postgres_ex :
  quick_text (mkLimit (Some 5%Z) (Some 10%Z) First) Postgres = "LIMIT 5" ++ newline ++ "OFFSET 10"
  /\ run_pg (quick_text (mkLimit (Some 2%Z) (Some 1%Z) Next) Postgres) [10; 20; 30; 40] = Some [20; 30].
Proof. now split. Qed.

(* LIMIT 0 disappears: all rows are returned instead of none. *)
Theorem C17_zero_limit_lost_refuted : forall d f, forward d -> f = Postgres \/ f = Vanilla ->
  exists l, limit_init (Some 0%Z) None d = Ok l
  /\ quick_text l f = "" /\ pg_str (mkLimit (Some 0%Z) None First) = ""
  /\ forall rows : list nat, run_pg (quick_text l f) rows = Some rows /\ window (Some 0%Z) None rows = Some [].
Proof.
  intros d f [-> | ->] [-> | ->]; eexists; repeat split.
Qed.
Print Assumptions C17_zero_limit_lost_refuted.

(* ---- PostgresLimitClause ---- *)

Theorem C17_postgres_clause_partial : forall (A : Type) lim off d l (rows : list A),
  limit_init lim off d = Ok l -> forward d -> (d = First -> lim <> Some 0%Z) ->
  run_pg (pg_str l) rows = window lim off rows.
Proof.
  intros A lim off d l rows Hi Hd H.
  destruct Hd as [-> | ->].
  - unfold limit_init in Hi.
    assert (E : l = mkLimit lim off First) by (destruct lim, off; congruence). subst l. clear Hi.
    rewrite <- (window_printed lim off rows (H eq_refl)).
    change (window (printed lim) (printed off) rows) with (eval (Some (printed lim, printed off)) rows).
    rewrite <- pg_numbers. unfold run_pg. do 2 f_equal. unfold pg_str. cbn [l_dir l_limit l_offset].
    destruct (truthy lim) eqn:E1; [apply truthy_some in E1; destruct E1 as (n & -> & _)|];
    (destruct (truthy off) eqn:E2; [apply truthy_some in E2; destruct E2 as (o & -> & _)|]); cbn [onum List.app andb].
    + apply words_limit_sp.
    + apply words_limit.
    + apply words_off.
    + reflexivity.
  - assert (E : pg_str l = limit_str l).
    { unfold limit_init in Hi. destruct lim, off; try discriminate; injection Hi as <-; reflexivity. }
    rewrite E. apply (C17_generic_text A lim off Next); [exact Hi|now right].
Qed.
Print Assumptions C17_postgres_clause_partial.

Example C17_postgres_clause_ex :
  pg_str (mkLimit (Some 5%Z) (Some 10%Z) First) = "LIMIT 5 OFFSET 10"
  /\ pg_str (mkLimit (Some 0%Z) (Some 10%Z) Next) = "OFFSET 10 ROWS FETCH NEXT 0 ROWS ONLY".
Proof. now split. Qed.

(* ---- the standard dialect ---- *)

(* With only one of the two numbers, the text is standard SQL and means the
   clause (except for LIMIT 0). *)
Theorem C17_vanilla_format_partial : forall (A : Type) lim off d l (rows : list A),
  limit_init lim off d = Ok l -> forward d -> lim <> Some 0%Z -> truthy lim && truthy off = false ->
  run_std (quick_text l Vanilla) rows = window lim off rows.
Proof.
  intros A lim off d l rows Hi Hd H Hb. unfold limit_init in Hi.
  assert (E : l = mkLimit lim off d) by (destruct lim, off; congruence). subst l. clear Hi.
  rewrite <- (window_printed lim off rows H). unfold printed, run_std, quick_text, quick_format.
  cbn [l_limit l_offset l_dir]. rewrite Hb.
  destruct (truthy lim) eqn:E1.
  - cbn [andb] in Hb. rewrite Hb. apply truthy_some in E1. destruct E1 as (n & -> & _).
    cbn [onum String.concat]. rewrite words_fetch. ev (fetch_word_forward d Hd). reflexivity.
  - destruct (truthy off) eqn:E2; [|reflexivity]. apply truthy_some in E2. destruct E2 as (o & -> & _).
    cbn [onum String.concat]. rewrite words_offset. ev (fetch_word_forward d Hd). reflexivity.
Qed.
Print Assumptions C17_vanilla_format_partial.

(* With both numbers, the two parts are printed in the wrong order: the text is
   never valid standard SQL, PostgreSQL however accepts it. *)
Theorem C17_vanilla_order_refuted : forall (A : Type) lim off d l (rows : list A),
  limit_init lim off d = Ok l -> forward d -> truthy lim = true -> truthy off = true ->
  run_std (quick_text l Vanilla) rows = None /\ run_pg (quick_text l Vanilla) rows = window lim off rows.
Proof.
  intros A lim off d l rows Hi Hd H1 H2. unfold limit_init in Hi.
  assert (E : l = mkLimit lim off d) by (destruct lim, off; congruence). subst l. clear Hi.
  unfold run_std, run_pg, quick_text, quick_format. cbn [l_limit l_offset l_dir]. rewrite H1, H2. cbn [andb].
  apply truthy_some in H1. destruct H1 as (n & -> & _). apply truthy_some in H2. destruct H2 as (o & -> & _).
  cbn [onum String.concat].
  assert (E : words (("FETCH " ++ upper d ++ " " ++ num n ++ " ROWS ONLY") ++ newline ++ "OFFSET " ++ num o ++ " ROWS")
    = ["FETCH"; upper d; num n; "ROWS"; "ONLY"; "OFFSET"; num o; "ROWS"]).
  { rewrite !append_assoc.
    change ("FETCH " ++ upper d ++ " " ++ num n ++ " ROWS ONLY" ++ newline ++ "OFFSET " ++ num o ++ " ROWS") with
      ("FETCH" ++ String " " (upper d ++ String " " (num n ++ String " " ("ROWS" ++ String " " ("ONLY" ++ String (ascii_of_nat 10) ("OFFSET" ++ String " " (num o ++ String " " "ROWS"))))))).
    rewrite !words_cons by wd. reflexivity. }
  rewrite E. ev (fetch_word_forward d Hd). split; reflexivity.
Qed.
Print Assumptions C17_vanilla_order_refuted.

Example C17_vanilla_order_ex :
  quick_text (mkLimit (Some 5%Z) (Some 10%Z) First) Vanilla = "FETCH FIRST 5 ROWS ONLY" ++ newline ++ "OFFSET 10 ROWS".
Proof. reflexivity. Qed.

(* The directions PRIOR and LAST are printed, but neither the SQL standard nor
   PostgreSQL accept them in a query. *)
Theorem C17_backward_directions_refuted : forall (A : Type) n off d f (rows : list A),
  d = Prior \/ d = Last ->
  run_std (limit_str (mkLimit (Some n) off d)) rows = None /\ run_pg (limit_str (mkLimit (Some n) off d)) rows = None
  /\ (n <> 0%Z \/ f <> Vanilla -> run_pg (quick_text (mkLimit (Some n) off d) f) rows = None).
Proof.
  intros A n off d f rows Hd.
  assert (Hf : fetch_word (upper d) = false) by (destruct Hd as [-> | ->]; reflexivity).
  assert (HP : run_pg (limit_str (mkLimit (Some n) off d)) rows = None).
  { unfold run_pg. rewrite limit_str_words. cbn [l_limit l_offset l_dir].
    destruct off as [o|]; ev Hf; reflexivity. }
  split; [|split; [exact HP|]].
  - unfold run_std. rewrite limit_str_words. cbn [l_limit l_offset l_dir].
    destruct off as [o|]; ev Hf; reflexivity.
  - intros Hn. destruct f.
    + destruct Hn as [Hn|Hn]; [|congruence].
      unfold run_pg, quick_text, quick_format. cbn [l_limit l_offset l_dir].
      assert (E1 : truthy (Some n) = true) by (cbn; destruct (Z.eqb_spec n 0); [congruence|reflexivity]).
      rewrite E1. cbn [andb]. destruct (truthy off) eqn:E2; cbn [onum String.concat].
      * apply truthy_some in E2. destruct E2 as (o & -> & _). cbn [onum]. rewrite !append_assoc.
        rewrite words_fetch_sp.
        change (words ("ONLY" ++ newline ++ "OFFSET " ++ num o ++ " ROWS")) with (words ("ONLY" ++ String (ascii_of_nat 10) ("OFFSET " ++ num o ++ " ROWS"))).
        rewrite words_cons by wd. ev Hf. reflexivity.
      * rewrite words_fetch. ev Hf. reflexivity.
    + assert (E : quick_text (mkLimit (Some n) off d) Postgres = limit_str (mkLimit (Some n) off d)) by (destruct Hd as [-> | ->]; reflexivity).
      rewrite E. exact HP.
    + exact HP.
Qed.
Print Assumptions C17_backward_directions_refuted.

Example C17_backward_ex :
  limit_str (mkLimit (Some 5%Z) None Last) = "FETCH LAST 5 ROWS ONLY".
Proof. reflexivity. Qed.
