(** C55: the parser's schema cache never answers for the wrong schema. *)
From Coq Require Import List Bool Arith Lia String.
From Verif Require Import PyBase Ident_model SCache_model SCache_spec.
Import ListNotations.

(** C55: every sequence of initialisations and lookups of tables in the current database schema is answered as by the catalog of
    the schema that was set last. *)
Theorem C55_history_partial : forall {D} {E : EqD D} catalog has_tables, (forall d t, has_tables d = false -> catalog d None t = []) ->
  forall ops, Forall unqualified ops -> srun catalog has_tables (fresh (D := D)) ops = direct_run catalog None ops.
Proof.
  intros D E catalog has_tables Hempty ops.
  set (ok := fun (c : @scache D) => forall name cols, dget (sc_cols c) name = Some cols -> match sc_schema c with Some d => cols = catalog d None name | None => False end).
  assert (Hinf : forall c name, ok c -> ok (fst (inflate catalog has_tables c name)) /\ sc_schema (fst (inflate catalog has_tables c name)) = sc_schema c /\ snd (inflate catalog has_tables c name) = match sc_schema c with Some d => catalog d None name | None => [] end).
  { intros [s cols] name Hok. unfold inflate. cbn [sc_cols sc_schema]. specialize (Hok name) as Hn. cbn in Hn. destruct (dget cols name) as [l|] eqn:El; cbn [fst snd sc_schema].
    - specialize (Hn l eq_refl). split; [exact Hok|]. split; [reflexivity|]. destruct s; [exact Hn|contradiction].
    - unfold usable. cbn [sc_schema]. destruct s as [d|]; [|split; [exact Hok|split; reflexivity]]. destruct (has_tables d) eqn:Eh; cbn [fst snd sc_schema]; [|split; [exact Hok|split; [reflexivity|symmetry; now apply Hempty]]].
      split; [|split; reflexivity]. intros n' cs. cbn. rewrite dset_spec. destruct (eqd n' name) as [->|Hne]; [intros [= <-]; reflexivity|]. apply (Hok n' cs). }
  assert (Hfind : forall col ts c, ok c -> Forall (fun t => t_schema t = None) ts -> ok (fst (find_table catalog has_tables c col ts)) /\ sc_schema (fst (find_table catalog has_tables c col ts)) = sc_schema c /\ snd (find_table catalog has_tables c col ts) = owner catalog (sc_schema c) col ts).
  { intros col ts. induction ts as [|t ts IH]; intros c Hok Hq; [repeat split; exact Hok|]. inversion Hq as [|? ? Ht Hts]; subst. cbn [find_table]. unfold owner. cbn [find]. destruct (t_virtual t); cbn [negb andb]; [now apply IH|].
    destruct (Hinf c (t_name t) Hok) as (H1 & H2 & H3). destruct (inflate catalog has_tables c (t_name t)) as [c' cols]. cbn [fst snd] in *. unfold table_columns. rewrite Ht, <- H3. destruct (mem col cols); [repeat split; auto|]. destruct (IH c' H1 Hts) as (G1 & G2 & G3). rewrite G3, H2 in *. repeat split; auto. }
  assert (Hgen : forall ops c, ok c -> Forall unqualified ops -> srun catalog has_tables c ops = direct_run catalog (sc_schema c) ops).
  { clear ops. induction ops as [|o ops IH]; intros c Hok Hq; [reflexivity|]. inversion Hq as [|? ? Ho Hops]; subst. cbn [srun direct_run]. destruct o as [s|col ts|t]; cbn [sstep direct].
    - f_equal. replace s with (sc_schema (initialize_with c s)) at 2.
      + apply IH; [|exact Hops]. unfold initialize_with. destruct c as [[d|] cols]; cbn.
        * destruct s as [d'|]; [|intros n cs; discriminate]. destruct (deqb d d'); [exact Hok|intros n cs; discriminate].
        * intros n cs H. exfalso. exact (Hok n cs H).
      + unfold initialize_with. destruct c as [[d|] cols]; cbn; [|reflexivity]. destruct s as [d'|]; [|reflexivity]. destruct (deqb d d') eqn:Ed; [apply deqb_true in Ed; now subst|reflexivity].
    - unfold lookup_column. destruct (usable has_tables c) as [d|] eqn:Eu.
      + destruct (Hfind col ts c Hok Ho) as (H1 & H2 & H3). destruct (find_table catalog has_tables c col ts) as [c' r]. cbn [fst snd] in *. subst r. f_equal. rewrite <- H2. now apply IH.
      + f_equal; [|now apply IH]. f_equal. unfold owner. symmetry. cbn in Ho. clear - Eu Hempty Ho. induction Ho as [|t ts Ht Hts IHt]; [reflexivity|]. cbn. rewrite IHt. unfold table_columns, usable in *. destruct (sc_schema c) as [d|]; [|now rewrite andb_false_r]. destruct (has_tables d) eqn:Eh; [discriminate|]. rewrite Ht, Hempty by exact Eh. now rewrite andb_false_r.
    - unfold columns_of. cbn in Ho. destruct (usable has_tables c) as [d|] eqn:Eu.
      + destruct (Hinf c (t_name t) Hok) as (H1 & H2 & H3). destruct (inflate catalog has_tables c (t_name t)) as [c' r]. cbn [fst snd] in *. subst r. unfold table_columns. rewrite Ho. f_equal. rewrite <- H2. now apply IH.
      + f_equal; [|now apply IH]. f_equal. unfold table_columns, usable in *. destruct (sc_schema c) as [d|]; [|reflexivity]. destruct (has_tables d) eqn:Eh; [discriminate|]. now rewrite Ho, Hempty. }
  intros Hq. apply (Hgen ops fresh); [intros n cs; discriminate|exact Hq].
Qed.
Print Assumptions C55_history_partial.

Open Scope string_scope.
(** Databases 0 and 1 with a table t each; database 0 has another one in the database schema s. *)
Definition cat (d : nat) (s : option string) (t : string) : list string :=
  match d, s with 0, None => if String.eqb t "t" then ["a"; "b"] else [] | 0, Some _ => ["z"] | 1, None => if String.eqb t "t" then ["c"] else [] | _, _ => [] end.
Definition t0 := mkt None "t" "" false.
Definition st := mkt (Some "s") "t" "" false.
Example C55_case : srun cat (fun d => Nat.ltb d 2) fresh [ColumnsOf t0; Init (Some 0); Lookup "a" [mkt None "v" "" true; mkt None "u" "" false; t0]; Init (Some 1); Lookup "a" [t0]; ColumnsOf t0; Init None; ColumnsOf t0] =
  [ACols []; AInit; ATable (Some t0); AInit; ATable None; ACols ["c"]; AInit; ACols []].
Proof. reflexivity. Qed.
(** C55 fails: tables of another database schema are answered by the table of the same name in the current one. *)
Theorem C55_qualified_refuted : srun cat (fun _ => true) fresh [Init (Some 0); ColumnsOf st; Lookup "z" [st]] = [AInit; ACols ["a"; "b"]; ATable None] /\
  direct_run cat None [Init (Some 0); ColumnsOf st; Lookup "z" [st]] = [AInit; ACols ["z"]; ATable (Some st)].
Proof. split; reflexivity. Qed.
Print Assumptions C55_qualified_refuted.
