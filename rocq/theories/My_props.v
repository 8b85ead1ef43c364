(** C132: EXPLAIN plans of MySQL, C133: hints for MySQL, C134: configuration files. *)
From Coq Require Import List Bool Arith ZArith String Ascii Permutation Lia.
From Verif Require Import PyBase FSet Hint_model Card_model QPlan_model QPlan_spec JT_model Lim_model PGHint_spec QConv_model Duck_proofs My_model My_spec My_proofs.
Import ListNotations.
Open Scope list_scope.
Open Scope nat_scope.

(** ** C132 *)
Section Plans.
  Context {num : Type} (is0 : num -> bool) (zero one : num) (fl : string -> res num) (add pct : num -> num -> num)
          (tocard : option num -> card) (tocost : option num -> option nat) (fullname alias : nat -> string).
  Notation qplan := (query_plan is0 zero one fl add pct tocard tocost fullname alias).
  (** Documents with one operator per object, without materialized subqueries and without zeros give the plan that joins the tables one
      after the other, if the names of the tables are clear. *)
  Theorem C132_plan_partial qtabs v b p : is0 (add zero zero) = true -> (forall tabs, qtabs = Some tabs -> clear_names fullname alias tabs) ->
    document v b -> doc_plan is0 zero fl add pct tocard tocost fullname alias qtabs False (JO b) p -> qplan qtabs v = Ok p.
  Proof.
    intros Z0 CN (l & -> & A & CI) D. destruct (doc_ok is0 zero one fl add pct tocard tocost fullname alias qtabs Z0 CN _ _ D) as (n & P1 & P2).
    unfold query_plan, parse_explain. cbn [sub]. apply assoc_attr in A. rewrite A. cbn [rbind jget].
    destruct CI as [CI|(ci & CI)]; [apply assoc_none in CI|apply assoc_attr in CI]; rewrite CI; cbn [rbind jget]; rewrite P1; exact P2.
  Qed.
  (** Every table of a plan belongs to the query and to a table entry of the document. *)
  Theorem C132_sound qtabs v p n t : qplan qtabs v = Ok p -> node_of p n -> base (data n) = Some t ->
    exists s tabs, qtabs = Some tabs /\ table_entry v s /\ In t tabs /\ (alias t = s \/ fullname t = s).
  Proof.
    unfold query_plan, parse_explain. destruct v as [l| | | | |]; try discriminate. cbn [sub]. destruct (assoc "query_block" l) as [b|] eqn:A; [|discriminate]. cbn [rbind].
    destruct (jget b "cost_info") as [ci|]; [|discriminate]. cbn [rbind]. destruct (match ci with None => _ | Some c => _ end); [|discriminate]. cbn [rbind].
    destruct (parse_next is0 zero one fl add pct fullname alias qtabs b) as [[m|]|] eqn:E; try discriminate. cbn [rbind]. intros P H B.
    destruct (node_bases tocard tocost m p P n t H B) as (d & I & T).
    destruct (parse_good is0 zero one fl add pct fullname alias qtabs b b m (pa_self b) E d t I T) as (s & tabs & Q & (l0 & tl & W & X) & R).
    exists s, tabs. split; [exact Q|]. split; [|exact R]. exists l0, tl. split; [|exact X]. eapply pa_obj; [apply assoc_In, A|exact W].
  Qed.
  (** The names of tables are looked up correctly if they are clear. *)
  Theorem C132_lookup_partial tabs t : clear_names fullname alias tabs -> In t tabs -> lookup_table fullname alias (ident fullname alias t) tabs = Ok t.
  Proof. apply lookup_complete. Qed.
  (** The join tree of the plan joins the tables in the order of the document, unless a table is constant. *)
  Theorem C132_order_partial src tabs zok v p tls : doc_plan is0 zero fl add pct tocard tocost fullname alias (Some tabs) zok v p -> reads v tls ->
    (forall tl s, In tl tls -> attr tl "access_type" (JS s) -> ~ In s ["system"; "const"]%string) ->
    exists ts t, tree_from src p = Ok t /\ one_by_one ts t /\ Forall2 (fun tl u => In u tabs /\ attr tl "table_name" (JS (ident fullname alias u))) tls ts.
  Proof.
    intros D R NC. destruct (doc_tree is0 zero fl add pct tocard tocost fullname alias tabs zok src v p D) as (tls' & R' & H). rewrite (reads_unique _ _ _ R R') in *.
    destruct H as (ts & t & F & E & O); [apply Forall_forall; intros tl Hin s; apply NC; exact Hin|]. exists ts, t. auto.
  Qed.
End Plans.
Print Assumptions C132_plan_partial.
Print Assumptions C132_sound.
Print Assumptions C132_lookup_partial.
Print Assumptions C132_order_partial.

Open Scope string_scope.
(** An example: two tables joined by a hash join, sorted. *)
Definition full (t : nat) : string := match t with 1 => "title" | 2 => "cast" | 3 => "title" | _ => "x" end.
Definition ali (t : nat) : string := match t with 1 => "t" | 2 => "" | _ => "" end.
Definition tocard0 (o : option nat) : card := match o with Some n => CVal (Z.of_nat n) | None => CNan end.
Definition ex_plan := @query_plan nat (Nat.eqb 0) 0 1 (fun s => if String.eqb s "12" then Ok 12 else Raise ValueError) Nat.add (fun f c => f * c / 100) tocard0 (fun o => o) full ali.
Definition ex_table (nm acc : string) (rows : nat) (more : list (string * js nat)) : js nat :=
  JO [("table", JO ([("table_name", JS nm); ("access_type", JS acc); ("rows_examined_per_scan", JN rows); ("filtered", JN 50);
                     ("cost_info", JO [("read_cost", JS "12"); ("eval_cost", JN 3); ("prefix_cost", JN 20)])] ++ more)%list)].
Definition ex_block (v : js nat) : js nat := JO [("query_block", JO [("select_id", JN 1); ("ordering_operation", JO [("using_filesort", JB false); ("nested_loop", v)])])].
Definition ex_doc : js nat := ex_block (JA [ex_table "cast" "ALL" 10 []; ex_table "t" "ref" 4 [("using_join_buffer", JS "hash join"); ("rows_produced_per_join", JN 7)]]).
Definition ex_scan n o t (c : nat) : plan := Node (mkpd n (Some (PScan o)) (Some t) [] [] 0 (CVal (Z.of_nat c)) (Some 15) [] no_measures) [] None.
Example C132_plan_ex : ex_plan (Some [1; 2]) ex_doc
  = Ok (Node (mkpd 12 None None [] [] 0 CNan None [] no_measures)
          [Node (mkpd 7 (Some (PJoin 1)) None [] [] 0 (CVal 7) (Some 20) [] no_measures) [ex_scan 3 0 2 5; ex_scan 1 1 1 2] None] None).
Proof. reflexivity. Qed.
Ltac noattr := intros H; cbn in H; repeat (destruct H as [H|H]; [discriminate H|]); destruct H.
Ltac hasattr := apply assoc_attr; reflexivity.
(** This document satisfies the conditions of the theorems. *)
Example C132_doc_ex : exists b p, document ex_doc b
  /\ doc_plan (Nat.eqb 0) 0 (fun s => if String.eqb s "12" then Ok 12 else Raise ValueError) Nat.add (fun f c => f * c / 100) tocard0 (fun o => o) full ali (Some [1; 2]) False (JO b) p
  /\ clear_names full ali [1; 2].
Proof.
  do 2 eexists. split; [|split].
  - eexists. split; [reflexivity|]. split; [hasattr|]. left. noattr.
  - eapply dp_wrap with (bl := [("using_filesort", JB false); ("nested_loop", JA [ex_table "cast" "ALL" 10 []; ex_table "t" "ref" 4 [("using_join_buffer", JS "hash join"); ("rows_produced_per_join", JN 7)]])])
      (k := "ordering_operation").
    + exists [("select_id", JN 1)], []. split; [reflexivity|]. split; [cbn; tauto|]. intros k [<-|[]]. noattr.
    + cbn. right; right; left. reflexivity.
    + apply bl_self; [noattr|discriminate].
    + apply co_none. noattr.
    + exists None, None. repeat split; apply nu_none; noattr.
    + eapply dp_loop; [exists [("using_filesort", JB false)], []; split; [reflexivity|]; split; [cbn; tauto|]; intros k [<-|[]]; noattr|].
      refine (jd_more _ _ _ _ _ _ _ _ _ _ _ [ex_table "cast" "ALL" 10 []] _ _ _ _ _ _ _ _ _).
      * eapply jd_one.
        -- eexists. split; [reflexivity|]. split; [exists [], []; split; [reflexivity|]; split; [cbn; tauto|]; intros k []|]. split; [discriminate|]. split; [noattr|]. exists 4, 0. constructor. noattr.
        -- do 8 eexists. split; [hasattr|]. split; [apply ac_all|]. split; [exists "cast", 2; split; [hasattr|]; split; [exists [1; 2]; repeat split; cbn; tauto|reflexivity]|].
           split; [eapply co_known; [hasattr|eapply nu_text; [hasattr|discriminate|reflexivity]|eapply nu_num; [hasattr|discriminate]|left; discriminate|reflexivity|discriminate|eapply nu_num; [hasattr|discriminate]]|].
           split; [exists (Some 50), (Some 10); split; [eapply nu_num; [hasattr|discriminate]|]; split; [eapply nu_num; [hasattr|discriminate]|]; split; [apply nu_none; noattr|reflexivity]|]. reflexivity.
      * eexists. split; [reflexivity|]. split; [exists [], []; split; [reflexivity|]; split; [cbn; tauto|]; intros k []|]. split; [discriminate|]. split; [noattr|]. exists 7, 1. apply jo_hash. hasattr.
      * do 8 eexists. split; [hasattr|]. split; [apply (ac_index "ref"); cbn; tauto|]. split; [exists "t", 1; split; [hasattr|]; split; [exists [1; 2]; repeat split; cbn; tauto|reflexivity]|].
        split; [eapply co_known; [hasattr|eapply nu_text; [hasattr|discriminate|reflexivity]|eapply nu_num; [hasattr|discriminate]|left; discriminate|reflexivity|discriminate|eapply nu_num; [hasattr|discriminate]]|].
        split; [exists (Some 50), (Some 4); split; [eapply nu_num; [hasattr|discriminate]|]; split; [eapply nu_num; [hasattr|discriminate]|]; split; [eapply nu_num; [hasattr|discriminate]|reflexivity]|]. reflexivity.
      * do 6 eexists. split; [apply jo_hash; hasattr|].
        split; [eapply co_known; [hasattr|eapply nu_text; [hasattr|discriminate|reflexivity]|eapply nu_num; [hasattr|discriminate]|left; discriminate|reflexivity|discriminate|eapply nu_num; [hasattr|discriminate]]|].
        split; [exists (Some 50), (Some 4); split; [eapply nu_num; [hasattr|discriminate]|]; split; [eapply nu_num; [hasattr|discriminate]|]; split; [eapply nu_num; [hasattr|discriminate]|reflexivity]|]. reflexivity.
  - split; [|split].
    + intros t u [<-|[<-|[]]] [<-|[<-|[]]]; cbn; congruence.
    + intros t [<-|[<-|[]]]; cbn; discriminate.
    + intros t u [<-|[<-|[]]] [<-|[<-|[]]]; cbn; congruence.
Qed.

(** A table without alias is confused with an alias for the same table: [FROM title AS t, title]; the scan of title becomes a scan of t. *)
Theorem C132_names_refuted : exists tabs t u, NoDup tabs /\ (forall x y, In x tabs -> In y tabs -> ident full ali x = ident full ali y -> x = y)
  /\ In t tabs /\ u <> t /\ lookup_table full ali (ident full ali t) tabs = Ok u.
Proof.
  exists [3; 1], 3, 1. split; [repeat constructor; cbn; intuition discriminate|]. split; [intros x y [<-|[<-|[]]] [<-|[<-|[]]]; cbn; congruence|]. split; [now left|]. split; [discriminate|reflexivity].
Qed.
Print Assumptions C132_names_refuted.
(** The plan of a materialized subquery is lost. *)
Theorem C132_materialized_refuted : exists v p, table_entry v "cast" /\ ex_plan (Some [1; 2]) v = Ok p /\ ~ In 2 (tables p).
Proof.
  exists (JO [("query_block", ex_table "t" "ALL" 10 [("materialized_from_subquery", ex_table "cast" "ALL" 5 [])])]). eexists. split; [|split; [reflexivity|cbn; intuition discriminate]].
  do 2 eexists. split; [eapply pa_obj; [now left|]; eapply pa_obj; [now left|]; eapply pa_obj; [do 5 right; now left|]; apply pa_self|]. split; [now left|]. hasattr.
Qed.
Print Assumptions C132_materialized_refuted.
(** Of several operators of a block only the first one counts: a subquery hides the whole query. *)
Theorem C132_first_operator_refuted : exists v p, table_entry v "t" /\ ex_plan (Some [1; 2]) v = Ok p /\ ~ In 1 (tables p).
Proof.
  exists (JO [("query_block", JO [("optimized_away_subqueries", ex_table "cast" "ALL" 5 []); ("table", JO [("table_name", JS "t"); ("access_type", JS "ALL")])])]). eexists.
  split; [|split; [reflexivity|cbn; intuition discriminate]].
  do 2 eexists. split; [eapply pa_obj; [now left|apply pa_self]|]. split; [right; now left|]. hasattr.
Qed.
Print Assumptions C132_first_operator_refuted.
(** Lists of subqueries, which is how MySQL writes them, are never accepted. *)
Theorem C132_lists_refuted num is0 zero one fl add pct tocard tocost fullname alias qtabs k es r : In k ["optimized_away_subqueries"; "select_list_subqueries"] -> es <> [] ->
  (forall e, In e es -> exists l, e = JO l) ->
  @query_plan num is0 zero one fl add pct tocard tocost fullname alias qtabs (JO [("query_block", JO ((k, JA es) :: r))]) <> Ok (Node (mkpd 0 None None [] [] 0 CNan None [] no_measures) [] None)
  /\ is_ok (@query_plan num is0 zero one fl add pct tocard tocost fullname alias qtabs (JO [("query_block", JO ((k, JA es) :: r))])) = false.
Proof.
  intros Hk He Hes. assert (X : is_ok (@query_plan num is0 zero one fl add pct tocard tocost fullname alias qtabs (JO [("query_block", JO ((k, JA es) :: r))])) = false).
  { unfold query_plan, parse_explain. cbn [sub assoc String.eqb Ascii.eqb Bool.eqb rbind]. destruct (jget _ "cost_info") as [ci|]; [|reflexivity]. cbn [rbind]. destruct (match ci with None => _ | Some c => _ end); [|reflexivity]. cbn [rbind].
    rewrite parse_cons. assert (E : forall key, existsb (fun e : js num => match e with JS s => String.eqb s key | _ => false end) es = false).
    { intros key. destruct (existsb _ es) eqn:E; [|reflexivity]. apply existsb_exists in E as (e & Hin & E). destruct (Hes e Hin) as [l ->]. discriminate E. }
    assert (T : truthy is0 (JA es) = true) by (destruct es; [congruence|reflexivity]).
    destruct Hk as [<-|[<-|[]]]; cbn [kind_of String.eqb Ascii.eqb Bool.eqb option_map code wrappers]; unfold at_operator; rewrite T; cbn [negb contains rbind]; rewrite E; unfold wrapper_node, cost_info; cbn [contains rbind]; rewrite E; cbn [negb rbind card_info jget]; reflexivity. }
  split; [|exact X]. intros E. rewrite E in X. discriminate X.
Qed.
Print Assumptions C132_lists_refuted.
(** Zero rows are unknown rows. *)
Theorem C132_zero_refuted : exists v p, ex_plan (Some [1; 2]) v = Ok p /\ v = JO [("query_block", ex_table "t" "ALL" 0 [])] /\ est (data p) = CNan.
Proof. exists (JO [("query_block", ex_table "t" "ALL" 0 [])]). eexists. split; [reflexivity|split; reflexivity]. Qed.
Print Assumptions C132_zero_refuted.
(** Constant tables have no operator: there is no join tree. *)
Theorem C132_const_refuted : exists p, ex_plan (Some [1; 2]) (ex_block (JA [ex_table "cast" "const" 1 []; ex_table "t" "ref" 4 []])) = Ok p /\ tree_from SEstimates p = Raise AttributeError.
Proof. eexists. split; reflexivity. Qed.
Print Assumptions C132_const_refuted.
(** parse_plan does not parse anything. *)
Theorem C132_parse_plan_refuted (v : js nat) : parse_plan v = Raise AttributeError.
Proof. reflexivity. Qed.
Print Assumptions C132_parse_plan_refuted.

(** ** C133 *)
Section Hints.
  Context {A C V : Type} (name : nat -> string) (iter : list nat -> list nat) (set_name : nat -> string) (set_value : V -> string).
  Notation gen := (@hint_parts A C V name iter set_name set_value).
  (** One line for the join order and for each operator; the statements for all settings, if there is any line. *)
  Theorem C133_lines_partial jo ops pp r : (forall l, Permutation (iter l) l) -> gen None jo ops pp = Ok r ->
    (r = None /\ forall R, ~ asked name jo ops R)
    \/ exists prep lines, r = Some (String.concat newline prep, block_of lines) /\ set_first set_name set_value ops pp prep
       /\ (forall R, asked name jo ops R -> exists l, In l lines /\ R l) /\ (forall l, In l lines -> exists R, asked name jo ops R /\ R l)
       /\ List.length lines = (match jo with Some t => if jt_empty t then 0 else 1 | None => 0 end) + match ops with Some p => List.length (scans p) + List.length (joins p) | None => 0 end.
  Proof.
    intros Hit E. destruct (parts_ok name iter set_name set_value Hit jo ops pp r E) as (ls & L & prep & P & ->).
    assert (Q : (forall R, asked name jo ops R -> exists l, In l (the_order name jo ++ ls)%list /\ R l) /\ (forall l, In l (the_order name jo ++ ls)%list -> exists R, asked name jo ops R /\ R l)
      /\ List.length (the_order name jo ++ ls)%list = (match jo with Some t => if jt_empty t then 0 else 1 | None => 0 end) + match ops with Some p => List.length (scans p) + List.length (joins p) | None => 0 end).
    { assert (O : forall l, In l (the_order name jo) <-> exists t, jo = Some t /\ jt_empty t = false /\ l = "  JOIN_ORDER(" ++ String.concat ", " (map name (jt_itertables t)) ++ ")").
      { intros l. unfold the_order. destruct jo as [t|]; [|split; [intros []|intros (t & ? & _); discriminate]]. destruct (jt_empty t) eqn:Et.
        - split; [intros []|]. intros (t' & [= <-] & ? & _). congruence.
        - split; [intros [<-|[]]; exists t; auto|]. intros (t' & [= <-] & _ & ->). now left. }
      assert (L0 : forall t : jt nat A, (forall g, t <> JEmpty g) <-> jt_empty t = false) by (intros [g| |]; cbn; split; try congruence; intros H; destruct (H g eq_refl)).
      assert (Ljo : List.length (the_order name jo) = match jo with Some t => if jt_empty t then 0 else 1 | None => 0 end) by (unfold the_order; destruct jo as [t|]; [destruct (jt_empty t)|]; reflexivity).
      destruct ops as [p|].
      - destruct (op_lines_ok name iter Hit p ls L) as (hs & hj & -> & F1 & F2).
        split; [|split].
        + intros R HR. destruct HR as [t Et Ht|p' t a kw [= <-] Hin K|p' ts a kw [= <-] Hin K].
          * eexists. split; [apply in_or_app; left; apply O; exists t; split; [exact Et|]; split; [now apply L0|reflexivity]|reflexivity].
          * destruct (f2_left _ _ _ F1 _ Hin) as (l & Hl & kw' & K' & ->). cbn [fst snd] in K'. apply op_kw_spec in K. apply op_kw_spec in K'. rewrite K in K'. injection K' as <-.
            eexists. split; [rewrite !in_app_iff; right; left; exact Hl|reflexivity].
          * destruct (f2_left _ _ _ F2 _ Hin) as (l & Hl & kw' & s & K' & N & ->). cbn [fst snd] in K', N. apply op_kw_spec in K. apply op_kw_spec in K'. rewrite K in K'. injection K' as <-.
            eexists. split; [rewrite !in_app_iff; right; right; exact Hl|]. exists s. split; [exact N|reflexivity].
        + intros l Hl. rewrite !in_app_iff in Hl. destruct Hl as [Hl|[Hl|Hl]].
          * apply O in Hl as (t & -> & Et & ->). eexists. split; [eapply as_order; [reflexivity|now apply L0]|reflexivity].
          * destruct (f2_right _ _ _ F1 _ Hl) as ([t a] & Hin & kw & K & ->). eexists. split; [eapply (as_scan _ _ _ p t a kw); auto|reflexivity].
          * destruct (f2_right _ _ _ F2 _ Hl) as ([ts a] & Hin & kw & s & K & N & ->). eexists. split; [eapply (as_join _ _ _ p ts a kw); auto|]. exists s. split; [exact N|reflexivity].
        + rewrite !app_length, Ljo, (f2_length _ _ _ F1), (f2_length _ _ _ F2). reflexivity.
      - injection L as <-. rewrite app_nil_r. split; [|split; [|rewrite Ljo; lia]].
        + intros R HR. destruct HR as [t Et Ht| |]; try discriminate. eexists. split; [apply O; exists t; split; [exact Et|]; split; [now apply L0|reflexivity]|reflexivity].
        + intros l Hl. apply O in Hl as (t & -> & Et & ->). eexists. split; [eapply as_order; [reflexivity|now apply L0]|reflexivity]. }
    destruct (the_order name jo ++ ls)%list as [|x xs] eqn:Z.
    - left. split; [reflexivity|]. intros R HR. destruct (proj1 Q R HR) as (l & [] & _).
    - right. exists prep, (x :: xs). destruct Q as (Q1 & Q2 & Q3). auto.
  Qed.
  (** Hints are given exactly if everything can be expressed and the join order has a base table at its last join. *)
  Theorem C133_supported jo ops pp : is_ok (gen None jo ops pp) = true <->
    expressible ops /\ (forall g o i a, jo = Some (JJoin g o i a) -> (exists h t b, o = JScan h t b) \/ (exists h t b, i = JScan h t b)).
  Proof.
    assert (K : forall o, is_ok (key (op_kw o)) = true <-> exists kw, mysql_keyword o kw).
    { intros o. split.
      - destruct (op_kw o) as [kw|] eqn:E; [|discriminate]. intros _. exists kw. now apply op_kw_spec.
      - intros (kw & H). apply op_kw_spec in H. rewrite H. reflexivity. }
    assert (RM : forall X Y (f : X -> Y) (r : res X), is_ok (rmap f r) = is_ok r) by (intros; destruct r; reflexivity).
    assert (OL : is_ok (op_lines name iter ops) = true /\ is_ok (prep_lines set_name set_value ops pp) = true <-> expressible ops).
    { destruct ops as [p|]; [|split; [intros _ p E; discriminate E|split; reflexivity]]. unfold op_lines, prep_lines, expressible. destruct (negb (ops_bool p)) eqn:B.
      - split; [|split; reflexivity]. intros _ p' [= <-]. unfold ops_bool in B. destruct (glob p), (joins p), (scans p), (inters p); try discriminate B. repeat split; intros ? ? [].
      - split.
        + intros [H1 H2]. destruct (rmapM _ (scans p)) as [hs|] eqn:ES in H1; [|discriminate H1]. cbn [rbind] in H1. destruct (rmapM _ (joins p)) as [hj|] eqn:EJ in H1; [|discriminate H1].
          destruct (rmapM _ (glob p)) as [hg|] eqn:EG in H2; [|discriminate H2]. intros p' [= <-].
          pose proof (proj1 (rmapM_iff _ _) (f_equal is_ok ES)) as G1. pose proof (proj1 (rmapM_iff _ _) (f_equal is_ok EJ)) as G2. pose proof (proj1 (rmapM_iff _ _) (f_equal is_ok EG)) as G3.
          split; [|split].
          * intros t a Hin. apply G1 in Hin. rewrite RM in Hin. now apply K in Hin.
          * intros t a Hin. apply G2 in Hin. rewrite RM in Hin. now apply K in Hin.
          * intros o b Hin. apply G3 in Hin. rewrite RM in Hin. destruct o as [n|[|[|n]]|n]; cbn in Hin; try discriminate Hin. reflexivity.
        + intros H. destruct (H p eq_refl) as (H1 & H2 & H3).
          assert (G1 : is_ok (rmapM (fun e => rmap (fun o => "  " ++ o ++ "(" ++ name (fst e) ++ ")") (key (op_kw (PScan (sa_op (snd e)))))) (scans p)) = true).
          { apply rmapM_iff. intros [t a] Hin. rewrite RM. apply K. eapply H1; eauto. }
          assert (G2 : is_ok (rmapM (fun e => rmap (fun o => "  " ++ o ++ "(" ++ String.concat ", " (map name (iter (fst e))) ++ ")") (key (op_kw (PJoin (ja_op (snd e)))))) (joins p)) = true).
          { apply rmapM_iff. intros [t a] Hin. rewrite RM. apply K. eapply H2; eauto. }
          assert (G3 : is_ok (rmapM (fun e => rmap (fun o => o ++ "=" ++ (if snd e : bool then "on" else "off")) (key (switch_kw (fst e)))) (glob p)) = true).
          { apply rmapM_iff. intros [o b] Hin. rewrite RM. cbn [fst]. rewrite (H3 o b Hin). reflexivity. }
          destruct (rmapM _ (scans p)); [|discriminate]. cbn [rbind]. destruct (rmapM _ (joins p)); [|discriminate]. destruct (rmapM _ (glob p)); [|discriminate]. split; reflexivity. }
    rewrite <- OL. unfold hint_parts.
    assert (J : is_ok (match jo with Some t => if jt_empty t then Ok tt else rbind (jt_is_linear t) (fun b => if b then Ok tt else Raise OtherError) | None => Ok tt end) = true
      <-> (forall g o i a, jo = Some (JJoin g o i a) -> (exists h t b, o = JScan h t b) \/ (exists h t b, i = JScan h t b))).
    { destruct jo as [[g|g t a|g o i a]|]; cbn; try (split; [intros _ ? ? ? ? E; discriminate E|reflexivity]).
      destruct o as [|h t b|], i as [|h' t' b'|]; cbn; split; intros X; try discriminate X; try reflexivity; intros;
        try (match goal with E : Some _ = Some _ |- _ => injection E as <- <- <- <- end; (left; now repeat eexists) || (right; now repeat eexists));
        destruct (X _ _ _ _ eq_refl) as [(? & ? & ? & E)|(? & ? & ? & E)]; discriminate E. }
    rewrite <- J. destruct (match jo with Some t => _ | None => _ end) as [[]|]; cbn [rbind is_ok].
    - destruct (op_lines name iter ops) as [ls|]; cbn [rbind is_ok]; [|split; [discriminate|intros [[H _] _]; discriminate H]].
      destruct (prep_lines set_name set_value ops pp); cbn [rbind is_ok]; [|split; [discriminate|intros [[_ H] _]; discriminate H]].
      destruct (_ && _); cbn; split; auto.
    - split; [discriminate|intros [_ H]; discriminate H].
  Qed.
  (** A tree that joins one table after the other is hinted by its tables, and the hint determines the joins. *)
  Theorem C133_order_partial ts (t : jt nat A) : one_by_one ts t ->
    order_hint name (Some t) = "  JOIN_ORDER(" ++ String.concat ", " (map name ts) ++ ")" /\ jt_is_linear t = Ok true
    /\ (forall u : jt nat A, one_by_one ts u -> map jt_itertables (jt_iterjoins u) = map jt_itertables (jt_iterjoins t)).
  Proof.
    intros O. destruct (one_tables _ _ O) as (E1 & _ & E3). split; [unfold order_hint; now rewrite E3, E1|]. split.
    - destruct O; [reflexivity|]. cbn. now rewrite orb_true_r.
    - clear E1 E3. induction O as [g t a|g h ts t o a b O IH]; intros u U.
      + inversion U as [|g' h' ts' t' o' a' b' O' E]; subst; [reflexivity|]. exfalso. destruct ts'; [now destruct (one_nonempty _ _ O')|]. cbn in E. injection E as _ E. now destruct (app_eq_nil _ _ E).
      + inversion U as [g' t' a' E|g' h' ts' t' o' a' b' O' E]; subst.
        * exfalso. destruct ts; [now destruct (one_nonempty _ _ O)|]. cbn in E. injection E as _ E. symmetry in E. now destruct (app_eq_nil _ _ E).
        * apply app_inj_tail in E as [-> ->]. cbn. rewrite !map_app. rewrite (IH o' O'). cbn. destruct (one_tables _ _ O) as (-> & _). destruct (one_tables _ _ O') as (-> & _). reflexivity.
  Qed.
  (** Operators that are said to be supported have hints. *)
  Theorem C133_supports o : supports o = true -> exists kw, mysql_keyword o kw.
  Proof. destruct o as [[|[|n]]|[|[|n]]|n]; cbn; try discriminate; intros _; eexists; constructor. Qed.
  (** A plan is hinted like its parts, except that its join order may be bushy. *)
  Theorem C133_plan_parts t o p jo ops pp : (forall j, jo = Some j -> jt_is_linear j = Ok true) -> (jt_empty t = true \/ jt_is_linear t = Ok true) ->
    gen (Some (t, o, p)) jo ops pp = gen None (Some t) (Some o) (Some p).
  Proof.
    intros J T. unfold hint_parts. assert (X : (match jo with Some t => if jt_empty t then Ok tt else rbind (jt_is_linear t) (fun b => if b then Ok tt else Raise OtherError) | None => Ok tt end) = Ok tt).
    { destruct jo as [j|]; [|reflexivity]. rewrite (J j eq_refl). now destruct (jt_empty j). }
    rewrite X. destruct T as [-> | ->]; [reflexivity|]. destruct (jt_empty t); reflexivity.
  Qed.
End Hints.
Print Assumptions C133_plan_parts.
Print Assumptions C133_lines_partial.
Print Assumptions C133_supported.
Print Assumptions C133_order_partial.
Print Assumptions C133_supports.

Definition hn (t : nat) : string := match t with 1 => "a" | 2 => "b" | 3 => "c" | _ => "d" end.
Definition sc (t : nat) : jt nat unit := JScan false t tt.
Definition jn (o i : jt nat unit) : jt nat unit := JJoin false o i tt.
Definition ex_hints := @hint_parts unit Z sval hn (fun l => l) (fun _ => "sort_buffer_size") escape_setting.
Definition ex_ops : poa := mkpoa [(PJoin 1, false)] [([1; 2], mkja 0 1 [1; 2] None None)] [] [(3, mksa 1 0 3 None)].
Definition ex_pars : @pparams Z sval := mkpp [] [] [(0, SNum "4096")] None.
Example C133_lines_ex : ex_hints None (Some (jn (jn (sc 1) (sc 2)) (sc 3))) (Some ex_ops) (Some ex_pars)
  = Ok (Some ("SET @@optimizer_switch='block_nested_loop=off';" ++ newline ++ "SET sort_buffer_size=4096;", block_of ["  JOIN_ORDER(a, b, c)"; "  NO_INDEX(c)"; "  BNL(a, b)"])).
Proof. reflexivity. Qed.
Example C133_order_ex : one_by_one [1; 2; 3] (jn (jn (sc 1) (sc 2)) (sc 3)).
Proof. apply (ob_more false false [1; 2] 3). apply (ob_more false false [1] 2). constructor. Qed.
(** A linear tree in which the last table is the outer input gets the hint of another tree, which has other joins. *)
Theorem C133_right_deep_refuted : exists t u : jt nat unit, jt_is_linear t = Ok true /\ jt_is_linear u = Ok true /\ order_hint hn (Some t) = order_hint hn (Some u)
  /\ (exists n, In n (jt_iterjoins t) /\ forall m, In m (jt_iterjoins u) -> ~ seteq (jt_tables m) (jt_tables n)).
Proof.
  exists (jn (sc 1) (jn (sc 2) (sc 3))), (jn (jn (sc 1) (sc 2)) (sc 3)). repeat (split; [reflexivity|]). exists (jn (sc 2) (sc 3)). split; [now left|].
  intros m [<-|[<-|[]]] H.
  - assert (X := proj1 (H 1) (or_introl eq_refl)). destruct X as [X|[X|[]]]; discriminate X.
  - assert (X := proj1 (H 1) (or_introl eq_refl)). destruct X as [X|[X|[]]]; discriminate X.
Qed.
Print Assumptions C133_right_deep_refuted.
(** Bushy trees are only refused if both inputs of the last join are joins, those of plans never. *)
Theorem C133_bushy_refuted : exists t u : jt nat unit,
  (exists g o i a, t = JJoin g o (sc 1) a /\ o = JJoin g i i a /\ jt_is_join i = true) /\ is_ok (ex_hints None (Some t) None None) = true
  /\ jt_is_linear u = Ok false /\ is_ok (ex_hints (Some (u, poa_empty, ex_pars)) None None None) = true.
Proof.
  exists (jn (jn (jn (sc 2) (sc 3)) (jn (sc 2) (sc 3))) (sc 1)), (jn (jn (sc 1) (sc 2)) (jn (sc 3) (sc 4))). split; [|repeat split].
  exists false, (jn (jn (sc 2) (sc 3)) (jn (sc 2) (sc 3))), (jn (sc 2) (sc 3)), tt. repeat split.
Qed.
Print Assumptions C133_bushy_refuted.
(** Settings are lost if there are no other hints. *)
Theorem C133_settings_refuted : exists ops pp prep, set_first (fun _ => "sort_buffer_size") escape_setting ops pp prep /\ List.length prep = 2 /\ ex_hints None None ops pp = Ok None.
Proof.
  exists (Some (mkpoa [(PJoin 1, false)] [] [] [])), (Some ex_pars). eexists. split; [|split; [|reflexivity]].
  - apply sf_intro; [exists ["block_nested_loop=off"]; split; [repeat constructor|reflexivity]|]. apply Forall2_cons; [reflexivity|constructor].
  - reflexivity.
Qed.
Print Assumptions C133_settings_refuted.
(** Joins that share a table can ask for the opposite. *)
Theorem C133_contradiction_refuted : exists p prep lines, ex_hints None None (Some p) None = Ok (Some (prep, block_of lines)) /\ NoDup (map fst (joins p)) /\ In "  BNL(a, b)" lines /\ In "  NO_BNL(a, b, c)" lines.
Proof.
  exists (mkpoa [] [([1; 2], mkja 0 1 [1; 2] None None); ([1; 2; 3], mkja 1 0 [1; 2; 3] None None)] [] []), "", ["  BNL(a, b)"; "  NO_BNL(a, b, c)"].
  split; [reflexivity|]. split; [repeat constructor; cbn; intuition discriminate|]. cbn. auto.
Qed.
Print Assumptions C133_contradiction_refuted.
(** Operators that are not supported are hinted nevertheless. *)
Theorem C133_supports_refuted : exists o kw, supports o = false /\ mysql_keyword o kw.
Proof. exists (PScan 3), "INDEX_MERGE". split; [reflexivity|constructor]. Qed.
Print Assumptions C133_supports_refuted.
(** Texts with quotes do not become literals. *)
Theorem C133_quotes_refuted : exists s, escape_setting (SText s) = "'a' OR '1'".
Proof. exists "a' OR '1". reflexivity. Qed.
Print Assumptions C133_quotes_refuted.

(** ** C134 *)
Theorem C134_snake l : camel_snake l (snake l).
Proof.
  assert (UP : forall c, upper c = true <-> capital c).
  { intros c. unfold upper, capital. rewrite andb_true_iff, !Nat.leb_le. tauto. }
  assert (LO : forall c, lowered c (to_lower c)).
  { intros c. unfold lowered, to_lower. destruct (upper c) eqn:E.
    - left. apply UP in E. split; [exact E|]. apply nat_ascii_embedding. unfold capital in E. lia.
    - right. split; [|reflexivity]. intros H. apply UP in H. congruence. }
  destruct l as [|c r]; cbn; [reflexivity|]. exists (to_lower c), (snake_rest r). split; [apply LO|]. split; [|reflexivity].
  induction r as [|d r IH]; cbn; [constructor|]. destruct (upper d) eqn:E; cbn; constructor; auto; [now apply UP|intros H; apply UP in H; congruence].
Qed.
Print Assumptions C134_snake.
(** Different names remain different: capitalised, without underscores. *)
Theorem C134_injective c d l m : capital c -> capital d -> ~ In "_"%char l -> ~ In "_"%char m -> snake (c :: l) = snake (d :: m) -> c = d /\ l = m.
Proof.
  assert (UP : forall c, upper c = true <-> capital c) by (intros x; unfold upper, capital; rewrite andb_true_iff, !Nat.leb_le; tauto).
  assert (INJ : forall x y, upper x = true -> upper y = true -> to_lower x = to_lower y -> x = y).
  { intros x y X Y. unfold to_lower. rewrite X, Y. intros E. apply UP in X. apply UP in Y. unfold capital in *. apply (f_equal nat_of_ascii) in E.
    rewrite !nat_ascii_embedding in E by lia. rewrite <- (ascii_nat_embedding x), <- (ascii_nat_embedding y). f_equal. lia. }
  intros C D L M E. cbn in E. injection E as E0 E. split; [apply INJ; auto; now apply UP|]. clear C D E0. revert m M E.
  induction l as [|x l IH]; intros [|y m] M E; [reflexivity|cbn in E; destruct (upper y); discriminate E|cbn in E; destruct (upper x); discriminate E|].
  cbn [snake_rest flat_map] in E. fold (snake_rest l) (snake_rest m) in E. assert (Lx : x <> "_"%char) by (intros ->; apply L; now left). assert (My : y <> "_"%char) by (intros ->; apply M; now left).
  destruct (upper x) eqn:X, (upper y) eqn:Y; cbn [app] in E.
  - injection E as E1 E2. f_equal; [now apply INJ|]. apply IH; auto; [intros H; apply L; now right|intros H; apply M; now right].
  - injection E as E1 E2. congruence.
  - injection E as E1 E2. congruence.
  - injection E as E1 E2. f_equal; [exact E1|]. apply IH; auto; [intros H; apply L; now right|intros H; apply M; now right].
Qed.
Print Assumptions C134_injective.
Example C134_snake_ex : map snake_case ["UseUnicode"; "Password"; "SqlMode"; "AutoCommit"] = ["use_unicode"; "password"; "sql_mode"; "auto_commit"].
Proof. reflexivity. Qed.
(** The options of the file, the arguments of the connection and their default values. *)
Definition config_table : list (string * string * string) :=
  [("Password", "password", ""); ("Host", "host", "127.0.0.1"); ("Port", "port", "3306"); ("UseUnicode", "use_unicode", "True"); ("Charset", "charset", "utf8mb4");
   ("AutoCommit", "autocommit", "True"); ("SqlMode", "sql_mode", "ANSI")].
Theorem C134_config_partial get u d : get "User" = Some u -> get "Database" = Some d -> get "AutoCommit" = None ->
  exists args, parse_config (Some get) = Ok (u, d, args) /\ forall o f v, In (o, f, v) config_table -> In (f, match get o with Some x => x | None => v end) args.
Proof.
  intros U D A. unfold parse_config. rewrite U, D. unfold options. cbn [flat_map]. rewrite A.
  destruct (get "Password") as [v1|] eqn:E1, (get "Host") as [v2|] eqn:E2, (get "Port") as [v3|] eqn:E3, (get "UseUnicode") as [v4|] eqn:E4, (get "Charset") as [v5|] eqn:E5, (get "SqlMode") as [v6|] eqn:E6;
    (eexists; split; [reflexivity|]; cbn; intros o f v H; repeat (destruct H as [[= <- <- <-]|H]; [rewrite ?E1, ?E2, ?E3, ?E4, ?E5, ?E6, ?A; tauto|]); destruct H).
Qed.
Print Assumptions C134_config_partial.
(** Missing sections and entries are reported. *)
Theorem C134_missing section : (section = None \/ exists get, section = Some get /\ (get "User" = None \/ get "Database" = None)) <-> parse_config section = Raise ValueError.
Proof.
  destruct section as [get|]; [|split; [reflexivity|auto]]. unfold parse_config. split.
  - intros [H|(g & [= <-] & [H|H])]; [discriminate|now rewrite H|]. rewrite H. now destruct (get "User").
  - intros H. right. exists get. split; [reflexivity|]. destruct (get "User"); [|auto]. destruct (get "Database"); [|auto]. destruct (forallb _ _); discriminate H.
Qed.
Print Assumptions C134_missing.
(** AutoCommit cannot be configured at all. *)
Theorem C134_autocommit_refuted get u d v : get "User" = Some u -> get "Database" = Some d -> get "AutoCommit" = Some v -> parse_config (Some get) = Raise TypeError.
Proof.
  intros U D A. unfold parse_config. rewrite U, D. unfold options. cbn [flat_map]. rewrite A.
  destruct (get "Password"), (get "Host"), (get "Port"), (get "UseUnicode"), (get "Charset"), (get "SqlMode"); reflexivity.
Qed.
Print Assumptions C134_autocommit_refuted.
Example C134_config_ex : parse_config (Some (fun k => if String.eqb k "User" then Some "me" else if String.eqb k "Database" then Some "imdb" else if String.eqb k "Port" then Some "3307" else None))
  = Ok ("me", "imdb", [("password", ""); ("host", "127.0.0.1"); ("port", "3307"); ("use_unicode", "True"); ("charset", "utf8mb4"); ("autocommit", "True"); ("sql_mode", "ANSI")]).
Proof. reflexivity. Qed.
