(** C263–C265: hints, SET commands and row limits in the parser. *)
From Coq Require Import String Ascii List Bool Arith Lia.
From Verif Require Import PyBase PHint_model PHint_spec PHint_proofs.
Import ListNotations.
Open Scope list_scope.

(** *** C263: the comments of a query are its hints *)
Lemma raw_starts i : exists c r, raw_comment i = c :: r /\ is_space c = false.
Proof. destruct i as [pre c | pre c]; cbn; eexists; eexists; split; reflexivity. Qed.
Lemma strip_nonempty i : strip (raw_comment i) <> [].
Proof.
  destruct (raw_starts i) as (c & r & E & S0). rewrite E. intros Z. destruct (strip_head c r S0) as (b & Eb & F & _). rewrite Z in Eb. cbn in Eb. subst b.
  pose proof (Forall_inv F) as F0. cbn in F0. congruence.
Qed.
Lemma join_nonempty sep x l : x <> [] -> join sep (x :: l) <> [].
Proof. intros H Z. destruct l; cbn [join] in Z; [contradiction|]. apply app_eq_nil in Z as [Z _]. contradiction. Qed.
Theorem C263_comments_partial : forall items body set_cmds, Forall item_ok items -> body_ok body ->
  let t := concat (map item_text items) ++ body in
  exists hints, Forall2 trimmed_end (comments t) hints
  /\ (set_cmds = [] -> comments t = [] -> parse_hint_block t set_cmds = Ok None)
  /\ (comments t <> [] -> parse_hint_block t set_cmds = Ok (Some (join [newline] set_cmds, join [newline] hints)))
  /\ (join [newline] set_cmds <> [] -> parse_hint_block t set_cmds = Ok (Some (join [newline] set_cmds, join [newline] hints))).
Proof.
  intros items body set_cmds OK Bo t. exists (map (fun i => strip (raw_comment i)) items).
  assert (E : parse_hint_block t set_cmds = Ok (make_hint set_cmds (map (fun i => strip (raw_comment i)) items))).
  { unfold parse_hint_block. destruct (hint_items set_cmds body Bo items (S (List.length t)) [] OK) as [R _]; [unfold t; lia|]. exact R. }
  assert (C : comments t = map raw_comment items).
  { unfold t. rewrite (comments_items items body OK). destruct Bo as [-> _]. apply app_nil_r. }
  rewrite C, E. split; [|split; [|split]].
  - clear. induction items as [|i items IH]; constructor; [|exact IH]. destruct (raw_starts i) as (c & r & -> & S0). apply strip_head. exact S0.
  - intros -> Z. apply map_eq_nil in Z. subst items. reflexivity.
  - intros Z. destruct items as [|i items]; [contradiction|]. f_equal. unfold make_hint.
    pose proof (join_nonempty [newline] (strip (raw_comment i)) (map (fun i => strip (raw_comment i)) items) (strip_nonempty i)) as J. cbn [map].
    assert (G : forall a b : text, b <> [] -> match a, b with [], [] => None | _, _ => Some (a, b) end = Some (a, b)).
    { intros [|x a] [|y b] H; try reflexivity. contradiction. }
    apply G. exact J.
  - intros Z. f_equal. unfold make_hint. destruct (join [newline] set_cmds); [contradiction | reflexivity].
Qed.
Print Assumptions C263_comments_partial.
(** text in a literal becomes a hint; a line comment elsewhere makes the parser fail or is lost; nested comments are cut off; the same
    for a block comment directly after a multiplication *)
Theorem C263_comments_refuted :
  (comments (str "SELECT '/* x */'") = [] /\ parse_hint_block (str "SELECT '/* x */'") [] = Ok (Some ([], str "/* x */")))
  /\ (let q := str "SELECT 1 -- a /* b" ++ newline :: str "FROM t" in comments q = [str "-- a /* b"] /\ parse_hint_block q [] = Raise OtherError)
  /\ (let q := str "SELECT '/*'" in comments q = [] /\ parse_hint_block q [] = Raise OtherError)
  /\ (let q := str "SET x TO 'y'; -- a" ++ newline :: str "SELECT 1" in comments q = [str "-- a"] /\ parse_hint_block q [] = Ok None)
  /\ (let q := str "/* a /* b */ c */ SELECT 1" in comments q = [str "/* a /* b */ c */"] /\ parse_hint_block q [] = Ok (Some ([], str "/* a /* b */")))
  /\ (let q := str "SELECT 2 */* c */ 3" in comments q = [str "/* c */"] /\ parse_hint_block q [] = Ok (Some ([], str "/")))
  /\ (let q := str "SELECT 1 -- a" in comments q = [str "-- a"] /\ parse_hint_block q [] = Ok None)
  /\ (let q := str "-- a" in comments q = [str "-- a"] /\ parse_hint_block q [] = Raise OtherError).
Proof. repeat split; vm_compute; reflexivity. Qed.
Print Assumptions C263_comments_refuted.
Definition ex_items := [Line (str " ") (str " first  "); Block [newline] (str "+ HashJoin(a b) *"); Block (str "SET x TO 'it''s -- no'; ") (str "second")].
Example C263_case : Forall item_ok ex_items /\ body_ok (str " SELECT '--', ""/"" FROM t") /\
  parse_hint_block (concat (map item_text ex_items) ++ str " SELECT '--', ""/"" FROM t") [str "SET x TO 'y';"]
  = Ok (Some (str "SET x TO 'y';", str "-- first" ++ newline :: str "/*+ HashJoin(a b) **/" ++ newline :: str "/*second*/")).
Proof.
  split; [|split].
  - constructor; [|constructor; [|constructor; [|constructor]]].
    + split; [repeat constructor|]. vm_compute. intros F. repeat destruct F as [F|F]; try discriminate. exact F.
    + split; [vm_compute; reflexivity|]. repeat split; try (intros [X Y]; discriminate X); try (intros [X Y]; discriminate Y).
    + split; [vm_compute; reflexivity|]. repeat split; try (intros [X Y]; discriminate X); try (intros [X Y]; discriminate Y).
  - split; [vm_compute; reflexivity|]. cbn. repeat split; intros [X Y]; try discriminate X; discriminate Y.
  - vm_compute. reflexivity.
Qed.

(** *** C264: SET commands in front of a query *)
Lemma read_name_ok n r : ~ In " "%char n -> read_name (n ++ " "%char :: r) = (n, " "%char :: r).
Proof.
  induction n as [|c n IH]; intros H; [reflexivity|]. cbn [app read_name]. destruct (Ascii.eqb_spec c " ") as [->|D]; [exfalso; apply H; left; reflexivity|].
  rewrite IH; [reflexivity | intros F; apply H; right; exact F].
Qed.
Lemma read_literal_ok v r : ~ In quote v -> match r with d :: _ => d <> quote | [] => True end -> read_literal (v ++ quote :: r) = Some (v, r).
Proof.
  induction v as [|c v IH]; intros H Hr.
  - cbn [app read_literal]. rewrite Ascii.eqb_refl. destruct r as [|d r]; [reflexivity|]. destruct (Ascii.eqb_spec d quote); [contradiction | reflexivity].
  - cbn [app read_literal]. destruct (Ascii.eqb_spec c quote) as [->|D]; [exfalso; apply H; left; reflexivity|].
    rewrite IH; [reflexivity | intros F; apply H; right; exact F | exact Hr].
Qed.
Lemma read_set_ok n v : ~ In " "%char n -> ~ In quote v -> read_set (set_text n v) = Some (n, v).
Proof.
  intros Hn Hv. unfold read_set, set_text.
  change (expect (str "SET ") (str "SET " ++ n ++ str " TO '" ++ v ++ str "';")) with (Some (n ++ " "%char :: str "TO '" ++ v ++ str "';")).
  cbv beta iota. rewrite (read_name_ok n _ Hn). cbv beta iota.
  change (expect (str " TO '") (" "%char :: str "TO '" ++ v ++ str "';")) with (Some (v ++ quote :: str ";")).
  cbv beta iota. rewrite (read_literal_ok v (str ";") Hv); [|discriminate]. destruct (list_eq_dec ascii_dec (str ";") (str ";")); [reflexivity | contradiction].
Qed.
Definition simple_set (nv : text * text) : stmt := SSet true (fst nv) [CStr (snd nv)].
Lemma set_loop_ok all sets k rest : forall pre prep i, all = pre ++ map simple_set sets ++ SOther k :: rest -> i = List.length pre ->
  set_loop all (map simple_set sets ++ SOther k :: rest) i prep = Ok (prep ++ map (fun nv => set_text (fst nv) (snd nv)) sets, SOther k :: rest).
Proof.
  induction sets as [|nv sets IH]; intros pre prep i -> ->.
  - cbn [map app set_loop]. rewrite app_nil_r, skipn_len. reflexivity.
  - cbn [map app set_loop simple_set negb]. rewrite (IH (pre ++ [simple_set nv])).
    + rewrite <- app_assoc. reflexivity.
    + rewrite <- app_assoc. reflexivity.
    + rewrite app_length. cbn. lia.
Qed.
Theorem C264_set_partial : forall sets k, (forall nv, In nv sets -> ~ In " "%char (fst nv) /\ ~ In quote (snd nv)) ->
  exists preps, single_stmt (map simple_set sets ++ [SOther k]) = Ok (preps, SOther k) /\ map read_set preps = map Some sets.
Proof.
  intros sets k H. exists (map (fun nv => set_text (fst nv) (snd nv)) sets). split.
  - unfold single_stmt, set_commands. rewrite (set_loop_ok _ sets k [] [] [] 0); reflexivity.
  - rewrite map_map. apply map_ext_in. intros [n v] Hin. destruct (H _ Hin) as [A B]. exact (read_set_ok n v A B).
Qed.
Print Assumptions C264_set_partial.
(** and only such texts are accepted: SET commands followed by a single statement *)
Lemma set_loop_sound all : forall rest i prep done ps ss, all = done ++ rest -> i = List.length done -> Forall (fun s => match s with SSet true _ (CStr _ :: _) => True | _ => False end) done ->
  set_loop all rest i prep = Ok (ps, ss) ->
  exists sets tail, all = sets ++ tail /\ Forall (fun s => match s with SSet true _ (CStr _ :: _) => True | _ => False end) sets
  /\ ((exists k r, tail = SOther k :: r /\ ss = tail) \/ (tail = [] /\ exists s, ss = [s] /\ In s all)).
Proof.
  induction rest as [|s rest IH]; intros i prep done ps ss E Ei F H.
  - cbn [set_loop] in H. rewrite app_nil_r in E. subst done. destruct all as [|a l] eqn:A; [discriminate|]. injection H as _ <-.
    exists (a :: l), []. split; [rewrite app_nil_r; reflexivity|]. split; [exact F|]. right. split; [reflexivity|].
    destruct (exists_last (l := a :: l)) as (l' & z & El); [discriminate|]. exists z. rewrite El in *. split; [|apply in_or_app; right; left; reflexivity].
    rewrite Ei, app_length. cbn. replace (List.length l' + 1 - 1) with (List.length l') by lia. apply skipn_len.
  - destruct s as [ok n args | k]; cbn [set_loop] in H.
    + destruct ok; [|discriminate]. cbn [negb] in H. destruct args as [|[m|t|v|b|] args]; try discriminate.
      refine (IH (S i) _ (done ++ [SSet true n (CStr v :: args)]) ps ss _ _ _ H).
      * rewrite <- app_assoc. exact E.
      * rewrite app_length. cbn. lia.
      * apply Forall_app. split; [exact F|]. repeat constructor.
    + injection H as _ <-. exists done, (SOther k :: rest). split; [exact E|]. split; [exact F|]. left. exists k, rest. split; [reflexivity|].
      rewrite E, Ei. apply skipn_len.
Qed.
Theorem C264_single : forall stmts preps k, single_stmt stmts = Ok (preps, SOther k) ->
  exists sets, stmts = sets ++ [SOther k] /\ Forall (fun s => match s with SSet true _ (CStr _ :: _) => True | _ => False end) sets.
Proof.
  intros stmts preps k H. unfold single_stmt, set_commands in H. destruct (set_loop stmts stmts 0 []) as [[ps ss]|e] eqn:E; [|discriminate].
  cbn [rbind fst snd] in H. destruct ss as [|s [|s2 ss]]; try discriminate. injection H as _ ->.
  destruct (set_loop_sound stmts stmts 0 [] [] ps [SOther k] eq_refl eq_refl (Forall_nil _) E) as (sets & tail & A & F & [(k' & r & T & S0) | (T & s & S0 & Hin)]).
  - exists sets. split; [rewrite S0; exact A | exact F].
  - exfalso. injection S0 as <-. rewrite T, app_nil_r in A. rewrite A in Hin. rewrite Forall_forall in F. exact (F _ Hin).
Qed.
Print Assumptions C264_single.
(** numbers are errors, all but the first value of a list are lost, and quotes are not doubled again *)
Theorem C264_set_refuted :
  single_stmt [SSet true (str "geqo_threshold") [CInt 12]; SOther 0] = Raise KeyError
  /\ single_stmt [SSet true (str "search_path") [CStr (str "a"); CStr (str "b")]; SOther 0] = single_stmt [SSet true (str "search_path") [CStr (str "a")]; SOther 0]
  /\ (exists p, single_stmt [SSet true (str "x") [CStr (str "it's")]; SOther 0] = Ok ([p], SOther 0) /\ read_set p = None)
  /\ (exists p s, single_stmt [SSet true (str "x") [CStr (str "y")]] = Ok (p, s) /\ s <> SOther 0).
Proof.
  split; [reflexivity|]. split; [reflexivity|]. split.
  - eexists. split; [reflexivity | vm_compute; reflexivity].
  - eexists. eexists. split; [reflexivity | discriminate].
Qed.
Print Assumptions C264_set_refuted.
Example C264_case : single_stmt [simple_set (str "enable_nestloop", str "off"); simple_set (str "geqo", str "on"); SOther 7]
  = Ok ([str "SET enable_nestloop TO 'off';"; str "SET geqo TO 'on';"], SOther 7).
Proof. reflexivity. Qed.

(** *** C265: LIMIT and OFFSET *)
Theorem C265_limit_partial : forall (R : Type) raw_limit raw_offset q lim off (l : list R),
  counts raw_limit lim -> counts raw_offset off -> raw_limit <> Some CNull -> raw_limit <> Some (CInt 0) -> raw_offset <> Some CNull ->
  contains (str "limit") q || contains (str "fetch first") q || contains (str "fetch next") q = true ->
  match parse_limit raw_limit raw_offset q with
  | Ok None => rows lim off l = l /\ lim = None /\ off = None
  | Ok (Some c) => l_limit c = lim /\ l_offset c = off /\ rows (l_limit c) (l_offset c) l = rows lim off l /\ (l_dir c = DFirst \/ l_dir c = DNext)
  | Raise _ => False
  end.
Proof.
  intros R raw_limit raw_offset q lim off l Cl Co NL ZL NO Hq. unfold parse_limit.
  destruct (contains (str "limit") q || contains (str "fetch first") q) eqn:S0.
  - destruct Cl as [| |n]; [| congruence |]; destruct Co as [| |o]; try congruence.
    + repeat split; reflexivity.
    + destruct o as [|o]; cbn; repeat split; auto.
    + destruct n as [|n]; [congruence|]. cbn [ival rbind rmap]. cbv zeta. rewrite ?S0. cbn. repeat split; auto.
    + destruct n as [|n]; [congruence|]. destruct o as [|o]; cbn [ival rbind rmap]; cbv zeta; rewrite ?S0; cbn; repeat split; auto.
  - cbn [orb] in Hq. destruct Cl as [| |n]; [| congruence |]; destruct Co as [| |o]; try congruence.
    + repeat split; reflexivity.
    + destruct o as [|o]; cbn; repeat split; auto.
    + destruct n as [|n]; [congruence|]. cbn [ival rbind rmap]. cbv zeta. rewrite ?S0, ?Hq. cbn. repeat split; auto.
    + destruct n as [|n]; [congruence|]. destruct o as [|o]; cbn [ival rbind rmap]; cbv zeta; rewrite ?S0, ?Hq; cbn; repeat split; auto.
Qed.
Print Assumptions C265_limit_partial.
(** LIMIT 0 is an error or, with an offset, no limit; LIMIT ALL and further blanks in FETCH  FIRST are errors *)
Theorem C265_limit_refuted :
  parse_limit (Some (CInt 0)) None (str "select * from t limit 0") = Raise ValueError
  /\ (exists c, parse_limit (Some (CInt 0)) (Some (CInt 1)) (str "select * from t limit 0 offset 1") = Ok (Some c)
        /\ rows (l_limit c) (l_offset c) [1; 2; 3] = [2; 3] /\ rows (Some 0) (Some 1) [1; 2; 3] = [])
  /\ parse_limit (Some CNull) None (str "select * from t limit all") = Raise KeyError
  /\ parse_limit (Some (CInt 5)) None (str "select * from t fetch  first 5 rows only") = Raise OtherError
  /\ (exists c, parse_limit (Some (CInt 5)) None (str "select last from t where x = 'fetch last' fetch  next 5 rows only") = Ok (Some c) /\ l_dir c = DLast).
Proof.
  split; [reflexivity|]. split; [eexists; split; [vm_compute; reflexivity | split; reflexivity]|]. split; [reflexivity|]. split; [vm_compute; reflexivity|].
  eexists. split; [vm_compute; reflexivity | reflexivity].
Qed.
Print Assumptions C265_limit_refuted.
Example C265_case : parse_limit (Some (CInt 3)) (Some (CInt 0)) (str "select * from t offset 0 fetch next 3 rows only") = Ok (Some (mkL (Some 3) (Some 0) DNext))
  /\ counts (Some (CInt 3)) (Some 3) /\ rows (Some 3) (Some 1) [1; 2; 3; 4; 5] = [2; 3; 4].
Proof. split; [vm_compute; reflexivity|]. split; [constructor | reflexivity]. Qed.
