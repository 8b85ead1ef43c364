(** C31: join order and operator hints for PostgreSQL. *)
From Coq Require Import List Bool Arith ZArith String Ascii Permutation Lia.
From Verif Require Import PyBase FSet Hint_model JT_model Lim_model PGHint_model PGHint_spec PGHint_proofs.
Import ListNotations.
Open Scope string_scope.

Section Props.
  Context {A C V : Type} (iter : list nat -> list nat) (card_text : C -> option string) (set_name : nat -> string) (set_value : V -> string).
  Notation pglab name := (@pglab_hints A C V name iter card_text set_name set_value).
  Notation lines name := (@lab_lines A C V name iter card_text set_name set_value).
  Notation hplines name := (@hp_lines A C V name iter card_text).
  Notation hintplan name := (@hintplan_hints A C V name iter card_text).
  Implicit Types t u : jt nat A.

  (** The text of the join order determines the order. *)
  Lemma walk_injective name t u s : (forall x, word (name x)) ->
    (forall a b x y, order_of t = Some a -> order_of u = Some b -> In x (order_tables a) -> In y (order_tables b) -> name x = name y -> x = y) ->
    walk name t = Ok s -> walk name u = Ok s -> order_of t = order_of u.
  Proof.
    intros Hw Hinj Ht Hu. destruct (walk_prefix name Hw t u s s "" "" Ht Hu I I eq_refl) as [(a & b & Ha & Hb & Hab) _].
    rewrite Ha, Hb. f_equal. eapply same_names_eq; [|eassumption]. intros x y Hx Hy. eapply Hinj; eassumption.
  Qed.

  (** The generated block determines the join order: for the same operators and parameters different orders of at least two tables give
      different pg_lab blocks, if each identifier is one word and no two tables share one. *)
  Theorem C31_pglab_join_order_partial name fresh t u ops pp b :
    (forall x, word (name x)) ->
    (forall c d x y, order_of t = Some c -> order_of u = Some d -> In x (order_tables c) -> In y (order_tables d) -> name x = name y -> x = y) ->
    2 <= jt_len t -> 2 <= jt_len u ->
    pglab name fresh (Some t) ops pp = Ok b -> pglab name fresh (Some u) ops pp = Ok b -> order_of t = order_of u.
  Proof.
    intros Hw Hinj Lt Lu Ht Hu. unfold pglab_hints, lab_lines in Ht, Hu.
    destruct (lab_workers fresh ops pp) as [ops'|] eqn:Ew; cbn [rbind rmap] in *; [|discriminate].
    assert (O : forall v : jt nat A, 2 <= jt_len v -> order_hint name "JoinOrder" (Some v) = rmap (fun s => ["JoinOrder(" ++ s ++ ")"]) (walk name v)).
    { intros v Lv. cbn [order_hint]. destruct v as [lg|lg x an|lg v1 v2 an]; [cbn in Lv; lia|cbn in Lv; lia|]. cbn [jt_empty]. destruct (Nat.ltb_spec 1 (jt_len (JJoin lg v1 v2 an))); [reflexivity|lia]. }
    rewrite (O t Lt) in Ht. rewrite (O u Lu) in Hu.
    destruct (walk name t) as [st|] eqn:Et; cbn [rmap rbind] in Ht; [|discriminate]. destruct (walk name u) as [su|] eqn:Eu; cbn [rmap rbind] in Hu; [|discriminate].
    enough (st = su) as <- by (eapply walk_injective; eassumption).
    assert (M : exists tail, lab_ops name iter ["Config(plan_mode=anchored)"; "JoinOrder(" ++ st ++ ")"] ops' = Ok ("Config(plan_mode=anchored)" :: ("JoinOrder(" ++ st ++ ")") :: tail) /\
                             lab_ops name iter ["Config(plan_mode=anchored)"; "JoinOrder(" ++ su ++ ")"] ops' = Ok ("Config(plan_mode=anchored)" :: ("JoinOrder(" ++ su ++ ")") :: tail)).
    { destruct ops' as [p|]; [|exists []; split; reflexivity].
      rewrite lab_ops_prefix in Ht |- *. rewrite (lab_ops_prefix _ _ ["Config(plan_mode=anchored)"; "JoinOrder(" ++ su ++ ")"]).
      destruct (lab_ops name iter [] (Some p)) as [tail|]; [|discriminate]. exists tail. split; reflexivity. }
    destruct M as (tail & Mt & Mu). rewrite Mt in Ht. rewrite Mu in Hu. cbn [rbind rmap] in Ht, Hu. injection Ht as Ht. injection Hu as Hu.
    rewrite <- Hu in Ht. unfold block in Ht. cbn [List.app map] in Ht.
    pose proof (concat_middle nl ["/*=pg_lab="; "  Config(plan_mode=anchored)"] ("  " ++ "JoinOrder(" ++ st ++ ")") ("  " ++ "JoinOrder(" ++ su ++ ")") _ Ht) as E.
    apply sapp_cancel_l in E. apply sapp_cancel_l in E. now apply sapp_cancel_r in E.
  Qed.
  (** The same for pg_hint_plan. *)
  Theorem C31_hintplan_join_order_partial name geqo t u ops pp b :
    (forall x, word (name x)) ->
    (forall c d x y, order_of t = Some c -> order_of u = Some d -> In x (order_tables c) -> In y (order_tables d) -> name x = name y -> x = y) ->
    2 <= jt_len t -> 2 <= jt_len u ->
    hintplan name geqo (Some t) ops pp = Ok b -> hintplan name geqo (Some u) ops pp = Ok b -> order_of t = order_of u.
  Proof.
    intros Hw Hinj Lt Lu Ht Hu. unfold hintplan_hints, hp_lines in Ht, Hu.
    assert (O : forall v : jt nat A, 2 <= jt_len v -> order_hint name "Leading" (Some v) = rmap (fun s => ["Leading(" ++ s ++ ")"]) (walk name v)).
    { intros v Lv. cbn [order_hint]. destruct v as [lg|lg x an|lg v1 v2 an]; [cbn in Lv; lia|cbn in Lv; lia|]. cbn [jt_empty]. destruct (Nat.ltb_spec 1 (jt_len (JJoin lg v1 v2 an))); [reflexivity|lia]. }
    rewrite (O t Lt) in Ht. rewrite (O u Lu) in Hu.
    destruct (walk name t) as [st|] eqn:Et; cbn [rmap rbind] in Ht; [|discriminate]. destruct (walk name u) as [su|] eqn:Eu; cbn [rmap rbind] in Hu; [|discriminate].
    enough (st = su) as <- by (eapply walk_injective; eassumption).
    set (pre := if geqo then ["Set(geqo off)"] else []) in *.
    assert (M : exists tail, (forall s b, rmap (block "/*+" " ")
        (rbind match ops with
           | None => Ok ((pre ++ [("Leading(" ++ s ++ ")")%string])%list, false)
           | Some p => rbind (hp_scans name (pre ++ [("Leading(" ++ s ++ ")")%string])%list false (dvalues (scans p))) (fun s0 =>
               rbind (hp_joins name iter (fst s0) (snd s0) (dvalues (joins p))) (fun hs =>
               rbind (hp_globals (glob p)) (fun gs => Ok ((hs ++ hp_inters name iter (inters p) ++ gs)%list, snd s0))))
           end (fun r => Ok (fst r ++ match pp with Some q => card_lines name iter card_text "Rows" (pp_cards q) ++ hp_workers name iter (snd r) (pp_workers q) | None => [] end)%list)) = Ok b ->
        b = block "/*+" " " (pre ++ ("Leading(" ++ s ++ ")")%string :: tail)%list)).
    { destruct ops as [p|].
      - destruct (hp_scans name [] false (dvalues (scans p))) as [[hs u0]|] eqn:E1; [|exists []; intros s b0 H; rewrite hp_scans_prefix, E1 in H; discriminate].
        destruct (hp_joins name iter [] u0 (dvalues (joins p))) as [js|] eqn:E2; [|exists []; intros s b0 H; rewrite hp_scans_prefix, E1 in H; cbn [rmap rbind fst snd] in H; rewrite hp_joins_prefix, E2 in H; discriminate].
        destruct (hp_globals (glob p)) as [gs|] eqn:E3.
        2:{ exists []. intros s b0 H. rewrite hp_scans_prefix, E1 in H. cbn [rmap rbind fst snd] in H. rewrite hp_joins_prefix, E2 in H. cbn [rmap rbind] in H. discriminate. }
        eexists. intros s b0 H. rewrite hp_scans_prefix, E1 in H. cbn [rmap rbind fst snd] in H. rewrite hp_joins_prefix, E2 in H. cbn [rmap rbind fst snd] in H. injection H as <-.
        rewrite <- !app_assoc. cbn [List.app]. reflexivity.
      - eexists. intros s b0 H. cbn [rbind rmap fst snd] in H. injection H as <-. rewrite <- !app_assoc. reflexivity. }
    destruct M as (tail & M). apply M in Ht. apply M in Hu. rewrite Hu in Ht. unfold block in Ht. rewrite !map_app in Ht. cbn [map] in Ht.
    rewrite <- !app_assoc in Ht. cbn [List.app] in Ht.
    pose proof (concat_middle nl ("/*+" :: map (fun l => " " ++ l) pre) (" " ++ "Leading(" ++ su ++ ")") (" " ++ "Leading(" ++ st ++ ")") _ Ht) as E.
    apply sapp_cancel_l in E. apply sapp_cancel_l in E. symmetry. now apply sapp_cancel_r in E.
  Qed.

  (** Every assigned scan and join operator occurs as a hint with its keyword and exactly its tables, if at most one of them has more than
      one worker; this one gets its workers. *)
  Theorem C31_pglab_operators_partial name fresh jo p pp ls :
    (forall l, Permutation (iter l) l) ->
    match pp with Some q => pp_workers q = [] | None => True end ->
    at_most_one_parallel p ->
    lines name fresh jo (Some p) pp = Ok ls ->
    forall o tabs w, assigned p o tabs w -> exists kw line, lab_keyword o kw /\ hint_with_workers name kw tabs w line /\ In line ls.
  Proof.
    intros Hit Hpp Hone Hl o tabs w Ha. unfold lab_lines in Hl.
    assert (lab_workers fresh (Some p) pp = Ok (Some p)) as E by (destruct pp as [q|]; cbn [lab_workers]; [rewrite Hpp|]; reflexivity).
    rewrite E in Hl. cbn [rbind] in Hl. destruct (order_hint name "JoinOrder" jo) as [ol|]; cbn [rbind] in Hl; [|discriminate].
    destruct (lab_ops name iter _ (Some p)) as [hints|] eqn:E2; cbn [rbind] in Hl; [|discriminate]. injection Hl as <-.
    destruct (lab_ops_ok _ _ _ _ _ E2) as ([[hs h] us] & is & gs & Hs & _ & _ & ->). cbn [fst].
    apply lab_steps_good in Hs as (outs & -> & Hf). 2:{ apply amo_of. rewrite steps_workers. exact Hone. }
    destruct (assigned_step name iter p o tabs w Hit Ha) as (x & ts & Hx & <- & <- & Hp & Ht).
    destruct (Forall2_In_l _ _ _ Hf x Hx) as (line & Hin & kw & Hkw & Hline).
    exists kw, line. split; [|split].
    - apply lab_op_keyword; [eapply assigned_kind; eassumption|assumption].
    - exists ts. split; [assumption|]. rewrite <- Ht. rewrite Hline. destruct (parallel (st_w x)) eqn:Ep.
      + apply parallel_many in Ep as (n & En & Hn). right. exists n. rewrite En. auto.
      + left. split; [|reflexivity]. intros n En. rewrite En in Ep. unfold parallel in Ep. apply Nat.ltb_ge in Ep. exact Ep.
    - rewrite !in_app_iff. auto.
  Qed.
  (** No other operator hints are generated: besides configuration, join order, intermediate operators, settings and parameters, every
      line is a hint for an assigned operator with its own tables. *)
  Theorem C31_pglab_only_assigned name fresh jo p ls :
    (forall l, Permutation (iter l) l) ->
    lines name fresh jo (Some p) (@None (@pparams C V)) = Ok ls -> inters p = [] -> glob p = [] ->
    exists head ops, ls = (head ++ ops)%list /\ (head = ["Config(plan_mode=anchored)"] \/ exists s, head = ["Config(plan_mode=anchored)"; "JoinOrder(" ++ s ++ ")"]) /\
      List.length ops = (List.length (scans p) + List.length (joins p))%nat /\
      forall line, In line ops -> exists o tabs w kw, assigned p o tabs w /\ lab_keyword o kw /\ hint_for name kw tabs line.
  Proof.
    intros Hit Hl Hin Hg. unfold lab_lines in Hl. cbn [lab_workers rbind] in Hl.
    destruct (order_hint name "JoinOrder" jo) as [ol|] eqn:Eo; cbn [rbind] in Hl; [|discriminate].
    destruct (lab_ops name iter _ (Some p)) as [hints|] eqn:E2; cbn [rbind] in Hl; [|discriminate]. injection Hl as <-.
    destruct (lab_ops_ok _ _ _ _ _ E2) as ([[hs h] us] & is & gs & Hs & Hi & Hgl & ->). rewrite Hin in Hi. injection Hi as <-. rewrite Hg in Hgl. injection Hgl as <-. cbn [fst lab_params].
    destruct (lab_steps_sound _ _ _ _ _ _ _ Hs) as (outs & -> & Hlen & Ho). rewrite !app_nil_r.
    exists ("Config(plan_mode=anchored)" :: ol), outs. split; [reflexivity|]. split.
    { cbn [order_hint] in Eo. destruct jo as [t|]; cbn [order_hint] in Eo; [|injection Eo as <-; now left]. destruct (jt_empty t); [injection Eo as <-; now left|].
      destruct (1 <? jt_len t)%nat; [|injection Eo as <-; now left]. destruct (walk name t) as [s|]; [|discriminate]. injection Eo as <-. right. exists s. reflexivity. }
    split. { rewrite Hlen. unfold steps_of, dvalues. now rewrite app_length, !map_length. }
    intros line Hline. destruct (Ho line Hline) as [H|(x & Hx & kw & Hkw & Hl)]; [discriminate|].
    destruct (step_assigned name iter p x Hit Hx) as (tabs & ts & Ha & Hp & Ht). exists (st_op x), tabs, (st_w x), kw. split; [assumption|]. split; [apply lab_op_keyword; [eapply assigned_kind; eassumption|assumption]|].
    exists ts. split; [assumption|]. rewrite <- Ht. destruct Hl as [->|[n ->]]; [left|right; exists n]; reflexivity.
  Qed.
  (** Assignments of supported operators always have hints. *)
  Theorem C31_pglab_total name fresh (jo : option (jt nat A)) p :
    (forall l, Permutation (iter l) l) ->
    match jo with Some t => order_of t <> None | None => True end ->
    (forall o tabs w, assigned p o tabs w -> exists kw, lab_keyword o kw) -> inters p = [] -> glob p = [] ->
    exists ls, lines name fresh jo (Some p) (@None (@pparams C V)) = Ok ls.
  Proof.
    intros Hit Hjo Hop Hi Hg. unfold lab_lines. cbn [lab_workers rbind].
    assert (W : forall t : jt nat A, order_of t <> None -> exists s, walk name t = Ok s).
    { induction t as [lg|lg x an|lg o IHo i IHi an]; cbn [order_of walk]; intros H; [congruence|eexists; reflexivity|].
      destruct (order_of o) as [a|]; [|congruence]. destruct (order_of i) as [b|]; [|congruence].
      destruct IHo as [so ->]; [discriminate|]. destruct IHi as [si ->]; [discriminate|]. eexists. reflexivity. }
    assert (exists ol, order_hint name "JoinOrder" jo = Ok ol) as [ol ->].
    { destruct jo as [t|]; cbn [order_hint]; [|eexists; reflexivity]. destruct (jt_empty t); [eexists; reflexivity|]. destruct (1 <? jt_len t)%nat; [|eexists; reflexivity].
      destruct (W t Hjo) as [s ->]. eexists. reflexivity. }
    cbn [rbind lab_ops]. rewrite lab_scans_steps.
    destruct (lab_steps_total (steps_of name iter p) ("Config(plan_mode=anchored)" :: ol) None false) as [s Hs]; [discriminate| |].
    { intros x Hx. destruct (step_assigned name iter p x Hit Hx) as (tabs & ts & Ha & _). destruct (Hop _ _ _ Ha) as [kw Hkw]. apply lab_op_keyword in Hkw; [congruence|eapply assigned_kind; eassumption]. }
    unfold steps_of in Hs. rewrite lab_steps_app in Hs. destruct (lab_steps _ (map (scan_step name) _)) as [s1|]; cbn [rbind] in *; [|discriminate].
    rewrite lab_joins_steps, Hs. cbn [rbind]. rewrite Hi, Hg. eexists. reflexivity.
  Qed.
  (** Operators without a keyword (index nested-loop joins) make the generation fail. *)
  Theorem C31_pglab_unsupported name fresh jo p o tabs w : (forall l, Permutation (iter l) l) -> assigned p o tabs w -> (forall kw, ~ lab_keyword o kw) ->
    forall ls, lines name fresh jo (Some p) (@None (@pparams C V)) <> Ok ls.
  Proof.
    intros Hit Ha Hno ls Hl. unfold lab_lines in Hl. cbn [lab_workers rbind] in Hl.
    destruct (order_hint name "JoinOrder" jo) as [ol|] eqn:Eo; cbn [rbind] in Hl; [|discriminate].
    destruct (lab_ops name iter _ (Some p)) as [hints|] eqn:E2; cbn [rbind] in Hl; [|discriminate].
    destruct (lab_ops_ok _ _ _ _ _ E2) as (s & is & gs & Hs & _).
    destruct (assigned_step name iter p o tabs w Hit Ha) as (x & ts & Hx & Hop & _).
    rewrite (lab_steps_unknown _ x) in Hs; [discriminate| |assumption|]. { cbn. discriminate. }
    rewrite Hop. destruct (lab_op o) as [kw|] eqn:E; [|reflexivity]. exfalso. apply (Hno kw). apply lab_op_keyword; [eapply assigned_kind; eassumption|assumption].
  Qed.

  (** pg_hint_plan: every assigned operator except plain index scans gets its own hint, also with many parallel operators. *)
  Theorem C31_hintplan_operators_partial name geqo jo p pp ls :
    (forall l, Permutation (iter l) l) ->
    hplines name geqo jo (Some p) pp = Ok ls ->
    forall o tabs w, assigned p o tabs w -> o <> PScan 1 -> exists kw line, hp_keyword o kw /\ hint_for name kw tabs line /\ In line ls.
  Proof.
    intros Hit Hl o tabs w Ha Hne. unfold hp_lines in Hl.
    destruct (order_hint name "Leading" jo) as [ol|]; cbn [rbind] in Hl; [|discriminate].
    destruct (hp_scans name _ false (dvalues (scans p))) as [[hs us]|] eqn:E1; cbn [rbind fst snd] in Hl; [|discriminate].
    destruct (hp_joins name iter hs us (dvalues (joins p))) as [js|] eqn:E2; cbn [rbind fst snd] in Hl; [|discriminate].
    destruct (hp_globals (glob p)) as [gs|]; cbn [rbind fst snd] in Hl; [|discriminate]. injection Hl as <-.
    destruct (hp_scans_lines _ _ _ _ _ _ E1) as [_ Hs]. destruct (hp_joins_lines _ _ _ _ _ _ E2) as [Hi Hj].
    assert (K : forall n kw, PScan n <> PScan 1 -> hp_op (PScan n) = Some kw -> hp_keyword (PScan n) kw).
    { intros n kw Hn H. do 4 (destruct n as [|n]; [cbn in H; try congruence; injection H as <-; constructor|]). discriminate. }
    assert (K' : forall n kw, hp_op (PJoin n) = Some kw -> hp_keyword (PJoin n) kw).
    { intros n kw H. do 3 (destruct n as [|n]; [cbn in H; injection H as <-; constructor|]). discriminate. }
    destruct Ha as [(t & a & Hin & -> & -> & ->)|(k & a & Hin & -> & -> & ->)].
    - destruct (Hs a) as (kw & Hkw & Hline); [change a with (snd (t, a)); now apply in_map|]. exists kw, (plain_line kw (name (sa_tab a))). split; [now apply K|]. split.
      + exists [sa_tab a]. split; [reflexivity|]. left. reflexivity.
      + rewrite !in_app_iff. auto.
    - destruct (Hj a) as (kw & Hkw & Hline); [change a with (snd (k, a)); now apply in_map|]. exists kw, (plain_line kw (inter_text name iter (ja_join a))). split; [now apply K'|]. split.
      + exists (iter (ja_join a)). split; [apply Hit|]. left. reflexivity.
      + rewrite !in_app_iff. auto.
  Qed.
End Props.
Print Assumptions C31_pglab_join_order_partial.
Print Assumptions C31_hintplan_join_order_partial.
Print Assumptions C31_pglab_operators_partial.
Print Assumptions C31_pglab_only_assigned.
Print Assumptions C31_pglab_total.
Print Assumptions C31_pglab_unsupported.
Print Assumptions C31_hintplan_operators_partial.

(** ** Concrete cases *)
Definition ex_name (t : nat) : string := match t with 0 => "a" | 1 => "b" | 2 => "c" | _ => "d" end.
Definition ex_card (c : nat) : option string := Some (num (Z.of_nat c)).
Notation ex_pglab nm := (@pglab_hints unit nat nat nm (fun l => l) ex_card (fun _ => "work_mem") (fun v => num (Z.of_nat v))).
Notation ex_lines nm := (@lab_lines unit nat nat nm (fun l => l) ex_card (fun _ => "work_mem") (fun v => num (Z.of_nat v))).
Notation ex_hp nm := (@hp_lines unit nat nat nm (fun l => l) ex_card).
Definition ex_scan t : jt nat unit := JScan false t tt.
Definition ex_tree : jt nat unit := JJoin false (JJoin false (ex_scan 0) (ex_scan 1) tt) (ex_scan 2) tt.
Definition ex_poa : poa :=
  mkpoa [(PJoin 1, false)] [([0; 1], mkja 3 1 [0; 1] None (Some 4)); ([0; 1; 2], mkja 4 0 [0; 1; 2] None None)] [([2], 2)]
        [(0, mksa 1 0 0 None); (2, mksa 2 1 2 (Some 1))].
(** A whole block: the hypotheses of the theorems hold for it. *)
Example ex_block : ex_lines ex_name 10 (Some ex_tree) (Some ex_poa) (Some (mkpp [([0; 1], 42)] [] [(0, 7)] (Some true))) =
  Ok ["Config(plan_mode=anchored)"; "JoinOrder(((a b) c))"; "SeqScan(a)"; "IdxScan(c)"; "HashJoin(a b (workers=4))"; "NestLoop(a b c)"; "Material(c)";
      "Set(enable_hashjoin = 'off')"; "Card(a b #42)"; "Set(work_mem = '7')"; "Config(exec_mode=sequential)"].
Proof. reflexivity. Qed.
Example ex_one_parallel : at_most_one_parallel ex_poa.
Proof.
  intros i j w v Hi Hj (n & -> & Hn) (m & -> & Hm). cbn in Hi, Hj.
  do 4 (destruct i as [|i]; [do 4 (destruct j as [|j]; [cbn in Hi, Hj; try discriminate; try reflexivity; try (injection Hi; injection Hj; intros; subst; lia)|]); cbn in Hj; destruct j; discriminate|]). cbn in Hi. destruct i; discriminate.
Qed.
Example ex_words t : word (ex_name t).
Proof. destruct t as [|[|[|t]]]; (split; [discriminate|cbn; repeat split; reflexivity]). Qed.
Example ex_order_differs : order_of ex_tree <> order_of (JJoin false (ex_scan 0) (JJoin false (ex_scan 1) (ex_scan 2) tt) tt) /\
  walk ex_name ex_tree = Ok "((a b) c)" /\ walk ex_name (JJoin false (ex_scan 0) (JJoin false (ex_scan 1) (ex_scan 2) tt) tt) = Ok "(a (b c))".
Proof. split; [cbn; congruence|split; reflexivity]. Qed.

(** With identifiers that contain spaces, two different join orders over the same four tables give the same block. *)
Definition space_name (t : nat) : string := match t with 0 => "a b" | 1 => "c" | 2 => "a" | _ => "b c" end.
Theorem C31_join_order_refuted : exists t u : jt nat unit,
  (forall x y, x < 4 -> y < 4 -> space_name x = space_name y -> x = y) /\ seteq (jt_tables t) (jt_tables u) /\ order_of t <> order_of u /\
  ex_pglab space_name 0 (Some t) None None = ex_pglab space_name 0 (Some u) None None /\
  ex_hp space_name false (Some t) None None = ex_hp space_name false (Some u) None None /\ is_ok (ex_pglab space_name 0 (Some t) None None) = true.
Proof.
  exists (JJoin false (JJoin false (ex_scan 0) (ex_scan 1) tt) (JJoin false (ex_scan 2) (ex_scan 3) tt) tt),
         (JJoin false (JJoin false (ex_scan 2) (ex_scan 3) tt) (JJoin false (ex_scan 0) (ex_scan 1) tt) tt).
  split. { intros x y Hx Hy. do 4 (destruct x as [|x]; [do 4 (destruct y as [|y]; [cbn; congruence|]); lia|]). lia. }
  split. { intros x. cbn. tauto. }
  split; [cbn; congruence|]. repeat split; reflexivity.
Qed.
Print Assumptions C31_join_order_refuted.

(** Two parallel operators: the second one gets no hint, the hint of the first is repeated. *)
Definition two_parallel : poa := mkpoa [] [([0; 1], mkja 3 1 [0; 1] None (Some 4))] [] [(0, mksa 1 0 0 (Some 2)); (1, mksa 2 3 1 (Some 3))].
Theorem C31_pglab_parallel_refuted : exists ls, ex_lines ex_name 0 None (Some two_parallel) None = Ok ls /\
  ls = ["Config(plan_mode=anchored)"; "SeqScan(a (workers=2))"; "SeqScan(a (workers=2))"; "SeqScan(a (workers=2))"] /\
  assigned two_parallel (PScan 3) [1] (Some 3) /\ assigned two_parallel (PJoin 1) [0; 1] (Some 4) /\
  (forall line, In line ls -> ~ hint_for ex_name "BitmapScan" [1] line /\ ~ hint_for ex_name "HashJoin" [0; 1] line).
Proof.
  eexists. split; [reflexivity|]. split; [reflexivity|]. split. { left. exists 1, (mksa 2 3 1 (Some 3)). cbn. auto. }
  split. { right. exists [0; 1], (mkja 3 1 [0; 1] None (Some 4)). cbn. auto. }
  intros line Hin. cbn in Hin. split; intros (ts & _ & Hl); destruct Hl as [Hl|[n Hl]]; repeat destruct Hin as [<-|Hin]; try discriminate; destruct Hin.
Qed.
Print Assumptions C31_pglab_parallel_refuted.

(** pg_hint_plan is told to use an index-only scan where an index scan was assigned. *)
Definition index_scan : poa := mkpoa [] [] [] [(0, mksa 1 1 0 None)].
Theorem C31_hintplan_index_scan_refuted : exists ls, ex_hp ex_name false None (Some index_scan) None = Ok ls /\ assigned index_scan (PScan 1) [0] None /\
  (forall line, In line ls -> ~ hint_for ex_name "IndexScan" [0] line) /\ exists line, In line ls /\ hint_for ex_name "IndexOnlyScan" [0] line.
Proof.
  eexists. split; [reflexivity|]. split. { left. exists 0, (mksa 1 1 0 None). cbn. auto. } split.
  - intros line [<-|[]] (ts & _ & [Hl|[n Hl]]); discriminate.
  - eexists. split; [now left|]. exists [0]. split; [reflexivity|]. left. reflexivity.
Qed.
Print Assumptions C31_hintplan_index_scan_refuted.
(** An index nested-loop join cannot be hinted. *)
Example ex_inlj : ex_lines ex_name 0 None (Some (mkpoa [] [([0; 1], mkja 3 3 [0; 1] None None)] [] [])) None = Raise KeyError /\ (forall kw, ~ lab_keyword (PJoin 3) kw).
Proof. split; [reflexivity|]. intros kw H. inversion H. Qed.
(** Workers given as plan parameters reach joins. *)
Example ex_workers : ex_lines ex_name 10 None (Some (mkpoa [] [([0; 1], mkja 3 1 [0; 1] None None)] [] [])) (Some (mkpp [] [([0; 1], 4)] [] None)) =
  Ok ["Config(plan_mode=anchored)"; "HashJoin(a b (workers=4))"].
Proof. reflexivity. Qed.
