(** C228: values of predicates; C229: consistent dependencies; C230: IN predicates; C231: escaping; C232: final queries;
    C233: registering generators; C234: target columns; C235: workloads (experiments/ceb.py). *)
From Coq Require Import String List Bool Arith Lia Ascii.
From Verif Require Import PyBase Num_model CEB_model CEB_spec CEB_proofs CEB_top.
Import ListNotations.

(** Templates for the examples. All columns are called [t.c]; [dt] is their data type. *)
Definition ex_schema (dt : string) : schema := Schema (fun _ tabs => match tabs with [] => None | x :: _ => Some x end) (fun _ _ => Some dt).
Definition ex_col : colname := (Some "t"%string, "c"%string).
Definition ex_list (name key : nat) (opts : list string) : gen :=
  Gen name [key] [PEq] [ex_col] (TList (map (fun s => [VS s]) opts)) Uniform 1 None None None None.
Definition ex_sql (name key : nat) (sql : list tok) (deps : list nat) : gen :=
  Gen name [key] [PEq] [ex_col] (TSql sql) Uniform 1 None None (Some deps) None.
Definition registered (t : template) (gs : list gen) : template := fold_left (fun t g => snd (register_generator t g)) gs t.
Definition ex_template (gs : list gen) (base : list tok) : template :=
  registered (new_template base "q" [("t"%string, Some "tab"%string)]) gs.
Definition ex_st : st := St [] 0.
Definition stream (l : list nat) (i : nat) : nat := nth i l 0.

(** C228, list predicates: the value is one of the options (without its weight column), values of other predicates stay. *)
Theorem C228_option : forall dr exec sc t fuel g rows s s', ~ In PIn (g_types g) -> g_tt g = TList rows ->
  choose dr exec fuel sc t g s = (Ok tt, s') ->
  exists r v, In r rows /\ payload (weight_column g) r v /\ dget (sel s') (g_name g) = Some v /\
    (forall n, n <> g_name g -> dget (sel s') n = dget (sel s) n).
Proof.
  intros dr exec sc t fuel g rows s s' Hsc Hg H. destruct fuel as [|f]; [discriminate|]. cbn [choose] in H.
  destruct (choose_loop_list dr exec sc t _ g rows Hg _ _ _ _ H) as (p & v & Hd & _ & _ & Hs).
  rewrite (scalar_draw dr g p rows Hsc) in Hd. destruct (draw_scalar_payload _ _ _ _ _ Hd) as (r & Hr & Hp).
  exists r, v. split; [exact Hr|]. split; [exact Hp|]. rewrite Hs. split; [apply dset_same|]. intros n Hn. apply dset_other. exact Hn.
Qed.
Print Assumptions C228_option.
(** C228: a list predicate always finds a value. *)
Theorem C228_finds : forall dr exec sc t fuel g rows s, ~ In PIn (g_types g) -> g_tt g = TList rows -> rows <> [] ->
  (forall r, In r rows -> r <> []) -> g_samp g <> OtherSampling -> weight_column g = None -> g_tries g <> Some 0 -> 0 < fuel ->
  exists s', choose dr exec fuel sc t g s = (Ok tt, s').
Proof. intros dr exec sc t [|f] g rows s; intros; [lia|]. eapply choose_list_total; eauto. Qed.
Print Assumptions C228_finds.
Example C228_ex : choose (stream [3]) (fun _ => []) 5 (ex_schema "text") (ex_template [ex_list 1 7 ["a"; "b"; "a"; "c"]%string] [])
  (ex_list 1 7 ["a"; "b"; "a"; "c"]%string) ex_st = (Ok tt, St [(1, [VS "b"%string])] 5).
Proof. reflexivity. Qed.
Example C228_ex_weight : draw_scalar (stream [1]) (Gen 1 [7] [PEq] [ex_col] (TList []) Weighted 1 None (Some 1) None None) 0
  [[VS "a"; VS "10"]; [VS "b"; VS "3"]]%string = Ok [VS "b"%string].
Proof. reflexivity. Qed.

(** C229, full claim "in a generated query the value of each SQL predicate is one of the answers to its candidate query under
    the values of the predicates it depends on": false. Predicate 3 was drawn while predicate 1 had the value "x"; predicate 2
    finds no candidates for "x" and has predicate 1 redrawn. *)
Definition in_text (s : string) (q : list tok) : bool := existsb (fun x => match x with TText u => String.eqb u s | _ => false end) q.
Definition ex_exec (q : list tok) : list (list val) :=
  if in_text "B" q then (if in_text "'y'" q then [[VS "b"%string]] else [])
  else if in_text "'y'" q then [[VS "of y"%string]] else [[VS "of x"%string]].
Definition ex_gens : list gen :=
  [ex_list 1 1 ["x"; "y"]%string; ex_sql 2 2 [TText "B"%string; THole 1] [1]; ex_sql 3 3 [TText "C"%string; THole 1] [1]].
Theorem C229_refuted : exists s', generate_raw_query (stream [0; 0; 0; 0; 1; 1; 1; 1]) ex_exec 50 (ex_schema "text")
    (ex_template ex_gens [THole 1; THole 3]) ex_st = (Ok [TText "'y'"; TText "'of x'"], s')%string /\
  built (ex_template ex_gens [THole 1; THole 3]) /\ In (ex_sql 3 3 [TText "C"%string; THole 1] [1]) ex_gens /\
  ~ answers ex_exec (ex_schema "text") (ex_template ex_gens [THole 1; THole 3]) s' (ex_sql 3 3 [TText "C"%string; THole 1] [1]).
Proof.
  eexists. split; [vm_compute; reflexivity|]. split.
  { apply (built_register (ex_template (firstn 2 ex_gens) [THole 1; THole 3]) (nth 2 ex_gens (ex_list 0 0 []))); [|reflexivity].
    apply (built_register (ex_template (firstn 1 ex_gens) [THole 1; THole 3]) (nth 1 ex_gens (ex_list 0 0 []))); [|reflexivity].
    apply (built_register (ex_template [] [THole 1; THole 3]) (nth 0 ex_gens (ex_list 0 0 []))); [|reflexivity]. constructor. }
  split; [cbn; auto|]. intros H. destruct (H _ eq_refl) as (deps & q' & r & v & Hd & Ha & Hr & Hv & Hp).
  injection Hd as <-. vm_compute in Hv. injection Hv as <-.
  inversion Ha as [|d rr g f q q1 q2 Hg Hn Hf Hf' Hq Hrest]; subst. inversion Hrest; subst.
  cbn in Hg. destruct Hg as [<-|[<-|[<-|[]]]]; cbn in Hn; try discriminate.
  destruct (Hf 1 (or_introl eq_refl)) as (v & x & (vs & i & H1 & [H2 _] & H3) & Hx & Hfx).
  vm_compute in H1. injection H1 as <-. destruct i as [|[|i]]; cbn in H3; try discriminate. injection H3 as <-.
  vm_compute in Hx. injection Hx as <-.
  inversion Hq as [|? y1 ? l1 T1 Hq1]; subst. inversion Hq1 as [|? y2 ? l2 T2 Hq2]; subst. inversion Hq2; subst.
  cbn in T1, T2. rewrite Hfx in T2. subst. vm_compute in Hr. destruct Hr as [<-|[]].
  cbn in Hp. inversion Hp.
Qed.
Print Assumptions C229_refuted.
(** C229, what holds: if candidate queries always have results, there are no IN predicates and the dependency graph hands out
    all predicates once and dependencies first (see C43), the values of a generated query belong together. *)
Theorem C229_partial : forall dr exec fuel sc t s q s', built t -> (forall g, In g (t_gens t) -> ~ In PIn (g_types g)) ->
  (forall q, exec q <> []) ->
  (forall dg order, dep_graph t = Ok dg -> dg_iter fuel dg = Ok order -> NoDup order /\ (forall g, In g (t_gens t) -> In (g_name g) order) /\
     (forall a n b g deps d, order = a ++ n :: b -> find_gen t n = Some g -> g_deps g = Some deps -> In d deps -> In d a)) ->
  generate_raw_query dr exec fuel sc t s = (Ok q, s') ->
  forall g, In g (t_gens t) -> answers exec sc t s' g.
Proof.
  intros dr exec fuel sc t s q s' Hb Hsc He Ho H g Hg. unfold generate_raw_query in H.
  destruct (dep_graph t) as [dg|] eqn:Ed; [|discriminate]. destruct (dg_iter fuel dg) as [order|] eqn:Ei; [|discriminate].
  destruct (Ho dg order eq_refl Ei) as (Hn & Hall & Hdep).
  destruct (choose_all dr exec fuel sc t order s) as [[[]|e] s1] eqn:Ec; cbn [bindS] in H; [|discriminate].
  assert (s1 = s') by congruence. subst s1. destruct fuel as [|f].
  { destruct order as [|n order]; [exfalso; apply (Hall g Hg)|]. cbn in Ec. destruct (find_gen t n); discriminate. }
  refine (choose_all_answers dr exec sc t f _ Hsc He order [] s s' Hn _ _ Ec (g_name g) g (Hall g Hg) (built_find t g Hb Hg)).
  - intros n Hin. apply in_map_iff in Hin. destruct Hin as (g0 & <- & Hg0). exists g0. apply built_find; assumption.
  - intros a n b g0 E1 E2 deps d E3 E4. exact (Hdep a n b g0 deps d E1 E2 E3 E4).
  - intros n g0 [].
Qed.
Print Assumptions C229_partial.
Example C229_ex : let t := ex_template [ex_list 1 1 ["x"; "y"]%string; ex_sql 3 3 [TText "C"%string; THole 1] [1]] [THole 3; TText " "%string; THole 1] in
  fst (generate_raw_query (stream [1]) (fun q => if in_text "'y'" q then [[VS "of y"]] else [[VS "of x"]])%string 50 (ex_schema "text") t ex_st)
    = Ok [TText "'of y'"; TText " "; TText "'y'"]%string /\
  (exists dg, dep_graph t = Ok dg /\ dg_iter 50 dg = Ok [1; 3]).
Proof. cbn zeta. split; [vm_compute; reflexivity|eexists; split; [vm_compute; reflexivity|vm_compute; reflexivity]]. Qed.
(** A predicate can even be drawn before one it depends on (C43): the generator gives up with an error, whatever is drawn. *)
Theorem C229_order_refuted : forall dr, let t := ex_template [ex_list 1 1 ["x"]%string; ex_sql 2 2 [TText "B"%string; THole 1] [1]; ex_sql 3 3 [TText "C"%string; THole 1; THole 2] [1; 2]] [THole 3] in
  built t /\ fst (generate_raw_query dr (fun _ => [[VS "v"%string]]) 50 (ex_schema "text") t ex_st) = Raise StateError.
Proof.
  intros dr. set (gs := [ex_list 1 1 ["x"]%string; ex_sql 2 2 [TText "B"%string; THole 1] [1]; ex_sql 3 3 [TText "C"%string; THole 1; THole 2] [1; 2]]). split.
  - apply (built_register (ex_template (firstn 2 gs) [THole 3]) (nth 2 gs (ex_list 0 0 []))); [|reflexivity].
    apply (built_register (ex_template (firstn 1 gs) [THole 3]) (nth 1 gs (ex_list 0 0 []))); [|reflexivity].
    apply (built_register (ex_template [] [THole 3]) (nth 0 gs (ex_list 0 0 []))); [|reflexivity]. constructor.
  - reflexivity.
Qed.
Print Assumptions C229_order_refuted.

(** C230, full claim "an IN predicate becomes a list of between min_samples and max_samples distinct candidates": false.
    1. Uniform sampling: whatever values are drawn, they cannot be inserted into the query. *)
Theorem C230_uniform_refuted : forall dr g p rows v dt, g_samp g = Uniform -> 1 <= g_min g -> draw_multi dr g p rows = Ok v ->
  exists x, v = [x] /\ escape x PIn dt = Raise AssertionError.
Proof.
  intros dr g p rows v dt Hs Hm H. destruct (draw_multi_uniform dr g p rows v Hs H) as (sel & -> & Hl & _).
  exists (VT (map VT sel)). split; [reflexivity|]. rewrite escape_VT. rewrite deqb_refl. rewrite escape_list_VT; [reflexivity|].
  intros ->. cbn in Hl. lia.
Qed.
Print Assumptions C230_uniform_refuted.
Definition ex_in (s : sampling) (mn : nat) (mx count : option nat) : gen := Gen 1 [7] [PIn] [ex_col] (TList [[VS "a"]; [VS "b"]; [VS "b"]; [VS "c"]]%string) s mn mx count None None.
Example C230_uniform_ex : fst (generate_raw_query (fun i => i) (fun _ => []) 50 (ex_schema "text") (ex_template [ex_in Uniform 1 None None] [THole 7]) ex_st) = Raise AssertionError.
Proof. vm_compute. reflexivity. Qed.
(** 2. A predicate with at least two samples never finds a value. *)
Theorem C230_samples_refuted : forall dr exec fuel sc t g s k s', g_types g = [PIn] -> g_keys g = [k] -> 2 <= g_min g ->
  choose dr exec fuel sc t g s <> (Ok tt, s').
Proof.
  intros dr exec fuel sc t g s k s' Ht Hk Hm H. destruct fuel as [|f]; [discriminate|]. cbn [choose] in H.
  destruct (choose_loop_Ok dr exec sc t _ _ _ _ _ _ H) as (rd & s0 & v & s1 & Hn & Hp & _).
  unfold next_value in Hn. destruct (match g_tt g with TSql _ => _ | TList _ => _ end) as [[rows|e] s2]; cbn [bindS] in Hn; [|discriminate].
  unfold draw in Hn. rewrite Ht, deqb_refl in Hn. injection Hn as Hn _. destruct (draw_multi_shape _ _ _ _ _ Hn) as (l & ->).
  rewrite forallb_forall in Hp. specialize (Hp k). rewrite placeholders_In, Hk in Hp. specialize (Hp (or_introl eq_refl)).
  unfold passes, predicate_for in Hp. rewrite Hk, Ht in Hp. cbn [key_index] in Hp. rewrite Nat.eqb_refl in Hp. cbn [nth_error length] in Hp.
  apply andb_prop in Hp. destruct Hp as [Hp _]. apply Nat.leb_le in Hp. lia.
Qed.
Print Assumptions C230_samples_refuted.
Example C230_samples_ex : fst (choose (fun i => i) (fun _ => []) 50 (ex_schema "text") (ex_template [ex_in Weighted 2 None None] [THole 7]) (ex_in Weighted 2 None None) ex_st) = Raise RuntimeError.
Proof. vm_compute. reflexivity. Qed.
(** 3. Candidates with a weight column are always rejected. *)
Theorem C230_weights_refuted : forall dr g p rows, g_count g <> None -> rows <> [] -> (forall r, In r rows -> length r = 2) ->
  draw_multi dr g p rows = Raise ValueError.
Proof. intros. apply draw_multi_weights; assumption. Qed.
Print Assumptions C230_weights_refuted.
Example C230_weights_ex : draw_multi (fun i => i) (ex_in Weighted 1 None (Some 1)) 0 [[VS "a"; VS "10"]; [VS "b"; VS "3"]]%string = Raise ValueError.
Proof. reflexivity. Qed.
(** C230, what holds: weighted sampling without a weight column. Missing: the three cases above. *)
Theorem C230_partial : forall dr exec fuel sc t g rows s s', g_types g = [PIn] -> g_tt g = TList rows -> g_samp g = Weighted -> g_count g = None ->
  choose dr exec fuel sc t g s = (Ok tt, s') ->
  exists l, dget (sel s') (g_name g) = Some [VT l] /\ NoDup l /\ g_min g <= length l /\ (forall m, g_max g = Some m -> length l <= m) /\
    (forall x, In x l -> exists r, In r rows /\ nth_error r 0 = Some x).
Proof.
  intros dr exec fuel sc t g rows s s' Ht Hg Hs Hc H. destruct fuel as [|f]; [discriminate|]. cbn [choose] in H.
  destruct (choose_loop_list dr exec sc t _ g rows Hg _ _ _ _ H) as (p & v & Hd & _ & _ & Hsel).
  unfold draw in Hd. rewrite Ht, deqb_refl in Hd. destruct (draw_multi_weighted dr g p rows v Hs Hc Hd) as (l & -> & Hl).
  exists l. split; [rewrite Hsel; apply dset_same|exact Hl].
Qed.
Print Assumptions C230_partial.
Example C230_ex : fst (generate_raw_query (stream [7; 2; 5]) (fun _ => []) 50 (ex_schema "text") (ex_template [ex_in Weighted 1 (Some 2) None] [TText "c IN "; THole 7]%string) ex_st)
  = Ok [TText "c IN "; TText "('c', 'b')"]%string.
Proof. vm_compute. reflexivity. Qed.

(** C231, full claim "a value is inserted as the SQL literal of the value": false. LIKE patterns are quoted twice, whatever
    the value, and quotes inside a value end the literal. *)
Theorem C231_like_refuted : forall s p dt, is_text dt = true -> p = PLike \/ p = PILike ->
  escape (VS s) p dt = Ok (append "''%" (append s "%''")) /\ escape (VS s) p dt <> Ok (scalar_literal p true s).
Proof.
  intros s p dt Hd Hp. assert (E : escape (VS s) p dt = Ok (append "''%" (append s "%''"))).
  { cbn [escape]. rewrite Hd. destruct Hp as [-> | ->]; cbn [append]; rewrite append_assoc; reflexivity. }
  split; [exact E|]. rewrite E. intros H. injection H as H. destruct Hp as [-> | ->]; cbn in H; discriminate.
Qed.
Print Assumptions C231_like_refuted.
Theorem C231_quote_refuted : escape (VS "O'Hara") PEq "text" = Ok "'O'Hara'"%string /\ scalar_literal PEq true "O'Hara" = "'O''Hara'"%string.
Proof. split; reflexivity. Qed.
Print Assumptions C231_quote_refuted.
(** C231, what holds: comparisons with values without quotes, numbers, and IN lists of such values. *)
Theorem C231_partial : forall s p dt, p <> PLike -> p <> PILike -> (is_text dt = true -> ~ has_char quote s) ->
  escape (VS s) p dt = Ok (scalar_literal p (is_text dt) s).
Proof.
  intros s p dt H1 H2 Hq. cbn [escape]. unfold scalar_literal. destruct (is_text dt) eqn:E; [|reflexivity].
  specialize (Hq eq_refl). unfold literal. destruct p; try congruence; rewrite (doubled_id s Hq); reflexivity.
Qed.
Print Assumptions C231_partial.
Theorem C231_in_partial : forall ss dt, (is_text dt = true -> forall s, In s ss -> ~ has_char quote s) ->
  exists text, commas (map (scalar_literal PEq (is_text dt)) ss) text /\ escape (VT (map VS ss)) PIn dt = Ok (append "(" (append text ")")).
Proof.
  intros ss dt Hq. exists (join ", " (map (scalar_literal PEq (is_text dt)) ss)). split; [apply join_commas|].
  rewrite escape_VT, deqb_refl, escape_list_Ok. cbn [rmap rbind]. do 4 f_equal. apply map_ext_in. intros s Hs.
  unfold scalar_literal. destruct (is_text dt); [|reflexivity]. unfold literal. rewrite (doubled_id s (Hq eq_refl s Hs)). reflexivity.
Qed.
Print Assumptions C231_in_partial.
Example C231_ex : escape (VT [VS "a"; VS "b c"]%string) PIn "varchar" = Ok "('a', 'b c')"%string /\ escape (VS "42") PEq "integer" = Ok "42"%string /\
  escape (VS "a") PEq "character varying" = Ok "'a'"%string.
Proof. repeat split; reflexivity. Qed.

(** C232: in a generated query every placeholder of a registered predicate has become the text of its final value; everything
    else is as in the template. *)
Theorem C232_filled : forall dr exec fuel sc t s q s', generate_raw_query dr exec fuel sc t s = (Ok q, s') ->
  exists f, Forall2 (token_filled f) (t_base t) q /\
    (forall k, (exists g, In g (t_gens t) /\ In k (g_keys g)) ->
       exists g v x, In g (t_gens t) /\ In k (g_keys g) /\ selected s' g k v /\ hole_text sc t k v = Ok x /\ f k = Some x) /\
    (forall k, (forall g, In g (t_gens t) -> ~ In k (g_keys g)) -> f k = None).
Proof.
  intros dr exec fuel sc t s q s' H. unfold generate_raw_query in H.
  destruct (dep_graph t) as [dg|]; [|discriminate]. destruct (dg_iter fuel dg) as [order|]; [|discriminate].
  destruct (choose_all dr exec fuel sc t order s) as [[[]|e] s1]; cbn [bindS] in H; [|discriminate].
  assert (E : fill_all sc t (t_gens t) (t_base t) s1 = Ok q) by congruence. assert (s1 = s') by congruence. subst s1.
  apply fill_all_filled. exact E.
Qed.
Print Assumptions C232_filled.
(** C232: the text of a value: the literal for the type of its column (and the comparison of its predicate). *)
Theorem C232_text : forall sc t g k v i a col p tab dt, built t -> In g (t_gens t) -> last_position (g_keys g) k i ->
  nth_error (g_cols g) i = Some (Some a, col) -> nth_error (g_types g) i = Some p -> dget (t_aliases t) a = Some tab ->
  s_dtype sc tab col = Some dt -> hole_text sc t k v = escape v p dt.
Proof.
  intros sc t g k v i a col p tab dt Hb Hg [Hi Hlast] Hc Hp Ha Hd. destruct (built_ok t Hb) as [_ Hlk].
  unfold hole_text. rewrite (proj2 (Hlk k g)); [|split; [exact Hg|eapply nth_error_In; eauto]].
  assert (Hki : key_index (g_keys g) k = Some i).
  { destruct (key_index (g_keys g) k) as [j|] eqn:E.
    - destruct (key_index_last _ _ _ E) as [Hj Hj']. f_equal. destruct (Nat.lt_trichotomy i j) as [L|[L|L]]; [|auto|].
      + exfalso. apply (Hlast j L). exact Hj.
      + exfalso. apply (Hj' i L). exact Hi.
    - apply key_index_None in E. exfalso. apply E. eapply nth_error_In; eauto. }
  unfold column_for. rewrite Hki, Hc. cbn [rbind]. unfold lookup_column. cbn [fst snd]. rewrite Ha. cbn [rbind]. rewrite Hd. cbn [found rbind].
  unfold predicate_for. rewrite Hki, Hp. reflexivity.
Qed.
Print Assumptions C232_text.
Example C232_ex : fst (generate_raw_query (fun i => i) (fun _ => []) 50 (ex_schema "integer") (ex_template [ex_list 1 7 ["5"; "6"]%string; ex_list 2 8 ["9"]%string] [TText "a = "; THole 8; THole 3; THole 7; THole 8]%string) ex_st)
  = Ok [TText "a = "; TText "9"; THole 3; TText "5"; TText "9"]%string.
Proof. vm_compute. reflexivity. Qed.

(** C233: registered predicates have different names, each placeholder belongs to exactly the predicate that provides it. *)
Theorem C233_owner : forall t, built t -> NoDup (map g_name (t_gens t)) /\
  (forall k g, dget (t_lookup t) k = Some g <-> In g (t_gens t) /\ In k (g_keys g)).
Proof. exact built_ok. Qed.
Print Assumptions C233_owner.
Theorem C233_clash : forall t g, built t ->
  (fst (register_generator t g) = Ok tt <->
   ~ In (g_name g) (map g_name (t_gens t)) /\ (forall g', In g' (t_gens t) -> forall k, In k (g_keys g) -> ~ In k (g_keys g'))).
Proof.
  intros t g Hb. destruct (built_ok t Hb) as [_ Hlk]. unfold register_generator.
  assert (Hkeys : forall ks lk, NoDup ks -> (fst (register_keys g ks lk) = Ok tt <-> (forall k, In k ks -> dget lk k = None))).
  { induction ks as [|k ks IH]; intros lk Hn; cbn [register_keys]; [cbn; split; [intros _ k []|reflexivity]|].
    inversion Hn as [|? ? Hk Hn']; subst. destruct (dget lk k) as [g0|] eqn:E.
    - cbn. split; [discriminate|]. intros H. rewrite (H k (or_introl eq_refl)) in E. discriminate.
    - rewrite (IH _ Hn'). split.
      + intros H j [<-|Hj]; [exact E|]. specialize (H j Hj). rewrite dset_spec in H. destruct (eqd j k); [discriminate|exact H].
      + intros H j Hj. rewrite dset_spec. destruct (eqd j k) as [->|_]; [contradiction|]. apply H. right. exact Hj. }
  destruct (find_gen t (g_name g)) as [g0|] eqn:E.
  - cbn. split; [discriminate|]. intros [H _]. apply find_gen_None in H. congruence.
  - destruct (register_keys g (placeholders g) (t_lookup t)) as [r lk] eqn:Ek. cbn [fst].
    specialize (Hkeys (placeholders g) (t_lookup t) (dedup_NoDup _)). rewrite Ek in Hkeys. cbn [fst] in Hkeys. rewrite Hkeys.
    apply find_gen_None in E. split.
    + intros H. split; [exact E|]. intros g' Hg' k Hk Hk'. specialize (H k). rewrite placeholders_In in H. specialize (H Hk).
      assert (dget (t_lookup t) k = Some g') by (apply Hlk; auto). congruence.
    + intros [_ H] k Hk. destruct (dget (t_lookup t) k) as [g'|] eqn:Eg; [|reflexivity]. apply Hlk in Eg. destruct Eg as [Hg' Hk'].
      apply placeholders_In in Hk. exfalso. apply (H g' Hg' k Hk Hk').
Qed.
Print Assumptions C233_clash.
(** C233, full claim "a rejected predicate leaves the template unchanged": false. *)
Theorem C233_refuted : exists t g t', built t /\ register_generator t g = (Raise KeyError, t') /\ In g (t_gens t') /\ ~ In g (t_gens t) /\
  dget (t_lookup t') 5 = Some g.
Proof.
  exists (ex_template [ex_list 1 7 ["x"]%string] []), (Gen 2 [5; 7] [PEq; PEq] [ex_col; ex_col] (TList [[VS "a"; VS "b"]]%string) Uniform 1 None None None None).
  eexists. split; [apply (built_register (ex_template [] []) (ex_list 1 7 ["x"]%string)); [constructor|reflexivity]|].
  split; [vm_compute; reflexivity|]. split; [cbn; auto|]. split; [|reflexivity]. cbn. intros [H|[]]. discriminate.
Qed.
Print Assumptions C233_refuted.
Example C233_ex : map g_name (t_gens (ex_template [ex_list 1 7 ["x"]%string; ex_list 2 8 ["y"]%string] [])) = [1; 2] /\
  fst (register_generator (ex_template [ex_list 1 7 ["x"]%string] []) (ex_list 1 8 ["y"]%string)) = Raise KeyError.
Proof. split; reflexivity. Qed.

(** C234, full claim "a target column without table is looked up among the tables without alias": false. The lookup fails as
    soon as the name of a table (or alias) does not have exactly two letters. *)
Theorem C234_refuted : forall sc t col a tab, dget (t_aliases t) a = Some tab -> String.length a <> 2 ->
  lookup_column sc t (None, col) = Raise ValueError.
Proof.
  intros sc t col a tab Ha Hl. unfold lookup_column. cbn [fst snd].
  assert (Hin : In a (dkeys (t_aliases t))) by (apply dget_In in Ha; change a with (fst (a, tab)); apply in_map; exact Ha).
  assert (E : tables_without_alias (dkeys (t_aliases t)) = Raise ValueError).
  { induction (dkeys (t_aliases t)) as [|x l IH]; [destruct Hin|]. destruct Hin as [->|Hin].
    - destruct a as [|c1 [|c2 [|c3 r]]]; try reflexivity. cbn in Hl. congruence.
    - cbn. rewrite (IH Hin). destruct x as [|c1 [|c2 [|c3 r]]]; reflexivity. }
  rewrite E. reflexivity.
Qed.
Print Assumptions C234_refuted.
Example C234_refuted_ex : lookup_column (ex_schema "text") (new_template [] "q" [("users"%string, None)]) (None, "id"%string) = Raise ValueError.
Proof. reflexivity. Qed.
(** C234, what holds: columns with a table name or alias. *)
Theorem C234_partial : forall sc base label aliases a col x, dget aliases a = Some x ->
  lookup_column sc (new_template base label aliases) (Some a, col) = Ok (match x with Some tab => if String.eqb tab "" then a else tab | None => a end, col).
Proof.
  intros sc base label aliases a col x H. unfold lookup_column, new_template. cbn [fst snd t_aliases].
  assert (E : dget (map (fun '(a, t) => (a, match t with Some x => if String.eqb x "" then a else x | None => a end)) aliases) a
    = Some (match x with Some tab => if String.eqb tab "" then a else tab | None => a end)).
  { induction aliases as [|[b y] l IH]; [discriminate|]. cbn [dget map] in *. destruct (eqd a b) as [->|]; [|auto]. injection H as ->. reflexivity. }
  rewrite E. reflexivity.
Qed.
Print Assumptions C234_partial.
Example C234_ex : lookup_column (ex_schema "text") (new_template [] "q" [("u"%string, Some "users"%string); ("posts"%string, Some ""%string)]) (Some "posts"%string, "id"%string) = Ok ("posts"%string, "id"%string).
Proof. reflexivity. Qed.

(** C235: no query occurs twice in a workload. *)
Theorem C235_unique : forall ts n wl, generate_raw_workload show ts n = Ok wl -> NoDup (map snd wl).
Proof.
  intros ts n wl H. unfold generate_raw_workload, workload_loop in H.
  destruct (fold_left _ ts _) as [[seen w]|] eqn:E; [|discriminate]. assert (w = wl) by (cbn in H; congruence). subst w.
  eapply (workload_unique _ _ ts [] []); [constructor|intros v []|exact E].
Qed.
Print Assumptions C235_unique.
(** C235: templates with different labels: template by template the queries [label-1] ... [label-k], at most [n] of each. *)
Theorem C235_labels : forall ts n wl, NoDup (map fst ts) -> generate_raw_workload show ts n = Ok wl ->
  exists qss, length qss = length ts /\ wl = parts ts qss /\ (forall qs, In qs qss -> length qs <= n) /\ NoDup (List.concat qss).
Proof.
  intros ts n wl Hn H. unfold generate_raw_workload, workload_loop in H.
  destruct (fold_left _ ts _) as [[seen w]|] eqn:E; [|discriminate]. assert (w = wl) by (cbn in H; congruence). subst w.
  destruct (workload_loop_ok n (length ts * n * 10) ts [] [] seen wl Hn (NoDup_nil _)) as (qss & H1 & H2 & H3 & H4 & H5); [intros t j _ []|discriminate|exact E|].
  exists qss. split; [exact H1|]. split; [exact H2|]. split; [intros qs Hq; rewrite Forall_forall in H3; auto|].
  subst seen. rewrite app_nil_r in H5. apply NoDup_rev in H5. rewrite rev_involutive in H5. exact H5.
Qed.
Print Assumptions C235_labels.
(** C235, full claim "each template contributes exactly the requested number of queries, or the generation fails": false.
    1. The only template finds a new query in try 30 (the last one that is checked) and none in try 31: two instead of three. *)
Theorem C235_refuted : exists gq, generate_raw_workload show [("q"%string, gq)] 3 = Ok [("q-1", "a"); ("q-2", "b")]%string.
Proof. exists (fun i => Ok (if Nat.eqb i 30 then "b" else "a")%string). vm_compute. reflexivity. Qed.
Print Assumptions C235_refuted.
(** 2. Templates with the same label overwrite each other's queries. *)
Theorem C235_same_label_refuted : exists gq1 gq2, generate_raw_workload show [("q"%string, gq1); ("q"%string, gq2)] 1 = Ok [("q-1", "b")]%string.
Proof. exists (fun _ => Ok "a"%string), (fun _ => Ok "b"%string). vm_compute. reflexivity. Qed.
Print Assumptions C235_same_label_refuted.
(** C235, what holds: templates with different labels that never repeat a query. Missing: the cases above. *)
Theorem C235_partial : forall (f : string -> nat -> string) ts n, NoDup (map fst ts) -> (forall t i, In t ts -> snd t i = Ok (f (fst t) i)) ->
  (forall l i m j, f l i = f m j -> l = m /\ i = j) ->
  generate_raw_workload show ts n = Ok (parts ts (map (fun t => map (f (fst t)) (seq 1 n)) ts)).
Proof.
  intros f ts n Hn Hg Hf. destruct ts as [|t0 ts]; [reflexivity|]. unfold generate_raw_workload, workload_loop.
  assert (Hm : n <= S (length (t0 :: ts) * n * 10)) by (cbn [length]; nia).
  destruct (workload_loop_fresh f n (length (t0 :: ts) * n * 10) Hm Hf (t0 :: ts) [] [] Hn Hg (NoDup_nil _)) as (seen' & E);
    [intros t i _ []|intros t j _ []|discriminate|].
  match goal with |- rmap snd ?x = _ => assert (E' : x = Ok (seen', [] ++ parts (t0 :: ts) (map (fun t => map (f (fst t)) (seq 1 n)) (t0 :: ts)))) by exact E end.
  rewrite E'. reflexivity.
Qed.
Print Assumptions C235_partial.
Example C235_ex : generate_raw_workload show [("a"%string, fun i => Ok (append "x" (show i))); ("a-1"%string, fun i => Ok (append "y" (show (i / 2))))] 2
  = Ok [("a-1", "x1"); ("a-2", "x2"); ("a-1-1", "y0"); ("a-1-2", "y1")]%string.
Proof. vm_compute. reflexivity. Qed.
