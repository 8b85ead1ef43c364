(** C247-C249: deleting rows from a database. *)
From Coq Require Import String List Bool Arith ZArith QArith Qround Lia Permutation.
From Verif Require Import PyBase Shift_model Shift_spec Shift_proofs.
Import ListNotations.
Open Scope string_scope.
Open Scope list_scope.
Open Scope nat_scope.

(** a valid request *)
Definition valid_request (n_rows : option Z) (row_pct : option Q) : Prop :=
  (exists k, n_rows = Some k /\ (0 < k)%Z /\ row_pct = None) \/ (exists p, n_rows = None /\ row_pct = Some p /\ (0 < p)%Q /\ (p < 1)%Q).
Lemma row_cnt_ok d n t n_rows row_pct : find_table d (plain n) = Some t -> valid_request n_rows row_pct -> exists cnt, determine_row_cnt d n n_rows row_pct = Ok cnt.
Proof.
  intros F [(k & -> & K & ->)|(p & -> & -> & A & B)]; unfold determine_row_cnt.
  - apply Z.ltb_lt in K. rewrite K. eauto.
  - assert (A' : Qcompare 0 p = Lt) by (apply Qlt_alt; exact A). assert (B' : Qcompare p 1 = Lt) by (apply Qlt_alt; exact B). rewrite A', B', F. eauto.
Qed.

(* remove_random deletes as many rows as were asked for, the ones that come first in the random order, and nothing else *)
Theorem C247_remove_random_partial : forall shuffle d tr n t c n_rows row_pct,
  (forall l, Permutation (shuffle l) l) ->
  (tr = TName n \/ tr = TRef "" n \/ tr = TRef "public" n) -> find_table d (plain n) = Some t ->
  t_pk t = [c] -> keyed c (t_rows t) -> c <> "sample_id" -> c <> "_pb_rand_val" -> valid_request n_rows row_pct ->
  exists d' cnt gone kept, remove_random shuffle d tr n_rows row_pct = Ok d'
   /\ rows_replaced d (plain n) kept d' /\ splits (t_rows t) gone kept
   /\ asks_for n_rows row_pct (List.length (t_rows t)) cnt /\ List.length gone = Nat.min cnt (List.length (t_rows t))
   /\ Permutation gone (firstn cnt (shuffle (t_rows t))).
Proof.
  intros shuffle d tr n t c n_rows row_pct P Htr F PK K N1 N2 V.
  assert (Nm : table_name tr = n) by (destruct Htr as [-> | [-> | ->]]; reflexivity).
  destruct (row_cnt_ok d n t n_rows row_pct F V) as (cnt & C). pose proof (row_cnt _ _ _ _ _ _ F C) as A.
  destruct (delete_prefix c (Z.to_nat cnt) (t_rows t) (shuffle (t_rows t)) K (P _)) as (gone & S & PG & L & _).
  assert (E : forall l, filter (fun r => negb (existsb (fun s => sample_matches c s r) (map (fun r => get r c) (firstn (Z.to_nat cnt) (shuffle (t_rows t)))))) l
                        = filter (fun r => negb (existsb (fun s => null_eqb s (get r c)) (map (fun r => get r c) (firstn (Z.to_nat cnt) (shuffle (t_rows t)))))) l).
  { intros l. apply filter_ext. intros r. f_equal. generalize (map (fun r => get r c) (firstn (Z.to_nat cnt) (shuffle (t_rows t)))). intros l1. induction l1 as [|x l0 IH]; cbn [existsb]; [reflexivity|]. rewrite IH. f_equal.
    unfold sample_matches. apply String.eqb_neq in N1, N2. rewrite N1, N2. reflexivity. }
  unfold remove_random. rewrite Nm, C. cbn [rbind]. unfold primary_key_column. rewrite F, PK. cbn [rbind]. rewrite E.
  eexists _, (Z.to_nat cnt), gone, _. split; [reflexivity|]. split; [apply replaced_intro; exact F|]. auto.
Qed.
Print Assumptions C247_remove_random_partial.

(* requests for no rows, for both kinds of counts or for none are refused, and so are tables without primary key or with several
   columns in it *)
Theorem C247_invalid_requests : forall shuffle d tr n_rows row_pct,
  (~ valid_request n_rows row_pct -> remove_random shuffle d tr n_rows row_pct = Raise ValueError)
  /\ (forall t, find_table d (plain (table_name tr)) = Some t -> (forall c, t_pk t <> [c]) -> remove_random shuffle d tr n_rows row_pct = Raise ValueError).
Proof.
  intros shuffle d tr n_rows row_pct.
  assert (I : ~ valid_request n_rows row_pct -> determine_row_cnt d (table_name tr) n_rows row_pct = Raise ValueError).
  { intros V. unfold determine_row_cnt. destruct n_rows as [k|], row_pct as [p|]; try reflexivity.
    - destruct (Z.ltb 0 k) eqn:E; [|reflexivity]. exfalso. apply V. left. apply Z.ltb_lt in E. eauto.
    - destruct (Qcompare 0 p) eqn:E1; try reflexivity. destruct (Qcompare p 1) eqn:E2; try reflexivity. exfalso. apply V. right. apply Qlt_alt in E1, E2. eauto 6. }
  split.
  - intros V. unfold remove_random. rewrite (I V). reflexivity.
  - intros t F N. unfold remove_random.
    assert (D : determine_row_cnt d (table_name tr) n_rows row_pct = Raise ValueError \/ exists cnt, determine_row_cnt d (table_name tr) n_rows row_pct = Ok cnt).
    { unfold determine_row_cnt. destruct n_rows as [k|], row_pct as [p|]; auto; [destruct (Z.ltb 0 k); eauto|]. destruct (Qcompare 0 p), (Qcompare p 1); auto. rewrite F. eauto. }
    destruct D as [-> | (cnt & ->)]; [reflexivity|]. cbn [rbind]. unfold primary_key_column. rewrite F. destruct (t_pk t) as [|x [|y l]] eqn:E; [reflexivity|exfalso; apply (N x); reflexivity|reflexivity].
Qed.
Print Assumptions C247_invalid_requests.

(* A table whose primary key is called sample_id loses all its rows, since the name refers to the sample itself.  And a table in
   another schema is confused with a table of the same name in the default schema. *)
Definition tab (c : string) (l : list nat) : table := mkT [c; "v"] [c] (map (fun x => [(c, Some x); ("v", Some (x * 10))]) l) 0.
Theorem C247_remove_random_refuted :
  (forall shuffle, (forall l, Permutation (shuffle l) l) -> exists d d', remove_random shuffle d (TName "x") (Some 1%Z) None = Ok d'
     /\ d = [(plain "x", tab "sample_id" [1; 2; 3])] /\ keyed "sample_id" (t_rows (tab "sample_id" [1; 2; 3]))
     /\ find_table d' (plain "x") = Some (mkT ["sample_id"; "v"] ["sample_id"] [] 0))
  /\ (forall shuffle, (forall l, Permutation (shuffle l) l) -> exists d d', remove_random shuffle d (TRef "archive" "x") (Some 2%Z) None = Ok d'
     /\ find_table d ("archive", "x") = Some (tab "id" [1; 2]) /\ find_table d' ("archive", "x") = Some (tab "id" [1; 2])
     /\ find_table d (plain "x") = Some (tab "id" [5; 6]) /\ option_map t_rows (find_table d' (plain "x")) = Some []).
Proof.
  split; intros shuffle P.
  - exists [(plain "x", tab "sample_id" [1; 2; 3])]. eexists. split; [reflexivity|]. split; [reflexivity|]. split.
    + split; [cbn; repeat constructor; cbn; intuition discriminate|cbn; repeat constructor; discriminate].
    + pose proof (P (t_rows (tab "sample_id" [1; 2; 3]))) as H. cbn [table_name]. unfold with_rows. rewrite find_set_same. cbn [t_cols t_pk t_seq t_rows tab snd] in *. f_equal. f_equal.
      set (rs := map (fun x => [("sample_id", Some x); ("v", Some (x * 10))]) [1; 2; 3]) in *. change (Z.to_nat 1) with 1.
      destruct (shuffle rs) as [|r l] eqn:E; [apply Permutation_nil in H; discriminate|]. cbn [firstn map].
      assert (Hr : exists x, get r "sample_id" = Some x).
      { assert (In r rs) by (eapply Permutation_in; [exact H|left; reflexivity]). cbn in H0. destruct H0 as [<-|[<-|[<-|[]]]]; eexists; reflexivity. }
      destruct Hr as (x & Hr). rewrite Hr. cbn. rewrite Nat.eqb_refl. reflexivity.
  - exists [(("archive", "x"), tab "id" [1; 2]); (plain "x", tab "id" [5; 6])]. eexists. split; [reflexivity|]. cbn [table_name].
    assert (NE : ("archive", "x") <> plain "x") by (intros E; discriminate). rewrite (find_set_other _ _ _ _ NE). split; [reflexivity|]. split; [reflexivity|]. split; [reflexivity|].
    rewrite find_set_same. cbn [option_map with_rows t_rows tab snd]. f_equal.
    set (rs := map (fun x => [("id", Some x); ("v", Some (x * 10))]) [5; 6]). change (Z.to_nat 2) with 2.
    assert (K : keyed "id" rs) by (split; [cbn; repeat constructor; cbn; intuition discriminate|cbn; repeat constructor; discriminate]).
    destruct (delete_prefix "id" 2 rs (shuffle rs) K (P rs)) as (gone & S & _ & L & Q).
    assert (Lk : List.length (skipn 2 (shuffle rs)) = 0) by (rewrite skipn_length, (Permutation_length (P rs)); reflexivity).
    apply Permutation_length in Q. rewrite Lk in Q. apply length_zero_iff_nil in Q. exact Q.
Qed.
Print Assumptions C247_remove_random_refuted.

(* a table with four rows loses one half of them *)
Example C247_ex : let d := [(plain "x", tab "id" [4; 7; 1; 9]); (plain "y", tab "id" [4])] in
  keyed "id" (t_rows (tab "id" [4; 7; 1; 9])) /\ valid_request None (Some (1 # 2))
  /\ option_map (fun t => map (fun r => get r "id") (t_rows t)) (match remove_random (@rev row) d (TName "x") None (Some (1 # 2)) with Ok d' => find_table d' (plain "x") | Raise _ => None end) = Some [Some 4; Some 7].
Proof.
  split; [split; [cbn; repeat constructor; cbn; intuition discriminate|cbn; repeat constructor; discriminate]|]. split; [|reflexivity].
  right. exists (1 # 2). repeat split.
Qed.

(* remove_ordered deletes as many rows as were asked for, those that come first in the order, and nothing else *)
Theorem C248_remove_ordered_partial : forall d cr n c t k n_rows row_pct asc nulls,
  (cr = CText [n; c] \/ cr = CBound "" n c \/ cr = CBound "public" n c) -> find_table d (plain n) = Some t -> In c (t_cols t) ->
  t_pk t = [k] -> keyed k (t_rows t) -> valid_request n_rows row_pct ->
  let nulls_first := match nulls with Some b => b | None => negb asc end in
  exists d' cnt gone kept, remove_ordered d cr n_rows row_pct asc nulls = Ok d'
   /\ rows_replaced d (plain n) kept d' /\ splits (t_rows t) gone kept
   /\ asks_for n_rows row_pct (List.length (t_rows t)) cnt /\ List.length gone = Nat.min cnt (List.length (t_rows t))
   /\ forall r s, In r gone -> In s kept -> comes_before asc nulls_first (get r c) (get s c) \/ (get r c = get s c /\ comes_before true false (get r k) (get s k)).
Proof.
  intros d cr n c t k n_rows row_pct asc nulls Hcr F Hc PK K V nf.
  destruct (row_cnt_ok d n t n_rows row_pct F V) as (cnt & C). pose proof (row_cnt _ _ _ _ _ _ F C) as A.
  set (le := row_leb c k asc nf).
  destruct (delete_prefix k (Z.to_nat cnt) (t_rows t) (sort le (t_rows t)) K (sort_perm le _)) as (gone & S & PG & L & PK').
  assert (HC : has_col t c = true) by (unfold has_col; apply existsb_exists; exists c; split; [exact Hc|apply String.eqb_refl]).
  eexists _, (Z.to_nat cnt), gone, _. split; [|split; [|split; [exact S|split; [exact A|split; [exact L|]]]]].
  - unfold remove_ordered. destruct Hcr as [-> | [-> | ->]]; cbn [rbind fst snd]; rewrite C; cbn [rbind]; unfold primary_key_column; rewrite F, PK; cbn [rbind]; rewrite HC; reflexivity.
  - apply replaced_intro. exact F.
  - intros r s Hr Hs. pose proof (splits_perm _ _ _ S) as PS.
    assert (E : le r s = true).
    { apply (sorted_split le (Z.to_nat cnt) (sort le (t_rows t))).
      - apply sort_sorted; [apply row_leb_total|apply row_leb_trans].
      - eapply Permutation_in; [exact PG|exact Hr].
      - eapply Permutation_in; [exact PK'|exact Hs]. }
    apply row_leb_before in E as [E|(E1 & [E2|E2])]; auto. exfalso.
    assert (r = s).
    { apply (keyed_inj k (t_rows t)); [exact K| | |exact E2]; (eapply Permutation_in; [symmetry; exact PS|]); apply in_or_app; auto. }
    subst s. assert (ND : NoDup (gone ++ filter (fun r0 : row => negb (existsb (fun s : option nat => null_eqb s (get r0 k)) (map (fun r1 : row => get r1 k) (firstn (Z.to_nat cnt) (sort le (t_rows t)))))) (t_rows t))).
    { eapply Permutation_NoDup; [exact PS|]. eapply keyed_nodup. exact K. }
    clear - ND Hr Hs. induction gone as [|x l IH]; [destruct Hr|]. cbn in ND. inversion ND; subst. destruct Hr as [->|Hr]; [apply H1; apply in_or_app; auto|auto].
Qed.
Print Assumptions C248_remove_ordered_partial.

(* by default NULLs are larger than all values *)
Corollary C248_nulls_are_largest : forall asc x, comes_before asc (negb asc) (if asc then Some x else None) (if asc then None else Some x).
Proof. intros [] x; [apply cb_last|apply cb_first]; reflexivity. Qed.
Print Assumptions C248_nulls_are_largest.

(* the same confusion of schemas; and columns given as text cannot have a schema at all *)
Theorem C248_remove_ordered_refuted :
  (exists d d', remove_ordered d (CBound "archive" "x" "v") (Some 1%Z) None true None = Ok d'
     /\ find_table d ("archive", "x") = Some (tab "id" [1; 2]) /\ find_table d' ("archive", "x") = Some (tab "id" [1; 2])
     /\ find_table d (plain "x") = Some (tab "id" [5; 6]) /\ find_table d' (plain "x") = Some (tab "id" [6]))
  /\ (forall d n_rows row_pct asc nulls, remove_ordered d (CText ["public"; "x"; "v"]) n_rows row_pct asc nulls = Raise ValueError).
Proof.
  split; [|reflexivity]. exists [(("archive", "x"), tab "id" [1; 2]); (plain "x", tab "id" [5; 6])]. eexists. repeat split; reflexivity.
Qed.
Print Assumptions C248_remove_ordered_refuted.

Definition rown (i : nat) (v : option nat) : row := [("id", Some i); ("v", v)].
Example C248_ex : let t := mkT ["id"; "v"] ["id"] [rown 1 (Some 5); rown 2 None; rown 3 (Some 7); rown 4 (Some 5)] 0 in let d := [(plain "x", t)] in
  keyed "id" (t_rows t) /\ In "v" (t_cols t) /\ valid_request (Some 2%Z) None
  /\ remove_ordered d (CText ["x"; "v"]) (Some 2%Z) None true None = Ok [(plain "x", mkT ["id"; "v"] ["id"] [rown 2 None; rown 3 (Some 7)] 0)]
  /\ remove_ordered d (CText ["x"; "v"]) (Some 2%Z) None false None = Ok [(plain "x", mkT ["id"; "v"] ["id"] [rown 1 (Some 5); rown 4 (Some 5)] 0)]
  /\ remove_ordered d (CText ["x"; "v"]) (Some 2%Z) None true (Some true) = Ok [(plain "x", mkT ["id"; "v"] ["id"] [rown 3 (Some 7); rown 4 (Some 5)] 0)].
Proof.
  split; [split; [cbn; repeat constructor; cbn; intuition discriminate|cbn; repeat constructor; discriminate]|]. split; [cbn; auto|]. split; [left; exists 2%Z; repeat split|]. repeat split; reflexivity.
Qed.

(** *** Marker tables *)
(** the values marked in a marker table *)
Definition marks (d : db) (m mc : string) (vs : list (option nat)) : Prop :=
  exists mt, find_table d (plain m) = Some mt /\ In mc (t_cols mt) /\ map (fun r => get r mc) (t_rows mt) = vs.
Lemma number_get mc k vs : mc <> "marker_idx" -> map (fun r => get r mc) (number mc k vs) = vs.
Proof.
  intros N. revert k. induction vs as [|v vs IH]; intros k; [reflexivity|]. cbn [number map get]. rewrite IH. f_equal.
  destruct (String.eqb "marker_idx" mc) eqn:E; [apply String.eqb_eq in E; congruence|]. rewrite String.eqb_refl. reflexivity.
Qed.
Lemma number_idx mc k vs : map (fun r => get r "marker_idx") (number mc k vs) = map (fun i => Some (S i)) (seq k (List.length vs)).
Proof. revert k. induction vs as [|v vs IH]; intros k; [reflexivity|]. cbn [number map get]. rewrite IH. reflexivity. Qed.
(** the marker table, if it exists already, is a marker table for the same column and not the table itself *)
Definition usable (d : db) (m mc : string) : Prop :=
  mc <> "marker_idx" /\ forall mt, find_table d (plain m) = Some mt -> t_cols mt = ["marker_idx"; mc].
Lemma create_marker_find d m mc : usable d m mc -> exists mt, find_table (create_marker d m mc) (plain m) = Some mt /\ t_cols mt = ["marker_idx"; mc]
  /\ (forall k, k <> plain m -> find_table (create_marker d m mc) k = find_table d k).
Proof.
  intros [_ U]. unfold create_marker. destruct (find_table d (plain m)) as [mt|] eqn:E.
  - exists mt. auto.
  - rewrite find_set_same. eexists. split; [reflexivity|]. split; [reflexivity|]. intros k N. apply find_set_other. exact N.
Qed.
Lemma has_marker_cols mt mc : t_cols mt = ["marker_idx"; mc] -> has_col mt mc = true /\ has_col mt "marker_idx" = true.
Proof. intros E. unfold has_col. rewrite E. cbn. rewrite String.eqb_refl, orb_true_r. auto. Qed.
Lemma plain_inj a b : plain a = plain b -> a = b.
Proof. intros H. injection H as ->. reflexivity. Qed.

(* generate_marker_table marks the sampled rows, with the percentage rounded to an integer, and changes no other table *)
Theorem C249_generate_marks_partial : forall sample d target pct col mtab mcol t,
  find_table d (plain target) = Some t -> In col (t_cols t) ->
  let m := match mtab with Some m => m | None => target ++ "_delete_marker" end%string in
  let mc := match mcol with Some m => m | None => target ++ "_" ++ col end%string in
  usable d m mc -> m <> target -> (0 <= pct)%Q -> (pct <= 1)%Q ->
  exists d' p, generate_marker_table sample d target pct col mtab mcol = Ok d'
   /\ (inject_Z p - (1 # 2) <= pct * 100)%Q /\ (pct * 100 <= inject_Z p + (1 # 2))%Q
   /\ marks d' m mc (map (fun r => get r col) (sample p (t_rows t)))
   /\ (forall k, k <> plain m -> find_table d' k = find_table d k).
Proof.
  intros sample d target pct col mtab mcol t F Hc m mc U N P0 P1. unfold generate_marker_table.
  change (marker_table_name (Some target) mtab) with m. change (marker_column_name (Some target) col mcol) with mc.
  assert (HC : has_col t col = true) by (unfold has_col; apply existsb_exists; exists col; split; [exact Hc|apply String.eqb_refl]).
  rewrite F, HC. destruct (create_marker_find d m mc U) as (mt & E & Cols & O). rewrite E. destruct (has_marker_cols mt mc Cols) as [H1 H2]. rewrite H1.
  assert (NE : plain target <> plain m) by (intros Q; apply plain_inj in Q; congruence).
  rewrite find_set_other by exact NE. rewrite O by exact NE. rewrite F.
  pose proof (pyround_near (pct * 100)) as [B1 B2].
  assert (G0 : (0 <= pyround (pct * 100))%Z) by (apply pyround_nonneg; apply Qmult_le_0_compat; [exact P0|discriminate]).
  assert (G1 : (pyround (pct * 100) <= 100)%Z).
  { assert (Q : (inject_Z (pyround (pct * 100)) - (1 # 2) <= 100)%Q).
    { eapply Qle_trans; [exact B1|]. change 100%Q with (1 * 100)%Q at 2. apply Qmult_le_compat_r; [exact P1|discriminate]. }
    assert (Q' : (inject_Z (pyround (pct * 100)) < inject_Z 101)%Q).
    { change (inject_Z 101) with (100 + 1)%Q. apply Qle_lt_trans with (100 + (1 # 2))%Q; [|reflexivity].
      rewrite <- (Qplus_le_l _ _ (- (1 # 2))). setoid_replace (100 + (1 # 2) + - (1 # 2))%Q with 100%Q by reflexivity. exact Q. }
    rewrite <- Zlt_Qlt in Q'. lia. }
  apply Z.ltb_ge in G0, G1. rewrite G0, G1. cbn [negb orb].
  eexists _, (pyround (pct * 100)). split; [reflexivity|]. split; [exact B1|]. split; [exact B2|]. split.
  - eexists. split; [apply find_set_same|]. cbn [t_cols t_rows]. split; [rewrite Cols; cbn; auto|]. apply number_get. apply U.
  - intros k Nk. rewrite !find_set_other by exact Nk. apply O. exact Nk.
Qed.
Print Assumptions C249_generate_marks_partial.

(* remove_marked deletes exactly the rows with a marked value *)
Theorem C249_remove_marked : forall d target col mtab mcol t vs,
  find_table d (plain target) = Some t -> In col (t_cols t) ->
  let m := match mtab with Some m => m | None => target ++ "_delete_marker" end%string in
  let mc := match mcol with Some m => m | None => target ++ "_" ++ col end%string in
  marks d m mc vs ->
  exists d' gone kept, remove_marked d target col mtab mcol = Ok d' /\ rows_replaced d (plain target) kept d' /\ splits (t_rows t) gone kept
   /\ (forall r, In r gone -> exists x, get r col = Some x /\ In (Some x) vs)
   /\ (forall r, In r kept -> forall x, get r col = Some x -> ~ In (Some x) vs).
Proof.
  intros d target col mtab mcol t vs F Hc m mc (mt & E & Hm & Hv). unfold remove_marked.
  change (marker_table_name (Some target) mtab) with m. change (marker_column_name (Some target) col mcol) with mc. rewrite F, E.
  assert (H1 : has_col t col = true) by (unfold has_col; apply existsb_exists; exists col; split; [exact Hc|apply String.eqb_refl]).
  assert (H2 : has_col mt mc = true) by (unfold has_col; apply existsb_exists; exists mc; split; [exact Hm|apply String.eqb_refl]).
  rewrite H1, H2. cbn [andb]. set (f := fun r => existsb (fun s => null_eqb (get s mc) (get r col)) (t_rows mt)).
  assert (Ff : forall r, f r = true <-> exists x, get r col = Some x /\ In (Some x) vs).
  { intros r. unfold f. rewrite existsb_exists. subst vs. split.
    - intros (s & Hs & Q). apply null_eqb_true in Q as (x & Q1 & Q2). exists x. split; [exact Q2|]. rewrite <- Q1. apply (in_map (fun r => get r mc)). exact Hs.
    - intros (x & Q1 & Q2). apply in_map_iff in Q2 as (s & Q2 & Hs). exists s. split; [exact Hs|]. apply null_eqb_true. eauto. }
  eexists _, (filter f (t_rows t)), _. split; [reflexivity|]. split; [apply replaced_intro; exact F|]. split; [apply (splits_filter f)|]. split.
  - intros r Hr. apply filter_In in Hr as [_ Hr]. apply Ff. exact Hr.
  - intros r Hr x Hx Hin. apply filter_In in Hr as [_ Hr]. assert (f r = true) by (apply Ff; eauto). fold (f r) in Hr. rewrite H in Hr. discriminate.
Qed.
Print Assumptions C249_remove_marked.

(* exporting the markers and importing them, possibly into another database, keeps the marked values *)
Theorem C249_export_import_partial : forall d target col mtab mcol vs d2 typed,
  let m := match mtab with Some m => m | None => target ++ "_delete_marker" end%string in
  let mc := match mcol with Some m => m | None => target ++ "_" ++ col end%string in
  target <> ""%string -> usable d m mc -> marks d m mc vs -> usable d2 m mc ->
  (typed = true \/ exists t, find_table d2 (plain target) = Some t /\ In col (t_cols t)) ->
  exists f d2', export_marker_table d (Some target) mtab = Ok f
   /\ import_marker_table d2 (Some target) mtab col mcol typed f = Ok d2' /\ marks d2' m mc vs
   /\ (forall k, k <> plain m -> find_table d2' k = find_table d2 k).
Proof.
  intros d target col mtab mcol vs d2 typed m mc NT U1 (mt & E & Hm & Hv) U2 HT.
  unfold export_marker_table, import_marker_table. change (marker_table_name (Some target) mtab) with m. change (marker_column_name (Some target) col mcol) with mc. rewrite E.
  assert (Cols : t_cols mt = ["marker_idx"; mc]) by (apply U1; exact E). rewrite Cols.
  exists (mkcsv ["marker_idx"; mc] (map (fun r => map (get r) ["marker_idx"; mc]) (t_rows mt))). cbn [csv_rows]. destruct (create_marker_find d2 m mc U2) as (mt2 & E2 & C2 & O2). rewrite E2. destruct (has_marker_cols mt2 mc C2) as [H1 H2]. rewrite H1, H2.
  assert (TT : truthy (Some target) = true) by (cbn; apply negb_true_iff, String.eqb_neq; exact NT). rewrite TT. cbn [negb andb].
  assert (TY : (if typed then Ok tt else match find_table d2 (plain target) with None => Raise OtherError | Some t => if has_col t col then Ok tt else Raise OtherError end) = Ok tt).
  { destruct typed; [reflexivity|]. destruct HT as [HT|(t & F & Hc)]; [discriminate|]. rewrite F.
    assert (H : has_col t col = true) by (unfold has_col; apply existsb_exists; exists col; split; [exact Hc|apply String.eqb_refl]). rewrite H. reflexivity. }
  rewrite TY. cbn [rbind].
  assert (FA : forallb (fun l : list (option nat) => List.length l =? 2) (map (fun r => map (get r) ["marker_idx"; mc]) (t_rows mt)) = true).
  { apply forallb_forall. intros l Hl. apply in_map_iff in Hl as (r & <- & _). reflexivity. }
  rewrite FA. eexists. split; [destruct mtab; reflexivity|]. split; [reflexivity|]. split.
  - eexists. split; [apply find_set_same|]. cbn [with_rows t_cols t_rows]. split; [rewrite C2; cbn; auto|]. rewrite !map_map. subst vs. apply map_ext. intros r. cbn [map nth get].
    destruct U1 as [N _]. destruct (String.eqb "marker_idx" mc) eqn:Q; [apply String.eqb_eq in Q; congruence|]. rewrite String.eqb_refl. reflexivity.
  - intros k Nk. rewrite find_set_other by exact Nk. apply O2. exact Nk.
Qed.
Print Assumptions C249_export_import_partial.

(* Less than half a percent marks nothing, whatever the sampling does for other percentages.  And importing by the name of the
   marker table only creates a column for the table None, so the rows cannot be removed. *)
Theorem C249_markers_refuted :
  (exists pct, (0 < pct)%Q /\ (pct <= 1)%Q /\ forall sample, (forall l, sample 0%Z l = []) -> forall d target col t,
     find_table d (plain target) = Some t -> In col (t_cols t) -> usable d (target ++ "_delete_marker")%string (target ++ "_" ++ col)%string ->
     (target ++ "_delete_marker")%string <> target ->
     exists d', generate_marker_table sample d target pct col None None = Ok d' /\ marks d' (target ++ "_delete_marker")%string (target ++ "_" ++ col)%string [])
  /\ (exists d f d2, export_marker_table d None (Some "x_delete_marker") = Ok f /\ marks d "x_delete_marker" "x_id" [Some 2]
       /\ find_table d (plain "x") = Some (tab "id" [1; 2])
       /\ import_marker_table [(plain "x", tab "id" [1; 2])] None (Some "x_delete_marker") "id" None true f = Ok d2
       /\ remove_marked d2 "x" "id" None None = Raise OtherError
       /\ exists d3, remove_marked d "x" "id" None None = Ok d3 /\ find_table d3 (plain "x") = Some (tab "id" [1])).
Proof.
  split.
  - exists (1 # 250). split; [reflexivity|]. split; [discriminate|]. intros sample H d target col t F Hc U N.
    pose proof (C249_generate_marks_partial sample d target (1 # 250) col None None t F Hc U N) as K.
    unfold generate_marker_table in *. change (pyround ((1 # 250) * 100)) with 0%Z in *.
    destruct K as (d' & p & E & _ & _ & M & _); [discriminate|discriminate|]. exists d'. split; [exact E|].
    (* the percentage in the statement is 0 *)
    change (marker_table_name (Some target) None) with (target ++ "_delete_marker")%string in *. change (marker_column_name (Some target) col None) with (target ++ "_" ++ col)%string in *.
    rewrite F in E. assert (HC : has_col t col = true) by (unfold has_col; apply existsb_exists; exists col; split; [exact Hc|apply String.eqb_refl]). rewrite HC in E.
    destruct (create_marker_find d _ _ U) as (mt & E1 & Cols & O). rewrite E1 in E. destruct (has_marker_cols mt _ Cols) as [H1 H2]. rewrite H1 in E. cbn [negb orb Z.ltb Z.compare] in E.
    rewrite find_set_other in E by (intros Q; apply plain_inj in Q; congruence). rewrite O in E by (intros Q; apply plain_inj in Q; congruence). rewrite F, H in E. cbn [map number List.length] in E. injection E as <-.
    eexists. split; [apply find_set_same|]. cbn [t_cols t_rows]. split; [rewrite Cols; cbn; auto|reflexivity].
  - exists [(plain "x", tab "id" [1; 2]); (plain "x_delete_marker", mkT ["marker_idx"; "x_id"] ["marker_idx"] [[("marker_idx", Some 1); ("x_id", Some 2)]] 1)].
    eexists _, _. split; [reflexivity|]. split; [eexists; split; [reflexivity|]; split; [cbn; auto|reflexivity]|]. split; [reflexivity|]. split; [reflexivity|]. split; [reflexivity|].
    eexists. split; reflexivity.
Qed.
Print Assumptions C249_markers_refuted.

(* marking and removing *)
Example C249_ex : let d := [(plain "x", tab "id" [4; 7; 1; 9])] in let sample := fun (_ : Z) (l : list row) => firstn 2 l in
  usable d "x_delete_marker" "x_id"
  /\ exists d1 d2, generate_marker_table sample d "x" (1 # 2) "id" None None = Ok d1 /\ marks d1 "x_delete_marker" "x_id" [Some 4; Some 7]
     /\ remove_marked d1 "x" "id" None None = Ok d2 /\ find_table d2 (plain "x") = Some (tab "id" [1; 9]).
Proof.
  split; [split; [discriminate|intros mt H; discriminate]|]. eexists _, _. split; [reflexivity|]. split; [|split; reflexivity]. eexists. split; [reflexivity|]. split; [cbn; auto|reflexivity].
Qed.
