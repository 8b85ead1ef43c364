(** C251, C252: connecting to databases. *)
From Coq Require Import String Ascii List Bool Arith Lia DecimalString DecimalNat FinFun.
From Verif Require Import PyBase Conn_model Conn_spec.
Import ListNotations.
Open Scope list_scope.

(** ** Numbered names *)
Lemma str_inj a b : str a = str b -> a = b.
Proof. intros H. rewrite <- (string_of_list_ascii_of_string a), <- (string_of_list_ascii_of_string b). unfold str in H. rewrite H. reflexivity. Qed.
Lemma to_uint_nonnil n : Nat.to_uint n <> Decimal.Nil.
Proof. intros H. pose proof (Unsigned.of_to n) as E. rewrite H in E. cbn in E. subst n. discriminate. Qed.
Lemma number_inj j k : NilZero.string_of_uint (Nat.to_uint j) = NilZero.string_of_uint (Nat.to_uint k) -> j = k.
Proof.
  intros H. apply Unsigned.to_uint_inj. apply (f_equal NilZero.uint_of_string) in H. rewrite !NilZero.usu in H by apply to_uint_nonnil. congruence.
Qed.
Lemma suffixed_inj n j k : suffixed n j = suffixed n k -> j = k.
Proof. unfold suffixed. intros H. apply app_inv_head in H. apply app_inv_head in H. apply str_inj in H. apply number_inj. exact H. Qed.
Lemma suffixed_longer n k : suffixed n k <> n.
Proof. intros H. apply (f_equal (@List.length ascii)) in H. unfold suffixed in H. rewrite !app_length in H. change (List.length (str " - ")) with 3 in H. lia. Qed.

(** the names that are tried: the name itself, and the name with the numbers from 2 *)
Definition cand (n : text) (j : nat) : text := match j with O => n | S j => suffixed n (S (S j)) end.
Lemma cand_inj n i j : cand n i = cand n j -> i = j.
Proof.
  destruct i as [|i], j as [|j]; cbn [cand]; intros H; [reflexivity|symmetry in H; apply suffixed_longer in H; destruct H|apply suffixed_longer in H; destruct H|]. apply suffixed_inj in H. lia.
Qed.
Lemma free_name_spec p n : forall fuel j,
  (exists m, m < fuel /\ free_name fuel p n (cand n j) (S (S j)) = Ok (cand n (j + m)) /\ contains p (cand n (j + m)) = false /\ forall i, i < m -> contains p (cand n (j + i)) = true)
  \/ (forall i, i < fuel -> contains p (cand n (j + i)) = true).
Proof.
  induction fuel as [|fuel IH]; intros j; [right; intros i Hi; lia|]. cbn [free_name]. destruct (contains p (cand n j)) eqn:E.
  - destruct (IH (S j)) as [(m & Hm & R & N & A)|A].
    + left. exists (S m). split; [lia|]. replace (j + S m) with (S j + m) by lia. split; [exact R|]. split; [exact N|]. intros [|i] Hi; [rewrite Nat.add_0_r; exact E|]. replace (j + S i) with (S j + i) by lia. apply A. lia.
    + right. intros [|i] Hi; [rewrite Nat.add_0_r; exact E|]. replace (j + S i) with (S j + i) by lia. apply A. lia.
  - left. exists 0. rewrite Nat.add_0_r. split; [lia|]. split; [reflexivity|]. split; [exact E|]. intros i Hi. lia.
Qed.
Lemma contains_key p k : contains p k = true <-> In k (dkeys p).
Proof. unfold contains. rewrite <- (dget_key p k). destruct (dget p k); split; congruence. Qed.
Lemma free_name_ok p n : exists m, free_name (S (List.length p)) p n n 2 = Ok (cand n m) /\ contains p (cand n m) = false /\ forall i, i < m -> contains p (cand n i) = true.
Proof.
  destruct (free_name_spec p n (S (List.length p)) 0) as [(m & _ & R & N & A)|A]; [exists m; auto|]. exfalso.
  assert (I : incl (map (cand n) (seq 0 (S (List.length p)))) (dkeys p)).
  { intros x Hx. apply in_map_iff in Hx as (i & <- & Hi). apply in_seq in Hi. apply contains_key. apply A. lia. }
  assert (ND : NoDup (map (cand n) (seq 0 (S (List.length p))))).
  { apply FinFun.Injective_map_NoDup; [intros a b; apply cand_inj|apply seq_NoDup]. }
  pose proof (NoDup_incl_length ND I) as L. rewrite map_length, seq_length in L. unfold dkeys in L. rewrite map_length in L. lia.
Qed.
Lemma register_new p k i : contains p k = false -> register p k i = p ++ [(k, i)].
Proof.
  unfold register, contains. induction p as [|[k' v] p IH]; cbn; [reflexivity|]. destruct (eqd k k') as [->|N]; [discriminate|]. intros H. rewrite IH by exact H. reflexivity.
Qed.

(* Connecting to Postgres either hands out the database that is registered under the name, or a new one.  The new one is registered
   at the end of the pool, unless it is private: under the name or, if this is taken, under the name with the first free number from 2.
   No registered database is ever replaced. *)
Theorem C251_pg_connect_partial : forall p id name src refresh private,
  (forall i, dget p name = Some i -> i_sys i = Postgres) ->
  (contains p name = true -> refresh = false -> exists i, dget p name = Some i /\ pg_connect p id name src refresh private = Ok (i, p))
  /\ (contains p name = false \/ refresh = true -> forall t, connect_string src = Ok t ->
       let i := mkI Postgres t id in
       (private = true -> pg_connect p id name src refresh private = Ok (i, p))
       /\ (private = false -> exists key, pg_connect p id name src refresh private = Ok (i, p ++ [(key, i)]) /\ ~ In key (dkeys p)
            /\ ((key = name /\ ~ In name (dkeys p))
                \/ exists k, 2 <= k /\ key = suffixed name k /\ In name (dkeys p) /\ forall j, 2 <= j < k -> In (suffixed name j) (dkeys p)))).
Proof.
  intros p id name src refresh private SY. unfold pg_connect. split.
  - intros C ->. rewrite C. cbn [negb andb]. unfold reconnect, retrieve. unfold contains in C. destruct (dget p name) as [i|] eqn:E; [|discriminate].
    exists i. split; [reflexivity|]. cbn [rbind]. unfold is_sys. rewrite (SY i eq_refl). reflexivity.
  - intros C t E. cbv zeta. replace (contains p name && negb refresh) with false by (destruct C as [-> | ->]; [reflexivity|cbn; rewrite andb_false_r; reflexivity]).
    rewrite E. cbn [rbind]. split; [intros ->; reflexivity|]. intros ->.
    destruct (free_name_ok p name) as (m & R & N & A). rewrite R. cbn [rbind]. rewrite register_new by exact N. exists (cand name m). split; [reflexivity|].
    assert (NK : ~ In (cand name m) (dkeys p)) by (rewrite <- contains_key; congruence). split; [exact NK|]. destruct m as [|m]; [left; split; [reflexivity|exact NK]|].
    right. exists (S (S m)). split; [lia|]. split; [reflexivity|]. split; [apply contains_key; apply (A 0); lia|].
    intros j Hj. apply contains_key. specialize (A (j - 1)). replace j with (S (S (j - 2))) by lia. replace (j - 1) with (S (j - 2)) in A by lia. apply A. lia.
Qed.
Print Assumptions C251_pg_connect_partial.

(* After any history of connections to Postgres, the pool has different names for different databases, and every database that
   was handed out without [private] can still be retrieved. *)
Record call := mkCall { c_name : text; c_src : sources; c_refresh : bool; c_private : bool }.
Fixpoint calls (p : pool) (id : nat) (l : list call) : res (list inst * pool) :=
  match l with
  | [] => Ok ([], p)
  | c :: l => rbind (pg_connect p id (c_name c) (c_src c) (c_refresh c) (c_private c)) (fun ip =>
              rbind (calls (snd ip) (S id) l) (fun lp => Ok (fst ip :: fst lp, snd lp)))
  end.
Lemma calls_keep l : forall p id is p', Forall (fun e => i_sys (snd e) = Postgres) p -> NoDup (dkeys p) -> Forall (fun e => i_id (snd e) < id) p -> NoDup (map (fun e => i_id (snd e)) p) ->
  calls p id l = Ok (is, p') ->
  NoDup (dkeys p') /\ NoDup (map (fun e => i_id (snd e)) p') /\ (exists q, p' = p ++ q) /\ Forall2 (fun c i => c_private c = false -> exists k, dget p' k = Some i) l is.
Proof.
  induction l as [|c l IH]; intros p id is p' S ND LT NI E; cbn [calls] in E.
  - injection E as <- <-. split; [exact ND|]. split; [exact NI|]. split; [exists []; rewrite app_nil_r; reflexivity|constructor].
  - destruct (pg_connect p id (c_name c) (c_src c) (c_refresh c) (c_private c)) as [[i p1]|e] eqn:E1; [|discriminate]. cbn [rbind fst snd] in E.
    destruct (calls p1 (Datatypes.S id) l) as [[is' p2]|e] eqn:E2; [|discriminate]. cbn [rbind fst snd] in E. injection E as <- <-.
    assert (SP : forall i, dget p (c_name c) = Some i -> i_sys i = Postgres).
    { intros i0 H. apply dget_In in H. rewrite Forall_forall in S. apply (S _ H). }
    destruct (C251_pg_connect_partial p id (c_name c) (c_src c) (c_refresh c) (c_private c) SP) as [A B].
    (* the pool after the call *)
    assert (K : (p1 = p /\ (c_private c = false -> exists k, dget p k = Some i)) \/ exists key, p1 = p ++ [(key, i)] /\ ~ In key (dkeys p) /\ i_sys i = Postgres /\ i_id i = id).
    { destruct (contains p (c_name c) && negb (c_refresh c)) eqn:C.
      - apply andb_true_iff in C as [C1 C2]. apply negb_true_iff in C2. destruct (A C1 C2) as (i' & D & R). rewrite R in E1. injection E1 as -> <-. left. split; [reflexivity|]. eauto.
      - assert (C' : contains p (c_name c) = false \/ c_refresh c = true) by (apply andb_false_iff in C as [C|C]; [auto|apply negb_false_iff in C; auto]).
        destruct (connect_string (c_src c)) as [t|e] eqn:Et.
        + destruct (B C' t eq_refl) as [B1 B2]. destruct (c_private c) eqn:Pr.
          * rewrite (B1 eq_refl) in E1. injection E1 as <- <-. left. split; [reflexivity|discriminate].
          * destruct (B2 eq_refl) as (key & R & N & _). rewrite R in E1. injection E1 as <- <-. right. exists key. auto.
        + unfold pg_connect in E1. rewrite C, Et in E1. discriminate. }
    destruct K as [[-> K]|(key & -> & N & Si & Ii)].
    + assert (LT' : Forall (fun e : text * inst => i_id (snd e) < Datatypes.S id) p) by (eapply Forall_impl; [|exact LT]; intros e He; cbn in *; lia).
      destruct (IH p (Datatypes.S id) is' p2 S ND LT' NI E2) as (R1 & R2 & (q & ->) & R3). split; [exact R1|]. split; [exact R2|]. split; [eauto|]. constructor; [|exact R3].
      intros Pr. destruct (K Pr) as (k & D). exists k. apply dget_iff; [exact R1|]. apply in_or_app. left. apply dget_In. exact D.
    + assert (S' : Forall (fun e : text * inst => i_sys (snd e) = Postgres) (p ++ [(key, i)])) by (apply Forall_app; split; [exact S|repeat constructor; exact Si]).
      assert (ND' : NoDup (dkeys (p ++ [(key, i)]))).
      { unfold dkeys. rewrite map_app. cbn [map fst]. apply NoDup_rev in ND. rewrite <- (rev_involutive (map fst p ++ [key])). apply NoDup_rev. rewrite rev_app_distr. cbn [rev app]. constructor; [|exact ND]. rewrite <- in_rev. exact N. }
      assert (LT' : Forall (fun e : text * inst => i_id (snd e) < Datatypes.S id) (p ++ [(key, i)])).
      { apply Forall_app. split; [eapply Forall_impl; [|exact LT]; intros e He; cbn in *; lia|]. constructor; [cbn; lia|constructor]. }
      assert (NI' : NoDup (map (fun e : text * inst => i_id (snd e)) (p ++ [(key, i)]))).
      { rewrite map_app. cbn [map snd]. apply NoDup_rev in NI. rewrite <- (rev_involutive (map _ p ++ [_])). apply NoDup_rev. rewrite rev_app_distr. cbn [rev app]. constructor; [|exact NI].
        rewrite <- in_rev. intros H. apply in_map_iff in H as (e & He & Hin). rewrite Forall_forall in LT. specialize (LT e Hin). lia. }
      destruct (IH _ _ is' p2 S' ND' LT' NI' E2) as (R1 & R2 & (q & Eq) & R3). split; [exact R1|]. split; [exact R2|]. split; [exists ((key, i) :: q); rewrite Eq, <- app_assoc; reflexivity|]. constructor; [|exact R3].
      intros _. exists key. apply dget_iff; [exact R1|]. rewrite Eq. apply in_or_app. left. apply in_or_app. right. left. reflexivity.
Qed.
Theorem C251_history : forall l is p, calls [] 0 l = Ok (is, p) ->
  NoDup (dkeys p) /\ NoDup (map (fun e => i_id (snd e)) p)
  /\ Forall2 (fun c i => c_private c = false -> exists k, retrieve p k = Ok i) l is.
Proof.
  intros l is p E. destruct (calls_keep l [] 0 is p) as (A & B & _ & C); try constructor; auto. split; [exact B|]. clear - C.
  induction C as [|c i l is H C IH]; constructor; [|exact IH]. intros P. destruct (H P) as (k & D). exists k. unfold retrieve. rewrite D. reflexivity.
Qed.
Print Assumptions C251_history.

(* The current database of the pool is the only one in it, if there is exactly one. *)
Theorem C251_current_database : forall p i, current_database p = Ok i <-> (exists k, dget p k = Some i) /\ List.length p = 1.
Proof.
  intros p i. destruct p as [|[k v] [|e p]]; cbn [current_database List.length].
  - split; [discriminate|intros [_ H]; discriminate].
  - split; [intros H; injection H as <-; split; [exists k; cbn; destruct (eqd k k); congruence|reflexivity]|]. intros [(k' & H) _]. cbn in H. destruct (eqd k' k); congruence.
  - split; [discriminate|intros [_ H]; discriminate].
Qed.
Print Assumptions C251_current_database.

(* DuckDB replaces the registered database, although a number is promised there, too; MySQL never connects, since its statistics
   lack an abstract method; and a name that is taken by another system is an assertion error. *)
Theorem C251_connect_refuted :
  (forall p id name file i, dget p name = Some i -> i_id i <> id ->
     exists i' p', duck_connect p id name file true false = Ok (i', p') /\ dget p' name = Some i' /\ i' <> i /\ List.length p' = List.length p)
  /\ (forall p id name args private, mysql_connect p id name args private = Raise TypeError)
  /\ (forall p id name src private i, dget p name = Some i -> i_sys i <> Postgres -> pg_connect p id name src false private = Raise AssertionError).
Proof.
  assert (LE : forall (p : pool) k v i, dget p k = Some i -> List.length (dset p k v) = List.length p).
  { induction p as [|[k' v'] p IH]; intros k v i H; cbn in *; [discriminate|]. destruct (eqd k k'); cbn; [reflexivity|]. erewrite IH by exact H. reflexivity. }
  split; [|split].
  - intros p id name file i D N. unfold duck_connect. rewrite andb_false_r. eexists _, _. split; [reflexivity|]. split; [apply dset_same|]. split; [intros <-; apply N; reflexivity|]. eapply LE. exact D.
  - reflexivity.
  - intros p id name src private i D N. unfold pg_connect, contains, reconnect, retrieve. rewrite D. cbn [andb negb rbind]. unfold is_sys. destruct (i_sys i); [congruence|reflexivity|reflexivity].
Qed.
Print Assumptions C251_connect_refuted.

Definition src0 (s : string) : sources := mkS (str s) None None (fun _ => None).
Example C251_ex : exists is, calls [] 0 [mkCall (str "pg") (src0 " dbname=a ") false false; mkCall (str "pg") (src0 "dbname=b") true false; mkCall (str "pg") (src0 "dbname=c") false false;
                               mkCall (str "pg") (src0 "dbname=d") true true; mkCall (str "pg") (src0 "dbname=e") true false]
  = Ok (is, [(str "pg", mkI Postgres (str "dbname=a") 0); (str "pg - 2", mkI Postgres (str "dbname=b") 1); (str "pg - 3", mkI Postgres (str "dbname=e") 4)])
  /\ map i_id is = [0; 1; 0; 3; 4].
Proof. eexists. split; vm_compute; reflexivity. Qed.

(** ** Connect strings *)
Lemma skip_plain n r : plain_name n -> skip_blanks (n ++ r) = n ++ r.
Proof. intros [N F]. destruct n as [|c n]; [congruence|]. apply Forall_inv in F as [B _]. cbn. rewrite B. reflexivity. Qed.
Lemma take_name_plain n r : Forall (fun c => blank c = false /\ c <> equals_sign) n -> take_name (n ++ str " " ++ r) = (n, str " " ++ r).
Proof.
  induction 1 as [|c n [B E] F IH]; [reflexivity|]. cbn [app take_name]. rewrite B. apply Ascii.eqb_neq in E. rewrite E. cbn [orb]. rewrite IH. reflexivity.
Qed.
Lemma take_quoted_plain v r : plain_value v -> take_quoted (v ++ str "'" ++ r) = Some (v, r).
Proof.
  induction 1 as [|c v [Q B] F IH]; [reflexivity|]. cbn [app take_quoted]. apply Ascii.eqb_neq in Q, B. rewrite Q, B, IH. reflexivity.
Qed.
Lemma read_part fuel k v r : plain_name k -> plain_value v -> read_params (S fuel) (conn_part (k, v) ++ r) = match read_params fuel r with Some l => Some ((k, v) :: l) | None => None end.
Proof.
  intros K V. cbn [read_params]. unfold conn_part. rewrite <- !app_assoc. rewrite skip_plain by exact K.
  destruct (k ++ str " = '" ++ v ++ str "'" ++ r) as [|c t] eqn:E; [destruct k; [destruct K; congruence|discriminate]|]. rewrite <- E. clear c t E.
  change (str " = '" ++ v ++ str "'" ++ r) with (str " " ++ str "= '" ++ v ++ str "'" ++ r). rewrite take_name_plain by apply K.
  change (skip_blanks (str " " ++ str "= '" ++ v ++ str "'" ++ r)) with (equals_sign :: (str " '" ++ v ++ str "'" ++ r)). cbv beta iota. rewrite Ascii.eqb_refl. cbv beta iota zeta.
  change (skip_blanks (str " '" ++ v ++ str "'" ++ r)) with (single_quote :: (v ++ str "'" ++ r)). cbv beta iota. rewrite Ascii.eqb_refl. cbv beta iota zeta.
  rewrite take_quoted_plain by exact V. reflexivity.
Qed.
Lemma read_text ps : forall fuel, List.length ps < fuel -> Forall (fun kv => plain_name (fst kv) /\ plain_value (snd kv)) ps -> read_params fuel (conn_text ps) = Some ps.
Proof.
  induction ps as [|[k v] ps IH]; intros fuel L F; (destruct fuel as [|fuel]; [cbn in L; lia|]); [reflexivity|].
  pose proof (Forall_inv F) as [K V]. apply Forall_inv_tail in F. cbn [fst snd] in K, V. cbn [List.length] in L.
  destruct ps as [|q ps].
  - change (conn_text [(k, v)]) with (conn_part (k, v)). rewrite <- (app_nil_r (conn_part (k, v))). rewrite read_part by assumption. destruct fuel as [|fuel]; [lia|reflexivity].
  - change (conn_text ((k, v) :: q :: ps)) with (conn_part (k, v) ++ str " " ++ conn_text (q :: ps)). rewrite read_part by assumption.
    destruct fuel as [|fuel]; [cbn in L; lia|].
    assert (SB : read_params (S fuel) (str " " ++ conn_text (q :: ps)) = read_params (S fuel) (conn_text (q :: ps))) by reflexivity.
    rewrite SB, IH; [reflexivity|lia|exact F].
Qed.
Lemma conn_text_length ps : Forall (fun kv => plain_name (fst kv)) ps -> List.length ps <= List.length (conn_text ps).
Proof.
  induction ps as [|[k v] ps IH]; intros F; [cbn; lia|]. pose proof (Forall_inv F) as [K _]. apply Forall_inv_tail in F. specialize (IH F). cbn [fst] in K.
  assert (P : 1 <= List.length (conn_part (k, v))) by (unfold conn_part; destruct k; [congruence|cbn; lia]).
  destruct ps as [|q ps]; [change (conn_text [(k, v)]) with (conn_part (k, v)); cbn [List.length]; lia|].
  change (conn_text ((k, v) :: q :: ps)) with (conn_part (k, v) ++ str " " ++ conn_text (q :: ps)). rewrite !app_length. change (List.length (str " ")) with 1. cbn [List.length] in *. lia.
Qed.
Lemma libpq_text ps : Forall (fun kv => plain_name (fst kv) /\ plain_value (snd kv)) ps -> libpq (conn_text ps) = Some ps.
Proof.
  intros F. apply read_text; [|exact F]. assert (List.length ps <= List.length (conn_text ps)); [|lia]. apply conn_text_length. eapply Forall_impl; [|exact F]. intros kv [H _]. exact H.
Qed.

(* The parameters of a configuration file arrive at libpq, if no value contains a quote or a backslash *)
Theorem C252_config_parameters_partial : forall s ps, s_string s = [] -> s_config s = Some (Some (CParams ps)) ->
  Forall (fun kv => plain_name (fst kv) /\ plain_value (snd kv)) ps ->
  exists t, connect_string s = Ok t /\ libpq t = Some ps.
Proof. intros s ps A B F. unfold connect_string. rewrite A, B. cbn [read_config]. eexists. split; [reflexivity|]. apply libpq_text. exact F. Qed.
Print Assumptions C252_config_parameters_partial.

(* The same for the variables of the environment, of which the empty ones are left out *)
Definition documented_env : list (string * string) :=
  [("PGDATABASE", "dbname"); ("PGHOST", "host"); ("PGPORT", "port"); ("PGUSER", "user"); ("PGPASSWORD", "password"); ("PGPASSFILE", "passfile")]%string.
Theorem C252_environment_partial : forall s d, s_string s = [] -> s_config s = None -> s_default s = None ->
  s_env s (str "PGDATABASE") = Some d -> d <> [] -> (forall x v, s_env s x = Some v -> plain_value v) ->
  exists t ps, connect_string s = Ok t /\ libpq t = Some ps
   /\ forall k v, In (k, v) ps <-> exists var key, In (var, key) documented_env /\ k = str key /\ s_env s (str var) = Some v /\ v <> [].
Proof.
  intros s d A B C D N P. unfold connect_string. rewrite A, B, C, D. destruct d as [|c d]; [congruence|]. eexists _, (env_params (s_env s)). split; [reflexivity|].
  assert (EV : env_vars = map (fun e : string * string => (str (fst e), str (snd e))) documented_env) by reflexivity.
  assert (M : forall k v, In (k, v) (env_params (s_env s)) <-> exists var key, In (var, key) documented_env /\ k = str key /\ s_env s (str var) = Some v /\ v <> []).
  { intros k v. unfold env_params. rewrite in_flat_map. split.
    - intros ((var & key) & Hin & H). rewrite EV in Hin. apply in_map_iff in Hin as ((a & b) & E & Hab). injection E as <- <-.
      destruct (s_env s (str a)) as [[|x w]|] eqn:E; try (destruct H; fail). destruct H as [H|[]]. injection H as <- <-. exists a, b. repeat split; auto. discriminate.
    - intros (var & key & Hin & -> & E & Nv). exists (str var, str key). split.
      + rewrite EV. apply in_map_iff. exists (var, key). auto.
      + rewrite E. destruct v as [|x w]; [congruence|]. left. reflexivity. }
  split; [|exact M]. apply libpq_text. apply Forall_forall. intros [k v] Hin. cbn [fst snd]. apply M in Hin as (var & key & Hin & -> & E & Nv). split; [|eapply P; exact E].
  unfold documented_env in Hin. cbn [In] in Hin. destruct Hin as [H|[H|[H|[H|[H|[H|[]]]]]]]; injection H as <- <-; (split; [discriminate|]); repeat constructor; discriminate.
Qed.
Print Assumptions C252_environment_partial.

(* Explicit connect strings win over files, files over the default file, and this over the environment *)
Theorem C252_precedence : forall s,
  (s_string s <> [] -> forall cfg def env, connect_string (mkS (s_string s) cfg def env) = connect_string s)
  /\ (s_string s = [] -> s_config s <> None -> forall def env, connect_string (mkS [] (s_config s) def env) = connect_string s)
  /\ (s_string s = [] -> s_config s = None -> s_default s <> None -> forall env, connect_string (mkS [] None (s_default s) env) = connect_string s)
  /\ (s_string s = [] -> s_config s = None -> s_default s = None -> s_env s (str "PGDATABASE") = None -> connect_string s = Raise ValueError).
Proof.
  intros [st cfg def env]. cbn [s_string s_config s_default s_env]. split; [|split; [|split]].
  - intros N cfg' def' env'. destruct st; [congruence|reflexivity].
  - intros -> N def' env'. destruct cfg; [reflexivity|congruence].
  - intros -> -> N env'. destruct def; [reflexivity|congruence].
  - intros -> -> -> E. unfold connect_string. cbn [s_string s_config s_default s_env]. rewrite E. reflexivity.
Qed.
Print Assumptions C252_precedence.

(* A quote in a password makes the string unreadable or changes other parameters *)
Theorem C252_config_parameters_refuted :
  (exists ps t, connect_string (mkS [] (Some (Some (CParams ps))) None (fun _ => None)) = Ok t /\ libpq t = None
     /\ ps = [(str "dbname", str "imdb"); (str "password", str "it's")])
  /\ (exists ps t, connect_string (mkS [] (Some (Some (CParams ps))) None (fun _ => None)) = Ok t
     /\ ps = [(str "host", str "a"); (str "password", str "x' host = 'b")]
     /\ libpq t = Some [(str "host", str "a"); (str "password", str "x"); (str "host", str "b")])
  /\ (exists t, connect_string (mkS [] (Some (Some (CParams [(str "password", str "a\b")]))) None (fun _ => None)) = Ok t
     /\ libpq t = Some [(str "password", str "ab")]).
Proof.
  split; [|split].
  - eexists _, _. split; [reflexivity|]. split; [|reflexivity]. vm_compute. reflexivity.
  - eexists _, _. split; [reflexivity|]. split; [reflexivity|]. vm_compute. reflexivity.
  - eexists. split; [reflexivity|]. vm_compute. reflexivity.
Qed.
Print Assumptions C252_config_parameters_refuted.

Example C252_ex : let ps := [(str "dbname", str "imdb"); (str "password", str "top secret = 5"); (str "user", str "")] in
  Forall (fun kv => plain_name (fst kv) /\ plain_value (snd kv)) ps
  /\ connect_string (mkS [] (Some (Some (CParams ps))) (Some (str "dbname=other")) (fun _ => None)) = Ok (str "dbname = 'imdb' password = 'top secret = 5' user = ''").
Proof.
  split; [|vm_compute; reflexivity].
  repeat (constructor; [split; [split; [discriminate|repeat (constructor; [split; [reflexivity|discriminate]|]); constructor]|repeat (constructor; [split; discriminate|]); constructor]|]). constructor.
Qed.

(** *** strings and files are used without the blanks around them *)
Lemma lstrip_trim t : exists a, t = a ++ lstrip t /\ Forall (fun c => blank c = true) a /\ (forall c, hd_error (lstrip t) = Some c -> blank c = false).
Proof.
  induction t as [|c t (a & E & F & H)]; [exists []; repeat split; [constructor | discriminate]|].
  cbn [lstrip]. destruct (is_space c) eqn:B.
  - exists (c :: a). split; [cbn; f_equal; exact E|]. split; [constructor; [exact B | exact F] | exact H].
  - exists []. split; [reflexivity|]. split; [constructor|]. intros d Hd. injection Hd as <-. exact B.
Qed.
Lemma strip_trimmed t : trimmed t (strip t).
Proof.
  unfold trimmed, strip. destruct (lstrip_trim t) as (a & E & Fa & Ha). destruct (lstrip_trim (rev (lstrip t))) as (b & E2 & Fb & Hb).
  exists a, (rev b). assert (L : lstrip t = rev (lstrip (rev (lstrip t))) ++ rev b).
  { rewrite <- rev_app_distr, <- E2, rev_involutive. reflexivity. }
  split; [rewrite <- L; exact E|]. split; [exact Fa|]. split; [apply Forall_rev; exact Fb|]. split.
  - intros c Hc. apply Ha. rewrite L. destruct (rev (lstrip (rev (lstrip t)))); [discriminate | exact Hc].
  - intros c Hc. rewrite rev_involutive in Hc. exact (Hb c Hc).
Qed.
Lemma first_line_ok t : is_first_line t (first_line t).
Proof.
  unfold is_first_line. induction t as [|c t (N & IH)]; [split; [intros [] | left; reflexivity]|]. cbn [first_line].
  destruct (Ascii.eqb_spec c newline) as [->|D].
  - split; [intros []|]. right. exists t. reflexivity.
  - split; [intros [F|F]; [apply D; symmetry; symmetry; exact F | exact (N F)]|]. destruct IH as [IH | (r & IH)]; [left; f_equal; exact IH | right; exists r; cbn; f_equal; exact IH].
Qed.
Theorem C252_texts : forall s,
  (s_string s <> [] -> exists r, connect_string s = Ok r /\ trimmed (s_string s) r)
  /\ (forall t, s_string s = [] -> s_config s = Some (Some (CPlain t)) -> exists l r, connect_string s = Ok r /\ is_first_line t l /\ trimmed l r)
  /\ (forall t, s_string s = [] -> s_config s = None -> s_default s = Some t -> exists l r, connect_string s = Ok r /\ is_first_line t l /\ trimmed l r)
  /\ (s_string s = [] -> s_config s = Some None \/ s_config s = Some (Some CUnknown) -> connect_string s = Raise ValueError).
Proof.
  intros [st cfg def env]. cbn [s_string s_config s_default]. unfold connect_string. cbn [s_string s_config s_default s_env]. split; [|split; [|split]].
  - intros N. destruct st as [|c st]; [contradiction|]. eexists. split; [reflexivity | apply strip_trimmed].
  - intros t -> ->. exists (first_line t). eexists. split; [reflexivity|]. split; [apply first_line_ok | apply strip_trimmed].
  - intros t -> -> ->. exists (first_line t). eexists. split; [reflexivity|]. split; [apply first_line_ok | apply strip_trimmed].
  - intros -> [-> | ->]; reflexivity.
Qed.
Print Assumptions C252_texts.
Example C252_texts_ex : connect_string (mkS [] (Some (Some (CPlain (str "  dbname=imdb " ++ newline :: str "second")))) None (fun _ => None)) = Ok (str "dbname=imdb").
Proof. reflexivity. Qed.

(** *** the other systems: a new connection is registered under its name unless it is private *)
Theorem C251_other_connect : forall p id name target refresh,
  (contains p name = false \/ refresh = true ->
     duck_connect p id name target refresh true = Ok (mkI DuckDB target id, p)
     /\ exists p', duck_connect p id name target refresh false = Ok (mkI DuckDB target id, p')
        /\ forall k, dget p' k = if deqb k name then Some (mkI DuckDB target id) else dget p k)
  /\ (forall i, dget p name = Some i -> i_sys i = DuckDB -> refresh = false -> forall private, duck_connect p id name target refresh private = Ok (i, p)).
Proof.
  intros p id name target refresh.
  assert (R : forall i k, dget (register p name i) k = if deqb k name then Some i else dget p k).
  { intros i k. unfold register, deqb. rewrite dset_spec. destruct (eqd k name); reflexivity. }
  split.
  - intros H. assert (B : contains p name && negb refresh = false) by (destruct H as [-> | ->]; [reflexivity | apply andb_false_r]).
    unfold duck_connect. rewrite B. split; [reflexivity|]. eexists. split; [reflexivity|]. apply R.
  - intros i G S0 -> private. unfold duck_connect, contains, reconnect, retrieve. rewrite G. cbn. unfold is_sys. rewrite S0. reflexivity.
Qed.
Print Assumptions C251_other_connect.
Theorem C251_any_database : forall p, (p = [] -> any_database p = Raise ValueError) /\ (p <> [] -> exists i k, any_database p = Ok i /\ In (k, i) p).
Proof.
  intros [|[k i] p]; split; try congruence; intros _; [reflexivity|]. exists i, k. split; [reflexivity | left; reflexivity].
Qed.
Print Assumptions C251_any_database.
Example C251_other_ex : exists p, duck_connect [] 1 (str "duckdb") (str "a.db") false false = Ok (mkI DuckDB (str "a.db") 1, p) /\
  duck_connect p 2 (str "duckdb") (str "b.db") false false = Ok (mkI DuckDB (str "a.db") 1, p) /\ any_database p = Ok (mkI DuckDB (str "a.db") 1).
Proof. eexists. split; [vm_compute; reflexivity|]. split; reflexivity. Qed.
