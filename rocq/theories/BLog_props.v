(** C245: the experiment log of benchmarks. *)
From Coq Require Import String Ascii List Bool Arith Lia.
From Verif Require Import PyBase BLog_model BLog_spec BLog_proofs.
Import ListNotations.
Open Scope string_scope.
Open Scope list_scope.

Lemma entry_start r : log_data r = entry (r, Running).
Proof.
  unfold log_data, entry. rewrite (map_ext _ (fun q : text * text => (fst q, JObj [(str "query", JStr (snd q))]))) by (intros [k t]; reflexivity). reflexivity.
Qed.
Lemma entry_get r o : exists l, entry (r, o) = JObj l /\ jget (str "experiment") l = Some (JStr (r_name r)) /\ jget (str "start_time") l = Some (JStr (r_start r)).
Proof. eexists. split; [reflexivity|]. split; reflexivity. Qed.
Definition upd_of (o : outcome) (l : list (text * json)) : list (text * json) :=
  match o with
  | Running => l
  | Completed now => jset (str "status") (JStr (str "completed")) (jset (str "end_time") (JStr now) l)
  | Error now typ msg => jset (str "error") (JObj [(str "type", JStr typ); (str "message", JStr msg)]) (jset (str "status") (JStr (str "failed")) (jset (str "end_time") (JStr now) l))
  end.
Lemma entry_upd r o : exists l, entry (r, Running) = JObj l /\ JObj (upd_of o l) = entry (r, o).
Proof. eexists. split; [reflexivity|]. destruct o; reflexivity. Qed.
Lemma ident_eqb r r' : is_str (r_name r) (JStr (r_name r')) && is_str (r_start r) (JStr (r_start r')) = true <-> ident r' = ident r.
Proof.
  unfold is_str, ident. destruct (list_eq_dec ascii_dec (r_name r') (r_name r)) as [E|E], (list_eq_dec ascii_dec (r_start r') (r_start r)) as [F|F]; cbn; split; intros H; try discriminate; try congruence.
Qed.

(** setting the outcome of a run *)
Definition set_out (r : run) (o : outcome) (log : list (run * outcome)) : list (run * outcome) :=
  map (fun x => if is_str (r_name r) (JStr (r_name (fst x))) && is_str (r_start r) (JStr (r_start (fst x))) then (fst x, o) else x) log.
Lemma update_all r o log : (forall x, In x log -> ident (fst x) = ident r -> snd x = Running) ->
  rmapM (update_entry r (upd_of o)) (map entry log) = Ok (map entry (set_out r o log)).
Proof.
  induction log as [|[r' o'] log IH]; intros H; [reflexivity|]. cbn [map rmapM set_out fst].
  destruct (entry_get r' o') as (l & E & G1 & G2). rewrite E. unfold update_entry at 1. rewrite G1, G2.
  destruct (is_str (r_name r) (JStr (r_name r')) && is_str (r_start r) (JStr (r_start r'))) eqn:Q; cbn [rbind].
  - rewrite IH by (intros x Hx; apply H; right; exact Hx). cbn [rbind]. apply ident_eqb in Q. specialize (H (r', o') (or_introl eq_refl) Q). cbn in H. subst o'.
    destruct (entry_upd r' o) as (l' & E' & U). rewrite E in E'. injection E' as <-. rewrite U. reflexivity.
  - rewrite IH by (intros x Hx; apply H; right; exact Hx). cbn [rbind]. rewrite E. reflexivity.
Qed.

(** ** Lengths of entries *)
Lemma entry_wf r o : wf_run r -> wf (entry (r, o)).
Proof.
  intros (A & B & C & D & E & F). unfold entry. constructor. apply Forall_app. split.
  - repeat (constructor; [cbn [snd]|]); try assumption; try constructor; destruct o; try constructor; repeat (constructor; cbn [snd]); apply Forall_map, Forall_forall; intros q _; cbn [snd]; repeat constructor.
  - destruct o; constructor; [|constructor]. cbn. repeat constructor.
Qed.
Lemma status_len o : LN (dump (Some 2) 2 (status_of o)) = match o with Running => 9 | Completed _ => 11 | Error _ _ _ => 8 end.
Proof. destruct o; reflexivity. Qed.
Lemma esc_length s : List.length s <= List.length (esc s).
Proof. induction s as [|c s IH]; [cbn; lia|]. cbn [esc flat_map]. fold (esc s). rewrite app_length. unfold esc1. destruct (Ascii.eqb c quote), (Ascii.eqb c bslash), (Ascii.eqb c nl); cbn; lia. Qed.
Definition now_of (o : outcome) : text := match o with Running => [] | Completed t | Error t _ _ => t end.
Lemma entry_longer r o : (o = Running \/ 19 <= List.length (now_of o)) -> LN (dump (Some 2) 1 (entry (r, Running))) <= LN (dump (Some 2) 1 (entry (r, o))).
Proof.
  intros H. unfold entry. rewrite !dump_obj_length by discriminate. rewrite !map_app, !list_sum_app, !app_length. cbn [map]. rewrite !lsum_cons. cbn [fst snd]. rewrite !status_len.
  set (X := list_sum []). assert (K : LN (dump (Some 2) 2 (end_of Running)) <= LN (dump (Some 2) 2 (end_of o)) /\ (match o with Error _ _ _ => LN (dump (Some 2) 2 (end_of Running)) + 10 <= LN (dump (Some 2) 2 (end_of o)) | _ => True end)).
  { unfold LN. destruct o as [|now|now typ msg]; cbn [end_of dump]; [split; [lia|exact I]| |]; (destruct H as [H|H]; [discriminate|]; cbn [now_of] in H; pose proof (esc_length now); unfold dstr; cbn [List.length]; rewrite app_length; cbn [List.length]; split; [|]; try exact I; change (List.length (str "null")) with 4; lia). }
  assert (S6 : LN (sep (Some 2) 2) = 6) by reflexivity. rewrite !S6. cbn [List.length].
  destruct o; cbn [error_of map List.length] in *; rewrite ?lsum_cons; cbn [end_of] in *; destruct K as [K1 K2]; unfold X; lia.
Qed.
Lemma dump_log_longer (a b : list json) : a <> [] -> Forall2 (fun x y => LN (dump (Some 2) 1 x) <= LN (dump (Some 2) 1 y)) a b -> LN (dump (Some 2) 0 (JArr a)) <= LN (dump (Some 2) 0 (JArr b)).
Proof.
  intros N H. assert (N' : b <> []) by (destruct H; [congruence|discriminate]). rewrite !dump_arr_length by assumption. assert (E : List.length a = List.length b) by (clear N N'; induction H; cbn; congruence). rewrite E.
  assert (S : list_sum (map (fun x => LN (dump (Some 2) 1 x)) a) <= list_sum (map (fun x => LN (dump (Some 2) 1 x)) b)); [|lia].
  clear N N' E. induction H; [cbn; lia|]. cbn [map]. rewrite !lsum_cons. lia.
Qed.
Lemma dump_log_app a v : LN (dump (Some 2) 0 (JArr a)) <= LN (dump (Some 2) 0 (JArr (a ++ [v]))).
Proof.
  destruct a as [|x a]; [cbn [app]; rewrite (dump_arr_length (Some 2) 0 [v]) by discriminate; unfold LN; cbn [dump str list_ascii_of_string List.length]; lia|]. rewrite !dump_arr_length by discriminate. rewrite map_app, list_sum_app, app_length. cbn [List.length]. nia.
Qed.

(** ** The log after a history *)
Definition written (f : file) (log : list (run * outcome)) : Prop := match f with None => log = [] | Some t => exists i, (i = None \/ i = Some 2) /\ t = dump i 0 (JArr (map entry log)) end.
Lemma steps_snoc f es e : steps f (es ++ [e]) = rbind (steps f es) (fun f' => step f' e).
Proof. revert f. induction es as [|x es IH]; intros f; cbn; [destruct (step f e); reflexivity|]. destruct (step f x); cbn; [apply IH|reflexivity]. Qed.
Lemma written_shorter f log t : written f log -> f = Some t -> LN t <= LN (dump (Some 2) 0 (JArr (map entry log))).
Proof. intros H ->. destruct H as (i & [-> | ->] & ->); [apply compact_shorter|lia]. Qed.
Lemma written_load f log t : Forall (fun x => wf_run (fst x)) log -> written f log -> f = Some t -> load t = Ok (JArr (map entry log)).
Proof. intros W H ->. destruct H as (i & _ & ->). apply load_dump. constructor. apply Forall_map. eapply Forall_impl; [|exact W]. intros [r o] Hr. apply entry_wf. exact Hr. Qed.
Lemma started_app a b : started (a ++ b) = started a ++ started b.
Proof. apply flat_map_app. Qed.

Lemma history_log es : history es -> exists f log, steps None es = Ok f /\ written f log /\ is_log es log /\ Forall (fun x => wf_run (fst x)) log /\ NoDup (map ident (map fst log)) /\ (es <> [] -> f <> None).
Proof.
  induction 1 as [|es r H IH W N|es e r o H IH He Hin Hfresh Hlen].
  - exists None, []. repeat split; try constructor; try congruence. intros r o [].
  - destruct IH as (f & log & E & Wr & (I1 & I2) & Wl & Nd & _). rewrite steps_snoc, E. cbn [rbind step].
    assert (IL : is_log (es ++ [Start r]) (log ++ [(r, Running)])).
    { split; [rewrite map_app, started_app, I1; reflexivity|]. intros r' o' Hin. apply in_app_or in Hin as [Hin|[Hin|[]]].
      - specialize (I2 r' o' Hin). destruct o'.
        + intros e o' He. apply in_app_or in He as [He|[<-|[]]]; [apply I2; exact He|intros []].
        + destruct I2 as (e & He & K). exists e. split; [apply in_or_app; left; exact He|exact K].
        + destruct I2 as (e & He & K). exists e. split; [apply in_or_app; left; exact He|exact K].
      - injection Hin as <- <-. intros e o' He. apply in_app_or in He as [He|[<-|[]]]; [|intros []]. intros K. apply N.
        (* a run that has ended has been started *)
        assert (G : forall es, history es -> forall e o', In e es -> ends r e o' -> In r (started es)).
        { clear. induction 1 as [|es r0 H IH W N|es e0 r0 o0 H IH He0 Hin Hf Hl]; intros e o' He K.
          - destruct He.
          - apply in_app_or in He as [He|[<-|[]]]; [rewrite started_app; apply in_or_app; left; eapply IH; eassumption|destruct K].
          - rewrite started_app. apply in_or_app. left. apply in_app_or in He as [He|[<-|[]]]; [eapply IH; eassumption|].
            assert (r0 = r) by (destruct e0; cbn in *; [destruct K|destruct He0 as [-> _], K as [-> _]; reflexivity|destruct He0 as [-> _], K as [-> _]; reflexivity]). subst. exact Hin. }
        apply in_map. eapply G; eassumption. }
    assert (ND : NoDup (map ident (map fst (log ++ [(r, Running)])))).
    { rewrite !map_app. cbn [map fst]. apply NoDup_rev in Nd. rewrite <- (rev_involutive (map ident (map fst log) ++ [ident r])). apply NoDup_rev. rewrite rev_app_distr. cbn [rev app]. constructor; [|exact Nd]. rewrite <- in_rev, I1. exact N. }
    assert (WL : Forall (fun x : run * outcome => wf_run (fst x)) (log ++ [(r, Running)])) by (apply Forall_app; split; [exact Wl|constructor; [exact W|constructor]]).
    destruct f as [t|].
    + cbn [init_log]. rewrite (written_load _ _ t Wl Wr eq_refl). cbn [rbind]. rewrite overwrite_longer.
      * eexists _, (log ++ [(r, Running)]). split; [reflexivity|]. split; [|split; [exact IL|split; [exact WL|split; [exact ND|intros _; discriminate]]]].
        exists (Some 2). split; [right; reflexivity|]. rewrite map_app, entry_start. reflexivity.
      * pose proof (written_shorter _ _ t Wr eq_refl). pose proof (dump_log_app (map entry log) (log_data r)). unfold LN in *. lia.
    + cbn in Wr. subst log. cbn [init_log]. eexists _, [(r, Running)]. split; [reflexivity|]. split; [|split; [exact IL|split; [exact WL|split; [exact ND|intros _; discriminate]]]].
      exists None. split; [left; reflexivity|]. rewrite entry_start. reflexivity.
  - destruct IH as (f & log & E & Wr & (I1 & I2) & Wl & Nd & NN). rewrite steps_snoc, E. cbn [rbind].
    assert (Ne : es <> []) by (intros ->; destruct Hin). destruct f as [t|]; [|exfalso; apply (NN Ne); reflexivity].
    assert (S : step (Some t) e = update_log r (upd_of o) (Some t)).
    { destruct e; cbn in He; [destruct He| |]; destruct He as [-> ->]; reflexivity. }
    assert (Run0 : forall x, In x log -> ident (fst x) = ident r -> fst x = r /\ snd x = Running).
    { intros [r' o'] Hx Hid. cbn in Hid. assert (r' = r).
      { assert (Hr : In r (map fst log)) by (rewrite I1; exact Hin). assert (Hr' : In r' (map fst log)) by (apply (in_map fst) in Hx; exact Hx). revert Nd Hr Hr' Hid. generalize (map fst log). clear.
        induction l as [|y l IH]; intros Nd A B Hid; [destruct A|]. inversion Nd; subst. destruct A as [->|A], B as [->|B]; auto; exfalso.
        - apply H1. rewrite <- Hid. apply in_map. exact B.
        - apply H1. rewrite Hid. apply in_map. exact A. }
      subst r'. split; [reflexivity|]. specialize (I2 r o' Hx). cbn. destruct o'; [reflexivity|exfalso|exfalso]; destruct I2 as (e' & He' & K); exact (Hfresh e' _ He' K). }
    rewrite S. cbn [update_log]. rewrite (written_load _ _ t Wl Wr eq_refl). cbn [rbind]. rewrite update_all by (intros x Hx Hid; apply (Run0 x Hx Hid)). cbn [rbind].
    assert (Olen : 19 <= List.length (now_of o)) by (destruct e; cbn in He; [destruct He| |]; destruct He as [_ ->]; exact Hlen).
    rewrite overwrite_longer.
    + eexists _, (set_out r o log). split; [reflexivity|]. split; [exists (Some 2); split; [right; reflexivity|reflexivity]|].
      assert (F : map fst (set_out r o log) = map fst log).
      { unfold set_out. rewrite map_map. apply map_ext. intros x. destruct (_ && _); reflexivity. }
      split; [split|].
      * rewrite F, I1, started_app. destruct e; cbn in He; [destruct He| |]; cbn; rewrite app_nil_r; reflexivity.
      * intros r' o' Hx. unfold set_out in Hx. apply in_map_iff in Hx as (x & Hx & Hxin).
        destruct (is_str (r_name r) (JStr (r_name (fst x))) && is_str (r_start r) (JStr (r_start (fst x)))) eqn:Q.
        -- apply ident_eqb in Q. destruct (Run0 x Hxin Q) as [Q1 _]. injection Hx as <- <-. rewrite Q1. destruct o; [cbn in Olen; lia| |]; exists e; (split; [apply in_or_app; right; left; reflexivity|exact He]).
        -- subst x. cbn [fst] in Q. specialize (I2 r' o' Hxin). destruct o'.
           ++ intros e' o'' He' K. apply in_app_or in He' as [He'|[<-|[]]]; [exact (I2 e' o'' He' K)|].
              assert (r' = r) by (destruct e; cbn in *; [destruct K|destruct He as [-> _], K as [-> _]; reflexivity|destruct He as [-> _], K as [-> _]; reflexivity]). subst.
              assert (T : is_str (r_name r) (JStr (r_name r)) && is_str (r_start r) (JStr (r_start r)) = true) by (apply ident_eqb; reflexivity). rewrite T in Q. discriminate.
           ++ destruct I2 as (e' & He' & K). exists e'. split; [apply in_or_app; left; exact He'|exact K].
           ++ destruct I2 as (e' & He' & K). exists e'. split; [apply in_or_app; left; exact He'|exact K].
      * split; [|split; [rewrite F; exact Nd|intros _; discriminate]].
        unfold set_out. apply Forall_map. eapply Forall_impl; [|exact Wl]. intros x Hx. cbn beta. destruct (_ && _); exact Hx.
    + pose proof (written_shorter _ _ t Wr eq_refl) as L1. assert (Nl : map entry log <> []).
      { intros K. apply map_eq_nil in K. subst log. cbn in I1. rewrite <- I1 in Hin. destruct Hin. }
      assert (L2 : LN (dump (Some 2) 0 (JArr (map entry log))) <= LN (dump (Some 2) 0 (JArr (map entry (set_out r o log))))); [|unfold LN in *; lia].
      apply dump_log_longer; [exact Nl|]. clear - Run0 Olen. unfold set_out. induction log as [|x log IH]; [constructor|]. cbn [map]. constructor; [|apply IH; intros y Hy; apply Run0; right; exact Hy].
      destruct (_ && _) eqn:Q; [|lia]. apply ident_eqb in Q. destruct (Run0 x (or_introl eq_refl) Q) as [Q1 Q2]. destruct x as [r' o']. cbn in Q1, Q2. subst. apply entry_longer. right. exact Olen.
Qed.

(** At any time the log file is one JSON document: the list of all runs that have been started, in this order, each with its outcome so far. *)
Theorem C245_experiment_log_partial es : history es -> es <> [] -> exists t log, steps None es = Ok (Some t) /\ load t = Ok (JArr (map entry log)) /\ is_log es log.
Proof.
  intros H N. destruct (history_log es H) as (f & log & E & Wr & IL & Wl & _ & NN). destruct f as [t|]; [|exfalso; exact (NN N eq_refl)].
  exists t, log. split; [exact E|]. split; [apply (written_load (Some t) log t Wl Wr eq_refl)|exact IL].
Qed.
Print Assumptions C245_experiment_log_partial.

(** json.load reads what json.dump has written, for every value and indentation *)
Theorem C245_json_round_trip v i : wf v -> load (dump i 0 v) = Ok v.
Proof. apply load_dump. Qed.
Print Assumptions C245_json_round_trip.

Definition ex_run (name start : string) (qs : list (text * text)) : run :=
  Run (str name) (str start) (str "job") qs (JObj [(str "system", JStr (str "pg ""16"""))]) JNull (str "/tmp/results.csv") (JNum (str "3")) (JNum (str "1")) false JNull (JNum (str "4.5")).
Definition ex_qs : list (text * text) := [(str "1a", str "SELECT * FROM r"); (str "2b", str "SELECT 'a\b' FROM s")].
Definition t1 := "2026-11-16T10:00:00"%string.
Definition t2 := "2026-11-16T10:00:00.000001"%string.
Example C245_ex :
  let a := ex_run "A" t1 ex_qs in let b := ex_run "B" t1 [] in
  let es := [Start a; Start b; Failed a (str t2) (str "ValueError") (str "no ""x"""); Done b (str t2)] in
  history es /\
  exists t, steps None es = Ok (Some t) /\ load t = Ok (JArr [entry (a, Error (str t2) (str "ValueError") (str "no ""x""")); entry (b, Completed (str t2))]).
Proof.
  cbv zeta. split.
  - assert (W : forall n s qs, wf_run (ex_run n s qs)) by (intros; repeat split; repeat constructor; try discriminate).
    apply (h_end [_; _; _] (Done _ _) (ex_run "B" t1 []) (Completed (str t2))); [|split; reflexivity|right; left; reflexivity| |cbn; lia].
    + apply (h_end [_; _] (Failed _ _ _ _) (ex_run "A" t1 ex_qs) (Error (str t2) (str "ValueError") (str "no ""x"""))); [|split; reflexivity|left; reflexivity| |cbn; lia].
      * apply (h_start [_]); [|apply W|cbn; intros [E|[]]; discriminate]. apply (h_start []); [constructor|apply W|intros []].
      * intros e' o' [<-|[<-|[]]] [].
    + intros e' o' [<-|[<-|[<-|[]]]]; try (intros []). discriminate.
  - eexists. split; [vm_compute; reflexivity|vm_compute; reflexivity].
Qed.

(** Not so for other log files: If the log of a running benchmark is pretty-printed in the meantime (json.tool uses 4 blanks), the end of the old text
    remains behind the new one and the log cannot be read anymore: every further benchmark fails as well.
    And two runs of the same name that start at the same time are not told apart. *)
Theorem C245_experiment_log_refuted :
  (exists r now, wf_run r /\ load (dump (Some 4) 0 (JArr [log_data r])) = Ok (JArr [entry (r, Running)]) /\
     exists t, finalize_log r now (Some (dump (Some 4) 0 (JArr [log_data r]))) = Ok (Some t) /\ load t = Raise ValueError /\
     forall r' now', init_log r' (Some t) = Raise ValueError /\ finalize_log r now' (Some t) = Raise ValueError) /\
  (exists a b now t, ident a = ident b /\ a <> b /\ steps None [Start a; Start b; Done a now] = Ok (Some t) /\ load t = Ok (JArr [entry (a, Completed now); entry (b, Completed now)])).
Proof.
  split.
  - exists (ex_run "A" t1 ex_qs), (str t2). split; [repeat split; repeat constructor; try discriminate|]. split; [vm_compute; reflexivity|].
    eexists. split; [vm_compute; reflexivity|]. match goal with |- load ?t = _ /\ _ => assert (E : load t = Raise ValueError) by (vm_compute; reflexivity) end. split; [exact E|].
    intros r' now'. unfold init_log, finalize_log, update_log. rewrite E. split; reflexivity.
  - exists (ex_run "A" t1 ex_qs), (ex_run "A" t1 []), (str t2). eexists. split; [reflexivity|]. split; [discriminate|]. split; [vm_compute; reflexivity|vm_compute; reflexivity].
Qed.
Print Assumptions C245_experiment_log_refuted.
