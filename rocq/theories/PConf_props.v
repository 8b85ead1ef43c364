(** C287-C291: settings of Postgres servers. *)
From Coq Require Import String Ascii List Bool Arith Lia.
From Verif Require Import PyBase Ident_model Conf_model PConf_model PConf_spec.
Import ListNotations.
Open Scope string_scope.

(** * Texts *)
Lemma app_assoc_s (a b c : string) : (a ++ b) ++ c = a ++ (b ++ c).
Proof. induction a as [|x a IH]; cbn; [reflexivity | now rewrite IH]. Qed.
Lemma app_nil_s (a : string) : a ++ "" = a.
Proof. induction a as [|x a IH]; cbn; [reflexivity | now rewrite IH]. Qed.
Lemma strip_app (p s : string) : strip p (p ++ s) = Some s.
Proof. induction p as [|a p IH]; cbn; [reflexivity|]. rewrite Ascii.eqb_refl. exact IH. Qed.
Lemma strip_some (p : string) : forall s r, strip p s = Some r -> s = p ++ r.
Proof.
  induction p as [|a p IH]; intros [|b s] r; cbn; try congruence.
  destruct (Ascii.eqb_spec a b) as [->|]; [|discriminate]. intros H. now rewrite (IH _ _ H).
Qed.
Lemma word_app (n s : string) : free_of " " n -> free_of (ascii_of_nat 10) n -> word (n ++ String " " s) = (n, String " " s).
Proof.
  unfold free_of. induction n as [|c n IH]; intros A B; [reflexivity|]. cbn [append word].
  assert (W : white c = false).
  { unfold white. destruct (Ascii.eqb_spec c " "); [exfalso; apply A; left; auto|]. destruct (Ascii.eqb_spec c (ascii_of_nat 10)); [exfalso; apply B; left; auto | reflexivity]. }
  rewrite W, IH; [reflexivity | |]; intros X; [apply A | apply B]; right; exact X.
Qed.
Lemma literal_app (v s : string) : free_of "'" v -> literal (v ++ String "'" (String ";" s)) = Some (v, String ";" s).
Proof.
  unfold free_of. induction v as [|c v IH]; intros A; [reflexivity|]. cbn [append literal]. unfold quote.
  destruct (Ascii.eqb_spec c "'"); [exfalso; apply A; left; auto|]. rewrite IH; [reflexivity|]. intros X. apply A. right. exact X.
Qed.
Lemma one_command fuel x rest : plain x ->
  commands (S fuel) (setting_str x ++ rest) = option_map (cons (s_param x, text_of (s_value x))) (commands fuel rest).
Proof.
  intros (A & B & C). unfold setting_str. rewrite !app_assoc_s.
  change (commands (S fuel) ("SET " ++ (s_param x ++ (" = '" ++ (text_of (s_value x) ++ ("';" ++ rest))))))
    with (match strip "SET " ("SET " ++ (s_param x ++ (" = '" ++ (text_of (s_value x) ++ ("';" ++ rest))))) with
             | None => None
             | Some s => let (name, s) := word s in
                 match strip " = '" s with
                 | None => None
                 | Some s => match literal s with
                             | None => None
                             | Some (v, s) => match strip ";" s with None => None | Some s => option_map (cons (name, v)) (commands fuel s) end
                             end
                 end
             end).
  rewrite strip_app.
  change (" = '" ++ (text_of (s_value x) ++ ("';" ++ rest))) with (String " " ("= '" ++ (text_of (s_value x) ++ ("';" ++ rest)))).
  rewrite word_app by assumption. cbv iota beta.
  change (String " " ("= '" ++ (text_of (s_value x) ++ ("';" ++ rest)))) with (" = '" ++ (text_of (s_value x) ++ ("';" ++ rest))).
  rewrite strip_app. change ("';" ++ rest) with (String "'" (String ";" rest)). rewrite literal_app by assumption. reflexivity.
Qed.
Lemma all_commands l : forall fuel, length l < fuel -> Forall plain l ->
  commands fuel (join_lines (map setting_str l)) = Some (map (fun x => (s_param x, text_of (s_value x))) l).
Proof.
  induction l as [|x l IH]; intros fuel F P; (destruct fuel as [|fuel]; [cbn in F; lia|]); [reflexivity|].
  inversion P as [|? ? Px Pl]; subst. cbn [length] in F. destruct l as [|y l].
  - cbn [map join_lines]. rewrite <- (app_nil_s (setting_str x)), one_command by assumption. destruct fuel; [cbn in F; lia | reflexivity].
  - change (join_lines (map setting_str (x :: y :: l))) with (setting_str x ++ String (ascii_of_nat 10) (join_lines (map setting_str (y :: l)))).
    rewrite one_command by assumption. destruct fuel as [|fuel]; [cbn in F; lia|].
    change (commands (S fuel) (String (ascii_of_nat 10) (join_lines (map setting_str (y :: l))))) with (commands (S fuel) (join_lines (map setting_str (y :: l)))).
    rewrite IH by (assumption || lia). reflexivity.
Qed.
Lemma length_app_s (a b : string) : String.length (a ++ b) = String.length a + String.length b.
Proof. induction a; cbn; auto. Qed.
Lemma length_lines l : length l <= String.length (join_lines (map setting_str l)).
Proof.
  induction l as [|x [|y l] IH]; [cbn; lia | cbn; lia|].
  change (join_lines (map setting_str (x :: y :: l))) with (setting_str x ++ String (ascii_of_nat 10) (join_lines (map setting_str (y :: l)))).
  rewrite length_app_s. cbn [String.length length] in *. lia.
Qed.

(** * Executing the commands *)
Lemma set_all_ok l : forall s, NoDup (map (fun x : setting => s_param x) l) ->
  (forall x, In x l -> exists v, accepts s x v) ->
  exists s', set_all s (map (fun x => (s_param x, text_of (s_value x))) l) = Ok s' /\ same_server s s'
    /\ (forall x v, In x l -> accepts s x v -> shows s' (s_param x) v)
    /\ (forall p, ~ In p (map (fun x : setting => s_param x) l) -> dget (sv_settings s') p = dget (sv_settings s) p).
Proof.
  induction l as [|x l IH]; intros s ND A.
  { exists s. split; [reflexivity|]. split; [split; [|split]; [reflexivity.. | intros p; reflexivity]|]. split; [intros ? ? []|reflexivity]. }
  cbn [map] in ND. inversion ND as [|? ? N1 N2]; subst.
  destruct (A x (or_introl eq_refl)) as (v & (old & O) & ST & AC). unfold shows in O.
  cbn [map set_all]. unfold set_one at 1. cbn [fst snd]. rewrite O, ST, AC. cbn [rbind].
  set (s1 := with_settings s (dset (sv_settings s) (s_param x) v)).
  assert (K : forall p w, p <> s_param x -> (shows s1 p w <-> shows s p w)).
  { intros p w NE. unfold shows, s1. cbn [sv_settings with_settings]. rewrite dset_other by assumption. reflexivity. }
  assert (KX : shows s1 (s_param x) v) by (unfold shows, s1; cbn [sv_settings with_settings]; apply dset_same).
  assert (AQ : forall y w, s_param y <> s_param x -> (accepts s1 y w <-> accepts s y w)).
  { intros y w NE. unfold accepts. cbn [sv_settable sv_accept s1 with_settings].
    assert ((exists o, shows s1 (s_param y) o) <-> (exists o, shows s (s_param y) o)) by (split; intros [o Ho]; exists o; apply (K _ _ NE); exact Ho). tauto. }
  assert (NP : forall y, In y l -> s_param y <> s_param x).
  { intros y Iy E. apply N1. rewrite <- E. apply (in_map (fun x : setting => s_param x)). exact Iy. }
  destruct (IH s1 N2) as (s' & E & (S1 & S2 & S3) & V & R).
  { intros y Iy. destruct (A y (or_intror Iy)) as [w W]. exists w. apply AQ; [apply NP; exact Iy | exact W]. }
  exists s'. split; [exact E|]. split; [|split].
  - split; [exact S1|]. split; [exact S2|]. intros p. rewrite <- S3. destruct (deqb_spec p (s_param x)) as [->|NE].
    + split; intros _; [exists v; exact KX | exists old; exact O].
    + split; intros [w W]; exists w; apply (K _ _ NE); exact W.
  - intros y w [<-|Iy] W.
    + unfold shows. rewrite R by exact N1. destruct W as (_ & _ & W). rewrite AC in W. injection W as <-. exact KX.
    + apply V; [exact Iy|]. apply AQ; [apply NP; exact Iy | exact W].
  - intros p NI. cbn [map In] in NI. rewrite R by tauto. unfold s1. cbn [sv_settings with_settings]. apply dset_other. intros X. apply NI. left. auto.
Qed.
Lemma set_all_err l : forall s x, In x l ->
  (forall s', same_server s s' -> forall v, ~ accepts s' x v) ->
  set_all s (map (fun x => (s_param x, text_of (s_value x))) l) = Raise OtherError.
Proof.
  induction l as [|y l IH]; intros s x X H; [destruct X|]. destruct X as [<-|I]; cbn [map set_all]; unfold set_one at 1; cbn [fst snd].
  - destruct (dget (sv_settings s) (s_param y)) as [o|] eqn:O; [|reflexivity]. destruct (sv_settable s (s_param y)) eqn:ST; [|reflexivity].
    destruct (sv_accept s (s_param y) (text_of (s_value y))) as [v|] eqn:AC; [|reflexivity]. exfalso.
    apply (H s) with (v := v); [split; [|split]; try reflexivity; intros; reflexivity|]. split; [exists o; exact O|]. split; assumption.
  - destruct (dget (sv_settings s) (s_param y)) as [o|] eqn:O; [|reflexivity]. destruct (sv_settable s (s_param y)) eqn:ST; [|reflexivity].
    destruct (sv_accept s (s_param y) (text_of (s_value y))) as [v|] eqn:AC; [|reflexivity]. cbn [rbind].
    apply IH with (x := x); [exact I |]. intros s' (S1 & S2 & S3) w. apply H. split; [exact S1|]. split; [exact S2|]. intros p. rewrite <- S3.
    unfold shows. cbn [sv_settings with_settings]. destruct (deqb_spec p (s_param y)) as [->|NE].
    + rewrite dset_same, O. split; intros _; eexists; reflexivity.
    + rewrite dset_other by assumption. reflexivity.
Qed.

Lemma rmapM_settings es : (forall e, In e es -> exists x, e = ESetting x) ->
  exists l, rmapM (fun e => match e with ESetting x => Ok x | ERaw _ => Raise AttributeError end) es = Ok l /\ es = map ESetting l.
Proof.
  induction es as [|e es IH]; intros H; [exists []; split; reflexivity|].
  destruct (H e (or_introl eq_refl)) as [x ->]. destruct IH as (l & E & ->); [intros e I; apply H; right; exact I|].
  exists (x :: l). cbn [rmapM]. rewrite E. split; reflexivity.
Qed.
Lemma rmapM_params l : rmapM (fun e => rmap (fun p => (p, e)) (param_of e)) (map ESetting l) = Ok (map (fun x => (s_param x, ESetting x)) l).
Proof. induction l as [|x l IH]; [reflexivity|]. cbn [map rmapM]. rewrite IH. reflexivity. Qed.
Lemma dict_of_nodup {V} (l : list (string * V)) : NoDup (map fst l) -> dict_of l = l.
Proof.
  intros ND. unfold dict_of.
  assert (H : forall (l d : list (string * V)), NoDup (map fst d ++ map fst l)%list -> fold_left (fun d e => dset d (fst e) (snd e)) l d = (d ++ l)%list).
  { clear. induction l as [|[k v] l IH]; intros d ND; cbn [fold_left]; [now rewrite app_nil_r|].
    assert (NI : ~ In k (map fst d)). { intros I. cbn [map fst] in ND. apply NoDup_remove_2 in ND. apply ND. apply in_or_app. left. exact I. }
    assert (E : dset d k v = (d ++ [(k, v)])%list).
    { clear - NI. induction d as [|[k' v'] d IH]; cbn; [reflexivity|]. destruct (eqd k k') as [->|NE]; [exfalso; apply NI; left; reflexivity|].
      rewrite IH; [reflexivity|]. intros X. apply NI. right. exact X. }
    cbn [fst snd]. rewrite E, IH; [rewrite <- app_assoc; reflexivity|]. rewrite map_app. cbn [map fst]. rewrite <- app_assoc. exact ND. }
  apply (H l []). exact ND.
Qed.
Lemma new_settings l : NoDup (map (fun x : setting => s_param x) l) ->
  new (map ESetting l) = Ok (mkc (map (fun x => (s_param x, ESetting x)) l) (join_lines (map setting_str l))).
Proof.
  intros ND. unfold new. rewrite rmapM_params. unfold rmap. cbn [rbind]. rewrite dict_of_nodup by (rewrite map_map; exact ND).
  unfold format, dvalues. rewrite !map_map. reflexivity.
Qed.
Lemma nodup_filter {A B} (f : A -> B) (p : A -> bool) l : NoDup (map f l) -> NoDup (map f (filter p l)).
Proof.
  induction l as [|x l IH]; [auto|]. cbn [map filter]. inversion 1 as [|? ? N1 N2]; subst. destruct (p x); [|auto]. cbn [map]. constructor; [|auto].
  intros I. apply N1. rewrite in_map_iff in *. destruct I as (y & E & J). apply filter_In in J. exists y. tauto.
Qed.
(* What a proper configuration consists of, and what is executed for it *)
Lemma apply_unfold s c : proper c -> (forall x, setting_of c x -> In (s_param x) runtime -> plain x) ->
  exists l, NoDup (map (fun x : setting => s_param x) l) /\ (forall x, In x l <-> setting_of c x /\ In (s_param x) runtime)
    /\ apply_configuration s (TConfig c) = set_all s (map (fun x => (s_param x, text_of (s_value x))) l).
Proof.
  intros [W P] PL. destruct (rmapM_settings (dvalues (c_settings c))) as (l & E & D).
  { intros e I. unfold dvalues in I. apply in_map_iff in I. destruct I as ([k e'] & <- & I). destruct (P _ _ I) as (x & X & _). exists x. exact X. }
  assert (CS : c_settings c = map (fun x => (s_param x, ESetting x)) l).
  { clear E PL W. revert l D. destruct c as [d t]. cbn [c_settings] in *. induction d as [|[k e] d IH]; intros [|x l] D; cbn in D; try discriminate; [reflexivity|].
    injection D as -> D. destruct (P k (ESetting x) (or_introl eq_refl)) as (y & Y & <-). injection Y as <-. cbn [map]. f_equal. apply IH; [|exact D]. intros k e I. apply P. right. exact I. }
  assert (ND : NoDup (map (fun x : setting => s_param x) l)). { unfold dwf, dkeys in W. rewrite CS, map_map in W. exact W. }
  exists (filter (fun x => mem (s_param x) runtime) l). split; [apply nodup_filter; exact ND|].
  assert (IFF : forall x, In x (filter (fun x => mem (s_param x) runtime) l) <-> setting_of c x /\ In (s_param x) runtime).
  { intros x. rewrite filter_In, mem_In. unfold setting_of. rewrite CS, in_map_iff. split.
    - intros [I R]. split; [exists x; auto | exact R].
    - intros [(y & Y & I) R]. injection Y as _ <-. auto. }
  split; [exact IFF|]. cbn [apply_configuration]. unfold split. rewrite E. unfold rmap. cbn [rbind].
  rewrite new_settings by (apply nodup_filter; exact ND). cbn [rbind c_data]. unfold execute.
  rewrite all_commands; [reflexivity | assert (L := length_lines (filter (fun x => mem (s_param x) runtime) l)); lia |].
  apply Forall_forall. intros x I. apply IFF in I. apply PL; tauto.
Qed.

(** ** C287 *)
(* All settings of the configuration that are known as changeable at runtime are set to the given values, everything else stays as it was. *)
Theorem C287_apply_partial : forall s c, proper c -> (forall x, setting_of c x -> In (s_param x) runtime -> plain x /\ exists v, accepts s x v) ->
  exists s', apply_configuration s (TConfig c) = Ok s' /\ same_server s s'
    /\ (forall x v, setting_of c x -> In (s_param x) runtime -> accepts s x v -> shows s' (s_param x) v)
    /\ (forall p, (~ exists x, setting_of c x /\ s_param x = p) \/ ~ In p runtime -> dget (sv_settings s') p = dget (sv_settings s) p).
Proof.
  intros s c P H. destruct (apply_unfold s c P) as (l & ND & IFF & E); [intros x A B; apply (H x A B)|].
  destruct (set_all_ok l s ND) as (s' & E' & SS & V & R); [intros x I; apply IFF in I; apply (H x); tauto|].
  exists s'. rewrite E. split; [exact E'|]. split; [exact SS|]. split.
  - intros x v A B C. apply V; [apply IFF; auto | exact C].
  - intros p D. apply R. intros I. apply in_map_iff in I. destruct I as (x & X & I). apply IFF in I. destruct D as [D|D]; [apply D; exists x; tauto | apply D; rewrite <- X; tauto].
Qed.
Print Assumptions C287_apply_partial.
(* If the server refuses one of them, none is changed. *)
Theorem C287_refused : forall s c x, proper c -> (forall x, setting_of c x -> In (s_param x) runtime -> plain x) ->
  setting_of c x -> In (s_param x) runtime -> (forall v, ~ accepts s x v) -> apply_configuration s (TConfig c) = Raise OtherError.
Proof.
  intros s c x P PL A B N. destruct (apply_unfold s c P PL) as (l & ND & IFF & ->). apply set_all_err with (x := x); [apply IFF; auto|].
  intros s' (S1 & S2 & S3) v ((o & O) & ST & AC). apply (N v). split; [apply S3; exists o; exact O|]. rewrite <- S1, <- S2. auto.
Qed.
Print Assumptions C287_refused.
(* Single settings *)
Theorem C287_single_partial : forall s x v, plain x -> accepts s x v ->
  (In (s_param x) runtime -> exists s', apply_configuration s (TSetting x) = Ok s' /\ shows s' (s_param x) v /\ forall p, p <> s_param x -> dget (sv_settings s') p = dget (sv_settings s) p)
  /\ (~ In (s_param x) runtime -> apply_configuration s (TSetting x) = Ok s).
Proof.
  intros s x v P A. split; intros R; cbn [apply_configuration].
  - apply mem_In in R. rewrite R. unfold execute.
    assert (C := all_commands [x] (S (String.length (setting_str x)))). cbn [map join_lines length] in C. rewrite C; [|assert (L := length_lines [x]); cbn [map join_lines length] in L; lia | constructor; auto].
    destruct (set_all_ok [x] s) as (s' & E & _ & V & O); [constructor; [intros []|constructor] | intros y [<-|[]]; exists v; exact A |].
    exists s'. split; [exact E|]. split; [apply V; [left; reflexivity | exact A]|]. intros p N. apply O. intros [X|[]]. auto.
  - apply mem_nIn in R. rewrite R. reflexivity.
Qed.
Print Assumptions C287_single_partial.
(* A value with a quote makes the command unreadable for the server. *)
Theorem C287_quote_refuted : forall s, apply_configuration s (TSetting (mks "work_mem" (VObj "4'MB"))) = Raise OtherError.
Proof. intros s. vm_compute. reflexivity. Qed.
Print Assumptions C287_quote_refuted.
Definition any (d : dict string string) : server := mkServer d (fun _ => true) (fun _ v => Some v).
(* A setting that Postgres lets one change is left out because of a missing comma, and quotes in a value end it. *)
Theorem C287_apply_refuted :
  (~ forall s c x v, proper c -> setting_of c x -> plain x -> accepts s x v -> exists s', apply_configuration s (TConfig c) = Ok s' /\ shows s' (s_param x) v)
  /\ (~ forall s c s' p, proper c -> apply_configuration s (TConfig c) = Ok s' -> (~ exists x, setting_of c x /\ s_param x = p) -> dget (sv_settings s') p = dget (sv_settings s) p).
Proof.
  split.
  - intros H. set (x := mks "recursive_worktable_factor" (VObj "5")).
    destruct (H (any [("recursive_worktable_factor", "10")]) (mkc [(s_param x, ESetting x)] (setting_str x)) x "5") as (s' & E & V).
    + split; [constructor; [intros [] | constructor]|]. intros k e [X|[]]. injection X as <- <-. exists x. auto.
    + left. reflexivity.
    + repeat split; unfold free_of; cbn; intuition discriminate.
    + split; [exists "10"; reflexivity | split; reflexivity].
    + vm_compute in E. injection E as <-. vm_compute in V. discriminate.
  - intros H. set (x := mks "work_mem" (VObj "1'; SET jit = 'off")).
    specialize (H (any [("work_mem", "4096"); ("jit", "on")]) (mkc [(s_param x, ESetting x)] (setting_str x)) (any [("work_mem", "1"); ("jit", "off")]) "jit").
    assert (E : Some "off" = Some "on"); [|discriminate E]. apply H.
    + split; [constructor; [intros [] | constructor]|]. intros k e [X|[]]. injection X as <- <-. exists x. auto.
    + reflexivity.
    + intros (y & [Y|[]] & Z). injection Y as Y1 Y2. rewrite <- Y1 in Z. discriminate.
Qed.
Print Assumptions C287_apply_refuted.
Example C287_ex : rmap sv_settings (apply_configuration (any [("work_mem", "4096"); ("jit", "on"); ("geqo", "on"); ("shared_buffers", "16384")])
    (TConfig (mkc [("jit", ESetting (mks "jit" (VBool false))); ("shared_buffers", ESetting (mks "shared_buffers" (VObj "1"))); ("work_mem", ESetting (mks "work_mem" (VObj "64MB")))] "")))
  = Ok [("work_mem", "64MB"); ("jit", "off"); ("geqo", "on"); ("shared_buffers", "16384")].
Proof. reflexivity. Qed.

(** ** C289 (used by C288): the current configuration *)
Lemma current_unfold s b : dwf (sv_settings s) -> exists c, current_configuration s b = Ok c
  /\ c_settings c = map (fun x => (fst x, ESetting (mks (fst x) (VObj (snd x))))) (filter (fun x => mem (fst x) (if b then runtime else significant)) (sv_settings s)).
Proof.
  intros W. unfold current_configuration, load. set (d := filter _ _).
  assert (ND : NoDup (map fst d)) by (apply nodup_filter; exact W).
  rewrite dict_of_nodup by (rewrite map_map; exact ND). cbn [app].
  rewrite new_settings by (rewrite !map_map; exact ND). eexists. split; [reflexivity|]. cbn [c_settings]. rewrite !map_map. reflexivity.
Qed.
(* The configuration consists of the settings of interest with the values the server shows. *)
Theorem C289_current : forall s b, dwf (sv_settings s) -> exists c, current_configuration s b = Ok c /\ proper c
  /\ forall x, setting_of c x <-> exists v, shows s (s_param x) v /\ s_value x = VObj v /\ In (s_param x) (if b then runtime else significant).
Proof.
  intros s b W. destruct (current_unfold s b W) as (c & E & C). exists c. split; [exact E|]. split.
  - split.
    + unfold dwf, dkeys. rewrite C, map_map. apply (nodup_filter fst). exact W.
    + intros k e I. rewrite C in I. apply in_map_iff in I. destruct I as ([p v] & X & _). injection X as <- <-. eexists. split; reflexivity.
  - intros [p v]. unfold setting_of, shows. rewrite C, in_map_iff. cbn [s_param s_value]. split.
    + intros ([q w] & X & I). cbn [fst snd] in X. inversion X; subst. apply filter_In in I. cbn [fst] in I. destruct I as [I1 I2]. apply (proj1 (mem_In _ _)) in I2. exists w. split; [apply In_dget; tauto|]. tauto.
    + intros (w & V & -> & R). exists (p, w). split; [reflexivity|]. apply filter_In. cbn [fst]. split; [apply dget_In; exact V | apply mem_In; exact R].
Qed.
Print Assumptions C289_current.
(* Two of the settings that are listed in the source are not among them. *)
Theorem C289_listed_refuted : ~ forall s c p v, current_configuration s false = Ok c -> written p -> shows s p v -> exists x, setting_of c x /\ s_param x = p.
Proof.
  intros H. destruct (H (any [("autovacuum", "on"); ("jit", "on")]) (mkc [("jit", ESetting (mks "jit" (VObj "on")))] "SET jit = 'on';") "autovacuum" "on") as (x & [X|[]] & P).
  - reflexivity.
  - unfold written. apply mem_In. vm_compute. reflexivity.
  - reflexivity.
  - injection X as X _. rewrite <- X in P. discriminate.
Qed.
Print Assumptions C289_listed_refuted.
Theorem C289_listed_partial : forall s c p v, dwf (sv_settings s) -> current_configuration s false = Ok c -> written p -> p <> "autovacuum" -> p <> "recursive_worktable_factor" -> shows s p v ->
  setting_of c (mks p (VObj v)).
Proof.
  intros s c p v W E I N1 N2 V.
  assert (I' : In p significant).
  { unfold written in I. match type of I with In _ ?l => assert (C : forallb (fun n => mem n ["autovacuum"; "recursive_worktable_factor"] || mem n significant) l = true) by (vm_compute; reflexivity) end.
    rewrite forallb_forall in C. specialize (C p I). apply orb_true_iff in C as [C|C]; [|apply mem_In; exact C].
    apply (proj1 (mem_In _ _)) in C. destruct C as [C|[C|[]]]; congruence. }
  destruct (C289_current s false W) as (c' & E' & _ & H). rewrite E in E'. injection E' as <-.
  apply H. exists v. cbn [s_param s_value]. auto.
Qed.
Print Assumptions C289_listed_partial.
(* Nothing else is among them. *)
Definition listed : list string := ltac:(let t := eval unfold written in (written "") in match t with In _ ?l => exact l end).
Lemma listed_check : forallb (fun n => mem n ["recursive_worktable_factorautovacuum"] || mem n listed) significant = true.
Proof. vm_compute. reflexivity. Qed.
Lemma significant_written p : In p significant -> written p \/ p = "recursive_worktable_factorautovacuum".
Proof.
  intros J. pose proof listed_check as C. rewrite forallb_forall in C. specialize (C p J). apply orb_true_iff in C as [C|C].
  - right. apply (proj1 (mem_In _ _)) in C. destruct C as [C|[]]. symmetry. exact C.
  - left. change (In p listed). apply (proj1 (mem_In _ _)). exact C.
Qed.
Lemma runtime_significant p : In p runtime -> In p significant.
Proof. unfold runtime. intros I. apply filter_In in I. apply I. Qed.
Theorem C289_only_listed : forall s c b x, dwf (sv_settings s) -> current_configuration s b = Ok c -> setting_of c x ->
  written (s_param x) \/ s_param x = "recursive_worktable_factorautovacuum".
Proof.
  intros s c b x W E X. destruct (C289_current s b W) as (c' & E' & _ & H). rewrite E in E'. injection E' as <-. apply H in X.
  destruct X as (v & _ & _ & I). apply significant_written. destruct b; [apply runtime_significant|]; exact I.
Qed.
Print Assumptions C289_only_listed.
Example C289_ex : rmap (fun c => map fst (c_settings c)) (current_configuration (any [("jit", "on"); ("recursive_worktable_factor", "10"); ("shared_buffers", "16384"); ("port", "5432")]) false)
    = Ok ["jit"; "shared_buffers"]
  /\ rmap c_data (current_configuration (any [("jit", "on"); ("shared_buffers", "16384")]) true) = Ok "SET jit = 'on';".
Proof. split; reflexivity. Qed.

(** ** C288: restoring settings *)
Lemma runtime_words p : In p runtime -> free_of " " p /\ free_of (ascii_of_nat 10) p.
Proof.
  intros I. assert (H : forallb (fun p => forallb (fun c => negb (white c)) (list_ascii_of_string p)) runtime = true) by (vm_compute; reflexivity).
  rewrite forallb_forall in H. specialize (H p I). rewrite forallb_forall in H. unfold free_of. split; intros J; specialize (H _ J); discriminate.
Qed.
(* The values the server had when the configuration was read are restored, whatever has been changed since. *)
Theorem C288_restore_partial : forall s c s2, dwf (sv_settings s) -> current_configuration s true = Ok c -> same_server s s2 ->
  (forall p v, In p runtime -> shows s p v -> sv_settable s p = true /\ sv_accept s p v = Some v /\ free_of "'" v) ->
  exists s3, apply_configuration s2 (TConfig c) = Ok s3
    /\ (forall p, In p runtime -> dget (sv_settings s3) p = dget (sv_settings s) p)
    /\ (forall p, ~ In p runtime -> dget (sv_settings s3) p = dget (sv_settings s2) p).
Proof.
  intros s c s2 W E (S1 & S2 & S3) H. destruct (C289_current s true W) as (c' & E' & P & IFF). rewrite E in E'. injection E' as <-.
  assert (AC : forall x v, setting_of c x -> shows s (s_param x) v -> accepts s2 x v).
  { intros x v A V. apply IFF in A. destruct A as (w & V' & X & R). unfold shows in *. rewrite V in V'. injection V' as <-. destruct (H _ _ R V) as (A1 & A2 & _).
    split; [apply S3; exists v; exact V|]. rewrite S1, S2, X. auto. }
  destruct (C287_apply_partial s2 c P) as (s3 & E3 & (_ & _ & K) & V & R).
  { intros x A B. assert (A' := A). apply IFF in A'. destruct A' as (v & V & X & _). destruct (H _ _ B V) as (_ & _ & Q). split.
    - destruct (runtime_words _ B). repeat split; try assumption. rewrite X. exact Q.
    - exists v. apply AC; assumption. }
  exists s3. split; [exact E3|]. split.
  - intros p I. destruct (dget (sv_settings s) p) as [v|] eqn:D.
    + assert (A : setting_of c (mks p (VObj v))) by (apply IFF; exists v; cbn [s_param s_value]; auto). apply (V _ v A); [exact I|]. apply AC; [exact A | exact D].
    + destruct (dget (sv_settings s3) p) as [v|] eqn:D3; [|reflexivity]. exfalso. destruct (proj2 (K p)) as [w X]; [exists v; exact D3|].
      destruct (proj2 (S3 p)) as [u Y]; [exists w; exact X|]. unfold shows in Y. congruence.
  - intros p I. apply R. right. exact I.
Qed.
Print Assumptions C288_restore_partial.
Theorem C288_restore_refuted : ~ forall s c s2 s3 p, dwf (sv_settings s) -> current_configuration s true = Ok c -> same_server s s2 ->
  (forall p v, shows s p v -> sv_settable s p = true /\ sv_accept s p v = Some v /\ free_of "'" v) -> apply_configuration s2 (TConfig c) = Ok s3 ->
  written p -> dget (sv_settings s3) p = dget (sv_settings s) p.
Proof.
  intros H. set (n := "recursive_worktable_factor").
  assert (X : Some "99" = Some "10"); [|discriminate X].
  refine (H (any [(n, "10")]) (mkc [] "") (any [(n, "99")]) (any [(n, "99")]) n _ _ _ _ _ _).
  - constructor; [intros [] | constructor].
  - reflexivity.
  - split; [reflexivity|]. split; [reflexivity|]. intros p. unfold shows. cbn. destruct (eqd p n); split; intros [v V]; try discriminate; eexists; reflexivity.
  - intros p v V. split; [reflexivity|]. split; [reflexivity|]. unfold shows in V. cbn in V. destruct (eqd p n); [injection V as <- | discriminate]. unfold free_of. cbn. intuition discriminate.
  - reflexivity.
  - unfold written. apply mem_In. vm_compute. reflexivity.
Qed.
Print Assumptions C288_restore_refuted.
Example C288_ex : rmap sv_settings (rbind (current_configuration (any [("jit", "on"); ("work_mem", "4096"); ("shared_buffers", "9")]) true)
    (fun c => apply_configuration (any [("jit", "off"); ("work_mem", "1"); ("shared_buffers", "7")]) (TConfig c)))
  = Ok [("jit", "on"); ("work_mem", "4096"); ("shared_buffers", "7")].
Proof. reflexivity. Qed.

(** ** C290: extensions *)
Lemma rev_string_spec s : forall acc, list_ascii_of_string (rev_string s acc) = (rev (list_ascii_of_string s) ++ list_ascii_of_string acc)%list.
Proof. induction s as [|c s IH]; intros acc; cbn; [reflexivity|]. rewrite IH, <- app_assoc. reflexivity. Qed.
Lemma list_app_s a b : list_ascii_of_string (a ++ b) = (list_ascii_of_string a ++ list_ascii_of_string b)%list.
Proof. induction a; cbn; congruence. Qed.
Lemma list_inj_s a b : list_ascii_of_string a = list_ascii_of_string b -> a = b.
Proof. intros H. rewrite <- (string_of_list_ascii_of_string a), H. apply string_of_list_ascii_of_string. Qed.
Lemma ends_with_iff s suffix : ends_with s suffix = true <-> exists d, s = d ++ suffix.
Proof.
  unfold ends_with. split.
  - destruct (strip _ _) as [r|] eqn:E; [|discriminate]. intros _. apply strip_some in E. exists (string_of_list_ascii (rev (list_ascii_of_string r))).
    apply list_inj_s. rewrite list_app_s, list_ascii_of_string_of_list_ascii. apply (f_equal list_ascii_of_string) in E.
    rewrite list_app_s, !rev_string_spec in E. cbn in E. rewrite !app_nil_r in E. apply (f_equal (@rev ascii)) in E. rewrite rev_app_distr, !rev_involutive in E. exact E.
  - intros [d ->]. replace (rev_string (d ++ suffix) "") with (rev_string suffix "" ++ rev_string d "").
    + rewrite strip_app. reflexivity.
    + apply list_inj_s. rewrite list_app_s, !rev_string_spec, list_app_s, rev_app_distr. cbn. rewrite !app_nil_r. reflexivity.
Qed.
(* The answer is yes exactly if the path of some open file ends with the name (or, for other extensions, if it is installed). *)
Theorem C290_extension_partial : forall files installed name,
  (forall b, b = true \/ name = "pg_hint_plan" \/ name = "pg_lab" ->
     (has_extension files installed name b = true <-> exists f d, In f files /\ ((forall e, name <> e ++ ".so") /\ f = d ++ name ++ ".so" \/ (exists e, name = e ++ ".so") /\ f = d ++ name)))
  /\ (forall f, In f files -> located f (name ++ ".so") -> (forall e, name <> e ++ ".so") -> has_extension files installed name true = true)
  /\ (name <> "pg_hint_plan" -> name <> "pg_lab" -> (has_extension files installed name false = true <-> In name installed)).
Proof.
  intros files installed name.
  assert (A : forall b, b = true \/ name = "pg_hint_plan" \/ name = "pg_lab" ->
     (has_extension files installed name b = true <-> exists f d, In f files /\ ((forall e, name <> e ++ ".so") /\ f = d ++ name ++ ".so" \/ (exists e, name = e ++ ".so") /\ f = d ++ name))).
  { intros b B. unfold has_extension.
    assert (C : b || mem name ["pg_hint_plan"; "pg_lab"] = true). { destruct B as [->|[->| ->]]; [reflexivity | destruct b; reflexivity | destruct b; reflexivity]. }
    rewrite C, existsb_exists. destruct (ends_with name ".so") eqn:N.
    - assert (X : exists e, name = e ++ ".so") by (apply ends_with_iff; exact N). split.
      + intros (f & I & F). apply ends_with_iff in F. destruct F as [d F]. exists f, d. split; [exact I|]. right. auto.
      + intros (f & d & I & [[Y _]|[_ F]]); [destruct X as [e X]; exfalso; apply (Y e X)|]. exists f. split; [exact I|]. apply ends_with_iff. exists d. exact F.
    - assert (X : forall e, name <> e ++ ".so"). { intros e Y. assert (ends_with name ".so" = true) by (apply ends_with_iff; exists e; exact Y). congruence. } split.
      + intros (f & I & F). apply ends_with_iff in F. destruct F as [d F]. exists f, d. split; [exact I|]. left. auto.
      + intros (f & d & I & [[_ F]|[[e Y] _]]); [|exfalso; apply (X e Y)]. exists f. split; [exact I|]. apply ends_with_iff. exists d. exact F. }
  split; [exact A|]. split.
  - intros f I L X. apply (A true); [left; reflexivity|]. destruct L as [->|[d ->]]; [exists (name ++ ".so"), "" | exists (d ++ "/" ++ name ++ ".so"), (d ++ "/")]; (split; [exact I|]); left; (split; [exact X|]); [reflexivity|].
    rewrite !app_assoc_s. reflexivity.
  - intros N1 N2. unfold has_extension. assert (M : mem name ["pg_hint_plan"; "pg_lab"] = false) by (apply mem_nIn; cbn; intuition congruence). rewrite M. cbn [orb].
    rewrite existsb_exists. split; [intros (e & I & E); apply deqb_true in E; subst; exact I | intros I; exists name; split; [exact I | apply deqb_refl]].
Qed.
Print Assumptions C290_extension_partial.
(* Hence another library the name of which ends in the same way is taken for the extension. *)
Theorem C290_extension_refuted : ~ forall files installed name, has_extension files installed name true = true -> exists f, In f files /\ located f (name ++ ".so").
Proof.
  intros H. destruct (H ["/usr/lib/pg_lab.so"] [] "lab" eq_refl) as (f & [<-|[]] & [L|[d L]]); [discriminate|].
  apply (f_equal (fun s => rev (list_ascii_of_string s))) in L. rewrite list_app_s, rev_app_distr in L. cbn in L. discriminate.
Qed.
Print Assumptions C290_extension_refuted.
Example C290_ex : has_extension ["/lib/libc.so"; "/usr/lib/pg_lab.so"] [] "pg_lab" false = true /\ has_extension ["/lib/libc.so"] ["pg_lab"] "pg_lab" false = false
  /\ has_extension ["/usr/lib/pg_lab.so"] ["plpgsql"] "plpgsql" false = true /\ has_extension ["/usr/lib/pg_lab.so"] [] "pg_lab.so" true = true.
Proof. repeat split. Qed.

(** ** C291: planner settings *)
Theorem C291_infer : forall show int, match infer_settings show int with
  | Ok p => (In SeqScan (pl_scans p) <-> show "enable_seqscan" = "on") /\ (In IdxScan (pl_scans p) <-> show "enable_indexscan" = "on")
      /\ (In IdxOnlyScan (pl_scans p) <-> show "enable_indexonlyscan" = "on") /\ (In BitmapScan (pl_scans p) <-> show "enable_bitmapscan" = "on")
      /\ (In NestLoop (pl_joins p) <-> show "enable_nestloop" = "on") /\ (In HashJoin (pl_joins p) <-> show "enable_hashjoin" = "on")
      /\ (In MergeJoin (pl_joins p) <-> show "enable_mergejoin" = "on") /\ (pl_material p = true <-> show "enable_material" = "on")
      /\ (pl_memoize p = true <-> show "enable_memoize" = "on") /\ (pl_sort p = true <-> show "enable_sort" = "on")
      /\ int (show "max_parallel_workers_per_gather") = Ok (pl_workers p)
  | Raise e => int (show "max_parallel_workers_per_gather") = Raise e
  end.
Proof.
  intros show int. unfold infer_settings. destruct (int _) as [n|e]; [|reflexivity]. unfold rmap. cbn [rbind pl_scans pl_joins pl_material pl_memoize pl_sort pl_workers].
  assert (B : forall s, (show s =? "on") = true <-> show s = "on") by (intros s; apply String.eqb_eq).
  repeat match goal with |- _ /\ _ => split end; try apply B; try reflexivity;
    rewrite ?in_app_iff; rewrite <- B;
    repeat match goal with |- context[if ?b then _ else _] => let E := fresh in destruct b eqn:E end; cbn [In];
    split; intros X; repeat match goal with H : _ \/ _ |- _ => destruct H end; try discriminate; try contradiction; try congruence; auto; tauto.
Qed.
Print Assumptions C291_infer.
Example C291_ex : infer_settings (fun s => if String.eqb s "enable_hashjoin" || String.eqb s "enable_sort" || String.eqb s "enable_indexscan" then "on" else "off") (fun _ => Ok 2)
  = Ok (mkPlanner [IdxScan] [HashJoin] false false true 2).
Proof. reflexivity. Qed.
