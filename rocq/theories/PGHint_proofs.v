(** Proofs about the hint generation for PostgreSQL. *)
From Coq Require Import List Bool Arith ZArith String Ascii Permutation Lia.
From Verif Require Import PyBase FSet Hint_model JT_model Lim_model PGHint_model PGHint_spec.
Import ListNotations.
Open Scope string_scope.

Lemma sapp_assoc (a b c : string) : (a ++ b) ++ c = a ++ (b ++ c).
Proof. induction a as [|x a IH]; cbn; [reflexivity|now rewrite IH]. Qed.
Lemma sapp_cancel_l (a b c : string) : a ++ b = a ++ c -> b = c.
Proof. induction a as [|x a IH]; cbn; intros H; [assumption|]. injection H as H. auto. Qed.
Lemma sapp_length (a b : string) : String.length (a ++ b) = (String.length a + String.length b)%nat.
Proof. induction a as [|x a IH]; cbn; [reflexivity|now rewrite IH]. Qed.
Lemma sapp_cancel_r (a b c : string) : a ++ c = b ++ c -> a = b.
Proof.
  revert b. induction a as [|x a IH]; intros [|y b] H; cbn in H.
  - reflexivity.
  - apply (f_equal String.length) in H. cbn in H. rewrite sapp_length in H. lia.
  - apply (f_equal String.length) in H. cbn in H. rewrite sapp_length in H. lia.
  - injection H as -> H. f_equal. auto.
Qed.

(** ** Join orders *)
Definition stops (r : string) : Prop := match r with EmptyString => True | String c _ => delim c = true end.
Lemma word_split w1 : forall w2 r1 r2, no_delim w1 -> no_delim w2 -> stops r1 -> stops r2 -> w1 ++ r1 = w2 ++ r2 -> w1 = w2 /\ r1 = r2.
Proof.
  induction w1 as [|c w1 IH]; intros [|d w2] r1 r2 H1 H2 S1 S2 E; cbn in E.
  - auto.
  - subst r1. cbn in H2, S1. destruct H2 as [H2 _]. congruence.
  - subst r2. cbn in H1, S2. destruct H1 as [H1 _]. congruence.
  - injection E as -> E. cbn in H1, H2. destruct H1 as [_ H1], H2 as [_ H2]. destruct (IH w2 r1 r2 H1 H2 S1 S2 E) as [-> ->]. auto.
Qed.

Section Walk.
  Context {A : Type} (name : nat -> string).
  Hypothesis Hword : forall t, word (name t).
  (** The order of the names. *)
  Fixpoint same_names (a b : order) : Prop :=
    match a, b with
    | OrdTab x, OrdTab y => name x = name y
    | OrdJoin a1 a2, OrdJoin b1 b2 => same_names a1 b1 /\ same_names a2 b2
    | _, _ => False
    end.
  Lemma walk_prefix (t : jt nat A) : forall (u : jt nat A) s s' r r', walk name t = Ok s -> walk name u = Ok s' -> stops r -> stops r' ->
    s ++ r = s' ++ r' -> (exists a b, order_of t = Some a /\ order_of u = Some b /\ same_names a b) /\ r = r'.
  Proof.
    induction t as [lg|lg x an|lg o IHo i IHi an]; intros u s s' r r' Ht Hu Hr Hr' E; cbn [walk] in Ht.
    - discriminate.
    - injection Ht as <-. destruct u as [lg'|lg' y an'|lg' o' i' an']; cbn [walk] in Hu; [discriminate| |].
      + injection Hu as <-. destruct (word_split (name x) (name y) r r' (proj2 (Hword x)) (proj2 (Hword y)) Hr Hr' E) as [E1 ->]. split; [|reflexivity].
        exists (OrdTab x), (OrdTab y). repeat split; assumption.
      + exfalso. destruct (walk name o') as [so|]; [|discriminate]. destruct (walk name i') as [si|]; [|discriminate]. cbn [rbind] in Hu. injection Hu as <-.
        destruct (Hword x) as [Hne Hd]. destruct (name x) as [|c w]; [congruence|]. cbn in E. injection E as -> _. cbn in Hd. destruct Hd as [Hd _]. discriminate.
    - destruct (walk name o) as [so|] eqn:Eo; [|discriminate]. destruct (walk name i) as [si|] eqn:Ei; [|discriminate]. cbn [rbind] in Ht. injection Ht as <-.
      destruct u as [lg'|lg' y an'|lg' o' i' an']; cbn [walk] in Hu; [discriminate| |].
      + exfalso. injection Hu as <-. destruct (Hword y) as [Hne Hd]. destruct (name y) as [|c w]; [congruence|]. cbn in E. injection E as <- _. cbn in Hd. destruct Hd as [Hd _]. discriminate.
      + destruct (walk name o') as [so'|] eqn:Eo'; [|discriminate]. destruct (walk name i') as [si'|] eqn:Ei'; [|discriminate]. cbn [rbind] in Hu. injection Hu as <-.
        cbn in E. injection E as E. rewrite !sapp_assoc in E. cbn in E.
        destruct (IHo o' so so' (String " " ((si ++ ")") ++ r)) (String " " ((si' ++ ")") ++ r')) eq_refl Eo' eq_refl eq_refl E) as [(a & b & Ha & Hb & Hab) E2].
        injection E2 as E2. rewrite !sapp_assoc in E2. cbn in E2.
        destruct (IHi i' si si' (String ")" r) (String ")" r') eq_refl Ei' eq_refl eq_refl E2) as [(c & d & Hc & Hd & Hcd) E3].
        injection E3 as ->. split; [|reflexivity]. exists (OrdJoin a c), (OrdJoin b d). cbn [order_of same_names]. rewrite Ha, Hb, Hc, Hd. auto.
  Qed.
End Walk.

Lemma same_names_eq name a : forall b, (forall x y, In x (order_tables a) -> In y (order_tables b) -> name x = name y -> x = y) -> same_names name a b -> a = b.
Proof.
  induction a as [x|a1 IH1 a2 IH2]; intros [y|b1 b2] Hinj H; cbn in H; try easy.
  - f_equal. apply Hinj; cbn; auto.
  - destruct H as [H1 H2]. f_equal; [apply IH1|apply IH2]; try assumption; intros x y Hx Hy; apply Hinj; cbn; rewrite in_app_iff; auto.
Qed.

(** ** The operator loops of pg_lab *)
Record step := mkst { st_op : physop; st_text : string; st_w : option nat }.
Fixpoint lab_steps (s : lab_state) (l : list step) : res lab_state :=
  match l with [] => Ok s | x :: r => rbind (lab_step s (st_op x) (st_text x) (st_w x)) (fun s' => lab_steps s' r) end.
Lemma lab_steps_app l : forall s m, lab_steps s (l ++ m) = rbind (lab_steps s l) (fun s' => lab_steps s' m).
Proof.
  induction l as [|x l IH]; intros s m; [reflexivity|]. change ((x :: l) ++ m)%list with (x :: (l ++ m))%list. cbn [lab_steps].
  destruct (lab_step s (st_op x) (st_text x) (st_w x)) as [s'|e]; cbn [rbind]; [apply IH|reflexivity].
Qed.
Definition scan_step name (a : sassign) : step := mkst (PScan (sa_op a)) (name (sa_tab a)) (sa_par a).
Definition join_step name iter (a : jassign) : step := mkst (PJoin (ja_op a)) (inter_text name iter (ja_join a)) (ja_par a).
Lemma lab_scans_steps name l : forall s, lab_scans name s l = lab_steps s (map (scan_step name) l).
Proof. induction l as [|x l IH]; intros s; cbn [map lab_scans lab_steps]; [reflexivity|]. cbn [scan_step st_op st_text st_w]. destruct (lab_step _ _ _ _); cbn [rbind]; auto. Qed.
Lemma lab_joins_steps name iter l : forall s, lab_joins name iter s l = lab_steps s (map (join_step name iter) l).
Proof. induction l as [|x l IH]; intros s; cbn [map lab_joins lab_steps]; [reflexivity|]. cbn [join_step st_op st_text st_w]. destruct (lab_step _ _ _ _); cbn [rbind]; auto. Qed.

Definition plain_line kw text := kw ++ "(" ++ text ++ ")".
Definition par_line kw text n := kw ++ "(" ++ text ++ " (workers=" ++ n ++ "))".
Definition good (x : step) (line : string) : Prop :=
  exists kw, lab_op (st_op x) = Some kw /\ (line = plain_line kw (st_text x) \/ (exists n, line = par_line kw (st_text x) n)).
Definition exact (x : step) (line : string) : Prop :=
  exists kw, lab_op (st_op x) = Some kw /\ line = if parallel (st_w x) then par_line kw (st_text x) (workers_text (st_w x)) else plain_line kw (st_text x).
Fixpoint amo (used : bool) (l : list step) : Prop :=
  match l with
  | [] => True
  | x :: r => if parallel (st_w x) then used = false /\ amo true r else amo used r
  end.
Lemma lab_steps_good l : forall hints h used hints' h' used', lab_steps (hints, h, used) l = Ok (hints', h', used') -> amo used l ->
  exists outs, hints' = (hints ++ outs)%list /\ Forall2 exact l outs.
Proof.
  induction l as [|x l IH]; intros hints h used hints' h' used' E Ha; cbn [lab_steps] in E.
  - injection E as <- <- <-. exists []. rewrite app_nil_r. auto.
  - cbn [amo] in Ha. unfold lab_step in E. destruct (lab_op (st_op x)) as [kw|] eqn:Ek; cbn [item rbind] in E; [|discriminate].
    destruct (parallel (st_w x)) eqn:Ep; cbn [andb] in E.
    + destruct Ha as [-> Ha]. cbn [negb] in E. cbn [rbind] in E. destruct (IH _ _ _ _ _ _ E Ha) as (outs & -> & Hf).
      eexists (_ :: outs). rewrite <- app_assoc. cbn [List.app]. split; [reflexivity|]. constructor; [|assumption]. exists kw. split; [assumption|]. rewrite Ep. reflexivity.
    + cbn [rbind] in E. destruct (IH _ _ _ _ _ _ E Ha) as (outs & -> & Hf).
      eexists (_ :: outs). rewrite <- app_assoc. cbn [List.app]. split; [reflexivity|]. constructor; [|assumption]. exists kw. split; [assumption|]. rewrite Ep. reflexivity.
Qed.
(** Every line belongs to some operator. *)
Lemma lab_steps_sound l : forall hints h used hints' h' used', lab_steps (hints, h, used) l = Ok (hints', h', used') ->
  exists outs, hints' = (hints ++ outs)%list /\ List.length outs = List.length l /\ forall o, In o outs -> h = Some o \/ exists x, In x l /\ good x o.
Proof.
  induction l as [|x l IH]; intros hints h used hints' h' used' E; cbn [lab_steps] in E.
  - injection E as <- <- <-. exists []. rewrite app_nil_r. repeat split. intros o [].
  - unfold lab_step in E. destruct (lab_op (st_op x)) as [kw|] eqn:Ek; cbn [item rbind] in E; [|discriminate].
    destruct (parallel (st_w x) && negb used) eqn:E1; [|destruct (parallel (st_w x) && used) eqn:E2].
    + cbn [rbind] in E. destruct (IH _ _ _ _ _ _ E) as (outs & -> & Hlen & Ho). eexists (_ :: outs). rewrite <- app_assoc. cbn [List.app Datatypes.length]. split; [reflexivity|]. split; [now rewrite Hlen|].
      assert (G : good x (kw ++ "(" ++ st_text x ++ " (workers=" ++ workers_text (st_w x) ++ "))")) by (exists kw; split; [assumption|]; right; eexists; reflexivity).
      intros o [<-|Hi]; [right; exists x; split; [now left|exact G]|]. destruct (Ho o Hi) as [[= <-]|(y & Hy & Hg)]; right; [exists x; split; [now left|exact G]|exists y; split; [now right|assumption]].
    + destruct h as [h0|]; cbn [rbind] in E; [|discriminate]. destruct (IH _ _ _ _ _ _ E) as (outs & -> & Hlen & Ho). eexists (_ :: outs). rewrite <- app_assoc. cbn [List.app Datatypes.length]. split; [reflexivity|]. split; [now rewrite Hlen|].
      intros o [<-|Hi]; [now left|]. destruct (Ho o Hi) as [[= <-]|(y & Hy & Hg)]; [now left|right; exists y; split; [now right|assumption]].
    + cbn [rbind] in E. destruct (IH _ _ _ _ _ _ E) as (outs & -> & Hlen & Ho). eexists (_ :: outs). rewrite <- app_assoc. cbn [List.app Datatypes.length]. split; [reflexivity|]. split; [now rewrite Hlen|].
      assert (G : good x (kw ++ "(" ++ st_text x ++ ")")) by (exists kw; split; [assumption|]; left; reflexivity).
      intros o [<-|Hi]; [right; exists x; split; [now left|exact G]|]. destruct (Ho o Hi) as [[= <-]|(y & Hy & Hg)]; right; [exists x; split; [now left|exact G]|exists y; split; [now right|assumption]].
Qed.
(** Unknown operators raise a KeyError. *)
Lemma lab_steps_total l : forall hints h used, (used = true -> h <> None) -> (forall x, In x l -> lab_op (st_op x) <> None) ->
  exists s, lab_steps (hints, h, used) l = Ok s.
Proof.
  induction l as [|x l IH]; intros hints h used Hu Hop; cbn [lab_steps]; [eexists; reflexivity|].
  unfold lab_step. destruct (lab_op (st_op x)) as [kw|] eqn:Ek; [|exfalso; apply (Hop x); [now left|assumption]]. cbn [item rbind].
  assert (Hr : forall y, In y l -> lab_op (st_op y) <> None) by (intros y Hy; apply Hop; now right).
  destruct (parallel (st_w x)); cbn [andb]; [destruct used; cbn [negb]|].
  - destruct h as [h0|]; [|exfalso; apply Hu; reflexivity]. cbn [rbind]. apply IH; [discriminate|assumption].
  - cbn [rbind]. apply IH; [discriminate|assumption].
  - cbn [rbind]. apply IH; [discriminate|assumption].
Qed.
Lemma lab_steps_unknown l x : forall s, (let '(_, h, used) := s in used = true -> h <> None) -> In x l -> lab_op (st_op x) = None -> lab_steps s l = Raise KeyError.
Proof.
  induction l as [|y l IH]; intros [[hints h] used] Hu Hin Hx; [destruct Hin|]. cbn [lab_steps]. unfold lab_step. destruct (lab_op (st_op y)) as [kw|] eqn:Ek; [|reflexivity]. cbn [item rbind].
  destruct Hin as [->|Hin]; [congruence|]. destruct (parallel (st_w y)); cbn [andb]; [destruct used; cbn [negb]|].
  - destruct h as [h0|]; [|exfalso; apply Hu; reflexivity]. cbn [rbind]. apply IH; [discriminate|assumption..].
  - cbn [rbind]. apply IH; [discriminate|assumption..].
  - cbn [rbind]. apply IH; [discriminate|assumption..].
Qed.

Lemma parallel_many w : parallel w = true <-> many w.
Proof.
  unfold parallel, many. destruct w as [n|].
  - rewrite Nat.ltb_lt. split; [intros H; exists n; auto|intros (m & [= <-] & H); exact H].
  - split; [discriminate|intros (m & H & _); discriminate].
Qed.
Lemma amo_of l : (forall i j w v, nth_error (map st_w l) i = Some w -> nth_error (map st_w l) j = Some v -> many w -> many v -> i = j) -> amo false l.
Proof.
  assert (N : forall l, (forall i w, nth_error (map st_w l) i = Some w -> ~ many w) -> amo true l).
  { induction l0 as [|y l0 IH]; intros H; cbn [amo]; [exact I|]. destruct (parallel (st_w y)) eqn:E.
    - exfalso. apply (H O (st_w y)); [reflexivity|now apply parallel_many].
    - apply IH. intros i w Hi. apply (H (S i)). exact Hi. }
  induction l as [|x l IH]; intros H; cbn [amo]; [exact I|]. destruct (parallel (st_w x)) eqn:E.
  - split; [reflexivity|]. apply N. intros i w Hi Hm. assert (S i = O); [|discriminate]. apply (H (S i) O w (st_w x)); [exact Hi|reflexivity|assumption|now apply parallel_many].
  - apply IH. intros i j w v Hi Hj Hw Hv. assert (S i = S j) by (eapply H; eassumption). congruence.
Qed.
Definition steps_of name iter (p : poa) : list step := (map (scan_step name) (dvalues (scans p)) ++ map (join_step name iter) (dvalues (joins p)))%list.
Lemma steps_workers name iter p : map st_w (steps_of name iter p) = worker_list p.
Proof. unfold steps_of, worker_list, dvalues. rewrite map_app, !map_map. reflexivity. Qed.
Lemma lab_ops_ok name iter hints p hints' : lab_ops name iter hints (Some p) = Ok hints' ->
  exists s is gs, lab_steps (hints, None, false) (steps_of name iter p) = Ok s /\ lab_inters name iter (inters p) = Ok is /\ lab_globals (glob p) = Ok gs /\
    hints' = (fst (fst s) ++ is ++ gs)%list.
Proof.
  cbn [lab_ops]. rewrite lab_scans_steps. unfold steps_of. rewrite lab_steps_app. intros H.
  destruct (lab_steps (hints, None, false) _) as [s|] eqn:E1; cbn [rbind] in *; [|discriminate]. rewrite lab_joins_steps in H.
  destruct (lab_steps s _) as [s'|] eqn:E2; cbn [rbind] in *; [|discriminate]. destruct (lab_inters name iter (inters p)) as [is|] eqn:E3; cbn [rbind] in *; [|discriminate].
  destruct (lab_globals (glob p)) as [gs|] eqn:E4; cbn [rbind] in *; [|discriminate]. injection H as <-. exists s', is, gs. auto.
Qed.
Lemma Forall2_In_l {X Y} (R : X -> Y -> Prop) l m : Forall2 R l m -> forall x, In x l -> exists y, In y m /\ R x y.
Proof. induction 1 as [|x y l m H _ IH]; intros z Hz; [destruct Hz|]. destruct Hz as [<-|Hz]; [exists y; split; [now left|assumption]|]. destruct (IH z Hz) as (w & Hw & Hr). exists w. split; [now right|assumption]. Qed.
Lemma assigned_step name iter p o tabs w : (forall l, Permutation (iter l) l) -> assigned p o tabs w ->
  exists x ts, In x (steps_of name iter p) /\ st_op x = o /\ st_w x = w /\ Permutation ts tabs /\ st_text x = String.concat " " (map name ts).
Proof.
  intros Hit [(t & a & Hin & -> & -> & ->)|(k & a & Hin & -> & -> & ->)].
  - exists (scan_step name a), [sa_tab a]. split; [|repeat split; reflexivity]. unfold steps_of. apply in_or_app. left. apply in_map. change a with (snd (t, a)). now apply in_map.
  - exists (join_step name iter a), (iter (ja_join a)). split; [|repeat split; apply Hit]. unfold steps_of. apply in_or_app. right. apply in_map. change a with (snd (k, a)). now apply in_map.
Qed.
Lemma step_assigned name iter p x : (forall l, Permutation (iter l) l) -> In x (steps_of name iter p) ->
  exists tabs ts, assigned p (st_op x) tabs (st_w x) /\ Permutation ts tabs /\ st_text x = String.concat " " (map name ts).
Proof.
  intros Hit Hin. unfold steps_of in Hin. apply in_app_iff in Hin as [Hin|Hin]; apply in_map_iff in Hin as (a & <- & Ha); unfold dvalues in Ha; apply in_map_iff in Ha as ([k b] & <- & Hk); cbn [snd].
  - exists [sa_tab b], [sa_tab b]. split; [left; exists k, b; auto|]. split; reflexivity.
  - exists (ja_join b), (iter (ja_join b)). split; [right; exists k, b; auto|]. split; [apply Hit|reflexivity].
Qed.
Lemma lab_op_keyword o kw : (exists n, o = PScan n) \/ (exists n, o = PJoin n) -> (lab_op o = Some kw <-> lab_keyword o kw).
Proof.
  intros Ho. split.
  - intros H. destruct Ho as [[n ->]|[n ->]]; do 4 (destruct n as [|n]; [cbn in H; try discriminate; injection H as <-; constructor|]); discriminate.
  - destruct 1; reflexivity.
Qed.
Lemma assigned_kind p o tabs w : assigned p o tabs w -> (exists n, o = PScan n) \/ (exists n, o = PJoin n).
Proof. intros [(t & a & _ & -> & _)|(k & a & _ & -> & _)]; eauto. Qed.

(** ** Blocks *)
Lemma concat_middle (sep : string) l x y m : String.concat sep (l ++ x :: m)%list = String.concat sep (l ++ y :: m)%list -> x = y.
Proof.
  assert (G : exists p s, forall w, String.concat sep (l ++ w :: m)%list = p ++ w ++ s).
  { destruct m as [|m0 m'].
    - induction l as [|a l IH].
      + exists "", "". intros w. cbn. clear. induction w as [|c w IH]; cbn; [reflexivity|now rewrite <- IH].
      + destruct IH as (p & s & Hp). exists (a ++ sep ++ p), s. intros w. cbn [List.app].
        assert (String.concat sep (a :: (l ++ [w])%list) = a ++ sep ++ String.concat sep (l ++ [w])%list) as -> by (destruct l; reflexivity). rewrite Hp. now rewrite !sapp_assoc.
    - induction l as [|a l IH].
      + exists "", (sep ++ String.concat sep (m0 :: m')). intros w. reflexivity.
      + destruct IH as (p & s & Hp). exists (a ++ sep ++ p), s. intros w. cbn [List.app].
        assert (String.concat sep (a :: (l ++ w :: m0 :: m')%list) = a ++ sep ++ String.concat sep (l ++ w :: m0 :: m')%list) as -> by (destruct l; reflexivity). rewrite Hp. now rewrite !sapp_assoc. }
  destruct G as (p & s & H). rewrite !H. intros E. apply sapp_cancel_l in E. now apply sapp_cancel_r in E.
Qed.
(** The lines before and after a join order hint do not depend on it. *)
Lemma lab_steps_prefix l : forall a b h used, lab_steps (a, h, used) l = match lab_steps (b, h, used) l with
    | Ok (hs, h', u') => Ok ((a ++ skipn (List.length b) hs)%list, h', u') | Raise e => Raise e end.
Proof.
  enough (G : forall l a h used, lab_steps (a, h, used) l = match lab_steps ([], h, used) l with Ok (hs, h', u') => Ok ((a ++ hs)%list, h', u') | Raise e => Raise e end).
  { intros a b h used. rewrite (G l a), (G l b). destruct (lab_steps ([], h, used) l) as [[[hs h'] u']|]; [|reflexivity].
    now rewrite skipn_app, skipn_all, Nat.sub_diag. }
  clear. induction l as [|x l IH]; intros a h used; cbn [lab_steps]; [now rewrite app_nil_r|].
  unfold lab_step. destruct (lab_op (st_op x)) as [kw|]; cbn [item rbind]; [|reflexivity].
  destruct (if parallel (st_w x) && negb used then _ else _) as [h' u'].
  destruct h' as [h''|]; cbn [rbind]; [|reflexivity]. rewrite (IH (a ++ [h''])%list), (IH ([] ++ [h''])%list). destruct (lab_steps ([], Some h'', u') l) as [[[hs h'] u'']|]; [|reflexivity].
  now rewrite <- app_assoc.
Qed.
Lemma lab_ops_prefix name iter a p : lab_ops name iter a (Some p) = rmap (fun l => (a ++ l)%list) (lab_ops name iter [] (Some p)).
Proof.
  cbn [lab_ops]. rewrite !lab_scans_steps. rewrite (lab_steps_prefix _ a []). destruct (lab_steps ([], None, false) _) as [[[hs h] u]|]; cbn [rbind rmap]; [|reflexivity].
  rewrite !lab_joins_steps. rewrite (lab_steps_prefix _ (a ++ skipn _ hs)%list hs). destruct (lab_steps (hs, h, u) _) as [[[hs' h'] u']|] eqn:E2; cbn [rbind rmap]; [|reflexivity].
  destruct (lab_inters _ _ _); cbn [rbind rmap]; [|reflexivity]. destruct (lab_globals _); cbn [rbind rmap]; [|reflexivity]. f_equal. cbn [fst].
  rewrite (lab_steps_prefix _ hs []) in E2. destruct (lab_steps ([], h, u) _) as [[[k ?] ?]|]; [|discriminate]. injection E2 as <- _ _. cbn [Datatypes.length]. rewrite !skipn_app, !skipn_all, !Nat.sub_diag. cbn [skipn List.app].
  now rewrite <- !app_assoc.
Qed.

(** ** pg_hint_plan *)
Section HintPlan.
  Context (name : nat -> string) (iter : list nat -> list nat).
  Lemma hp_scans_prefix l : forall a used, hp_scans name a used l = rmap (fun r => ((a ++ fst r)%list, snd r)) (hp_scans name [] used l).
  Proof.
    induction l as [|x l IH]; intros a used; [cbn; now rewrite app_nil_r|]. cbn [hp_scans].
    destruct (hp_op (PScan (sa_op x))) as [kw|]; cbn [item rbind rmap]; [|reflexivity].
    destruct (parallel (sa_par x) && negb used); (rewrite IH; symmetry; rewrite IH; symmetry; match goal with |- context [hp_scans name [] ?u l] => destruct (hp_scans name [] u l) as [[hs u']|] end; cbn [rmap rbind fst snd List.app]; [|reflexivity]; now rewrite <- !app_assoc).
  Qed.
  Lemma hp_joins_prefix l : forall a used, hp_joins name iter a used l = rmap (fun r => (a ++ r)%list) (hp_joins name iter [] used l).
  Proof.
    induction l as [|x l IH]; intros a used; [cbn; now rewrite app_nil_r|]. cbn [hp_joins].
    destruct (hp_op (PJoin (ja_op x))) as [kw|]; cbn [item rbind rmap]; [|reflexivity].
    destruct (parallel (ja_par x) && negb used); (rewrite IH; symmetry; rewrite IH; symmetry; destruct (hp_joins name iter [] used l) as [hs|]; cbn [rmap rbind List.app]; [|reflexivity]; now rewrite <- !app_assoc).
  Qed.
  Lemma hp_scans_lines l : forall a used hs u, hp_scans name a used l = Ok (hs, u) ->
    incl a hs /\ forall x, In x l -> exists kw, hp_op (PScan (sa_op x)) = Some kw /\ In (plain_line kw (name (sa_tab x))) hs.
  Proof.
    induction l as [|y l IH]; intros a used hs u E; cbn [hp_scans] in E; [injection E as <- <-; split; [apply incl_refl|intros x []]|].
    destruct (hp_op (PScan (sa_op y))) as [kw|] eqn:Ek; cbn [item rbind] in E; [|discriminate].
    destruct (parallel (sa_par y) && negb used); destruct (IH _ _ _ _ E) as [Hi Hx].
    all: split; [intros z Hz; apply Hi; rewrite ?in_app_iff; tauto|]; intros x [<-|Hin]; [|now apply Hx]; exists kw; split; [assumption|]; apply Hi; rewrite !in_app_iff; cbn; auto.
  Qed.
  Lemma hp_joins_lines l : forall a used hs, hp_joins name iter a used l = Ok hs ->
    incl a hs /\ forall x, In x l -> exists kw, hp_op (PJoin (ja_op x)) = Some kw /\ In (plain_line kw (inter_text name iter (ja_join x))) hs.
  Proof.
    induction l as [|y l IH]; intros a used hs E; cbn [hp_joins] in E; [injection E as <-; split; [apply incl_refl|intros x []]|].
    destruct (hp_op (PJoin (ja_op y))) as [kw|] eqn:Ek; cbn [item rbind] in E; [|discriminate].
    destruct (parallel (ja_par y) && negb used); destruct (IH _ _ _ E) as [Hi Hx].
    all: split; [intros z Hz; apply Hi; rewrite ?in_app_iff; tauto|]; intros x [<-|Hin]; [|now apply Hx]; exists kw; split; [assumption|]; apply Hi; rewrite !in_app_iff; cbn; auto.
  Qed.
End HintPlan.
