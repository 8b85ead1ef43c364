(** Lemmas about renaming tables. *)
From Coq Require Import List Bool Arith Lia.
From Verif Require Import PyBase RTab_model RTab_spec.
Import ListNotations.

(** ** Induction over queries *)
Section Ind.
  Variables (Pe : expr -> Prop) (Ps : source -> Prop) (Pc : clause -> Prop) (Pq : query -> Prop).
  Hypothesis He_col : forall c, Pe (ECol c).
  Hypothesis He_star : forall t, Pe (EStar t).
  Hypothesis He_node : forall k es, Forall Pe es -> Pe (ENode k es).
  Hypothesis He_filt : forall g p, Pe g -> Pe p -> Pe (EFilt g p).
  Hypothesis He_win : forall es ord, Forall Pe es -> Forall Pe ord -> Pe (EWin es ord).
  Hypothesis He_sub : forall q, Pq q -> Pe (ESub q).
  Hypothesis He_broken : forall es, Forall Pe es -> Pe (EBroken es).
  Hypothesis Hs_direct : forall t, Ps (SDirect t).
  Hypothesis Hs_sub : forall q n, Pq q -> Ps (SSub q n).
  Hypothesis Hs_join : forall k l r c, Ps l -> Ps r -> AllO Pe c -> Ps (SJoin k l r c).
  Hypothesis Hc_select : forall ts don, Forall Pe ts -> Forall Pe don -> Pc (CSelect ts don).
  Hypothesis Hc_from : forall k ss, Forall Ps ss -> Pc (CFrom k ss).
  Hypothesis Hc_cond : forall k p, Pe p -> Pc (CCond k p).
  Hypothesis Hc_group : forall es, Forall Pe es -> Pc (CGroup es).
  Hypothesis Hc_order : forall es, Forall Pe es -> Pc (COrder es).
  Hypothesis Hc_other : forall n, Pc (COther n).
  Hypothesis Hc_with : forall l, Forall (fun p => Pq (fst p)) l -> Pc (CWith l).
  Hypothesis Hc_set : forall k l r, Pq l -> Pq r -> Pc (CSet k l r).
  Hypothesis Hq : forall cs, Forall Pc cs -> Pq (Query cs).
  Fixpoint ind_e (e : expr) : Pe e :=
    let go := fix go (l : list expr) : Forall Pe l :=
      match l with [] => Forall_nil _ | x :: r => Forall_cons _ (ind_e x) (go r) end in
    match e with
    | ECol c => He_col c
    | EStar t => He_star t
    | ENode k es => He_node k es (go es)
    | EFilt g p => He_filt g p (ind_e g) (ind_e p)
    | EWin es ord => He_win es ord (go es) (go ord)
    | ESub q => He_sub q (ind_q q)
    | EBroken es => He_broken es (go es)
    end
  with ind_s (s : source) : Ps s :=
    match s with
    | SDirect t => Hs_direct t
    | SSub q n => Hs_sub q n (ind_q q)
    | SJoin k l r c => Hs_join k l r c (ind_s l) (ind_s r) (match c return AllO Pe c with Some e => ind_e e | None => I end)
    end
  with ind_c (c : clause) : Pc c :=
    let go := fix go (l : list expr) : Forall Pe l :=
      match l with [] => Forall_nil _ | x :: r => Forall_cons _ (ind_e x) (go r) end in
    match c with
    | CSelect ts don => Hc_select ts don (go ts) (go don)
    | CFrom k ss => Hc_from k ss ((fix gos (l : list source) : Forall Ps l :=
        match l with [] => Forall_nil _ | x :: r => Forall_cons _ (ind_s x) (gos r) end) ss)
    | CCond k p => Hc_cond k p (ind_e p)
    | CGroup es => Hc_group es (go es)
    | COrder es => Hc_order es (go es)
    | COther n => Hc_other n
    | CWith l => Hc_with l ((fix gow (l : list (query * nat)) : Forall (fun p => Pq (fst p)) l :=
        match l with [] => Forall_nil _ | x :: r => Forall_cons _ (ind_q (fst x)) (gow r) end) l)
    | CSet k l r => Hc_set k l r (ind_q l) (ind_q r)
    end
  with ind_q (q : query) : Pq q :=
    match q with
    | Query cs => Hq cs ((fix goc (l : list clause) : Forall Pc l :=
        match l with [] => Forall_nil _ | x :: r => Forall_cons _ (ind_c x) (goc r) end) cs)
    end.
  Lemma all_ind : (forall e, Pe e) /\ (forall s, Ps s) /\ (forall c, Pc c) /\ (forall q, Pq q).
  Proof. split; [apply ind_e|split; [apply ind_s|split; [apply ind_c|apply ind_q]]]. Qed.
End Ind.

Lemma All_Forall {A} (P : A -> Prop) (l : list A) : All P l <-> Forall P l.
Proof.
  induction l as [|x r IH]; cbn; [split; auto|]. rewrite IH. split; [intros [H1 H2]; auto|intros H; inversion H; auto].
Qed.
Lemma All_impl {A} (P Q : A -> Prop) (l : list A) : Forall (fun x => P x -> Q x) l -> All P l -> All Q l.
Proof. induction 1 as [|x r H _ IH]; cbn; [auto|]. intros [H1 H2]. auto. Qed.

(** ** Mapping with errors *)
Lemma lmapM_ok {A B} (f : A -> res B) (g : A -> B) (l : list A) : (forall x, In x l -> f x = Ok (g x)) -> lmapM f l = Ok (map g l).
Proof.
  induction l as [|x r IH]; intros H; cbn; [reflexivity|]. rewrite (H x (or_introl eq_refl)). cbn.
  rewrite IH by (intros y Hy; apply H; now right). reflexivity.
Qed.
Lemma lmapM_two {A B} (f : A -> res A) (f' : A -> res B) (g : A -> B) (P : A -> Prop) (l : list A) :
  Forall (fun x => P x -> exists x', f x = Ok x' /\ f' x' = Ok (g x)) l -> All P l ->
  exists l', lmapM f l = Ok l' /\ lmapM f' l' = Ok (map g l).
Proof.
  induction 1 as [|x r H _ IH]; cbn; [intros _; exists []; auto|]. intros [H1 H2].
  destruct (H H1) as (x' & E1 & E2). destruct (IH H2) as (r' & E3 & E4). exists (x' :: r'). rewrite E1, E3. cbn. rewrite E2. cbn. now rewrite E4.
Qed.

(** ** uniq *)
Lemma uniq_In seen ts t : In t (uniq seen ts) <-> In t ts /\ ~ In t seen.
Proof.
  revert seen. induction ts as [|x r IH]; intros seen; cbn [uniq In]; [tauto|]. destruct (mem x seen) eqn:E.
  - apply mem_In in E. rewrite IH. split; [tauto|]. intros [[<-|H] N]; [tauto|auto].
  - apply mem_nIn in E. cbn [In]. rewrite IH. cbn [In]. split; [intros [<-|[H N]]; tauto|]. intros [[<-|H] N]; [auto|].
    destruct (eqd x t) as [->|D]; [auto|]. right. split; [assumption|]. tauto.
Qed.
Lemma uniq_NoDup seen ts : NoDup (uniq seen ts).
Proof.
  revert seen. induction ts as [|x r IH]; intros seen; cbn [uniq]; [constructor|]. destruct (mem x seen); [apply IH|].
  constructor; [|apply IH]. rewrite uniq_In. cbn. tauto.
Qed.
Lemma uniq_ext seen seen' ts : (forall t, In t seen <-> In t seen') -> uniq seen ts = uniq seen' ts.
Proof.
  revert seen seen'. induction ts as [|x r IH]; intros seen seen' H; cbn [uniq]; [reflexivity|].
  assert (M : mem x seen = mem x seen').
  { destruct (mem x seen) eqn:E, (mem x seen') eqn:E'; auto; [apply mem_In in E; apply mem_nIn in E'|apply mem_nIn in E; apply mem_In in E'];
    exfalso; firstorder. }
  rewrite M. destruct (mem x seen'); [now apply IH|]. f_equal. apply IH. intros t. cbn. now rewrite H.
Qed.
Lemma uniq_id seen ts : NoDup ts -> (forall t, In t ts -> ~ In t seen) -> uniq seen ts = ts.
Proof.
  revert seen. induction ts as [|x r IH]; intros seen N H; cbn [uniq]; [reflexivity|]. inversion N as [|? ? Nx Nr]; subst.
  rewrite (proj2 (mem_nIn x seen)) by (apply H; now left). f_equal. apply IH; [assumption|].
  intros t Ht [<-|Hs]; [auto|]. exact (H t (or_intror Ht) Hs).
Qed.
Lemma uniq_map (g : tref -> tref) seen ts : (forall t, In t seen -> In (g t) (map g seen)) ->
  uniq (map g seen) (map g (uniq seen ts)) = uniq (map g seen) (map g ts).
Proof.
  intros _. revert seen. induction ts as [|x r IH]; intros seen; cbn [uniq map]; [reflexivity|].
  destruct (mem x seen) eqn:E.
  - rewrite IH. apply mem_In in E. rewrite (proj2 (mem_In (g x) (map g seen))); [reflexivity|now apply in_map].
  - cbn [map uniq]. destruct (mem (g x) (map g seen)) eqn:E'.
    + rewrite (uniq_ext (map g seen) (map g (x :: seen))), (uniq_ext (map g seen) (map g (x :: seen)) (map g r)), IH; [reflexivity| |];
      intros t; cbn [map In]; apply mem_In in E'; split; [auto|intros [<-|H]; auto|auto|intros [<-|H]; auto].
    + f_equal. change (g x :: map g seen) with (map g (x :: seen)). apply IH.
Qed.
Lemma uniq_map_map (f g : tref -> tref) ts : uniq [] (map g (uniq [] (map f ts))) = uniq [] (map (fun t => g (f t)) ts).
Proof. rewrite <- (map_map f g). exact (uniq_map g [] (map f ts) (fun t H => match H with end)). Qed.
Lemma direct_direct ts : direct_tables (map SDirect ts) = ts.
Proof. induction ts as [|t r IH]; cbn; [reflexivity|]. now f_equal. Qed.
Lemma NoDup_ident (ts : list tref) : NoDup (map ident ts) -> NoDup ts.
Proof. apply NoDup_map_inv. Qed.
Lemma NoDup_ident_eq (ts : list tref) s t : NoDup (map ident ts) -> In s ts -> In t ts -> ident s = ident t -> s = t.
Proof.
  induction ts as [|x r IH]; cbn; [intros _ []|]. intros N Hs Ht E. inversion N as [|? ? Nx Nr]; subst.
  destruct Hs as [<-|Hs], Ht as [<-|Ht]; auto.
  - exfalso. apply Nx. rewrite E. now apply in_map.
  - exfalso. apply Nx. rewrite <- E. now apply in_map.
Qed.
Lemma NoDup_map_on {A B} (f : A -> B) (l : list A) : NoDup l -> (forall x y, In x l -> In y l -> f x = f y -> x = y) -> NoDup (map f l).
Proof.
  induction 1 as [|x r Nx N IH]; cbn; intros H; constructor.
  - intros E. apply in_map_iff in E. destruct E as (y & Ey & Hy). apply Nx. rewrite <- (H y x); auto.
  - apply IH. intros a b Ha Hb. apply H; auto.
Qed.

(** ** Renaming no column of the query leaves it as it is *)
Lemma rc_id ex olds to ren :
  (forall e, ok_e ex olds to e -> (forall c, In c (cols_e e) -> ren c = c) -> rc_e ren e = Ok e)
  /\ (forall s, ok_s ex olds to s -> (forall c, In c (cols_s s) -> ren c = c) -> rc_s ren s = Ok s)
  /\ (forall c, ok_c ex olds to c -> (forall x, In x (cols_c c) -> ren x = x) -> rc_c ren c = Ok c)
  /\ (forall q, ok_q ex olds to q -> (forall c, In c (cols_q q) -> ren c = c) -> rc_q ren q = Ok q).
Proof.
  assert (L : forall {A} (f : A -> res A) (P : A -> Prop) (g : A -> list col) l,
    Forall (fun x => P x -> (forall c, In c (g x) -> ren c = c) -> f x = Ok x) l -> All P l -> (forall c, In c (flat_map g l) -> ren c = c) ->
    lmapM f l = Ok l).
  { intros A f P g l. induction 1 as [|x r H _ IH]; cbn; [reflexivity|]. intros [H1 H2] H3.
    rewrite H; [cbn|assumption|intros c Hc; apply H3; apply in_or_app; auto].
    rewrite IH; [reflexivity|assumption|intros c Hc; apply H3; apply in_or_app; auto]. }
  apply all_ind.
  - intros c _ H. cbn. now rewrite (H c (or_introl eq_refl)).
  - reflexivity.
  - intros [n| | | |n] es IH; cbn; try tauto. intros H1 H2. now rewrite (L _ _ _ _ _ IH H1 H2).
  - cbn. tauto.
  - intros es ord IH1 _ [H1 ->] H2. cbn. rewrite (L _ _ _ _ _ IH1 H1); [reflexivity|]. intros c Hc. apply H2. cbn. apply in_or_app. auto.
  - intros q IH H1 H2. cbn. now rewrite IH.
  - cbn. tauto.
  - reflexivity.
  - intros q n IH (H1 & _) H2. cbn. now rewrite IH.
  - intros k l r c IHl IHr IHc (H1 & H2 & H3) H4. cbn in *. rewrite IHl; [|assumption|intros x Hx; apply H4; apply in_or_app; auto].
    rewrite IHr; [|assumption|intros x Hx; apply H4; apply in_or_app; right; apply in_or_app; auto]. cbn.
    destruct c as [e|]; cbn in *; [|reflexivity]. rewrite IHc; [reflexivity|assumption|]. intros x Hx. apply H4. apply in_or_app. right.
    apply in_or_app. auto.
  - intros ts don IH _ [H1 ->] H2. cbn. rewrite (L _ _ _ _ _ IH H1); [reflexivity|]. intros c Hc. apply H2. cbn. apply in_or_app. auto.
  - intros k ss IH H1 H2. cbn. destruct k; [reflexivity| |]; destruct H1 as (_ & H1 & _); now rewrite (L _ _ _ _ _ IH H1 H2).
  - intros k p IH H1 H2. cbn. now rewrite IH.
  - intros es IH H1 H2. cbn. now rewrite (L _ _ _ _ _ IH H1 H2).
  - cbn. tauto.
  - reflexivity.
  - intros l IH H1 H2. cbn. rewrite (L _ (fun p => rmap (fun q' => (q', snd p)) (rc_q ren (fst p))) (fun p => ok_q ex olds to (fst p)) (fun p => cols_q (fst p)) l); [reflexivity| |assumption|assumption].
    eapply Forall_impl; [|exact IH]. intros [q n] H H3 H4. cbn in *. now rewrite H.
  - cbn. tauto.
  - intros cs IH H1 H2. cbn. now rewrite (L _ _ _ _ _ IH H1 H2).
Qed.

(** ** The tables of a supported FROM clause are mentioned in it *)
Lemma tabs_refs ex olds to :
  (forall e, ok_e ex olds to e -> forall t, In t (tabs_e e) -> exists u, t = Some u /\ In u (refs_e e))
  /\ (forall s, ok_s ex olds to s -> forall t, In t (tabs_s s) -> exists u, t = Some u /\ In u (refs_s s))
  /\ (forall c, ok_c ex olds to c -> forall t, In t (tabs_c c) -> exists u, t = Some u /\ In u (refs_c c))
  /\ (forall q, ok_q ex olds to q -> forall t, In t (tabs_q q) -> exists u, t = Some u /\ In u (refs_q q)).
Proof.
  assert (L : forall {A} (P : A -> Prop) (f : A -> list (option tref)) (g : A -> list tref) l,
    Forall (fun x => P x -> forall t, In t (f x) -> exists u, t = Some u /\ In u (g x)) l -> All P l ->
    forall t, In t (flat_map f l) -> exists u, t = Some u /\ In u (flat_map g l)).
  { intros A P f g l. induction 1 as [|x r H _ IH]; cbn; [tauto|]. intros [H1 H2] t Ht. apply in_app_or in Ht.
    destruct Ht as [Ht|Ht]; [destruct (H H1 t Ht) as (u & -> & Hu)|destruct (IH H2 t Ht) as (u & -> & Hu)]; exists u; (split; [reflexivity|]); apply in_or_app; auto. }
  apply all_ind.
  - intros c _ t. cbn. destruct (ct c); cbn; [intros [<-|[]]|tauto]. eauto.
  - intros o _ t. cbn. destruct o; cbn; [intros [<-|[]]|tauto]. eauto.
  - intros [n| | | |n] es IH; cbn; try tauto. intros H. exact (L _ _ _ _ _ IH H).
  - cbn. tauto.
  - intros es ord IH1 _ [H1 ->] t Ht. cbn in *. rewrite app_nil_r in *. exact (L _ _ _ _ _ IH1 H1 t Ht).
  - intros q IH H. cbn. now apply IH.
  - cbn. tauto.
  - intros t _ u. cbn. intros [<-|[]]. eauto.
  - intros q n IH (H1 & _ & m & -> & _) t Ht. cbn in *. apply in_app_or in Ht. destruct Ht as [Ht|[<-|[]]].
    + destruct (IH H1 t Ht) as (u & -> & Hu). exists u. split; [reflexivity|]. apply in_or_app. auto.
    + exists (virt m). split; [reflexivity|]. apply in_or_app. right. now left.
  - intros k l r c IHl IHr _ (H1 & H2 & _) t Ht. cbn in *. apply in_app_or in Ht. destruct Ht as [Ht|Ht].
    + destruct (IHl H1 t Ht) as (u & -> & Hu). exists u. split; [reflexivity|]. apply in_or_app. auto.
    + destruct (IHr H2 t Ht) as (u & -> & Hu). exists u. split; [reflexivity|]. apply in_or_app. right. apply in_or_app. auto.
  - intros ts don IH _ [H1 ->] t Ht. cbn in *. rewrite app_nil_r. exact (L _ _ _ _ _ IH H1 t Ht).
  - intros k ss IH H1 t Ht. cbn in *. destruct k; [|destruct H1 as (_ & H1 & _); exact (L _ _ _ _ _ IH H1 t Ht)..].
    destruct H1 as (E & _). rewrite E in *. clear E IH. induction (direct_tables ss) as [|x r IH]; cbn in *; [tauto|].
    destruct Ht as [<-|Ht]; [eauto|]. destruct (IH Ht) as (u & -> & Hu). eauto.
  - intros k p IH H1. cbn. now apply IH.
  - intros es IH H1. cbn. exact (L _ _ _ _ _ IH H1).
  - cbn. tauto.
  - cbn. tauto.
  - intros l IH H1 t Ht. cbn in *.
    destruct (L _ (fun p => ok_q ex olds to (fst p)) (fun p => tabs_q (fst p)) (fun p => refs_q (fst p)) l IH H1 t Ht) as (u & -> & Hu).
    exists u. split; [reflexivity|]. apply in_flat_map in Hu. destruct Hu as (p & Hp & Hu). apply in_flat_map. exists p. split; [assumption|].
    apply in_or_app. auto.
  - cbn. tauto.
  - intros cs IH H1. cbn. exact (L _ _ _ _ _ IH H1).
Qed.

(** ** Comma separated FROM clauses *)
Lemma used_direct ts : used_idents (map SDirect ts) = Ok (map ident ts).
Proof.
  unfold used_idents. induction ts as [|t r IH]; cbn; [reflexivity|]. now rewrite IH.
Qed.
Lemma keep_not sep ts to : (forall t, In t ts -> ident t <> ident to -> mem (ident t) sep = true) -> mem (ident to) sep = false ->
  (forall t, In t ts -> ident t = ident to -> t = to) -> NoDup (filter (fun t => negb (deqb t to)) ts) ->
  keep sep [] (map SDirect ts) = Ok (map SDirect (filter (fun t => negb (deqb t to)) ts)).
Proof.
  induction ts as [|t r IH]; intros H1 H2 H3 N; cbn [map keep filter]; [reflexivity|].
  destruct (Nat.eq_dec (ident t) (ident to)) as [E|E].
  - assert (t = to) as -> by (apply H3; cbn; auto). rewrite H2. cbn [mem existsb negb]. rewrite deqb_refl in *. cbn [negb] in *.
    cbn [filter] in N. rewrite deqb_refl in N. cbn in N. apply IH; auto; intros; [apply H1|apply H3]; cbn; auto.
  - rewrite H1 by (cbn; auto). assert (D : deqb t to = false) by (apply deqb_neq; congruence). rewrite D. cbn [negb].
    cbn [filter] in N. rewrite D in N. cbn in N. inversion N; subst. rewrite IH; auto; intros; [apply H1|apply H3]; cbn; auto.
Qed.
Lemma uniq_filter to seen ts : NoDup (filter (fun t => negb (deqb t to)) ts) -> (forall t, In t ts -> t <> to -> ~ In t seen) -> In to seen ->
  uniq seen ts = filter (fun t => negb (deqb t to)) ts.
Proof.
  revert seen. induction ts as [|t r IH]; intros seen N H I; cbn [uniq filter]; [reflexivity|]. cbn [filter] in N.
  destruct (deqb t to) eqn:D; cbn [negb] in *.
  - apply (proj1 (deqb_eq t to)) in D. subst t. rewrite (proj2 (mem_In to seen) I). apply IH; auto. intros t Ht. apply H. now right.
  - apply (proj1 (deqb_neq t to)) in D. rewrite (proj2 (mem_nIn t seen)) by (apply H; cbn; auto). inversion N as [|? ? Nx Nr]; subst. f_equal.
    apply IH; cbn; auto. intros u Hu Du [<-|Hs]; [|exact (H u (or_intror Hu) Du Hs)]. apply Nx. apply filter_In. split; [assumption|].
    now rewrite (proj2 (deqb_neq t to) D).
Qed.
Lemma keep_first sep inter ts to : (forall t, In t ts -> ident t <> ident to -> mem (ident t) sep = true) -> mem (ident to) sep = false ->
  mem (ident to) inter = true -> (forall x, In x inter -> x = ident to) ->
  (forall t, In t ts -> ident t = ident to -> t = to) -> NoDup (filter (fun t => negb (deqb t to)) ts) ->
  keep sep inter (map SDirect ts) = Ok (map SDirect (uniq [] ts)).
Proof.
  intros H1 H2 H3 H4 H5 N.
  assert (G : forall seen, (forall t, In t ts -> t <> to -> ~ In t seen) -> ~ In to seen -> keep sep inter (map SDirect ts) = Ok (map SDirect (uniq seen ts)));
    [|now apply G].
  induction ts as [|t r IH]; intros seen S1 S2; cbn [map keep uniq]; [reflexivity|].
  destruct (Nat.eq_dec (ident t) (ident to)) as [E|E].
  - assert (t = to) as -> by (apply H5; cbn; auto). rewrite H2, H3. cbn [negb]. rewrite (proj2 (mem_nIn to seen) S2).
    assert (F : filter (fun x => negb (x =? ident to)) inter = []).
    { clear -H4. induction inter as [|x r IH]; cbn; [reflexivity|]. rewrite (H4 x (or_introl eq_refl)), Nat.eqb_refl. cbn. apply IH. intros y Hy. apply H4.
      now right. }
    rewrite F. cbn [filter] in N. rewrite deqb_refl in N. cbn [negb] in N.
    rewrite (keep_not sep r to); auto; [|intros; apply H1; cbn; auto|intros; apply H5; cbn; auto].
    cbn [rmap rbind map]. rewrite (uniq_filter to); cbn; auto. intros u Hu Du [->|Hs]; [auto|]. exact (S1 u (or_intror Hu) Du Hs).
  - rewrite H1 by (cbn; auto). assert (D : t <> to) by congruence. rewrite (proj2 (mem_nIn t seen)) by (apply S1; cbn; auto).
    pose proof (proj2 (deqb_neq t to) D) as D'. cbn [filter] in N. rewrite D' in N. cbn [negb] in N. inversion N as [|? ? Nx Nr]; subst.
    rewrite (IH) with (seen := t :: seen); [reflexivity| | | | | ]; auto.
    + intros; apply H1; cbn; auto.
    + intros; apply H5; cbn; auto.
    + intros u Hu Du [<-|Hs]; [|exact (S1 u (or_intror Hu) Du Hs)]. apply Nx. apply filter_In. split; [assumption|]. now rewrite D'.
    + intros [->|Hs]; auto.
Qed.
Lemma from_direct o to ts : ts <> [] -> NoDup (map ident ts) -> (forall t, In t ts -> ident t = ident to -> t = to \/ [o] = [t]) ->
  rename_from [(o, to)] FImplicit (lmapM (rt_s [(o, to)])) (map SDirect ts) = Ok (CFrom FImplicit (map SDirect (uniq [] (map (one o to) ts)))).
Proof.
  intros NE N C. unfold rename_from. rewrite used_direct. cbn [rbind].
  assert (R : lmapM (rt_s [(o, to)]) (map SDirect ts) = Ok (map SDirect (map (one o to) ts))).
  { clear. induction ts as [|t r IH]; cbn; [reflexivity|]. cbn in IH. rewrite IH. cbn. unfold rn_table, one. cbn. destruct (eqd o t) as [->|D].
    - destruct (eqd t t); [reflexivity|tauto].
    - destruct (eqd t o); [congruence|reflexivity]. }
  rewrite R. cbn [rbind].
  assert (Feq : forall t, In t (map (one o to) ts) -> ident t = ident to -> t = to).
  { intros t Ht E. apply in_map_iff in Ht. destruct Ht as (s & <- & Hs). unfold one in *. destruct (eqd s o) as [->|D]; [reflexivity|].
    destruct (C s Hs E) as [->|X]; [reflexivity|]. injection X as ->. tauto. }
  assert (Nf : NoDup (filter (fun t => negb (deqb t to)) (map (one o to) ts))).
  { clear -N. apply NoDup_ident in N. induction N as [|t r Nt N IH]; cbn; [constructor|]. unfold one at 1.
    destruct (eqd t o) as [->|D]; [rewrite deqb_refl; exact IH|]. unfold one at 1. destruct (eqd t o); [tauto|].
    destruct (deqb t to); cbn; [exact IH|]. constructor; [|exact IH]. intros X. apply filter_In in X. destruct X as [X Y].
    apply in_map_iff in X. destruct X as (s & Es & Hs). unfold one in Es. destruct (eqd s o); [|congruence]. subst t. rewrite deqb_refl in Y. discriminate. }
  cbn [targets map snd]. set (inter := filter (fun x => mem x [ident to]) (map ident ts)).
  assert (HI : forall x, In x inter <-> x = ident to /\ In x (map ident ts)).
  { intros x. unfold inter. rewrite filter_In, mem_In. cbn. firstorder. }
  destruct inter as [|i r] eqn:EI.
  - rewrite uniq_id; [reflexivity| |auto].
    assert (X : ~ In to ts) by (intros X; apply (in_map ident) in X; apply (proj2 (HI (ident to))); auto).
    assert (Y : forall t, In t ts -> one o to t = to -> t = o).
    { intros t Ht. unfold one. destruct (eqd t o); [auto|]. intros ->. tauto. }
    apply NoDup_map_on; [now apply NoDup_ident|]. intros x y Hx Hy E. unfold one in *.
    destruct (eqd x o) as [->|Dx], (eqd y o) as [->|Dy]; auto; congruence.
  - rewrite <- EI in *. assert (Hto : In (ident to) inter /\ forall x, In x inter -> x = ident to).
    { split; [|intros x Hx; now apply HI]. assert (In i inter) by (rewrite EI; now left). apply HI in H as H'. destruct H' as [-> _]. assumption. }
    destruct Hto as [Hto Hall].
    rewrite (keep_first _ _ _ to); auto.
    + cbn [rbind]. destruct ts as [|t r']; [congruence|]. cbn. reflexivity.
    + intros t Ht Dt. apply in_map_iff in Ht. destruct Ht as (s & <- & Hs). unfold one in *. destruct (eqd s o) as [->|D]; [congruence|].
      apply mem_In. apply filter_In. split; [now apply in_map|]. apply negb_true_iff, mem_nIn. intros X. apply Hall in X. congruence.
    + apply mem_nIn. intros X. apply filter_In in X. destruct X as [_ X]. apply negb_true_iff, mem_nIn in X. tauto.
    + now apply mem_In.
Qed.

(** ** Columns first, tables second: both together are the substitution *)
Lemma rn_table_one o to t : rn_table [(o, to)] t = one o to t.
Proof. unfold rn_table, one. cbn. destruct (eqd o t) as [->|D]; destruct (eqd t _); congruence. Qed.
Lemma rn_col_one o to c : rn_col [(o, to)] c = follow (one o to) c.
Proof.
  unfold rn_col, follow, one. destruct c as [n [t|]]; cbn; [|reflexivity]. destruct (eqd o t) as [->|D]; destruct (eqd t _); congruence.
Qed.
Lemma rn_name_one o to n : (ident o = n -> o = virt n) -> rn_name [(o, to)] n = sub_name (one o to) n.
Proof.
  unfold rn_name, sub_name, one. cbn [find fst snd]. intros H. destruct (ident o =? n) eqn:E.
  - apply Nat.eqb_eq in E. rewrite (H E). destruct (eqd (virt n) (virt n)); [reflexivity|tauto].
  - apply Nat.eqb_neq in E. destruct (eqd (virt n) o) as [<-|D]; [cbn in E; tauto|reflexivity].
Qed.
Lemma build_some cs : build (map Some cs) = Ok (Query cs).
Proof.
  unfold build. assert (existsb (fun c => match c with None => true | _ => false end) (map Some cs) = false) as -> by (induction cs; auto).
  do 2 f_equal. induction cs as [|c r IH]; cbn; [reflexivity|]. now f_equal.
Qed.
Definition clauses_of (q : query) : list clause := match q with Query cs => cs end.

Section Combined.
  Context (ex : bool) (o to : tref) (ren h : col -> col).
  Notation f := (one o to).
  Hypothesis Hren : forall c, ct c <> Some o -> ren c = c.
  Lemma combined :
    (forall e, ok_e ex [o] to e -> (forall c, In c (cols_e e) -> rn_col [(o, to)] (ren c) = h c) ->
       exists e', rc_e ren e = Ok e' /\ rt_e [(o, to)] e' = Ok (sub_e f h e))
    /\ (forall s, ok_s ex [o] to s -> (forall c, In c (cols_s s) -> rn_col [(o, to)] (ren c) = h c) ->
       exists s', rc_s ren s = Ok s' /\ tabs_s s' = tabs_s s /\ rt_s [(o, to)] s' = Ok (sub_s f h s))
    /\ (forall c, ok_c ex [o] to c -> (forall x, In x (cols_c c) -> rn_col [(o, to)] (ren x) = h x) ->
       exists c', rc_c ren c = Ok c' /\ rt_c [(o, to)] c' = Ok (Some (sub_c f h c)))
    /\ (forall q, ok_q ex [o] to q -> (forall c, In c (cols_q q) -> rn_col [(o, to)] (ren c) = h c) ->
       exists q', rc_q ren q = Ok q' /\ rt_q [(o, to)] q' = Ok (map Some (clauses_of (sub_q f h q)))).
  Proof.
    assert (L : forall {A B} (f1 : A -> res A) (f2 : A -> res B) (P : A -> Prop) (g : A -> list col) (s : A -> B) l,
      Forall (fun x => P x -> (forall c, In c (g x) -> rn_col [(o, to)] (ren c) = h c) -> exists x', f1 x = Ok x' /\ f2 x' = Ok (s x)) l ->
      All P l -> (forall c, In c (flat_map g l) -> rn_col [(o, to)] (ren c) = h c) ->
      exists l', lmapM f1 l = Ok l' /\ lmapM f2 l' = Ok (map s l)).
    { intros A B f1 f2 P g s l. induction 1 as [|x r H _ IH]; cbn; [exists []; auto|]. intros [H1 H2] H3.
      destruct (H H1) as (x' & E1 & E2); [intros c Hc; apply H3; apply in_or_app; auto|].
      destruct (IH H2) as (r' & E3 & E4); [intros c Hc; apply H3; apply in_or_app; auto|].
      exists (x' :: r'). rewrite E1, E3. cbn. rewrite E2. cbn. rewrite E4. auto. }
    apply all_ind.
    - intros c _ H. exists (ECol (ren c)). cbn. split; [reflexivity|]. now rewrite (H c (or_introl eq_refl)).
    - intros t _ _. exists (EStar t). split; [reflexivity|]. cbn. destruct t; cbn; [now rewrite rn_table_one|reflexivity].
    - intros [n| | | |n] es IH; cbn; try tauto. intros H1 H2. destruct (L _ _ _ _ _ _ _ _ IH H1 H2) as (es' & E1 & E2).
      exists (ENode (KPlain n) es'). rewrite E1. cbn. rewrite E2. auto.
    - cbn. tauto.
    - intros es ord IH _ [H1 ->] H2. destruct (L _ _ _ _ _ _ _ _ IH H1) as (es' & E1 & E2); [intros c Hc; apply H2; cbn; apply in_or_app; auto|].
      exists (EWin es' []). cbn. rewrite E1. cbn. rewrite E2. auto.
    - intros q IH H1 H2. destruct (IH H1 H2) as (q' & E1 & E2). exists (ESub q'). cbn. rewrite E1. cbn. rewrite E2. cbn [rbind].
      rewrite build_some. cbn. destruct q. auto.
    - cbn. tauto.
    - intros t _ _. exists (SDirect t). cbn. now rewrite rn_table_one.
    - intros q n IH (H1 & H2 & m & -> & H3) H4. assert (E : rc_q ren q = Ok q).
      { apply (proj2 (proj2 (proj2 (rc_id ex [o] to ren)))); [assumption|]. intros c Hc. apply Hren. apply (H2 c o Hc). now left. }
      destruct (IH H1 H4) as (q' & E1 & E2). rewrite E in E1. injection E1 as <-.
      exists (SSub q (Some m)). cbn. rewrite E. split; [reflexivity|]. split; [reflexivity|]. rewrite E2. cbn [rbind]. rewrite build_some. cbn.
      rewrite rn_name_one by (apply H3; now left). destruct q. reflexivity.
    - intros k l r c IHl IHr IHc (H1 & H2 & H3) H4. cbn in *.
      destruct IHl as (l' & E1 & T1 & E2); [assumption|intros x Hx; apply H4; apply in_or_app; auto|].
      destruct IHr as (r' & E3 & T3 & E4); [assumption|intros x Hx; apply H4; apply in_or_app; right; apply in_or_app; auto|].
      assert (X : exists c', omapM (rc_e ren) c = Ok c' /\ omapM (rt_e [(o, to)]) c' = Ok (option_map (sub_e f h) c)).
      { destruct c as [e|]; cbn in *; [|exists None; auto]. destruct IHc as (e' & E5 & E6); [assumption|intros x Hx; apply H4; apply in_or_app; right; apply in_or_app; auto|].
        exists (Some e'). rewrite E5. cbn. rewrite E6. auto. }
      destruct X as (c' & E5 & E6). exists (SJoin k l' r' c'). rewrite E1, E3, E5. cbn. rewrite T1, T3, E2, E4, E6. auto.
    - intros ts don IH _ [H1 ->] H2. destruct (L _ _ _ _ _ _ _ _ IH H1) as (es' & E1 & E2); [intros c Hc; apply H2; cbn; apply in_or_app; auto|].
      exists (CSelect es' []). cbn. rewrite E1. cbn. rewrite E2. auto.
    - intros k ss IH H1 H2.
      assert (G : (exists b, b = ex) -> All (ok_s ex [o] to) ss -> (forall t, In t (flat_map refs_s ss) -> ident t <> ident to) -> k <> FImplicit ->
        exists ss', lmapM (rc_s ren) ss = Ok ss' /\ rename_from [(o, to)] k (lmapM (rt_s [(o, to)])) ss' = Ok (CFrom k (map (sub_s f h) ss))).
      { intros _ A R K. cbn in H2.
        assert (X : exists ss', lmapM (rc_s ren) ss = Ok ss' /\ flat_map tabs_s ss' = flat_map tabs_s ss /\ lmapM (rt_s [(o, to)]) ss' = Ok (map (sub_s f h) ss)).
        { clear R H1. induction IH as [|s r H IH' IH]; cbn in *; [exists []; auto|]. destruct A as [A1 A2].
          destruct (H A1) as (s' & E1 & E2 & E3); [intros c Hc; apply H2; apply in_or_app; auto|].
          destruct (IH) as (r' & E4 & E5 & E6); [intros c Hc; apply H2; apply in_or_app; auto|assumption|].
          exists (s' :: r'). rewrite E1, E4. cbn. rewrite E2, E5, E3. cbn. rewrite E6. auto. }
        destruct X as (ss' & E1 & E2 & E3). exists ss'. split; [assumption|]. unfold rename_from, used_idents. rewrite E2.
        assert (U : forall t, In t (flat_map tabs_s ss) -> exists u, t = Some u /\ ident u <> ident to).
        { intros t Ht. apply in_flat_map in Ht. destruct Ht as (s & Hs & Ht).
          rewrite All_Forall, Forall_forall in A. destruct (proj1 (proj2 (tabs_refs ex [o] to)) s (A s Hs) t Ht) as (u & -> & Hu).
          exists u. split; [reflexivity|]. apply R. apply in_flat_map. eauto. }
        assert (X : exists used, lmapM (fun t => match t with Some t => Ok (ident t) | None => Raise AttributeError end) (flat_map tabs_s ss) = Ok used
                   /\ forall x, In x used -> x <> ident to).
        { clear -U. induction (flat_map tabs_s ss) as [|t r IH]; cbn; [exists []; cbn; tauto|].
          destruct (U t (or_introl eq_refl)) as (u & -> & D). destruct IH as (us & -> & H); [intros x Hx; apply U; now right|].
          exists (ident u :: us). cbn. split; [reflexivity|]. intros x [<-|Hx]; auto. }
        destruct X as (used & -> & Hu). cbn [rbind targets map snd].
        assert (F : filter (fun x => mem x [ident to]) used = []).
        { clear -Hu. induction used as [|x r IH]; cbn [filter]; [reflexivity|]. rewrite (proj2 (mem_nIn x [ident to])).
          - apply IH. intros y Hy. apply Hu. now right.
          - intros [E|[]]. apply (Hu x (or_introl eq_refl)). congruence. }
        rewrite F, E3. destruct k; [tauto|reflexivity|reflexivity]. }
      destruct k.
      + destruct H1 as (E & NE & N & C). exists (CFrom FImplicit ss). cbn. split; [reflexivity|]. set (ts := direct_tables ss) in *.
        rewrite E. rewrite (from_direct o to ts); [reflexivity| |assumption|assumption]. intros X. rewrite X in E. auto.
      + destruct H1 as (_ & A & R). destruct G as (ss' & E1 & E2); eauto; [discriminate|]. exists (CFrom FExplicit ss'). cbn. rewrite E1. cbn. rewrite E2. auto.
      + destruct H1 as (_ & A & R). destruct G as (ss' & E1 & E2); eauto; [discriminate|]. exists (CFrom FMixed ss'). cbn. rewrite E1. cbn. rewrite E2. auto.
    - intros k p IH H1 H2. destruct (IH H1 H2) as (p' & E1 & E2). exists (CCond k p'). cbn. rewrite E1. cbn. rewrite E2. auto.
    - intros es IH H1 H2. destruct (L _ _ _ _ _ _ _ _ IH H1 H2) as (es' & E1 & E2). exists (CGroup es'). cbn. rewrite E1. cbn. rewrite E2. auto.
    - cbn. tauto.
    - intros n _ _. exists (COther n). auto.
    - intros l IH H1 H2.
      destruct (L _ _ (fun p => rmap (fun q' => (q', snd p)) (rc_q ren (fst p)))
                  (fun p => rbind (rt_q [(o, to)] (fst p)) (fun cs => rbind (build cs) (fun q' => Ok (q', ident (rn_table [(o, to)] (virt (snd p)))))))
                  (fun p => ok_q ex [o] to (fst p)) (fun p => cols_q (fst p)) (fun p => (sub_q f h (fst p), sub_name f (snd p))) l) as (l' & E1 & E2); auto.
      + eapply Forall_impl; [|exact IH]. intros [q n] IHq H3 H4. cbn in *. destruct (IHq H3 H4) as (q' & E1 & E2). exists (q', n).
        rewrite E1. cbn. rewrite E2. cbn [rbind]. rewrite build_some. cbn. rewrite rn_table_one. unfold sub_name. destruct q. auto.
      + exists (CWith l'). cbn. rewrite E1. cbn. rewrite E2. auto.
    - cbn. tauto.
    - intros cs IH H1 H2. cbn in *.
      destruct (L _ _ (rc_c ren) (rt_c [(o, to)]) (ok_c ex [o] to) cols_c (fun c => Some (sub_c f h c)) cs IH H1 H2) as (cs' & E1 & E2).
      exists (Query cs'). rewrite E1. cbn. rewrite E2, map_map. auto.
  Qed.
End Combined.

(** ** Substitutions *)
Lemma map_F {A B} (f g : A -> B) l : Forall (fun x => f x = g x) l -> map f l = map g l.
Proof. induction 1; cbn; congruence. Qed.
Lemma omap_A {A B} (f g : A -> B) o : AllO (fun x => f x = g x) o -> option_map f o = option_map g o.
Proof. destruct o; cbn; congruence. Qed.
Lemma sub_ext f f' h h' : (forall t, f t = f' t) -> (forall c, h c = h' c) ->
  (forall e, sub_e f h e = sub_e f' h' e) /\ (forall s, sub_s f h s = sub_s f' h' s)
  /\ (forall c, sub_c f h c = sub_c f' h' c) /\ (forall q, sub_q f h q = sub_q f' h' q).
Proof.
  intros Hf Hh. assert (Hn : forall n, sub_name f n = sub_name f' n) by (intros n; unfold sub_name; now rewrite Hf).
  apply all_ind; intros; cbn; f_equal; auto; try (now apply map_F).
  - destruct t; cbn; [now rewrite Hf|reflexivity].
  - destruct n; cbn; [now rewrite Hn|reflexivity].
  - now apply omap_A.
  - destruct k; f_equal; try (now apply map_F). do 2 f_equal. apply map_ext. exact Hf.
  - apply map_F. eapply Forall_impl; [|eassumption]. intros [q n] H'. cbn in *. now rewrite H', Hn.
Qed.
Lemma sub_sub f g h k : (forall n, sub_name g (sub_name f n) = sub_name (fun t => g (f t)) n) ->
  (forall e, sub_e g k (sub_e f h e) = sub_e (fun t => g (f t)) (fun c => k (h c)) e)
  /\ (forall s, sub_s g k (sub_s f h s) = sub_s (fun t => g (f t)) (fun c => k (h c)) s)
  /\ (forall c, sub_c g k (sub_c f h c) = sub_c (fun t => g (f t)) (fun c => k (h c)) c)
  /\ (forall q, sub_q g k (sub_q f h q) = sub_q (fun t => g (f t)) (fun c => k (h c)) q).
Proof.
  intros Hn. apply all_ind; intros; cbn; f_equal; auto; try (rewrite map_map; now apply map_F).
  - destruct t; reflexivity.
  - destruct n; cbn; [now rewrite Hn|reflexivity].
  - destruct c; cbn in *; congruence.
  - destruct k0; cbn; f_equal; try (rewrite map_map; now apply map_F). f_equal. rewrite direct_direct. apply uniq_map_map.
  - rewrite map_map. apply map_F. eapply Forall_impl; [|eassumption]. intros [q n] H'. cbn in *. now rewrite H', Hn.
Qed.

(** ** Without explicit joins, queries stay supported when one of the tables has been renamed *)
Lemma direct_ok tables to f ts : (forall t, f t = t \/ In t tables /\ f t = to) -> (forall t, In t tables -> f t = t -> tables = [t] -> True) ->
  NoDup (map ident ts) -> (forall t, In t ts -> ident t = ident to -> t = to \/ tables = [t]) ->
  NoDup (map ident (uniq [] (map f ts))) /\ forall t, In t (uniq [] (map f ts)) -> ident t = ident to -> t = to \/ tables = [t].
Proof.
  intros Hf _ N C.
  assert (C' : forall t, In t (uniq [] (map f ts)) -> t = to \/ (In t ts /\ (ident t = ident to -> tables = [t]))).
  { intros t Ht. apply uniq_In in Ht. destruct Ht as [Ht _]. apply in_map_iff in Ht. destruct Ht as (s & <- & Hs).
    destruct (Hf s) as [->|[_ ->]]; [|auto]. destruct (Nat.eq_dec (ident s) (ident to)) as [E|E]; [|tauto]. destruct (C s Hs E); auto. }
  split.
  - apply NoDup_map_on; [apply uniq_NoDup|]. intros x y Hx Hy E. pose proof (C' x Hx) as Cx. pose proof (C' y Hy) as Cy.
    apply uniq_In in Hx. apply uniq_In in Hy. destruct Hx as [Hx _], Hy as [Hy _].
    apply in_map_iff in Hx. apply in_map_iff in Hy. destruct Hx as (s & <- & Hs), Hy as (t & <- & Ht).
    destruct (Hf s) as [Es|[Is Es]], (Hf t) as [Et|[It Et]].
    + rewrite Es, Et in *. now apply (NoDup_ident_eq ts).
    + rewrite Es, Et in *. destruct (C s Hs E) as [->|X]; [reflexivity|]. subst tables. destruct It as [->|[]]. congruence.
    + rewrite Es, Et in *. destruct (C t Ht (eq_sym E)) as [->|X]; [reflexivity|]. subst tables. destruct Is as [->|[]]. congruence.
    + congruence.
  - intros t Ht E. destruct (C' t Ht) as [->|[_ X]]; auto.
Qed.
Lemma ok_sub tables to f h : (forall t, f t = t \/ In t tables /\ f t = to) ->
  (forall e, ok_e false tables to e -> ok_e false tables to (sub_e f h e)) /\ (forall s : source, True)
  /\ (forall c, ok_c false tables to c -> ok_c false tables to (sub_c f h c)) /\ (forall q, ok_q false tables to q -> ok_q false tables to (sub_q f h q)).
Proof.
  intros Hf.
  assert (L : forall {A} (P : A -> Prop) (s : A -> A) l, Forall (fun x => P x -> P (s x)) l -> All P l -> All P (map s l)).
  { intros A P s l. induction 1; cbn; [auto|]. intros [H1 H2]. auto. }
  apply all_ind; auto.
  - intros [n| | | |n] es IH; cbn; try tauto. now apply L.
  - intros es ord IH _ [H ->]. cbn. split; [now apply L|reflexivity].
  - intros ts don IH _ [H ->]. cbn. split; [now apply L|reflexivity].
  - intros k ss _ H. destruct k; [|destruct H as (X & _); discriminate..]. destruct H as (E & NE & N & C). cbn. rewrite direct_direct.
    destruct (direct_ok tables to f (direct_tables ss) Hf (fun _ _ _ _ => I) N C) as [N' C']. split; [reflexivity|]. split; [|auto].
    destruct (direct_tables ss) as [|t r]; [cbn in E; congruence|]. cbn. discriminate.
  - intros es IH H. cbn. now apply L.
  - intros l IH H. cbn in *. rewrite All_Forall in *. rewrite Forall_forall in *. intros p Hp. apply in_map_iff in Hp. destruct Hp as ([q n] & <- & Hp).
    cbn. exact (IH (q, n) Hp (H (q, n) Hp)).
  - intros cs IH H. cbn. now apply L.
Qed.
Lemma ok_one tables to o :
  In o tables ->
  (forall e, ok_e false tables to e -> ok_e false [o] to e) /\ (forall s : source, True)
  /\ (forall c, ok_c false tables to c -> ok_c false [o] to c) /\ (forall q, ok_q false tables to q -> ok_q false [o] to q).
Proof.
  intros Ho. apply all_ind; auto.
  - intros [n| | | |n] es IH; cbn; try tauto. now apply All_impl.
  - intros es ord IH _ [H ->]. cbn. split; [|reflexivity]. eapply All_impl; eauto.
  - intros ts don IH _ [H ->]. cbn. split; [|reflexivity]. eapply All_impl; eauto.
  - intros k ss _ H. destruct k; [|destruct H as (X & _); discriminate..]. destruct H as (E & NE & N & C). cbn. split; [assumption|].
    split; [assumption|]. split; [assumption|]. intros t Ht Et. destruct (C t Ht Et) as [->|X]; [auto|]. subst tables. destruct Ho as [<-|[]]. auto.
  - intros es IH H. cbn. eapply All_impl; eauto.
  - intros l IH H. cbn. eapply All_impl; [exact IH|exact H].
  - intros cs IH H. cbn. eapply All_impl; eauto.
Qed.
(** Renaming columns *)
Lemma rc_sub tables to ren :
  (forall e, ok_e false tables to e -> rc_e ren e = Ok (sub_e (fun t => t) ren e)) /\ (forall s : source, True)
  /\ (forall c, ok_c false tables to c -> rc_c ren c = Ok (sub_c (fun t => t) ren c))
  /\ (forall q, ok_q false tables to q -> rc_q ren q = Ok (sub_q (fun t => t) ren q)).
Proof.
  assert (L : forall {A} (P : A -> Prop) (f : A -> res A) (s : A -> A) l, Forall (fun x => P x -> f x = Ok (s x)) l -> All P l -> lmapM f l = Ok (map s l)).
  { intros A P f s l. induction 1 as [|x r H _ IH]; cbn; [auto|]. intros [H1 H2]. rewrite (H H1). cbn. now rewrite (IH H2). }
  apply all_ind; auto.
  - intros t _. cbn. now destruct t.
  - intros [n| | | |n] es IH; cbn; try tauto. intros H. now rewrite (L _ _ _ _ _ IH H).
  - cbn. tauto.
  - intros es ord IH _ [H ->]. cbn. now rewrite (L _ _ _ _ _ IH H).
  - intros q IH H. cbn. now rewrite IH.
  - cbn. tauto.
  - intros ts don IH _ [H ->]. cbn. now rewrite (L _ _ _ _ _ IH H).
  - intros k ss _ H. destruct k; [|destruct H as (X & _); discriminate..]. destruct H as (E & NE & N & C). cbn. rewrite map_id.
    rewrite uniq_id; [now rewrite <- E|now apply NoDup_ident|auto].
  - intros k p IH H. cbn. now rewrite IH.
  - intros es IH H. cbn. now rewrite (L _ _ _ _ _ IH H).
  - cbn. tauto.
  - intros l IH H. cbn. rewrite (L _ (fun p => ok_q false tables to (fst p)) _ (fun p => (sub_q (fun t => t) ren (fst p), sub_name (fun t => t) (snd p))) l); [reflexivity| |exact H].
    eapply Forall_impl; [|exact IH]. intros [q n] IHq Hq. cbn in *. rewrite IHq by assumption. reflexivity.
  - cbn. tauto.
  - intros cs IH H. cbn. now rewrite (L _ _ _ _ _ IH H).
Qed.

(** ** Which tables are mentioned after a substitution *)
Lemma refs_sub f h : (forall c, ct (h c) = option_map f (ct c)) ->
  (forall e t, In t (refs_e (sub_e f h e)) -> exists s, In s (refs_e e) /\ (t = f s \/ exists n, s = virt n /\ t = virt (sub_name f n)))
  /\ (forall x t, In t (refs_s (sub_s f h x)) -> exists s, In s (refs_s x) /\ (t = f s \/ exists n, s = virt n /\ t = virt (sub_name f n)))
  /\ (forall x t, In t (refs_c (sub_c f h x)) -> exists s, In s (refs_c x) /\ (t = f s \/ exists n, s = virt n /\ t = virt (sub_name f n)))
  /\ (forall x t, In t (refs_q (sub_q f h x)) -> exists s, In s (refs_q x) /\ (t = f s \/ exists n, s = virt n /\ t = virt (sub_name f n))).
Proof.
  intros Hh. set (R := fun t s => t = f s \/ exists n, s = virt n /\ t = virt (sub_name f n)).
  assert (L : forall {A} (g : A -> list tref) (s : A -> A) l,
    Forall (fun x => forall t, In t (g (s x)) -> exists u, In u (g x) /\ R t u) l ->
    forall t, In t (flat_map g (map s l)) -> exists u, In u (flat_map g l) /\ R t u).
  { intros A g s l. induction 1 as [|x r H _ IH]; cbn; [tauto|]. intros t Ht. apply in_app_or in Ht.
    destruct Ht as [Ht|Ht]; [destruct (H t Ht) as (u & Hu & E)|destruct (IH t Ht) as (u & Hu & E)]; exists u; (split; [|exact E]); apply in_or_app; auto. }
  assert (Ap : forall (a b a' b' : list tref), (forall t, In t a' -> exists u, In u a /\ R t u) -> (forall t, In t b' -> exists u, In u b /\ R t u) ->
    forall t, In t (a' ++ b') -> exists u, In u (a ++ b) /\ R t u).
  { intros a b a' b' Ha Hb t Ht. apply in_app_or in Ht.
    destruct Ht as [Ht|Ht]; [destruct (Ha t Ht) as (u & Hu & E)|destruct (Hb t Ht) as (u & Hu & E)]; exists u; (split; [|exact E]); apply in_or_app; auto. }
  apply all_ind.
  - intros c t. cbn. rewrite Hh. destruct (ct c); cbn; [|tauto]. intros [<-|[]]. exists t0. split; [auto|]. now left.
  - intros [u|] t; cbn; [|tauto]. intros [<-|[]]. exists u. split; [auto|]. now left.
  - intros k es IH. cbn. now apply L.
  - intros g p IH1 IH2. cbn. now apply Ap.
  - intros es ord IH1 IH2. cbn. apply Ap; now apply L.
  - intros q IH. exact IH.
  - intros es IH. cbn. now apply L.
  - intros u t. cbn. intros [<-|[]]. exists u. split; [auto|]. now left.
  - intros q n IH. cbn. apply Ap; [exact IH|]. destruct n; cbn; [|tauto]. intros t [<-|[]]. exists (virt n). split; [auto|]. right. eauto.
  - intros k l r c IHl IHr IHc. cbn. apply Ap; [exact IHl|]. apply Ap; [exact IHr|]. destruct c; cbn in *; [exact IHc|tauto].
  - intros ts don IH1 IH2. cbn. apply Ap; now apply L.
  - intros k ss IH. destruct k; cbn; try (now apply L). intros t Ht. apply in_flat_map in Ht. destruct Ht as (s & Hs & Ht). apply in_map_iff in Hs.
    destruct Hs as (u & <- & Hu). destruct Ht as [<-|[]]. apply uniq_In in Hu. destruct Hu as [Hu _]. apply in_map_iff in Hu. destruct Hu as (v & <- & Hv).
    exists v. split; [|now left]. unfold direct_tables in Hv. apply in_flat_map in Hv. destruct Hv as (s & Hs & Hv). apply in_flat_map. exists s.
    split; [assumption|]. destruct s; cbn in *; tauto.
  - intros k p IH. exact IH.
  - intros es IH. cbn. now apply L.
  - intros es IH. cbn. now apply L.
  - cbn. tauto.
  - intros l IH. cbn. intros t Ht. apply (L _ (fun p => refs_q (fst p) ++ [virt (snd p)]) (fun p => (sub_q f h (fst p), sub_name f (snd p)))); [|exact Ht].
    eapply Forall_impl; [|exact IH]. intros [q n] Hq. cbn in *. apply Ap; [exact Hq|]. intros u [<-|[]]. exists (virt n). split; [now left|]. right. eauto.
  - intros k l r IHl IHr. cbn. now apply Ap.
  - intros cs IH. cbn. now apply L.
Qed.

(** ** A substitution that concerns nothing in the query *)
Lemma sub_same ex olds to f h :
  (forall e, ok_e ex olds to e -> (forall t, In t (refs_e e) -> f t = t) -> (forall c, In c (cols_e e) -> h c = c) -> sub_e f h e = e)
  /\ (forall e, ok_s ex olds to e -> (forall t, In t (refs_s e) -> f t = t) -> (forall c, In c (cols_s e) -> h c = c) -> sub_s f h e = e)
  /\ (forall e, ok_c ex olds to e -> (forall t, In t (refs_c e) -> f t = t) -> (forall c, In c (cols_c e) -> h c = c) -> sub_c f h e = e)
  /\ (forall e, ok_q ex olds to e -> (forall t, In t (refs_q e) -> f t = t) -> (forall c, In c (cols_q e) -> h c = c) -> sub_q f h e = e).
Proof.
  assert (L : forall {A} (P : A -> Prop) (r : A -> list tref) (g : A -> list col) (s : A -> A) l,
    Forall (fun x => P x -> (forall t, In t (r x) -> f t = t) -> (forall c, In c (g x) -> h c = c) -> s x = x) l -> All P l ->
    (forall t, In t (flat_map r l) -> f t = t) -> (forall c, In c (flat_map g l) -> h c = c) -> map s l = l).
  { intros A P r g s l. induction 1 as [|x l' H _ IH]; cbn; [reflexivity|]. intros [H1 H2] H3 H4. f_equal.
    - apply H; auto; intros y Hy; [apply H3|apply H4]; apply in_or_app; auto.
    - apply IH; auto; intros y Hy; [apply H3|apply H4]; apply in_or_app; auto. }
  apply all_ind.
  - intros c _ _ H. cbn. now rewrite (H c (or_introl eq_refl)).
  - intros [t|] _ H _; cbn; [|reflexivity]. now rewrite (H t (or_introl eq_refl)).
  - intros [n| | | |n] es IH; cbn; try tauto. intros H1 H2 H3. f_equal. eapply L; eauto.
  - cbn. tauto.
  - intros es ord IH _ [H1 ->] H2 H3. cbn in *. rewrite app_nil_r in *. f_equal. eapply L; eauto.
  - intros q IH H1 H2 H3. cbn. f_equal. now apply IH.
  - cbn. tauto.
  - intros t _ H _. cbn. now rewrite (H t (or_introl eq_refl)).
  - intros q n IH (H1 & _ & m & -> & _) H2 H3. cbn in *. f_equal; [apply IH; auto; intros t Ht; apply H2; apply in_or_app; auto|].
    f_equal. unfold sub_name. rewrite H2 by (apply in_or_app; right; now left). reflexivity.
  - intros k l r c IHl IHr IHc (H1 & H2 & H3) H4 H5. cbn in *. f_equal.
    + apply IHl; auto; intros x Hx; [apply H4|apply H5]; apply in_or_app; auto.
    + apply IHr; auto; intros x Hx; [apply H4|apply H5]; apply in_or_app; right; apply in_or_app; auto.
    + destruct c as [e|]; cbn in *; [|reflexivity]. f_equal. apply IHc; auto; intros x Hx; [apply H4|apply H5]; apply in_or_app; right; apply in_or_app; auto.
  - intros ts don IH _ [H1 ->] H2 H3. cbn in *. rewrite app_nil_r in *. f_equal. eapply L; eauto.
  - intros k ss IH H1 H2 H3. destruct k; cbn in *; [|destruct H1 as (_ & H1 & _); f_equal; eapply L; eauto..].
    destruct H1 as (E & _ & N & _). f_equal. rewrite E at 2. f_equal.
    assert (M : map f (direct_tables ss) = direct_tables ss).
    { assert (X : forall t, In t (direct_tables ss) -> f t = t).
      { intros t Ht. apply H2. rewrite E. apply in_flat_map. exists (SDirect t). split; [now apply in_map|now left]. }
      clear -X. induction (direct_tables ss) as [|t r IH]; cbn; [reflexivity|]. rewrite X by (now left). f_equal. apply IH. intros u Hu. apply X. now right. }
    rewrite M. apply uniq_id; [now apply NoDup_ident|auto].
  - intros k p IH H1 H2 H3. cbn. f_equal. now apply IH.
  - intros es IH H1 H2 H3. cbn. f_equal. eapply L; eauto.
  - cbn. tauto.
  - reflexivity.
  - intros l IH H1 H2 H3. cbn. f_equal.
    eapply (L _ (fun p => ok_q ex olds to (fst p)) (fun p => refs_q (fst p) ++ [virt (snd p)]) (fun p => cols_q (fst p))); eauto.
    eapply Forall_impl; [|exact IH]. intros [q n] Hq H4 H5 H6. cbn in *. f_equal; [apply Hq; auto; intros t Ht; apply H5; apply in_or_app; auto|].
    unfold sub_name. rewrite H5 by (apply in_or_app; right; now left). reflexivity.
  - cbn. tauto.
  - intros cs IH H1 H2 H3. cbn. f_equal. eapply L; eauto.
Qed.

(** ** rename_table and merge_tables *)
Lemma lastval_cols (g : col -> option col) (cols : list col) c :
  lastval (flat_map (fun x => match g x with Some y => [(x, y)] | None => [] end) cols) c = if mem c cols then g c else None.
Proof.
  induction cols as [|x r IH]; cbn [flat_map lastval]; [reflexivity|]. rewrite lastval_app, IH.
  change (mem c (x :: r)) with (deqb c x || mem c r). destruct (mem c r) eqn:M; rewrite ?orb_true_r, ?orb_false_r.
  - destruct (g c) eqn:E; [reflexivity|]. destruct (g x) eqn:E'; cbn; [|reflexivity]. destruct (eqd c x) as [->|D]; congruence.
  - destruct (g x) eqn:E'; cbn; unfold deqb; destruct (eqd c x) as [->|D]; congruence.
Qed.
Lemma lookup_renaming pre from to prefix cols c :
  lookup_col (col_renamings pre [(from, to)] (Some to) prefix cols) c
  = if mem c cols then if eqd (ct c) (Some from) then mkcol (if prefix then pre (ident from) (cn c) else cn c) (Some to) else c else c.
Proof.
  unfold lookup_col, col_renamings. rewrite dict_of_spec.
  set (g := fun c : col => if eqd (ct c) (Some from) then Some (mkcol (if prefix then pre (ident from) (cn c) else cn c) (Some to)) else None).
  assert (E : flat_map (fun c => match ct c with
      | Some t => if dmem [(from, to)] t then [(c, mkcol (if prefix then pre (ident t) (cn c) else cn c) (Some to))] else [] | None => [] end) cols
    = flat_map (fun x => match g x with Some y => [(x, y)] | None => [] end) cols).
  { apply flat_map_ext. intros [n [t|]]; unfold g; cbn [ct cn]; [|destruct (eqd None (Some from)); [discriminate|reflexivity]].
    unfold dmem. cbn [existsb map fst]. destruct (eqd (Some t) (Some from)) as [X|D].
    - injection X as ->. cbn. destruct (eqd from from); [reflexivity|tauto].
    - cbn. destruct (eqd t from); [congruence|reflexivity]. }
  rewrite E, lastval_cols. unfold g. destruct (mem c cols); [|reflexivity]. destruct (eqd (ct c) (Some from)); reflexivity.
Qed.
Lemma rename_table_ok pre ex q from to prefix cols : ok_q ex [from] to q ->
  (prefix = true -> forall c, In c (cols_q q) -> ct c = Some from -> In c cols) ->
  rename_table pre q from to prefix cols = Ok (sub_q (one from to) (if prefix then follow_prefixed pre from to else follow (one from to)) q).
Proof.
  intros Hok Hc. unfold rename_table, rename_tables.
  set (ren := lookup_col (col_renamings pre [(from, to)] (Some to) prefix cols)).
  assert (R : forall c, ren c = if mem c cols then if eqd (ct c) (Some from) then mkcol (if prefix then pre (ident from) (cn c) else cn c) (Some to) else c else c)
    by (intros c; apply lookup_renaming).
  assert (H1 : forall c, ct c <> Some from -> ren c = c).
  { intros c D. rewrite R. destruct (mem c cols); [|reflexivity]. destruct (eqd (ct c) (Some from)); [tauto|reflexivity]. }
  destruct (proj2 (proj2 (proj2 (combined ex from to ren (if prefix then follow_prefixed pre from to else follow (one from to)) H1))) q Hok) as (q' & E1 & E2).
  - intros c Hin. rewrite rn_col_one, R. destruct c as [n ot]. cbn [ct cn]. unfold follow, follow_prefixed. cbn [ct cn].
    destruct (eqd ot (Some from)) as [->|D].
    + assert (Eo : one from to to = to) by (unfold one; destruct (eqd to from); reflexivity).
      assert (Ef : one from to from = to) by (unfold one; destruct (eqd from from); [reflexivity|tauto]).
      destruct prefix.
      * rewrite (proj2 (mem_In _ cols)) by (apply Hc; auto). cbn [option_map ct cn]. rewrite Eo. destruct (eqd (Some from) (Some from)); [reflexivity|tauto].
      * destruct (mem _ cols); cbn [option_map ct cn]; rewrite ?Eo, ?Ef; reflexivity.
    + assert (X : (if mem (mkcol n ot) cols then mkcol n ot else mkcol n ot) = mkcol n ot) by (destruct (mem _ cols); reflexivity). rewrite X. cbn [option_map ct cn].
      assert (Y : option_map (one from to) ot = ot).
      { destruct ot as [t|]; cbn; [|reflexivity]. unfold one. destruct (eqd t from); [congruence|reflexivity]. }
      destruct prefix; cbn [option_map ct cn]; rewrite Y; [|reflexivity]. destruct (eqd ot (Some from)); [tauto|reflexivity].
  - rewrite E1. cbn [rbind]. rewrite E2. cbn [rbind]. rewrite build_some. destruct q; reflexivity.
Qed.

Lemma many_to tables to : many tables to to = to.
Proof. unfold many. destruct (mem to tables); reflexivity. Qed.
Lemma many_step t r to u : many r to (one t to u) = many (t :: r) to u.
Proof.
  unfold one. destruct (eqd u t) as [->|D].
  - rewrite many_to. unfold many. rewrite (proj2 (mem_In t (t :: r))) by (now left). reflexivity.
  - unfold many. change (mem u (t :: r)) with (deqb u t || mem u r). rewrite (proj2 (deqb_neq u t) D). reflexivity.
Qed.
Lemma name_step f r to n : (f (virt n) = virt n \/ f (virt n) = to) -> sub_name (many r to) (sub_name f n) = sub_name (fun t => many r to (f t)) n.
Proof.
  unfold sub_name. intros [->| ->]; [reflexivity|]. rewrite many_to. unfold many. destruct (mem _ r); reflexivity.
Qed.
Lemma follow_step f g c : follow g (follow f c) = follow (fun t => g (f t)) c.
Proof. destruct c as [n [t|]]; reflexivity. Qed.
Lemma follow_ext f g c : (forall t, f t = g t) -> follow f c = follow g c.
Proof. intros H. destruct c as [n [t|]]; unfold follow; cbn; [now rewrite H|reflexivity]. Qed.
Lemma one_or t to u : one t to u = u \/ one t to u = to.
Proof. unfold one. destruct (eqd u t); [right|left]; reflexivity. Qed.
(** Merging table after table *)
Lemma steps_ok pre columns all to tables : (forall t, In t tables -> In t all) -> forall q, ok_q false all to q ->
  fold_left (fun acc t => rbind acc (fun m => rename_table pre m t to false (columns m))) tables (Ok q)
  = Ok (sub_q (many tables to) (follow (many tables to)) q).
Proof.
  induction tables as [|t r IH]; intros Hall q Hok; cbn [fold_left].
  - f_equal. symmetry. apply (proj2 (proj2 (proj2 (sub_same false all to (many [] to) (follow (many [] to)))))); auto.
    intros [n [u|]] _; reflexivity.
  - cbn [rbind]. rewrite (rename_table_ok pre false q t to false (columns q)); [|apply (ok_one all to t (Hall t (or_introl eq_refl))); exact Hok|discriminate].
    rewrite IH; [|intros u Hu; apply Hall; now right|].
    + f_equal. rewrite (proj2 (proj2 (proj2 (sub_sub (one t to) (many r to) (follow (one t to)) (follow (many r to))
        (fun n => name_step _ r to n (one_or t to (virt n))))))).
      apply (proj2 (proj2 (proj2 (sub_ext _ _ _ _ (many_step t r to)
        (fun c => eq_trans (follow_step _ _ c) (follow_ext _ _ c (many_step t r to))))))).
    + apply (ok_sub all to); [|exact Hok]. intros u. unfold one. destruct (eqd u t) as [->|D]; [right|left; reflexivity]. split; [|reflexivity].
      apply Hall. now left.
Qed.
Lemma lookup_merge tables to cols c :
  lookup_col (merge_renamings tables to cols) c = if mem c cols then follow (many tables to) c else c.
Proof.
  unfold lookup_col, merge_renamings. rewrite dict_of_spec.
  set (g := fun c : col => match ct c with Some t => if mem t tables then Some (mkcol (cn c) (Some to)) else None | None => None end).
  assert (E : flat_map (fun c => match ct c with Some t => if mem t tables then [(c, mkcol (cn c) (Some to))] else [] | None => [] end) cols
    = flat_map (fun x => match g x with Some y => [(x, y)] | None => [] end) cols).
  { apply flat_map_ext. intros [n [t|]]; unfold g; cbn [ct cn]; [|reflexivity]. destruct (mem t tables); reflexivity. }
  rewrite E, lastval_cols. destruct (mem c cols); [|reflexivity]. unfold g, follow, many. destruct c as [n [t|]]; cbn; [|reflexivity].
  destruct (mem t tables); reflexivity.
Qed.
Lemma merge_tables_ok pre columns q tables to : ok_q false tables to q ->
  merge_tables pre columns q tables to = Ok (sub_q (many tables to) (follow (many tables to)) q).
Proof.
  intros Hok. unfold merge_tables. set (ren := lookup_col (merge_renamings tables to (columns q))).
  rewrite (proj2 (proj2 (proj2 (rc_sub tables to ren))) q Hok). cbn [rbind].
  rewrite (steps_ok pre columns tables to tables); [|auto|apply (ok_sub tables to); [intros t; now left|exact Hok]].
  f_equal. rewrite (proj2 (proj2 (proj2 (sub_sub (fun t => t) (many tables to) ren (follow (many tables to))
    (fun n => name_step (fun t => t) tables to n (or_introl eq_refl)))))).
  refine (proj2 (proj2 (proj2 (sub_ext _ _ _ _ (fun t => eq_refl) _))) q).
  intros c. unfold ren. rewrite lookup_merge. destruct (mem c (columns q)); [|reflexivity]. rewrite follow_step. apply follow_ext. intros t.
  unfold many at 2. destruct (mem t tables) eqn:M; [|reflexivity]. rewrite many_to. unfold many. now rewrite M.
Qed.

(** ** Clauses that make the renaming fail *)
Lemma lmapM_inv {A B} (f : A -> res B) l m : lmapM f l = Ok m -> forall x, In x l -> exists y, f x = Ok y /\ In y m.
Proof.
  revert m. induction l as [|a r IH]; cbn; [intros m _ x []|]. intros m. destruct (f a) as [y|] eqn:E; cbn; [|discriminate].
  destruct (lmapM f r) as [ys|]; cbn; [|discriminate]. intros [= <-] x [<-|Hx]; [exists y; cbn; auto|].
  destruct (IH ys eq_refl x Hx) as (z & Hz & Iz). exists z. cbn. auto.
Qed.
Lemma order_by_fails d ren es cs : In (COrder es) cs -> is_ok (rbind (rc_q ren (Query cs)) (fun q => rbind (rt_q d q) build)) = false.
Proof.
  intros H. cbn. destruct (lmapM (rc_c ren) cs) as [cs'|] eqn:E1; cbn; [|reflexivity]. destruct (lmapM (rt_c d) cs') as [l|] eqn:E2; cbn; [|reflexivity].
  destruct (lmapM_inv _ _ _ E1 _ H) as (c' & Ec & Hc). cbn in Ec. destruct (lmapM (rc_e ren) es) as [es'|]; cbn in Ec; [|discriminate]. injection Ec as <-.
  destruct (lmapM_inv _ _ _ E2 _ Hc) as (o & Eo & Ho). cbn in Eo. destruct (lmapM (rt_e d) es'); cbn in Eo; [|discriminate]. injection Eo as <-.
  unfold build. assert (existsb (fun c => match c with None => true | _ => false end) l = true) as -> by (apply existsb_exists; exists None; auto). reflexivity.
Qed.
Lemma set_fails ren k l r cs : In (CSet k l r) cs -> is_ok (rc_q ren (Query cs)) = false.
Proof.
  intros H. cbn. destruct (lmapM (rc_c ren) cs) as [cs'|] eqn:E1; cbn; [|reflexivity]. exfalso.
  destruct (lmapM_inv _ _ _ E1 _ H) as (c' & Ec & Hc). cbn in Ec. destruct (rc_q ren l); cbn in Ec; [|discriminate]. destruct (rc_q ren r); discriminate.
Qed.
