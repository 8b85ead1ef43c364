(* Lemmas about assembling queries. *)
From Coq Require Import List Bool.
From Verif Require Import PyBase Clause_model Clause_spec.
Import ListNotations.

Lemma last_at_app a b s :
  last_at (a ++ b) s = match last_at b s with Some x => Some x | None => last_at a s end.
Proof.
  induction a as [|c a IH]; cbn [app last_at].
  - destruct (last_at b s); reflexivity.
  - rewrite IH. destruct (last_at b s); reflexivity.
Qed.

Lemma last_at_slot cs s c : last_at cs s = Some c -> slot_of c = s /\ In c cs.
Proof.
  revert c. induction cs as [|x cs IH]; intros c H; [discriminate|]. cbn [last_at] in H.
  destruct (last_at cs s) as [y|].
  - injection H as <-. destruct (IH y eq_refl) as [H1 H2]. split; [exact H1|now right].
  - destruct (deqb (slot_of x) s) eqn:E; [|discriminate]. injection H as <-.
    apply deqb_true in E. split; [exact E|now left].
Qed.

Lemma last_at_None cs s : last_at cs s = None <-> forall c, In c cs -> slot_of c <> s.
Proof.
  induction cs as [|x cs IH]; cbn [last_at In].
  - split; [intros _ c []|reflexivity].
  - destruct (last_at cs s) as [y|] eqn:E.
    + split; [discriminate|]. intros H. apply last_at_slot in E. destruct E as [E1 E2].
      destruct (H y (or_intror E2) E1).
    + destruct (deqb (slot_of x) s) eqn:D.
      * split; [discriminate|]. intros H. apply deqb_true in D. destruct (H x (or_introl eq_refl) D).
      * split; [|reflexivity]. intros _ c [<-|Hc]; [now apply deqb_false in D|].
        now apply (proj1 IH eq_refl).
Qed.

Lemma last_at_filter f cs s :
  (forall c, In c cs -> slot_of c = s -> f c = true) -> last_at (filter f cs) s = last_at cs s.
Proof.
  induction cs as [|c cs IH]; intros H; [reflexivity|]. cbn [filter last_at].
  assert (IH' : last_at (filter f cs) s = last_at cs s) by (apply IH; intros x Hx; apply H; now right).
  destruct (f c) eqn:E.
  - cbn [last_at]. now rewrite IH'.
  - rewrite IH'. destruct (last_at cs s); [reflexivity|].
    destruct (deqb (slot_of c) s) eqn:D; [|reflexivity]. apply deqb_true in D.
    rewrite (H c (or_introl eq_refl) D) in E. discriminate.
Qed.

Lemma last_at_olist {A} (C : A -> clause) (t : slot) o s :
  (forall a, slot_of (C a) = t) -> last_at (olist (omap C o)) s = if deqb t s then omap C o else None.
Proof.
  intros H. destruct o as [a|]; cbn [olist omap last_at]; [rewrite H|]; destruct (deqb t s); reflexivity.
Qed.

Lemma last_at_clauses q s : last_at (clauses q) s = clause_at q s.
Proof.
  destruct q as [cls hi ex ct se fr wh gr ha od li|op l r hi ex ct od li]; cbn [clauses].
  - rewrite !last_at_app.
    rewrite (last_at_olist CHint SHint), (last_at_olist CExplain SExplain), (last_at_olist CCte SCte),
      (last_at_olist CFrom SFrom), (last_at_olist CWhere SWhere), (last_at_olist CGroup SGroup),
      (last_at_olist CHaving SHaving), (last_at_olist COrder SOrder), (last_at_olist CLimit SLimit) by reflexivity.
    destruct s; cbn [last_at slot_of]; vm_compute;
      repeat match goal with x : option _ |- context [match ?y with Some _ => _ | None => _ end] => constr_eq x y; destruct x end; reflexivity.
  - rewrite !last_at_app.
    rewrite (last_at_olist CHint SHint), (last_at_olist CExplain SExplain), (last_at_olist CCte SCte),
      (last_at_olist COrder SOrder), (last_at_olist CLimit SLimit) by reflexivity.
    assert (E : last_at [set_clause op l r] s = if deqb SSetop s then Some (set_clause op l r) else None) by (destruct op; reflexivity).
    rewrite E. destruct s; vm_compute;
      repeat match goal with x : option _ |- context [match ?y with Some _ => _ | None => _ end] => constr_eq x y; destruct x end; reflexivity.
Qed.

Lemma olist_omap_In {A} (C : A -> clause) o c : In c (olist (omap C o)) -> exists a, o = Some a /\ c = C a.
Proof. destruct o as [a|]; cbn; [intros [<-|[]]; now exists a|intros []]. Qed.

Lemma clauses_slot_unique q c : In c (clauses q) -> clause_at q (slot_of c) = Some c.
Proof.
  destruct q as [cls hi ex ct se fr wh gr ha od li|op l r hi ex ct od li]; cbn [clauses]; rewrite !in_app_iff; intros H.
  - repeat (destruct H as [H|H]; [first [apply olist_omap_In in H; destruct H as (a & -> & ->); reflexivity
      | destruct H as [<-|[]]; reflexivity]|]).
    apply olist_omap_In in H; destruct H as (a & -> & ->); reflexivity.
  - repeat (destruct H as [H|H]; [first [apply olist_omap_In in H; destruct H as (a & -> & ->); reflexivity
      | destruct H as [<-|[]]; destruct op; reflexivity]|]).
    apply olist_omap_In in H; destruct H as (a & -> & ->); reflexivity.
Qed.

Lemma clause_at_In q s c : clause_at q s = Some c -> In c (clauses q) /\ slot_of c = s.
Proof.
  intros H. rewrite <- last_at_clauses in H. apply last_at_slot in H. tauto.
Qed.

(* ---- build ---- *)

Definition is_setc (c : clause) : bool := deqb (slot_of c) SSetop.

(* the set operation that wins *)
Definition lastu (cs : list clause) : option (query * query * bool) :=
  fold_left (fun o c => match c with CUnion l r a => Some (l, r, a) | _ => o end) cs None.
Definition laste (cs : list clause) : option (query * query) :=
  fold_left (fun o c => match c with CExcept l r => Some (l, r) | _ => o end) cs None.
Definition lasti (cs : list clause) : option (query * query) :=
  fold_left (fun o c => match c with CIntersect l r => Some (l, r) | _ => o end) cs None.

Definition flags (f : option from) : bool * bool :=
  match f with
  | None => (true, true)
  | Some f => match f_kind f with FImplicit => (true, false) | FExplicit => (false, true) | FPlain => (false, false) end
  end.

Definition acc_at (a : acc) (s : slot) : option clause :=
  match s with
  | SHint => omap CHint (a_hint a) | SExplain => omap CExplain (a_explain a) | SCte => omap CCte (a_cte a)
  | SSelect => omap CSelect (a_select a) | SFrom => omap CFrom (a_from a) | SWhere => omap CWhere (a_where a)
  | SGroup => omap CGroup (a_group a) | SHaving => omap CHaving (a_having a) | SOrder => omap COrder (a_order a)
  | SLimit => omap CLimit (a_limit a) | SSetop => None
  end.

Lemma fold_acc cs :
  let a := fold_left bstep (map Some cs) acc0 in
  (forall s, s <> SSetop -> acc_at a s = last_at cs s)
  /\ a_set a = existsb is_setc cs
  /\ (a_implicit a, a_explicit a) = flags (a_from a)
  /\ a_union a = lastu cs /\ a_except a = laste cs /\ a_intersect a = lasti cs.
Proof.
  cbn zeta. induction cs as [|c cs IH] using rev_ind.
  - repeat split. intros [] _; reflexivity.
  - rewrite map_app, fold_left_app. cbn [map fold_left].
    set (a := fold_left bstep (map Some cs) acc0) in *. destruct IH as (H1 & H2 & H3 & H4 & H5 & H6).
    unfold lastu, laste, lasti in *. rewrite !fold_left_app. cbn [fold_left]. rewrite <- H4, <- H5, <- H6.
    rewrite existsb_app, <- H2. clear H2 H4 H5 H6.
    assert (HL : forall s, s <> SSetop -> last_at (cs ++ [c]) s = if deqb (slot_of c) s then Some c else acc_at a s).
    { intros s Hs. rewrite last_at_app. cbn [last_at]. rewrite (H1 s Hs). destruct (deqb (slot_of c) s); reflexivity. }
    clear H1. destruct a as [im xp st ct se fr wh gr ha od li un exc int ex hi].
    assert (HS : forall a', (forall s, s <> SSetop -> acc_at a' s = if deqb (slot_of c) s then Some c else acc_at (mkAcc im xp st ct se fr wh gr ha od li un exc int ex hi) s) ->
       forall s, s <> SSetop -> acc_at a' s = last_at (cs ++ [c]) s).
    { intros a' H s Hs. rewrite HL, H by exact Hs. reflexivity. }
    clear HL.
    destruct c; cbn [bstep existsb is_setc slot_of a_set a_implicit a_explicit a_from a_union a_except a_intersect orb] in *;
      try (split; [apply HS; intros [] Hs; try reflexivity; congruence|]);
      try (rewrite orb_false_r); try rewrite orb_true_r; try (repeat split; exact H3).
    destruct f as [[] fc]; cbn [f_kind] in *; (split; [apply HS; intros [] Hs; try reflexivity; congruence|]); repeat split; destruct st; reflexivity.
Qed.

Lemma existsb_last cs : existsb is_setc cs = false <-> last_at cs SSetop = None.
Proof.
  rewrite last_at_None. split.
  - intros H c Hc. assert (E : is_setc c = false).
    { destruct (is_setc c) eqn:E; [|reflexivity]. exfalso. assert (existsb is_setc cs = true); [|congruence].
      apply existsb_exists. now exists c. }
    unfold is_setc in E. now apply deqb_false in E.
  - intros H. apply not_true_iff_false. intros E. apply existsb_exists in E. destruct E as (c & Hc & E).
    apply deqb_true in E. exact (H c Hc E).
Qed.

Lemma omap_some {A B} (f : A -> B) o x : omap f o = Some x -> exists a, o = Some a /\ x = f a.
Proof. destruct o as [a|]; [|discriminate]. intros H. injection H as <-. now exists a. Qed.

(* select queries *)
Lemma build_select cs c :
  last_at cs SSetop = None -> last_at cs SSelect = Some c ->
  exists q, build cs = Ok q /\ fits q /\ is_set q = false /\ forall s, clause_at q s = last_at cs s.
Proof.
  intros Hs Hc. unfold build, build_query. destruct (fold_acc cs) as (H1 & H2 & H3 & H4 & H5 & H6).
  destruct (fold_left bstep (map Some cs) acc0) as [im xp st ct se fr wh gr ha od li un exc int ex hi].
  cbn [a_set a_implicit a_explicit a_from a_union a_except a_intersect] in *.
  rewrite (proj2 (existsb_last cs) Hs) in H2. subst st.
  assert (HS := H1 SSelect ltac:(discriminate)). cbn [acc_at a_select] in HS. rewrite Hc in HS.
  apply omap_some in HS. destruct HS as (s0 & -> & ->). cbn [bfinish].
  assert (HQ : forall cls, (forall s, clause_at (QSql cls hi ex ct s0 fr wh gr ha od li) s = last_at cs s)).
  { intros cls s. destruct (eqd s SSetop) as [->|Hne]; [now rewrite Hs|]. rewrite <- (H1 s Hne). destruct s; try reflexivity. }
  destruct fr as [[[] fc]|]; cbn in H3; injection H3 as -> ->.
  - exists (QSql QImplicit hi ex ct s0 (Some (mkFrom FImplicit fc)) wh gr ha od li). repeat split. apply HQ.
  - exists (QSql QExplicit hi ex ct s0 (Some (mkFrom FExplicit fc)) wh gr ha od li). repeat split. apply HQ.
  - exists (QSql QMixed hi ex ct s0 (Some (mkFrom FPlain fc)) wh gr ha od li). repeat split. apply HQ.
  - exists (QSql QImplicit hi ex ct s0 None wh gr ha od li). repeat split. apply HQ.
Qed.

Lemma build_nothing cs : last_at cs SSetop = None -> last_at cs SSelect = None -> build cs = Raise ValueError.
Proof.
  intros Hs Hc. unfold build, build_query. destruct (fold_acc cs) as (H1 & H2 & H3 & H4 & H5 & H6).
  destruct (fold_left bstep (map Some cs) acc0) as [im xp st ct se fr wh gr ha od li un exc int ex hi].
  cbn [a_set] in H2. rewrite (proj2 (existsb_last cs) Hs) in H2. subst st.
  assert (HS := H1 SSelect ltac:(discriminate)). cbn [acc_at a_select] in HS. rewrite Hc in HS.
  destruct se; [discriminate|]. reflexivity.
Qed.

Lemma strip_no_explain q : clause_at (strip_explain q) SExplain = None.
Proof.
  destruct q as [cls hi [ex|] ct se fr wh gr ha od li|op l r hi [ex|] ct od li]; reflexivity.
Qed.
Lemma strip_id q : clause_at q SExplain = None -> strip_explain q = q.
Proof.
  destruct q as [cls hi [ex|] ct se fr wh gr ha od li|op l r hi [ex|] ct od li]; cbn; try discriminate; reflexivity.
Qed.

Definition norm (c : clause) : clause :=
  match c with
  | CUnion l r a => CUnion (strip_explain l) (strip_explain r) a
  | CExcept l r => CExcept (strip_explain l) (strip_explain r)
  | CIntersect l r => CIntersect (strip_explain l) (strip_explain r)
  | _ => c
  end.

(* which set operation is built *)
Definition winner (cs : list clause) : option clause :=
  match lastu cs, laste cs, lasti cs with
  | Some (l, r, a), _, _ => Some (CUnion l r a)
  | None, Some (l, r), _ => Some (CExcept l r)
  | None, None, Some (l, r) => Some (CIntersect l r)
  | None, None, None => None
  end.

Lemma winner_some cs : existsb is_setc cs = true -> exists c, winner cs = Some c.
Proof.
  induction cs as [|c cs IH] using rev_ind; [discriminate|]. rewrite existsb_app. intros H.
  unfold winner, lastu, laste, lasti in *. rewrite !fold_left_app. cbn [fold_left].
  set (U := fold_left (fun o c => match c with CUnion l r a => Some (l, r, a) | _ => o end) cs None) in *.
  set (E := fold_left (fun o c => match c with CExcept l r => Some (l, r) | _ => o end) cs None) in *.
  set (X := fold_left (fun o c => match c with CIntersect l r => Some (l, r) | _ => o end) cs None) in *.
  clearbody U E X.
  destruct (existsb is_setc cs) eqn:Ex; cbn [orb existsb] in H.
  - destruct (IH eq_refl) as (w & Hw). destruct c; destruct U as [[[]]|], E as [[]|], X as [[]|]; first [eexists; reflexivity|discriminate].
  - rewrite orb_false_r in H. destruct c; try discriminate; destruct U as [[[]]|], E as [[]|], X as [[]|]; eexists; reflexivity.
Qed.

Lemma build_set cs w :
  last_at cs SSetop <> None -> winner cs = Some w ->
  (forall s, select_only s = true -> last_at cs s = None) ->
  exists q, build cs = Ok q /\ fits q /\ is_set q = true /\ clause_at q SSetop = Some (norm w)
   /\ forall s, s <> SSetop -> clause_at q s = last_at cs s.
Proof.
  intros Hs Hw Ho. unfold build, build_query. destruct (fold_acc cs) as (H1 & H2 & H3 & H4 & H5 & H6).
  destruct (fold_left bstep (map Some cs) acc0) as [im xp st ct se fr wh gr ha od li un exc int ex hi].
  cbn [a_set a_implicit a_explicit a_from a_union a_except a_intersect] in *.
  assert (E : existsb is_setc cs = true).
  { destruct (existsb is_setc cs) eqn:E; [reflexivity|]. exfalso. apply Hs. now apply existsb_last. }
  rewrite E in H2. subst st. unfold winner in Hw. rewrite <- H4, <- H5, <- H6 in Hw.
  assert (Ose := H1 SSelect ltac:(discriminate)). assert (Ofr := H1 SFrom ltac:(discriminate)).
  assert (Owh := H1 SWhere ltac:(discriminate)). assert (Ogr := H1 SGroup ltac:(discriminate)).
  assert (Oha := H1 SHaving ltac:(discriminate)).
  rewrite Ho in Ose, Ofr, Owh, Ogr, Oha by reflexivity. cbn [acc_at a_select a_from a_where a_group a_having] in *.
  destruct se, fr, wh, gr, ha; try discriminate. cbn [bfinish].
  assert (HQ : forall op l r, (forall s, s <> SSetop -> clause_at (set_query op l r hi ex ct od li) s = last_at cs s)).
  { intros op l r s Hne. rewrite <- (H1 s Hne). destruct s; try reflexivity. congruence. }
  assert (HF : forall op l r, fits (set_query op l r hi ex ct od li)).
  { intros op l r. cbn [fits set_query]. split; apply strip_no_explain. }
  destruct un as [[[l r] a]|]; [|destruct exc as [[l r]|]; [|destruct int as [[l r]|]]]; try discriminate; injection Hw as <-; cbn [rbind].
  - eexists. split; [reflexivity|]. split; [apply HF|]. split; [reflexivity|]. split; [destruct a; reflexivity|apply HQ].
  - eexists. split; [reflexivity|]. split; [apply HF|]. split; [reflexivity|]. split; [reflexivity|apply HQ].
  - eexists. split; [reflexivity|]. split; [apply HF|]. split; [reflexivity|]. split; [reflexivity|apply HQ].
Qed.

Lemma build_misplaced cs s :
  last_at cs SSetop <> None -> select_only s = true -> last_at cs s <> None -> build cs = Raise ValueError.
Proof.
  intros Hs Ho Hne. unfold build, build_query. destruct (fold_acc cs) as (H1 & H2 & H3 & H4 & H5 & H6).
  assert (E : existsb is_setc cs = true).
  { destruct (existsb is_setc cs) eqn:E; [reflexivity|]. exfalso. apply Hs. now apply existsb_last. }
  rewrite E in H2. destruct (winner_some cs E) as (w & Hw). unfold winner in Hw.
  destruct (fold_left bstep (map Some cs) acc0) as [im xp st ct se fr wh gr ha od li un exc int ex hi].
  cbn [a_set a_implicit a_explicit a_from a_union a_except a_intersect] in *. subst st.
  rewrite <- H4, <- H5, <- H6 in Hw. rewrite <- (H1 s) in Hne by (destruct s; discriminate).
  cbn [bfinish].
  destruct un as [[[l r] a]|]; [|destruct exc as [[l r]|]; [|destruct int as [[l r]|]]]; try discriminate; cbn [rbind];
  destruct s; try discriminate; cbn in Hne; destruct se, fr, wh, gr, ha; try reflexivity; cbn in Hne; congruence.
Qed.

(* with a single set operation in the list *)
Lemma winner_single cs c : (forall c', In c' cs -> is_setc c' = true -> c' = c) -> In c cs -> is_setc c = true -> winner cs = Some c.
Proof.
  intros Hu Hin Hc.
  assert (E : existsb is_setc cs = true) by (apply existsb_exists; now exists c).
  destruct (winner_some cs E) as (w & Hw). rewrite Hw. f_equal.
  assert (HW : In w cs /\ is_setc w = true).
  { revert w Hw. clear. induction cs as [|x cs IH] using rev_ind; intros w Hw; [discriminate|].
    unfold winner, lastu, laste, lasti in *. rewrite !fold_left_app in Hw. cbn [fold_left] in Hw.
    set (U := fold_left (fun o c => match c with CUnion l r a => Some (l, r, a) | _ => o end) cs None) in *.
  set (E := fold_left (fun o c => match c with CExcept l r => Some (l, r) | _ => o end) cs None) in *.
  set (X := fold_left (fun o c => match c with CIntersect l r => Some (l, r) | _ => o end) cs None) in *.
  clearbody U E X.
    assert (IH' : forall w, match U, E, X with
       | Some (l, r, a), _, _ => Some (CUnion l r a) | None, Some (l, r), _ => Some (CExcept l r)
       | None, None, Some (l, r) => Some (CIntersect l r) | None, None, None => None end = Some w -> In w (cs ++ [x]) /\ is_setc w = true).
    { intros w' H. apply IH in H. destruct H. split; [apply in_or_app; now left|assumption]. }
    assert (HX : In x (cs ++ [x])) by (apply in_or_app; right; now left).
    destruct x; try (apply IH'; exact Hw).
    - destruct U as [[[]]|], E as [[]|], X as [[]|]; injection Hw as <-; split; try exact HX; reflexivity.
    - destruct U as [[[]]|], E as [[]|], X as [[]|]; try (apply IH'; exact Hw); injection Hw as <-; split; try exact HX; reflexivity.
    - destruct U as [[[]]|], E as [[]|], X as [[]|]; try (apply IH'; exact Hw); injection Hw as <-; split; try exact HX; reflexivity. }
  apply Hu; tauto.
Qed.

(* a query is determined by its slots *)
Lemma query_slots q q' : fits q -> fits q' -> (forall s, clause_at q s = clause_at q' s) -> q = q'.
Proof.
  intros Hf Hf' H.
  assert (Hhi := H SHint). assert (Hex := H SExplain). assert (Hct := H SCte). assert (Hse := H SSelect).
  assert (Hfr := H SFrom). assert (Hwh := H SWhere). assert (Hgr := H SGroup). assert (Hha := H SHaving).
  assert (Hod := H SOrder). assert (Hli := H SLimit). assert (Hso := H SSetop). clear H.
  assert (OM : forall A (f : A -> clause) x y, (forall a b, f a = f b -> a = b) -> omap f x = omap f y -> x = y).
  { intros A f [x|] [y|] Hi HH; cbn in HH; try discriminate; [|reflexivity]. f_equal. apply Hi. congruence. }
  destruct q as [cls hi ex ct se fr wh gr ha od li|op l r hi ex ct od li], q' as [cls' hi' ex' ct' se' fr' wh' gr' ha' od' li'|op' l' r' hi' ex' ct' od' li'];
    cbn [clause_at] in *; try discriminate.
  - apply OM in Hhi; [|congruence]. apply OM in Hex; [|congruence]. apply OM in Hct; [|congruence]. apply OM in Hfr; [|congruence].
    apply OM in Hwh; [|congruence]. apply OM in Hgr; [|congruence]. apply OM in Hha; [|congruence]. apply OM in Hod; [|congruence].
    apply OM in Hli; [|congruence]. subst. cbn [fits] in *. congruence.
  - apply OM in Hhi; [|congruence]. apply OM in Hex; [|congruence]. apply OM in Hct; [|congruence]. apply OM in Hod; [|congruence].
    apply OM in Hli; [|congruence]. subst.
    destruct op, op'; cbn in Hso; try discriminate; congruence.
Qed.

(* strip_explain is what SetQuery.__init__ does *)
Lemma fits_norm q c : fits q -> clause_at q SSetop = Some c -> norm c = c.
Proof.
  destruct q as [|op l r hi ex ct od li]; [discriminate|]. cbn [fits clause_at]. intros [Hl Hr] H. injection H as <-.
  destruct op; cbn [set_clause norm]; now rewrite !strip_id.
Qed.

Lemma type_slot c c' : type_of c = type_of c' -> slot_of c = slot_of c'.
Proof.
  destruct c as [h|[[] s]|x|x|[[] f]|x|x|x|x|[[] s]|l r a|l r|l r]; destruct c' as [h'|[[] s']|x'|x'|[[] f']|x'|x'|x'|x'|[[] s']|l' r' a'|l' r'|l' r'];
    cbn; intros H; try discriminate; reflexivity.
Qed.

Lemma isinstance_slot r c : isinstance r (type_of c) = true -> slot_of r = slot_of c.
Proof.
  destruct r as [h|[[] s]|x|x|[[] f]|x|x|x|x|[[] s]|l r a|l r|l r]; destruct c as [h'|[[] s']|x'|x'|[[] f']|x'|x'|x'|x'|[[] s']|l' r' a'|l' r'|l' r'];
    vm_compute; intros H; try discriminate; reflexivity.
Qed.

Lemma last_at_filter_clauses f q s :
  last_at (filter f (clauses q)) s
  = match clause_at q s with Some c => if f c then Some c else None | None => None end.
Proof.
  destruct (clause_at q s) as [c|] eqn:E.
  - destruct (f c) eqn:F.
    + rewrite last_at_filter, last_at_clauses; [exact E|]. intros x Hx Hs.
      apply clauses_slot_unique in Hx. rewrite Hs in Hx. congruence.
    + apply last_at_None. intros x Hx Hs. apply filter_In in Hx. destruct Hx as [Hx Hfx].
      apply clauses_slot_unique in Hx. rewrite Hs in Hx. congruence.
  - apply last_at_None. intros x Hx Hs. apply filter_In in Hx. destruct Hx as [Hx Hfx].
    apply clauses_slot_unique in Hx. rewrite Hs in Hx. congruence.
Qed.

(* Building from a list with the slots [t], one set operation at most. *)
Lemma build_slots cs (t : slot -> option clause) :
  (forall s, last_at cs s = t s) ->
  (forall c c', In c cs -> In c' cs -> is_setc c = true -> is_setc c' = true -> c = c') ->
  (t SSetop = None /\ t SSelect <> None \/ t SSetop <> None /\ forall s, select_only s = true -> t s = None) ->
  exists q, build cs = Ok q /\ fits q /\ forall s, clause_at q s = omap norm (t s).
Proof.
  intros Ht Hu H.
  assert (HN : forall s, s <> SSetop -> omap norm (t s) = t s).
  { intros s Hs. rewrite <- Ht. destruct (last_at cs s) as [c|] eqn:E; [|reflexivity].
    apply last_at_slot in E. destruct E as [E _]. destruct c; try reflexivity; cbn in E; congruence. }
  destruct H as [[Hs Hse]|[Hs Ho]].
  - destruct (t SSelect) as [c|] eqn:E; [|congruence]. rewrite <- Ht in E, Hs.
    destruct (build_select cs c Hs E) as (q & H1 & H2 & _ & H3). exists q. split; [exact H1|]. split; [exact H2|].
    intros s. rewrite H3. destruct (eqd s SSetop) as [->|Hne].
    + rewrite <- Ht, Hs. reflexivity.
    + rewrite HN by exact Hne. apply Ht.
  - destruct (t SSetop) as [c|] eqn:E; [|congruence]. rewrite <- Ht in E.
    assert (E' := E). apply last_at_slot in E'. destruct E' as [Ec Ein].
    assert (HW : winner cs = Some c).
    { apply winner_single; [|exact Ein|unfold is_setc; now rewrite Ec]. intros c' Hc' Hs'. apply Hu; try assumption. unfold is_setc; now rewrite Ec. }
    destruct (build_set cs c) as (q & H1 & H2 & _ & H3 & H4).
    + congruence.
    + exact HW.
    + intros s Hse. rewrite Ht. now apply Ho.
    + exists q. split; [exact H1|]. split; [exact H2|]. intros s. destruct (eqd s SSetop) as [->|Hne].
      * rewrite H3, <- Ht, E. reflexivity.
      * rewrite H4, HN by exact Hne. apply Ht.
Qed.

Lemma set_unique q c c' : In c (clauses q) -> In c' (clauses q) -> is_setc c = true -> is_setc c' = true -> c = c'.
Proof.
  intros H H' Hs Hs'. apply deqb_true in Hs, Hs'. apply clauses_slot_unique in H, H'. congruence.
Qed.

Lemma slots_kind q :
  clause_at q SSetop = None /\ clause_at q SSelect <> None
  \/ clause_at q SSetop <> None /\ forall s, select_only s = true -> clause_at q s = None.
Proof.
  destruct q as [cls hi ex ct se fr wh gr ha od li|op l r hi ex ct od li].
  - left. split; [reflexivity|discriminate].
  - right. split; [discriminate|]. intros [] H; try discriminate; reflexivity.
Qed.

Lemma fits_norm_at q s : fits q -> omap norm (clause_at q s) = clause_at q s.
Proof.
  intros Hf. destruct (clause_at q s) as [c|] eqn:E; [|reflexivity]. cbn. f_equal.
  destruct (eqd s SSetop) as [->|Hne]; [now apply (fits_norm q)|].
  apply clause_at_In in E. destruct E as [_ E]. destruct c; try reflexivity; cbn in E; congruence.
Qed.

Lemma build_fits cs q : build cs = Ok q -> fits q.
Proof.
  intros H. destruct (last_at cs SSetop) as [c|] eqn:E.
  - assert (Ex : existsb is_setc cs = true).
    { destruct (existsb is_setc cs) eqn:Ex; [reflexivity|]. apply existsb_last in Ex. congruence. }
    destruct (winner_some cs Ex) as (w & Hw).
    assert (Hc : (forall s, select_only s = true -> last_at cs s = None) \/ exists s, select_only s = true /\ last_at cs s <> None).
    { destruct (last_at cs SSelect) eqn:E1; [right; exists SSelect; split; [reflexivity|congruence]|].
      destruct (last_at cs SFrom) eqn:E2; [right; exists SFrom; split; [reflexivity|congruence]|].
      destruct (last_at cs SWhere) eqn:E3; [right; exists SWhere; split; [reflexivity|congruence]|].
      destruct (last_at cs SGroup) eqn:E4; [right; exists SGroup; split; [reflexivity|congruence]|].
      destruct (last_at cs SHaving) eqn:E5; [right; exists SHaving; split; [reflexivity|congruence]|].
      left. intros [] Hs; try discriminate; assumption. }
    destruct Hc as [Hc|(s & Hs & Hn)].
    + destruct (build_set cs w) as (q' & H1 & H2 & _); [congruence|assumption|assumption|]. congruence.
    + rewrite (build_misplaced cs s) in H; [discriminate|congruence|assumption|assumption].
  - destruct (last_at cs SSelect) as [c|] eqn:E2.
    + destruct (build_select cs c E E2) as (q' & H1 & H2 & _). congruence.
    + rewrite build_nothing in H by assumption. discriminate.
Qed.

(* The function [strip_explain] of the model is the reconstruction done in
   SetQuery.__init__, _qal.py 9453-9464. *)
Lemma strip_explain_correct q :
  is_explain q = true ->
  build (filter (fun c => negb (isinstance c TExplain)) (clauses q)) = Ok (strip_explain q).
Proof.
  intros He.
  destruct (build_slots (filter (fun c => negb (isinstance c TExplain)) (clauses q))
              (fun s => match clause_at q s with Some c => if negb (isinstance c TExplain) then Some c else None | None => None end))
    as (q' & H1 & H2 & H3).
  - intros s. apply last_at_filter_clauses.
  - intros c c' Hc Hc'. apply filter_In in Hc, Hc'. apply (set_unique q); tauto.
  - destruct q as [cls hi ex ct se fr wh gr ha od li|op l r hi ex ct od li].
    + left. split; [reflexivity|]. discriminate.
    + right. split; [destruct op; discriminate|]. intros [] H; try discriminate; reflexivity.
  - rewrite H1. f_equal. apply query_slots; [exact H2| |].
    + destruct q as [cls hi [ex|] ct se fr wh gr ha od li|op l r hi [ex|] ct od li]; try discriminate; cbn [strip_explain is_explain fits].
      * destruct fr as [[[] fc]|]; reflexivity.
      * split; apply strip_no_explain.
    + intros s. rewrite H3.
      destruct q as [cls hi [ex|] ct se fr wh gr ha od li|op l r hi [ex|] ct od li]; try discriminate; cbn [strip_explain is_explain].
      * destruct s; cbn [clause_at]; try (repeat match goal with x : option _ |- context [omap _ ?y] => constr_eq x y; destruct x end; reflexivity).
        -- destruct ex as [[] x]; reflexivity.
        -- destruct fr as [[[] fc]|]; reflexivity.
        -- destruct li as [[[] x]|]; reflexivity.
      * destruct s; cbn [clause_at]; try (repeat match goal with x : option _ |- context [omap _ ?y] => constr_eq x y; destruct x end; reflexivity).
        -- destruct ex as [[] x]; reflexivity.
        -- destruct li as [[[] x]|]; reflexivity.
        -- destruct op; reflexivity.
Qed.

(* ---- replacing ---- *)

Lemma pick_spec c reps :
  match pick c reps with
  | Some (r, reps') => find (fun r => isinstance r (type_of c)) reps = Some r
       /\ exists a b, reps = a ++ r :: b /\ reps' = a ++ b
  | None => find (fun r => isinstance r (type_of c)) reps = None
  end.
Proof.
  induction reps as [|r reps IH]; cbn [pick find]; [reflexivity|].
  destruct (isinstance r (type_of c)).
  - split; [reflexivity|]. exists [], reps. split; reflexivity.
  - destruct (pick c reps) as [[x reps']|].
    + destruct IH as [H1 (a & b & -> & ->)]. split; [exact H1|]. exists (r :: a), b. split; reflexivity.
    + exact IH.
Qed.

Definition repl (reps : list clause) (c : clause) : clause :=
  match find (fun r => isinstance r (type_of c)) reps with Some r => r | None => c end.

Lemma repl_slot reps c : slot_of (repl reps c) = slot_of c.
Proof.
  unfold repl. destruct (find _ reps) as [r|] eqn:E; [|reflexivity]. apply find_some in E. now apply isinstance_slot.
Qed.

Lemma find_skip f a r b : f r = false -> find f (a ++ r :: b) = find f (a ++ b) :> option clause.
Proof.
  intros H. induction a as [|x a IH]; cbn [app find]; [now rewrite H|]. destruct (f x); [reflexivity|exact IH].
Qed.

Lemma replace_loop_map cs reps :
  NoDup (map slot_of cs) -> replace_loop cs reps = map (repl reps) cs.
Proof.
  revert reps. induction cs as [|c cs IH]; intros reps H; [reflexivity|]. cbn [map] in *.
  inversion H as [|? ? Hn Hd]; subst. cbn [replace_loop].
  assert (P := pick_spec c reps). unfold repl at 1. destruct (pick c reps) as [[r reps']|].
  - destruct P as [P1 (a & b & -> & ->)]. rewrite P1. f_equal. rewrite IH by exact Hd.
    apply map_ext_in. intros x Hx. unfold repl. rewrite find_skip; [reflexivity|].
    apply not_true_iff_false. intros Hi. apply isinstance_slot in Hi. apply find_some in P1. destruct P1 as [_ P1].
    apply isinstance_slot in P1. apply Hn. rewrite <- P1, Hi. now apply in_map.
  - rewrite P. f_equal. now apply IH.
Qed.

Lemma clauses_slots_NoDup q : NoDup (map slot_of (clauses q)).
Proof.
  assert (HN : forall l : list clause, NoDup l -> (forall c c', In c l -> In c' l -> slot_of c = slot_of c' -> c = c') -> NoDup (map slot_of l)).
  { induction l as [|c l IH]; intros Hn Hi; [constructor|]. cbn. inversion Hn as [|? ? H1 H2]; subst. constructor.
    - intros Hin. apply in_map_iff in Hin. destruct Hin as (c' & Hs & Hc').
      assert (c' = c) by (apply Hi; [now right|now left|exact Hs]). subst. contradiction.
    - apply IH; [exact H2|]. intros x y Hx Hy. apply Hi; now right. }
  apply HN.
  - destruct q as [cls hi ex ct se fr wh gr ha od li|op l r hi ex ct od li]; cbn [clauses].
    + assert (HA : forall (x : option clause) (l : list clause), NoDup l -> (forall c, x = Some c -> last_at l (slot_of c) = None) -> NoDup (olist x ++ l)).
      { intros [c|] l Hl H; [|exact Hl]. constructor; [|exact Hl]. intros Hin.
        exact (proj1 (last_at_None l (slot_of c)) (H c eq_refl) c Hin eq_refl). }
      change [CSelect se] with (olist (Some (CSelect se))).
      rewrite <- (app_nil_r (olist (omap CLimit li))).
      repeat (apply HA; [|intros c Hc; (apply omap_some in Hc; destruct Hc as (v & _ & ->)) || (injection Hc as <-);
        repeat match goal with x : option _ |- _ => destruct x end; reflexivity]). constructor.
    + assert (HA : forall (x : option clause) (l : list clause), NoDup l -> (forall c, x = Some c -> last_at l (slot_of c) = None) -> NoDup (olist x ++ l)).
      { intros [c|] l0 Hl H; [|exact Hl]. constructor; [|exact Hl]. intros Hin.
        exact (proj1 (last_at_None l0 (slot_of c)) (H c eq_refl) c Hin eq_refl). }
      change [set_clause op l r] with (olist (Some (set_clause op l r))).
      rewrite <- (app_nil_r (olist (omap CLimit li))).
      repeat (apply HA; [|intros c Hc; (apply omap_some in Hc; destruct Hc as (v & _ & ->)) || (injection Hc as <-);
        repeat match goal with x : option _ |- _ => destruct x end; destruct op; reflexivity]). constructor.
  - intros c c' Hc Hc' Hs. apply clauses_slot_unique in Hc, Hc'. congruence.
Qed.

Lemma last_at_map_repl reps cs s :
  last_at (map (repl reps) cs) s = omap (repl reps) (last_at cs s).
Proof.
  induction cs as [|c cs IH]; [reflexivity|]. cbn [map last_at]. rewrite IH, repl_slot.
  destruct (last_at cs s); [reflexivity|]. cbn [omap]. destruct (deqb (slot_of c) s); reflexivity.
Qed.

(* ---- equality ---- *)
Lemma oeq_refl {A} (eq : A -> A -> bool) o : (forall a, eq a a = true) -> oeq eq o o = true.
Proof. intros H. destruct o as [a|]; cbn; auto. Qed.
Lemma sub_eq_refl a : sub_eq a a = true.
Proof. unfold sub_eq. rewrite Bool.eqb_reflx, deqb_refl. reflexivity. Qed.
Lemma from_eq_refl a : from_eq a a = true.
Proof. unfold from_eq. now rewrite !deqb_refl. Qed.
Lemma hint_eq_refl a : hint_eq a a = true.
Proof. unfold hint_eq. now rewrite !deqb_refl. Qed.

Lemma query_eq_refl q : query_eq q q = true.
Proof.
  induction q as [cls hi ex ct se fr wh gr ha od li|op l IHl r IHr hi ex ct od li]; cbn [query_eq].
  - rewrite !oeq_refl by (intros; first [apply hint_eq_refl|apply from_eq_refl|apply sub_eq_refl|apply deqb_refl]).
    rewrite deqb_refl. destruct cls; reflexivity.
  - rewrite IHl, IHr, !oeq_refl by (intros; first [apply hint_eq_refl|apply sub_eq_refl|apply deqb_refl]).
    rewrite deqb_refl. reflexivity.
Qed.

Lemma oeq_true {A} (eq : A -> A -> bool) o p : (forall a b, eq a b = true -> a = b) -> oeq eq o p = true -> o = p.
Proof. intros H. destruct o as [a|], p as [b|]; cbn; try discriminate; [|reflexivity]. intros E. f_equal. now apply H. Qed.
Lemma sub_eq_true a b : sub_eq a b = true -> a = b.
Proof.
  unfold sub_eq. intros H. apply andb_true_iff in H. destruct H as [H1 H2]. apply Bool.eqb_prop in H1. apply deqb_true in H2.
  destruct a, b; cbn in *; congruence.
Qed.
Lemma from_eq_true a b : from_eq a b = true -> a = b.
Proof.
  unfold from_eq. intros H. apply andb_true_iff in H. destruct H as [H1 H2]. apply deqb_true in H1, H2.
  destruct a, b; cbn in *; congruence.
Qed.
Lemma hint_eq_true a b : hint_eq a b = true -> a = b.
Proof.
  unfold hint_eq. intros H. apply andb_true_iff in H. destruct H as [H1 H2]. apply deqb_true in H1, H2.
  destruct a, b; cbn in *; congruence.
Qed.

Lemma query_eq_true a b : query_eq a b = true -> a = b.
Proof.
  revert b. induction a as [cls hi ex ct se fr wh gr ha od li|op l IHl r IHr hi ex ct od li];
    intros [cls' hi' ex' ct' se' fr' wh' gr' ha' od' li'|op' l' r' hi' ex' ct' od' li'] H; cbn [query_eq] in H; try discriminate;
    repeat (apply andb_true_iff in H; destruct H as [H ?]).
  - apply deqb_true in H.
    repeat match goal with E : oeq _ _ _ = true |- _ =>
      apply oeq_true in E; [|intros; first [apply hint_eq_true; assumption|apply from_eq_true; assumption
                                            |apply sub_eq_true; assumption|apply deqb_true; assumption]] end.
    repeat match goal with E : deqb _ _ = true |- _ => apply deqb_true in E end. congruence.
  - apply IHl in H.
    repeat match goal with E : oeq _ _ _ = true |- _ =>
      apply oeq_true in E; [|intros; first [apply hint_eq_true; assumption|apply from_eq_true; assumption
                                            |apply sub_eq_true; assumption|apply deqb_true; assumption]] end.
    repeat match goal with E : deqb _ _ = true |- _ => apply deqb_true in E end.
    match goal with E : query_eq _ _ = true |- _ => apply IHr in E end. congruence.
Qed.
