(** Property theorems for C05, C06, C07, C13, C59 and C60 (expressions, equality, views, renaming). *)
From Coq Require Import List Bool Arith ZArith String Lia.
From Verif Require Import PyBase Pred_model Pred_spec Pred_proofs QPred3_proofs MPrint_model Ident_model Trans_model Trans_proofs
  Expr_model Expr_spec Expr_proofs Eq_model Eq_proofs.
Import ListNotations.

(** Show a property of all parts by looking at every part. *)
Ltac allparts := constructor; [reflexivity|let x := fresh in let H := fresh in intros x H; cbn in H; repeat (destruct H as [<-|H]; [allparts|]); try destruct H].

Definition cRa := mkcol (Some 0) 0. Definition cRb := mkcol (Some 0) 1. Definition cSc := mkcol (Some 1) 2. Definition cTd := mkcol (Some 2) 3.
Definition lit (z : Z) := XStatic (VInt z).

(** ** C05 *)
(** Nothing is reported that does not occur: for all expressions. *)
Theorem C05_reported_occurs : forall e,
  (forall c, In c (x_columns e) -> occ c e) /\ (forall c, In c (x_itercolumns e) -> occ c e) /\ (forall t, In t (x_tables e) -> occt t e).
Proof.
  intros e. repeat split; intros x H.
  - apply occ_occX. eapply walk_sound. left. exact H.
  - apply occ_occX. eapply walk_sound. left. exact H.
  - apply occt_occX. eapply walk_sound. left. exact H.
Qed.
Print Assumptions C05_reported_occurs.
(** C05, what holds: without arithmetic of three or more arguments, without bare columns, stars, subqueries and filtered
    functions as direct parts of CASE, and without these in the window function or its partitioning, columns(),
    itercolumns() and tables() report exactly what occurs.  (itercolumns also sees all arguments of arithmetic.)
    Missing: the excluded shapes, where columns are lost, see below. *)
Theorem C05_complete_partial : forall e,
  (covered false true e -> (forall c, In c (x_columns e) <-> occ c e) /\ (forall t, In t (x_tables e) <-> occt t e)) /\
  (covered true true e -> forall c, In c (x_itercolumns e) <-> occ c e).
Proof.
  intros e. destruct (C05_reported_occurs e) as [H1 [H2 H3]]. split; [intros Hc; split|intros Hc]; intros x; split; auto.
  - intros H. apply occ_occX in H. unfold x_columns. eapply walk_complete; eassumption.
  - intros H. apply occt_occX in H. unfold x_tables. eapply walk_complete; eassumption.
  - intros H. apply occ_occX in H. unfold x_itercolumns. eapply walk_complete; eassumption.
Qed.
Print Assumptions C05_complete_partial.
(** [COUNT(CAST(R.a + 1 AS INT)) FILTER (WHERE S.c IN (R.b, (SELECT ...)) AND NOT T.d = ALL ARRAY[1]), CASE WHEN R.a = S.c THEN 1 ELSE 0 END]. *)
Definition q7 := mksq 7 [3] [mkcol (Some 3) 9].
Definition e5 : sx :=
  XArr [XFun "COUNT" [XCast (XMath MAdd (XCol cRa) [lit 1]) "INT" [] false] false
          (Some (PAnd [PIn (XCol cSc) [XCol cRb; XSub q7]; PNot (PBin OpEq (XCol cTd) (XQuant true (XArr [lit 1])))]));
        XCase [(XP (PBin OpEq (XCol cRa) (XCol cSc)), lit 1)] None (Some (lit 0))].
Example C05_ex : covered false true e5 /\ x_columns e5 = [cRa; cSc; cRb; mkcol (Some 3) 9; cTd; cRa; cSc] /\ x_tables e5 = [0; 1; 0; 3; 2; 0; 1].
Proof. split; [allparts|split; reflexivity]. Qed.

(** C05 is refuted: bare columns in CASE and PARTITION BY are lost by all three methods, and columns() and tables() lose
    all but the first argument of arithmetic over a sequence. *)
Theorem C05_complete_refuted :
  (let e := XCase [(XP (PBin OpEq (XCol cRa) (lit 1)), XCol cSc)] None (Some (XCol cTd)) in
   occ cSc e /\ occ cTd e /\ x_columns e = [cRa] /\ x_itercolumns e = [cRa] /\ x_tables e = [0]) /\
  (let e := XWin (XFun "RANK" [] false None) [XCol cSc] [XCol cRa] None in
   occ cSc e /\ x_columns e = [cRa] /\ x_itercolumns e = [cRa] /\ x_tables e = [0]) /\
  (let e := XMath MAdd (XCol cRa) [XCol cSc; XCol cTd] in
   occ cSc e /\ occt 1 e /\ x_columns e = [cRa] /\ x_tables e = [0] /\ x_itercolumns e = [cRa; cSc; cTd]).
Proof.
  repeat split; try reflexivity.
  - eapply occ_part with (e' := XCol cSc); [cbn; auto|constructor].
  - eapply occ_part with (e' := XCol cTd); [cbn; auto|constructor].
  - eapply occ_part with (e' := XCol cSc); [cbn; auto|constructor].
  - eapply occ_part with (e' := XCol cSc); [cbn; auto|constructor].
  - eapply occt_part with (e' := XCol cSc); [cbn; auto|now constructor].
Qed.
Print Assumptions C05_complete_refuted.

(** ** C59: which predicates are joins *)
(** The tables of the columns of an expression outside of subqueries. *)
Definition mentions (a : sx) (t : tbl) : Prop := exists c, occd c a /\ c_tab c = Some t.
(** A comparison is a join iff its sides mention two different tables between them. *)
Theorem C59_comparison_partial : forall op a b, covered true false a -> covered true false b ->
  (is_join x_direct (PBin op a b) = true <-> exists t u, t <> u /\ (mentions a t \/ mentions b t) /\ (mentions a u \/ mentions b u)).
Proof.
  intros op a b Ha Hb.
  assert (Hcol : forall e, covered true false e -> forall c, In c (x_direct e) <-> occd c e).
  { intros e He c. rewrite occd_occX. split; intros H; [eapply walk_sound; left; exact H|]. unfold x_direct. eapply walk_complete; eassumption. }
  assert (Htab : forall t, In t (ptabs x_direct (PBin op a b)) <-> mentions a t \/ mentions b t).
  { intros t. unfold ptabs. rewrite In_ctabs. cbn [pcols]. unfold mentions. setoid_rewrite <- (Hcol a Ha). setoid_rewrite <- (Hcol b Hb). split.
    - intros (c & Hc & Ht). apply in_app_iff in Hc as [Hc|Hc]; eauto.
    - intros [(c & Hc & Ht)|(c & Hc & Ht)]; exists c; rewrite in_app_iff; auto. }
  split.
  - intros H. apply is_join_two in H as (t & u & Hn & Ht & Hu). exists t, u. rewrite Htab in Ht, Hu. auto.
  - intros (t & u & Hn & Ht & Hu). destruct (is_join x_direct (PBin op a b)) eqn:E; [reflexivity|]. destruct Hn. apply Htab in Ht. apply Htab in Hu. eapply bin_filter_one; eassumption.
Qed.
Print Assumptions C59_comparison_partial.
Example C59_ex : covered true false (XMath MAdd (XCol cRa) [XCol cSc; lit 2]) /\ is_join x_direct (PBin OpLt (XMath MAdd (XCol cRa) [XCol cSc; lit 2]) (lit 1)) = true /\
  is_join x_direct (PBin OpLt (XCol cRa) (XCol cRb)) = false.
Proof. split; [allparts|]. split; reflexivity. Qed.

(** BETWEEN and IN are joins iff one of the comparisons they abbreviate is; compound predicates iff one of their children is. *)
Lemma many_app_tabs (x y : list tbl) : NoDup x -> NoDup y ->
  (many x || many (dedup (x ++ y))) = if many x then true else if many y then true else nonempty x && nonempty y && negb (seteqb x y).
Proof.
  intros Hx Hy. destruct (many x) eqn:Ex; [reflexivity|]. cbn [orb]. destruct (many y) eqn:Ey.
  - unfold many in *. destruct y as [|t [|u y]]; try discriminate.
    assert (Ht : In t (dedup (x ++ t :: u :: y))) by (rewrite dedup_In, in_app_iff; cbn; auto). assert (Hu : In u (dedup (x ++ t :: u :: y))) by (rewrite dedup_In, in_app_iff; cbn; auto).
    destruct (dedup (x ++ t :: u :: y)) as [|v [|w l]]; [destruct Ht| |reflexivity]. exfalso. inversion Hy as [|? ? Hn _]; subst. apply Hn.
    destruct Ht as [->|[]], Hu as [->|[]]. now left.
  - unfold many in *. destruct x as [|t [|? ?]]; try discriminate; destruct y as [|u [|? ?]]; try discriminate; try reflexivity.
    + cbn [app nonempty andb]. destruct (deqb t u) eqn:E.
      * apply deqb_true in E. subst. assert (H : seteqb [u] [u] = true) by (apply seteqb_seteq; intros x; reflexivity). rewrite H.
        assert (Hnd : NoDup (dedup [u; u])) by apply dedup_NoDup. assert (Hin : forall v, In v (dedup [u; u]) -> v = u) by (intros v; rewrite dedup_In; cbn; intuition congruence).
        destruct (dedup [u; u]) as [|v [|w l]]; [reflexivity|reflexivity|]. exfalso. inversion Hnd as [|? ? Hn _]; subst. apply Hn. rewrite (Hin v), (Hin w); cbn; auto.
      * apply deqb_false in E. assert (H : seteqb [t] [u] = false).
        { destruct (seteqb [t] [u]) eqn:Es; [|reflexivity]. apply seteqb_seteq in Es. destruct (proj1 (Es t) (or_introl eq_refl)) as [->|[]]. congruence. }
        rewrite H. assert (Ht : In t (dedup [t; u])) by (rewrite dedup_In; cbn; auto). assert (Hu : In u (dedup [t; u])) by (rewrite dedup_In; cbn; auto).
        destruct (dedup [t; u]) as [|v [|w l]]; [destruct Ht| |reflexivity]. destruct Ht as [->|[]], Hu as [->|[]]. congruence.
Qed.
Lemma existsb_map {A B} (f : A -> B) g l : existsb g (map f l) = existsb (fun x => g (f x)) l.
Proof. induction l; cbn; congruence. Qed.
Theorem C59_abbreviations : forall (E : Type) (ecols : E -> list col),
  (forall a lo hi, is_join ecols (PBetween a lo hi) = is_join ecols (PAnd [PBin OpGe a lo; PBin OpLe a hi])) /\
  (forall a vs, vs <> [] -> is_join ecols (PIn a vs) = is_join ecols (POr (map (PBin OpEq a) vs))) /\
  (forall p, is_join ecols (PNot p) = is_join ecols p) /\
  (forall ps, is_join ecols (PAnd ps) = existsb (is_join ecols) ps /\ is_join ecols (POr ps) = existsb (is_join ecols) ps).
Proof.
  intros E ecols. repeat split.
  - intros a lo hi. cbn [is_join existsb]. rewrite orb_false_r. rewrite <- !many_app_tabs by apply ctabs_NoDup. destruct (many (etabs ecols a)); reflexivity.
  - intros a vs Hne. cbn [is_join]. rewrite existsb_map. destruct (many (etabs ecols a)) eqn:E1.
    + destruct vs as [|v vs]; [destruct (Hne eq_refl)|]. cbn [existsb is_join orb]. rewrite E1. reflexivity.
    + cbn [orb]. apply existsb_ext_in. intros v _. cbn [is_join]. rewrite <- many_app_tabs by apply ctabs_NoDup. now rewrite E1.
Qed.
Print Assumptions C59_abbreviations.

(** Refuted: a comparison with a column of another table inside CASE is classified as a filter. *)
Theorem C59_comparison_refuted :
  let a := XCol cRa in let b := XCase [(XP (PBin OpEq (XCol cRb) (lit 1)), XCol cSc)] None (Some (lit 0)) in
  mentions a 0 /\ mentions b 1 /\ is_join x_direct (PBin OpEq a b) = false.
Proof.
  split; [exists cRa; split; [constructor|reflexivity]|]. split; [|reflexivity]. exists cSc. split; [|reflexivity].
  eapply occd_part with (e' := XCol cSc); [cbn; auto|constructor].
Qed.
Print Assumptions C59_comparison_refuted.

(** ** C06 *)
(** Equality of predicates is an equivalence, for all predicates and hash functions. *)
Theorem C06_equivalence : forall htup hat (p q s : pred sx),
  pred_eqb htup hat p p = true /\ pred_eqb htup hat p q = pred_eqb htup hat q p /\
  (pred_eqb htup hat p q = true -> pred_eqb htup hat q s = true -> pred_eqb htup hat p s = true).
Proof.
  intros. split; [|split].
  - apply peqb_refl. intros. apply xeqb_refl.
  - apply peqb_sym. intros. apply xeqb_sym.
  - apply peqb_trans. intros. eapply xeqb_trans; eassumption.
Qed.
Print Assumptions C06_equivalence.
(** Equal predicates mean the same, for every semantics that does not look at the order of IN lists (and identifies the
    truth values with 0 and 1). *)
Theorem C06_meaning : forall htup hat (A : algebra) (r : col -> W A) (p q : pred sx), sql_algebra A -> pred_eqb htup hat p q = true -> eval A r (XP p) = eval A r (XP q).
Proof. intros htup hat A r p q HA H. exact (xeqb_eval htup hat A r HA (XP p) (XP q) H). Qed.
Print Assumptions C06_meaning.
(** A semantics of this kind: truth values as numbers, IN as membership. *)
Definition ex_algebra : algebra :=
  {| W := Z; wop := fun l ws => match l, ws with
                                | LStatic (VInt z), _ => z | LStatic (VBool true), _ => 1%Z
                                | LBin OpLt, [x; y] => if (x <? y)%Z then 1%Z else 0%Z
                                | LIn, x :: vs => if existsb (Z.eqb x) vs then 1%Z else 0%Z
                                | _, _ => 0%Z end;
     wsub := fun q _ => Z.of_nat (sq_id q) |}.
Example C06_ex_meaning : sql_algebra ex_algebra /\
  (let p := PIn (XCol cRa) [lit 1; lit 2] in let q := PIn (XCol cRa) [lit 2; XStatic (VBool true); lit 2] in
   pred_eqb (fun _ => 0%Z) (fun _ => 0%Z) p q = true /\ eval ex_algebra (fun _ => 2%Z) (XP p) = 1%Z /\ eval ex_algebra (fun _ => 3%Z) (XP p) = 0%Z).
Proof.
  split; [|repeat split]. split; [|split].
  - intros []; reflexivity.
  - intros x l m H. cbn. assert (E : existsb (Z.eqb x) l = existsb (Z.eqb x) m); [|now rewrite E]. apply eq_true_iff_eq. rewrite !existsb_exists.
    split; intros [y [Hy E]]; exists y; (split; [now apply H|assumption]).
  - intros q q' r H. cbn. now rewrite H.
Qed.
(** Equal predicates without IN have equal hashes.  Missing: IN predicates and the views, which are refuted below. *)
Theorem C06_hash_partial : forall htup hat (p q : pred sx), no_in (XP p) -> pred_eqb htup hat p q = true -> pred_hash htup hat p = pred_hash htup hat q.
Proof. intros htup hat p q Hn H. exact (xhash_eq htup hat (XP p) Hn (XP q) H). Qed.
Print Assumptions C06_hash_partial.
Definition p6 (v : sval) : pred sx := PAnd [PBetween (XCol cRa) (XFun "LEAST" [XStatic v; XCol cRb] false None) (lit 5); PNot (PUn UExists (XSub q7))].
Example C06_ex : no_in (XP (p6 (VInt 1))) /\ forall htup hat, pred_eqb htup hat (p6 (VInt 1)) (p6 (VBool true)) = true /\ pred_eqb htup hat (p6 (VInt 1)) (p6 (VInt 2)) = false.
Proof. split; [allparts|]. intros. split; reflexivity. Qed.

(** Some hash function of tuples and atoms. *)
Definition tup31 (l : list Z) : Z := fold_left (fun acc x => acc * 31 + x)%Z l 7%Z.
Definition at1 (a : hatom) : Z := match a with HNum z => z | HCol c => Z.of_nat (c_name c) | _ => 1%Z end.
(** IN predicates with the same values in another order or with a repeated value are equal but hash differently. *)
Theorem C06_hash_refuted : exists htup hat (p q q' : pred sx),
  pred_eqb htup hat p q = true /\ pred_eqb htup hat p q' = true /\ pred_hash htup hat p <> pred_hash htup hat q /\ pred_hash htup hat p <> pred_hash htup hat q'.
Proof.
  exists tup31, at1, (PIn (XCol cRa) [lit 1; lit 2]), (PIn (XCol cRa) [lit 2; lit 1]), (PIn (XCol cRa) [lit 1; lit 2; lit 2]).
  repeat split; try (vm_compute; reflexivity); vm_compute; discriminate.
Qed.
Print Assumptions C06_hash_refuted.
(** With simplified views among the predicates: a view equals the predicate it wraps, but not the other way around, and the
    two hash differently. *)
Theorem C06_views_refuted :
  (forall htup hat p s, wrap_filter p = Ok s -> view_eqb htup hat (Filt p s) (Plain p) = true /\ view_eqb htup hat (Plain p) (Filt p s) = false) /\
  (forall htup hat p l r, view_eqb htup hat (Join p l r) (Plain p) = true /\ view_eqb htup hat (Plain p) (Join p l r) = false) /\
  (exists htup hat p s, view_ok (Filt p s) /\ view_hash htup hat (Filt p s) <> view_hash htup hat (Plain p)) /\
  (exists htup hat p l r, view_ok (Join p l r) /\ view_hash htup hat (Join p l r) <> view_hash htup hat (Plain p)).
Proof.
  split; [|split; [|split]].
  - intros htup hat p s _. cbn. split; [apply C06_equivalence; exact p|reflexivity].
  - intros htup hat p l r. cbn. split; [apply C06_equivalence; exact p|reflexivity].
  - exists tup31, at1, (PBin OpLt (XCol cTd) (lit 5)), (SBin cTd OpLt (UVal (VInt 5))). split; [reflexivity|vm_compute; discriminate].
  - exists tup31, at1, (PBin OpEq (XCol cRb) (XCol cSc)), cRb, cSc. split; [repeat split|vm_compute; discriminate].
Qed.
Print Assumptions C06_views_refuted.

(** ** C13 *)
(** C13 on expressions: for every compositional semantics, every renaming and every row, if no function has a FILTER, the
    renamed expression has the value of the old one on the row looked up under the new names.  Missing: filtered
    functions (refuted below).  Subqueries: if renaming inside of them is right. *)
Theorem C13_expression_partial : forall (A : algebra) (r : col -> W A) (d : dict col col) (rsub : sq -> res sq),
  let ren := lookup_renaming d in
  (forall q q', rsub q = Ok q' -> wsub A q' r = wsub A q (fun c => r (ren c))) ->
  forall e e', no_fun_filter e -> rename ren rsub e = Ok e' -> eval A r e' = eval A (fun c => r (ren c)) e.
Proof. intros A r d rsub ren Hsub e e' Hn H. eapply rename_eval; eassumption. Qed.
Print Assumptions C13_expression_partial.
(** ... and the truth value of predicates in three-valued logic, over any such semantics of their expressions. *)
Theorem C13_predicate_partial : forall (A : algebra) (os : binop -> W A -> W A -> tv) (us : unop -> W A -> tv) (r : col -> W A) (d : dict col col) (rsub : sq -> res sq),
  let ren := lookup_renaming d in
  let I := {| V := W A; val := eval A; opsem := os; unsem := us |} in
  (forall q q', rsub q = Ok q' -> wsub A q' r = wsub A q (fun c => r (ren c))) ->
  forall p p', (forall e, In e (pexprs p) -> no_fun_filter e) -> rename_predicate ren rsub p = Ok p' -> sem I r p' = sem I (fun c => r (ren c)) p.
Proof.
  intros A os us r d rsub ren I Hsub p. unfold rename_predicate.
  assert (He : forall e e', no_fun_filter e -> rename ren rsub e = Ok e' -> eval A r e' = eval A (fun c => r (ren c)) e) by (intros; eapply rename_eval; eassumption).
  induction p as [op a b|a lo hi|a vs|op a|p IH|ps IH|ps IH] using pred_ind'; cbn [pexprs pmapM]; intros p' H Hp;
    repeat match goal with H : rbind _ _ = Ok _ |- _ => apply rbind_ok in H as [? [? H]] end; injection Hp as <-; cbn [sem val opsem unsem I].
  - rewrite (He a), (He b); auto; apply H; cbn; auto.
  - rewrite (He a), (He lo), (He hi); auto; apply H; cbn; auto.
  - match goal with H : lmapM _ _ = Ok _ |- _ => apply lmapM_ok in H as HF end. f_equal.
    apply (Forall2_map_eq _ _ _ _ _ HF). intros e e' Hin Hr. rewrite (He a), (He e); auto; apply H; cbn; auto.
  - rewrite (He a); auto; apply H; cbn; auto.
  - f_equal. apply IH; auto.
  - match goal with H : lmapM _ _ = Ok _ |- _ => apply lmapM_ok in H as HF end. f_equal. rewrite Forall_forall in IH.
    apply (Forall2_map_eq _ _ _ _ _ HF). intros q q' Hq Hr. apply IH; auto. intros e Hin. apply H. apply in_flat_map. eauto.
  - match goal with H : lmapM _ _ = Ok _ |- _ => apply lmapM_ok in H as HF end. f_equal. rewrite Forall_forall in IH.
    apply (Forall2_map_eq _ _ _ _ _ HF). intros q q' Hq Hr. apply IH; auto. intros e Hin. apply H. apply in_flat_map. eauto.
Qed.
Print Assumptions C13_predicate_partial.
(** Renaming succeeds without array accesses, arithmetic of three or more arguments and CASE over plain expressions. *)
Theorem C13_succeeds_partial : forall ren rsub e, (forall q, is_ok (rsub q) = true) -> renameable e -> is_ok (rename ren rsub e) = true.
Proof. exact rename_succeeds. Qed.
Print Assumptions C13_succeeds_partial.
Definition e13 : sx := XWin (XFun "SUM" [XCol cRa] true None) [XMath MMul (XCol cRb) [XCol cSc]] [XCast (XCol cRa) "INT" [] false]
  (Some (POr [PBin OpLt (XCol cRa) (XCase [(XP (PBin OpEq (XCol cRa) (XCol cTd)), XCol cRb)] None (Some (lit 3))); PIn (XCol cSc) [lit 1; XArr [XCol cRa]]])).
Example C13_ex_expr : no_fun_filter e13 /\ renameable e13 /\
  rename (lookup_renaming [(cRa, cSc); (cSc, cRa)]) (fun q => Ok q) e13 =
  Ok (XWin (XFun "SUM" [XCol cSc] true None) [XMath MMul (XCol cRb) [XCol cRa]] [XCast (XCol cSc) "INT" [] false]
  (Some (POr [PBin OpLt (XCol cSc) (XCase [(XP (PBin OpEq (XCol cSc) (XCol cTd)), XCol cRb)] None (Some (lit 3))); PIn (XCol cRa) [lit 1; XArr [XCol cSc]]]))).
Proof. split; [allparts|]. split; [allparts|reflexivity]. Qed.
(** Refuted: the FILTER of functions is dropped, so there are a semantics and a row for which the value changes ... *)
Theorem C13_filter_refuted : exists (A : algebra) (r : col -> W A) e e',
  rename (lookup_renaming []) (fun q => Ok q) e = Ok e' /\ eval A r e' <> eval A r e.
Proof.
  exists text_algebra, (fun c => c_name c), (XFun "COUNT" [XCol cRa] false (Some (PBin OpLt (XCol cSc) (lit 5)))), (XFun "COUNT" [XCol cRa] false None).
  split; [reflexivity|vm_compute; discriminate].
Qed.
Print Assumptions C13_filter_refuted.
(** ... and renaming raises an error on every array access, on arithmetic over a sequence, and on a simple CASE. *)
Theorem C13_raises_refuted : forall ren rsub,
  (forall a i l h, is_ok (rename ren rsub (XAcc a i l h)) = false) /\
  (forall op a b c bs, is_ok (rename ren rsub (XMath op a (b :: c :: bs))) = false) /\
  (forall z e s el, rename ren rsub (XCase [(lit z, e)] s el) = Raise ValueError).
Proof.
  intros ren rsub. repeat split.
  - intros a i l h. cbn. destruct (rename ren rsub a); [cbn|reflexivity]. destruct (omapM (rename ren rsub) i); [cbn|reflexivity].
    destruct (omapM (rename ren rsub) l); [cbn|reflexivity]. destruct (omapM (rename ren rsub) h); reflexivity.
  - intros op a b c bs. cbn. destruct (rename ren rsub a); reflexivity.
Qed.
Print Assumptions C13_raises_refuted.

(** ** C07 *)
(** C07, what holds: if all arguments are columns and literals (no casts) and either the first argument is a column or the
    operator may be swapped, the simplified filter means the same, in every interpretation.  Missing: see below. *)
Lemma unwrap_leaf e u : leaf e = true -> unwrap_expr e = Ok u -> uexpr u = e.
Proof. destruct e; cbn; intros H1 H2; try discriminate; injection H2 as <-; reflexivity. Qed.
Lemma unwrap_leaves vs : forallb leaf vs = true -> forall us, lmapM unwrap_expr vs = Ok us -> map uexpr us = vs.
Proof.
  induction vs as [|v vs IH]; cbn; intros H us Hu; [injection Hu as <-; reflexivity|]. apply andb_true_iff in H as [H1 H2].
  apply rbind_ok in Hu as [x [Hx Hu]]. apply rbind_ok in Hu as [xs [Hxs Hu]]. injection Hu as <-. cbn. rewrite (unwrap_leaf v x), (IH H2 xs); auto.
Qed.
Definition column_first (p : pred sx) : bool := match p with PBin _ (XCol _) _ | PBetween (XCol _) _ _ | PIn (XCol _) _ => true | _ => false end.
Theorem C07_meaning_partial : forall (I : interp sx) (r : row I) p s, forallb leaf (pexprs p) = true ->
  column_first p = true \/ (exists op a b, p = PBin op a b /\ symmetric_op I op) ->
  wrap_filter p = Ok s -> sem I r (simple_pred s) = sem I r p.
Proof.
  intros I r p s Hl Hc H. unfold wrap_filter in H. destruct (negb _ || negb _); [discriminate|]. destruct p as [op a b|a lo hi|a vs|op a|p|ps|ps]; try discriminate.
  - cbn in Hl. rewrite andb_true_r in Hl. apply andb_true_iff in Hl as [Ha Hb]. apply rbind_ok in H as [l [H1 H]]. apply rbind_ok in H as [u [H2 H]].
    apply unwrap_leaf in H1; [|assumption]. apply unwrap_leaf in H2; [|assumption]. subst a b. destruct l as [c|v].
    + injection H as <-. reflexivity.
    + destruct u as [c|v']; [|discriminate]. injection H as <-. cbn. destruct Hc as [Hc|[op' [a [b [Heq Hs]]]]]; [discriminate|]. injection Heq as -> -> ->. apply Hs.
  - cbn in Hl. rewrite andb_true_r in Hl. apply andb_true_iff in Hl as [Ha Hl]. apply andb_true_iff in Hl as [Hlo Hhi].
    apply rbind_ok in H as [l [H1 H]]. apply rbind_ok in H as [u [H2 H]]. apply rbind_ok in H as [w [H3 H]].
    apply unwrap_leaf in H1; [|assumption]. apply unwrap_leaf in H2; [|assumption]. apply unwrap_leaf in H3; [|assumption]. subst. destruct l as [c|v]; [|discriminate]. injection H as <-. reflexivity.
  - cbn [pexprs forallb] in Hl. apply andb_true_iff in Hl as [Ha Hvs]. apply rbind_ok in H as [l [H1 H]]. apply rbind_ok in H as [us [H2 H]].
    apply unwrap_leaf in H1; [|assumption]. apply unwrap_leaves in H2; [|assumption]. subst. destruct l as [c|v]; [|discriminate]. injection H as <-. reflexivity.
Qed.
Print Assumptions C07_meaning_partial.
(** Integers (or NULL) with comparisons; a cast to boolean turns non-zero numbers into 1. *)
Fixpoint zval (r : col -> option Z) (e : sx) : option Z :=
  match e with
  | XStatic (VInt z) => Some z
  | XCol c => r c
  | XCast a ty _ _ => match zval r a with Some z => Some (if deqb ty "boolean"%string then (if Z.eqb z 0 then 0 else 1)%Z else z) | None => None end
  | _ => None
  end.
Definition ZI : interp sx := {| V := option Z; val := zval;
  opsem := fun op a b => match a, b with Some x, Some y => tv_of (match op with OpEq => Z.eqb x y | OpLt => Z.ltb x y | OpLe => Z.leb x y | OpGe => Z.leb y x | OpGt => Z.ltb y x | _ => false end) | _, _ => U3 end;
  unsem := fun _ _ => U3 |}.
Lemma ZI_eq_symmetric : symmetric_op ZI OpEq.
Proof. intros [x|] [y|]; cbn; try reflexivity. now rewrite Z.eqb_sym. Qed.
Example C07_ex : let p := PBin OpEq (lit 5) (XCol cRa) in let q := PIn (XCol cRa) [lit 1; XCol cRb; XStatic VNull] in
  (forallb leaf (pexprs p) = true /\ symmetric_op ZI OpEq /\ wrap_filter p = Ok (SBin cRa OpEq (UVal (VInt 5)))) /\
  (forallb leaf (pexprs q) = true /\ column_first q = true /\ wrap_filter q = Ok (SIn cRa [UVal (VInt 1); UCol cRb; UVal VNull])).
Proof. cbv zeta. split; (split; [reflexivity|split]); try reflexivity. apply ZI_eq_symmetric. Qed.
(** Refuted: [5 < R.a] becomes [R.a < 5], and [CAST(R.a AS boolean) = 1] becomes [R.a = 1]. *)
Theorem C07_meaning_refuted : exists (r r' : row ZI) p s p' s',
  p = PBin OpLt (lit 5) (XCol cRa) /\ wrap_filter p = Ok s /\ sem ZI r p = T3 /\ sem ZI r (simple_pred s) = F3 /\
  p' = PBin OpEq (XCast (XCol cRa) "boolean" [] false) (lit 1) /\ wrap_filter p' = Ok s' /\ sem ZI r' p' = T3 /\ sem ZI r' (simple_pred s') = F3.
Proof.
  exists (fun _ => Some 7%Z), (fun _ => Some 7%Z), (PBin OpLt (lit 5) (XCol cRa)), (SBin cRa OpLt (UVal (VInt 5))),
    (PBin OpEq (XCast (XCol cRa) "boolean" [] false) (lit 1)), (SBin cRa OpEq (UVal (VInt 1))). repeat split.
Qed.
Print Assumptions C07_meaning_refuted.

(** ** C60 *)
(** A literal, possibly cast. *)
Fixpoint constant (e : sx) : bool := match e with XStatic _ => true | XCast a _ _ _ => constant a | _ => false end.
Definition no_constant_side (p : pred sx) : bool :=
  match p with PBin _ a b => negb (constant a && constant b) | PBetween a _ _ | PIn a _ => negb (constant a) | _ => true end.
Lemma unwrap_constant e v : unwrap_expr e = Ok (UVal v) -> constant e = true.
Proof. induction e; cbn; intros H; try discriminate; auto. Qed.
Lemma unwrap_raises e x : unwrap_expr e = Raise x -> x = ValueError.
Proof. induction e; cbn; intros H; try (injection H as <-; reflexivity); try discriminate; auto. Qed.
Lemma unwraps_raises l x : lmapM unwrap_expr l = Raise x -> x = ValueError.
Proof.
  induction l as [|e l IH]; cbn; [discriminate|]. destruct (unwrap_expr e) eqn:E; cbn; [|intros H; injection H as <-; eapply unwrap_raises; eassumption].
  destruct (lmapM unwrap_expr l); cbn; [discriminate|]. exact IH.
Qed.
Lemma wrap_filter_raises p x : no_constant_side p = true -> wrap_filter p = Raise x -> x = ValueError.
Proof.
  intros Hn H. unfold wrap_filter in H. destruct (negb _ || negb _); [now injection H as <-|].
  destruct p as [op a b|a lo hi|a vs|op a|p|ps|ps]; cbn in Hn; try (now injection H as <-).
  - destruct (unwrap_expr a) as [ua|ea] eqn:Ea; cbn in H; [|injection H as <-; eapply unwrap_raises; eassumption].
    destruct (unwrap_expr b) as [ub|eb] eqn:Eb; cbn in H; [|injection H as <-; eapply unwrap_raises; eassumption].
    destruct ua as [c|v]; [discriminate|]. destruct ub as [c|v']; [discriminate|]. apply unwrap_constant in Ea. apply unwrap_constant in Eb. rewrite Ea, Eb in Hn. discriminate.
  - destruct (unwrap_expr a) as [ua|ea] eqn:Ea; cbn in H; [|injection H as <-; eapply unwrap_raises; eassumption].
    destruct (unwrap_expr lo) as [ub|eb] eqn:Eb; cbn in H; [|injection H as <-; eapply unwrap_raises; eassumption].
    destruct (unwrap_expr hi) as [uh|eh] eqn:Eh; cbn in H; [|injection H as <-; eapply unwrap_raises; eassumption].
    destruct ua as [c|v]; [discriminate|]. apply unwrap_constant in Ea. rewrite Ea in Hn. discriminate.
  - destruct (unwrap_expr a) as [ua|ea] eqn:Ea; cbn in H; [|injection H as <-; eapply unwrap_raises; eassumption].
    destruct (lmapM unwrap_expr vs) as [ub|eb] eqn:Eb; cbn in H; [|injection H as <-; eapply unwraps_raises; eassumption].
    destruct ua as [c|v]; [discriminate|]. apply unwrap_constant in Ea. rewrite Ea in Hn. discriminate.
Qed.
(** C60, what holds: if no predicate compares two literals or tests a literal with BETWEEN or IN, wrap_all yields the views of
    exactly the predicates that can be wrapped, in order.  Missing: constant conditions, refuted below. *)
Theorem C60_wrap_all_partial : forall ps, forallb no_constant_side ps = true ->
  exists l, wrap_all ps = Ok l /\ map (fun s => Ok s) l = map wrap_filter (filter can_wrap ps).
Proof.
  induction ps as [|p ps IH]; cbn [forallb]; intros H; [exists []; auto|]. apply andb_true_iff in H as [Hp H]. destruct (IH H) as [l [H1 H2]].
  cbn [wrap_all filter]. unfold can_wrap at 1. destruct (wrap_filter p) as [s|x] eqn:E; cbn [is_ok].
  - exists (s :: l). rewrite H1. cbn. rewrite E, H2. auto.
  - apply wrap_filter_raises in E; [|assumption]. subst. exists l. auto.
Qed.
Print Assumptions C60_wrap_all_partial.
Example C60_ex : let ps := [PBin OpLt (XCol cRa) (lit 5); PBin OpEq (XCol cRa) (XCol cSc); PBin OpLt (XFun "F" [XCol cRa] false None) (lit 1); PIn (XCol cRb) [lit 1]] in
  forallb no_constant_side ps = true /\ wrap_all ps = Ok [SBin cRa OpLt (UVal (VInt 5)); SIn cRb [UVal (VInt 1)]].
Proof. split; reflexivity. Qed.
(** Refuted: one constant condition, such as [1 = 1] or [5 BETWEEN R.a AND R.b], and wrap_all raises an AssertionError. *)
Theorem C60_wrap_all_refuted : forall p ps, (p = PBin OpEq (lit 1) (lit 1) \/ p = PBetween (lit 5) (XCol cRa) (XCol cRb)) ->
  can_wrap p = false /\ wrap_all (p :: ps) = Raise AssertionError.
Proof. intros p ps [->| ->]; split; reflexivity. Qed.
Print Assumptions C60_wrap_all_refuted.
