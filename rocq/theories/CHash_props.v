(* C80: equal clauses and queries have equal hash values *)
From Coq Require Import List Bool Arith ZArith Lia.
From Verif Require Import PyBase CHash_model CHash_proofs CHash_spec.
Import ListNotations.

Lemma everywhere_inv Q o : everywhere Q o -> Q o /\ Forall (everywhere Q) (members o).
Proof. intros []. split; assumption. Qed.

Ltac split_and := repeat match goal with H : _ && _ = true |- _ => apply andb_true_iff in H; destruct H end.
Ltac atoms := repeat match goal with
  | H : deqb _ _ = true |- _ => apply deqb_true in H
  | H : Bool.eqb _ _ = true |- _ => apply Bool.eqb_prop in H end.

Lemma kinds_ge l n x : kinds_from n l -> In x (some l) -> n <= kind x.
Proof.
  revert n. induction l as [|[y|] l IH]; intros n HK Hin; cbn [some] in Hin; [destruct Hin| |]; destruct HK as [H1 H2].
  - destruct Hin as [<-|Hin]; [rewrite (H1 y eq_refl); lia|]. specialize (IH (S n) H2 Hin). lia.
  - specialize (IH (S n) H2 Hin). lia.
Qed.

Section Facts.
  Context (htup : list Z -> Z) (hat : atom -> Z) (ident : tbl -> str).
  Notation eqo := (oeqb ident).
  Notation ho := (ohash htup hat).

  Lemma eq_kind o p : eqo o p = true -> kind o = kind p.
  Proof. destruct o, p; cbn [oeqb]; intros H; try discriminate; reflexivity. Qed.

  (* slot by slot *)
  Lemma slots_pointwise (R : obj -> obj -> Prop) l m n :
    kinds_from n l -> kinds_from n m -> List.length l = List.length m ->
    Forall (fun x => forall y, In y (some m) -> eqo x y = true -> R x y) (some l) ->
    all2 eqo (some l) (some m) = true ->
    Forall2 (fun s t => match s, t with Some x, Some y => R x y | None, None => True | _, _ => False end) l m.
  Proof.
    revert m n. induction l as [|s l IH]; intros [|t m] n HK HM HL HR HE; try discriminate; [constructor|]. destruct HK as [K1 K2], HM as [K3 K4].
    cbn [List.length] in HL. apply Nat.succ_inj in HL. destruct s as [x|], t as [y|]; cbn [some all2] in *.
    - apply andb_true_iff in HE. destruct HE as [E1 E2]. inversion HR as [|? ? R1 R2]; subst. constructor; [apply R1; [now left|exact E1]|].
      apply (IH m (S n)); try assumption. revert R2. apply Forall_impl. intros a Ha b Hb. apply Ha. now right.
    - exfalso. destruct (some m) as [|y ys] eqn:Em; [discriminate|]. apply andb_true_iff in HE. destruct HE as [E1 _].
      apply eq_kind in E1. rewrite (K1 x eq_refl) in E1.
      assert (S n <= kind y) by (apply (kinds_ge m); [exact K4|rewrite Em; now left]). lia.
    - exfalso. destruct (some l) as [|x xs] eqn:El; [discriminate|]. apply andb_true_iff in HE. destruct HE as [E1 _].
      apply eq_kind in E1. rewrite (K3 y eq_refl) in E1.
      assert (S n <= kind x) by (apply (kinds_ge l); [exact K2|rewrite El; now left]). lia.
    - constructor; [exact I|]. apply (IH m (S n)); assumption.
  Qed.

  Lemma all2_pointwise (R : obj -> obj -> Prop) l m :
    Forall (fun x => forall y, In y m -> eqo x y = true -> R x y) l -> all2 eqo l m = true -> Forall2 R l m.
  Proof.
    revert m. induction l as [|x l IH]; intros [|y m] HR HE; try discriminate; [constructor|]. cbn [all2] in HE.
    apply andb_true_iff in HE. destruct HE as [E1 E2]. inversion HR as [|? ? R1 R2]; subst. constructor; [apply R1; [now left|exact E1]|].
    apply IH; [|exact E2]. revert R2. apply Forall_impl. intros a Ha b Hb. apply Ha. now right.
  Qed.

  Definition good (o : obj) : Prop := everywhere (fun o => typed o /\ regular o) o.

  Definition Rhash (x y : obj) : Prop := ho x = ho y.

  Lemma F2_map l m : Forall2 Rhash l m -> map ho l = map ho m.
  Proof. induction 1 as [|x y l m H _ IH]; [reflexivity|]. cbn [map]. rewrite H, IH. reflexivity. Qed.
  Lemma F2_slots l m :
    Forall2 (fun s t => match s, t with Some x, Some y => Rhash x y | None, None => True | _, _ => False end) l m ->
    map (hopt hat ho) l = map (hopt hat ho) m.
  Proof.
    induction 1 as [|x y l m H _ IH]; [reflexivity|]. cbn [map]. rewrite IH. f_equal.
    destruct x as [x|], y as [y|]; [exact H|contradiction|contradiction|reflexivity].
  Qed.

  (* the induction hypothesis, used for the members of both objects *)
  Lemma use_IH l m :
    Forall (fun x => forall y, good x -> good y -> eqo x y = true -> Rhash x y) l -> Forall good l -> Forall good m ->
    Forall (fun x => forall y, In y m -> eqo x y = true -> Rhash x y) l.
  Proof.
    intros H1 H2 H3. rewrite Forall_forall in *. intros x Hx y Hy. apply H1; auto.
  Qed.

  Lemma hash_list l m :
    Forall (fun x => forall y, good x -> good y -> eqo x y = true -> Rhash x y) l -> Forall good l -> Forall good m ->
    all2 eqo l m = true -> map ho l = map ho m.
  Proof. intros H1 H2 H3 H. apply F2_map. apply all2_pointwise; [now apply use_IH|exact H]. Qed.

  Lemma hash_opt a b :
    Forall (fun x => forall y, good x -> good y -> eqo x y = true -> Rhash x y) (olist a) -> Forall good (olist a) -> Forall good (olist b) ->
    opt2 eqo a b = true -> hopt hat ho a = hopt hat ho b.
  Proof.
    destruct a as [x|], b as [y|]; cbn; intros H1 H2 H3 H; try discriminate; [|reflexivity].
    inversion H1; inversion H2; inversion H3; subst. now apply H5.
  Qed.

  Ltac members := cbn [members] in *;
    repeat match goal with
    | H : Forall _ (_ :: _) |- _ => apply Forall_cons_iff in H; destruct H
    | H : Forall _ (_ ++ _) |- _ => apply Forall_app in H; destruct H
    end.

  Lemma eq_hash : forall o p, good o -> good p -> eqo o p = true -> ho o = ho p.
  Proof.
    induction o as [o IH] using obj_ind2. intros p Go Gp E.
    apply everywhere_inv in Go. destruct Go as [[To Ro] Mo]. apply everywhere_inv in Gp. destruct Gp as [[Tp Rp] Mp].
    fold good in Mo, Mp.
    assert (IH' : Forall (fun x => forall y, good x -> good y -> eqo x y = true -> Rhash x y) (members o)) by exact IH.
    clear IH. destruct o, p; cbn [oeqb] in E; try discriminate; split_and; atoms; members; cbn [ohash typed regular] in *;
      repeat match goal with
      | H : all2 _ ?l ?m = true |- _ => apply hash_list in H; [|assumption|assumption|assumption]
      | H : opt2 _ ?a ?b = true |- _ => apply hash_opt in H; [|assumption|assumption|assumption]
      | H : forall y, good ?x -> good y -> oeqb _ ?x y = true -> Rhash ?x y, E : oeqb _ ?x ?y = true |- _ =>
          apply H in E; [|assumption|assumption]; unfold Rhash in E
      end; try congruence.
    - (* WITH *) destruct Ro as [s ->], Rp as [s' ->]. cbn [name_of] in *. congruence.
    - (* LIMIT *) subst. reflexivity.
    - (* EXPLAIN *) assert (E' : format = format0).
      { clear IH' Mo Mp. unfold str in *. destruct format as [[|n]|], format0 as [[|n']|]; cbn [format_of] in *; congruence. }
      subst; reflexivity.
    - (* SqlQuery *) destruct To as [L1 K1], Tp as [L2 K2]. match goal with H : slots2 _ _ _ = true |- _ => rewrite slots2_all2 in H; rename H into HS end.
      f_equal. apply F2_slots. apply (slots_pointwise Rhash slots slots0 0); try assumption; [congruence|]. now apply use_IH.
  Qed.

  (* equality *)
  Lemma all2_refl l : Forall (fun x => eqo x x = true) l -> all2 eqo l l = true.
  Proof. induction 1 as [|x l H _ IH]; [reflexivity|]. cbn [all2]. now rewrite H, IH. Qed.
  Lemma opt2_refl a : Forall (fun x => eqo x x = true) (olist a) -> opt2 eqo a a = true.
  Proof. destruct a as [x|]; cbn; [|reflexivity]. intros H. now inversion H. Qed.

  Lemma eq_refl_o : forall o, eqo o o = true.
  Proof.
    induction o as [o IH] using obj_ind2.
    destruct o; members; cbn [oeqb]; rewrite ?slots2_all2;
      rewrite ?all2_refl, ?opt2_refl, ?deqb_refl, ?Bool.eqb_reflx by assumption; try reflexivity;
      repeat match goal with H : oeqb _ ?x ?x = true |- _ => rewrite H end; reflexivity.
  Qed.

  Lemma all2_sym l m : Forall (fun x => forall y, eqo x y = eqo y x) l -> all2 eqo l m = all2 eqo m l.
  Proof.
    revert m. induction l as [|x l IH]; intros [|y m] H; try reflexivity. cbn [all2]. inversion H as [|? ? H1 H2]; subst.
    now rewrite H1, IH.
  Qed.
  Lemma opt2_sym a b : Forall (fun x => forall y, eqo x y = eqo y x) (olist a) -> opt2 eqo a b = opt2 eqo b a.
  Proof. destruct a as [x|], b as [y|]; cbn; try reflexivity. intros H. inversion H; subst. auto. Qed.
  Lemma deqb_sym {A} {EA : EqD A} (a b : A) : deqb a b = deqb b a.
  Proof. unfold deqb. destruct (eqd a b), (eqd b a); congruence. Qed.
  Lemma eqb_sym a b : Bool.eqb a b = Bool.eqb b a.
  Proof. destruct a, b; reflexivity. Qed.

  Lemma eq_sym_o : forall o p, eqo o p = eqo p o.
  Proof.
    induction o as [o IH] using obj_ind2. intros p.
    destruct o, p; members; cbn [oeqb]; try reflexivity; rewrite ?slots2_all2;
      repeat apply (f_equal2 andb);
      first [ reflexivity | apply deqb_sym | apply eqb_sym | apply all2_sym; assumption | apply opt2_sym; assumption
            | match goal with H : forall y, oeqb _ ?x y = oeqb _ y ?x |- oeqb _ ?x _ = _ => apply H end ].
  Qed.

  (* ---- identity ---- *)
  Definition fine (o : obj) : Prop := everywhere (fun o => typed o /\ regular o /\ plain_cte o) o.

  Lemma F2_eq (l m : list obj) : Forall2 eq l m -> l = m.
  Proof. induction 1; congruence. Qed.
  Lemma F2_slots_eq (l m : list (option obj)) :
    Forall2 (fun s t => match s, t with Some x, Some y => x = y | None, None => True | _, _ => False end) l m -> l = m.
  Proof.
    induction 1 as [|x y l m H _ IH]; [reflexivity|]. rewrite IH. f_equal.
    destruct x as [x|], y as [y|]; [congruence|contradiction|contradiction|reflexivity].
  Qed.
  Lemma use_IH_eq l m :
    Forall (fun x => forall y, fine x -> fine y -> eqo x y = true -> x = y) l -> Forall fine l -> Forall fine m ->
    Forall (fun x => forall y, In y m -> eqo x y = true -> x = y) l.
  Proof. intros H1 H2 H3. rewrite Forall_forall in *. intros x Hx y Hy. apply H1; auto. Qed.
  Lemma eq_list l m :
    Forall (fun x => forall y, fine x -> fine y -> eqo x y = true -> x = y) l -> Forall fine l -> Forall fine m ->
    all2 eqo l m = true -> l = m.
  Proof. intros H1 H2 H3 H. apply F2_eq. apply all2_pointwise; [now apply use_IH_eq|exact H]. Qed.
  Lemma eq_opt a b :
    Forall (fun x => forall y, fine x -> fine y -> eqo x y = true -> x = y) (olist a) -> Forall fine (olist a) -> Forall fine (olist b) ->
    opt2 eqo a b = true -> a = b.
  Proof.
    destruct a as [x|], b as [y|]; cbn; intros H1 H2 H3 H; try discriminate; [|reflexivity].
    inversion H1; inversion H2; inversion H3; subst. f_equal. now apply H5.
  Qed.

  Lemma eq_identity : forall o p, fine o -> fine p -> eqo o p = true -> o = p.
  Proof.
    induction o as [o IH] using obj_ind2. intros p Go Gp E.
    apply everywhere_inv in Go. destruct Go as [(To & Ro & Co) Mo]. apply everywhere_inv in Gp. destruct Gp as [(Tp & Rp & Cp) Mp].
    fold fine in Mo, Mp.
    destruct o, p; cbn [oeqb] in E; try discriminate; split_and; atoms; members; cbn [typed regular plain_cte] in *;
      repeat match goal with
      | H : all2 _ ?l ?m = true |- _ => apply eq_list in H; [|assumption|assumption|assumption]
      | H : opt2 _ ?a ?b = true |- _ => apply eq_opt in H; [|assumption|assumption|assumption]
      | H : forall y, fine ?x -> fine y -> oeqb _ ?x y = true -> ?x = y, E : oeqb _ ?x ?y = true |- _ =>
          apply H in E; [|assumption|assumption]
      end; try congruence.
    - (* WITH *) destruct Ro as [s ->], Rp as [s' ->]. cbn [name_of] in *. congruence.
    - (* EXPLAIN *) assert (E' : format = format0).
      { clear IH Mo Mp. unfold str in *. destruct format as [[|n]|], format0 as [[|n']|]; cbn [format_of] in *; congruence. }
      congruence.
    - (* SqlQuery *) destruct To as [L1 K1], Tp as [L2 K2]. match goal with H : slots2 _ _ _ = true |- _ => rewrite slots2_all2 in H; rename H into HS end.
      f_equal; [congruence|]. apply F2_slots_eq. apply (slots_pointwise eq slots slots0 0); try assumption; [congruence|]. now apply use_IH_eq.
  Qed.
End Facts.

(* ---- examples ---- *)

(* SELECT e1 FROM t2 WHERE e3 ORDER BY e4 FETCH d 5 ROWS, with a CTE *)
Definition sample (n : tname) (m : option bool) (d : dir) : obj :=
  OSql 1 [None; None;
          Some (OCte [OWith (OSql 1 [None; None; None; Some (OSelect 0 [] [OProjection (OExpr 9 []) 0]); None; None; None; None; None; None]) n m] false);
          Some (OSelect 0 [] [OProjection (OExpr 1 [OAtom (AInt 7)]) 0]); Some (OFrom 0 [ODirect 2]); Some (OWhere (OExpr 3 []));
          None; None; Some (OOrder [OOrderExpr (OExpr 4 []) (Some true) None]); Some (OLimit false (Some 5%Z) None d)].

Ltac every := repeat match goal with
  | |- everywhere _ _ => apply Everywhere; cbn [members some olist app]
  | |- Forall _ [] => apply Forall_nil
  | |- Forall _ (_ :: _) => apply Forall_cons
  | |- _ /\ _ => split
  | |- typed _ => cbn [typed kinds_from]
  | |- regular _ => cbn [regular]
  | |- plain_cte _ => cbn [plain_cte]
  | |- True => exact I
  | |- exists _, _ => eexists; reflexivity
  | |- _ <> _ => discriminate
  | |- forall x, _ = Some x -> _ => let HH := fresh in intros ? HH; (discriminate HH || (injection HH as <-; reflexivity))
  | |- _ = _ => reflexivity
  end.

Example sample_good : good (sample (NStr 3) (Some true) DFirst).
Proof. unfold good, sample. every. Qed.
Example sample_fine : fine (sample (NStr 3) None DFirst).
Proof. unfold fine, sample. every. Qed.

(* ---- C80 ---- *)

Theorem C80_equality_reflexive_symmetric : forall ident o p,
  oeqb ident o o = true /\ oeqb ident o p = oeqb ident p o.
Proof. intros ident o p. split; [apply eq_refl_o|apply eq_sym_o]. Qed.
Print Assumptions C80_equality_reflexive_symmetric.

(* Equal objects have equal hash values, apart from the exceptions excluded by
   [regular]. *)
Theorem C80_equal_hash_partial : forall htup hat ident o p,
  everywhere (fun o => typed o /\ regular o) o -> everywhere (fun o => typed o /\ regular o) p ->
  oeqb ident o p = true -> ohash htup hat o = ohash htup hat p.
Proof. exact eq_hash. Qed.
Print Assumptions C80_equal_hash_partial.

Example equal_hash_example :
  oeqb (fun t => t) (sample (NStr 3) (Some true) DFirst) (sample (NStr 3) None DFirst) = true
  /\ sample (NStr 3) (Some true) DFirst <> sample (NStr 3) None DFirst.
Proof. split; [reflexivity|discriminate]. Qed.

(* Without MATERIALIZED, equal objects agree in all attributes. *)
Theorem C80_equal_identical_partial : forall ident o p,
  everywhere (fun o => typed o /\ regular o /\ plain_cte o) o ->
  everywhere (fun o => typed o /\ regular o /\ plain_cte o) p ->
  (oeqb ident o p = true <-> o = p).
Proof.
  intros ident o p Ho Hp. split; [now apply eq_identity|]. intros ->. apply eq_refl_o.
Qed.
Print Assumptions C80_equal_identical_partial.

(* The exceptions.  The hash functions of Python are injective for all
   practical purposes. *)
Definition inj {A} (f : A -> Z) : Prop := forall a b, f a = f b -> a = b.

(* FETCH FIRST and FETCH LAST: equal queries with different hash values. *)
Theorem C80_fetch_direction_refuted : forall htup hat ident, inj htup -> inj hat ->
  exists o p, everywhere typed o /\ everywhere typed p /\ oeqb ident o p = true /\ ohash htup hat o <> ohash htup hat p.
Proof.
  intros htup hat ident Ht Ha. exists (sample (NStr 3) None DFirst), (sample (NStr 3) None DLast).
  split; [unfold sample; every|]. split; [unfold sample; every|]. split.
  - unfold sample. cbn. rewrite ?deqb_refl. reflexivity.
  - intros H. cbn [ohash sample] in H. apply Ht in H. injection H as H. apply Ht in H. injection H as H. apply Ha in H. discriminate.
Qed.
Print Assumptions C80_fetch_direction_refuted.

(* EXPLAIN with format "" and without format *)
Theorem C80_explain_format_refuted : forall htup hat ident, inj htup -> inj hat ->
  exists a b, oeqb ident (OExplain false true a) (OExplain false true b) = true
   /\ ohash htup hat (OExplain false true a) <> ohash htup hat (OExplain false true b).
Proof.
  intros htup hat ident Ht Ha. exists (Some 0), None. split; [reflexivity|]. intros H. cbn [ohash] in H.
  apply Ht in H. injection H as H. apply Ha in H. discriminate.
Qed.
Print Assumptions C80_explain_format_refuted.

(* A CTE named by a string and by a table reference with this identifier *)
Theorem C80_cte_name_refuted : forall htup hat ident t, inj htup -> inj hat ->
  exists q, oeqb ident (OWith q (NRef t) None) (OWith q (NStr (ident t)) None) = true
   /\ ohash htup hat (OWith q (NRef t) None) <> ohash htup hat (OWith q (NStr (ident t)) None).
Proof.
  intros htup hat ident t Ht Ha. exists (sample (NStr 3) None DFirst). split.
  - cbn [oeqb name_of]. rewrite deqb_refl. apply eq_refl_o.
  - intros H. cbn [ohash] in H. apply Ht in H. injection H as H. apply Ha in H. discriminate.
Qed.
Print Assumptions C80_cte_name_refuted.

(* LATERAL and plain subqueries *)
Theorem C80_lateral_refuted : forall htup hat ident e n, inj htup -> inj hat ->
  oeqb ident (OSubSource e n true) (OSubSource e n false) = true
  /\ ohash htup hat (OSubSource e n true) <> ohash htup hat (OSubSource e n false).
Proof.
  intros htup hat ident e n Ht Ha. split; [cbn [oeqb]; rewrite deqb_refl, eq_refl_o; reflexivity|].
  intros H. cbn [ohash] in H. apply Ht in H. injection H as H. apply Ha in H. discriminate.
Qed.
Print Assumptions C80_lateral_refuted.

(* Queries that differ only in MATERIALIZED are equal. *)
Theorem C80_materialized_ignored_refuted :
  exists ident o p, everywhere typed o /\ everywhere typed p /\ oeqb ident o p = true /\ o <> p.
Proof.
  exists (fun t => t), (sample (NStr 3) (Some true) DFirst), (sample (NStr 3) (Some false) DFirst).
  split; [unfold sample; every|]. split; [unfold sample; every|]. split; [reflexivity|discriminate].
Qed.
Print Assumptions C80_materialized_ignored_refuted.

(* EXCEPT and INTERSECT clauses cannot be compared at all, not even with themselves. *)
Theorem C80_except_intersect_refuted : forall c, setclause_eqb c c = Raise AttributeError.
Proof. intros []; reflexivity. Qed.
Print Assumptions C80_except_intersect_refuted.
