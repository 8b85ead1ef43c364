(** Property theorems for C02, C11, C12, C13, C14, C57 (predicate transformations). *)
From Coq Require Import List Bool Arith Lia Permutation.
From Verif Require Import PyBase Pred_model Pred_spec Pred_proofs QPred_spec Trans_model Trans_spec Trans_proofs Remove_proofs Pred_props.
Import ListNotations.

Lemma dedup_lists_set {A} {EA : EqD A} (l : list A) : lists_set (dedup l) l.
Proof. split; [apply dedup_NoDup|]. intros x. apply dedup_In. Qed.

(** ** C02 *)
Definition pa := PBin OpEq Ra (K 1). Definition pb := PBin OpEq Rb (K 1). Definition pc := PBin OpEq Sa (K 1).

(** Full claim: for every predicate, flatten_and_predicate yields an equivalent one.  False: a nested conjunction of twice
    the same disjunction is replaced by the disjunction's members, joined by AND. *)
Theorem C02_refuted : exists (p p' : pred xe) (r : row XI), wfp p = true /\
  flatten_and dedup p = Ok p' /\ sem XI r p = T3 /\ sem XI r p' = F3.
Proof.
  exists (PAnd [PAnd [POr [pa; pb]; POr [pa; pb]]; pc]), (PAnd [pa; pb; pc]),
         (fun c => if c_name c =? 0 then Some 1 else Some 0).
  repeat split; vm_compute; reflexivity.
Qed.
Print Assumptions C02_refuted.
(** With a NOT instead of the OR, the function raises. *)
Theorem C02_raises_refuted : exists p : pred xe, wfp p = true /\ flatten_and dedup p = Raise TypeError.
Proof. exists (PAnd [PAnd [PNot pa; PNot pa]; pc]). split; vm_compute; reflexivity. Qed.
Print Assumptions C02_raises_refuted.
(** Missing: exactly the nested conjunctions all of whose members are one and the same OR/NOT.  [ord] is the iteration
    order of the Python set that collects the members. *)
Theorem C02_flatten_partial : forall (E : Type) (ecols : E -> list col) (ord : list (pred E) -> list (pred E)),
  (forall l, lists_set (ord l) l) -> forall p, wfp p = true -> no_repeated_compound p ->
  exists p', flatten_and ord p = Ok p' /\
    (forall (I : interp E) r, sem I r p' = sem I r p) /\
    (forall q, In q (conjuncts p') <-> In q (conjuncts p)) /\
    (forall c, In c (pcols ecols p') <-> In c (pcols ecols p)) /\
    (forall ps q, p' = PAnd ps -> In q ps -> match q with PAnd _ => False | _ => True end).
Proof. exact @flatten_correct. Qed.
Print Assumptions C02_flatten_partial.
Example C02_ex : let p := PAnd [PAnd [pa; PAnd [pb; pa]]; POr [pa; PAnd [pb; pc]]; pc] in
  wfp p = true /\ no_repeated_compound p /\ flatten_and dedup p = Ok (PAnd [pb; pa; POr [pa; PAnd [pb; pc]]; pc]).
Proof.
  split; [reflexivity|]. split; [|vm_compute; reflexivity].
  intros q Hq (x & Hx & Hall). assert (Hpb : In pb (conjuncts q)).
  { inversion Hq as [qs ps Hin|y qs ps Hin Hn]; subst.
    - destruct Hin as [[= <-]|[H|[H|[]]]]; try discriminate. simpl. auto.
    - destruct Hin as [[= <-]|[H|[H|[]]]]; try discriminate.
      inversion Hn as [qs' ps' Hin'|y' qs' ps' Hin' Hn']; subst.
      + destruct Hin' as [H|[[= <-]|[]]]; try discriminate. simpl. auto.
      + destruct Hin' as [H|[[= <-]|[]]]; try discriminate.
        inversion Hn' as [qs' ps' Hin''|y' qs' ps' Hin'' Hn'']; subst; destruct Hin'' as [H|[H|[]]]; discriminate. }
  specialize (Hall pb Hpb). subst x. discriminate.
Qed.

(** ** C12 *)
(** Full claim: the fragment is implied by the original.  False for a disjunction that loses a member ... *)
Theorem C12_or_refuted : exists (p q : pred xe) (ts : list tbl) (r : row XI), wfp p = true /\
  fragment xcols ts p = Ok (Some q) /\ sem XI r p = T3 /\ sem XI r q = F3.
Proof.
  exists (POr [pa; pc]), pa, [0], (fun c => if deqb (c_tab c) (Some 0) then Some 0 else Some 1).
  repeat split; vm_compute; reflexivity.
Qed.
Print Assumptions C12_or_refuted.
(** ... and NOT raises, even if it only concerns tables of the fragment. *)
Theorem C12_not_refuted : exists (p : pred xe) ts, wfp p = true /\ incl (ptabs xcols p) ts /\ fragment xcols ts p = Raise TypeError.
Proof. exists (PNot pa), [0]. split; [reflexivity|]. split; [intros t [<-|[]]; now left|reflexivity]. Qed.
Print Assumptions C12_not_refuted.
(** The tables are right whenever there is a result. *)
Theorem C12_tables : forall (E : Type) (ecols : E -> list col) (ts : list tbl) (p q : pred E),
  fragment ecols ts p = Ok (Some q) -> forall t, mentions (pcols ecols q) t -> In t ts.
Proof. intros E ecols ts p q H t Ht. apply (fragment_tables ecols ts p q H). now apply In_ctabs. Qed.
Print Assumptions C12_tables.
(** Missing: NOT, and disjunctions that are only partly inside the fragment. *)
Theorem C12_implied_partial : forall (E : Type) (ecols : E -> list col) (ts : list tbl) (p : pred E),
  wfp p = true -> not_free p -> or_whole (fun b => forall t, mentions (pcols ecols b) t -> In t ts) p ->
  (exists o, fragment ecols ts p = Ok o) /\
  forall (I : interp E) r q, fragment ecols ts p = Ok (Some q) -> sem I r p = T3 -> sem I r q = T3.
Proof.
  intros E ecols ts p Hwf Hnf How. split; [now apply fragment_ok|]. intros I r q Hq Hp.
  assert (Hiff : forall b, inside ecols ts b <-> forall t, mentions (pcols ecols b) t -> In t ts).
  { intros b. unfold inside, onlytabs, incl, ptabs, mentions. split; intros H t Ht; apply H; now apply In_ctabs. }
  assert (Hsl : forall (P Q : pred E -> Prop), (forall b, P b <-> Q b) -> forall p, some_leaf P p <-> some_leaf Q p).
  { intros P Q HPQ p0. induction p0 as [op a b|a lo hi|a vs|op a|p0 IH|ps IH|ps IH] using pred_ind'; cbn [some_leaf]; try apply HPQ; [exact IH| |].
    - rewrite !some_leaf_list. rewrite Forall_forall in IH. split; intros (z & Hz & H); exists z; (split; [assumption|]); now apply (IH z Hz).
    - rewrite !some_leaf_list. rewrite Forall_forall in IH. split; intros (z & Hz & H); exists z; (split; [assumption|]); now apply (IH z Hz). }
  apply (fragment_implied ecols I r ts p Hwf Hnf) with (q := q); try assumption.
  clear Hq Hp Hwf Hnf. induction p as [op a b|a lo hi|a vs|op a|p IH|ps IH|ps IH] using pred_ind'; try exact Logic.I.
  - cbn [or_whole] in *. rewrite or_whole_list in *. rewrite Forall_forall in *. intros z Hz. apply (IH z Hz). now apply How.
  - cbn [or_whole] in *. destruct How as [H|H]; [left|right]; intros Hs; apply H; revert Hs; apply Hsl; intros b; rewrite Hiff; tauto.
Qed.
Print Assumptions C12_implied_partial.
Example C12_ex : let p := PAnd [PBin OpEq Ra Sa; POr [pa; pb]; POr [pc; PBin OpEq Ra Ta]; pb] in
  wfp p = true /\ not_free p /\ or_whole (fun b => forall t, mentions (pcols xcols b) t -> In t [0]) p /\
  fragment xcols [0] p = Ok (Some (PAnd [POr [pa; pb]; pb])).
Proof.
  split; [reflexivity|]. split; [cbn; tauto|]. split; [|vm_compute; reflexivity]. cbn.
  split; [exact Logic.I|]. split; [left|split; [right|tauto]].
  - intros [H|[H|[]]]; apply H; intros t (c & [<-|[]] & Hc); injection Hc as <-; now left.
  - intros [H|[H|[]]].
    + destruct (H 1) as [|[]]; [exists (mkcol (Some 1) 0); simpl; auto|discriminate].
    + destruct (H 2) as [|[]]; [exists (mkcol (Some 2) 0); simpl; auto|discriminate].
Qed.

(** ** C13 (for any renaming [ren] of expressions that is correct on expressions; see Expr_props for the expressions) *)
Theorem C13_rename : forall (E : Type) (I : interp E) (ren : E -> E) (f : col -> col) (r : row I),
  (forall e, val I r (ren e) = val I (fun c => r (f c)) e) ->
  forall p, sem I r (rename_pred ren p) = sem I (fun c => r (f c)) p.
Proof. exact @rename_sem. Qed.
Print Assumptions C13_rename.
Theorem C13_rename_columns : forall (E : Type) (ecols : E -> list col) (ren : E -> E) (f : col -> col),
  (forall e, ecols (ren e) = map f (ecols e)) -> forall p, pcols ecols (rename_pred ren p) = map f (pcols ecols p).
Proof. exact @rename_cols. Qed.
Print Assumptions C13_rename_columns.
Fixpoint xren (f : col -> col) (e : xe) : xe :=
  match e with XCol c => XCol (f c) | XInt v => XInt v | XAdd a b => XAdd (xren f a) (xren f b) end.
Example C13_ex : forall f r, (forall e, val XI r (xren f e) = val XI (fun c => r (f c)) e) /\
  sem XI (fun c => Some (c_name c)) (rename_pred (xren (fun c => mkcol (Some 7) (S (c_name c)))) (PBetween Ra (XAdd (K 1) Sa) Rb)) = F3.
Proof.
  intros f r. split; [|vm_compute; reflexivity]. cbn. induction e as [c|v|a IHa b IHb]; cbn; [reflexivity|reflexivity|]. now rewrite IHa, IHb.
Qed.

(** ** C11 *)
(** The equivalence classes are the connected components of the equality graph: two different columns are in one class
    iff they are connected by equality joins, and classes are disjoint and duplicate free. *)
Theorem C11_classes : forall (E : Type) (ecols : E -> list col) (js : list (pred E)) a b, a <> b ->
  ((exists k, In k (ec_classes ecols js) /\ In a k /\ In b k) <-> equated (ec_edges ecols js) a b) /\
  (forall k, In k (ec_classes ecols js) -> NoDup k) /\
  (forall k k' c, In k (ec_classes ecols js) -> In k' (ec_classes ecols js) -> In c k -> In c k' -> k = k').
Proof.
  intros E ecols js a b Hab. pose proof (ec_classes_spec ecols js) as Hinv. split; [split|].
  - intros (k & Hk & Ha & Hb). destruct Hinv as (_ & H2 & _). destruct (H2 k a b Hk Ha Hb); [contradiction|assumption].
  - intros H. now apply (equated_same_class _ _ a b Hinv).
  - destruct Hinv as (H1 & _ & _ & _ & H5). auto.
Qed.
Print Assumptions C11_classes.
(** Full claim: same rows.  False as soon as there is a join other than an equality: it is dropped. *)
Theorem C11_non_equi_refuted : exists (p q : pred xe) (r : row XI), wfp p = true /\
  add_ec xcols XCol (collect_joins xcols p) (collect_filters xcols p) = Ok q /\ sem XI r p = F3 /\ sem XI r q = T3.
Proof.
  exists (PAnd [PBin OpEq Ra Sa; PBin OpLt Rb Sb]), (PBin OpEq Ra Sa), (fun _ => Some 1). repeat split; vm_compute; reflexivity.
Qed.
Print Assumptions C11_non_equi_refuted.
(** ... also an equality of compound expressions is replaced by an equality of the bare columns. *)
Theorem C11_compound_refuted : exists (p q : pred xe) (r : row XI), wfp p = true /\
  add_ec xcols XCol (collect_joins xcols p) (collect_filters xcols p) = Ok q /\ sem XI r p = F3 /\ sem XI r q = T3.
Proof.
  exists (PBin OpEq (XAdd Ra (K 1)) Sa), (PBin OpEq Ra Sa), (fun _ => Some 1). repeat split; vm_compute; reflexivity.
Qed.
Print Assumptions C11_compound_refuted.
(** Missing: joins that are not equalities of two columns of different tables. *)
Theorem C11_same_rows_partial : forall (E : Type) (ecols : E -> list col) (colexp : col -> E) (I : interp E) (r : row I) js fs,
  (forall c, ecols (colexp c) = [c]) -> (forall c, val I r (colexp c) = r c) -> eq_sound I ->
  (forall j, In j js -> simple_equi colexp j) -> js ++ fs <> [] ->
  exists p, add_ec ecols colexp js fs = Ok p /\ (sem I r p = T3 <-> forall q, In q (js ++ fs) -> sem I r q = T3).
Proof. exact @add_ec_equiv. Qed.
Print Assumptions C11_same_rows_partial.
Example C11_ex : eq_sound XI /\ (forall j, In j [PBin OpEq Ra Sa; PBin OpEq Sa Ta] -> simple_equi XCol j) /\
  exists p, add_ec xcols XCol [PBin OpEq Ra Sa; PBin OpEq Sa Ta] [pb] = Ok p /\ length (conjuncts p) = 4.
Proof.
  split; [|split].
  - split.
    + intros [x|] [y|]; cbn; try discriminate. destruct (Nat.eqb_spec x y) as [->|]; [now rewrite Nat.eqb_refl|discriminate].
    + intros [x|] [y|] [z|]; cbn; try discriminate. destruct (Nat.eqb_spec x y) as [->|]; [auto|discriminate].
  - intros j [<-|[<-|[]]]; [exists (mkcol (Some 0) 0), (mkcol (Some 1) 0)|exists (mkcol (Some 1) 0), (mkcol (Some 2) 0)]; repeat split; discriminate.
  - eexists. split; [vm_compute; reflexivity|reflexivity].
Qed.

(** Every equality that follows from the equality joins is stated explicitly, between every two columns of a class. *)
Theorem C11_all_equalities : forall (E : Type) (ecols : E -> list col) (colexp : col -> E) js fs a b p, a <> b ->
  equated (ec_edges ecols js) a b -> add_ec ecols colexp js fs = Ok p ->
  In (PBin OpEq (colexp a) (colexp b)) (conjuncts p) \/ In (PBin OpEq (colexp b) (colexp a)) (conjuncts p).
Proof.
  intros E ecols colexp js fs a b p Hab Heq Hp.
  destruct (equated_same_class _ _ a b (ec_classes_spec ecols js) Heq) as (k & Hk & Ha & Hb).
  assert (Hin : forall c d, In (c, d) (all_pairs k) -> In (PBin OpEq (colexp c) (colexp d)) (ec_predicates colexp (ec_classes ecols js) ++ fs)).
  { intros c d H. apply in_app_iff. left. unfold ec_predicates. apply in_flat_map. exists k. split; [assumption|]. apply in_map_iff. exists (c, d). auto. }
  assert (Hconj : forall q, In q (ec_predicates colexp (ec_classes ecols js) ++ fs) -> conjuncts q = [q] -> In q (conjuncts p)).
  { unfold add_ec in Hp. intros q Hq Hc. destruct (ec_predicates colexp (ec_classes ecols js) ++ fs) as [|x [|y l]]; [discriminate| |]; injection Hp as <-.
    - destruct Hq as [->|[]]. rewrite Hc. now left.
    - change (conjuncts (PAnd (x :: y :: l))) with (flat_map conjuncts (x :: y :: l)). apply in_flat_map. exists q. rewrite Hc. split; [assumption|now left]. }
  destruct (all_pairs_complete k a b Ha Hb Hab) as [H|H]; [left|right]; (apply Hconj; [now apply Hin|reflexivity]).
Qed.
Print Assumptions C11_all_equalities.
Example C11_ex_all : equated (ec_edges xcols [PBin OpEq Ra Sa; PBin OpEq Sa Ta]) (mkcol (Some 0) 0) (mkcol (Some 2) 0).
Proof. eapply eq_trans; apply eq_edge; simpl; auto. Qed.

(** ** C14 *)
(** The implicit query admits exactly the row combinations of the explicit one (each combination of base rows is one row
    of the result, so the bags agree); its FROM list contains the same tables, each as often as before.  Missing: inputs
    without any condition (false, below), and conditions excluded in C02. *)
Theorem C14_same_rows_partial : forall (E : Type) (ecols : E -> list col) (ord : list (pred E) -> list (pred E)) items where_,
  (forall l, lists_set (ord l) l) -> Forall inner_tree items ->
  (forall c, In c (match where_ with Some w => [w] | None => [] end ++ flat_map source_conds items) -> wfp c = true /\ plain_condition c) ->
  (exists a b c, In (SInner a b c) items) \/ where_ <> None ->
  exists tabs p, e2i ord items where_ = Ok (tabs, p) /\ Permutation tabs (flat_map source_tables items) /\
    forall (I : interp E) (ok : tbl -> Prop) (r : row I),
      ((forall t, In t tabs -> ok t) /\ sem I r p = T3) <->
      (Forall (admits I ok r) items /\ match where_ with Some w => sem I r w = T3 | None => True end).
Proof. exact @e2i_spec. Qed.
Print Assumptions C14_same_rows_partial.
Example C14_ex : let items := [SInner (SInner (SDirect 0) (SDirect 1) (Some (PBin OpEq Ra Sa))) (SDirect 2) (Some (PAnd [PBin OpEq Sb Ta; pa])); SDirect 3] in
  Forall inner_tree items /\ (forall c, In c ([pb] ++ flat_map source_conds items) -> wfp c = true /\ plain_condition c) /\
  e2i dedup items (Some pb) = Ok ([3; 2; 1; 0], PAnd [pb; PBin OpEq Sb Ta; pa; PBin OpEq Ra Sa]).
Proof.
  split; [repeat constructor; discriminate|]. split; [|vm_compute; reflexivity].
  assert (Hb : forall p : pred xe, is_base p = true -> plain_condition p).
  { intros p Hp. split; [|destruct p; try discriminate; exact Logic.I]. intros q Hq. apply nested_and_shape in Hq as (? & ? & _ & ->). discriminate. }
  cbn. intros c [<-|[<-|[<-|[]]]]; (split; [reflexivity|]); try (now apply Hb).
  split.
  - intros q Hq. inversion Hq as [qs ps Hin|y qs ps Hin Hn]; subst; destruct Hin as [H|[H|[]]]; discriminate.
  - intros (x & Hx & Hall). assert (pa = x) by (apply Hall; simpl; auto). subst x. discriminate.
Qed.
(** A single table without any condition cannot be transformed. *)
Theorem C14_no_condition_refuted : exists items : list (@source xe), Forall inner_tree items /\ e2i dedup items None = Raise ValueError.
Proof. exists [SDirect 0]. split; [repeat constructor|reflexivity]. Qed.
Print Assumptions C14_no_condition_refuted.
(** The defect of C02 is inherited: the result can lose rows. *)
Theorem C14_repeated_or_refuted : exists items w tabs (p : pred xe) (r : row XI), Forall inner_tree items /\ wfp w = true /\
  e2i dedup items (Some w) = Ok (tabs, p) /\ Forall (admits XI (fun _ => True) r) items /\ sem XI r w = T3 /\ sem XI r p = F3.
Proof.
  exists [SInner (SDirect 0) (SDirect 1) (Some pc)], (PAnd [POr [pa; pb]; POr [pa; pb]]), [1; 0], (PAnd [pa; pb; pc]),
         (fun c => if c_name c =? 0 then Some 1 else Some 0).
  split; [repeat constructor; discriminate|]. split; [reflexivity|]. split; [vm_compute; reflexivity|].
  split; [repeat constructor|]. split; vm_compute; reflexivity.
Qed.
Print Assumptions C14_repeated_or_refuted.

(** ** C57 *)
(** After removing a base predicate it does not occur any more ... *)
Theorem C57_gone : forall (E : Type) (EE : EqD E) (x p q : pred E), is_base x = true -> remove_pred x p = Some q -> ~ occurs x q.
Proof. exact @remove_no_leaf. Qed.
Print Assumptions C57_gone.
(** ... (for compound predicates this is false: collapsing can create the removed predicate again) ... *)
Theorem C57_compound_refuted : exists (x p : pred xe), wfp x = true /\ wfp p = true /\ remove_pred x p = Some x.
Proof. exists (PAnd [pa; pb]), (PAnd [POr [pa; PAnd [pa; pb]]; pb]). repeat split; vm_compute; reflexivity. Qed.
Print Assumptions C57_compound_refuted.
(** ... nothing changes if it did not occur ... *)
Theorem C57_absent : forall (E : Type) (EE : EqD E) (x p : pred E), wfp p = true -> ~ occurs x p -> remove_pred x p = Some p.
Proof. exact @remove_absent. Qed.
Print Assumptions C57_absent.
(** ... and removing a conjunct loses exactly that condition: adding it back gives the original truth value. *)
Theorem C57_conjunct : forall (E : Type) (EE : EqD E) (I : interp E) (r : row I) (x p : pred E),
  wfp p = true -> only_conjunct x p -> occurs x p ->
  and3 (match remove_pred x p with Some q => sem I r q | None => T3 end) (sem I r x) = sem I r p.
Proof. exact @remove_conjunct. Qed.
Print Assumptions C57_conjunct.
Example C57_ex : let p := PAnd [pa; PAnd [POr [pb; pc]; pc]; POr [pa; pb]] in
  remove_pred (POr [pb; pc]) p = Some (PAnd [pa; pc; POr [pa; pb]]) /\ only_conjunct (POr [pb; pc]) p /\ occurs (POr [pb; pc]) p.
Proof.
  split; [vm_compute; reflexivity|]. split.
  - right. split; [right; intros [H|[]]; discriminate|]. split.
    + right. split; [left; reflexivity|]. split; [right; intros [H|[]]; discriminate|exact Logic.I].
    + split; [|exact Logic.I]. right. intros [H|[[H|[]]|[[H|[]]|[]]]]; discriminate.
  - right. right. left. right. left. left. reflexivity.
Qed.
