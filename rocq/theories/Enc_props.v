(** Property theorems for C312-C316 (JSON encoding, reading plan parameters and table sequences, hashable containers). *)
From Coq Require Import List Bool Arith ZArith Ascii String Lia Permutation.
From Verif Require Import PyBase Ident_model Enc_model Enc_spec.
Import ListNotations.

Section ObjInd.
  Context (P : obj -> Prop) (H1 : P ONone) (H2 : forall b, P (OBool b)) (H3 : forall z, P (ONum z)) (H4 : forall s, P (OStr s))
    (H5 : forall l, Forall P l -> P (OSeq l)) (H6 : forall l, Forall P l -> P (OSet l)) (H7 : forall l, Forall (fun e => P (snd e)) l -> P (ODict l))
    (H8 : forall v, P v -> P (OEnum v)) (H9 : forall s, P (OPath s)) (H10 : forall s, P (OTime s)) (H11 : forall z, P (ODelta z))
    (H12 : forall v, P v -> P (OJson v)) (H13 : forall v fs, P v -> Forall (fun e => P (snd e)) fs -> P (OData (Some v) fs))
    (H14 : forall fs, Forall (fun e => P (snd e)) fs -> P (OData None fs)) (H15 : P OOther).
  Fixpoint obj_ind' (o : obj) : P o :=
    let all := fix all (l : list obj) : Forall P l := match l with [] => Forall_nil _ | x :: r => Forall_cons x (obj_ind' x) (all r) end in
    let alld := fix alld (l : list (key * obj)) : Forall (fun e => P (snd e)) l :=
                  match l with [] => Forall_nil _ | x :: r => Forall_cons x (obj_ind' (snd x)) (alld r) end in
    let allf := fix allf (l : list (string * obj)) : Forall (fun e => P (snd e)) l :=
                  match l with [] => Forall_nil _ | x :: r => Forall_cons x (obj_ind' (snd x)) (allf r) end in
    match o with
    | ONone => H1 | OBool b => H2 b | ONum z => H3 z | OStr s => H4 s | OSeq l => H5 l (all l) | OSet l => H6 l (all l) | ODict l => H7 l (alld l)
    | OEnum v => H8 v (obj_ind' v) | OPath s => H9 s | OTime s => H10 s | ODelta z => H11 z | OJson v => H12 v (obj_ind' v)
    | OData (Some v) fs => H13 v fs (obj_ind' v) (allf fs) | OData None fs => H14 fs (allf fs) | OOther => H15
    end.
End ObjInd.

Lemma rmapM_F2 {A B} (f : A -> res B) (R : A -> B -> Prop) l : Forall (fun x => forall y, f x = Ok y <-> R x y) l ->
  forall ys, rmapM f l = Ok ys <-> Forall2 R l ys.
Proof.
  induction 1 as [|x l H F IH]; intros ys; cbn.
  - split; [intros E; injection E as <-; constructor|intros E; inversion E; reflexivity].
  - split.
    + destruct (f x) as [y|] eqn:E; [|discriminate]. cbn. destruct (rmapM f l) as [r|] eqn:E2; [|discriminate]. cbn. intros Q. injection Q as <-.
      constructor; [now apply H|]. now apply IH.
    + intros Q. inversion Q; subst. rewrite (proj2 (H _) H2). cbn. apply IH in H4. rewrite H4. reflexivity.
Qed.
Lemma rmapM_TE {A B} (f : A -> res B) l : Forall (fun x => forall e, f x = Raise e -> e = TypeError) l -> forall e, rmapM f l = Raise e -> e = TypeError.
Proof.
  induction 1 as [|x l H F IH]; intros e; cbn; [discriminate|]. destruct (f x) as [y|e'] eqn:E; cbn.
  - destruct (rmapM f l) eqn:E2; cbn; [discriminate|]. intros Q. injection Q as <-. now apply IH.
  - intros Q. injection Q as <-. now apply H.
Qed.
Lemma rmap_Ok {A B} (f : A -> B) (r : res A) y : rmap f r = Ok y <-> exists x, r = Ok x /\ y = f x.
Proof. destruct r as [x|]; cbn; split; [intros E; injection E as <-; eauto|intros (z & E & ->); injection E as ->; reflexivity|discriminate|intros (z & E & _); discriminate]. Qed.

Section Encode.
  Context (show : Z -> string).
  Notation enc := (enc show).
  Definition enc_kv (b : bool) (e : key * obj) : res (string * jv) := rbind (key_text show (fst e)) (fun t => rmap (pair t) (enc b (snd e))).
  Definition enc_f (e : string * obj) : res (string * jv) := rmap (pair (fst e)) (enc true (snd e)).
  Lemma enc_seq b l : enc b (OSeq l) = rmap VArr (rmapM (enc b) l).
  Proof. cbn [Enc_model.enc]. f_equal. induction l as [|x l IH]; [reflexivity|]. cbn. destruct (enc b x); [|reflexivity]. cbn. rewrite IH. destruct (rmapM _ l); reflexivity. Qed.
  Lemma enc_set b l : enc b (OSet l) = rmap VArr (rmapM (enc false) l).
  Proof. cbn [Enc_model.enc]. f_equal. induction l as [|x l IH]; [reflexivity|]. cbn. destruct (enc false x); [|reflexivity]. cbn. rewrite IH. destruct (rmapM _ l); reflexivity. Qed.
  Lemma enc_dict b l : enc b (ODict l) = rmap VObj (rmapM (enc_kv b) l).
  Proof.
    cbn [Enc_model.enc]. f_equal. induction l as [|[k x] l IH]; [reflexivity|]. cbn [rmapM]. rewrite IH. unfold enc_kv at 2. cbn [fst snd].
    destruct (key_text show k); [|reflexivity]. cbn. destruct (enc b x); [|reflexivity]. cbn. destruct (rmapM _ l); reflexivity.
  Qed.
  Lemma enc_fields l : (fix go l := match l with [] => Ok [] | (k, x) :: r => rbind (enc true x) (fun j => rmap (cons (k, j)) (go r)) end) l = rmapM enc_f l.
  Proof.
    induction l as [|[k x] l IH]; [reflexivity|]. cbn [rmapM]. rewrite IH. unfold enc_f at 2. cbn [fst snd]. destruct (enc true x); [|reflexivity]. cbn.
    destruct (rmapM _ l); reflexivity.
  Qed.
  Lemma key_ok k t : key_text show k = Ok t <-> key_name show k t.
  Proof. destruct k as [s|z|[]| |n]; cbn; split; intros H; try (injection H as <-; constructor); try discriminate; inversion H; reflexivity. Qed.

  Lemma enc_ok : forall o b, tidy b o -> forall j, enc b o = Ok j <-> represents show o j.
  Proof.
    induction o using obj_ind'; intros bb T j;
      try (cbn; split; [intros E; injection E as <-; constructor|intros E; inversion E; reflexivity]).
    - rewrite enc_seq, rmap_Ok. inversion T; subst.
      assert (K : Forall (fun x => forall y, enc bb x = Ok y <-> represents show x y) l) by (rewrite Forall_forall in *; intros x I; apply H; auto).
      split; [intros (x & E & ->); constructor; apply (rmapM_F2 _ _ _ K); exact E|]. intros E. inversion E; subst. eexists. split; [|reflexivity].
      apply (rmapM_F2 _ _ _ K). assumption.
    - rewrite enc_set, rmap_Ok. inversion T; subst.
      assert (K : Forall (fun x => forall y, enc false x = Ok y <-> represents show x y) l) by (rewrite Forall_forall in *; intros x I; apply H; auto).
      split; [intros (x & E & ->); constructor; apply (rmapM_F2 _ _ _ K); exact E|]. intros E. inversion E; subst. eexists. split; [|reflexivity].
      apply (rmapM_F2 _ _ _ K). assumption.
    - rewrite enc_dict, rmap_Ok. assert (TT : Forall (fun e => tidy bb (snd e)) l) by (inversion T; assumption).
      assert (K : Forall (fun x => forall y, enc_kv bb x = Ok y <-> key_name show (fst x) (fst y) /\ represents show (snd x) (snd y)) l).
      { rewrite Forall_forall in *. intros [k x] I [t v]. cbn. specialize (H _ I bb (TT _ I) v). cbn in H. rewrite <- H, <- key_ok. unfold enc_kv. cbn [fst snd].
        destruct (key_text show k) as [t'|]; cbn; [|split; [discriminate|intros [Q _]; discriminate]]. destruct (enc bb x); cbn; split; try discriminate.
        - intros Q. injection Q as -> ->. split; reflexivity.
        - intros [Q R]. congruence.
        - intros [_ R]. discriminate. }
      split; [intros (x & E & ->); constructor; apply (rmapM_F2 _ _ _ K); exact E|]. intros E. inversion E; subst. eexists. split; [|reflexivity].
      apply (rmapM_F2 _ _ _ K). assumption.
    - cbn. inversion T; subst. rewrite (IHo false); [|assumption]. split; [now constructor|intros E; now inversion E].
    - cbn. inversion T; subst. rewrite (IHo false); [|assumption]. split; [now constructor|intros E; now inversion E].
    - inversion T; subst. cbn. rewrite (IHo false); [|assumption]. split; [now constructor|intros E; now inversion E].
    - assert (E0 : enc bb (OData None fs) = rmap VObj (rmapM enc_f fs)) by (rewrite <- enc_fields; destruct bb; reflexivity).
      rewrite E0, rmap_Ok. assert (TT : Forall (fun e => tidy true (snd e)) fs) by (inversion T; assumption).
      assert (K : Forall (fun x => forall y, enc_f x = Ok y <-> fst x = fst y /\ represents show (snd x) (snd y)) fs).
      { rewrite Forall_forall in *. intros [k x] I [t v]. cbn. specialize (H _ I true (TT _ I) v). cbn in H. rewrite <- H. unfold enc_f. cbn [fst snd].
        destruct (enc true x); cbn; split; try discriminate.
        - intros Q. injection Q as -> ->. split; reflexivity.
        - intros [Q R]. congruence.
        - intros [_ R]. discriminate. }
      split; [intros (x & E & ->); constructor; apply (rmapM_F2 _ _ _ K); exact E|]. intros E. inversion E; subst. eexists. split; [|reflexivity].
      apply (rmapM_F2 _ _ _ K). assumption.
    - cbn. split; [discriminate|intros E; inversion E].
  Qed.
  Lemma enc_te : forall o b e, enc b o = Raise e -> e = TypeError.
  Proof.
    induction o using obj_ind'; intros bb ex; try (cbn; discriminate).
    - rewrite enc_seq. destruct (rmapM (enc bb) l) eqn:E; cbn; [discriminate|]. intros Q. injection Q as <-. revert E. apply rmapM_TE. rewrite Forall_forall in *. intros x I e'. apply (H x I).
    - rewrite enc_set. destruct (rmapM (enc false) l) eqn:E; cbn; [discriminate|]. intros Q. injection Q as <-. revert E. apply rmapM_TE. rewrite Forall_forall in *. intros x I e'. apply (H x I).
    - rewrite enc_dict. destruct (rmapM (enc_kv bb) l) eqn:E; cbn; [discriminate|]. intros Q. injection Q as <-. revert E. apply rmapM_TE.
      rewrite Forall_forall in *. intros [k x] I e'. unfold enc_kv. cbn [fst snd]. specialize (H _ I bb). cbn in H.
      destruct k; cbn; try (destruct (enc bb x) eqn:E2; cbn; [discriminate|intros Q; injection Q as <-; apply H; reflexivity]). intros Q. injection Q as <-. reflexivity.
    - cbn. apply IHo.
    - cbn. apply IHo.
    - destruct bb; [|cbn; apply IHo]. cbn. rewrite enc_fields. destruct (rmapM enc_f fs) eqn:E; cbn; [discriminate|]. intros Q. injection Q as <-. revert E. apply rmapM_TE.
      rewrite Forall_forall in *. intros [k x] I e'. unfold enc_f. cbn [fst snd]. specialize (H _ I true). cbn in H.
      destruct (enc true x) eqn:E2; cbn; [discriminate|intros Q; injection Q as <-; apply H; reflexivity].
    - assert (E0 : enc bb (OData None fs) = rmap VObj (rmapM enc_f fs)) by (rewrite <- enc_fields; destruct bb; reflexivity). rewrite E0.
      destruct (rmapM enc_f fs) eqn:E; cbn; [discriminate|]. intros Q. injection Q as <-. revert E. apply rmapM_TE.
      rewrite Forall_forall in *. intros [k x] I e'. unfold enc_f. cbn [fst snd]. specialize (H _ I true). cbn in H.
      destruct (enc true x) eqn:E2; cbn; [discriminate|intros Q; injection Q as <-; apply H; reflexivity].
    - cbn. intros Q. injection Q as <-. reflexivity.
  Qed.
End Encode.

(** ** C312: to_json writes the representation of an object, and fails with a TypeError if there is none.
    Partial: dataclasses with a __json__ of their own must not be nested within dataclasses. *)
Theorem C312_to_json_partial : forall show o, tidy false o -> o <> ONone ->
  (forall j, to_json show o = Ok (Some j) <-> represents show o j) /\ ((forall j, ~ represents show o j) -> to_json show o = Raise TypeError).
Proof.
  intros show o T N. assert (E : to_json show o = rmap Some (enc show false o)) by (destruct o; congruence || reflexivity). rewrite E.
  split.
  - intros j. rewrite rmap_Ok, <- (enc_ok show o false T). split; [intros (x & X & Y); congruence|eauto].
  - intros H. destruct (enc show false o) as [j|e] eqn:Q; [exfalso; apply (H j); apply (enc_ok show o false T); exact Q|]. cbn.
    rewrite (enc_te show o false e Q). reflexivity.
Qed.
Print Assumptions C312_to_json_partial.
(* None is not encoded, but returned. *)
Theorem C312_none : forall show, to_json show ONone = Ok None.
Proof. reflexivity. Qed.
Print Assumptions C312_none.
(* Within a dataclass, the representation of other dataclasses is replaced by their fields. *)
Theorem C312_to_json_refuted : ~ forall show o j, represents show o j -> to_json show o = Ok (Some j).
Proof.
  intros H. specialize (H (fun _ => ""%string) (OData None [("op", OData (Some (OStr "scan")) [("table", OStr "t")])]%string) (VObj [("op", VStr "scan")]%string)).
  assert (R : to_json (fun _ => ""%string) (OData None [("op", OData (Some (OStr "scan")) [("table", OStr "t")])]%string) = Ok (Some (VObj [("op", VObj [("table", VStr "t")])]%string)))
    by reflexivity.
  rewrite R in H. assert (X : represents (fun _ => ""%string) (OData None [("op", OData (Some (OStr "scan")) [("table", OStr "t")])]%string) (VObj [("op", VStr "scan")]%string))
    by (constructor; constructor; [split; [reflexivity|constructor; constructor]|constructor]).
  specialize (H X). discriminate.
Qed.
Print Assumptions C312_to_json_refuted.
Example C312_ex : let o := OSeq [OEnum (OStr "Seq. Scan"); OData (Some (ODict [(KNum 1, OSet [OPath "/tmp"])])) []; OJson (ODict [(KBool true, ONone)])]%string in
  tidy false o /\ to_json (fun _ => "1"%string) o = Ok (Some (VArr [VStr "Seq. Scan"; VObj [("1", VArr [VStr "/tmp"])]; VObj [("true", VNull)]]%string))
  /\ to_json (fun _ => "1"%string) (OSeq [ODict [(KOther 0, ONum 1)]]) = Raise TypeError.
Proof. cbn. split; [repeat constructor|split; reflexivity]. Qed.

(** ** C313: plan parameters can be written and read back.
    Partial: only if there are none. *)
Theorem C313_params_partial : forall show parse p, pm_cards p = [] -> pm_workers p = [] ->
  exists j, params_json show p = Ok (Some j) /\ read_params parse j = Ok p.
Proof. intros show parse [c w] C W. cbn in C, W. subst. eexists. split; reflexivity. Qed.
Print Assumptions C313_params_partial.
(* Otherwise they cannot be written, and whatever is written, parameters with hints cannot be read. *)
Theorem C313_params_refuted : forall show parse,
  (forall p, pm_cards p <> [] \/ pm_workers p <> [] -> params_json show p = Raise TypeError) /\
  (forall j p, read_params parse j = Ok p -> pm_cards p = [] /\ pm_workers p = []).
Proof.
  intros show parse. split.
  - intros [[|c l] [|w m]] H; cbn in *; try reflexivity. destruct H; congruence.
  - assert (R : forall o l, read_hints parse o = Ok l -> l = []).
    { intros [[| | | | |l]|] r; cbn; try discriminate; [|congruence]. destruct l as [|e l]; cbn; [congruence|]. destruct (parse (fst e)); discriminate. }
    intros [| | | | |l] p; cbn [read_params]; try discriminate. destruct (read_hints parse (vget l _)) as [c|] eqn:E1; [|discriminate]. cbn.
    destruct (read_hints parse (vget l "parallel_worker_hints")) as [w|] eqn:E2; [|discriminate]. cbn. intros Q. injection Q as <-. cbn. split; eapply R; eassumption.
Qed.
Print Assumptions C313_params_refuted.
Example C313_ex : params_json (fun _ => ""%string) {| pm_cards := [([mktref "t" "" false ""], 5%Z)]; pm_workers := [] |} = Raise TypeError. Proof. reflexivity. Qed.

(** ** C314: nested table sequences can be written and read back. *)
Section NestedInd.
  Context (P : nested -> Prop) (H1 : forall t, P (NTable t)) (H2 : forall l, Forall P l -> P (NList l)).
  Fixpoint nested_ind' (n : nested) : P n :=
    match n with
    | NTable t => H1 t
    | NList l => H2 l ((fix all (l : list nested) : Forall P l := match l with [] => Forall_nil _ | x :: r => Forall_cons x (nested_ind' x) (all r) end) l)
    end.
End NestedInd.
Lemma parse_list l : parse_nested (VArr l) = rmap NList (rmapM parse_nested l).
Proof. cbn [parse_nested]. f_equal. induction l as [|x l IH]; [reflexivity|]. cbn. destruct (parse_nested x); [|reflexivity]. cbn. rewrite IH. destruct (rmapM _ l); reflexivity. Qed.
(* For all sequences: the tree, the names and the aliases are kept. *)
Theorem C314_names : forall show n, named n ->
  exists j n', enc show false (nested_obj n) = Ok j /\ parse_nested j = Ok n' /\ same_names n n'.
Proof.
  intros show n. induction n as [t|l IH] using nested_ind'; intros N.
  - inversion N; subst. eexists. exists (NTable (mktref (t_full t) (t_alias t) false "")). split; [reflexivity|]. split; [|now constructor].
    cbn. unfold mk_table. cbn [str_or_empty]. assert (D : deqb (t_full t) ""%string && deqb (t_alias t) ""%string = false).
    { apply andb_false_iff. destruct H0 as [H0|H0]; [left|right]; unfold deqb; destruct (eqd _ _); congruence || reflexivity. }
    rewrite D. reflexivity.
  - inversion N; subst. assert (K : exists js ns, rmapM (enc show false) (map nested_obj l) = Ok js /\ rmapM parse_nested js = Ok ns /\ Forall2 same_names l ns).
    { clear N. induction l as [|x l IHl]; [exists [], []; repeat split; constructor|]. inversion IH; subst. inversion H0; subst.
      destruct (H2 H4) as (j & n' & E1 & E2 & S). destruct (IHl H3 H5) as (js & ns & F1 & F2 & F). exists (j :: js), (n' :: ns).
      cbn. rewrite E1, F1. cbn. rewrite E2, F2. cbn. repeat split. now constructor. }
    destruct K as (js & ns & E & F & S). exists (VArr js), (NList ns). cbn [nested_obj]. rewrite enc_seq, E. split; [reflexivity|]. rewrite parse_list, F. split; [reflexivity|]. now constructor.
Qed.
Print Assumptions C314_names.
(* Exactly the same for tables without schemas that are not virtual; schemas and virtual tables are missing. *)
Theorem C314_nested_partial : forall show n, named_only n -> exists j, enc show false (nested_obj n) = Ok j /\ parse_nested j = Ok n.
Proof.
  intros show n. induction n as [t|l IH] using nested_ind'; intros N.
  - inversion N; subst. eexists. split; [reflexivity|]. cbn. unfold mk_table. cbn [str_or_empty].
    assert (D : deqb (t_full t) ""%string && deqb (t_alias t) ""%string = false).
    { apply andb_false_iff. destruct H0 as [H0|H0]; [left|right]; unfold deqb; destruct (eqd _ _); congruence || reflexivity. }
    rewrite D. destruct t as [f a v s]. cbn in *. subst. reflexivity.
  - inversion N; subst. assert (K : exists js, rmapM (enc show false) (map nested_obj l) = Ok js /\ rmapM parse_nested js = Ok l).
    { clear N. induction l as [|x l IHl]; [exists []; split; reflexivity|]. inversion IH; subst. inversion H0; subst.
      destruct (H2 H4) as (j & E1 & E2). destruct (IHl H3 H5) as (js & F1 & F2). exists (j :: js). cbn. rewrite E1, F1. cbn. rewrite E2, F2. split; reflexivity. }
    destruct K as (js & E & F). exists (VArr js). cbn [nested_obj]. rewrite enc_seq, E. split; [reflexivity|]. rewrite parse_list, F. reflexivity.
Qed.
Print Assumptions C314_nested_partial.
Theorem C314_nested_refuted : exists n n' j, named n /\ (forall show, enc show false (nested_obj n) = Ok j) /\ parse_nested j = Ok n' /\ n' <> n /\
  exists t u, n = NList [NTable t] /\ n' = NList [NTable u] /\ t_schema t = "archive"%string /\ t_schema u = ""%string.
Proof.
  exists (NList [NTable (mktref "t" "" false "archive")]), (NList [NTable (mktref "t" "" false "")]). eexists. split; [constructor; constructor; [apply nm_table; left; discriminate|constructor]|].
  split; [reflexivity|]. split; [reflexivity|]. split; [discriminate|]. eexists _, _. repeat split.
Qed.
Print Assumptions C314_nested_refuted.
(* Anything but lists and dictionaries is refused. *)
Theorem C314_refused : forall j, (forall l, j <> VArr l) -> (forall l, j <> VObj l) -> parse_nested j = Raise TypeError /\ parse_nested (VArr [j]) = Raise TypeError.
Proof. intros [| | | |l|l] A O; try (split; reflexivity); [contradiction (A l)|contradiction (O l)]; reflexivity. Qed.
Print Assumptions C314_refused.
Example C314_ex : named_only (NList [NList [NTable (mktref "s" "a" false ""); NTable (mktref "t" "" false "")]; NTable (mktref "r" "" false "")]).
Proof. repeat first [apply no_list | apply no_table; [left; discriminate|reflexivity|reflexivity] | constructor]. Qed.

(** ** C315: make_hashable gives the documented counterpart, which can be hashed. *)
Section PvInd.
  Context (P : pv -> Prop) (H1 : forall n, P (PAtom n)) (H2 : forall n, P (PBad n)) (H3 : forall l, Forall P l -> P (PList l)) (H4 : forall l, Forall P l -> P (PTuple l))
    (H5 : forall l, Forall P l -> P (PSet l)) (H6 : forall l, Forall P l -> P (PFrozen l)) (H7 : forall l, Forall (fun e => P (snd e)) l -> P (PDict l))
    (H8 : forall l, Forall (fun e => P (snd e)) l -> P (PHDict l)).
  Fixpoint pv_ind' (v : pv) : P v :=
    let all := fix all (l : list pv) : Forall P l := match l with [] => Forall_nil _ | x :: r => Forall_cons x (pv_ind' x) (all r) end in
    let alld := fix alld (l : list (nat * pv)) : Forall (fun e => P (snd e)) l :=
                  match l with [] => Forall_nil _ | x :: r => Forall_cons x (pv_ind' (snd x)) (alld r) end in
    match v with
    | PAtom n => H1 n | PBad n => H2 n | PList l => H3 l (all l) | PTuple l => H4 l (all l) | PSet l => H5 l (all l) | PFrozen l => H6 l (all l)
    | PDict l => H7 l (alld l) | PHDict l => H8 l (alld l)
    end.
End PvInd.
Lemma F2_map {A} (P : A -> A -> Prop) f l : Forall (fun x => P x (f x)) l -> Forall2 P l (map f l).
Proof. induction 1; constructor; auto. Qed.
Theorem C315_counterpart : forall v, counterpart v (make_hashable v).
Proof.
  induction v using pv_ind'; cbn; constructor; try (apply F2_map; assumption).
  apply F2_map. eapply Forall_impl; [|exact H]. intros [k x] Hx. split; [reflexivity|exact Hx].
Qed.
Print Assumptions C315_counterpart.
Theorem C315_hashable : forall v, container v -> hashable (make_hashable v) /\ forall ha ht hf, exists h, hash ha ht hf (make_hashable v) = Ok h.
Proof.
  assert (A : forall v, container v -> hashable (make_hashable v)).
  { induction v using pv_ind'; intros C; inversion C; subst; cbn; constructor; try assumption.
    - apply Forall_map. rewrite Forall_forall in *. auto.
    - apply Forall_map. rewrite Forall_forall in *. auto.
    - apply Forall_map. rewrite Forall_forall in *. intros [k x] I. cbn. apply (H _ I). apply (H1 _ I). }
  assert (B : forall ha ht hf v, hashable v -> exists h, hash ha ht hf v = Ok h).
  { intros ha ht hf. induction v using pv_ind'; intros C; inversion C; subst.
    - eexists. reflexivity.
    - cbn. assert (K : exists hs, (fix go l := match l with [] => Ok [] | x :: r => rbind (hash ha ht hf x) (fun h => rmap (cons h) (go r)) end) l = Ok hs).
      { clear C. induction l as [|x l IHl]; [eexists; reflexivity|]. inversion H; subst. inversion H1; subst. destruct (H3 H5) as [h E]. destruct (IHl H4 H6) as [hs F]. rewrite E. cbn. rewrite F. eexists. reflexivity. }
      destruct K as [hs ->]. eexists. reflexivity.
    - cbn. assert (K : exists hs, (fix go l := match l with [] => Ok [] | x :: r => rbind (hash ha ht hf x) (fun h => rmap (cons h) (go r)) end) l = Ok hs).
      { clear C. induction l as [|x l IHl]; [eexists; reflexivity|]. inversion H; subst. inversion H1; subst. destruct (H3 H5) as [h E]. destruct (IHl H4 H6) as [hs F]. rewrite E. cbn. rewrite F. eexists. reflexivity. }
      destruct K as [hs ->]. eexists. reflexivity.
    - cbn [hash]. match goal with |- exists h, rbind (?go l) _ = Ok h => assert (K : exists hs, go l = Ok hs) end.
      { clear C. induction l as [|[k x] l IHl]; [eexists; reflexivity|]. inversion H; subst. inversion H1; subst. cbn [snd] in *. destruct (H3 H5) as [h E]. destruct (IHl H4 H6) as [hs F].
        rewrite F. inversion H5; subst; rewrite E; eexists; reflexivity. }
      destruct K as [hs ->]. eexists. reflexivity. }
  intros v C. split; [now apply A|]. intros ha ht hf. apply B. now apply A.
Qed.
Print Assumptions C315_hashable.
Theorem C315_idempotent : forall v, make_hashable (make_hashable v) = make_hashable v.
Proof.
  induction v using pv_ind'; cbn; try reflexivity; f_equal; rewrite map_map; apply map_ext_in; rewrite Forall_forall in H; intros x I; apply (H x I).
Qed.
Print Assumptions C315_idempotent.
Example C315_ex : make_hashable (PList [PDict [(1, PSet [PAtom 4]); (2, PList [PAtom 5])]; PAtom 6]) = PTuple [PHDict [(1, PFrozen [PAtom 4]); (2, PTuple [PAtom 5])]; PAtom 6]
  /\ container (PList [PDict [(1, PSet [PAtom 4]); (2, PList [PAtom 5])]; PAtom 6]).
Proof. split; [reflexivity|repeat constructor]. Qed.

(** ** C316: equal values have hashable counterparts with equal hash values.
    Partial: if the entries of dictionaries were inserted in the same order ([same]); sets may be iterated in any order. *)
Definition equal_dicts (l m : list (nat * pv)) : Prop := NoDup (map fst l) /\ Permutation l m.
Inductive same : pv -> pv -> Prop :=
| sm_atom n : same (PAtom n) (PAtom n)
| sm_list l m : Forall2 same l m -> same (PList l) (PList m)
| sm_tuple l m : Forall2 same l m -> same (PTuple l) (PTuple m)
| sm_set l m : Permutation l m -> same (PSet l) (PSet m)
| sm_frozen l m : Permutation l m -> same (PFrozen l) (PFrozen m)
| sm_dict l m : Forall2 (fun e f => fst e = fst f /\ same (snd e) (snd f)) l m -> same (PDict l) (PDict m).
Section HashLemmas.
  Context (ha : nat -> Z) (ht : list Z -> Z) (hf : list Z -> Z).
  Lemma hash_tuple l : hash ha ht hf (PTuple l) = rmap ht (rmapM (hash ha ht hf) l).
  Proof. cbn [hash]. f_equal. induction l as [|x l IH]; [reflexivity|]. cbn. destruct (hash ha ht hf x); [|reflexivity]. cbn. rewrite IH. destruct (rmapM _ l); reflexivity. Qed.
  Lemma hash_frozen l : hash ha ht hf (PFrozen l) = rmap hf (rmapM (hash ha ht hf) l).
  Proof. cbn [hash]. f_equal. induction l as [|x l IH]; [reflexivity|]. cbn. destruct (hash ha ht hf x); [|reflexivity]. cbn. rewrite IH. destruct (rmapM _ l); reflexivity. Qed.
  Lemma hash_hdict l : Forall (fun e => hashable (snd e)) l ->
    hash ha ht hf (PHDict l) = rbind (rmapM (fun e => hash ha ht hf (snd e)) l) (fun hs => Ok (ht [ht (map (fun e => ha (fst e)) l); ht hs])).
  Proof.
    intros F. cbn [hash]. f_equal. induction F as [|[k x] l Hx F IH]; [reflexivity|]. cbn [rmapM snd]. rewrite IH. cbn [snd] in Hx.
    inversion Hx; subst; (destruct (hash ha ht hf _); [|reflexivity]; cbn; destruct (rmapM _ l); reflexivity).
  Qed.
  Lemma rmapM_perm l m : Permutation l m -> forall hs, rmapM (hash ha ht hf) l = Ok hs -> exists hs', rmapM (hash ha ht hf) m = Ok hs' /\ Permutation hs hs'.
  Proof.
    induction 1 as [|x l m P IH|x y l|l m n P1 IH1 P2 IH2]; intros hs E.
    - exists hs. split; [exact E|apply Permutation_refl].
    - cbn in *. destruct (hash ha ht hf x) as [h|]; [|discriminate]. cbn in *. destruct (rmapM (hash ha ht hf) l) as [r|]; [|discriminate]. cbn in E. injection E as <-.
      destruct (IH r eq_refl) as (r' & -> & Q). eexists. split; [reflexivity|]. now constructor.
    - cbn in *. destruct (hash ha ht hf x) as [h|], (hash ha ht hf y) as [h'|]; cbn in *; try discriminate; destruct (rmapM (hash ha ht hf) l) as [r|]; cbn in *; try discriminate.
      injection E as <-. eexists. split; [reflexivity|]. constructor.
    - destruct (IH1 hs E) as (h2 & E2 & Q2). destruct (IH2 h2 E2) as (h3 & E3 & Q3). exists h3. split; [exact E3|]. eapply Permutation_trans; eassumption.
  Qed.
  Lemma rmapM_ext2 {A B} (f g : A -> res B) l m : Forall2 (fun x y => f x = g y) l m -> rmapM f l = rmapM g m.
  Proof. induction 1 as [|x y l m E F IH]; [reflexivity|]. cbn. rewrite E, IH. reflexivity. Qed.
End HashLemmas.
(* Belongs to C315: mutable containers and objects that cannot be hashed are the reason for the conversion; they do not have a hash value. *)
Theorem C315_unhashable : forall ha ht hf v, unhashable v -> forall h, hash ha ht hf v <> Ok h.
Proof.
  intros ha ht hf v U. assert (M : forall l x, In x l -> (forall h, hash ha ht hf x <> Ok h) -> forall hs, rmapM (hash ha ht hf) l <> Ok hs).
  { induction l as [|y l IH]; intros x I N hs E; [destruct I|]. cbn in E. destruct (hash ha ht hf y) as [h|e] eqn:Y; [|discriminate]. cbn in E.
    destruct I as [->|I]; [exact (N h Y)|]. destruct (rmapM (hash ha ht hf) l) as [hs'|e] eqn:R; [|discriminate]. exact (IH x I N hs' eq_refl). }
  induction U as [n|l|l|l|l x I U IH|l x I U IH]; intros h E; try discriminate.
  - rewrite hash_tuple in E. destruct (rmapM (hash ha ht hf) l) as [hs|e] eqn:R; [|discriminate]. exact (M l x I IH hs R).
  - rewrite hash_frozen in E. destruct (rmapM (hash ha ht hf) l) as [hs|e] eqn:R; [|discriminate]. exact (M l x I IH hs R).
Qed.
Print Assumptions C315_unhashable.
Example C315_unhashable_ex : unhashable (PTuple [PAtom 1; PTuple [PList []]]). Proof. eapply uh_tuple; [right; left; reflexivity|]. eapply uh_tuple; [left; reflexivity|constructor]. Qed.
Theorem C316_hash_partial : forall ha ht hf, (forall a b, Permutation a b -> hf a = hf b) ->
  forall v w, same v w -> container v -> container w -> hash ha ht hf (make_hashable v) = hash ha ht hf (make_hashable w).
Proof.
  intros ha ht hf P.
  assert (FZ : forall l m, Permutation l m -> container (PFrozen l) -> hash ha ht hf (PFrozen l) = hash ha ht hf (PFrozen m)).
  { intros l m PM C. destruct (proj2 (C315_hashable (PFrozen l) C) ha ht hf) as [h E]. cbn [make_hashable] in E. rewrite hash_frozen in E |- *.
    destruct (rmapM (hash ha ht hf) l) as [hs|] eqn:R; [|discriminate]. destruct (rmapM_perm ha ht hf l m PM hs R) as (hs' & R' & Q).
    rewrite hash_frozen, R'. cbn. f_equal. apply P. exact Q. }
  assert (HP : forall l m, Forall (fun v => forall w, same v w -> container v -> container w -> hash ha ht hf (make_hashable v) = hash ha ht hf (make_hashable w)) l ->
    Forall2 same l m -> Forall container l -> Forall container m ->
    Forall2 (fun x y => hash ha ht hf x = hash ha ht hf y) (map make_hashable l) (map make_hashable m)).
  { intros l m A F. induction F as [|x y l m X F IH]; intros B1 B2; cbn; constructor; inversion A; subst; inversion B1; subst; inversion B2; subst; auto. }
  assert (HQ : forall l m, Forall (fun e : nat * pv => forall w, same (snd e) w -> container (snd e) -> container w -> hash ha ht hf (make_hashable (snd e)) = hash ha ht hf (make_hashable w)) l ->
    Forall2 (fun e f : nat * pv => fst e = fst f /\ same (snd e) (snd f)) l m -> Forall (fun e => container (snd e)) l -> Forall (fun e => container (snd e)) m ->
    Forall2 (fun x y => hash ha ht hf (snd x) = hash ha ht hf (snd y)) (map (fun e : nat * pv => let (k, x) := e in (k, make_hashable x)) l) (map (fun e : nat * pv => let (k, x) := e in (k, make_hashable x)) m)).
  { intros l m A F. induction F as [|[k x] [k' y] l m [E X] F IH]; intros B1 B2; cbn; constructor; inversion A; subst; inversion B1; subst; inversion B2; subst; cbn in *; auto. }
  intros v. induction v using pv_ind'; intros w S C D; inversion S; subst.
  - reflexivity.
  - inversion C; subst. inversion D; subst. cbn [make_hashable]. rewrite !hash_tuple. f_equal. apply rmapM_ext2. apply HP; assumption.
  - inversion C; subst. inversion D; subst. cbn [make_hashable]. rewrite !hash_tuple. f_equal. apply rmapM_ext2. apply HP; assumption.
  - cbn [make_hashable]. apply FZ; [assumption|]. inversion C; subst. now constructor.
  - cbn [make_hashable]. apply FZ; [assumption|exact C].
  - assert (HC := proj1 (C315_hashable _ C)). assert (HD := proj1 (C315_hashable _ D)). inversion C; subst. inversion D; subst.
    cbn [make_hashable] in *. inversion HC; subst. inversion HD; subst. rewrite !hash_hdict by assumption.
    assert (K : map (fun e => ha (fst e)) (map (fun e : nat * pv => let (k, x) := e in (k, make_hashable x)) l)
              = map (fun e => ha (fst e)) (map (fun e : nat * pv => let (k, x) := e in (k, make_hashable x)) m)).
    { match goal with F : Forall2 _ l m |- _ => clear -F; induction F as [|[k x] [k' y] l m [E X] F IH] end; cbn in *; congruence. }
    rewrite K. f_equal. apply rmapM_ext2. apply HQ; assumption.
Qed.
Print Assumptions C316_hash_partial.
(* The order of the entries matters: for all hash functions that are free of collisions, no two dictionaries with their keys in different
   orders have the same hash value. *)
Theorem C316_hash_refuted : forall ha ht hf, (forall a b, ha a = ha b -> a = b) -> (forall a b, ht a = ht b -> a = b) ->
  (forall l m h, map fst l <> map fst m -> hash ha ht hf (make_hashable (PDict l)) = Ok h -> hash ha ht hf (make_hashable (PDict m)) <> Ok h) /\
  equal_dicts [(1, PAtom 1); (2, PAtom 1)] [(2, PAtom 1); (1, PAtom 1)].
Proof.
  intros ha ht hf Ia It. split.
  - intros l m h N. cbn [make_hashable hash]. intros E1 E2.
    assert (K : forall (r : res (list Z)) (f : list Z -> Z) (x : Z), rbind r (fun hs => Ok (f hs)) = Ok x -> exists hs, f hs = x).
    { intros [hs|e] f x; cbn; [intros Q; injection Q as Q; eauto|discriminate]. }
    apply (K _ (fun hs => ht [_; ht hs])) in E1. apply (K _ (fun hs => ht [_; ht hs])) in E2. destruct E1 as [h1 E1], E2 as [h2 E2]. rewrite <- E2 in E1.
    apply It in E1. injection E1 as E1 _. apply It in E1. apply N. rewrite !map_map in E1. clear -E1 Ia. revert m E1.
    induction l as [|[k x] l IH]; intros [|[k' x'] m] E; cbn in *; try discriminate; [reflexivity|]. injection E as E F. f_equal; [now apply Ia|now apply IH].
  - split; [cbn; repeat constructor; cbn; intuition discriminate|]. constructor.
Qed.
Print Assumptions C316_hash_refuted.
Example C316_ex : exists h, hash Z.of_nat (fun l => fold_right (fun a b => (a + 1000 * b + 7)%Z) 3%Z l) (fun _ => 0%Z) (make_hashable (PDict [(1, PAtom 1); (2, PList [])])) = Ok h.
Proof. eexists. reflexivity. Qed.
