(** The quick format of a query has the tokens of str(). *)
From Coq Require Import String List Bool Arith Lia Setoid Morphisms.
From Verif Require Import PyBase QFmt_model QFmt_spec QFmt_proofs.
Import ListNotations.
Open Scope string_scope.
Open Scope list_scope.

Definition wl (e : expr) : list text :=
  match (match e with
         | EAnd [] => []
         | EAnd (x :: r) => pr (Some 2) x :: map (fun y => [W "AND"; Sp] ++ pr (Some 2) y) r
         | _ => [pr (Some 2) e]
         end) with
  | [] => []
  | t :: r => ([W "WHERE"; Sp] ++ t) :: map (fun t => blanks 2 ++ t) r
  end.
Definition QE (e : expr) : Prop := ok_e e = true -> (forall i, eqv (pr (Some i) e) (pr None e)) /\ forall m, clean (pr m e).
Definition WL (e : expr) : Prop := ok_e e = true -> eqv (grp (wl e)) ([W "WHERE"; Sp] ++ pr None e ++ [Sp]) /\ Forall clean (wl e).
Definition PE (e : expr) : Prop := QE e /\ QE (ENot e) /\ WL e.
Definition PQ (q : query) : Prop := ok_q q = true -> eqe (fq q) (strq q) /\ clean (fq q) /\ clean (strq q).
Definition PS (s : source) : Prop := ok_s s = true -> eqv (fs s) (blanks 2 ++ strs s) /\ clean (fs s) /\ clean (strs s).
Definition PC (c : cte) : Prop :=
  (ok_w false c = true -> eqv (fw c ++ [Nl; P ")"]) (strw c) /\ clean (fw c)) /\
  (forall r, ok_w (negb r) c = true -> eqv (fw1 (if r then [W "RECURSIVE"; Sp] else []) c) ([W "WITH"; Sp] ++ (if r then [W "RECURSIVE"; Sp] else []) ++ strw c) /\
     clean (fw1 (if r then [W "RECURSIVE"; Sp] else []) c)) /\
  (forall b, ok_w b c = true -> clean (strw c)).

Ltac okb := repeat match goal with H : _ && _ = true |- _ => apply andb_true_iff in H; destruct H end.
Lemma clean_mat m : clean (mat_info m). Proof. destruct m as [[]|]; reflexivity. Qed.
Ltac cl := repeat first [ assumption | reflexivity | apply clean_mat | (match goal with |- clean (indent _ _) => apply clean_indent end) | apply clean_paren | (apply clean_app; split) | (apply clean_cons; split; [exact I|]) | apply clean_blanks | (match goal with |- clean (sepby _ _) => apply clean_sepby; [reflexivity|] | |- clean (commas _) => apply clean_sepby; [reflexivity|] end) ].

Lemma use_list l : Forall PE l -> forallb ok_e l = true -> (forall i, Forall (fun x => eqv (pr (Some i) x) (pr None x)) l) /\ forall m, Forall (fun x => clean (pr m x)) l.
Proof.
  induction 1 as [|x r [Hx _] Hr IH]; intros H; [split; constructor|]. cbn in H. okb. destruct (Hx H) as [A B]. destruct (IH H0) as [C D]. split; intros; constructor; auto.
Qed.
Lemma commas_eqv l : Forall PE l -> forallb ok_e l = true -> (forall i, eqv (commas (map (pr (Some i)) l)) (commas (map (pr None) l))) /\ forall m, clean (commas (map (pr m) l)).
Proof.
  intros H1 H2. destruct (use_list l H1 H2) as [A B]. split; intros.
  - apply sepby_map_eqv. apply A.
  - apply clean_sepby; [reflexivity|]. apply clean_map. apply B.
Qed.
Lemma eqe_paren s s' t u r : eqe t u -> eqv (P s :: t ++ P s' :: r) (P s :: u ++ P s' :: r).
Proof. intros H. constructor. intros cur post. cbn. f_equal. f_equal. rewrite <- !app_assoc. apply H. exact I. Qed.
Lemma eqe_paren_nl s s' t u n r : eqe t u -> clean t -> eqv (P s :: Nl :: indent n t ++ Nl :: P s' :: r) (P s :: u ++ P s' :: r).
Proof.
  intros H C. transitivity (P s :: t ++ P s' :: r); [|apply eqe_paren; exact H].
  rewrite (indent_eqv n t C). rewrite <- app_assoc. rewrite blanks_nl. rewrite p_sp. apply eqv_cons. apply eqv_app; [reflexivity|]. rewrite nl_cons. apply sp_p.
Qed.
Lemma wl_default e : (match e with EAnd _ => False | _ => True end) -> QE e -> WL e.
Proof.
  intros N H Hok. destruct (H Hok) as [A B]. assert (E : wl e = [[W "WHERE"; Sp] ++ pr (Some 2) e]) by (unfold wl; destruct e; try reflexivity; destruct N). rewrite E. split.
  - unfold grp. cbn [map List.concat]. rewrite app_nil_r. rewrite A. rewrite <- app_assoc. reflexivity.
  - constructor; [|constructor]. cl. apply B.
Qed.
Lemma not_default e : (match e with EIn _ _ => False | _ => True end) -> QE e -> QE (ENot e).
Proof.
  intros N H Hok. cbn [ok_e] in Hok. destruct (H Hok) as [A B].
  assert (E : forall m, pr m (ENot e) = [W "NOT"; Sp] ++ pr m e) by (intros m; destruct e; try reflexivity; destruct N). split; intros.
  - rewrite !E, A. reflexivity.
  - rewrite E. cl. apply B.
Qed.
Lemma std e : (match e with EAnd _ | EIn _ _ => False | _ => True end) -> QE e -> PE e.
Proof.
  intros N H. split; [exact H|]. split; [apply not_default|apply wl_default]; try exact H; destruct e; try exact I; destruct N.
Qed.

Lemma in_values vs m : Forall (fun x => clean (pr m x)) vs -> clean (match vs with [ESub _ _ as v] => pr m v | _ => paren (commas (map (pr m) vs)) end).
Proof.
  intros H. assert (X : clean (paren (commas (map (pr m) vs)))) by (apply clean_paren, clean_sepby; [reflexivity|]; apply clean_map; exact H).
  destruct vs as [|v [|v' vs]]; [exact X| |destruct v; exact X]. destruct v; try exact X. inversion H; subst. assumption.
Qed.
Lemma in_values_eqv vs i : Forall (fun x => eqv (pr (Some i) x) (pr None x)) vs ->
  eqv (match vs with [ESub _ _ as v] => pr (Some i) v | _ => paren (commas (map (pr (Some i)) vs)) end) (match vs with [ESub _ _ as v] => pr None v | _ => paren (commas (map (pr None) vs)) end).
Proof.
  intros H. assert (X : eqv (paren (commas (map (pr (Some i)) vs))) (paren (commas (map (pr None) vs)))) by (apply paren_eqv, sepby_map_eqv; exact H).
  destruct vs as [|v [|v' vs]]; [exact X| |destruct v; exact X]. destruct v; try exact X. inversion H; subst. assumption.
Qed.

Lemma E_fun fn args d f : Forall PE args -> OptP PE f -> PE (EFun fn args d f).
Proof.
  intros H Hf. apply std; [exact I|]. intros Hok. cbn [ok_e] in Hok. okb. destruct (commas_eqv args H H0) as [A B]. split; intros.
  - cbn [pr]. apply eqv_app; [reflexivity|]. apply eqv_app.
    + apply paren_eqv. apply eqv_app; [reflexivity|]. destruct (_ && d); [apply paren_eqv|]; apply A.
    + destruct f as [x|]; [|reflexivity]. cbn in *. destruct Hf as [Hx _]. destruct (Hx H1) as [C _]. unfold paren, p. cbn. rewrite C. reflexivity.
  - cbn [pr]. unfold w. cl; [destruct d; reflexivity|destruct (_ && d); [apply clean_paren|]; apply B|]. destruct f as [x|]; [|reflexivity]. cbn in *. destruct Hf as [Hx _]. destruct (Hx H1) as [_ C]. apply (clean_paren ([W "WHERE"; Sp] ++ pr m x)). cl. apply C.
Qed.
Lemma E_sub a q : PQ q -> PE (ESub a q).
Proof.
  intros H. apply std; [exact I|]. intros Hok. cbn [ok_e] in Hok. destruct a; [discriminate|]. destruct (H Hok) as (A & B & C). split; intros.
  - cbn [pr]. rewrite layout_eqv by exact B. unfold paren, p. cbn [app]. apply eqe_paren. exact A.
  - cbn [pr]. destruct m; [apply clean_layout; apply clean_paren; exact B|apply clean_paren; exact C].
Qed.
Lemma grp_cons t l : grp (t :: l) = (t ++ [Sp]) ++ grp l.
Proof. reflexivity. Qed.
Definition pre (c : piece) (l : list text) : text := List.concat (map (cons c) l).
Lemma pre_app c l m : pre c (l ++ m) = pre c l ++ pre c m.
Proof. unfold pre. rewrite map_app. apply concat_app. Qed.
Lemma sepby_pre c x l : sepby [c] (x :: l) = x ++ pre c l.
Proof.
  revert x. induction l as [|y l IH]; intros x; [cbn; rewrite app_nil_r; reflexivity|].
  change (sepby [c] (x :: y :: l)) with (x ++ [c] ++ sepby [c] (y :: l)). rewrite IH. reflexivity.
Qed.
Lemma sepby_sp l t : eqv (Sp :: sepby [Sp] l ++ Sp :: t) (pre Sp l ++ Sp :: t).
Proof. destruct l as [|x l]; [apply sp_sp|]. rewrite sepby_pre. reflexivity. Qed.
Lemma pre_map {A} (f g : A -> text) l : Forall (fun x => eqv (Nl :: f x) (Sp :: g x)) l -> eqv (pre Nl (map f l)) (pre Sp (map g l)).
Proof. induction 1 as [|x l Hx Hl IH]; [reflexivity|]. unfold pre in *. cbn [map List.concat]. rewrite Hx, IH. reflexivity. Qed.
Lemma E_case a cases s e : Forall (fun c => match c with (x, y) => PE x /\ PE y end) cases -> OptP PE s -> OptP PE e -> PE (ECase a cases s e).
Proof.
  intros H Hs He. apply std; [exact I|]. intros Hok. cbn [ok_e] in Hok. okb. destruct a; [discriminate|]. clear H0.
  assert (Xs : OptP (fun x => (forall i, eqv (pr (Some i) x) (pr None x)) /\ forall m, clean (pr m x)) s) by (destruct s; [cbn in *; apply Hs; assumption|exact I]).
  assert (Xe : OptP (fun x => ((forall i, eqv (pr (Some i) x) (pr None x)) /\ forall m, clean (pr m x)) /\ forall t, braketify x t = t) e).
  { destruct e; [cbn in *; okb|exact I]. split; [apply He; assumption|]. intros t. destruct e; try reflexivity; discriminate. }
  assert (Xc : Forall (fun c => match c with (x, y) => ((forall i, eqv (pr (Some i) x) (pr None x)) /\ forall m, clean (pr m x)) /\ ((forall i, eqv (pr (Some i) y) (pr None y)) /\ forall m, clean (pr m y)) /\ forall t, braketify y t = t end) cases).
  { clear - H H4. induction H as [|[x y] r [Hx Hy] Hr IH]; [constructor|]. cbn in H4. okb. constructor; [|apply IH; assumption]. split; [apply Hx; assumption|]. split; [apply Hy; assumption|]. intros t. destruct y; try reflexivity; discriminate. }
  clear H Hs He H1 H2 H3 H4. split.
  - intros i. cbn [pr]. unfold unlines. rewrite sepby_pre, !pre_app.
    transitivity ((w "CASE" ++ opt (fun e => Sp :: pr None e) s) ++ pre Sp (map (fun c => match c with (x, y) => [W "WHEN"; Sp] ++ pr None x ++ [Sp; W "THEN"; Sp] ++ braketify y (pr None y) end) cases)
        ++ opt (fun e => [Sp; W "ELSE"; Sp] ++ braketify e (pr None e)) e ++ [Sp; W "END"]).
    + apply eqv_app; [|apply eqv_app; [|apply eqv_app]].
      * destruct s as [x|]; [|reflexivity]. destruct Xs as [A _]. cbn [opt]. rewrite A. reflexivity.
      * apply pre_map. eapply Forall_impl; [|exact Xc]. intros [x y] ([A _] & [B _] & C). rewrite C. etransitivity; [apply blanks_nl|]. cbn [app]. rewrite A, B. reflexivity.
      * destruct e as [x|]; [|reflexivity]. destruct Xe as [[A _] Hb]. unfold pre. cbn [opt map List.concat]. rewrite Hb, app_nil_r. etransitivity; [apply blanks_nl|]. cbn [app]. rewrite A. reflexivity.
      * apply nl_cons.
    + set (L := map _ cases). unfold w. rewrite <- !app_assoc. cbn [app]. apply eqv_cons.
      assert (Z : forall t, eqv (Sp :: sepby [Sp] L ++ opt (fun e => [Sp; W "ELSE"; Sp] ++ braketify e (pr None e)) e ++ Sp :: t) (pre Sp L ++ opt (fun e => [Sp; W "ELSE"; Sp] ++ braketify e (pr None e)) e ++ Sp :: t)).
      { intros t. destruct e as [x|]; cbn [opt app]; apply sepby_sp. }
      destruct s as [x|]; cbn [opt app] in *.
      * rewrite <- Z. rewrite <- app_assoc. reflexivity.
      * rewrite <- Z. reflexivity.
  - assert (CC : forall m, Forall (fun c : expr * expr => let (x, y) := c in clean (pr m x) /\ clean (pr m y)) cases).
    { intros m. induction Xc as [|[x y] r (X1 & X2 & _) Hr IH]; constructor; auto. split; [apply X1|apply X2]. }
    intros m. cbn [pr]. destruct m as [i|].
    + apply clean_unlines. constructor; [cl; destruct s as [x|]; [destruct Xs as [_ B]; apply (clean_cons Sp); split; [exact I|apply B]|reflexivity]|].
      apply Forall_app. split; [apply clean_map; eapply Forall_impl; [|apply (CC (Some (i + 2)))]; intros [x y] [B1 B2]; cl|].
      apply Forall_app. split; [|constructor; [reflexivity|constructor]]. destruct e as [x|]; constructor; [|constructor]. destruct Xe as [[_ B] _]. cl. apply B.
    + cl.
      * destruct s as [x|]; [|reflexivity]. destruct Xs as [_ B]. cbn [opt]. cl. apply B.
      * apply clean_map. eapply Forall_impl; [|apply (Forall_and (CC None) Xc)]. intros [x y] [[B1 B2] (_ & _ & B3)]. rewrite B3. cl.
      * destruct e as [x|]; [|reflexivity]. destruct Xe as [[_ B] B3]. cbn [opt]. rewrite B3. cl. apply B.
Qed.
Lemma E_cast e ty arr : PE e -> PE (ECast e ty arr).
Proof.
  intros [H _]. apply std; [exact I|]. intros Hok. cbn [ok_e] in Hok. okb. destruct arr; [discriminate|]. destruct (H H0) as [A B]. split; intros; cbn [pr].
  - apply eqv_app; [reflexivity|]. apply paren_eqv. destruct (is_leaf e); rewrite ?(A i); [reflexivity|]. rewrite (paren_eqv _ _ (A i)). reflexivity.
  - cl; [destruct (is_leaf e); cl; apply B|]. destruct m; reflexivity.
Qed.
Lemma E_two (f : forall m : option nat, text -> text -> text) e a b :
  (match e with EAnd _ | EIn _ _ => False | _ => True end) -> (forall m, pr m e = f m (pr m a) (pr m b)) -> (ok_e e = true -> ok_e a = true /\ ok_e b = true) ->
  (forall i x y x' y', eqv x x' -> eqv y y' -> eqv (f (Some i) x y) (f None x' y')) -> (forall m x y, clean x -> clean y -> clean (f m x y)) -> PE a -> PE b -> PE e.
Proof.
  intros N E O F C [Ha _] [Hb _]. apply std; [exact N|]. intros Hok. destruct (O Hok) as [O1 O2]. destruct (Ha O1) as [A1 A2]. destruct (Hb O2) as [B1 B2]. split; intros; rewrite !E; auto.
Qed.
Lemma E_in a vs : PE a -> Forall PE vs -> PE (EIn a vs).
Proof.
  intros [Ha _] Hv.
  assert (X : ok_e (EIn a vs) = true -> ((forall i, eqv (pr (Some i) a) (pr None a)) /\ forall m, clean (pr m a)) /\ (forall i, Forall (fun x => eqv (pr (Some i) x) (pr None x)) vs) /\ forall m, Forall (fun x => clean (pr m x)) vs).
  { intros Hok. cbn [ok_e] in Hok. okb. split; [auto|]. apply use_list; assumption. }
  assert (Q : QE (EIn a vs)).
  { intros Hok. destruct (X Hok) as ([A1 A2] & B1 & B2). split; intros; cbn [pr].
    - rewrite A1, (in_values_eqv vs i (B1 i)). reflexivity.
    - cl; [apply A2|]. apply in_values; apply B2. }
  split; [exact Q|]. split; [|apply wl_default; [exact I|exact Q]].
  intros Hok. cbn [ok_e] in Hok. destruct (X Hok) as ([A1 A2] & B1 & B2). split; intros; cbn [pr].
  - rewrite A1, (in_values_eqv vs i (B1 i)). reflexivity.
  - cl; [apply A2|]. apply in_values; apply B2.
Qed.
Lemma E_and ps : Forall PE ps -> PE (EAnd ps).
Proof.
  intros H. assert (Q : QE (EAnd ps)).
  { intros Hok. cbn [ok_e] in Hok. okb. destruct (use_list ps H H1) as [A B]. split; intros; cbn [pr].
    - apply sepby_map_eqv. apply A.
    - apply clean_sepby; [reflexivity|]. apply clean_map. apply B. }
  split; [exact Q|]. split; [apply not_default; [exact I|exact Q]|].
  intros Hok. destruct (Q Hok) as [_ _]. cbn [ok_e] in Hok. okb. destruct ps as [|x ps]; [discriminate|]. destruct (use_list _ H H1) as [A B].
  unfold wl. cbn [pr]. specialize (A 2). pose proof (B (Some 2)) as B2. inversion A as [|? ? A1 A2]; subst. inversion B2 as [|? ? C1 C2]; subst. split.
  - rewrite grp_cons. rewrite A1. cbn [map]. rewrite <- !app_assoc. cbn [app]. apply eqv_cons. apply eqv_cons.
    clear - A2. revert x. induction A2 as [|y r Hy Hr IH]; intros x; [cbn; rewrite ?app_nil_r; reflexivity|].
    cbn [map]. rewrite grp_cons. cbn [sepby]. rewrite <- !app_assoc. apply eqv_app; [reflexivity|]. cbn [app]. etransitivity; [apply blanks_sp|]. cbn [app]. rewrite Hy.
    apply eqv_cons. apply eqv_cons. apply eqv_cons. specialize (IH y). cbn [app] in IH. exact IH.
  - constructor; [cl|]. rewrite map_map. apply clean_map. eapply Forall_impl; [|exact C2]. intros y Hy. cl.
Qed.
Lemma E_or ps : Forall PE ps -> PE (EOr ps).
Proof.
  intros H. apply std; [exact I|]. intros Hok. cbn [ok_e] in Hok. okb. destruct (use_list ps H H1) as [A B]. split; intros; cbn [pr].
  - apply paren_eqv, sepby_map_eqv. eapply Forall_impl; [|apply A]. intros x Hx. destruct (is_compound x); [apply paren_eqv|]; exact Hx.
  - apply clean_paren, clean_sepby; [reflexivity|]. apply clean_map. eapply Forall_impl; [|apply (B m)]. intros x Hx. cbn beta. destruct (is_compound x); cl.
Qed.

Lemma S_fun f a : PE f -> PS (SFun f a).
Proof.
  intros [H _] Hok. cbn [ok_s] in Hok. destruct (H Hok) as [A B]. cbn [fs strs]. split; [rewrite A; reflexivity|].
  split; cl; try apply B; destruct a; reflexivity.
Qed.
Lemma S_sub q l n : PQ q -> PS (SSub q l n).
Proof.
  intros H Hok. cbn [ok_s] in Hok. destruct (H Hok) as (A & B & C). cbn [fs strs].
  assert (X : clean (unlines [if l then [W "LATERAL"; Sp; P "("] else p "("; indent 2 (fq q); p ")" ++ opt (fun n => [Sp; W "AS"; Sp; W n]) n])).
  { apply clean_unlines. constructor; [destruct l; reflexivity|]. constructor; [apply clean_indent; exact B|]. constructor; [|constructor]. cl. destruct n; reflexivity. }
  split; [|split].
  - rewrite indent_eqv by exact X. apply eqv_app; [reflexivity|]. unfold unlines. cbn [sepby]. unfold p, paren, p. destruct l; cbn [app].
    + apply eqv_cons. apply eqv_cons. rewrite (eqe_paren_nl "(" ")" (fq q) (strq q) 2 _ A B). rewrite <- app_assoc. reflexivity.
    + rewrite (eqe_paren_nl "(" ")" (fq q) (strq q) 2 _ A B). rewrite <- app_assoc. reflexivity.
  - apply clean_indent. exact X.
  - cl; [destruct l; reflexivity|destruct n; reflexivity].
Qed.
Lemma rows_eqv rows : Forall (Forall PE) rows -> forallb (forallb ok_e) rows = true ->
  Forall (fun r => eqv (paren (commas (map (pr (Some 2)) r))) (paren (commas (map (pr None) r)))) rows /\ forall m, Forall (fun r => clean (paren (commas (map (pr m) r)))) rows.
Proof.
  induction 1 as [|r rs Hr Hrs IH]; intros H; [split; constructor|]. cbn in H. okb. destruct (commas_eqv r Hr H) as [A B]. destruct (IH H0) as [C D].
  split; intros; constructor; auto; [apply paren_eqv; apply A|apply clean_paren; apply B].
Qed.
Lemma clean_cols c : clean (col_list c).
Proof. unfold col_list. destruct c as [|x c]; [reflexivity|]. apply clean_paren, clean_sepby; [reflexivity|]. apply clean_map. apply Forall_forall. intros y _. reflexivity. Qed.
Lemma commas_nl l : eqv (sepby [P ","; Nl] l) (commas l).
Proof.
  unfold commas. induction l as [|x [|y l] IH]; [reflexivity|reflexivity|]. change (sepby [P ","; Nl] (x :: y :: l)) with (x ++ [P ","; Nl] ++ sepby [P ","; Nl] (y :: l)).
  change (sepby [P ","; Sp] (x :: y :: l)) with (x ++ [P ","; Sp] ++ sepby [P ","; Sp] (y :: l)). rewrite IH. cbn [app]. rewrite nl_cons. reflexivity.
Qed.
Lemma C_query q n m : PQ q -> PC (CQuery q n m).
Proof.
  intros H. split; [|split].
  - intros Hok. cbn [ok_w] in Hok. destruct (H Hok) as (A & B & C). cbn [fw strw]. split.
    + unfold p, paren, p. cbn [app]. apply eqv_cons, eqv_cons, eqv_cons, eqv_cons. rewrite <- !app_assoc. apply eqv_app; [reflexivity|]. cbn [app]. apply eqe_paren_nl; assumption.
    + cl.
  - intros r Hok. cbn [ok_w] in Hok. destruct (H Hok) as (A & B & C). cbn [fw1 strw]. unfold unlines. cbn [sepby]. split.
    + unfold p, paren, p. cbn [app]. apply eqv_cons, eqv_cons. rewrite <- !app_assoc. apply eqv_app; [reflexivity|]. cbn [app]. apply eqv_cons, eqv_cons, eqv_cons, eqv_cons.
      rewrite <- !app_assoc. apply eqv_app; [reflexivity|]. cbn [app]. apply eqe_paren_nl; assumption.
    + unfold p. cbn [app]. cl. destruct r; reflexivity.
  - intros b Hok. cbn [ok_w] in Hok. destruct (H Hok) as (A & B & C). cbn [strw]. cl.
Qed.
Lemma C_values rows n cols m : Forall (Forall PE) rows -> PC (CValues rows n cols m).
Proof.
  intros H. split; [|split].
  - intros Hok. discriminate.
  - intros r Hok. cbn [ok_w] in Hok. okb. destruct r; [discriminate|]. destruct m; [discriminate|]. destruct (rows_eqv rows H H1) as [A B]. cbn [fw1 strw]. unfold unlines. cbn [sepby]. 
    assert (C : clean ([W "VALUES"; Sp] ++ sepby [P ","; Nl] (map (fun r => paren (commas (map (pr (Some 2)) r))) rows))).
    { cl. apply clean_map. apply B. }
    split.
    + match goal with |- eqv (_ ++ _ ++ indent 2 ?t ++ _) (_ ++ _ ++ _ ++ _ ++ _ ++ _ ++ paren ?u) => set (X := t) in *; set (Y := u); assert (E : eqe X Y) end.
      { assert (V : eqv X Y) by (subst X Y; rewrite commas_nl; unfold commas; rewrite (sepby_map_eqv _ _ _ _ A); reflexivity). intros post _. apply (eqv_use _ _ V). }
      unfold p, paren, p, w. cbn [app mat_info]. apply eqv_cons, eqv_cons, eqv_cons. rewrite <- !app_assoc. apply eqv_app; [reflexivity|]. cbn [app].
      apply eqv_cons, eqv_cons, eqv_cons. apply eqe_paren_nl; assumption.
    + cbn [app] in *. cl. apply clean_cols.
  - intros b Hok. cbn [ok_w] in Hok. okb. destruct (rows_eqv rows H H1) as [A B]. cbn [strw]. cl; [apply clean_cols|]. apply clean_map. apply B.
Qed.

(** ** Clauses *)
Lemma tail_lines first rest l : l = first :: rest -> eqv (grp (comma_lines first rest)) (commas l ++ [Sp]).
Proof. intros ->. apply comma_lines_grp. Qed.
Definition good (l : list text) (t : text) : Prop := eqv (grp l) t /\ Forall clean l /\ clean t.
Lemma good_one x t : eqv (x ++ [Sp]) t -> clean x -> clean t -> good [x] t.
Proof. intros A B C. split; [|split; [constructor; [exact B|constructor]|exact C]]. unfold grp. cbn [map List.concat]. rewrite app_nil_r. exact A. Qed.
Lemma good_nil : good [] []. Proof. split; [reflexivity|]. split; [constructor|reflexivity]. Qed.
Lemma good_app l t l' t' : good l t -> good l' t' -> good (l ++ l') (t ++ t').
Proof. intros (A & B & C) (D & E & F). split; [rewrite grp_app, A, D; reflexivity|]. split; [apply Forall_app; split; assumption|cl]. Qed.

Lemma pre_commas pre x l : commas ((pre ++ x) :: l) = pre ++ commas (x :: l).
Proof. destruct l; [reflexivity|]. unfold commas. cbn [sepby]. rewrite <- app_assoc. reflexivity. Qed.
Definition as_ (n : option string) : text := opt (fun n => [Sp; W "AS"; Sp; W n]) n.
Lemma clean_as n : clean (as_ n). Proof. destruct n; reflexivity. Qed.

Lemma ctes_eqv l : forall c, Forall PC (c :: l) -> forallb (ok_w false) (c :: l) = true ->
  eqv (fw c ++ flat_map (fun c => [Nl; P ")"; P ","; Sp] ++ fw c) l ++ [Nl; P ")"]) (commas (map strw (c :: l))).
Proof.
  induction l as [|d l IH]; intros c H Hok; inversion H as [|? ? Hc Hl]; subst; cbn [forallb] in Hok; apply andb_true_iff in Hok as [O1 O2]; destruct Hc as (Hc & _ & _); destruct (Hc O1) as [A _].
  - cbn [flat_map app map]. exact A.
  - cbn [flat_map map]. unfold commas. cbn [sepby]. rewrite <- A. specialize (IH d Hl O2). cbn [map] in IH. unfold commas in IH. rewrite <- !app_assoc. apply eqv_app; [reflexivity|]. cbn [app].
    apply eqv_cons, eqv_cons, eqv_cons, eqv_cons. exact IH.
Qed.
Lemma G_cte (c : option (list cte * bool)) : OptP (fun z => match z with (l, _) => Forall PC l end) c ->
  match c with None => true | Some ([], _) => false | Some ([c], r) => ok_w (negb r) c | Some (l, _) => forallb (ok_w false) l end = true ->
  good (match c with
        | Some ([c], r) => [fw1 (if r then [W "RECURSIVE"; Sp] else []) c]
        | Some (c :: l, r) => [[W "WITH"; Sp] ++ (if r then [W "RECURSIVE"; Sp] else []) ++ [Sp] ++ fw c ++ flat_map (fun c => [Nl; P ")"; P ","; Sp] ++ fw c) l ++ [Nl; P ")"]]
        | _ => []
        end)
       (opt (fun c : list cte * bool => match c with (l, r) => w "WITH" ++ (if r then [Sp; W "RECURSIVE"] else []) ++ [Sp] ++ commas (map strw l) ++ [Sp] end) c).
Proof.
  intros H Hok. destruct c as [[[|c [|d l]] r]|]; cbn [opt].
  - discriminate.
  - cbn [OptP] in H. inversion H as [|? ? Hc _]; subst. destruct Hc as (_ & Hc & Hs). destruct (Hc r Hok) as [A B]. specialize (Hs _ Hok). apply good_one; [|exact B|].
    + rewrite A. unfold commas, w. cbn [map sepby]. destruct r; cbn [app]; reflexivity.
    + unfold commas, w. cbn [map sepby]. destruct r; cl.
  - cbn [OptP] in H. pose proof (ctes_eqv (d :: l) c H Hok) as A.
    assert (S : Forall clean (map strw (c :: d :: l)) /\ Forall (fun c => clean (fw c)) (c :: d :: l)).
    { revert H Hok. generalize (c :: d :: l). clear. induction l as [|x l IH]; intros H Hok; [split; constructor|]. cbn [forallb] in Hok. apply andb_true_iff in Hok as [O1 O2].
      inversion H as [|? ? Hx Hl]; subst. destruct (IH Hl O2) as [P1 P2]. destruct Hx as (X1 & _ & X3). split; constructor; auto; [apply (X3 _ O1)|apply X1; exact O1]. }
    destruct S as [S1 S2]. set (m := d :: l) in *. set (T := flat_map _ m) in *. set (Y := commas _) in *.
    assert (S3 : clean (fw c ++ T ++ [Nl; P ")"])).
    { pose proof (Forall_inv S2) as U1. pose proof (Forall_inv_tail S2) as U2. cbv beta in U1. apply clean_app; split; [exact U1|]. apply clean_app; split; [|reflexivity]. subst T. revert U2. generalize m. clear. induction 1; [reflexivity|]. cbn [flat_map]. cl. }
    assert (S4 : clean Y) by (apply clean_sepby; [reflexivity|exact S1]).
    apply good_one.
    + cut (eqv (([W "WITH"; Sp] ++ (if r then [W "RECURSIVE"; Sp] else []) ++ [Sp] ++ Y) ++ [Sp]) (w "WITH" ++ (if r then [Sp; W "RECURSIVE"] else []) ++ [Sp] ++ Y ++ [Sp])).
      { intros E. etransitivity; [|exact E]. apply eqv_app; [|reflexivity]. apply eqv_app; [reflexivity|]. apply eqv_app; [reflexivity|]. apply eqv_app; [reflexivity|]. exact A. }
      unfold w. destruct r; cbn [app]; rewrite sp_sp; reflexivity.
    + destruct r; cl.
    + unfold w. destruct r; cl.
  - apply good_nil.
Qed.

(** targets *)
Lemma item_eqv {B} (f : B -> text) (l : list (expr * B)) : Forall (PairP PE) l -> forallb (fun t => match t with (e, n) => ok_e e && no_nl_text (f n) end) l = true ->
  Forall (fun t => eqv (match t with (e, n) => pr (Some 2) e ++ f n end) (match t with (e, n) => pr None e ++ f n end)) l /\ forall m, Forall (fun t => clean (match t with (e, n) => pr m e ++ f n end)) l.
Proof.
  induction 1 as [|[e n] l [Hx _] Hl IH]; intros Hok; [split; constructor|]. cbn [forallb] in Hok. okb. destruct (IH H0) as [A B0]. destruct (Hx H) as [C D].
  split; intros; constructor; auto; [rewrite C; reflexivity|]. apply clean_app. split; [apply D|assumption].
Qed.
Lemma tails_cons (f : text -> list text -> list text) x l : tails f (x :: l) = f x l. Proof. reflexivity. Qed.
Lemma good_lines pre l m : Forall2 eqv l m -> Forall clean l -> Forall clean m -> clean pre -> l <> [] ->
  good (tails comma_lines (match l with t :: r => (pre ++ t) :: r | [] => [] end)) (pre ++ commas m ++ [Sp]).
Proof.
  intros H A B C N. destruct l as [|x l]; [congruence|]. split; [|split].
  - rewrite tails_cons, comma_lines_grp, pre_commas, <- app_assoc. apply eqv_app; [reflexivity|]. apply eqv_app; [|reflexivity]. apply sepby_eqv. exact H.
  - rewrite tails_cons. inversion A; subst. apply clean_comma_lines; [cl|assumption].
  - cl.
Qed.
Lemma good_lines' pre l m : Forall2 eqv l m -> Forall clean l -> Forall clean m -> clean pre -> l <> [] ->
  good (tails comma_lines (match l with t :: r => (pre ++ [Sp] ++ t) :: r | [] => [] end)) (pre ++ [Sp] ++ commas m ++ [Sp]).
Proof.
  intros H A B C N. assert (C' : clean (pre ++ [Sp])) by cl. pose proof (good_lines (pre ++ [Sp]) l m H A B C' N) as G. destruct l as [|x l]; [congruence|].
  rewrite tails_cons in *. rewrite <- !app_assoc in G. exact G.
Qed.
Lemma good_line pre l m : Forall2 eqv l m -> Forall clean l -> Forall clean m -> clean pre -> good [pre ++ commas l] (pre ++ commas m ++ [Sp]).
Proof.
  intros H A B C. apply good_one; [|cl|cl]. rewrite <- app_assoc. apply eqv_app; [reflexivity|]. apply eqv_app; [|reflexivity]. apply sepby_eqv. exact H.
Qed.
Lemma map_F2 {A} (f g : A -> text) l : Forall (fun x => eqv (f x) (g x)) l -> Forall2 eqv (map f l) (map g l).
Proof. induction 1; constructor; assumption. Qed.
Lemma clean_sel d : OptP (Forall PE) d -> oall (forallb ok_e) d = true -> clean (sel_prefix (option_map (map (pr None)) d)).
Proof.
  intros H Hok. destruct d as [l|]; [|reflexivity]. cbn [OptP oall option_map sel_prefix] in *. destruct (commas_eqv l H Hok) as [_ B]. specialize (B None). destruct (commas _) as [|c t]; [reflexivity|]. cl.
Qed.
Definition sel_on (d : option (list expr)) : bool := match d with Some ds => match commas (map (pr None) ds) with [] => false | _ => true end | None => false end.
Lemma sel_on_prefix d : sel_on d = true -> exists t, sel_prefix (option_map (map (pr None)) d) = t ++ [P ")"].
Proof.
  unfold sel_on. destruct d as [l|]; [|discriminate]. cbn. destruct (commas _) as [|c t]; [discriminate|]. intros _. exists ([W "SELECT"; Sp; W "DISTINCT"; Sp; W "ON"; Sp; P "("] ++ c :: t). unfold paren, p. cbn. rewrite <- ?app_assoc. reflexivity.
Qed.
Lemma G_sel d ts : OptP (Forall PE) d -> oall (forallb ok_e) d = true -> Forall (PairP PE) ts -> forallb (fun t : expr * option string => match t with (e, _) => ok_e e end) ts = true ->
  good (let tx := map (fun t : expr * option string => match t with (e, n) => pr (Some 2) e ++ opt (fun n => [Sp; W "AS"; Sp; W n]) n end) ts in
        let pre := sel_prefix (option_map (map (pr None)) d) in
        let on := sel_on d in
        if Nat.leb 3 (List.length ts) || on
        then (if on then pre :: tails comma_lines (match tx with t :: r => (blanks 2 ++ t) :: r | [] => [] end)
              else tails comma_lines (match tx with t :: r => (pre ++ [Sp] ++ t) :: r | [] => [] end))
        else [pre ++ [Sp] ++ commas tx])
    (sel_prefix (option_map (map (pr None)) d) ++ [Sp]
      ++ commas (map (fun t : expr * option string => match t with (e, n) => pr None e ++ opt (fun n => [Sp; W "AS"; Sp; W n]) n end) ts) ++ [Sp]).
Proof.
  intros Hd Od Ht Ot. pose proof (clean_sel d Hd Od) as C.
  assert (Ot' : forallb (fun t => match t with (e, n) => ok_e e && no_nl_text (opt (fun n => [Sp; W "AS"; Sp; W n]) n) end) ts = true).
  { rewrite forallb_forall in *. intros [e n] Hin. specialize (Ot _ Hin). cbn beta iota in Ot. rewrite Ot. destruct n; reflexivity. }
  destruct (item_eqv _ ts Ht Ot') as [A B]. cbv zeta. pose proof (map_F2 _ _ _ A) as A2. pose proof (clean_map _ _ (B (Some 2))) as B2. pose proof (clean_map _ _ (B None)) as B0.
  unfold text in *. set (pre := sel_prefix _) in *. match type of A2 with Forall2 _ ?x ?y => set (tx := x) in *; set (ty := y) in * end.
  assert (Len : List.length tx = List.length ts) by (subst tx; apply map_length).
  destruct (Nat.leb 3 (List.length ts)) eqn:E3, (sel_on d) eqn:Eon; cbn [orb].
  - assert (N : tx <> []) by (intros E; rewrite E in Len; apply Nat.leb_le in E3; cbn in Len; lia).
    destruct (sel_on_prefix d Eon) as [t Et]. fold pre in Et.
    pose proof (good_lines (blanks 2) tx ty A2 B2 B0 (clean_blanks 2) N) as (G1 & G2 & G3). split; [|split].
    + rewrite grp_cons. etransitivity; [apply eqv_app; [reflexivity|exact G1]|]. rewrite <- !app_assoc. apply eqv_app; [reflexivity|]. cbn [app]. apply blanks_sp.
    + constructor; assumption.
    + cl.
  - assert (N : tx <> []) by (intros E; rewrite E in Len; apply Nat.leb_le in E3; cbn in Len; lia).
    apply good_lines'; assumption.
  - clear Len. clearbody tx ty. destruct tx as [|x tx].
    + assert (ty = []) by (inversion A2; reflexivity). rewrite H. cbn [tails]. apply good_one; [|exact C|cl; reflexivity]. cbn. change (sepby _ []) with (@nil piece). cbn [app]. rewrite sp_sp. reflexivity.
    + pose proof (good_lines (blanks 2) (x :: tx) ty A2 B2 B0 (clean_blanks 2) ltac:(discriminate)) as (G1 & G2 & G3). split; [|split].
      * rewrite grp_cons. etransitivity; [apply eqv_app; [reflexivity|exact G1]|]. rewrite <- !app_assoc. apply eqv_app; [reflexivity|]. cbn [app]. apply blanks_sp.
      * constructor; assumption.
      * cl.
  - pose proof (good_line (pre ++ [Sp]) tx ty A2 B2 B0) as G. rewrite <- !app_assoc in G. apply G. cl.
Qed.
Lemma self_F2 (l : list text) : Forall2 eqv l l. Proof. induction l; constructor; [reflexivity|assumption]. Qed.
Lemma clean_words l : Forall clean (map w l). Proof. induction l; constructor; [reflexivity|assumption]. Qed.
Lemma G_from f : OptP (fun z : list string + list source => match z with inl _ => True | inr l => Forall PS l end) f ->
  match f with None => true | Some (inl l) => nonnil l | Some (inr l) => forallb ok_s l end = true ->
  good (match f with
        | None => []
        | Some (inl l) => if Nat.ltb 3 (List.length l) then tails comma_lines (match map w l with t :: r => ([W "FROM"; Sp] ++ t) :: r | [] => [] end)
                          else match l with [] => [] | _ => [[W "FROM"; Sp] ++ commas (map w l)] end
        | Some (inr l) => [match l with [] => w "FROM" | _ => [W "FROM"; Nl] ++ sepby [P ","; Nl] (map fs l) end]
        end)
   (opt (fun f : list string + list source => [W "FROM"; Sp] ++ (match f with inl l => commas (map w l) | inr l => commas (map strs l) end) ++ [Sp]) f).
Proof.
  intros H Hok. destruct f as [[l|l]|]; cbn [opt]; [| |apply good_nil].
  - assert (N : map w l <> []) by (destruct l; [discriminate|discriminate]). destruct (Nat.ltb 3 (List.length l)).
    + apply good_lines; [apply self_F2|apply clean_words|apply clean_words|reflexivity|exact N].
    + pose proof (good_line [W "FROM"; Sp] (map w l) (map w l) (self_F2 _) (clean_words l) (clean_words l) eq_refl) as G. destruct l; [discriminate|exact G].
  - cbn [OptP] in H.
    assert (X : Forall2 (fun a b => eqv a (blanks 2 ++ b)) (map fs l) (map strs l) /\ Forall clean (map fs l) /\ Forall clean (map strs l)).
    { induction H as [|s l Hs Hl IH]; [repeat split; constructor|]. cbn [forallb] in Hok. apply andb_true_iff in Hok as [O1 O2]. destruct (IH O2) as (X1 & X2 & X3). destruct (Hs O1) as (Y1 & Y2 & Y3). repeat split; constructor; assumption. }
    destruct X as (X1 & X2 & X3). destruct l as [|s l].
    + apply good_one; [|reflexivity|reflexivity]. unfold w, commas. cbn. rewrite sp_sp. reflexivity.
    + apply good_one; [|cl|cl]. cbn [map] in *. set (xs := map fs l) in *. set (ys := map strs l) in *. generalize dependent (fs s). generalize dependent (strs s). clear - xs ys. intros u _ t X1 _.
      cbn [app]. apply eqv_cons. rewrite commas_nl. inversion X1 as [|? ? ? ? A B]; subst. clear X1.
      assert (Z : eqv (Sp :: commas (t :: xs)) (Sp :: commas (u :: ys))).
      { revert t u A B. generalize ys. clear. induction xs as [|x xs IH]; intros ys t u A B; inversion B; subst.
        - unfold commas. cbn [sepby]. rewrite A. apply blanks_sp.
        - unfold commas in *. change (sepby ?s (t :: x :: xs)) with (t ++ s ++ sepby s (x :: xs)). change (sepby ?s (u :: y :: l')) with (u ++ s ++ sepby s (y :: l')).
          cbn [app]. rewrite (IH l' x y) by assumption. rewrite A. rewrite <- app_assoc. apply blanks_sp. }
      etransitivity; [apply nl_cons|]. change (Sp :: commas (t :: xs) ++ [Sp]) with ((Sp :: commas (t :: xs)) ++ [Sp]). rewrite Z. reflexivity.
Qed.
Lemma G_where wh : OptP PE wh -> oall ok_e wh = true -> good (match wh with None => [] | Some e => wl e end) (opt (fun e => [W "WHERE"; Sp] ++ pr None e ++ [Sp]) wh).
Proof.
  intros H Hok. destruct wh as [e|]; [|apply good_nil]. cbn in H, Hok. destruct H as (Q & _ & R). destruct (R Hok) as [A B]. destruct (Q Hok) as [_ C]. split; [exact A|]. split; [exact B|]. cbn [opt]. cl. apply C.
Qed.
Lemma G_group (gr : option (list expr * bool)) : OptP (fun z => match z with (l, _) => Forall PE l end) gr -> match gr with Some (es, _) => forallb ok_e es | None => true end = true ->
  good (match gr with
        | None => []
        | Some (es, b) =>
            let pre := [W "GROUP"; Sp; W "BY"; Sp] ++ (if b then [W "DISTINCT"; Sp] else []) in
            if Nat.ltb 3 (List.length es) then tails comma_lines (match map (pr (Some 2)) es with t :: r => (pre ++ t) :: r | [] => [] end)
            else [pre ++ commas (map (pr (Some 2)) es)]
        end)
    (opt (fun g : list expr * bool => match g with (es, b) => [W "GROUP"; Sp; W "BY"] ++ (if b then [Sp; W "DISTINCT"] else []) ++ [Sp] ++ commas (map (pr None) es) ++ [Sp] end) gr).
Proof.
  intros H Hok. destruct gr as [[es b]|]; [|apply good_nil]. cbn [OptP] in H. destruct (use_list es H Hok) as [A B]. pose proof (map_F2 _ _ _ (A 2)) as A2.
  pose proof (clean_map _ _ (B (Some 2))) as B2. pose proof (clean_map _ _ (B None)) as B0. cbn [opt]. cbv zeta. set (pre := [W "GROUP"; Sp; W "BY"; Sp] ++ _).
  assert (E : forall t, [W "GROUP"; Sp; W "BY"] ++ (if b then [Sp; W "DISTINCT"] else []) ++ [Sp] ++ t = pre ++ t) by (intros t; subst pre; destruct b; reflexivity). rewrite E.
  assert (C : clean pre) by (subst pre; destruct b; reflexivity). destruct (Nat.ltb 3 (List.length es)) eqn:E3; [apply good_lines|apply good_line]; try assumption.
  destruct es; [discriminate|discriminate].
Qed.
Lemma G_hav hav : OptP PE hav -> oall ok_e hav = true -> good (match hav with None => [] | Some e => [[W "HAVING"; Sp] ++ pr (Some 2) e] end) (opt (fun e => [W "HAVING"; Sp] ++ pr None e ++ [Sp]) hav).
Proof.
  intros H Hok. destruct hav as [e|]; [|apply good_nil]. cbn in H, Hok. destruct H as (Q & _). destruct (Q Hok) as [A C]. apply good_one; [rewrite A; reflexivity| |]; cbn [opt]; cl; apply C.
Qed.
Lemma G_ord ord : OptP (Forall (PairP PE)) ord -> match ord with Some l => forallb (fun t => match t with (e, n) => ok_e e && no_nl_text n end) l | None => true end = true ->
  good (match ord with None => [] | Some l => [[W "ORDER"; Sp; W "BY"; Sp] ++ commas (map (fun t : expr * text => match t with (e, n) => pr (Some 2) e ++ n end) l)] end)
    (opt (fun l : list (expr * text) => [W "ORDER"; Sp; W "BY"; Sp] ++ commas (map (fun t : expr * text => match t with (e, n) => pr None e ++ n end) l) ++ [Sp]) ord).
Proof.
  intros H Hok. destruct ord as [l|]; [|apply good_nil]. cbn [OptP] in H. destruct (item_eqv (fun n => n) l H Hok) as [A B]. cbn [opt]. apply good_line; [apply map_F2; exact A|apply clean_map, (B (Some 2))|apply clean_map, (B None)|reflexivity].
Qed.
Lemma G_lim lim : oall ok_limit lim = true -> good (match lim with None => [] | Some l => limit_lines l end) (opt (fun l => limit_str l ++ [Sp]) lim).
Proof.
  intros Hok. destruct lim as [[[[|n]|] [[|m]|]]|]; try discriminate; try apply good_nil; cbn in Hok |- *; apply good_one; try reflexivity.
Qed.
Lemma G_opt (f : text -> text) h : oall no_nl_text h = true -> (forall t, eqv (t ++ [Sp]) (f t)) -> (forall t, clean t -> clean (f t)) -> good (match h with Some t => [t] | None => [] end) (opt f h).
Proof. intros H A B. destruct h as [t|]; [|apply good_nil]. apply good_one; [apply A|exact H|apply B; exact H]. Qed.

Lemma Q_query h x c d ts f wh gr hav ord lim :
    OptP (fun z => match z with (l, _) => Forall PC l end) c -> OptP (Forall PE) d -> Forall (PairP PE) ts ->
    OptP (fun z => match z with inl _ => True | inr l => Forall PS l end) f -> OptP PE wh -> OptP (fun z => match z with (l, _) => Forall PE l end) gr ->
    OptP PE hav -> OptP (Forall (PairP PE)) ord -> PQ (Query h x c d ts f wh gr hav ord lim).
Proof.
  intros Hc Hd Ht Hf Hw Hg Hh Ho Hok. cbn [ok_q] in Hok. okb.
  assert (G1 := G_opt (fun t => t ++ [Nl]) h ltac:(assumption) ltac:(intros t; apply eqv_app; [reflexivity|symmetry; apply nl_sp]) ltac:(intros t Ht'; cl)).
  assert (G2 := G_opt (fun t => t ++ [Sp]) x ltac:(assumption) ltac:(intros t; reflexivity) ltac:(intros t Ht'; cl)).
  assert (G3 := G_cte c Hc ltac:(assumption)). assert (G4 := G_sel d ts Hd ltac:(assumption) Ht ltac:(assumption)). assert (G5 := G_from f Hf ltac:(assumption)).
  assert (G6 := G_where wh Hw ltac:(assumption)). assert (G7 := G_group gr Hg ltac:(assumption)). assert (G8 := G_hav hav Hh ltac:(assumption)). assert (G9 := G_ord ord Ho ltac:(assumption)). assert (G10 := G_lim lim ltac:(assumption)).
  assert (G := good_app _ _ _ _ G1 (good_app _ _ _ _ G2 (good_app _ _ _ _ G3 (good_app _ _ _ _ G4 (good_app _ _ _ _ G5 (good_app _ _ _ _ G6 (good_app _ _ _ _ G7 (good_app _ _ _ _ G8 (good_app _ _ _ _ G9 G10))))))))).
  clear G1 G2 G3 G5 G6 G7 G8 G9 G10. destruct G as (A & B & C).
  assert (N : forall ls, let L := (match h with Some t => [t] | None => [] end ++ match x with Some t => [t] | None => [] end
        ++ match c with
           | Some ([c], r) => [fw1 (if r then [W "RECURSIVE"; Sp] else []) c]
           | Some (c :: l, r) =>
               [[W "WITH"; Sp] ++ (if r then [W "RECURSIVE"; Sp] else []) ++ [Sp] ++ fw c
                 ++ flat_map (fun c => [Nl; P ")"; P ","; Sp] ++ fw c) l ++ [Nl; P ")"]]
           | _ => []
           end ++ ls) in ls <> [] -> L <> []).
  { intros ls L HN E. subst L. apply app_eq_nil in E as [_ E]. apply app_eq_nil in E as [_ E]. apply app_eq_nil in E as [_ E]. congruence. }
  split; [|split].
  - intros post Hp. cbn [fq strq]. rewrite tk_rstrip by exact Hp. rewrite unlines_grp.
    + pose proof (eqv_use _ _ A "" post) as K. rewrite <- ?app_assoc in K. rewrite <- ?app_assoc. exact K.
    + exact Hp.
    + apply N. intros E. apply app_eq_nil in E as [E _]. destruct G4 as (G4 & _). cbv zeta in G4. unfold sel_on in G4. cbv zeta in E. rewrite E in G4. pose proof (eqv_use _ _ G4 "" [P "x"]) as K.
      clear - K. destruct d as [ds|]; cbn in K; [destruct (commas (map (pr None) ds)); cbn in K|]; discriminate.
  - cbn [fq]. apply clean_unlines. exact B.
  - cbn [strq]. apply clean_rstrip. rewrite <- ?app_assoc in C. rewrite <- ?app_assoc. exact C.
Qed.

Theorem main_all : (forall e, PE e) /\ (forall s, PS s) /\ (forall c, PC c) /\ forall q, PQ q.
Proof.
  assert (HLit : forall l, PE (ELit l)) by (intros l; apply std; [exact I|]; intros Hok; split; intros; cbn [pr]; [reflexivity|]; apply clean_cons; split; [exact Hok|reflexivity]).
  assert (HCol : forall c, PE (ECol c)) by (intros c; apply std; [exact I|]; intros Hok; split; intros; cbn [pr]; reflexivity).
  assert (HMath : forall op a b, PE a -> PE b -> PE (EMath op a b)).
  { intros op a b. apply (E_two (fun m x y => (if needs op a then paren x else x) ++ [Sp; P op; Sp] ++ (if needs op b then paren y else y))); try exact I; try reflexivity.
    - intros Hok. cbn [ok_e] in Hok. apply andb_true_iff in Hok. exact Hok.
    - intros i x y x' y' Hx Hy. apply eqv_app; [destruct (needs op a); [apply paren_eqv|]; exact Hx|]. apply eqv_app; [reflexivity|]. destruct (needs op b); [apply paren_eqv|]; exact Hy.
    - intros m x y Hx Hy. cl; [destruct (needs op a)|destruct (needs op b)]; cl. }
  assert (HBin : forall op a b, PE a -> PE b -> PE (EBin op a b)).
  { intros op a b. apply (E_two (fun m x y => x ++ [Sp; W op; Sp] ++ y)); try exact I; try reflexivity.
    - intros Hok. cbn [ok_e] in Hok. apply andb_true_iff in Hok. exact Hok.
    - intros i x y x' y' Hx Hy. rewrite Hx, Hy. reflexivity.
    - intros m x y Hx Hy. cl. }
  assert (HNeg : forall op a, PE a -> PE (ENeg op a)).
  { intros op a Ha. apply (E_two (fun m x y => p op ++ x) _ a a); try exact I; try reflexivity; try exact Ha.
    - intros Hok. cbn [ok_e] in Hok. split; exact Hok.
    - intros i x y x' y' Hx Hy. rewrite Hx. reflexivity.
    - intros m x y Hx Hy. cl. }
  assert (HPred : forall a, PE a -> PE (EPred a)).
  { intros a Ha. apply (E_two (fun m x y => x) _ a a); try exact I; try reflexivity; try exact Ha; auto. }
  assert (HEx : forall a, PE a -> PE (EExists a)).
  { intros a Ha. apply (E_two (fun m x y => [W "EXISTS"; Sp] ++ x) _ a a); try exact I; try reflexivity; try exact Ha; auto.
    - intros i x y x' y' Hx Hy. rewrite Hx. reflexivity. }
  assert (HNot : forall a, PE a -> PE (ENot a)) by (intros a (_ & Q & _); apply std; [exact I|exact Q]).
  assert (HBt : forall a lo hi, PE a -> PE lo -> PE hi -> PE (EBetween a lo hi)).
  { intros a lo hi [Ha _] [Hlo _] [Hhi _]. apply std; [exact I|]. intros Hok. cbn [ok_e] in Hok. okb. destruct (Ha ltac:(assumption)) as [A1 A2]. destruct (Hlo ltac:(assumption)) as [B1 B2]. destruct (Hhi ltac:(assumption)) as [C1 C2].
    split; intros; cbn [pr]; [rewrite A1, B1, C1; reflexivity|]. cl; auto. }
  assert (SD : forall t, PS (SDirect t)) by (intros t Hok; repeat split; reflexivity).
  split; [|split; [|split]]; intros z.
  - apply (ie PE PS PC PQ); auto using E_fun, E_sub, E_case, E_cast, E_in, E_and, E_or, S_fun, S_sub, C_query, C_values, Q_query.
  - apply (is_ PE PS PC PQ); auto using E_fun, E_sub, E_case, E_cast, E_in, E_and, E_or, S_fun, S_sub, C_query, C_values, Q_query.
  - apply (ic PE PS PC PQ); auto using E_fun, E_sub, E_case, E_cast, E_in, E_and, E_or, S_fun, S_sub, C_query, C_values, Q_query.
  - apply (iq PE PS PC PQ); auto using E_fun, E_sub, E_case, E_cast, E_in, E_and, E_or, S_fun, S_sub, C_query, C_values, Q_query.
Qed.
