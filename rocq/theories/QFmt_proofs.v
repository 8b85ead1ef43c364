(** Lemmas about the quick formatter. *)
From Coq Require Import String List Bool Arith Lia Setoid Morphisms.
From Verif Require Import PyBase QFmt_model QFmt_spec.
Import ListNotations.
Open Scope string_scope.
Open Scope list_scope.

(** ** Induction *)
Definition OptP {A} (Q : A -> Prop) (o : option A) : Prop := match o with Some x => Q x | None => True end.
Section Ind.
  Variables (PE : expr -> Prop) (PS : source -> Prop) (PC : cte -> Prop) (PQ : query -> Prop).
  Definition PairP {B} (x : expr * B) : Prop := match x with (e, _) => PE e end.
  Hypothesis HLit : forall l, PE (ELit l).
  Hypothesis HCol : forall c, PE (ECol c).
  Hypothesis HFun : forall fn args d f, Forall PE args -> OptP PE f -> PE (EFun fn args d f).
  Hypothesis HSub : forall a q, PQ q -> PE (ESub a q).
  Hypothesis HCase : forall a cases s e, Forall (fun c => match c with (x, y) => PE x /\ PE y end) cases -> OptP PE s -> OptP PE e -> PE (ECase a cases s e).
  Hypothesis HCast : forall e ty arr, PE e -> PE (ECast e ty arr).
  Hypothesis HMath : forall op a b, PE a -> PE b -> PE (EMath op a b).
  Hypothesis HNeg : forall op a, PE a -> PE (ENeg op a).
  Hypothesis HBin : forall op a b, PE a -> PE b -> PE (EBin op a b).
  Hypothesis HBetween : forall a lo hi, PE a -> PE lo -> PE hi -> PE (EBetween a lo hi).
  Hypothesis HIn : forall a vs, PE a -> Forall PE vs -> PE (EIn a vs).
  Hypothesis HPred : forall a, PE a -> PE (EPred a).
  Hypothesis HExists : forall a, PE a -> PE (EExists a).
  Hypothesis HNot : forall a, PE a -> PE (ENot a).
  Hypothesis HAnd : forall ps, Forall PE ps -> PE (EAnd ps).
  Hypothesis HOr : forall ps, Forall PE ps -> PE (EOr ps).
  Hypothesis SDirect_ : forall t, PS (SDirect t).
  Hypothesis SFun_ : forall f a, PE f -> PS (SFun f a).
  Hypothesis SSub_ : forall q l n, PQ q -> PS (SSub q l n).
  Hypothesis CQuery_ : forall q n m, PQ q -> PC (CQuery q n m).
  Hypothesis CValues_ : forall rows n cols m, Forall (Forall PE) rows -> PC (CValues rows n cols m).
  Hypothesis Query_ : forall h x c d ts f wh gr hav ord lim,
    OptP (fun z => match z with (l, _) => Forall PC l end) c -> OptP (Forall PE) d -> Forall PairP ts ->
    OptP (fun z => match z with inl _ => True | inr l => Forall PS l end) f -> OptP PE wh -> OptP (fun z => match z with (l, _) => Forall PE l end) gr ->
    OptP PE hav -> OptP (Forall PairP) ord -> PQ (Query h x c d ts f wh gr hav ord lim).
  Section L. Context {A : Type} (Q : A -> Prop) (f : forall x, Q x).
    Fixpoint all_ (l : list A) : Forall Q l := match l with [] => Forall_nil _ | x :: r => Forall_cons _ (f x) (all_ r) end.
    Definition opt_ (o : option A) : OptP Q o := match o with Some x => f x | None => I end.
  End L.
  Fixpoint ie (e : expr) : PE e :=
    match e with
    | ELit l => HLit l | ECol c => HCol c
    | EFun fn args d f => HFun fn args d f (all_ PE ie args) (opt_ PE ie f)
    | ESub a q => HSub a q (iq q)
    | ECase a cases s e => HCase a cases s e (all_ (fun c => match c with (x, y) => PE x /\ PE y end) (fun c => match c with (x, y) => conj (ie x) (ie y) end) cases) (opt_ PE ie s) (opt_ PE ie e)
    | ECast e ty arr => HCast e ty arr (ie e)
    | EMath op a b => HMath op a b (ie a) (ie b)
    | ENeg op a => HNeg op a (ie a)
    | EBin op a b => HBin op a b (ie a) (ie b)
    | EBetween a lo hi => HBetween a lo hi (ie a) (ie lo) (ie hi)
    | EIn a vs => HIn a vs (ie a) (all_ PE ie vs)
    | EPred a => HPred a (ie a)
    | EExists a => HExists a (ie a)
    | ENot a => HNot a (ie a)
    | EAnd ps => HAnd ps (all_ PE ie ps)
    | EOr ps => HOr ps (all_ PE ie ps)
    end
  with is_ (s : source) : PS s :=
    match s with SDirect t => SDirect_ t | SFun f a => SFun_ f a (ie f) | SSub q l n => SSub_ q l n (iq q) end
  with ic (c : cte) : PC c :=
    match c with CQuery q n m => CQuery_ q n m (iq q) | CValues rows n cols m => CValues_ rows n cols m (all_ (Forall PE) (fun r => all_ PE ie r) rows) end
  with iq (q : query) : PQ q :=
    match q with
    | Query h x c d ts f wh gr hav ord lim =>
        Query_ h x c d ts f wh gr hav ord lim
          (match c as z return OptP (fun z => match z with (l, _) => Forall PC l end) z with Some (l, _) => all_ PC ic l | None => I end)
          (match d as z return OptP (Forall PE) z with Some l => all_ PE ie l | None => I end)
          (all_ PairP (fun t => match t with (e, _) => ie e end) ts)
          (match f as z return OptP (fun z => match z with inl _ => True | inr l => Forall PS l end) z with Some (inl _) => I | Some (inr l) => all_ PS is_ l | None => I end)
          (opt_ PE ie wh)
          (match gr as z return OptP (fun z => match z with (l, _) => Forall PE l end) z with Some (l, _) => all_ PE ie l | None => I end)
          (opt_ PE ie hav)
          (match ord as z return OptP (Forall PairP) z with Some l => all_ PairP (fun t => match t with (e, _) => ie e end) l | None => I end)
    end.
End Ind.

(** ** Texts with the same tokens in every context *)
Inductive eqv (t u : text) : Prop := Eqv (H : forall cur post, tk cur (t ++ post) = tk cur (u ++ post)).
Lemma eqv_use t u : eqv t u -> forall cur post, tk cur (t ++ post) = tk cur (u ++ post).
Proof. intros [H]. exact H. Qed.
#[export] Instance eqv_equiv : Equivalence eqv.
Proof. split; [intros t; constructor; reflexivity|intros t u [H]; constructor; intros cur post; symmetry; apply H|intros t u v [H1] [H2]; constructor; intros cur post; rewrite H1; apply H2]. Qed.
Lemma eqv_cons c t u : eqv t u -> eqv (c :: t) (c :: u).
Proof. intros [H]. constructor. intros cur post. destruct c; cbn; rewrite H; reflexivity. Qed.
#[export] Instance eqv_cons_proper : Proper (eq ==> eqv ==> eqv) (@cons piece).
Proof. intros c d <- t u H. apply eqv_cons. exact H. Qed.
#[export] Instance eqv_app : Proper (eqv ==> eqv ==> eqv) (@app piece).
Proof.
  intros t u [H] t' u' [H']. constructor. intros cur post. rewrite <- !app_assoc. rewrite (H cur (t' ++ post)).
  revert cur. clear H. induction u as [|c u IH]; intros cur; cbn; [apply H'|]. destruct c; cbn; rewrite IH; reflexivity.
Qed.
Lemma flush_nil : flush EmptyString = []. Proof. reflexivity. Qed.
Lemma nl_sp : eqv [Nl] [Sp]. Proof. constructor. intros cur post. reflexivity. Qed.
Lemma nl_cons t : eqv (Nl :: t) (Sp :: t). Proof. constructor. intros cur post. reflexivity. Qed.
Lemma sp_sp t : eqv (Sp :: Sp :: t) (Sp :: t). Proof. constructor. intros cur post. reflexivity. Qed.
Lemma sp_p s t : eqv (Sp :: P s :: t) (P s :: t). Proof. constructor. intros cur post. cbn. reflexivity. Qed.
Lemma p_sp s t : eqv (P s :: Sp :: t) (P s :: t). Proof. constructor. intros cur post. cbn. reflexivity. Qed.
Lemma blanks_sp n t : eqv (Sp :: blanks n ++ t) (Sp :: t).
Proof. induction n; [reflexivity|]. cbn. rewrite sp_sp. exact IHn. Qed.
Lemma blanks_nl n t : eqv (Nl :: blanks n ++ t) (Sp :: t).
Proof. rewrite nl_cons. apply blanks_sp. Qed.
Lemma blanks_p n s t : eqv (blanks n ++ P s :: t) (P s :: t).
Proof. induction n; [reflexivity|]. cbn. rewrite IHn. apply sp_p. Qed.
Lemma p_blanks n s t : eqv (P s :: blanks n ++ t) (P s :: t).
Proof. induction n; [reflexivity|]. cbn. rewrite p_sp. exact IHn. Qed.

Definition clean (t : text) : Prop := no_nl_text t = true.
Lemma clean_app t u : clean (t ++ u) <-> clean t /\ clean u.
Proof. unfold clean, no_nl_text. rewrite forallb_app, andb_true_iff. reflexivity. Qed.
Lemma clean_cons c t : clean (c :: t) <-> match c with L l => no_nl l = true | _ => True end /\ clean t.
Proof. unfold clean, no_nl_text. cbn. rewrite andb_true_iff. destruct c; intuition. Qed.
Lemma clean_nil : clean []. Proof. reflexivity. Qed.
Lemma clean_blanks n : clean (blanks n). Proof. induction n; [reflexivity|]. cbn. exact IHn. Qed.
Lemma clean_sepby s l : clean s -> Forall clean l -> clean (sepby s l).
Proof.
  intros Hs. induction 1 as [|x r Hx Hr IH]; [reflexivity|]. cbn. destruct r; [exact Hx|]. apply clean_app. split; [exact Hx|]. apply clean_app. split; assumption.
Qed.
Lemma ind_lit_id n l : no_nl l = true -> ind_lit n l = l.
Proof. unfold no_nl, ind_lit. induction l as [|[x|] l IH]; cbn; [reflexivity| |discriminate]. intros H. rewrite IH by exact H. reflexivity. Qed.
Lemma indent_eqv n t : clean t -> eqv (indent n t) (blanks n ++ t).
Proof.
  intros H. unfold indent. apply eqv_app; [reflexivity|]. induction t as [|c t IH]; [reflexivity|]. apply clean_cons in H as [Hc H]. specialize (IH H).
  cbn [flat_map]. destruct c; cbn [app]; [rewrite IH; reflexivity| |rewrite IH; reflexivity..|].
  - etransitivity; [apply blanks_nl|]. etransitivity; [|symmetry; apply nl_cons]. apply eqv_cons. exact IH.
  - rewrite ind_lit_id by exact Hc. rewrite IH. reflexivity.
Qed.
Lemma clean_indent n t : clean t -> clean (indent n t).
Proof.
  intros H. unfold indent. apply clean_app. split; [apply clean_blanks|]. induction t as [|c t IH]; [reflexivity|]. apply clean_cons in H as [Hc H]. specialize (IH H).
  cbn [flat_map]. apply clean_app. split; [|exact IH]. destruct c; try reflexivity; [apply clean_blanks|]. rewrite ind_lit_id by exact Hc. apply clean_cons. split; [exact Hc|reflexivity].
Qed.
Lemma paren_eqv t u : eqv t u -> eqv (paren t) (paren u).
Proof. intros H. unfold paren. rewrite H. reflexivity. Qed.
Lemma clean_paren t : clean t -> clean (paren t).
Proof. intros H. unfold paren, p. cbn. apply clean_app. split; [exact H|reflexivity]. Qed.
Lemma layout_eqv n t : clean t -> eqv (layout n (paren t)) (paren t).
Proof.
  intros H. unfold layout. destruct (has_nl (paren t)).
  - rewrite indent_eqv by (apply clean_paren; exact H). unfold paren, p. cbn [app]. rewrite nl_cons, blanks_p. apply sp_p.
  - unfold paren, p. cbn [app]. apply blanks_p.
Qed.
Lemma clean_layout n t : clean t -> clean (layout n t).
Proof. intros H. unfold layout. destruct (has_nl t); [apply (clean_indent n t H)|]. apply clean_app. split; [apply clean_blanks|exact H]. Qed.
Lemma sepby_eqv s l m : Forall2 eqv l m -> eqv (sepby s l) (sepby s m).
Proof.
  induction 1 as [|x y r r' Hx Hr IH]; [reflexivity|]. cbn. inversion Hr; subst; [exact Hx|]. rewrite Hx, IH. reflexivity.
Qed.
Lemma sepby_map_eqv {A} s (f g : A -> text) l : Forall (fun x => eqv (f x) (g x)) l -> eqv (sepby s (map f l)) (sepby s (map g l)).
Proof. intros H. apply sepby_eqv. induction H; cbn; constructor; auto. Qed.
Lemma clean_map {A} (f : A -> text) l : Forall (fun x => clean (f x)) l -> Forall clean (map f l).
Proof. induction 1; cbn; constructor; auto. Qed.

(** before the end of the text or of an expression *)
Definition nw (post : text) : Prop := match post with W _ :: _ => False | _ => True end.
Definition eqe (t u : text) : Prop := forall post, nw post -> tk EmptyString (t ++ post) = tk EmptyString (u ++ post).
Lemma tk_rstrip t cur post : nw post -> tk cur (rstrip t ++ post) = tk cur (t ++ post).
Proof.
  intros N. unfold rstrip. rewrite <- (rev_involutive t) at 2. generalize (rev t). clear t. intros t. revert post N. induction t as [|c t IH]; intros post N; [reflexivity|].
  cbn [lstrip]. destruct (is_ws c) eqn:E; [|reflexivity]. rewrite IH by exact N. cbn [rev]. rewrite <- app_assoc. cbn [app].
  assert (X : forall cur, tk cur post = tk cur (c :: post)).
  { intros cu. destruct c; try discriminate; cbn; destruct post as [|[]]; cbn in N; try destruct N; cbn; try reflexivity; rewrite ?app_nil_r; reflexivity. }
  clear IH. generalize (rev t). intros l. revert cur. induction l as [|d l IHl]; intros cur; [apply X|]. destruct d; cbn; rewrite IHl; reflexivity.
Qed.
Definition grp (l : list text) : text := List.concat (map (fun t => t ++ [Sp]) l).
Lemma grp_app a b : grp (a ++ b) = grp a ++ grp b.
Proof. unfold grp. rewrite map_app, concat_app. reflexivity. Qed.
Lemma tk_app_eq l t u : (forall cur, tk cur t = tk cur u) -> forall cur, tk cur (l ++ t) = tk cur (l ++ u).
Proof. intros H. induction l as [|c l IH]; intros cur; [apply H|]. destruct c; cbn; rewrite IH; reflexivity. Qed.
Lemma tk_sp_nw post : nw post -> forall cur, tk cur post = tk cur (Sp :: post).
Proof. intros N cur. cbn. destruct post as [|[]]; cbn in N; try destruct N; cbn; try reflexivity; rewrite ?app_nil_r; reflexivity. Qed.
Lemma unlines_grp l post cur : nw post -> l <> [] -> tk cur (unlines l ++ post) = tk cur (grp l ++ post).
Proof.
  intros N. revert cur. induction l as [|x l IH]; intros cur Hl; [destruct Hl; reflexivity|]. unfold unlines in *. cbn [sepby]. destruct l as [|y l].
  - unfold grp. cbn [map List.concat]. rewrite app_nil_r, <- app_assoc. apply tk_app_eq. apply tk_sp_nw. exact N.
  - change (grp (x :: y :: l)) with ((x ++ [Sp]) ++ grp (y :: l)). rewrite <- !app_assoc. apply tk_app_eq. intros cur'. cbn [app tk]. f_equal. apply IH. discriminate.
Qed.
Lemma unlines_grp_p s t r l : l <> [] -> eqv (t ++ unlines l ++ P s :: r) (t ++ grp l ++ P s :: r).
Proof. intros Hl. constructor. intros cur post. rewrite <- !app_assoc. apply tk_app_eq. intros cur'. cbn [app]. apply unlines_grp; [exact I|exact Hl]. Qed.
Lemma comma_lines_grp f r : eqv (grp (comma_lines f r)) (commas (f :: r) ++ [Sp]).
Proof.
  revert f. induction r as [|x r IH]; intros f; [unfold grp; cbn; rewrite app_nil_r; reflexivity|].
  cbn [comma_lines]. change (grp ((f ++ p ",") :: comma_lines (blanks 2 ++ x) r)) with (((f ++ p ",") ++ [Sp]) ++ grp (comma_lines (blanks 2 ++ x) r)).
  rewrite IH. unfold commas. cbn [sepby]. unfold p. rewrite <- !app_assoc. apply eqv_app; [reflexivity|]. cbn [app]. destruct r as [|y r].
  - cbn [app blanks repeat]. rewrite !sp_sp. reflexivity.
  - rewrite <- !app_assoc. cbn [app blanks repeat]. rewrite !sp_sp. reflexivity.
Qed.
Lemma clean_comma_lines f r : clean f -> Forall clean r -> Forall clean (comma_lines f r).
Proof.
  intros Hf Hr. revert f Hf. induction Hr as [|x r Hx Hr IH]; intros f Hf; cbn [comma_lines]; constructor; auto.
  apply clean_app. split; [exact Hf|reflexivity].
Qed.
Lemma clean_unlines l : Forall clean l -> clean (unlines l).
Proof. apply clean_sepby. reflexivity. Qed.
Lemma clean_rstrip t : clean t -> clean (rstrip t).
Proof.
  unfold rstrip. intros H. assert (X : forall u, clean u <-> Forall (fun c => match c with L l => no_nl l = true | _ => True end) u).
  { intros u. unfold clean, no_nl_text. rewrite forallb_forall, Forall_forall. split; intros Y c Hc; specialize (Y c Hc); destruct c; auto. }
  rewrite X in *. apply Forall_rev. apply Forall_rev in H. induction H as [|c r Hc Hr IH]; cbn; [constructor|]. destruct (is_ws c); [exact IH|constructor; assumption].
Qed.
