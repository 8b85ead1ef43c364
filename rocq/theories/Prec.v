(** Operator precedence grammars: how text with infix and prefix operators is read.  Used as the specification of what a
    printed predicate (C03) or arithmetic expression (C04) means.  Independent of any model of PostBOUND. *)
From Coq Require Import List Bool Arith Lia.
Import ListNotations.

Section Prec.
  Context {A S : Type}.
  (** Tokens: atoms (self-contained text), operator symbols, parentheses. *)
  Inductive tok := TAtom (a : A) | TSym (s : S) | TL | TR.
  Inductive tree := EAtom (a : A) | EBin (s : S) (l r : tree) | EUn (s : S) (e : tree).

  (** Precedence levels are [0 .. K-1], higher ones bind tighter; [K] is for atoms and parentheses.  Infix operators are
      left associative; no level has both infix and prefix operators. *)
  Context (K : nat) (blvl ulvl : S -> option nat).

  Inductive g : nat -> list tok -> tree -> Prop :=
  | g_atom a : g K [TAtom a] (EAtom a)
  | g_paren ts e : g 0 ts e -> g K (TL :: ts ++ [TR]) e
  | g_up k ts e : k < K -> g (Datatypes.S k) ts e -> g k ts e
  | g_bin k s ts1 e1 ts2 e2 : k < K -> blvl s = Some k -> g k ts1 e1 -> g (Datatypes.S k) ts2 e2 ->
      g k (ts1 ++ TSym s :: ts2) (EBin s e1 e2)
  | g_un k s ts e : k < K -> ulvl s = Some k -> g k ts e -> g k (TSym s :: ts) (EUn s e).

  (** [reads ts e]: the whole text [ts] is an expression with structure [e]. *)
  Definition reads (ts : list tok) (e : tree) : Prop := g 0 ts e.

  Hypothesis disjoint : forall s s' k, blvl s = Some k -> ulvl s' = Some k -> False.

  (** ** Unambiguity, via a deterministic left-to-right parser given as a relation *)
  Definition head_un (k : nat) (ts : list tok) : Prop := match ts with TSym s :: _ => ulvl s = Some k | _ => False end.
  Definition head_bin (k : nat) (ts : list tok) : Prop := match ts with TSym s :: _ => blvl s = Some k | _ => False end.

  Inductive Pp : nat -> list tok -> tree -> list tok -> Prop :=
  | P_atom a r : Pp K (TAtom a :: r) (EAtom a) r
  | P_par ts e r : Pp 0 ts e (TR :: r) -> Pp K (TL :: ts) e r
  | P_un k s ts e r : k < K -> ulvl s = Some k -> Pp k ts e r -> Pp k (TSym s :: ts) (EUn s e) r
  | P_bin k ts e1 r1 e r : k < K -> ~ head_un k ts -> Pp (Datatypes.S k) ts e1 r1 -> Lp k e1 r1 e r -> Pp k ts e r
  with Lp : nat -> tree -> list tok -> tree -> list tok -> Prop :=
  | L_stop k e ts : ~ head_bin k ts -> Lp k e ts e ts
  | L_go k s ts e1 e2 r2 e r : blvl s = Some k -> Pp (Datatypes.S k) ts e2 r2 -> Lp k (EBin s e1 e2) r2 e r ->
      Lp k e1 (TSym s :: ts) e r.
  Scheme Pp_ind2 := Induction for Pp Sort Prop with Lp_ind2 := Induction for Lp Sort Prop.
  Combined Scheme PL_ind from Pp_ind2, Lp_ind2.

  Lemma PL_det :
    (forall k ts e r, Pp k ts e r -> forall e' r', Pp k ts e' r' -> e' = e /\ r' = r) /\
    (forall k e1 ts e r, Lp k e1 ts e r -> forall e' r', Lp k e1 ts e' r' -> e' = e /\ r' = r).
  Proof.
    apply PL_ind.
    - intros a r e' r' H. inversion H; subst; auto; lia.
    - intros ts e r _ IH e' r' H. inversion H as [|ts0 e0 r0 H1| |k0 ts0 e1 r1 e0 r0 Hlt]; subst; [|lia].
      destruct (IH _ _ H1) as [-> [= ->]]. auto.
    - intros k s ts e r Hk Hs _ IH e' r' H. inversion H as [| |k0 s0 ts0 e0 r0 Hk0 Hs0 H1|k0 ts0 e1 r1 e0 r0 Hk0 Hu]; subst.
      + destruct (IH _ _ H1) as [-> ->]. auto.
      + exfalso. apply Hu. exact Hs.
    - intros k ts e1 r1 e r Hk Hu _ IH1 _ IH2 e' r' H. inversion H as [| |k0 s0 ts0 e0 r0 Hk0 Hs0 H1|k0 ts0 e1' r1' e0 r0 Hk0 Hu0 H1 H2]; subst; try lia.
      + exfalso. apply Hu. exact Hs0.
      + destruct (IH1 _ _ H1) as [-> ->]. now apply IH2.
    - intros k e ts Hb e' r' H. inversion H as [|k0 s ts0 e1 e2 r2 e0 r0 Hs]; subst; auto. exfalso. apply Hb. exact Hs.
    - intros k s ts e1 e2 r2 e r Hs _ IH1 _ IH2 e' r' H. inversion H as [k0 e0 ts0 Hb|k0 s0 ts0 e1' e2' r2' e0 r0 Hs0 H1 H2]; subst.
      + exfalso. apply Hb. exact Hs.
      + destruct (IH1 _ _ H1) as [-> ->]. now apply IH2.
  Qed.

  (** No infix operator of a level above [k] follows. *)
  Definition follows (k : nat) (rest : list tok) : Prop := match rest with TSym s :: _ => forall j, blvl s = Some j -> j <= k | _ => True end.

  Lemma g_nonempty k ts e : g k ts e -> ts <> [].
  Proof. induction 1; try discriminate; auto. destruct ts1; discriminate. Qed.
  Lemma g_head_un k ts e : g k ts e -> forall j rest, head_un j (ts ++ rest) -> k <= j.
  Proof.
    induction 1 as [a|ts e H IH|k ts e Hk H IH|k s ts1 e1 ts2 e2 Hk Hs H1 IH1 H2 IH2|k s ts e Hk Hs H IH]; intros j rest Hh; cbn in *; try contradiction.
    - apply IH in Hh. lia.
    - rewrite <- app_assoc in Hh. now apply IH1 in Hh.
    - rewrite Hs in Hh. injection Hh as <-. lia.
  Qed.

  Lemma g_parsed k ts e : g k ts e -> k <= K /\ forall rest e' rest', follows k rest -> (k < K -> Lp k e rest e' rest') -> (k = K -> e' = e /\ rest' = rest) ->
    Pp k (ts ++ rest) e' rest'.
  Proof.
    induction 1 as [a|ts e H IH|k ts e Hk H IH|k s ts1 e1 ts2 e2 Hk Hs H1 IH1 H2 IH2|k s ts e Hk Hs H IH].
    - split; [lia|]. intros rest e' rest' _ _ HK. destruct (HK eq_refl) as [-> ->]. constructor.
    - split; [lia|]. intros rest e' rest' _ _ HK. destruct (HK eq_refl) as [-> ->]. cbn. rewrite <- app_assoc. constructor. cbn.
      apply IH; [cbn; exact I| |].
      + intros _. apply L_stop. intros H0. exact H0.
      + intros _. auto.
    - destruct IH as [HkK IH]. split; [lia|]. intros rest e' rest' Hf HL _. apply P_bin with e rest; [assumption| | |now apply HL].
      + intros Hh. apply (g_head_un _ _ _ H) in Hh. lia.
      + apply IH.
        * destruct rest as [|[a|s| |] rest]; cbn in *; trivial; intros j Hj; specialize (Hf j Hj); lia.
        * intros _. apply L_stop. destruct rest as [|[a|s| |] rest]; cbn in *; try tauto; intros Hb; specialize (Hf _ Hb); lia.
        * auto.
    - destruct IH1 as [_ IH1], IH2 as [HkK IH2]. split; [lia|]. intros rest e' rest' Hf HL _. rewrite <- app_assoc. cbn. apply IH1.
      + cbn. intros j Hj. rewrite Hs in Hj. injection Hj as <-. lia.
      + intros _. apply L_go with e2 rest; [assumption| |now apply HL]. apply IH2.
        * destruct rest as [|[a|s0| |] rest]; cbn in *; trivial; intros j Hj; specialize (Hf j Hj); lia.
        * intros _. apply L_stop. destruct rest as [|[a|s0| |] rest]; cbn in *; try tauto; intros Hb; specialize (Hf _ Hb); lia.
        * auto.
      + intros ->. lia.
    - destruct IH as [_ IH]. split; [lia|]. intros rest e' rest' Hf HL _.
      assert (He : e' = EUn s e /\ rest' = rest).
      { specialize (HL Hk). inversion HL as [|k0 s0 ts0 e1 e2 r2 e0 r0 Hs0]; subst; auto. exfalso. exact (disjoint _ _ _ Hs0 Hs). }
      destruct He as [-> ->]. cbn. apply P_un; [assumption..|]. apply IH; [assumption| |intros ->; lia].
      intros _. apply L_stop. destruct rest as [|[a|s0| |] rest]; cbn; try tauto; intros Hb; exact (disjoint _ _ _ Hb Hs).
  Qed.

  Theorem reads_unique ts e e' : reads ts e -> reads ts e' -> e = e'.
  Proof.
    assert (Hp : forall e, reads ts e -> Pp 0 (ts ++ []) e []).
    { intros e0 H. apply (g_parsed _ _ _ H); [exact I| |auto]. intros _. apply L_stop. intros []. }
    intros H1 H2. apply Hp in H1, H2. exact (proj1 (proj1 PL_det _ _ _ _ H2 _ _ H1)).
  Qed.

  Lemma g_down k k' ts e : k <= k' -> k' <= K -> g k' ts e -> g k ts e.
  Proof. intros Hle HK H. induction Hle as [|m Hle IH]; [assumption|]. apply IH; [lia|]. apply g_up; [lia|assumption]. Qed.
End Prec.
Arguments tok : clear implicits. Arguments tree : clear implicits.
