(** Property theorems for C372 and C373 (normalized filters of QEP-S nodes). *)
From Coq Require Import List Bool String.
From Verif Require Import PyBase Ident_model Nrm_model Nrm_spec.
Import ListNotations.

Lemma renamed_ok : forall l rt, rmapM (fun t => rbind (drop_alias t) (fun u => Ok (t, u))) l = Ok rt ->
  forall t, match dget rt t with Some u => In t l /\ virtual t = false /\ u = (fst t, (""%string, false)) | None => ~ In t l end.
Proof.
  induction l as [|x l IH]; cbn [rmapM]; intros rt; [intros Q; injection Q as <-; intros t []|]. unfold drop_alias at 1.
  destruct (virtual x) eqn:V; [discriminate|]. cbn [rbind]. destruct (rmapM _ l) as [r|]; [|discriminate]. cbn [rbind]. intros Q; injection Q as <-. intros t.
  cbn [dget]. destruct (eqd t x) as [->|N]; [cbn; auto|]. specialize (IH r eq_refl t). destruct (dget r t); cbn; intuition congruence.
Qed.
Lemma renamed_raises : forall l, (exists t, In t l /\ virtual t = true) -> rmapM (fun t => rbind (drop_alias t) (fun u => Ok (t, u))) l = Raise StateError.
Proof.
  induction l as [|x l IH]; intros (t & I & V); [destruct I|]. cbn [rmapM]. unfold drop_alias at 1. destruct (virtual x) eqn:X; [reflexivity|]. cbn [rbind].
  destruct I as [->|I]; [congruence|]. rewrite IH by eauto. reflexivity.
Qed.
Lemma renamed_total : forall l, (forall t, In t l -> virtual t = false) -> exists rt, rmapM (fun t => rbind (drop_alias t) (fun u => Ok (t, u))) l = Ok rt.
Proof.
  induction l as [|x l IH]; intros H; [exists []; reflexivity|]. cbn [rmapM]. unfold drop_alias at 1. rewrite (H x) by (left; reflexivity). cbn [rbind].
  destruct IH as (rt & ->); [intros t I; apply H; right; exact I|]. eexists; reflexivity.
Qed.

Lemma in_tables : forall {S : Type} (s : S) cs t, In t (pred_tables (s, cs)) <-> exists n, In (n, Some t) cs.
Proof.
  intros S s cs t. unfold pred_tables. rewrite in_flat_map. cbn [snd]. split.
  - intros ([n [u|]] & I & J); cbn in J; [destruct J as [->|[]]; eauto|destruct J].
  - intros (n & I). exists (n, Some t). cbn; auto.
Qed.

(** What the dictionary of renamed columns does to a column. *)
Lemma renamed_column : forall (f : tab -> option tab) (cs : list col) c, In c cs ->
  match dget (flat_map (fun c : col => match snd c with Some t => match f t with Some u => [(c, (fst c, Some u))] | None => [] end | None => [] end) cs) c with Some d => d | None => c end
  = match snd c with Some t => match f t with Some u => (fst c, Some u) | None => c end | None => c end.
Proof.
  intros f cs c. pose (g := fun c : col => match snd c with Some t => match f t with Some u => [(c, (fst c, Some u))] | None => [] end | None => [] end).
  change (In c cs -> match dget (flat_map g cs) c with Some d => d | None => c end = match snd c with Some t => match f t with Some u => (fst c, Some u) | None => c end | None => c end).
  assert (A : forall x, x <> c -> forall r, dget (g x ++ r) c = dget r c).
  { intros x N r. unfold g. destruct (snd x) as [t|]; [|reflexivity]. destruct (f t); [|reflexivity]. cbn. destruct (eqd c x); [congruence|reflexivity]. }
  assert (Z : g c = [] -> forall l, dget (flat_map g l) c = None).
  { intros G. induction l as [|x l IH]; [reflexivity|]. cbn [flat_map]. destruct (eqd x c) as [->|N]; [rewrite G; exact IH|rewrite A by exact N; exact IH]. }
  destruct (snd c) as [t|] eqn:T; [destruct (f t) as [u|] eqn:F|].
  - induction cs as [|x cs IH]; intros I; [destruct I|]. cbn [flat_map]. destruct (eqd x c) as [->|N]; [|rewrite A by exact N; apply IH; destruct I; [contradiction|assumption]].
    unfold g at 1. rewrite T, F. cbn. destruct (eqd c c); [reflexivity|congruence].
  - intros _. rewrite Z; [reflexivity|unfold g; rewrite T, F; reflexivity].
  - intros _. rewrite Z; [reflexivity|unfold g; rewrite T; reflexivity].
Qed.

(** ** C372: exactly the aliases of the given tables are removed, nothing else changes; it fails exactly if one of these tables is virtual. *)
Theorem C372_normalize_partial : forall {S : Type} (T : list tab) (s : S) (cs : list col),
  ((exists n t, In (n, Some t) cs /\ In t T /\ virtual t = true) -> normalize T (Some (s, cs)) = Raise StateError) /\
  ((forall n t, In (n, Some t) cs -> In t T -> virtual t = false) ->
    exists ds, normalize T (Some (s, cs)) = Ok (Some (s, ds)) /\ Forall2 (unaliased (""%string) T) cs ds) /\
  normalize (S := S) T None = Ok None.
Proof.
  intros S T s cs. split; [|split; [|reflexivity]].
  - intros (n & t & I & J & V). unfold normalize. rewrite renamed_raises; [reflexivity|]. exists t. rewrite filter_In, in_tables. repeat split; eauto. apply mem_In; exact J.
  - intros H. unfold normalize. cbv zeta. destruct (renamed_total (filter (fun t => mem t T) (pred_tables (s, cs)))) as (rt & E).
    { intros t I. apply filter_In in I. destruct I as (I & M). apply in_tables in I. destruct I as (n & I). apply mem_In in M. eauto. }
    rewrite E. cbn [rbind]. unfold rename_columns. cbn [fst snd]. eexists; split; [reflexivity|]. assert (K := renamed_ok _ _ E).
    assert (G : forall l, incl l cs -> Forall2 (unaliased (""%string) T) l (map (fun c => match dget (flat_map (fun c : col => match snd c with Some t => match dget rt t with Some u => [(c, (fst c, Some u))] | None => [] end | None => [] end) cs) c with Some d => d | None => c end) l));
      [|apply G; intros c I; exact I].
    induction l as [|c l IH]; intros L; [constructor|]. cbn [map]. constructor; [|apply IH; intros x I; apply L; right; exact I].
    assert (C : In c cs) by (apply L; left; reflexivity). rewrite (renamed_column (fun t => dget rt t) cs c C). destruct c as [n [t|]]; cbn [fst snd]; [|constructor].
    specialize (K t). destruct (dget rt t) as [u|].
    + destruct K as (I & V & ->). apply filter_In in I. destruct I as (_ & M). apply mem_In in M. destruct t as [[f sc] [a v]]. cbn in V. subst v. cbn [fst]. constructor; exact M.
    + constructor. intros J. apply K. rewrite filter_In, in_tables. split; [eauto|apply mem_In; exact J].
Qed.
Print Assumptions C372_normalize_partial.
Example C372_ex : normalize [(("r", "public"), ("a", false))]%string (Some ("x < y", [("x", Some (("r", "public"), ("a", false))); ("y", Some (("s", ""), ("b", false)))]))%string
  = Ok (Some ("x < y", [("x", Some (("r", "public"), ("", false))); ("y", Some (("s", ""), ("b", false)))]))%string. Proof. reflexivity. Qed.

(** ** C373: filters that only differ in the aliases of their tables have the same normalized form, so that they share their QEP-S node. *)
Theorem C373_same_partial : forall {S : Type} (T U : list tab) (s : S) (cs ds : list col), Forall2 (same_column T U) cs ds ->
  exists r, normalize T (Some (s, cs)) = Ok (Some r) /\ normalize U (Some (s, ds)) = Ok (Some r).
Proof.
  intros S T U s cs ds F.
  assert (VC : forall n t, In (n, Some t) cs -> In t T -> virtual t = false).
  { intros n t I _. revert I. induction F as [|c d cs ds H F IH]; intros I; [destruct I|]. destruct I as [->|I]; [inversion H; reflexivity|exact (IH I)]. }
  assert (VD : forall n t, In (n, Some t) ds -> In t U -> virtual t = false).
  { intros n t I _. revert I. clear VC. induction F as [|c d cs ds H F IH]; intros I; [destruct I|]. destruct I as [->|I]; [inversion H; reflexivity|exact (IH I)]. }
  destruct (proj1 (proj2 (C372_normalize_partial T s cs)) VC) as (x & EX & FX). destruct (proj1 (proj2 (C372_normalize_partial U s ds)) VD) as (y & EY & FY).
  exists (s, x). split; [exact EX|]. cut (x = y); [intros ->; exact EY|]. clear - F FX FY. revert x y FX FY.
  induction F as [|c d cs ds H F IH]; intros x y FX FY; inversion FX; inversion FY; subst; [reflexivity|]. f_equal; [|apply IH; assumption].
  inversion H; subst; repeat match goal with K : unaliased _ _ _ _ |- _ => inversion K; subst; clear K end; try contradiction; reflexivity.
Qed.
Print Assumptions C373_same_partial.
Example C373_ex : normalize [(("r", ""), ("a", false))]%string (Some ("= 1", [("x", Some (("r", ""), ("a", false)))]))%string = normalize [(("r", ""), ("b", false))]%string (Some ("= 1", [("x", Some (("r", ""), ("b", false)))]))%string.
Proof. reflexivity. Qed.

(** Conversely, filters with the same normalized form only differ in aliases, if they only use the given tables. *)
Theorem C373_only_partial : forall {S : Type} (T U : list tab) (s s' : S) (cs ds : list col) (r : pred S),
  (forall c, In c cs -> exists n t, c = (n, Some t) /\ In t T) -> (forall d, In d ds -> exists n t, d = (n, Some t) /\ In t U) ->
  normalize T (Some (s, cs)) = Ok (Some r) -> normalize U (Some (s', ds)) = Ok (Some r) -> s = s' /\ Forall2 (same_column T U) cs ds.
Proof.
  assert (G : forall (S : Type) (T : list tab) (s : S) (cs : list col) (r : pred S), normalize T (Some (s, cs)) = Ok (Some r) -> fst r = s /\ Forall2 (unaliased (""%string) T) cs (snd r)).
  { intros S T s cs r H. destruct (C372_normalize_partial T s cs) as (A & B & _).
    assert (V : forall n t, In (n, Some t) cs -> In t T -> virtual t = false).
    { intros n t I J. destruct (virtual t) eqn:V; [|reflexivity]. exfalso. assert (X : normalize T (Some (s, cs)) = Raise StateError) by (apply A; exists n, t; auto). congruence. }
    destruct (B V) as (ds & E & F). assert (X : Ok (Some (s, ds)) = Ok (Some r)) by (rewrite <- H; symmetry; exact E). injection X as <-. split; [reflexivity|exact F]. }
  intros S T U s s' cs ds r LC LD A B. apply G in A. apply G in B. destruct A as (<- & A), B as (<- & B). split; [reflexivity|]. clear G.
  revert ds LD B. induction A as [|c x cs xs H A IH]; intros ds LD B; inversion B as [|d y ds' ys K B']; subst; constructor.
  - destruct (LC c (or_introl eq_refl)) as (n & t & -> & I), (LD d (or_introl eq_refl)) as (m & u & -> & J).
    inversion H; subst; [contradiction|]. inversion K; subst; [contradiction|]. constructor; assumption.
  - apply IH; [intros e I; apply LC; right; exact I|intros e I; apply LD; right; exact I|exact B'].
Qed.
Print Assumptions C373_only_partial.
