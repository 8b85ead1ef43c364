(** Lemmas about replace_expressions and replace_predicate. *)
From Coq Require Import List Bool Arith Lia.
From Verif Require Import PyBase Pred_model RExp_model RExp_spec.
Import ListNotations.

Lemma flat_flat_map {A B} (f : A -> list B) l : flat f l = flat_map f l.
Proof. induction l; cbn; congruence. Qed.
Lemma flat_Forall {A A' B} (f : A -> list B) (g : A' -> list B) (h : B -> B) l l' :
  Forall2 (fun x x' => g x' = map h (f x)) l l' -> flat g l' = map h (flat f l).
Proof. induction 1; cbn; [reflexivity|]. rewrite map_app. congruence. Qed.
Lemma map_Forall {A A' B} (f : A -> B) (g : A' -> B) l l' : Forall2 (fun x x' => g x' = f x) l l' -> map g l' = map f l.
Proof. induction 1; cbn; congruence. Qed.
Lemma all_Forall {A} (P : A -> Prop) l : all P l <-> Forall P l.
Proof. induction l as [|x l IH]; cbn; [split; auto|]. rewrite IH. split; [intros [? ?]; auto|intros H; inversion H; auto]. Qed.
Lemma lmapM_Forall2 {A B} (f : A -> res B) l l' : lmapM f l = Ok l' -> Forall2 (fun x y => f x = Ok y) l l'.
Proof.
  revert l'. induction l as [|x l IH]; intros l' H; cbn in H; [injection H as <-; constructor|].
  destruct (f x) eqn:E; cbn in H; [|discriminate]. destruct (lmapM f l) eqn:El; cbn in H; [|discriminate].
  injection H as <-. constructor; auto.
Qed.
Lemma lmapM_ok {A B} (f : A -> res B) l l' : Forall2 (fun x y => f x = Ok y) l l' -> lmapM f l = Ok l'.
Proof. induction 1 as [|x y l l' H Hl IH]; cbn; [reflexivity|]. rewrite H. cbn. rewrite IH. reflexivity. Qed.
Lemma Forall2_imp {A B} (P Q : A -> B -> Prop) l l' : (forall x y, P x y -> Q x y) -> Forall2 P l l' -> Forall2 Q l l'.
Proof. intros H. induction 1; constructor; auto. Qed.
Lemma Forall2_imp_F {A B} (R : A -> Prop) (P Q : A -> B -> Prop) l l' :
  (forall x y, R x -> P x y -> Q x y) -> Forall R l -> Forall2 P l l' -> Forall2 Q l l'.
Proof. intros H HR H2. induction H2; inversion HR; subst; constructor; auto. Qed.

(** ** Predicates *)
Lemma xs_rx_p f p : xs_p (rx_p f p) = map f (xs_p p).
Proof.
  induction p as [op a b|a lo hi|a vs|op a|p IH|ps IH|ps IH] using pred_ind'; cbn; auto.
  all: induction IH as [|x l Hx _ IHl]; cbn; [reflexivity|]; rewrite map_app; congruence.
Qed.
Lemma sk_rx_p f p : sk_p (rx_p f p) = sk_p p.
Proof.
  induction p as [op a b|a lo hi|a vs|op a|p IH|ps IH|ps IH] using pred_ind'; cbn; auto; try congruence.
  - f_equal. rewrite map_map. reflexivity.
  - f_equal. rewrite map_map. induction IH; cbn; congruence.
  - f_equal. rewrite map_map. induction IH; cbn; congruence.
Qed.
Lemma rx_pred_facts f p p' : rx_pred f p = Ok p' -> xs_pred p' = map f (xs_pred p) /\ sk_pred p' = sk_pred p.
Proof.
  destruct p as [p|k]; cbn; [|discriminate]. intros H. injection H as <-. cbn. rewrite xs_rx_p, sk_rx_p. auto.
Qed.
Lemma sk_rows_map f rows : sk_rows (map (map f) rows) = sk_rows rows.
Proof. unfold sk_rows. rewrite map_map. apply map_ext. intros r. rewrite map_map. reflexivity. Qed.

(** ** The result of a successful replacement *)
Definition rel (f : expr -> expr) (q q' : query) : Prop := xs_q false q' = map f (xs_q false q) /\ sk_q q' = sk_q q.
Section Facts.
  Context (f : expr -> expr) (K : keeps_subqueries f) (rq : query -> res query).
  Hypothesis Hrq : forall q q', plain_q q -> rq q = Ok q' -> rel f q q'.

  Lemma rx_s_facts s : forall s', plain_s s -> rx_s f rq s = Ok s' -> xs_s false s' = map f (xs_s false s) /\ sk_s s' = sk_s s.
  Proof.
    induction s as [t|q n lat|l IHl r IHr c j|rows t cols|g a]; intros s' P H; cbn [rx_s] in H.
    - injection H as <-. auto.
    - rewrite K in H. destruct (rq q) as [q'|] eqn:E; cbn [rbind] in H; [|discriminate]. injection H as <-.
      destruct (Hrq q q' P E) as [X Y]. cbn [xs_s sk_s xs_w sk_w xs_c sk_c option_map]. rewrite X, Y. auto.
    - destruct P as (Pl & Pr & Pc).
      destruct (rx_s f rq l) as [l'|] eqn:El; cbn [rbind] in H; [|discriminate].
      destruct (rx_s f rq r) as [r'|] eqn:Er; cbn [rbind] in H; [|discriminate].
      destruct (IHl l' Pl eq_refl) as [Xl Yl]. destruct (IHr r' Pr eq_refl) as [Xr Yr].
      destruct c as [c|].
      + destruct (rx_pred f c) as [c'|] eqn:Ec; cbn [rbind] in H; [|discriminate]. injection H as <-.
        destruct (rx_pred_facts _ _ _ Ec) as [Xc Yc]. cbn [xs_s sk_s xs_w sk_w xs_c sk_c option_map]. rewrite Xl, Xr, Xc, Yl, Yr, Yc, !map_app. auto.
      + injection H as <-. cbn [xs_s sk_s xs_w sk_w xs_c sk_c option_map]. rewrite Xl, Xr, Yl, Yr, !map_app. auto.
    - destruct t as [[n a|a]|]; cbn in P; try contradiction. cbn in H. injection H as <-. cbn [xs_s sk_s xs_w sk_w xs_c sk_c option_map].
      rewrite sk_rows_map, concat_map. auto.
    - injection H as <-. auto.
  Qed.

  Lemma rx_w_facts w w' : plain_w w -> rx_w f rq w = Ok w' -> xs_w false w' = map f (xs_w false w) /\ sk_w w' = sk_w w.
  Proof.
    destruct w as [q n m|rows n cols m]; cbn [rx_w plain_w]; intros P H.
    - destruct (rq q) as [q'|] eqn:E; cbn [rbind] in H; [|discriminate]. injection H as <-. destruct (Hrq q q' P E) as [X Y]. cbn [xs_s sk_s xs_w sk_w xs_c sk_c option_map]. rewrite X, Y. auto.
    - injection H as <-. cbn [xs_s sk_s xs_w sk_w xs_c sk_c option_map]. rewrite sk_rows_map, concat_map. auto.
  Qed.

  Lemma directs ss : forallb direct ss = true -> map f (flat (xs_s false) ss) = flat (xs_s false) ss.
  Proof. induction ss as [|[t|?|?|?|?] ss IH]; cbn; try discriminate; auto. Qed.

  Lemma rx_c_facts c c' : plain_c c -> rx_c f rq c = Ok c' -> xs_c false c' = map f (xs_c false c) /\ sk_c c' = sk_c c.
  Proof.
    destruct c as [n|n|l r|ts d|k ss|p|es d|p|es|n|op l r]; cbn [rx_c plain_c]; intros P H.
    - injection H as <-. auto.
    - injection H as <-. auto.
    - destruct (lmapM _ l) as [l'|] eqn:E; cbn [rbind] in H; [|discriminate]. injection H as <-. apply lmapM_Forall2 in E. apply all_Forall in P.
      cbn [xs_s sk_s xs_w sk_w xs_c sk_c option_map]. split.
      + apply (flat_Forall (xs_w false)). refine (Forall2_imp_F _ _ _ _ _ _ P E). intros x y Px Hx. apply (rx_w_facts _ _ Px Hx).
      + f_equal. apply (map_Forall sk_w). refine (Forall2_imp_F _ _ _ _ _ _ P E). intros x y Px Hx. apply (rx_w_facts _ _ Px Hx).
    - injection H as <-. cbn [xs_s sk_s xs_w sk_w xs_c sk_c option_map]. rewrite !app_nil_r, !map_map. auto.
    - destruct P as [P Pd]. destruct k; cbn in H.
      + injection H as <-. cbn [xs_s sk_s xs_w sk_w xs_c sk_c option_map]. rewrite (directs ss) by auto. auto.
      + destruct (lmapM _ ss) as [l'|] eqn:E; cbn [rbind] in H; [|discriminate]. injection H as <-. apply lmapM_Forall2 in E. apply all_Forall in P.
        cbn [xs_s sk_s xs_w sk_w xs_c sk_c option_map]. split.
        * apply (flat_Forall (xs_s false)). refine (Forall2_imp_F _ _ _ _ _ _ P E). intros x y Px Hx. apply (rx_s_facts _ _ Px Hx).
        * f_equal. apply (map_Forall sk_s). refine (Forall2_imp_F _ _ _ _ _ _ P E). intros x y Px Hx. apply (rx_s_facts _ _ Px Hx).
      + destruct (lmapM _ ss) as [l'|] eqn:E; cbn [rbind] in H; [|discriminate]. injection H as <-. apply lmapM_Forall2 in E. apply all_Forall in P.
        cbn [xs_s sk_s xs_w sk_w xs_c sk_c option_map]. split.
        * apply (flat_Forall (xs_s false)). refine (Forall2_imp_F _ _ _ _ _ _ P E). intros x y Px Hx. apply (rx_s_facts _ _ Px Hx).
        * f_equal. apply (map_Forall sk_s). refine (Forall2_imp_F _ _ _ _ _ _ P E). intros x y Px Hx. apply (rx_s_facts _ _ Px Hx).
    - destruct (rx_pred f p) as [p'|] eqn:E; cbn [rbind] in H; [|discriminate]. injection H as <-. destruct (rx_pred_facts _ _ _ E) as [X Y]. cbn [xs_s sk_s xs_w sk_w xs_c sk_c option_map]. rewrite X, Y. auto.
    - injection H as <-. cbn [xs_s sk_s xs_w sk_w xs_c sk_c option_map]. rewrite map_map. auto.
    - destruct (rx_pred f p) as [p'|] eqn:E; cbn [rbind] in H; [|discriminate]. injection H as <-. destruct (rx_pred_facts _ _ _ E) as [X Y]. cbn [xs_s sk_s xs_w sk_w xs_c sk_c option_map]. rewrite X, Y. auto.
    - injection H as <-. cbn [xs_s sk_s xs_w sk_w xs_c sk_c option_map]. rewrite !map_map. auto.
    - injection H as <-. auto.
    - destruct P as [Pl Pr]. destruct (rq l) as [l'|] eqn:El; cbn [rbind] in H; [|discriminate]. destruct (rq r) as [r'|] eqn:Er; cbn [rbind] in H; [|discriminate].
      injection H as <-. destruct (Hrq _ _ Pl El) as [X Y]. destruct (Hrq _ _ Pr Er) as [X' Y']. cbn [xs_s sk_s xs_w sk_w xs_c sk_c option_map]. rewrite X, Y, X', Y', map_app. auto.
  Qed.
End Facts.

Lemma rx_facts f n : keeps_subqueries f -> forall q q', plain_q q -> rx_q f n q = Ok q' -> rel f q q'.
Proof.
  intros K. induction n as [|n IH]; intros [cs] q' P H; cbn [rx_q] in H; [discriminate|].
  destruct (lmapM _ cs) as [cs'|] eqn:E; cbn [rbind] in H; [|discriminate]. injection H as <-. apply lmapM_Forall2 in E.
  cbn [plain_q] in P. apply all_Forall in P. unfold rel. cbn [xs_q sk_q]. split.
  - apply (flat_Forall (xs_c false)). refine (Forall2_imp_F _ _ _ _ _ _ P E). intros x y Px Hx. apply (rx_c_facts f K _ IH _ _ Px Hx).
  - f_equal. apply (map_Forall sk_c). refine (Forall2_imp_F _ _ _ _ _ _ P E). intros x y Px Hx. apply (rx_c_facts f K _ IH _ _ Px Hx).
Qed.

(** ** More fuel does not change a result *)
Section Mono.
  Context (f : expr -> expr) (r1 r2 : query -> res query).
  Hypothesis Hr : forall q q', r1 q = Ok q' -> r2 q = Ok q'.
  Lemma mono_s s : forall s', rx_s f r1 s = Ok s' -> rx_s f r2 s = Ok s'.
  Proof.
    induction s as [t|q n lat|l IHl r IHr c j|rows t cols|g a]; intros s' H; cbn [rx_s] in *; auto.
    - destruct (f (ESub q)) as [?|?|q']; auto. destruct (r1 q') as [q''|] eqn:E; cbn [rbind] in *; [|discriminate]. rewrite (Hr _ _ E). exact H.
    - destruct (rx_s f r1 l) as [l'|] eqn:El; cbn [rbind] in H; [|discriminate].
      destruct (rx_s f r1 r) as [r'|] eqn:Er; cbn [rbind] in H; [|discriminate].
      rewrite (IHl _ eq_refl). cbn [rbind]. rewrite (IHr _ eq_refl). exact H.
  Qed.
  Lemma mono_list {A B} (g1 g2 : A -> res B) l l' : (forall x y, g1 x = Ok y -> g2 x = Ok y) -> lmapM g1 l = Ok l' -> lmapM g2 l = Ok l'.
  Proof. intros H E. apply lmapM_ok. apply lmapM_Forall2 in E. exact (Forall2_imp _ _ _ _ H E). Qed.
  Lemma mono_w w w' : rx_w f r1 w = Ok w' -> rx_w f r2 w = Ok w'.
  Proof.
    destruct w as [q n m|]; cbn [rx_w]; auto. destruct (r1 q) eqn:E; cbn [rbind]; [|discriminate]. rewrite (Hr _ _ E). auto.
  Qed.
  Lemma mono_c c c' : rx_c f r1 c = Ok c' -> rx_c f r2 c = Ok c'.
  Proof.
    destruct c as [n|n|l r|ts d|k ss|p|es d|p|es|n|op l r]; cbn [rx_c]; intros H; auto.
    - destruct (lmapM _ l) eqn:E; cbn [rbind] in H; [|discriminate]. rewrite (mono_list _ _ _ _ mono_w E). exact H.
    - destruct k; auto; (destruct (lmapM _ ss) eqn:E; cbn [rbind] in H; [|discriminate]; rewrite (mono_list _ _ _ _ mono_s E); exact H).
    - destruct (r1 l) eqn:El; cbn [rbind] in H; [|discriminate]. destruct (r1 r) eqn:Er; cbn [rbind] in H; [|discriminate].
      rewrite (Hr _ _ El). cbn [rbind]. rewrite (Hr _ _ Er). exact H.
  Qed.
End Mono.
Lemma rx_mono f n q q' : rx_q f n q = Ok q' -> forall m, n <= m -> rx_q f m q = Ok q'.
Proof.
  revert q q'. induction n as [|n IH]; intros [cs] q' H m L; [discriminate|]. destruct m as [|m]; [lia|]. cbn [rx_q] in *.
  destruct (lmapM _ cs) eqn:E; cbn [rbind] in H; [|discriminate].
  rewrite (mono_list _ _ _ _ (mono_c f (rx_q f n) (rx_q f m) (fun a b Hab => IH a b Hab m ltac:(lia))) E). exact H.
Qed.

(** ** Plain queries can be rewritten *)
Section Total.
  Context (f : expr -> expr) (K : keeps_subqueries f).
  Definition done (q : query) : Prop := exists n q', rx_q f n q = Ok q'.
  Definition doneA {A} (g : nat -> A -> res A) (x : A) : Prop := exists n x', forall m, n <= m -> g m x = Ok x'.
  Lemma done_doneA q : done q -> doneA (fun m => rx_q f m) q.
  Proof. intros (n & q' & H). exists n, q'. intros m L. exact (rx_mono f n q q' H m L). Qed.
  Lemma doneA_list {A} (g : nat -> A -> res A) l : Forall (doneA g) l -> doneA (fun m => lmapM (g m)) l.
  Proof.
    induction 1 as [|x l (n & x' & Hx) _ (n2 & l' & Hl)]; [exists 0, []; reflexivity|].
    exists (Nat.max n n2), (x' :: l'). intros m L. cbn [lmapM]. rewrite Hx by lia. cbn [rbind]. rewrite Hl by lia. reflexivity.
  Qed.

  Lemma total_q : forall q, plain_q q -> done q
  with total_s : forall s, plain_s s -> doneA (fun m => rx_s f (rx_q f m)) s
  with total_w : forall w, plain_w w -> doneA (fun m => rx_w f (rx_q f m)) w
  with total_c : forall c, plain_c c -> doneA (fun m => rx_c f (rx_q f m)) c.
  Proof.
    - intros [cs] P.
      assert (F : Forall (doneA (fun m => rx_c f (rx_q f m))) cs).
      { cbn [plain_q] in P. revert P. induction cs as [|w cs IH]; intros P; [constructor|]. destruct P as [Pw P]. constructor; [exact (total_c w Pw)|exact (IH P)]. }
      destruct (doneA_list _ cs F) as (n & cs' & H). exists (S n), (Query cs'). cbn [rx_q]. rewrite (H n (le_n n)). reflexivity.
    - intros [t|q n lat|l r c j|rows t cols|g a] P.
      + exists 0, (SDirect t). reflexivity.
      + destruct (done_doneA q (total_q q P)) as (k & q' & H). exists k, (SSub q' n lat). intros m L. cbn [rx_s]. rewrite K, (H m L). reflexivity.
      + destruct P as (Pl & Pr & Pc). destruct (total_s l Pl) as (n1 & l' & H1). destruct (total_s r Pr) as (n2 & r' & H2).
        destruct c as [[c|z]|].
        * exists (Nat.max n1 n2), (SJoin l' r' (Some (inl (rx_p f c))) j). intros m L. cbn [rx_s]. rewrite H1 by lia. cbn [rbind]. rewrite H2 by lia. reflexivity.
        * destruct Pc.
        * exists (Nat.max n1 n2), (SJoin l' r' None j). intros m L. cbn [rx_s]. rewrite H1 by lia. cbn [rbind]. rewrite H2 by lia. reflexivity.
      + destruct t as [[n a|a]|]; try destruct P. exists 0. eexists. intros m _. reflexivity.
      + exists 0. eexists. intros m _. reflexivity.
    - intros [q n m|rows n cols m] P.
      + destruct (done_doneA q (total_q q P)) as (k & q' & H). exists k, (WQuery q' n m). intros i L. cbn [rx_w]. rewrite (H i L). reflexivity.
      + exists 0. eexists. intros i _. reflexivity.
    - intros [n|n|l r|tg d|k ss|p|es d|p|es|n|op l r] P; try (exists 0; eexists; intros m _; reflexivity).
      + assert (F : Forall (doneA (fun m => rx_w f (rx_q f m))) l).
        { cbn [plain_c] in P. revert P. induction l as [|w l IH]; intros P; [constructor|]. destruct P as [Pw P]. constructor; [exact (total_w w Pw)|exact (IH P)]. }
        destruct (doneA_list _ l F) as (k & l' & H). exists k, (CWith l' r). intros m L. cbn [rx_c]. rewrite (H m L). reflexivity.
      + destruct P as [P _].
        assert (F : Forall (doneA (fun m => rx_s f (rx_q f m))) ss).
        { revert P. induction ss as [|w ss IH]; intros P; [constructor|]. destruct P as [Pw P]. constructor; [exact (total_s w Pw)|exact (IH P)]. }
        destruct (doneA_list _ ss F) as (n & l' & H).
        destruct k; [exists 0, (CFrom FImplicit ss); reflexivity|exists n, (CFrom FExplicit l')|exists n, (CFrom FMixed l')];
          intros m L; cbn [rx_c]; rewrite (H m L); reflexivity.
      + destruct p as [p|z]; [|destruct P]. exists 0. eexists. intros m _. reflexivity.
      + destruct p as [p|z]; [|destruct P]. exists 0. eexists. intros m _. reflexivity.
      + destruct P as [Pl Pr]. destruct (done_doneA l (total_q l Pl)) as (n1 & l' & H1). destruct (done_doneA r (total_q r Pr)) as (n2 & r' & H2).
        exists (Nat.max n1 n2), (CSet op l' r'). intros m L. cbn [rx_c]. rewrite H1 by lia. cbn [rbind]. rewrite H2 by lia. reflexivity.
  Qed.
End Total.

(** ** Identity *)
Lemma rx_p_id f p : (forall e, f e = e) -> rx_p f p = p.
Proof.
  intros I. assert (M : forall l : list expr, map f l = l) by (induction l; cbn; congruence).
  induction p as [op a b|a lo hi|a vs|op a|p IH|ps IH|ps IH] using pred_ind'; cbn; rewrite ?I, ?M; auto; try congruence;
    f_equal; induction IH; cbn; congruence.
Qed.
Section Ident.
  Context (f : expr -> expr) (I : forall e, f e = e) (rq : query -> res query).
  Hypothesis Hrq : forall q q', plain_q q -> rq q = Ok q' -> q' = q.
  Lemma map_I l : map f l = l. Proof. induction l; cbn; congruence. Qed.
  Lemma map2_I l : map (map f) l = l. Proof. induction l; cbn; [reflexivity|]. rewrite map_I. congruence. Qed.
  Lemma mapfst_I {B} (l : list (expr * B)) : map (fun t => (f (fst t), snd t)) l = l.
  Proof. induction l as [|[x y] l IH]; cbn; [reflexivity|]. rewrite I, IH. reflexivity. Qed.
  Lemma rx_pred_I p p' : rx_pred f p = Ok p' -> p' = p.
  Proof. destruct p; cbn; [|discriminate]. rewrite (rx_p_id f p I). congruence. Qed.
  Lemma id_list {A} (g : A -> res A) (P : A -> Prop) l : (forall x x', P x -> g x = Ok x' -> x' = x) -> all P l -> forall l', lmapM g l = Ok l' -> l' = l.
  Proof.
    intros H. induction l as [|x l IH]; cbn; intros Hp l' E; [congruence|]. destruct Hp as [Hx Hl].
    destruct (g x) eqn:Ex; cbn in E; [|discriminate]. destruct (lmapM g l) eqn:El; cbn in E; [|discriminate].
    injection E as <-. rewrite (H _ _ Hx Ex), (IH Hl _ eq_refl). reflexivity.
  Qed.
  Lemma id_s s : forall s', plain_s s -> rx_s f rq s = Ok s' -> s' = s.
  Proof.
    induction s as [t|q n lat|l IHl r IHr c j|rows t cols|g a]; intros s' P H; cbn [rx_s] in H.
    - congruence.
    - rewrite I in H. destruct (rq q) eqn:E; cbn [rbind] in H; [|discriminate]. rewrite (Hrq _ _ P E) in H. congruence.
    - destruct P as (Pl & Pr & Pc). destruct (rx_s f rq l) eqn:El; cbn [rbind] in H; [|discriminate]. destruct (rx_s f rq r) eqn:Er; cbn [rbind] in H; [|discriminate].
      rewrite (IHl _ Pl eq_refl), (IHr _ Pr eq_refl) in H. destruct c as [c|]; [|congruence].
      destruct (rx_pred f c) eqn:Ec; cbn [rbind] in H; [|discriminate]. rewrite (rx_pred_I _ _ Ec) in H. congruence.
    - destruct t as [[n a|a]|]; cbn in P; try contradiction. cbn in H. rewrite map2_I in H. congruence.
    - rewrite I in H. congruence.
  Qed.
  Lemma id_w w w' : plain_w w -> rx_w f rq w = Ok w' -> w' = w.
  Proof.
    destruct w as [q n m|rows n cols m]; cbn [rx_w plain_w]; intros P H; [|rewrite map2_I in H; congruence].
    destruct (rq q) eqn:E; cbn [rbind] in H; [|discriminate]. rewrite (Hrq _ _ P E) in H. congruence.
  Qed.
  Lemma id_c c c' : plain_c c -> rx_c f rq c = Ok c' -> c' = c.
  Proof.
    destruct c as [n|n|l r|ts d|k ss|p|es d|p|es|n|op l r]; cbn [rx_c plain_c]; intros P H; try congruence.
    - destruct (lmapM _ l) eqn:E; cbn [rbind] in H; [|discriminate]. rewrite (id_list _ _ _ id_w P _ E) in H. congruence.
    - rewrite mapfst_I in H. congruence.
    - destruct P as [P _]. destruct k; [congruence| |];
        (destruct (lmapM _ ss) eqn:E; cbn [rbind] in H; [|discriminate]; rewrite (id_list _ _ _ id_s P _ E) in H; congruence).
    - destruct (rx_pred f p) eqn:E; cbn [rbind] in H; [|discriminate]. rewrite (rx_pred_I _ _ E) in H. congruence.
    - rewrite map_I in H. congruence.
    - destruct (rx_pred f p) eqn:E; cbn [rbind] in H; [|discriminate]. rewrite (rx_pred_I _ _ E) in H. congruence.
    - rewrite mapfst_I in H. congruence.
    - destruct P as [Pl Pr]. destruct (rq l) eqn:El; cbn [rbind] in H; [|discriminate]. destruct (rq r) eqn:Er; cbn [rbind] in H; [|discriminate].
      rewrite (Hrq _ _ Pl El), (Hrq _ _ Pr Er) in H. congruence.
  Qed.
End Ident.
Lemma rx_id f n : (forall e, f e = e) -> forall q q', plain_q q -> rx_q f n q = Ok q' -> q' = q.
Proof.
  intros I. induction n as [|n IH]; intros [cs] q' P H; cbn [rx_q] in H; [discriminate|].
  destruct (lmapM _ cs) eqn:E; cbn [rbind] in H; [|discriminate]. cbn [plain_q] in P.
  rewrite (id_list _ _ _ (id_c f I _ IH) P _ E) in H. congruence.
Qed.

(** ** Composition *)
Section Comp.
  Context (f g h : expr -> expr) (Kf : keeps_subqueries f) (Kg : keeps_subqueries g) (Hh : forall e, h e = g (f e)).
  Lemma comp_p p : rx_p g (rx_p f p) = rx_p h p.
  Proof.
    induction p as [op a b|a lo hi|a vs|op a|p IH|ps IH|ps IH] using pred_ind'; cbn; rewrite ?Hh; auto; try congruence.
    - f_equal. rewrite map_map. apply map_ext. intros. symmetry. apply Hh.
    - f_equal. induction IH; cbn; congruence.
    - f_equal. induction IH; cbn; congruence.
  Qed.
  Lemma comp_pred p p1 : rx_pred f p = Ok p1 -> rx_pred g p1 = rx_pred h p.
  Proof. destruct p; cbn; [|discriminate]. intros H. injection H as <-. cbn. rewrite comp_p. reflexivity. Qed.
  Lemma comp_map l : map g (map f l) = map h l. Proof. rewrite map_map. apply map_ext. intros. symmetry. apply Hh. Qed.
  Lemma comp_map2 l : map (map g) (map (map f) l) = map (map h) l. Proof. rewrite map_map. apply map_ext. intros. apply comp_map. Qed.
  Lemma comp_fst {B} (l : list (expr * B)) :
    map (fun t => (g (fst t), snd t)) (map (fun t => (f (fst t), snd t)) l) = map (fun t => (h (fst t), snd t)) l.
  Proof. rewrite map_map. apply map_ext. intros [e b]. cbn. rewrite Hh. reflexivity. Qed.
  Context (rf rg rh : query -> res query).
  Hypothesis Hr : forall q q1 q2, rf q = Ok q1 -> rg q1 = Ok q2 -> rh q = Ok q2.
  Lemma comp_list {A} (F G H : A -> res A) : (forall x x1 x2, F x = Ok x1 -> G x1 = Ok x2 -> H x = Ok x2) ->
    forall l l1 l2, lmapM F l = Ok l1 -> lmapM G l1 = Ok l2 -> lmapM H l = Ok l2.
  Proof.
    intros C. induction l as [|x l IH]; cbn; intros l1 l2 E1 E2.
    - injection E1 as <-. cbn in E2. exact E2.
    - destruct (F x) as [a|] eqn:Ex; cbn in E1; [|discriminate]. destruct (lmapM F l) as [l0|] eqn:El; cbn in E1; [|discriminate]. injection E1 as <-.
      cbn in E2. destruct (G a) eqn:Ea; cbn in E2; [|discriminate]. destruct (lmapM G l0) eqn:El0; cbn in E2; [|discriminate]. injection E2 as <-.
      rewrite (C _ _ _ Ex Ea). cbn. rewrite (IH _ _ eq_refl El0). reflexivity.
  Qed.
  Lemma comp_s s : forall s1 s2, rx_s f rf s = Ok s1 -> rx_s g rg s1 = Ok s2 -> rx_s h rh s = Ok s2.
  Proof.
    induction s as [t|q n lat|l IHl r IHr c j|rows t cols|e a]; intros s1 s2 H1 H2; cbn [rx_s] in H1.
    - injection H1 as <-. cbn in *. exact H2.
    - rewrite Kf in H1. destruct (rf q) eqn:E; cbn [rbind] in H1; [|discriminate]. injection H1 as <-. cbn [rx_s] in *. rewrite Kg in H2.
      rewrite Hh, Kf, Kg. destruct (rg a) eqn:Ea; cbn [rbind] in H2; [|discriminate]. rewrite (Hr _ _ _ E Ea). exact H2.
    - destruct (rx_s f rf l) eqn:El; cbn [rbind] in H1; [|discriminate]. destruct (rx_s f rf r) eqn:Er; cbn [rbind] in H1; [|discriminate].
      assert (X : forall c', rx_s g rg (SJoin a a0 c' j) = Ok s2 -> exists l2 r2, rx_s h rh l = Ok l2 /\ rx_s h rh r = Ok r2 /\
                 match c' with Some c => rbind (rx_pred g c) (fun c' => Ok (SJoin l2 r2 (Some c') j)) | None => Ok (SJoin l2 r2 None j) end = Ok s2).
      { intros c' Hc. cbn [rx_s] in Hc. destruct (rx_s g rg a) eqn:Ea; cbn [rbind] in Hc; [|discriminate]. destruct (rx_s g rg a0) eqn:Ea0; cbn [rbind] in Hc; [|discriminate].
        exists a1, a2. split; [exact (IHl _ _ eq_refl Ea)|]. split; [exact (IHr _ _ eq_refl Ea0)|exact Hc]. }
      destruct c as [c|].
      + destruct (rx_pred f c) eqn:Ec; cbn [rbind] in H1; [|discriminate]. injection H1 as <-.
        destruct (X _ H2) as (l2 & r2 & A & B & C). cbn [rx_s]. rewrite A. cbn [rbind]. rewrite B. cbn [rbind]. rewrite <- (comp_pred _ _ Ec). exact C.
      + injection H1 as <-. destruct (X _ H2) as (l2 & r2 & A & B & C). cbn [rx_s]. rewrite A. cbn [rbind]. rewrite B. exact C.
    - destruct t as [t|]; [|discriminate]. injection H1 as <-. cbn in *. rewrite comp_map2 in H2. exact H2.
    - injection H1 as <-. cbn in *. rewrite Hh. exact H2.
  Qed.
  Lemma comp_w w w1 w2 : rx_w f rf w = Ok w1 -> rx_w g rg w1 = Ok w2 -> rx_w h rh w = Ok w2.
  Proof.
    destruct w as [q n m|rows n cols m]; cbn [rx_w]; intros H1 H2.
    - destruct (rf q) eqn:E; cbn [rbind] in H1; [|discriminate]. injection H1 as <-. cbn [rx_w] in H2.
      destruct (rg a) eqn:Ea; cbn [rbind] in H2; [|discriminate]. rewrite (Hr _ _ _ E Ea). exact H2.
    - injection H1 as <-. cbn [rx_w] in H2. rewrite comp_map2 in H2. exact H2.
  Qed.
  Lemma comp_c c c1 c2 : rx_c f rf c = Ok c1 -> rx_c g rg c1 = Ok c2 -> rx_c h rh c = Ok c2.
  Proof.
    destruct c as [n|n|l r|ts d|k ss|p|es d|p|es|n|op l r]; cbn [rx_c]; intros H1 H2.
    - injection H1 as <-. exact H2.
    - injection H1 as <-. exact H2.
    - destruct (lmapM _ l) eqn:E; cbn [rbind] in H1; [|discriminate]. injection H1 as <-. cbn [rx_c] in H2.
      destruct (lmapM (rx_w g rg) a) eqn:Ea; cbn [rbind] in H2; [|discriminate]. rewrite (comp_list _ _ _ comp_w _ _ _ E Ea). exact H2.
    - injection H1 as <-. cbn [rx_c] in H2. rewrite comp_fst in H2. exact H2.
    - destruct k.
      + injection H1 as <-. exact H2.
      + destruct (lmapM _ ss) eqn:E; cbn [rbind] in H1; [|discriminate]. injection H1 as <-. cbn [rx_c] in H2.
        destruct (lmapM (rx_s g rg) a) eqn:Ea; cbn [rbind] in H2; [|discriminate]. rewrite (comp_list _ _ _ comp_s _ _ _ E Ea). exact H2.
      + destruct (lmapM _ ss) eqn:E; cbn [rbind] in H1; [|discriminate]. injection H1 as <-. cbn [rx_c] in H2.
        destruct (lmapM (rx_s g rg) a) eqn:Ea; cbn [rbind] in H2; [|discriminate]. rewrite (comp_list _ _ _ comp_s _ _ _ E Ea). exact H2.
    - destruct (rx_pred f p) eqn:E; cbn [rbind] in H1; [|discriminate]. injection H1 as <-. cbn [rx_c] in H2. rewrite (comp_pred _ _ E) in H2. exact H2.
    - injection H1 as <-. cbn [rx_c] in H2. rewrite comp_map in H2. exact H2.
    - destruct (rx_pred f p) eqn:E; cbn [rbind] in H1; [|discriminate]. injection H1 as <-. cbn [rx_c] in H2. rewrite (comp_pred _ _ E) in H2. exact H2.
    - injection H1 as <-. cbn [rx_c] in H2. rewrite comp_fst in H2. exact H2.
    - injection H1 as <-. exact H2.
    - destruct (rf l) eqn:El; cbn [rbind] in H1; [|discriminate]. destruct (rf r) eqn:Er; cbn [rbind] in H1; [|discriminate]. injection H1 as <-. cbn [rx_c] in H2.
      destruct (rg a) eqn:Ea; cbn [rbind] in H2; [|discriminate]. destruct (rg a0) eqn:Eb; cbn [rbind] in H2; [|discriminate].
      rewrite (Hr _ _ _ El Ea). cbn [rbind]. rewrite (Hr _ _ _ Er Eb). exact H2.
  Qed.
End Comp.
Lemma rx_comp f g h : keeps_subqueries f -> keeps_subqueries g -> (forall e, h e = g (f e)) ->
  forall n q q1 q2, rx_q f n q = Ok q1 -> rx_q g n q1 = Ok q2 -> rx_q h n q = Ok q2.
Proof.
  intros Kf Kg Hh. induction n as [|n IH]; intros [cs] q1 q2 H1 H2; cbn [rx_q] in H1; [discriminate|].
  destruct (lmapM _ cs) eqn:E; cbn [rbind] in H1; [|discriminate]. injection H1 as <-. cbn [rx_q] in *.
  destruct (lmapM (rx_c g (rx_q g n)) a) eqn:Ea; cbn [rbind] in H2; [|discriminate].
  rewrite (comp_list _ _ _ (comp_c f g h Kf Kg Hh _ _ _ IH) _ _ _ E Ea). exact H2.
Qed.

(** ** replace_predicate *)
Section Predicate.
  Context {E : Type} {EE : EqD E}.
  Implicit Types p old new : pred E.
  Lemma replace_absent old new p : ~ occurs old p -> replace_pred old new p = p.
  Proof.
    induction p as [op a b|a lo hi|a vs|op a|p IH|ps IH|ps IH] using pred_ind'; intros N; cbn [replace_pred];
      (destruct (deqb _ old) eqn:Eq; [apply deqb_true in Eq; subst old; destruct N; constructor|]); auto.
    - f_equal. apply IH. intros O. apply N. constructor. exact O.
    - f_equal. rewrite <- (map_id ps) at 2. apply map_ext_in. intros c Hc. rewrite Forall_forall in IH. apply IH; [exact Hc|].
      intros O. apply N. econstructor; eassumption.
    - f_equal. rewrite <- (map_id ps) at 2. apply map_ext_in. intros c Hc. rewrite Forall_forall in IH. apply IH; [exact Hc|].
      intros O. apply N. econstructor; eassumption.
  Qed.
  Section Val.
    Context {V : Type} (holds : pred E -> V) (vnot : V -> V) (vand vor : list V -> V).
    Notation val := (value holds vnot vand vor).
    Lemma replace_value old new p : val new = val old -> val (replace_pred old new p) = val p.
    Proof.
      intros Hv. induction p as [op a b|a lo hi|a vs|op a|p IH|ps IH|ps IH] using pred_ind'; cbn [replace_pred];
        (destruct (deqb _ old) eqn:Eq; [apply deqb_true in Eq; rewrite Hv, <- Eq; reflexivity|]); auto.
      - cbn. congruence.
      - cbn. f_equal. rewrite map_map. apply map_ext_in. intros c Hc. rewrite Forall_forall in IH. auto.
      - cbn. f_equal. rewrite map_map. apply map_ext_in. intros c Hc. rewrite Forall_forall in IH. auto.
    Qed.
    Lemma replace_base old new p : is_base old = true ->
      val (replace_pred old new p) = value (fun b => if deqb b old then val new else holds b) vnot vand vor p.
    Proof.
      intros Hb. induction p as [op a b|a lo hi|a vs|op a|p IH|ps IH|ps IH] using pred_ind'; cbn [replace_pred].
      1-4: cbn [value]; destruct (deqb _ old); reflexivity.
      all: (destruct (deqb _ old) eqn:Eq; [apply deqb_true in Eq; subst old; discriminate Hb|]).
      - cbn. congruence.
      - cbn. f_equal. rewrite map_map. apply map_ext_in. intros c Hc. rewrite Forall_forall in IH. auto.
      - cbn. f_equal. rewrite map_map. apply map_ext_in. intros c Hc. rewrite Forall_forall in IH. auto.
    Qed.
  End Val.
  Lemma replace_gone old new p : is_base old = true -> ~ occurs old new -> ~ occurs old (replace_pred old new p).
  Proof.
    intros Hb Hn. induction p as [op a b|a lo hi|a vs|op a|p IH|ps IH|ps IH] using pred_ind'; cbn [replace_pred];
      (destruct (deqb _ old) eqn:Eq; [exact Hn|]); intros O; inversion O; subst; try discriminate Hb;
      try (rewrite deqb_refl in Eq; discriminate Eq); rewrite ?Forall_forall in IH; try (apply IH; assumption).
    all: try match goal with H : _ = PNot _ |- _ => rewrite H in Hb; discriminate Hb | H : _ = PAnd _ |- _ => rewrite H in Hb; discriminate Hb | H : _ = POr _ |- _ => rewrite H in Hb; discriminate Hb end.
    all: match goal with H : In _ (map _ _), O' : occurs _ _ |- _ => apply in_map_iff in H as (c & <- & Hc); apply (IH c Hc); assumption end.
  Qed.
End Predicate.
