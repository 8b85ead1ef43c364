(** Lemmas for C98: the column cache. *)
From Coq Require Import List Bool Arith Lia.
From Verif Require Import PyBase Bind_model Bind_spec Bind_proofs.
Import ListNotations.

Section Cache.
  Context (schema : name -> list name).
  Definition alike := Forall2 same.
  Lemma lookup_alike k : forall a b, alike a b -> lookup_namespace b k = lookup_namespace a k.
  Proof. intros a b H. induction H as [|n m a b (A1 & A2 & _) _ IH]; cbn; [reflexivity|]. now rewrite A1, A2, IH. Qed.
  Lemma resolve_alike k : forall a b, alike a b -> resolve_table b k = resolve_table a k.
  Proof. intros a b H. induction H as [|n m a b (A1 & A2 & A3 & A4 & _) _ IH]; cbn; [reflexivity|]. now rewrite A2, A4, IH. Qed.
  Lemma provides_alike anc anc' n m c t : alike anc anc' -> same n m -> provides schema anc' m c t = provides schema anc n c t.
  Proof. intros A S. unfold provides. rewrite (lookup_alike (ident t) (n :: anc) (m :: anc')) by (constructor; assumption). destruct S as (S1 & S2 & _). now rewrite S1, S2. Qed.
  Lemma find_ext {A} (f g : A -> bool) l : (forall a, f a = g a) -> find f l = find g l.
  Proof. intros H. induction l as [|a l IH]; cbn; [reflexivity|]. now rewrite H, IH. Qed.
  (** The namespace with and the one without cache. *)
  Record R (anc : list ns) (n m : ns) : Prop :=
    { R_same : same n m; R_cache : forall c t, dget (n_cache n) c = Some t -> find (provides schema anc n c) (n_ctx n) = Some t; R_none : n_cache m = [] }.
  Definition rel (anc : list ns) (x y : res (list (option tref) * ns)) : Prop :=
    match x, y with Ok (a, n), Ok (b, m) => a = b /\ R anc n m | Raise a, Raise b => a = b | _, _ => False end.
  Lemma R_fresh anc n m : same n m -> n_cache n = [] -> n_cache m = [] -> R anc n m.
  Proof. intros S A B. split; [exact S| |exact B]. intros c t H. rewrite A in H. discriminate. Qed.
  Lemma ref_rel anc anc' r n m : alike anc anc' -> R anc n m -> rel anc (parse_ref true schema anc r n) (parse_ref false schema anc' r m).
  Proof.
    intros A H. destruct r as [c|k c]; cbn [parse_ref].
    - unfold lookup_column. destruct H as [S C N]. pose proof S as (S1 & S2 & S3 & S4 & S5). rewrite S5, N. destruct (mem c (n_prod n)); [split; [reflexivity|split; auto]|]. cbn [dget].
      assert (F : find (provides schema anc' m c) (n_ctx m) = find (provides schema anc n c) (n_ctx n)) by (rewrite S3; apply find_ext; intros t; now apply provides_alike). rewrite F.
      destruct (dget (n_cache n) c) as [t|] eqn:E; [rewrite (C c t E); split; [reflexivity|]; split; [repeat split; auto|exact C|reflexivity]|].
      destruct (find (provides schema anc n c) (n_ctx n)) as [t|] eqn:Ef; [|split; [reflexivity|split; auto]]. split; [reflexivity|]. split; [repeat split; auto| |reflexivity]. cbn [n_cache n_ctx]. intros c' t' H. rewrite dset_spec in H.
      destruct (eqd c' c) as [->|]; [injection H as <-; exact Ef|now apply C].
    - rewrite (resolve_alike k (n :: anc) (m :: anc')) by (constructor; [apply H|exact A]). destruct (resolve_table (n :: anc) k); [|reflexivity]. split; [reflexivity|exact H].
  Qed.
  Lemma run_rel {A} anc (f g : A -> ns -> res (list (option tref) * ns)) l : (forall a n m, In a l -> R anc n m -> rel anc (f a n) (g a m)) -> forall n m, R anc n m -> rel anc (run f l n) (run g l m).
  Proof.
    induction l as [|a l IH]; intros H n m Hr; cbn [run]; [split; [reflexivity|exact Hr]|]. pose proof (H a n m (or_introl eq_refl) Hr) as E. destruct (f a n) as [[x n1]|], (g a m) as [[y m1]|]; cbn [rel rbind] in *; try contradiction; [|exact E]. destruct E as [-> E].
    pose proof (IH (fun b n m Hb => H b n m (or_intror Hb)) n1 m1 E) as E2. destruct (run f l n1) as [[z n2]|], (run g l m1) as [[u m2]|]; cbn [rel rbind] in *; try contradiction; [|exact E2]. destruct E2 as [-> E2]. split; [reflexivity|exact E2].
  Qed.
  Lemma rel_bind {B} anc x y (f g : list (option tref) * ns -> res B) (P : res B -> res B -> Prop) :
    rel anc x y -> (forall a n m, R anc n m -> P (f (a, n)) (g (a, m))) -> (forall e, P (Raise e) (Raise e)) -> P (rbind x f) (rbind y g).
  Proof. intros H F E. destruct x as [[a n]|], y as [[b m]|]; cbn [rel rbind] in *; try contradiction; [|subst; apply E]. destruct H as [-> H]. now apply F. Qed.
  Definition Pc (q : query) : Prop := forall anc anc', alike anc anc' -> parse_query true schema anc q = parse_query false schema anc' q.
  Notation p1 := (parse_query true schema). Notation p2 := (parse_query false schema).
  Lemma item_rel anc anc' i n m : alike anc anc' -> sub_item Pc i -> R anc n m -> rel anc (parse_item true schema p1 anc i n) (parse_item false schema p2 anc' i m).
  Proof.
    intros A S H. destruct i as [r|q]; cbn [parse_item]; [now apply ref_rel|]. rewrite (S (n :: anc) (m :: anc')) by (constructor; [apply H|exact A]). destruct (parse_query false schema (m :: anc') q) as [[x s]|]; cbn; auto.
  Qed.
  Lemma items_rel anc anc' l n m : alike anc anc' -> All (sub_item Pc) l -> R anc n m -> rel anc (run (parse_item true schema p1 anc) l n) (run (parse_item false schema p2 anc') l m).
  Proof. intros A S H. rewrite All_In in S. apply run_rel; [|exact H]. intros i a b Hi Hr. apply item_rel; auto. Qed.
  Lemma same_open_cte n m a s : same n m -> same (open_cte n a s) (open_cte m a s).
  Proof. intros (A1 & A2 & A3 & A4 & A5). repeat split; cbn; congruence. Qed.
  Lemma same_open_sub n m a : same n m -> same (open_sub n a) (open_sub m a).
  Proof. intros (A1 & A2 & A3 & A4 & A5). repeat split; cbn; congruence. Qed.
  Lemma same_close_sub n m a s : same n m -> same (close_sub n a s) (close_sub m a s).
  Proof. intros (A1 & A2 & A3 & A4 & A5). repeat split; cbn; congruence. Qed.
  Lemma same_register n m t : same n m -> same (register_table n t) (register_table m t).
  Proof. intros (A1 & A2 & A3 & A4 & A5). repeat split; cbn; try congruence. now rewrite A4. Qed.
  Lemma R_empty anc : R anc empty_ns empty_ns. Proof. apply R_fresh; auto. apply same_refl. Qed.
  Lemma cte_rel anc anc' c n m : alike anc anc' -> sub_cte Pc c -> R anc n m -> rel anc (parse_cte true schema p1 anc c n) (parse_cte false schema p2 anc' c m).
  Proof.
    intros A S H. assert (A2 : forall a, alike (open_cte n a [] :: anc) (open_cte m a [] :: anc')) by (intros a; constructor; [apply same_open_cte, H|exact A]).
    destruct c as [a cols q|a cols l]; cbn [parse_cte sub_cte] in *.
    - rewrite (S _ _ (A2 a)). destruct (parse_query false schema _ q) as [[x s]|]; cbn [rbind rel]; [|reflexivity]. split; [reflexivity|]. apply R_fresh; auto. apply same_open_cte, H.
    - eapply (rel_bind _ _ _ _ _ (rel anc) (items_rel _ _ l _ _ (A2 a) S (R_empty _))); [|reflexivity]. intros x n' m' _. cbn [rel]. split; [reflexivity|]. apply R_fresh; auto. apply same_open_cte, H.
  Qed.
  Lemma from_rel anc anc' : alike anc anc' -> forall f n m, sub_from Pc f -> R anc n m -> rel anc (parse_from true schema p1 anc f n) (parse_from false schema p2 anc' f m).
  Proof.
    intros A. induction f as [full a|l IHl r IHr on|a cols lat q|a cols l|a l]; intros n m S H; cbn [parse_from sub_from] in *.
    - rewrite (resolve_alike full (n :: anc) (m :: anc')) by (constructor; [apply H|exact A]). cbn [rel]. split; [reflexivity|]. apply R_fresh; auto. apply same_register, H.
    - destruct S as (S1 & S2 & S3). eapply (rel_bind _ _ _ _ _ (rel anc) (IHl n m S1 H)); [|reflexivity]. intros x n1 m1 H1. eapply (rel_bind _ _ _ _ _ (rel anc) (IHr n1 m1 S2 H1)); [|reflexivity]. intros y n2 m2 H2.
      eapply (rel_bind _ _ _ _ _ (rel anc) (items_rel _ _ on n2 m2 A S3 H2)); [|reflexivity]. intros z n3 m3 H3. split; [reflexivity|exact H3].
    - destruct a as [a|]; [|reflexivity]. cbv zeta. rewrite (S (open_sub n a :: anc) (open_sub m a :: anc')) by (constructor; [apply same_open_sub, H|exact A]). destruct (parse_query false schema _ q) as [[x s]|]; cbn [rbind rel]; [|reflexivity].
      split; [reflexivity|]. apply R_fresh; auto. apply same_close_sub, same_open_sub, H.
    - destruct a as [a|]; [|reflexivity]. cbv zeta. assert (A2 : alike (open_sub n a :: anc) (open_sub m a :: anc')) by (constructor; [apply same_open_sub, H|exact A]).
      eapply (rel_bind _ _ _ _ _ (rel anc) (items_rel _ _ l _ _ A2 S (R_empty _))); [|reflexivity]. intros x n' m' _. cbn [rel]. split; [reflexivity|]. apply R_fresh; auto. apply same_close_sub, same_open_sub, H.
    - now apply items_rel.
  Qed.
  Lemma columns_alike anc anc' n m t : alike anc anc' -> same n m -> table_columns schema anc' m t = table_columns schema anc n t.
  Proof.
    intros A S. assert (E : forall k, lookup_namespace (m :: anc') k = lookup_namespace (n :: anc) k) by (intros k; apply lookup_alike; constructor; assumption).
    unfold table_columns. destruct (t_alias t) as [a|]; [|reflexivity]. rewrite E. destruct (t_full t) as [f|]; [|reflexivity]. now rewrite E.
  Qed.
  Lemma rmapM_ext {A B} (f g : A -> res B) l : (forall a, f a = g a) -> rmapM f l = rmapM g l.
  Proof. intros H. induction l as [|a l IH]; cbn; [reflexivity|]. now rewrite H, IH. Qed.
  Lemma target_alike anc anc' n m (t : target query) : alike anc anc' -> same n m -> target_columns schema anc' m t = target_columns schema anc n t.
  Proof.
    intros A S. destruct t as [|k|r a|l a]; cbn [target_columns]; try reflexivity.
    - destruct S as (S1 & S2 & S3 & S4 & S5). rewrite S3. f_equal. apply rmapM_ext. intros t. apply columns_alike; [exact A|repeat split; auto].
    - rewrite (resolve_alike k (n :: anc) (m :: anc')) by (constructor; assumption). assert (E : n_ctx m = n_ctx n) by apply S. rewrite E. f_equal. apply rmapM_ext. intros t. now apply columns_alike.
  Qed.
  Lemma target_rel anc anc' t n m : alike anc anc' -> sub_target Pc t -> R anc n m -> rel anc (parse_target true schema p1 anc t n) (parse_target false schema p2 anc' t m).
  Proof.
    intros A S H. destruct t as [|k|r a|l a]; cbn [parse_target sub_target] in *; [split; auto| |now apply ref_rel|now apply items_rel]. rewrite (resolve_alike k (n :: anc) (m :: anc')) by (constructor; [apply H|exact A]). split; auto.
  Qed.
  Lemma okey_rel anc anc' t n m : alike anc anc' -> sub_okey Pc t -> R anc n m -> rel anc (parse_okey true schema p1 anc t n) (parse_okey false schema p2 anc' t m).
  Proof. intros A S H. destruct t as [c|l]; cbn [parse_okey sub_okey] in *; [now apply ref_rel|now apply items_rel]. Qed.
  Lemma query_same q : Pc q.
  Proof.
    apply query_ind2; clear q.
    - intros w f ts wh ob Sw Sf St Swh So anc anc' A. cbn [parse_query]. unfold parse_select. pose proof (proj1 (All_In _ _) Sw) as Sw2; pose proof (proj1 (All_In _ _) Sf) as Sf2; pose proof (proj1 (All_In _ _) St) as St2; pose proof (proj1 (All_In _ _) So) as So2.
      eapply (rel_bind anc _ _ _ _ (@eq _)); [apply run_rel; [intros c n m Hc Hr; apply cte_rel; [exact A|now apply Sw2|exact Hr]|apply R_empty]| |reflexivity]. intros x1 n1 m1 H1.
      eapply (rel_bind anc _ _ _ _ (@eq _)); [apply run_rel; [intros c n m Hc Hr; apply from_rel; [exact A|now apply Sf2|exact Hr]|exact H1]| |reflexivity]. intros x2 n2 m2 H2.
      eapply (rel_bind anc _ _ _ _ (@eq _)); [apply run_rel; [intros c n m Hc Hr; apply target_rel; [exact A|now apply St2|exact Hr]|exact H2]| |reflexivity]. intros x3 n3 m3 H3.
      unfold output_shape. rewrite (rmapM_ext (target_columns schema anc' m3) (target_columns schema anc n3)) by (intros t; apply target_alike; [exact A|apply H3]). destruct (rmapM (target_columns schema anc n3) ts) as [s|]; cbn [rbind]; [|reflexivity].
      match goal with |- rbind (run _ wh ?a) _ = rbind (run _ wh ?b) _ => assert (H4 : R anc a b) end.
      { destruct H3 as [(S1 & S2 & S3 & S4 & S5) C N]. split; [repeat split; cbn; congruence| |exact N]. cbn [n_cache n_ctx]. intros c t H. rewrite <- (C c t H). apply find_ext. intros u. unfold provides. reflexivity. }
      eapply (rel_bind anc _ _ _ _ (@eq _) (items_rel anc anc' wh _ _ A Swh H4)); [|reflexivity]. intros x5 n5 m5 H5.
      eapply (rel_bind anc _ _ _ _ (@eq _)); [apply run_rel; [intros c n m Hc Hr; apply okey_rel; [exact A|now apply So2|exact Hr]|exact H5]|reflexivity|reflexivity].
    - intros w l r ob Sw Sl Sr anc anc' A. cbn [parse_query]. unfold parse_setop. pose proof (proj1 (All_In _ _) Sw) as Sw2.
      eapply (rel_bind anc _ _ _ _ (@eq _)); [apply run_rel; [intros c n m Hc Hr; apply cte_rel; [exact A|now apply Sw2|exact Hr]|apply R_empty]| |reflexivity]. intros x1 n1 m1 H1.
      assert (A2 : alike (n1 :: anc) (m1 :: anc')) by (constructor; [apply H1|exact A]). rewrite (Sl _ _ A2), (Sr _ _ A2). destruct (parse_query false schema (m1 :: anc') l) as [[x2 s]|]; cbn [rbind]; [|reflexivity]. destruct (parse_query false schema (m1 :: anc') r) as [[x3 s3]|]; cbn [rbind]; [|reflexivity].
      eapply (rel_bind anc _ _ _ _ (@eq _)); [apply run_rel; [intros c n m Hc Hr; apply ref_rel; [exact A|exact Hr]|exact H1]|reflexivity|reflexivity].
  Qed.
  Lemma alike_refl l : alike l l. Proof. induction l; constructor; [apply same_refl|assumption]. Qed.
End Cache.
