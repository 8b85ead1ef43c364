(** The meaning of the rewritten query. *)
From Coq Require Import List Bool Arith Lia Permutation.
From Verif Require Import PyBase Pred_model Trans_model MSub_model MSub_spec MSub_proofs.
Import ListNotations.

Section Sem.
  Context {V : Type} (I : interp V).
  Notation ev := (ev I). Notation tv := (tv I). Notation keeps := (keeps I). Notation val := (val I).

  Lemma ev_ext v w e : (forall c, In c (xcols e) -> v c = w c) -> ev v e = ev w e.
  Proof.
    induction e as [c|n l IH] using xpr_ind'; intros H; cbn; [apply H; left; reflexivity|]. f_equal. apply map_ext_in. intros a Ha.
    rewrite Forall_forall in IH. apply IH; [exact Ha|]. intros c Hc. apply H. cbn. apply in_flat_map. eauto.
  Qed.
  Lemma fold_ext {A B} (f g : A -> B) (op : B -> B -> B) z l : (forall x, In x l -> f x = g x) ->
    fold_right (fun q b => op (f q) b) z l = fold_right (fun q b => op (g q) b) z l.
  Proof. induction l as [|x l IH]; cbn; intros H; [reflexivity|]. rewrite H by auto. f_equal. apply IH. auto. Qed.
  Lemma tv_ext v w p : (forall c, In c (pcols xcols p) -> v c = w c) -> tv v p = tv w p.
  Proof.
    induction p as [op a b|a lo hi|a vs|op a|p IH|ps IH|ps IH] using pred_ind'; cbn [pcols]; intros H; cbn [MSub_spec.tv].
    - f_equal; apply ev_ext; intros c Hc; apply H; rewrite ?in_app_iff; auto.
    - f_equal; apply ev_ext; intros c Hc; apply H; rewrite ?in_app_iff; auto.
    - f_equal; [apply ev_ext; intros c Hc; apply H; rewrite ?in_app_iff; auto|]. apply map_ext_in. intros x Hx. apply ev_ext. intros c Hc. apply H. apply in_app_iff. right. apply in_flat_map. eauto.
    - f_equal; apply ev_ext; auto.
    - rewrite IH; auto.
    - apply fold_ext. intros x Hx. rewrite Forall_forall in IH. apply IH; [exact Hx|]. intros c Hc. apply H. apply in_flat_map. eauto.
    - apply fold_ext. intros x Hx. rewrite Forall_forall in IH. apply IH; [exact Hx|]. intros c Hc. apply H. apply in_flat_map. eauto.
  Qed.
  Lemma ev_ren v f e : ev v (ren_e f e) = ev (fun c => v (f c)) e.
  Proof.
    induction e as [c|n l IH] using xpr_ind'; cbn; [reflexivity|]. f_equal. rewrite map_map. apply map_ext_in. intros a Ha. rewrite Forall_forall in IH. auto.
  Qed.
  Lemma fold_map {A B C} (g : A -> B) (f : B -> C) (op : C -> C -> C) z l :
    fold_right (fun q b => op (f q) b) z (map g l) = fold_right (fun q b => op (f (g q)) b) z l.
  Proof. induction l; cbn; congruence. Qed.
  Lemma tv_ren v f p : tv v (rename_pred (ren_e f) p) = tv (fun c => v (f c)) p.
  Proof.
    induction p as [op a b|a lo hi|a vs|op a|p IH|ps IH|ps IH] using pred_ind'; cbn [rename_pred MSub_spec.tv]; rewrite ?ev_ren; try reflexivity.
    - f_equal. rewrite map_map. apply map_ext. intros. apply ev_ren.
    - rewrite IH. reflexivity.
    - rewrite fold_map. apply fold_ext. intros x Hx. rewrite Forall_forall in IH. auto.
    - rewrite fold_map. apply fold_ext. intros x Hx. rewrite Forall_forall in IH. auto.
  Qed.
  Lemma tv_and_true a b : istrue (tv_and a b) = istrue a && istrue b.
  Proof. destruct a as [[]|], b as [[]|]; reflexivity. Qed.
  Lemma tv_conj v p : istrue (tv v p) = forallb (fun d => istrue (tv v d)) (conjuncts p).
  Proof.
    induction p as [op a b|a lo hi|a vs|op a|p IH|ps IH|ps IH] using pred_ind'; cbn [conjuncts forallb]; rewrite ?andb_true_r; try reflexivity.
    induction IH as [|x l Hx _ IHl]; [reflexivity|]. cbn [flat_map]. rewrite forallb_app, <- Hx, <- IHl. cbn [MSub_spec.tv fold_right]. apply tv_and_true.
  Qed.
  Lemma keeps_conj v w : keeps v w = forallb (fun d => istrue (tv v d)) (oconj w).
  Proof. destruct w as [p|]; [apply tv_conj|reflexivity]. Qed.
  Lemma conj_cols d p : In d (conjuncts p) -> incl (pcols xcols d) (pcols xcols p).
  Proof.
    induction p as [op a b|a lo hi|a vs|op a|p IH|ps IH|ps IH] using pred_ind'; cbn [conjuncts]; intros H; try (destruct H as [<-|[]]; apply incl_refl).
    apply in_flat_map in H as (c & Hc & H). rewrite Forall_forall in IH. intros x Hx. cbn [pcols]. apply in_flat_map. exists c. split; [exact Hc|]. exact (IH c Hc H x Hx).
  Qed.
  Definition ocols (w : option prd) : list col := flat_map (pcols xcols) (olist w).
  Lemma oconj_cols d w : In d (oconj w) -> incl (pcols xcols d) (ocols w).
  Proof. destruct w as [p|]; cbn [oconj]; [|intros []]. intros H x Hx. unfold ocols. cbn. rewrite app_nil_r. exact (conj_cols d p H x Hx). Qed.
  Lemma cols_oconj c w : In c (ocols w) -> exists d, In d (oconj w) /\ In c (pcols xcols d).
  Proof.
    destruct w as [p|]; unfold ocols; cbn; [rewrite app_nil_r|intros []]. induction p as [op a b|a lo hi|a vs|op a|p IH|ps IH|ps IH] using pred_ind'; intros H; try (eexists; split; [left; reflexivity|exact H]).
    cbn in H. apply in_flat_map in H as (q & Hq & H). rewrite Forall_forall in IH. destruct (IH q Hq H) as (d & Hd & Hc). exists d. split; [|exact Hc]. cbn. apply in_flat_map. eauto.
  Qed.
  Lemma keeps_ren v f w : keeps v (option_map (rename_pred (ren_e f)) w) = keeps (fun c => v (f c)) w.
  Proof. destruct w; cbn; [rewrite tv_ren|]; reflexivity. Qed.
  Lemma keeps_ext v u w : (forall c, In c (ocols w) -> v c = u c) -> keeps v w = keeps u w.
  Proof. destruct w as [p|]; cbn; [|reflexivity]. unfold ocols. cbn. rewrite app_nil_r. intros H. rewrite (tv_ext v u p H). reflexivity. Qed.

  (** ** Environments *)
  Notation env := (@env V).
  Lemma lookup_perm (k k' : env) : Permutation k k' -> NoDup (map fst k) -> forall t, lookup k t = lookup k' t.
  Proof.
    induction 1 as [|[t r] k k' P IH|[t r] [u s] k|k k1 k2 P1 IH1 P2 IH2]; intros N x; cbn in *; [reflexivity| | |].
    - inversion N; subst. rewrite IH by assumption. reflexivity.
    - destruct (Nat.eqb x u) eqn:E1, (Nat.eqb x t) eqn:E2; try reflexivity. apply Nat.eqb_eq in E1, E2. subst. inversion N; subst. destruct H1. left. reflexivity.
    - rewrite IH1 by assumption. apply IH2. eapply Permutation_NoDup; [apply Permutation_map; exact P1|exact N].
  Qed.
  Lemma lookup_app (a b : env) t : lookup (a ++ b) t = match lookup a t with Some r => Some r | None => lookup b t end.
  Proof. induction a as [|[u r] a IH]; cbn; [reflexivity|]. destruct (Nat.eqb t u); auto. Qed.
  Lemma lookup_none (a : env) t : ~ In t (map fst a) -> lookup a t = None.
  Proof. induction a as [|[u r] a IH]; cbn; intros H; [reflexivity|]. destruct (Nat.eqb t u) eqn:E; [apply Nat.eqb_eq in E; subst; destruct H; auto|]. apply IH. auto. Qed.

  Context (db : tbl -> list (@row V)).
  Notation combos := (combos db).
  Lemma combos_keys ts k : In k (combos ts) -> map fst k = ts.
  Proof.
    revert k. induction ts as [|t ts IH]; intros k H; cbn in H; [destruct H as [<-|[]]; reflexivity|].
    unfold cross in H. apply in_flat_map in H as (x & Hx & H). apply in_map_iff in Hx as (r & <- & _). apply in_map_iff in H as (y & <- & Hy). cbn. f_equal. auto.
  Qed.
  Lemma combos_app a b : combos (a ++ b) = cross (combos a) (combos b).
  Proof.
    induction a as [|t a IH]; cbn [app MSub_spec.combos].
    - unfold cross. cbn. rewrite app_nil_r. symmetry. apply map_id.
    - rewrite IH. unfold cross. generalize (map (fun x => [(t, x)]) (db t)) as X. intros X.
      induction X as [|x X IHX]; [reflexivity|]. cbn. rewrite IHX, flat_map_app. f_equal.
      generalize (combos a) as A. intros A. induction A as [|y A IHA]; [reflexivity|]. cbn. rewrite map_app, IHA, !map_map. f_equal.
      apply map_ext. intros. apply app_assoc.
  Qed.
  Lemma map_flat_map {A B C} (f : B -> C) (g : A -> list B) l : map f (flat_map g l) = flat_map (fun x => map f (g x)) l.
  Proof. induction l; cbn; [reflexivity|]. rewrite map_app. congruence. Qed.
  Lemma flat_map_perm {A B} (f g : A -> list B) l : (forall x, In x l -> Permutation (f x) (g x)) -> Permutation (flat_map f l) (flat_map g l).
  Proof. induction l; cbn; intros H; [constructor|]. apply Permutation_app; auto. Qed.
  Lemma flat_map_cons_perm {A B} (f : A -> B) (g : A -> list B) l : Permutation (flat_map (fun x => f x :: g x) l) (map f l ++ flat_map g l).
  Proof.
    induction l as [|x l IH]; cbn; [constructor|]. apply perm_skip. rewrite IH, !app_assoc. apply Permutation_app_tail. apply Permutation_app_comm.
  Qed.
  Lemma swap_flat {A B C} (f : A -> B -> list C) xs ys :
    Permutation (flat_map (fun x => flat_map (f x) ys) xs) (flat_map (fun y => flat_map (fun x => f x y) xs) ys).
  Proof.
    induction xs as [|x xs IH]; cbn.
    - induction ys; cbn; [constructor|assumption].
    - rewrite IH. clear IH. induction ys as [|y ys IHy]; cbn; [constructor|]. rewrite <- !app_assoc. apply Permutation_app_head.
      rewrite <- IHy, !app_assoc. apply Permutation_app_tail, Permutation_app_comm.
  Qed.
  Lemma combos_perm {X} (g : env -> X) F F' : Permutation F F' ->
    (forall k k', NoDup (map fst k) -> Permutation k k' -> g k = g k') -> forall pre, NoDup (map fst pre ++ F) ->
    Permutation (map (fun k => g (pre ++ k)) (combos F)) (map (fun k => g (pre ++ k)) (combos F')).
  Proof.
    intros P G. induction P as [|t F F' P IH|t u F|F1 F2 F3 P1 IH1 P2 IH2]; intros pre N.
    - constructor; constructor.
    - cbn [MSub_spec.combos]. unfold cross. rewrite !map_flat_map. apply flat_map_perm. intros x Hx. apply in_map_iff in Hx as (r & <- & _). rewrite !map_map.
      assert (E : forall k : env, pre ++ [(t, r)] ++ k = (pre ++ [(t, r)]) ++ k) by (intros; apply app_assoc).
      rewrite (map_ext (fun x => g (pre ++ [(t, r)] ++ x)) (fun x => g ((pre ++ [(t, r)]) ++ x))) by (intros; rewrite E; reflexivity).
      rewrite (map_ext (fun x => g (pre ++ [(t, r)] ++ x)) (fun x => g ((pre ++ [(t, r)]) ++ x))) by (intros; rewrite E; reflexivity).
      apply IH. rewrite map_app. cbn. rewrite <- app_assoc. exact N.
    - cbn [MSub_spec.combos]. unfold cross. rewrite !map_flat_map.
      assert (T : forall a b (A B : list (@row V)), flat_map (fun x : env => map (fun k => g (pre ++ k)) (map (fun y => x ++ y) (flat_map (fun x0 => map (fun y => x0 ++ y) (combos F)) (map (fun x0 => [(b, x0)]) B)))) (map (fun x => [(a, x)]) A)
                  = flat_map (fun x => flat_map (fun y => map (fun k => g (pre ++ (a, x) :: (b, y) :: k)) (combos F)) B) A).
      { intros a b A B. induction A as [|x A IHA]; [reflexivity|]. cbn. rewrite IHA. f_equal. rewrite map_map. clear.
        induction B as [|y B IHB]; [reflexivity|]. cbn. rewrite map_app, IHB, !map_map. reflexivity. }
      rewrite !T. rewrite swap_flat. apply flat_map_perm. intros y Hy. apply flat_map_perm. intros x Hx.
      rewrite (map_ext_in (fun k => g (pre ++ (u, x) :: (t, y) :: k)) (fun k => g (pre ++ (t, y) :: (u, x) :: k))); [reflexivity|].
      intros k Hk. apply G.
      + rewrite map_app. cbn. rewrite (combos_keys _ _ Hk). exact N.
      + apply Permutation_app_head. constructor.
    - rewrite IH1 by exact N. apply IH2. eapply Permutation_NoDup; [apply Permutation_app_head; exact P1|exact N].
  Qed.
End Sem.
