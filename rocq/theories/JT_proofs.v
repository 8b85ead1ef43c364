(** Lemmas about join trees. *)
From Coq Require Import List Bool Arith Lia String Sorting.Sorted.
From Verif Require Import PyBase Ident_model Ident_proofs JT_model JT_spec.
Import ListNotations.

Section S.
  Context {T A : Type} {ET : EqD T} (none : A).
  Notation jt := (jt T A).

  Lemma subtree_refl (t : jt) : subtree t t.
  Proof. exists []. now destruct t. Qed.
  Lemma subtree_join (s : jt) lg o i a : subtree s (JJoin lg o i a) <-> s = JJoin lg o i a \/ subtree s o \/ subtree s i.
  Proof.
    split.
    - intros [[|b p] H]; cbn in H; [left; congruence|]. right. destruct b; [right|left]; now exists p.
    - intros [->|[[p H]|[p H]]]; [apply subtree_refl|exists (false :: p)|exists (true :: p)]; exact H.
  Qed.
  Lemma subtree_scan (s : jt) lg x a : subtree s (JScan lg x a) <-> s = JScan lg x a.
  Proof. split; [intros [[|b p] H]; cbn in H; congruence|intros ->; apply subtree_refl]. Qed.
  Lemma subtree_empty (s : jt) lg : subtree s (JEmpty lg) <-> s = JEmpty lg.
  Proof. split; [intros [[|b p] H]; cbn in H; congruence|intros ->; apply subtree_refl]. Qed.
  Lemma subtree_trans (a b c : jt) : subtree a b -> subtree b c -> subtree a c.
  Proof.
    intros Hab Hbc. induction c as [lg|lg x an|lg o IHo i IHi an].
    - apply subtree_empty in Hbc. subst. assumption.
    - apply subtree_scan in Hbc. subst. assumption.
    - apply subtree_join in Hbc as [->|[H|H]]; [assumption| |]; apply subtree_join; auto.
  Qed.

  (** Tables *)
  Lemma tables_scanned (t : jt) x : In x (jt_tables t) <-> scanned x t.
  Proof.
    unfold scanned. induction t as [lg|lg y an|lg o IHo i IHi an]; cbn [jt_tables].
    - split; [intros []|intros [l [a H]]]. apply subtree_empty in H. discriminate.
    - split; [intros [<-|[]]; exists lg, an; apply subtree_refl|intros [l [a H]]]. apply subtree_scan in H. injection H as _ -> _. now left.
    - rewrite dedup_In, in_app_iff, IHo, IHi. split.
      + intros [[l [a H]]|[l [a H]]]; exists l, a; apply subtree_join; auto.
      + intros [l [a H]]. apply subtree_join in H as [H|[H|H]]; [discriminate|left|right]; eauto.
  Qed.
  Lemma itertables_scanned (t : jt) x : In x (jt_itertables t) <-> In x (jt_tables t).
  Proof. induction t as [lg|lg y an|lg o IHo i IHi an]; cbn; try tauto. rewrite dedup_In, !in_app_iff, IHo, IHi. tauto. Qed.
  Lemma tables_nodup (t : jt) : NoDup (jt_tables t).
  Proof. destruct t; cbn; [constructor|repeat constructor; intros []|apply dedup_NoDup]. Qed.
  Lemma subtree_tables (s t : jt) : subtree s t -> incl (jt_tables s) (jt_tables t).
  Proof. intros H x Hx. apply tables_scanned in Hx as [l [a Hx]]. apply tables_scanned. exists l, a. eapply subtree_trans; eassumption. Qed.

  (** Traversals: the positions they visit. *)
  Fixpoint node_positions (t : jt) : list pos :=
    match t with JEmpty _ => [] | JScan _ _ _ => [[]] | JJoin _ o i _ => [] :: map (cons false) (node_positions o) ++ map (cons true) (node_positions i) end.
  Fixpoint scan_positions (t : jt) : list pos :=
    match t with JEmpty _ => [] | JScan _ _ _ => [[]] | JJoin _ o i _ => map (cons false) (scan_positions o) ++ map (cons true) (scan_positions i) end.
  Fixpoint join_positions (t : jt) : list pos :=
    match t with JEmpty _ | JScan _ _ _ => [] | JJoin _ o i _ => map (cons false) (join_positions o) ++ map (cons true) (join_positions i) ++ [[]] end.

  Lemma Sorted_app {X} (R : X -> X -> Prop) l m : StronglySorted R l -> StronglySorted R m -> (forall x y, In x l -> In y m -> R x y) -> StronglySorted R (l ++ m).
  Proof.
    induction 1 as [|x l Hl IH Hx]; intros Hm Hlm; cbn; [assumption|]. constructor.
    - apply IH; [assumption|]. intros; apply Hlm; [now right|assumption].
    - apply Forall_app. split; [assumption|]. apply Forall_forall. intros y Hy. apply Hlm; [now left|assumption].
  Qed.
  Lemma Sorted_map {X} (R : X -> X -> Prop) (f : X -> X) l : (forall x y, R x y -> R (f x) (f y)) -> StronglySorted R l -> StronglySorted R (map f l).
  Proof. intros Hf. induction 1 as [|x l Hl IH Hx]; cbn; constructor; [assumption|]. apply Forall_map. eapply Forall_impl; [|eassumption]. auto. Qed.

  Lemma in_cons_map (b : bool) (l : list pos) p : In p (map (cons b) l) <-> exists q, p = b :: q /\ In q l.
  Proof. rewrite in_map_iff. split; intros [q [H1 H2]]; exists q; auto. Qed.
  Lemma node_positions_ok (t : jt) : StronglySorted before (node_positions t) /\ (forall p, In p (node_positions t) <-> node_pos t p) /\ map Some (jt_iternodes t) = map (at_pos t) (node_positions t).
  Proof.
    induction t as [lg|lg y an|lg o [So [Po Mo]] i [Si [Pi Mi]] an]; cbn [node_positions jt_iternodes].
    - split; [constructor|]. split; [|reflexivity]. intros p. unfold node_pos. destruct p; cbn; tauto.
    - split; [repeat constructor|]. split; [|reflexivity]. intros p. unfold node_pos. destruct p; cbn; [tauto|]. split; [intros [H|[]]; discriminate|intros []].
    - split; [|split].
      + constructor.
        * apply Sorted_app; [apply Sorted_map; [now constructor|assumption]|apply Sorted_map; [now constructor|assumption]|].
          intros x z Hx Hz. apply in_cons_map in Hx as [x' [-> _]]. apply in_cons_map in Hz as [z' [-> _]]. constructor.
        * apply Forall_forall. intros x Hx. apply in_app_iff in Hx as [Hx|Hx]; apply in_cons_map in Hx as [x' [-> _]]; constructor.
      + intros p. cbn [In]. rewrite in_app_iff, !in_cons_map. unfold node_pos. destruct p as [|[] p]; cbn [at_pos].
        * split; auto.
        * split.
          -- intros [H|[[q [H _]]|[q [H Hq]]]]; try discriminate. injection H as ->. apply Pi in Hq. exact Hq.
          -- intros H. right. right. exists p. split; [reflexivity|]. apply Pi. exact H.
        * split.
          -- intros [H|[[q [H Hq]]|[q [H Hq]]]]; try discriminate. injection H as ->. apply Po in Hq. exact Hq.
          -- intros H. right. left. exists p. split; [reflexivity|]. apply Po. exact H.
      + cbn [app map]. f_equal. rewrite !map_app, !map_map, Mo, Mi. reflexivity.
  Qed.
  Definition scan_table (s : option jt) : option T := match s with Some (JScan _ x _) => Some x | _ => None end.
  Lemma scan_positions_ok (t : jt) : StronglySorted before (scan_positions t) /\ (forall p, In p (scan_positions t) <-> scan_pos t p) /\
    map Some (jt_itertables t) = map (fun p => scan_table (at_pos t p)) (scan_positions t).
  Proof.
    induction t as [lg|lg y an|lg o [So [Po Mo]] i [Si [Pi Mi]] an]; cbn [scan_positions jt_itertables].
    - split; [constructor|]. split; [|reflexivity]. intros p. unfold scan_pos. destruct p; cbn; tauto.
    - split; [repeat constructor|]. split; [|reflexivity]. intros p. unfold scan_pos. destruct p; cbn; [tauto|]. split; [intros [H|[]]; discriminate|intros []].
    - split; [|split].
      + apply Sorted_app; [apply Sorted_map; [now constructor|assumption]|apply Sorted_map; [now constructor|assumption]|].
        intros x z Hx Hz. apply in_cons_map in Hx as [x' [-> _]]. apply in_cons_map in Hz as [z' [-> _]]. constructor.
      + intros p. rewrite in_app_iff, !in_cons_map. unfold scan_pos. destruct p as [|[] p]; cbn [at_pos].
        * split; [intros [[q [H _]]|[q [H _]]]; discriminate|intros []].
        * split.
          -- intros [[q [H _]]|[q [H Hq]]]; try discriminate. injection H as ->. apply Pi in Hq. exact Hq.
          -- intros H. right. exists p. split; [reflexivity|]. apply Pi. exact H.
        * split.
          -- intros [[q [H Hq]]|[q [H Hq]]]; try discriminate. injection H as ->. apply Po in Hq. exact Hq.
          -- intros H. left. exists p. split; [reflexivity|]. apply Po. exact H.
      + rewrite !map_app, !map_map, Mo, Mi. reflexivity.
  Qed.
  Lemma join_positions_ok (t : jt) : StronglySorted before_exec (join_positions t) /\ (forall p, In p (join_positions t) <-> join_pos t p) /\ map Some (jt_iterjoins t) = map (at_pos t) (join_positions t).
  Proof.
    induction t as [lg|lg y an|lg o [So [Po Mo]] i [Si [Pi Mi]] an]; cbn [join_positions jt_iterjoins].
    - split; [constructor|]. split; [|reflexivity]. intros p. unfold join_pos. destruct p; cbn; tauto.
    - split; [constructor|]. split; [|reflexivity]. intros p. unfold join_pos. destruct p; cbn; tauto.
    - split; [|split].
      + apply Sorted_app; [apply Sorted_map; [now constructor|assumption]| |].
        * apply Sorted_app; [apply Sorted_map; [now constructor|assumption]|repeat constructor|]. intros x z Hx [<-|[]]. apply in_cons_map in Hx as [x' [-> _]]. constructor.
        * intros x z Hx Hz. apply in_cons_map in Hx as [x' [-> _]]. apply in_app_iff in Hz as [Hz|[<-|[]]]; [apply in_cons_map in Hz as [z' [-> _]]|]; constructor.
      + intros p. rewrite !in_app_iff, !in_cons_map. unfold join_pos. cbn [In]. destruct p as [|[] p]; cbn [at_pos].
        * split; auto.
        * split.
          -- intros [[q [H _]]|[[q [H Hq]]|[H|[]]]]; try discriminate. injection H as ->. apply Pi in Hq. exact Hq.
          -- intros H. right. left. exists p. split; [reflexivity|]. apply Pi. exact H.
        * split.
          -- intros [[q [H Hq]]|[[q [H Hq]]|[H|[]]]]; try discriminate. injection H as ->. apply Po in Hq. exact Hq.
          -- intros H. left. exists p. split; [reflexivity|]. apply Po. exact H.
      + rewrite !map_app, !map_map, Mo, Mi. reflexivity.
  Qed.

  (** Lookup *)
  Lemma lookup_ok (t : jt) needle : exists r, jt_lookup t needle = Ok r /\
    match r with
    | Some s => exists p, at_pos t p = Some s /\ seteq (jt_tables s) needle /\ forall q u, at_pos t q = Some u -> seteq (jt_tables u) needle -> q = p \/ before p q
    | None => forall s, subtree s t -> ~ seteq (jt_tables s) needle
    end.
  Proof.
    induction t as [lg|lg y an|lg o [ro [Eo Ho]] i [ri [Ei Hi]] an].
    - cbn [jt_lookup]. destruct (seteqb needle (jt_tables (JEmpty lg))) eqn:E1.
      + apply seteqb_seteq in E1. eexists. split; [reflexivity|]. exists []. split; [reflexivity|]. split; [intros x; symmetry; apply E1|]. intros [|b q] u H _; [now left|discriminate].
      + destruct (subsetb needle (jt_tables (JEmpty lg))) eqn:E2; cbn [negb].
        * exfalso. destruct needle; [|discriminate]. discriminate.
        * exists None. split; [reflexivity|]. intros s Hs Heq. apply subtree_empty in Hs. subst. assert (seteqb needle (jt_tables (JEmpty (A := A) lg)) = true) by (apply seteqb_seteq; intros x; symmetry; apply Heq). congruence.
    - cbn [jt_lookup]. destruct (seteqb needle (jt_tables (JScan lg y an))) eqn:E1.
      + apply seteqb_seteq in E1. eexists. split; [reflexivity|]. exists []. split; [reflexivity|]. split; [intros x; symmetry; apply E1|]. intros [|b q] u H _; [now left|discriminate].
      + assert (Hno : forall s, subtree s (JScan lg y an) -> ~ seteq (jt_tables s) needle).
        { intros s Hs Heq. apply subtree_scan in Hs. subst. assert (seteqb needle (jt_tables (JScan lg y an)) = true) by (apply seteqb_seteq; intros x; symmetry; apply Heq). congruence. }
        destruct (subsetb needle (jt_tables (JScan lg y an))); cbn [negb]; exists None; split; auto.
    - cbn [jt_lookup]. destruct (seteqb needle (jt_tables (JJoin lg o i an))) eqn:E1.
      + apply seteqb_seteq in E1. eexists. split; [reflexivity|]. exists []. split; [reflexivity|]. split; [intros x; symmetry; apply E1|].
        intros [|b q] u H _; [now left|right; constructor].
      + assert (Hroot : ~ seteq (jt_tables (JJoin lg o i an)) needle).
        { intros Heq. assert (seteqb needle (jt_tables (JJoin lg o i an)) = true) by (apply seteqb_seteq; intros x; symmetry; apply Heq). congruence. }
        destruct (subsetb needle (jt_tables (JJoin lg o i an))) eqn:E2; cbn [negb].
        * rewrite Eo. cbn [rbind]. destruct ro as [s|].
          -- exists (Some s). split; [reflexivity|]. destruct Ho as [p [H1 [H2 H3]]]. exists (false :: p). split; [exact H1|]. split; [exact H2|].
             intros [|[] q] u Hq Hu; cbn in Hq.
             ++ injection Hq as <-. contradiction.
             ++ right. constructor.
             ++ destruct (H3 q u Hq Hu) as [->|H]; [now left|right; now constructor].
          -- exists ri. split; [exact Ei|]. destruct ri as [s|].
             ++ destruct Hi as [p [H1 [H2 H3]]]. exists (true :: p). split; [exact H1|]. split; [exact H2|].
                intros [|[] q] u Hq Hu; cbn in Hq.
                ** injection Hq as <-. contradiction.
                ** destruct (H3 q u Hq Hu) as [->|H]; [now left|right; now constructor].
                ** exfalso. apply (Ho u); [now exists q|assumption].
             ++ intros s Hs. apply subtree_join in Hs as [->|[Hs|Hs]]; auto.
        * exists None. split; [reflexivity|]. intros s Hs Heq. assert (H : subsetb needle (jt_tables (JJoin lg o i an)) = true); [|congruence].
          apply subsetb_incl. intros x Hx. apply Heq in Hx. eapply subtree_tables; eassumption.
  Qed.

  (** Linearity *)
  Lemma linear_join lg o i a : linear (JJoin lg o i a) <-> (is_scan_tree o \/ is_scan_tree i) /\ linear (T := T) (A := A) o /\ linear i.
  Proof.
    unfold linear. split.
    - intros H. split; [eapply H; apply subtree_refl|]. split; intros l x y z Hs; eapply H; apply subtree_join; eauto.
    - intros [H1 [H2 H3]] l x y z Hs. apply subtree_join in Hs as [Hs|[Hs|Hs]]; [injection Hs as _ <- <- _; assumption|eauto|eauto].
  Qed.
  Lemma linear_scan lg x a : linear (JScan (T := T) (A := A) lg x a).
  Proof. intros l o i z Hs. apply subtree_scan in Hs. discriminate. Qed.
  Lemma is_scan_iff (t : jt) : jt_is_scan t = true <-> is_scan_tree t.
  Proof. destruct t; cbn; split; auto; intros; try discriminate; contradiction. Qed.
  Lemma proper_join lg o i a : proper (JJoin lg o i a) <-> proper (T := T) (A := A) o /\ proper i.
  Proof.
    unfold proper. split.
    - intros H. split; intros l Hs; apply (H l); apply subtree_join; auto.
    - intros [H1 H2] l Hs. apply subtree_join in Hs as [Hs|[Hs|Hs]]; [discriminate|eapply H1; eassumption|eapply H2; eassumption].
  Qed.
  Lemma proper_leaves (t : jt) : proper t -> 1 <= List.length (jt_itertables t) /\ (jt_is_scan t = false -> 2 <= List.length (jt_itertables t)).
  Proof.
    induction t as [lg|lg x a|lg o IHo i IHi a]; intros Hp; cbn.
    - exfalso. apply (Hp lg). apply subtree_refl.
    - split; [lia|discriminate].
    - apply proper_join in Hp as [H1 H2]. rewrite app_length. destruct (IHo H1), (IHi H2). split; [|intros _]; lia.
  Qed.
  Lemma small_linear (t : jt) : proper t -> List.length (jt_itertables t) <= 3 -> linear t.
  Proof.
    induction t as [lg|lg x a|lg o IHo i IHi a]; intros Hp Hl.
    - exfalso. apply (Hp lg). apply subtree_refl.
    - apply linear_scan.
    - apply proper_join in Hp as [H1 H2]. cbn in Hl. rewrite app_length in Hl. destruct (proper_leaves o H1) as [Lo Lo2], (proper_leaves i H2) as [Li Li2].
      apply linear_join. split; [|split; [apply IHo|apply IHi]; auto; lia]. rewrite <- !is_scan_iff. destruct (jt_is_scan o), (jt_is_scan i); auto. specialize (Lo2 eq_refl). specialize (Li2 eq_refl). lia.
  Qed.
End S.
