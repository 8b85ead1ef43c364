(** Lemmas about the UES join order optimizer. *)
From Coq Require Import List Bool Arith ZArith Lia Permutation.
From Verif Require Import PyBase Graph Card_model JG_model JG_spec JG_proofs JT_model UO_model UO_spec.
Import ListNotations.
Local Open Scope nat_scope.

Lemma less_trans a b c : less a b = true -> less b c = true -> less a c = true.
Proof. destruct a as [| |x], b as [| |y], c as [| |z]; cbn; try discriminate; auto. rewrite !Z.ltb_lt. lia. Qed.
Lemma less_irrefl a : less a a = false.
Proof. destruct a; cbn; auto. apply Z.ltb_irrefl. Qed.
Lemma less_asym a b : less a b = true -> less b a = false.
Proof. intros H. apply not_true_is_false. intros G. pose proof (less_trans _ _ _ H G) as K. now rewrite less_irrefl in K. Qed.

Section Proofs.
  Context {T C S : Type} {ET : EqD T} {EC : EqD C} (tab : C -> T).
  Notation jg := (@jg T C).
  Notation jpred := (@jpred C).
  Notation jpath := (T * T * jpred)%type.
  Notation tree := (jt T card).
  Context (between : T -> list T -> option jpred) (order : list T -> list T) (aord : T -> list (T * jpred) -> list (T * jpred)).
  Context (base : T -> res card) (est : S -> heap -> jg -> jpred -> res card) (policy : S -> heap -> jg -> jpred -> res bool).
  Context (setb : S -> T -> card -> S) (setj : S -> tree -> card -> S) (trig : S -> tree -> T -> jpred -> res S).
  Context (g : jg).
  Notation ns := (dkeys (g_nodes g)).
  Notation es := (g_edges g).
  Notation mark := (mark tab between order).

  Definition later (h h' : heap) : Prop := forall c, ix_kind (info h' g c) = ix_kind (info h g c) /\ (ix_invalid (info h g c) = true -> ix_invalid (info h' g c) = true).
  Lemma later_refl h : later h h. Proof. split; auto. Qed.
  Lemma later_trans a b c : later a b -> later b c -> later a c.
  Proof. intros H G x. destruct (H x) as [A1 A2], (G x) as [B1 B2]. split; [congruence|auto]. Qed.
  Lemma later_primary h h' c : later h h' -> is_primary (info h' g c) = true -> is_primary (info h g c) = true.
  Proof. intros H. destruct (H c) as [K I]. unfold is_primary. rewrite K. destruct (ix_invalid (info h g c)); [rewrite I by reflexivity; discriminate|]. cbn. intros E. apply andb_prop in E. tauto. Qed.
  Lemma later_indexed h h' c : later h h' -> is_indexed (info h' g c) = true -> is_indexed (info h g c) = true.
  Proof.
    intros H. destruct (H c) as [K I]. unfold is_indexed, is_primary, is_secondary. rewrite K. destruct (ix_invalid (info h g c)); [rewrite I by reflexivity; discriminate|]. cbn. intros E. apply orb_true_iff in E as [E|E]; apply andb_prop in E as [_ ->]; auto with bool. 
  Qed.
  Lemma later_pkfk h h' a b : later h h' -> is_pk_fk_join tab h' g a b = true -> is_pk_fk_join tab h g a b = true.
  Proof.
    intros H. unfold is_pk_fk_join. destruct (edge_between g a b) as [ps|]; [|discriminate]. rewrite !existsb_exists. intros (p & Hp & E). apply andb_prop in E as [E1 E2]. exists p. split; [exact Hp|]. now rewrite (later_indexed _ _ _ H E1), (later_primary _ _ _ H E2).
  Qed.

  Lemma mark_inv h t e h' : graph_ok h g -> mark h g t e = Ok h' ->
    In t ns /\ graph_ok h' g /\ (forall x, free_in h' g x = if deqb x t then false else free_in h g x) /\ later h h'.
  Proof.
    intros G. unfold UO_model.mark. pose proof (mark_step tab between order h g t e) as M. destruct (dget (g_nodes g) t) as [a|] eqn:Ea; [|rewrite M; discriminate].
    destruct (mark_joined tab between order h g t e) as [h0 [x|]]; [discriminate|]. intros [= <-]. cbn [fst] in M. destruct M as (H1 & H2 & H3). destruct G as (W1 & W2 & N1 & N2 & L1 & L2).
    split; [apply dget_In in Ea; unfold dkeys; apply in_map_iff; now exists (t, a)|]. split; [|split].
    - repeat split; auto; intros b Hb; [rewrite H1; cbn; rewrite update_length; auto|rewrite H2; cbn; auto].
    - intros x. unfold free_in, is_free. destruct (deqb x t) eqn:Et.
      + apply deqb_true in Et. subst x. rewrite Ea. unfold free_at. rewrite H1. cbn. rewrite update_nth, Nat.eqb_refl. now rewrite (proj2 (Nat.ltb_lt _ _) (L1 a (In_dvalues _ _ _ Ea))).
      + apply deqb_false in Et. destruct (dget (g_nodes g) x) as [b|] eqn:Eb; [|reflexivity]. unfold free_at. rewrite H1. cbn. rewrite update_nth. destruct (Nat.eqb_spec b a) as [->|]; [|reflexivity]. exfalso. apply Et. destruct (dget_nth _ _ _ Ea) as (n & A1 & A2), (dget_nth _ _ _ Eb) as (m & B1 & B2).
        assert (n = m) by (apply (NoDup_nth_error (dvalues (g_nodes g))); [exact N1|apply nth_error_Some; congruence|congruence]). subst. congruence.
    - intros [c|]; cbn [info]; [|split; auto]. destruct (dget (g_index g) c) as [y|]; [|split; auto]. destruct (H3 y) as (K1 & K2 & _). split; [exact K1|exact K2].
  Qed.

  (** ** Candidates with the lowest bound *)
  Lemma lowest_spec s h paths : forall best bound p b, lowest est s h g paths best bound = Ok (p, b) ->
    (forall q, In q paths -> exists c, est s h g (snd q) = Ok c /\ less c b = false) /\
    ((p = best /\ b = bound) \/ (less b bound = true /\ exists q, p = Some q /\ In q paths /\ est s h g (snd q) = Ok b)).
  Proof.
    induction paths as [|x r IH]; intros best bound p b; cbn [lowest]; [intros [= <- <-]; split; [intros q []|now left]|]. destruct (est s h g (snd x)) as [c|] eqn:E; [|discriminate]. cbn [rbind].
    destruct (less c bound) eqn:L; intros H; destruct (IH _ _ _ _ H) as (H1 & H2).
    - split.
      + intros q [<-|Hq]; [exists c; split; [exact E|]|auto]. destruct H2 as [[-> ->]|[Hl _]]; [apply less_irrefl|now apply less_asym].
      + right. destruct H2 as [[-> ->]|[Hl (q & -> & Hq & Eq)]]; [split; [exact L|]; exists x; repeat split; auto; now left|]. split; [eapply less_trans; eassumption|]. exists q. repeat split; auto. now right.
    - split.
      + intros q [<-|Hq]; [exists c; split; [exact E|]|auto]. destruct H2 as [[-> ->]|[Hl _]]; [exact L|]. apply not_true_is_false. intros K. rewrite (less_trans _ _ _ K Hl) in L. discriminate.
      + destruct H2 as [H2|[Hl (q & -> & Hq & Eq)]]; [now left|]. right. split; [exact Hl|]. exists q. repeat split; auto. now right.
  Qed.
  Lemma lowest_total s h paths : (forall q, In q paths -> exists z, est s h g (snd q) = Ok (CVal z)) -> forall best bound, paths <> [] \/ (exists q, best = Some q) -> (forall q, best = Some q -> exists z, bound = CVal z) -> (best = None -> bound = CInf) ->
    exists p z, lowest est s h g paths best bound = Ok (Some p, CVal z).
  Proof.
    induction paths as [|x r IH]; intros He best bound Hne Hb Hn; cbn [lowest].
    - destruct Hne as [Hne|[q ->]]; [contradiction|]. destruct (Hb q eq_refl) as [z ->]. eauto.
    - destruct (He x (or_introl eq_refl)) as [z E]. rewrite E. cbn [rbind]. assert (He' : forall q, In q r -> exists z, est s h g (snd q) = Ok (CVal z)) by (intros q Hq; apply He; now right).
      destruct (less (CVal z) bound) eqn:L.
      + apply (IH He'); [right; eauto|intros q [= <-]; eauto|discriminate].
      + destruct best as [q|]; [|rewrite (Hn eq_refl) in L; discriminate]. apply (IH He'); auto. right. eauto.
  Qed.

  (** ** Trees over the joined tables *)
  Definition Inv (h : heap) (t : tree) : Prop := graph_ok h g /\ (forall x, In x (leaves t) <-> In x ns /\ free_in h g x = false) /\ no_cross es t.
  Lemma nc_nonempty t : @no_cross T C card es t -> jt_empty t = false.
  Proof. now destruct 1. Qed.
  Lemma join_table_ok (t : tree) x a b : jt_empty t = false -> join_table t x a b = Ok (JJoin false t (JScan false x b) a).
  Proof. unfold join_table, jt_join_with. intros ->. reflexivity. Qed.
  Lemma join_sub_ok (t u : tree) a : jt_empty t = false -> jt_empty u = false -> join_sub t u a = Ok (JJoin false t u a).
  Proof. unfold join_sub, jt_join_with. intros -> H. destruct u; [discriminate|reflexivity|reflexivity]. Qed.
  Lemma Inv_join h t x y a b h' : Inv h t -> graph_ok h' g -> In x ns -> (forall z, free_in h' g z = if deqb z x then false else free_in h g z) ->
    In y (leaves t) -> linked es y x -> Inv h' (JJoin false t (JScan false x b) a).
  Proof.
    intros (G & L & N) G' Hx F Hy Hl. split; [exact G'|]. split.
    - intros z. cbn [leaves]. rewrite in_app_iff, L, F. cbn [In]. destruct (deqb z x) eqn:E; [apply deqb_true in E; subst; tauto|]. apply deqb_false in E. split; [intros [H|[H|[]]]; [exact H|congruence]|tauto].
    - apply nc_join with (a := y) (b := x); auto; [constructor|now left].
  Qed.
  Lemma initial_false h t : Inv h t -> initial h g = false.
  Proof.
    intros (G & L & N). assert (Hx : exists x, In x (leaves t)) by (clear L; induction N as [lg x a|lg o i c a b N1 IH1 N2 IH2 Ha Hb]; [exists x; now left|exists a; cbn; apply in_app_iff; now left]).
    destruct Hx as [x Hx]. apply L in Hx as [H1 H2]. unfold initial. apply not_true_is_false. intros H. rewrite forallb_forall in H. specialize (H x H1). congruence.
  Qed.
  Lemma paths_spec h both s t p : initial h g = false -> In (s, t, p) (available_join_paths h g both) <-> (In (s, t, p) es \/ In (t, s, p) es) /\ free_in h g s = false /\ free_in h g t = true.
  Proof.
    intros Hi. unfold available_join_paths. rewrite Hi, in_flat_map. split.
    - intros ([[a b] q] & Hin & H). cbn [fst snd] in H. destruct (free_in h g a) eqn:E1, (free_in h g b) eqn:E2; cbn in H; try contradiction; destruct H as [H|[]]; injection H as <- <- <-; auto.
    - intros [[H|H] [H1 H2]]; [exists (s, t, p)|exists (t, s, p)]; (split; [exact H|cbn [fst snd]; rewrite H1, H2; now left]).
  Qed.
  Lemma paths_initial h s t p : initial h g = true -> In (s, t, p) (available_join_paths h g false) <-> In (s, t, p) es.
  Proof. intros Hi. unfold available_join_paths. rewrite Hi, in_flat_map. split; [intros (e & He & [H|[]]); rewrite <- H; exact He|intros H; exists (s, t, p); split; [exact H|now left]]. Qed.

  Context (Hes : forall a b p, In (a, b, p) es -> In a ns /\ In b ns).

  Lemma apply_join_inv h s t p b h' s' t' : Inv h t -> In p (available_join_paths h g false) -> apply_join tab between order base setj h g s t p b = Ok (h', s', t') ->
    Inv h' t' /\ (exists c, base (snd (fst p)) = Ok c /\ t' = JJoin false t (JScan false (snd (fst p)) c) b) /\ later h h' /\ s' = setj s t' b /\ mark h g (snd (fst p)) (Some (snd p)) = Ok h' /\ ~ In (snd (fst p)) (leaves t).
  Proof.
    intros I Hp. unfold apply_join. destruct p as [[y x] e]. cbn [fst snd]. apply (paths_spec h false y x e (initial_false _ _ I)) in Hp as (He & Fy & Fx). destruct (base x) as [c|] eqn:Eb; [|discriminate]. cbn [rbind]. rewrite join_table_ok by apply nc_nonempty, I. cbn [rbind].
    destruct (mark h g x (Some e)) as [h0|] eqn:M; [|discriminate]. cbn [rbind]. intros [= <- <- <-]. destruct (mark_inv h x (Some e) h0 (proj1 I) M) as (Hx & G' & F & La).
    split; [|split; [eauto|split; [exact La|split; [reflexivity|split; [reflexivity|]]]]].
    - apply (Inv_join h t x y b c h0 I G' Hx F); [|exists e; tauto]. apply (proj1 (proj2 I)). split; [destruct He as [He|He]; now apply Hes in He|exact Fy].
    - intros Hin. apply (proj1 (proj2 I)) in Hin. destruct Hin. congruence.
  Qed.
  Lemma NoDup_snoc (l : list T) x : NoDup l -> ~ In x l -> NoDup (l ++ [x]).
  Proof. intros H Hx. apply (Permutation_NoDup (l := x :: l)); [apply Permutation_cons_append|now constructor]. Qed.
  Lemma star_loop_inv : forall fuel h s t t', Inv h t -> NoDup (leaves t) -> left_deep t -> star_loop tab between order base est setj fuel g h s t = Ok t' ->
    NoDup (leaves t') /\ (forall x, In x (leaves t') <-> In x ns) /\ no_cross es t' /\ left_deep t'.
  Proof.
    induction fuel as [|fuel IH]; intros h s t t' I N D; cbn [star_loop]; [discriminate|]. destruct (has_free h g) eqn:Hf.
    - destruct (lowest est s h g (available_join_paths h g false) None CInf) as [[o b]|] eqn:L; [|discriminate]. cbn [rbind fst snd]. destruct o as [p|]; [|discriminate]. apply lowest_spec in L as (_ & [[H _]|(_ & q & [= <-] & Hp & _)]); [discriminate|].
      destruct (apply_join tab between order base setj h g s t p b) as [[[h1 s1] t1]|] eqn:A; [|discriminate]. cbn [rbind]. destruct (apply_join_inv _ _ _ _ _ _ _ _ I Hp A) as (I' & (c & _ & ->) & _ & _ & _ & Hn). apply IH; auto.
      + cbn [leaves]. now apply NoDup_snoc.
      + cbn. auto.
    - intros [= <-]. destruct I as (G & Le & Nc). repeat split; auto; intros H; [now apply Le|]. apply Le. split; [exact H|]. apply not_true_is_false. intros K. assert (E : has_free h g = true) by (unfold has_free; apply existsb_exists; eauto). congruence.
  Qed.
  Lemma new_inv h x c : graph_ok h g -> In x ns -> (forall z, free_in h g z = if deqb z x then false else true) -> Inv h (JScan true x c).
  Proof.
    intros G Hx F. split; [exact G|]. split; [|constructor]. intros z. cbn. rewrite F. destruct (deqb z x) eqn:E; [apply deqb_true in E; subst; tauto|apply deqb_false in E; split; [intros [H|[]]; congruence|intros []; discriminate]].
  Qed.
  Lemma mark_first h x h' c : graph_ok h g -> (forall z, free_in h g z = true) -> mark h g x None = Ok h' -> Inv h' (JScan true x c) /\ later h h'.
  Proof. intros G F M. destruct (mark_inv h x None h' G M) as (Hx & G' & F' & La). split; [|exact La]. apply new_inv; auto. intros z. rewrite F', F. reflexivity. Qed.
  Lemma star_inv fuel h s t' : graph_ok h g -> (forall z, free_in h g z = true) -> (forall a b p, In (a, b, p) es -> a <> b) -> star tab between order base est setj fuel g h s = Ok t' ->
    NoDup (leaves t') /\ (forall x, In x (leaves t') <-> In x ns) /\ no_cross es t' /\ left_deep t'.
  Proof.
    intros G F Hd. unfold star. assert (Hi : initial h g = true) by (unfold initial; apply forallb_forall; auto). destruct (lowest est s h g (available_join_paths h g false) None CInf) as [[o b]|] eqn:L; [|discriminate]. cbn [rbind fst snd]. destruct o as [p|]; [|discriminate].
    apply lowest_spec in L as (_ & [[H _]|(_ & q & [= <-] & Hp & _)]); [discriminate|]. destruct p as [[y x] e]. cbn [fst snd]. apply (paths_initial h y x e Hi) in Hp. destruct (base y) as [c|]; [|discriminate]. cbn [rbind]. destruct (mark h g y None) as [h1|] eqn:M; [|discriminate]. cbn [rbind].
    destruct (mark_first h y h1 c G F M) as [I _]. assert (Hp' : In (y, x, e) (available_join_paths h1 g false)).
    { apply (paths_spec h1 false y x e (initial_false _ _ I)). destruct (mark_inv h y None h1 G M) as (_ & _ & F' & _). split; [now left|]. rewrite !F', F, deqb_refl. split; [reflexivity|]. destruct (deqb x y) eqn:E; [apply deqb_true in E; subst; exfalso; now apply (Hd y y e)|apply F]. }
    destruct (apply_join tab between order base setj h1 g s (JScan true y c) (y, x, e) b) as [[[h2 s2] t2]|] eqn:A; [|discriminate]. cbn [rbind]. destruct (apply_join_inv _ _ _ _ _ _ _ _ I Hp' A) as (I' & (c' & _ & ->) & _ & _ & _ & Hn). apply star_loop_inv; auto.
    - cbn [leaves]. apply NoDup_snoc; [constructor; [intros []|constructor]|exact Hn].
    - cbn. auto.
  Qed.

  (** The choices of the optimizer for star queries *)
  Definition prices (h0 : heap) (ts : list T) (f : jpred -> res card) : Prop := exists s h, f = est s h g /\ later h0 h /\ forall z, In z ns -> free_in h g z = negb (mem z ts).
  Lemma inv_mem h t z : Inv h t -> In z ns -> free_in h g z = negb (mem z (leaves t)).
  Proof. intros (_ & L & _) Hz. destruct (mem z (leaves t)) eqn:E; [apply mem_In, L in E; tauto|]. apply mem_nIn in E. cbn. apply not_false_is_true. intros K. apply E, L. auto. Qed.
  Lemma star_loop_greedy h0 : forall fuel h s t t', Inv h t -> later h0 h -> greedy es base (prices h0) t -> star_loop tab between order base est setj fuel g h s t = Ok t' -> greedy es base (prices h0) t'.
  Proof.
    induction fuel as [|fuel IH]; intros h s t t' I La Gr; cbn [star_loop]; [discriminate|]. destruct (has_free h g) eqn:Hf; [|now intros [= <-]].
    destruct (lowest est s h g (available_join_paths h g false) None CInf) as [[o b]|] eqn:L; [|discriminate]. cbn [rbind fst snd]. destruct o as [p|]; [|discriminate]. apply lowest_spec in L as (Hmin & [[H _]|(_ & q & [= <-] & Hp & Eb)]); [discriminate|].
    destruct (apply_join tab between order base setj h g s t p b) as [[[h1 s1] t1]|] eqn:A; [|discriminate]. cbn [rbind]. destruct (apply_join_inv _ _ _ _ _ _ _ _ I Hp A) as (I' & (c & Ec & ->) & La' & _ & _ & Hn). destruct p as [[y x] e]. cbn [fst snd] in *. pose proof (initial_false _ _ I) as Hi. apply (paths_spec h false y x e Hi) in Hp as (He & Fy & Fx).
    intros H. apply (IH _ _ _ _ I') in H; auto; [eapply later_trans; eassumption|]. assert (Hm : forall z, In z ns -> free_in h g z = false -> In z (leaves t)) by (intros z Hz K; apply (proj1 (proj2 I)); auto).
    apply greedy_next with (y := y) (e := e) (f := est s h g); auto.
    - apply Hm; [destruct He as [He|He]; now apply Hes in He|exact Fy].
    - exists s, h. split; [reflexivity|]. split; [exact La|]. intros z Hz. now apply inv_mem.
    - intros u v r Hu Hv Hr. destruct (Hmin (u, v, r)) as (d & Ed & Hd); [|exists d; auto]. apply (paths_spec h false u v r Hi). split; [exact Hr|]. split; [now apply (proj1 (proj2 I))|]. assert (Hvn : In v ns) by (destruct Hr as [Hr|Hr]; now apply Hes in Hr). apply not_false_is_true. intros K. apply Hv. now apply Hm.
  Qed.
  Lemma star_greedy fuel h s t' : graph_ok h g -> (forall z, free_in h g z = true) -> (forall a b p, In (a, b, p) es -> a <> b) -> star tab between order base est setj fuel g h s = Ok t' -> greedy es base (prices h) t'.
  Proof.
    intros G F Hd. unfold star. assert (Hi : initial h g = true) by (unfold initial; apply forallb_forall; auto). destruct (lowest est s h g (available_join_paths h g false) None CInf) as [[o b]|] eqn:L; [|discriminate]. cbn [rbind fst snd]. destruct o as [p|]; [|discriminate].
    apply lowest_spec in L as (Hmin & [[H _]|(_ & q & [= <-] & Hp & Eb)]); [discriminate|]. destruct p as [[y x] e]. cbn [fst snd] in *. apply (paths_initial h y x e Hi) in Hp. destruct (base y) as [c|] eqn:Ey; [|discriminate]. cbn [rbind]. destruct (mark h g y None) as [h1|] eqn:M; [|discriminate]. cbn [rbind].
    destruct (mark_first h y h1 c G F M) as [I La]. assert (Hp' : In (y, x, e) (available_join_paths h1 g false)).
    { apply (paths_spec h1 false y x e (initial_false _ _ I)). destruct (mark_inv h y None h1 G M) as (_ & _ & F' & _). split; [now left|]. rewrite !F', F, deqb_refl. split; [reflexivity|]. destruct (deqb x y) eqn:E; [apply deqb_true in E; subst; exfalso; now apply (Hd y y e)|apply F]. }
    destruct (apply_join tab between order base setj h1 g s (JScan true y c) (y, x, e) b) as [[[h2 s2] t2]|] eqn:A; [|discriminate]. cbn [rbind]. destruct (apply_join_inv _ _ _ _ _ _ _ _ I Hp' A) as (I' & (c' & Ex & ->) & La' & _ & _ & Hn). cbn [fst snd] in *. apply star_loop_greedy; auto; [eapply later_trans; eassumption|].
    apply greedy_first with (e := e) (f := est s h g); auto.
    - exists s, h. split; [reflexivity|]. split; [apply later_refl|]. intros z _. cbn. apply F.
    - intros u v r Hr. destruct (Hmin (u, v, r)) as (d & Ed & Hd'); [now apply paths_initial|]. exists d. auto.
  Qed.

  (** ** Neighbors and the breadth-first search over primary key joins *)
  Context (Haord : forall t l, Permutation (aord t l) l).
  Notation adjl := (adjl aord).
  Notation check := (check_pk_fk tab).
  Notation bfs := (bfs_paths tab aord).
  Lemma adjl_In y x e : In (x, e) (adjl g y) <-> In (y, x, e) es \/ (In (x, y, e) es /\ x <> y).
  Proof.
    unfold UO_model.adjl. rewrite (Permutation_in' eq_refl (Haord _ _)), in_flat_map. unfold nbr. split.
    - intros ([[a b] p] & Hin & H). cbn [fst snd] in H. destruct (deqb a y) eqn:E1; [apply deqb_true in E1; subst; destruct H as [[= <- <-]|[]]; now left|]. destruct (deqb b y) eqn:E2; [|destruct H]. apply deqb_true in E2. subst. destruct H as [[= <- <-]|[]]. right. split; [exact Hin|now apply deqb_false in E1].
    - intros [H|[H Hne]]; [exists (y, x, e)|exists (x, y, e)]; (split; [exact H|]); cbn [fst snd]; [rewrite deqb_refl; now left|]. assert (E : deqb x y = false) by (apply not_true_is_false; intros K; apply deqb_true in K; contradiction). rewrite E, deqb_refl. now left.
  Qed.
  Lemma adjl_edge y x e : In (x, e) (adjl g y) -> In (y, x, e) es \/ In (x, y, e) es.
  Proof. rewrite adjl_In. tauto. Qed.
  Lemma adjl_ns y x e : In (x, e) (adjl g y) -> In x ns /\ In y ns.
  Proof. intros H. apply adjl_edge in H as [H|H]; apply Hes in H; tauto. Qed.

  (** Each entry belongs to a neighbor of an earlier one. *)
  Fixpoint chain (h : heap) (E : list T) (l : list (T * jpred)) : Prop :=
    match l with [] => True | x :: l => (exists y, In y E /\ In x (adjl g y)) /\ check h g x = true /\ chain h (fst x :: E) l end.
  Lemma chain_incl h l : forall E E', incl E E' -> chain h E l -> chain h E' l.
  Proof. induction l as [|x l IH]; intros E E' I; cbn; [auto|]. intros ((y & Hy & Hx) & Hc & H). split; [exists y; auto|]. split; [exact Hc|]. apply (IH (fst x :: E)); [|exact H]. intros z [<-|Hz]; [now left|right; auto]. Qed.
  Lemma bfs_chain h : forall fuel q v l E, bfs fuel h g q v = Ok l -> (forall x, In x q -> exists y, In y E /\ In x (adjl g y)) -> chain h E l.
  Proof.
    induction fuel as [|fuel IH]; intros q v l E; cbn [bfs_paths]; [discriminate|]. destruct q as [|x q]; [intros [= <-] _; exact I|]. destruct (check h g x) eqn:Ec.
    - destruct (bfs fuel h g _ _) as [l'|] eqn:Eb; [|discriminate]. cbn [rmap rbind]. intros [= <-] Hq. cbn. split; [apply Hq; now left|]. split; [exact Ec|]. apply (IH _ _ _ _ Eb). intros z Hz. apply in_app_or in Hz as [Hz|Hz].
      + destruct (Hq z (or_intror Hz)) as (y & Hy & Hz'). exists y. split; [now right|exact Hz'].
      + apply filter_In in Hz as [Hz _]. exists (fst x). split; [now left|exact Hz].
    - intros Eb Hq. apply (IH _ _ _ _ Eb). intros z Hz. apply Hq. now right.
  Qed.
  Lemma bfs_queue h : forall fuel q v l, bfs fuel h g q v = Ok l -> forall x, In x q -> check h g x = true -> In x l.
  Proof.
    induction fuel as [|fuel IH]; intros q v l; cbn [bfs_paths]; [discriminate|]. destruct q as [|x q]; [intros _ y []|]. destruct (check h g x) eqn:Ec.
    - destruct (bfs fuel h g _ _) as [l'|] eqn:Eb; [|discriminate]. cbn [rmap rbind]. intros [= <-] z [<-|Hz] Hc; [now left|]. right. apply (IH _ _ _ Eb); [apply in_or_app; now left|exact Hc].
    - intros Eb z [<-|Hz] Hc; [congruence|]. now apply (IH _ _ _ Eb).
  Qed.
  Lemma bfs_more h : forall n q v l m, bfs n h g q v = Ok l -> n <= m -> bfs m h g q v = Ok l.
  Proof.
    induction n as [|n IH]; intros q v l m; cbn [bfs_paths]; [discriminate|]. intros H Hm. destruct m as [|m]; [lia|]. cbn [bfs_paths]. destruct q as [|x q]; [exact H|]. destruct (check h g x).
    - destruct (bfs n h g _ _) as [l'|] eqn:Eb; [|discriminate]. cbn [rmap rbind] in H. injection H as <-. rewrite (IH _ _ _ m Eb) by lia. reflexivity.
    - apply IH; [exact H|lia].
  Qed.
  (** The search ends. *)
  Definition unvisited (v : list T) : nat := length (filter (fun x => negb (mem x v)) ns).
  Fixpoint vprefix (v : list T) (q : list (T * jpred)) : nat := match q with [] => 0 | x :: q => if mem (fst x) v then Datatypes.S (vprefix v q) else 0 end.
  Lemma filter_le {A} (f k : A -> bool) l : (forall x, k x = true -> f x = true) -> length (filter k l) <= length (filter f l).
  Proof. intros H. induction l as [|x l IH]; cbn; [lia|]. destruct (k x) eqn:E; [rewrite (H _ E); cbn; lia|]. destruct (f x); cbn; lia. Qed.
  Lemma mem_cons x y (v : list T) : mem x (y :: v) = true <-> x = y \/ mem x v = true.
  Proof. rewrite !mem_In. cbn. split; intros [H|H]; auto. Qed.
  Lemma unvisited_lt x v : In x ns -> ~ In x v -> unvisited (x :: v) < unvisited v.
  Proof.
    intros Hx Hv. unfold unvisited. assert (H : forall l, length (filter (fun y => negb (mem y (x :: v))) l) <= length (filter (fun y => negb (mem y v)) l)).
    { intros l. apply filter_le. intros y. rewrite !negb_true_iff, !mem_nIn. cbn. tauto. }
    apply in_split in Hx as (l1 & l2 & ->). rewrite !filter_app, !app_length. cbn [filter]. apply mem_nIn in Hv. rewrite Hv. assert (E : mem x (x :: v) = true) by (apply mem_In; now left). rewrite E. cbn [negb length]. pose proof (H l1). pose proof (H l2). lia.
  Qed.
  Lemma vprefix_app v q r : (forall x, In x r -> ~ In (fst x) v) -> vprefix v (q ++ r) = vprefix v q.
  Proof. intros H. induction q as [|x q IH]; cbn; [|now rewrite IH]. destruct r as [|y r]; [reflexivity|]. cbn. assert (E : mem (fst y) v = false) by (apply mem_nIn, H; now left). now rewrite E. Qed.
  Lemma mem_ext (v v' : list T) x : seteq v v' -> mem x v = mem x v'.
  Proof. intros H. destruct (mem x v) eqn:E1, (mem x v') eqn:E2; auto; [apply mem_In in E1; apply mem_nIn in E2; exfalso; apply E2, H, E1|apply mem_nIn in E1; apply mem_In in E2; exfalso; apply E1, H, E2]. Qed.
  Lemma unvisited_same x v : In x v -> unvisited (x :: v) = unvisited v.
  Proof. intros H. unfold unvisited. f_equal. apply filter_ext. intros y. f_equal. apply mem_ext. intros z. cbn. split; [intros [<-|Hz]; auto|auto]. Qed.
  Lemma vprefix_ext v v' q : seteq v v' -> vprefix v q = vprefix v' q.
  Proof. intros H. induction q as [|x q IH]; cbn; [reflexivity|]. rewrite (mem_ext v v' _ H), IH. reflexivity. Qed.
  Lemma bfs_total h : forall n m q v, unvisited v <= n -> vprefix v q <= m -> (forall x, In x q -> In (fst x) ns) -> exists fuel l, bfs fuel h g q v = Ok l.
  Proof.
    induction n as [n IHn] using (well_founded_induction lt_wf). induction m as [m IHm] using (well_founded_induction lt_wf). intros queue visited Hn Hm Hq.
    destruct queue as [|x q]; [exists 1, []; reflexivity|].
    set (new := filter (fun y => negb (mem (fst y) (fst x :: visited))) (adjl g (fst x))). assert (Hnew : forall y, In y new -> In (fst y) ns /\ ~ In (fst y) (fst x :: visited)).
    { intros [y e] Hy. unfold new in Hy. apply filter_In in Hy as [H1 H2]. apply negb_true_iff, mem_nIn in H2. apply adjl_ns in H1. split; [apply H1|assumption]. }
    set (q' := if check h g x then q ++ new else q). assert (Hq' : forall y, In y q' -> In (fst y) ns). { unfold q'. intros y Hy. destruct (check h g x); [apply in_app_or in Hy as [Hy|Hy]; [apply Hq; now right|now apply Hnew]|apply Hq; now right]. }
    assert (Hrec : exists fuel l, bfs fuel h g q' (fst x :: visited) = Ok l).
    { destruct (mem (fst x) visited) eqn:Em.
      - assert (Hx := proj1 (mem_In _ _) Em). assert (Hpre : vprefix visited (x :: q) = Datatypes.S (vprefix visited q)) by (cbn; now rewrite Em).
        assert (Hse : seteq (fst x :: visited) visited) by (intros z; cbn; split; [intros [<-|Hz]; auto|auto]).
        assert (Hv : vprefix (fst x :: visited) q' = vprefix visited q). { unfold q'. destruct (check h g x); [rewrite vprefix_app by (intros y Hy; now apply Hnew)|]; now apply vprefix_ext. }
        apply (IHm (vprefix visited q)); [lia|rewrite unvisited_same; assumption|lia|assumption].
      - apply mem_nIn in Em. pose proof (unvisited_lt (fst x) visited (Hq x (or_introl eq_refl)) Em). apply (IHn (unvisited (fst x :: visited)) ltac:(lia) (vprefix (fst x :: visited) q')); [lia|lia|assumption]. }
    destruct Hrec as (fuel & l & E). exists (Datatypes.S fuel). cbn [bfs_paths]. fold new. unfold q' in E. destruct (check h g x); [exists (x :: l); rewrite E; reflexivity|exists l; exact E].
  Qed.
  (** Each table at most once, if there is only one way to get there. *)
  Definition one_way (h : heap) : Prop := forall x e e' y y', In (x, e) (adjl g y) -> check h g (x, e) = true -> In (x, e') (adjl g y') -> check h g (x, e') = true -> y = y'.
  Context (Hadj : forall y, NoDup (map fst (adjl g y))) (Hsrc : forall x e y y', In (x, e) (adjl g y) -> In (x, e) (adjl g y') -> y = y').
  Lemma NoDup_map_eq {A B} (f : A -> B) l a b : NoDup (map f l) -> In a l -> In b l -> f a = f b -> a = b.
  Proof.
    induction l as [|x l IH]; cbn; [intros _ []|]. intros N Ha Hb E. inversion N as [|? ? Hx Hl]; subst. destruct Ha as [<-|Ha], Hb as [<-|Hb]; auto.
    - exfalso. apply Hx. rewrite E. now apply in_map.
    - exfalso. apply Hx. rewrite <- E. now apply in_map.
  Qed.
  Lemma bfs_nodup h start : one_way h -> forall fuel q v l P X, bfs fuel h g q v = Ok l -> NoDup (P ++ q) -> (forall x, In x (P ++ q) -> exists y, In y X /\ In x (adjl g y)) -> incl X v ->
    (forall x, In x X -> x = start \/ exists e, In (x, e) P /\ check h g (x, e) = true) -> In start v -> (forall x, In x q -> fst x <> start) ->
    NoDup (map fst l) /\ forall x, In x (map fst l) -> ~ In x X.
  Proof.
    intros Hw. induction fuel as [|fuel IH]; intros q v l P X; cbn [bfs_paths]; [discriminate|]. destruct q as [|x q]; [intros [= <-] _ _ _ _ _ _; split; [constructor|intros x []]|]. intros H N Hsrc' HX HP Hst Hns. destruct (check h g x) eqn:Ec.
    - destruct (bfs fuel h g _ _) as [l'|] eqn:Eb; [|discriminate]. cbn [rmap rbind] in H. injection H as <-.
      assert (Hx : ~ In (fst x) X).
      { intros Hin. destruct (HP _ Hin) as [E|(e & He & Hc)]; [apply (Hns x (or_introl eq_refl) E)|]. destruct (Hsrc' x) as (y & Hy & Hxy); [apply in_or_app; right; now left|]. destruct (Hsrc' (fst x, e)) as (y' & Hy' & Hxy'); [apply in_or_app; now left|].
        destruct x as [x e0]. cbn [fst] in *. assert (y = y') by (eapply (Hw x e0 e); eassumption). subst y'. assert (Heq : (x, e0) = (x, e)) by (apply (NoDup_map_eq fst (adjl g y)); auto). rewrite <- Heq in He. apply (NoDup_remove_2 _ _ _ N). apply in_or_app. now left. }
      destruct (IH _ _ _ (P ++ [x]) (fst x :: X) Eb) as [N' H'].
      + set (new := filter _ _). rewrite <- app_assoc. cbn [app]. rewrite (app_comm_cons q new x), app_assoc. assert (Nn : NoDup new) by (apply NoDup_filter; apply (NoDup_map_inv fst), Hadj).
        assert (D : forall z, In z new -> ~ In z (P ++ x :: q)). { intros [z e] Hz Hin. unfold new in Hz. apply filter_In in Hz as [Hz _]. destruct (Hsrc' _ Hin) as (y & Hy & Hzy). apply Hx. now rewrite (Hsrc _ _ _ _ Hz Hzy). }
        clear -N Nn D. induction (P ++ x :: q) as [|a r IHr]; [exact Nn|]. inversion N as [|? ? Ha Hr]; subst. cbn. constructor; [|apply IHr; auto; intros z Hz Hin; apply (D z Hz); now right]. intros Hin. apply in_app_or in Hin as [Hin|Hin]; [contradiction|]. apply (D a Hin). now left.
      + intros z Hz. rewrite <- app_assoc in Hz. cbn [app] in Hz. rewrite (app_comm_cons q _ x), app_assoc in Hz. apply in_app_or in Hz as [Hz|Hz]; [destruct (Hsrc' z Hz) as (y & Hy & Hzy); exists y; split; [now right|exact Hzy]|]. apply filter_In in Hz as [Hz _]. exists (fst x). split; [now left|exact Hz].
      + intros z [<-|Hz]; [now left|right; auto].
      + intros z [<-|Hz]; [right; exists (snd x); split; [apply in_or_app; right; left; now destruct x|now destruct x]|]. destruct (HP z Hz) as [E|(e & He & Hc)]; [now left|]. right. exists e. split; [apply in_or_app; now left|exact Hc].
      + now right.
      + intros z Hz. apply in_app_or in Hz as [Hz|Hz]; [apply Hns; now right|]. apply filter_In in Hz as [_ Hz]. apply negb_true_iff, mem_nIn in Hz. intros E. apply Hz. rewrite E. now right.
      + split.
        * cbn. constructor; [|exact N']. intros Hin. apply (H' _ Hin). now left.
        * intros z [<-|Hz]; [exact Hx|]. intros Hin. apply (H' z Hz). now right.
    - destruct (IH _ _ _ (P ++ [x]) X H) as [N' H']; auto.
      + now rewrite <- app_assoc.
      + intros z Hz. rewrite <- app_assoc in Hz. auto.
      + intros z Hz. right. auto.
      + intros z Hz. destruct (HP z Hz) as [E|(e & He & Hc)]; [now left|]. right. exists e. split; [apply in_or_app; now left|exact Hc].
      + now right.
      + intros z Hz. apply Hns. now right.
  Qed.

  (** ** The first table *)
  Notation initial_joins := (initial_joins tab between order base est).
  Notation first_table := (first_table tab between order aord base est setj).
  Notation insert_pk := (insert_pk tab between order base est setj).
  Notation next_table := (next_table tab between order aord base est policy setj trig).
  Notation default_loop := (default_loop tab between order aord base est policy setb setj trig).
  Definition arrow (p : jpath) : T * jpred := (snd (fst p), snd p).
  Lemma later_check h h' x : later h h' -> check h' g x = true -> check h g x = true.
  Proof. intros L. unfold check_pk_fk. rewrite !existsb_exists. intros (p & Hp & H). exists p. split; [exact Hp|]. now apply (later_pkfk h h'). Qed.
  Lemma later_one_way h h' : later h h' -> one_way h -> one_way h'.
  Proof. intros L H x e e' y y' A B C' D. eapply (H x e e'); eauto; eapply later_check; eassumption. Qed.
  Lemma initial_joins_inv h0 s : forall paths h t h' t' E, chain h0 E (map arrow paths) -> Inv h t -> incl E (leaves t) -> initial_joins g paths h s t = Ok (h', t') ->
    Inv h' t' /\ leaves t' = leaves t ++ map (fun p => snd (fst p)) paths /\ later h h'.
  Proof.
    induction paths as [|p r IH]; intros h t h' t' E; cbn [UO_model.initial_joins map chain]; [intros _ I _ [= <- <-]; split; [exact I|]; split; [now rewrite app_nil_r|apply later_refl]|].
    destruct p as [[y0 x] e]. cbn [arrow fst snd]. intros ((y & Hy & Hx) & _ & Hc) I HE. destruct (base x) as [c|]; [|discriminate]. cbn [rbind]. destruct (est s h g e) as [b|]; [|discriminate]. cbn [rbind].
    destruct (mark h g x (Some e)) as [h1|] eqn:M; [|discriminate]. cbn [rbind]. rewrite join_table_ok by apply nc_nonempty, I. cbn [rbind]. destruct (mark_inv _ _ _ _ (proj1 I) M) as (Hn & G1 & F1 & L1). intros H.
    destruct (IH h1 (JJoin false t (JScan false x c) b) h' t' (x :: E) Hc) as (I' & Le & La); [| |exact H|].
    - apply (Inv_join h t x y b c h1 I G1 Hn F1); [now apply HE|]. exists e. now apply adjl_edge.
    - intros z [<-|Hz]; cbn [leaves]; apply in_or_app; [right; now left|left; auto].
    - split; [exact I'|]. split; [rewrite Le; cbn [leaves]; now rewrite <- app_assoc|]. eapply later_trans; eassumption.
  Qed.
  Lemma deep_inv bf h x paths : deep_paths tab aord bf h g x = Ok paths -> In x ns /\ bfs bf h g (adjl g x) [x] = Ok (map arrow paths) .
  Proof.
    unfold deep_paths. destruct (mem x ns) eqn:Em; [|discriminate]. destruct (bfs bf h g (adjl g x) [x]) as [l|]; [|discriminate]. cbn [rmap rbind]. intros [= <-]. split; [now apply mem_In|]. f_equal. rewrite map_map. unfold arrow. cbn [fst snd]. symmetry. rewrite <- map_id. apply map_ext. now intros [].
  Qed.
  Lemma initial_left s : forall paths h t h' t', initial_joins g paths h s t = Ok (h', t') -> left_deep t -> left_deep t'.
  Proof.
    induction paths as [|p r IH]; intros h t h' t'; cbn [UO_model.initial_joins]; [intros [= <- <-]; auto|]. destruct (base (snd (fst p))); [|discriminate]. cbn [rbind]. destruct (est s h g (snd p)); [|discriminate]. cbn [rbind]. destruct (mark h g (snd (fst p)) (Some (snd p))) as [h1|] eqn:M; [|discriminate]. cbn [rbind].
    destruct t; [intros _ []| |]; rewrite join_table_ok by reflexivity; cbn [rbind]; intros H Ld; eapply IH; try exact H; cbn; auto.
  Qed.
  Context (Hself : forall a b p, In (a, b, p) es -> a <> b).
  Lemma first_table_inv bf h s best bound h' s' t' : graph_ok h g -> (forall z, free_in h g z = true) -> first_table bf g h s best bound = Ok (h', s', t') ->
    exists x (paths : list jpath), best = Some x /\ In x ns /\ Inv h' t' /\ later h h' /\ leaves t' = x :: map (fun p => snd (fst p)) paths /\ left_deep t' /\
      (forall y e, In (y, e) (adjl g x) -> is_pk_fk_join tab h g x y = true -> free_in h' g y = false \/ exists h1, mark h g x None = Ok h1 /\ check h1 g (y, e) = false) /\ (one_way h -> NoDup (leaves t')).
  Proof.
    intros G F. unfold UO_model.first_table. destruct best as [x|]; [|discriminate]. destruct (mark h g x None) as [h1|] eqn:M; [|discriminate]. cbn [rbind]. destruct (deep_paths tab aord bf h1 g x) as [paths|] eqn:D; [|discriminate]. cbn [rbind].
    destruct (initial_joins g paths h1 _ _) as [[h2 t2]|] eqn:J; [|discriminate]. cbn [rmap rbind]. intros [= <- <- <-]. destruct (mark_first h x h1 bound G F M) as [I La]. destruct (deep_inv _ _ _ _ D) as [Hx B].
    assert (Hq : forall z, In z (adjl g x) -> exists y, In y [x] /\ In z (adjl g y)) by (intros z Hz; exists x; split; [now left|exact Hz]).
    assert (Ch := bfs_chain h1 _ _ _ _ [x] B Hq). destruct (initial_joins_inv h1 _ paths h1 (JScan true x bound) h2 t2 [x] Ch I (fun z Hz => Hz) J) as (I' & Le & La'). cbn [leaves app] in Le.
    exists x, paths. split; [reflexivity|]. split; [exact Hx|]. split; [exact I'|]. split; [eapply later_trans; eassumption|]. split; [exact Le|]. split; [|split].
    - eapply initial_left; [exact J|exact Logic.I].
    - intros y e Hy Hp. destruct (check h1 g (y, e)) eqn:Ec; [left|right; eauto]. assert (Hin : In (y, e) (map arrow paths)) by (apply (bfs_queue h1 _ _ _ _ B); auto). apply in_map_iff in Hin as (p & Ep & Hp'). apply (proj1 (proj2 I')). rewrite Le. right. apply in_map_iff. exists p. split; [|exact Hp']. now injection Ep.
    - intros W. rewrite Le. assert (Em : map (fun p : T * T * jpred => snd (fst p)) paths = map fst (map arrow paths)) by (rewrite map_map; reflexivity). rewrite Em.
      destruct (bfs_nodup h1 x (later_one_way _ _ La W) _ _ _ _ [] [x] B) as [N Hn].
      + cbn. apply (NoDup_map_inv fst), Hadj.
      + cbn. exact Hq.
      + intros z Hz. exact Hz.
      + intros z [<-|[]]. now left.
      + now left.
      + intros [z e] Hz. cbn. intros ->. apply adjl_edge in Hz as [Hz|Hz]; now apply Hself in Hz.
      + constructor; [|exact N]. intros Hin. apply (Hn _ Hin). now left.
  Qed.

  (** ** Further tables *)
  Lemma insert_pk_inv : forall paths h s t h' s' t', graph_ok h g -> jt_empty t = false -> (forall p, In p paths -> In (snd (fst p)) ns) -> insert_pk g paths h s t = Ok (h', s', t') ->
    exists new, leaves t' = leaves t ++ new /\ NoDup new /\ (forall z, In z new -> In z ns /\ free_in h g z = true /\ In z (map (fun p => snd (fst p)) paths)) /\
      (forall z, free_in h' g z = free_in h g z && negb (mem z new)) /\ graph_ok h' g /\ later h h' /\ jt_empty t' = false /\
      (forall p, In p paths -> free_in h' g (snd (fst p)) = false) /\
      ((forall p, In p paths -> In (fst (fst p)) (leaves t) /\ linked es (fst (fst p)) (snd (fst p))) -> no_cross es t -> no_cross es t').
  Proof.
    induction paths as [|p r IH]; intros h s t h' s' t' G Ht Hin; cbn [UO_model.insert_pk].
    - intros [= <- <- <-]. exists []. rewrite app_nil_r. split; [reflexivity|]. split; [constructor|]. split; [intros z []|]. split; [intros z; cbn; now rewrite andb_true_r|]. split; [exact G|]. split; [apply later_refl|]. split; [exact Ht|]. split; [intros p []|auto].
    - destruct p as [[y x] e]. cbn [fst snd]. destruct (is_free h g x) as [f|] eqn:Ef; [|discriminate]. cbn [rbind]. assert (Hin' : forall p, In p r -> In (snd (fst p)) ns) by (intros p Hp; apply Hin; now right). destruct f.
      + destruct (est s h g e) as [b|]; [|discriminate]. cbn [rbind]. destruct (base x) as [c|]; [|discriminate]. cbn [rbind]. rewrite join_table_ok by exact Ht. cbn [rbind]. destruct (mark h g x (Some e)) as [h1|] eqn:M; [|discriminate]. cbn [rbind]. intros H.
        destruct (mark_inv _ _ _ _ G M) as (Hn & G1 & F1 & L1). destruct (IH _ _ (JJoin false t (JScan false x c) b) _ _ _ G1 eq_refl Hin' H) as (new & Le & Nn & Hnew & F & G' & La & Ne & Fr & Nc). exists (x :: new).
        assert (Hf : free_in h g x = true) by (unfold free_in; now rewrite Ef). assert (Hxn : ~ In x new) by (intros K; apply Hnew in K as (_ & K & _); rewrite F1, deqb_refl in K; discriminate).
        split; [rewrite Le; cbn [leaves]; now rewrite <- app_assoc|]. split; [now constructor|]. split; [|split; [|split; [exact G'|split; [eapply later_trans; eassumption|split; [exact Ne|split]]]]].
        * intros z [<-|Hz]; [cbn; auto|]. destruct (Hnew z Hz) as (A & B & D). split; [exact A|]. split; [|now right]. rewrite F1 in B. destruct (deqb z x); [discriminate|exact B].
        * intros z. rewrite F, F1. destruct (deqb z x) eqn:E; [apply deqb_true in E; subst; assert (K : mem x (x :: new) = true) by (apply mem_In; now left); rewrite K; cbn; now rewrite andb_false_r|]. f_equal. f_equal. apply deqb_false in E.
          destruct (mem z new) eqn:E1, (mem z (x :: new)) eqn:E2; auto; [apply mem_In in E1; apply mem_nIn in E2; exfalso; apply E2; now right|apply mem_nIn in E1; apply mem_In in E2 as [E2|E2]; congruence].
        * intros p [<-|Hp]; [|now apply Fr]. cbn [fst snd]. rewrite F, F1, deqb_refl. reflexivity.
        * intros Hp N. apply Nc.
          -- intros p Hp'. destruct (Hp p (or_intror Hp')) as [A B]. split; [cbn [leaves]; apply in_or_app; now left|exact B].
          -- destruct (Hp _ (or_introl eq_refl)) as [A B]. cbn [fst snd] in A, B. apply nc_join with (a := y) (b := x); auto; [constructor|now left].
      + intros H. destruct (IH _ _ _ _ _ _ G Ht Hin' H) as (new & Le & Nn & Hnew & F & G' & La & Ne & Fr & Nc). exists new. split; [exact Le|]. split; [exact Nn|]. split; [|split; [exact F|split; [exact G'|split; [exact La|split; [exact Ne|split]]]]].
        * intros z Hz. destruct (Hnew z Hz) as (A & B & D). split; [exact A|]. split; [exact B|now right].
        * intros p [<-|Hp]; [|now apply Fr]. cbn [fst snd]. rewrite F. unfold free_in. now rewrite Ef.
        * intros Hp. apply Nc. intros p Hp'. apply Hp. now right.
  Qed.
  Definition Inv2 (nc : Prop) (h : heap) (t : tree) : Prop := graph_ok h g /\ (forall x, In x (leaves t) <-> In x ns /\ free_in h g x = false) /\ jt_empty t = false /\ (nc -> no_cross es t).
  Lemma inv_inv2 nc h t : Inv h t -> Inv2 nc h t.
  Proof. intros (A & B & D). split; [exact A|]. split; [exact B|]. split; [now apply nc_nonempty|auto]. Qed.
  Lemma nm_In h both p : In p (nm_paths tab h g both) -> In p (available_join_paths h g false) \/ (both = true /\ initial h g = true /\ In (flip p) (available_join_paths h g false)).
  Proof.
    unfold nm_paths. rewrite in_flat_map. intros (q & Hq & H). destruct (negb _ && negb _); [|destruct H]. destruct H as [<-|H]; [now left|]. destruct (both && initial h g) eqn:E; [|destruct H]. apply andb_prop in E as [-> E]. destruct H as [<-|[]]. right. repeat split; auto. unfold flip. cbn. now destruct q as [[? ?] ?].
  Qed.
  Lemma pk_paths_inv h x paths : pk_paths tab aord h g x = Ok paths -> In x ns /\ forall p, In p paths <-> exists y e, p = (x, y, e) /\ In (y, e) (adjl g x) /\ is_pk_fk_join tab h g x y = true /\ (free_in h g x = true \/ free_in h g y = true).
  Proof.
    unfold pk_paths. destruct (mem x ns) eqn:Em; [|discriminate]. intros [= <-]. split; [now apply mem_In|]. intros p. rewrite in_map_iff. split.
    - intros ([y e] & <- & H). apply filter_In in H as [H1 H2]. cbn [fst snd] in *. apply andb_prop in H2 as [H2 H3]. apply orb_prop in H3. exists y, e. auto.
    - intros (y & e & -> & H1 & H2 & H3). exists (y, e). split; [reflexivity|]. apply filter_In. split; [exact H1|]. cbn [fst snd]. rewrite H2. cbn. destruct H3 as [-> | ->]; auto with bool.
  Qed.
  Lemma deep_ns bf h x paths : deep_paths tab aord bf h g x = Ok paths -> forall p, In p paths -> In (snd (fst p)) ns.
  Proof.
    intros D. destruct (deep_inv _ _ _ _ D) as [Hx B]. assert (Ch : chain h [x] (map arrow paths)) by (apply (bfs_chain h _ _ _ _ [x] B); intros z Hz; exists x; split; [now left|exact Hz]). clear B D Hx. revert Ch. generalize [x]. induction paths as [|p r IH]; intros E; cbn; [intros _ p []|]. intros ((y & Hy & Hx) & _ & Ch) q [<-|Hq].
    - unfold arrow in Hx. now apply adjl_ns in Hx.
    - now apply (IH _ Ch).
  Qed.
  Lemma next_table_inv (nc : Prop) bf eager h s t h' s' t' : (nc -> eager = false) -> Inv2 nc h t -> initial h g = false -> next_table bf eager g h s t = Ok (h', s', t') ->
    exists y x e b c, In (y, x, e) (nm_paths tab h g false) /\ est s h g e = Ok b /\ base x = Ok c /\ less b CInf = true /\ (forall q, In q (nm_paths tab h g false) -> exists b', est s h g (snd q) = Ok b' /\ less b' b = false) /\
      Inv2 nc h' t' /\ later h h' /\ free_in h g x = true /\ In x ns /\
      (exists new, leaves t' = leaves t ++ x :: new /\ NoDup (x :: new) /\ (forall z, In z new -> free_in h g z = true)) /\
      (forall z, free_in h g z = false -> free_in h' g z = false) /\ free_in h' g x = false.
  Proof.
    intros Hnc (G & Lt & Et & Nt) Hi. unfold UO_model.next_table. destruct (lowest est s h g (nm_paths tab h g false) None CInf) as [[o b]|] eqn:L; [|discriminate]. cbn [rbind fst snd]. destruct o as [p|]; [|discriminate].
    apply lowest_spec in L as (Hmin & [[H _]|(Hlt & q & [= <-] & Hp & Eb)]); [discriminate|]. destruct p as [[y x] e]. cbn [fst snd] in *. assert (Hp' := Hp). apply nm_In in Hp' as [Hp'|(? & ? & _)]; [|discriminate]. apply (paths_spec h false y x e Hi) in Hp' as (He & Fy & Fx).
    assert (Hyn : In y ns /\ In x ns) by (destruct He as [He|He]; apply Hes in He; tauto). assert (Hyl : In y (leaves t)) by (apply Lt; tauto). assert (Lk : linked es y x) by (exists e; tauto).
    destruct (pk_paths tab aord h g x) as [direct|] eqn:Ed; [|discriminate]. cbn [rbind]. destruct (any policy s h g direct) as [sub|]; [|discriminate]. cbn [rbind]. rewrite <- Ed. destruct (if eager then deep_paths tab aord bf h g x else pk_paths tab aord h g x) as [pks|] eqn:Ep; [|discriminate]. cbn [rbind].
    assert (Hpn : forall p, In p pks -> In (snd (fst p)) ns). { destruct eager; [now apply (deep_ns bf h x)|]. intros p Hp'. apply (pk_paths_inv h x pks Ep) in Hp' as (z & f & -> & Hz & _). cbn. now apply adjl_ns in Hz. }
    assert (Hps : nc -> forall p, In p pks -> fst (fst p) = x /\ linked es x (snd (fst p))). { intros K p Hp'. rewrite (Hnc K) in Ep. apply (pk_paths_inv h x pks Ep) in Hp' as (z & f & -> & Hz & _). cbn. split; [reflexivity|]. exists f. now apply adjl_edge. }
    destruct (base x) as [c|] eqn:Ec; [|discriminate]. cbn [rbind].
    assert (Fin : forall h1 new h2, (forall z, free_in h1 g z = if deqb z x then false else free_in h g z) -> (forall z, In z new -> In z ns /\ free_in h1 g z = true /\ In z (map (fun p => snd (fst p)) pks)) -> NoDup new -> (forall z, free_in h2 g z = free_in h1 g z && negb (mem z new)) ->
      (forall z, In z (leaves t ++ x :: new) <-> In z ns /\ free_in h2 g z = false) /\ NoDup (x :: new) /\ (forall z, In z new -> free_in h g z = true) /\ (forall z, free_in h g z = false -> free_in h2 g z = false) /\ free_in h2 g x = false).
    { intros h1 new h2 F1 Hnew Nn F2. split; [|split; [|split; [|split]]].
      - intros z. rewrite in_app_iff. cbn [In]. rewrite Lt, F2, F1. destruct (deqb z x) eqn:E.
        + apply deqb_true in E. subst z. cbn. split; [intros _; tauto|auto].
        + apply deqb_false in E. destruct (mem z new) eqn:Em; [apply mem_In in Em; rewrite andb_false_r; split; [|auto]; intros _; split; [now apply Hnew|reflexivity]|]. apply mem_nIn in Em. cbn. rewrite andb_true_r. split; [intros [K|[K|K]]; [exact K|congruence|contradiction]|tauto].
      - constructor; [|exact Nn]. intros K. apply Hnew in K as (_ & K & _). rewrite F1, deqb_refl in K. discriminate.
      - intros z K. apply Hnew in K as (_ & K & _). rewrite F1 in K. destruct (deqb z x); [discriminate|exact K].
      - intros z K. rewrite F2, F1, K. now destruct (deqb z x).
      - now rewrite F2, F1, deqb_refl. }
    destruct sub.
    - destruct (mark h g x None) as [h1|] eqn:M; [|discriminate]. cbn [rbind]. destruct (mark_inv _ _ _ _ G M) as (Hn & G1 & F1 & L1). destruct (insert_pk g pks h1 s (JScan false x c)) as [[[h2 s2] sub]|] eqn:Ei; [|discriminate]. cbn [rbind].
      destruct (insert_pk_inv pks h1 s (JScan false x c) h2 s2 sub G1 eq_refl Hpn Ei) as (new & Le & Nn & Hnew & F & G' & La & Ne & Fr & Nc). rewrite join_sub_ok by assumption. cbn [rbind]. destruct (trig _ _ x e) as [s3|]; [|discriminate]. cbn [rmap rbind]. intros [= <- <- <-].
      destruct (Fin h1 new h2 F1 Hnew Nn F) as (A1 & A2 & A3 & A4 & A5). exists y, x, e, b, c. do 5 (split; [assumption|]). cbn [leaves] in Le. split.
      { split; [exact G'|]. cbn [leaves]. rewrite Le. cbn [app]. split; [exact A1|]. split; [reflexivity|]. intros K. apply nc_join with (a := y) (b := x); auto; [|rewrite Le; now left]. apply Nc; [|constructor]. intros p Hp'. destruct (Hps K p Hp') as [-> Hl]. split; [now left|exact Hl]. }
      split; [eapply later_trans; eassumption|]. split; [exact Fx|]. split; [exact Hn|]. split; [exists new; cbn [leaves]; rewrite Le; auto|]. split; [exact A4|exact A5].
    - rewrite join_table_ok by exact Et. cbn [rbind]. destruct (mark h g x (Some e)) as [h1|] eqn:M; [|discriminate]. cbn [rbind]. destruct (mark_inv _ _ _ _ G M) as (Hn & G1 & F1 & L1). destruct (insert_pk g pks h1 _ _) as [[[h2 s2] t2]|] eqn:Ei; [|discriminate]. cbn [rbind].
      destruct (insert_pk_inv pks h1 _ (JJoin false t (JScan false x c) b) h2 s2 t2 G1 eq_refl Hpn Ei) as (new & Le & Nn & Hnew & F & G' & La & Ne & Fr & Nc). destruct (trig _ _ x e) as [s3|]; [|discriminate]. cbn [rmap rbind]. intros [= <- <- <-].
      destruct (Fin h1 new h2 F1 Hnew Nn F) as (A1 & A2 & A3 & A4 & A5). exists y, x, e, b, c. do 5 (split; [assumption|]). cbn [leaves] in Le. rewrite <- app_assoc in Le. cbn [app] in Le. split.
      { split; [exact G'|]. rewrite Le. split; [exact A1|]. split; [exact Ne|]. intros K. apply Nc; [|apply nc_join with (a := y) (b := x); auto; [constructor|now left]]. intros p Hp'. destruct (Hps K p Hp') as [-> Hl]. split; [cbn [leaves]; apply in_or_app; right; now left|exact Hl]. }
      split; [eapply later_trans; eassumption|]. split; [exact Fx|]. split; [exact Hn|]. split; [exists new; rewrite Le; auto|]. split; [exact A4|exact A5].
  Qed.

  Lemma inv2_initial nc h t : Inv2 nc h t -> leaves t <> [] -> initial h g = false.
  Proof.
    intros (_ & L & _) N. destruct (leaves t) as [|x r] eqn:E; [contradiction|]. destruct (proj1 (L x) (or_introl eq_refl)) as [H1 H2]. unfold initial. apply not_true_is_false. intros H. rewrite forallb_forall in H. specialize (H x H1). congruence.
  Qed.
  Lemma NoDup_more (l r : list T) : NoDup l -> NoDup r -> (forall x, In x r -> ~ In x l) -> NoDup (l ++ r).
  Proof. intros H Hr D. induction H as [|a l Ha Hl IH]; [exact Hr|]. cbn. constructor; [|apply IH; intros x Hx K; apply (D x Hx); now right]. rewrite in_app_iff. intros [K|K]; [contradiction|apply (D a K); now left]. Qed.
  Lemma all_covered nc h t : Inv2 nc h t -> has_free h g = false -> forall x, In x (leaves t) <-> In x ns.
  Proof. intros (_ & L & _) Hf x. rewrite L. split; [tauto|]. intros H. split; [exact H|]. apply not_true_is_false. intros K. assert (E : has_free h g = true) by (unfold has_free; apply existsb_exists; eauto). congruence. Qed.
  Lemma default_inv (nc : Prop) bf eager : (nc -> eager = false) -> forall fuel h s t t', Inv2 nc h t -> leaves t <> [] -> default_loop fuel bf eager g h s t = Ok t' ->
    (forall x, In x (leaves t') <-> In x ns) /\ (nc -> no_cross es t') /\ (NoDup (leaves t) -> NoDup (leaves t')).
  Proof.
    intros Hnc. induction fuel as [|fuel IH]; intros h s t t' I Hl; cbn [UO_model.default_loop]; [discriminate|]. destruct (has_nm h g).
    - destruct (update_bounds tab aord base est setb s h g _ None CInf) as [[[s1 best] bound]|]; [|discriminate]. cbn [rbind]. rewrite (proj1 (proj2 (proj2 I))). destruct (next_table bf eager g h s1 t) as [[[h2 s2] t2]|] eqn:N; [|discriminate]. cbn [rbind]. intros H.
      destruct (next_table_inv nc bf eager h s1 t h2 s2 t2 Hnc I (inv2_initial _ _ _ I Hl) N) as (y & x & e & b & c & _ & _ & _ & _ & _ & I' & _ & Fx & Hx & (new & Le & Nn & Hnew) & _). destruct (IH h2 s2 t2 t' I') as (A1 & A2 & A3); [rewrite Le; now destruct (leaves t)|exact H|].
      split; [exact A1|]. split; [exact A2|]. intros ND. apply A3. rewrite Le. apply NoDup_more; auto. intros z Hz K. apply (proj1 (proj2 I)) in K. destruct Hz as [<-|Hz]; [|apply Hnew in Hz]; destruct K; congruence.
    - destruct (has_free h g) eqn:Hf; [discriminate|]. intros [= <-]. split; [now apply (all_covered nc h)|]. split; [apply I|auto].
  Qed.
  Lemma default_start (nc : Prop) bf eager : (nc -> eager = false) -> forall fuel h s t', graph_ok h g -> (forall z, free_in h g z = true) -> has_nm h g = true -> default_loop fuel bf eager g h s (JEmpty true) = Ok t' ->
    (forall x, In x (leaves t') <-> In x ns) /\ (nc -> no_cross es t') /\ (one_way h -> NoDup (leaves t')).
  Proof.
    intros Hnc fuel h s t' G F Hn. destruct fuel as [|fuel]; cbn [UO_model.default_loop]; [discriminate|]. rewrite Hn. destruct (update_bounds tab aord base est setb s h g _ None CInf) as [[[s1 best] bound]|]; [|discriminate]. cbn [rbind jt_empty]. destruct (first_table bf g h s1 best bound) as [[[h2 s2] t2]|] eqn:N; [|discriminate]. cbn [rbind]. intros H.
    destruct (first_table_inv _ _ _ _ _ _ _ _ G F N) as (x & paths & _ & _ & I & _ & Le & _ & _ & ND). destruct (default_inv nc bf eager Hnc fuel h2 s2 t2 t' (inv_inv2 nc _ _ I)) as (A1 & A2 & A3); [rewrite Le; discriminate|exact H|]. split; [exact A1|]. split; [exact A2|auto].
  Qed.

  (** ** The first table *)
  Definition bound_of (s : S) (h : heap) (x : T) (c : card) : Prop :=
    let pk e := exists y, (In (x, y, e) es \/ In (y, x, e) es) /\ is_pk_fk_join tab h g x y = true in
    exists b, base x = Ok b /\ (c = b \/ exists e, pk e /\ est s h g e = Ok c) /\ less b c = false /\ forall e, pk e -> exists d, est s h g e = Ok d /\ less d c = false.
  Lemma min_nan l : min_from CNan l = CNan.
  Proof. unfold min_from. induction l as [|[| |x] l IH]; cbn in *; auto. Qed.
  Lemma min_from_spec l : forall b, (min_from b l = b \/ In (min_from b l) l) /\ less b (min_from b l) = false /\ forall d, In d l -> less d (min_from b l) = false.
  Proof.
    induction l as [|a l IH]; intros b; [split; [now left|split; [apply less_irrefl|intros d []]]|]. change (min_from b (a :: l)) with (min_from (if less a b then a else b) l). destruct (less a b) eqn:L.
    - destruct (IH a) as (A1 & A2 & A3). split; [destruct A1 as [A1|A1]; right; [left; now symmetry|now right]|]. split; [|intros d [<-|Hd]; auto]. apply not_true_is_false. intros K. rewrite (less_trans _ _ _ L K) in A2. discriminate.
    - destruct (IH b) as (A1 & A2 & A3). split; [destruct A1 as [A1|A1]; [now left|right; now right]|]. split; [exact A2|]. intros d [<-|Hd]; [|auto]. apply not_true_is_false. intros K. pose proof (min_nan l) as N. clear IH A1 A3.
      destruct b as [| |y]; [rewrite N in K; destruct a; discriminate| |]; [destruct (min_from CInf l) as [| |z]|destruct (min_from (CVal y) l) as [| |z]]; destruct a as [| |x]; cbn in *; try discriminate. apply Z.ltb_lt in K. apply Z.ltb_ge in A2, L. lia.
  Qed.
  Lemma rmapM_spec {A B} (f : A -> res B) l : forall r, rmapM f l = Ok r -> (forall a, In a l -> exists b, f a = Ok b /\ In b r) /\ (forall b, In b r -> exists a, In a l /\ f a = Ok b).
  Proof.
    induction l as [|a l IH]; intros r; cbn [rmapM]; [intros [= <-]; split; intros ? []|]. destruct (f a) as [b|] eqn:E; [|discriminate]. cbn [rbind]. destruct (rmapM f l) as [r'|]; [|discriminate]. cbn [rmap rbind]. intros [= <-]. destruct (IH r' eq_refl) as [I1 I2]. split.
    - intros x [<-|Hx]; [exists b; split; [exact E|now left]|]. destruct (I1 x Hx) as (y & Ey & Hy). exists y. split; [exact Ey|now right].
    - intros y [<-|Hy]; [exists a; split; [now left|exact E]|]. destruct (I2 y Hy) as (x & Hx & Ex). exists x. split; [now right|exact Ex].
  Qed.
  (** More joins keep the leftmost table. *)
  Lemma insert_pk_leftmost paths : forall h s t h' s' t', jt_empty t = false -> insert_pk g paths h s t = Ok (h', s', t') -> leftmost t' = leftmost t /\ jt_empty t' = false.
  Proof.
    induction paths as [|p r IH]; intros h s t h' s' t' Ht; cbn [UO_model.insert_pk]; [intros [= <- <- <-]; auto|]. destruct (is_free h g (snd (fst p))) as [fr|]; [|discriminate]. cbn [rbind]. destruct fr; [|now apply IH]. destruct (est s h g (snd p)) as [b|]; [|discriminate]. cbn [rbind]. destruct (base (snd (fst p))) as [c|]; [|discriminate]. cbn [rbind]. rewrite (join_table_ok _ _ _ _ Ht). cbn [rbind]. destruct (mark h g _ _) as [h1|]; [|discriminate]. cbn [rbind]. intros H. apply IH in H; [exact H|reflexivity].
  Qed.
  Lemma insert_pk_grows t0 paths : forall h s t h' s' t', grows t0 t -> jt_empty t = false -> insert_pk g paths h s t = Ok (h', s', t') -> grows t0 t'.
  Proof.
    induction paths as [|p r IH]; intros h s t h' s' t' Gt Ht; cbn [UO_model.insert_pk]; [intros [= <- <- <-]; auto|]. destruct (is_free h g (snd (fst p))) as [fr|]; [|discriminate]. cbn [rbind]. destruct fr; [|now apply IH]. destruct (est s h g (snd p)) as [b|]; [|discriminate]. cbn [rbind]. destruct (base (snd (fst p))) as [c|]; [|discriminate]. cbn [rbind]. rewrite (join_table_ok _ _ _ _ Ht). cbn [rbind]. destruct (mark h g _ _) as [h1|]; [|discriminate]. cbn [rbind]. intros H. apply IH in H; [exact H|now constructor|reflexivity].
  Qed.
  Lemma next_grows bf eager h s t h' s' t' : jt_empty t = false -> next_table bf eager g h s t = Ok (h', s', t') -> exists y x e b u c, In (y, x, e) (nm_paths tab h g false) /\ est s h g e = Ok b /\ (forall q, In q (nm_paths tab h g false) -> exists d, est s h g (snd q) = Ok d /\ less d b = false) /\
    base x = Ok c /\ grows (JScan false x c) u /\ grows (JJoin false t u b) t'.
  Proof.
    intros Ht. unfold UO_model.next_table. destruct (lowest est s h g (nm_paths tab h g false) None CInf) as [[o b]|] eqn:L; [|discriminate]. cbn [rbind fst snd]. destruct o as [p|]; [|discriminate]. apply lowest_spec in L as (Hmin & [[E _]|(_ & q & [= <-] & Hp & Eb)]); [discriminate|].
    destruct (pk_paths tab aord h g _) as [direct|] eqn:Ed; [|discriminate]. cbn [rbind]. destruct (any policy s h g direct) as [sub|]; [|discriminate]. cbn [rbind]. rewrite <- Ed. destruct (if eager then _ else _) as [pks|]; [|discriminate]. cbn [rbind]. destruct (base _) as [c|] eqn:Ec; [|discriminate]. cbn [rbind]. destruct p as [[y x] e]. cbn [fst snd] in *. intros H. exists y, x, e, b. revert H. destruct sub.
    - destruct (mark h g _ None) as [h1|]; [|discriminate]. cbn [rbind]. destruct (insert_pk g pks h1 s _) as [[[h2 s2] u]|] eqn:I; [|discriminate]. cbn [rbind]. destruct (insert_pk_leftmost _ _ _ (JScan false x c) _ _ _ eq_refl I) as [_ Hu]. rewrite (join_sub_ok t u b Ht Hu). cbn [rbind]. destruct (trig _ _ _ _) as [s3|]; [|discriminate]. cbn [rmap rbind]. intros [= <- <- <-]. exists u, c. repeat split; auto; [|constructor]. eapply insert_pk_grows; [constructor|reflexivity|exact I].
    - rewrite (join_table_ok _ _ _ _ Ht). cbn [rbind]. destruct (mark h g _ _) as [h1|]; [|discriminate]. cbn [rbind]. destruct (insert_pk g pks h1 _ _) as [[[h2 s2] u]|] eqn:I; [|discriminate]. cbn [rbind]. destruct (trig _ _ _ _) as [s3|]; [|discriminate]. cbn [rmap rbind]. intros [= <- <- <-]. exists (JScan false x c), c. repeat split; auto; [constructor|]. eapply insert_pk_grows; [constructor|reflexivity|exact I].
  Qed.
  Lemma initial_leftmost paths : forall h s t h' t', jt_empty t = false -> initial_joins g paths h s t = Ok (h', t') -> leftmost t' = leftmost t /\ jt_empty t' = false.
  Proof.
    induction paths as [|p r IH]; intros h s t h' t' Ht; cbn [UO_model.initial_joins]; [intros [= <- <-]; auto|]. destruct (base (snd (fst p))) as [c|]; [|discriminate]. cbn [rbind]. destruct (est s h g (snd p)) as [b|]; [|discriminate]. cbn [rbind]. destruct (mark h g _ _) as [h1|]; [|discriminate]. cbn [rbind]. rewrite (join_table_ok _ _ _ _ Ht). cbn [rbind]. intros H. apply IH in H; [exact H|reflexivity].
  Qed.
  Lemma next_leftmost bf eager h s t h' s' t' : jt_empty t = false -> next_table bf eager g h s t = Ok (h', s', t') -> leftmost t' = leftmost t /\ jt_empty t' = false.
  Proof.
    intros Ht. unfold UO_model.next_table. destruct (lowest est s h g (nm_paths tab h g false) None CInf) as [[o b]|]; [|discriminate]. cbn [rbind fst snd]. destruct o as [p|]; [|discriminate]. destruct (pk_paths tab aord h g _) as [direct|] eqn:Ed; [|discriminate]. cbn [rbind]. destruct (any policy s h g direct) as [sub|]; [|discriminate]. cbn [rbind]. rewrite <- Ed. destruct (if eager then _ else _) as [pks|]; [|discriminate]. cbn [rbind]. destruct (base _) as [c|]; [|discriminate]. cbn [rbind]. destruct sub.
    - destruct (mark h g _ None) as [h1|]; [|discriminate]. cbn [rbind]. destruct (insert_pk g pks h1 s _) as [[[h2 s2] u]|] eqn:I; [|discriminate]. cbn [rbind]. destruct (insert_pk_leftmost _ _ _ (JScan false (snd (fst p)) c) _ _ _ eq_refl I) as [_ Hu]. rewrite (join_sub_ok t u b Ht Hu). cbn [rbind]. destruct (trig _ _ _ _) as [s3|]; [|discriminate]. cbn [rmap rbind]. intros [= <- <- <-]. auto.
    - rewrite (join_table_ok _ _ _ _ Ht). cbn [rbind]. destruct (mark h g _ _) as [h1|]; [|discriminate]. cbn [rbind]. destruct (insert_pk g pks h1 _ _) as [[[h2 s2] u]|] eqn:I; [|discriminate]. cbn [rbind]. destruct (insert_pk_leftmost _ _ _ (JJoin false t (JScan false (snd (fst p)) c) b) _ _ _ eq_refl I) as [Hl Hu]. destruct (trig _ _ _ _) as [s3|]; [|discriminate]. cbn [rmap rbind]. intros [= <- <- <-]. auto.
  Qed.
  Lemma loop_leftmost bf eager : forall fuel h s t t', jt_empty t = false -> default_loop fuel bf eager g h s t = Ok t' -> leftmost t' = leftmost t.
  Proof.
    induction fuel as [|fuel IH]; intros h s t t' Ht; cbn [UO_model.default_loop]; [discriminate|]. destruct (has_nm h g); [|destruct (has_free h g); [discriminate|now intros [= <-]]]. destruct (update_bounds tab aord base est setb s h g _ None CInf) as [[[s1 best] bound]|]; [|discriminate]. cbn [rbind]. rewrite Ht. destruct (next_table bf eager g h s1 t) as [[[h2 s2] t2]|] eqn:N; [|discriminate]. cbn [rbind]. intros H. destruct (next_leftmost _ _ _ _ _ _ _ _ Ht N) as [L E]. apply IH in H; congruence.
  Qed.
  Section First.
  Context (h : heap) (Hstable : forall s x c y z e, (In (y, z, e) es \/ In (z, y, e) es) -> is_pk_fk_join tab h g y z = true -> est (setb s x c) h g e = est s h g e).
  Lemma bound_stable s x c y d : bound_of (setb s x c) h y d <-> bound_of s h y d.
  Proof.
    unfold bound_of. assert (E : forall e, (exists z, (In (y, z, e) es \/ In (z, y, e) es) /\ is_pk_fk_join tab h g y z = true) -> est (setb s x c) h g e = est s h g e) by (intros e (z & H1 & H2); eapply Hstable; eassumption).
    split; intros (b & Eb & H1 & H2 & H3); exists b; (split; [exact Eb|]); (split; [destruct H1 as [H1|(e & P & H1)]; [now left|right; exists e; split; [exact P|]; pose proof (E e P); congruence]|]); (split; [exact H2|]); intros e P; destruct (H3 e P) as (d' & Ed & Hd); exists d'; (split; [pose proof (E e P); congruence|exact Hd]).
  Qed.
  Lemma update_bounds_spec : (forall z, free_in h g z = true) -> forall paths s best bound s' best' bound', update_bounds tab aord base est setb s h g paths best bound = Ok (s', best', bound') ->
    (forall p, In p paths -> exists c, bound_of s h (snd (fst p)) c /\ less c bound' = false) /\
    ((best' = best /\ bound' = bound) \/ (less bound' bound = true /\ exists p, In p paths /\ best' = Some (snd (fst p)) /\ bound_of s h (snd (fst p)) bound')).
  Proof.
    intros F. induction paths as [|p r IH]; intros s best bound s' best' bound'; cbn [update_bounds]; [intros [= <- <- <-]; split; [intros p []|now left]|]. destruct (base (snd (fst p))) as [b0|] eqn:Eb; [|discriminate]. cbn [rbind]. destruct (pk_paths tab aord h g (snd (fst p))) as [pks|] eqn:Ep; [|discriminate]. cbn [rbind]. destruct (rmapM _ pks) as [l|] eqn:El; [|discriminate]. cbn [rbind].
    destruct (pk_paths_inv h _ _ Ep) as [_ Hp]. destruct (rmapM_spec _ _ _ El) as [L1 L2]. set (c := min_from b0 l) in *. destruct (min_from_spec l b0) as (M1 & M2 & M3). fold c in M1, M2, M3.
    assert (B : bound_of s h (snd (fst p)) c).
    { exists b0. split; [exact Eb|]. split; [|split; [exact M2|]].
      - destruct M1 as [->|M1]; [now left|right]. destruct (L2 c M1) as (q & Hq & Eq). apply Hp in Hq as (y & e & -> & Hy & Hk & _). exists e. split; [exists y; split; [apply adjl_edge in Hy; exact Hy|exact Hk]|exact Eq].
      - intros e (y & He & Hk). assert (Hq : In (snd (fst p), y, e) pks). { apply Hp. exists y, e. split; [reflexivity|]. split; [|split; [exact Hk|left; apply F]]. apply adjl_In. destruct He as [He|He]; [now left|right; split; [exact He|now apply Hself in He]]. } destruct (L1 _ Hq) as (d & Ed & Hd). exists d. split; [exact Ed|auto]. }
    destruct (less c bound) eqn:Lc; intros H; destruct (IH _ _ _ _ _ _ H) as [I1 I2]; clear IH H.
    - split.
      + intros q [<-|Hq]; [|destruct (I1 q Hq) as (d & Bd & Hd); exists d; split; [exact (proj1 (bound_stable _ _ _ _ _) Bd)|exact Hd]]. exists c. split; [exact B|]. destruct I2 as [[_ ->]|(K & _)]; [apply less_irrefl|now apply less_asym].
      + right. destruct I2 as [[-> ->]|(K & q & Hq & -> & Bq)]; [split; [exact Lc|exists p; split; [now left|auto]]|]. split; [eapply less_trans; eassumption|]. exists q. split; [now right|]. split; [reflexivity|]. exact (proj1 (bound_stable _ _ _ _ _) Bq).
    - split.
      + intros q [<-|Hq]; [|destruct (I1 q Hq) as (d & Bd & Hd); exists d; split; [exact (proj1 (bound_stable _ _ _ _ _) Bd)|exact Hd]]. exists c. split; [exact B|]. destruct I2 as [[_ ->]|(K & _)]; [exact Lc|]. apply not_true_is_false. intros K'. rewrite (less_trans _ _ _ K' K) in Lc. discriminate.
      + destruct I2 as [I2|(K & q & Hq & -> & Bq)]; [now left|right]. split; [exact K|]. exists q. split; [now right|]. split; [reflexivity|]. exact (proj1 (bound_stable _ _ _ _ _) Bq).
  Qed.
  Lemma default_first bf eager fuel s t' : (forall z, free_in h g z = true) -> has_nm h g = true -> default_loop fuel bf eager g h s (JEmpty true) = Ok t' ->
    exists x c, leftmost t' = Some (x, c) /\ bound_of s h x c /\ (exists p, In p (nm_paths tab h g true) /\ x = snd (fst p)) /\ forall p, In p (nm_paths tab h g true) -> exists d, bound_of s h (snd (fst p)) d /\ less d c = false.
  Proof.
    intros F Hn. destruct fuel as [|fuel]; cbn [UO_model.default_loop]; [discriminate|]. rewrite Hn. destruct (update_bounds tab aord base est setb s h g _ None CInf) as [[[s1 best] bound]|] eqn:U; [|discriminate]. cbn [rbind jt_empty]. destruct (first_table bf g h s1 best bound) as [[[h2 s2] t2]|] eqn:N; [|discriminate]. cbn [rbind]. intros H.
    apply update_bounds_spec in U; [|exact F]. destruct U as [U1 U2]. unfold UO_model.first_table in N. destruct best as [x|]; [|discriminate]. destruct U2 as [[E _]|(_ & p & Hp & [= ->] & Bp)]; [discriminate|]. destruct (mark h g _ None) as [h1|]; [|discriminate]. cbn [rbind] in N. destruct (deep_paths tab aord bf h1 g _) as [paths|]; [|discriminate]. cbn [rbind] in N. destruct (initial_joins g paths h1 _ _) as [[h3 t3]|] eqn:J; [|discriminate]. cbn [rmap rbind] in N. injection N as <- <- <-.
    destruct (initial_leftmost _ _ _ (JScan true (snd (fst p)) bound) _ _ eq_refl J) as [L E]. apply loop_leftmost in H; [|exact E]. cbn [leftmost] in L. exists (snd (fst p)), bound. split; [congruence|]. split; [exact Bp|]. split; [exists p; auto|exact U1].
  Qed.

  End First.

  (** ** Success *)
  Context (Horder : forall l, Permutation (order l) l).
  Context (Hwf : wf_joins tab ns es) (Hns : NoDup ns).
  Context (Hcols : forall a b p c, In (a, b, p) es -> In c p -> dget (g_index g) (fst c) <> None /\ dget (g_index g) (snd c) <> None).
  Context (Hbet : finds_joins es between).
  Context (Hbase : forall x, In x ns -> exists z, base x = Ok (CVal z)).
  Context (good : S -> Prop) (bounded : S -> T -> Prop).
  Definition edge_of (x y : T) (e : jpred) : Prop := In (x, y, e) es \/ In (y, x, e) es.
  Context (Hest : forall s h x y e, good s -> graph_ok h g -> edge_of x y e -> exists z, est s h g e = Ok (CVal z)).
  Context (Hsetb : forall s x z, good s -> good (setb s x (CVal z)) /\ bounded (setb s x (CVal z)) x /\ forall y, bounded s y -> bounded (setb s x (CVal z)) y).
  Context (Hsetj : forall s t z, good s -> good (setj s t (CVal z))).
  Context (Hpolicy : forall s h x y e, good s -> bounded s x -> graph_ok h g -> edge_of x y e -> is_pk_fk_join tab h g x y = true -> exists b, policy s h g e = Ok b).
  Context (Htrig : forall s t x y e, good s -> In y (leaves t) -> In x (leaves t) -> edge_of y x e -> exists s', trig s t x e = Ok s' /\ good s').
  Notation can h c := (can_pk_fk_join (info h g (Some (fst c))) (info h g (Some (snd c)))).

  Lemma can_spec i j : can_pk_fk_join i j = true <-> is_indexed i = true /\ is_indexed j = true /\ (is_primary i = true \/ is_primary j = true).
  Proof. unfold can_pk_fk_join, is_indexed, is_primary, is_secondary. destruct i as [[] []], j as [[] []]; cbn; intuition discriminate. Qed.
  Lemma col_of_edge a b p c : In (a, b, p) es -> In c p -> a <> b /\ ((col_of tab c a = Some (fst c) /\ col_of tab c b = Some (snd c)) \/ (col_of tab c a = Some (snd c) /\ col_of tab c b = Some (fst c))).
  Proof.
    intros H Hc. destruct (proj1 Hwf a b p H) as (_ & _ & N & _ & K). split; [exact N|]. assert (E1 : deqb a b = false) by (apply not_true_is_false; intros E; apply deqb_true in E; contradiction). assert (E2 : deqb b a = false) by (apply not_true_is_false; intros E; apply deqb_true in E; now apply N).
    unfold col_of. destruct (K c Hc) as [[-> ->]|[-> ->]]; rewrite !deqb_refl, ?E1, ?E2; auto.
  Qed.
  Lemma edge_unique a b p a' b' p' : In (a, b, p) es -> In (a', b', p') es -> (a = a' /\ b = b') \/ (a = b' /\ b = a') -> p = p' /\ a = a' /\ b = b'.
  Proof.
    destruct Hwf as (_ & N & R). intros H H' [[-> ->]|[-> ->]].
    - split; [|auto]. assert (E : (a', b', p) = (a', b', p')) by (apply (NoDup_map_eq fst es); auto). now injection E.
    - exfalso. apply (R b' a'); [apply in_map_iff; now exists (b', a', p)|apply in_map_iff; now exists (a', b', p')].
  Qed.
  Lemma edge_between_spec a b p : edge_of a b p -> edge_between g a b = Some p.
  Proof.
    intros H. unfold edge_between. destruct (find (connects a b) es) as [[[a' b'] p']|] eqn:E.
    - apply find_some in E as [E1 E2]. cbn. unfold connects in E2. cbn [fst snd] in E2. apply orb_true_iff in E2. f_equal. destruct H as [H|H], E2 as [E2|E2]; apply andb_prop in E2 as [A B]; apply deqb_true in A; apply deqb_true in B; subst; symmetry; eapply edge_unique; eauto.
    - exfalso. destruct H as [H|H]; apply (find_none _ _ E) in H; unfold connects in H; cbn [fst snd] in H; rewrite !deqb_refl in H; cbn in H; [|rewrite orb_true_r in H]; discriminate.
  Qed.
  Lemma edge_of_sym a b p : edge_of a b p -> edge_of b a p. Proof. unfold edge_of. tauto. Qed.
  Lemma pkfk_spec h a b p : edge_of a b p -> (is_pk_fk_join tab h g a b = true <-> exists c, In c p /\ is_indexed (info h g (col_of tab c a)) = true /\ is_primary (info h g (col_of tab c b)) = true).
  Proof. intros H. unfold is_pk_fk_join. rewrite (edge_between_spec _ _ _ H), existsb_exists. split; intros (c & Hc & K); exists c; split; auto; [apply andb_prop in K; tauto|apply andb_true_intro; tauto]. Qed.
  Lemma primary_indexed i : is_primary i = true -> is_indexed i = true. Proof. unfold is_indexed. now intros ->. Qed.
  Lemma can_iff h a b p c : edge_of a b p -> In c p -> (can h c = true <-> is_indexed (info h g (col_of tab c a)) = true /\ is_indexed (info h g (col_of tab c b)) = true /\ (is_primary (info h g (col_of tab c a)) = true \/ is_primary (info h g (col_of tab c b)) = true)).
  Proof.
    intros H Hc. rewrite can_spec. assert (K : (col_of tab c a = Some (fst c) /\ col_of tab c b = Some (snd c)) \/ (col_of tab c a = Some (snd c) /\ col_of tab c b = Some (fst c))) by (destruct H as [H|H]; apply (col_of_edge _ _ _ c H) in Hc; tauto). destruct K as [[-> ->]|[-> ->]]; tauto.
  Qed.
  (** An edge without predicates between a foreign key and a primary key. *)
  Definition open_nm (h : heap) (p : jpred) : Prop := forall c, In c p -> can h c = false.
  Lemma open_pkfk h a b p : edge_of a b p -> open_nm h p -> is_pk_fk_join tab h g a b = false.
  Proof.
    intros H O. apply not_true_is_false. intros K. apply (pkfk_spec h a b p H) in K as (c & Hc & A & B). specialize (O c Hc). assert (E : can h c = true) by (apply (can_iff h a b p c H Hc); split; [exact A|split; [now apply primary_indexed|auto]]). congruence.
  Qed.
  Lemma later_can h h' c : later h h' -> can h' c = true -> can h c = true.
  Proof. intros L. rewrite !can_spec. intros (A & B & D). split; [now apply (later_indexed h h')|]. split; [now apply (later_indexed h h')|]. destruct D as [D|D]; [left|right]; now apply (later_primary h h'). Qed.
  Lemma later_open h h' p : later h h' -> open_nm h p -> open_nm h' p.
  Proof. intros L O c Hc. apply not_true_is_false. intros K. apply (later_can h h' c L) in K. rewrite (O c Hc) in K. discriminate. Qed.
  Definition dead (h : heap) (x : T) : Prop := forall c, tab c = x -> is_indexed (info h g (Some c)) = false.
  Lemma later_dead h h' x : later h h' -> dead h x -> dead h' x.
  Proof. intros L D c Hc. apply not_true_is_false. intros K. apply (later_indexed h h' _ L) in K. rewrite (D c Hc) in K. discriminate. Qed.
  Lemma col_tab c a k : col_of tab c a = Some k -> tab k = a.
  Proof. unfold col_of. destruct (deqb (tab (fst c)) a) eqn:E; [apply deqb_true in E; now intros [= <-]|]. destruct (deqb (tab (snd c)) a) eqn:E'; [apply deqb_true in E'; now intros [= <-]|discriminate]. Qed.
  Lemma dead_info h x c : dead h x -> is_indexed (info h g (col_of tab c x)) = false.
  Proof. intros D. destruct (col_of tab c x) as [k|] eqn:E; [|reflexivity]. apply D. now apply col_tab in E. Qed.
  Lemma dead_open h a b p : edge_of a b p -> dead h a -> open_nm h p.
  Proof. intros H D c Hc. apply not_true_is_false. intros K. apply (can_iff h a b p c H Hc) in K as (K & _). rewrite dead_info in K by exact D. discriminate. Qed.
  Lemma dead_pkfk h a b : dead h b -> is_pk_fk_join tab h g a b = false.
  Proof. intros D. unfold is_pk_fk_join. destruct (edge_between g a b) as [p|]; [|reflexivity]. apply not_true_is_false. intros K. apply existsb_exists in K as (c & Hc & K). apply andb_prop in K as [_ K]. apply primary_indexed in K. rewrite dead_info in K by exact D. discriminate. Qed.

  (** *** Marking a table *)
  Definition ok_cols (e : jpred) : Prop := forall c, In c e -> dget (g_index g) (fst c) <> None /\ dget (g_index g) (snd c) <> None.
  Lemma edge_cols a b e : edge_of a b e -> ok_cols e.
  Proof. intros [H|H] c Hc; eapply Hcols; eauto. Qed.
  Lemma pairs_ok cur pk fk : forall ps h, ok_cols ps -> snd (invalidate_pairs tab h g cur pk fk ps) = None.
  Proof.
    induction ps as [|[c1 c2] ps IH]; intros h Hk; [reflexivity|]. cbn [invalidate_pairs]. destruct (Hk _ (or_introl eq_refl)) as [A1 A2]. cbn in A1, A2. destruct (dget (g_index g) c1) as [a1|] eqn:E1; [|contradiction]. destruct (dget (g_index g) c2) as [a2|] eqn:E2; [|contradiction].
    unfold invalidate. destruct (deqb (tab c1) cur), pk, fk; rewrite ?E1, ?E2; apply IH; intros x Hx; apply Hk; now right.
  Qed.
  Lemma partners_ok e : ok_cols e -> forall ps cur h, snd (partners_loop tab h g cur e ps) = None.
  Proof.
    intros Hk. induction ps as [|p ps IH]; intros cur h; [reflexivity|]. cbn [partners_loop]. destruct (is_pk_fk_join tab h g cur p && is_pk_fk_join tab h g p cur); [apply IH|].
    pose proof (pairs_ok cur (is_pk_fk_join tab h g cur p) (is_pk_fk_join tab h g p cur) e h Hk) as Hp. destruct (invalidate_pairs tab h g cur _ _ e) as [h0 [ex|]]; [discriminate|]. destruct (is_pk_fk_join tab h g cur p); apply IH.
  Qed.
  Lemma between_cols t l e : between t l = Some e -> ok_cols e.
  Proof. intros H. pose proof (Hbet t l) as K. rewrite H in K. destruct K as [_ K]. intros c Hc. destruct (K c Hc) as (u & p & _ & Hp & Hcp). destruct Hp as [Hp|Hp]; eapply Hcols; eauto. Qed.
  Lemma mark_ok h x e : In x ns -> (forall e', e = Some e' -> ok_cols e') -> exists h', mark h g x e = Ok h'.
  Proof.
    intros Hx He. unfold UO_model.mark, mark_joined. destruct (dget (g_nodes g) x) as [a|] eqn:Ea; [|exfalso; now apply (proj1 (dget_None _ _) Ea)]. cbn zeta. destruct (length _ =? 1); [eauto|].
    destruct (match e with Some e0 => Some e0 | None => between x (joined_tables (set_free h a false) g) end) as [e0|] eqn:Ee; [|eauto].
    assert (Hk : ok_cols e0) by (destruct e as [e1|]; [injection Ee as <-; now apply He|now apply between_cols in Ee]). pose proof (partners_ok e0 Hk (order (partner_tables tab e0 x)) x (set_free h a false)) as P. destruct (partners_loop tab _ g x e0 _) as [h' [ex|]]; [discriminate|eauto].
  Qed.

  Lemma ix_later h h' : ixstep g h h' -> later h h'.
  Proof. intros (_ & _ & H) [c|]; cbn [info]; [|split; auto]. destruct (dget (g_index g) c) as [y|]; [|split; auto]. destruct (H y) as (K1 & K2 & _). auto. Qed.
  Lemma ix_ok h h' : ixstep g h h' -> graph_ok h g -> graph_ok h' g.
  Proof. intros (A & B & _) (W1 & W2 & N1 & N2 & L1 & L2). repeat split; auto; intros a Ha; [rewrite A; auto|rewrite B; auto]. Qed.
  Lemma ix_free h h' z : ixstep g h h' -> free_in h' g z = free_in h g z.
  Proof. intros (A & _). unfold free_in, is_free, free_at. destruct (dget (g_nodes g) z); [now rewrite A|reflexivity]. Qed.
  Lemma free_set h x a z : graph_ok h g -> dget (g_nodes g) x = Some a -> free_in (set_free h a false) g z = if deqb z x then false else free_in h g z.
  Proof.
    intros (W1 & W2 & N1 & N2 & L1 & L2) Ea. unfold free_in, is_free. destruct (deqb z x) eqn:Et.
    - apply deqb_true in Et. subst z. rewrite Ea. unfold free_at. cbn. rewrite update_nth, Nat.eqb_refl. now rewrite (proj2 (Nat.ltb_lt _ _) (L1 a (In_dvalues _ _ _ Ea))).
    - apply deqb_false in Et. destruct (dget (g_nodes g) z) as [b|] eqn:Eb; [|reflexivity]. unfold free_at. cbn. rewrite update_nth. destruct (Nat.eqb_spec b a) as [->|]; [|reflexivity]. exfalso. apply Et. destruct (dget_nth _ _ _ Ea) as (n & A1 & A2), (dget_nth _ _ _ Eb) as (m & B1 & B2).
      assert (n = m) by (apply (NoDup_nth_error (dvalues (g_nodes g))); [exact N1|apply nth_error_Some; congruence|congruence]). subst. congruence.
  Qed.
  Lemma set_ok h a b : graph_ok h g -> graph_ok (set_free h a b) g.
  Proof. intros (W1 & W2 & N1 & N2 & L1 & L2). repeat split; auto; intros k Hk; cbn; rewrite update_length; auto. Qed.
  Lemma invalidate_on_dead h t : graph_ok h g -> dead (invalidate_on tab h g t) t.
  Proof.
    intros G c Hc. cbn [info]. destruct (dget (g_index g) c) as [a|] eqn:Ea; [|reflexivity]. assert (K : ix_invalid (index_at (invalidate_on tab h g t) a) = true); [|unfold is_indexed, is_primary, is_secondary; now rewrite K].
    unfold invalidate_on. apply dget_In in Ea. assert (Gen : forall l h, (forall b, In b (map snd l) -> b < length (h_index h)) -> In (c, a) l \/ ix_invalid (index_at h a) = true -> ix_invalid (index_at (fold_left (fun h e => if deqb (tab (fst e)) t then set_invalid h (snd e) else h) l h) a) = true).
    { clear -Hc. induction l as [|e l IH]; intros h L H; [destruct H as [[]|H]; exact H|]. cbn [fold_left]. assert (E : forall h' b, length (h_index (set_invalid h' b)) = length (h_index h')) by (intros h' b; cbn; apply update_length). apply IH.
      - intros b Hb. assert (Hb' : b < length (h_index h)) by (apply L; now right). destruct (deqb (tab (fst e)) t); [rewrite E|]; exact Hb'.
      - destruct H as [[->|H]|H]; [|now left|].
        + cbn [fst snd]. rewrite Hc, deqb_refl. right. unfold index_at, set_invalid. cbn. rewrite update_nth, Nat.eqb_refl. assert (Ha : a < length (h_index h)) by (apply L; now left). now rewrite (proj2 (Nat.ltb_lt _ _) Ha).
        + right. destruct (deqb (tab (fst e)) t); [|exact H]. unfold index_at, set_invalid in *. cbn. rewrite update_nth. destruct (Nat.eqb a (snd e)); [|exact H]. destruct (snd e <? length (h_index h)); [reflexivity|exact H]. }
    apply Gen; [|now left]. intros b Hb. apply (proj2 (proj2 (proj2 (proj2 (proj2 G))))). exact Hb.
  Qed.
  Lemma fold_on_step p : forall l h, ixstep g h (fold_left (fun h t => if free_in h g t || deqb t p then h else invalidate_on tab h g t) l h).
  Proof. induction l as [|t l IH]; intros h; [apply ixstep_refl|]. cbn. eapply ixstep_trans; [|apply IH]. destruct (free_in h g t || deqb t p); [apply ixstep_refl|apply invalidate_on_step]. Qed.
  Lemma fold_on_dead p x : x <> p -> forall l h, graph_ok h g -> free_in h g x = false -> In x l \/ dead h x -> dead (fold_left (fun h t => if free_in h g t || deqb t p then h else invalidate_on tab h g t) l h) x.
  Proof.
    intros N. induction l as [|t l IH]; intros h G F H; [destruct H as [[]|H]; exact H|]. cbn [fold_left].
    assert (St : ixstep g h (if free_in h g t || deqb t p then h else invalidate_on tab h g t)) by (destruct (free_in h g t || deqb t p); [apply ixstep_refl|apply invalidate_on_step]). apply IH.
    - eapply ix_ok; eassumption.
    - now rewrite (ix_free _ _ x St).
    - destruct H as [[->|H]|H]; [|now left|right; eapply later_dead; [apply ix_later; exact St|exact H]]. right. rewrite F. assert (E : deqb x p = false) by (apply not_true_is_false; intros K; apply deqb_true in K; contradiction). rewrite E. cbn. now apply invalidate_on_dead.
  Qed.
  Lemma partners_dead e x p ps h h' : graph_ok h g -> In x ns -> free_in h g x = false -> x <> p -> is_pk_fk_join tab h g x p = false -> partners_loop tab h g x e (p :: ps) = (h', None) -> dead h' x.
  Proof.
    intros G Hx F N P. cbn [partners_loop]. rewrite P. cbn [andb]. pose proof (invalidate_pairs_step tab g x false (is_pk_fk_join tab h g p x) e h) as S1. destruct (invalidate_pairs tab h g x false _ e) as [h0 [ex|]]; [discriminate|]. cbn [fst] in S1. cbn zeta.
    pose proof (partners_loop_step tab g e ps (last ns x) (fold_left (fun h t => if free_in h g t || deqb t p then h else invalidate_on tab h g t) ns h0)) as S2. intros H. rewrite H in S2. cbn [fst] in S2. eapply later_dead; [apply ix_later; exact S2|]. apply fold_on_dead; auto; [eapply ix_ok; eassumption|]. now rewrite (ix_free _ _ x S1).
  Qed.
  Lemma mark_dead h x eo h' : graph_ok h g -> (exists y, In y ns /\ y <> x /\ free_in h g y = false) -> mark h g x eo = Ok h' ->
    (forall k, (forall z, In z k <-> In z ns /\ (z = x \/ free_in h g z = false)) -> exists e, match eo with Some e => Some e | None => between x k end = Some e /\ partner_tables tab e x <> [] /\ (forall p, In p (partner_tables tab e x) -> p <> x /\ is_pk_fk_join tab h g x p = false)) -> dead h' x.
  Proof.
    intros G (y & Hy & Nyx & Fy) M He. destruct (mark_inv _ _ _ _ G M) as (Hx & _). revert M. unfold UO_model.mark, mark_joined. destruct (dget (g_nodes g) x) as [a|] eqn:Ea; [|discriminate]. cbn zeta. set (h0 := set_free h a false).
    assert (F0 : forall z, free_in h0 g z = if deqb z x then false else free_in h g z) by (intros z; now apply free_set). assert (J : forall z, In z (joined_tables h0 g) <-> In z ns /\ (z = x \/ free_in h g z = false)).
    { intros z. unfold joined_tables. rewrite filter_In, F0. destruct (deqb z x) eqn:E; [apply deqb_true in E; subst; tauto|]. apply deqb_false in E. rewrite negb_true_iff. tauto. }
    destruct (length (joined_tables h0 g) =? 1) eqn:L.
    - exfalso. apply Nat.eqb_eq in L. assert (A : In x (joined_tables h0 g)) by (apply J; auto). assert (B : In y (joined_tables h0 g)) by (apply J; auto). destruct (joined_tables h0 g) as [|u [|]]; try discriminate. destruct A as [A|[]], B as [B|[]]. congruence.
    - destruct (He _ J) as (e & -> & Ne & Hp). pose proof (Horder (partner_tables tab e x)) as Pm. destruct (order (partner_tables tab e x)) as [|p ps] eqn:Eo; [apply Permutation_nil in Pm; contradiction|]. destruct (Hp p) as [N P]; [apply (Permutation_in p Pm); now left|].
      destruct (partners_loop tab h0 g x e (p :: ps)) as [h1 [ex|]] eqn:Pl; [discriminate|]. intros [= <-]. apply (partners_dead e x p ps h0); auto; [now apply set_ok|rewrite F0; now rewrite deqb_refl].
  Qed.
  Definition weak (h : heap) (z : T) : Prop := forall y, is_pk_fk_join tab h g y z = false.
  Lemma dead_weak h z : dead h z -> weak h z. Proof. intros D y. now apply dead_pkfk. Qed.
  Lemma later_weak h h' z : later h h' -> weak h z -> weak h' z.
  Proof. intros L W y. apply not_true_is_false. intros K. apply (later_pkfk h h' _ _ L) in K. rewrite W in K. discriminate. Qed.
  Definition all_weak (h : heap) : Prop := forall z, In z ns -> free_in h g z = false -> weak h z.
  Definition all_nm (X : T -> Prop) (h : heap) : Prop := forall a b p, edge_of a b p -> ~ X a -> free_in h g a = false -> free_in h g b = true -> open_nm h p.
  Lemma edge_ns a b e : edge_of a b e -> In a ns /\ In b ns /\ a <> b /\ e <> [].
  Proof. intros [H|H]; destruct (proj1 Hwf _ _ _ H) as (A & B & N & P & _); auto. Qed.
  Lemma partner_edge x y e : edge_of y x e -> partner_tables tab e x <> [] /\ forall p, In p (partner_tables tab e x) -> p = y.
  Proof.
    intros H. destruct (edge_ns _ _ _ H) as (_ & _ & N & Ne). assert (K : forall c, In c e -> (tab (fst c) = x /\ tab (snd c) = y) \/ (tab (fst c) = y /\ tab (snd c) = x)) by (destruct H as [H|H]; intros c Hc; apply (proj2 (proj2 (proj2 (proj2 (proj1 Hwf _ _ _ H))))) in Hc; tauto).
    assert (M : forall p, In p (partner_tables tab e x) <-> exists c, In c e /\ In p ((if deqb (tab (fst c)) x then [tab (snd c)] else []) ++ (if deqb (tab (snd c)) x then [tab (fst c)] else []))) by (intros p; unfold partner_tables; rewrite dedup_In, in_flat_map; reflexivity). split.
    - destruct e as [|c e]; [contradiction|]. intros E. assert (In y (partner_tables tab (c :: e) x)); [|rewrite E in *; contradiction]. apply M. exists c. split; [now left|]. destruct (K c (or_introl eq_refl)) as [[-> ->]|[-> ->]]; rewrite deqb_refl; [now left|]. apply in_or_app. right. now left.
    - intros p Hp. apply M in Hp as (c & Hc & Hp). assert (E : deqb y x = false) by (apply not_true_is_false; intros E; apply deqb_true in E; contradiction). destruct (K c Hc) as [[E1 E2]|[E1 E2]]; rewrite E1, E2, E, deqb_refl in Hp; destruct Hp as [Hp|[]]; auto.
  Qed.
  Lemma mark_edge h x y e : graph_ok h g -> edge_of y x e -> free_in h g y = false -> is_pk_fk_join tab h g x y = false -> exists h', mark h g x (Some e) = Ok h' /\ dead h' x.
  Proof.
    intros G H F P. destruct (edge_ns _ _ _ H) as (Hy & Hx & N & _). destruct (mark_ok h x (Some e) Hx) as [h' M]; [intros e' [= <-]; now apply edge_cols in H|]. exists h'. split; [exact M|]. apply (mark_dead h x (Some e) h' G); [exists y; auto|exact M|]. intros k _. exists e. split; [reflexivity|]. destruct (partner_edge x y e H) as [A B]. split; [exact A|]. intros p Hp. apply B in Hp. subst p. auto.
  Qed.
  Lemma mark_sub h x y e : graph_ok h g -> edge_of y x e -> free_in h g y = false -> free_in h g x = true -> all_nm (fun _ => False) h -> exists h', mark h g x None = Ok h' /\ dead h' x.
  Proof.
    intros G H F Fx A. destruct (edge_ns _ _ _ H) as (Hy & Hx & N & _). destruct (mark_ok h x None Hx) as [h' M]; [discriminate|]. exists h'. split; [exact M|]. apply (mark_dead h x None h' G); [exists y; auto|exact M|]. intros k Hk. pose proof (Hbet x k) as B. destruct (between x k) as [e1|]; [|exfalso; apply (B y); [apply Hk; auto|exists e; unfold edge_of in H; tauto]].
    exists e1. split; [reflexivity|]. destruct B as [Ne B]. assert (Bc : forall c, In c e1 -> exists u p, edge_of u x p /\ free_in h g u = false /\ In c p).
    { intros c Hc. destruct (B c Hc) as (u & p & Hu & He & Hcp). exists u, p. assert (He' : edge_of u x p) by (unfold edge_of; tauto). split; [exact He'|]. split; [|exact Hcp]. apply Hk in Hu as [_ [Hu|Hu]]; [|exact Hu]. exfalso. apply edge_ns in He'. tauto. }
    assert (Pt : forall c u p, edge_of u x p -> In c p -> (tab (fst c) = x /\ tab (snd c) = u) \/ (tab (fst c) = u /\ tab (snd c) = x)) by (intros c u p He Hc; destruct He as [He|He]; apply (proj2 (proj2 (proj2 (proj2 (proj1 Hwf _ _ _ He))))) in Hc; tauto).
    assert (Mm : forall p, In p (partner_tables tab e1 x) <-> exists c, In c e1 /\ In p ((if deqb (tab (fst c)) x then [tab (snd c)] else []) ++ (if deqb (tab (snd c)) x then [tab (fst c)] else []))) by (intros p; unfold partner_tables; rewrite dedup_In, in_flat_map; reflexivity).
    split.
    - destruct e1 as [|c r]; [contradiction|]. destruct (Bc c (or_introl eq_refl)) as (u & p & He & _ & Hc). intros E. assert (K : In u (partner_tables tab (c :: r) x)); [|rewrite E in K; contradiction]. apply Mm. exists c. split; [now left|]. destruct (Pt c u p He Hc) as [[-> ->]|[-> ->]]; rewrite deqb_refl; [now left|]. apply in_or_app. right. now left.
    - intros p Hp. apply Mm in Hp as (c & Hc & Hp). destruct (Bc c Hc) as (u & q & He & Fu & Hcq). assert (Nu : u <> x) by (apply edge_ns in He; tauto). assert (E : deqb u x = false) by (apply not_true_is_false; intros E; apply deqb_true in E; contradiction).
      assert (p = u) by (destruct (Pt c u q He Hcq) as [[E1 E2]|[E1 E2]]; rewrite E1, E2, E, deqb_refl in Hp; destruct Hp as [Hp|[]]; auto). subst p. split; [exact Nu|]. apply (open_pkfk h x u q); [now apply edge_of_sym|]. now apply (A u x q).
  Qed.
  Lemma dead_step X h x eo h' : graph_ok h g -> mark h g x eo = Ok h' -> dead h' x -> all_nm X h -> all_weak h -> all_nm X h' /\ all_weak h'.
  Proof.
    intros G M D A W. destruct (mark_inv _ _ _ _ G M) as (Hx & G' & F & L). split.
    - intros a b p He Xa Fa Fb. rewrite F in Fa, Fb. destruct (deqb b x); [discriminate|]. destruct (deqb a x) eqn:E; [apply deqb_true in E; subst a; now apply (dead_open h' x b)|]. eapply later_open; [exact L|]. eapply A; eassumption.
    - intros z Hz Fz. rewrite F in Fz. destruct (deqb z x) eqn:E; [apply deqb_true in E; subst z; now apply dead_weak|]. eapply later_weak; [exact L|]. now apply W.
  Qed.

  (** *** The steps of the optimizer *)
  Lemma min_val l : forall z, (forall c, In c l -> exists y, c = CVal y) -> exists y, min_from (CVal z) l = CVal y.
  Proof.
    unfold min_from. induction l as [|c l IH]; intros z H; [exists z; reflexivity|]. cbn [fold_left]. destruct (H c (or_introl eq_refl)) as [y ->]. assert (E : exists w, cmin (CVal z) (CVal y) = CVal w) by (unfold cmin; destruct (clt (CVal y) (OCard (CVal z))); eauto). destruct E as [w ->]. apply IH. intros d Hd. apply H. now right.
  Qed.
  Lemma ests_ok s h (paths : list jpath) : good s -> graph_ok h g -> (forall p, In p paths -> edge_of (fst (fst p)) (snd (fst p)) (snd p)) -> exists l, rmapM (fun q : jpath => est s h g (snd q)) paths = Ok l /\ forall c, In c l -> exists y, c = CVal y.
  Proof.
    intros Gs G. induction paths as [|p r IH]; intros H; [exists []; split; [reflexivity|intros c []]|]. cbn [rmapM]. destruct (Hest s h _ _ _ Gs G (H p (or_introl eq_refl))) as [z ->]. cbn [rbind]. destruct IH as (l & -> & Hl); [intros q Hq; apply H; now right|]. cbn [rmap rbind]. exists (CVal z :: l). split; [reflexivity|]. intros c [<-|Hc]; eauto.
  Qed.
  Lemma pk_paths_ok h x : In x ns -> exists paths, pk_paths tab aord h g x = Ok paths /\ forall p, In p paths -> exists y e, p = (x, y, e) /\ edge_of x y e /\ is_pk_fk_join tab h g x y = true.
  Proof.
    intros Hx. destruct (pk_paths tab aord h g x) as [paths|] eqn:E; [|unfold pk_paths in E; rewrite (proj2 (mem_In x ns) Hx) in E; discriminate]. exists paths. split; [reflexivity|]. intros p Hp. apply (pk_paths_inv h x paths E) in Hp as (y & e & -> & Hy & Hk & _). exists y, e. split; [reflexivity|]. split; [|exact Hk]. apply adjl_edge in Hy. exact Hy.
  Qed.
  Lemma bounds_ok h : graph_ok h g -> forall paths s best bound, good s -> (forall p, In p paths -> In (snd (fst p)) ns) -> (best = None -> bound = CInf) -> (forall x, best = Some x -> exists z, bound = CVal z) ->
    exists s' best' bound', update_bounds tab aord base est setb s h g paths best bound = Ok (s', best', bound') /\ good s' /\ (forall p, In p paths -> bounded s' (snd (fst p))) /\ (forall x, bounded s x -> bounded s' x) /\
      (best' = best \/ exists p, In p paths /\ best' = Some (snd (fst p))) /\ (best' = None -> best = None /\ paths = []) /\ (forall x, best' = Some x -> exists z, bound' = CVal z).
  Proof.
    intros G. induction paths as [|p r IH]; intros s best bound Gs Hp Hn Hs; cbn [update_bounds].
    - exists s, best, bound. split; [reflexivity|]. split; [exact Gs|]. split; [intros p []|]. split; [auto|]. split; [now left|]. split; [auto|exact Hs].
    - assert (Hx : In (snd (fst p)) ns) by (apply Hp; now left). destruct (Hbase _ Hx) as [z0 ->]. cbn [rbind]. destruct (pk_paths_ok h _ Hx) as (pks & -> & Hk). cbn [rbind].
      destruct (ests_ok s h pks Gs G) as (l & -> & Hl); [intros q Hq; destruct (Hk q Hq) as (y & e & -> & He & _); exact He|]. cbn [rbind]. destruct (min_val l z0 Hl) as [z ->]. destruct (Hsetb s (snd (fst p)) z Gs) as (G1 & B1 & B2). assert (Hp' : forall q, In q r -> In (snd (fst q)) ns) by (intros q Hq; apply Hp; now right).
      destruct (less (CVal z) bound) eqn:L.
      + destruct (IH (setb s (snd (fst p)) (CVal z)) (Some (snd (fst p))) (CVal z) G1 Hp') as (s' & b' & o' & E & Gs' & A1 & A2 & A3 & A4 & A5); [discriminate|eauto|]. exists s', b', o'. split; [exact E|]. split; [exact Gs'|]. split; [intros q [<-|Hq]; auto|]. split; [auto|]. split; [|split; [|exact A5]].
        * right. destruct A3 as [->|(q & Hq & ->)]; [exists p; split; [now left|reflexivity]|exists q; split; [now right|reflexivity]].
        * intros K. apply A4 in K as [K _]. discriminate.
      + destruct (IH (setb s (snd (fst p)) (CVal z)) best bound G1 Hp' Hn Hs) as (s' & b' & o' & E & Gs' & A1 & A2 & A3 & A4 & A5). exists s', b', o'. split; [exact E|]. split; [exact Gs'|]. split; [intros q [<-|Hq]; auto|]. split; [auto|]. split; [|split; [|exact A5]].
        * destruct A3 as [->|(q & Hq & ->)]; [now left|]. right. exists q. split; [now right|reflexivity].
        * intros K. apply A4 in K as [K _]. rewrite (Hn K) in L. discriminate.
  Qed.
  (** Each path starts at a table of [E] or at the target of an earlier one. *)
  Fixpoint linked_chain (E : list T) (paths : list jpath) : Prop := match paths with [] => True | p :: r => (exists y, In y E /\ edge_of y (snd (fst p)) (snd p)) /\ linked_chain (snd (fst p) :: E) r end.
  Lemma chain_linked h : forall paths E, chain h E (map arrow paths) -> linked_chain E paths.
  Proof. induction paths as [|p r IH]; intros E; cbn [map chain linked_chain]; [auto|]. intros ((y & Hy & Hx) & _ & Hc). split; [exists y; split; [exact Hy|now apply adjl_edge]|]. now apply IH. Qed.
  Lemma mark_chain X h x y e : graph_ok h g -> edge_of y x e -> free_in h g y = false -> all_nm X h -> all_weak h -> exists h', mark h g x (Some e) = Ok h' /\ graph_ok h' g /\ all_nm X h' /\ all_weak h' /\ later h h' /\ free_in h' g x = false /\ (forall z, free_in h g z = false -> free_in h' g z = false).
  Proof.
    intros G He Fy A W. destruct (edge_ns _ _ _ He) as (Hy & _). destruct (mark_edge h x y e G He Fy (W y Hy Fy x)) as (h' & M & D). destruct (dead_step X h x (Some e) h' G M D A W) as [A' W']. destruct (mark_inv _ _ _ _ G M) as (_ & G' & F & L). exists h'. do 5 (split; [assumption|]). split; [now rewrite F, deqb_refl|]. intros z Fz. rewrite F, Fz. now destruct (deqb z x).
  Qed.
  Lemma initial_ok X s : good s -> forall paths h t E, graph_ok h g -> jt_empty t = false -> (forall y, In y E -> free_in h g y = false) -> linked_chain E paths -> all_nm X h -> all_weak h ->
    exists h' t', initial_joins g paths h s t = Ok (h', t') /\ all_nm X h' /\ all_weak h'.
  Proof.
    intros Gs. induction paths as [|p r IH]; intros h t E G Ht HE Hc A W; cbn [UO_model.initial_joins]; [eauto|]. destruct Hc as [(y & Hy & He) Hc]. destruct (edge_ns _ _ _ He) as (_ & Hx & _). destruct (Hbase _ Hx) as [z ->]. cbn [rbind]. destruct (Hest s h _ _ _ Gs G He) as [b ->]. cbn [rbind].
    destruct (mark_chain X h (snd (fst p)) y (snd p) G He (HE y Hy) A W) as (h1 & -> & G1 & A1 & W1 & _ & F1 & F2). cbn [rbind]. rewrite join_table_ok by exact Ht. cbn [rbind]. apply (IH h1 _ (snd (fst p) :: E)); auto. intros u [<-|Hu]; auto.
  Qed.
  Lemma insert_ok X : forall paths s h t E, good s -> graph_ok h g -> jt_empty t = false -> (forall y, In y E -> free_in h g y = false) -> linked_chain E paths -> all_nm X h -> all_weak h ->
    exists h' s' t', insert_pk g paths h s t = Ok (h', s', t') /\ good s' /\ all_nm X h' /\ all_weak h'.
  Proof.
    induction paths as [|p r IH]; intros s h t E Gs G Ht HE Hc A W; cbn [UO_model.insert_pk]; [exists h, s, t; auto|]. destruct Hc as [(y & Hy & He) Hc]. destruct (edge_ns _ _ _ He) as (_ & Hx & _).
    destruct (is_free h g (snd (fst p))) as [f|] eqn:Ef; [|exfalso; unfold is_free in Ef; destruct (dget (g_nodes g) (snd (fst p))) eqn:E1; [discriminate|now apply (proj1 (dget_None _ _) E1)]]. cbn [rbind]. destruct f.
    - destruct (Hest s h _ _ _ Gs G He) as [b ->]. cbn [rbind]. destruct (Hbase _ Hx) as [z ->]. cbn [rbind]. rewrite join_table_ok by exact Ht. cbn [rbind]. destruct (mark_chain X h (snd (fst p)) y (snd p) G He (HE y Hy) A W) as (h1 & -> & G1 & A1 & W1 & _ & F1 & F2). cbn [rbind].
      apply (IH _ h1 _ (snd (fst p) :: E)); auto. intros u [<-|Hu]; auto.
    - apply (IH s h t (snd (fst p) :: E)); auto. intros u [<-|Hu]; [unfold free_in; now rewrite Ef|auto].
  Qed.
  Lemma deep_ok h x : In x ns -> exists bf0 paths, forall bf, bf0 <= bf -> deep_paths tab aord bf h g x = Ok paths.
  Proof.
    intros Hx. destruct (bfs_total h (unvisited [x]) (vprefix [x] (adjl g x)) (adjl g x) [x]) as (bf0 & l & B); [lia|lia|intros [w e] Hw; now apply adjl_ns in Hw|]. eexists bf0, _. intros bf Hb. unfold deep_paths. rewrite (proj2 (mem_In x ns) Hx), (bfs_more _ _ _ _ _ bf B Hb). reflexivity.
  Qed.
  Lemma deep_chain bf h x paths : deep_paths tab aord bf h g x = Ok paths -> chain h [x] (map arrow paths).
  Proof. intros D. destruct (deep_inv _ _ _ _ D) as [_ B]. apply (bfs_chain h _ _ _ _ [x] B). intros z Hz. exists x. split; [now left|exact Hz]. Qed.
  Lemma check_edge h x y e : edge_of y x e -> is_pk_fk_join tab h g y x = true -> check h g (x, e) = true.
  Proof.
    intros He K. destruct (edge_ns _ _ _ He) as (_ & _ & N & Ne). unfold check_pk_fk. cbn [fst snd]. destruct e as [|c r]; [contradiction|]. apply existsb_exists. exists c. split; [now left|]. assert (T1 : (tab (fst c) = x /\ tab (snd c) = y) \/ (tab (fst c) = y /\ tab (snd c) = x)) by (destruct He as [He|He]; destruct (proj2 (proj2 (proj2 (proj2 (proj1 Hwf _ _ _ He)))) c (or_introl eq_refl)); tauto).
    unfold other. destruct T1 as [[-> ->]|[-> ->]]; [now rewrite deqb_refl|]. destruct (deqb y x) eqn:E; [apply deqb_true in E; contradiction|exact K].
  Qed.
  (** The first table has no primary key that is referenced by another table. *)
  Definition uniform (h : heap) : Prop := forall a b p c c', In (a, b, p) es -> In c p -> In c' p -> can h c = can h c'.
  Definition separate (h : heap) : Prop := forall a b p c, edge_of a b p -> In c p -> can h c = false -> weak h a.
  Lemma mark_alone h x h' : graph_ok h g -> (forall z, free_in h g z = true) -> mark h g x None = Ok h' -> h_index h' = h_index h.
  Proof.
    intros G F. unfold UO_model.mark, mark_joined. destruct (dget (g_nodes g) x) as [a|] eqn:Ea; [|discriminate]. cbn zeta. assert (J : joined_tables (set_free h a false) g = [x]); [|rewrite J; cbn; now intros [= <-]].
    assert (Hx : In x ns) by (apply dget_In in Ea; unfold dkeys; apply in_map_iff; now exists (x, a)). unfold joined_tables. rewrite (filter_ext_in _ (fun t => deqb t x)); [|intros t _; rewrite (free_set h x a t G Ea), F; now destruct (deqb t x)]. clear -Hx Hns. induction ns as [|y l IH]; [destruct Hx|]. apply NoDup_cons_iff in Hns as [Hy Hl]. cbn. destruct (deqb y x) eqn:E.
    - apply deqb_true in E. subst y. f_equal. clear -Hy. induction l as [|y l IH]; [reflexivity|]. cbn. destruct (deqb y x) eqn:E; [apply deqb_true in E; subst; exfalso; apply Hy; now left|]. apply IH. intros K. apply Hy. now right.
    - apply IH; [exact Hl|]. destruct Hx as [->|Hx]; [rewrite deqb_refl in E; discriminate|exact Hx].
  Qed.
  Lemma same_index h h' c : h_index h' = h_index h -> info h' g c = info h g c.
  Proof. intros E. unfold info, index_at. now rewrite E. Qed.
  Lemma first_ok h s x z : graph_ok h g -> (forall u, free_in h g u = true) -> In x ns -> good s -> weak h x -> uniform h ->
    exists bf0 h' s' t', (forall bf, bf0 <= bf -> first_table bf g h s (Some x) (CVal z) = Ok (h', s', t')) /\ good s' /\ all_nm (fun _ => False) h' /\ all_weak h'.
  Proof.
    intros G F Hx Gs Wx Un. unfold UO_model.first_table. destruct (mark_ok h x None Hx) as [h1 M]; [discriminate|]. rewrite M. cbn [rbind]. pose proof (mark_alone h x h1 G F M) as Ix. destruct (mark_inv _ _ _ _ G M) as (_ & G1 & F1 & L1).
    destruct (deep_ok h1 x Hx) as (bf0 & paths & D). assert (Gs' := Hsetj s (JScan true x (CVal z)) z Gs).
    assert (A : all_nm (eq x) h1) by (intros a b p He Xa Fa Fb; exfalso; rewrite F1, F in Fa; destruct (deqb a x) eqn:E; [apply deqb_true in E; congruence|discriminate]).
    assert (W : all_weak h1) by (intros u Hu Fu; rewrite F1, F in Fu; destruct (deqb u x) eqn:E; [apply deqb_true in E; subst u; now apply (later_weak h h1)|discriminate]).
    destruct (initial_ok (eq x) (setj s (JScan true x (CVal z)) (CVal z)) Gs' paths h1 (JScan true x (CVal z)) [x] G1 eq_refl) as (h2 & t2 & J & A2 & W2); auto.
    { intros y [<-|[]]. now rewrite F1, deqb_refl. }
    { apply (chain_linked h1), (deep_chain bf0). apply D. lia. }
    exists bf0, h2, (setj s (JScan true x (CVal z)) (CVal z)), t2. split; [intros bf Hb; rewrite (D bf Hb); cbn [rbind]; rewrite J; reflexivity|]. split; [exact Gs'|]. split; [|exact W2].
    intros a b p He _ Fa Fb. destruct (deqb a x) eqn:E; [|apply (A2 a b p He); auto; intros <-; rewrite deqb_refl in E; discriminate]. apply deqb_true in E. subst a.
    destruct (first_table_inv bf0 h s (Some x) (CVal z) h2 (setj s (JScan true x (CVal z)) (CVal z)) t2 G F) as (x' & ps & [= <-] & _ & I & La & _ & _ & Ch & _). { unfold UO_model.first_table. rewrite M. cbn [rbind]. rewrite (D bf0) by lia. cbn [rbind]. rewrite J. reflexivity. }
    destruct (is_pk_fk_join tab h g x b) eqn:K.
    - exfalso. assert (Hb : In (b, p) (adjl g x)) by (apply adjl_In; destruct He as [He|He]; [now left|right; split; [exact He|]; now apply Hself in He]). destruct (Ch b p Hb K) as [C1|(h1' & M' & C1)]; [congruence|]. rewrite M in M'. injection M' as <-.
      assert (K1 : is_pk_fk_join tab h1 g x b = true) by (apply (pkfk_spec h1 x b p He); apply (pkfk_spec h x b p He) in K as (c & Hc & K1 & K2); exists c; rewrite !(same_index h h1) by exact Ix; auto). rewrite (check_edge h1 b x p He K1) in C1. discriminate.
    - assert (O : open_nm h p). { intros c Hc. apply not_true_is_false. intros Cn. apply (can_iff h x b p c He Hc) in Cn as (C1 & C2 & [C3|C3]).
        - assert (E : is_pk_fk_join tab h g b x = true) by (apply (pkfk_spec h b x p (edge_of_sym _ _ _ He)); exists c; auto). rewrite Wx in E. discriminate.
        - assert (E : is_pk_fk_join tab h g x b = true) by (apply (pkfk_spec h x b p He); exists c; auto). congruence. }
      now apply (later_open h h2).
  Qed.
  Lemma any_ok s h paths : (forall p, In p paths -> exists b, policy s h g (snd p) = Ok b) -> exists b, any policy s h g paths = Ok b.
  Proof. induction paths as [|p r IH]; intros H; cbn [any]; [eauto|]. destruct (H p (or_introl eq_refl)) as [b ->]. cbn [rbind]. destruct b; [eauto|]. apply IH. intros q Hq. apply H. now right. Qed.
  Lemma pk_linked h x paths : pk_paths tab aord h g x = Ok paths -> forall E, In x E -> linked_chain E paths.
  Proof.
    intros P. assert (H : forall p, In p paths -> edge_of x (snd (fst p)) (snd p)) by (intros p Hp; apply (pk_paths_inv h x paths P) in Hp as (y & e & -> & Hy & _); cbn; apply adjl_edge in Hy; exact Hy). clear P. induction paths as [|p r IH]; intros E HE; cbn; [auto|]. split; [exists x; split; [exact HE|apply H; now left]|]. apply IH; [intros q Hq; apply H; now right|now right].
  Qed.
  Lemma nm_open h y x e : initial h g = false -> edge_of y x e -> free_in h g y = false -> free_in h g x = true -> open_nm h e -> In (y, x, e) (nm_paths tab h g false).
  Proof.
    intros Hi He Fy Fx O. unfold nm_paths. apply in_flat_map. exists (y, x, e). split; [apply (paths_spec h false y x e Hi); split; [exact He|auto]|]. cbn [fst snd]. rewrite (open_pkfk h y x e He O), (open_pkfk h x y e (edge_of_sym _ _ _ He) O). now left.
  Qed.
  Lemma nm_edge h both y x e : initial h g = false -> In (y, x, e) (nm_paths tab h g both) -> edge_of y x e /\ free_in h g y = false /\ free_in h g x = true.
  Proof.
    intros Hi H. apply nm_In in H as [H|(_ & K & _)]; [|congruence]. apply (paths_spec h false y x e Hi) in H. destruct H as (He & Fy & Fx). split; [exact He|auto].
  Qed.
  Lemma nm_both h both : initial h g = false -> nm_paths tab h g both = nm_paths tab h g false.
  Proof. intros Hi. unfold nm_paths. rewrite Hi, andb_false_r. reflexivity. Qed.
  Lemma next_ok (nc : Prop) eager h s t : (nc -> eager = false) -> Inv2 nc h t -> initial h g = false -> good s -> (forall p, In p (nm_paths tab h g false) -> bounded s (snd (fst p))) -> nm_paths tab h g false <> [] -> all_nm (fun _ => False) h -> all_weak h ->
    exists bf0 h' s' t', (forall bf, bf0 <= bf -> next_table bf eager g h s t = Ok (h', s', t')) /\ good s' /\ all_nm (fun _ => False) h' /\ all_weak h'.
  Proof.
    intros Hnc I Hi Gs Bd Ne A W. assert (G : graph_ok h g) by apply I. unfold UO_model.next_table. destruct (lowest_total s h (nm_paths tab h g false)) with (best := @None jpath) (bound := CInf) as (p & z & L); auto; [intros [[y x] e] Hq; apply (nm_edge h false y x e Hi) in Hq as (He & _); apply (Hest s h y x e); auto|discriminate|].
    assert (Hp : In p (nm_paths tab h g false)). { apply lowest_spec in L as (_ & [[K _]|(_ & q & [= <-] & Hp & _)]); [discriminate|exact Hp]. } rewrite L. cbn [rbind fst snd]. destruct p as [[y x] e]. cbn [fst snd]. pose proof (Bd _ Hp) as Bx. cbn [fst snd] in Bx. destruct (nm_edge h false y x e Hi Hp) as (He & Fy & Fx). destruct (edge_ns _ _ _ He) as (Hy & Hx & Nyx & _).
    destruct (pk_paths_ok h x Hx) as (direct & Ed & Hd). destruct (any_ok s h direct) as [sub Ea]; [intros q Hq; destruct (Hd q Hq) as (w & f & -> & Hf & Kf); now apply (Hpolicy s h x w f)|]. destruct (Hbase x Hx) as [c Ec].
    assert (P : exists bf0 pks, (forall bf, bf0 <= bf -> (if eager then deep_paths tab aord bf h g x else pk_paths tab aord h g x) = Ok pks) /\ linked_chain [x] pks).
    { destruct eager; [destruct (deep_ok h x Hx) as (bf0 & pks & D); exists bf0, pks; split; [exact D|]; apply (chain_linked h), (deep_chain bf0); apply D; lia|]. exists 0, direct. split; [auto|]. apply (pk_linked h x direct Ed). now left. }
    destruct P as (bf0 & pks & P & Lc). assert (Wx : is_pk_fk_join tab h g x y = false) by (now apply W).
    destruct sub.
    - destruct (mark_sub h x y e G He Fy Fx A) as (h1 & M & D1). destruct (mark_inv _ _ _ _ G M) as (_ & G1 & F1 & _). destruct (dead_step _ h x None h1 G M D1 A W) as [A1 W1].
      destruct (insert_ok (fun _ => False) pks s h1 (JScan false x (CVal c)) [x] Gs G1 eq_refl) as (h2 & s2 & sub & Ei & Gs2 & A2 & W2); auto; [intros u [<-|[]]; now rewrite F1, deqb_refl|].
      assert (Hpn : forall p, In p pks -> In (snd (fst p)) ns). { clear -Lc Hwf. revert Lc. generalize [x]. induction pks as [|q r IH]; intros E; cbn; [intros _ p []|]. intros [(u & _ & Hu) Hr] p [<-|Hp]; [destruct Hu as [Hu|Hu]; apply (proj1 Hwf) in Hu; tauto|now apply (IH _ Hr)]. }
      destruct (insert_pk_inv pks h1 s (JScan false x (CVal c)) h2 s2 sub G1 eq_refl Hpn Ei) as (new & Le & _ & _ & _ & _ & _ & Nsub & _). cbn [leaves app] in Le.
      destruct (Htrig (setj s2 (JJoin false t sub (CVal z)) (CVal z)) (JJoin false t sub (CVal z)) x y e) as (s3 & Et & Gs3); [now apply Hsetj|cbn [leaves]; apply in_or_app; left; apply (proj1 (proj2 I)); auto|cbn [leaves]; apply in_or_app; right; rewrite Le; now left|exact He|].
      exists bf0, h2, s3, (JJoin false t sub (CVal z)). split; [|split; [exact Gs3|split; assumption]]. intros bf Hb. rewrite Ed. cbn [rbind]. rewrite Ea. cbn [rbind]. rewrite <- Ed, (P bf Hb). cbn [rbind]. rewrite Ec. cbn [rbind]. rewrite M. cbn [rbind]. rewrite Ei. cbn [rbind]. rewrite join_sub_ok by (auto; apply I). cbn [rbind]. rewrite Et. reflexivity.
    - destruct (mark_edge h x y e G He Fy Wx) as (h1 & M & D1). destruct (mark_inv _ _ _ _ G M) as (_ & G1 & F1 & _). destruct (dead_step _ h x (Some e) h1 G M D1 A W) as [A1 W1]. set (t1 := JJoin false t (JScan false x (CVal c)) (CVal z)).
      destruct (insert_ok (fun _ => False) pks (setj s t1 (CVal z)) h1 t1 [x] (Hsetj _ _ _ Gs) G1 eq_refl) as (h2 & s2 & t2 & Ei & Gs2 & A2 & W2); auto; [intros u [<-|[]]; now rewrite F1, deqb_refl|].
      assert (Hpn : forall p, In p pks -> In (snd (fst p)) ns). { clear -Lc Hwf. revert Lc. generalize [x]. induction pks as [|q r IH]; intros E; cbn; [intros _ p []|]. intros [(u & _ & Hu) Hr] p [<-|Hp]; [destruct Hu as [Hu|Hu]; apply (proj1 Hwf) in Hu; tauto|now apply (IH _ Hr)]. }
      destruct (insert_pk_inv pks h1 _ t1 h2 s2 t2 G1 eq_refl Hpn Ei) as (new & Le & _). unfold t1 in Le at 1. cbn [leaves] in Le.
      destruct (Htrig s2 t2 x y e) as (s3 & Et & Gs3); [exact Gs2|rewrite Le; apply in_or_app; left; apply in_or_app; left; apply (proj1 (proj2 I)); auto|rewrite Le; apply in_or_app; left; apply in_or_app; right; now left|exact He|].
      exists bf0, h2, s3, t2. split; [|split; [exact Gs3|split; assumption]]. intros bf Hb. rewrite Ed. cbn [rbind]. rewrite Ea. cbn [rbind]. rewrite <- Ed, (P bf Hb). cbn [rbind]. rewrite Ec. cbn [rbind]. rewrite join_table_ok by apply I. cbn [rbind]. rewrite M. cbn [rbind]. fold t1. rewrite Ei. cbn [rbind]. rewrite Et. reflexivity.
  Qed.

  (** *** The loops *)
  Context (Hconn : connected ns (pairs_of g)).
  Definition frees (h : heap) : nat := length (filter (free_in h g) ns).
  Lemma filter_lt (f k : T -> bool) l x : (forall z, k z = true -> f z = true) -> In x l -> f x = true -> k x = false -> length (filter k l) < length (filter f l).
  Proof.
    intros H. induction l as [|y l IH]; [intros []|]; intros [<-|Hx] Fx Kx; cbn [filter].
    - rewrite Fx, Kx. cbn. pose proof (filter_le f k l H). lia.
    - specialize (IH Hx Fx Kx). destruct (k y) eqn:E; [rewrite (H y E); cbn; lia|]. destruct (f y); cbn; lia.
  Qed.
  Lemma frontier h x y : path ns (pairs_of g) x y -> free_in h g x = false -> free_in h g y = true -> exists a b p, edge_of a b p /\ free_in h g a = false /\ free_in h g b = true.
  Proof.
    intros P Fx. induction P as [x Hx|x y z P IH A Hz]; intros Fz; [congruence|]. destruct (free_in h g y) eqn:Fy; [now apply IH|]. assert (E : exists p, edge_of y z p).
    { destruct A as [A|A]; unfold pairs_of in A; apply in_map_iff in A as ([[u v] p] & E & A); cbn in E; injection E as -> ->; exists p; [now left|now right]. }
    destruct E as [p E]. exists y, z, p. auto.
  Qed.
  Lemma frontier_free h x : In x ns -> free_in h g x = false -> has_free h g = true -> exists a b p, edge_of a b p /\ free_in h g a = false /\ free_in h g b = true.
  Proof. intros Hx Fx Hf. unfold has_free in Hf. apply existsb_exists in Hf as (y & Hy & Fy). apply (frontier h x y); auto. Qed.
  Lemma frontier_nm h a b p : edge_of a b p -> free_in h g a = false -> free_in h g b = true -> open_nm h p -> has_nm h g = true.
  Proof.
    intros He Fa Fb O. destruct (edge_ns _ _ _ He) as (_ & _ & _ & Ne). destruct p as [|c r]; [contradiction|]. assert (K : existsb (fun q => negb (can_pk_fk_join (info h g (Some (fst q))) (info h g (Some (snd q))))) (c :: r) = true) by (cbn [existsb]; rewrite (O c (or_introl eq_refl)); reflexivity).
    unfold has_nm. apply existsb_exists. destruct He as [He|He]; [exists (a, b, c :: r)|exists (b, a, c :: r)]; (split; [exact He|]); cbn [fst snd]; rewrite K, andb_true_r; apply orb_true_iff; left; unfold is_available_join.
    - rewrite (edge_between_spec a b (c :: r)) by now left. rewrite Fa, Fb. reflexivity.
    - rewrite (edge_between_spec b a (c :: r)) by now left. rewrite Fa, Fb. reflexivity.
  Qed.
  Lemma nm_frontier h : initial h g = false -> has_nm h g = true -> exists a b p, edge_of a b p /\ free_in h g a = false /\ free_in h g b = true.
  Proof.
    intros Hi H. unfold has_nm in H. apply existsb_exists in H as ([[a b] p] & He & H). cbn [fst snd] in H. apply andb_prop in H as [H _]. rewrite Hi, orb_false_r in H. unfold is_available_join in H. destruct (edge_between g a b); [|discriminate]. rewrite Hi, orb_false_r in H. apply orb_true_iff in H as [H|H]; apply andb_prop in H as [H1 H2].
    - exists b, a, p. apply negb_true_iff in H2. split; [now right|auto].
    - exists a, b, p. apply negb_true_iff in H1. split; [now left|auto].
  Qed.
  Lemma default_ok (nc : Prop) eager : (nc -> eager = false) -> forall n h s t, frees h <= n -> Inv2 nc h t -> leaves t <> [] -> good s -> all_nm (fun _ => False) h -> all_weak h ->
    exists bf0 t', forall bf fuel, bf0 <= bf -> n < fuel -> default_loop fuel bf eager g h s t = Ok t'.
  Proof.
    intros Hnc. induction n as [n IH] using lt_wf_ind. intros h s t Hn I Hl Gs A W. pose proof (inv2_initial _ _ _ I Hl) as Hi. assert (Hj : exists x, In x ns /\ free_in h g x = false) by (destruct (leaves t) as [|x r] eqn:E; [contradiction|]; exists x; apply (proj1 (proj2 I)); rewrite E; now left).
    destruct (has_nm h g) eqn:Hm.
    - destruct (nm_frontier h Hi Hm) as (a & b & p & He & Fa & Fb). assert (Np : In (a, b, p) (nm_paths tab h g false)) by (apply nm_open; auto; now apply (A a b p)).
      destruct (bounds_ok h (proj1 I) (nm_paths tab h g true) s None CInf Gs) as (s1 & best & bound & Eb & Gs1 & Bd & _); [intros [[y x] e] Hq; apply (nm_edge h true y x e Hi) in Hq as (Hq & _); apply edge_ns in Hq; cbn; tauto|auto|discriminate|]. rewrite (nm_both h true Hi) in Bd.
      destruct (next_ok nc eager h s1 t Hnc I Hi Gs1 Bd) as (bf1 & h2 & s2 & t2 & En & Gs2 & A2 & W2); auto; [intros K; rewrite K in Np; destruct Np|].
      destruct (next_table_inv nc bf1 eager h s1 t h2 s2 t2 Hnc I Hi (En bf1 (le_n _))) as (y & x & e & b1 & c1 & _ & _ & _ & _ & _ & I2 & _ & Fx & Hx & (new & Le & _) & Fm & F2).
      assert (Lt : frees h2 < frees h) by (apply (filter_lt _ _ ns x); auto; intros z Hz; apply not_false_is_true; intros K; rewrite (Fm z K) in Hz; discriminate).
      destruct (IH (frees h2)) with (h := h2) (s := s2) (t := t2) as (bf2 & t' & E'); auto; [lia|rewrite Le; now destruct (leaves t)|].
      exists (Nat.max bf1 bf2), t'. intros bf fuel Hb Hf. destruct fuel as [|fuel]; [lia|]. cbn [UO_model.default_loop]. rewrite Hm, Eb. cbn [rbind]. rewrite (proj1 (proj2 (proj2 I))), (En bf) by lia. cbn [rbind]. apply E'; lia.
    - exists 0, t. intros bf fuel _ Hf. destruct fuel as [|fuel]; [lia|]. cbn [UO_model.default_loop]. rewrite Hm. destruct (has_free h g) eqn:Hf'; [|reflexivity]. exfalso. destruct Hj as (x & Hx & Fx). destruct (frontier_free h x Hx Fx Hf') as (a & b & p & He & Fa & Fb). rewrite (frontier_nm h a b p He Fa Fb) in Hm; [discriminate|]. now apply (A a b p).
  Qed.
  Lemma nm_weak h : uniform h -> separate h -> forall p, In p (nm_paths tab h g true) -> initial h g = true -> In (snd (fst p)) ns /\ weak h (snd (fst p)).
  Proof.
    intros Un Sp [[y x] e] H Hi. cbn [fst snd]. assert (E : edge_of y x e /\ is_pk_fk_join tab h g y x = false /\ is_pk_fk_join tab h g x y = false).
    { unfold nm_paths in H. apply in_flat_map in H as ([[a b] q] & Hq & H). cbn [fst snd] in H. apply (paths_initial h a b q Hi) in Hq. destruct (is_pk_fk_join tab h g a b) eqn:E1, (is_pk_fk_join tab h g b a) eqn:E2; cbn in H; try contradiction. rewrite Hi in H. destruct H as [H|[H|[]]]; injection H as <- <- <-; split; auto; [now left|now right]. }
    destruct E as (He & E1 & E2). destruct (edge_ns _ _ _ He) as (_ & Hx & _ & Ne). split; [exact Hx|]. destruct e as [|c r]; [contradiction|]. apply (Sp x y (c :: r) c); [now apply edge_of_sym|now left|]. apply not_true_is_false. intros K. apply (can_iff h y x (c :: r) c He (or_introl eq_refl)) in K as (K1 & K2 & [K3|K3]).
    - rewrite (proj2 (pkfk_spec h x y (c :: r) (edge_of_sym _ _ _ He))) in E2; [discriminate|]. exists c. split; [now left|auto].
    - rewrite (proj2 (pkfk_spec h y x (c :: r) He)) in E1; [discriminate|]. exists c. split; [now left|auto].
  Qed.
  Lemma default_success (nc : Prop) eager : (nc -> eager = false) -> forall h s, graph_ok h g -> (forall z, free_in h g z = true) -> has_nm h g = true -> good s -> uniform h -> separate h ->
    exists bf0 t', forall bf fuel, bf0 <= bf -> length ns < fuel -> default_loop fuel bf eager g h s (JEmpty true) = Ok t'.
  Proof.
    intros Hnc h s G F Hm Gs Un Sp. assert (Hi : initial h g = true) by (unfold initial; apply forallb_forall; auto).
    destruct (bounds_ok h G (nm_paths tab h g true) s None CInf Gs) as (s1 & best & bound & Eb & Gs1 & _ & _ & Hb & Hn & Hs); [intros p Hp; now apply (nm_weak h Un Sp p)|auto|discriminate|].
    assert (Ne : nm_paths tab h g true <> []).
    { unfold has_nm in Hm. apply existsb_exists in Hm as ([[a b] p] & He & Hm). cbn [fst snd] in Hm. apply andb_prop in Hm as [_ Hm]. apply existsb_exists in Hm as (c & Hc & Hm). apply negb_true_iff in Hm. assert (O : open_nm h p) by (intros c' Hc'; rewrite (Un a b p c' c He Hc' Hc); exact Hm).
      assert (K : In (a, b, p) (nm_paths tab h g true)); [|intros E; rewrite E in K; destruct K]. unfold nm_paths. apply in_flat_map. exists (a, b, p). split; [now apply paths_initial|]. cbn [fst snd]. rewrite (open_pkfk h a b p (or_introl He) O), (open_pkfk h b a p (or_intror He) O). now left. }
    destruct best as [x|]; [|exfalso; destruct (Hn eq_refl); contradiction]. destruct (Hs x eq_refl) as [z ->]. destruct Hb as [Hb|(p & Hp & [= ->])]; [discriminate|]. destruct (nm_weak h Un Sp p Hp Hi) as [Hx Wx].
    destruct (first_ok h s1 (snd (fst p)) z G F Hx Gs1 Wx Un) as (bf1 & h2 & s2 & t2 & Ef & Gs2 & A2 & W2). destruct (first_table_inv _ _ _ _ _ _ _ _ G F (Ef bf1 (le_n _))) as (x' & ps & [= <-] & _ & I & _ & Le & _).
    assert (Lt : frees h2 < length ns). { assert (E : length ns = length (filter (fun _ : T => true) ns)) by (clear; induction ns as [|u l IH]; [reflexivity|cbn; now rewrite <- IH]). rewrite E. apply (filter_lt _ _ ns (snd (fst p))); auto. apply (proj1 (proj2 I)). rewrite Le. now left. }
    destruct (default_ok nc eager Hnc (frees h2) h2 s2 t2 (le_n _) (inv_inv2 nc _ _ I)) as (bf2 & t' & E'); auto; [rewrite Le; discriminate|].
    exists (Nat.max bf1 bf2), t'. intros bf fuel Hbf Hf. destruct fuel as [|fuel]; [lia|]. cbn [UO_model.default_loop]. rewrite Hm, Eb. cbn [rbind jt_empty]. rewrite (Ef bf) by lia. cbn [rbind]. apply E'; lia.
  Qed.

  Lemma apply_ok h s t p z : Inv h t -> In p (available_join_paths h g false) -> exists h' s' t', apply_join tab between order base setj h g s t p (CVal z) = Ok (h', s', t').
  Proof.
    intros I Hp. destruct p as [[y x] e]. apply (paths_spec h false y x e (initial_false _ _ I)) in Hp as (He & _). destruct (edge_ns y x e He) as (_ & Hx & _). unfold apply_join. cbn [fst snd]. destruct (Hbase x Hx) as [c ->]. cbn [rbind]. rewrite join_table_ok by apply nc_nonempty, I. cbn [rbind].
    destruct (mark_ok h x (Some e) Hx) as [h' ->]; [intros e' [= <-]; now apply (edge_cols y x)|]. cbn [rbind]. eauto.
  Qed.
  Lemma star_loop_ok : forall n h s t, frees h <= n -> Inv h t -> good s -> exists t', forall fuel, n < fuel -> star_loop tab between order base est setj fuel g h s t = Ok t'.
  Proof.
    induction n as [n IH] using lt_wf_ind. intros h s t Hn I Gs. destruct (has_free h g) eqn:Hf; [|exists t; intros fuel Hl; destruct fuel; [lia|]; cbn [star_loop]; now rewrite Hf].
    pose proof (initial_false _ _ I) as Hi. assert (Hj : exists x, In x ns /\ free_in h g x = false) by (unfold initial in Hi; apply not_true_iff_false in Hi; destruct (existsb (fun x => negb (free_in h g x)) ns) eqn:E; [apply existsb_exists in E as (x & Hx & E); apply negb_true_iff in E; eauto|exfalso; apply Hi, forallb_forall; intros x Hx; apply not_false_is_true; intros K; apply not_true_iff_false in E; apply E, existsb_exists; exists x; split; [exact Hx|now rewrite K]]).
    destruct Hj as (x0 & Hx0 & Fx0). destruct (frontier_free h x0 Hx0 Fx0 Hf) as (a & b & p & He & Fa & Fb).
    destruct (lowest_total s h (available_join_paths h g false)) with (best := @None jpath) (bound := CInf) as (q & z & L); auto; [intros [[y x] e] Hq; apply (paths_spec h false y x e Hi) in Hq as (Hq & _); apply (Hest s h y x e Gs (proj1 I) Hq)|left; intros K; assert (In (a, b, p) (available_join_paths h g false)) by (apply paths_spec; auto); rewrite K in *; contradiction|discriminate|].
    assert (Hq : In q (available_join_paths h g false)) by (apply lowest_spec in L as (_ & [[K _]|(_ & q' & [= <-] & Hq & _)]); [discriminate|exact Hq]). destruct (apply_ok h s t q z I Hq) as (h1 & s1 & t1 & A). destruct (apply_join_inv _ _ _ _ _ _ _ _ I Hq A) as (I1 & (c & _ & Et) & _ & Es & M & _). destruct (mark_inv _ _ _ _ (proj1 I) M) as (Hx & _ & F1 & _).
    assert (Lt : frees h1 < frees h). { destruct q as [[y x] e]. cbn [fst snd] in *. apply (paths_spec h false y x e Hi) in Hq as (_ & _ & Fx). apply (filter_lt _ _ ns x); auto; [intros u; rewrite F1; now destruct (deqb u x)|now rewrite F1, deqb_refl]. }
    destruct (IH (frees h1)) with (h := h1) (s := s1) (t := t1) as (t' & E'); auto; [lia|rewrite Es; now apply Hsetj|]. exists t'. intros fuel Hl. destruct fuel as [|fuel]; [lia|]. cbn [star_loop]. rewrite Hf, L. cbn [rbind fst snd]. rewrite A. cbn [rbind]. apply E'. lia.
  Qed.
  Lemma star_success h s : graph_ok h g -> (forall z, free_in h g z = true) -> es <> [] -> good s -> exists t', forall fuel, length ns < fuel -> star tab between order base est setj fuel g h s = Ok t'.
  Proof.
    intros G F Ne Gs. assert (Hi : initial h g = true) by (unfold initial; apply forallb_forall; auto). unfold star.
    destruct (lowest_total s h (available_join_paths h g false)) with (best := @None jpath) (bound := CInf) as (q & z & L); auto; [intros [[y x] e] Hq; apply (paths_initial h y x e Hi) in Hq; apply (Hest s h y x e Gs G); now left|left; intros K; destruct es as [|[[a b] p] r] eqn:Ee; [contradiction|]; assert (In (a, b, p) (available_join_paths h g false)) by (apply paths_initial; [exact Hi|rewrite Ee; now left]); rewrite K in *; contradiction|discriminate|].
    assert (Hq : In q (available_join_paths h g false)) by (apply lowest_spec in L as (_ & [[K _]|(_ & q' & [= <-] & Hq & _)]); [discriminate|exact Hq]). rewrite L. cbn [rbind fst snd]. destruct q as [[y x] e]. cbn [fst snd]. apply (paths_initial h y x e Hi) in Hq. destruct (edge_ns y x e (or_introl Hq)) as (Hy & Hx & N & _). destruct (Hbase y Hy) as [c ->]. cbn [rbind]. destruct (mark_ok h y None Hy) as [h1 M]; [discriminate|]. rewrite M. cbn [rbind].
    destruct (mark_first h y h1 (CVal c) G F M) as [I _]. destruct (mark_inv _ _ _ _ G M) as (_ & _ & F1 & _). assert (Hq' : In (y, x, e) (available_join_paths h1 g false)) by (apply (paths_spec h1 false y x e (initial_false _ _ I)); split; [now left|]; rewrite !F1, F, deqb_refl; split; [reflexivity|]; destruct (deqb x y) eqn:E; [apply deqb_true in E; subst; contradiction|apply F]).
    destruct (apply_ok h1 s (JScan true y (CVal c)) (y, x, e) z I Hq') as (h2 & s2 & t2 & A). destruct (apply_join_inv _ _ _ _ _ _ _ _ I Hq' A) as (I2 & _ & _ & Es & M2 & _). destruct (star_loop_ok (frees h2) h2 s2 t2 (le_n _) I2) as (t' & E'); [rewrite Es; now apply Hsetj|]. exists t'. intros fuel Hl. rewrite A. cbn [rbind]. apply E'.
    apply (Nat.le_lt_trans _ (length ns)); [|exact Hl]. unfold frees. clear. induction ns as [|u l IH]; [apply le_n|]. cbn. destruct (free_in h2 g u); cbn; lia.
  Qed.
End Proofs.
