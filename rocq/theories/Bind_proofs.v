(** Lemmas for C97. *)
From Coq Require Import List Bool Arith Lia.
From Verif Require Import PyBase Bind_model Bind_spec.
Import ListNotations.

(** ** Induction over queries *)
Section Ind.
  Context (P : query -> Prop).
  Definition sub_item (i : item query) : Prop := match i with IRef _ => True | ISub q => P q end.
  Definition sub_target (t : target query) : Prop := match t with TExpr l _ => All sub_item l | _ => True end.
  Fixpoint sub_from (f : fitem query) : Prop :=
    match f with FTab _ _ => True | FJoin l r on => sub_from l /\ sub_from r /\ All sub_item on | FSub _ _ _ q => P q | FVal _ _ l | FFun _ l => All sub_item l end.
  Definition sub_cte (c : cte query) : Prop := match c with CQ _ _ q => P q | CV _ _ l => All sub_item l end.
  Definition sub_okey (k : okey query) : Prop := match k with OBare _ => True | OExpr l => All sub_item l end.
  Context (Hsel : forall w f ts wh ob, All sub_cte w -> All sub_from f -> All sub_target ts -> All sub_item wh -> All sub_okey ob -> P (QSel w f ts wh ob)).
  Context (Hset : forall w l r ob, All sub_cte w -> P l -> P r -> P (QSet w l r ob)).
  Lemma query_ind2 : forall q, P q.
  Proof.
    fix IH 1. assert (Hi : forall (g : forall q, P q), True) by auto. clear Hi. intros [w f ts wh ob|w l r ob].
    - apply Hsel.
      + induction w as [|c w IHw]; cbn [All]; [exact I|]. split; [|exact IHw]. destruct c as [x cols q|x cols l]; cbn [sub_cte]; [apply IH|]. induction l as [|i l IHl]; cbn [All]; [exact I|]. split; [|exact IHl]. destruct i; [exact I|apply IH].
      + induction f as [|e f IHf]; cbn [All]; [exact I|]. split; [|exact IHf]. clear f IHf. induction e as [full a|l IHl r IHr on|a cols lat q|a cols l|a l]; cbn [sub_from]; auto.
        * split; [exact IHl|]. split; [exact IHr|]. clear - IH. induction on as [|i l' IHl']; cbn [All]; [exact I|]. split; [|exact IHl']. destruct i; [exact I|apply IH].
        * induction l as [|i l IHl]; cbn [All]; [exact I|]. split; [|exact IHl]. destruct i; [exact I|apply IH].
        * induction l as [|i l IHl]; cbn [All]; [exact I|]. split; [|exact IHl]. destruct i; [exact I|apply IH].
      + induction ts as [|t ts IHt]; cbn [All]; [exact I|]. split; [|exact IHt]. destruct t; cbn [sub_target]; auto. induction l as [|i l IHl]; cbn [All]; [exact I|]. split; [|exact IHl]. destruct i; [exact I|apply IH].
      + induction wh as [|i l IHl]; cbn [All]; [exact I|]. split; [|exact IHl]. destruct i; [exact I|apply IH].
      + induction ob as [|t ts' IHt]; cbn [All]; [exact I|]. split; [|exact IHt]. destruct t as [|l]; cbn [sub_okey]; auto. induction l as [|i l IHl]; cbn [All]; [exact I|]. split; [|exact IHl]. destruct i; [exact I|apply IH].
    - apply Hset; [|apply IH|apply IH].
      induction w as [|c w IHw]; cbn [All]; [exact I|]. split; [|exact IHw]. destruct c as [x cols q|x cols l']; cbn [sub_cte]; [apply IH|]. induction l' as [|i l' IHl]; cbn [All]; [exact I|]. split; [|exact IHl]. destruct i; [exact I|apply IH].
  Qed.
End Ind.
Lemma All_In {A} (P : A -> Prop) l : All P l <-> forall a, In a l -> P a.
Proof.
  induction l as [|b l IH]; cbn; [split; [intros _ a []|auto]|]. rewrite IH. split; [intros [H1 H2] a [<-|H]; auto|intros H; split; [apply H; now left|intros a Ha; apply H; now right]].
Qed.
Lemma answers_app a b : answers (a ++ b) = answers a ++ answers b. Proof. apply flat_map_app. Qed.

Section Bind.
  Context (schema : name -> list name) (al : name -> option tref) (is_cte qual : name -> bool).
  Definition base (k : name) : tref := if is_cte k then virt k else T (Some k) None false.
  Definition rf (k : name) : tref := match al k with Some t => t | None => base k end.
  Definition reg_ok (k : name) (t : tref) : Prop :=
    match al k with Some t' => t = t' | None => t_virt t = is_cte k /\ (is_cte k = true -> t = virt k) /\ (qual k = true -> t = base k) end.
  Record Inv (chain : list ns) (env : list scope) (ce : cenv) : Prop :=
    { inv_srcs : forall n k t, In n chain -> dget (n_srcs n) k = Some t -> reg_ok k t;
      inv_ctes : forall n k s, In n chain -> dget (n_ctes n) k = Some s -> al k = None /\ is_cte k = true;
      inv_subs : forall n k s, In n chain -> dget (n_subs n) k = Some s -> al k = Some (virt k);
      inv_vis : forall s v, In s env -> In v s -> exists k, v_key v = Some k /\ v_ref v = rf k /\ exists n, In n chain /\ dget (n_srcs n) k <> None;
      inv_ce : forall x s, find_cte ce x = Some s -> is_cte x = true /\ al x = None /\ lookup_namespace chain x = Some s }.

  Lemma Inv_incl chain env env' ce : Inv chain env ce -> (forall s v, In s env' -> In v s -> exists s', In s' env /\ In v s') -> Inv chain env' ce.
  Proof. intros [A B C D E] H. split; auto. intros s v Hs Hv. destruct (H s v Hs Hv) as (s' & H1 & H2). eauto. Qed.
  Lemma resolve_reg chain env ce k t : Inv chain env ce -> resolve_table chain k = Some t -> reg_ok k t.
  Proof.
    intros [A B _ _ _]. revert A B. induction chain as [|n r IH]; intros A B H; cbn in H; [discriminate|]. destruct (dget (n_srcs n) k) as [u|] eqn:E; [injection H as <-; apply (A n); [now left|exact E]|].
    destruct (dmem (n_ctes n) k) eqn:E2.
    - injection H as <-. apply dmem_In in E2. apply dget_key in E2. destruct (dget (n_ctes n) k) as [s|] eqn:E3; [|congruence]. destruct (B n k s (or_introl eq_refl) E3) as [B1 B2]. unfold reg_ok. rewrite B1, B2. cbn. split; auto. split; auto. intros _. unfold base. now rewrite B2.
    - apply IH; auto; intros m; intros; [apply (A m)|apply (B m k0 s)]; auto; now right.
  Qed.
  Lemma resolve_some chain k n : In n chain -> dget (n_srcs n) k <> None -> resolve_table chain k <> None.
  Proof.
    induction chain as [|m r IH]; intros Hin Hn; [destruct Hin|]. cbn. destruct (dget (n_srcs m) k) eqn:E; [discriminate|]. destruct (dmem _ _); [discriminate|]. destruct Hin as [->|Hin]; [congruence|auto].
  Qed.
  Lemma find_table_In env k v : find_table env k = Some v -> v_key v = Some k /\ exists s, In s env /\ In v s.
  Proof.
    induction env as [|s r IH]; cbn; [discriminate|]. destruct (filter (called k) s) as [|w [|w' l]] eqn:E; [|intros H; injection H as <-|discriminate].
    - intros H. destruct (IH H) as (H1 & s' & H2 & H3). split; [exact H1|]. exists s'. auto.
    - assert (Hw : In w (filter (called k) s)) by (rewrite E; now left). apply filter_In in Hw as [H1 H2]. unfold called in H2. destruct (v_key w) as [x|] eqn:Ek; [|discriminate]. apply Nat.eqb_eq in H2 as ->. split; [reflexivity|]. exists s. auto.
  Qed.
  Lemma resolve_qual chain env ce k v : Inv chain env ce -> qual k = true -> find_table env k = Some v -> resolve_table chain k = Some (v_ref v).
  Proof.
    intros I Hq H. destruct (find_table_In env k v H) as (Hk & s & Hs & Hv). destruct (inv_vis _ _ _ I s v Hs Hv) as (k' & Hk' & Hr & n & Hn & Hd). rewrite Hk in Hk'. injection Hk' as <-.
    destruct (resolve_table chain k) as [t|] eqn:E; [|now destruct (resolve_some chain k n Hn Hd)]. pose proof (resolve_reg chain env ce k t I E) as R. f_equal. rewrite Hr. unfold reg_ok in R. unfold rf. destruct (al k); [exact R|]. now apply R.
  Qed.
  Lemma lookup_ctes chain env ce x s : Inv chain env ce -> al x = None -> lookup_namespace chain x = Some s -> exists n, In n chain /\ dget (n_ctes n) x = Some s.
  Proof.
    intros [_ _ C _ _] Ha. revert C. induction chain as [|n r IH]; intros C H; cbn in H; [discriminate|]. destruct (dget (n_ctes n) x) as [s0|] eqn:E; [injection H as ->; exists n; split; [now left|exact E]|].
    destruct (dget (n_subs n) x) as [s0|] eqn:E2; [rewrite (C n x s0 (or_introl eq_refl) E2) in Ha; discriminate|]. destruct IH as (m & H1 & H2); auto; [intros m; intros; apply (C m k s0); auto; now right|]. exists m. split; [now right|exact H2].
  Qed.
  Lemma resolve_cte chain n x s : In n chain -> dget (n_ctes n) x = Some s -> resolve_table chain x <> None.
  Proof.
    induction chain as [|m r IH]; intros Hin Hn; [destruct Hin|]. cbn. destruct (dget (n_srcs m) x) eqn:E; [discriminate|]. destruct (dmem (n_ctes m) x) eqn:E2; [discriminate|]. destruct Hin as [->|Hin]; [|auto].
    apply dmem_nIn in E2. destruct E2. apply dget_key. congruence.
  Qed.
  Lemma resolve_ce chain env ce x s : Inv chain env ce -> find_cte ce x = Some s -> resolve_table chain x = Some (virt x).
  Proof.
    intros I H. destruct (inv_ce _ _ _ I x s H) as (H1 & H2 & H3). destruct (lookup_ctes chain env ce x s I H2 H3) as (n & Hn & Hd). destruct (resolve_table chain x) as [t|] eqn:E; [|now destruct (resolve_cte chain n x s Hn Hd)].
    pose proof (resolve_reg chain env ce x t I E) as R. unfold reg_ok in R. rewrite H2 in R. f_equal. now apply R.
  Qed.
  (** A table that is neither CTE nor subquery has no namespace. *)
  Lemma lookup_none chain env ce k : Inv chain env ce -> (al k = None -> is_cte k = false) -> al k <> Some (virt k) -> lookup_namespace chain k = None.
  Proof.
    intros [_ B C _ _] H1 H2. revert B C. induction chain as [|n r IH]; intros B C; cbn; [reflexivity|]. destruct (dget (n_ctes n) k) as [s|] eqn:E.
    - destruct (B n k s (or_introl eq_refl) E) as [B1 B2]. rewrite (H1 B1) in B2. discriminate.
    - destruct (dget (n_subs n) k) as [s|] eqn:E2; [now rewrite (C n k s (or_introl eq_refl) E2) in H2|]. apply IH; intros m; intros; [apply (B m k0 s)|apply (C m k0 s)]; auto; now right.
  Qed.

  (** ** One namespace *)
  Definition same (n n' : ns) : Prop := n_subs n' = n_subs n /\ n_ctes n' = n_ctes n /\ n_ctx n' = n_ctx n /\ n_srcs n' = n_srcs n /\ n_prod n' = n_prod n.
  Lemma same_refl n : same n n. Proof. repeat split. Qed.
  Lemma same_trans a b c : same a b -> same b c -> same a c.
  Proof. intros (A1 & A2 & A3 & A4 & A5) (B1 & B2 & B3 & B4 & B5). repeat split; congruence. Qed.
  Lemma lookup_same n n' anc k : n_subs n' = n_subs n -> n_ctes n' = n_ctes n -> lookup_namespace (n' :: anc) k = lookup_namespace (n :: anc) k.
  Proof. intros A B. cbn. now rewrite A, B. Qed.
  Lemma provides_same anc n n' c t : n_subs n' = n_subs n -> n_ctes n' = n_ctes n -> provides schema anc n' c t = provides schema anc n c t.
  Proof. intros A B. unfold provides. now rewrite (lookup_same n n' anc (ident t) A B), A, B. Qed.
  Lemma columns_same anc n n' t : n_subs n' = n_subs n -> n_ctes n' = n_ctes n -> table_columns schema anc n' t = table_columns schema anc n t.
  Proof. intros A B. unfold table_columns. destruct (t_alias t) as [a|]; [|reflexivity]. rewrite (lookup_same n n' anc a A B). destruct (t_full t) as [f|]; [|reflexivity]. now rewrite (lookup_same n n' anc f A B). Qed.
  Lemma Inv_same n n' anc env ce : same n n' -> Inv (n :: anc) env ce -> Inv (n' :: anc) env ce.
  Proof.
    intros (A1 & A2 & A3 & A4 & A5) [A B C D E]. split.
    - intros m k t [<-|Hm] H; [rewrite A4 in H; apply (A n); [now left|exact H]|apply (A m); [now right|exact H]].
    - intros m k s [<-|Hm] H; [rewrite A2 in H; apply (B n k s); [now left|exact H]|apply (B m k s); [now right|exact H]].
    - intros m k s [<-|Hm] H; [rewrite A1 in H; apply (C n k s); [now left|exact H]|apply (C m k s); [now right|exact H]].
    - intros s v Hs Hv. destruct (D s v Hs Hv) as (k & H1 & H2 & m & [<-|Hm] & H3); exists k; split; auto; split; auto; [exists n'; split; [now left|now rewrite A4]|exists m; split; [now right|exact H3]].
    - intros x s H. destruct (E x s H) as (H1 & H2 & H3). split; auto. split; auto. now rewrite (lookup_same n n' anc x A1 A2).
  Qed.
  Record Loc (anc : list ns) (n : ns) (here : scope) : Prop :=
    { loc_ctx : n_ctx n = map v_ref here;
      loc_key : forall v, In v here -> v_key v = Some (ident (v_ref v)) /\ (t_virt (v_ref v) = true -> t_full (v_ref v) = None);
      loc_prov : forall v c, In v here -> provides schema anc n c (v_ref v) = offers c v;
      loc_cols : forall v, In v here -> table_columns schema anc n (v_ref v) = Ok (v_cols v);
      loc_cache : forall c t, dget (n_cache n) c = Some t -> find (provides schema anc n c) (n_ctx n) = Some t }.
  Lemma Loc_shape anc n n' here : n_subs n' = n_subs n -> n_ctes n' = n_ctes n -> n_ctx n' = n_ctx n -> n_cache n' = n_cache n -> Loc anc n here -> Loc anc n' here.
  Proof.
    intros A B C E [L1 L2 L3 L4 L5]. split; auto; [congruence| | |].
    - intros v c Hv. rewrite (provides_same anc n n' c (v_ref v) A B). auto.
    - intros v Hv. rewrite (columns_same anc n n' (v_ref v) A B). auto.
    - intros c t H. rewrite E in H. rewrite C, <- (L5 c t H). clear - A B. induction (n_ctx n) as [|u l IH]; cbn; [reflexivity|]. now rewrite (provides_same anc n n' c u A B), IH.
  Qed.
  Lemma find_here anc n here c : Loc anc n here -> find (provides schema anc n c) (n_ctx n) = match filter (offers c) here with [] => None | v :: _ => Some (v_ref v) end.
  Proof.
    intros [L1 _ L3 _ _]. rewrite L1. clear L1. induction here as [|v r IH]; cbn; [reflexivity|]. rewrite (L3 v c (or_introl eq_refl)). destruct (offers c v); [reflexivity|]. apply IH. intros; apply L3; now right.
  Qed.
  Lemma lookup_ok anc n here c X : Loc anc n here -> good is_cte (FRef true (mem c (n_prod n)) X (map v_ref (filter (offers c) here))) ->
    exists n', lookup_column true schema anc n c = (X, n') /\ same n n' /\ Loc anc n' here.
  Proof.
    intros L G. pose proof (find_here anc n here c L) as F. unfold lookup_column. cbn [good] in G. destruct (mem c (n_prod n)).
    - rewrite G. exists n. split; [reflexivity|]. split; [apply same_refl|exact L].
    - assert (EX : find (provides schema anc n c) (n_ctx n) = X). { rewrite F. destruct (filter (offers c) here) as [|v l], X as [t|]; cbn in G; try discriminate; [reflexivity|]. now injection G as -> _. }
      destruct (dget (n_cache n) c) as [t|] eqn:E.
      + rewrite (loc_cache _ _ _ L c t E) in EX. rewrite EX. exists n. split; [reflexivity|]. split; [apply same_refl|exact L].
      + rewrite EX. destruct X as [t|]; [|exists n; split; [reflexivity|]; split; [apply same_refl|exact L]].
        eexists. split; [reflexivity|]. split; [repeat split|]. destruct L as [L1 L2 L3 L4 L5]. split; auto. cbn [n_cache n_ctx]. intros c' t' H. rewrite dset_spec in H. destruct (eqd c' c) as [->|]; [injection H as <-; exact EX|now apply L5].
  Qed.
  Lemma ref_ok anc n env ce here r : Inv (n :: anc) env ce -> Loc anc n here -> named_ref qual r -> good is_cte (sql_ref env here (n_prod n) r) ->
    exists n', parse_ref true schema anc r n = Ok (answers [sql_ref env here (n_prod n) r], n') /\ same n n' /\ Loc anc n' here.
  Proof.
    intros I L N G. destruct r as [c|k c]; cbn [sql_ref parse_ref].
    - destruct (lookup_ok anc n here c _ L G) as (n' & -> & H). exists n'. split; [reflexivity|exact H].
    - cbn in G, N. destruct (find_table env k) as [v|] eqn:E; [|now destruct G]. rewrite (resolve_qual (n :: anc) env ce k v I N E). exists n. split; [reflexivity|]. split; [apply same_refl|exact L].
  Qed.

  Lemma run_ok {A} (f : A -> ns -> res (list (option tref) * ns)) (g : A -> list fact) (J : ns -> Prop) l :
    (forall a n, In a l -> J n -> Forall (good is_cte) (g a) -> exists n', f a n = Ok (answers (g a), n') /\ J n') ->
    forall n, J n -> Forall (good is_cte) (flat_map g l) -> exists n', run f l n = Ok (answers (flat_map g l), n') /\ J n'.
  Proof.
    induction l as [|a r IH]; intros H n Jn G; cbn in *; [exists n; auto|]. apply Forall_app in G as [G1 G2]. destruct (H a n (or_introl eq_refl) Jn G1) as (n1 & -> & J1). cbn [rbind]. destruct (IH (fun b m Hb => H b m (or_intror Hb)) n1 J1 G2) as (n2 & -> & J2). cbn [rbind].
    exists n2. rewrite answers_app. auto.
  Qed.

  Definition Pq (q : query) : Prop := forall anc env ce, Inv anc env ce -> named al is_cte qual q -> Forall (good is_cte) (fst (sql schema env ce q)) ->
    parse_query true schema anc q = Ok (answers (fst (sql schema env ce q)), snd (sql schema env ce q)).
  Notation pitem := (parse_item true schema (parse_query true schema)).
  Notation sitem := (sql_item (sql schema)).
  Notation nitem := (named_item qual (named al is_cte qual)).

  Lemma item_ok anc n env ce here i : Inv (n :: anc) env ce -> Loc anc n here -> sub_item Pq i -> nitem i -> Forall (good is_cte) (sitem env ce here (n_prod n) i) ->
    exists n', pitem anc i n = Ok (answers (sitem env ce here (n_prod n) i), n') /\ same n n' /\ Loc anc n' here.
  Proof.
    intros I L S N G. destruct i as [r|q]; cbn [parse_item sql_item] in *.
    - inversion G; subst. now apply (ref_ok anc n env ce here r I L N).
    - rewrite (S (n :: anc) env ce I N G). cbn [rbind]. exists n. split; [reflexivity|]. split; [apply same_refl|exact L].
  Qed.
  Lemma items_ok anc n env ce here l : Inv (n :: anc) env ce -> Loc anc n here -> All (sub_item Pq) l -> All nitem l -> Forall (good is_cte) (flat_map (sitem env ce here (n_prod n)) l) ->
    exists n', run (pitem anc) l n = Ok (answers (flat_map (sitem env ce here (n_prod n)) l), n') /\ same n n' /\ Loc anc n' here.
  Proof.
    intros I L S N G. rewrite All_In in S, N. apply (run_ok (pitem anc) (sitem env ce here (n_prod n)) (fun m => same n m /\ Loc anc m here)); [|split; [apply same_refl|exact L]|exact G].
    intros i m Hi [Hm Lm] Gi. assert (E : n_prod m = n_prod n) by apply Hm. rewrite <- E in *. destruct (item_ok anc m env ce here i (Inv_same n m anc env ce Hm I) Lm (S i Hi) (N i Hi) Gi) as (m' & H1 & H2 & H3).
    exists m'. split; [exact H1|]. split; [now apply (same_trans n m m')|exact H3].
  Qed.
  Lemma Inv_empty anc env ce : Inv anc env ce -> Inv (empty_ns :: anc) env ce.
  Proof.
    intros [A B C D E]. split.
    - intros n k t [<-|Hn] H; [discriminate|now apply (A n)].
    - intros n k s [<-|Hn] H; [discriminate|now apply (B n k s)].
    - intros n k s [<-|Hn] H; [discriminate|now apply (C n k s)].
    - intros s v Hs Hv. destruct (D s v Hs Hv) as (k & H1 & H2 & m & Hm & H3). exists k. split; auto. split; auto. exists m. split; [now right|exact H3].
    - intros x s H. cbn. auto.
  Qed.
  Lemma Loc_nil anc n : n_ctx n = [] -> n_cache n = [] -> Loc anc n [].
  Proof. intros A B. split; [exact A|intros v []|intros v c []|intros v []|]. intros c t H. rewrite B in H. discriminate. Qed.
  Lemma child_items anc env ce l : Inv anc env ce -> All (sub_item Pq) l -> All nitem l -> Forall (good is_cte) (flat_map (sitem env ce [] []) l) ->
    exists n', run (pitem anc) l empty_ns = Ok (answers (flat_map (sitem env ce [] []) l), n').
  Proof. intros I S N G. destruct (items_ok anc empty_ns env ce [] l (Inv_empty anc env ce I) (Loc_nil anc empty_ns eq_refl eq_refl) S N G) as (n' & H & _). eauto. Qed.

  (** ** FROM *)
  Notation pfrom := (parse_from true schema (parse_query true schema)).
  Notation sfrom := (sql_from schema (sql schema)).
  Notation nfrom := (named_from al is_cte qual (named al is_cte qual)).
  Lemma dset_some {V} (d : dict name V) k v x : dget d x <> None -> dget (dset d k v) x <> None.
  Proof. intros H. rewrite dset_spec. destruct (eqd x k); [discriminate|exact H]. Qed.
  Lemma register_srcs n t k : dget (n_srcs (register_table n t)) k = Some t \/ dget (n_srcs (register_table n t)) k = dget (n_srcs n) k.
  Proof.
    unfold register_table. cbn [n_srcs]. destruct (t_full t) as [f|]; [rewrite dset_spec; destruct (eqd k f); [now left|]|]; (destruct (t_alias t) as [a|]; [rewrite dset_spec; destruct (eqd k a); [now left|now right]|now right]).
  Qed.
  Lemma register_hit n t k : dget (n_srcs (register_table n t)) k = dget (n_srcs n) k \/ t_alias t = Some k \/ t_full t = Some k.
  Proof.
    unfold register_table. cbn [n_srcs]. destruct (t_full t) as [f|]; [rewrite dset_spec; destruct (eqd k f) as [->|]; [auto|]|]; (destruct (t_alias t) as [a|]; [rewrite dset_spec; destruct (eqd k a) as [->|]; [auto|auto]|auto]).
  Qed.
  Lemma register_ident n t : t_full t <> None \/ t_alias t <> None -> dget (n_srcs (register_table n t)) (ident t) <> None.
  Proof.
    unfold register_table, ident. cbn [n_srcs]. destruct (t_full t) as [f|], (t_alias t) as [a|]; intros H.
    - apply dset_some. rewrite dset_same. discriminate.
    - rewrite dset_same. discriminate.
    - rewrite dset_same. discriminate.
    - destruct H; congruence.
  Qed.
  (** Registering a table. *)
  Lemma register_ok anc n prev outer ce v : Inv (n :: anc) (prev :: outer) ce -> Loc anc n prev ->
    let t := v_ref v in
    (t_full t <> None \/ t_alias t <> None) -> v_key v = Some (ident t) /\ (t_virt t = true -> t_full t = None) -> t = rf (ident t) ->
    (forall k, t_alias t = Some k \/ t_full t = Some k -> reg_ok k t) ->
    (forall c, provides schema anc n c t = offers c v) -> table_columns schema anc n t = Ok (v_cols v) ->
    Inv (register_table n t :: anc) ((prev ++ [v]) :: outer) ce /\ Loc anc (register_table n t) (prev ++ [v]).
  Proof.
    intros [A B C D E] [L1 L2 L3 L4 L5] t Ht Hk Hr Hreg Hp Hc. set (n' := register_table n t).
    assert (S1 : n_subs n' = n_subs n) by reflexivity. assert (S2 : n_ctes n' = n_ctes n) by reflexivity. split.
    - split.
      + intros m k u [<-|Hm] H; [|apply (A m); [now right|exact H]]. destruct (register_hit n t k) as [R|R]; fold n' in R.
        * rewrite R in H. apply (A n); [now left|exact H].
        * destruct (register_srcs n t k) as [Q|Q]; fold n' in Q; rewrite Q in H; [injection H as <-; now apply Hreg|apply (A n); [now left|exact H]].
      + intros m k s [<-|Hm] H; [rewrite S2 in H; apply (B n k s); [now left|exact H]|apply (B m k s); [now right|exact H]].
      + intros m k s [<-|Hm] H; [rewrite S1 in H; apply (C n k s); [now left|exact H]|apply (C m k s); [now right|exact H]].
      + intros s w Hs Hw. assert (Hold : (exists s', In s' (prev :: outer) /\ In w s') \/ w = v). { destruct Hs as [<-|Hs]; [|left; exists s; split; [now right|exact Hw]]. apply in_app_iff in Hw as [Hw|[<-|[]]]; [left; exists prev; split; [now left|exact Hw]|now right]. }
        destruct Hold as [(s' & Hs' & Hw')| ->].
        * destruct (D s' w Hs' Hw') as (k & H1 & H2 & m & [<-|Hm] & H3); exists k; split; auto; split; auto; [|exists m; split; [now right|exact H3]].
          exists n'. split; [now left|]. destruct (register_srcs n t k) as [Q|Q]; fold n' in Q; rewrite Q; [discriminate|exact H3].
        * exists (ident t). split; [apply Hk|]. split; [exact Hr|]. exists n'. split; [now left|]. now apply register_ident.
      + intros x s H. destruct (E x s H) as (H1 & H2 & H3). split; [exact H1|]. split; [exact H2|]. now rewrite (lookup_same n n' anc x S1 S2).
    - split.
      + cbn [n_ctx]. unfold n', register_table. cbn [n_ctx]. rewrite map_app, L1. reflexivity.
      + intros w Hw. apply in_app_iff in Hw as [Hw|[<-|[]]]; auto.
      + intros w c Hw. rewrite (provides_same anc n n' c (v_ref w) S1 S2). apply in_app_iff in Hw as [Hw|[<-|[]]]; [now apply L3|apply Hp].
      + intros w Hw. rewrite (columns_same anc n n' (v_ref w) S1 S2). apply in_app_iff in Hw as [Hw|[<-|[]]]; [now apply L4|exact Hc].
      + intros c u H. discriminate.
  Qed.
  (** Opening a subquery. *)
  Lemma open_inv anc n prev outer ce a : Inv (n :: anc) (prev :: outer) ce -> al a = Some (virt a) -> Inv (open_sub n a :: anc) (prev :: outer) ce.
  Proof.
    intros [A B C D E] Ha. split.
    - intros m k u [<-|Hm] H; [|apply (A m); [now right|exact H]]. cbn [open_sub n_srcs] in H. rewrite dset_spec in H. destruct (eqd k a) as [->|]; [injection H as <-; unfold reg_ok; now rewrite Ha|apply (A n); [now left|exact H]].
    - intros m k s [<-|Hm] H; [apply (B n k s); [now left|exact H]|apply (B m k s); [now right|exact H]].
    - intros m k s [<-|Hm] H; [|apply (C m k s); [now right|exact H]]. cbn [open_sub n_subs] in H. rewrite dset_spec in H. destruct (eqd k a) as [->|]; [exact Ha|apply (C n k s); [now left|exact H]].
    - intros s v Hs Hv. destruct (D s v Hs Hv) as (k & H1 & H2 & m & [<-|Hm] & H3); exists k; split; auto; split; auto; [|exists m; split; [now right|exact H3]]. exists (open_sub n a). split; [now left|]. cbn [open_sub n_srcs]. now apply dset_some.
    - intros x s H. destruct (E x s H) as (H1 & H2 & H3). split; [exact H1|]. split; [exact H2|]. rewrite <- H3. cbn. rewrite dset_other; [reflexivity|]. intros ->. congruence.
  Qed.
  Lemma close_ok anc n prev outer ce a s : Inv (n :: anc) (prev :: outer) ce -> Loc anc n prev -> al a = Some (virt a) -> ~ In a (map (fun v => ident (v_ref v)) prev) ->
    let v := V (Some a) (virt a) s in Inv (close_sub (open_sub n a) a s :: anc) ((prev ++ [v]) :: outer) ce /\ Loc anc (close_sub (open_sub n a) a s) (prev ++ [v]).
  Proof.
    intros I [L1 L2 L3 L4 L5] Ha Hn v. set (n' := close_sub (open_sub n a) a s). destruct (open_inv anc n prev outer ce a I Ha) as [A B C D E].
    assert (G : forall k, dget (n_subs n') k = if eqd k a then Some s else dget (n_subs n) k). { intros k. unfold n'. cbn. rewrite dset_spec. destruct (eqd k a) as [->|Hk]; [reflexivity|]. now rewrite dset_other. }
    assert (Ga : dget (n_subs n') a = Some s) by (rewrite G; destruct (eqd a a); congruence).
    assert (Gk : forall k, k <> a -> dget (n_subs n') k = dget (n_subs n) k) by (intros k Hk; rewrite G; destruct (eqd k a); congruence).
    assert (Gl : forall k, k <> a -> lookup_namespace (n' :: anc) k = lookup_namespace (n :: anc) k) by (intros k Hk; cbn [lookup_namespace]; rewrite (Gk k Hk); reflexivity).
    assert (Na : dget (n_ctes n) a = None). { destruct (dget (n_ctes n) a) as [s0|] eqn:Ec; [|reflexivity]. destruct (inv_ctes _ _ _ I n a s0 (or_introl eq_refl) Ec). congruence. }
    assert (La : lookup_namespace (n' :: anc) a = Some s) by (cbn [lookup_namespace]; change (n_ctes n') with (n_ctes n); now rewrite Na, Ga).
    split.
    - split.
      + intros m k t [<-|Hm] H; [apply (A (open_sub n a)); [now left|exact H]|apply (A m); [now right|exact H]].
      + intros m k s0 [<-|Hm] H; [apply (B (open_sub n a) k s0); [now left|exact H]|apply (B m k s0); [now right|exact H]].
      + intros m k s0 [<-|Hm] H; [|apply (C m k s0); [now right|exact H]]. destruct (eqd k a) as [->|Hk]; [exact Ha|]. rewrite (Gk k Hk) in H. apply (inv_subs _ _ _ I n k s0); [now left|exact H].
      + intros s0 w Hs Hw. assert (Hold : (exists s', In s' (prev :: outer) /\ In w s') \/ w = v). { destruct Hs as [<-|Hs]; [|left; exists s0; split; [now right|exact Hw]]. apply in_app_iff in Hw as [Hw|[<-|[]]]; [left; exists prev; split; [now left|exact Hw]|now right]. }
        destruct Hold as [(s' & Hs' & Hw')| ->].
        * destruct (D s' w Hs' Hw') as (k & H1 & H2 & m & [<-|Hm] & H3); exists k; split; auto; split; auto; [exists n'; split; [now left|exact H3]|exists m; split; [now right|exact H3]].
        * exists a. split; [reflexivity|]. split; [unfold rf; now rewrite Ha|]. exists n'. split; [now left|]. cbn. rewrite dset_same. discriminate.
      + intros x s0 H. destruct (inv_ce _ _ _ I x s0 H) as (H1 & H2 & H3). split; [exact H1|]. split; [exact H2|]. rewrite Gl; [exact H3|]. intros ->. congruence.
    - assert (Hid : forall w, In w prev -> ident (v_ref w) <> a). { intros w Hw Ew. apply Hn. rewrite <- Ew. now apply (in_map (fun v => ident (v_ref v))). }
      assert (Hpr : forall c w, In w prev -> provides schema anc n' c (v_ref w) = provides schema anc n c (v_ref w)). { intros c w Hw. unfold provides. rewrite (Gl _ (Hid w Hw)), (Gk _ (Hid w Hw)). reflexivity. }
      split.
      + unfold n'. cbn. rewrite map_app, L1. reflexivity.
      + intros w Hw. apply in_app_iff in Hw as [Hw|[<-|[]]]; auto.
      + intros w c Hw. apply in_app_iff in Hw as [Hw|[<-|[]]]; [rewrite (Hpr c w Hw); now apply L3|]. unfold provides. change (ident (v_ref v)) with a. rewrite La, Ga. change (n_ctes n') with (n_ctes n). rewrite Na. cbn. unfold offers. cbn. now rewrite orb_false_r, orb_diag.
      + intros w Hw. apply in_app_iff in Hw as [Hw|[<-|[]]].
        * rewrite <- (L4 w Hw). unfold table_columns. destruct (t_virt (v_ref w)) eqn:Ev; cbn [negb]; [|reflexivity]. pose proof (Hid w Hw) as Hi. unfold ident in Hi. destruct (t_alias (v_ref w)) as [b|] eqn:Eb; [|reflexivity]. rewrite (Gl b Hi).
          destruct (lookup_namespace (n :: anc) b) as [sb|] eqn:Elb; [reflexivity|]. destruct (t_full (v_ref w)) as [f|] eqn:Ef; [|reflexivity].
          rewrite (proj2 (L2 w Hw) Ev) in Ef. discriminate.
        * unfold table_columns. cbn [v v_ref virt t_virt t_alias negb]. now rewrite La.
      + intros c u H. discriminate.
  Qed.

  Lemma scan_ok anc n prev outer ce full a : Inv (n :: anc) (prev :: outer) ce -> Loc anc n prev -> nfrom (FTab full a) ->
    Forall (good is_cte) (fst (sfrom outer ce (FTab full a) prev)) ->
    exists n', pfrom anc (FTab full a) n = Ok (answers (fst (sfrom outer ce (FTab full a) prev)), n') /\ n_prod n' = n_prod n /\
      Inv (n' :: anc) ((prev ++ snd (sfrom outer ce (FTab full a) prev)) :: outer) ce /\ Loc anc n' (prev ++ snd (sfrom outer ce (FTab full a) prev)) /\
      map (fun v => ident (v_ref v)) (snd (sfrom outer ce (FTab full a) prev)) = @fkeys query (FTab full a).
  Proof.
    intros I L N G. cbn [sql_from fst snd] in *. inversion G as [|? ? G1 _]; subst. clear G. cbn [good] in G1. cbn [parse_from].
    destruct (find_cte ce full) as [s|] eqn:Ec.
    - destruct (inv_ce _ _ _ I full s Ec) as (C1 & C2 & C3). rewrite (resolve_ce _ _ _ _ _ I Ec). cbn [virt t_virt].
      destruct a as [a|]; [cbn in N; destruct N as (_ & _ & N & _); congruence|]. cbn [v_ref] in *.
      eexists. split; [reflexivity|]. split; [reflexivity|].
      assert (Hs : dget (n_subs n) full = None). { destruct (dget (n_subs n) full) as [s0|] eqn:E; [|reflexivity]. pose proof (inv_subs _ _ _ I n full s0 (or_introl eq_refl) E). congruence. }
      destruct (register_ok anc n prev outer ce (V (Some full) (virt full) s) I L) as [H1 H2]; [right; discriminate|split; [reflexivity|reflexivity]| | | |unfold table_columns; cbn [v_ref virt t_virt negb t_alias v_cols]; now rewrite C3|].
      + cbn. unfold rf, base. now rewrite C2, C1.
      + cbn. intros k [Hk|Hk]; [|discriminate]. injection Hk as <-. unfold reg_ok. rewrite C2. cbn. split; [now rewrite C1|]. split; [reflexivity|]. intros _. unfold base. now rewrite C1.
      + intros c. unfold provides. change (ident (v_ref (V (Some full) (virt full) s))) with full. rewrite C3, Hs. cbn [v_ref virt t_virt negb andb has orb]. unfold offers. cbn [v_cols].
        cbn [lookup_namespace] in C3. destruct (dget (n_ctes n) full) as [s0|]; [injection C3 as ->; cbn; now rewrite orb_diag|reflexivity].
      + split; [exact H1|]. split; [exact H2|reflexivity].
    - set (t := T (Some full) a false). assert (Gf : is_cte full = false) by (destruct a; cbn in G1; congruence).
      assert (Haf : al full = None) by (destruct a; cbn in N; apply N).
      assert (Et : match resolve_table (n :: anc) full with Some s => if t_virt s then match a with None => s | Some _ => T (Some full) a true end else t | None => t end = t).
      { destruct (resolve_table (n :: anc) full) as [u|] eqn:E; [|reflexivity]. pose proof (resolve_reg _ _ _ _ _ I E) as R. unfold reg_ok in R. rewrite Haf, Gf in R. destruct R as [R _]. now rewrite R. }
      cbv zeta. rewrite Et. set (v := match a with Some a0 => V (Some a0) (T (Some full) (Some a0) false) (schema full) | None => V (Some full) (T (Some full) None false) (schema full) end).
      assert (Ev : v_ref v = t) by (unfold v, t; destruct a; reflexivity). assert (Ek : v_key v = Some (ident t)) by (unfold v, t; destruct a; reflexivity). assert (Eco : v_cols v = schema full) by (unfold v; destruct a; reflexivity).
      assert (Er : t = rf (ident t)). { unfold rf, t. destruct a as [a|]; cbn [ident t_alias t_full]; cbn in N; [destruct N as (_ & N & _); now rewrite N|]. rewrite N. unfold base. now rewrite Gf. }
      assert (Hno : lookup_namespace (n :: anc) (ident t) = None).
      { apply (lookup_none (n :: anc) (prev :: outer) ce); [exact I| |]; unfold t; destruct a as [a|]; cbn [ident t_alias t_full]; cbn in N.
        - destruct N as (_ & N & _). congruence.
        - auto.
        - destruct N as (_ & N & _). rewrite N. discriminate.
        - rewrite N. discriminate. }
      assert (Hn1 : dget (n_ctes n) (ident t) = None /\ dget (n_subs n) (ident t) = None). { cbn [lookup_namespace] in Hno. destruct (dget (n_ctes n) (ident t)); [discriminate|]. destruct (dget (n_subs n) (ident t)); [discriminate|auto]. }
      destruct (register_ok anc n prev outer ce v I L) as [H1 H2]; rewrite ?Ev.
      + left. discriminate.
      + split; [exact Ek|]. discriminate.
      + exact Er.
      + intros k [Hk|Hk]; unfold t in Hk; cbn in Hk.
        * subst a. cbn in N. destruct N as (_ & N & _). unfold reg_ok. now rewrite N.
        * injection Hk as <-. unfold reg_ok. rewrite Haf, Gf. split; [reflexivity|]. split; [discriminate|]. intros Hq. destruct a as [a|]; cbn in N; [destruct N as (_ & _ & _ & N); congruence|]. unfold base. now rewrite Gf.
      + intros c. unfold provides. rewrite Hno. destruct Hn1 as [-> ->]. cbn [t t_virt t_full negb andb has]. rewrite !orb_false_r. unfold offers. now rewrite Eco.
      + unfold table_columns. cbn [t t_virt t_full negb]. now rewrite Eco.
      + rewrite Ev in H1, H2. exists (register_table n t). split; [unfold v, t; destruct a; reflexivity|]. split; [reflexivity|]. split; [exact H1|]. split; [exact H2|]. unfold v, ident. now destruct a.
  Qed.
  Lemma answers_snd_app a b c : answers (a ++ b ++ c) = answers a ++ answers b ++ answers c. Proof. now rewrite !answers_app. Qed.
  Lemma NoDup_app_inv {A} (l m : list A) : NoDup (l ++ m) -> NoDup l /\ NoDup m /\ forall x, In x l -> ~ In x m.
  Proof.
    induction l as [|a l IH]; cbn; intros H; [split; [constructor|]; split; [exact H|]; intros x []|]. inversion H as [|? ? H1 H2]; subst. destruct (IH H2) as (I1 & I2 & I3). split; [constructor; [intros Ha; apply H1, in_app_iff; now left|exact I1]|]. split; [exact I2|].
    intros x [<-|Hx] Hm; [apply H1, in_app_iff; now right|now apply (I3 x)].
  Qed.
  Lemma from_ok outer anc ce : forall f n prev, Inv (n :: anc) (prev :: outer) ce -> Loc anc n prev -> n_prod n = [] -> sub_from Pq f -> nfrom f ->
    NoDup (map (fun v => ident (v_ref v)) prev ++ fkeys f) -> Forall (good is_cte) (fst (sfrom outer ce f prev)) ->
    exists n', pfrom anc f n = Ok (answers (fst (sfrom outer ce f prev)), n') /\ n_prod n' = [] /\
      Inv (n' :: anc) ((prev ++ snd (sfrom outer ce f prev)) :: outer) ce /\ Loc anc n' (prev ++ snd (sfrom outer ce f prev)) /\
      map (fun v => ident (v_ref v)) (snd (sfrom outer ce f prev)) = fkeys f.
  Proof.
    induction f as [full a|l IHl r IHr on|a cols lat q|a cols l|a l]; intros n prev I L Hp S N ND G.
    - rewrite <- Hp. now apply scan_ok.
    - cbn [sql_from parse_from sub_from named_from fkeys] in *. destruct S as (S1 & S2 & S3). destruct N as (N1 & N2 & N3). rewrite app_assoc in ND. destruct (NoDup_app_inv _ _ ND) as (ND1 & _ & _).
      destruct (sfrom outer ce l prev) as [x s1] eqn:E1. destruct (sfrom outer ce r (prev ++ s1)) as [y s2] eqn:E2. cbn [fst snd] in *. apply Forall_app in G as [G1 G2]. apply Forall_app in G2 as [G2 G3].
      destruct (IHl n prev I L Hp S1 N1 ND1) as (n1 & -> & P1 & I1 & L1 & K1); rewrite E1 in *; [exact G1|]. cbn [fst snd rbind] in *.
      destruct (IHr n1 (prev ++ s1) I1 L1 P1 S2 N2) as (n2 & -> & P2 & I2 & L2 & K2); rewrite ?E2; [rewrite map_app, K1; exact ND|exact G2|]. rewrite E2 in *. cbn [fst snd rbind] in *. rewrite <- app_assoc in I2, L2.
      assert (I3 : Inv (n2 :: anc) ((s1 ++ s2) :: outer) ce). { apply (Inv_incl _ _ _ _ I2). intros s v [<-|Hs] Hv; [exists (prev ++ s1 ++ s2); split; [now left|apply in_app_iff; now right]|exists s; split; [now right|exact Hv]]. }
      rewrite <- P2 in G3. destruct (items_ok anc n2 _ ce (prev ++ s1 ++ s2) on I3 L2 S3 N3 G3) as (n3 & -> & H3 & L3). cbn [rbind]. exists n3. rewrite P2. split; [now rewrite answers_snd_app|].
      split; [destruct H3 as (_ & _ & _ & _ & H3); congruence|]. split; [now apply (Inv_same n2)|]. split; [exact L3|]. now rewrite map_app, K1, K2.
    - cbn [sql_from parse_from sub_from named_from fkeys] in *. destruct a as [a|]; [|destruct N]. destruct N as (N1 & -> & N3). set (env := if lat then prev :: outer else outer) in *.
      destruct (sql schema env ce q) as [x s] eqn:Eq. cbn [fst snd] in *. pose proof (open_inv anc n prev outer ce a I N1) as I1.
      assert (I2 : Inv (open_sub n a :: anc) env ce). { unfold env. destruct lat; [exact I1|]. apply (Inv_incl _ _ _ _ I1). intros s0 v Hs Hv. exists s0. split; [now right|exact Hv]. }
      rewrite (S (open_sub n a :: anc) env ce I2 N3) by (rewrite Eq; exact G). rewrite Eq. cbn [fst snd rbind]. exists (close_sub (open_sub n a) a s). split; [reflexivity|]. split; [exact Hp|].
      change (renamed [] s) with s. destruct (close_ok anc n prev outer ce a s I L N1) as [J1 J2]; [destruct (NoDup_app_inv _ _ ND) as (_ & _ & ND3); intros Ha; apply (ND3 a Ha); now left|].
      split; [exact J1|]. split; [exact J2|reflexivity].
    - cbn [sql_from parse_from sub_from named_from fkeys] in *. destruct a as [a|]; [|destruct N]. destruct N as (N1 & N2). cbn [fst snd] in *. pose proof (open_inv anc n prev outer ce a I N1) as I1.
      assert (I2 : Inv (open_sub n a :: anc) outer ce). { apply (Inv_incl _ _ _ _ I1). intros s0 v Hs Hv. exists s0. split; [now right|exact Hv]. }
      destruct (child_items _ outer ce l I2 S N2 G) as [n' ->]. cbn [rbind]. exists (close_sub (open_sub n a) a cols). split; [reflexivity|]. split; [exact Hp|].
      destruct (close_ok anc n prev outer ce a cols I L N1) as [J1 J2]; [destruct (NoDup_app_inv _ _ ND) as (_ & _ & ND3); intros Ha; apply (ND3 a Ha); now left|].
      split; [exact J1|]. split; [exact J2|reflexivity].
    - destruct N.
  Qed.
  Lemma froms_ok outer anc ce : forall l n prev, Inv (n :: anc) (prev :: outer) ce -> Loc anc n prev -> n_prod n = [] -> All (sub_from Pq) l -> All nfrom l ->
    NoDup (map (fun v => ident (v_ref v)) prev ++ flat_map fkeys l) -> Forall (good is_cte) (fst (sql_froms schema (sql schema) outer ce l prev)) ->
    exists n', run (pfrom anc) l n = Ok (answers (fst (sql_froms schema (sql schema) outer ce l prev)), n') /\ n_prod n' = [] /\
      Inv (n' :: anc) (snd (sql_froms schema (sql schema) outer ce l prev) :: outer) ce /\ Loc anc n' (snd (sql_froms schema (sql schema) outer ce l prev)).
  Proof.
    induction l as [|f l IH]; intros n prev I L Hp S N ND G; cbn [sql_froms run All flat_map] in *; [exists n; auto|]. destruct S as [S1 S2]. destruct N as [N1 N2]. rewrite app_assoc in ND. destruct (NoDup_app_inv _ _ ND) as (ND1 & _ & _).
    destruct (sfrom outer ce f prev) as [x s] eqn:E. destruct (sql_froms schema (sql schema) outer ce l (prev ++ s)) as [y s'] eqn:E2. cbn [fst snd] in *. apply Forall_app in G as [G1 G2].
    destruct (from_ok outer anc ce f n prev I L Hp S1 N1 ND1) as (n1 & -> & P1 & I1 & L1 & K1); rewrite E in *; [exact G1|]. cbn [fst snd rbind] in *.
    destruct (IH n1 (prev ++ s) I1 L1 P1 S2 N2) as (n2 & -> & P2 & I2 & L2); rewrite ?E2; [rewrite map_app, K1; exact ND|exact G2|]. rewrite E2 in *. cbn [fst snd rbind] in *.
    exists n2. rewrite answers_app. auto.
  Qed.

  (** ** WITH *)
  Lemma cte_inv anc n outer ce a s : Inv (n :: anc) outer ce -> al a = None -> is_cte a = true -> find_cte ce a = None -> Inv (open_cte n a s :: anc) outer ce.
  Proof.
    intros [A B C D E] Ha Hc Hf. split.
    - intros m k t [<-|Hm] H; [apply (A n); [now left|exact H]|apply (A m); [now right|exact H]].
    - intros m k s0 [<-|Hm] H; [|apply (B m k s0); [now right|exact H]]. cbn [open_cte n_ctes] in H. rewrite dset_spec in H. destruct (eqd k a) as [->|]; [auto|apply (B n k s0); [now left|exact H]].
    - intros m k s0 [<-|Hm] H; [apply (C n k s0); [now left|exact H]|apply (C m k s0); [now right|exact H]].
    - intros s0 v Hs Hv. destruct (D s0 v Hs Hv) as (k & H1 & H2 & m & [<-|Hm] & H3); exists k; (split; [exact H1|]); (split; [exact H2|]); [exists (open_cte n a s); split; [now left|exact H3]|exists m; split; [now right|exact H3]].
    - intros x s0 H. destruct (E x s0 H) as (H1 & H2 & H3). split; [exact H1|]. split; [exact H2|]. rewrite <- H3. cbn. rewrite dset_other; [reflexivity|]. intros ->. congruence.
  Qed.
  Lemma cte_done anc n outer ce a s : Inv (n :: anc) outer ce -> al a = None -> is_cte a = true -> find_cte ce a = None -> Inv (open_cte n a s :: anc) outer ((a, s) :: ce).
  Proof.
    intros I Ha Hc Hf. destruct (cte_inv anc n outer ce a s I Ha Hc Hf) as [A B C D E]. split; auto. intros x s0 H. cbn [find_cte] in H. destruct (a =? x) eqn:Ex; [|now apply E].
    apply Nat.eqb_eq in Ex as <-. injection H as <-. split; [exact Hc|]. split; [exact Ha|]. cbn. now rewrite dset_same.
  Qed.
  Notation scte := (sql_cte (sql schema)).
  Notation pcte := (parse_cte true schema (parse_query true schema)).
  Lemma cte_ok anc n outer ce c : Inv (n :: anc) outer ce -> sub_cte Pq c -> named_cte al is_cte qual (named al is_cte qual) c -> Forall (good is_cte) (fst (scte outer ce c)) ->
    exists a s, pcte anc c n = Ok (answers (fst (scte outer ce c)), open_cte n a s) /\ Inv (open_cte n a s :: anc) outer (snd (scte outer ce c)).
  Proof.
    intros I S N G. destruct c as [a cols q|a cols l]; cbn [sql_cte parse_cte sub_cte named_cte] in *.
    - destruct N as (N1 & N2 & -> & N4). destruct (sql schema outer ce q) as [x s] eqn:Eq. cbn [fst snd] in *. inversion G as [|? ? G1 G2]; subst. cbn [good] in G1. assert (Hf : find_cte ce a = None) by (destruct (find_cte ce a); [discriminate|reflexivity]).
      rewrite (S (open_cte n a [] :: anc) outer ce (cte_inv anc n outer ce a [] I N1 N2 Hf) N4) by (rewrite Eq; exact G2). rewrite Eq. cbn [rbind fst snd]. exists a, s. split; [reflexivity|]. now apply cte_done.
    - destruct N as (N1 & N2 & N3). cbn [fst snd] in *. inversion G as [|? ? G1 G2]; subst. cbn [good] in G1. assert (Hf : find_cte ce a = None) by (destruct (find_cte ce a); [discriminate|reflexivity]).
      destruct (child_items _ outer ce l (cte_inv anc n outer ce a [] I N1 N2 Hf) S N3 G2) as [n' ->]. cbn [rbind]. exists a, cols. split; [reflexivity|]. now apply cte_done.
  Qed.
  Lemma ctes_ok anc outer : forall w n ce, Inv (n :: anc) outer ce -> n_ctx n = [] -> n_prod n = [] -> n_cache n = [] -> All (sub_cte Pq) w -> All (named_cte al is_cte qual (named al is_cte qual)) w ->
    Forall (good is_cte) (fst (sql_ctes (sql schema) outer ce w)) ->
    exists n', run (pcte anc) w n = Ok (answers (fst (sql_ctes (sql schema) outer ce w)), n') /\ Inv (n' :: anc) outer (snd (sql_ctes (sql schema) outer ce w)) /\ n_ctx n' = [] /\ n_prod n' = [] /\ n_cache n' = [].
  Proof.
    induction w as [|c w IH]; intros n ce I H1 H2 H3 S N G; cbn [sql_ctes run All] in *; [exists n; auto|]. destruct S as [S1 S2]. destruct N as [N1 N2]. destruct (scte outer ce c) as [x ce1] eqn:E. destruct (sql_ctes (sql schema) outer ce1 w) as [y ce2] eqn:E2. cbn [fst snd] in *. apply Forall_app in G as [G1 G2].
    destruct (cte_ok anc n outer ce c I S1 N1) as (a & s & -> & I1); rewrite E in *; [exact G1|]. cbn [rbind fst snd] in *. destruct (IH (open_cte n a s) ce1 I1 H1 H2 eq_refl S2 N2) as (n' & -> & I2 & J); rewrite ?E2; [exact G2|]. rewrite E2 in *. cbn [rbind fst snd] in *. exists n'. rewrite answers_app. auto.
  Qed.

  (** ** SELECT *)
  Notation ptarget := (parse_target true schema (parse_query true schema)).
  Notation starget := (sql_target (sql schema)).
  Lemma targets_ok anc n here outer ce ts : Inv (n :: anc) (here :: outer) ce -> Loc anc n here -> n_prod n = [] -> All (sub_target Pq) ts -> All (named_target qual (named al is_cte qual)) ts ->
    Forall (good is_cte) (flat_map (starget (here :: outer) ce here) ts) ->
    exists n', run (ptarget anc) ts n = Ok (answers (flat_map (starget (here :: outer) ce here) ts), n') /\ same n n' /\ Loc anc n' here.
  Proof.
    intros I L P S N G. rewrite All_In in S, N. apply (run_ok (ptarget anc) (starget (here :: outer) ce here) (fun m => same n m /\ Loc anc m here)); [|split; [apply same_refl|exact L]|exact G].
    intros t m Ht [Hm Lm] Gt. pose proof (Inv_same n m anc _ ce Hm I) as Im. assert (E : n_prod m = []) by (destruct Hm as (_ & _ & _ & _ & Hm); congruence). specialize (S t Ht). specialize (N t Ht).
    destruct t as [|k|r a|l a]; cbn [sql_target parse_target sub_target named_target] in *.
    - exists m. auto.
    - pose proof (Forall_inv Gt) as G1. cbn [good] in G1. destruct G1 as [G1 _]. destruct (find_table (here :: outer) k) as [v|] eqn:Ev; [|now destruct G1]. rewrite (resolve_qual (m :: anc) _ ce k v Im N Ev). exists m. split; [cbn [option_map answers flat_map answer]; reflexivity|auto].
    - inversion Gt as [|? ? G1 _]; subst. rewrite <- E in *. destruct (ref_ok anc m _ ce here r Im Lm N G1) as (m' & H1 & H2 & H3). exists m'. split; [exact H1|]. split; [now apply (same_trans n m m')|exact H3].
    - rewrite <- E in *. destruct (items_ok anc m _ ce here l Im Lm S N Gt) as (m' & H1 & H2 & H3). exists m'. split; [exact H1|]. split; [now apply (same_trans n m m')|exact H3].
  Qed.
  Lemma rmapM_map {A B} (f : A -> res B) (g : A -> B) l : (forall a, In a l -> f a = Ok (g a)) -> rmapM f l = Ok (map g l).
  Proof. induction l as [|a l IH]; intros H; cbn; [reflexivity|]. rewrite (H a (or_introl eq_refl)). cbn. rewrite IH; [reflexivity|]. intros b Hb. apply H. now right. Qed.
  Lemma columns_fst v : map fst (columns_of v) = v_cols v.
  Proof. unfold columns_of. rewrite map_map. cbn. apply map_id. Qed.
  Lemma shape_ok anc n here outer ce ts : Inv (n :: anc) (here :: outer) ce -> Loc anc n here -> All (named_target qual (named al is_cte qual)) ts ->
    Forall (good is_cte) (flat_map (starget (here :: outer) ce here) ts) ->
    rmapM (target_columns schema anc n) ts = Ok (map (fun t => map fst (sql_outputs (here :: outer) here t)) ts).
  Proof.
    intros I L N G. rewrite All_In in N. apply rmapM_map. intros t Ht. specialize (N t Ht).
    assert (Gt : Forall (good is_cte) (starget (here :: outer) ce here t)) by (rewrite Forall_forall in *; intros x Hx; apply G, in_flat_map; eauto).
    destruct t as [|k|r [a|]|l [a|]]; cbn [target_columns sql_outputs named_target sql_target] in *; try reflexivity.
    - rewrite (loc_ctx _ _ _ L). assert (E : rmapM (table_columns schema anc n) (map v_ref here) = Ok (map v_cols here)).
      { pose proof (loc_cols _ _ _ L) as H. clear - H. induction here as [|v l IH]; cbn; [reflexivity|]. rewrite (H v (or_introl eq_refl)). cbn. rewrite IH; [reflexivity|]. intros w Hw. apply H. now right. }
      rewrite E. unfold rmap. cbn [rbind]. f_equal. clear. induction here as [|v l IH]; cbn; [reflexivity|]. now rewrite map_app, columns_fst, IH.
    - pose proof (Forall_inv Gt) as G1. cbn [good] in G1. destruct G1 as [G1 G2]. destruct (find_table (here :: outer) k) as [v|] eqn:Ev; [|now destruct G1]. rewrite (resolve_qual (n :: anc) _ ce k v I N Ev). cbn [rmapM].
      assert (Hv : In v here). { cbn in Ev. apply existsb_exists in G2 as (w & Hw & Hk). assert (Hf : In w (filter (called k) here)) by (apply filter_In; auto). destruct (filter (called k) here) as [|w1 [|w2 l]] eqn:Ef; [destruct Hf|injection Ev as <-|discriminate].
        assert (H : In w1 (filter (called k) here)) by (rewrite Ef; now left). apply filter_In in H. apply H. }
      rewrite (loc_cols _ _ _ L v Hv). cbn. now rewrite app_nil_r, columns_fst.
  Qed.
  Lemma concat_outs env here ts : concat (map (fun t => map fst (@sql_outputs query env here t)) ts) = map fst (flat_map (sql_outputs env here) ts).
  Proof. induction ts as [|t ts IH]; cbn; [reflexivity|]. now rewrite map_app, IH. Qed.
  Lemma okeys_ok anc n here outer ce outs ob : Inv (n :: anc) (here :: outer) ce -> Loc anc n here -> All (sub_okey Pq) ob -> All (named_okey qual (named al is_cte qual)) ob ->
    Forall (good is_cte) (flat_map (sql_okey (sql schema) (here :: outer) ce here (n_prod n) outs) ob) ->
    exists n', run (parse_okey true schema (parse_query true schema) anc) ob n = Ok (answers (flat_map (sql_okey (sql schema) (here :: outer) ce here (n_prod n) outs) ob), n') /\ same n n' /\ Loc anc n' here.
  Proof.
    intros I L S N G. rewrite All_In in S, N. apply (run_ok _ (sql_okey (sql schema) (here :: outer) ce here (n_prod n) outs) (fun m => same n m /\ Loc anc m here)); [|split; [apply same_refl|exact L]|exact G].
    intros k m Hk [Hm Lm] Gt. pose proof (Inv_same n m anc _ ce Hm I) as Im. assert (E : n_prod m = n_prod n) by apply Hm. specialize (S k Hk). specialize (N k Hk). rewrite <- E in *.
    destruct k as [c|l]; cbn [sql_okey parse_okey sub_okey named_okey parse_ref] in *.
    - inversion Gt as [|? ? G1 _]; subst. destruct (lookup_ok anc m here c _ Lm G1) as (m' & -> & H2 & H3). exists m'. split; [reflexivity|]. split; [now apply (same_trans n m m')|exact H3].
    - destruct (items_ok anc m _ ce here l Im Lm S N Gt) as (m' & H1 & H2 & H3). exists m'. split; [exact H1|]. split; [now apply (same_trans n m m')|exact H3].
  Qed.
  Lemma query_ok q : Pq q.
  Proof.
    apply query_ind2; clear q.
    - intros w f ts wh ob Sw Sf St Swh So anc env ce I N G. cbn [parse_query sql]. cbn [sql named] in G, N. destruct N as (N1 & (N2 & ND) & N3 & N4 & N5). unfold sql_select in *. unfold parse_select.
      destruct (sql_ctes (sql schema) env ce w) as [x1 ce1] eqn:E1. destruct (sql_froms schema (sql schema) env ce1 f []) as [x2 here] eqn:E2. cbn [fst snd] in *.
      apply Forall_app in G as [G1 G]. apply Forall_app in G as [G2 G]. apply Forall_app in G as [G3 G]. apply Forall_app in G as [G4 G5].
      destruct (ctes_ok anc env w empty_ns ce (Inv_empty anc env ce I) eq_refl eq_refl eq_refl Sw N1) as (n1 & -> & I1 & C1 & P1 & K1); rewrite E1 in *; [exact G1|]. cbn [rbind fst snd] in *.
      assert (I1' : Inv (n1 :: anc) ([] :: env) ce1). { apply (Inv_incl _ _ _ _ I1). intros s v [<-|Hs] Hv; [destruct Hv|eauto]. }
      destruct (froms_ok env anc ce1 f n1 [] I1' (Loc_nil anc n1 C1 K1) P1 Sf N2 ND) as (n2 & -> & P2 & I2 & L2); rewrite E2 in *; [exact G2|]. cbn [rbind fst snd] in *.
      destruct (targets_ok anc n2 here env ce1 ts I2 L2 P2 St N3 G3) as (n3 & -> & S3 & L3). cbn [rbind]. pose proof (Inv_same n2 n3 anc _ ce1 S3 I2) as I3. assert (P3 : n_prod n3 = []) by (destruct S3 as (_ & _ & _ & _ & S3); congruence).
      unfold output_shape. rewrite (shape_ok anc n3 here env ce1 ts I3 L3 N3 G3). cbn [rbind]. rewrite concat_outs.
      match goal with |- context [run (parse_item true schema (parse_query true schema) anc) wh ?m] => set (n4 := m) end.
      assert (S34 : Inv (n4 :: anc) (here :: env) ce1 /\ Loc anc n4 here). { split; [|now apply (Loc_shape anc n3)]. destruct I3 as [A B C D E]. split; auto.
        - intros m k t [<-|Hm] H; [apply (A n3); [now left|exact H]|apply (A m); [now right|exact H]].
        - intros m k s [<-|Hm] H; [apply (B n3 k s); [now left|exact H]|apply (B m k s); [now right|exact H]].
        - intros m k s [<-|Hm] H; [apply (C n3 k s); [now left|exact H]|apply (C m k s); [now right|exact H]].
        - intros s v Hs Hv. destruct (D s v Hs Hv) as (k & H1 & H2 & m & [<-|Hm] & H3); exists k; (split; [exact H1|]); (split; [exact H2|]); [exists n4; split; [now left|exact H3]|exists m; split; [now right|exact H3]]. }
      destruct S34 as [I4 L4]. assert (P4 : n_prod n4 = flat_map sql_alias ts) by (unfold n4; cbn; now rewrite P3). rewrite <- P4 in G4, G5 |- *.
      destruct (items_ok anc n4 _ ce1 here wh I4 L4 Swh N4 G4) as (n5 & -> & S5 & L5). cbn [rbind]. pose proof (Inv_same n4 n5 anc _ ce1 S5 I4) as I5. assert (P5 : n_prod n5 = n_prod n4) by apply S5. rewrite <- P5 in G5 |- *.
      destruct (okeys_ok anc n5 here env ce1 _ ob I5 L5 So N5 G5) as (n6 & -> & _ & _). cbn [rbind]. now rewrite !answers_app.
    - intros w l r ob Sw Sl Sr anc env ce I N G. cbn [parse_query sql]. cbn [sql named] in G, N. destruct N as (N1 & N2 & N3). unfold sql_setop in *. unfold parse_setop.
      destruct (sql_ctes (sql schema) env ce w) as [x1 ce1] eqn:E1. destruct (sql schema env ce1 l) as [x2 s] eqn:E2. destruct (sql schema env ce1 r) as [x3 s3] eqn:E3. cbn [fst snd] in *.
      apply Forall_app in G as [G1 G]. apply Forall_app in G as [G2 G]. apply Forall_app in G as [G3 _].
      destruct (ctes_ok anc env w empty_ns ce (Inv_empty anc env ce I) eq_refl eq_refl eq_refl Sw N1) as (n1 & -> & I1 & C1 & P1 & K1); rewrite E1 in *; [exact G1|]. cbn [rbind fst snd] in *.
      rewrite (Sl (n1 :: anc) env ce1 I1 N2) by (rewrite E2; exact G2). rewrite E2. cbn [rbind fst snd]. rewrite (Sr (n1 :: anc) env ce1 I1 N3) by (rewrite E3; exact G3). rewrite E3. cbn [rbind fst snd].
      assert (Ho : exists n', run (fun c => parse_ref true schema anc (Un c)) ob n1 = Ok (answers (flat_map (fun _ => [FRef true false None []]) ob), n') /\ (same n1 n' /\ Loc anc n' [])).
      { apply (run_ok (fun c => parse_ref true schema anc (Un c)) (fun _ => [FRef true false None []]) (fun m => same n1 m /\ Loc anc m [])); [|split; [apply same_refl|now apply Loc_nil]|rewrite Forall_forall; intros x Hx; apply in_flat_map in Hx as (c & _ & [<-|[]]); reflexivity].
        intros c m _ [Hm Lm] _. assert (Pm : n_prod m = []) by (destruct Hm as (_ & _ & _ & _ & Hm); congruence). destruct (lookup_ok anc m [] c None Lm) as (m' & H1 & H2 & H3); [rewrite Pm; reflexivity|]. exists m'. cbn [parse_ref]. rewrite H1. split; [reflexivity|]. split; [now apply (same_trans n1 m m')|exact H3]. }
      assert (Em : flat_map (fun _ : name => [FRef true false None []]) ob = map (fun _ => FRef true false None []) ob) by (clear; induction ob as [|c ob IH]; cbn; congruence).
      destruct Ho as (n' & -> & _). cbn [rbind]. now rewrite !answers_app, Em.
  Qed.
End Bind.
