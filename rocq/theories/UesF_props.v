(** Property theorems for C74 (maintenance of the column frequencies). *)
From Coq Require Import List Bool Arith ZArith Lia.
From Verif Require Import PyBase Card_model Card_spec Ues_model Ues_spec Ues_proofs.
Import ListNotations.
Local Open Scope Z_scope.

Lemma update_partner_step fr j p zj zp : j <> p -> num_at fr j zj -> num_at fr p zp ->
  exists fr', update_partner fr j p = Ok fr' /\
    (forall c, dget fr' c = if eqd c p then Some (ONum (NInt (zp * zj))) else if eqd c j then Some (ONum (NInt (zj * zp))) else dget fr c).
Proof.
  intros Hne Hj Hp. unfold update_partner, key. unfold num_at in *. rewrite Hj. cbn [rbind]. rewrite Hp. cbn [rbind fmult].
  rewrite dset_other by congruence. rewrite Hp. cbn [rbind fmult]. eexists. split; [reflexivity|].
  intros c. rewrite dset_spec. destruct (eqd c p); [easy|]. rewrite dset_spec. now destruct (eqd c j).
Qed.
Lemma update_third_step fr j t zj zt : num_at fr j zj -> num_at fr t zt ->
  exists fr', update_third fr j t = Ok fr' /\ (forall c, dget fr' c = if eqd c t then Some (ONum (NInt (zt * zj))) else dget fr c).
Proof.
  intros Hj Ht. unfold update_third, key. unfold num_at in *. rewrite Ht. cbn [rbind]. rewrite Hj. cbn [rbind fmult].
  eexists. split; [reflexivity|]. intros c. rewrite dset_spec. now destruct (eqd c t).
Qed.
Lemma num_at_fun fr c z z' : num_at fr c z -> num_at fr c z' -> z = z'.
Proof. unfold num_at. congruence. Qed.

Section Partners.
  Variables (joined : nat) (cond : list (col * col)) (fr0 : dict col operand) (pos : Prop).
  Hypothesis Hnum : forall c, cond_column cond c -> exists z, num_at fr0 c z /\ 0 <= z /\ (pos -> 1 <= z).
  Definition step fr (p : col * col) := let '(a, b) := p in if Nat.eqb (fst a) joined then update_partner fr a b else update_partner fr b a.
  Definition inv (done : list (col * col)) (fr : dict col operand) : Prop :=
    (forall c, cond_column cond c -> exists z0 z, num_at fr0 c z0 /\ num_at fr c z /\ 0 <= z /\ (pos -> z0 <= z)) /\
    (forall p a b c, In p done -> sides joined p a b -> c = a \/ c = b ->
      exists za zb z, num_at fr0 a za /\ num_at fr0 b zb /\ num_at fr c z /\ (pos -> za * zb <= z)) /\
    (forall c, ~ cond_column done c -> dget fr c = dget fr0 c).

  Lemma partners_inv : forall rest done fr, (forall p, In p (done ++ rest) -> In p cond /\ exists a b, sides joined p a b) -> inv done fr ->
    exists fr', foldR step rest fr = Ok fr' /\ inv (done ++ rest) fr'.
  Proof.
    induction rest as [|p rest IH]; intros done fr Hall Hinv.
    - exists fr. rewrite app_nil_r. now split.
    - destruct (Hall p) as [Hp [a [b Hs]]]; [apply in_or_app; right; now left|].
      destruct Hinv as (I1 & I2 & I3).
      assert (Ca : cond_column cond a /\ cond_column cond b).
      { destruct Hs as (_ & _ & [-> | ->]); split; (eexists; split; [exact Hp|]); cbn; auto. }
      destruct Ca as [Ca Cb].
      destruct (I1 a Ca) as (za0 & za & Na0 & Na & Pa & La). destruct (I1 b Cb) as (zb0 & zb & Nb0 & Nb & Pb & Lb).
      assert (Hab : b <> a) by (intros ->; destruct Hs as (? & ? & _); congruence).
      destruct (update_partner_step fr b a zb za Hab Nb Na) as [fr' [Eu Hget]].
      assert (Estep : step fr p = Ok fr').
      { unfold step. destruct Hs as (Ha & Hb & [-> | ->]).
        - apply Nat.eqb_neq in Ha. now rewrite Ha.
        - apply Nat.eqb_eq in Hb. now rewrite Hb. }
      cbn [foldR]. rewrite Estep. cbn [rbind].
      destruct (Hnum a Ca) as (ya & Ya & Ya0 & Ya1). destruct (Hnum b Cb) as (yb & Yb & Yb0 & Yb1).
      assert (ya = za0) by (eapply num_at_fun; eauto). assert (yb = zb0) by (eapply num_at_fun; eauto). subst ya yb.
      assert (Hprod : pos -> za0 * zb0 <= zb * za /\ za <= zb * za /\ zb <= zb * za).
      { intros HP. specialize (La HP). specialize (Lb HP). specialize (Ya1 HP). specialize (Yb1 HP). nia. }
      replace (done ++ p :: rest) with ((done ++ [p]) ++ rest) in * by now rewrite <- app_assoc.
      apply IH; [exact Hall|]. split; [|split].
      + intros c Hc. destruct (I1 c Hc) as (z0 & z & N0 & N & P & L).
        unfold num_at. rewrite Hget. destruct (eqd c a) as [->|Hca].
        * exists z0, (za * zb). repeat split; auto; [nia|]. intros HP. specialize (L HP). assert (z = za) by (eapply num_at_fun; eauto). subst z. destruct (Hprod HP). lia.
        * destruct (eqd c b) as [->|Hcb].
          -- exists z0, (zb * za). repeat split; auto; [nia|]. intros HP. specialize (L HP). assert (z = zb) by (eapply num_at_fun; eauto). subst z. destruct (Hprod HP). lia.
          -- exists z0, z. repeat split; auto.
      + intros q a' b' c Hq Hs' Hc. apply in_app_or in Hq. destruct Hq as [Hq|[<-|[]]].
        * destruct (I2 q a' b' c Hq Hs' Hc) as (ya & yb & z & Ny1 & Ny2 & Nz & Lz). exists ya, yb.
          unfold num_at. rewrite Hget. destruct (eqd c a) as [->|Hca]; [|destruct (eqd c b) as [->|Hcb]].
          -- exists (za * zb). repeat split; auto. intros HP. specialize (Lz HP). assert (z = za) by (eapply num_at_fun; eauto). subst z. destruct (Hprod HP). lia.
          -- exists (zb * za). repeat split; auto. intros HP. specialize (Lz HP). assert (z = zb) by (eapply num_at_fun; eauto). subst z. destruct (Hprod HP). lia.
          -- exists z. auto.
        * assert (a' = a /\ b' = b).
          { destruct Hs as (H1 & H2 & H3), Hs' as (H1' & H2' & H3'). destruct H3 as [-> | ->], H3' as [E|E]; injection E as -> ->; split; congruence. }
          destruct H as [-> ->]. exists za0, zb0.
          unfold num_at. rewrite Hget. destruct (eqd c a) as [->|Hca].
          -- exists (za * zb). repeat split; auto. intros HP. destruct (Hprod HP). lia.
          -- destruct (eqd c b) as [->|Hcb]; [|destruct Hc; congruence]. exists (zb * za). repeat split; auto. intros HP. destruct (Hprod HP). lia.
      + intros c Hc. rewrite Hget. assert (Hcols : cond_column (done ++ [p]) a /\ cond_column (done ++ [p]) b).
        { destruct Hs as (_ & _ & [-> | ->]); split; (eexists; split; [apply in_or_app; right; now left|]); cbn; auto. }
        destruct (eqd c a) as [->|_]; [tauto|]. destruct (eqd c b) as [->|_]; [tauto|].
        apply I3. intros (q & Hq & Hqc). apply Hc. exists q. split; [apply in_or_app; now left|exact Hqc].
  Qed.
End Partners.

Lemma third_fold lowest zl : forall cols fr, NoDup cols -> ~ In lowest cols -> num_at fr lowest zl -> (forall c, In c cols -> exists z, num_at fr c z) ->
  exists fr', foldR (fun fr c => update_third fr lowest c) cols fr = Ok fr' /\
    (forall c z, In c cols -> num_at fr c z -> num_at fr' c (z * zl)) /\ (forall c, ~ In c cols -> dget fr' c = dget fr c).
Proof.
  induction cols as [|c cols IH]; intros fr Hnd Hni Hl Hall.
  - exists fr. split; [easy|]. split; [easy|]. easy.
  - inversion Hnd as [|x xs Hx Hnd']; subst. destruct (Hall c (or_introl eq_refl)) as [z Hz].
    destruct (update_third_step fr lowest c zl z Hl Hz) as [fr1 [E1 G1]].
    cbn [foldR]. rewrite E1. cbn [rbind].
    destruct (IH fr1) as [fr' (E & P & U)]; [easy|intros H; apply Hni; now right| | |].
    + unfold num_at. rewrite G1. destruct (eqd lowest c) as [->|_]; [exfalso; apply Hni; now left|exact Hl].
    + intros d Hd. unfold num_at. rewrite G1. destruct (eqd d c) as [->|_]; [easy|]. apply Hall. now right.
    + exists fr'. split; [exact E|]. split.
      * intros d y [->|Hd] Hy.
        -- unfold num_at. rewrite (U d Hx), G1. destruct (eqd d d); [|congruence]. assert (y = z) by (eapply num_at_fun; eauto). now subst.
        -- apply P; [easy|]. unfold num_at. rewrite G1. destruct (eqd d c) as [->|_]; [easy|exact Hy].
      * intros d Hd. rewrite U by (intros H; apply Hd; now right). rewrite G1. destruct (eqd d c) as [->|_]; [exfalso; apply Hd; now left|easy].
Qed.

Lemma argmin_loop_spec {K} : forall (d : list (K * operand)) best zb,
  snd best = ONum (NInt zb) -> (forall kv, In kv d -> exists z, snd kv = ONum (NInt z)) ->
  exists z, In (argmin_loop best d, ONum (NInt z)) (best :: d) /\ z <= zb /\ forall k y, In (k, ONum (NInt y)) d -> z <= y.
Proof.
  induction d as [|kv d IH]; intros best zb Hb Hall.
  - exists zb. destruct best as [k f]. cbn in *. subst f. split; [now left|]. split; [lia|easy].
  - destruct (Hall kv (or_introl eq_refl)) as [z Hz]. cbn [argmin_loop]. rewrite Hz, Hb. cbn [freq_lt].
    destruct (Z.ltb_spec z zb) as [Hlt|Hge].
    + destruct (IH kv z Hz (fun q Hq => Hall q (or_intror Hq))) as [y (H1 & H2 & H3)]. exists y. split; [|split; [lia|]].
      * destruct H1 as [<-|H1]; [right; now left|right; now right].
      * intros k w [E|H]; [subst kv; cbn in Hz; injection Hz as ->; lia|now apply (H3 k)].
    + destruct (IH best zb Hb (fun q Hq => Hall q (or_intror Hq))) as [y (H1 & H2 & H3)]. exists y. split; [|split; [lia|]].
      * destruct H1 as [<-|H1]; [now left|right; now right].
      * intros k w [E|H]; [subst kv; cbn in Hz; injection Hz as ->; lia|now apply (H3 k)].
Qed.

Lemma lookup_all fr cols : (forall c, In c cols -> exists z, num_at fr c z) ->
  exists l, rmapM (fun c => rmap (fun f => (c, f)) (key fr c)) cols = Ok l /\ forall c f, In (c, f) l <-> In c cols /\ dget fr c = Some f.
Proof.
  induction cols as [|c cols IH]; intros H.
  - exists []. split; [easy|]. cbn. tauto.
  - destruct IH as [l [E Hl]]; [intros d Hd; apply H; now right|]. destruct (H c (or_introl eq_refl)) as [z Hz].
    cbn [rmapM]. rewrite E. unfold key. unfold num_at in Hz. rewrite Hz. cbn [rmap rbind]. eexists. split; [reflexivity|].
    intros d f. cbn [In]. rewrite Hl. split.
    + intros [[= <- <-]|[H1 H2]]; [split; [now left|exact Hz]|tauto].
    + intros [[<-|H1] H2]; [left; congruence|tauto].
Qed.

Lemma columns_of_spec t cond c : In c (columns_of t cond) <-> fst c = t /\ cond_column cond c.
Proof.
  unfold columns_of. rewrite dedup_In, filter_In, in_flat_map, Nat.eqb_eq. unfold cond_column. split.
  - intros [[p [Hp [E|[E|[]]]]] Ht]; (split; [easy|]); exists p; split; auto.
  - intros [Ht [p [Hp Hc]]]. split; [|easy]. exists p. split; [easy|]. cbn. destruct Hc; [left|right; left]; congruence.
Qed.
Lemma third_party_spec qj ts c : In c (third_party_columns qj ts) <-> inner_column qj (fun t => In t ts) c.
Proof.
  unfold third_party_columns. rewrite dedup_In, in_flat_map. unfold inner_column. split.
  - intros [p [Hp H]]. destruct (mem (fst (fst p)) ts && mem (fst (snd p)) ts && negb (Nat.eqb (fst (fst p)) (fst (snd p)))) eqn:E; [|easy].
    apply andb_true_iff in E. destruct E as [E E3]. apply andb_true_iff in E. destruct E as [E1 E2].
    apply mem_In in E1. apply mem_In in E2. apply negb_true_iff, Nat.eqb_neq in E3.
    exists p. split; [easy|]. split; [|auto]. destruct H as [H|[H|[]]]; auto.
  - intros [p (Hp & Hc & H1 & H2 & H3)]. exists p. split; [easy|].
    match goal with |- In c (if ?b then _ else _) => assert (E : b = true) end.
    { rewrite !andb_true_iff, negb_true_iff, Nat.eqb_neq, !mem_In. auto. }
    rewrite E. cbn. destruct Hc as [Hc|Hc]; rewrite Hc; auto.
Qed.

Section Update.
  Variables (query_joins : list (col * col)) (tables : list nat) (joined : nat) (cond : list (col * col)) (fr : dict col operand) (I S : rel).
  Let partner t := In t tables /\ t <> joined.
  Lemma partner_filter c : inner_column query_joins (fun t => In t (filter (fun t => negb (Nat.eqb t joined)) tables)) c <-> inner_column query_joins partner c.
  Proof.
    assert (H : forall t, In t (filter (fun t => negb (Nat.eqb t joined)) tables) <-> partner t).
    { intros t. rewrite filter_In, negb_true_iff, Nat.eqb_neq. reflexivity. }
    unfold inner_column. split; intros (p & ? & ? & ? & ? & ?); exists p; rewrite ?H in *; auto.
  Qed.

  (** After joining the table [joined], the frequencies of all columns of the join condition and of all
      columns that take part in joins inside the old intermediate result bound how often a value occurs in the new
      intermediate result.  The columns outside the condition grow by the smallest frequency of the new table's columns; all
      other frequencies are unchanged. *)
  Lemma update_spec : cond <> [] -> (forall p, In p cond -> exists a b, sides joined p a b) ->
    (forall c, cond_column cond c \/ inner_column query_joins partner c -> exists z, num_at fr c z /\ 0 <= z) ->
    (forall c z v, num_at fr c z -> Z.of_nat (occurrences c v (if Nat.eqb (fst c) joined then S else I)) <= z) ->
    exists fr', trigger_frequency_update query_joins tables joined cond fr = Ok fr' /\
      (forall c, cond_column cond c \/ inner_column query_joins partner c ->
         exists z, num_at fr' c z /\ forall v, Z.of_nat (occurrences c v (join joined cond I S)) <= z) /\
      (forall c, ~ (cond_column cond c \/ inner_column query_joins partner c) -> dget fr' c = dget fr c) /\
      exists low, (exists j, fst j = joined /\ cond_column cond j /\ num_at fr' j low) /\
        (forall j z, fst j = joined -> cond_column cond j -> num_at fr' j z -> low <= z) /\
        (forall c z, inner_column query_joins partner c -> ~ cond_column cond c -> num_at fr c z -> num_at fr' c (z * low)).
  Proof.
    intros Hcond Hsides Hnum Hocc. set (J := join joined cond I S).
    assert (Hpos : forall c, cond_column cond c -> exists z, num_at fr c z /\ 0 <= z /\ (J <> [] -> 1 <= z)).
    { intros c Hc. destruct (Hnum c (or_introl Hc)) as [z [Hz Hz0]]. exists z. split; [easy|]. split; [easy|]. intros HJ.
      assert (exists r, In r J) as [r Hr] by (destruct J as [|r J']; [easy|exists r; now left]).
      destruct Hc as [p [Hp Hpc]]. destruct (Hsides p Hp) as [a [b Hs]].
      destruct (occ_pos_row joined cond p a b I S r Hp Hs Hr) as [x [H1 H2]].
      assert (Hocc' := Hocc c z x Hz). destruct Hs as (Ha & Hb & E). apply Nat.eqb_neq in Ha. apply Nat.eqb_eq in Hb.
      assert (c = a \/ c = b) as [-> | ->] by (destruct E as [-> | ->], Hpc as [-> | ->]; cbn; auto).
      - rewrite Ha in Hocc'. lia.
      - rewrite Hb in Hocc'. lia. }
    destruct (partners_inv joined cond fr (J <> []) Hpos cond [] fr) as [fr1 [E1 (I1 & I2 & I3)]].
    { intros p Hp. split; [exact Hp|now apply Hsides]. }
    { split; [|split; [|easy]].
      - intros c Hc. destruct (Hpos c Hc) as (z & H1 & H2 & H3). exists z, z. repeat split; auto. lia.
      - intros p a b c []. }
    cbn [app] in I1, I2, I3, E1.
    assert (Hjc : forall c, In c (columns_of joined cond) -> exists z, num_at fr1 c z).
    { intros c Hc. apply columns_of_spec in Hc. destruct (I1 c (proj2 Hc)) as (z0 & z & _ & H & _). eauto. }
    destruct (lookup_all fr1 _ Hjc) as [jf [Ejf Hjf]].
    assert (Hne : jf <> []).
    { destruct cond as [|p cond'] eqn:Ec; [easy|]. destruct (Hsides p (or_introl eq_refl)) as [a [b Hs]].
      assert (Hb : In b (columns_of joined cond)).
      { rewrite Ec. apply columns_of_spec. destruct Hs as (_ & Hb & [-> | ->]); (split; [easy|]); eexists; (split; [now left|]); cbn; auto. }
      rewrite <- Ec in *. destruct (Hjc b Hb) as [z Hz]. intros ->. apply (Hjf b (ONum (NInt z))). now split. }
    destruct jf as [|kv jf]; [easy|].
    assert (Hints : forall q, In q (kv :: jf) -> exists z, snd q = ONum (NInt z)).
    { intros [c f] Hq. apply Hjf in Hq. destruct Hq as [Hc Hf]. destruct (Hjc c Hc) as [z Hz]. exists z. cbn. unfold num_at in Hz. congruence. }
    destruct (Hints kv (or_introl eq_refl)) as [zk Hzk].
    destruct (argmin_loop_spec jf kv zk Hzk (fun q Hq => Hints q (or_intror Hq))) as [low (Hlow & Hle & Hmin)].
    set (lowest := argmin_loop kv jf) in *.
    assert (Hl := proj1 (Hjf _ _) Hlow). destruct Hl as [Hlc Hln]. apply columns_of_spec in Hlc. destruct Hlc as [Hlt Hlc].
    set (pts := filter (fun t => negb (Nat.eqb t joined)) tables).
    assert (Hthird : forall c, In c (third_party_columns query_joins pts) <-> inner_column query_joins partner c).
    { intros c. rewrite third_party_spec. apply partner_filter. }
    assert (Hinner : forall c, inner_column query_joins partner c -> fst c <> joined).
    { intros c (p & _ & [-> | ->] & [_ H1] & [_ H2] & _); easy. }
    assert (Hfr1 : forall c, ~ cond_column cond c -> dget fr1 c = dget fr c) by exact I3.
    destruct (third_fold lowest low (third_party_columns query_joins pts) fr1) as [fr' (E' & P' & U')].
    { apply dedup_NoDup. }
    { rewrite Hthird. intros H. now apply Hinner in H. }
    { exact Hln. }
    { intros c Hc. apply Hthird in Hc. destruct (in_dec eqd c (flat_map (fun p => [fst p; snd p]) cond)) as [Hd|Hd].
      - apply in_flat_map in Hd. destruct Hd as [p [Hp Hpc]].
        assert (Hcc : cond_column cond c) by (exists p; split; [easy|destruct Hpc as [H|[H|[]]]; auto]).
        destruct (I1 c Hcc) as (? & z & _ & H & _). eauto.
      - destruct (Hnum c (or_intror Hc)) as [z [Hz _]]. exists z. unfold num_at. rewrite Hfr1; [exact Hz|].
        intros [p [Hp Hpc]]. apply Hd, in_flat_map. exists p. split; [easy|]. cbn. destruct Hpc; auto. }
    assert (Hjoined : forall j, fst j = joined -> dget fr' j = dget fr1 j).
    { intros j Hj. apply U'. rewrite Hthird. intros H. now apply Hinner in H. }
    exists fr'. split; [|split; [|split]].
    - unfold trigger_frequency_update. fold pts. match goal with |- rbind ?x _ = _ => change x with (foldR (step joined) cond fr) end.
      rewrite E1. cbn [rbind]. rewrite Ejf. cbn [rbind argmin]. exact E'.
    - (* soundness *)
      assert (Hempty : J = [] -> forall c v, occurrences c v J = 0%nat) by (intros ->; easy).
      assert (Hlow1 : J <> [] -> exists zj, num_at fr lowest zj /\ zj <= low).
      { intros HJ. destruct (I1 lowest Hlc) as (z0 & z & N0 & N & _ & L). exists z0. split; [easy|]. assert (z = low) by (eapply num_at_fun; eauto). subst z. auto. }
      assert (Hlow0 : 0 <= low).
      { destruct (I1 lowest Hlc) as (z0 & z & N0 & N & P & L). assert (z = low) by (eapply num_at_fun; eauto). now subst z. }
      assert (HJdec : J = [] \/ J <> []) by (destruct J; [now left|now right]).
      intros c Hc.
      assert (Hcond1 : cond_column cond c -> exists z, num_at fr1 c z /\ 0 <= z /\ forall v, Z.of_nat (occurrences c v J) <= z).
      { intros Hcc. destruct (I1 c Hcc) as (z0 & z & N0 & N & P & L). exists z. split; [easy|]. split; [easy|]. intros v.
        destruct HJdec as [HJ|HJ]; [rewrite (Hempty HJ); lia|].
        destruct Hcc as [p [Hp Hpc]]. destruct (Hsides p Hp) as [a [b Hs]].
        assert (Hcab : c = a \/ c = b) by (destruct Hs as (_ & _ & [-> | ->]), Hpc as [-> | ->]; cbn; auto).
        destruct (I2 p a b c Hp Hs Hcab) as (za & zb & y & Na & Nb & Ny & Ly). assert (y = z) by (eapply num_at_fun; eauto). subst y. specialize (Ly HJ).
        assert (Hj := occ_pair joined cond p a b I S c v Hp Hs Hcab). fold J in Hj.
        assert (Ha := Hocc a za v Na). assert (Hb := Hocc b zb v Nb). destruct Hs as (Hs1 & Hs2 & _). apply Nat.eqb_neq in Hs1. apply Nat.eqb_eq in Hs2. rewrite Hs1 in Ha. rewrite Hs2 in Hb.
        apply Nat2Z.inj_le in Hj. rewrite Nat2Z.inj_mul in Hj. clear - Hj Ha Hb Ly. nia. }
      destruct (in_dec eqd c (third_party_columns query_joins pts)) as [Ht|Ht].
      + assert (Hti := proj1 (Hthird c) Ht). assert (Hcj := Hinner c Hti).
        destruct (in_dec eqd c (flat_map (fun p => [fst p; snd p]) cond)) as [Hd|Hd].
        * apply in_flat_map in Hd. destruct Hd as [p [Hp Hpc]].
          assert (Hcc : cond_column cond c) by (exists p; split; [easy|destruct Hpc as [H|[H|[]]]; auto]).
          destruct (Hcond1 Hcc) as (z & N & P & L). exists (z * low). split; [now apply P'|]. intros v.
          destruct HJdec as [HJ|HJ]; [rewrite (Hempty HJ); nia|].
          destruct (Hpos lowest Hlc) as (yl & Nl & _ & Pl). specialize (Pl HJ). destruct (Hlow1 HJ) as (zj & Nj & Lj). assert (yl = zj) by (eapply num_at_fun; eauto). subst yl.
          specialize (L v). nia.
        * assert (Hnc : ~ cond_column cond c).
          { intros [p [Hp Hpc]]. apply Hd, in_flat_map. exists p. split; [easy|]. cbn. destruct Hpc; auto. }
          destruct (Hnum c (or_intror Hti)) as [z [Hz Hz0]]. exists (z * low). split; [apply P'; [easy|unfold num_at; now rewrite Hfr1]|]. intros v.
          destruct HJdec as [HJ|HJ]; [rewrite (Hempty HJ); nia|]. destruct (Hlow1 HJ) as (zj & Nj & Lj).
          destruct Hlc as [p [Hp Hpc]]. destruct (Hsides p Hp) as [a [b Hs]].
          assert (Hlb : lowest = b).
          { destruct Hs as (H1 & H2 & [-> | ->]), Hpc as [E|E]; cbn in E; congruence. }
          assert (Hzj0 : 0 <= zj). { destruct (Hpos lowest) as (y & Ny & Py & _); [exists p; split; [easy|exact Hpc]|]. assert (y = zj) by (eapply num_at_fun; eauto). lia. }
          assert (Hob : forall w, (occurrences b w S <= Z.to_nat zj)%nat).
          { intros w. assert (H := Hocc lowest zj w Nj). rewrite Hlt, Nat.eqb_refl, Hlb in H. lia. }
          assert (Hj := occ_left joined cond p a b I S c v _ Hp Hs Hcj Hob). fold J in Hj.
          assert (Hc0 := Hocc c z v Hz). apply Nat.eqb_neq in Hcj. rewrite Hcj in Hc0.
          apply Nat2Z.inj_le in Hj. rewrite Nat2Z.inj_mul, Z2Nat.id in Hj by lia. clear - Hj Hc0 Lj Hzj0. nia.
      + destruct Hc as [Hc|Hc]; [|exfalso; now apply Ht, Hthird]. destruct (Hcond1 Hc) as (z & N & P & L). exists z. split; [|exact L]. unfold num_at. rewrite U' by easy. exact N.
    - intros c Hc. rewrite U' by (rewrite Hthird; tauto). apply Hfr1. tauto.
    - exists low. split; [|split].
      + exists lowest. split; [easy|]. split; [easy|]. unfold num_at. now rewrite Hjoined.
      + intros j z Hj Hjcc Hjz. unfold num_at in Hjz. rewrite Hjoined in Hjz by easy.
        assert (Hin : In (j, ONum (NInt z)) (kv :: jf)) by (apply Hjf; split; [now apply columns_of_spec|exact Hjz]).
        destruct Hin as [->|Hin]; [|now apply (Hmin j)]. cbn in Hzk. injection Hzk as ->. lia.
      + intros c z Hc Hnc Hz. apply P'; [now apply Hthird|]. unfold num_at. now rewrite Hfr1.
  Qed.
End Update.

(** C74, what holds: after joining the table [joined], the frequencies of all columns of the join condition and of all columns
    that take part in joins inside the old intermediate result bound how often a value occurs in the new intermediate result.
    The inner columns outside the condition grow by the smallest frequency among the new table's join columns; all other
    frequencies are unchanged. *)
Theorem C74_update_partial : forall query_joins tables joined cond fr (I S : rel), cond <> [] -> (forall p, In p cond -> exists a b, sides joined p a b) ->
  let tracked c := cond_column cond c \/ inner_column query_joins (fun t => In t tables /\ t <> joined) c in
  (forall c, tracked c -> exists z, num_at fr c z /\ 0 <= z) ->
  (forall c z v, num_at fr c z -> Z.of_nat (occurrences c v (if Nat.eqb (fst c) joined then S else I)) <= z) ->
  exists fr', trigger_frequency_update query_joins tables joined cond fr = Ok fr' /\
    (forall c, tracked c -> exists z, num_at fr' c z /\ forall v, Z.of_nat (occurrences c v (join joined cond I S)) <= z) /\
    (forall c, ~ tracked c -> dget fr' c = dget fr c) /\
    exists low, (exists j, fst j = joined /\ cond_column cond j /\ num_at fr' j low) /\
      (forall j z, fst j = joined -> cond_column cond j -> num_at fr' j z -> low <= z) /\
      (forall c z, inner_column query_joins (fun t => In t tables /\ t <> joined) c -> ~ cond_column cond c -> num_at fr c z -> num_at fr' c (z * low)).
Proof. intros. now apply update_spec. Qed.
Print Assumptions C74_update_partial.

(** A chain [0.0 = 1.0] and [0.1 = 2.0]; after joining 0 with 1, the table 3 (with [3.0 = 0.0] and [3.1 = 1.0]) is joined. *)
Definition chain : list (col * col) := [((0, 0), (1, 0)); ((0, 1), (2, 0)); ((3, 0), (0, 0)); ((3, 1), (1, 0))]%nat.
Definition chain_freqs : dict col operand :=
  [((0, 0), ONum (NInt 1)); ((0, 1), ONum (NInt 1)); ((1, 0), ONum (NInt 2)); ((2, 0), ONum (NInt 3)); ((3, 0), ONum (NInt 5)); ((3, 1), ONum (NInt 4))]%nat.
Example C74_update_ex :
  inner_column chain (fun t => In t [0; 1; 3]%nat /\ t <> 3%nat) (1, 0)%nat /\
  trigger_frequency_update chain [0; 1; 3]%nat 3%nat [((3, 0), (0, 0))]%nat chain_freqs =
    Ok [((0, 0), ONum (NInt 25)); ((0, 1), ONum (NInt 1)); ((1, 0), ONum (NInt 10)); ((2, 0), ONum (NInt 3)); ((3, 0), ONum (NInt 5)); ((3, 1), ONum (NInt 4))]%nat.
Proof.
  split; [|reflexivity]. exists ((0, 0), (1, 0))%nat. cbn. intuition lia.
Qed.

(** C74 fails for the columns that the intermediate result needs for joins with tables outside of it: their frequencies stay
    the same.  Table 0 has one row, table 1 two and table 2 three rows, all with the same values: after joining 0 and 1, the
    value of [0.1] occurs twice although its recorded frequency is 1, and the bound of the join with table 2 is 3 for a result
    with 6 rows. *)
Definition ones (n : nat) : rel := repeat (fun _ => Some 1%nat) n.
Theorem C74_refuted : 
  (forall c z v, num_at chain_freqs c z -> fst c <> 3%nat -> Z.of_nat (occurrences c v (ones (fst c + 1))) <= z) /\
  exists fr', trigger_frequency_update chain [0; 1]%nat 1%nat [((0, 0), (1, 0))]%nat chain_freqs = Ok fr' /\
    let J := join 1 [((0, 0), (1, 0))]%nat (ones 1) (ones 2) in
    num_at fr' (0, 1)%nat 1 /\ occurrences (0, 1)%nat 1 J = 2%nat /\
    estimate_for (fun _ _ => false) {| base_est := [(0%nat, CVal 1); (1%nat, CVal 2); (2%nat, CVal 3)]; upper_bounds := [(0%nat, CVal 1)]; freqs := fr' |} [((0, 1), (2, 0))]%nat = Ok (CVal 3) /\
    length (join 2 [((0, 1), (2, 0))]%nat J (ones 3)) = 6%nat.
Proof.
  split.
  - intros c z v H Hc. apply dget_In in H. cbn in H.
    repeat match type of H with _ \/ _ => destruct H as [H|H] | False => destruct H end; injection H as <- <-; try (cbn in Hc; congruence);
      unfold ones; cbn [fst Nat.add repeat]; unfold occurrences; cbn [filter]; destruct (deqb (Some 1%nat) (Some v)); cbn; lia.
  - eexists. split; [reflexivity|]. repeat split.
Qed.
Print Assumptions C74_refuted.
