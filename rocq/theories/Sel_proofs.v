From Coq Require Import List Bool Arith Lia ZArith Permutation.
From Verif Require Import PyBase FSet Enum_model Hint_model Card_model JT_model JT_spec JT_proofs QPlan_model PgDP_proofs Collections_proofs Sel_model Sel_spec.
Import ListNotations.
Open Scope list_scope.
Open Scope nat_scope.
Set Implicit Arguments.

(** ** product *)
Lemma product_In {A B} (ops : list A) (l : list B) sel : In sel (product (map (fun _ => ops) l)) <-> length sel = length l /\ Forall (fun o => In o ops) sel.
Proof.
  revert sel. induction l as [|x l IH]; intros sel; cbn.
  - split; [intros [<-|[]]; auto|]. intros [H _]. destruct sel; [auto|discriminate].
  - rewrite in_flat_map. setoid_rewrite in_map_iff. split.
    + intros (o & O & s & <- & S). apply IH in S as [L F]. cbn. auto.
    + intros [L F]. destruct sel as [|o s]; [discriminate|]. inversion F as [|? ? F1 F2]; subst. exists o. split; [exact F1|]. exists s. split; [reflexivity|]. apply IH. auto.
Qed.
Lemma product_NoDup {A B} (ops : list A) (l : list B) : NoDup ops -> NoDup (product (map (fun _ => ops) l)).
Proof.
  intros N. induction l as [|x l IH]; cbn; [repeat constructor; intros []|]. apply NoDup_flat_map; [exact N|intros o _; apply FinFun.Injective_map_NoDup; [intros ? ?; congruence|exact IH]|].
  intros a b c _ _ H1 H2. apply in_map_iff in H1 as (s1 & <- & _), H2 as (s2 & E & _). congruence.
Qed.
Lemma product_length {A B} (ops : list A) (l : list B) : length (product (map (fun _ => ops) l)) = length ops ^ length l.
Proof.
  induction l as [|x l IH]; cbn; [reflexivity|]. rewrite <- IH. generalize (product (map (fun _ => ops) l)) as q. intros q. clear IH. induction ops as [|o ops IHo]; cbn; [reflexivity|].
  rewrite app_length, map_length. cbn in IHo. lia.
Qed.

(** ** Joins of a tree *)
Lemma NoDup_app_parts {A} (l m : list A) : NoDup (l ++ m) -> NoDup l /\ NoDup m /\ forall x, In x l -> ~ In x m.
Proof.
  induction l as [|x l IH]; cbn; intros N; [repeat split; auto; constructor|]. inversion N as [|? ? N1 N2]; subst. destruct (IH N2) as (A1 & A2 & A3). repeat split; auto.
  - constructor; [intros H; apply N1, in_or_app; auto|exact A1].
  - intros y [<-|Y]; [intros H; apply N1, in_or_app; auto|auto].
Qed.
Section Trees.
  Context {A : Type}.
  Implicit Types t o i : jt nat A.
  Lemma proper_join lg o i a : proper (JJoin lg o i a) -> proper o /\ proper i.
  Proof. intros P. split; intros g [p H]; [apply (P g); exists (false :: p)|apply (P g); exists (true :: p)]; exact H. Qed.
  Lemma over_join lg o i a : over_tables (JJoin lg o i a) -> over_tables o /\ over_tables i /\ forall x, In x (jt_itertables o) -> ~ In x (jt_itertables i).
  Proof. intros [P N]. apply proper_join in P as [P1 P2]. apply NoDup_app_parts in N as (N1 & N2 & N3). unfold over_tables. auto. Qed.
  Lemma proper_some t : proper t -> exists x, In x (jt_itertables t).
  Proof.
    induction t as [lg|lg x a|lg o IHo i IHi a]; intros P; [exfalso; apply (P lg); now exists []|exists x; now left|].
    apply proper_join in P as [P1 P2]. destruct (IHo P1) as [x X]. exists x. cbn. apply in_or_app. auto.
  Qed.
  Lemma sets_of t s : In s (join_sets t) -> (exists x, In x s) /\ incl s (jt_itertables t) \/ s = [].
  Proof.
    unfold join_sets. intros H. apply in_map_iff in H as (j & <- & J). assert (E : incl (jt_tables j) (jt_itertables t)).
    { intros x X. apply itertables_scanned in X. revert X. revert J. induction t as [lg|lg y a|lg o IHo i IHi a]; cbn; intros J X; [destruct J|destruct J|]. apply in_app_or in J as [J|J].
      - apply in_or_app. left. now apply IHo.
      - apply in_app_or in J as [J|[<-|[]]]; [apply in_or_app; right; now apply IHi|exact X]. }
    destruct (jt_tables j) as [|x r]; [now right|]. left. split; [exists x; now left|exact E].
  Qed.
  Lemma sets_two t s : over_tables t -> In s (join_sets t) -> 2 <= length s /\ NoDup s.
  Proof.
    unfold join_sets. intros O H. apply in_map_iff in H as (j & <- & J). split; [|apply tables_nodup].
    induction t as [lg|lg y a|lg o IHo i IHi a]; cbn in J; [destruct J|destruct J|]. assert (O' := O). apply over_join in O' as (O1 & O2 & D). apply in_app_or in J as [J|J]; [now apply IHo|].
    apply in_app_or in J as [J|[<-|[]]]; [now apply IHi|]. destruct (proper_some (proj1 O1)) as [x X], (proper_some (proj1 O2)) as [y Y].
    apply (NoDup_incl_length (l := [x; y])).
    - repeat constructor; [intros [->|[]]; now apply (D x)|auto].
    - intros z [<-|[<-|[]]]; apply itertables_scanned; cbn; apply in_or_app; auto.
  Qed.
  Lemma sets_distinct t : over_tables t -> NoDup (map mkfs (join_sets t)).
  Proof.
    induction t as [lg|lg y a|lg o IHo i IHi a]; intros O; [constructor|constructor|]. assert (O' := O). apply over_join in O' as (O1 & O2 & D).
    unfold join_sets in *. cbn [jt_iterjoins]. rewrite !map_app. cbn [map]. assert (IN : forall (u : jt nat A) s, over_tables u -> In s (map mkfs (map (fun j => jt_tables j) (jt_iterjoins u))) -> (exists x, In x s) /\ incl s (jt_itertables u)).
    { intros u s U H. apply in_map_iff in H as (s' & <- & H). assert (T := sets_two _ U H). apply (@sets_of u s') in H. destruct H as [[[x X] I]| ->]; [|cbn in T; lia]. split; [exists x; now apply (mkfs_In s')|].
      intros z Z. apply I. now apply (mkfs_In s') in Z. }
    apply NoDup_app_intro; [auto| |].
    - apply NoDup_app_intro; [auto|repeat constructor; intros []|]. intros s S [E|[]]. apply IN in S as [_ S]; [|assumption]. destruct (proper_some (proj1 O1)) as [x X]. apply (D x X). apply S. rewrite <- E. apply mkfs_In, itertables_scanned. cbn. apply in_or_app. auto.
    - intros s S1 S2. apply IN in S1 as [[x X] S1]; [|assumption]. apply in_app_or in S2 as [S2|[E|[]]].
      + apply IN in S2 as [_ S2]; [|assumption]. apply (D x); auto.
      + destruct (proper_some (proj1 O2)) as [y Y]. apply (D y); [|exact Y]. apply S1. rewrite <- E. apply mkfs_In, itertables_scanned. cbn. apply in_or_app. auto.
  Qed.
  Lemma sets_joins t l : (exists s, In s (join_sets t) /\ seteq s l) <-> join_of t l.
  Proof.
    unfold join_sets, join_of. split.
    - intros (s & S & E). apply in_map_iff in S as (j & <- & J). revert J E. induction t as [lg|lg y a|lg o IHo i IHi a]; cbn; intros J E; [destruct J|destruct J|]. apply in_app_or in J as [J|J].
      + destruct (IHo J E) as (lg' & o' & i' & a' & [p P] & Q). exists lg', o', i', a'. split; [exists (false :: p); exact P|exact Q].
      + apply in_app_or in J as [J|[<-|[]]].
        * destruct (IHi J E) as (lg' & o' & i' & a' & [p P] & Q). exists lg', o', i', a'. split; [exists (true :: p); exact P|exact Q].
        * exists lg, o, i, a. split; [now exists []|]. intros x. rewrite <- (E x), <- itertables_scanned. reflexivity.
    - intros (lg & o & i & a & [p P] & E). revert p P. induction t as [lg'|lg' y a'|lg' o' IHo i' IHi a']; intros p P.
      + destruct p; discriminate P.
      + destruct p; discriminate P.
      + destruct p as [|b p]; cbn in P.
        * injection P as -> -> -> ->. exists (jt_tables (JJoin lg o i a)). split; [apply in_map_iff; eexists; split; [reflexivity|]; cbn; apply in_or_app; right; apply in_or_app; right; now left|].
          intros x. rewrite (E x), <- itertables_scanned. reflexivity.
        * destruct b.
          -- destruct (IHi p P) as (s & S & Q). exists s. split; [|exact Q]. cbn. rewrite !map_app. apply in_or_app. right. apply in_or_app. auto.
          -- destruct (IHo p P) as (s & S & Q). exists s. split; [|exact Q]. cbn. rewrite !map_app. apply in_or_app. auto.
  Qed.
End Trees.

(** ** Assignments *)
Lemma dset_new {K V} {E : EqD K} (d : dict K V) k v : ~ In k (dkeys d) -> dset d k v = d ++ [(k, v)].
Proof. induction d as [|[k' v'] d IH]; cbn; intros H; [reflexivity|]. destruct (eqd k k') as [->|N]; [exfalso; apply H; auto|]. rewrite IH; [reflexivity|]. intros I. apply H. auto. Qed.
Definition scan_item (e : nat * nat) : nat * sassign := (fst e, mksa 0 (snd e) (fst e) None).
Definition join_item (e : list nat * nat) : list nat * jassign := (mkfs (fst e), mkja 0 (snd e) (mkfs (fst e)) None None).
Lemma set_scans_ok l : forall p, NoDup (map fst (scans p) ++ map fst l) -> set_scans p l = mkpoa (glob p) (joins p) (inters p) (scans p ++ map scan_item l).
Proof.
  induction l as [|[t o] l IH]; intros p N; cbn [set_scans fold_left map]; [rewrite app_nil_r; now destruct p|]. change (fold_left _ l ?x) with (set_scans x l). cbn [map fst] in N.
  assert (F : ~ In t (map fst (scans p))). { intros H. apply NoDup_remove_2 in N. apply N, in_or_app. auto. }
  unfold poa_set_scan. cbn [fst snd sa_tab]. rewrite dset_new by exact F. rewrite IH; cbn [glob joins inters scans]; [now rewrite <- app_assoc|].
  rewrite map_app. cbn [map fst]. rewrite <- app_assoc. exact N.
Qed.
Lemma set_joins_ok l : forall p, NoDup (map fst (joins p) ++ map (fun e => mkfs (fst e)) l) -> (forall e, In e l -> 2 <= length (fst e)) ->
  set_joins p l = Ok (mkpoa (glob p) (joins p ++ map join_item l) (inters p) (scans p)).
Proof.
  induction l as [|[s o] l IH]; intros p N L; cbn [set_joins map]; [rewrite app_nil_r; now destruct p|]. cbn [map fst] in N.
  assert (F : ~ In (mkfs s) (map fst (joins p))). { intros H. apply NoDup_remove_2 in N. apply N, in_or_app. auto. }
  assert (L1 := L _ (or_introl eq_refl)). cbn [fst] in L1. unfold mk_join. cbn [fst snd]. destruct (length s <? 2) eqn:E; [apply Nat.ltb_lt in E; lia|]. cbn [rbind].
  unfold poa_set_join. cbn [ja_join]. rewrite dset_new by exact F. rewrite IH; cbn [glob joins inters scans]; [now rewrite <- app_assoc| |intros e He; apply L; now right].
  rewrite map_app. cbn [map fst]. rewrite <- app_assoc. exact N.
Qed.
Definition canon (tabs : list nat) (sets : list (list nat)) (sel jsel : list nat) : poa :=
  mkpoa [] (map join_item (combine sets jsel)) [] (map scan_item (combine tabs sel)).
Lemma combine_fst {X Y} (l : list X) (m : list Y) : length l = length m -> map fst (combine l m) = l.
Proof. revert m. induction l as [|x l IH]; intros [|y m] H; cbn in *; try discriminate; [reflexivity|]. f_equal. auto. Qed.
Lemma combine_snd {X Y} (l : list X) (m : list Y) : length l = length m -> map snd (combine l m) = m.
Proof. revert m. induction l as [|x l IH]; intros [|y m] H; cbn in *; try discriminate; [reflexivity|]. f_equal. auto. Qed.
Lemma canon_inj tabs sets sel jsel sel' jsel' : length sel = length tabs -> length jsel = length sets -> length sel' = length tabs -> length jsel' = length sets ->
  canon tabs sets sel jsel = canon tabs sets sel' jsel' -> sel = sel' /\ jsel = jsel'.
Proof.
  intros L1 L2 L3 L4 E. injection E as E1 E2. apply (f_equal (map (fun e : nat * sassign => sa_op (snd e)))) in E2. apply (f_equal (map (fun e : list nat * jassign => ja_op (snd e)))) in E1.
  rewrite !map_map in E1, E2. cbn [join_item scan_item snd fst sa_op ja_op] in E1, E2.
  assert (X : map snd (combine sets jsel) = map snd (combine sets jsel')) by exact E1. assert (Y : map snd (combine tabs sel) = map snd (combine tabs sel')) by exact E2.
  rewrite !combine_snd in X by congruence. rewrite !combine_snd in Y by congruence. auto.
Qed.
Lemma canon_assigns tabs sets f g : NoDup tabs -> NoDup (map mkfs sets) -> assigns (canon tabs sets (map f tabs) (map (fun s => g (mkfs s)) sets)) tabs sets f g.
Proof.
  intros N M. unfold assigns, canon. cbn [glob inters scans joins]. split; [reflexivity|]. split; [reflexivity|].
  assert (S : forall t, dget (map scan_item (combine tabs (map f tabs))) t = if mem t tabs then Some (mksa 0 (f t) t None) else None).
  { intros t. clear N M. induction tabs as [|x tabs IH]; cbn; [reflexivity|]. rewrite IH. unfold mem. cbn [existsb]. unfold deqb at 2. destruct (eqd t x) as [->|D]; reflexivity. }
  assert (J : forall l, dget (map join_item (combine sets (map (fun s => g (mkfs s)) sets))) l = if mem l (map mkfs sets) then Some (mkja 0 (g l) l None None) else None).
  { intros l. clear N M S. induction sets as [|x sets IH]; [reflexivity|]. cbn [map combine]. change (join_item (x, ?o)) with (mkfs x, mkja 0 o (mkfs x) None None). cbn [dget]. rewrite IH. unfold mem. cbn [existsb]. unfold deqb at 2. destruct (eqd l (mkfs x)) as [->|D]; reflexivity. }
  split; [|split; [|split]].
  - intros t. unfold scan_op. cbn [scans]. rewrite S. now destruct (mem t tabs).
  - intros l. unfold join_op. cbn [joins]. rewrite J. assert (E : mem (mkfs l) (map mkfs sets) = existsb (fun s => seteqb s l) sets).
    { apply eq_true_iff_eq. rewrite mem_In, in_map_iff, existsb_exists. split.
      - intros (s & E & H). exists s. split; [exact H|]. apply seteqb_seteq. now apply mkfs_eq.
      - intros (s & H & E). exists s. split; [|exact H]. apply mkfs_eq. now apply seteqb_seteq. }
    rewrite E. now destruct (existsb _ sets).
  - intros t x H. rewrite S in H. destruct (mem t tabs); [|discriminate]. injection H as <-. auto.
  - intros s x H. rewrite J in H. destruct (mem s (map mkfs sets)); [|discriminate]. injection H as <-. auto.
Qed.
(** The choice of an assignment. *)
Definition choice (keys : list nat) (sel : list nat) (t : nat) : nat := match dget (combine keys sel) t with Some o => o | None => 0 end.
Definition jchoice (keys : list (list nat)) (sel : list nat) (s : list nat) : nat := match dget (combine (map mkfs keys) sel) s with Some o => o | None => 0 end.
Lemma choice_map {K} {E : EqD K} (keys : list K) (sel : list nat) : NoDup keys -> length sel = length keys -> map (fun k => match dget (combine keys sel) k with Some o => o | None => 0 end) keys = sel.
Proof.
  revert sel. induction keys as [|k keys IH]; intros [|o sel] N L; cbn in *; try discriminate; [reflexivity|]. inversion N as [|? ? N1 N2]; subst. f_equal; [destruct (eqd k k); [reflexivity|congruence]|].
  transitivity (map (fun k => match dget (combine keys sel) k with Some o => o | None => 0 end) keys); [|apply (IH sel N2); congruence]. apply map_ext_in. intros x X. destruct (eqd x k) as [->|D]; [contradiction|reflexivity].
Qed.
Lemma canon_choice tabs sets sel jsel : NoDup tabs -> NoDup (map mkfs sets) -> length sel = length tabs -> length jsel = length sets ->
  canon tabs sets sel jsel = canon tabs sets (map (choice tabs sel) tabs) (map (fun s => jchoice sets jsel (mkfs s)) sets).
Proof.
  intros N M L K. unfold choice, jchoice. rewrite (choice_map sel N L). assert (C := @choice_map (list nat) _ (map mkfs sets) jsel M). rewrite map_length, map_map in C. now rewrite C.
Qed.
Lemma unique_choice tabs sets sel jsel f g : NoDup tabs -> NoDup (map mkfs sets) -> length sel = length tabs -> length jsel = length sets ->
  assigns (canon tabs sets sel jsel) tabs sets f g -> sel = map f tabs /\ jsel = map (fun s => g (mkfs s)) sets.
Proof.
  intros N M L K H. assert (H' := canon_assigns sets (choice tabs sel) (jchoice sets jsel) N M). rewrite <- (canon_choice sets sel jsel N M L K) in H'.
  destruct H as (_ & _ & S & J & _), H' as (_ & _ & S' & J' & _). split.
  - rewrite <- (choice_map sel N L) at 1. apply map_ext_in. intros t T. specialize (S t). specialize (S' t). rewrite (proj2 (mem_In t tabs) T) in S, S'. unfold choice in S'. congruence.
  - assert (C := @choice_map (list nat) _ (map mkfs sets) jsel M). rewrite map_length, map_map in C. rewrite <- (C K) at 1. apply map_ext_in. intros s T. specialize (J s). specialize (J' s).
    assert (X : existsb (fun s0 => seteqb s0 s) sets = true). { apply existsb_exists. exists s. split; [exact T|]. apply seteqb_seteq. intros z. reflexivity. }
    rewrite X in J, J'. unfold jchoice in J'. congruence.
Qed.

Section Enumerate.
  Context {A : Type} (scan_ops join_ops : list nat) (qtabs : list nat).
  Definition selections (t : jt nat A) : list poa :=
    concat (map (fun sel => map (fun jsel => canon qtabs (join_sets t) sel jsel) (product (map (fun _ => join_ops) (join_sets t)))) (product (map (fun _ => scan_ops) qtabs))).
  Lemma rmapM_const {X Y} (f : X -> res Y) (g : X -> Y) l : (forall x, In x l -> f x = Ok (g x)) -> rmapM f l = Ok (map g l).
  Proof. induction l as [|x l IH]; cbn; intros H; [reflexivity|]. rewrite (H x) by now left. cbn. rewrite IH by (intros; apply H; now right). reflexivity. Qed.
  Lemma all_ok t : NoDup qtabs -> over_tables t -> all_assignments scan_ops join_ops qtabs true true t = Ok (selections t).
  Proof.
    intros N O. unfold all_assignments, selections. cbn [negb]. rewrite (@rmapM_const _ _ _ (fun sel => map (fun jsel => canon qtabs (join_sets t) sel jsel) (product (map (fun _ => join_ops) (join_sets t))))); [reflexivity|].
    intros sel S. apply product_In in S as [L _]. rewrite (@rmapM_const _ _ _ (fun jsel => canon qtabs (join_sets t) sel jsel)); [reflexivity|]. intros jsel J. apply product_In in J as [K _].
    rewrite set_scans_ok; cbn [scans poa_empty map app]; [|now rewrite combine_fst]. unfold poa_clone. cbn [glob joins inters scans poa_empty]. rewrite set_joins_ok; cbn [glob joins inters scans map app].
    - reflexivity.
    - rewrite <- (map_map fst mkfs), combine_fst by auto. now apply sets_distinct.
    - intros [s o] E. apply in_combine_l in E. cbn. now apply (sets_two _ O).
  Qed.
End Enumerate.
