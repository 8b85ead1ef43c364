(** Lemmas about the pre-checks. *)
From Coq Require Import List Bool Arith Lia.
From Verif Require Import PyBase Pred_model Check_model Check_spec.
Import ListNotations.

Lemma enlist_iff r s : In s (enlist (reasons r)) <-> mentions_reason r s.
Proof. unfold mentions_reason. destruct (reasons r); cbn; intuition. Qed.
Lemma merge_results_pass rs : passed (merge_results rs) = true <-> forall r, In r rs -> passed r = false -> enlist (reasons r) = [].
Proof.
  unfold merge_results. set (f := flat_map _ rs). assert (Hf : forall s, In s f <-> exists r, In r rs /\ passed r = false /\ In s (enlist (reasons r))).
  { intros s. unfold f. rewrite in_flat_map. split; intros (r & Hr & H); exists r; (split; [assumption|]); destruct (passed r); try contradiction; auto; destruct H; try discriminate; auto. }
  destruct f as [|s f'].
  - cbn. split; [|reflexivity]. intros _ r Hr Hp. destruct (enlist (reasons r)) as [|x l] eqn:E; [reflexivity|]. exfalso. apply (proj2 (Hf x)). exists r. rewrite E. repeat split; auto; now left.
  - cbn. split; [discriminate|]. intros H. destruct (proj1 (Hf s) (or_introl eq_refl)) as (r & Hr & Hp & Hs). rewrite (H r Hr Hp) in Hs. destruct Hs.
Qed.
Lemma merge_results_reasons rs s : (exists r, In r rs /\ passed r = false /\ mentions_reason r s) <-> passed (merge_results rs) = false /\ mentions_reason (merge_results rs) s.
Proof.
  unfold merge_results. set (f := flat_map _ rs). assert (Hf : forall s, In s f <-> exists r, In r rs /\ passed r = false /\ mentions_reason r s).
  { intros t. unfold f. rewrite in_flat_map. split; intros (r & Hr & H); exists r; (split; [assumption|]). - destruct (passed r); [destruct H|]. rewrite <- enlist_iff. auto. - destruct H as [-> H]. now apply enlist_iff. }
  rewrite <- Hf. destruct f as [|t f']; cbn; [intuition discriminate|]. intuition.
Qed.

Section Checks.
  Context {Q D : Type}.
  Notation check := (check Q D).
  Lemma query_parts (c : check) q : passed (check_query c q) = true <-> forall a, In a (parts c) -> passed (a_query a q) = true.
  Proof.
    destruct c as [|a|l]; cbn.
    - split; [contradiction|reflexivity].
    - split; [intros H b [<-|[]]; assumption|intros H; apply H; now left].
    - destruct (forallb passed (map (fun a => a_query a q) l)) eqn:E; cbn.
      + rewrite forallb_forall in E. split; [|reflexivity]. intros _ a Ha. apply E. apply in_map_iff. eauto.
      + split; [discriminate|]. intros H. rewrite <- E. apply forallb_forall. intros r Hr. apply in_map_iff in Hr as (a & <- & Ha). auto.
  Qed.
  Lemma query_reasons (c : check) q s : passed (check_query c q) = false ->
    (forall a, In a (parts c) -> passed (a_query a q) = false -> mentions_reason (a_query a q) s -> mentions_reason (check_query c q) s) /\
    (mentions_reason (check_query c q) s -> exists a, In a (parts c) /\ mentions_reason (a_query a q) s).
  Proof.
    destruct c as [|a|l]; cbn; [discriminate| |].
    - intros _. split; [intros b [<-|[]]; auto|]. intros H. exists a. auto.
    - destruct (forallb passed (map (fun a => a_query a q) l)) eqn:E; cbn; [discriminate|]. intros _. split.
      + intros a Ha _ Hs. unfold mentions_reason. cbn [reasons]. apply in_flat_map. exists (a_query a q). split; [apply in_map_iff; eauto|now apply enlist_iff].
      + intros H. unfold mentions_reason in H. cbn [reasons] in H. apply in_flat_map in H as (r & Hr & Hs). apply in_map_iff in Hr as (a & <- & Ha). exists a. split; [assumption|now apply enlist_iff].
  Qed.
  Lemma compound_parts (cs : list check) : parts (compound cs) = flat_map parts cs.
  Proof. reflexivity. Qed.

  Lemma atom_eqb_refl (a : atom Q D) : atom_eqb a a = true.
  Proof. unfold atom_eqb. now rewrite !Nat.eqb_refl. Qed.
  Lemma list_eqb_refl (l : list (atom Q D)) : list_eqb l l = true.
  Proof. induction l as [|a l IH]; cbn; [reflexivity|]. now rewrite atom_eqb_refl. Qed.
  Lemma check_eqb_refl (c : check) : check_eqb c c = true.
  Proof. destruct c; cbn; [reflexivity|apply atom_eqb_refl|apply list_eqb_refl]. Qed.
  Lemma list_eqb_In (l m : list (atom Q D)) a : list_eqb l m = true -> In a l -> exists b, In b m /\ atom_eqb a b = true.
  Proof.
    revert m. induction l as [|x l IH]; intros [|y m] H Ha; cbn in H; try discriminate; [destruct Ha|]. apply andb_prop in H as [H1 H2].
    destruct Ha as [<-|Ha]; [exists y; split; [now left|assumption]|]. destruct (IH m H2 Ha) as (b & Hb & E). exists b. split; [now right|assumption].
  Qed.
  Lemma check_eqb_In (c d : check) a : check_eqb c d = true -> In a (parts c) -> exists b, In b (parts d) /\ atom_eqb a b = true.
  Proof. destruct c, d; cbn; try discriminate; [contradiction| |apply list_eqb_In]. intros H [<-|[]]. eauto. Qed.

  Lemma fold_set {A} (eqb : A -> A -> bool) (refl : forall x, eqb x x = true) l : forall s, (forall x, In x (fold_left (set_add eqb) l s) -> In x s \/ In x l) /\
    (forall x, In x s -> In x (fold_left (set_add eqb) l s)) /\ (forall x, In x l -> exists y, In y (fold_left (set_add eqb) l s) /\ eqb x y = true).
  Proof.
    induction l as [|x l IH]; intros s; cbn [fold_left]; [repeat split; auto; contradiction|]. destruct (IH (set_add eqb s x)) as (H1 & H2 & H3).
    assert (Hs : forall y, In y (set_add eqb s x) -> In y s \/ y = x). { intros y. unfold set_add. destruct (existsb (eqb x) s); auto. intros H. apply in_app_or in H as [H|[<-|[]]]; auto. }
    assert (Hs2 : forall y, In y s -> In y (set_add eqb s x)). { intros y Hy. unfold set_add. destruct (existsb (eqb x) s); auto. apply in_or_app. auto. }
    split; [|split].
    - intros y Hy. apply H1 in Hy as [Hy|Hy]; [apply Hs in Hy as [Hy| ->]; auto; right; now left|right; now right].
    - intros y Hy. apply H2. auto.
    - intros y [<-|Hy]; [|now apply H3]. unfold set_add in *. destruct (existsb (eqb x) s) eqn:E.
      + apply existsb_exists in E as (z & Hz & E). exists z. auto.
      + exists x. split; [apply H2; apply in_or_app; right; now left|apply refl].
  Qed.
  Lemma merge_parts (cs : list check) : (forall a, In a (parts (merge_checks cs)) -> exists c, In c cs /\ In a (parts c)) /\
    (forall c a, In c cs -> In a (parts c) -> exists b, In b (parts (merge_checks cs)) /\ (atom_eqb a b = true \/ exists x, atom_eqb a x = true /\ atom_eqb x b = true)).
  Proof.
    destruct cs as [|c0 cs0]; [split; [contradiction|contradiction]|]. set (cs := c0 :: cs0). 
    set (al := to_set check_eqb cs). set (atomic := flat_map (fun c => match c with CAtom a => [a] | _ => [] end) al). set (children := flat_map (fun c => match c with CCompound l => l | _ => [] end) al).
    assert (Hall := fold_set (@check_eqb Q D) check_eqb_refl cs []). fold (to_set check_eqb cs) in Hall. fold al in Hall. destruct Hall as (A1 & _ & A3).
    assert (Hat : forall a, In a (atomic ++ children) <-> exists c, In c al /\ In a (parts c)).
    { intros a. rewrite in_app_iff. unfold atomic, children. rewrite !in_flat_map. split.
      - intros [(c & Hc & H)|(c & Hc & H)]; exists c; (split; [assumption|]); destruct c; try contradiction; exact H.
      - intros (c & Hc & H). destruct c as [|b|l]; cbn in H; [contradiction|left|right]; eexists; (split; [exact Hc|]); exact H. }
    set (ms := to_set atom_eqb (atomic ++ children)). assert (Hm := fold_set (@atom_eqb Q D) atom_eqb_refl (atomic ++ children) []). fold (to_set atom_eqb (atomic ++ children)) in Hm. fold ms in Hm. destruct Hm as (M1 & _ & M3).
    assert (Hp : parts (match ms with [] => CEmpty | [a] => CAtom a | merged => CCompound merged end) = ms) by (destruct ms as [|x [|y ms']]; reflexivity).
    assert (E : merge_checks cs = match ms with [] => CEmpty | [a] => CAtom a | merged => CCompound merged end). { unfold merge_checks, cs. cbv zeta. fold cs. fold al. fold atomic. fold children. fold ms. destruct ms as [|? [|? ?]]; reflexivity. } rewrite E, Hp. clear E. split.
    - intros a Ha. apply M1 in Ha as [[]|Ha]. apply Hat in Ha as (c & Hc & Ha). apply A1 in Hc as [[]|Hc]. eauto.
    - intros c a Hc Ha. destruct (A3 c Hc) as (d & Hd & E). destruct (check_eqb_In _ _ _ E Ha) as (x & Hx & Ex). destruct (M3 x) as (b & Hb & Eb); [apply Hat; eauto|]. exists b. split; [assumption|right; eauto].
  Qed.
End Checks.

Section Equi.
  Context {E : Type} (ecols : E -> list col) (is_column : E -> bool) (conj nesting : bool).
  Lemma two_columns (l : list col) : length (dedup l) = 2 <-> exists c d, c <> d /\ forall x, In x l <-> x = c \/ x = d.
  Proof.
    split.
    - intros H. destruct (dedup l) as [|c [|d [|? ?]]] eqn:Ed; cbn in H; try discriminate. pose proof (dedup_NoDup l) as Hn. rewrite Ed in Hn. exists c, d. split; [inversion Hn as [|? ? Hc]; subst; intros ->; apply Hc; now left|].
      intros x. rewrite <- dedup_In, Ed. cbn. intuition.
    - intros (c & d & Hne & H). pose proof (dedup_NoDup l) as Hn. assert (H' : forall x, In x (dedup l) <-> x = c \/ x = d) by (intros x; rewrite dedup_In; apply H).
      apply Nat.le_antisymm.
      + apply (NoDup_incl_length (l' := [c; d]) Hn). intros x Hx. apply H' in Hx as [-> | ->]; cbn; auto.
      + apply (NoDup_incl_length (l := [c; d]) (l' := dedup l)); [constructor; [intros [->|[]]; now apply Hne|constructor; [easy|constructor]]|]. intros x [<-|[<-|[]]]; apply H'; auto.
  Qed.
  Lemma equi_iff p : equi_pred ecols is_column conj nesting p = true <-> equi_join ecols (fun e => nesting = true \/ is_column e = true) (conj = true) p.
  Proof.
    induction p as [op a b| | | | |ps IH|ps IH] using pred_ind'; cbn [equi_pred]; try (split; [discriminate|intros H; inversion H; fail]).
    - rewrite !andb_true_iff, Nat.eqb_eq, orb_true_iff, andb_true_iff, two_columns. split.
      + intros [[(c & d & Hne & H) Hop] Hs]. apply deqb_true in Hop. subst op. econstructor; [exact Hne|exact H|destruct Hs as [Hs|[Hs _]]; auto|destruct Hs as [Hs|[_ Hs]]; auto].
      + intros H. inversion H as [? ? c d Hne Hc Ha Hb|]; subst. split; [split; [exists c, d; auto|apply deqb_refl]|]. destruct nesting; [now left|right]. destruct Ha as [Ha|Ha]; [discriminate|]. destruct Hb as [Hb|Hb]; [discriminate|auto].
    - rewrite andb_true_iff, forallb_forall. rewrite Forall_forall in IH. split.
      + intros [Hc H]. constructor; [assumption|]. intros p Hp. apply IH; auto.
      + intros H. inversion H as [|? Hc Hps]; subst. split; [first [assumption|reflexivity]|]. intros p Hp. apply IH; auto.
  Qed.
End Equi.

(** ** Inner joins *)
Scheme source_from_ind := Induction for source Sort Prop with from_source_ind := Induction for from_clause Sort Prop.
Fixpoint ssize (s : source) : nat := match s with SSubquery q => S (fsize q) | SJoin l r _ => S (ssize l + ssize r) | _ => 1 end
with fsize (f : from_clause) : nat := match f with FExplicit s => S (ssize s) | FFrom ss => S ((fix go l := match l with [] => 0 | s :: l => ssize s + go l end) ss) | _ => 1 end.
Lemma fsize_In ss s : In s ss -> ssize s < fsize (FFrom ss).
Proof. cbn. induction ss as [|x ss IH]; [contradiction|]. intros [->|H]; [lia|]. apply IH in H. lia. Qed.
(** Failing results carry a reason. *)
Definition good_result (r : result) : Prop := passed r = false -> enlist (reasons r) <> [].
Lemma merge_good rs : good_result (merge_results rs).
Proof. unfold merge_results, good_result. destruct (flat_map _ rs); cbn; [discriminate|]. intros _ H. discriminate. Qed.
Lemma inner_from_list ss rs : (fix go l := match l with [] => Ok [] | s :: l => rbind (inner_source s) (fun x => rmap (cons x) (go l)) end) ss = Ok rs ->
  forall s, In s ss -> exists r, inner_source s = Ok r /\ In r rs.
Proof.
  revert rs. induction ss as [|x ss IH]; intros rs H s Hs; [destruct Hs|]. destruct (inner_source x) as [r|e] eqn:E; [|discriminate]. cbn in H.
  destruct ((fix go l := match l with [] => Ok [] | s :: l => rbind (inner_source s) (fun x => rmap (cons x) (go l)) end) ss) as [rs'|e]; [|discriminate]. cbn in H. injection H as <-.
  destruct Hs as [<-|Hs]; [exists r; split; [assumption|now left]|]. destruct (IH rs' eq_refl s Hs) as (r' & Hr & Hin). exists r'. split; [assumption|now right].
Qed.
Lemma inner_both n : (forall s, ssize s <= n -> forall r, inner_source s = Ok r -> good_result r /\ (passed r = true -> inner_only_source s)) /\
  (forall f, fsize f <= n -> forall r, inner_query f = Ok r -> good_result r /\ (passed r = true -> inner_only f)).
Proof.
  induction n as [|n [IH1 IH2]]; [split; [intros [| | | |]; cbn; lia|intros [| | |]; cbn; lia]|].
  assert (Hgood : good_result all_passed) by (unfold good_result; discriminate).
  split.
  - intros [| | |q|l r t] Hn res; cbn [inner_source]; try (intros [= <-]; split; [assumption|intros; constructor]); try discriminate.
    + intros H. destruct (IH2 q ltac:(cbn in Hn; lia) res H) as [H1 H2]. split; [assumption|]. intros Hp. constructor. auto.
    + destruct (inner_source l) as [a|e]; [|discriminate]. destruct (inner_source r) as [b|e]; [|discriminate]. cbn [rbind]. intros H. injection H as <-. split; [apply merge_good|]. intros Hp.
      apply merge_results_pass with (r := mkres false (RStr inner_failure)) in Hp; [discriminate|now left|reflexivity].
  - intros [| |s|ss] Hn res; cbn [inner_query]; try (intros [= <-]; split; [assumption|intros; constructor]).
    + intros H. destruct (IH1 s ltac:(cbn in Hn; lia) res H) as [H1 H2]. split; [assumption|]. intros Hp. constructor. auto.
    + match goal with |- rmap _ ?g = _ -> _ => destruct g as [rs|e] eqn:E end; [|discriminate]. cbn [rmap]. intros H. injection H as <-. split; [apply merge_good|]. intros Hp. constructor. intros s Hs.
      destruct (inner_from_list ss rs E s Hs) as (r & Hr & Hin). destruct (IH1 s ltac:(pose proof (fsize_In ss s Hs); lia) r Hr) as [H1 H2]. apply H2.
      destruct (passed r) eqn:Ep; [reflexivity|]. exfalso. apply (H1 Ep). apply (proj1 (merge_results_pass rs) Hp r Hin Ep).
Qed.
Definition counted (r : result) (n : nat) : Prop := (passed r = true /\ n = 0) \/ (passed r = false /\ length (enlist (reasons r)) = n /\ 0 < n).
Lemma merge_counted rs ns : Forall2 counted rs ns -> counted (merge_results rs) (list_sum ns).
Proof.
  intros H. unfold merge_results. set (f := flat_map _ rs). assert (E : length f = list_sum ns).
  { unfold f. induction H as [|r n rs ns Hr H IH]; [reflexivity|]. cbn [flat_map list_sum fold_right]. rewrite app_length, IH. unfold list_sum. destruct Hr as [[-> ->]|(-> & <- & _)]; reflexivity. }
  destruct f as [|x f']; [left; split; [reflexivity|symmetry; exact E]|right]. split; [reflexivity|]. split; [exact E|]. rewrite <- E. cbn. lia.
Qed.
Lemma inner_counted n : (forall s, ssize s <= n -> forall r, inner_source s = Ok r -> counted r (joins_in s)) /\
  (forall f, fsize f <= n -> forall r, inner_query f = Ok r -> counted r (joins_in_from f)).
Proof.
  induction n as [|n [IH1 IH2]]; [split; [intros [| | | |]; cbn; lia|intros [| | |]; cbn; lia]|].
  assert (Hp : counted all_passed 0) by (left; split; reflexivity).
  split.
  - intros [| | |q|l r t] Hn res; cbn [inner_source joins_in]; try (intros [= <-]; exact Hp); try discriminate.
    + intros H. apply IH2; [cbn in Hn; lia|assumption].
    + destruct (inner_source l) as [a|e] eqn:El; [|discriminate]. destruct (inner_source r) as [b|e] eqn:Er; [|discriminate]. cbn [rbind]. intros H. injection H as <-.
      assert (Hl : counted a (joins_in l)) by (apply IH1; [cbn in Hn; lia|assumption]). assert (Hr : counted b (joins_in r)) by (apply IH1; [cbn in Hn; lia|assumption]).
      cbn [differs_from_INNER app]. replace (S (joins_in l + joins_in r)) with (list_sum [1; joins_in l; joins_in r]) by (cbn; lia). apply merge_counted.
      constructor; [right; repeat split; auto|constructor; [exact Hl|constructor; [exact Hr|constructor]]].
  - intros [| |s|ss] Hn res; cbn [inner_query joins_in_from]; try (intros [= <-]; exact Hp).
    + intros H. apply IH1; [cbn in Hn; lia|assumption].
    + match goal with |- rmap _ ?g = _ -> _ => destruct g as [rs|e] eqn:E end; [|discriminate]. cbn [rmap]. intros H. injection H as <-.
      assert (Hs : forall s, In s ss -> ssize s <= n) by (intros s Hs; pose proof (fsize_In ss s Hs); lia). clear Hn.
      assert (H2 : exists ns, Forall2 counted rs ns /\ (fix go l := match l with [] => 0 | s :: l => joins_in s + go l end) ss = list_sum ns).
      { revert rs E. induction ss as [|x ss IH]; intros rs E; [injection E as <-; exists []; split; [constructor|reflexivity]|]. destruct (inner_source x) as [r|e] eqn:Ex; [|discriminate]. cbn [rbind] in E.
        match type of E with rmap _ ?g = _ => destruct g as [rs'|e] eqn:E' end; [|discriminate]. cbn [rmap] in E. injection E as <-. destruct (IH (fun s H => Hs s (or_intror H)) rs' eq_refl) as (ns & Hf & Es).
        exists (joins_in x :: ns). split; [constructor; [|assumption]; apply IH1; [apply Hs; now left|assumption]|]. cbn. now rewrite Es. }
      destruct H2 as (ns & Hf & ->). now apply merge_counted.
Qed.
