From Coq Require Import List Bool Arith Lia Wf_nat.
From Verif Require Import PyBase Src_model Src_spec PgDP_proofs.
Import ListNotations.
Set Implicit Arguments.

(** ** The parts of a query are smaller than the query *)
Section Sum.
  Context {A : Type} (f : A -> nat).
  Fixpoint lsum (l : list A) : nat := match l with [] => 0 | x :: r => f x + lsum r end.
  Definition osum (o : option A) : nat := match o with Some x => f x | None => 0 end.
  Definition osuml (o : option (list A)) : nat := match o with Some l => lsum l | None => 0 end.
  Context {C : Type}.
  Fixpoint lsum_fst (l : list (A * C)) : nat := match l with [] => 0 | (x, _) :: r => f x + lsum_fst r end.
  Definition sum_from (o : option (C * list A)) : nat := match o with Some (_, l) => lsum l | None => 0 end.
End Sum.
Fixpoint size_e (e : expr) : nat :=
  match e with
  | EVal | EStar | ECol _ => 1
  | EAnd ps => S (lsum size_e ps)
  | ENode _ _ args => S (lsum size_e args)
  | ESub q => S (size_q q)
  end
with size_s (s : source) : nat :=
  match s with
  | SDirect _ | SValues _ _ => 1
  | SSub q _ _ => S (size_q q)
  | SFun f _ => S (size_e f)
  | SJoin l r c _ => S (size_s l + size_s r + osum size_e c)
  end
with size_w (w : cte) : nat := match w with WQuery q _ => S (size_q q) | WValues _ _ => 1 end
with size_q (q : query) : nat :=
  match q with
  | QSel ctes targets di from wh gr hv od =>
      S (lsum size_w ctes + lsum_fst size_e targets + osuml size_e di + sum_from size_s from + osum size_e wh + lsum size_e gr + osum size_e hv + lsum size_e od)
  | QSet _ l r ctes od => S (size_q l + size_q r + lsum size_w ctes + lsum size_e od)
  end.
Definition size_n (n : node) : nat := match n with NE e => size_e e | NS s => size_s s | NW w => size_w w | NQ q => size_q q end.

Lemma lsum_In {A} (f : A -> nat) l x : In x l -> f x <= lsum f l.
Proof. induction l as [|y r IH]; cbn; [tauto|intros [->|H]; [lia|specialize (IH H); lia]]. Qed.
Lemma lsum_fst_In {A C} (f : A -> nat) (l : list (A * C)) x : In x (map fst l) -> f x <= lsum_fst f l.
Proof. induction l as [|[y c] r IH]; cbn; [tauto|intros [->|H]; [lia|specialize (IH H); lia]]. Qed.

Lemma kids_smaller n k : In k (kids n) -> size_n k < size_n n.
Proof.
  destruct n as [e|s|w|q]; [destruct e as [| |c|ps|kk a args|q]|destruct s as [t|q t l|a cols|f a|l r c j]|destruct w as [q t|t cols]|
    destruct q as [ctes ta di from wh gr hv od|op l r ctes od]]; cbn [kids size_n]; intro H; try (destruct H; fail);
  repeat (match goal with
  | H : In _ (_ ++ _) |- _ => apply in_app_iff in H; destruct H as [H|H]
  | H : In _ (map NE _) |- _ => apply in_map_iff in H; destruct H as (x & <- & H); cbn [size_n]
  | H : In _ (map NS _) |- _ => apply in_map_iff in H; destruct H as (x & <- & H); cbn [size_n]
  | H : In _ (map NW _) |- _ => apply in_map_iff in H; destruct H as (x & <- & H); cbn [size_n]
  | H : In _ [_] |- _ => destruct H as [<-|[]]
  | H : In _ [_; _] |- _ => destruct H as [<-|[<-|[]]]
  end); cbn; try lia;
  try (match goal with H : In ?x (optl ?o) |- _ => destruct o; cbn in H; [destruct H as [<-|[]]|destruct H] end; cbn; lia);
  try (match goal with H : In ?x (map fst _) |- _ => apply (lsum_fst_In size_e) in H; lia end);
  try (match goal with
    | H : In ?x ?l |- context [lsum ?f ?l] => apply (lsum_In f) in H; lia end).
  - destruct di as [d|]; [|destruct H]. cbn. apply (lsum_In size_e) in H. lia.
  - destruct from as [[k l]|]; [|destruct H]. cbn. apply (lsum_In size_s) in H. lia.
Qed.
Lemma node_ind (P : node -> Prop) : (forall n, (forall k, In k (kids n) -> P k) -> P n) -> forall n, P n.
Proof.
  intros H n. remember (size_n n) as m eqn:E. revert n E. induction m as [m IH] using lt_wf_ind. intros n ->.
  apply H. intros k Hk. apply (IH (size_n k)); [apply kids_smaller; exact Hk|reflexivity].
Qed.

(** ** Traversals *)
Lemma flat_In {A B} (f : A -> list B) l x : In x (flat f l) <-> exists y, In y l /\ In x (f y).
Proof.
  induction l as [|y r IH]; cbn; [split; [tauto|intros (y & [] & _)]|]. rewrite in_app_iff, IH. split.
  - intros [H|(z & Hz & H)]; [exists y; auto|exists z; auto].
  - intros (z & [->|Hz] & H); [auto|right; exists z; auto].
Qed.
Lemma flat_fst_In {A B C} (f : A -> list B) (l : list (A * C)) x : In x (flat_fst f l) <-> exists y, In y (map fst l) /\ In x (f y).
Proof.
  induction l as [|[y c] r IH]; cbn; [split; [tauto|intros (y & [] & _)]|]. rewrite in_app_iff, IH. split.
  - intros [H|(z & Hz & H)]; [exists y; auto|exists z; auto].
  - intros (z & [->|Hz] & H); [auto|right; exists z; auto].
Qed.
Lemma flat_opt_In {A B} (f : A -> list B) o x : In x (flat_opt f o) <-> exists y, In y (optl o) /\ In x (f y).
Proof. destruct o as [y|]; cbn; split; [intros H; exists y; auto|intros (z & [->|[]] & H); exact H|tauto|intros (z & [] & _)]. Qed.
Lemma flat_from_In {A B C} (f : A -> list B) (o : option (C * list A)) x : In x (flat_from f o) <-> exists y, In y (match o with Some (_, l) => l | None => [] end) /\ In x (f y).
Proof. destruct o as [[c l]|]; cbn; [apply flat_In|split; [tauto|intros (y & [] & _)]]. Qed.

Definition tables_n (n : node) : list (option tref) := match n with NE e => tables_e e | NS s => tables_s s | NW w => tables_w w | NQ q => tables_q q end.
Definition columns_n (n : node) : list colref := match n with NE e => columns_e e | NS s => columns_s s | NW w => columns_w w | NQ q => columns_q q end.
Definition itercols_n (n : node) : list colref := match n with NE e => itercols_e e | NS s => itercols_s s | NW w => itercols_w w | NQ q => itercols_q q end.

(** The parts that tables(), columns() and itercolumns() visit. *)
Definition tkids (n : node) : list node :=
  match n with
  | NS (SFun f None) => []
  | NS (SJoin l r _ _) => [NS l; NS r]
  | NQ (QSel ctes targets _ from wh gr hv od) =>
      map NW ctes ++ map NE (map fst targets) ++ map NS (items from) ++ map NE (optl wh) ++ map NE gr ++ map NE (optl hv) ++ map NE od
  | NQ (QSet _ l r _ _) => [NQ l; NQ r]
  | _ => kids n
  end.
Definition ckids (n : node) : list node := match n with NS _ => kids n | _ => tkids n end.
Definition ikids (n : node) : list node := match n with NQ (QSet _ _ _ _ _) => kids n | _ => ckids n end.
Definition own_t (n : node) : list (option tref) :=
  match n with
  | NE (ECol c) => match col_table c with Some t => [Some t] | None => [] end
  | NS (SDirect t) => [Some t]
  | NS (SSub _ t _) => [target_table t]
  | NS (SValues a _) => [a]
  | NS (SFun _ (Some a)) => [Some (TVirt a)]
  | _ => []
  end.
Definition own_c (n : node) : list colref :=
  match n with
  | NE (ECol c) => [c]
  | NS (SValues t cols) => map (Col t) cols
  | NW (WValues t cols) => map (fun c => ColOf (Some (TVirt t)) (Col (Some (TVirt t)) c)) cols
  | _ => []
  end.

Lemma map_ex {A B} (f : A -> B) l (P : B -> Prop) : (exists k, In k (map f l) /\ P k) <-> exists y, In y l /\ P (f y).
Proof. split; [intros (k & H & Hp); apply in_map_iff in H; destruct H as (y & <- & H); exists y; auto|intros (y & H & Hp); exists (f y); split; [apply in_map; exact H|exact Hp]]. Qed.
Lemma app_ex {A} (l m : list A) (P : A -> Prop) : (exists k, In k (l ++ m) /\ P k) <-> (exists k, In k l /\ P k) \/ (exists k, In k m /\ P k).
Proof. split; [intros (k & H & Hp); apply in_app_iff in H; destruct H; [left|right]; exists k; auto|intros [(k & H & Hp)|(k & H & Hp)]; exists k; rewrite in_app_iff; auto]. Qed.
Lemma nil_ex {A} (P : A -> Prop) : (exists k, In k [] /\ P k) <-> False.
Proof. split; [intros (k & [] & _)|tauto]. Qed.
Lemma one_ex {A} (a : A) (P : A -> Prop) : (exists k, In k [a] /\ P k) <-> P a.
Proof. split; [intros (k & [->|[]] & H); exact H|intro H; exists a; cbn; auto]. Qed.
Lemma cons_ex {A} (a : A) l (P : A -> Prop) : (exists k, In k (a :: l) /\ P k) <-> P a \/ exists k, In k l /\ P k.
Proof. split; [intros (k & [->|H] & Hp); [auto|right; exists k; auto]|intros [H|(k & H & Hp)]; [exists a|exists k]; cbn; auto]. Qed.

Ltac exs := repeat (rewrite ?app_ex, ?map_ex, ?nil_ex, ?one_ex, ?cons_ex, ?in_app_iff, ?flat_In, ?flat_fst_In, ?flat_opt_In, ?flat_from_In).
Lemma tables_step n x : In x (tables_n n) <-> In x (own_t n) \/ exists k, In k (tkids n) /\ In x (tables_n k).
Proof.
  destruct n as [e|s|w|q]; [destruct e as [| |c|ps|kk a args|q]|destruct s as [t|q t l|a cols|f [a|]|l r c j]|destruct w as [q t|t cols]|
    destruct q as [ctes ta di from wh gr hv od|op l r ctes od]]; cbn [tables_n tables_e tables_s tables_w tables_q own_t tkids kids]; exs; unfold items; exs; cbn [tables_n In]; try tauto.
Qed.
Lemma columns_step n x : In x (columns_n n) <-> In x (own_c n) \/ exists k, In k (ckids n) /\ In x (columns_n k).
Proof.
  destruct n as [e|s|w|q]; [destruct e as [| |c|ps|kk a args|q]|destruct s as [t|q t l|a cols|f [a|]|l r c j]|destruct w as [q t|t cols]|
    destruct q as [ctes ta di from wh gr hv od|op l r ctes od]]; cbn [columns_n columns_e columns_s columns_w columns_q own_c ckids tkids kids]; exs; unfold items; exs; cbn [columns_n In]; try tauto.
Qed.
Lemma itercols_step n x : In x (itercols_n n) <-> In x (own_c n) \/ exists k, In k (ikids n) /\ In x (itercols_n k).
Proof.
  destruct n as [e|s|w|q]; [destruct e as [| |c|ps|kk a args|q]|destruct s as [t|q t l|a cols|f [a|]|l r c j]|destruct w as [q t|t cols]|
    destruct q as [ctes ta di from wh gr hv od|op l r ctes od]]; cbn [itercols_n itercols_e itercols_s itercols_w itercols_q own_c ikids ckids tkids kids]; exs; unfold items; exs; cbn [itercols_n In]; try tauto.
Qed.

Lemma tkids_kids n k : In k (tkids n) -> In k (kids n).
Proof.
  destruct n as [e|s|w|q]; [destruct e as [| |c|ps|kk a args|q]|destruct s as [t|q t l|a cols|f [a|]|l r c j]|destruct w as [q t|t cols]|
    destruct q as [ctes ta di from wh gr hv od|op l r ctes od]]; cbn [tkids kids]; auto; unfold items; rewrite ?in_app_iff; cbn; tauto.
Qed.
Lemma ckids_kids n k : In k (ckids n) -> In k (kids n).
Proof. destruct n; cbn [ckids]; auto using tkids_kids. Qed.
Lemma ikids_kids n k : In k (ikids n) -> In k (kids n).
Proof. destruct n as [| | |[]]; cbn [ikids]; auto using ckids_kids. Qed.

Lemma mentions_step n t : mentions_table n t <-> table_at n t \/ exists k, In k (kids n) /\ mentions_table k t.
Proof.
  split.
  - intros (m & W & T). destruct W as [|n k Hk W]; [left; exact T|right; exists k; split; [exact Hk|exists m; auto]].
  - intros [T|(k & Hk & m & W & T)]; [exists n; split; [constructor|exact T]|exists m; split; [econstructor; eauto|exact T]].
Qed.
Lemma mentions_c_step n t : mentions_column n t <-> column_at n t \/ exists k, In k (kids n) /\ mentions_column k t.
Proof.
  split.
  - intros (m & W & T). destruct W as [|n k Hk W]; [left; exact T|right; exists k; split; [exact Hk|exists m; auto]].
  - intros [T|(k & Hk & m & W & T)]; [exists n; split; [constructor|exact T]|exists m; split; [econstructor; eauto|exact T]].
Qed.
Lemma own_t_at n t : In (Some t) (own_t n) <-> table_at n t.
Proof.
  split.
  - destruct n as [e|s|w|q]; [destruct e as [| |c|ps|kk a args|q]|destruct s as [t'|q t' l|a cols|f [a|]|l r c j]|destruct w as [q t'|t' cols]|
    destruct q as [ctes ta di from wh gr hv od|op l r ctes od]]; cbn; try tauto.
    + destruct c as [[t'|] n|[t'|] c]; cbn; try tauto; intros [E|[]]; injection E as ->; constructor.
    + intros [E|[]]; injection E as ->; constructor.
    + intros [E|[]]. destruct t'; cbn in E; [injection E as <-; constructor|discriminate].
    + intros [E|[]]. subst. constructor.
    + intros [E|[]]; injection E as <-; constructor.
  - intros []; cbn; auto.
Qed.

Theorem tables_sound n t : In (Some t) (tables_n n) -> mentions_table n t.
Proof.
  induction n as [n IH] using node_ind. rewrite tables_step, mentions_step, own_t_at. intros [H|(k & Hk & H)]; [left; exact H|right].
  apply tkids_kids in Hk. exists k. split; [exact Hk|apply IH; assumption].
Qed.

Lemma tkids_cover n k t : t_ok n -> In k (kids n) -> mentions_table k t -> exists k', In k' (tkids n) /\ mentions_table k' t.
Proof.
  intros O Hk M.
  destruct n as [e|s|w|q]; [destruct e as [| |c|ps|kk a args|q]|destruct s as [t'|q t' l|a cols|f [a|]|l r [c|] j]|destruct w as [q t'|t' cols]|
    destruct q as [ctes ta [di|] from wh gr hv od|op l r ctes od]]; cbn [tkids kids t_ok] in *; try (exists k; split; assumption).
  - destruct Hk as [<-|[]]. destruct (O t M).
  - destruct Hk as [<-|[<-|[<-|[]]]]; [exists (NS l)|exists (NS r)|]; try (split; [cbn; auto|exact M]).
    destruct (O t M) as [H|H]; [exists (NS l)|exists (NS r)]; (split; [cbn; auto|exact H]).
  - rewrite !in_app_iff in Hk. destruct Hk as [Hk|[Hk|[Hk|Hk]]].
    + exists k. rewrite !in_app_iff. auto.
    + exists k. rewrite !in_app_iff. auto.
    + apply in_map_iff in Hk. destruct Hk as (e & <- & He). destruct (O e t He M) as (s & Hs & Hm). exists (NS s). rewrite !in_app_iff.
      split; [right; right; left; apply in_map; exact Hs|exact Hm].
    + exists k. rewrite !in_app_iff. unfold items. tauto.
  - cbn [In app] in Hk. destruct Hk as [<-|[<-|Hk]]; [exists (NQ l)|exists (NQ r)|]; try (split; [cbn; auto|exact M]).
    destruct (O k t Hk M) as [H|H]; [exists (NQ l)|exists (NQ r)]; (split; [cbn; auto|exact H]).
Qed.
Theorem tables_complete n : (forall m, within m n -> t_ok m) -> forall t, mentions_table n t -> In (Some t) (tables_n n).
Proof.
  induction n as [n IH] using node_ind. intros O t M. apply tables_step. rewrite own_t_at. apply mentions_step in M.
  destruct M as [M|(k & Hk & M)]; [left; exact M|right].
  destruct (@tkids_cover _ _ _ (O n (w_here n)) Hk M) as (k' & Hk' & M'). exists k'. split; [exact Hk'|].
  pose proof (tkids_kids _ _ Hk') as Hk2. apply IH; [exact Hk2| |exact M']. intros m W. apply O. econstructor; eauto.
Qed.

(** None is in the result exactly if a derived table has no name. *)
Lemma within_trans a b c : within a b -> within b c -> within a c.
Proof. intros H W. induction W as [|n k Hk W IH]; [exact H|econstructor; eauto]. Qed.
Theorem tables_none n : In None (tables_n n) -> exists s, within (NS s) n /\ ((exists q l, s = SSub q None l) \/ exists cols, s = SValues None cols).
Proof.
  induction n as [n IH] using node_ind. rewrite tables_step. intros [H|(k & Hk & H)].
  - destruct n as [e|s|w|q]; [destruct e as [| |c|ps|kk a args|q]|destruct s as [t'|q t' l|a cols|f [a|]|l r c j]|destruct w as [q t'|t' cols]|
    destruct q as [ctes ta di from wh gr hv od|op l r ctes od]]; cbn in H; try tauto.
    + destruct (col_table c); cbn in H; [destruct H as [H|[]]; discriminate|tauto].
    + destruct H as [H|[]]; discriminate.
    + destruct H as [H|[]]. destruct t'; [discriminate|]. eexists. split; [constructor|]. left. eauto.
    + destruct H as [->|[]]. eexists. split; [constructor|]. right. eauto.
    + destruct H as [H|[]]; discriminate.
  - apply tkids_kids in Hk. destruct (IH k Hk H) as (s & W & G). exists s. split; [econstructor; eauto|exact G].
Qed.

(** ** columns() *)
Lemma own_c_at n c : no_values n -> (In c (own_c n) <-> column_at n c).
Proof.
  intros N. split.
  - destruct n as [e|s|w|q]; [destruct e as [| |c'|ps|kk a args|q]|destruct s as [t'|q t' l|a cols|f [a|]|l r c' j]|destruct w as [q t'|t' cols]|
    destruct q as [ctes ta di from wh gr hv od|op l r ctes od]]; cbn in *; try tauto.
    + intros [->|[]]. constructor.
    + rewrite in_map_iff. intros (x & <- & H). constructor. exact H.
    + subst. cbn. tauto.
  - intro H. destruct H as [c|t cols c H|t cols c H]; cbn [own_c no_values In] in *; [auto|apply in_map; exact H|subst; destruct H].
Qed.
Theorem columns_sound n c : (forall m, within m n -> no_values m) -> In c (columns_n n) -> mentions_column n c.
Proof.
  induction n as [n IH] using node_ind. intros N. rewrite columns_step, mentions_c_step, own_c_at; [|apply N; constructor].
  intros [H|(k & Hk & H)]; [left; exact H|right]. apply ckids_kids in Hk. exists k. split; [exact Hk|apply IH; try assumption].
  intros m W. apply N. econstructor; eauto.
Qed.
Lemma ckids_cover n k c : c_ok n -> In k (kids n) -> mentions_column k c -> exists k', In k' (ckids n) /\ mentions_column k' c.
Proof.
  intros [_ O] Hk M.
  destruct n as [e|s|w|q]; [exists k; split; assumption|exists k; split; assumption|exists k; split; assumption|].
  destruct q as [ctes ta [di|] from wh gr hv od|op l r ctes od].
  - cbn [kids] in Hk. rewrite !in_app_iff in Hk. destruct Hk as [Hk|[Hk|[Hk|Hk]]].
    + exists k. cbn [ckids tkids]. rewrite !in_app_iff. auto.
    + exists k. cbn [ckids tkids]. rewrite !in_app_iff. auto.
    + apply in_map_iff in Hk. destruct Hk as (e & <- & He). destruct (O e c He M) as (x & Hx & Mx). exists (NE (fst x)). split; [|exact Mx]. cbn [ckids tkids]. rewrite !in_app_iff. right. left. apply in_map. apply in_map. exact Hx.
    + exists k. cbn [ckids tkids]. rewrite !in_app_iff. unfold items. tauto.
  - exists k. split; [|exact M]. cbn [ckids tkids kids app] in *. unfold items. exact Hk.
  - cbn [kids In app] in Hk. destruct Hk as [<-|[<-|Hk]]; [exists (NQ l)|exists (NQ r)|]; try (split; [cbn; auto|exact M]).
    destruct (O k c Hk M) as [H|H]; [exists (NQ l)|exists (NQ r)]; (split; [cbn; auto|exact H]).
Qed.
Theorem columns_complete n : (forall m, within m n -> c_ok m) -> forall c, mentions_column n c -> In c (columns_n n).
Proof.
  induction n as [n IH] using node_ind. intros O c M. apply columns_step. rewrite own_c_at by (apply (O n (w_here n))). apply mentions_c_step in M.
  destruct M as [M|(k & Hk & M)]; [left; exact M|right].
  destruct (@ckids_cover _ _ _ (O n (w_here n)) Hk M) as (k' & Hk' & M'). exists k'. split; [exact Hk'|].
  pose proof (ckids_kids _ _ Hk') as Hk2. apply IH; [exact Hk2| |exact M']. intros m W. apply O. econstructor; eauto.
Qed.
(** itercolumns() lists all columns of columns(), and nothing else unless it looks into the clauses of set queries. *)
Theorem columns_iter n c : In c (columns_n n) -> In c (itercols_n n).
Proof.
  induction n as [n IH] using node_ind. rewrite columns_step, itercols_step. intros [H|(k & Hk & H)]; [left; exact H|right].
  exists k. split; [|apply IH; [apply ckids_kids; exact Hk|exact H]].
  destruct n as [| | |[]]; cbn [ikids]; auto using ckids_kids.
Qed.
Theorem itercols_sound n c : (forall m, within m n -> no_values m) -> In c (itercols_n n) -> mentions_column n c.
Proof.
  induction n as [n IH] using node_ind. intros N. rewrite itercols_step, mentions_c_step, own_c_at; [|apply N; constructor].
  intros [H|(k & Hk & H)]; [left; exact H|right]. apply ikids_kids in Hk. exists k. split; [exact Hk|apply IH; try assumption].
  intros m W. apply N. econstructor; eauto.
Qed.
Theorem itercols_complete n : (forall m, within m n -> i_ok m) -> forall c, mentions_column n c -> In c (itercols_n n).
Proof.
  induction n as [n IH] using node_ind. intros O c M. apply itercols_step. rewrite own_c_at by (apply (O n (w_here n))). apply mentions_c_step in M.
  destruct M as [M|(k & Hk & M)]; [left; exact M|right].
  assert (E : exists k', In k' (ikids n) /\ mentions_column k' c).
  { destruct n as [e|s|w|[ctes ta di from wh gr hv od|op l r ctes od]]; cbn [ikids]; try (exists k; split; assumption).
    all: apply (@ckids_cover _ k c); [split; [apply (O _ (w_here _))|]|exact Hk|exact M]; try exact I.
    destruct (O _ (w_here _)) as [_ O']. exact O'. }
  destruct E as (k' & Hk' & M'). exists k'. split; [exact Hk'|].
  pose proof (ikids_kids _ _ Hk') as Hk2. apply IH; [exact Hk2| |exact M']. intros m W. apply O. econstructor; eauto.
Qed.

(** ** Subqueries *)
Lemma nested_step_e e q : nested (NE e) q <-> match e with ESub q' => q = q' | EAnd ps => exists x, In x ps /\ nested (NE x) q | ENode _ _ ps => exists x, In x ps /\ nested (NE x) q | _ => False end.
Proof.
  split.
  - intro H. inversion H as [q' E|q' t l E|n k q' N K Hk Hn E]; subst; cbn; [reflexivity|].
    destruct e as [| |c|ps|kk a args|q']; cbn in *; try tauto; apply in_map_iff in Hk; destruct Hk as (x & <- & Hx); exists x; auto.
  - destruct e as [| |c|ps|kk a args|q']; try tauto.
    + intros (x & Hx & H). apply (@n_down _ (NE x)); cbn; auto. apply in_map. exact Hx.
    + intros (x & Hx & H). apply (@n_down _ (NE x)); cbn; auto. apply in_map. exact Hx.
    + intros ->. constructor.
Qed.
Lemma collect_e_spec e q : In q (collect_e e) <-> nested (NE e) q.
Proof.
  assert (G : forall n, match n with NE e => In q (collect_e e) <-> nested (NE e) q | _ => True end).
  { induction n as [n IH] using node_ind. destruct n as [e'|s|w|q']; try exact I. rewrite nested_step_e.
    destruct e' as [| |c|ps|kk a args|q']; cbn [collect_e]; try (cbn; tauto).
    - rewrite flat_In. split; intros (x & Hx & H); exists x; (split; [exact Hx|]); apply (IH (NE x)); auto; cbn [kids]; apply in_map; exact Hx.
    - rewrite flat_In. split; intros (x & Hx & H); exists x; (split; [exact Hx|]); apply (IH (NE x)); auto; cbn [kids]; apply in_map; exact Hx.
    - cbn. split; [intros [->|[]]; reflexivity|intros ->; auto]. }
  exact (G (NE e)).
Qed.

Lemma nested_sel ctes ta di from wh gr hv od q :
  nested (NQ (QSel ctes ta di from wh gr hv od)) q <->
  (exists e, In e (clause_exprs (QSel ctes ta di from wh gr hv od)) /\ nested (NE e) q) \/ (exists s, In s (items from) /\ nested (NS s) q).
Proof.
  split.
  - intro H. inversion H as [| |n k q' N K Hk Hn E]; subst. cbn [kids] in Hk. rewrite !in_app_iff in Hk.
    repeat match goal with H : _ \/ _ |- _ => destruct H as [H|H] end; apply in_map_iff in Hk; destruct Hk as (x & <- & Hx); try (destruct K);
      try (right; exists x; split; [exact Hx|exact Hn]); left; exists x; (split; [cbn [clause_exprs]; rewrite !in_app_iff; tauto|exact Hn]).
  - intros [(e & He & H)|(s & Hs & H)].
    + apply (@n_down _ (NE e)); auto; try exact I. cbn [clause_exprs] in He. cbn [kids]. rewrite !in_app_iff in *.
      repeat match goal with H : _ \/ _ |- _ => destruct H as [H|H] end; apply (in_map NE) in He; tauto.
    + apply (@n_down _ (NS s)); auto; try exact I. cbn [kids]. rewrite !in_app_iff. apply (in_map NS) in Hs. unfold items in Hs. tauto.
Qed.

(** Whether the FROM clause is one that subqueries() can handle. *)
Definition joinless (from : option (fkind * list source)) : Prop :=
  match from with Some (FOther, l) => forall s, In s l -> match s with SJoin _ _ _ _ => False | _ => True end | _ => True end.
Lemma rmapM_raises {A B} (f : A -> res B) (l : list A) x e : (forall y e', In y l -> f y = Raise e' -> e' = e) -> In x l -> f x = Raise e -> rmapM f l = Raise e.
Proof.
  induction l as [|y r IH]; cbn; [tauto|]. intros H [->|Hx] E; [rewrite E; reflexivity|].
  destruct (f y) eqn:Ey; cbn; [rewrite IH; auto; intros; eapply H; eauto|f_equal; apply (H y e0); auto].
Qed.
Lemma collect_s_raises s e : collect_s s = Raise e -> e = TypeError.
Proof. induction s as [t|q t l|a cols|f a|l IH r IHr c j]; cbn; try discriminate. destruct (collect_s l) eqn:E; cbn; [congruence|intro H; apply IH; exact H]. Qed.
Lemma collect_join l r c j : collect_s (SJoin l r c j) = Raise TypeError.
Proof. cbn. destruct (collect_s l) eqn:E; cbn; [reflexivity|]. apply collect_s_raises in E. congruence. Qed.
Lemma collect_from_join l s : In s l -> (match s with SJoin _ _ _ _ => True | _ => False end) -> collect_from (Some (FOther, l)) = Raise TypeError.
Proof.
  intros Hs J. cbn. destruct s; try tauto. unfold rmap. rewrite (@rmapM_raises _ _ collect_s l (SJoin s1 s2 cond j) TypeError); [reflexivity| |exact Hs|apply collect_join].
  intros y e _. apply collect_s_raises.
Qed.
Lemma collect_from_ok from l : collect_from from = Ok l -> joinless from.
Proof.
  destruct from as [[[] items]|]; cbn [joinless]; auto. intros E s Hs. destruct s eqn:Es; auto.
  rewrite (@collect_from_join items s) in E; [discriminate|subst; exact Hs|subst; exact I].
Qed.
Lemma collect_from_total from : joinless from -> exists l, collect_from from = Ok l.
Proof.
  destruct from as [[[] items]|]; cbn; eauto. intros J.
  assert (G : exists l, rmapM collect_s items = Ok l). { apply rmapM_total. intros s Hs. specialize (J s Hs). destruct s; cbn; eauto. tauto. }
  destruct G as (l & ->). cbn. eauto.
Qed.
Lemma collect_from_spec from l q : collect_from from = Ok l -> In q l <->
  match from with Some (FOther, items) => exists s t b, In s items /\ s = SSub q t b | _ => False end.
Proof.
  destruct from as [[[] items]|]; cbn; try (intro E; injection E as <-; cbn; tauto).
  unfold rmap. destruct (rmapM collect_s items) as [ll|] eqn:E; cbn; [|discriminate]. intro E2. injection E2 as <-. rename E into R.
  revert ll R. induction items as [|s r IH]; cbn.
  - intros ll R. injection R as <-. cbn. split; [tauto|intros (s & t & b & [] & _)].
  - intros ll R. destruct (collect_s s) as [a|] eqn:Es; cbn in R; [|discriminate]. destruct (rmapM collect_s r) as [b|] eqn:Er; cbn in R; [|discriminate].
    injection R as <-. cbn [concat]. rewrite in_app_iff, (IH b eq_refl). split.
    + intros [H|(s' & t & l & Hs & ->)]; [|exists (SSub q t l), t, l; auto].
      destruct s as [t|q' t l|al cols|f al|x y c j]; cbn in Es; try (injection Es as <-; cbn in H; try tauto).
      * destruct H as [->|[]]. exists (SSub q t l), t, l. auto.
      * destruct (collect_s x); discriminate.
    + intros (s' & t & l & [<-|Hs] & Eq); [|right; exists s', t, l; auto]. left. subst s. cbn in Es. injection Es as <-. cbn. auto.
Qed.

Definition sub_exprs (q : query) : list expr :=
  match q with QSel _ targets _ _ wh gr hv od => map fst targets ++ optl wh ++ gr ++ optl hv ++ od | QSet _ _ _ _ _ => [] end.
Lemma subqueries_sel ctes ta di from wh gr hv od l : subqueries (QSel ctes ta di from wh gr hv od) = Ok l ->
  exists fr, collect_from from = Ok fr /\ forall q, In q l <-> (exists e, In e (sub_exprs (QSel ctes ta di from wh gr hv od)) /\ nested (NE e) q) \/ In q fr.
Proof.
  cbn [subqueries]. destruct (collect_from from) as [fr|] eqn:Ef; cbn [rbind]; [|discriminate]. intro E. injection E as <-. exists fr. split; [reflexivity|].
  intro q. cbn [sub_exprs]. rewrite !in_app_iff, flat_fst_In, !flat_opt_In, !flat_In, !app_ex.
  assert (G : forall L, (exists y : expr, In y L /\ In q (collect_e y)) <-> (exists y, In y L /\ nested (NE y) q)).
  { intros L. split; intros (y & Hy & H); exists y; (split; [exact Hy|]); apply collect_e_spec; exact H. }
  rewrite !G. tauto.
Qed.

Theorem subqueries_sound q l : subqueries q = Ok l -> forall s, In s l -> subquery_of q s.
Proof.
  revert l. assert (G : forall n, match n with NQ q => forall l, subqueries q = Ok l -> forall s, In s l -> subquery_of q s | _ => True end).
  { induction n as [n IH] using node_ind. destruct n as [e|s|w|q']; try exact I.
    destruct q' as [ctes ta di from wh gr hv od|op a b ctes od]; intros l E s Hs.
    - destruct (subqueries_sel _ _ _ _ _ _ _ _ E) as (fr & Ef & H). apply H in Hs. constructor. apply nested_sel. destruct Hs as [(e & He & Hn)|Hs].
      + left. exists e. split; [|exact Hn]. cbn [clause_exprs sub_exprs] in *. rewrite !in_app_iff in *. tauto.
      + right. apply (collect_from_spec _ _ Ef) in Hs. destruct from as [[[] L]|]; try tauto. destruct Hs as (s' & t & bb & Hs & ->).
        exists (SSub s t bb). split; [exact Hs|constructor].
    - cbn [subqueries] in E. destruct (subqueries a) as [la|] eqn:Ea; cbn in E; [|discriminate]. destruct (subqueries b) as [lb|] eqn:Eb; cbn in E; [|discriminate].
      injection E as <-. apply in_app_iff in Hs. destruct Hs as [Hs|Hs].
      + apply so_left. apply (IH (NQ a)) with (l := la); cbn; auto.
      + apply so_right. apply (IH (NQ b)) with (l := lb); cbn; auto. }
  exact (G (NQ q)).
Qed.

Theorem subqueries_complete q : visible q -> exists l, subqueries q = Ok l /\ forall s, subquery_of q s -> In s l.
Proof.
  assert (G : forall n, match n with NQ q => visible q -> exists l, subqueries q = Ok l /\ forall s, subquery_of q s -> In s l | _ => True end).
  { induction n as [n IH] using node_ind. destruct n as [e|s|w|q']; try exact I.
    destruct q' as [ctes ta di from wh gr hv od|op a b ctes od].
    - cbn [visible]. intros [D F].
      assert (J : joinless from). { destruct from as [[[] L]|]; cbn; auto. intros s Hs. specialize (F s Hs). destruct s; auto. }
      destruct (@collect_from_total from J) as (fr & Ef). eexists. split; [cbn [subqueries]; rewrite Ef; cbn [rbind]; reflexivity|].
      intros s H. inversion H as [q' s' Hn| |]; subst.
      destruct (@subqueries_sel ctes ta di from wh gr hv od _ ltac:(cbn [subqueries]; rewrite Ef; cbn [rbind]; reflexivity)) as (fr' & Ef' & G).
      rewrite Ef in Ef'. injection Ef' as <-. apply G. apply nested_sel in Hn. destruct Hn as [(e & He & Hn)|(x & Hx & Hn)].
      + left. exists e. split; [|exact Hn]. cbn [clause_exprs sub_exprs] in *. rewrite !in_app_iff in *.
        destruct He as [He|[He|He]]; auto. destruct (D e s He Hn).
      + right. apply (collect_from_spec _ _ Ef). destruct from as [[[] L]|]; cbn [items] in Hx; try (destruct Hx; fail).
        * destruct (F x Hx) as (t & ->). inversion Hn as [| |n k q' N K Hk Hn' E]; subst. destruct Hk.
        * specialize (F x Hx). destruct x as [t|q' t b|al cols|f al|l r c j]; try tauto.
          -- inversion Hn as [| |n k q' N K Hk Hn' E]; subst. destruct Hk.
          -- inversion Hn as [|q2 t2 b2 E|n k q2 N K Hk Hn' E]; subst; [|destruct N]. eauto.
          -- inversion Hn as [| |n k q' N K Hk Hn' E]; subst. destruct Hk.
          -- inversion Hn as [| |n k q' N K Hk Hn' E]; subst. destruct Hk as [<-|[]]. destruct (F s Hn').
    - cbn [visible]. intros (Va & Vb & O).
      destruct (IH (NQ a) ltac:(cbn; auto) Va) as (la & Ea & Ha). destruct (IH (NQ b) ltac:(cbn; auto) Vb) as (lb & Eb & Hb).
      exists (la ++ lb). split; [cbn [subqueries]; rewrite Ea; cbn [rbind]; rewrite Eb; reflexivity|]. intros s H. apply in_app_iff.
      inversion H as [q' s' Hn|op' l r w o s' Hs|op' l r w o s' Hs]; subst; auto.
      inversion Hn as [| |n k q' N K Hk Hn' E]; subst. cbn [kids] in Hk. cbn [In app] in Hk. destruct Hk as [<-|[<-|Hk]]; try (destruct K; fail).
      apply in_app_iff in Hk. destruct Hk as [Hk|Hk]; apply in_map_iff in Hk; destruct Hk as (x & <- & Hx); [destruct K|]. destruct (O x s Hx Hn'). }
  exact (G (NQ q)).
Qed.

(** ** Bound and unbound tables of plain queries *)
Lemma plain_sub q q' : plain q -> within (NQ q') (NQ q) -> plain q'.
Proof. intros P W m H. apply P. eapply within_trans; eauto. Qed.
Lemma plain_kid n k : (forall m, within m n -> plain_at m) -> In k (kids n) -> forall m, within m k -> plain_at m.
Proof. intros P Hk m W. apply P. econstructor; eauto. Qed.

(** A FROM item that occurs in an expression belongs to one of its outermost subqueries. *)
Lemma within_expr s e : within (NS s) (NE e) <-> exists q, nested (NE e) q /\ within (NS s) (NQ q).
Proof.
  split.
  - assert (G : forall n, match n with NE e => within (NS s) (NE e) -> exists q, nested (NE e) q /\ within (NS s) (NQ q) | _ => True end).
    { induction n as [n IH] using node_ind. destruct n as [e'|s'|w|q']; try exact I. intro W. inversion W as [|n k Hk W' E]; subst.
      destruct e' as [| |c|ps|kk a args|q']; cbn [kids] in Hk; try (destruct Hk; fail).
      - apply in_map_iff in Hk. destruct Hk as (x & <- & Hx). destruct (IH (NE x)) as (q & Hq & Wq); [cbn; apply in_map; exact Hx|exact W'|].
        exists q. split; [apply nested_step_e; eauto|exact Wq].
      - apply in_map_iff in Hk. destruct Hk as (x & <- & Hx). destruct (IH (NE x)) as (q & Hq & Wq); [cbn; apply in_map; exact Hx|exact W'|].
        exists q. split; [apply nested_step_e; eauto|exact Wq].
      - destruct Hk as [<-|[]]. exists q'. split; [constructor|exact W']. }
    exact (G (NE e)).
  - intros (q & Hn & W). eapply within_trans; [exact W|]. clear W. remember (NE e) as n eqn:E. clear E e. induction Hn as [q|q t l|n k q N K Hk Hn IH].
    + apply (@w_down _ _ (NQ q)); [cbn; auto|constructor].
    + apply (@w_down _ _ (NQ q)); [cbn; auto|constructor].
    + econstructor; eauto.
Qed.
Lemma nested_within n q : nested n q -> within (NQ q) n.
Proof.
  induction 1 as [q|q t l|n k q N K Hk Hn IH].
  - apply (@w_down _ _ (NQ q)); [cbn; auto|constructor].
  - apply (@w_down _ _ (NQ q)); [cbn; auto|constructor].
  - econstructor; eauto.
Qed.

Lemma lmax_In {A} (f : A -> nat) l x : In x l -> f x <= lmax f l.
Proof. induction l as [|y r IH]; cbn; [tauto|intros [->|H]; [lia|specialize (IH H); lia]]. Qed.
Lemma lmax_fst_In {A C} (f : A -> nat) (l : list (A * C)) x : In x (map fst l) -> f x <= lmax_fst f l.
Proof. induction l as [|[y c] r IH]; cbn; [tauto|intros [->|H]; [lia|specialize (IH H); lia]]. Qed.
Lemma nested_depth e q : nested (NE e) q -> depth_q q <= depth_e e.
Proof.
  assert (G : forall n, match n with NE e => nested (NE e) q -> depth_q q <= depth_e e | _ => True end).
  { induction n as [n IH] using node_ind. destruct n as [e'|s'|w|q']; try exact I. rewrite nested_step_e. destruct e' as [| |c|ps|kk a args|q']; try tauto.
    - intros (x & Hx & H). specialize (IH (NE x) ltac:(cbn; apply in_map; exact Hx) H). cbn [depth_e]. apply (lmax_In depth_e) in Hx. lia.
    - intros (x & Hx & H). specialize (IH (NE x) ltac:(cbn; apply in_map; exact Hx) H). cbn [depth_e]. apply (lmax_In depth_e) in Hx. lia.
    - intros ->. cbn. lia. }
  exact (G (NE e)).
Qed.
Lemma sub_exprs_depth ctes ta di from wh gr hv od e : In e (sub_exprs (QSel ctes ta di from wh gr hv od)) -> depth_e e < depth_q (QSel ctes ta di from wh gr hv od).
Proof.
  cbn [sub_exprs depth_q]. rewrite !in_app_iff. intros [H|[H|[H|[H|H]]]].
  - apply (lmax_fst_In depth_e) in H. lia.
  - destruct wh as [p|]; [destruct H as [<-|[]]|destruct H]. cbn. lia.
  - apply (lmax_In depth_e) in H. lia.
  - destruct hv as [p|]; [destruct H as [<-|[]]|destruct H]. cbn. lia.
  - apply (lmax_In depth_e) in H. lia.
Qed.

(** FROM clauses of plain queries *)
Lemma plain_from k l n : (forall s, In s l -> exists t, s = SDirect t) ->
  exists b, collect_bound (S n) (Some (k, l)) = Ok b /\ forall x, In x b <-> exists t, x = Some t /\ In (SDirect t) l.
Proof.
  intros H. destruct k; cbn [collect_bound].
  - eexists. split; [reflexivity|]. intro x. rewrite flat_In. split.
    + intros (s & Hs & Hx). destruct (H s Hs) as (t & ->). destruct Hx as [<-|[]]. eauto.
    + intros (t & -> & Hs). exists (SDirect t). cbn. auto.
  - set (src := fix src s := match s with SDirect t => Ok [Some t] | SSub q _ _ => rbind (from_of q) (collect_bound n) | SJoin l0 _ _ _ => rbind (src l0) (fun _ => Raise TypeError) | SValues _ _ | SFun _ _ => Raise TypeError end).
    induction l as [|s r IH].
    + exists []. split; [reflexivity|]. intro x. split; [intros []|intros (t & _ & [])].
    + destruct IH as (b & E & Hb); [intros s' Hs; apply H; cbn; auto|]. destruct (H s ltac:(cbn; auto)) as (t & ->).
      unfold rmap in *. cbn [rmapM]. change (src (SDirect t)) with (Ok [Some t]). cbn [rbind]. destruct (rmapM src r) as [ll|]; cbn [rbind] in E |- *; [|discriminate]. injection E as <-. eexists. split; [reflexivity|].
      intro x. cbn [concat]. rewrite in_app_iff, Hb. cbn [In]. split.
      * intros [[<-|[]]|(t' & -> & Hs)]; [exists t; auto|exists t'; auto].
      * intros (t' & -> & [E|Hs]); [injection E as ->; auto|right; eauto].
Qed.
Lemma plain_joinless k l : (forall s, In s l -> exists t, s = SDirect t) -> joinless (Some (k, l)).
Proof. intros H. destruct k; cbn; auto. intros s Hs. destruct (H s Hs) as (t & ->). exact I. Qed.

Lemma scanned_sel ctes ta di from wh gr hv od t : ctes = [] -> di = None -> (forall s, In s (items from) -> exists t, s = SDirect t) ->
  scanned (QSel ctes ta di from wh gr hv od) t <-> In (SDirect t) (items from) \/ exists e q, In e (sub_exprs (QSel ctes ta di from wh gr hv od)) /\ nested (NE e) q /\ scanned q t.
Proof.
  intros -> -> D. unfold scanned. split.
  - intro W. inversion W as [|n k Hk W' E]; subst. cbn [kids map app] in Hk. rewrite !in_app_iff in Hk.
    assert (X : forall e, In e (sub_exprs (QSel [] ta None from wh gr hv od)) -> within (NS (SDirect t)) (NE e) ->
      exists e q, In e (sub_exprs (QSel [] ta None from wh gr hv od)) /\ nested (NE e) q /\ within (NS (SDirect t)) (NQ q)).
    { intros e He We. apply within_expr in We. destruct We as (q & Hn & Wq). exists e, q. auto. }
    destruct Hk as [Hk|[Hk|[Hk|[Hk|[Hk|Hk]]]]]; apply in_map_iff in Hk; destruct Hk as (x & <- & Hx).
    + right. apply (X x); [cbn [sub_exprs]; rewrite !in_app_iff; tauto|exact W'].
    + left. destruct (D x Hx) as (t' & ->). inversion W' as [|n k Hk W2 E]; subst; [exact Hx|destruct Hk].
    + right. apply (X x); [cbn [sub_exprs]; rewrite !in_app_iff; tauto|exact W'].
    + right. apply (X x); [cbn [sub_exprs]; rewrite !in_app_iff; tauto|exact W'].
    + right. apply (X x); [cbn [sub_exprs]; rewrite !in_app_iff; tauto|exact W'].
    + right. apply (X x); [cbn [sub_exprs]; rewrite !in_app_iff; tauto|exact W'].
  - intros [H|(e & q & He & Hn & W)].
    + apply (@w_down _ _ (NS (SDirect t))); [|constructor]. cbn [kids map app]. rewrite !in_app_iff. apply (in_map NS) in H. unfold items in H. tauto.
    + apply (@w_down _ _ (NE e)); [|apply within_expr; eauto]. cbn [kids map app]. cbn [sub_exprs] in He. rewrite !in_app_iff in *.
      destruct He as [H|[H|[H|[H|H]]]]; apply (in_map NE) in H; tauto.
Qed.

Lemma bound_plain : forall n q, depth_q q <= n -> plain q -> exists b, bound_fuel n q = Ok b /\ forall x, In x b <-> exists t, x = Some t /\ scanned q t.
Proof.
  induction n as [|n IH]; intros q Dq P; [destruct q; cbn in Dq; lia|].
  destruct q as [ctes ta di from wh gr hv od|op l r ctes od].
  - pose proof (P _ (w_here _)) as (-> & -> & k & L & -> & D). cbn [bound_fuel].
    destruct (@collect_from_total (Some (k, L)) (plain_joinless _ _ D)) as (fr & Ef).
    assert (Es : exists subs, subqueries (QSel [] ta None (Some (k, L)) wh gr hv od) = Ok subs). { cbn [subqueries]. rewrite Ef. cbn [rbind]. eauto. }
    destruct Es as (subs & Es). rewrite Es. cbn [rbind]. destruct (subqueries_sel _ _ _ _ _ _ _ _ Es) as (fr' & Ef' & Hs). rewrite Ef in Ef'. injection Ef' as <-.
    assert (Hf : forall q, ~ In q fr). { intros q H. apply (collect_from_spec _ _ Ef) in H. destruct k; [exact H|]. destruct H as (s & t & b & H & ->). destruct (D _ H). discriminate. }
    assert (Hs' : forall q, In q subs <-> exists e, In e (sub_exprs (QSel [] ta None (Some (k, L)) wh gr hv od)) /\ nested (NE e) q).
    { intro q. rewrite Hs. split; [intros [H|H]; [exact H|destruct (Hf q H)]|auto]. }
    assert (G : forall q, In q subs -> exists b, bound_fuel n q = Ok b /\ forall x, In x b <-> exists t, x = Some t /\ scanned q t).
    { intros q Hq. apply Hs' in Hq. destruct Hq as (e & He & Hn). apply IH.
      - pose proof (nested_depth Hn). pose proof (@sub_exprs_depth [] ta None (Some (k, L)) wh gr hv od e He). lia.
      - apply (@plain_sub _ q P). apply (@w_down _ _ (NE e)); [|apply nested_within; exact Hn]. cbn [kids map app]. cbn [sub_exprs] in He. rewrite !in_app_iff in *.
        destruct He as [H|[H|[H|[H|H]]]]; apply (in_map NE) in H; tauto. }
    assert (R : exists sb, rmapM (bound_fuel n) subs = Ok sb /\ forall x, In x (concat sb) <-> exists q t, In q subs /\ x = Some t /\ scanned q t).
    { clear Hs Hs' Es. induction subs as [|q subs IHs]; [exists []; split; [reflexivity|]; intro x; split; [intros []|intros (q & _ & [] & _)]|].
      destruct IHs as (sb & E & Hsb); [intros q' Hq'; apply G; cbn; auto|]. destruct (G q ltac:(cbn; auto)) as (b & Eb & Hb).
      exists (b :: sb). cbn [rmapM]. rewrite Eb. cbn [rbind]. rewrite E. split; [reflexivity|]. intro x. cbn [concat]. rewrite in_app_iff, Hb, Hsb. split.
      - intros [(t & -> & Ht)|(q' & t & Hq' & -> & Ht)]; [exists q, t; cbn; auto|exists q', t; cbn; auto].
      - intros (q' & t & [<-|Hq'] & -> & Ht); [left; eauto|right; exists q', t; auto]. }
    destruct R as (sb & -> & Hsb). cbn [rbind]. destruct (@plain_from k L n D) as (own & -> & Ho). cbn [rbind]. eexists. split; [reflexivity|].
    intro x. rewrite !in_app_iff, Ho, Hsb. cbn [cte_tables flat In].
    assert (SS := fun t => @scanned_sel [] ta None (Some (k, L)) wh gr hv od t eq_refl eq_refl D). cbn [items] in SS. split.
    + intros [(t & -> & Ht)|[(q & t & Hq & -> & Ht)|[]]]; exists t; (split; [reflexivity|]); apply SS; [auto|right]. apply Hs' in Hq. destruct Hq as (e & He & Hn). exists e, q. auto.
    + intros (t & -> & Ht). apply SS in Ht. destruct Ht as [Ht|(e & q & He & Hn & Ht)]; [left; eauto|right; left]. exists q, t. split; [apply Hs'; eauto|auto].
  - pose proof (P _ (w_here _)) as (-> & ->). cbn [depth_q lmax] in Dq. cbn [bound_fuel].
    destruct (IH l) as (a & -> & Ha); [lia|apply (@plain_sub _ l P); apply (@w_down _ _ (NQ l)); [cbn; auto|constructor]|].
    destruct (IH r) as (b & -> & Hb); [lia|apply (@plain_sub _ r P); apply (@w_down _ _ (NQ r)); [cbn; auto|constructor]|].
    cbn [rbind]. eexists. split; [reflexivity|]. intro x. rewrite in_app_iff, Ha, Hb. unfold scanned. split.
    + intros [(t & -> & W)|(t & -> & W)]; exists t; (split; [reflexivity|]); [apply (@w_down _ _ (NQ l))|apply (@w_down _ _ (NQ r))]; cbn; auto.
    + intros (t & -> & W). inversion W as [|n' k Hk W' E]; subst. cbn in Hk. destruct Hk as [<-|[<-|[]]]; [left|right]; eauto.
Qed.

Lemma plain_t_ok n : (forall m, within m n -> plain_at m) -> (match n with NS (SFun _ _) | NS (SJoin _ _ _ _) => False | _ => True end) ->
  t_ok n.
Proof.
  intros P N. specialize (P n (w_here n)). destruct n as [e|s|w|q]; cbn; auto; [destruct s; tauto|].
  destruct q as [ctes ta di from wh gr hv od|op l r ctes od]; cbn in P.
  - destruct P as (-> & -> & _). exact I.
  - destruct P as (-> & ->). cbn. tauto.
Qed.
(** The FROM items of plain queries are tables. *)
Lemma plain_source q s : plain q -> within (NS s) (NQ q) -> exists t, s = SDirect t.
Proof.
  intros P. remember (NQ q) as n eqn:E. assert (P' : forall m, within m n -> plain_at m) by (subst; exact P).
  assert (N : match n with NS (SDirect _) | NE _ | NQ _ => True | _ => False end) by (subst; exact I). clear P E q. intro W.
  induction W as [|n k Hk W IH]; [destruct s; try tauto; eauto|].
  apply IH; [intros m' W'; apply P'; econstructor; eauto|].
  destruct n as [e|s'|w|q].
  - destruct e as [| |c|ps|kk a args|q']; cbn in Hk; try (destruct Hk; fail); [apply in_map_iff in Hk|apply in_map_iff in Hk|]; [destruct Hk as (x & <- & _); exact I|destruct Hk as (x & <- & _); exact I|destruct Hk as [<-|[]]; exact I].
  - destruct s'; cbn in N, Hk; tauto.
  - destruct N.
  - specialize (P' _ (w_here _)). destruct q as [ctes ta di from wh gr hv od|op l r ctes od]; cbn in P'.
    + destruct P' as (-> & -> & kk & L & -> & D). cbn [kids map app] in Hk. rewrite !in_app_iff in Hk.
      repeat match goal with H : _ \/ _ |- _ => destruct H as [H|H] end; apply in_map_iff in Hk; destruct Hk as (x & <- & Hx); auto. destruct (D x Hx) as (t & ->). exact I.
    + destruct P' as (-> & ->). cbn in Hk. destruct Hk as [<-|[<-|[]]]; exact I.
Qed.
Lemma plain_tables q : plain q -> forall t, In (Some t) (tables_q q) <-> mentions_table (NQ q) t.
Proof.
  intros P t. split; [apply (tables_sound (NQ q))|]. apply (@tables_complete (NQ q)). intros m W.
  apply plain_t_ok; [intros m' W'; apply P; eapply within_trans; eauto|]. destruct m as [e|s|w|q']; auto. destruct (plain_source P W) as (t' & ->). exact I.
Qed.
Lemma plain_tables_none q : plain q -> ~ In None (tables_q q).
Proof.
  intros P H. apply (tables_none (NQ q)) in H. destruct H as (s & W & H). destruct (plain_source P W) as (t & ->).
  destruct H as [(q' & l & E)|(cols & E)]; discriminate.
Qed.

(** ** Free tables *)
Lemma free_mentions t : (forall e, free_e t e -> mentions_table (NE e) t) /\ (forall b s, free_s t b s -> mentions_table (NS s) t) /\ (forall q, free_q t q -> mentions_table (NQ q) t).
Proof.
  assert (D : forall n k, In k (kids n) -> mentions_table k t -> mentions_table n t) by (intros n k Hk M; apply mentions_step; eauto).
  apply free_mut.
  - intros c H. exists (NE (ECol c)). split; [constructor|]. destruct c as [t' n|t' c]; cbn in H; subst; constructor.
  - intros ps e He _ M. apply (D _ (NE e)); [cbn; apply in_map; exact He|exact M].
  - intros k a args e He _ M. apply (D _ (NE e)); [cbn; apply in_map; exact He|exact M].
  - intros q _ M. apply (D _ (NQ q)); [cbn; auto|exact M].
  - intros q a l _ M. apply (D _ (NQ q)); [cbn; auto|exact M].
  - intros f a _ M. apply (D _ (NE f)); [cbn; auto|exact M].
  - intros l r c j b _ M. apply (D _ (NS l)); [cbn; auto|exact M].
  - intros l r c j _ M. apply (D _ (NS r)); [cbn; auto|exact M].
  - intros l r c j _ M _. apply (D _ (NS r)); [cbn; auto|exact M].
  - intros l r c j _ M _ _. apply (D _ (NE c)); [cbn; auto|exact M].
  - intros ctes ta di from wh gr hv od e He _ M _. apply (D _ (NE e)); [|exact M]. cbn [clause_exprs kids] in *. rewrite !in_app_iff in *.
    destruct He as [H|[H|[H|[H|[H|H]]]]]; apply (in_map NE) in H; tauto.
  - intros ctes ta di from wh gr hv od s Hs _ M. apply (D _ (NS s)); [|exact M]. cbn [kids]. rewrite !in_app_iff. apply (in_map NS) in Hs. unfold items in Hs. tauto.
  - intros ctes ta di from wh gr hv od s Hs _ M _. apply (D _ (NS s)); [|exact M]. cbn [kids]. rewrite !in_app_iff. apply (in_map NS) in Hs. unfold items in Hs. tauto.
  - intros ctes ta di from wh gr hv od q n Hq _ M. apply (D _ (NW (WQuery q n))); [cbn [kids]; rewrite !in_app_iff; apply (in_map NW) in Hq; tauto|].
    apply (D _ (NQ q)); [cbn; auto|exact M].
  - intros op l r w o _ M. apply (D _ (NQ l)); [cbn; auto|exact M].
  - intros op l r w o _ M. apply (D _ (NQ r)); [cbn; auto|exact M].
  - intros op l r w o q n Hq _ M. apply (D _ (NW (WQuery q n))); [cbn [kids]; rewrite !in_app_iff; apply (in_map NW) in Hq; tauto|]. apply (D _ (NQ q)); [cbn; auto|exact M].
  - intros op l r w o e He _ M. apply (D _ (NE e)); [cbn [kids]; rewrite !in_app_iff; apply (in_map NE) in He; tauto|exact M].
Qed.
(** In plain queries, a table that is mentioned but never read has to come from outside. *)
Lemma mentioned_free t n : (forall m, within m n -> plain_at m) -> mentions_table n t -> ~ within (NS (SDirect t)) n ->
  match n with NE e => free_e t e | NQ q => free_q t q | _ => True end.
Proof.
  induction n as [n IH] using node_ind. intros P M N. apply mentions_step in M.
  assert (K : forall k, In k (kids n) -> mentions_table k t -> match k with NE e => free_e t e | NQ q => free_q t q | _ => True end).
  { intros k Hk Mk. apply IH; auto; [eapply plain_kid; eauto|]. intro W. apply N. econstructor; eauto. }
  destruct n as [e|s|w|q]; auto.
  - destruct M as [M|(k & Hk & M)].
    + inversion M; subst; constructor; reflexivity.
    + specialize (K k Hk M). destruct e as [| |c|ps|kk a args|q]; cbn in Hk; try (destruct Hk; fail).
      * apply in_map_iff in Hk. destruct Hk as (x & <- & Hx). econstructor; eauto.
      * apply in_map_iff in Hk. destruct Hk as (x & <- & Hx). econstructor; eauto.
      * destruct Hk as [<-|[]]. constructor. exact K.
  - destruct M as [M|(k & Hk & M)]; [inversion M|]. specialize (K k Hk M). pose proof (P _ (w_here _)) as Pq.
    destruct q as [ctes ta di from wh gr hv od|op l r ctes od]; cbn in Pq.
    + destruct Pq as (-> & -> & kk & L & -> & D). cbn [kids map app] in Hk.
      assert (NP : ~ provided (Some (kk, L)) t).
      { intros (s & Hs & Hp). cbn [items] in Hs. destruct (D s Hs) as (t' & ->). inversion Hp; subst. apply N.
        apply (@w_down _ _ (NS (SDirect t))); [|constructor]. cbn [kids map app]. rewrite !in_app_iff. apply (in_map NS) in Hs. tauto. }
      rewrite !in_app_iff in Hk. destruct Hk as [Hk|[Hk|[Hk|[Hk|[Hk|Hk]]]]]; apply in_map_iff in Hk; destruct Hk as (x & <- & Hx);
        try (apply f_expr with (e := x); [cbn [clause_exprs]; rewrite !in_app_iff; tauto|exact K|exact NP]).
      destruct (D x Hx) as (t' & ->). apply mentions_step in M. destruct M as [M|(k & Hk & _)]; [|destruct Hk]. inversion M; subst. exfalso. apply N.
      apply (@w_down _ _ (NS (SDirect t))); [|constructor]. cbn [kids map app]. rewrite !in_app_iff. apply (in_map NS) in Hx. tauto.
    + destruct Pq as (-> & ->). cbn in Hk. destruct Hk as [<-|[<-|[]]]; [apply f_setl|apply f_setr]; exact K.
Qed.

Lemma minus_In a b x : In x (minus a b) <-> In x a /\ ~ In x b.
Proof. unfold minus. rewrite filter_In, negb_true_iff, mem_nIn. tauto. Qed.
Lemma unbound_plain q : plain q -> exists u, unbound_tables q = Ok u /\
  (forall x, In x u -> exists t, x = Some t /\ free_q t q) /\ ((forall t, free_q t q -> ~ scanned q t) -> forall t, free_q t q -> In (Some t) u).
Proof.
  revert q. assert (G : forall n, match n with NQ q => plain q -> exists u, unbound_tables q = Ok u /\
    (forall x, In x u -> exists t, x = Some t /\ free_q t q) /\ ((forall t, free_q t q -> ~ scanned q t) -> forall t, free_q t q -> In (Some t) u) | _ => True end).
  { induction n as [n IH] using node_ind. destruct n as [e|s|w|q]; try exact I. intros P.
    destruct q as [ctes ta di from wh gr hv od|op l r ctes od].
    - cbn [unbound_tables]. unfold bound_tables. destruct (bound_plain (le_n _) P) as (b & Eb & Hb). rewrite Eb. cbn [rbind]. eexists. split; [reflexivity|].
      pose proof (P _ (w_here _)) as (-> & -> & k & L & -> & D). split.
      + intros x Hx. rewrite !minus_In in Hx. destruct Hx as (((Hx & Nb) & _) & _). destruct x as [t|]; [|destruct (plain_tables_none P Hx)].
        exists t. split; [reflexivity|]. apply (@mentioned_free t (NQ _)); [exact P|apply (plain_tables P); exact Hx|]. intro W. apply Nb. apply Hb. exists t. auto.
      + intros Hyg t F. rewrite !minus_In. split; [split; [split|]|].
        * apply (plain_tables P). apply free_mentions. exact F.
        * rewrite Hb. intros (t' & E & W). injection E as <-. exact (Hyg t F W).
        * cbn [subquery_targets]. rewrite flat_In. intros (s & Hs & H). destruct (D s Hs) as (t' & ->). exact H.
        * cbn. tauto.
    - pose proof (P _ (w_here _)) as (-> & ->).
      assert (Pl : plain l) by (apply (@plain_sub _ l P); apply (@w_down _ _ (NQ l)); [cbn; auto|constructor]).
      assert (Pr : plain r) by (apply (@plain_sub _ r P); apply (@w_down _ _ (NQ r)); [cbn; auto|constructor]).
      destruct (IH (NQ l) ltac:(cbn; auto) Pl) as (a & Ea & Ha & Ha'). destruct (IH (NQ r) ltac:(cbn; auto) Pr) as (b & Eb & Hb & Hb').
      cbn [unbound_tables]. rewrite Ea. cbn [rbind]. rewrite Eb. cbn [rbind]. eexists. split; [reflexivity|]. split.
      + intros x Hx. apply in_app_iff in Hx. destruct Hx as [Hx|Hx]; [destruct (Ha x Hx) as (t & -> & F)|destruct (Hb x Hx) as (t & -> & F)]; exists t; (split; [reflexivity|]); [apply f_setl|apply f_setr]; exact F.
      + intros Hyg t F. apply in_app_iff. inversion F as [| | | |op' l' r' w o F'|op' l' r' w o F'|op' l' r' w o q n Hq|op' l' r' w o e He]; subst.
        * left. apply Ha'; [|exact F']. intros t' F2 W. apply (Hyg t' (f_setl op r [] [] F2)). apply (@w_down _ _ (NQ l)); [cbn; auto|exact W].
        * right. apply Hb'; [|exact F']. intros t' F2 W. apply (Hyg t' (f_setr op l [] [] F2)). apply (@w_down _ _ (NQ r)); [cbn; auto|exact W].
        * destruct Hq.
        * destruct He. }
  intros q. exact (G (NQ q)).
Qed.
Lemma dependent_plain q : plain q -> exists d, is_dependent q = Ok d /\ (d = true -> exists t, free_q t q) /\ ((forall t, free_q t q -> ~ scanned q t) -> (exists t, free_q t q) -> d = true).
Proof.
  revert q. assert (G : forall n, match n with NQ q => plain q -> exists d, is_dependent q = Ok d /\ (d = true -> exists t, free_q t q) /\ ((forall t, free_q t q -> ~ scanned q t) -> (exists t, free_q t q) -> d = true) | _ => True end).
  { induction n as [n IH] using node_ind. destruct n as [e|s|w|q]; try exact I. intros P.
    destruct q as [ctes ta di from wh gr hv od|op l r ctes od].
    - cbn [is_dependent]. unfold bound_tables. destruct (bound_plain (le_n _) P) as (b & Eb & Hb). rewrite Eb. cbn [rbind]. eexists. split; [reflexivity|]. split.
      + intro E. apply negb_true_iff in E.
        assert (X : exists x, In x (tables_q (QSel ctes ta di from wh gr hv od)) /\ ~ In x b).
        { clear - E. unfold subsetb in E. induction (tables_q (QSel ctes ta di from wh gr hv od)) as [|x r IHr]; [discriminate|]. cbn [forallb] in E. apply andb_false_iff in E.
          destruct E as [E|E]; [exists x; split; [cbn; auto|apply mem_nIn; exact E]|destruct (IHr E) as (y & Hy & Ny); exists y; cbn; auto]. }
        destruct X as (x & Hx & Nb). destruct x as [t|]; [|destruct (plain_tables_none P Hx)]. exists t.
        apply (@mentioned_free t (NQ _)); [exact P|apply (plain_tables P); exact Hx|]. intro W. apply Nb. apply Hb. exists t. auto.
      + intros Hyg (t & F). apply negb_true_iff. destruct (subsetb _ b) eqn:E; [|reflexivity]. exfalso. apply subsetb_incl in E.
        assert (M : In (Some t) (tables_q (QSel ctes ta di from wh gr hv od))) by (apply (plain_tables P); apply free_mentions; exact F).
        apply E in M. apply Hb in M. destruct M as (t' & E2 & W). injection E2 as <-. exact (Hyg t F W).
    - pose proof (P _ (w_here _)) as (-> & ->).
      assert (Pl : plain l) by (apply (@plain_sub _ l P); apply (@w_down _ _ (NQ l)); [cbn; auto|constructor]).
      assert (Pr : plain r) by (apply (@plain_sub _ r P); apply (@w_down _ _ (NQ r)); [cbn; auto|constructor]).
      destruct (IH (NQ l) ltac:(cbn; auto) Pl) as (a & Ea & Ha & Ha'). destruct (IH (NQ r) ltac:(cbn; auto) Pr) as (b & Eb & Hb & Hb').
      cbn [is_dependent]. rewrite Ea. cbn [rbind].
      assert (Fl : (forall t, free_q t (QSet op l r [] []) -> ~ scanned (QSet op l r [] []) t) -> forall t, free_q t l -> ~ scanned l t).
      { intros Hyg t F W. apply (Hyg t (f_setl op r [] [] F)). apply (@w_down _ _ (NQ l)); [cbn; auto|exact W]. }
      assert (Fr : (forall t, free_q t (QSet op l r [] []) -> ~ scanned (QSet op l r [] []) t) -> forall t, free_q t r -> ~ scanned r t).
      { intros Hyg t F W. apply (Hyg t (f_setr op l [] [] F)). apply (@w_down _ _ (NQ r)); [cbn; auto|exact W]. }
      destruct a.
      + exists true. split; [reflexivity|]. split; [|auto]. intros _. destruct (Ha eq_refl) as (t & F). exists t. apply f_setl. exact F.
      + exists b. split; [exact Eb|]. split.
        * intros E. destruct (Hb E) as (t & F). exists t. apply f_setr. exact F.
        * intros Hyg (t & F). inversion F as [| | | |op' l' r' w o F'|op' l' r' w o F'|op' l' r' w o q n Hq|op' l' r' w o e He]; subst.
          -- assert (X : false = true) by (apply Ha'; [apply Fl; exact Hyg|exists t; exact F']). discriminate.
          -- apply Hb'; [apply Fr; exact Hyg|exists t; exact F'].
          -- destruct Hq.
          -- destruct He. }
  intros q. exact (G (NQ q)).
Qed.

(** ** Predicates *)
Definition oholds (v : expr -> Prop) (o : option expr) : Prop := match o with None => True | Some p => holds v p end.
Lemma holds_and v ps : holds v (EAnd ps) <-> forall x, In x ps -> holds v x.
Proof.
  cbn [holds]. induction ps as [|p r IH]; [cbn; tauto|]. rewrite IH. split.
  - intros [Hp Hr] x [->|Hx]; auto.
  - intros H. split; [apply H; cbn; auto|intros x Hx; apply H; cbn; auto].
Qed.
Lemma and_holds v p q : oholds v (and_ p q) <-> oholds v p /\ oholds v q.
Proof. destruct p as [p|], q as [q|]; cbn [and_ oholds]; try tauto. rewrite holds_and. cbn [In]. split; [intro H; split; apply H; auto|intros [A B] x [<-|[<-|[]]]; assumption]. Qed.
Lemma conj_holds v l : oholds v (conjunction l) <-> forall x, In x l -> holds v x.
Proof.
  destruct l as [|x [|y r]]; cbn [conjunction oholds].
  - cbn. tauto.
  - cbn. split; [intros H z [<-|[]]; exact H|intro H; apply H; auto].
  - apply holds_and.
Qed.
Lemma optl_In {A} (o : option A) x : In x (optl o) <-> o = Some x.
Proof. destruct o; cbn; split; [intros [->|[]]; reflexivity|intro E; injection E as ->; auto|tauto|discriminate]. Qed.
Lemma oholds_optl v o : oholds v o <-> forall x, In x (optl o) -> holds v x.
Proof. destruct o as [p|]; cbn; [split; [intros H x [<-|[]]; exact H|intro H; apply H; auto]|tauto]. Qed.

Section Preds.
  Variable v : expr -> Prop.
  Lemma collectM_spec (l : list source) : (forall s, In s l -> exists o, predicates_s s = Ok o /\ (oholds v o <-> forall p, pred_of_s s p -> holds v p)) ->
    exists ps, collectM predicates_s l = Ok ps /\ ((forall x, In x ps -> holds v x) <-> forall s p, In s l -> pred_of_s s p -> holds v p).
  Proof.
    induction l as [|s r IH]; intros H.
    - exists []. cbn. split; [reflexivity|]. split; [intros _ s p []|intros _ x []].
    - destruct (H s ltac:(cbn; auto)) as (o & E & Ho). destruct IH as (ps & E2 & Hps); [intros s' Hs; apply H; cbn; auto|].
      exists (optl o ++ ps). cbn [collectM]. rewrite E. cbn [rbind]. rewrite E2. split; [reflexivity|]. split.
      + intros G s' p [<-|Hs] Hp.
        * apply (proj1 Ho); [apply oholds_optl; intros x Hx; apply G; apply in_app_iff; auto|exact Hp].
        * apply (proj1 Hps) with (s := s'); auto. intros x Hx. apply G. apply in_app_iff. auto.
      + intros G x Hx. apply in_app_iff in Hx. destruct Hx as [Hx|Hx].
        * apply (proj1 (oholds_optl v o)); [|exact Hx]. apply (proj2 Ho). intros p Hp. apply (G s p); cbn; auto.
        * revert x Hx. apply (proj2 Hps). intros s' p Hs Hp. apply (G s' p); cbn; auto.
  Qed.
  Lemma foldM_spec (l : list cte) : (forall q n, In (WQuery q n) l -> exists o, predicates q = Ok o /\ (oholds v o <-> forall p, pred_of q p -> holds v p)) ->
    forall acc, exists o, foldM predicates_w l acc = Ok o /\ (oholds v o <-> oholds v acc /\ forall q n p, In (WQuery q n) l -> pred_of q p -> holds v p).
  Proof.
    induction l as [|w r IH]; intros H acc.
    - exists acc. cbn. split; [reflexivity|]. split; [intros A; split; [exact A|intros q n p []]|tauto].
    - assert (H' : forall q n, In (WQuery q n) r -> exists o, predicates q = Ok o /\ (oholds v o <-> forall p, pred_of q p -> holds v p)) by (intros q n Hq; apply (H q n); cbn; auto).
      specialize (IH H'). destruct w as [q n|n cols]; cbn [foldM predicates_w].
      + destruct (H q n ltac:(cbn; auto)) as (o & E & Ho). rewrite E. cbn [rbind]. destruct (IH (and_ acc o)) as (o' & E' & Ho'). exists o'. split; [exact E'|].
        rewrite Ho', and_holds, Ho. split.
        * intros [[A B] C]. split; [exact A|]. intros q' n' p [Eq|Hq] Hp; [injection Eq as <- <-; auto|eapply C; eauto].
        * intros [A C]. repeat split; auto; [intros p Hp; apply (C q n p); cbn; auto|intros q' n' p Hq Hp; apply (C q' n' p); cbn; auto].
      + cbn [rbind]. destruct (IH (and_ acc None)) as (o' & E' & Ho'). exists o'. split; [exact E'|]. rewrite Ho'. cbn [and_]. split.
        * intros [A C]. split; [exact A|]. intros q' n' p [Eq|Hq] Hp; [discriminate|eapply C; eauto].
        * intros [A C]. split; [exact A|]. intros q' n' p Hq Hp; apply (C q' n' p); cbn; auto.
  Qed.
  Lemma preds_ok : (forall q, readable q -> exists o, predicates q = Ok o /\ (oholds v o <-> forall p, pred_of q p -> holds v p))
    /\ (forall s, readable_s s -> exists o, predicates_s s = Ok o /\ (oholds v o <-> forall p, pred_of_s s p -> holds v p)).
  Proof.
    apply read_mut.
    - intros ctes ta di k l wh gr hv od _ IHc _ IHs. cbn [predicates]. destruct (foldM_spec ctes IHc None) as (o & E & Ho). rewrite E. cbn [rbind].
      destruct (collectM_spec l IHs) as (ps & E2 & Hps). rewrite E2. cbn [rbind]. eexists. split; [reflexivity|]. rewrite !and_holds, conj_holds, Ho, Hps. cbn [oholds]. split.
      + intros [[[_ A] B] C] p Hp. inversion Hp as [? ? ? ? ? ? ? ?|? ? ? ? ? ? ? ? s ? Hs Hp'|? ? ? ? ? ? ? ? q n ? Hq Hp']; subst; [exact B|eapply C; eauto|eapply A; eauto].
      + intros H. split; [split; [split; [exact I|]|]|].
        * intros q n p Hq Hp. apply H. eapply po_cte; eauto.
        * destruct wh as [p|]; cbn; [apply H; constructor|exact I].
        * intros s p Hs Hp. apply H. eapply po_from; [|exact Hp]. exact Hs.
    - intros t. eexists. split; [reflexivity|]. cbn. split; [intros _ p H; inversion H|auto].
    - intros a c. eexists. split; [reflexivity|]. cbn. split; [intros _ p H; inversion H|auto].
    - intros f a. eexists. split; [reflexivity|]. cbn. split; [intros _ p H; inversion H|auto].
    - intros q a l _ (o & E & Ho). exists o. split; [exact E|]. rewrite Ho. split; [intros H p Hp; inversion Hp; subst; auto|intros H p Hp; apply H; constructor; exact Hp].
    - intros l r c j _ (o & E & Ho) _ (o2 & E2 & Ho2). cbn [predicates_s]. rewrite E. cbn [rbind]. rewrite E2. cbn [rbind]. eexists. split; [reflexivity|].
      rewrite conj_holds. split.
      + intros H p Hp. inversion Hp as [|? ? ? ?|? ? ? ? ? Hp'|? ? ? ? ? Hp']; subst.
        * apply H. rewrite !in_app_iff. cbn. auto.
        * apply (proj1 Ho); [apply oholds_optl; intros x Hx; apply H; rewrite !in_app_iff; auto|exact Hp'].
        * apply (proj1 Ho2); [apply oholds_optl; intros x Hx; apply H; rewrite !in_app_iff; auto|exact Hp'].
      + intros H x Hx. rewrite !in_app_iff in Hx. destruct Hx as [Hx|[Hx|Hx]].
        * apply (proj1 (oholds_optl v o)); [|exact Hx]. apply (proj2 Ho). intros p Hp. apply H. apply ps_left. exact Hp.
        * apply (proj1 (oholds_optl v o2)); [|exact Hx]. apply (proj2 Ho2). intros p Hp. apply H. apply ps_right. exact Hp.
        * apply optl_In in Hx. subst c. apply H. constructor.
  Qed.
End Preds.

Lemma collectM_ok (l : list source) ps : collectM predicates_s l = Ok ps -> forall s, In s l -> exists o, predicates_s s = Ok o.
Proof.
  revert ps. induction l as [|x r IH]; intros ps E s Hs; [destruct Hs|]. cbn [collectM] in E. destruct (predicates_s x) eqn:Ex; cbn [rbind] in E; [|discriminate].
  destruct (collectM predicates_s r) eqn:Er; cbn [rbind] in E; [|discriminate]. destruct Hs as [<-|Hs]; [eauto|eapply IH; eauto].
Qed.
Lemma foldM_ok (l : list cte) acc o : foldM predicates_w l acc = Ok o -> forall w, In w l -> exists o, predicates_w w = Ok o.
Proof.
  revert acc. induction l as [|x r IH]; intros acc E s Hs; [destruct Hs|]. cbn [foldM] in E. destruct (predicates_w x) eqn:Ex; cbn [rbind] in E; [|discriminate].
  destruct Hs as [<-|Hs]; [eauto|eapply IH; eauto].
Qed.
Lemma preds_readable n : match n with NQ q => forall o, predicates q = Ok o -> readable q | NS s => forall o, predicates_s s = Ok o -> readable_s s
  | NW w => forall q n o, w = WQuery q n -> predicates q = Ok o -> readable q | NE _ => True end.
Proof.
  induction n as [n IH] using node_ind. destruct n as [e|s|w|q]; try exact I.
  - destruct s as [t|q t l|a cols|f a|l r c j]; intros o E; try constructor.
    + apply (IH (NQ q) ltac:(cbn; auto) o). exact E.
    + cbn [predicates_s] in E. destruct (predicates_s l) eqn:El; [|discriminate]. apply (IH (NS l) ltac:(cbn; auto) _ El).
    + cbn [predicates_s] in E. destruct (predicates_s l) eqn:El; [|discriminate]. cbn [rbind] in E. destruct (predicates_s r) eqn:Er; [|discriminate]. apply (IH (NS r) ltac:(cbn; auto) _ Er).
  - intros q n o -> E. apply (IH (NQ q) ltac:(cbn; auto) o E).
  - destruct q as [ctes ta di from wh gr hv od|op l r ctes od]; intros o E; [|discriminate]. cbn [predicates] in E.
    destruct (foldM predicates_w ctes None) as [p|] eqn:Ef; cbn [rbind] in E; [|discriminate]. destruct from as [[k L]|]; [|discriminate].
    destruct (collectM predicates_s L) as [ps|] eqn:Ec; cbn [rbind] in E; [|discriminate]. constructor.
    + intros q n Hq. destruct (@foldM_ok _ _ _ Ef _ Hq) as (o' & Eo). cbn [predicates_w] in Eo.
      apply (IH (NW (WQuery q n))) with (n := n) (o := o'); [cbn [kids]; rewrite in_app_iff; left; apply in_map; exact Hq|reflexivity|exact Eo].
    + intros s Hs. destruct (@collectM_ok _ _ Ec _ Hs) as (o' & Eo). apply (IH (NS s)) with (o := o'); [|exact Eo]. cbn [kids]. rewrite !in_app_iff. apply (in_map NS) in Hs. tauto.
Qed.

(** ** Result columns *)
Fixpoint assign (l : list (option cname)) (k : nat) : list cname :=
  match l with [] => [] | Some n :: r => n :: assign r k | None :: r => NColumn k :: assign r (S k) end.
Lemma assign_length l k : length (assign l k) = length l.
Proof. revert k. induction l as [|[n|] r IH]; intro k; cbn; auto. Qed.
Lemma assign_nth l k i : match nth_error l i with
  | Some (Some n) => nth_error (assign l k) i = Some n
  | Some None => nth_error (assign l k) i = Some (NColumn (k + length (filter (fun o : option cname => match o with None => true | _ => false end) (firstn i l))))
  | None => nth_error (assign l k) i = None end.
Proof.
  revert k i. induction l as [|[n|] r IH]; intros k [|i]; cbn; auto.
  - apply IH.
  - f_equal. f_equal. lia.
  - specialize (IH (S k) i). destruct (nth_error r i) as [[n|]|]; auto. rewrite IH. f_equal. f_equal. lia.
Qed.
Definition tgt (x : expr * option cname) : option cname := match x with (_, Some n) => Some n | (ECol (Col _ n), None) => Some n | _ => None end.
Lemma out_sel_assign targets k : (forall x, In x targets -> fst x <> EStar /\ forall t c, fst x <> ECol (ColOf t c)) ->
  out_sel targets k = assign (map tgt targets) k.
Proof.
  revert k. induction targets as [|[e o] r IH]; intros k H; [reflexivity|].
  assert (H' : forall x, In x r -> fst x <> EStar /\ forall t c, fst x <> ECol (ColOf t c)) by (intros x Hx; apply H; cbn; auto).
  destruct (H (e, o) ltac:(cbn; auto)) as [N1 N2]. cbn [fst] in N1, N2. cbn [out_sel map]. destruct o as [n|]; [destruct e as [| |[]| | |]; cbn; f_equal; apply IH; exact H'|].
  destruct e as [| |c|ps|kk a args|q]; cbn [tgt assign]; try (f_equal; apply IH; exact H'); [congruence|].
  destruct c as [t n|t c]; [cbn; f_equal; apply IH; exact H'|destruct (N2 t c eq_refl)].
Qed.
Definition pick (p : option cname * option cname) : option cname := match p with (Some n, _) => Some n | (None, o) => o end.
Lemma out_set_assign a b : length a = length b -> (forall o, In o a -> user o) -> (forall o, In o b -> user o) ->
  forall ka kb k, out_set (assign a ka) (assign b kb) k = assign (map pick (combine a b)) k.
Proof.
  revert b. induction a as [|x a IH]; intros [|y b] L Ua Ub ka kb k; cbn in L; try discriminate; [reflexivity|].
  assert (Ua' : forall o, In o a -> user o) by (intros; apply Ua; cbn; auto). assert (Ub' : forall o, In o b -> user o) by (intros; apply Ub; cbn; auto).
  pose proof (Ua x ltac:(cbn; auto)) as Ux. pose proof (Ub y ltac:(cbn; auto)) as Uy. injection L as L.
  destruct x as [[n|n]|], y as [[m|m]|]; cbn in Ux, Uy; try tauto; cbn; f_equal; apply IH; auto.
Qed.
Lemma user_names_all q : user_names q -> forall o, In o (col_names q) -> user o.
Proof.
  assert (G : forall n, match n with NQ q => user_names q -> forall o, In o (col_names q) -> user o | _ => True end).
  { induction n as [n IH] using node_ind. destruct n as [e|s|w|q']; try exact I. destruct q' as [ctes ta di from wh gr hv od|op l r ctes od]; [auto|].
    cbn [user_names col_names]. intros [Ul Ur] o H. apply in_map_iff in H. destruct H as ([x y] & <- & H).
    pose proof (IH (NQ l) ltac:(cbn; auto) Ul x (in_combine_l _ _ _ _ H)). pose proof (IH (NQ r) ltac:(cbn; auto) Ur y (in_combine_r _ _ _ _ H)). destruct x; auto. }
  exact (G (NQ q)).
Qed.
Lemma output_assign q : starless q -> user_names q -> output_columns q = Ok (assign (col_names q) 1).
Proof.
  assert (G : forall n, match n with NQ q => starless q -> user_names q -> output_columns q = Ok (assign (col_names q) 1) | _ => True end).
  { induction n as [n IH] using node_ind. destruct n as [e|s|w|q']; try exact I. destruct q' as [ctes ta di from wh gr hv od|op l r ctes od].
    - cbn [starless output_columns col_names]. intros H _. f_equal. rewrite out_sel_assign by exact H. reflexivity.
    - cbn [starless user_names output_columns]. intros (Sl & Sr & L) (Ul & Ur).
      rewrite (IH (NQ l) ltac:(cbn; auto) Sl Ul). cbn [rbind]. rewrite (IH (NQ r) ltac:(cbn; auto) Sr Ur). cbn [rbind].
      rewrite !assign_length, L, Nat.eqb_refl. f_equal. rewrite out_set_assign; [reflexivity|exact L|apply user_names_all; exact Ul|apply user_names_all; exact Ur]. }
  exact (G (NQ q)).
Qed.
