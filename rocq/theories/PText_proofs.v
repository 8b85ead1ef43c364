From Coq Require Import String Ascii List Bool Arith Lia.
From Verif Require Import PyBase PText_model PText_spec.
Import ListNotations.
Open Scope list_scope.

(** ** induction *)
Fixpoint plan_ind2 (P : plan -> Prop)
  (H : forall n ks sub, Forall P ks -> (forall s, sub = Some s -> P s) -> P (Plan n ks sub)) (p : plan) : P p.
Proof.
  destruct p as [n ks sub]. apply H.
  - induction ks as [|k r IH]; constructor; [apply plan_ind2; exact H | exact IH].
  - destruct sub as [s|]; intros s' E; [injection E as <-; apply plan_ind2; exact H | discriminate].
Defined.
Fixpoint rose_ind2 {A} (P : rose A -> Prop) (H : forall a ks, Forall P ks -> P (Rose a ks)) (r : rose A) : P r.
Proof.
  destruct r as [a ks]. apply H. induction ks as [|k r IH]; constructor; [apply rose_ind2; exact H | exact IH].
Defined.

(** ** lines and join *)
Lemma join_app a b : a <> [] -> b <> [] -> join nl (a ++ b) = join nl a ++ nl ++ join nl b.
Proof.
  intros A B. induction a as [|x a IH]; [contradiction|]. destruct a as [|y a].
  - cbn [app join]. destruct b as [|z b]; [contradiction|]. reflexivity.
  - assert (Ha : y :: a <> []) by discriminate. specialize (IH Ha). cbn [app join] in *.
    rewrite IH. rewrite <- !app_assoc. reflexivity.
Qed.
Lemma join_cons x b : b <> [] -> join nl (x :: b) = x ++ nl ++ join nl b.
Proof. intros B. destruct b; [contradiction | reflexivity]. Qed.
Lemma join_concat {A} (f : A -> list text) ks : (forall k, In k ks -> f k <> []) ->
  join nl (map (fun k => join nl (f k)) ks) = join nl (flat_map f ks).
Proof.
  induction ks as [|k r IH]; intros H; [reflexivity|].
  assert (Hr : forall x, In x r -> f x <> []) by (intros x Hx; apply H; right; exact Hx). specialize (IH Hr).
  assert (Hk : f k <> []) by (apply H; left; reflexivity). destruct r as [|k2 r].
  - cbn. rewrite app_nil_r. reflexivity.
  - cbn [map flat_map] in *. rewrite join_cons; [|discriminate]. rewrite IH.
    rewrite (join_app (f k)); [reflexivity | exact Hk|].
    assert (Hk2 : f k2 <> []) by (apply Hr; left; reflexivity). destruct (f k2); [contradiction | discriminate].
Qed.
Lemma lines_one x : one_line x -> lines x = [x].
Proof.
  intros H. induction x as [|c r IH]; [reflexivity|]. cbn [lines]. destruct (Ascii.eqb c newline) eqn:E.
  - apply Ascii.eqb_eq in E. exfalso. apply H. left. congruence.
  - rewrite IH; [reflexivity | intros F; apply H; right; exact F].
Qed.
Lemma lines_app x t : one_line x -> lines (x ++ nl ++ t) = x :: lines t.
Proof.
  intros H. induction x as [|c r IH].
  - cbn [app nl lines]. destruct (Ascii.eqb newline newline) eqn:E; [reflexivity | rewrite Ascii.eqb_refl in E; discriminate].
  - cbn [app lines]. destruct (Ascii.eqb c newline) eqn:E.
    + apply Ascii.eqb_eq in E. exfalso. apply H. left. congruence.
    + rewrite IH; [reflexivity | intros F; apply H; right; exact F].
Qed.
Lemma lines_join L : L <> [] -> (forall x, In x L -> one_line x) -> lines (join nl L) = L.
Proof.
  induction L as [|x L IH]; intros N H; [contradiction|]. destruct L as [|y L].
  - cbn [join]. apply lines_one. apply H. left. reflexivity.
  - rewrite join_cons; [|discriminate]. rewrite lines_app; [|apply H; left; reflexivity].
    rewrite IH; [reflexivity | discriminate | intros z Hz; apply H; right; exact Hz].
Qed.
Lemma spaces_one n : one_line (spaces n).
Proof. intros F. apply repeat_spec in F. discriminate. Qed.
Lemma one_line_app a b : one_line a -> one_line b -> one_line (a ++ b).
Proof. intros A B F. apply in_app_or in F as [F|F]; [apply A | apply B]; exact F. Qed.
Lemma one_line_app_inv a b : one_line (a ++ b) -> one_line a /\ one_line b.
Proof. intros H. split; intros F; apply H, in_or_app; [left | right]; exact F. Qed.
Lemma arrow_one : one_line (str "->  ").
Proof. cbn. intros F. repeat destruct F as [F|F]; try discriminate. exact F. Qed.

(** ** preorders determine ordered trees *)
Definition low {A} (d : nat) (l : list (nat * A)) : Prop := match l with [] => True | (k, _) :: _ => k <= d end.
Lemma preorder_inj {A} (r : rose A) : forall d r' rest rest',
  preorder d r ++ rest = preorder d r' ++ rest' -> low d rest -> low d rest' -> r = r' /\ rest = rest'.
Proof.
  induction r as [a ks IH] using rose_ind2. intros d [a' ks'] rest rest' E L L'. cbn [preorder app] in E.
  injection E as Ea E. subst a'.
  assert (K : ks = ks' /\ rest = rest').
  { revert ks' E. induction ks as [|k ks IHk]; intros ks' E.
    - destruct ks' as [|[b ks2] ks']; [split; [reflexivity | exact E]|]. exfalso. cbn in E. destruct rest as [|[m b'] rest]; [discriminate|].
      injection E as Em. cbn in L. lia.
    - destruct ks' as [|k' ks'].
      + exfalso. destruct k as [b ks2]. cbn in E. destruct rest' as [|[m b'] rest']; [discriminate|].
        injection E as Em. cbn in L'. lia.
      + cbn [flat_map] in E. rewrite <- !app_assoc in E.
        pose proof (Forall_inv IH) as H0. pose proof (Forall_inv_tail IH) as H1.
        assert (LL : forall (q : list (rose A)) rs, low d rs -> low (S d) (flat_map (preorder (S d)) q ++ rs)).
        { intros q rs Hl. destruct q as [|[b qs] q]; cbn.
          - destruct rs as [|[m ?] rs]; cbn in *; [exact I | lia].
          - lia. }
        apply H0 in E; [|apply LL; exact L | apply LL; exact L']. destruct E as [<- E].
        destruct (IHk H1 _ E) as [<- ER]. split; [reflexivity | exact ER]. }
  destruct K as [<- <-]. split; reflexivity.
Qed.
Lemma preorder_inj0 {A} (r r' : rose A) : preorder 0 r = preorder 0 r' -> r = r'.
Proof. intros E. apply (preorder_inj r 0 r' [] []); [rewrite !app_nil_r; exact E | exact I | exact I]. Qed.
Lemma preorder_map {A B} (f : A -> B) (r : rose A) : forall d,
  preorder d (rose_map f r) = map (fun x => (fst x, f (snd x))) (preorder d r).
Proof.
  induction r as [a ks IH] using rose_ind2. intros d. cbn. f_equal.
  induction ks as [|k ks IHk]; [reflexivity|]. cbn [map flat_map]. rewrite map_app. f_equal.
  - apply (Forall_inv IH).
  - apply IHk. exact (Forall_inv_tail IH).
Qed.
Lemma preorder_depth {A} (r : rose A) : forall d x, In x (preorder d r) -> d <= fst x.
Proof.
  induction r as [a ks IH] using rose_ind2. intros d x Hx. cbn in Hx. destruct Hx as [<- | Hx]; [cbn; lia|].
  apply in_flat_map in Hx as (k & Hk & Hx). rewrite Forall_forall in IH. specialize (IH k Hk _ _ Hx). lia.
Qed.
Lemma preorder_root {A} (r : rose A) d : exists a rest, preorder d r = (d, a) :: rest /\ forall x, In x rest -> d < fst x.
Proof.
  destruct r as [a ks]. exists a, (flat_map (preorder (S d)) ks). split; [reflexivity|]. intros x Hx.
  apply in_flat_map in Hx as (k & _ & Hx). apply preorder_depth in Hx. lia.
Qed.

(** ** ast *)
Lemma spaces_nil n : spaces n = [] -> n = 0.
Proof. destruct n; [reflexivity | discriminate]. Qed.
Lemma ast_text p : forall d, astify (2 * d) p = join nl (map ast_line (preorder d (main_tree p))).
Proof.
  induction p as [n ks sub IH _] using plan_ind2. intros d.
  assert (Item : match spaces (2 * d) with [] => [] | _ => spaces (2 * d) ++ str "->  " end ++ header n = ast_line (d, n)).
  { unfold ast_line. destruct d as [|d]; [reflexivity|]. cbn [Nat.eqb]. destruct (spaces (2 * S d)) eqn:E.
    - apply spaces_nil in E. lia.
    - rewrite <- app_assoc. reflexivity. }
  cbn [astify main_tree preorder]. rewrite Item. clear Item.
  assert (C : map (astify (2 * d + 2)) ks = map (fun k => join nl (map ast_line (preorder (S d) (main_tree k)))) ks).
  { apply map_ext_in. intros k Hk. rewrite Forall_forall in IH. rewrite <- (IH k Hk). f_equal. lia. }
  rewrite C. rewrite (join_concat (fun k => map ast_line (preorder (S d) (main_tree k)))).
  2:{ intros k _. destruct (main_tree k). discriminate. }
  assert (F : flat_map (fun k => map ast_line (preorder (S d) (main_tree k))) ks
              = map ast_line (flat_map (preorder (S d)) (map main_tree ks))).
  { clear. induction ks as [|k ks IH]; [reflexivity|]. cbn [flat_map map]. rewrite map_app. f_equal. exact IH. }
  rewrite F. destruct ks as [|k ks]; [reflexivity|].
  cbn [map flat_map]. destruct (main_tree k) as [a r]. cbn [preorder app map].
  rewrite (join_cons (ast_line (d, n))); [|discriminate].
  assert (Z : forall L, join nl (ast_line (S d, a) :: L) <> []).
  { intros L Z. unfold ast_line in Z. cbn [Nat.eqb] in Z. replace (2 * S d) with (S (S (2 * d))) in Z by lia.
    destruct L; cbn in Z; discriminate Z. }
  match goal with |- context[join nl (ast_line (S d, a) :: ?l)] => specialize (Z l); destruct (join nl (ast_line (S d, a) :: l)) end;
  [exfalso; apply Z; reflexivity | reflexivity].
Qed.
Lemma main_nodes p : forall d x, In x (preorder d (main_tree p)) -> In (snd x) (all_nodes p).
Proof.
  induction p as [n ks sub IH _] using plan_ind2. intros d x Hx. cbn in Hx |- *. destruct Hx as [<- | Hx]; [left; reflexivity|].
  right. apply in_or_app. left. apply in_flat_map in Hx as (r & Hr & Hx). apply in_map_iff in Hr as (k & <- & Hk).
  apply in_flat_map. exists k. split; [exact Hk|]. rewrite Forall_forall in IH. exact (IH k Hk _ _ Hx).
Qed.
Lemma ast_lines p : (forall n, In n (all_nodes p) -> one_line (header n)) ->
  lines (ast p) = map ast_line (preorder 0 (main_tree p)).
Proof.
  intros H. unfold ast. change 0 with (2 * 0) at 1. rewrite ast_text. apply lines_join.
  - destruct (main_tree p). discriminate.
  - intros t Ht. apply in_map_iff in Ht as ([d n] & <- & Hx). apply main_nodes in Hx. cbn in Hx. unfold ast_line.
    destruct (Nat.eqb d 0); [apply H; exact Hx|].
    apply one_line_app; [apply spaces_one|]. apply one_line_app; [apply arrow_one | apply H; exact Hx].
Qed.
Lemma spaces_inj a b x y : spaces a ++ "-"%char :: x = spaces b ++ "-"%char :: y -> a = b /\ x = y.
Proof.
  revert b. induction a as [|a IH]; intros [|b] E; cbn in E; try discriminate.
  - injection E as E. split; [reflexivity | exact E].
  - injection E as E. apply IH in E as [-> ->]. split; reflexivity.
Qed.
Lemma arrow_inj a b x y : spaces a ++ str "->  " ++ x = spaces b ++ str "->  " ++ y -> a = b /\ x = y.
Proof.
  intros E. change (str "->  " ++ x) with ("-"%char :: str ">  " ++ x) in E. change (str "->  " ++ y) with ("-"%char :: str ">  " ++ y) in E.
  apply spaces_inj in E as [Ea E]. split; [exact Ea|]. cbn in E. injection E as E. exact E.
Qed.
Lemma ast_inj p q : (forall n, In n (all_nodes p) -> one_line (header n)) -> (forall n, In n (all_nodes q) -> one_line (header n)) ->
  ast p = ast q -> rose_map header (main_tree p) = rose_map header (main_tree q).
Proof.
  intros Hp Hq E. apply preorder_inj0. rewrite !preorder_map.
  assert (L : map ast_line (preorder 0 (main_tree p)) = map ast_line (preorder 0 (main_tree q))).
  { rewrite <- (ast_lines p Hp), <- (ast_lines q Hq), E. reflexivity. }
  destruct (preorder_root (main_tree p) 0) as (a & r & Ep & Dp). destruct (preorder_root (main_tree q) 0) as (b & s & Eq & Dq).
  rewrite Ep, Eq in *. cbn [map] in L |- *. injection L as L0 L. cbn in L0. cbn [fst snd]. f_equal; [f_equal; exact L0|].
  clear - Dp Dq L. revert s Dq L. induction r as [|[d n] r IH]; intros [|[e m] s] Dq L; try discriminate; [reflexivity|].
  cbn [map] in L |- *. injection L as L1 L. cbn [fst snd]. f_equal.
  - assert (D1 : 0 < d) by (apply (Dp (d, n)); left; reflexivity). assert (D2 : 0 < e) by (apply (Dq (e, m)); left; reflexivity).
    unfold ast_line in L1. destruct (Nat.eqb_spec d 0); [lia|]. destruct (Nat.eqb_spec e 0); [lia|].
    apply arrow_inj in L1 as [L1 L2]. f_equal; [lia | exact L2].
  - apply IH; [intros x Hx; apply Dp; right; exact Hx | intros x Hx; apply Dq; right; exact Hx | exact L].
Qed.

(** ** the fields of custom explains *)
Definition pairs (n : node) (l : list text) : list (text * text) := map (fun f => (f, value n f)) l.
Lemma dset_old n l f : In f l -> dset (pairs n l) f (value n f) = pairs n l.
Proof.
  induction l as [|g l IH]; intros H; [destruct H|]. cbn. destruct (eqd f g) as [->|N]; [reflexivity|].
  unfold pairs in IH. rewrite IH; [reflexivity|]. destruct H as [-> | H]; [contradiction | exact H].
Qed.
Lemma dset_new n l f : ~ In f l -> dset (pairs n l) f (value n f) = pairs n (l ++ [f]).
Proof.
  induction l as [|g l IH]; intros H; [reflexivity|]. cbn. destruct (eqd f g) as [->|N].
  - exfalso. apply H. left. reflexivity.
  - unfold pairs in IH. rewrite IH; [reflexivity|]. intros F. apply H. right. exact F.
Qed.
Lemma attr_values_ok n fs : forall pre, (forall f, In f fs -> exists v, n_attr n f = Ok v) ->
  attr_values n fs (pairs n (rev (dedup (rev pre)))) = Ok (pairs n (rev (dedup (rev (pre ++ fs))))).
Proof.
  induction fs as [|f fs IH]; intros pre H; cbn [attr_values]; [rewrite app_nil_r; reflexivity|].
  destruct (H f (or_introl eq_refl)) as [v Hv]. rewrite Hv. cbn [rbind].
  assert (V : v = value n f) by (unfold value; rewrite Hv; reflexivity). rewrite V.
  replace (pre ++ f :: fs) with ((pre ++ [f]) ++ fs) by (rewrite <- app_assoc; reflexivity).
  rewrite <- (IH (pre ++ [f])); [|intros g Hg; apply H; right; exact Hg]. f_equal. rewrite rev_app_distr. cbn [rev app dedup].
  destruct (mem f (rev pre)) eqn:M.
  - apply dset_old. rewrite <- in_rev, dedup_In. apply mem_In. exact M.
  - cbn [rev]. apply dset_new. rewrite <- in_rev, dedup_In. apply mem_nIn. exact M.
Qed.
Lemma attr_values_raise n fs : forall acc e, attr_values n fs acc = Raise e -> exists f, In f fs /\ n_attr n f = Raise e.
Proof.
  induction fs as [|f fs IH]; intros acc e H; cbn in H; [discriminate|]. destruct (n_attr n f) as [v|e'] eqn:E; cbn in H.
  - apply IH in H as (g & Hg & He). exists g. split; [right; exact Hg | exact He].
  - injection H as <-. exists f. split; [left; reflexivity | exact E].
Qed.
Lemma attr_values_all n fs : forall acc vals, attr_values n fs acc = Ok vals -> forall f, In f fs -> exists v, n_attr n f = Ok v.
Proof.
  induction fs as [|f fs IH]; intros acc vals H g Hg; cbn in H; [destruct Hg|]. destruct (n_attr n f) as [v|e'] eqn:E; cbn in H; [|discriminate].
  destruct Hg as [<- | Hg]; [exists v; exact E | exact (IH _ _ H g Hg)].
Qed.

(** ** inspect *)
Definition data (fields : list text) (n : node) (padding : text) : res text :=
  match fields with [] => Ok (default_explain n padding) | _ => custom_explain n fields padding end.
Definition data_lines (fields : list text) (d : nat) (n : node) : list text :=
  map (fun c => spaces (match fields with [] => 6 * d + 2 | _ => 6 * d - 4 + 3 end) ++ c) (shown fields n).
Lemma spaces_app a b : spaces a ++ spaces b = spaces (a + b).
Proof. unfold spaces. rewrite repeat_app. reflexivity. Qed.
Lemma padding_spaces d : explain_padding d = spaces (6 * d - 4).
Proof. destruct d; cbn [explain_padding]; [reflexivity|]. rewrite spaces_app. f_equal. lia. Qed.
Lemma data_ok fields n d : (forall f, In f fields -> exists v, n_attr n f = Ok v) ->
  data fields n (explain_padding d) = Ok (join nl (data_lines fields d n)).
Proof.
  intros H. destruct fields as [|f fs].
  - unfold data, default_explain, data_lines, shown. f_equal. f_equal. apply map_ext. intros c.
    rewrite padding_spaces. destruct d as [|d]; [reflexivity|]. destruct (spaces (6 * S d - 4)) eqn:E.
    + apply spaces_nil in E. lia.
    + rewrite <- E. rewrite app_assoc, spaces_app. f_equal. f_equal. lia.
  - unfold data, custom_explain. pose proof (attr_values_ok n (f :: fs) [] H) as A. cbn [rev dedup pairs map] in A.
    change (pairs n []) with (@nil (text * text)) in A. rewrite A. cbn [rbind]. f_equal. unfold data_lines, shown. cbn [map join].
    rewrite padding_spaces. unfold attr_str, pairs. rewrite map_map. cbn [fst snd app].
    change (str "   [") with (spaces 3 ++ str "["). rewrite <- spaces_app, <- !app_assoc. reflexivity.
Qed.
Lemma shown_nonnil fields n : shown fields n <> [].
Proof. destruct fields; [unfold shown, default_lines; discriminate | discriminate]. Qed.
Lemma data_raise fields n pad e : data fields n pad = Raise e -> exists f, In f fields /\ n_attr n f = Raise e.
Proof.
  intros H. destruct fields as [|f fs]; [discriminate|]. unfold data, custom_explain in H.
  destruct (attr_values n (f :: fs) []) eqn:E; cbn [rbind] in H; [discriminate|]. injection H as <-. exact (attr_values_raise _ _ _ _ E).
Qed.
Lemma data_all fields n pad t : data fields n pad = Ok t -> forall f, In f fields -> exists v, n_attr n f = Ok v.
Proof.
  intros H. destruct fields as [|f fs]; [intros g []|]. unfold data, custom_explain in H.
  destruct (attr_values n (f :: fs) []) eqn:E; cbn [rbind] in H; [|discriminate]. exact (attr_values_all _ _ _ _ E).
Qed.

Definition explain_all (fields : list text) (level : nat) : list plan -> res (list text) :=
  fix go (l : list plan) : res (list text) :=
    match l with
    | [] => Ok []
    | k :: r => rbind (explainify fields level k) (fun x => rbind (go r) (fun xs => Ok (x :: xs)))
    end.
Lemma explainify_eq fields level n ks sub : explainify fields level (Plan n ks sub) =
  rbind (data fields n (explain_padding level)) (fun explain_data =>
  rbind (explain_all fields (S level) ks) (fun cs =>
  rbind (match sub with Some s => explainify fields (S level) s | None => Ok [] end) (fun subplan_explains =>
  let c := match subplan_explains with [] => join nl cs | _ => join nl cs ++ nl ++ subplan_explains end in
  match c with
  | [] => Ok (explain_prefix (explain_padding level) ++ header n ++ nl ++ explain_data)
  | _ => Ok (explain_prefix (explain_padding level) ++ header n ++ nl ++ explain_data ++ nl ++ c)
  end))).
Proof. reflexivity. Qed.
Definition block_lines (fields : list text) (d : nat) (p : plan) : list text :=
  flat_map (inspect_block fields) (preorder d (full_tree p)).
Lemma block_nonnil fields d p : block_lines fields d p <> [].
Proof. destruct p as [n ks sub]. unfold block_lines. cbn. discriminate. Qed.
Definition fine (fields : list text) (n : node) : Prop := forall f, In f fields -> exists v, n_attr n f = Ok v.
Lemma block_head_nonempty fields d p L : join nl (block_lines fields (S d) p ++ L) <> [].
Proof.
  destruct p as [n ks sub]. unfold block_lines. cbn [full_tree preorder flat_map].
  unfold inspect_block at 1. cbn [Nat.eqb]. replace (6 * S d - 4) with (S (6 * d + 1)) by lia.
  rewrite <- app_assoc. cbn [app]. intros Z. match type of Z with join nl (_ :: ?l) = [] => destruct l; cbn in Z; discriminate Z end.
Qed.
Lemma flat_map_app2 {A B} (f : A -> list B) a b : flat_map f (a ++ b) = flat_map f a ++ flat_map f b.
Proof. induction a as [|x a IH]; [reflexivity|]. cbn. rewrite IH, app_assoc. reflexivity. Qed.
Lemma explainify_ok fields p : (forall n, In n (all_nodes p) -> fine fields n) ->
  forall d, explainify fields d p = Ok (join nl (block_lines fields d p)).
Proof.
  induction p as [n ks sub IH IHs] using plan_ind2. intros H d. rewrite explainify_eq.
  rewrite data_ok; [|apply (H n); left; reflexivity]. cbn [rbind].
  assert (C : explain_all fields (S d) ks = Ok (map (fun k => join nl (block_lines fields (S d) k)) ks)).
  { assert (H' : forall k, In k ks -> forall m, In m (all_nodes k) -> fine fields m).
    { intros k Hk m Hm. apply H. cbn. right. apply in_or_app. left. apply in_flat_map. exists k. split; assumption. }
    clear IHs H. induction ks as [|k ks IHk]; [reflexivity|]. cbn [explain_all map].
    rewrite (Forall_inv IH); [|apply H'; left; reflexivity]. cbn [rbind].
    change ((fix go (l : list plan) : res (list text) :=
       match l with [] => Ok [] | k0 :: r => rbind (explainify fields (S d) k0) (fun x => rbind (go r) (fun xs => Ok (x :: xs))) end) ks)
      with (explain_all fields (S d) ks).
    rewrite IHk; [reflexivity | exact (Forall_inv_tail IH)|]. intros m Hm. apply H'. right. exact Hm. }
  rewrite C. cbn [rbind]. rewrite join_concat; [|intros k _; apply block_nonnil].
  assert (Hd : forall t, explain_prefix (explain_padding d) ++ header n ++ t
               = (if Nat.eqb d 0 then header n else spaces (6 * d - 4) ++ str "->  " ++ header n) ++ t).
  { intros t. rewrite padding_spaces. destruct d as [|d]; [reflexivity|]. cbn [Nat.eqb]. unfold explain_prefix.
    destruct (spaces (6 * S d - 4)) eqn:E; [apply spaces_nil in E; lia|]. rewrite <- !app_assoc. reflexivity. }
  assert (FM : flat_map (inspect_block fields) (flat_map (preorder (S d)) (map full_tree ks)) = flat_map (block_lines fields (S d)) ks).
  { clear. induction ks as [|k ks IH]; [reflexivity|]. cbn [map flat_map]. rewrite flat_map_app2, IH. reflexivity. }
  assert (DN : data_lines fields d n <> []).
  { unfold data_lines. pose proof (shown_nonnil fields n) as S0. destruct (shown fields n); [contradiction | discriminate]. }
  assert (KN : ks <> [] -> forall L, join nl (flat_map (block_lines fields (S d)) ks ++ L) <> []).
  { intros NK L. destruct ks as [|k ks]; [contradiction|]. cbn [flat_map]. rewrite <- app_assoc. apply block_head_nonempty. }
  assert (BL : block_lines fields d (Plan n ks sub) =
    ((if Nat.eqb d 0 then header n else spaces (6 * d - 4) ++ str "->  " ++ header n)
     :: data_lines fields d n ++ (if match ks, sub with [], Some _ => true | _, _ => false end then [[]] else []))
    ++ flat_map (block_lines fields (S d)) ks ++ match sub with Some s => block_lines fields (S d) s | None => [] end).
  { unfold block_lines at 1. cbn [full_tree preorder flat_map]. rewrite flat_map_app2, flat_map_app2, FM.
    unfold inspect_block at 1. fold (data_lines fields d n). f_equal. f_equal. destruct sub; [|reflexivity].
    cbn [flat_map]. rewrite app_nil_r. reflexivity. }
  rewrite BL. clear BL. cbv zeta.
  destruct sub as [s|].
  - rewrite (IHs s eq_refl); [|intros m Hm; apply H; cbn; right; apply in_or_app; right; exact Hm]. cbn [rbind].
    pose proof (block_head_nonempty fields d s []) as NS. rewrite app_nil_r in NS.
    assert (E1 : forall c : text, c <> [] -> (match c with [] => Ok (explain_prefix (explain_padding d) ++ header n ++ nl ++ join nl (data_lines fields d n))
       | _ => Ok (explain_prefix (explain_padding d) ++ header n ++ nl ++ join nl (data_lines fields d n) ++ nl ++ c) end)
       = Ok (explain_prefix (explain_padding d) ++ header n ++ nl ++ join nl (data_lines fields d n) ++ nl ++ c)).
    { intros [|x c] N; [contradiction | reflexivity]. }
    destruct (join nl (block_lines fields (S d) s)) as [|x y] eqn:EJ; [contradiction|]. rewrite E1.
    2:{ intros Z. apply app_eq_nil in Z as [_ Z]. discriminate. }
    rewrite <- EJ. f_equal. rewrite Hd.
    destruct ks as [|k ks].
    + change (join nl (flat_map (block_lines fields (S d)) [])) with (@nil ascii). cbn [flat_map app].
      match goal with |- _ = join nl (?x :: ?l) => rewrite (join_cons x l) end.
      2:{ intros Z. apply app_eq_nil in Z as [Z _]. apply app_eq_nil in Z as [Z _]. contradiction. }
      f_equal. f_equal. rewrite <- app_assoc. rewrite join_app; [|exact DN | discriminate]. f_equal. f_equal.
      cbn [app]. rewrite join_cons; [reflexivity | apply block_nonnil].
    + rewrite app_nil_r. try rewrite <- app_comm_cons. rewrite join_cons.
      2:{ intros Z. apply app_eq_nil in Z as [Z _]. contradiction. }
      f_equal. f_equal. rewrite join_app; [|exact DN | intros Z; apply app_eq_nil in Z as [_ Z]; apply block_nonnil in Z; exact Z].
      f_equal. f_equal. rewrite join_app; [reflexivity | | apply block_nonnil].
      cbn [flat_map]. intros Z. apply app_eq_nil in Z as [Z _]. apply block_nonnil in Z. exact Z.
  - cbn [rbind]. rewrite (app_nil_r (flat_map _ ks)).
    replace (match ks with [] => false | _ => false end) with false by (destruct ks; reflexivity). rewrite app_nil_r.
    destruct ks as [|k ks].
    + cbn [flat_map join]. rewrite app_nil_r. rewrite Hd. rewrite join_cons; [reflexivity | exact DN].
    + assert (NK : k :: ks <> []) by discriminate. specialize (KN NK []). rewrite app_nil_r in KN.
      destruct (join nl (flat_map (block_lines fields (S d)) (k :: ks))) as [|x y] eqn:EJ; [contradiction|]. rewrite <- EJ.
      f_equal. rewrite Hd. try rewrite <- app_comm_cons. rewrite join_cons.
      2:{ intros Z. apply app_eq_nil in Z as [Z _]. contradiction. }
      f_equal. f_equal. rewrite join_app; [reflexivity | exact DN|].
      cbn [flat_map]. intros Z. apply app_eq_nil in Z as [Z _]. apply block_nonnil in Z. exact Z.
Qed.

Lemma explain_all_raise fields d ks e : explain_all fields d ks = Raise e -> exists k, In k ks /\ explainify fields d k = Raise e.
Proof.
  induction ks as [|k ks IH]; intros H; [discriminate|]. change (explain_all fields d (k :: ks)) with
    (rbind (explainify fields d k) (fun x => rbind (explain_all fields d ks) (fun xs => Ok (x :: xs)))) in H.
  destruct (explainify fields d k) as [x|e'] eqn:E; cbn [rbind] in H.
  - destruct (explain_all fields d ks) as [xs|e'']; cbn [rbind] in H; [discriminate|]. injection H as <-.
    destruct (IH eq_refl) as (k' & Hk & Ek). exists k'. split; [right; exact Hk | exact Ek].
  - injection H as <-. exists k. split; [left; reflexivity | exact E].
Qed.
Lemma explain_all_ok fields d ks xs : explain_all fields d ks = Ok xs -> forall k, In k ks -> exists x, explainify fields d k = Ok x.
Proof.
  revert xs. induction ks as [|k ks IH]; intros xs H k' Hk; [destruct Hk|]. change (explain_all fields d (k :: ks)) with
    (rbind (explainify fields d k) (fun x => rbind (explain_all fields d ks) (fun xs => Ok (x :: xs)))) in H.
  destruct (explainify fields d k) as [x|e'] eqn:E; cbn [rbind] in H; [|discriminate].
  destruct (explain_all fields d ks) as [ys|e'']; cbn [rbind] in H; [|discriminate].
  destruct Hk as [<- | Hk]; [exists x; exact E | exact (IH _ eq_refl _ Hk)].
Qed.
Lemma explainify_raise fields p : forall d e, explainify fields d p = Raise e ->
  exists n f, In n (all_nodes p) /\ In f fields /\ n_attr n f = Raise e.
Proof.
  induction p as [n ks sub IH IHs] using plan_ind2. intros d e H. rewrite explainify_eq in H.
  destruct (data fields n (explain_padding d)) as [t|e'] eqn:E; cbn [rbind] in H.
  - destruct (explain_all fields (S d) ks) as [cs|e'] eqn:C; cbn [rbind] in H.
    + destruct sub as [s|]; [|cbn [rbind] in H; cbv zeta in H; destruct (join nl cs); discriminate].
      destruct (explainify fields (S d) s) as [u|e'] eqn:U; cbn [rbind] in H.
      * cbv zeta in H. destruct (match u with [] => join nl cs | _ => join nl cs ++ nl ++ u end); discriminate.
      * injection H as <-. destruct (IHs s eq_refl _ _ U) as (m & f & Hm & Hf & He). exists m, f. repeat split; [|exact Hf | exact He].
        cbn. right. apply in_or_app. right. exact Hm.
    + injection H as <-. apply explain_all_raise in C as (k & Hk & Ek). rewrite Forall_forall in IH.
      destruct (IH k Hk _ _ Ek) as (m & f & Hm & Hf & He). exists m, f. repeat split; [|exact Hf | exact He].
      cbn. right. apply in_or_app. left. apply in_flat_map. exists k. split; assumption.
  - injection H as <-. apply data_raise in E as (f & Hf & He). exists n, f. repeat split; [left; reflexivity | exact Hf | exact He].
Qed.
Lemma explainify_fine fields p : forall d t, explainify fields d p = Ok t -> forall n, In n (all_nodes p) -> fine fields n.
Proof.
  induction p as [n ks sub IH IHs] using plan_ind2. intros d t H m Hm. rewrite explainify_eq in H.
  destruct (data fields n (explain_padding d)) as [u|e'] eqn:E; cbn [rbind] in H; [|discriminate].
  destruct (explain_all fields (S d) ks) as [cs|e'] eqn:C; cbn [rbind] in H; [|discriminate].
  cbn in Hm. destruct Hm as [<- | Hm]; [exact (data_all _ _ _ _ E)|]. apply in_app_or in Hm as [Hm|Hm].
  - apply in_flat_map in Hm as (k & Hk & Hm). destruct (explain_all_ok _ _ _ _ C k Hk) as (x & Ex).
    rewrite Forall_forall in IH. exact (IH k Hk _ _ Ex m Hm).
  - destruct sub as [s|]; [|destruct Hm]. destruct (explainify fields (S d) s) as [v|e'] eqn:U; cbn [rbind] in H; [|discriminate].
    exact (IHs s eq_refl _ _ U m Hm).
Qed.

(** the nodes of the full tree *)
Lemma full_nodes p : forall d x, In x (preorder d (full_tree p)) -> In (fst (snd x)) (all_nodes p).
Proof.
  induction p as [n ks sub IH IHs] using plan_ind2. intros d x Hx. cbn in Hx |- *. destruct Hx as [<- | Hx]; [left; reflexivity|].
  right. apply in_or_app. rewrite flat_map_app2 in Hx. apply in_app_or in Hx as [Hx|Hx].
  - left. apply in_flat_map in Hx as (r & Hr & Hx). apply in_map_iff in Hr as (k & <- & Hk).
    apply in_flat_map. exists k. split; [exact Hk|]. rewrite Forall_forall in IH. exact (IH k Hk _ _ Hx).
  - right. destruct sub as [s|]; [|destruct Hx]. cbn in Hx. rewrite app_nil_r in Hx. exact (IHs s eq_refl _ _ Hx).
Qed.
Lemma nodes_full p : forall d n, In n (all_nodes p) -> exists k b, d <= k /\ In (k, (n, b)) (preorder d (full_tree p)).
Proof.
  induction p as [n ks sub IH IHs] using plan_ind2. intros d m Hm. cbn in Hm. destruct Hm as [<- | Hm].
  - exists d. eexists. split; [apply le_n | left; reflexivity].
  - cbn [full_tree preorder]. apply in_app_or in Hm as [Hm|Hm].
    + apply in_flat_map in Hm as (k & Hk & Hm). rewrite Forall_forall in IH. destruct (IH k Hk (S d) m Hm) as (j & b & Hj & Hin).
      exists j, b. split; [lia|]. right. rewrite flat_map_app2. apply in_or_app. left. apply in_flat_map. exists (full_tree k). split; [|exact Hin].
      apply in_map. exact Hk.
    + destruct sub as [s|]; [|destruct Hm]. destruct (IHs s eq_refl (S d) m Hm) as (j & b & Hj & Hin).
      exists j, b. split; [lia|]. right. rewrite flat_map_app2. apply in_or_app. right. cbn. rewrite app_nil_r. exact Hin.
Qed.
Lemma block_clean fields p : clean fields p -> forall d l, In l (block_lines fields d p) -> one_line l.
Proof.
  intros H d l Hl. unfold block_lines in Hl. apply in_flat_map in Hl as ([k [n b]] & Hx & Hl). apply full_nodes in Hx. cbn in Hx.
  destruct (H n Hx) as [Hh Hc]. cbn [inspect_block] in Hl. destruct Hl as [<- | Hl].
  - destruct (Nat.eqb k 0); [exact Hh|]. apply one_line_app; [apply spaces_one|]. apply one_line_app; [apply arrow_one | exact Hh].
  - apply in_app_or in Hl as [Hl|Hl].
    + apply in_map_iff in Hl as (c & <- & Hin). apply one_line_app; [apply spaces_one | apply Hc; exact Hin].
    + destruct b; [destruct Hl as [<- | []]; intros [] | destruct Hl].
Qed.

(** ** reading the lines of inspect() *)
Fixpoint is_head (l : text) : bool :=
  match l with [] => false | c :: r => if Ascii.eqb c " " then is_head r else Ascii.eqb c "-" end.
Lemma is_head_spaces k l : is_head (spaces k ++ l) = is_head l.
Proof. induction k as [|k IH]; [reflexivity|]. exact IH. Qed.
Definition starts (l : text) : Prop := exists c r, l = c :: r /\ c <> " "%char /\ c <> "-"%char.
Lemma starts_head l : starts l -> is_head l = false.
Proof.
  intros (c & r & -> & A & B). cbn. destruct (Ascii.eqb_spec c " "); [contradiction|]. destruct (Ascii.eqb_spec c "-"); [contradiction | reflexivity].
Qed.
Ltac is_const_proj x := match x with n_analyze _ => idtac | n_hits _ => idtac | n_misses _ => idtac | n_workers _ => idtac
  | n_lookup _ => idtac | n_index _ => idtac | n_sort _ => idtac | ?p => is_var p end.
Lemma shown_starts fields n c : In c (shown fields n) -> starts c.
Proof.
  assert (ST : forall a l, a <> " "%char -> a <> "-"%char -> starts (a :: l)).
  { intros a l A B. exists a, l. repeat split; assumption. }
  destruct fields as [|f fs].
  - cbn [shown]. unfold default_lines. intros H.
    repeat (apply in_app_or in H; destruct H as [H|H]).
    all: cbv zeta in H.
    all: repeat match type of H with context[match ?x with _ => _ end] => is_const_proj x; destruct x end.
    all: cbn in H.
    all: repeat (destruct H as [<- | H]; [apply ST; discriminate|]); destruct H.
  - cbn [shown]. intros [<- | []]. apply ST; discriminate.
Qed.
Lemma spaces_starts_inj k x y : spaces k ++ x = spaces k ++ y -> x = y.
Proof. apply app_inv_head. Qed.
Lemma split_heads (D D' R R' : list text) : (forall l, In l D -> is_head l = false) -> (forall l, In l D' -> is_head l = false) ->
  (match R with [] => True | h :: _ => is_head h = true end) -> (match R' with [] => True | h :: _ => is_head h = true end) ->
  D ++ R = D' ++ R' -> D = D' /\ R = R'.
Proof.
  revert D'. induction D as [|x D IH]; intros [|y D'] HD HD' HR HR' E; cbn in E.
  - split; [reflexivity | exact E].
  - subst R. rewrite (HD' y) in HR; [discriminate | left; reflexivity].
  - subst R'. rewrite (HD x) in HR'; [discriminate | left; reflexivity].
  - injection E as -> E. destruct (IH D') as [-> ->]; auto; intros l Hl; [apply HD | apply HD']; right; exact Hl.
Qed.
Lemma data_inj k (cs cs' : list text) (b b' : bool) : (forall c, In c cs -> c <> []) -> (forall c, In c cs' -> c <> []) ->
  map (fun c => spaces k ++ c) cs ++ (if b then [[]] else []) = map (fun c => spaces k ++ c) cs' ++ (if b' then [[]] else []) ->
  cs = cs' /\ b = b'.
Proof.
  revert cs'. induction cs as [|c cs IH]; intros [|c' cs'] H H' E; cbn [map app] in E.
  - destruct b, b'; try discriminate; split; reflexivity.
  - destruct b; [|discriminate]. injection E as E _. symmetry in E. apply app_eq_nil in E as [_ E]. exfalso. apply (H' c'); [left; reflexivity | exact E].
  - destruct b'; [|discriminate]. injection E as E _. apply app_eq_nil in E as [_ E]. exfalso. apply (H c); [left; reflexivity | exact E].
  - injection E as E0 E. apply app_inv_head in E0. subst c'. destruct (IH cs') as [-> ->]; auto; intros x Hx; [apply H | apply H']; right; exact Hx.
Qed.
Lemma blocks_head fields (l : list (nat * (node * bool))) : (forall x, In x l -> 0 < fst x) ->
  match flat_map (inspect_block fields) l with [] => True | h :: _ => is_head h = true end.
Proof.
  intros H. destruct l as [|[d [n b]] l]; [exact I|]. cbn. pose proof (H _ (or_introl eq_refl)) as D. cbn in D.
  destruct (Nat.eqb_spec d 0); [lia|]. rewrite is_head_spaces. reflexivity.
Qed.
Lemma block_tail fields d n b d' n' b' R R' : d = d' ->
  (match R with [] => True | h :: _ => is_head h = true end) -> (match R' with [] => True | h :: _ => is_head h = true end) ->
  tl (inspect_block fields (d, (n, b))) ++ R = tl (inspect_block fields (d', (n', b'))) ++ R' ->
  shown fields n = shown fields n' /\ b = b' /\ R = R'.
Proof.
  intros <- HR HR' E. cbn [inspect_block tl] in E.
  assert (NH : forall m c, forall l, In l (map (fun c => spaces (match fields with [] => 6 * d + 2 | _ => 6 * d - 4 + 3 end) ++ c) (shown fields m)
     ++ (if c : bool then [[]] else [])) -> is_head l = false).
  { intros m c l Hl. apply in_app_or in Hl as [Hl|Hl].
    - apply in_map_iff in Hl as (x & <- & Hx). rewrite is_head_spaces. apply starts_head. apply shown_starts in Hx. exact Hx.
    - destruct c; [destruct Hl as [<- | []]; reflexivity | destruct Hl]. }
  apply split_heads in E as [E ER]; [|apply NH | apply NH | exact HR | exact HR'].
  assert (NN : forall m c, In c (shown fields m) -> c <> []).
  { intros m c Hc. apply shown_starts in Hc as (x & r & -> & _). discriminate. }
  apply data_inj in E as [E1 E2]; [|apply NN | apply NN]. repeat split; assumption.
Qed.
Lemma blocks_inj fields : forall l l', (forall x, In x l -> 0 < fst x) -> (forall x, In x l' -> 0 < fst x) ->
  flat_map (inspect_block fields) l = flat_map (inspect_block fields) l' ->
  map (fun x => (fst x, look fields (snd x))) l = map (fun x => (fst x, look fields (snd x))) l'.
Proof.
  induction l as [|[d [n b]] l IH]; intros [|[d' [n' b']] l'] H H' E; try discriminate; [reflexivity|].
  pose proof (H _ (or_introl eq_refl)) as D. pose proof (H' _ (or_introl eq_refl)) as D'. cbn in D, D'.
  assert (T : forall x, In x l -> 0 < fst x) by (intros x Hx; apply H; right; exact Hx).
  assert (T' : forall x, In x l' -> 0 < fst x) by (intros x Hx; apply H'; right; exact Hx).
  cbn [flat_map] in E. cbn [inspect_block app] in E. injection E as E0 E.
  destruct (Nat.eqb_spec d 0); [lia|]. destruct (Nat.eqb_spec d' 0); [lia|]. apply arrow_inj in E0 as [Ed Eh].
  assert (d = d') by lia.
  destruct (block_tail fields d n b d' n' b' (flat_map (inspect_block fields) l) (flat_map (inspect_block fields) l')) as (S1 & S2 & S3); auto.
  - apply blocks_head. exact T.
  - apply blocks_head. exact T'.
  - subst d'. subst b'. cbn [map fst snd]. f_equal; [|apply IH; assumption]. f_equal. unfold look. cbn. congruence.
Qed.
Lemma inspect_inj fields p q t : clean fields p -> clean fields q ->
  inspect p fields = Ok t -> inspect q fields = Ok t ->
  rose_map (look fields) (full_tree p) = rose_map (look fields) (full_tree q).
Proof.
  intros Cp Cq Ep Eq. unfold inspect in *.
  pose proof (explainify_ok fields p (explainify_fine fields p _ _ Ep) 0) as Tp.
  pose proof (explainify_ok fields q (explainify_fine fields q _ _ Eq) 0) as Tq.
  rewrite Ep in Tp. rewrite Eq in Tq. injection Tp as Tp. injection Tq as Tq.
  assert (L : block_lines fields 0 p = block_lines fields 0 q).
  { rewrite <- (lines_join (block_lines fields 0 p)); [|apply block_nonnil | apply block_clean; exact Cp].
    rewrite <- (lines_join (block_lines fields 0 q)); [|apply block_nonnil | apply block_clean; exact Cq].
    rewrite <- Tp, <- Tq. reflexivity. }
  apply preorder_inj0. rewrite !preorder_map. unfold block_lines in L.
  destruct (preorder_root (full_tree p) 0) as ([n b] & r & P & Dp). destruct (preorder_root (full_tree q) 0) as ([n' b'] & r' & Q & Dq).
  rewrite P, Q in *. cbn [flat_map] in L. cbn [inspect_block app Nat.eqb] in L. injection L as L0 L.
  destruct (block_tail fields 0 n b 0 n' b' (flat_map (inspect_block fields) r) (flat_map (inspect_block fields) r')) as (S1 & S2 & S3); auto.
  - apply blocks_head. exact Dp.
  - apply blocks_head. exact Dq.
  - cbn [map fst snd]. f_equal; [|apply blocks_inj; assumption]. f_equal. unfold look. cbn. congruence.
Qed.
Lemma plain_full p : plain p -> full_tree p = rose_map (fun n => (n, false)) (main_tree p).
Proof.
  induction p as [n ks sub IH _] using plan_ind2. intros [-> H]. cbn [full_tree main_tree rose_map].
  replace (match ks with [] => false | _ => false end) with false by (destruct ks; reflexivity). rewrite app_nil_r. f_equal.
  rewrite map_map. induction ks as [|k ks IHk]; [reflexivity|]. destruct H as [H0 H1]. cbn [map]. f_equal.
  - apply (Forall_inv IH). exact H0.
  - apply IHk; [exact (Forall_inv_tail IH) | exact H1].
Qed.
Lemma rose_map_map {A B C} (f : A -> B) (g : B -> C) (r : rose A) : rose_map g (rose_map f r) = rose_map (fun x => g (f x)) r.
Proof.
  induction r as [a ks IH] using rose_ind2. cbn. f_equal. rewrite map_map. apply map_ext_in. intros k Hk. rewrite Forall_forall in IH. exact (IH k Hk).
Qed.

(** ** counting operators *)
Lemma counter_get l : forall acc x, dget (counter l acc) x =
  match count_occ text_dec l x, dget acc x with 0, o => o | S c, None => Some (S c) | S c, Some k => Some (S c + k) end.
Proof.
  induction l as [|y l IH]; intros acc x; cbn [counter count_occ]; [reflexivity|]. rewrite IH.
  rewrite dset_spec. destruct (text_dec y x) as [->|N].
  - destruct (eqd x x) as [_|N]; [|contradiction]. destruct (dget acc x) as [k|];
    destruct (count_occ text_dec l x); cbn; f_equal; lia.
  - destruct (eqd x y) as [->|_]; [contradiction | reflexivity].
Qed.

(** ** the metadata of a node *)
Definition first (l : text) : option ascii := hd_error l.
Lemma take_line ch (a a' r r' : list text) :
  (forall x, In x a -> first x = Some ch) -> (forall x, In x a' -> first x = Some ch) ->
  (forall x, In x r -> first x <> Some ch) -> (forall x, In x r' -> first x <> Some ch) ->
  a ++ r = a' ++ r' -> a = a' /\ r = r'.
Proof.
  revert a'. induction a as [|x a IH]; intros [|y a'] A A' R R' E; cbn [app] in E.
  - split; [reflexivity | exact E].
  - exfalso. subst r. apply (R y); [left; reflexivity | apply A'; left; reflexivity].
  - exfalso. subst r'. apply (R' x); [left; reflexivity | apply A; left; reflexivity].
  - injection E as -> E. destruct (IH a') as [-> ->]; auto; intros z Hz; [apply A | apply A']; right; exact Hz.
Qed.
Lemma comma_split (a a' r r' : text) : ~ In ","%char a -> ~ In ","%char a' -> a ++ ","%char :: r = a' ++ ","%char :: r' -> a = a' /\ r = r'.
Proof.
  revert a'. induction a as [|x a IH]; intros [|y a'] A A' E; cbn [app] in E.
  - injection E as ->. split; reflexivity.
  - injection E as <- _. exfalso. apply A'. left. reflexivity.
  - injection E as -> _. exfalso. apply A. left. reflexivity.
  - injection E as -> E. destruct (IH a') as [-> ->]; auto; intros F; [apply A | apply A']; right; exact F.
Qed.
Lemma comma_no (a a' r : text) : ~ In ","%char a' -> a ++ ","%char :: r <> a'.
Proof. intros A E. apply A. rewrite <- E. apply in_or_app. right. left. reflexivity. Qed.
Definition l_act (n : node) := match n_analyze n with
     | Some (c, t) => [str "Actual Cardinality=" ++ c ++ str ", Actual Time=" ++ t ++ str "s"] | None => [] end.
Definition l_cache (n : node) := match n_hits n, n_misses n with
     | None, None => []
     | h, m => [str "Cache Hits=" ++ (match h with Some t => t | None => str "nan" end) ++ str ", Cache Misses="
                ++ (match m with Some t => t | None => str "nan" end)] end.
Definition l_workers (n : node) := match n_workers n with Some w => [str "Parallel Workers=" ++ w] | None => [] end.
Definition l_lookup (n : node) := match n_lookup n with Some k => [str "Lookup Key=" ++ k] | None => [] end.
Definition l_props (n : node) :=
  let props := match n_index n with Some i => [str "Index=" ++ i] | None => [] end
               ++ match n_sort n with [] => [] | ks => [str "Sort Keys=" ++ join (str ", ") ks] end in
  match props with [] => [] | _ => [join (str ", ") props] end.
Lemma default_lines_eq n : default_lines n =
  [str "Estimated Cardinality=" ++ n_card n ++ str ", Estimated Cost=" ++ n_cost n] ++ l_act n ++ l_cache n ++ l_workers n ++ l_lookup n ++ l_props n.
Proof. reflexivity. Qed.
Lemma f_act n x : In x (l_act n) -> first x = Some "A"%char.
Proof. unfold l_act. destruct (n_analyze n) as [[c t]|]; intros [<- | []] || intros []; reflexivity. Qed.
Lemma f_cache n x : In x (l_cache n) -> first x = Some "C"%char.
Proof. unfold l_cache. destruct (n_hits n), (n_misses n); intros [<- | []] || intros []; reflexivity. Qed.
Lemma f_workers n x : In x (l_workers n) -> first x = Some "P"%char.
Proof. unfold l_workers. destruct (n_workers n); intros [<- | []] || intros []; reflexivity. Qed.
Lemma f_lookup n x : In x (l_lookup n) -> first x = Some "L"%char.
Proof. unfold l_lookup. destruct (n_lookup n); intros [<- | []] || intros []; reflexivity. Qed.
Lemma f_props n x : In x (l_props n) -> first x = Some "I"%char \/ first x = Some "S"%char.
Proof.
  unfold l_props. destruct (n_index n), (n_sort n); cbn [app]; intros [<- | []] || intros []; [left | left | right]; reflexivity.
Qed.
Lemma join_comma_inj : forall ks ks', (forall k, In k ks -> no_comma k) -> (forall k, In k ks' -> no_comma k) -> ks <> [] -> ks' <> [] ->
  join (str ", ") ks = join (str ", ") ks' -> ks = ks'.
Proof.
  induction ks as [|k ks IH]; intros [|k' ks'] H H' N N' E; try contradiction.
  assert (Hk : no_comma k) by (apply H; left; reflexivity). assert (Hk' : no_comma k') by (apply H'; left; reflexivity).
  destruct ks as [|k2 ks], ks' as [|k2' ks'].
  - cbn [join] in E. congruence.
  - exfalso. cbn [join] in E. symmetry in E. exact (comma_no _ _ _ Hk E).
  - exfalso. cbn [join] in E. exact (comma_no _ _ _ Hk' E).
  - change (k ++ str ", " ++ join (str ", ") (k2 :: ks) = k' ++ str ", " ++ join (str ", ") (k2' :: ks')) in E.
    apply (comma_split k k' (" "%char :: join (str ", ") (k2 :: ks)) (" "%char :: join (str ", ") (k2' :: ks')) Hk Hk') in E as [-> E].
    injection E as E. f_equal. apply IH; [intros x Hx; apply H; right; exact Hx | intros x Hx; apply H'; right; exact Hx | discriminate | discriminate | exact E].
Qed.
Lemma default_inj n m : plain_values n -> plain_values m -> default_lines n = default_lines m -> same_metadata n m.
Proof.
  intros (N1 & N2 & N3 & N4 & N5) (M1 & M2 & M3 & M4 & M5) E. rewrite !default_lines_eq in E. cbn [app] in E. injection E as E0 E.
  assert (T : forall k x, In x (l_cache k ++ l_workers k ++ l_lookup k ++ l_props k) -> first x <> Some "A"%char).
  { intros k x H. repeat (apply in_app_or in H; destruct H as [H|H]);
    [rewrite (f_cache _ _ H) | rewrite (f_workers _ _ H) | rewrite (f_lookup _ _ H) | destruct (f_props _ _ H) as [-> | ->]]; discriminate. }
  apply (take_line "A"%char) in E as [E1 E]; [|apply f_act | apply f_act | apply T | apply T]. clear T.
  assert (T : forall k x, In x (l_workers k ++ l_lookup k ++ l_props k) -> first x <> Some "C"%char).
  { intros k x H. repeat (apply in_app_or in H; destruct H as [H|H]);
    [rewrite (f_workers _ _ H) | rewrite (f_lookup _ _ H) | destruct (f_props _ _ H) as [-> | ->]]; discriminate. }
  apply (take_line "C"%char) in E as [E2 E]; [|apply f_cache | apply f_cache | apply T | apply T]. clear T.
  assert (T : forall k x, In x (l_lookup k ++ l_props k) -> first x <> Some "P"%char).
  { intros k x H. apply in_app_or in H as [H|H]; [rewrite (f_lookup _ _ H) | destruct (f_props _ _ H) as [-> | ->]]; discriminate. }
  apply (take_line "P"%char) in E as [E3 E]; [|apply f_workers | apply f_workers | apply T | apply T]. clear T.
  assert (T : forall k x, In x (l_props k) -> first x <> Some "L"%char).
  { intros k x H. destruct (f_props _ _ H) as [-> | ->]; discriminate. }
  apply (take_line "L"%char) in E as [E4 E5]; [|apply f_lookup | apply f_lookup | apply T | apply T]. clear T.
  unfold same_metadata.
  assert (A0 : n_card n = n_card m /\ n_cost n = n_cost m).
  { apply (comma_split _ _ (str " Estimated Cost=" ++ n_cost n) (str " Estimated Cost=" ++ n_cost m) N1 M1) in E0 as [-> E0].
    split; [reflexivity|]. apply app_inv_head in E0. exact E0. }
  destruct A0 as [-> ->]. split; [reflexivity|]. split; [reflexivity|].
  assert (A1 : n_analyze n = n_analyze m).
  { unfold l_act in E1. destruct (n_analyze n) as [[c t]|], (n_analyze m) as [[c' t']|]; try discriminate; [|reflexivity].
    injection E1 as E1.
    apply (comma_split c c' (str " Actual Time=" ++ t ++ str "s") (str " Actual Time=" ++ t' ++ str "s") (N2 _ _ eq_refl) (M2 _ _ eq_refl)) in E1 as [-> E1].
    apply app_inv_head in E1. apply app_inv_tail in E1. congruence. }
  split; [exact A1|].
  assert (NN : no_comma (str "nan")) by (cbn; intros F; repeat destruct F as [F|F]; try discriminate; exact F).
  assert (A2 : cache_info n = cache_info m).
  { assert (W : forall h h' x x', no_comma h -> no_comma h' ->
      [str "Cache Hits=" ++ h ++ str ", Cache Misses=" ++ x] = [str "Cache Hits=" ++ h' ++ str ", Cache Misses=" ++ x'] -> Some (h, x) = Some (h', x')).
    { intros h h' x x' H H' W. injection W as W.
      apply (comma_split h h' (str " Cache Misses=" ++ x) (str " Cache Misses=" ++ x') H H') in W as [-> W]. apply app_inv_head in W. congruence. }
    unfold l_cache in E2. unfold cache_info. cbv zeta.
    destruct (n_hits n), (n_misses n), (n_hits m), (n_misses m); try discriminate; try reflexivity;
    apply W; try exact E2; try exact NN; (apply N3; reflexivity) || (apply M3; reflexivity). }
  split; [exact A2|].
  assert (A3 : n_workers n = n_workers m).
  { unfold l_workers in E3. destruct (n_workers n), (n_workers m); try discriminate; [|reflexivity]. injection E3 as E3. congruence. }
  split; [exact A3|].
  assert (A4 : n_lookup n = n_lookup m).
  { unfold l_lookup in E4. destruct (n_lookup n), (n_lookup m); try discriminate; [|reflexivity]. injection E4 as E4. congruence. }
  split; [exact A4|].
  assert (SJ : forall ks ks', ks <> [] -> ks' <> [] -> (forall k, In k ks -> no_comma k) -> (forall k, In k ks' -> no_comma k) ->
    str "Sort Keys=" ++ join (str ", ") ks = str "Sort Keys=" ++ join (str ", ") ks' -> ks = ks').
  { intros ks ks' K K' J J' F. apply app_inv_head in F. exact (join_comma_inj ks ks' J J' K K' F). }
  unfold l_props in E5. destruct (n_index n) as [i|] eqn:I1, (n_index m) as [j|] eqn:I2, (n_sort n) as [|k ks] eqn:S1, (n_sort m) as [|k' ks'] eqn:S2;
    cbn [app] in E5; try discriminate; try (split; reflexivity).
  - injection E5 as E5. split; congruence.
  - exfalso. injection E5 as E5. symmetry in E5. exact (comma_no _ _ _ (N4 _ eq_refl) E5).
  - exfalso. injection E5 as E5. exact (comma_no _ _ _ (M4 _ eq_refl) E5).
  - injection E5 as E5.
    apply (comma_split i j (" "%char :: str "Sort Keys=" ++ join (str ", ") (k :: ks)) (" "%char :: str "Sort Keys=" ++ join (str ", ") (k' :: ks'))
      (N4 _ eq_refl) (M4 _ eq_refl)) in E5 as [-> E5]. split; [reflexivity|]. injection E5 as E5.
    apply SJ; try discriminate; try assumption. f_equal. exact E5.
  - split; [reflexivity|]. injection E5 as E5. apply SJ; try discriminate; try assumption. f_equal. exact E5.
Qed.
