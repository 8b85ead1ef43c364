(** Lemmas for C245: reading what has been written and the lengths of JSON texts. *)
From Coq Require Import String Ascii List Bool Arith Lia.
From Verif Require Import PyBase BLog_model BLog_spec.
Import ListNotations.
Open Scope string_scope.
Open Scope list_scope.
Open Scope char_scope.

Section Ind.
  Variable Q : json -> Prop.
  Hypothesis HNull : Q JNull.
  Hypothesis HBool : forall b, Q (JBool b).
  Hypothesis HNum : forall t, Q (JNum t).
  Hypothesis HStr : forall s, Q (JStr s).
  Hypothesis HArr : forall l, Forall Q l -> Q (JArr l).
  Hypothesis HObj : forall l, Forall (fun kv : text * json => Q (snd kv)) l -> Q (JObj l).
  Fixpoint json_rect' (v : json) : Q v :=
    match v with
    | JNull => HNull | JBool b => HBool b | JNum t => HNum t | JStr s => HStr s
    | JArr l => HArr l ((fix go l := match l return Forall Q l with [] => Forall_nil _ | x :: r => Forall_cons _ (json_rect' x) (go r) end) l)
    | JObj l => HObj l ((fix go l := match l return Forall (fun kv : text * json => Q (snd kv)) l with [] => Forall_nil _ | x :: r => Forall_cons _ (json_rect' (snd x)) (go r) end) l)
    end.
End Ind.

Lemma lsum_cons a l : list_sum (a :: l) = a + list_sum l. Proof. reflexivity. Qed.
(** ** Blanks *)
Definition ws (t : text) : Prop := Forall (fun c => is_ws c = true) t.
Lemma skip_ws u t : ws u -> skip (u ++ t) = skip t.
Proof. induction 1 as [|c u Hc Hu IH]; [reflexivity|]. cbn. rewrite Hc. exact IH. Qed.
Lemma ws_brk i lvl : ws (brk i lvl).
Proof. destruct i; [|constructor]. cbn. constructor; [reflexivity|]. induction (n * lvl); constructor; [reflexivity|assumption]. Qed.
Lemma expect_ws u c t : ws u -> expect c (u ++ t) = expect c t.
Proof. intros H. unfold expect. rewrite skip_ws by exact H. reflexivity. Qed.
Lemma expect_hit c t : is_ws c = false -> expect c (c :: t) = Some t.
Proof. intros H. unfold expect. cbn. rewrite H, Ascii.eqb_refl. reflexivity. Qed.
Lemma expect_miss c d t : is_ws d = false -> Ascii.eqb d c = false -> expect c (d :: t) = None.
Proof. intros H E. unfold expect. cbn. rewrite H, E. reflexivity. Qed.

(** ** Strings *)
Lemma pstr_bs d t : pstr (bslash :: d :: t) = match pstr t with Some (s, t') => Some ((if Ascii.eqb d "n" then nl else d) :: s, t') | None => None end.
Proof. reflexivity. Qed.
Lemma pstr_esc s rest : pstr (esc s ++ quote :: rest) = Some (s, rest).
Proof.
  induction s as [|c s IH]; [reflexivity|]. cbn [esc flat_map]. rewrite <- app_assoc. fold (esc s). unfold esc1.
  destruct (Ascii.eqb c quote) eqn:E1; [apply Ascii.eqb_eq in E1; subst; cbn [app]; rewrite pstr_bs, IH; reflexivity|].
  destruct (Ascii.eqb c bslash) eqn:E2; [apply Ascii.eqb_eq in E2; subst; cbn [app]; rewrite pstr_bs, IH; reflexivity|].
  destruct (Ascii.eqb c nl) eqn:E3; [apply Ascii.eqb_eq in E3; subst; cbn [app]; rewrite pstr_bs, IH; reflexivity|].
  cbn [app pstr]. rewrite E1, E2, IH. reflexivity.
Qed.
Lemma pstr_dstr s rest : exists t, dstr s ++ rest = quote :: t /\ pstr t = Some (s, rest).
Proof. exists (esc s ++ quote :: rest). split; [unfold dstr; cbn; rewrite <- app_assoc; reflexivity|apply pstr_esc]. Qed.

(** ** Numbers *)
Definition num_end (t : text) : Prop := match t with c :: _ => is_num c = false | [] => True end.
Lemma span_num_app d rest : Forall (fun c => is_num c = true) d -> num_end rest -> span_num (d ++ rest) = (d, rest).
Proof.
  intros H E. induction H as [|c d Hc Hd IH]; cbn [app].
  - destruct rest as [|c r]; [reflexivity|]. cbn [num_end span_num] in *. rewrite E. reflexivity.
  - cbn [span_num]. rewrite Hc, IH. reflexivity.
Qed.
Lemma num_facts c : is_num c = true -> is_ws c = false /\ Ascii.eqb c quote = false /\ Ascii.eqb c "[" = false /\ Ascii.eqb c "{" = false /\ Ascii.eqb "n" c = false /\ Ascii.eqb "t" c = false /\ Ascii.eqb "f" c = false.
Proof.
  unfold is_num. cbn [str list_ascii_of_string existsb]. rewrite !orb_true_iff. intros H.
  repeat match goal with H : _ \/ _ |- _ => destruct H as [H|H] end; try discriminate; apply Ascii.eqb_eq in H; subst; repeat split.
Qed.

(** ** Reading what has been written *)
Fixpoint wt (v : json) : nat :=
  match v with
  | JArr l => S (list_sum (map (fun x => S (wt x)) l))
  | JObj l => S (list_sum (map (fun kv : text * json => match kv with (_, x) => S (wt x) end) l))
  | _ => 1
  end.
Definition RT (v : json) : Prop := wf v -> forall n i lvl rest u, wt v <= n -> ws u -> num_end rest -> pval n (u ++ dump i lvl v ++ rest) = Some (v, rest).

Lemma num_end_ws i lvl t : num_end t -> num_end (brk i lvl ++ t).
Proof. intros H. destruct i; [reflexivity|exact H]. Qed.
Lemma join_cons s x l : l <> [] -> join s (x :: l) = x ++ s ++ join s l.
Proof. destruct l; [congruence|reflexivity]. Qed.
Lemma parr_dump i lvl l : l <> [] -> Forall RT l -> Forall wf l -> forall n u rest lvl', list_sum (map (fun x => S (wt x)) l) <= n -> ws u ->
  parr n (u ++ join (sep i lvl) (map (dump i lvl) l) ++ brk i lvl' ++ "]" :: rest) = Some (l, rest).
Proof.
  intros N H W. induction H as [|v l Hv Hl IH]; [congruence|]. intros n u rest lvl' Hn Hu. inversion W as [|? ? Wv Wl]; subst.
  destruct n as [|n]; [cbn in Hn; lia|]. cbn [map] in Hn. change (list_sum (S (wt v) :: map (fun x => S (wt x)) l)) with (S (wt v) + list_sum (map (fun x => S (wt x)) l)) in Hn.
  cbn [parr]. destruct l as [|v' l].
  - cbn [map join]. rewrite Hv; [|exact Wv|cbn in Hn; lia|exact Hu|apply num_end_ws; reflexivity]. rewrite (expect_ws _ _ _ (ws_brk i lvl')). rewrite expect_hit by reflexivity. reflexivity.
  - cbn [map]. rewrite join_cons by discriminate. rewrite <- !app_assoc.
    assert (E : exists b, sep i lvl = "," :: b /\ ws b) by (destruct i; [exists (brk (Some n0) lvl); split; [reflexivity|apply ws_brk]|exists [" "]; split; [reflexivity|repeat constructor]]). destruct E as (b & E & Hb). rewrite E.
    rewrite Hv; [|exact Wv|cbn in Hn; lia|exact Hu|reflexivity]. cbn [app]. rewrite expect_miss by reflexivity. rewrite expect_hit by reflexivity. rewrite <- E.
    change (dump i lvl v' :: map (dump i lvl) l) with (map (dump i lvl) (v' :: l)). rewrite IH; [reflexivity|discriminate|exact Wl|lia|exact Hb].
Qed.
Definition ditem i lvl (kv : text * json) : text := match kv with (k, x) => dstr k ++ [":"; " "] ++ dump i lvl x end.
Lemma pobj_dump i lvl l : l <> [] -> Forall (fun kv => RT (snd kv)) l -> Forall (fun kv => wf (snd kv)) l -> forall n u rest lvl', list_sum (map (fun kv : text * json => match kv with (_, x) => S (wt x) end) l) <= n -> ws u ->
  pobj n (u ++ join (sep i lvl) (map (ditem i lvl) l) ++ brk i lvl' ++ "}" :: rest) = Some (l, rest).
Proof.
  intros N H W. induction H as [|[k v] l Hv Hl IH]; [congruence|]. intros n u rest lvl' Hn Hu. inversion W as [|? ? Wv Wl]; subst. cbn [snd] in *.
  destruct n as [|n]; [cbn in Hn; lia|]. cbn [map] in Hn.
  match type of Hn with list_sum (?a :: ?b) <= _ => change (list_sum (a :: b)) with (a + list_sum b) in Hn end.
  cbn [pobj]. rewrite (expect_ws _ _ _ Hu).
  assert (E1 : forall t, exists t', ditem i lvl (k, v) ++ t = quote :: t' /\ pstr t' = Some (k, [":"; " "] ++ dump i lvl v ++ t)).
  { intros t. unfold ditem. destruct (pstr_dstr k ([":"; " "] ++ dump i lvl v ++ t)) as (t' & A & B). exists t'. split; [|exact B]. rewrite <- A. rewrite <- !app_assoc. reflexivity. }
  destruct l as [|kv l].
  - cbn [map join]. destruct (E1 (brk i lvl' ++ "}" :: rest)) as (t' & A & B). rewrite A. rewrite expect_hit by reflexivity. rewrite B. cbn [app]. rewrite expect_hit by reflexivity.
    change (" " :: dump i lvl v ++ brk i lvl' ++ "}" :: rest) with ([" "] ++ dump i lvl v ++ brk i lvl' ++ "}" :: rest).
    rewrite Hv; [|exact Wv|cbn in Hn; lia|repeat constructor|apply num_end_ws; reflexivity]. rewrite (expect_ws _ _ _ (ws_brk i lvl')). rewrite expect_hit by reflexivity. reflexivity.
  - cbn [map]. rewrite join_cons by discriminate. rewrite <- !app_assoc.
    assert (E : exists b, sep i lvl = "," :: b /\ ws b) by (destruct i; [exists (brk (Some n0) lvl); split; [reflexivity|apply ws_brk]|exists [" "]; split; [reflexivity|repeat constructor]]). destruct E as (b & E & Hb). rewrite E.
    match goal with |- context [expect quote (ditem i lvl (k, v) ++ ?t)] => destruct (E1 t) as (t' & A & B) end. rewrite A. rewrite expect_hit by reflexivity. rewrite B. cbn [app]. rewrite expect_hit by reflexivity.
    match goal with |- context [pval n (" " :: ?t)] => change (" " :: t) with ([" "] ++ t) end.
    rewrite Hv; [|exact Wv|cbn in Hn; lia|repeat constructor|reflexivity]. rewrite expect_miss by reflexivity. rewrite expect_hit by reflexivity. rewrite <- E.
    change (ditem i lvl kv :: map (ditem i lvl) l) with (map (ditem i lvl) (kv :: l)). rewrite IH; [reflexivity|discriminate|exact Wl|lia|exact Hb].
Qed.
Lemma first_dump i lvl v rest : wf v -> exists c r, dump i lvl v ++ rest = c :: r /\ is_ws c = false /\ Ascii.eqb c "]" = false /\ Ascii.eqb c "}" = false.
Proof.
  intros W. destruct v; try (cbn; eauto 6; fail).
  - destruct b; cbn; eauto 6.
  - inversion W as [| |? N F| | |]; subst. destruct t as [|c t]; [congruence|]. inversion F as [|? ? Hc _]; subst. cbn [dump app]. exists c, (t ++ rest). destruct (num_facts c Hc) as (A & _).
    repeat split; auto; destruct (Ascii.eqb c _) eqn:E; auto; apply Ascii.eqb_eq in E; subst; discriminate.
  - destruct l; cbn; eauto 6.
  - destruct l; cbn; eauto 6.
Qed.
Lemma round_trip v : RT v.
Proof.
  induction v as [|b|t|s|l IH|l IH] using json_rect'; intros W n i lvl rest u Hn Hu Hr; (destruct n as [|n]; [cbn in Hn; lia|]); cbn [pval]; rewrite (skip_ws _ _ Hu).
  - reflexivity.
  - destruct b; reflexivity.
  - inversion W as [| |? N F| | |]; subst. cbn [dump]. destruct t as [|c t]; [congruence|]. pose proof F as F'. inversion F as [|? ? Hc _]; subst. destruct (num_facts c Hc) as (A1 & A2 & A3 & A4 & A5 & A6 & A7).
    cbn [app skip]. rewrite A1, A2, A3, A4. cbn [str list_ascii_of_string prefix]. rewrite A5, A6, A7.
    change (c :: t ++ rest) with ((c :: t) ++ rest). rewrite (span_num_app (c :: t) rest F' Hr). reflexivity.
  - cbn [dump]. destruct (pstr_dstr s rest) as (t & -> & B). cbn [skip]. change (is_ws quote) with false. cbn iota. rewrite Ascii.eqb_refl, B. reflexivity.
  - destruct l as [|v l]; [reflexivity|]. inversion W; subst.
    change (dump i lvl (JArr (v :: l))) with ("[" :: brk i (S lvl) ++ join (sep i (S lvl)) (map (dump i (S lvl)) (v :: l)) ++ brk i lvl ++ ["]"]).
    cbn [app skip]. change (is_ws "[") with false. cbn iota. change (Ascii.eqb "[" quote) with false. change (Ascii.eqb "[" "[") with true. cbn iota. rewrite <- !app_assoc. cbn [app].
    rewrite (expect_ws _ _ _ (ws_brk i (S lvl))).
    assert (M : forall t, expect "]" (join (sep i (S lvl)) (map (dump i (S lvl)) (v :: l)) ++ t) = None).
    { intros t. inversion H0 as [|? ? Wv _]; subst. destruct l as [|v' l]; cbn [map]; [cbn [join]|rewrite join_cons by discriminate; rewrite <- app_assoc];
        match goal with |- expect _ (dump _ _ _ ++ ?t) = _ => destruct (first_dump i (S lvl) v t Wv) as (c & r & -> & A & B & _) end; apply expect_miss; assumption. }
    rewrite M. rewrite (parr_dump i (S lvl) (v :: l)); [reflexivity|discriminate|exact IH|assumption|cbn in Hn |- *; lia|apply ws_brk].
  - destruct l as [|[k v] l]; [reflexivity|]. inversion W; subst.
    change (dump i lvl (JObj ((k, v) :: l))) with ("{" :: brk i (S lvl) ++ join (sep i (S lvl)) (map (ditem i (S lvl)) ((k, v) :: l)) ++ brk i lvl ++ ["}"]).
    cbn [app skip]. change (is_ws "{") with false. cbn iota. change (Ascii.eqb "{" quote) with false. change (Ascii.eqb "{" "[") with false. change (Ascii.eqb "{" "{") with true. cbn iota. rewrite <- !app_assoc. cbn [app].
    rewrite (expect_ws _ _ _ (ws_brk i (S lvl))).
    assert (M : forall t, expect "}" (join (sep i (S lvl)) (map (ditem i (S lvl)) ((k, v) :: l)) ++ t) = None).
    { intros t. destruct l as [|v' l]; cbn [map]; [cbn [join]|rewrite join_cons by discriminate; rewrite <- app_assoc]; unfold ditem at 1, dstr; cbn [app]; apply expect_miss; reflexivity. }
    rewrite M. rewrite (pobj_dump i (S lvl) ((k, v) :: l)); [reflexivity|discriminate|exact IH|assumption|cbn in Hn |- *; lia|apply ws_brk].
Qed.

(** ** Lengths *)
Lemma join_length s l : l <> [] -> List.length (join s l) = list_sum (map (@List.length ascii) l) + (List.length l - 1) * List.length s.
Proof.
  induction l as [|x l IH]; [congruence|]. intros _. destruct l as [|y l]; [cbn; lia|]. rewrite join_cons by discriminate. rewrite !app_length, IH by discriminate. cbn [map List.length].
  rewrite ?lsum_cons. cbn [Nat.sub]. rewrite ?Nat.sub_0_r. lia.
Qed.
Definition LN := @List.length ascii.
Lemma dump_arr_length i lvl l : l <> [] -> LN (dump i lvl (JArr l)) = 2 + LN (brk i (S lvl)) + list_sum (map (fun x => LN (dump i (S lvl) x)) l) + (List.length l - 1) * LN (sep i (S lvl)) + LN (brk i lvl).
Proof.
  intros N. unfold LN. destruct l as [|v l]; [congruence|].
  change (dump i lvl (JArr (v :: l))) with ("[" :: brk i (S lvl) ++ join (sep i (S lvl)) (map (dump i (S lvl)) (v :: l)) ++ brk i lvl ++ ["]"]).
  cbn [List.length]. rewrite !app_length, join_length by discriminate. rewrite map_map, map_length. cbn [List.length]. lia.
Qed.
Lemma dump_obj_length i lvl l : l <> [] -> LN (dump i lvl (JObj l)) = 2 + LN (brk i (S lvl)) + list_sum (map (fun kv : text * json => LN (dstr (fst kv)) + 2 + LN (dump i (S lvl) (snd kv))) l) + (List.length l - 1) * LN (sep i (S lvl)) + LN (brk i lvl).
Proof.
  intros N. unfold LN. destruct l as [|v l]; [congruence|].
  assert (E : dump i lvl (JObj (v :: l)) = ("{" :: brk i (S lvl) ++ join (sep i (S lvl)) (map (ditem i (S lvl)) (v :: l)) ++ brk i lvl ++ ["}"])) by (destruct v; reflexivity). rewrite E.
  cbn [List.length]. rewrite !app_length, join_length by discriminate. rewrite map_map, map_length.
  replace (map (fun x => List.length (ditem i (S lvl) x)) (v :: l)) with (map (fun kv : text * json => List.length (dstr (fst kv)) + 2 + List.length (dump i (S lvl) (snd kv))) (v :: l)).
  - cbn [List.length]. lia.
  - apply map_ext. intros [k x]. unfold ditem. rewrite !app_length. cbn [List.length fst snd]. lia.
Qed.
Lemma sum_le {A} (f g : A -> nat) l : Forall (fun x => f x <= g x) l -> list_sum (map f l) <= list_sum (map g l).
Proof. induction 1; [cbn; lia|]. cbn [map]. rewrite ?lsum_cons. lia. Qed.
Lemma compact_shorter v : forall lvl, LN (dump None lvl v) <= LN (dump (Some 2) lvl v).
Proof.
  induction v as [|b|t|s|l IH|l IH] using json_rect'; intros lvl; try (cbn; lia).
  - destruct l as [|x l]; [cbn; lia|]. rewrite !dump_arr_length by discriminate. assert (B0 : forall k, LN (brk None k) = 0) by reflexivity. assert (B1 : LN (sep None (S lvl)) = 2) by reflexivity. assert (B2 : 2 <= LN (sep (Some 2) (S lvl))) by (unfold LN; cbn; lia). rewrite !B0, B1.
    assert (H := sum_le (fun x => LN (dump None (S lvl) x)) (fun x => LN (dump (Some 2) (S lvl) x)) (x :: l)). specialize (H ltac:(eapply Forall_impl; [|exact IH]; intros y Hy; apply Hy)). nia.
  - destruct l as [|x l]; [cbn; lia|]. rewrite !dump_obj_length by discriminate. assert (B0 : forall k, LN (brk None k) = 0) by reflexivity. assert (B1 : LN (sep None (S lvl)) = 2) by reflexivity. assert (B2 : 2 <= LN (sep (Some 2) (S lvl))) by (unfold LN; cbn; lia). rewrite !B0, B1.
    assert (H := sum_le (fun kv : text * json => LN (dstr (fst kv)) + 2 + LN (dump None (S lvl) (snd kv))) (fun kv : text * json => LN (dstr (fst kv)) + 2 + LN (dump (Some 2) (S lvl) (snd kv))) (x :: l)).
    specialize (H ltac:(eapply Forall_impl; [|exact IH]; intros y Hy; cbn beta; specialize (Hy (S lvl)); lia)). nia.
Qed.
Lemma wt_length v : wf v -> forall i lvl, wt v <= LN (dump i lvl v).
Proof.
  induction v as [|b|t|s|l IH|l IH] using json_rect'; intros W i lvl.
  - cbn; lia.
  - destruct b; cbn; lia.
  - inversion W as [| |? N F| | |]; subst. destruct t; [congruence|]. cbn. lia.
  - unfold LN. cbn. lia.
  - inversion W; subst. destruct l as [|x l]; [cbn; lia|]. rewrite dump_arr_length by discriminate. cbn [wt].
    assert (S2 : 2 <= LN (sep i (S lvl))) by (destruct i; unfold LN; cbn; lia).
    assert (X : list_sum (map (fun x => S (wt x)) (x :: l)) <= List.length (x :: l) + list_sum (map (fun x => LN (dump i (S lvl) x)) (x :: l))).
    { revert H0. induction IH as [|y r Hy Hr IHr]; intros W'; [cbn; lia|]. inversion W'; subst. cbn [map List.length]. rewrite ?lsum_cons. specialize (IHr ltac:(constructor; assumption) ltac:(assumption)). specialize (Hy ltac:(assumption) i (S lvl)). lia. }
    cbn [List.length] in *. nia.
  - inversion W; subst. destruct l as [|x l]; [cbn; lia|]. rewrite dump_obj_length by discriminate. cbn [wt].
    assert (S2 : 2 <= LN (sep i (S lvl))) by (destruct i; unfold LN; cbn; lia).
    assert (X : list_sum (map (fun kv : text * json => match kv with (_, x) => S (wt x) end) (x :: l)) <= List.length (x :: l) + list_sum (map (fun kv : text * json => LN (dstr (fst kv)) + 2 + LN (dump i (S lvl) (snd kv))) (x :: l))).
    { revert H0. induction IH as [|[k y] r Hy Hr IHr]; intros W'; [cbn; lia|]. inversion W'; subst. cbn [map List.length fst snd] in *. rewrite ?lsum_cons. specialize (IHr ltac:(constructor; assumption) ltac:(assumption)). specialize (Hy ltac:(assumption) i (S lvl)). lia. }
    cbn [List.length] in *. nia.
Qed.
Lemma load_dump v i : wf v -> load (dump i 0 v) = Ok v.
Proof.
  intros W. unfold load. pose proof (round_trip v W (S (List.length (dump i 0 v))) i 0 [] [] ltac:(pose proof (wt_length v W i 0); unfold LN in *; lia) ltac:(constructor) I) as R.
  cbn [app] in R. rewrite app_nil_r in R. rewrite R. reflexivity.
Qed.
Lemma overwrite_longer old t : List.length old <= List.length t -> overwrite old t = t.
Proof. intros H. unfold overwrite. rewrite skipn_all2 by exact H. apply app_nil_r. Qed.
