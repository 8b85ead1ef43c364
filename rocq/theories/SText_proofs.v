(** The grammar is unambiguous, and printing followed by reading. *)
From Coq Require Import List Bool Arith Lia.
From Verif Require Import PyBase Src_model SText_model SText_spec.
Import ListNotations.
Set Implicit Arguments.

(** ** Joins: a machine that follows each derivation *)
Inductive item := ITree (s : jsrc) | IJoin (j : jtype) | ILP.
Definition complete (s : jsrc) (st : list item) : list item :=
  match st with
  | IJoin j :: ITree l :: st' => if auto_join j then ITree (JJoin l s None j) :: st' else ITree s :: st
  | _ => ITree s :: st
  end.
Fixpoint jrun (ts : list jtok) (st : list item) : option jsrc :=
  match ts with
  | [] => match st with [ITree s] => Some s | _ => None end
  | TLeaf d n :: ts => jrun ts (complete (JLeaf d n) st)
  | TJoin j :: ts => jrun ts (IJoin j :: st)
  | TL :: ts => jrun ts (ILP :: st)
  | TR :: ts => match st with ITree s :: ILP :: st => jrun ts (complete s st) | _ => None end
  | TOn c :: ts => match st with ITree r :: IJoin j :: ITree l :: st => if auto_join j then None else jrun ts (ITree (JJoin l r (Some c) j) :: st) | _ => None end
  end.
Definition fresh (st : list item) : Prop := match st with IJoin j :: ITree _ :: _ => auto_join j = false | _ => True end.
Lemma complete_fresh s st : fresh st -> complete s st = ITree s :: st.
Proof. destruct st as [|[t|j|] [|[u|k|] st]]; cbn; try reflexivity. intros ->. reflexivity. Qed.
Lemma jrun_derives :
  (forall ts s, j_prim ts s -> forall rest st, jrun (ts ++ rest) st = jrun rest (complete s st)) /\
  (forall ts s, j_ref ts s -> forall rest st, fresh st -> jrun (ts ++ rest) st = jrun rest (ITree s :: st)).
Proof.
  apply j_mut.
  - reflexivity.
  - intros ts s _ IH rest st. rewrite <- !app_assoc. cbn [app jrun]. rewrite IH by exact I. reflexivity.
  - intros ts s _ IH rest st F. rewrite IH, complete_fresh by exact F. reflexivity.
  - intros ts l us r j A _ IH1 _ IH2 rest st F. rewrite <- !app_assoc. cbn [app]. rewrite IH1 by exact F. cbn [jrun]. rewrite IH2. cbn [complete]. rewrite A. reflexivity.
  - intros ts l us r j c A _ IH1 _ IH2 rest st F. rewrite <- !app_assoc. cbn [app]. rewrite IH1 by exact F. cbn [jrun]. rewrite IH2 by exact A. cbn [app jrun]. rewrite A. reflexivity.
Qed.
Lemma jrun_ref ts s : j_ref ts s -> jrun ts [] = Some s.
Proof. intro H. rewrite <- (app_nil_r ts). rewrite (proj2 jrun_derives _ _ H [] [] I). reflexivity. Qed.
Lemma join_unique ts s s' : j_ref ts s -> j_ref ts s' -> s' = s.
Proof. intros H H'. apply jrun_ref in H. apply jrun_ref in H'. congruence. Qed.
Lemma reads_join_ref ts s : j_ref ts s -> reads_join ts s.
Proof. intros H s'. split; [intro H'; exact (join_unique H H')|intros ->; exact H]. Qed.
Lemma no_join ts : jrun ts [] = None -> forall s, ~ j_ref ts s.
Proof. intros E s H. apply jrun_ref in H. congruence. Qed.

Lemma cond_auto (c : option nat) j : (c = None <-> auto_join j = true) -> (c = None /\ auto_join j = true) \/ exists k, c = Some k /\ auto_join j = false.
Proof. intro H. destruct (auto_join j); [left; split; [now apply H|reflexivity]|right]. destruct c as [k|]; [eauto|]. destruct H as [H _]. discriminate (H eq_refl). Qed.
Lemma str_join_ref s : sql_join s -> flat_auto (fun _ => false) s -> j_ref (str_join s) s.
Proof.
  induction s as [d n|l IHl r IHr c j]; cbn [sql_join flat_auto str_join]; intros H F; [repeat constructor|].
  destruct H as (Hl & Hr & Hc). destruct F as (Fl & Fr & Fj). destruct (@cond_auto _ _ Hc) as [[-> A]|(k & -> & A)]; rewrite A.
  - apply jr_auto; auto. destruct r as [d n|]; [constructor|]. discriminate (Fj A eq_refl).
  - apply jr_on; auto.
Qed.
Lemma quick_join_ref s : sql_join s -> flat_auto direct s -> j_ref (quick_join s) s.
Proof.
  induction s as [d n|l IHl r IHr c j]; cbn [sql_join flat_auto]; intros H F; [repeat constructor|].
  destruct H as (Hl & Hr & Hc). destruct F as (Fl & Fr & Fj). specialize (IHl Hl Fl). specialize (IHr Hr Fr).
  assert (P : j_prim ([TL] ++ quick_join r ++ [TR]) r) by (constructor; exact IHr).
  assert (G : (direct l && is_join r = false /\ quick_join (JJoin l r c j) = quick_join l ++ [TJoin j] ++ quick_join r ++ on_ c) \/
              quick_join (JJoin l r c j) = quick_join l ++ [TJoin j] ++ ([TL] ++ quick_join r ++ [TR]) ++ on_ c).
  { destruct l as [[] a|]; destruct r as [[] b|r1 r2 rc rj]; try (left; split; reflexivity). right.
    change (quick_join (JJoin (JLeaf true a) (JJoin r1 r2 rc rj) c j)) with ([TLeaf true a; TJoin j; TL] ++ quick_join (JJoin r1 r2 rc rj) ++ [TR] ++ on_ c).
    generalize (quick_join (JJoin r1 r2 rc rj)). intros ts. cbn [app quick_join]. now rewrite <- app_assoc. }
  destruct (@cond_auto _ _ Hc) as [[-> A]|(k & -> & A)]; destruct G as [[D ->] | ->]; cbn [on_]; rewrite ?app_nil_r.
  - apply jr_auto; auto. destruct r as [d n|]; [constructor|]. rewrite (Fj A eq_refl) in D. discriminate.
  - apply jr_auto; auto.
  - apply jr_on; auto.
  - apply jr_on; auto. constructor. exact P.
Qed.

(** ** Set queries: the same *)
(** The state of one pair of parentheses: WITH, a pending UNION or EXCEPT, a pending INTERSECT, the current operand, ORDER BY / LIMIT *)
Record frame := mkF { f_w : option nat; f_pend : option (setop * sq); f_int : option sq; f_cur : option sq; f_o : option nat }.
Definition empty := mkF None None None None None.
Definition put (q : sq) (F : frame) : option frame :=
  match F with
  | mkF w p (Some l) None None => Some (mkF w p None (Some (SSet Intersect l q None None)) None)
  | mkF w p None None None => Some (mkF w p None (Some q) None)
  | _ => None
  end.
Definition comb (p : option (setop * sq)) (c : sq) : sq := match p with Some (op, l) => SSet op l c None None | None => c end.
Definition attach (w o : option nat) (q : sq) : sq :=
  match q with SLeaf None n None => SLeaf w n o | SSet op l r None None => SSet op l r w o | _ => q end.
Definition close (F : frame) : option sq := match F with mkF w p None (Some c) o => Some (attach w o (comb p c)) | _ => None end.
Definition on_op (op : setop) (F : frame) : option frame :=
  match F with
  | mkF w p None (Some c) None => Some (match op with Intersect => mkF w p (Some c) None None | _ => mkF w (Some (op, comb p c)) None None None end)
  | _ => None
  end.
Fixpoint srun (ts : list piece) (F : frame) (st : list frame) : option sq :=
  match ts with
  | [] => match st with [] => close F | _ => None end
  | PCore n :: ts => match put (SLeaf None n None) F with Some F => srun ts F st | None => None end
  | PL :: ts => srun ts empty (F :: st)
  | PR :: ts => match close F, st with Some q, G :: st => match put q G with Some G => srun ts G st | None => None end | _, _ => None end
  | POp op :: ts => match on_op op F with Some F => srun ts F st | None => None end
  | PWith n :: ts => match F with mkF None None None None None => srun ts (mkF (Some n) None None None None) st | _ => None end
  | PTail n :: ts => match F with mkF w p None (Some c) None => srun ts (mkF w p None (Some c) (Some n)) st | _ => None end
  | _ :: _ => None
  end.
Lemma attach_none q : attach None None q = q.
Proof. destruct q as [[|] n [|]|op l r [|] [|]]; reflexivity. Qed.
Lemma srun_with w ts st : srun (p_with w ++ ts) empty st = srun ts (mkF w None None None None) st.
Proof. destruct w; reflexivity. Qed.
Lemma srun_tail w p c o ts st : srun (p_tail o ++ ts) (mkF w p None (Some c) None) st = srun ts (mkF w p None (Some c) o) st.
Proof. destruct o; reflexivity. Qed.
Lemma srun_derives :
  (forall ts q, s_prim ts q -> forall rest F st, f_cur F = None -> f_o F = None -> srun (ts ++ rest) F st = match put q F with Some F => srun rest F st | None => None end) /\
  (forall ts q, s_inter ts q -> forall rest w p st, srun (ts ++ rest) (mkF w p None None None) st = srun rest (mkF w p None (Some q) None) st) /\
  (forall ts q, s_union ts q -> exists p c, comb p c = q /\ forall rest w st, srun (ts ++ rest) (mkF w None None None None) st = srun rest (mkF w p None (Some c) None) st) /\
  (forall ts q, s_full ts q -> exists F, close F = Some q /\ forall rest st, srun (ts ++ rest) empty st = srun rest F st).
Proof.
  apply s_mut.
  - reflexivity.
  - intros ts q _ (F' & C & IH) rest F st Hc Ho. rewrite <- !app_assoc. cbn [app srun]. rewrite IH. cbn [app srun]. rewrite C. reflexivity.
  - intros ts q _ IH rest w p st. rewrite IH by reflexivity. reflexivity.
  - intros ts l us r _ IH1 _ IH2 rest w p st. rewrite <- !app_assoc. rewrite IH1. cbn [app srun on_op]. rewrite IH2 by reflexivity. reflexivity.
  - intros ts q _ IH. exists None, q. split; [reflexivity|]. intros. apply IH.
  - intros ts l us r op N _ (p & c & E & IH1) _ IH2. exists (Some (op, l)), r. split; [reflexivity|]. intros rest w st. rewrite <- !app_assoc. rewrite IH1. cbn [app srun on_op].
    rewrite E. destruct op; try (elim N; reflexivity); apply IH2.
  - intros w n o. exists (mkF w None None (Some (SLeaf None n None)) o). split; [reflexivity|]. intros rest st. rewrite <- !app_assoc, srun_with. cbn [app srun put]. apply srun_tail.
  - intros w o ts l us r _ IH1 _ IH2. exists (mkF w None None (Some (SSet Intersect l r None None)) o). split; [reflexivity|]. intros rest st.
    rewrite <- !app_assoc, srun_with, IH1. cbn [app srun on_op]. rewrite IH2 by reflexivity. cbn [put]. apply srun_tail.
  - intros w o ts l us r op N _ (p & c & E & IH1) _ IH2. exists (mkF w (Some (op, l)) None (Some r) o). split; [reflexivity|]. intros rest st.
    rewrite <- !app_assoc, srun_with, IH1. cbn [app srun on_op]. rewrite E. destruct op; try (elim N; reflexivity); rewrite IH2; apply srun_tail.
  - intros ts q _ (F & C & IH). exists (mkF None None None (Some q) None). split; [cbn; now rewrite attach_none|]. intros rest st. rewrite <- !app_assoc. cbn [app srun]. rewrite IH. cbn [app srun].
    rewrite C. reflexivity.
Qed.
Lemma srun_full ts q : s_full ts q -> srun ts empty [] = Some q.
Proof. intro H. destruct (proj2 (proj2 (proj2 srun_derives)) _ _ H) as (F & C & E). rewrite <- (app_nil_r ts), E. exact C. Qed.
Lemma set_unique ts q q' : s_full ts q -> s_full ts q' -> q' = q.
Proof. intros H H'. apply srun_full in H. apply srun_full in H'. congruence. Qed.
Lemma lexes_fun ps ts : lexes ps ts -> forall ts', lexes ps ts' -> ts' = ts.
Proof.
  induction 1; intros ts' H'; inversion H'; subst; auto; try congruence.
  f_equal. auto.
Qed.
Lemma reads_full ps ts q : lexes ps ts -> s_full ts q -> reads_set ps q.
Proof. intros L H. exists ts. split; [exact L|]. intro q'. split; [intro H'; exact (set_unique H H')|intros ->; exact H]. Qed.
Lemma unreadable_run ps : (forall ts, lexes ps ts -> srun ts empty [] = None) -> unreadable ps.
Proof. intros H ts q L F. apply srun_full in F. specialize (H ts L). congruence. Qed.

(** *** Blanks *)
Definition words (ps : list piece) : list piece := filter (fun p => match p with PBlank => false | _ => true end) ps.
(** no two words run together *)
Fixpoint spaced (ps : list piece) : bool :=
  match ps with p :: ((p' :: _) as r) => negb (ends_word p && starts_word p') && spaced r | _ => true end.
Lemma blank_dec (p : piece) : {p = PBlank} + {p <> PBlank}.
Proof. destruct p; (left; reflexivity) || (right; discriminate). Qed.
Lemma words_cons p ps : p <> PBlank -> words (p :: ps) = p :: words ps.
Proof. intro H. destruct p; try reflexivity. elim H. reflexivity. Qed.
Lemma spaced_lexes ps : spaced ps = true -> lexes ps (words ps).
Proof.
  induction ps as [|p ps IH]; [constructor|]. intro H.
  destruct (blank_dec p) as [-> |N].
  - cbn [words filter]. constructor. apply IH. destruct ps; [reflexivity|]. exact H.
  - rewrite (words_cons _ N). destruct ps as [|p' ps]; [apply l_last; exact N|]. cbn [spaced] in H. apply andb_true_iff in H. destruct H as [H1 H2].
    apply l_next; [exact N|now apply negb_true_iff|apply IH; exact H2].
Qed.
Lemma lexes_spaced ps ts : lexes ps ts -> spaced ps = true.
Proof.
  induction 1; [reflexivity| |reflexivity|].
  - cbn. destruct ps; auto.
  - cbn [spaced]. rewrite H0. exact IHlexes.
Qed.
Definition starts (ps : list piece) : bool := match ps with p :: _ => starts_word p | [] => false end.
Definition ends (ps : list piece) : bool := match rev ps with p :: _ => ends_word p | [] => false end.
Lemma spaced_app ps qs : spaced (ps ++ qs) = true <-> spaced ps = true /\ spaced qs = true /\ ends ps && starts qs = false.
Proof.
  induction ps as [|p ps IH]; [cbn; tauto|]. destruct ps as [|p' ps].
  - cbn [app]. unfold ends. cbn [rev app]. destruct qs as [|q qs]; [cbn; rewrite andb_false_r; tauto|]. cbn [spaced starts]. rewrite andb_true_iff, negb_true_iff. cbn. tauto.
  - change ((p :: p' :: ps) ++ qs) with (p :: (p' :: ps) ++ qs). change ((p' :: ps) ++ qs) with (p' :: ps ++ qs) in *. cbn [spaced] in *. rewrite !andb_true_iff. rewrite IH.
    assert (E : ends (p :: p' :: ps) = ends (p' :: ps)). { unfold ends. cbn [rev]. rewrite <- app_assoc. cbn [app]. destruct (rev ps); reflexivity. }
    rewrite E. tauto.
Qed.
Lemma words_app a b : words (a ++ b) = words a ++ words b.
Proof. apply filter_app. Qed.
Lemma ends_app a b : b <> [] -> ends (a ++ b) = ends b.
Proof. intro H. unfold ends. rewrite rev_app_distr. destruct (rev b) eqn:E; [|reflexivity]. apply (f_equal (@rev _)) in E. rewrite rev_involutive in E. cbn in E. contradiction. Qed.

Definition s_part (w : option nat) : list piece := match w with Some k => [PWith k; PBlank] | None => [] end.
Definition t_part (o : option nat) : list piece := match o with Some k => [PBlank; PTail k] | None => [] end.
Lemma s_part_spaced w ps : spaced (s_part w ++ ps) = spaced ps.
Proof. destruct w; [|reflexivity]. cbn. destruct ps; reflexivity. Qed.
Lemma t_part_spaced o ps : spaced (ps ++ t_part o) = spaced ps.
Proof.
  destruct (spaced (ps ++ t_part o)) eqn:E.
  - apply spaced_app in E. destruct E as (-> & _). reflexivity.
  - symmetry. apply not_true_is_false. intro H. apply not_true_iff_false in E. apply E. apply spaced_app. split; [exact H|]. destruct o; cbn; rewrite andb_false_r; auto.
Qed.
Lemma quick_spaced q : spaced (quick_set q) = true.
Proof.
  induction q as [w n o|op l IHl r IHr w o]; cbn [quick_set]; fold (s_part w) (t_part o); rewrite s_part_spaced.
  - rewrite t_part_spaced. reflexivity.
  - change ([PL] ++ quick_set l ++ [PR; PBlank; POp op; PBlank; PL] ++ quick_set r ++ [PR] ++ t_part o)
      with (([PL] ++ quick_set l ++ [PR; PBlank; POp op; PBlank; PL] ++ quick_set r ++ [PR] ++ t_part o)).
    rewrite !app_assoc. rewrite t_part_spaced. rewrite <- !app_assoc.
    apply spaced_app. split; [reflexivity|]. split; [|reflexivity].
    apply spaced_app. split; [exact IHl|]. split; [|cbn; apply andb_false_r].
    apply spaced_app. split; [reflexivity|]. split; [|reflexivity].
    apply spaced_app. split; [exact IHr|]. split; [reflexivity|cbn; apply andb_false_r].
Qed.
Lemma words_s w : words (s_part w) = p_with w.
Proof. destruct w; reflexivity. Qed.
Lemma words_t o : words (t_part o) = p_tail o.
Proof. destruct o; reflexivity. Qed.
Lemma words_id ps : (forall p, In p ps -> p <> PBlank) -> words ps = ps.
Proof. induction ps as [|p ps IH]; intro H; [reflexivity|]. rewrite words_cons by (apply H; now left). f_equal. apply IH. intros; apply H; now right. Qed.
Lemma quick_full q : s_full (words (quick_set q)) q.
Proof.
  induction q as [w n o|op l IHl r IHr w o]; cbn [quick_set]; fold (s_part w) (t_part o); rewrite !words_app, words_s, words_t.
  - apply sf_core.
  - assert (E : p_with w ++ words [PL] ++ words (quick_set l) ++ words [PR; PBlank; POp op; PBlank; PL] ++ words (quick_set r) ++ words [PR] ++ p_tail o
      = p_with w ++ (([PL] ++ words (quick_set l) ++ [PR]) ++ [POp op] ++ ([PL] ++ words (quick_set r) ++ [PR])) ++ p_tail o).
    { cbn [words filter app]. repeat (rewrite <- ?app_assoc; cbn [app]). reflexivity. }
    rewrite E. assert (Pl := sp_par IHl). assert (Pr := sp_par IHr). destruct op; try (apply sf_union; [discriminate| |]; repeat constructor; assumption).
    apply sf_inter; [constructor|]; assumption.
Qed.

Lemma str_ends q : match q with SLeaf _ _ _ => True | SSet _ _ _ _ _ => True end -> str_set q <> [].
Proof. intros _. destruct q as [[] n []|op l r [] []]; cbn; try discriminate; destruct (str_set l); discriminate. Qed.
Lemma str_spaced q : left_deep q -> (match q with SLeaf _ _ _ => True | SSet _ _ _ _ o => o = None end) -> spaced (str_set q) = true.
Proof.
  induction q as [w n o|op l IHl r IHr w o]; cbn [str_set left_deep]; fold (s_part w) (t_part o).
  - intros _ _. rewrite s_part_spaced, t_part_spaced. reflexivity.
  - intros (Bl & Br & Dl & Dr & _) ->. cbn [p_tail]. rewrite app_nil_r.
    assert (X : spaced (str_set l ++ [PBlank; POp op; PBlank] ++ str_set r) = true).
    { apply spaced_app. split; [apply IHl; [exact Dl|destruct l; cbn in Bl; tauto]|]. split; [|cbn; apply andb_false_r].
      apply spaced_app. split; [reflexivity|]. split; [|reflexivity]. apply IHr; [exact Dr|destruct r; cbn in Br; tauto]. }
    destruct w; [|exact X]. cbn [p_with app]. apply (spaced_app [PWith n]). split; [reflexivity|]. split; [exact X|]. reflexivity.
Qed.
(** a bare tree as an operand *)
Lemma str_operand q : bare q -> left_deep q ->
  (op_of q = None -> s_prim (words (str_set q)) q) /\ (op_of q = None \/ op_of q = Some Intersect -> s_inter (words (str_set q)) q) /\ s_union (words (str_set q)) q.
Proof.
  induction q as [w n o|op l IHl r IHr w o]; intros B D.
  - cbn in B. destruct B as [-> ->]. cbn. repeat split; repeat constructor.
  - cbn in B. destruct B as [-> ->]. cbn [left_deep] in D. destruct D as (Bl & Br & Dl & Dr & Hi & Hu). specialize (IHl Bl Dl). specialize (IHr Br Dr).
    cbn [str_set p_with p_tail app]. rewrite app_nil_r, !words_app. cbn [words filter app].
    destruct IHl as (Pl & Il & Ul). destruct IHr as (Pr & Ir & Ur). split; [discriminate|].
    assert (X : op = Intersect -> s_inter (words (str_set l) ++ POp op :: words (str_set r)) (SSet op l r None None)).
    { intros ->. destruct (Hi eq_refl) as [Hl Hr]. apply si_op; [apply Il|apply Pr]; assumption. }
    split; [intros [H|H]; [discriminate|]; injection H as ->; apply X; reflexivity|].
    destruct op; try (apply su_op; [discriminate|exact Ul|apply Ir; apply Hu; discriminate]). apply su_inter, X. reflexivity.
Qed.
Lemma str_full q : left_deep q -> s_full (words (str_set q)) q.
Proof.
  destruct q as [w n o|op l r w o]; intro D; cbn [str_set]; fold (s_part w) (t_part o).
  - rewrite !words_app, words_s, words_t. apply sf_core.
  - cbn [left_deep] in D. destruct D as (Bl & Br & Dl & Dr & Hi & Hu). rewrite !words_app. rewrite (words_id (p_with w)), (words_id (p_tail o)); [|destruct o; intros p H; cbn in H; intuition congruence|destruct w; intros p H; cbn in H; intuition congruence].
    change (words [PBlank; POp op; PBlank]) with [POp op].
    destruct (@str_operand _ Bl Dl) as (Pl & Il & Ul). destruct (@str_operand _ Br Dr) as (Pr & Ir & Ur).
    destruct op; try (apply sf_union; [discriminate|exact Ul|apply Ir; apply Hu; discriminate]).
    destruct (Hi eq_refl) as [Hl Hr]. apply sf_inter; [apply Il|apply Pr]; assumption.
Qed.
