(** Lemmas about the MySQL backend. *)
From Coq Require Import List Bool Arith ZArith String Ascii Permutation Lia.
From Verif Require Import PyBase FSet Hint_model Card_model QPlan_model QPlan_spec JT_model Lim_model PGHint_spec QConv_model Duck_proofs My_model My_spec.
Import ListNotations.
Open Scope list_scope.
Open Scope nat_scope.

Section JsInd.
  Context {num : Type} (P : js num -> Prop).
  Context (HO : forall l, (forall k v, In (k, v) l -> P v) -> P (JO l)) (HA : forall l, (forall v, In v l -> P v) -> P (JA l))
          (HS : forall s, P (JS s)) (HN : forall n, P (JN n)) (HB : forall b, P (JB b)) (HU : P JNull).
  Fixpoint js_ind2 (v : js num) : P v :=
    match v with
    | JO l => HO l ((fix go (l : list (string * js num)) : forall k v, In (k, v) l -> P v :=
                       match l with
                       | [] => fun k v (H : False) => match H with end
                       | (k0, v0) :: r => fun k v H => match H with or_introl E => eq_ind v0 P (js_ind2 v0) v (f_equal snd E) | or_intror H' => go r k v H' end
                       end) l)
    | JA l => HA l ((fix go (l : list (js num)) : forall v, In v l -> P v :=
                       match l with
                       | [] => fun v (H : False) => match H with end
                       | v0 :: r => fun v H => match H with or_introl E => eq_ind v0 P (js_ind2 v0) v E | or_intror H' => go r v H' end
                       end) l)
    | JS s => HS s | JN n => HN n | JB b => HB b | JNull => HU
    end.
End JsInd.

Section Attributes.
  Context {num : Type}.
  Notation js := (js num).
  (** ** Attributes *)
  Lemma assoc_none (l : list (string * js)) k : assoc k l = None <-> no_attr l k.
  Proof.
    unfold no_attr. induction l as [|[k' v] r IH]; cbn; [tauto|]. destruct (String.eqb_spec k k') as [<-|N]; [split; [discriminate|intros H; exfalso; apply H; now left]|].
    rewrite IH. split; [intros H [E|E]; [congruence|tauto]|tauto].
  Qed.
  Lemma assoc_attr (l : list (string * js)) k v : assoc k l = Some v <-> attr l k v.
  Proof.
    split.
    - induction l as [|[k' w] r IH]; cbn; [discriminate|]. destruct (String.eqb_spec k k') as [<-|N].
      + intros [= ->]. exists [], r. split; [reflexivity|]. intros [].
      + intros H. destruct (IH H) as (a & b & -> & Ha). exists ((k', w) :: a), b. split; [reflexivity|]. cbn. intros [E|E]; [congruence|tauto].
    - intros (a & b & -> & Ha). induction a as [|[k' w] a IH]; cbn in *; [now rewrite String.eqb_refl|]. destruct (String.eqb_spec k k') as [<-|N]; [tauto|]. apply IH. tauto.
  Qed.
  Lemma assoc_In (l : list (string * js)) k v : assoc k l = Some v -> In (k, v) l.
  Proof. intros H. apply assoc_attr in H as (a & b & -> & _). apply in_or_app. right. now left. Qed.
End Attributes.

Section Plans.
  Context {num : Type} (is0 : num -> bool) (zero one : num) (fl : string -> res num) (add pct : num -> num -> num)
          (tocard : option num -> card) (tocost : option num -> option nat) (fullname alias : nat -> string) (qtabs : option (list nat)).
  Notation js := (js num).
  Notation parse := (parse_next is0 zero one fl add pct fullname alias qtabs).
  Notation cost := (cost_info is0 zero one fl add).
  Notation cards := (card_info is0 zero one fl pct).
  Notation sc_plan := (scan_plan tocard tocost).
  Notation jn_plan := (join_plan tocard tocost).
  Notation sq_plan := (sequence_plan tocard tocost).
  Notation nd_plan := (node_plan tocard tocost).

  (** ** Numbers *)
  Lemma number_ok l k o : number is0 fl False l k o ->
    float_or is0 zero one fl Some None (assoc k l) = Ok o /\ float_or is0 zero one fl (fun x => x) zero (assoc k l) = Ok (match o with Some x => x | None => zero end).
  Proof.
    intros [H|n H Hz|s n H Hs Hf].
    - apply assoc_none in H. rewrite H. auto.
    - apply assoc_attr in H. rewrite H. unfold float_or. cbn [truthy]. destruct (is0 n); [destruct (Hz eq_refl)|]. auto.
    - apply assoc_attr in H. rewrite H. unfold float_or. cbn [truthy]. destruct (String.eqb_spec s ""); [contradiction|]. cbn. rewrite Hf. auto.
  Qed.
  Lemma costs_ok l sc jc : is0 (add zero zero) = true -> costs is0 zero fl add False l sc jc -> cost (JO l) = Ok (sc, jc).
  Proof.
    intros Z. unfold cost_info. cbn [contains rbind].
    intros [H|ci j H R E J|ci r e j s H R E Hre -> Hz J].
    - apply assoc_none in H. now rewrite H.
    - apply assoc_attr in H. rewrite H. cbn [negb sub rbind jget]. rewrite H. cbn [rbind jget].
      rewrite (proj2 (number_ok _ _ _ R)). cbn [rbind]. rewrite (proj2 (number_ok _ _ _ E)). cbn [rbind]. rewrite (proj1 (number_ok _ _ _ J)). cbn [rbind]. now rewrite Z.
    - apply assoc_attr in H. rewrite H. cbn [negb sub rbind jget]. rewrite H. cbn [rbind jget].
      rewrite (proj2 (number_ok _ _ _ R)). cbn [rbind]. rewrite (proj2 (number_ok _ _ _ E)). cbn [rbind]. rewrite (proj1 (number_ok _ _ _ J)). cbn [rbind].
      match goal with |- context [if ?c then _ else _] => destruct c eqn:Q end; [destruct (Hz eq_refl)|reflexivity].
  Qed.
  Lemma rows_ok l s j : rows is0 fl pct False l s j -> cards (JO l) = Ok (s, j).
  Proof.
    intros (f & c & F & C & J & ->). unfold card_info. cbn [jget rbind].
    rewrite (proj1 (number_ok _ _ _ C)). cbn [rbind]. rewrite (proj1 (number_ok _ _ _ F)). cbn [rbind]. rewrite (proj1 (number_ok _ _ _ J)). reflexivity.
  Qed.

  (** ** Finding the operator *)
  Lemma kind_none k : kind_of k = None <-> ~ In k operators.
  Proof.
    unfold kind_of, operators, wrappers. cbn [code].
    repeat match goal with |- context [String.eqb ?a ?b] => destruct (String.eqb_spec a b) as [->|?]; [split; [intros H; discriminate H|intros H; exfalso; apply H; cbn; tauto]|] end.
    cbn. split; [|reflexivity]. intros _ H. repeat (destruct H as [H|H]; [congruence|]). destruct H.
  Qed.
  Lemma kind_wrapper k n : wrapper_code k n -> kind_of k = Some (KWrap n).
  Proof. intros H. unfold wrapper_code in H. cbn in H. repeat (destruct H as [[= <- <-]|H]; [reflexivity|]). destruct H. Qed.
  (** What is done with the operator. *)
  Definition at_operator (kd : kind) (d : js) : res (option (@mnode num)) :=
    if negb (truthy is0 d) then Ok None
    else match kd with
         | KLoop => match d with JA (e :: es) => rbind (parse e) (fun c => link parse c es) | _ => Raise AssertionError end
         | KTable => match d with
                     | JO tl => table_node is0 zero one fl add pct fullname alias qtabs tl (match assoc "materialized_from_subquery" tl with Some x => parse x | None => Ok None end)
                     | _ => Raise AssertionError
                     end
         | KWrap n => match d with
                      | JO bl => match assoc "query_block" bl with
                                 | Some x => wrapper_node is0 zero one fl add pct n x (parse x)
                                 | None => wrapper_node is0 zero one fl add pct n d (parse d)
                                 end
                      | _ => rbind (contains "query_block" d) (fun b => if b then Raise TypeError else wrapper_node is0 zero one fl add pct n d (parse d))
                      end
         end.
  Lemma parse_cons k d r : parse (JO ((k, d) :: r)) = match kind_of k with None => parse (JO r) | Some kd => at_operator kd d end.
  Proof.
    cbn [parse_next]. destruct (kind_of k) as [kd|]; [|reflexivity]. unfold at_operator. destruct (negb (truthy is0 d)); [reflexivity|]. destruct kd; [reflexivity| |].
    - destruct d as [tl| | | | |]; try reflexivity. f_equal. induction tl as [|[k' x] tl IH]; [reflexivity|]. cbn [assoc]. destruct (String.eqb _ k'); [reflexivity|exact IH].
    - destruct d as [bl| | | | |]; try reflexivity. set (whole := JO bl). clearbody whole.
      induction bl as [|[k' x] bl IH]; [reflexivity|]. cbn [assoc]. destruct (String.eqb _ k'); [reflexivity|exact IH].
  Qed.
  Lemma parse_nil : parse (JO []) = Raise ValueError.
  Proof. reflexivity. Qed.
  Lemma parse_sole l k d kd : sole l k d -> kind_of k = Some kd -> parse (JO l) = at_operator kd d.
  Proof.
    intros (a & b & -> & Hk & Ha) K. assert (Ha' : forall k', In k' (map fst a) -> kind_of k' = None) by (intros; apply kind_none, Ha, in_or_app; now left). clear Ha.
    induction a as [|[k' v] a IH]; cbn [app].
    - rewrite parse_cons, K. reflexivity.
    - rewrite parse_cons, (Ha' k'); [|now left]. apply IH. intros; apply Ha'. now right.
  Qed.

  (** ** Tables *)
  Lemma find_some_last {X} (f : X -> bool) l t : find f (rev l) = Some t -> In t l /\ f t = true.
  Proof. intros H. apply find_some in H as [H1 H2]. split; [now apply in_rev|exact H2]. Qed.
  Lemma lookup_sound s tabs t : lookup_table fullname alias s tabs = Ok t -> In t tabs /\ (alias t = s \/ fullname t = s).
  Proof.
    unfold lookup_table. destruct (find _ (rev tabs)) as [u|] eqn:E.
    - intros [= <-]. apply find_some_last in E as [H1 H2]. apply String.eqb_eq in H2. auto.
    - destruct (find (fun t => String.eqb (fullname t) s) (rev tabs)) as [u|] eqn:F; [|discriminate]. intros [= <-]. apply find_some_last in F as [H1 H2]. apply String.eqb_eq in H2. auto.
  Qed.
  (** Identifiers are unique and a table without alias does not share its name. *)
  Definition clear_names (tabs : list nat) : Prop :=
    (forall t u, In t tabs -> In u tabs -> ident fullname alias t = ident fullname alias u -> t = u)
    /\ (forall t, In t tabs -> ident fullname alias t <> ""%string)
    /\ (forall t u, In t tabs -> In u tabs -> alias t = ""%string -> fullname u = fullname t -> u = t).
  Lemma lookup_complete tabs t : clear_names tabs -> In t tabs -> lookup_table fullname alias (ident fullname alias t) tabs = Ok t.
  Proof.
    intros (U & NE & S) Ht. unfold lookup_table. destruct (find _ (rev tabs)) as [u|] eqn:E.
    - apply find_some_last in E as [Hu E]. apply String.eqb_eq in E. f_equal. apply U; auto. unfold ident at 1. destruct (String.eqb_spec (alias u) ""); [|exact E].
      exfalso. apply (NE t Ht). congruence.
    - assert (A : alias t = ""%string).
      { destruct (String.eqb_spec (alias t) "") as [|N]; [assumption|]. exfalso.
        assert (X := find_none _ _ E t (proj1 (in_rev _ _) Ht)). cbn in X. unfold ident in X. destruct (String.eqb_spec (alias t) ""); [contradiction|]. now rewrite String.eqb_refl in X. }
      assert (I : ident fullname alias t = fullname t) by (unfold ident; now rewrite A). rewrite I.
      destruct (find (fun t0 => String.eqb (fullname t0) (fullname t)) (rev tabs)) as [u|] eqn:F.
      + apply find_some_last in F as [Hu F]. apply String.eqb_eq in F. f_equal. now apply S.
      + exfalso. assert (X := find_none _ _ F t (proj1 (in_rev _ _) Ht)). cbn in X. now rewrite String.eqb_refl in X.
  Qed.

  (** ** Table entries *)
  Lemma access_code acc n o : access acc n o -> code acc access_types = Some n /\ scan_oper n = o.
  Proof.
    intros [s H|s H| |]; [| |now split|now split]; cbn in H; repeat (destruct H as [<-|H]; [now split|]); destruct H.
  Qed.
  Lemma joining_code (tl : list (string * js)) n o : joining tl n o -> match assoc "using_join_buffer" tl with None => Ok 4 | Some v => code_of v buffer_types end = Ok n /\ join_oper n = PJoin o.
  Proof.
    intros [H|H|s H Hs|H].
    - apply assoc_none in H. rewrite H. auto.
    - apply assoc_attr in H. rewrite H. auto.
    - apply assoc_attr in H. rewrite H. cbn in Hs. destruct Hs as [<-|[<-|[]]]; auto.
    - apply assoc_attr in H. rewrite H. auto.
  Qed.

  (** ** Where tables come from *)
  Inductive in_mnode : @mnode num -> mdata -> Prop :=
  | im_self d nx s : in_mnode (MN d nx s) d
  | im_next d x s e : in_mnode x e -> in_mnode (MN d (Some x) s) e
  | im_sub d nx x e : in_mnode x e -> in_mnode (MN d nx (Some x)) e.
  Definition origin (v : js) (t : nat) : Prop := exists s tabs, qtabs = Some tabs /\ table_entry v s /\ In t tabs /\ (alias t = s \/ fullname t = s).
  Lemma part_trans (u v w : js) : part_of u v -> part_of v w -> part_of u w.
  Proof. induction 1; intros; [assumption|eapply pa_obj; eauto|eapply pa_arr; eauto]. Qed.
  Lemma origin_part v w t : part_of v w -> origin w t -> origin v t.
  Proof. intros P (s & tabs & Q & (l & tl & E & I & A) & R). exists s, tabs. split; [exact Q|]. split; [|exact R]. exists l, tl. split; [eapply part_trans; eauto|auto]. Qed.
  Definition good (v : js) (n : mnode) : Prop := forall d t, in_mnode n d -> n_table d = Some t -> origin v t.
  Lemma good_part v w n : part_of v w -> good w n -> good v n.
  Proof. intros P G d t I E. eapply origin_part; eauto. Qed.
  Lemma link_good v es : (forall e n, In e es -> parse e = Ok (Some n) -> good v n) -> forall c n, good v c -> link parse (Some c) es = Ok (Some n) -> good v n.
  Proof.
    induction es as [|e es IH]; intros H c n G; cbn [link]; [now intros [= <-]|].
    destruct (parse e) as [[x|]|] eqn:E; cbn [rbind]; [| |discriminate].
    - destruct (link parse (Some x) es) as [[y|]|] eqn:L; cbn [rbind]; [| |discriminate]; intros [= <-].
      + assert (Gy : good v y) by exact (IH (fun e0 n0 He => H e0 n0 (or_intror He)) x y (H e x (or_introl eq_refl) E) L).
        intros d t I. destruct c as [d0 nx s]. cbn [set_next] in I. inversion I; subst; [intros; eapply G; [apply im_self|assumption]|now apply Gy|intros; eapply G; [apply im_sub; eassumption|assumption]].
      + intros d t I. destruct c as [d0 nx s]. cbn [set_next] in I. inversion I; subst; intros; [eapply G; [apply im_self|assumption]|eapply G; [apply im_sub; eassumption|assumption]].
    - destruct es as [|e' es']; cbn [link rbind].
      + intros [= <-]. intros d t I. destruct c as [d0 nx s]. cbn [set_next] in I. inversion I; subst; intros; [eapply G; [apply im_self|assumption]|eapply G; [apply im_sub; eassumption|assumption]].
      + destruct (parse e'); cbn [rbind]; discriminate.
  Qed.
  Lemma wrapper_good v k x n m : (forall n, parse x = Ok (Some n) -> good v n) -> wrapper_node is0 zero one fl add pct k x (parse x) = Ok (Some m) -> n = m -> good v n.
  Proof.
    intros H E ->. unfold wrapper_node in E. destruct (cost x); [|discriminate E]. cbn [rbind] in E. destruct (cards x); [|discriminate E]. cbn [rbind] in E.
    destruct (parse x) as [q|]; [|discriminate E]. cbn [rbind] in E. injection E as <-. intros d t I. inversion I; subst; [discriminate|]. match goal with HI : in_mnode ?y d |- _ => exact (H y eq_refl d t HI) end.
  Qed.
  Lemma operator_good l k kd d n : In (k, d) l -> kind_of k = Some kd -> (forall w m, part_of d w -> parse w = Ok (Some m) -> good (JO l) m) ->
    at_operator kd d = Ok (Some n) -> good (JO l) n.
  Proof.
    intros Hin K IH. unfold at_operator. destruct (negb (truthy is0 d)); [discriminate|]. destruct kd as [| |j].
    - destruct d as [|[|e es]| | | |]; try discriminate. destruct (parse e) as [[c|]|] eqn:E; cbn [rbind]; [| |discriminate].
      + apply link_good.
        * intros e' m He. apply IH. eapply pa_arr; [right; exact He|apply pa_self].
        * eapply IH; [|exact E]. eapply pa_arr; [now left|apply pa_self].
      + destruct es as [|e' es]; cbn [link]; [discriminate|]. destruct (parse e'); cbn [rbind]; discriminate.
    - destruct d as [tl| | | | |]; try discriminate. unfold table_node.
      destruct (match qtabs with None => Ok None | Some _ => _ end) as [tab|] eqn:T; cbn [rbind]; [|discriminate].
      destruct (rbind (sub (JO tl) "access_type") _); cbn [rbind]; [|discriminate]. destruct (match assoc "using_join_buffer" tl with None => _ | Some _ => _ end); cbn [rbind]; [|discriminate].
      destruct (cost (JO tl)); cbn [rbind]; [|discriminate]. destruct (cards (JO tl)); cbn [rbind]; [|discriminate].
      destruct (match assoc "materialized_from_subquery" tl with Some x => parse x | None => Ok None end) as [q|] eqn:Q; cbn [rbind]; [|discriminate]. intros [= <-].
      intros d t I. inversion I; subst.
      + cbn. intros ->. destruct qtabs as [tabs|] eqn:QT; [|discriminate T]. cbn [sub] in T. destruct (assoc "table_name" tl) as [w|] eqn:A; [|discriminate T]. cbn [rbind] in T.
        destruct w as [|?|s| | |]; try discriminate T. cbn [lookup_json] in T. destruct (lookup_table fullname alias s tabs) as [u|] eqn:L; [|discriminate T]. injection T as ->.
        apply lookup_sound in L as [L1 L2]. exists s, tabs. split; [assumption|]. split; [|auto]. exists l, tl. split; [apply pa_self|]. split; [|now apply assoc_attr].
        unfold kind_of in K. destruct (String.eqb_spec k "nested_loop"); [discriminate|]. destruct (String.eqb_spec k "table") as [->|]; [exact Hin|]. destruct (code k wrappers); discriminate.
      + destruct (assoc "materialized_from_subquery" tl) as [w|] eqn:A; [|discriminate]. eapply IH; [|exact Q|assumption]. eapply pa_obj; [apply assoc_In, A|apply pa_self].
    - assert (X : forall x, part_of d x -> forall m, wrapper_node is0 zero one fl add pct j x (parse x) = Ok (Some m) -> good (JO l) m).
      { intros x P m E. eapply wrapper_good; [|exact E|reflexivity]. intros m' E'. eapply IH; eauto. }
      destruct d as [bl| | | | |]; try (cbn [contains rbind]; try discriminate; try (destruct (existsb _ _)); try (destruct (String.index _ _ _)); try discriminate; apply X, pa_self).
      destruct (assoc "query_block" bl) as [x|] eqn:A; [|apply X, pa_self]. apply X. eapply pa_obj; [apply assoc_In, A|apply pa_self].
  Qed.
  Lemma parse_good v : forall w n, part_of v w -> parse w = Ok (Some n) -> good w n.
  Proof.
    induction v as [l IH|l IH|s0|n0|b0|] using js_ind2; intros w n P E.
    - assert (Sub : forall l', (forall k x, In (k, x) l' -> In (k, x) l) -> forall m, parse (JO l') = Ok (Some m) -> good (JO l) m).
      { induction l' as [|[k d] r IHr]; intros Hl m; [rewrite parse_nil; discriminate|]. rewrite parse_cons. destruct (kind_of k) as [kd|] eqn:K; [|apply IHr; intros; apply Hl; now right].
        apply operator_good with (k := k); [apply Hl; now left|exact K|]. intros w' m' P' E'. apply good_part with w'; [eapply pa_obj; [apply Hl; now left|exact P']|].
        eapply IH; [apply Hl; now left|exact P'|exact E']. }
      inversion P; subst; [exact (Sub l (fun k x H => H) n E)|]. eapply IH; eauto.
    - inversion P; subst; [discriminate E|]. eapply IH; eauto.
    - inversion P; subst; discriminate E.
    - inversion P; subst; discriminate E.
    - inversion P; subst; discriminate E.
    - inversion P; subst; discriminate E.
  Qed.
  (** The plan has no other tables than the nodes. *)
  Lemma node_of_inv d ks s m : node_of (Node d ks s) m -> m = Node d ks s \/ exists c, In c ks /\ node_of c m.
  Proof. intros H. inversion H; subst; [now left|right; eauto]. Qed.
  Lemma sequence_in n : forall d, In d (sequence n) -> in_mnode n d.
  Proof.
    revert n. fix IH 1. intros [d0 [x|] s] d; cbn [sequence].
    - intros H. apply in_app_or in H as [H|[<-|[]]]; [apply im_next, IH, H|apply im_self].
    - intros [<-|[]]. apply im_self.
  Qed.
  Lemma sequence_bases l p : sq_plan l = Ok p -> forall m t, node_of p m -> base (data m) = Some t -> exists d, In d l /\ n_table d = Some t.
  Proof.
    revert p. induction l as [|d l IH]; intros p; [discriminate|]. destruct l as [|e l].
    - intros [= <-] m t H B. apply node_of_inv in H as [->|(c & [] & _)]. exists d. split; [now left|exact B].
    - change (sq_plan (d :: e :: l)) with (rmap (jn_plan d) (sq_plan (e :: l))). destruct (sq_plan (e :: l)) as [q|]; [|discriminate]. intros [= <-] m t H B.
      apply node_of_inv in H as [->|(c & [<-|[<-|[]]] & H)]; [discriminate B| |].
      + destruct (IH q eq_refl m t H B) as (x & I & E). exists x. split; [now right|exact E].
      + apply node_of_inv in H as [->|(c & [] & _)]. exists d. split; [now left|exact B].
  Qed.
  Lemma node_bases n : forall p, nd_plan n = Ok p -> forall m t, node_of p m -> base (data m) = Some t -> exists d, in_mnode n d /\ n_table d = Some t.
  Proof.
    revert n. fix IH 1. intros [d nx s] p. cbn [node_plan]. destruct (n_type d) as [k|].
    - destruct s as [q|].
      + destruct (nd_plan q) as [p'|] eqn:E; cbn [rmap rbind]; [|discriminate]. intros [= <-] m t H B. apply node_of_inv in H as [->|(c & [<-|[]] & H)].
        * exists d. split; [apply im_self|exact B].
        * destruct (IH q p' E m t H B) as (x & I & X). exists x. split; [now apply im_sub|exact X].
      + cbn [rbind]. intros [= <-] m t H B. apply node_of_inv in H as [->|(c & [] & _)]. exists d. split; [apply im_self|exact B].
    - destruct nx as [x|].
      + intros E m t H B. destruct (sequence_bases _ _ E m t H B) as (y & I & X). exists y. split; [apply sequence_in; exact I|exact X].
      + intros [= <-] m t H B. apply node_of_inv in H as [->|(c & [] & _)]. exists d. split; [apply im_self|exact B].
  Qed.

  Context (Z0 : is0 (add zero zero) = true) (CN : forall tabs, qtabs = Some tabs -> clear_names tabs).
  Notation scan_of := (scan_of is0 zero fl add pct tocard tocost fullname alias qtabs False).
  Notation join_of := (join_of is0 zero fl add pct tocard tocost False).
  Lemma step_ok v tl p : table_step v tl -> scan_of tl p ->
    exists m, parse v = Ok (Some (MN m None None)) /\ n_type m = None /\ sc_plan m = p /\ (forall a r, join_of tl a p r -> jn_plan m a = r).
  Proof.
    intros (l & -> & HS & Hne & Hm & (jn & jo & HJ)) (acc & n & o & b & s & j & sc & jc & HA & HAc & HB & HC & HR & ->).
    assert (T : truthy is0 (JO tl) = true) by (destruct tl; [congruence|reflexivity]).
    destruct (access_code _ _ _ HAc) as [A1 A2]. destruct (joining_code _ _ _ HJ) as [J1 J2]. apply assoc_attr in HA. apply assoc_none in Hm.
    assert (B : (match qtabs with None => Ok None | Some tabs => rbind (sub (JO tl) "table_name") (fun v => rmap Some (lookup_json fullname alias v tabs)) end) = Ok b).
    { destruct qtabs as [tabs|] eqn:Q.
      - destruct HB as (nm & t & HN & (tabs' & [= <-] & Ht & <-) & ->). apply assoc_attr in HN. cbn [sub]. rewrite HN. cbn [rbind lookup_json]. rewrite (lookup_complete tabs t); auto.
      - now rewrite HB. }
    exists (mkm n jn None b sc jc s j). repeat split.
    - rewrite (parse_sole l "table" (JO tl) KTable HS eq_refl). unfold at_operator. rewrite T. cbn [negb]. rewrite Hm. unfold table_node. rewrite B. cbn [rbind sub]. rewrite HA. cbn [rbind code_of]. rewrite A1. cbn [rbind].
      rewrite J1. cbn [rbind]. rewrite (costs_ok _ _ _ Z0 HC). cbn [rbind]. rewrite (rows_ok _ _ _ HR). reflexivity.
    - unfold scan_plan. cbn. now rewrite A2.
    - intros a r (n' & o' & s' & j' & sc' & jc' & HJ' & HC' & HR' & ->). destruct (joining_code _ _ _ HJ') as [J1' J2']. rewrite J1 in J1'. injection J1' as <-. rewrite J2 in J2'. injection J2' as <-.
      assert (E := costs_ok _ _ _ Z0 HC'). rewrite (costs_ok _ _ _ Z0 HC) in E. injection E as <- <-.
      assert (E := rows_ok _ _ _ HR'). rewrite (rows_ok _ _ _ HR) in E. injection E as <- <-.
      unfold join_plan, scan_plan. cbn. now rewrite J2, A2.
  Qed.
  Fixpoint chain (m : @mdata num) (ms : list mdata) : mnode := MN m (match ms with [] => None | x :: r => Some (chain x r) end) None.
  Definition gives (e : js) (m : mdata) : Prop := parse e = Ok (Some (MN m None None)) /\ n_type m = None.
  Lemma link_chain es ms : Forall2 gives es ms -> forall m, link parse (Some (MN m None None)) es = Ok (Some (chain m ms)).
  Proof.
    induction 1 as [|e x es ms [E _] F IH]; intros m; [reflexivity|]. cbn [link]. rewrite E. cbn [rbind]. rewrite IH. reflexivity.
  Qed.
  Lemma sequence_chain ms : forall m, sequence (chain m ms) = rev (m :: ms).
  Proof. induction ms as [|x r IH]; intros m; [reflexivity|]. cbn [chain sequence]. rewrite IH. reflexivity. Qed.
  Lemma sequence_snoc m ms x : sq_plan (rev (m :: ms ++ [x])) = rmap (jn_plan x) (sq_plan (rev (m :: ms))).
  Proof.
    change (m :: ms ++ [x]) with ((m :: ms) ++ [x]). rewrite rev_app_distr. cbn [rev app]. destruct (rev ms ++ [m]) as [|y l] eqn:E; [destruct (rev ms); discriminate E|]. reflexivity.
  Qed.
  Lemma joined_ok es p : joined is0 zero fl add pct tocard tocost fullname alias qtabs False es p ->
    exists m ms, Forall2 gives es (m :: ms) /\ sq_plan (rev (m :: ms)) = Ok p.
  Proof.
    induction 1 as [e tl p St Sc|es e tl p q r J (m & ms & F & E) St Sc Jo].
    - destruct (step_ok e tl p St Sc) as (m & P1 & P2 & P3 & _). exists m, []. split; [repeat constructor; auto|]. cbn. now rewrite P3.
    - destruct (step_ok e tl q St Sc) as (x & P1 & P2 & P3 & P4). exists m, (ms ++ [x]). split.
      + change (m :: ms ++ [x]) with ((m :: ms) ++ [x]). apply Forall2_app; [exact F|]. repeat constructor; auto.
      + rewrite sequence_snoc, E. cbn. now rewrite (P4 _ _ Jo).
  Qed.
  Lemma doc_ok v p : doc_plan is0 zero fl add pct tocard tocost fullname alias qtabs False v p -> exists n, parse v = Ok (Some n) /\ nd_plan n = Ok p.
  Proof.
    induction 1 as [v tl p St Sc|l es p S J|l k n bl b sc jc s j p S W B C R D (x & P1 & P2)].
    - destruct (step_ok v tl p St Sc) as (m & P1 & P2 & P3 & _). exists (MN m None None). split; [exact P1|]. cbn. now rewrite P2, P3.
    - destruct (joined_ok es p J) as (m & ms & F & E). exists (chain m ms). inversion F as [|e x es' ms' [G1 G2] F']. subst. split.
      + rewrite (parse_sole l _ _ KLoop S eq_refl). unfold at_operator. cbn [truthy List.length Nat.eqb negb]. rewrite G1. cbn [rbind]. now apply link_chain.
      + destruct ms as [|y ms]; cbn [chain node_plan]; rewrite G2; [exact E|]. rewrite <- E. f_equal. apply (sequence_chain (y :: ms) m).
    - exists (MN (mkm 8 8 (Some n) None sc jc s j) None (Some x)). split.
      + rewrite (parse_sole l _ _ _ S (kind_wrapper _ _ W)). unfold at_operator.
        assert (X : forall w, w = JO b -> wrapper_node is0 zero one fl add pct n w (parse w) = Ok (Some (MN (mkm 8 8 (Some n) None sc jc s j) None (Some x)))).
        { intros w ->. unfold wrapper_node. rewrite (costs_ok _ _ _ Z0 C). cbn [rbind]. rewrite (rows_ok _ _ _ R). cbn [rbind]. rewrite P1. reflexivity. }
        destruct B as [b A|A Hne].
        * assert (T : truthy is0 (JO bl) = true) by (destruct bl; [destruct A as ([|] & ? & ? & _); discriminate|reflexivity]). rewrite T. cbn [negb]. apply assoc_attr in A. rewrite A. now apply X.
        * assert (T : truthy is0 (JO bl) = true) by (destruct bl; [congruence|reflexivity]). rewrite T. cbn [negb]. apply assoc_none in A. rewrite A. now apply X.
      + cbn. rewrite P2. reflexivity.
  Qed.
End Plans.

(** ** Join orders of documents *)
Section Order.
  Context {num : Type} (is0 : num -> bool) (zero : num) (fl : string -> res num) (add pct : num -> num -> num)
          (tocard : option num -> card) (tocost : option num -> option nat) (fullname alias : nat -> string) (tabs : list nat) (zok : Prop).
  Notation js := (js num).
  Notation doc_plan := (doc_plan is0 zero fl add pct tocard tocost fullname alias (Some tabs) zok).
  Notation joined := (joined is0 zero fl add pct tocard tocost fullname alias (Some tabs) zok).
  Notation scan_of := (scan_of is0 zero fl add pct tocard tocost fullname alias (Some tabs) zok).

  Lemma attr_unique (l : list (string * js)) k v w : attr l k v -> attr l k w -> v = w.
  Proof. intros H1 H2. apply assoc_attr in H1. apply assoc_attr in H2. congruence. Qed.
  Lemma attr_no (l : list (string * js)) k v : attr l k v -> no_attr l k -> False.
  Proof. intros H1 H2. apply assoc_attr in H1. apply assoc_none in H2. congruence. Qed.
  Lemma sole_unique (l : list (string * js)) k d k' d' : sole l k d -> sole l k' d' -> k = k' /\ d = d'.
  Proof.
    intros (a & b & -> & Hk & Ha) (a' & b' & E & Hk' & Ha').
    assert (I : In (k', d') (a ++ (k, d) :: b)) by (rewrite E; apply in_or_app; right; now left).
    apply in_app_or in I as [I|[[= <- <-]|I]]; [|now split|]; exfalso; apply (Ha k'); auto; apply in_or_app; [left|right]; now apply (in_map fst) in I.
  Qed.
  Lemma step_unique (v : js) tl tl' : table_step v tl -> table_step v tl' -> tl = tl'.
  Proof. intros (l & -> & S & _) (l' & [= <-] & S' & _). destruct (sole_unique _ _ _ _ _ S S') as [_ [= ->]]. reflexivity. Qed.
  Lemma wrapper_not_loop k n : wrapper_code k n -> k <> "nested_loop"%string /\ k <> "table"%string.
  Proof. unfold wrapper_code. intros H. cbn in H. repeat (destruct H as [[= <- <-]|H]; [now split|]). destruct H. Qed.
  Lemma reads_unique (v : js) tls tls' : reads v tls -> reads v tls' -> tls = tls'.
  Proof.
    intros H. revert tls'. induction H as [v tl S|l es tls S F|l k n bl b tls S W B R IH]; intros tls' H'.
    - destruct H' as [v tl' S'|l es tls' S' F'|l k n bl b tls' S' W B R].
      + now rewrite (step_unique _ _ _ S S').
      + destruct S as (l0 & [= <-] & S & _). destruct (sole_unique _ _ _ _ _ S S') as [E _]. discriminate E.
      + destruct S as (l0 & [= <-] & S & _). destruct (sole_unique _ _ _ _ _ S S') as [E _]. now destruct (proj2 (wrapper_not_loop _ _ W)).
    - inversion H' as [v tl' S'|l' es' tls0 S' F'|l' k n bl b tls0 S' W B R]; subst.
      + destruct S' as (l0 & [= <-] & S' & _). destruct (sole_unique _ _ _ _ _ S S') as [E _]. discriminate E.
      + destruct (sole_unique _ _ _ _ _ S S') as [_ [= <-]]. clear S S' H'. revert tls' F'. induction F as [|e tl es tls St F IH]; intros tls' F'; inversion F'; subst; [reflexivity|].
        f_equal; [eapply step_unique; eauto|auto].
      + destruct (sole_unique _ _ _ _ _ S S') as [E _]. now destruct (proj1 (wrapper_not_loop _ _ W)).
    - inversion H' as [v tl' S'|l' es' tls0 S' F'|l' k' n' bl' b' tls0 S' W' B' R']; subst.
      + destruct S' as (l0 & [= <-] & S' & _). destruct (sole_unique _ _ _ _ _ S S') as [E _]. now destruct (proj2 (wrapper_not_loop _ _ W)).
      + destruct (sole_unique _ _ _ _ _ S S') as [E _]. now destruct (proj1 (wrapper_not_loop _ _ W)).
      + destruct (sole_unique _ _ _ _ _ S S') as [_ [= <-]]. apply IH. assert (X : b = b'); [|now rewrite X].
        destruct B as [b A|A _], B' as [b' A'|A' _]; [now injection (attr_unique _ _ _ _ A A') as ->|destruct (attr_no _ _ _ A A')|destruct (attr_no _ _ _ A' A)|reflexivity].
  Qed.
  Definition read_as (tl : list (string * js)) (t : nat) : Prop := In t tabs /\ attr tl "table_name" (JS (ident fullname alias t)).
  Definition not_const (tl : list (string * js)) : Prop := forall s, attr tl "access_type" (JS s) -> ~ In s ["system"; "const"]%string.
  Lemma scan_tree src tl p : scan_of tl p -> not_const tl -> exists t c, read_as tl t /\ tree_from src p = Ok (JScan false t c).
  Proof.
    intros (acc & n & o & b & s & j & sc & jc & HA & HAc & HB & HC & HR & ->) NC. destruct HB as (nm & t & HN & (tabs' & [= <-] & Ht & <-) & ->). exists t.
    destruct HAc as [acc H|acc H| |]; [destruct (NC acc HA H)| | |]; eexists; (split; [now split|reflexivity]).
  Qed.
  Lemma joined_tree src es p : joined es p -> exists tls, Forall2 table_step es tls /\ (Forall not_const tls -> exists ts t, Forall2 read_as tls ts /\ tree_from src p = Ok t /\ one_by_one ts t).
  Proof.
    induction 1 as [e tl p St Sc|es e tl p q r J (tls & F & IH) St Sc (n & o & s & j & sc & jc & HJ & HC & HR & ->)].
    - exists [tl]. split; [constructor; [exact St|constructor]|]. intros NC. inversion NC; subst. destruct (scan_tree src tl p Sc) as (t & c & R & E); [assumption|].
      exists [t]. eexists. split; [constructor; [exact R|constructor]|]. split; [exact E|]. constructor.
    - exists (tls ++ [tl]). split; [apply Forall2_app; [exact F|constructor; [exact St|constructor]]|]. intros NC. apply Forall_app in NC as [NC1 NC2]. destruct (IH NC1) as (ts & t & R & E & O). inversion NC2; subst.
      destruct (scan_tree src tl q Sc) as (u & c & R' & E'); [assumption|]. exists (ts ++ [u]). eexists. split; [apply Forall2_app; [exact R|constructor; [exact R'|constructor]]|].
      split; [cbn; rewrite E, E'; cbn; reflexivity|]. now constructor.
  Qed.
  Lemma doc_tree src v p : doc_plan v p -> exists tls, reads v tls /\ (Forall not_const tls -> exists ts t, Forall2 read_as tls ts /\ tree_from src p = Ok t /\ one_by_one ts t).
  Proof.
    induction 1 as [v tl p St Sc|l es p S J|l k n bl b sc jc s j p S W B C R D (tls & IH1 & IH2)].
    - exists [tl]. split; [now constructor|]. intros NC. inversion NC; subst. destruct (scan_tree src tl p Sc) as (t & c & R & E); [assumption|].
      exists [t]. eexists. split; [constructor; [exact R|constructor]|]. split; [exact E|]. constructor.
    - destruct (joined_tree src es p J) as (tls & F & H). exists tls. split; [eapply rd_loop; eauto|exact H].
    - exists tls. split; [eapply rd_wrap; eauto|]. exact IH2.
  Qed.
End Order.
Lemma one_nonempty {A} ts (t : jt nat A) : one_by_one ts t -> ts <> [].
Proof. intros [|]; [discriminate|]. intros E. now destruct (app_eq_nil _ _ E). Qed.
Lemma one_tables {A} ts (t : jt nat A) : one_by_one ts t -> jt_itertables t = ts /\ jt_tables t <> [] /\ jt_empty t = false.
Proof.
  induction 1 as [g t a|g h ts t o a b H (IH1 & IH2 & IH3)]; [now repeat split|]. cbn. rewrite IH1. split; [reflexivity|]. split; [|reflexivity].
  destruct (jt_tables o) as [|x l]; [congruence|]. intros E. assert (I : In x (dedup (x :: l ++ [t]))) by (apply dedup_In; now left). cbn [app] in E. rewrite E in I. destruct I.
Qed.

Open Scope string_scope.
Lemma op_kw_spec o kw : op_kw o = Some kw <-> mysql_keyword o kw.
Proof.
  split; [|intros []; reflexivity].
  destruct o as [[|[|[|[|n]]]]|[|[|n]]|n]; cbn; intros [= <-] || discriminate; constructor.
Qed.
Lemma rmapM_forall2 {X Y} (f : X -> res Y) l r : rmapM f l = Ok r -> Forall2 (fun x y => f x = Ok y) l r.
Proof.
  revert r. induction l as [|x l IH]; intros r; cbn; [intros [= <-]; constructor|]. destruct (f x) eqn:E; cbn; [|discriminate]. destruct (rmapM f l); cbn; [|discriminate]. intros [= <-]. constructor; auto.
Qed.
Lemma forall2_imp {X Y} (P Q : X -> Y -> Prop) l m : (forall x y, P x y -> Q x y) -> Forall2 P l m -> Forall2 Q l m.
Proof. intros H. induction 1; constructor; auto. Qed.
Lemma f2_left {X Y} (P : X -> Y -> Prop) l m : Forall2 P l m -> forall x, In x l -> exists y, In y m /\ P x y.
Proof. induction 1 as [|x y l m H F IH]; intros z []; [subst; exists y; split; [now left|assumption]|]. destruct (IH z) as (w & I & E); [assumption|]. exists w. split; [now right|assumption]. Qed.
Lemma f2_right {X Y} (P : X -> Y -> Prop) l m : Forall2 P l m -> forall y, In y m -> exists x, In x l /\ P x y.
Proof. induction 1 as [|x y l m H F IH]; intros z []; [subst; exists x; split; [now left|assumption]|]. destruct (IH z) as (w & I & E); [assumption|]. exists w. split; [now right|assumption]. Qed.
Lemma f2_length {X Y} (P : X -> Y -> Prop) l m : Forall2 P l m -> List.length l = List.length m.
Proof. induction 1; cbn; congruence. Qed.

(** ** Hints *)
Section Hints.
  Context {A C V : Type} (name : nat -> string) (iter : list nat -> list nat) (set_name : nat -> string) (set_value : V -> string).
  Notation tree := (jt nat A).
  Open Scope string_scope.
  (** Each operator has its line. *)
  Definition answers (R : string -> Prop) (l : string) : Prop := R l.
  Definition scan_request (e : nat * sassign) (l : string) : Prop := exists kw, mysql_keyword (PScan (sa_op (snd e))) kw /\ l = "  " ++ kw ++ "(" ++ name (fst e) ++ ")".
  Definition join_request (e : fs * jassign) (l : string) : Prop :=
    exists kw s, mysql_keyword (PJoin (ja_op (snd e))) kw /\ names_of name (fst e) s /\ l = "  " ++ kw ++ "(" ++ s ++ ")".
  Context (Hit : forall l, Permutation (iter l) l).
  Lemma op_lines_ok p ls : op_lines name iter (Some p) = Ok ls -> exists hs hj, ls = (hs ++ hj)%list /\ Forall2 scan_request (scans p) hs /\ Forall2 join_request (joins p) hj.
  Proof.
    unfold op_lines. destruct (negb (ops_bool p)) eqn:B.
    - intros [= <-]. exists [], []. unfold ops_bool in B. destruct (glob p), (joins p), (scans p), (inters p); try discriminate B. repeat split; constructor.
    - destruct (rmapM _ (scans p)) as [hs|] eqn:ES; cbn [rbind]; [|discriminate]. destruct (rmapM _ (joins p)) as [hj|] eqn:EJ; cbn [rbind]; [|discriminate]. intros [= <-].
      exists hs, hj. split; [reflexivity|]. apply rmapM_forall2 in ES. apply rmapM_forall2 in EJ. split.
      + eapply forall2_imp; [|exact ES]. intros [t a] l E. cbn [fst snd] in *. unfold scan_request. cbn [fst snd]. destruct (op_kw (PScan (sa_op a))) as [kw|] eqn:K; [|discriminate E]. injection E as <-. exists kw. split; [now apply op_kw_spec|reflexivity].
      + eapply forall2_imp; [|exact EJ]. intros [ts a] l E. cbn [fst snd] in *. unfold join_request. cbn [fst snd]. destruct (op_kw (PJoin (ja_op a))) as [kw|] eqn:K; [|discriminate E]. injection E as <-. exists kw. eexists. split; [now apply op_kw_spec|]. split; [|reflexivity].
        exists (iter ts). split; [apply Hit|reflexivity].
  Qed.
  Lemma op_lines_nonempty p ls l : op_lines name iter (Some p) = Ok ls -> In l ls -> l <> "".
  Proof.
    intros E Hin. destruct (op_lines_ok _ _ E) as (hs & hj & -> & F1 & F2). apply in_app_or in Hin as [Hin|Hin].
    - clear F2 E. induction F1 as [|e x es xs (kw & _ & ->) F IH]; [destruct Hin|]. destruct Hin as [<-|Hin]; [discriminate|auto].
    - clear F1 E. induction F2 as [|e x es xs (kw & s & _ & _ & ->) F IH]; [destruct Hin|]. destruct Hin as [<-|Hin]; [discriminate|auto].
  Qed.
  Lemma prep_ok ops (pp : option (@pparams C V)) prep : prep_lines set_name set_value ops pp = Ok prep -> set_first set_name set_value ops pp prep.
  Proof.
    unfold prep_lines. intros E.
    assert (P2 : forall l : dict nat V, Forall2 (fun e s => s = "SET " ++ set_name (fst e) ++ "=" ++ set_value (snd e) ++ ";") l (map (fun e => "SET " ++ set_name (fst e) ++ "=" ++ set_value (snd e) ++ ";") l))
      by (induction l; constructor; auto).
    destruct ops as [p|].
    - destruct (negb (ops_bool p)) eqn:B.
      + injection E as <-. unfold ops_bool in B. destruct (glob p) eqn:G; [|discriminate B]. refine (@sf_intro C V set_name set_value _ pp [] _ _ _); [now rewrite G|]. destruct pp; [apply P2|reflexivity].
      + destruct (rmapM _ (glob p)) as [l|] eqn:G; cbn [rmap rbind] in E; [|discriminate]. injection E as <-. apply rmapM_forall2 in G. constructor; [|destruct pp; [apply P2|reflexivity]].
        destruct (glob p) as [|g gs]; [now inversion G|]. exists l. destruct l as [|x xs]; [inversion G|]. split; [|reflexivity].
        eapply forall2_imp; [|exact G]. intros [o b] s. cbn. destruct o as [[|n]|[|[|n]]|n]; cbn; try discriminate. intros [= <-]. auto.
    - injection E as <-. refine (@sf_intro C V set_name set_value _ pp [] _ _ _); [reflexivity|]. destruct pp; [apply P2|reflexivity].
  Qed.
  Lemma concat_app sep l m : l <> [] -> m <> [] -> String.concat sep (l ++ m)%list = String.concat sep l ++ sep ++ String.concat sep m.
  Proof.
    assert (S : forall a b c : string, (a ++ b) ++ c = a ++ (b ++ c)) by (induction a; cbn; congruence).
    induction l as [|x [|y l] IH]; intros Hl Hm; [congruence| |].
    - destruct m as [|z m]; [congruence|]. reflexivity.
    - change (String.concat sep ((x :: y :: l) ++ m)%list) with (x ++ sep ++ String.concat sep ((y :: l) ++ m)%list). rewrite IH by congruence.
      change (String.concat sep (x :: y :: l)) with (x ++ sep ++ String.concat sep (y :: l)). now rewrite !S.
  Qed.
  Lemma concat_empty sep l : (forall x, In x l -> x <> "") -> String.concat sep l = "" -> l = [].
  Proof. destruct l as [|x [|y l]]; intros H E; [reflexivity| |]; exfalso; apply (H x (or_introl eq_refl)); cbn in E; destruct x; try reflexivity; discriminate E. Qed.
  Definition the_order (jo : option tree) : list string :=
    match jo with Some t => if jt_empty t then [] else ["  JOIN_ORDER(" ++ String.concat ", " (map name (jt_itertables t)) ++ ")"] | None => [] end.
  Lemma parts_ok jo ops (pp : option (@pparams C V)) r : hint_parts name iter set_name set_value None jo ops pp = Ok r ->
    exists ls, op_lines name iter ops = Ok ls /\ exists prep, set_first set_name set_value ops pp prep
    /\ r = match (the_order jo ++ ls)%list with [] => None | lines => Some (String.concat newline prep, block_of lines) end.
  Proof.
    unfold hint_parts. destruct (match jo with Some t => _ | None => _ end); cbn [rbind]; [|discriminate].
    destruct (op_lines name iter ops) as [ls|] eqn:L; cbn [rbind]; [|discriminate]. destruct (prep_lines set_name set_value ops pp) as [prep|] eqn:P; cbn [rbind]; [|discriminate].
    intros E. exists ls. split; [reflexivity|]. exists prep. split; [now apply prep_ok|].
    assert (NE : forall l, In l ls -> l <> "") by (destruct ops; [intros; eapply op_lines_nonempty; eauto|injection L as <-; intros l []]).
    assert (Q : order_hint name jo = String.concat newline (the_order jo) /\ (the_order jo = [] \/ exists o, the_order jo = [o] /\ o <> "")).
    { unfold order_hint, the_order. destruct jo as [t|]; [|auto]. destruct (jt_empty t); [auto|]. split; [reflexivity|]. right. eexists. split; [reflexivity|discriminate]. }
    destruct Q as [Q1 Q2]. rewrite Q1 in E. destruct Q2 as [Q2|(o & Q2 & Q3)]; rewrite Q2 in *.
    - cbn [String.concat String.eqb app andb] in *. destruct ls as [|l ls]; [injection E as <-; reflexivity|].
      assert (X : String.eqb (String.concat PGHint_model.nl (l :: ls)) "" = false) by (apply String.eqb_neq; intros X; apply concat_empty in X; [discriminate|exact NE]).
      rewrite X in E. cbn [filter negb String.eqb] in E. rewrite X in E. cbn [negb] in E. injection E as <-. reflexivity.
    - cbn [String.concat app] in *. assert (Y : String.eqb o "" = false) by now apply String.eqb_neq. rewrite Y in E. cbn [andb filter negb] in E. rewrite Y in E. cbn [negb] in E.
      destruct ls as [|l ls]; [injection E as <-; reflexivity|].
      assert (X : String.eqb (String.concat PGHint_model.nl (l :: ls)) "" = false) by (apply String.eqb_neq; intros X; apply concat_empty in X; [discriminate|exact NE]).
      rewrite X in E. cbn [negb] in E. injection E as <-. reflexivity.
  Qed.
End Hints.
