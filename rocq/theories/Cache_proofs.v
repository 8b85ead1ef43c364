(** Lemmas about the query cache. *)
From Coq Require Import List Bool Arith ZArith Lia String.
From Verif Require Import PyBase Ident_model Cache_model Cache_spec.
Import ListNotations.

Section ValInd.
  Context (P : val -> Prop) (H0 : P VNull) (H1 : forall b, P (VBool b)) (H2 : forall n, P (VNum n)) (H3 : forall s, P (VStr s)) (H4 : forall k s, P (VTemporal k s)) (H5 : forall u, P (VDelta u))
          (H6 : forall l, Forall P l -> P (VList l)) (H7 : forall d, Forall (fun e => P (snd e)) d -> P (VDict d)) (H8 : forall n, P (VOpaque n)).
  Fixpoint val_ind' (v : val) : P v :=
    match v with
    | VNull => H0 | VBool b => H1 b | VNum n => H2 n | VStr s => H3 s | VTemporal k s => H4 k s | VDelta u => H5 u
    | VList l => H6 l ((fix go l := match l return Forall P l with [] => Forall_nil P | x :: r => Forall_cons x (val_ind' x) (go r) end) l)
    | VDict d => H7 d ((fix go d := match d return Forall (fun e => P (snd e)) d with [] => Forall_nil _ | x :: r => Forall_cons x (val_ind' (snd x)) (go r) end) d)
    | VOpaque n => H8 n
    end.
End ValInd.

Section Iso.
  Context (iso : dkind -> string -> bool).
  Notation clean := (clean iso).
  Notation decode := (decode iso).
  Lemma clean_list l : clean (VList l) <-> Forall clean l.
  Proof. cbn. induction l as [|x l IH]; cbn; [split; constructor|]. rewrite IH. split; [intros [H1 H2]; now constructor|intros H; inversion H; auto]. Qed.
  Lemma clean_dict d : clean (VDict d) <-> (forall k, In k special -> ~ In k (map fst d)) /\ Forall (fun e => clean (snd e)) d.
  Proof. cbn. apply and_iff_compat_l. induction d as [|[k x] d IH]; cbn; [split; constructor|]. rewrite IH. split; [intros [H1 H2]; now constructor|intros H; inversion H; auto]. Qed.
  Lemma mapR_round {A B} (f : A -> res B) (g : B -> res A) l : Forall (fun x => forall j, f x = Ok j -> g j = Ok x) l -> forall js, mapR f l = Ok js -> mapR g js = Ok l.
  Proof.
    induction 1 as [|x l Hx Hl IH]; intros js E; cbn in E; [injection E as <-; reflexivity|]. destruct (f x) as [j|] eqn:Ex; [|discriminate]. cbn in E. destruct (mapR f l) as [js'|]; [|discriminate]. cbn in E. injection E as <-. cbn. rewrite (Hx j eq_refl). cbn. now rewrite (IH js' eq_refl).
  Qed.
  Lemma mapV_round {A B} (f : A -> res B) (g : B -> res A) l : Forall (fun e => forall j, f (snd e) = Ok j -> g j = Ok (snd e)) l -> forall js, mapV f l = Ok js -> mapV g js = Ok l.
  Proof.
    induction 1 as [|[k x] l Hx Hl IH]; intros js E; cbn in E; [injection E as <-; reflexivity|]. cbn in Hx. destruct (f x) as [j|] eqn:Ex; [|discriminate]. cbn in E. destruct (mapV f l) as [js'|]; [|discriminate]. cbn in E. injection E as <-. cbn. rewrite (Hx j eq_refl). cbn. now rewrite (IH js' eq_refl).
  Qed.
  Lemma hook_none d : (forall k, In k special -> ~ In k (map fst d)) -> object_hook iso d = Ok (VDict d).
  Proof.
    intros H. unfold object_hook. assert (G : forall k, In k special -> dget d k = None) by (intros k Hk; apply dget_None; now apply H).
    rewrite (G "$datetime"%string), (G "$date"%string), (G "$time"%string), (G "$timedelta"%string) by (cbn; tauto). reflexivity.
  Qed.
  Lemma round_trip v : clean v -> forall j, encode v = Ok j -> decode j = Ok v.
  Proof.
    induction v as [| | | |k s|us|l IH|d IH|n] using val_ind'; intros Hc j E.
    1-4: cbn in E; injection E as <-; reflexivity.
    - cbn in E. injection E as <-. cbn in *. destruct k; cbn; rewrite Hc; reflexivity.
    - cbn in E. injection E as <-. reflexivity.
    - apply clean_list in Hc. cbn [encode] in E. destruct (mapR encode l) as [js|] eqn:Ej; [|discriminate]. cbn in E. injection E as <-. cbn [Cache_model.decode]. rewrite (mapR_round encode decode l) with (js := js); [reflexivity| |exact Ej]. rewrite Forall_forall in *. intros x Hx. apply IH; auto.
    - apply clean_dict in Hc as [Hk Hc]. cbn [encode] in E. destruct (mapV encode d) as [js|] eqn:Ej; [|discriminate]. cbn in E. injection E as <-. cbn [Cache_model.decode]. rewrite (mapV_round encode decode d) with (js := js); [| |exact Ej]; [cbn; now apply hook_none|]. rewrite Forall_forall in *. intros x Hx. apply IH; auto.
    - discriminate.
  Qed.
  Definition clean_rset (rs : rset) : Prop := forall r, In r rs -> Forall clean (snd r).
  Lemma relist_idem rs : relist (relist rs) = relist rs.
  Proof. unfold relist. rewrite map_map. reflexivity. Qed.
  Lemma clean_relist rs rs' : relist rs = relist rs' -> clean_rset rs -> clean_rset rs'.
  Proof.
    intros E H r Hr. assert (Hin : In (PyList, snd r) (relist rs')) by (apply in_map_iff; exists r; auto). rewrite <- E in Hin. apply in_map_iff in Hin as (r0 & [= E0] & Hr0). rewrite <- E0. now apply H.
  Qed.
  Lemma result_round o j : (forall rs, o = Some rs -> clean_rset rs) -> encode_result o = Ok j -> decode_result iso j = Ok (option_map relist o).
  Proof.
    intros Hc E. destruct o as [rs|]; [|cbn in E; injection E as <-; reflexivity]. specialize (Hc rs eq_refl). cbn in E. destruct (rmapM _ rs) as [js|] eqn:Ej; [|discriminate]. cbn in E. injection E as <-. cbn [decode_result option_map].
    match goal with |- rmap Some ?t = _ => assert (G : t = Ok (relist rs)); [|now rewrite G] end. revert js Ej. induction rs as [|r rs IH]; intros js Ej; cbn in Ej; [injection Ej as <-; reflexivity|].
    destruct (mapR encode (snd r)) as [vs|] eqn:Ev; [|discriminate]. cbn in Ej. destruct (rmapM _ rs) as [js'|]; [|discriminate]. cbn in Ej. injection Ej as <-. cbn. rewrite (mapR_round encode decode (snd r)) with (js := vs); [| |exact Ev].
    - cbn. rewrite (IH (fun r' Hr' => Hc r' (or_intror Hr')) js' eq_refl). reflexivity.
    - rewrite Forall_forall. intros x Hx j'. apply round_trip. specialize (Hc r (or_introl eq_refl)). rewrite Forall_forall in Hc. auto.
  Qed.

  (** ** The cache *)
  Context (db : string -> res (option rset)) (E : option rset -> option rset -> Prop) (Erefl : forall o, E o o).
  Definition cache_ok (s : dbstate) : Prop :=
    forall q o, dget (h_cache s) q = Some o -> (exists r, db q = Ok r /\ E r (deref s o)) /\ (forall a, o = Some a -> a < List.length (h_heap s)).
  Definition file_ok (f : cfile) : Prop := match f with Stored d => forall q j, In (q, j) d -> exists o r, decode_result iso j = Ok o /\ db q = Ok r /\ E r o | _ => True end.
  Definition inv (s : dbstate) : Prop := cache_ok s /\ file_ok (h_file s).
  Lemma deref_app s rs o en f : (forall a, o = Some a -> a < List.length (h_heap s)) -> deref (mkdb (h_heap s ++ rs) (h_cache s) en f) o = deref s o.
  Proof. intros H. destruct o as [a|]; [|reflexivity]. cbn. apply nth_error_app1. now apply H. Qed.
  Lemma grow_ok s rs : cache_ok s -> cache_ok (mkdb (h_heap s ++ rs) (h_cache s) (h_enabled s) (h_file s)).
  Proof.
    intros H q o Hq. destruct (H q o Hq) as [(r & Hr & He) Ha]. split; [exists r; split; [exact Hr|]; now rewrite deref_app|]. intros a Eo. cbn. rewrite app_length. specialize (Ha a Eo). lia.
  Qed.
  Lemma load_ok d : forall heap cache, (forall q j, In (q, j) d -> exists o r, decode_result iso j = Ok o /\ db q = Ok r /\ E r o) -> cache_ok (mkdb heap cache true Missing) ->
    exists heap' cache', load iso d heap cache = Ok (heap', cache') /\ cache_ok (mkdb heap' cache' true Missing) /\ exists ext, heap' = (heap ++ ext)%list.
  Proof.
    induction d as [|[q j] d IH]; intros heap cache Hd Hc.
    - exists heap, cache. cbn. split; [reflexivity|]. split; [exact Hc|]. exists []. now rewrite app_nil_r.
    - destruct (Hd q j (or_introl eq_refl)) as (o & r & Ej & Eq & He). cbn [load]. rewrite Ej. cbn [rbind]. destruct o as [rs|].
      + destruct (IH (heap ++ [rs])%list (dset cache q (Some (List.length heap)))) as (h' & c' & El & Hc' & ext & Eh).
        * intros q' j' Hin. apply Hd. now right.
        * intros q' o' Hq'. cbn [h_cache] in Hq'. rewrite dset_spec in Hq'. destruct (eqd q' q) as [->|Hne].
          -- injection Hq' as <-. split; [|intros a [= <-]; cbn; rewrite app_length; cbn; lia]. exists r. split; [exact Eq|]. cbn. rewrite nth_error_app2 by lia. rewrite Nat.sub_diag. exact He.
          -- apply (grow_ok (mkdb heap cache true Missing) [rs] Hc). exact Hq'.
        * exists h', c'. split; [exact El|]. split; [exact Hc'|]. exists (rs :: ext). rewrite Eh, <- app_assoc. reflexivity.
      + destruct (IH heap (dset cache q None)) as (h' & c' & El & Hc' & Hext).
        * intros q' j' Hin. apply Hd. now right.
        * intros q' o' Hq'. cbn [h_cache] in Hq'. rewrite dset_spec in Hq'. destruct (eqd q' q) as [->|Hne].
          -- injection Hq' as <-. split; [|discriminate]. exists r. auto.
          -- now apply Hc.
        * exists h', c'. auto.
  Qed.
  Lemma inflate_ok s : inv s -> exists s', inflate iso s = Ok s' /\ inv s' /\ (exists ext, h_heap s' = (h_heap s ++ ext)%list) /\ h_file s' = h_file s /\ h_enabled s' = h_enabled s.
  Proof.
    intros [Hc Hf]. unfold inflate. destruct (h_cache s) as [|e c] eqn:Ec.
    - assert (Hsame : exists s', Ok s = Ok s' /\ inv s' /\ (exists ext, h_heap s' = (h_heap s ++ ext)%list) /\ h_file s' = h_file s /\ h_enabled s' = h_enabled s) by (exists s; split; [reflexivity|]; split; [split; assumption|]; split; [exists []; now rewrite app_nil_r|auto]).
      destruct (h_file s) as [| |d] eqn:Ef; [exact Hsame|exact Hsame|]. clear Hsame.
      destruct (load_ok d (h_heap s) [] Hf) as (h' & c' & El & Hc' & Hext); [intros q o Hq; discriminate|]. rewrite El. cbn. eexists. split; [reflexivity|]. split; [|cbn; auto]. split; [|exact Hf].
      intros q o Hq. exact (Hc' q o Hq).
    - exists s. split; [reflexivity|]. split; [split; assumption|]. split; [exists []; now rewrite app_nil_r|auto].
  Qed.
  (** Answers are right up to E. *)
  Definition right_answer (q : string) (raw : bool) (a : res view) : Prop :=
    match db q with Raise e => a = Raise e | Ok r => exists o, E r o /\ a = see raw o end.
  Lemma exec_ok s q flag raw : inv s -> inv (fst (exec iso db s q flag raw)) /\ right_answer q raw (snd (exec iso db s q flag raw)).
  Proof.
    intros Hi. pose proof Hi as [Hc Hf]. unfold exec, right_answer. destruct (if use_cache s flag then dget (h_cache s) q else None) as [o|] eqn:Ec.
    - split; [exact Hi|]. destruct (use_cache s flag); [|discriminate]. destruct (Hc q o Ec) as [(r & Er & He) _]. rewrite Er. cbn. eauto.
    - destruct (db q) as [o|e] eqn:Eq; [|split; [exact Hi|reflexivity]].
      set (s1 := match o with None => s | Some rs => mkdb (h_heap s ++ [rs])%list (h_cache s) (h_enabled s) (h_file s) end).
      assert (Hi1 : inv s1) by (unfold s1; destruct o; [split; [now apply grow_ok|exact Hf]|exact Hi]).
      assert (Hr : forall ext, match o with None => True | Some rs => nth_error (h_heap s1 ++ ext) (List.length (h_heap s1) - 1) = Some rs /\ List.length (h_heap s1) - 1 < List.length (h_heap s1) end).
      { intros ext. destruct o as [rs|]; [|exact Logic.I]. assert (Eh : h_heap s1 = (h_heap s ++ [rs])%list) by reflexivity. rewrite Eh, app_length. change (List.length [rs]) with 1. rewrite Nat.add_sub. split; [|lia]. rewrite <- app_assoc, nth_error_app2, Nat.sub_diag; [reflexivity|lia]. }
      cbv zeta. destruct (use_cache s flag); [|split; [exact Hi1|cbn; eauto]].
      destruct (inflate_ok s1 Hi1) as (s2 & E2 & [Hc2 Hf2] & (ext & Eh) & Ef & Een). rewrite E2. split; [|cbn; eauto]. split; [|exact Hf2]. intros q' o' Hq'. cbn [h_cache fst] in Hq'. rewrite dset_spec in Hq'. destruct (eqd q' q) as [->|Hne].
      + injection Hq' as <-. specialize (Hr ext). destruct o as [rs|].
        * destruct Hr as [Hr Hlt]. split; [|intros a Ha; apply (f_equal (fun x => match x with Some y => y | None => 0 end)) in Ha; cbn [fst h_heap]; rewrite Eh, app_length; lia]. exists (Some rs). split; [exact Eq|]. cbn [deref fst h_heap]. rewrite Eh. rewrite Hr. apply Erefl.
        * split; [|discriminate]. exists None. split; [exact Eq|apply Erefl].
      + exact (Hc2 q' o' Hq').
  Qed.
  Definition right_step (o : cop) (a : option (res view)) : Prop := match o with Exec q _ raw => exists r, a = Some r /\ right_answer q raw r | _ => a = None end.
  Lemma step_ok s o : inv s -> polite o -> inv (fst (step iso db s o)) /\ right_step o (snd (step iso db s o)).
  Proof.
    intros Hi Hp. destruct o as [q flag raw|b| |a rs]; cbn [step]; [| | |easy].
    - pose proof (exec_ok s q flag raw Hi) as [H1 H2]. destruct (exec iso db s q flag raw) as [s' r]. cbn in *. eauto.
    - unfold set_enabled. destruct b; [|split; [exact Hi|reflexivity]]. destruct (inflate_ok s Hi) as (s' & -> & [Hc Hf] & _). cbn. split; [|reflexivity]. split; [exact Hc|exact Hf].
    - cbn. split; [|reflexivity]. split; [intros q o Hq; discriminate|apply Hi].
  Qed.
  Lemma run_ok ops : forall s, inv s -> Forall polite ops -> inv (fst (run iso db s ops)) /\ Forall2 right_step ops (snd (run iso db s ops)).
  Proof.
    induction ops as [|o ops IH]; intros s Hi Hp; [split; [exact Hi|constructor]|]. inversion Hp as [|? ? Ho Hr]; subst. cbn [run]. pose proof (step_ok s o Hi Ho) as [H1 H2]. destruct (step iso db s o) as [s1 a]. cbn in H1, H2. pose proof (IH s1 H1 Hr) as [H3 H4]. destruct (run iso db s1 ops) as [s2 as_]. cbn in *. split; [exact H3|]. constructor; assumption.
  Qed.
  Lemma connect_ok en f : file_ok f -> exists s, connect iso en f = Ok s /\ inv s.
  Proof.
    intros Hf. unfold connect. assert (Hi : inv (mkdb [] [] en f)) by (split; [intros q o Hq; discriminate|exact Hf]). destruct en; [|eauto]. destruct (inflate_ok _ Hi) as (s & Hs & Hi' & _). eauto.
  Qed.
End Iso.

(** Equal up to tuples and lists. *)
Definition similar (a b : option rset) : Prop := option_map relist a = option_map relist b.
Lemma see_similar raw a b : similar a b -> rmap relist_view (see raw a) = rmap relist_view (see raw b).
Proof.
  unfold similar. destruct a as [a|], b as [b|]; cbn; try discriminate; [|reflexivity]. intros [= H]. destruct raw; [unfold see, unsimplified; cbn; now rewrite H|]. unfold see, simplify.
  assert (Hm : rmapM (fun r : vrow => match snd r with v :: _ => Ok v | [] => Raise IndexError end) a = rmapM (fun r : vrow => match snd r with v :: _ => Ok v | [] => Raise IndexError end) b).
  { revert b H. induction a as [|x a IH]; intros [|y b] H; try discriminate; [reflexivity|]. cbn in H. injection H as H1 H2. cbn [rmapM]. rewrite H1, (IH b H2). reflexivity. }
  destruct a as [|[k vs] a], b as [|[k' vs'] b]; try discriminate; [reflexivity|]. pose proof H as H'. cbn in H. injection H as -> H. destruct (Nat.eqb (List.length vs') 1); [now rewrite Hm|]. cbn [rmap rbind]. destruct a as [|x a], b as [|y b]; try discriminate; [reflexivity|]. cbn [relist_view]. f_equal. f_equal. exact H'.
Qed.
Lemma single_column a b : similar a b -> (forall rs, a = Some rs -> forall r, In r rs -> List.length (snd r) = 1) -> see false a = see false b.
Proof.
  unfold similar. destruct a as [a|], b as [b|]; cbn; try discriminate; [|reflexivity]. intros [= H] Hc. specialize (Hc a eq_refl). unfold simplify.
  assert (Hm : rmapM (fun r : vrow => match snd r with v :: _ => Ok v | [] => Raise IndexError end) a = rmapM (fun r : vrow => match snd r with v :: _ => Ok v | [] => Raise IndexError end) b).
  { clear Hc. revert b H. induction a as [|x a IH]; intros [|y b] H; try discriminate; [reflexivity|]. cbn in H. injection H as H1 H2. cbn [rmapM]. rewrite H1, (IH b H2). reflexivity. }
  destruct a as [|[k vs] a], b as [|[k' vs'] b]; try discriminate; [reflexivity|]. cbn in H. injection H as Hv H. specialize (Hc (k, vs) (or_introl eq_refl)). cbn in Hc. subst vs'. rewrite Hc. cbn [Nat.eqb]. now rewrite Hm.
Qed.
Section Store.
  Context (iso : dkind -> string -> bool) (db : string -> res (option rset)).
  Lemma store_ok s : (forall q rs, db q = Ok (Some rs) -> clean_rset iso rs) -> dwf (h_cache s) -> inv iso db similar s -> file_ok iso db similar (store s).
  Proof.
    intros Hclean Hwf [Hc _]. unfold store. destruct (rmapM _ (h_cache s)) as [d|] eqn:Ed; [|exact Logic.I]. cbn.
    assert (Hall : forall q o, In (q, o) (h_cache s) -> exists r, db q = Ok r /\ similar r (deref s o)) by (intros q o Hin; apply (Hc q o); now apply In_dget).
    clear Hwf. revert d Ed. induction (h_cache s) as [|[q o] c IH]; intros d Ed q' j Hin; cbn in Ed; [injection Ed as <-; easy|]. destruct (encode_result (deref s o)) as [j0|] eqn:Ej; [|discriminate]. cbn in Ed. destruct (rmapM _ c) as [d'|] eqn:Ec; [|discriminate]. cbn in Ed. injection Ed as <-. destruct Hin as [[= <- <-]|Hin].
    - destruct (Hall q o (or_introl eq_refl)) as (r & Er & Hs). exists (option_map relist (deref s o)), r. split; [|split; [exact Er|]].
      + apply result_round; [|exact Ej]. intros rs Hrs. unfold similar in Hs. rewrite Hrs in Hs. destruct r as [r|]; [|discriminate]. cbn in Hs. injection Hs as Hs. apply (clean_relist iso r rs Hs). eapply Hclean. exact Er.
      + unfold similar in *. rewrite Hs. destruct (deref s o); cbn; [now rewrite relist_idem|reflexivity].
    - apply (IH (fun q o H => Hall q o (or_intror H)) d' eq_refl q' j Hin).
  Qed.
End Store.
(** The cache remains a proper dictionary. *)
Section Wf.
  Context (iso : dkind -> string -> bool) (db : string -> res (option rset)).
  Lemma load_wf d : forall heap cache h c, dwf cache -> load iso d heap cache = Ok (h, c) -> dwf c.
  Proof.
    induction d as [|[q j] d IH]; intros heap cache h c Hw H; cbn in H; [injection H as <- <-; exact Hw|]. destruct (decode_result iso j) as [[rs|]|]; cbn in H; try discriminate; (eapply IH; [|exact H]; now apply dwf_dset).
  Qed.
  Lemma inflate_wf s s' : dwf (h_cache s) -> inflate iso s = Ok s' -> dwf (h_cache s').
  Proof.
    unfold inflate. intros Hw H. destruct (h_cache s) as [|e c] eqn:Ec; [|injection H as <-; now rewrite Ec]. destruct (h_file s) as [| |d]; try (injection H as <-; now rewrite Ec). destruct (load iso d (h_heap s) []) as [[h c]|] eqn:El; [|discriminate]. cbn in H. injection H as <-. cbn. eapply load_wf; [|exact El]. constructor.
  Qed.
  Lemma step_wf s o : dwf (h_cache s) -> dwf (h_cache (fst (step iso db s o))).
  Proof.
    intros Hw. destruct o as [q flag raw|b| |a rs]; cbn [step]; [| |constructor|exact Hw].
    - unfold exec. destruct (if use_cache s flag then dget (h_cache s) q else None); [exact Hw|]. destruct (db q) as [o|]; [|exact Hw]. set (s1 := match o with None => s | Some rs => _ end). assert (Hw1 : dwf (h_cache s1)) by (unfold s1; destruct o; exact Hw). cbv zeta. destruct (use_cache s flag); [|exact Hw1]. destruct (inflate iso s1) as [s2|] eqn:E2; [|exact Hw1]. cbn. apply dwf_dset. now apply (inflate_wf s1).
    - unfold set_enabled. destruct b; [|exact Hw]. destruct (inflate iso s) as [s'|] eqn:E; [|exact Hw]. cbn. now apply (inflate_wf s).
  Qed.
  Lemma run_wf ops : forall s, dwf (h_cache s) -> dwf (h_cache (fst (run iso db s ops))).
  Proof. induction ops as [|o ops IH]; intros s Hw; [exact Hw|]. cbn [run]. pose proof (step_wf s o Hw) as H1. destruct (step iso db s o) as [s1 a]. cbn in H1. pose proof (IH s1 H1) as H2. destruct (run iso db s1 ops). exact H2. Qed.
  Lemma connect_wf en f s : connect iso en f = Ok s -> dwf (h_cache s).
  Proof. unfold connect. destruct en; intros H; [eapply inflate_wf; [|exact H]; constructor|injection H as <-; constructor]. Qed.
End Wf.
