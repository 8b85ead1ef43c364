(** C51: the query cache is transparent. *)
From Coq Require Import List Bool Arith ZArith Lia String.
From Verif Require Import PyBase Ident_model Cache_model Cache_spec Cache_proofs.
Import ListNotations.

(** C51: without a cache file to start from, all answers are those of the database, for every sequence of calls and switches --
    provided that callers do not modify the results they get. *)
Theorem C51_session_partial : forall iso db enabled f ops, f = Missing \/ f = Corrupt -> Forall polite ops ->
  exists s, connect iso enabled f = Ok s /\ snd (run iso db s ops) = map (answer_of db) ops.
Proof.
  intros iso db enabled f ops Hf Hp. destruct (connect_ok iso db eq enabled f) as (s & Hs & Hi); [destruct Hf as [->| ->]; exact Logic.I|]. exists s. split; [exact Hs|].
  destruct (run_ok iso db eq (fun o => eq_refl) ops s Hi Hp) as [_ H]. clear - H. induction H as [|o a ops as_ Ho H IH]; [reflexivity|]. cbn [map]. f_equal; [|exact IH]. destruct o as [q flag raw|b| |a' rs]; cbn in Ho |- *; try exact Ho.
  destruct Ho as (r & -> & Hr). unfold right_answer in Hr. unfold direct. destruct (db q) as [o|e]; [|now rewrite Hr]. destruct Hr as (o' & <- & ->). unfold see. reflexivity.
Qed.
Print Assumptions C51_session_partial.
(** C51: over several sessions that store and read the cache file, all answers are right up to the difference between tuples and
    lists -- if dates are valid and no result contains a dictionary that looks like an encoded date. *)
Definition similar_answer (a b : option (res view)) : Prop := option_map (rmap relist_view) a = option_map (rmap relist_view) b.
Theorem C51_sessions_partial : forall iso db, (forall q rs, db q = Ok (Some rs) -> forall r, In r rs -> Forall (clean iso) (snd r)) ->
  forall l f, f = Missing \/ f = Corrupt -> Forall (fun x => Forall polite (snd (fst x))) l ->
  Forall2 similar_answer (sessions iso db f l) (flat_map (fun x => map (answer_of db) (snd (fst x))) l).
Proof.
  intros iso db Hclean l f Hf. assert (Hok : file_ok iso db similar f) by (destruct Hf as [->| ->]; exact Logic.I). clear Hf. revert f Hok. induction l as [|[[en ops] stored] l IH]; intros f Hok Hp; [constructor|]. inversion Hp as [|? ? H1 H2]; subst. cbn [fst snd] in H1. cbn [sessions flat_map fst snd].
  destruct (connect_ok iso db similar en f Hok) as (s & Hs & Hi). rewrite Hs. pose proof (run_ok iso db similar (fun o => eq_refl) ops s Hi H1) as [Hi' Ha]. pose proof (run_wf iso db ops s (connect_wf iso en f s Hs)) as Hw. destruct (run iso db s ops) as [s' answers]. cbn [fst snd] in *. apply Forall2_app.
  - clear - Ha. induction Ha as [|o a ops as_ Ho H IH]; [constructor|]. cbn [map]. constructor; [|exact IH]. unfold similar_answer. destruct o as [q flag raw|b| |a' rs]; cbn in Ho |- *; try (rewrite Ho; reflexivity).
    destruct Ho as (r & -> & Hr). unfold right_answer in Hr. unfold direct. destruct (db q) as [o|e]; [|now rewrite Hr]. destruct Hr as (o' & Hsim & ->). cbn [option_map]. f_equal. fold (see raw o). symmetry. now apply see_similar.
  - apply IH; [|exact H2]. destruct stored; [|apply Hi']. now apply store_ok.
Qed.
Print Assumptions C51_sessions_partial.
(** C51: values come back from the file as they were, whenever they can be written at all. *)
Theorem C51_values_partial : forall iso v j, clean iso v -> encode v = Ok j -> decode iso j = Ok v.
Proof. intros iso v j H E. now apply round_trip. Qed.
Print Assumptions C51_values_partial.
(** C51: simplified results with a single column are not affected by the difference between tuples and lists. *)
Theorem C51_single_column : forall a b, option_map relist a = option_map relist b -> (forall rs, a = Some rs -> forall r, In r rs -> List.length (snd r) = 1) -> simplify a = simplify b.
Proof. intros a b. exact (single_column a b). Qed.
Print Assumptions C51_single_column.

Open Scope string_scope.
Definition any_iso (k : dkind) (s : string) : bool := true.
(** A database with a counting query, a query for a row, one for dates and one that fails. *)
Definition demo (q : string) : res (option rset) :=
  if String.eqb q "count" then Ok (Some [(Tuple, [VNum 42])])
  else if String.eqb q "row" then Ok (Some [(Tuple, [VNum 1; VStr "a"])])
  else if String.eqb q "dates" then Ok (Some [(Tuple, [VTemporal KDate "2024-01-01"; VNull]); (Tuple, [VTemporal KDate "2024-01-02"; VDelta 5])])
  else if String.eqb q "set" then Ok None
  else if String.eqb q "sum" then Ok (Some [(Tuple, [VOpaque 7])])
  else if String.eqb q "json" then Ok (Some [(Tuple, [VDict [("$date", VNum 7)]])])
  else Raise OtherError.
Example C51_session_case : snd (run any_iso demo (mkdb [] [] false Missing)
    [Exec "count" (Some true) false; Enable true; Exec "row" None true; Exec "count" None false; Exec "oops" None false; Exec "row" (Some false) false; ResetCache; Exec "set" None false; Exec "set" None false]) =
  [Some (Ok (WVal (VNum 42))); None; Some (Ok (WRows [(Tuple, [VNum 1; VStr "a"])])); Some (Ok (WVal (VNum 42))); Some (Raise OtherError); Some (Ok (WRow (Tuple, [VNum 1; VStr "a"]))); None; Some (Ok (WRows [])); Some (Ok (WRows []))].
Proof. reflexivity. Qed.
Example C51_sessions_case : sessions any_iso demo Missing [(true, [Exec "dates" None false], true); (true, [Exec "dates" None false], true)] =
  [Some (Ok (WRows [(Tuple, [VTemporal KDate "2024-01-01"; VNull]); (Tuple, [VTemporal KDate "2024-01-02"; VDelta 5])])); Some (Ok (WRows [(PyList, [VTemporal KDate "2024-01-01"; VNull]); (PyList, [VTemporal KDate "2024-01-02"; VDelta 5])]))].
Proof. reflexivity. Qed.
(** C51 fails: a row read from the cache file is a list, no longer a tuple. *)
Theorem C51_tuples_refuted : sessions any_iso demo Missing [(true, [Exec "row" None false], true); (true, [Exec "row" None false; Exec "row" (Some false) false], true)] =
  [Some (Ok (WRow (Tuple, [VNum 1; VStr "a"]))); Some (Ok (WRow (PyList, [VNum 1; VStr "a"]))); Some (Ok (WRow (Tuple, [VNum 1; VStr "a"])))].
Proof. reflexivity. Qed.
Print Assumptions C51_tuples_refuted.
(** C51 fails: a caller that modifies a raw result modifies the cache. *)
Theorem C51_aliasing_refuted : snd (run any_iso demo (mkdb [] [] true Missing) [Exec "count" None true; Mutate 0 []; Exec "count" None true; Exec "count" (Some false) true]) =
  [Some (Ok (WRows [(Tuple, [VNum 42])])); None; Some (Ok (WRows [])); Some (Ok (WRows [(Tuple, [VNum 42])]))].
Proof. reflexivity. Qed.
Print Assumptions C51_aliasing_refuted.
(** C51 fails: one result that is not JSON serializable (a Decimal) makes the whole cache unreadable. *)
Theorem C51_opaque_refuted : store (fst (run any_iso demo (mkdb [] [] true Missing) [Exec "count" None false; Exec "sum" None false])) = Corrupt.
Proof. reflexivity. Qed.
Print Assumptions C51_opaque_refuted.
(** C51 fails: a JSON value with a "$date" key makes the database unusable with caching. *)
Theorem C51_hook_refuted : sessions any_iso demo Missing [(true, [Exec "json" None false], true); (true, [Exec "count" None false], false)] = [Some (Ok (WVal (VDict [("$date", VNum 7)]))); Some (Raise TypeError)].
Proof. reflexivity. Qed.
Print Assumptions C51_hook_refuted.
(** C51 fails: with a timeout, a cached result is not simplified. *)
Theorem C51_timeout_refuted : let s := fst (run any_iso demo (mkdb [] [] true Missing) [Exec "count" None false]) in
  snd (exec_timeout demo s "count" (Some true) false) = Ok (WRows [(Tuple, [VNum 42])]) /\ snd (exec_timeout demo s "count" (Some false) false) = Ok (WVal (VNum 42)).
Proof. split; reflexivity. Qed.
Print Assumptions C51_timeout_refuted.

(** C72: what simplification yields, by the shape of the result set. *)
Theorem C72_shapes : forall rows cols (rs : rset), List.length rs = rows -> (forall r : vrow, In r rs -> List.length (snd r) = cols) ->
  match rows, cols with
  | 0, _ => simplify (Some rs) = Ok (WRows [])
  | 1, 1 => exists k v, rs = [(k, [v])] /\ simplify (Some rs) = Ok (WVal v)
  | 1, _ => exists r, rs = [r] /\ simplify (Some rs) = Ok (WRow r)
  | _, 1 => exists vs, map snd rs = map (fun v => [v]) vs /\ simplify (Some rs) = Ok (WVals vs)
  | _, _ => simplify (Some rs) = Ok (WRows rs)
  end.
Proof.
  intros rows cols rs Hr Hc.
  assert (Hcol : cols = 1 -> exists vs, map snd rs = map (fun v => [v]) vs /\ rmapM (fun r : vrow => match snd r with v :: _ => Ok v | [] => Raise IndexError end) rs = Ok vs).
  { intros ->. clear Hr. induction rs as [|[k vs] rs IH]; [exists []; split; reflexivity|]. destruct IH as (l & E1 & E2); [intros r Hin; apply Hc; now right|]. specialize (Hc (k, vs) (or_introl eq_refl)). cbn in Hc. destruct vs as [|v [|]]; try discriminate. exists (v :: l). cbn. rewrite E1. split; [reflexivity|]. cbn in E2. now rewrite E2. }
  destruct rs as [|[k vs] rest]; cbn in Hr; subst rows; [reflexivity|]. pose proof (Hc (k, vs) (or_introl eq_refl)) as Hv. cbn in Hv. unfold simplify. rewrite Hv. destruct (Nat.eqb_spec cols 1) as [->|Hne].
  - destruct (Hcol eq_refl) as (l & E1 & E2). rewrite E2. cbn [rmap rbind]. destruct rest as [|r rest]; cbn [List.length].
    + destruct l as [|v [|]]; try discriminate. cbn in E1. injection E1 as ->. exists k, v. split; reflexivity.
    + exists l. split; [exact E1|]. destruct l as [|v [|]]; try discriminate. reflexivity.
  - destruct rest as [|r rest]; cbn [List.length]; destruct cols as [|[|c]]; try contradiction; try reflexivity; exists (k, vs); split; reflexivity.
Qed.
Print Assumptions C72_shapes.
(** C72: a simplified result still determines the result set, as long as there are no arrays in it. *)
Theorem C72_injective_partial : forall a b : rset, plain a -> plain b -> forall x y, simplify (Some a) = Ok x -> simplify (Some b) = Ok y -> py_view x = py_view y -> a = b.
Proof.
  intros a b (ca & Ha) (cb & Hb) x y Ex Ey E.
  assert (Hval : forall v w, flat v -> flat w -> py_val v = py_val w -> v = w) by (intros v w Hv Hw H; destruct v, w; cbn in *; try contradiction; congruence).
  assert (Hvals : forall l m, Forall flat l -> Forall flat m -> map py_val l = map py_val m -> l = m).
  { induction l as [|v l IH]; intros [|w m] Hl Hm H; cbn in H; try discriminate; [reflexivity|]. injection H as H1 H2. inversion Hl; inversion Hm; subst. f_equal; auto. }
  assert (Hrow : forall r s, fst r = Tuple -> fst s = Tuple -> Forall flat (snd r) -> Forall flat (snd s) -> py_row r = py_row s -> r = s).
  { intros [k r] [k' s]; cbn; intros -> -> H1 H2 H. injection H as H. f_equal. now apply Hvals. }
  assert (Hrows : forall r s, (forall x, In x r -> fst x = Tuple /\ Forall flat (snd x)) -> (forall x, In x s -> fst x = Tuple /\ Forall flat (snd x)) -> map py_row r = map py_row s -> r = s).
  { induction r as [|u r IH]; intros [|v s] Hr Hs H; cbn in H; try discriminate; [reflexivity|]. injection H as H1 H2. f_equal; [|apply IH; auto; intros z Hz; [apply Hr|apply Hs]; now right]. destruct (Hr u (or_introl eq_refl)), (Hs v (or_introl eq_refl)). now apply Hrow. }
  assert (Hfst : forall r s (vs ws : list val), (forall x, In x r -> fst x = Tuple) -> (forall x, In x s -> fst x = Tuple) -> map snd r = map (fun v => [v]) vs -> map snd s = map (fun v => [v]) ws -> vs = ws -> r = s).
  { intros r s vs ws Hr Hs H1 H2 <-. rewrite <- H2 in H1. clear H2. revert s Hs H1. induction r as [|[k u] r IH]; intros [|[k' v] s] Hs H; cbn in H; try discriminate; [reflexivity|]. injection H as H1 H2. specialize (Hr (k, u) (or_introl eq_refl)) as Hk. specialize (Hs (k', v) (or_introl eq_refl)) as Hk'. cbn in Hk, Hk'. subst. f_equal. apply IH; [intros z Hz; apply Hr|intros z Hz; apply Hs|exact H2]; now right. }
  assert (Hflat : forall (r : rset) (vs : list val), (forall x, In x r -> Forall flat (snd x)) -> map snd r = map (fun v => [v]) vs -> Forall flat vs).
  { intros r vs Hr H. apply Forall_forall. intros v Hv. assert (Hin : In [v] (map snd r)) by (rewrite H; apply in_map_iff; eauto). apply in_map_iff in Hin as (z & Hz & Hin). specialize (Hr z Hin). rewrite Hz in Hr. now inversion Hr. }
  pose proof (C72_shapes (List.length a) ca a eq_refl (fun r Hr => proj1 (proj2 (Ha r Hr)))) as Sa. pose proof (C72_shapes (List.length b) cb b eq_refl (fun r Hr => proj1 (proj2 (Hb r Hr)))) as Sb.
  assert (Ta : forall x, In x a -> fst x = Tuple) by (intros z Hz; apply (Ha z Hz)). assert (Tb : forall x, In x b -> fst x = Tuple) by (intros z Hz; apply (Hb z Hz)).
  assert (Fa : forall x, In x a -> Forall flat (snd x)) by (intros z Hz; apply (Ha z Hz)). assert (Fb : forall x, In x b -> Forall flat (snd x)) by (intros z Hz; apply (Hb z Hz)).
  assert (Va : List.length a = 0 /\ x = WRows [] \/ (exists k v, a = [(k, [v])] /\ x = WVal v) \/ (exists r, a = [r] /\ x = WRow r) \/ (2 <= List.length a /\ (exists vs, map snd a = map (fun v => [v]) vs /\ x = WVals vs)) \/ (2 <= List.length a /\ x = WRows a)).
  { rewrite Ex in Sa. destruct (List.length a) as [|[|n]] eqn:El; [left; split; [reflexivity|now injection Sa]| |].
    - right. destruct ca as [|[|c]]; [destruct Sa as (r & E1 & [= ->]); right; left; eauto|destruct Sa as (k & v & E1 & [= ->]); left; eauto|destruct Sa as (r & E1 & [= ->]); right; left; eauto].
    - do 3 right. destruct ca as [|[|c]]; [injection Sa as ->; right; split; [lia|reflexivity]|destruct Sa as (vs & E1 & [= ->]); left; split; [lia|eauto]|injection Sa as ->; right; split; [lia|reflexivity]]. }
  assert (Vb : List.length b = 0 /\ y = WRows [] \/ (exists k v, b = [(k, [v])] /\ y = WVal v) \/ (exists r, b = [r] /\ y = WRow r) \/ (2 <= List.length b /\ (exists vs, map snd b = map (fun v => [v]) vs /\ y = WVals vs)) \/ (2 <= List.length b /\ y = WRows b)).
  { rewrite Ey in Sb. destruct (List.length b) as [|[|n]] eqn:El; [left; split; [reflexivity|now injection Sb]| |].
    - right. destruct cb as [|[|c]]; [destruct Sb as (r & E1 & [= ->]); right; left; eauto|destruct Sb as (k & v & E1 & [= ->]); left; eauto|destruct Sb as (r & E1 & [= ->]); right; left; eauto].
    - do 3 right. destruct cb as [|[|c]]; [injection Sb as ->; right; split; [lia|reflexivity]|destruct Sb as (vs & E1 & [= ->]); left; split; [lia|eauto]|injection Sb as ->; right; split; [lia|reflexivity]]. }
  clear Sa Sb Ex Ey. unfold rset, vrow in *. assert (Hatom : forall v, flat v -> exists u, py_val v = PAtom u) by (intros v Hv; destruct v; cbn in *; try contradiction; eauto).
  destruct Va as [[La ->]|[(k & v & -> & ->)|[(r & -> & ->)|[(La & vs & Ea & ->)|(La & ->)]]]], Vb as [[Lb ->]|[(k' & v' & -> & ->)|[(r' & -> & ->)|[(Lb & vs' & Eb & ->)|(Lb & ->)]]]].
  - destruct a, b; try discriminate; reflexivity.
  - exfalso. cbn in E. specialize (Fb _ (or_introl eq_refl)). cbn in Fb. inversion Fb; subst. destruct (Hatom v') as [u Hu]; [assumption|]. rewrite Hu in E. discriminate.
  - exfalso. cbn in E. specialize (Tb _ (or_introl eq_refl)). destruct r' as [kr r']. cbn in *. subst. discriminate.
  - exfalso. apply (f_equal (@List.length _)) in Eb. rewrite !map_length in Eb. destruct vs' as [|? [|]]; cbn in *; try lia; discriminate.
  - exfalso. destruct b; cbn in *; [lia|discriminate].
  - exfalso. cbn in E. specialize (Fa _ (or_introl eq_refl)). cbn in Fa. inversion Fa; subst. destruct (Hatom v) as [u Hu]; [assumption|]. rewrite Hu in E. discriminate.
  - specialize (Ta _ (or_introl eq_refl)). specialize (Tb _ (or_introl eq_refl)). specialize (Fa _ (or_introl eq_refl)). specialize (Fb _ (or_introl eq_refl)). cbn in *. subst. inversion Fa; inversion Fb; subst. do 3 f_equal. now apply Hval.
  - exfalso. cbn in E. specialize (Fa _ (or_introl eq_refl)). cbn in Fa. inversion Fa; subst. destruct (Hatom v) as [u Hu]; [assumption|]. rewrite Hu in E. destruct r' as [[] ?]; discriminate.
  - exfalso. cbn in E. specialize (Fa _ (or_introl eq_refl)). cbn in Fa. inversion Fa; subst. destruct (Hatom v) as [u Hu]; [assumption|]. rewrite Hu in E. discriminate.
  - exfalso. cbn in E. specialize (Fa _ (or_introl eq_refl)). cbn in Fa. inversion Fa; subst. destruct (Hatom v) as [u Hu]; [assumption|]. rewrite Hu in E. discriminate.
  - exfalso. cbn in E. specialize (Ta _ (or_introl eq_refl)). destruct r as [kr r]. cbn in *. subst. discriminate.
  - exfalso. cbn in E. specialize (Fb _ (or_introl eq_refl)). cbn in Fb. inversion Fb; subst. destruct (Hatom v') as [u Hu]; [assumption|]. rewrite Hu in E. destruct r as [[] ?]; discriminate.
  - f_equal. cbn in E. apply Hrow; [apply Ta|apply Tb|apply Fa|apply Fb|exact E]; now left.
  - exfalso. cbn in E. specialize (Ta _ (or_introl eq_refl)). destruct r as [kr r]. cbn in *. subst. discriminate.
  - exfalso. cbn in E. specialize (Ta _ (or_introl eq_refl)). destruct r as [kr r]. cbn in *. subst. discriminate.
  - exfalso. apply (f_equal (@List.length _)) in Ea. rewrite !map_length in Ea. destruct vs as [|? [|]]; cbn in *; try lia; discriminate.
  - exfalso. cbn in E. specialize (Fb _ (or_introl eq_refl)). cbn in Fb. inversion Fb; subst. destruct (Hatom v') as [u Hu]; [assumption|]. rewrite Hu in E. discriminate.
  - exfalso. cbn in E. specialize (Tb _ (or_introl eq_refl)). destruct r' as [kr r']. cbn in *. subst. discriminate.
  - apply (Hfst a b vs vs'); auto. cbn in E. injection E as E. apply Hvals; [now apply (Hflat a)|now apply (Hflat b)|exact E].
  - exfalso. cbn in E. injection E as E. destruct b as [|z b]; [cbn in Lb; lia|]. destruct vs as [|v vs]; [discriminate|]. cbn in E. injection E as E _. assert (Hv : flat v) by (apply (Hflat a) in Ea; [now inversion Ea|exact Fa]). destruct (Hatom v Hv) as [u Hu]. rewrite Hu in E. destruct z as [[] ?]; discriminate.
  - exfalso. destruct a; cbn in *; [lia|discriminate].
  - exfalso. cbn in E. specialize (Fb _ (or_introl eq_refl)). cbn in Fb. inversion Fb; subst. destruct (Hatom v') as [u Hu]; [assumption|]. rewrite Hu in E. discriminate.
  - exfalso. cbn in E. specialize (Tb _ (or_introl eq_refl)). destruct r' as [kr r']. cbn in *. subst. discriminate.
  - exfalso. cbn in E. injection E as E. destruct a as [|z a]; [cbn in La; lia|]. destruct vs' as [|v vs']; [discriminate|]. cbn in E. injection E as E _. assert (Hv : flat v) by (apply (Hflat b) in Eb; [now inversion Eb|exact Fb]). destruct (Hatom v Hv) as [u Hu]. rewrite Hu in E. destruct z as [[] ?]; discriminate.
  - cbn in E. injection E as E. apply Hrows; [intros z Hz; split; auto|intros z Hz; split; auto|exact E].
Qed.
Print Assumptions C72_injective_partial.
Example C72_case : plain [(Tuple, [VNum 1]); (Tuple, [VNum 2])] /\ rmap py_view (simplify (Some [(Tuple, [VNum 1]); (Tuple, [VNum 2])])) = Ok (PList [PAtom (VNum 1); PAtom (VNum 2)]).
Proof. split; [|reflexivity]. exists 1. intros r [<-|[<-|[]]]; cbn; repeat split; constructor; cbn; auto. Qed.
(** C72 fails with arrays: one row with an array of two values looks like two rows with one value each. *)
Theorem C72_arrays_refuted : exists a b x, a <> b /\ simplify (Some a) = Ok (WVal (VList [VNum 1; VNum 2])) /\ simplify (Some b) = Ok (WVals [VNum 1; VNum 2]) /\ py_view (WVal (VList [VNum 1; VNum 2])) = x /\ py_view (WVals [VNum 1; VNum 2]) = x.
Proof. exists [(Tuple, [VList [VNum 1; VNum 2]])], [(Tuple, [VNum 1]); (Tuple, [VNum 2])]. eexists. split; [discriminate|]. repeat split; reflexivity. Qed.
Print Assumptions C72_arrays_refuted.
