(** Property theorems for C326-C334 (frozen dictionaries, export of data frames, processes, score matrices). *)
From Coq Require Import List Bool Arith ZArith Ascii String Lia.
From Verif Require Import PyBase Ident_model Exp_model Exp_spec.
Import ListNotations.

(** ** C326: the entries of a frozendict cannot be changed.
    Partial: all operations but [|=]. *)
Lemma fupdate_frozen d l : f_frozen d = true -> fupdate d l = (d, if List.length l =? 0 then Ok tt else Raise TypeError).
Proof. intros F. destruct l as [|[k v] l]; [reflexivity|]. cbn. unfold fset. rewrite F. reflexivity. Qed.
Lemma fupdate_open m l : fupdate {| f_data := m; f_frozen := false |} l
  = ({| f_data := fold_left (fun d e => dset d (fst e) (snd e)) l m; f_frozen := false |}, Ok tt).
Proof. revert m. induction l as [|[k v] l IH]; intros m; [reflexivity|]. cbn. apply IH. Qed.
Theorem C326_frozen_partial : forall l d o, fcreate l = Ok d -> (forall m, o <> FIor m) -> fst (fapply d o) = d.
Proof.
  intros l d o C N. assert (F : f_frozen d = true) by (unfold fcreate in C; rewrite fupdate_open in C; injection C as <-; reflexivity).
  destruct o as [k v|k|m| | | |k v|m]; cbn; unfold fset, fdel; rewrite ?F; try reflexivity.
  - rewrite fupdate_frozen by exact F. reflexivity.
  - destruct (dget (f_data d) k); reflexivity.
  - contradiction (N m). reflexivity.
Qed.
Print Assumptions C326_frozen_partial.
(* Operations that should change an entry raise a TypeError. *)
Theorem C326_refused : forall l d, fcreate l = Ok d ->
  (forall k v, snd (fapply d (FSet k v)) = Raise TypeError) /\ (forall k, snd (fapply d (FDel k)) = Raise TypeError) /\
  (forall m, snd (fapply d (FUpdate m)) = Ok tt <-> m = []) /\ (forall m, m <> [] -> snd (fapply d (FUpdate m)) = Raise TypeError) /\
  snd (fapply d FClear) = Raise TypeError /\ (forall k, snd (fapply d (FPop k)) = Raise TypeError) /\ snd (fapply d FPopitem) = Raise TypeError /\
  (forall k v, snd (fapply d (FSetdefault k v)) = Ok tt <-> exists w, last_value l k w) .
Proof.
  intros l d C. unfold fcreate in C. rewrite fupdate_open in C. injection C as <-. set (d := {| f_data := _; f_frozen := true |}).
  assert (F : f_frozen d = true) by reflexivity. cbn [fapply]. unfold fset, fdel. rewrite F.
  repeat split; try reflexivity.
  - rewrite fupdate_frozen by exact F. destruct m; [reflexivity|discriminate].
  - intros ->. reflexivity.
  - intros m Hm. rewrite fupdate_frozen by exact F. destruct m; [congruence|reflexivity].
  - intros H. unfold d in H. cbn [f_data] in H. rewrite fold_dset_spec in H. cbn [dget] in H. destruct (lastval l k) as [w|] eqn:E; [|discriminate]. exists w. clear -E.
    induction l as [|[k' v'] l IH]; [discriminate|]. cbn in E. destruct (lastval l k) as [u|] eqn:L.
    + specialize (IH E). inversion IH; subst. exact (lv_last ((k', v') :: l0) r k w H).
    + destruct (eqd k k') as [<-|]; [|discriminate]. injection E as ->. apply (lv_last [] l k w). clear IH. intros u I. revert L. induction l as [|[a b] l IH]; [destruct I|].
      cbn. destruct (lastval l k); [discriminate|]. destruct I as [I|I]; [injection I as -> ->; destruct (eqd k k); congruence|]. destruct (eqd k a); [discriminate|auto].
  - intros [w W]. unfold d. cbn [f_data]. rewrite fold_dset_spec. inversion W; subst. rewrite lastval_app. cbn. destruct (lastval r k); [reflexivity|]. destruct (eqd k k); [reflexivity|congruence].
Qed.
Print Assumptions C326_refused.
(* With [|=] entries are added and replaced. *)
Theorem C326_frozen_refuted : forall l d k v, fcreate l = Ok d -> dget (f_data d) k <> Some v ->
  snd (fapply d (FIor [(k, v)])) = Ok tt /\ dget (f_data (fst (fapply d (FIor [(k, v)])))) k = Some v.
Proof. intros l d k v _ _. split; [reflexivity|]. cbn. apply dset_same. Qed.
Print Assumptions C326_frozen_refuted.
Example C326_ex : exists d, fcreate [(1, 10); (2, 20)] = Ok d /\ fapply d (FSet 1 5) = (d, Raise TypeError) /\ f_data (fst (fapply d (FIor [(1, 5)]))) = [(1, 5); (2, 20)].
Proof. eexists. repeat split. Qed.

(** ** C327: creation of a frozendict, and [|] *)
Lemma last_value_iff l k v : last_value l k v <-> lastval l k = Some v.
Proof.
  split.
  - intros W. inversion W; subst. rewrite lastval_app. cbn. assert (L : lastval r k = None).
    { clear -H. induction r as [|[a b] r IH]; [reflexivity|]. cbn. rewrite IH by (intros w I; apply (H w); right; exact I). destruct (eqd k a) as [<-|]; [|reflexivity]. contradiction (H b). left. reflexivity. }
    rewrite L. destruct (eqd k k); [reflexivity|congruence].
  - revert v. induction l as [|[k' v'] l IH]; intros v E; [discriminate|]. cbn in E. destruct (lastval l k) as [u|] eqn:L.
    + specialize (IH v E). inversion IH; subst. exact (lv_last ((k', v') :: l0) r k v H).
    + destruct (eqd k k') as [<-|]; [|discriminate]. injection E as ->. apply (lv_last [] l k v). clear IH. intros u I. revert L. induction l as [|[a b] l IH]; [destruct I|].
      cbn. destruct (lastval l k); [discriminate|]. destruct I as [I|I]; [injection I as -> ->; destruct (eqd k k); congruence|]. destruct (eqd k a); [discriminate|auto].
Qed.
Theorem C327_create : forall l, exists d, fcreate l = Ok d /\ f_frozen d = true /\ NoDup (map fst (f_data d)) /\
  (forall k v, dget (f_data d) k = Some v <-> last_value l k v) /\
  forall m, exists e, for_ d m = Ok e /\ f_frozen e = true /\ forall k v, dget (f_data e) k = Some v <-> last_value (l ++ m) k v.
Proof.
  intros l. unfold fcreate. rewrite fupdate_open. eexists. split; [reflexivity|]. split; [reflexivity|]. cbn [f_data]. change (fold_left _ l []) with (dict_of l). split; [exact (dwf_dict_of l)|]. split.
  - intros k v. rewrite dict_of_spec, last_value_iff. reflexivity.
  - intros m. unfold for_, fcreate. rewrite fupdate_open. eexists. split; [reflexivity|]. split; [reflexivity|]. cbn [f_data]. intros k v.
    change (fold_left _ (fold_left _ m (dict_of l)) []) with (dict_of (fold_left (fun d e => dset d (fst e) (snd e)) m (dict_of l))).
    rewrite dict_of_spec, lastval_wf by (apply dwf_fold_dset, dwf_dict_of). rewrite fold_dset_spec, dict_of_spec, last_value_iff, lastval_app. reflexivity.
Qed.
Print Assumptions C327_create.
Example C327_ex : fcreate [(1, 10); (2, 20); (1, 30)] = Ok {| f_data := [(1, 30); (2, 20)]; f_frozen := true |}. Proof. reflexivity. Qed.

(** ** C328: copy() of a frozendict has the same entries.
    Partial: without entries. *)
Theorem C328_copy_partial : forall d, f_data d = [] -> fcopy d = Ok d.
Proof. intros [m f] H. cbn in H. subst. reflexivity. Qed.
Print Assumptions C328_copy_partial.
Theorem C328_copy_refuted : forall l d, fcreate l = Ok d -> l <> [] -> fcopy d = Raise TypeError.
Proof.
  intros l d C N. unfold fcreate in C. rewrite fupdate_open in C. injection C as <-. unfold fcopy. cbn [f_data f_frozen]. change (fold_left _ l []) with (dict_of l).
  rewrite fupdate_frozen by reflexivity. destruct (dict_of l) as [|e r] eqn:E; [|reflexivity]. destruct l as [|[k v] l] using rev_ind; [congruence|].
  exfalso. assert (D := dict_of_spec (l ++ [(k, v)]) k). rewrite E, lastval_app in D. cbn in D. destruct (eqd k k); congruence.
Qed.
Print Assumptions C328_copy_refuted.
Example C328_ex : exists d, fcreate [(1, 10)] = Ok d /\ fcopy d = Raise TypeError. Proof. eexists. split; reflexivity. Qed.

(** ** C329, C330: export with write_df *)
Lemma rmapM_Forall2 {A B} (f : A -> res B) l l' : rmapM f l = Ok l' <-> Forall2 (fun a b => f a = Ok b) l l'.
Proof.
  revert l'. induction l as [|a l IH]; intros l'; cbn.
  - split; [intros E; injection E as <-; constructor|intros H; inversion H; reflexivity].
  - destruct (f a) as [b|e] eqn:F; cbn.
    + destruct (rmapM f l) as [r|e] eqn:R; cbn; split.
      * intros E. injection E as <-. constructor; [exact F|now apply IH].
      * intros H. inversion H; subst. apply IH in H4. congruence.
      * discriminate.
      * intros H. inversion H; subst. apply IH in H4. discriminate.
    + split; [discriminate|]. intros H. inversion H; subst. congruence.
Qed.
Lemma exported_same dumps l : (forall x, In x l -> ~ complex x) -> Forall2 (exported dumps) l l.
Proof.
  induction l as [|x l IH]; intros H; constructor; [|apply IH; intros y I; apply H; right; exact I].
  destruct x as [s| |z|[] i]; try constructor. contradiction (H (CObj true i)); [left; reflexivity|exists i; reflexivity].
Qed.
Lemma convert_exported dumps c c' : (forall x, In x (c_cells c) -> x = CNone \/ complex x) -> convert dumps c = Ok c' -> exported_column dumps c c'.
Proof.
  intros H E. unfold convert in E. destruct (rmapM (to_json dumps) (c_cells c)) as [l|] eqn:R; [|discriminate]. cbn in E. injection E as <-.
  split; [reflexivity|]. split; [reflexivity|]. cbn [c_cells]. apply rmapM_Forall2 in R. revert H. induction R as [|x y l1 l2 X R IH]; intros H; constructor; [|apply IH; intros z I; apply H; right; exact I].
  destruct (H x (or_introl eq_refl)) as [->|[i ->]]; cbn in X; [injection X as <-; constructor|]. unfold rmap in X. destruct (dumps (CObj true i)) as [t|] eqn:D; [|discriminate]. injection X as <-. constructor. exact D.
Qed.
Section Write.
  Context (dumps : cell -> res string).
  Lemma df_columns_spec l : match df_columns dumps l with
    | (l', None) => Forall2 (fun a b => df_column dumps a = Ok b) l l'
    | (l', Some e) => exists c, In c l /\ df_column dumps c = Raise e
    end.
  Proof.
    induction l as [|c l IH]; cbn; [constructor|]. destruct (df_column dumps c) as [c'|e] eqn:D.
    - destruct (df_columns dumps l) as [l' [e|]]; [|constructor; assumption]. destruct IH as (x & I & X). exists x. split; [right; exact I|exact X].
    - exists c. split; [left; reflexivity|exact D].
  Qed.
End Write.
(** Partial: complex objects are in columns of type "object" that only have complex objects and missing values. *)
Definition plain_columns (df : list column) : Prop := forall c, In c df ->
  (forall x, In x (c_cells c) -> ~ complex x) /\ (c_object c = false \/ forall x, In x (c_cells c) -> exists s, x = CStr s)
  \/ c_object c = true /\ forall x, In x (c_cells c) -> x = CNone \/ complex x.
Theorem C329_written_partial : forall dumps df suffix f out, plain_columns df -> snd (write_df dumps df suffix) = Ok (f, out) ->
  Forall2 (exported_column dumps) df out /\ In (slower suffix, f) extensions.
Proof.
  intros dumps df suffix f out P H. unfold write_df in H. assert (S := df_columns_spec dumps df). destruct (df_columns dumps df) as [df' [e|]]; [discriminate|]. cbn in H.
  destruct (write_format suffix) as [g|] eqn:W; [|discriminate]. cbn in H. injection H as <- <-. split.
  - clear W. revert P. induction S as [|c c' l l' D S IH]; intros P; constructor; [|apply IH; intros d I; apply P; right; exact I].
    unfold df_column in D. destruct (P c (or_introl eq_refl)) as [[N O]|[O N]].
    + assert (c' = c) as ->.
      { destruct O as [O|O]; [rewrite O in D; cbn in D; congruence|]. assert (A : forallb is_str (c_cells c) = true) by (apply forallb_forall; intros x I; destruct (O x I) as [s ->]; reflexivity).
        rewrite A in D. destruct (negb (c_object c)); congruence. }
      split; [reflexivity|]. split; [reflexivity|]. apply exported_same. exact N.
    + rewrite O in D. cbn [negb] in D. destruct (forallb is_str (c_cells c)) eqn:A; [|apply convert_exported; assumption]. injection D as <-.
      split; [reflexivity|]. split; [reflexivity|]. apply exported_same. intros x I [i ->]. rewrite forallb_forall in A. specialize (A _ I). discriminate.
  - unfold write_format in W. set (s := slower suffix) in *. clearbody s. cbv zeta in W.
    repeat match type of W with (if deqb s ?x then _ else _) = _ => let E := fresh in destruct (deqb s x) eqn:E; [apply deqb_true in E; subst s; injection W as <-; cbn; tauto|]
    | (if mem s ?x then _ else _) = _ => let E := fresh in destruct (mem s x) eqn:E; [apply mem_In in E; injection W as <-; cbn in E |- *; repeat destruct E as [E|E]; try contradiction; subst s; tauto|] end. discriminate.
Qed.
Print Assumptions C329_written_partial.
(* Texts in the same column as a missing value are changed, too. *)
Theorem C329_written_refuted : forall dumps s t, dumps (CStr s) = Ok t -> t <> s ->
  snd (write_df dumps [{| c_name := "c"; c_object := true; c_cells := [CStr s; CNone] |}] ".csv") = Ok (Csv, [{| c_name := "c"; c_object := true; c_cells := [CStr t; CNone] |}])
  /\ ~ exported dumps (CStr s) (CStr t).
Proof.
  intros dumps s t D N. split; [unfold write_df, df_columns, df_column, convert; cbn; rewrite D; reflexivity|]. intros E. inversion E. congruence.
Qed.
Print Assumptions C329_written_refuted.
Example C329_ex : let dumps := fun c => match c with CStr s => Ok ("'" ++ s ++ "'")%string | CObj true _ => Ok "{}"%string | CNum _ => Ok "1"%string | _ => Raise TypeError end in
  snd (write_df dumps [{| c_name := "c"; c_object := true; c_cells := [CNone; CObj true 1] |}; {| c_name := "d"; c_object := true; c_cells := [CStr "a"; CStr "b"] |}] ".CSV")
  = Ok (Csv, [{| c_name := "c"; c_object := true; c_cells := [CNone; CStr "{}"] |}; {| c_name := "d"; c_object := true; c_cells := [CStr "a"; CStr "b"] |}]).
Proof. reflexivity. Qed.

(** C330: the data frame of the caller is not changed.
    Partial: there is nothing to convert. *)
Theorem C330_unchanged_partial : forall dumps df suffix,
  (forall c, In c df -> c_object c = false \/ forall x, In x (c_cells c) -> exists s, x = CStr s) -> fst (write_df dumps df suffix) = df.
Proof.
  intros dumps df suffix H. assert (E : df_columns dumps df = (df, None)).
  { induction df as [|c df IH]; [reflexivity|]. cbn. assert (D : df_column dumps c = Ok c).
    { unfold df_column. destruct (H c (or_introl eq_refl)) as [O|O]; [rewrite O; reflexivity|]. assert (A : forallb is_str (c_cells c) = true) by (apply forallb_forall; intros x I; destruct (O x I) as [s ->]; reflexivity).
      rewrite A. destruct (c_object c); reflexivity. }
    rewrite D, IH by (intros d I; apply H; right; exact I). reflexivity. }
  unfold write_df. rewrite E. reflexivity.
Qed.
Print Assumptions C330_unchanged_partial.
(* Complex objects are replaced in the data frame of the caller, even if nothing is written since the format is not supported. *)
Theorem C330_unchanged_refuted : forall dumps t n, dumps (CObj true n) = Ok t ->
  write_df dumps [{| c_name := "c"; c_object := true; c_cells := [CObj true n] |}] ".txt" = ([{| c_name := "c"; c_object := true; c_cells := [CStr t] |}], Raise ValueError).
Proof. intros dumps t n D. unfold write_df, df_columns, df_column, convert. cbn. rewrite D. reflexivity. Qed.
Print Assumptions C330_unchanged_refuted.
Example C330_ex : fst (write_df (fun _ => Ok ""%string) [{| c_name := "c"; c_object := false; c_cells := [CNum 3] |}] ".csv") = [{| c_name := "c"; c_object := false; c_cells := [CNum 3] |}]. Proof. reflexivity. Qed.

(** ** C331: prepare_export.
    Partial: a column with complex objects has only those and missing values, and starts with one. *)
Definition uniform (df : list column) : Prop := forall c, In c df ->
  (forall x, In x (c_cells c) -> ~ complex x) \/ (exists i r, c_cells c = CObj true i :: r) /\ forall x, In x (c_cells c) -> x = CNone \/ complex x.
Theorem C331_export_partial : forall dumps df out, uniform df -> prepare_export dumps df = Ok out -> Forall2 (exported_column dumps) df out.
Proof.
  intros dumps df out U H. unfold prepare_export in H. apply rmapM_Forall2 in H. revert U. induction H as [|c c' l l' D S IH]; intros U; constructor; [|apply IH; intros d I; apply U; right; exact I].
  destruct (U c (or_introl eq_refl)) as [N|[(i & r & E) N]].
  - assert (c' = c) as -> by (destruct (c_cells c) as [|x r] eqn:C; [congruence|]; destruct x as [s| |z|[] i]; cbn in D; try congruence; contradiction (N (CObj true i)); [left; reflexivity|exists i; reflexivity]).
    split; [reflexivity|]. split; [reflexivity|]. apply exported_same. exact N.
  - rewrite E in D. cbn [is_complex] in D. apply convert_exported; assumption.
Qed.
Print Assumptions C331_export_partial.
(* It fails only if an object has no JSON representation. *)
Theorem C331_fails : forall dumps df e, prepare_export dumps df = Raise e -> exists c x, In c df /\ In x (c_cells c) /\ x <> CNone /\ dumps x = Raise e /\ exists y r, c_cells c = y :: r /\ complex y.
Proof.
  intros dumps df e. unfold prepare_export. induction df as [|c df IH]; [discriminate|]. cbn.
  destruct (match c_cells c with [] => Ok c | x :: _ => if is_complex x then convert dumps c else Ok c end) as [c'|e'] eqn:D; cbn.
  - destruct (rmapM _ df) as [r|e'']; [discriminate|]. intros E. cbn in E. injection E as ->. destruct (IH eq_refl) as (c0 & x & I & R). exists c0, x. split; [right; exact I|exact R].
  - intros E. injection E as ->. exists c. destruct (c_cells c) as [|y r] eqn:C; [discriminate|]. destruct (is_complex y) eqn:Y; [|discriminate].
    assert (Q : exists x, In x (y :: r) /\ to_json dumps x = Raise e).
    { unfold convert in D. rewrite C in D. clear -D. destruct (rmapM (to_json dumps) (y :: r)) as [l|e'] eqn:R; [discriminate|]. cbn in D. injection D as ->. revert R. generalize (y :: r). intros l. induction l as [|a l IH]; [discriminate|].
      cbn. destruct (to_json dumps a) as [b|e'] eqn:A; cbn; [|intros E; injection E as ->; exists a; split; [left; reflexivity|exact A]].
      destruct (rmapM (to_json dumps) l) as [s|e']; [discriminate|]. cbn. intros E. injection E as ->. destruct (IH eq_refl) as (x & I & X). exists x. split; [right; exact I|exact X]. }
    destruct Q as (x & I & X). exists x. split; [left; reflexivity|]. split; [exact I|]. split; [intros ->; discriminate|]. split.
    + destruct x; cbn in X; try discriminate; unfold rmap in X; destruct (dumps _) as [t|e'] eqn:Z; try discriminate; injection X as ->; reflexivity.
    + exists y, r. split; [reflexivity|]. destruct y as [| | |[] i]; try discriminate. exists i. reflexivity.
Qed.
Print Assumptions C331_fails.
(* Complex objects are kept if the first row has none. *)
Theorem C331_export_refuted : forall dumps n, let df := [{| c_name := "error"; c_object := true; c_cells := [CNone; CObj true n] |}] in
  prepare_export dumps df = Ok df /\ ~ exported dumps (CObj true n) (CObj true n).
Proof. intros dumps n. split; [reflexivity|]. intros E. inversion E. Qed.
Print Assumptions C331_export_refuted.
Example C331_ex : prepare_export (fun _ => Ok "[]"%string) [{| c_name := "c"; c_object := true; c_cells := [CObj true 1; CNone; CObj true 2] |}; {| c_name := "d"; c_object := false; c_cells := [CNum 1; CNum 2; CNum 3] |}]
  = Ok [{| c_name := "c"; c_object := true; c_cells := [CStr "[]"; CNone; CStr "[]"] |}; {| c_name := "d"; c_object := false; c_cells := [CNum 1; CNum 2; CNum 3] |}]. Proof. reflexivity. Qed.

(** ** C332: read_df and write_df support the same extensions, in upper and lower case. *)
Lemma format_spec (s : string) (f : format) :
  (if deqb s ".csv"%string then Ok Csv else if deqb s ".parquet"%string then Ok Parquet else
   if mem s [".xlsx"; ".xls"]%string then Ok Excel else if deqb s ".json"%string then Ok JsonF else
   if mem s [".hdf"; ".h5"; ".hdf5"]%string then Ok Hdf else if deqb s ".feather"%string then Ok Feather else
   if deqb s ".orc"%string then Ok Orc else Raise ValueError) = Ok f <-> In (s, f) extensions.
Proof.
  split.
  - intros W. repeat match type of W with (if deqb s ?x then _ else _) = _ => let E := fresh in destruct (deqb s x) eqn:E; [apply deqb_true in E; subst s; injection W as <-; cbn; tauto|]
    | (if mem s ?x then _ else _) = _ => let E := fresh in destruct (mem s x) eqn:E; [apply mem_In in E; injection W as <-; cbn in E |- *; repeat destruct E as [E|E]; try contradiction; subst s; tauto|] end. discriminate.
  - unfold extensions. cbn [In]. intros H. repeat destruct H as [H|H]; try contradiction; injection H as <- <-; vm_compute; reflexivity.
Qed.
Theorem C332_formats : forall suffix f, (read_format suffix = Ok f <-> In (slower suffix, f) extensions) /\ (write_format suffix = Ok f <-> In (slower suffix, f) extensions).
Proof. intros suffix f. unfold read_format, write_format. cbv zeta. split; apply format_spec. Qed.
Print Assumptions C332_formats.
Theorem C332_refused : forall suffix, (forall f, ~ In (slower suffix, f) extensions) -> read_format suffix = Raise ValueError /\ write_format suffix = Raise ValueError.
Proof.
  intros suffix H. assert (R : forall g, (forall f, g suffix = Ok f -> In (slower suffix, f) extensions) -> (forall e, g suffix = Raise e -> e = ValueError) -> g suffix = Raise ValueError).
  { intros g A B. destruct (g suffix) as [f|e]; [contradiction (H f); apply A; reflexivity|]. f_equal. apply B. reflexivity. }
  assert (V : forall e, read_format suffix = Raise e -> e = ValueError).
  { intros e. unfold read_format. cbv zeta. set (s := slower suffix). clearbody s. repeat match goal with |- (if ?b then _ else _) = _ -> _ => destruct b; [discriminate|] end. congruence. }
  split; apply R; try (intros f; apply C332_formats); exact V.
Qed.
Print Assumptions C332_refused.
(* Data frames whose objects have a JSON representation are written exactly if the extension is supported. *)
Theorem C332_written : forall dumps df suffix, (forall c x, In c df -> In x (c_cells c) -> x <> CNone -> exists t, dumps x = Ok t) ->
  (forall f, In (slower suffix, f) extensions -> exists out, snd (write_df dumps df suffix) = Ok (f, out)) /\
  ((forall f, ~ In (slower suffix, f) extensions) -> snd (write_df dumps df suffix) = Raise ValueError).
Proof.
  intros dumps df suffix H. unfold write_df. assert (S := df_columns_spec dumps df). destruct (df_columns dumps df) as [df' [e|]].
  - exfalso. destruct S as (c & I & D). unfold df_column in D. destruct (negb (c_object c)); [discriminate|]. destruct (forallb is_str (c_cells c)); [discriminate|].
    unfold convert in D. assert (T : forall l, (forall x, In x l -> x <> CNone -> exists t, dumps x = Ok t) -> exists l', rmapM (to_json dumps) l = Ok l').
    { induction l as [|x l IH]; intros X; [exists []; reflexivity|]. destruct IH as [l' L]; [intros y J; apply X; right; exact J|].
      assert (Y : exists y, to_json dumps x = Ok y).
      { assert (X1 := X x (or_introl eq_refl)). destruct x; cbn; [| exists CNone; reflexivity | |]; (destruct X1 as [t Ht]; [discriminate|]; rewrite Ht; eexists; reflexivity). }
      destruct Y as [y Y]. exists (y :: l'). cbn. rewrite Y, L. reflexivity. }
    destruct (T (c_cells c)) as [l' L]; [intros x J; apply (H c x I J)|]. rewrite L in D. discriminate.
  - cbn [snd]. split.
    + intros f F. apply (C332_formats suffix f) in F. rewrite F. eexists. reflexivity.
    + intros N. apply C332_refused in N as [_ N]. rewrite N. reflexivity.
Qed.
Print Assumptions C332_written.
Example C332_ex : read_format ".XLS" = Ok Excel /\ read_format ".txt" = Raise ValueError. Proof. split; reflexivity. Qed.

(** ** C333: run_cmd runs the command with all arguments in the working directory, and leaves the current one as it was.
    Partial: commands are texts or lists, and can be run. *)
Definition words (c : command) : list string := match c with CmdStr s => [s] | CmdList l => l | CmdTuple l => l | CmdIterator l => l end.
Theorem C333_run_partial : forall is_dir run cwd c args w p, (exists s, c = CmdStr s) \/ (exists x r, c = CmdList (x :: r)) ->
  is_dir (match w with Some d => d | None => cwd end) = true -> run (match w with Some d => d | None => cwd end) (words c ++ args) = Ok p ->
  run_cmd is_dir run cwd c args w = (cwd, Ok p).
Proof. intros is_dir run cwd c args w p [[s ->]|(x & r & ->)] D R; unfold run_cmd; cbn in *; rewrite D, R; reflexivity. Qed.
Print Assumptions C333_run_partial.
(* The current directory is changed exactly if the command is one that cannot be run in another directory. *)
Theorem C333_directory : forall is_dir run cwd c args w, fst (run_cmd is_dir run cwd c args w) <> cwd <->
  exists d i e, w = Some d /\ d <> cwd /\ is_dir d = true /\ invocation c args = Ok i /\ run d i = Raise e.
Proof.
  intros is_dir run cwd c args w. unfold run_cmd. destruct (invocation c args) as [i|e]; [|cbn; split; [congruence|intros (d & i & e' & _ & _ & _ & E & _); discriminate]].
  destruct w as [d|].
  - destruct (is_dir d) eqn:D; [destruct (run d i) as [p|e] eqn:R|]; cbn; split; try congruence.
    + intros (d' & i' & e & W & _ & _ & E & X). congruence.
    + intros N. exists d, i, e. repeat split; assumption.
    + intros (d' & i' & e' & W & N & _). congruence.
    + intros (d' & i' & e' & W & _ & X & _). congruence.
  - assert (E : forall x, fst (if is_dir cwd then match run cwd i with Ok p => (cwd, Ok p) | Raise e => (cwd, Raise e) end else (cwd, Raise x)) = cwd) by (intros x; destruct (is_dir cwd); [destruct (run cwd i)|]; reflexivity).
    rewrite E. split; [congruence|]. intros (d & i' & e & W & _). discriminate.
Qed.
Print Assumptions C333_directory.
(* Commands that cannot be run leave the process in the other directory; tuples of words and iterators are refused. *)
Theorem C333_run_refuted : (exists is_dir run cwd c args w, fst (run_cmd is_dir run cwd c args w) <> cwd /\ snd (run_cmd is_dir run cwd c args w) = Raise OtherError)
  /\ (forall is_dir run cwd x r args w, run_cmd is_dir run cwd (CmdTuple (x :: r)) args w = (cwd, Raise TypeError))
  /\ (forall is_dir run cwd l args w, run_cmd is_dir run cwd (CmdIterator l) args w = (cwd, Raise TypeError)).
Proof.
  split; [|split; reflexivity]. exists (fun _ => true), (fun _ _ => Raise OtherError), "/home"%string, (CmdStr "nothing"), [], (Some "/tmp"%string). split; [discriminate|reflexivity].
Qed.
Print Assumptions C333_run_refuted.
Theorem C333_result : forall p, (proc_bool p = true <-> pr_code p = 0%Z) /\ (raise_if_error p = Ok tt <-> pr_code p = 0%Z) /\ (pr_code p <> 0%Z -> raise_if_error p = Raise RuntimeError).
Proof. intros p. unfold proc_bool, raise_if_error. destruct (Z.eqb_spec (pr_code p) 0) as [E|E]; repeat split; congruence. Qed.
Print Assumptions C333_result.
Example C333_ex : run_cmd (fun _ => true) (fun d l => Ok {| pr_out := d ++ String.concat " " l; pr_err := ""; pr_code := 0 |}) "/home" (CmdList ["ls"; "-l"]%string) ["x"%string] (Some "/tmp"%string)
  = ("/home"%string, Ok {| pr_out := "/tmpls -l x"; pr_err := ""; pr_code := 0 |}). Proof. reflexivity. Qed.

(** ** C334: score_matrix *)
Lemma enumerate_nth {A} (l : list A) i a : In (i, a) (enumerate l) <-> nth_error l i = Some a.
Proof.
  unfold enumerate. assert (G : forall s, In (i, a) (combine (seq s (List.length l)) l) <-> exists k, i = s + k /\ nth_error l k = Some a).
  { induction l as [|b l IH]; intros s; cbn; [split; [intros []|intros ([|k] & _ & E); discriminate]|]. rewrite IH. split.
    - intros [E|(k & -> & E)]; [injection E as <- <-; exists 0; split; [lia|reflexivity]|exists (S k); split; [lia|exact E]].
    - intros ([|k] & -> & E); [left; cbn in E; injection E as ->; f_equal; lia|right; exists k; split; [lia|exact E]]. }
  rewrite G. split; [intros (k & -> & E); exact E|intros E; exists i; split; [reflexivity|exact E]].
Qed.
Lemma inner {A} (scoring : A -> A -> Z) i a es : forall m x y,
  (x <> i -> fold_left (fun m q => mset m i (fst q) (scoring a (snd q))) es m x y = m x y) /\
  ((forall b, ~ In (y, b) es) -> fold_left (fun m q => mset m i (fst q) (scoring a (snd q))) es m x y = m x y) /\
  (forall b, In (y, b) es -> (forall c, In (y, c) es -> c = b) -> fold_left (fun m q => mset m i (fst q) (scoring a (snd q))) es m i y = scoring a b).
Proof.
  induction es as [|[j c] es IH]; intros m x y; cbn [fold_left fst snd]; [repeat split; auto; intros b []|].
  destruct (IH (mset m i j (scoring a c)) x y) as (A1 & A2 & A3). split; [|split].
  - intros N. rewrite A1 by exact N. unfold mset. apply Nat.eqb_neq in N. rewrite N. reflexivity.
  - intros N. rewrite A2 by (intros b I; apply (N b); right; exact I). unfold mset. destruct (Nat.eqb_spec y j) as [->|]; [contradiction (N c); left; reflexivity|]. rewrite andb_false_r. reflexivity.
  - intros b I U. destruct (in_dec Nat.eq_dec y (map fst es)) as [M|M].
    + apply in_map_iff in M as ([y' b'] & Y & M). cbn in Y. subst y'. assert (b' = b) by (apply U; right; exact M). subst b'. apply A3; [exact M|]. intros d D. apply U. right. exact D.
    + destruct I as [I|I]; [|contradiction M; apply in_map_iff; exists (y, b); auto]. injection I as -> ->. destruct (IH (mset m i y (scoring a b)) i y) as (_ & B & _).
      rewrite B by (intros d D; apply M; apply in_map_iff; exists (y, d); auto). unfold mset. rewrite !Nat.eqb_refl. reflexivity.
Qed.
Theorem C334_scores : forall A (elems : list A) scoring, fst (score_matrix elems scoring) = List.length elems /\
  forall i j a b, nth_error elems i = Some a -> nth_error elems j = Some b -> snd (score_matrix elems scoring) i j = scoring a b.
Proof.
  intros A elems scoring. split; [reflexivity|]. intros i j a b Ha Hb. cbn [snd score_matrix].
  assert (G : forall es m, (In (i, a) es \/ m i j = scoring a b) -> (forall c, In (i, c) es -> c = a) ->
    fold_left (fun m p => fold_left (fun m q => mset m (fst p) (fst q) (scoring (snd p) (snd q))) (enumerate elems) m) es m i j = scoring a b).
  { induction es as [|[k c] es IH]; intros m D U; cbn [fold_left fst snd]; [destruct D as [[]|D]; exact D|]. apply IH; [|intros d I; apply U; right; exact I].
    destruct (Nat.eq_dec i k) as [<-|N].
    - right. assert (c = a) as -> by (apply U; left; reflexivity). destruct (inner scoring i a (enumerate elems) m i j) as (_ & _ & X). apply X; [apply enumerate_nth; exact Hb|].
      intros d I. apply enumerate_nth in I. congruence.
    - destruct D as [[D|D]|D]; [congruence|left; exact D|right]. destruct (inner scoring k c (enumerate elems) m i j) as (X & _ & _). rewrite X by exact N. exact D. }
  apply G; [left; apply enumerate_nth; exact Ha|]. intros c I. apply enumerate_nth in I. congruence.
Qed.
Print Assumptions C334_scores.
Example C334_ex : let (n, m) := score_matrix [5; 7; 9] (fun a b => Z.of_nat a - Z.of_nat b)%Z in n = 3 /\ m 2 0 = 4%Z /\ m 0 1 = (-2)%Z. Proof. repeat split. Qed.
