(** C273 to C275: loading workloads from single files, predefined workloads. *)
From Coq Require Import String List Bool Arith Ascii Lia Permutation.
From Verif Require Import PyBase Ident_model Dicts_model Work_model Work_spec Work_proofs Work_props WLoad_model WLoad_spec.
Import ListNotations.
Local Open Scope list_scope.

(** ** C273: one query per line *)
Lemma readlines_line l r : one_line l -> readlines (l ++ nl :: r) = (l ++ [nl]) :: readlines r.
Proof.
  induction l as [|c l IH]; intros O; [reflexivity|]. cbn [app readlines]. rewrite IH by (intros H; apply O; right; exact H).
  destruct (Ascii.eqb_spec c nl) as [->|N]; [exfalso; apply O; left; reflexivity | reflexivity].
Qed.
Lemma readlines_last l : one_line l -> readlines l = match l with [] => [] | _ => [l] end.
Proof.
  induction l as [|c l IH]; intros O; [reflexivity|]. cbn [readlines]. rewrite IH by (intros H; apply O; right; exact H).
  destruct (Ascii.eqb_spec c nl) as [->|N]; [exfalso; apply O; left; reflexivity|]. destruct l; reflexivity.
Qed.
Lemma readlines_file lines last : Forall one_line lines -> one_line last -> readlines (file_of lines last) = lines_of lines last.
Proof.
  intros F O. unfold file_of, lines_of. induction F as [|l lines L F IH]; [apply readlines_last; exact O|].
  cbn [map concat app]. rewrite <- !app_assoc. cbn [app]. rewrite readlines_line by exact L. f_equal. exact IH.
Qed.
Lemma truthy_lines lines last : filter truthy (lines_of lines last) = lines_of lines last.
Proof.
  unfold lines_of. rewrite filter_app. f_equal; [|destruct last; reflexivity]. induction lines as [|l lines IH]; [reflexivity|]. cbn [map filter]. destruct l; cbn; f_equal; exact IH.
Qed.
Lemma rmapM_Forall2 {A B} (f : A -> res B) l ys : rmapM f l = Ok ys <-> Forall2 (fun x y => f x = Ok y) l ys.
Proof.
  revert ys. induction l as [|x l IH]; intros ys; cbn.
  - split; [intros [= <-]; constructor | intros F; inversion F; reflexivity].
  - destruct (f x) as [y|e] eqn:E; cbn.
    + destruct (rmapM f l) as [zs|e] eqn:M; cbn; split.
      * intros [= <-]. constructor; [exact E | apply IH; reflexivity].
      * intros F. inversion F as [|? y' ? zs' H1 H2]; subst. assert (y' = y) by congruence. apply IH in H2. congruence.
      * discriminate.
      * intros F. inversion F as [|? y' ? zs' H1 H2]; subst. apply IH in H2. discriminate.
    + split; [discriminate|]. intros F. inversion F. congruence.
Qed.
Lemma rmapM_raises {A B} (f : A -> res B) l x e : In x l -> f x = Raise e -> exists e', rmapM f l = Raise e'.
Proof.
  induction l as [|a l IH]; intros []; cbn.
  - subst. intros ->. exists e. reflexivity.
  - intros E. destruct (f a) as [y|e']; [|exists e'; reflexivity]. destruct (IH H E) as (e' & ->). exists e'. reflexivity.
Qed.
Theorem C273_batch_partial : forall Q (EQ : EqD Q) (parse : text -> res Q) nsort lines last queries, sorts nsort ->
  Forall one_line lines -> one_line last -> Forall2 (fun l q => parse l = Ok q) (lines_of lines last) queries -> NoDup queries ->
  exists w, read_batch parse nsort (file_of lines last) = Ok w /\ forall i q, binds w i q <-> 1 <= i /\ nth_error queries (i - 1) = Some q.
Proof.
  intros Q EQ parse nsort lines last queries S F O P N. unfold read_batch. rewrite (readlines_file _ _ F O), truthy_lines.
  rewrite (proj2 (rmapM_Forall2 _ _ _) P). apply C71_wrap_partial; assumption.
Qed.
Print Assumptions C273_batch_partial.
(* A blank line anywhere makes the whole file unreadable. *)
Theorem C273_blank_refuted : forall Q (EQ : EqD Q) (parse : text -> res Q) nsort lines last e, Forall one_line lines -> one_line last ->
  parse [nl] = Raise e -> In [] lines -> exists e', read_batch parse nsort (file_of lines last) = Raise e'.
Proof.
  intros Q EQ parse nsort lines last e F O P I0. unfold read_batch. rewrite (readlines_file _ _ F O), truthy_lines.
  destruct (rmapM_raises parse (lines_of lines last) [nl] e) as (e' & ->); [|exact P | exists e'; reflexivity].
  unfold lines_of. apply in_app_iff. left. apply in_map_iff. exists []. split; [reflexivity | exact I0].
Qed.
Print Assumptions C273_blank_refuted.
Definition toy_parse (t : text) : res nat := match t with c :: _ => if Ascii.eqb c nl then Raise ValueError else Ok (nat_of_ascii c) | [] => Raise ValueError end.
(* A query that occurs on two lines is kept under its last number only. *)
Theorem C273_repeated_refuted : rmap entries (read_batch toy_parse as_is (file_of [["a"]; ["b"]; ["a"]]%char [])) = Ok [(3, 97); (2, 98)].
Proof. reflexivity. Qed.
Print Assumptions C273_repeated_refuted.
Example C273_ex : rmap entries (read_batch toy_parse as_is (file_of [["a"]; ["b"; "x"]]%char ["c"]%char)) = Ok [(1, 97); (2, 98); (3, 99)]
  /\ rmap entries (read_batch toy_parse as_is (file_of [["a"]; []; ["b"]]%char [])) = Raise ValueError.
Proof. split; reflexivity. Qed.

(** ** C274: tables of queries *)
Theorem C274_csv_partial : forall Q (EQ : EqD Q) (parse : text -> res Q) nsort cells queries, sorts nsort ->
  Forall2 (fun l q => parse l = Ok q) cells queries -> NoDup queries ->
  exists w, read_csv parse nsort cells = Ok w /\ forall i q, binds w i q <-> 1 <= i /\ nth_error queries (i - 1) = Some q.
Proof.
  intros Q EQ parse nsort cells queries S P N. unfold read_csv. rewrite (proj2 (rmapM_Forall2 _ _ _) P). apply C71_wrap_partial; assumption.
Qed.
Print Assumptions C274_csv_partial.
Theorem C274_labels_partial : forall Q L (EQ : EqD Q) (EL : EqD L) (parse : text -> res Q) (nsort : list L -> list L) rows queries, sorts nsort ->
  Forall2 (fun r q => parse (fst r) = Ok q) rows queries -> NoDup queries -> NoDup (map snd rows) ->
  exists w, read_csv_labels parse nsort rows = Ok w /\ forall l q, binds w l q <-> exists c, In (c, l) rows /\ parse c = Ok q.
Proof.
  intros Q L EQ EL parse nsort rows queries S P N NL. unfold read_csv_labels.
  assert (P' : Forall2 (fun l q => parse l = Ok q) (map fst rows) queries) by (clear - P; induction P; cbn; constructor; assumption).
  rewrite (proj2 (rmapM_Forall2 _ _ _) P'). cbn [rbind]. set (en := combine queries (map snd rows)).
  assert (K : map fst en = queries) by (unfold en; clear - P; induction P as [|[c l] q rows qs E P IH]; cbn; [reflexivity | f_equal; exact IH]).
  assert (V : map snd en = map snd rows) by (unfold en; clear - P; induction P as [|[c l] q rows qs E P IH]; cbn; [reflexivity | f_equal; exact IH]).
  assert (EN : forall q l, In (q, l) en <-> exists c, In (c, l) rows /\ parse c = Ok q).
  { unfold en. clear - P. induction P as [|[c l0] q0 rows qs E P IH]; intros q l; cbn; [split; [intros [] | intros (? & [] & _)]|]. rewrite IH. split.
    - intros [[= -> ->]|(c' & I0 & E')]; [exists c; auto | exists c'; auto].
    - intros (c' & [[= -> ->]|I0] & E'); [left; cbn in E; congruence | right; exists c'; auto]. }
  assert (Hwf : dwf en) by (unfold dwf, dkeys; rewrite K; exact N).
  assert (Hd : forall q l, In (q, l) (dict_of en) <-> In (q, l) en) by (intros q i; rewrite <- (dget_iff _ q i (dwf_dict_of en)), dict_of_spec; apply lastval_unique; exact Hwf).
  destruct (new_ok nsort S (invert (dict_of en))) as (w & E & Ed & _). exists w. split; [exact E|]. intros l q. unfold binds. rewrite item_Ok, Ed, dict_of_spec. unfold invert at 1. rewrite (lastval_wf _ l (dwf_dict_of _)). fold (invert (dict_of en)). rewrite invert_spec.
  rewrite lastval_unique.
  - rewrite in_map_iff. rewrite <- EN, <- Hd. split; [intros ([q' i'] & [= -> ->] & Hin); exact Hin|]. intros Hin. exists (q, l). auto.
  - rewrite map_map. rewrite (map_ext _ snd) by (intros [a b]; reflexivity). apply (Permutation_NoDup (l := map snd en)); [|rewrite V; exact NL]. apply Permutation_map. apply NoDup_Permutation.
    + apply (NoDup_map_inv fst). exact Hwf.
    + apply (NoDup_map_inv fst). apply (dwf_dict_of en).
    + intros [q' i']. symmetry. apply Hd.
Qed.
Print Assumptions C274_labels_partial.
(* One query with two labels: the first label is lost. *)
Theorem C274_labels_refuted : rmap entries (read_csv_labels toy_parse as_is [(["a"]%char, 10); (["b"]%char, 20); (["a"]%char, 30)]) = Ok [(30, 97); (20, 98)].
Proof. reflexivity. Qed.
Print Assumptions C274_labels_refuted.
Example C274_ex : rmap entries (read_csv_labels toy_parse as_is [(["a"]%char, 10); (["b"]%char, 20)]) = Ok [(10, 97); (20, 98)].
Proof. reflexivity. Qed.

(** ** C275: predefined workloads *)
Section Pre.
  Context {Q : Type} {EQ : EqD Q} (nsort : list string -> list string) (S : sorts nsort).
  Definition complete (w : workload string Q) (f : files Q) : Prop := forall l q, binds w l q <-> In (l, Some q) f.
  Lemma read_proper (f : files Q) : proper f -> exists w, read PRaise nsort "" f = Ok w /\ complete w f /\ w_data w <> [].
  Proof.
    intros (NE & N & P). destruct (C50_read_partial Q EQ PRaise nsort S "" f N P) as (w & W & B). exists w. split; [exact W|].
    assert (C : complete w f) by (intros l q; rewrite B; cbn; split; [intros (s & I0 & ->); exact I0 | intros I0; exists l; split; [exact I0 | reflexivity]]).
    split; [exact C|]. destruct f as [|[s [q|]] f]; [congruence | | exfalso; apply (P s); left; reflexivity].
    intros E. assert (H := proj2 (C s q) (or_introl eq_refl)). unfold binds, item in H. rewrite E in H. discriminate.
  Qed.
  Lemma load_present net (d : disk Q) n f : d n = Some f -> proper f -> exists w, load nsort net d n = (d, Ok w) /\ complete w f.
  Proof.
    intros D P. destruct (read_proper f P) as (w & R & C & NE). exists w. split; [|exact C]. unfold load, fetch_dir. rewrite D. cbn [rbind]. rewrite R. cbn [rbind].
    destruct (w_data w); [congruence | reflexivity].
  Qed.
  Lemma load_keeps net (d : disk Q) n m f : d m = Some f -> fst (load nsort net d n) m = Some f.
  Proof.
    intros D. unfold load, fetch_dir. destruct (d n) as [g|] eqn:E; [exact D|]. assert (m <> n) by congruence.
    assert (PD : forall g, put_dir (put_dir d n []) n g m = Some f /\ put_dir d n [] m = Some f).
    { intros g. unfold put_dir. destruct (eqd m n) as [->|]; [congruence | split; exact D]. }
    destruct (has_source n); [|apply (PD [])]. destruct (net n) as [|[g|]]; cbn [fst]; [apply (PD []) | apply PD | apply (PD [])].
  Qed.
  Lemma accesses_keep l : forall (d : disk Q) m f, d m = Some f -> accesses nsort d l m = Some f.
  Proof. induction l as [|[net n] l IH]; intros d m f D; [exact D|]. cbn. apply IH. apply load_keeps. exact D. Qed.
End Pre.
(* A first access with a working network loads the whole workload, and all later accesses do the same, even without a network. *)
Theorem C275_load_partial : forall Q (EQ : EqD Q) nsort (net : wname -> download Q) (d : disk Q) n f, sorts nsort ->
  d n = None -> has_source n = true -> net n = Archive (Some f) -> proper f ->
  exists w, snd (load nsort net d n) = Ok w /\ complete w f
    /\ forall later net', exists w', snd (load nsort net' (accesses nsort (fst (load nsort net d n)) later) n) = Ok w' /\ complete w' f.
Proof.
  intros Q EQ nsort net d n f S D H N P. destruct (read_proper nsort S f P) as (w & R & C & NE).
  assert (L : load nsort net d n = (put_dir (put_dir d n []) n f, Ok w)).
  { unfold load, fetch_dir. rewrite D, H, N. cbn [rbind]. rewrite R. cbn [rbind]. destruct (w_data w); [congruence | reflexivity]. }
  rewrite L. exists w. split; [reflexivity|]. split; [exact C|]. intros later net'. cbn [fst].
  assert (K : accesses nsort (put_dir (put_dir d n []) n f) later n = Some f).
  { apply accesses_keep. unfold put_dir. destruct (eqd n n); [reflexivity | congruence]. }
  destruct (load_present nsort S net' _ n f K P) as (w' & E & C'). exists w'. rewrite E. split; [reflexivity | exact C'].
Qed.
Print Assumptions C275_load_partial.
(* Queries that are already on the disk are loaded without the network. *)
Theorem C275_local_partial : forall Q (EQ : EqD Q) nsort (net : wname -> download Q) (d : disk Q) n f, sorts nsort -> d n = Some f -> proper f ->
  exists w, load nsort net d n = (d, Ok w) /\ complete w f.
Proof. intros Q EQ nsort net d n f S. apply load_present. exact S. Qed.
Print Assumptions C275_local_partial.
(* After one failed download the workload can never be loaded again, whatever the network does later. *)
Theorem C275_retry_refuted : forall Q (EQ : EqD Q) nsort (net : wname -> download Q) (d : disk Q) n, sorts nsort -> d n = None ->
  (has_source n = false \/ net n = Failed \/ net n = Archive None) ->
  (exists e, snd (load nsort net d n) = Raise e)
  /\ forall later net', snd (load nsort net' (accesses nsort (fst (load nsort net d n)) later) n) = Raise ValueError.
Proof.
  intros Q EQ nsort net d n S D H.
  assert (L : exists e, load nsort net d n = (put_dir d n [], Raise e)).
  { unfold load, fetch_dir. rewrite D. destruct (has_source n); [|exists ValueError; reflexivity]. destruct H as [H|[H|H]]; [discriminate | rewrite H; exists OtherError; reflexivity ..]. }
  destruct L as [e L]. rewrite L. cbn [fst snd]. split; [exists e; reflexivity|]. intros later net'.
  assert (K : accesses nsort (put_dir d n []) later n = Some []) by (apply accesses_keep; unfold put_dir; destruct (eqd n n); [reflexivity | congruence]).
  unfold load, fetch_dir. rewrite K. cbn [snd rbind]. unfold read. cbn [read_files rbind].
  destruct (new_ok nsort S ([] : dict string Q)) as (w & -> & E & _). cbn [rbind]. rewrite E. reflexivity.
Qed.
Print Assumptions C275_retry_refuted.
Theorem C275_names : forall Q (EQ : EqD Q) nsort (net : wname -> download Q) (d : disk Q) s,
  (forall n, In (s, n) [("job", Job); ("imdb", Job); ("job-light", JobLight); ("joblight", JobLight); ("job-complex", JobComplex); ("jobcomplex", JobComplex); ("stats", Stats); ("stack", Stack); ("ssb", Ssb)]%string ->
     fetch_workload nsort net d s = load nsort net d n)
  /\ (~ In s ["job"; "imdb"; "job-light"; "joblight"; "job-complex"; "jobcomplex"; "stats"; "stack"; "ssb"]%string -> fetch_workload nsort net d s = (d, Raise ValueError)).
Proof.
  intros Q EQ nsort net d s. split.
  - intros n I0. cbn in I0. repeat (destruct I0 as [[= <- <-]|I0]; [reflexivity|]). contradiction.
  - intros N. unfold fetch_workload, by_name.
    repeat match goal with |- context [String.eqb s ?x] => destruct (String.eqb_spec s x) as [->|]; [exfalso; apply N; cbn; tauto|] end. reflexivity.
Qed.
Print Assumptions C275_names.
Definition empty_disk : disk nat := fun _ => None.
Definition online (f : files nat) : wname -> download nat := fun _ => Archive (Some f).
Example C275_ex : rmap entries (snd (load as_is (online [("1a", Some 7); ("1b", Some 8)]%string) empty_disk Job)) = Ok [("1a", 7); ("1b", 8)]%string
  /\ snd (load as_is (online [("1a", Some 7)]%string) (fst (load as_is (fun _ => Failed) empty_disk Job)) Job) = Raise ValueError
  /\ snd (load as_is (online [("1a", Some 7)]%string) empty_disk Ssb) = Raise ValueError.
Proof. repeat split. Qed.
