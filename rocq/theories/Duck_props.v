(** C129-C131: plans and hints of DuckDB. *)
From Coq Require Import List Bool Arith ZArith String Ascii Permutation Lia.
From Verif Require Import PyBase FSet Hint_model Card_model QPlan_model JT_model Lim_model PGHint_model PGHint_spec Duck_model Duck_spec Duck_proofs.
Import ListNotations.
Open Scope list_scope.
Open Scope nat_scope.

(** ** C129 binding of scan nodes *)
Definition ltxt := list_ascii_of_string.
(** Tables 1 and 2 are the same relation 7, table 3 is relation 8. *)
Definition ex_full (t : nat) : nat := match t with 1 | 2 => 7 | _ => 8 end.
Definition ex_filt (t : nat) : option text := match t with 1 => Some (ltxt "t1.kind = 'movie'") | 2 => Some (ltxt "t2.year > 2000") | _ => None end.
Definition ex_scan (rel : nat) (f : string) : rdata := mkr (Some 1) (Some 0) (Some rel) (ltxt f) (Some 10%Z) (Some 12%Z) (Some 3).
(** Binding never fails, and a table is only bound to scans of its relation. *)
Theorem C129_sound fullname filt tabs d : exists o, bind_node fullname filt tabs d = Ok o /\ forall t, o = Some t -> In t tabs /\ r_table d = Some (fullname t).
Proof. destruct (bind_ok fullname filt tabs d) as [o E]. exists o. split; [assumption|]. intros t ->. now apply bind_sound with filt. Qed.
Print Assumptions C129_sound.
(** A relation that occurs once is bound. *)
Theorem C129_unique_partial fullname filt tabs d t : NoDup tabs -> r_table d = Some (fullname t) -> In t tabs -> (forall u, In u tabs -> fullname u = fullname t -> u = t) ->
  bind_node fullname filt tabs d = Ok (Some t).
Proof. apply bind_unique. Qed.
Print Assumptions C129_unique_partial.
Example C129_unique_ex : bind_node ex_full ex_filt [1; 2; 3] (ex_scan 8 "") = Ok (Some 3). Proof. reflexivity. Qed.
(** A relation that occurs several times is bound exactly to the occurrence whose filter is clearly the most similar one. *)
Theorem C129_choice fullname filt tabs d rel t : NoDup tabs -> r_table d = Some rel -> 2 <= List.length (filter (fun t => fullname t =? rel) tabs) ->
  (bind_node fullname filt tabs d = Ok (Some t) <->
   In t tabs /\ fullname t = rel /\ forall u, In u tabs -> fullname u = rel -> u <> t -> clearly_better filt d t u).
Proof.
  intros N E L. rewrite (bind_choice fullname filt tabs d rel t N E L). rewrite filter_In, Nat.eqb_eq. split.
  - intros [[H1 H2] H3]. split; [assumption|]. split; [assumption|]. intros u Hu Eu. apply H3. rewrite filter_In, Nat.eqb_eq. auto.
  - intros (H1 & H2 & H3). split; [auto|]. intros u. rewrite filter_In, Nat.eqb_eq. intros [Hu Eu]. now apply H3.
Qed.
Print Assumptions C129_choice.
Example C129_choice_ex : bind_node ex_full ex_filt [1; 2; 3] (ex_scan 7 "kind='movie'") = Ok (Some 1) /\ bind_node ex_full ex_filt [1; 2; 3] (ex_scan 7 "year>2000") = Ok (Some 2).
Proof. split; reflexivity. Qed.
(** A scan without filters of a relation that occurs several times is never bound: the missing filter is written as "None". *)
Theorem C129_no_filter_partial fullname filt tabs d rel : r_table d = Some rel -> 2 <= List.length (filter (fun t => fullname t =? rel) tabs) -> solid (r_filter d) = [] ->
  (forall t p, In t tabs -> filt t = Some p -> solid p <> []) -> bind_node fullname filt tabs d = Ok None.
Proof.
  intros E L Hf Hne. eapply bind_no_filter; eauto. intros t Ht. unfold filter_string. destruct (filt t) as [p|] eqn:Ep; [now apply (Hne t)|discriminate].
Qed.
Print Assumptions C129_no_filter_partial.
(** Hence a query with a filtered and an unfiltered occurrence of a relation has a plan whose unfiltered scan has no table, although only one
    occurrence can be meant. *)
Definition ex_filt1 (t : nat) : option text := match t with 1 => Some (ltxt "t1.kind = 'movie'") | _ => None end.
Theorem C129_unfiltered_refuted : exists fullname filt tabs d, (exists t u, In t tabs /\ In u tabs /\ t <> u /\ r_table d = Some (fullname t) /\ r_table d = Some (fullname u)
   /\ filt t = None /\ (forall v, In v tabs -> v <> t -> r_table d = Some (fullname v) -> filt v <> None)) /\ r_filter d = [] /\ bind_node fullname filt tabs d = Ok None.
Proof.
  exists ex_full, ex_filt1, [1; 2], (ex_scan 7 ""). split; [|split; reflexivity]. exists 2, 1. split; [right; now left|]. split; [now left|]. split; [discriminate|].
  split; [reflexivity|]. split; [reflexivity|]. split; [reflexivity|]. intros v [<-|[<-|[]]] Hv _; [discriminate|contradiction].
Qed.
Print Assumptions C129_unfiltered_refuted.

(** ** C130 parsing of plans *)
Definition op (n : nat) (time : nat) (ch : list raw) : raw := Raw (mkr (Some n) None None [] (Some 5%Z) (Some 6%Z) (Some time)) ch.
Definition ex_plan : raw := Raw (mkr None None None [] None None None) [op 4 0 [op 9 1 [op 0 10 [Raw (ex_scan 8 "") []; Raw (ex_scan 7 "kind='movie'") []]]]].
(** One node for each operator below the wrappers, with its operator, its estimates and measures, the time of the whole subtree, and base
    tables of the right relation. *)
Theorem C130_plan_partial fullname filt qtabs r p : parse_plan fullname filt qtabs r = Ok p -> shows (duck_states fullname qtabs) r p.
Proof. intros E. now apply parse_shows in E. Qed.
Print Assumptions C130_plan_partial.
Theorem C130_total fullname filt qtabs r :
  (exists p, parse_plan fullname filt qtabs r = Ok p) <-> (forall x, within_raw r x -> wraps x -> List.length (rch x) = 1).
Proof. split; [intros [p E]; eapply parse_wrappers; exact E|apply parse_total]. Qed.
Print Assumptions C130_total.
Example C130_plan_ex : exists p, parse_plan ex_full ex_filt (Some [1; 2; 3]) ex_plan = Ok p
  /\ map (fun n => (ntype (data n), oper (data n), base (data n), m_time (meas (data n)))) (iter_all p)
     = [(9, None, None, Some 17); (0, Some (PJoin 1), None, Some 16); (1, Some (PScan 0), Some 3, Some 3); (1, Some (PScan 0), Some 1, Some 3)].
Proof. eexists. split; reflexivity. Qed.
(** Other joins than hash joins are not joins of the resulting plan, although the hints of the same backend can ask for them. *)
Theorem C130_joins_refuted : exists fullname filt qtabs r p, is_duck_join (rd r) /\ List.length (rch r) = 2 /\ parse_plan fullname filt qtabs r = Ok p /\ is_join p = false
  /\ (exists kw, duck_keyword (PJoin 0) kw).
Proof.
  exists ex_full, ex_filt, (Some [1; 2; 3]), (op 5 1 [Raw (ex_scan 8 "") []; Raw (ex_scan 7 "") []]). eexists. split; [exists 5; cbn; auto|]. split; [reflexivity|]. split; [reflexivity|].
  split; [reflexivity|]. exists "NestLoop"%string. constructor.
Qed.
Print Assumptions C130_joins_refuted.

(** ** C131 hints *)
Section Hints.
  Context {A C V : Type} (name : nat -> string) (iter : list nat -> list nat) (card_text : C -> option string) (set_name : nat -> string) (set_value : V -> string).
  Notation gen := (@generate_parts A C V name iter card_text set_name set_value).
  (** Every request is answered by a line, every line that is not empty answers a request, and every setting has its statement. *)
  Theorem C131_lines_partial jo ops pp r : (forall l, Permutation (iter l) l) -> gen None jo ops pp = Ok r ->
    (forall R, request name card_text jo ops pp R -> exists h l, r = Some h /\ In l (hints h) /\ R l)
    /\ (forall h l, r = Some h -> In l (hints h) -> l <> ""%string -> exists R, request name card_text jo ops pp R /\ R l)
    /\ (forall l, (exists h, r = Some h /\ In l (settings h)) <-> exists p k v, pp = Some p /\ In (k, v) (pp_settings p) /\ l = (set_name k ++ " = " ++ set_value v ++ ";")%string).
  Proof.
    intros Hit E. apply (gen_ok name iter card_text set_name set_value) in E as [H1 H2]. split; [|split].
    - intros R HR. destruct (request_all_lines name iter card_text Hit jo ops pp R HR) as (l & Rl & Al & Hl). apply (H1 l Hl) in Al as (h & Eh & Hin). exists h, l. auto.
    - intros h l Eh Hin Hl. apply (all_lines_request name iter card_text Hit). apply (H1 l Hl). eauto.
    - exact H2.
  Qed.
  (** Hinting succeeds exactly if everything is supported. *)
  Theorem C131_supported jo ops pp : is_ok (gen None jo ops pp) = true <-> supported ops pp /\ (forall t, jo = Some t -> 3 <= jt_len t -> order_of t <> None).
  Proof. apply gen_total. Qed.
  (** A plan is hinted like the parts extracted from it; plans together with other parts are refused. *)
  Theorem C131_plans t o p jo ops pp :
    gen (Some (t, o, p)) None None None = gen None t (Some o) (Some p)
    /\ (jo <> None \/ ops <> None \/ pp <> None -> gen (Some (t, o, p)) jo ops pp = Raise ValueError).
  Proof. split; [reflexivity|]. destruct jo, ops, pp; intros [H|[H|H]]; congruence || reflexivity. Qed.
  (** Nothing to be said and no parameters: no block. *)
  Theorem C131_no_block_partial jo ops : (forall R, ~ request name card_text jo ops (@None (@pparams C V)) R) ->
    (forall p, ops = Some p -> poa_bool p = false) -> forall r, gen None jo ops None = Ok r -> r = None.
  Proof.
    intros H Hp r. unfold generate_parts. cbn [rbind].
    destruct (match jo with Some t => order_parts name t | None => Ok no_parts end) as [h0|] eqn:E0; [|discriminate]. cbn [rbind].
    assert (Z : parts_bool h0 = false).
    { destruct jo as [t|]; [|injection E0 as <-; reflexivity]. apply order_parts_ok in E0 as [S Hl]. unfold parts_bool. rewrite S. destruct (hints h0) as [|l ls]; [reflexivity|]. exfalso.
      destruct (proj1 (Hl l) (or_introl eq_refl)) as [L (o & Eo & _)]. eapply H, rq_order; eauto. }
    rewrite Z. destruct ops as [p|]; [rewrite (Hp p eq_refl)|]; cbn [rbind]; intros [= <-]; reflexivity.
  Qed.
End Hints.
Print Assumptions C131_lines_partial.
Print Assumptions C131_supported.
Print Assumptions C131_plans.
Print Assumptions C131_no_block_partial.

Open Scope string_scope.
Definition nm (t : nat) : string := match t with 1 => "a" | 2 => "b" | _ => "c" end.
Definition ex_jt : jt nat unit := JJoin false (JScan false 1 tt) (JJoin false (JScan false 2 tt) (JScan false 3 tt) tt) tt.
Definition ex_poa : poa := mkpoa [(PJoin 2, false)] [([1; 2], mkja 0 1 [1; 2] None None)] [] [(3, mksa 1 0 3 None)].
Definition ex_pp : @pparams Z nat := mkpp [([1; 2], 42%Z)] [] [(0, 4)] None.
Definition ex_gen := @generate_parts unit Z nat nm (fun l => l) (fun z => if (0 <? z)%Z then Some (num z) else None) (fun _ => "threads") (fun v => num (Z.of_nat v)).
Example C131_lines_ex : ex_gen None (Some ex_jt) (Some ex_poa) (Some ex_pp)
  = Ok (Some (mkparts ["threads = 4;"] ["JoinOrder((a (b c)))"; ""; "SeqScan(c)"; "HashJoin(a b)"; "Set(enable_mergejoin = 'off')"; ""; "Card(a b #42)"])).
Proof. reflexivity. Qed.
(** Parameters without a single hint still give a block, which has only an empty line. *)
Theorem C131_empty_block_refuted : exists pp h, (forall R, ~ request nm (fun z => if (0 <? z)%Z then Some (num z) else None) (@None (jt nat unit)) None (Some pp) R) /\ pp_settings pp = []
  /\ ex_gen None None None (Some pp) = Ok (Some h) /\ hints h = [""].
Proof.
  exists (mkpp [([1; 2], (-1)%Z)] [] [] None). eexists. split; [|split; [reflexivity|split; reflexivity]].
  intros R H. inversion H as [t o E|p t a kw E|p ts a kw E|p o b kw E|p ts c n E Hin K]; try discriminate. injection E as <-. destruct Hin as [[= <- <-]|[]]. discriminate K.
Qed.
Print Assumptions C131_empty_block_refuted.
(** The statements of system settings do not set anything: SET is missing. *)
Theorem C131_settings_refuted : exists pp h l, ex_gen None None None (Some pp) = Ok (Some h) /\ pp_settings pp <> [] /\ In l (settings h) /\ ~ starts_with "SET " l.
Proof.
  exists ex_pp. do 2 eexists. split; [reflexivity|]. split; [discriminate|]. split; [now left|]. intros [r E]. discriminate E.
Qed.
Print Assumptions C131_settings_refuted.
