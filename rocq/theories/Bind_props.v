(** C97-C98: how the parser binds names. *)
From Coq Require Import List Bool Arith Lia.
From Verif Require Import PyBase Bind_model Bind_spec Bind_proofs BindC_proofs.
Import ListNotations.

(** ** C97: every name stands for the table that SQL says it stands for.
    Missing for the full claim: queries whose names are not plain, see the refutations below. *)
Theorem C97_binding_partial (schema : name -> list name) (q : query) :
  plain_names schema q -> parse_query true schema [] q = Ok (answers (fst (sql schema [] [] q)), snd (sql schema [] [] q)).
Proof.
  intros (al & is_cte & qual & N & G). apply (query_ok schema al is_cte qual q [] [] []); [|exact N|exact G].
  split; [intros n k t []|intros n k t []|intros n k t []|intros s v []|intros x s H; discriminate].
Qed.
Print Assumptions C97_binding_partial.
(** Tables R (1) with columns a (11), b (12); S (2) with c (13), d (14). *)
Definition cat (t : name) : list name := match t with 1 => [11; 12] | 2 => [13; 14] | 7 => [11; 17] | _ => [] end.
Definition tR := T (Some 1) None false. Definition tS := T (Some 2) None false. Definition tT := T (Some 7) None false.
(** WITH x AS (SELECT R.a FROM R)
    SELECT s.c AS k, e, x.* FROM R JOIN S AS s ON R.b = d, (SELECT c AS e FROM S) AS t, x
    WHERE b = 1 AND EXISTS (SELECT * FROM S WHERE c = R.a) ORDER BY k *)
Definition exq : query :=
  QSel [CQ 3 [] (QSel [] [FTab 1 None] [TCol (Qu 1 11) None] [] [])]
       [FJoin (FTab 1 None) (FTab 2 (Some 5)) [IRef (Qu 1 12); IRef (Un 14)]; FSub (Some 6) [] false (QSel [] [FTab 2 None] [TCol (Un 13) (Some 15)] [] []); FTab 3 None]
       [TCol (Qu 5 13) (Some 20); TCol (Un 15) None; TStarOf 3]
       [IRef (Un 12); ISub (QSel [] [FTab 2 None] [TStar] [IRef (Un 13); IRef (Qu 1 11)] [])]
       [OBare 20].
Example C97_binding_ex : plain_names cat exq.
Proof.
  exists (fun k => match k with 5 => Some (T (Some 2) (Some 5) false) | 6 => Some (virt 6) | _ => None end), (fun k => k =? 3), (fun k => negb (k =? 2)). split.
  - cbn. repeat split; auto; repeat constructor; cbn; intuition discriminate.
  - cbn. repeat constructor; cbn; try discriminate; auto.
Qed.
Example C97_binding_ex2 : parse_query true cat [] exq = Ok (
  [Some tR; Some tR;                                                             (* x: FROM R, R.a *)
   Some tR; Some (T (Some 2) (Some 5) false); Some tR; Some (T (Some 2) (Some 5) false); Some tS; Some tS; Some (virt 3);  (* FROM *)
   Some (T (Some 2) (Some 5) false); Some (virt 6); Some (virt 3);               (* s.c, e, x.* *)
   Some tR; Some tS; Some tS; Some tR; None], [20; 15; 11]).
Proof. reflexivity. Qed.

(** What the parser answers and what SQL says. *)
Definition parsed (q : query) := parse_query true cat [] q.
Definition meant (q : query) := answers (fst (sql cat [] [] q)).

(** SELECT R.a FROM R, R AS s: R.a is taken for s.a. *)
Theorem C97_self_join_refuted : exists q, meant q = [Some tR; Some (T (Some 1) (Some 5) false); Some tR] /\
  parsed q = Ok ([Some tR; Some (T (Some 1) (Some 5) false); Some (T (Some 1) (Some 5) false)], [11]).
Proof. exists (QSel [] [FTab 1 None; FTab 1 (Some 5)] [TCol (Qu 1 11) None] [] []). split; reflexivity. Qed.
Print Assumptions C97_self_join_refuted.
(** SELECT R.a AS b FROM R WHERE b: b is not bound. *)
Theorem C97_alias_hides_column_refuted : exists q, meant q = [Some tR; Some tR; Some tR] /\ parsed q = Ok ([Some tR; Some tR; None], [12]).
Proof. exists (QSel [] [FTab 1 None] [TCol (Qu 1 11) (Some 12)] [IRef (Un 12)] []). split; reflexivity. Qed.
Print Assumptions C97_alias_hides_column_refuted.
(** SELECT a FROM R WHERE EXISTS (SELECT c FROM S WHERE c = b): b belongs to the outer query and is not bound. *)
Theorem C97_outer_column_refuted : exists q, meant q = [Some tR; Some tR; Some tS; Some tS; Some tS; Some tR] /\
  parsed q = Ok ([Some tR; Some tR; Some tS; Some tS; Some tS; None], [11]).
Proof. exists (QSel [] [FTab 1 None] [TCol (Un 11) None] [ISub (QSel [] [FTab 2 None] [TCol (Un 13) None] [IRef (Un 13); IRef (Un 12)] [])] []). split; reflexivity. Qed.
Print Assumptions C97_outer_column_refuted.
(** WITH x AS (SELECT R.a FROM R) SELECT a FROM x AS y: a is not bound. *)
Theorem C97_cte_alias_refuted : exists q, meant q = [Some tR; Some tR; Some (T (Some 3) (Some 5) true); Some (T (Some 3) (Some 5) true)] /\
  parsed q = Ok ([Some tR; Some tR; Some (T (Some 3) (Some 5) true); None], [11]).
Proof. exists (QSel [CQ 3 [] (QSel [] [FTab 1 None] [TCol (Qu 1 11) None] [] [])] [FTab 3 (Some 5)] [TCol (Un 11) None] [] []). split; reflexivity. Qed.
Print Assumptions C97_cte_alias_refuted.
(** WITH R AS (SELECT a FROM R) SELECT a FROM R: the table R in the CTE is taken for the CTE itself, and its column a is not bound. *)
Theorem C97_cte_hides_table_refuted : exists q, meant q = [Some tR; Some tR; Some (virt 1); Some (virt 1)] /\
  parsed q = Ok ([Some (virt 1); None; Some (virt 1); Some (virt 1)], [11]).
Proof. exists (QSel [CQ 1 [] (QSel [] [FTab 1 None] [TCol (Un 11) None] [] [])] [FTab 1 None] [TCol (Un 11) None] [] []). split; reflexivity. Qed.
Print Assumptions C97_cte_hides_table_refuted.
(** SELECT x FROM (SELECT R.a FROM R) AS t (x): the column names are dropped and x is not bound. *)
Theorem C97_column_names_refuted : exists q, meant q = [Some tR; Some tR; Some (virt 6)] /\ parsed q = Ok ([Some tR; Some tR; None], [30]).
Proof. exists (QSel [] [FSub (Some 6) [30] false (QSel [] [FTab 1 None] [TCol (Qu 1 11) None] [] [])] [TCol (Un 30) None] [] []). split; reflexivity. Qed.
Print Assumptions C97_column_names_refuted.
(** The query SELECT t.x FROM f() AS t cannot be parsed. *)
Theorem C97_function_refuted : exists q, meant q = [Some (virt 6)] /\ parsed q = Raise RuntimeError.
Proof. exists (QSel [] [FFun (Some 6) []] [TCol (Qu 6 30) None] [] []). split; reflexivity. Qed.
Print Assumptions C97_function_refuted.
(** Neither can SELECT a FROM (SELECT a FROM R). *)
Theorem C97_anonymous_subquery_refuted : exists q, meant q = [Some tR; Some tR; Some (T None None true)] /\ parsed q = Raise ValueError.
Proof. exists (QSel [] [FSub None [] false (QSel [] [FTab 1 None] [TCol (Un 11) None] [] [])] [TCol (Un 11) None] [] []). split; reflexivity. Qed.
Print Assumptions C97_anonymous_subquery_refuted.
(** SELECT R.b FROM R, S JOIN T ON S.c = a: a belongs to T (7), and is taken for R.a. *)
Theorem C97_join_condition_refuted : exists q, meant q = [Some tR; Some tS; Some tT; Some tS; Some tT; Some tR] /\
  parsed q = Ok ([Some tR; Some tS; Some tT; Some tS; Some tR; Some tR], [12]).
Proof. exists (QSel [] [FTab 1 None; FJoin (FTab 2 None) (FTab 7 None) [IRef (Qu 2 13); IRef (Un 11)]] [TCol (Qu 1 12) None] [] []). split; reflexivity. Qed.
Print Assumptions C97_join_condition_refuted.
(** SELECT T.a FROM R, T ORDER BY a sorts by R.a. *)
Theorem C97_order_by_refuted : exists q, meant q = [Some tR; Some tT; Some tT; Some tT] /\ parsed q = Ok ([Some tR; Some tT; Some tT; Some tR], [11]).
Proof. exists (QSel [] [FTab 1 None; FTab 7 None] [TCol (Qu 7 11) None] [] [OBare 11]). split; reflexivity. Qed.
Print Assumptions C97_order_by_refuted.
(** WITH x AS (SELECT R.a FROM R), y AS (SELECT S.c FROM S) SELECT * FROM x AS y has the column a; the parser says c. *)
Theorem C97_star_columns_refuted : exists q, snd (sql cat [] [] q) = [11] /\
  parsed q = Ok ([Some tR; Some tR; Some tS; Some tS; Some (T (Some 3) (Some 4) true)], [13]).
Proof. exists (QSel [CQ 3 [] (QSel [] [FTab 1 None] [TCol (Qu 1 11) None] [] []); CQ 4 [] (QSel [] [FTab 2 None] [TCol (Qu 2 13) None] [] [])] [FTab 3 (Some 4)] [TStar] [] []). split; reflexivity. Qed.
Print Assumptions C97_star_columns_refuted.

(** ** C98: the cache of column lookups never changes the result: every query is parsed as if there was none. *)
Theorem C98_cache_transparent (schema : name -> list name) (q : query) : parse_query true schema [] q = parse_query false schema [] q.
Proof. apply query_same. constructor. Qed.
Print Assumptions C98_cache_transparent.
(** The same within a surrounding query. *)
Theorem C98_cache_transparent_nested (schema : name -> list name) (anc : list ns) (q : query) : parse_query true schema anc q = parse_query false schema anc q.
Proof. apply query_same, alike_refl. Qed.
Print Assumptions C98_cache_transparent_nested.
(** Here the cache is used: the second a is found there, and the table T registered after R JOIN S ON a = c does not change the answer. *)
Example C98_cache_ex : fst (lookup_column true cat [] (register_table empty_ns tR) 11) = Some tR
  /\ n_cache (snd (lookup_column true cat [] (register_table empty_ns tR) 11)) = [(11, tR)]
  /\ parse_query false cat [] (QSel [] [FJoin (FTab 1 None) (FTab 2 None) [IRef (Un 11); IRef (Un 13)]; FTab 7 None] [TCol (Un 11) None; TCol (Un 11) None] [] [])
     = Ok ([Some tR; Some tS; Some tR; Some tS; Some tT; Some tR; Some tR], [11; 11]).
Proof. repeat split. Qed.
