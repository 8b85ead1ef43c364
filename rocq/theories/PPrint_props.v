(** Property theorems for C03 (text of predicates). *)
From Coq Require Import List Bool Arith Lia.
From Verif Require Import PyBase Pred_model Pred_spec Prec PPrint_model PPrint_spec PPrint_proofs Pred_props.
Import ListNotations.

(** The reading of a text is unique, so "the" meaning of a text is well defined. *)
Theorem C03_reading_unique : forall (E : Type) (ts : list (ptok E)) t t', preads ts t -> preads ts t' -> t = t'.
Proof. intros E ts t t'. apply reads_unique. apply pdisjoint. Qed.
Print Assumptions C03_reading_unique.

(** C03, what holds: if no conjunction is directly below a negation, the text can be read and whatever is read has the
    truth value of the predicate on every row, in three-valued logic and for every interpretation of expressions.
    Missing: negated conjunctions, which are refuted below. *)
Theorem C03_text_partial : forall (E : Type) (p : pred E), wfp p = true -> no_not_and p = true ->
  (exists t, preads (pprint p) t) /\
  forall t, preads (pprint p) t -> forall (I : interp E) (r : row I), tsem I r t = sem I r p.
Proof.
  intros E p Hwf Hs. destruct (pprint_main p Hwf Hs) as [t [H1 H2]].
  assert (Ht : preads (pprint p) t) by (apply g_down with (plevel p); [lia|apply plevel_le|assumption]).
  split; [eauto|]. intros t' Ht' I r. rewrite (C03_reading_unique E _ _ _ Ht' Ht). apply H2.
Qed.
Print Assumptions C03_text_partial.
Definition qa := PBin OpEq Ra (K 1). Definition qb := PIn Rb [K 1; K 2]. Definition qc := PBetween Sa (K 1) (K 9).
Example C03_ex : let p := PAnd [PAnd [qa; PNot qb]; PNot (POr [qa; PAnd [qb; qc]]); POr [PNot (PNot qc); qa]] in
  wfp p = true /\ no_not_and p = true /\
  pprint p = [TAtom (false, qa); TSym SAnd; TAtom (true, qb); TSym SAnd; TSym SNot; TL; TAtom (false, qa); TSym SOr; TL; TAtom (false, qb);
    TSym SAnd; TAtom (false, qc); TR; TR; TSym SAnd; TL; TL; TSym SNot; TSym SNot; TAtom (false, qc); TR; TSym SOr; TAtom (false, qa); TR].
Proof. repeat split. Qed.

(** The multi-line format of WHERE clauses is the same text. *)
Theorem C03_quick_format : forall (E : Type) (p : pred E), wfp p = true -> quick_format_pred p = pprint p.
Proof. exact @quick_format_same. Qed.
Print Assumptions C03_quick_format.

(** C03 is refuted by negated conjunctions: [NOT (a AND b)] is printed as [NOT a AND b]. *)
Theorem C03_text_refuted : exists (p : pred xe) t (r : row XI), wfp p = true /\ preads (pprint p) t /\
  sem XI r p = T3 /\ tsem XI r t = F3.
Proof.
  exists (PNot (PAnd [qa; qc])), (EBin SAnd (EUn SNot (EAtom (false, qa))) (EAtom (false, qc))),
         (fun c => if deqb c (mkcol (Some 0) 0) then Some 1 else Some 20).
  repeat split; try (vm_compute; reflexivity).
  apply (g_down 3 pblvl pulvl 0 1); [lia|lia|].
  apply (g_bin 3 pblvl pulvl 1 SAnd [TSym SNot; TAtom (false, qa)] _ [TAtom (false, qc)]); [lia|reflexivity| |].
  - apply g_up; [lia|]. apply g_un; [lia|reflexivity|]. apply g_up; [lia|]. apply g_atom.
  - apply g_up; [lia|]. apply g_atom.
Qed.
Print Assumptions C03_text_refuted.
(** More precisely, every negated conjunction that is otherwise fine is read as the conjunction in which only the first
    member is negated. *)
Theorem C03_negated_conjunction_refuted : forall (E : Type) (q : pred E) qs, wfp (PAnd (q :: qs)) = true -> no_not_and (PAnd (q :: qs)) = true ->
  match q with PAnd _ | PIn _ _ => False | _ => True end ->
  forall t, preads (pprint (PNot (PAnd (q :: qs)))) t -> forall (I : interp E) (r : row I), tsem I r t = sem I r (PAnd (PNot q :: qs)).
Proof.
  intros E q qs Hwf Hs Hq t Ht I r.
  assert (Heq : pprint (PNot (PAnd (q :: qs))) = pprint (PAnd (PNot q :: qs))).
  { destruct qs as [|q' qs]; [cbn in Hwf; discriminate|].
    change (pprint (PNot (PAnd (q :: q' :: qs)))) with (TSym SNot :: (pprint q ++ TSym SAnd :: sep_join SAnd (map pprint (q' :: qs)))).
    change (pprint (PAnd (PNot q :: q' :: qs))) with (pprint (PNot q) ++ TSym SAnd :: sep_join SAnd (map pprint (q' :: qs))).
    destruct q; try destruct Hq; reflexivity. }
  rewrite Heq in Ht. apply (C03_text_partial E (PAnd (PNot q :: qs))); [|cbn [no_not_and forallb] in *|exact Ht].
  - exact Hwf.
  - destruct q; try destruct Hq; exact Hs.
Qed.
Print Assumptions C03_negated_conjunction_refuted.
