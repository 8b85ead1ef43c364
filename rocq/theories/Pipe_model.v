(** Model of the optimization pipelines, postbound/_pipelines.py 320-1294: which components are used when.

    A component (optimization stage) is an identity together with its pre-check.  The optimization itself is not modelled:
    a successful call of query_execution_plan / optimize_query reports the database system, the components and the query it runs
    with.  Pre-checks come from Check_model.v. *)
From Coq Require Import List Bool Arith.
From Verif Require Import PyBase Check_model.
Import ListNotations.

Section Pipelines.
  (** [is_sql q]: the query is an instance of SqlQuery; a SetQuery is not (qal/_qal.py 8390, 9396). *)
  Context {Q D : Type} (is_sql : Q -> bool).
  Notation check := (check Q D).

  (** OptimizationStage with pre_check(), _stages.py 346-354, 838-846 *)
  Record comp := mkcomp { cp_id : nat; cp_check : check }.

  (** PreCheckResult.ensure_all_passed, validation.py 127-155.  Unsupported...Error is a RuntimeError. *)
  Inductive context := NoContext | QueryContext (q : Q) | DbContext.
  Definition ensure_all_passed (r : result) (c : context) : res unit :=
    if passed r then Ok tt
    else match c with
         | NoContext => Raise StateError
         | QueryContext q => if is_sql q then Raise RuntimeError else Ok tt
         | DbContext => Raise RuntimeError
         end.

  (** The effect of a call: nothing to report, an exception, or an optimization. *)
  Inductive outcome := Done | Failed (e : exn) | Ran (d : D) (cs : list comp) (q : Q).
  Definition to_outcome (r : res unit) (o : outcome) : outcome := match r with Ok _ => o | Raise e => Failed e end.

  (** Executing calls one after the other. *)
  Fixpoint run {S O} (step : S -> O -> S * outcome) (s : S) (ops : list O) : list outcome :=
    match ops with [] => [] | o :: ops => let (s', out) := step s o in out :: run step s' ops end.
  Definition exec {S O} (step : S -> O -> S * outcome) (s : S) (ops : list O) : S := fold_left (fun s o => fst (step s o)) ops s.

  (** ** IntegratedOptimizationPipeline 320-472 *)
  Record integrated := mkint { i_db : D; i_alg : option comp; i_built : bool }.
  Inductive iop := ISetDb (d : D) | IUse (c : comp) | IBuild | IRun (q : Q).
  Definition i_init (d : D) : integrated := mkint d None false.
  Definition i_step (s : integrated) (o : iop) : integrated * outcome :=
    match o with
    | ISetDb d => (mkint d (i_alg s) false, Done)
    (* setup_optimization_algorithm 376-393 keeps _build *)
    | IUse c => (mkint (i_db s) (Some c) (i_built s), Done)
    | IBuild => (* 399-432 *)
        match i_alg s with
        | None => (s, Failed StateError)
        | Some c =>
            match ensure_all_passed (check_db (cp_check c) (i_db s)) NoContext with
            | Ok _ => (mkint (i_db s) (i_alg s) true, Done)
            | Raise e => (s, Failed e)
            end
        end
    | IRun q => (* 434-446 *)
        (s, if i_built s
            then match i_alg s with
                 | None => Failed AssertionError
                 | Some c => to_outcome (ensure_all_passed (check_query (cp_check c) q) NoContext) (Ran (i_db s) [c] q)
                 end
            else Failed StateError)
    end.

  (** ** TextBookOptimizationPipeline 475-668 *)
  Record textbook := mktb { t_db : D; t_est : comp; t_cost : comp; t_enum : comp; t_check : check; t_built : bool }.
  Inductive top := TEst (c : comp) | TCost (c : comp) | TEnum (c : comp) | TBuild | TRun (q : Q).
  Definition t_init (d : D) (est cost enum : comp) : textbook := mktb d est cost enum CEmpty false.
  Definition t_comps (s : textbook) : list comp := [t_est s; t_cost s; t_enum s].
  Definition t_step (s : textbook) (o : top) : textbook * outcome :=
    match o with
    | TEst c => (mktb (t_db s) c (t_cost s) (t_enum s) (t_check s) false, Done)
    | TCost c => (mktb (t_db s) (t_est s) c (t_enum s) (t_check s) false, Done)
    | TEnum c => (mktb (t_db s) (t_est s) (t_cost s) c (t_check s) false, Done)
    | TBuild => (* 585-620 *)
        let ck := merge_checks (map cp_check (t_comps s)) in
        match ensure_all_passed (check_db ck (t_db s)) DbContext with
        | Ok _ => (mktb (t_db s) (t_est s) (t_cost s) (t_enum s) ck true, Done)
        | Raise e => (mktb (t_db s) (t_est s) (t_cost s) (t_enum s) ck (t_built s), Failed e)
        end
    | TRun q => (* 622-629 *)
        (s, if t_built s then to_outcome (ensure_all_passed (check_query (t_check s) q) (QueryContext q)) (Ran (t_db s) (t_comps s) q) else Failed StateError)
    end.

  (** ** MultiStageOptimizationPipeline 671-1066 *)
  Record multi := mkms { m_db : D; m_check : check; m_join : option comp; m_op : option comp; m_param : option comp; m_built : bool }.
  Inductive mop := MDb (d : D) | MCheck (c : check) | MJoin (c : comp) | MOp (c : comp) | MParam (c : comp) | MBuild | MRun (q : Q).
  Definition m_init (d : D) : multi := mkms d CEmpty None None None false.
  Definition opt_list {A} (o : option A) : list A := match o with Some x => [x] | None => [] end.
  Definition m_comps (s : multi) : list comp := opt_list (m_join s) ++ opt_list (m_op s) ++ opt_list (m_param s).
  Definition m_step (s : multi) (o : mop) : multi * outcome :=
    match o with
    | MDb d => (mkms d (m_check s) (m_join s) (m_op s) (m_param s) false, Done)
    | MCheck c => (mkms (m_db s) c (m_join s) (m_op s) (m_param s) false, Done)
    | MJoin c => (mkms (m_db s) (m_check s) (Some c) (m_op s) (m_param s) false, Done)
    | MOp c => (mkms (m_db s) (m_check s) (m_join s) (Some c) (m_param s) false, Done)
    | MParam c => (mkms (m_db s) (m_check s) (m_join s) (m_op s) (Some c) false, Done)
    | MBuild => (* 935-973: the merged check replaces the support check *)
        let ck := merge_checks (m_check s :: map cp_check (m_comps s)) in
        let s' b := mkms (m_db s) ck (m_join s) (m_op s) (m_param s) b in
        if passed (check_db ck (m_db s)) then (s' true, Done) else (s' (m_built s), Failed RuntimeError)
    | MRun q => (* 982-1021 *)
        (s, if m_built s then (if passed (check_query (m_check s) q) then Ran (m_db s) (m_comps s) q else Failed RuntimeError) else Failed StateError)
    end.

  (** ** IncrementalOptimizationPipeline 1069-1294 *)
  Record incremental := mkinc { n_db : D; n_init : option comp; n_steps : list comp }.
  Inductive nop := NDb (d : D) | NInit (c : option comp) | NStep (c : comp) | NRun (q : Q).
  Definition n_start (d : D) : incremental := mkinc d None [].
  Definition n_comps (s : incremental) : list comp := opt_list (n_init s) ++ n_steps s.
  Fixpoint ensure_each (f : comp -> result) (c : context) (cs : list comp) : res unit :=
    match cs with [] => Ok tt | x :: cs => rbind (ensure_all_passed (f x) c) (fun _ => ensure_each f c cs) end.
  (** _ensure_pipeline_integrity 1204-1260 *)
  Definition integrity (s : incremental) (d : option D) (i : option comp) (st : option comp) : res unit :=
    let db := match d with Some d => d | None => n_db s end in
    let init := match i with Some c => Some c | None => n_init s end in
    ensure_each (fun c => check_db (cp_check c) db) DbContext (opt_list init ++ opt_list st ++ n_steps s).
  Definition n_step (s : incremental) (o : nop) : incremental * outcome :=
    match o with
    | NDb d => match integrity s (Some d) None None with Ok _ => (mkinc d (n_init s) (n_steps s), Done) | Raise e => (s, Failed e) end
    | NInit c => match integrity s None c None with Ok _ => (mkinc (n_db s) c (n_steps s), Done) | Raise e => (s, Failed e) end
    | NStep c => match integrity s None None (Some c) with Ok _ => (mkinc (n_db s) (n_init s) (n_steps s ++ [c]), Done) | Raise e => (s, Failed e) end
    | NRun q => (* 1174-1183 and _ensure_supported_query 1262-1287 *)
        (s, to_outcome (ensure_each (fun c => check_query (cp_check c) q) (QueryContext q) (n_comps s)) (Ran (n_db s) (n_comps s) q))
    end.
End Pipelines.
Arguments comp : clear implicits.
Arguments outcome : clear implicits.
Arguments integrated : clear implicits.
Arguments textbook : clear implicits.
Arguments multi : clear implicits.
Arguments incremental : clear implicits.
Arguments iop : clear implicits.
Arguments top : clear implicits.
Arguments mop : clear implicits.
Arguments nop : clear implicits.
