(** Model of PhysicalOperatorAssignment, PlanParameterization and the operator assignments, postbound/_hints.py 25-1211, and of
    the JSON reader opt/_helpers.py 89-141.
    Tables are numbers, operators are numbers of their kind, frozensets are canonical lists. *)
From Coq Require Import List Bool Arith ZArith.
From Verif Require Import PyBase FSet Dicts_model.
Import ListNotations.

Notation tbl := nat (only parsing).
(** ScanOperator, JoinOperator and IntermediateOperator members. *)
Inductive physop := PScan (n : nat) | PJoin (n : nat) | PInter (n : nat).
#[global] Instance EqD_physop : EqD physop.
Proof. intros a b. unfold EqD in *. decide equality; apply Nat.eq_dec. Defined.

(** ScanOperatorAssignment 882-977.  [sa_id] is the identity of the object, [None] are NaN workers. *)
Record sassign := mksa { sa_id : nat; sa_op : nat; sa_tab : tbl; sa_par : option nat }.
(** JoinOperatorAssignment 980-1116 and DirectionalJoinOperatorAssignment 1119-1211 ([ja_dir] = inner and outer). *)
Record jassign := mkja { ja_id : nat; ja_op : nat; ja_join : fs; ja_dir : option (fs * fs); ja_par : option nat }.
(** 1006-1019: the length of the collection counts, not the number of different tables. *)
Definition mk_join (id op : nat) (tabs : list tbl) (par : option nat) : res jassign :=
  if List.length tabs <? 2 then Raise ValueError else Ok (mkja id op (mkfs tabs) None par).
(** 1151-1165. *)
Definition mk_dirjoin (id op : nat) (inner outer : list tbl) (par : option nat) : res jassign :=
  match inner, outer with
  | [], _ | _, [] => Raise ValueError
  | _, _ => let j := mkfs (mkfs inner ++ mkfs outer) in
            if List.length j <? 2 then Raise ValueError else Ok (mkja id op j (Some (mkfs inner, mkfs outer)) par)
  end.

(** NaN is not equal to itself. *)
Definition par_eqb (a b : option nat) : bool := match a, b with Some x, Some y => x =? y | _, _ => false end.
(** [==] on scan assignments, 965-971. *)
Definition sa_eqb (a b : sassign) : bool := (sa_op a =? sa_op b) && (sa_tab a =? sa_tab b) && par_eqb (sa_par a) (sa_par b).
(** [==] on join assignments, 1103-1109 and 1205-1211; a directional and a plain assignment are never equal (the method of the
    subclass is asked first). *)
Definition ja_eqb (a b : jassign) : bool :=
  (ja_op a =? ja_op b) && deqb (ja_join a) (ja_join b) && par_eqb (ja_par a) (ja_par b) &&
  match ja_dir a, ja_dir b with Some (i, o), Some (i', o') => deqb i i' && deqb o o' | None, None => true | _, _ => false end.
(** The tuples given to [hash], 905 and 1019; the hash of a NaN is derived from its identity, all default values are the same
    object. *)
Definition sa_hashkey (a : sassign) := (sa_op a, sa_tab a, sa_par a).
Definition ja_hashkey (a : jassign) := (ja_op a, ja_join a, ja_par a).

(** PhysicalOperatorAssignment, 70-78. *)
Record poa := mkpoa { glob : dict physop bool; joins : dict fs jassign; inters : dict fs nat; scans : dict tbl sassign }.
Definition poa_empty : poa := mkpoa [] [] [] [].

(** get_globally_enabled_operators 80-115, for the given members of the enumerations. *)
Definition poa_enabled (ops : list physop) (p : poa) (by_default : bool) : list physop :=
  filter (fun o => match dget (glob p) o with Some b => b | None => by_default end) ops.
(** set_operator_enabled_globally 117-173.  Comparing an assignment with an operator is always unequal, so no entry of
    [scans] or [joins] is removed; the values of [inters] are operators. *)
Definition poa_set (p : poa) (o : physop) (enabled overwrite : bool) : poa :=
  let g := dset (glob p) o enabled in
  if negb overwrite || enabled then mkpoa g (joins p) (inters p) (scans p)
  else match o with
       | PScan n => mkpoa g (joins p) (inters p) (filter (fun e => true) (scans p))
       | PJoin n => mkpoa g (filter (fun e => true) (joins p)) (inters p) (scans p)
       | PInter n => mkpoa g (joins p) (filter (fun e => negb (snd e =? n)) (inters p)) (scans p)
       end.
(** The arguments of [add]: an operator with its table(s), or an assignment. *)
Inductive operand :=
| OScan (id op : nat) (t : tbl)
| OJoin (id op : nat) (tabs : list tbl)
| OInter (op : nat) (tabs : list tbl)
| OSA (a : sassign)
| OJA (a : jassign).
(** set_join_operator 175-208, set_scan_operator 210-239, set_intermediate_operator 241-265, add 267-307. *)
Definition poa_set_join (p : poa) (a : jassign) : poa := mkpoa (glob p) (dset (joins p) (ja_join a) a) (inters p) (scans p).
Definition poa_set_scan (p : poa) (a : sassign) : poa := mkpoa (glob p) (joins p) (inters p) (dset (scans p) (sa_tab a) a).
Definition poa_set_inter (p : poa) (op : nat) (tabs : list tbl) : poa := mkpoa (glob p) (joins p) (dset (inters p) (mkfs tabs) op) (scans p).
Definition poa_add (p : poa) (o : operand) : res poa :=
  match o with
  | OScan id op t => Ok (poa_set_scan p (mksa id op t None))
  | OJoin id op tabs => rmap (poa_set_join p) (mk_join id op tabs None)
  | OInter op tabs => Ok (poa_set_inter p op tabs)
  | OSA a => Ok (poa_set_scan p a)
  | OJA a => Ok (poa_set_join p a)
  end.
(** [a | b] *)
Definition dmerge {K V} {E : EqD K} (a b : dict K V) : dict K V := fold_left (fun d e => dset d (fst e) (snd e)) b a.
(** merge_with 321-352. *)
Definition poa_merge (p q : poa) : poa := mkpoa (dmerge (glob p) (glob q)) (dmerge (joins p) (joins q)) (dmerge (inters p) (inters q)) (dmerge (scans p) (scans q)).
(** global_settings_only 401-413, clone 415-430. *)
Definition poa_global_only (p : poa) : poa := mkpoa (glob p) [] [] [].
Definition poa_clone (p : poa) : poa := mkpoa (glob p) (joins p) (inters p) (scans p).

(** A lookup key: a table, or an iterable ([hashable]: a frozenset or tuple rather than a list or set). *)
Inductive gkey := GTab (t : tbl) | GIter (hashable : bool) (l : list tbl).
Definition found : Type := sassign + jassign.
(** get 432-465: for one-element iterables the iterable itself is looked up among the tables. *)
Definition poa_get (p : poa) (k : gkey) (default : option found) : res (option found) :=
  match k with
  | GTab t => Ok (match dget (scans p) t with Some a => Some (inl a) | None => default end)
  | GIter h l =>
      if List.length (mkfs l) =? 1 then if h then Ok None else Raise TypeError
      else Ok (match dget (joins p) (mkfs l) with Some a => Some (inr a) | None => default end)
  end.
(** __contains__ 552-561. *)
Definition poa_contains (p : poa) (k : gkey) : res bool :=
  match k with
  | GTab t => Ok (dmem (scans p) t)
  | GIter h l => if List.length (mkfs l) =? 1 then if h then Ok false else Raise TypeError else Ok (dmem (joins p) (mkfs l))
  end.
(** __getitem__ 563-574 for tables and iterables of tables. *)
Definition poa_item (p : poa) (k : gkey) : option found :=
  match k with
  | GTab t => match dget (scans p) t with Some a => Some (inl a) | None => None end
  | GIter _ l => match dget (joins p) (mkfs l) with Some a => Some (inr a) | None => None end
  end.
(** Equality of dictionaries: members are compared by identity first, then by [==]. *)
Definition dict_eqb {K V} {E : EqD K} (veq : V -> V -> bool) (d e : dict K V) : bool :=
  (List.length d =? List.length e) && forallb (fun kv => match dget e (fst kv) with Some w => veq (snd kv) w | None => false end) d.
Definition sa_same (a b : sassign) : bool := (sa_id a =? sa_id b) || sa_eqb a b.
Definition ja_same (a b : jassign) : bool := (ja_id a =? ja_id b) || ja_eqb a b.
(** __eq__ 585-591. *)
Definition poa_eqb (p q : poa) : bool := dict_eqb Bool.eqb (glob p) (glob q) && dict_eqb sa_same (scans p) (scans q) && dict_eqb ja_same (joins p) (joins q).

(** __hash__ 576-583; the arguments are the hash functions of the parts and of tuples. *)
Definition poa_hash (hop : physop -> Z) (hb : bool -> Z) (ht : tbl -> Z) (hfs : fs -> Z) (hsa : sassign -> Z) (hja : jassign -> Z) (htup : list Z -> Z) (p : poa) : Z :=
  htup [hash_dict hop hb htup (glob p); hash_dict ht hsa htup (scans p); hash_dict hfs hja htup (joins p)].

(** integrate_workers_from 354-399.  [fresh] gives the identities of the new assignments. *)
Fixpoint poa_integrate (fresh : nat) (p : poa) (workers : dict fs nat) (fail : bool) : res poa :=
  match workers with
  | [] => Ok p
  | (tabs, w) :: rest =>
      rbind (poa_get p (GIter true tabs) None) (fun o =>
      match o with
      | None => if fail then Raise ValueError else poa_integrate (S fresh) p rest fail
      | Some (inl a) => poa_integrate (S fresh) (poa_set_scan p (mksa fresh (sa_op a) (sa_tab a) (Some w))) rest fail
      | Some (inr a) =>
          rbind (match ja_dir a with
                 | Some (i, o) => mk_dirjoin fresh (ja_op a) i o (Some w)
                 | None => mk_join fresh (ja_op a) (ja_join a) (Some w)
                 end) (fun b => poa_integrate (S fresh) (poa_set_join p b) rest fail)
      end)
  end.

(** ** JSON: __json__ 500-538 and read_operator_assignment_json.  Tables and operators are written and read back unchanged (see
    C18 for tables). *)
Record jpoa := mkjpoa { j_glob : list (physop * bool); j_scans : list (tbl * nat); j_joins : list (fs * nat); j_inters : list (fs * nat) }.
Definition poa_json (p : poa) : jpoa :=
  mkjpoa (glob p) (map (fun a => (sa_tab a, sa_op a)) (dvalues (scans p))) (map (fun a => (ja_join a, ja_op a)) (dvalues (joins p))) (inters p).
Definition numbered {X} (fresh : nat) (l : list X) : list (nat * X) := combine (seq fresh (List.length l)) l.
Definition poa_read (fresh : nat) (j : jpoa) : res poa :=
  rbind (rmapM (fun e => rmap (fun a => (fst (snd e), a)) (mk_join (fst e) (snd (snd e)) (fst (snd e)) None)) (numbered (fresh + List.length (j_scans j)) (j_joins j))) (fun js =>
  Ok (mkpoa (dict_of (j_glob j)) (dict_of js) (dict_of (j_inters j))
        (dict_of (map (fun e => (fst (snd e), mksa (fst e) (snd (snd e)) (fst (snd e)) None)) (numbered fresh (j_scans j)))))).

(** ** PlanParameterization, 632-879.  Cardinalities and setting values are opaque. *)
Section Params.
  Context {C V : Type}.
  Record pparams := mkpp { pp_cards : dict fs C; pp_workers : dict fs nat; pp_settings : dict nat V; pp_mode : option bool }.
  (** add_cardinality 706-725, set_workers 727-749, set_system_settings 751-799 (settings as one name or as keywords). *)
  Definition pp_add_card (p : pparams) (tabs : list tbl) (c : C) := mkpp (dset (pp_cards p) (mkfs tabs) c) (pp_workers p) (pp_settings p) (pp_mode p).
  Definition pp_set_workers (p : pparams) (tabs : list tbl) (w : nat) := mkpp (pp_cards p) (dset (pp_workers p) (mkfs tabs) w) (pp_settings p) (pp_mode p).
  Definition pp_set_system (p : pparams) (name : option (nat * V)) (kw : dict nat V) : res pparams :=
    match name, kw with
    | Some _, _ :: _ => Raise ValueError
    | None, [] => Raise ValueError
    | Some (n, v), [] => Ok (mkpp (pp_cards p) (pp_workers p) (dset (pp_settings p) n v) (pp_mode p))
    | None, _ => Ok (mkpp (pp_cards p) (pp_workers p) (dmerge (pp_settings p) kw) (pp_mode p))
    end.
  (** merge_with 801-829: the execution mode of the new object stays None. *)
  Definition pp_merge (p q : pparams) : pparams :=
    mkpp (dmerge (pp_cards p) (pp_cards q)) (dmerge (pp_workers p) (pp_workers q)) (dmerge (pp_settings p) (pp_settings q)) None.
  (** drop_workers 831-845. *)
  Definition pp_drop_workers (p : pparams) : pparams := mkpp (pp_cards p) [] (pp_settings p) (pp_mode p).
End Params.
Arguments pparams : clear implicits.

(** ** The objects in memory: every attribute of an assignment refers to a dictionary; changes are made in place.
    A memory cell has room for a dictionary of each kind.  Variables [0, 1, ...] hold the assignments of a program. *)
Record obj := mkobj { rg : nat; rj : nat; ri : nat; rs : nat }.
Record heap := mkheap { cell : nat -> poa; next : nat; var : nat -> obj }.
Definition upd {X} (f : nat -> X) (k : nat) (x : X) : nat -> X := fun i => if i =? k then x else f i.
(** The assignment a variable denotes. *)
Definition view (h : heap) (v : nat) : poa :=
  let o := var h v in mkpoa (glob (cell h (rg o))) (joins (cell h (rj o))) (inters (cell h (ri o))) (scans (cell h (rs o))).
(** Writing to one of the dictionaries of [v]. *)
Definition put_glob h v d := let r := rg (var h v) in let c := cell h r in mkheap (upd (cell h) r (mkpoa d (joins c) (inters c) (scans c))) (next h) (var h).
Definition put_joins h v d := let r := rj (var h v) in let c := cell h r in mkheap (upd (cell h) r (mkpoa (glob c) d (inters c) (scans c))) (next h) (var h).
Definition put_inters h v d := let r := ri (var h v) in let c := cell h r in mkheap (upd (cell h) r (mkpoa (glob c) (joins c) d (scans c))) (next h) (var h).
Definition put_scans h v d := let r := rs (var h v) in let c := cell h r in mkheap (upd (cell h) r (mkpoa (glob c) (joins c) (inters c) d)) (next h) (var h).
(** A new object with four new dictionaries. *)
Definition alloc h v (p : poa) : heap := mkheap (upd (cell h) (next h) p) (S (next h)) (upd (var h) v (mkobj (next h) (next h) (next h) (next h))).

Inductive cmd :=
| CNew (v : nat)                                      (* v = PhysicalOperatorAssignment() *)
| CAdd (v : nat) (o : operand)                        (* v.add(o) *)
| CSet (v : nat) (o : physop) (en ow : bool)          (* v.set_operator_enabled_globally(o, en, overwrite...=ow) *)
| CClone (v w : nat)                                  (* w = v.clone() *)
| CMerge (u v w : nat)                                (* w = u.merge_with(v) *)
| CGlobal (v w : nat).                                (* w = v.global_settings_only() *)
(** A failing [add] raises before anything is written. *)
Definition h_set_join h v (a : jassign) := put_joins h v (dset (joins (view h v)) (ja_join a) a).
Definition h_set_scan h v (a : sassign) := put_scans h v (dset (scans (view h v)) (sa_tab a) a).
Definition h_step (h : heap) (c : cmd) : heap :=
  match c with
  | CNew v => alloc h v poa_empty
  | CAdd v (OScan id op t) => h_set_scan h v (mksa id op t None)
  | CAdd v (OJoin id op tabs) => match mk_join id op tabs None with Ok a => h_set_join h v a | Raise _ => h end
  | CAdd v (OInter op tabs) => put_inters h v (dset (inters (view h v)) (mkfs tabs) op)
  | CAdd v (OSA a) => h_set_scan h v a
  | CAdd v (OJA a) => h_set_join h v a
  | CSet v o en ow =>
      let h := put_glob h v (dset (glob (view h v)) o en) in
      if negb ow || en then h
      else (* the attribute gets a new dictionary *)
        let x := var h v in let n := next h in
        match o with
        | PScan k => mkheap (upd (cell h) n (mkpoa [] [] [] (scans (view h v)))) (S n) (upd (var h) v (mkobj (rg x) (rj x) (ri x) n))
        | PJoin k => mkheap (upd (cell h) n (mkpoa [] (joins (view h v)) [] [])) (S n) (upd (var h) v (mkobj (rg x) n (ri x) (rs x)))
        | PInter k => mkheap (upd (cell h) n (mkpoa [] [] (filter (fun e => negb (snd e =? k)) (inters (view h v))) [])) (S n) (upd (var h) v (mkobj (rg x) (rj x) n (rs x)))
        end
  | CClone v w => alloc h w (poa_clone (view h v))
  | CMerge u v w => alloc h w (poa_merge (view h u) (view h v))
  | CGlobal v w => alloc h w (poa_global_only (view h v))
  end.
Definition h_run (h : heap) (cs : list cmd) : heap := fold_left h_step cs h.
(** [n] variables, each with its own empty object. *)
Definition h_init (n : nat) : heap := mkheap (fun _ => poa_empty) n (fun v => mkobj v v v v).
