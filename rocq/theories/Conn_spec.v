(** libpq's reading of connect strings (PQconninfoParse), and numbered names. *)
From Coq Require Import String Ascii List Bool Arith.
From Verif Require Import PyBase.
Import ListNotations.
Open Scope list_scope.

Definition blank (c : ascii) : bool := let n := nat_of_ascii c in Nat.eqb n 32 || (Nat.leb 9 n && Nat.leb n 13).
Fixpoint skip_blanks (t : list ascii) : list ascii := match t with c :: r => if blank c then skip_blanks r else t | [] => [] end.
Definition ch (n : nat) : ascii := ascii_of_nat n.
Definition equals_sign := ch 61.
Definition single_quote := ch 39.
Definition backslash := ch 92.

(** the name of a parameter ends at a blank or an equals sign *)
Fixpoint take_name (t : list ascii) : list ascii * list ascii :=
  match t with
  | c :: r => if blank c || Ascii.eqb c equals_sign then ([], t) else let (n, r') := take_name r in (c :: n, r')
  | [] => ([], [])
  end.
(** a value in single quotes, in which a backslash protects the next character *)
Fixpoint take_quoted (t : list ascii) : option (list ascii * list ascii) :=
  match t with
  | [] => None
  | c :: r =>
      if Ascii.eqb c single_quote then Some ([], r)
      else if Ascii.eqb c backslash then match r with [] => None | d :: r' => match take_quoted r' with Some (v, s) => Some (d :: v, s) | None => None end end
      else match take_quoted r with Some (v, s) => Some (c :: v, s) | None => None end
  end.
(** a value without quotes ends at a blank *)
Fixpoint take_plain (t : list ascii) : list ascii * list ascii :=
  match t with
  | [] => ([], [])
  | c :: r =>
      if blank c then ([], t)
      else if Ascii.eqb c backslash then match r with [] => ([], []) | d :: r' => let (v, s) := take_plain r' in (d :: v, s) end
      else let (v, s) := take_plain r in (c :: v, s)
  end.
Fixpoint read_params (fuel : nat) (t : list ascii) : option (list (list ascii * list ascii)) :=
  match fuel with
  | O => None
  | S fuel =>
      match skip_blanks t with
      | [] => Some []
      | t1 =>
          let (n, t2) := take_name t1 in
          match skip_blanks t2 with
          | e :: t3 =>
              if Ascii.eqb e equals_sign then
                let got := match skip_blanks t3 with
                           | q :: t4 => if Ascii.eqb q single_quote then take_quoted t4 else Some (take_plain (q :: t4))
                           | [] => Some ([], [])
                           end in
                match got with
                | Some (v, t5) => match read_params fuel t5 with Some l => Some ((n, v) :: l) | None => None end
                | None => None
                end
              else None
          | [] => None
          end
      end
  end.
Definition libpq (t : list ascii) : option (list (list ascii * list ascii)) := read_params (S (List.length t)) t.

(** names and values that need no protection *)
Definition plain_name (n : list ascii) : Prop := n <> [] /\ Forall (fun c => blank c = false /\ c <> equals_sign) n.
Definition plain_value (v : list ascii) : Prop := Forall (fun c => c <> single_quote /\ c <> backslash) v.
(** [r] is [t] without the blanks around it *)
Definition trimmed (t r : list ascii) : Prop :=
  exists a b, t = a ++ r ++ b /\ Forall (fun c => blank c = true) a /\ Forall (fun c => blank c = true) b
    /\ (forall c, hd_error r = Some c -> blank c = false) /\ (forall c, hd_error (rev r) = Some c -> blank c = false).
(** [l] is the first line of [t] *)
Definition is_first_line (t l : list ascii) : Prop := ~ In (ch 10) l /\ (t = l \/ exists r, t = l ++ ch 10 :: r).
