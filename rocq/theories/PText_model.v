(** The texts that describe a query plan.
    postbound/_qep.py 1841-1884   QueryPlan.inspect, explain, plan_summary, ast
    postbound/_qep.py 1980-2093   _default_explain, _custom_explain, _explainify, _astify

    Simplifications: texts are lists of characters.  The values of a node are the texts that are printed for them: rounded numbers,
    [str] of the base table, the values of attributes ([n_attr] may raise, e.g. if there is no such attribute).  A parameter that is
    falsy is [None].  Of plan_summary only the operators and their counter are modelled. *)
From Coq Require Import String Ascii List Bool Arith.
From Verif Require Import PyBase.
Import ListNotations.
Open Scope list_scope.

Definition text := list ascii.
Definition str (s : string) : text := list_ascii_of_string s.
#[global] Instance EqD_text : EqD text := list_eq_dec ascii_dec.
Definition newline : ascii := ascii_of_nat 10.
Definition nl : text := [newline].
Definition spaces (n : nat) : text := repeat " "%char n.
(** sep.join(l) *)
Fixpoint join (sep : text) (l : list text) : text := match l with [] => [] | [x] => x | x :: r => x ++ sep ++ join sep r end.

Record node := mkNode {
  n_type : text;                       (* node_type *)
  n_scan : bool;                       (* is_scan() *)
  n_table : text;                      (* str(base_table) *)
  n_card : text; n_cost : text;        (* rounded estimates *)
  n_analyze : option (text * text);    (* rounded actual cardinality and execution time, if is_analyze() *)
  n_hits : option text; n_misses : option text;
  n_workers : option text; n_lookup : option text; n_index : option text;
  n_sort : list text;
  n_attr : text -> res text            (* the value of an attribute (with a dot: of one of the containers), as it is printed *)
}.
Inductive plan := Plan (n : node) (children : list plan) (sub : option plan).

(** header, 2057-2059 and 2086-2089 *)
Definition header (n : node) : text := if n_scan n then n_type n ++ str "(" ++ n_table n ++ str ")" else n_type n.

(** _default_explain 1980-2027: the lines, without padding and metadata_indent *)
Definition default_lines (n : node) : list text :=
  let nan := str "nan" in
  let or_nan o := match o with Some t => t | None => nan end in
  [str "Estimated Cardinality=" ++ n_card n ++ str ", Estimated Cost=" ++ n_cost n]
  ++ match n_analyze n with
     | Some (c, t) => [str "Actual Cardinality=" ++ c ++ str ", Actual Time=" ++ t ++ str "s"]
     | None => []
     end
  ++ match n_hits n, n_misses n with
     | None, None => []
     | h, m => [str "Cache Hits=" ++ or_nan h ++ str ", Cache Misses=" ++ or_nan m]
     end
  ++ match n_workers n with Some w => [str "Parallel Workers=" ++ w] | None => [] end
  ++ match n_lookup n with Some k => [str "Lookup Key=" ++ k] | None => [] end
  ++ (let props := match n_index n with Some i => [str "Index=" ++ i] | None => [] end
                   ++ match n_sort n with [] => [] | ks => [str "Sort Keys=" ++ join (str ", ") ks] end in
      match props with [] => [] | _ => [join (str ", ") props] end).
Definition default_explain (n : node) (padding : text) : text :=
  let metadata_indent := match padding with [] => spaces 2 | _ => spaces 6 end in
  join nl (map (fun c => padding ++ metadata_indent ++ c) (default_lines n)).

(** _custom_explain 2030-2047; attr_values is a dictionary *)
Fixpoint attr_values (n : node) (fields : list text) (acc : list (text * text)) : res (list (text * text)) :=
  match fields with
  | [] => Ok acc
  | f :: fs => rbind (n_attr n f) (fun v => attr_values n fs (dset acc f v))
  end.
Definition attr_str (vals : list (text * text)) : text :=
  join (str " ") (map (fun kv => fst kv ++ str "=" ++ snd kv) vals).
Definition custom_explain (n : node) (fields : list text) (padding : text) : res text :=
  rbind (attr_values n fields []) (fun vals => Ok (padding ++ str "   [" ++ attr_str vals ++ str "]")).

(** _explainify 2050-2079 *)
Definition explain_padding (level : nat) : text := match level with 0 => [] | S k => spaces 2 ++ spaces (6 * k) end.
Definition explain_prefix (padding : text) : text := match padding with [] => [] | _ => padding ++ str "->  " end.
Fixpoint explainify (fields : list text) (level : nat) (p : plan) : res text :=
  match p with
  | Plan n ks sub =>
      let padding := explain_padding level in
      let prefix := explain_prefix padding in
      rbind (match fields with [] => Ok (default_explain n padding) | _ => custom_explain n fields padding end) (fun explain_data =>
      rbind ((fix go (l : list plan) : res (list text) :=
                match l with
                | [] => Ok []
                | k :: r => rbind (explainify fields (S level) k) (fun x => rbind (go r) (fun xs => Ok (x :: xs)))
                end) ks) (fun cs =>
      let child_explains := join nl cs in
      rbind (match sub with Some s => explainify fields (S level) s | None => Ok [] end) (fun subplan_explains =>
      let child_explains := match subplan_explains with [] => child_explains | _ => child_explains ++ nl ++ subplan_explains end in
      match child_explains with
      | [] => Ok (prefix ++ header n ++ nl ++ explain_data)
      | _ => Ok (prefix ++ header n ++ nl ++ explain_data ++ nl ++ child_explains)
      end)))
  end.
(** inspect 1841-1853, explain 1855-1862 *)
Definition inspect (p : plan) (fields : list text) : res text := explainify fields 0 p.
Definition explain (p : plan) : res text := inspect p [].

(** _astify 2082-2093, ast 1882-1884 *)
Fixpoint astify (indentation : nat) (p : plan) : text :=
  match p with
  | Plan n ks sub =>
      let padding := spaces indentation in
      let prefix := match padding with [] => [] | _ => padding ++ str "->  " end in
      let item_str := prefix ++ header n in
      let child_str := join nl (map (astify (indentation + 2)) ks) in
      match child_str with [] => item_str | _ => item_str ++ nl ++ child_str end
  end.
Definition ast (p : plan) : text := astify 0 p.

(** iternodes 1418-1420 *)
Fixpoint iternodes (p : plan) : list node := match p with Plan n ks _ => flat_map iternodes ks ++ [n] end.
(** collections.Counter(child.node_type for child in all_nodes), 1878 *)
Fixpoint counter (l : list text) (acc : list (text * nat)) : list (text * nat) :=
  match l with
  | [] => acc
  | x :: r => counter r (dset acc x (match dget acc x with Some c => S c | None => 1 end))
  end.
Definition phys_ops (p : plan) : list (text * nat) := counter (map n_type (iternodes p)) [].
