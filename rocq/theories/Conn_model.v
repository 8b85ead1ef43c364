(** Connecting to databases and the pool of connections.
    postbound/db/_db.py 3238-3349     DatabasePool
    postbound/postgres.py 2953-3172   _reconnect, _read_connection_from_file, connect
    postbound/duckdb.py 922-970       _reconnect, connect
    postbound/mysql.py 705-731        connect

    Simplifications: texts are lists of characters; a database object is its system and a number; connecting always succeeds; the
    parsed configuration files (TOML, JSON, INI, YAML) are the parameters they contain; the pool is the dictionary in the order of
    insertion; a broken connection is re-established within the same object (890-898), which is not visible here. *)
From Coq Require Import String Ascii List Bool Arith DecimalString.
From Verif Require Import PyBase.
Import ListNotations.
Open Scope list_scope.

Definition text := list ascii.
Definition str (s : string) : text := list_ascii_of_string s.
#[global] Instance EqD_text : EqD text := list_eq_dec ascii_dec.

Inductive system := Postgres | DuckDB | Mysql.
(** a database object: where it is connected to, and its identity *)
Record inst := mkI { i_sys : system; i_target : text; i_id : nat }.
Definition pool := list (text * inst).

(** DatabasePool 3262-3340 *)
Definition contains (p : pool) (k : text) : bool := match dget p k with Some _ => true | None => false end.
Definition register (p : pool) (k : text) (i : inst) : pool := dset p k i.
Definition retrieve (p : pool) (k : text) : res inst := match dget p k with Some i => Ok i | None => Raise KeyError end.
Definition current_database (p : pool) : res inst := match p with [(_, i)] => Ok i | _ => Raise ValueError end.
Definition any_database (p : pool) : res inst := match p with (_, i) :: _ => Ok i | [] => Raise ValueError end.

(** *** connect strings *)
Definition is_space (c : ascii) : bool :=
  let n := nat_of_ascii c in Nat.eqb n 32 || (Nat.leb 9 n && Nat.leb n 13).
Fixpoint lstrip (t : text) : text := match t with c :: r => if is_space c then lstrip r else t | [] => [] end.
Definition strip (t : text) : text := rev (lstrip (rev (lstrip t))).
Definition newline : ascii := ascii_of_nat 10.
(** readline(), without the final newline, which is stripped *)
Fixpoint first_line (t : text) : text := match t with c :: r => if Ascii.eqb c newline then [] else c :: first_line r | [] => [] end.

Fixpoint join (sep : text) (l : list text) : text := match l with [] => [] | [x] => x | x :: r => x ++ sep ++ join sep r end.
(** f"{param} = '{value}'" joined by blanks, 3017-3018 and 3148-3149 *)
Definition conn_part (kv : text * text) : text := match kv with (k, v) => k ++ str " = '" ++ v ++ str "'" end.
Definition conn_text (params : list (text * text)) : text := join (str " ") (map conn_part params).

(** the contents of a configuration file: without extension, of a known format, or of another one *)
Inductive config := CPlain (t : text) | CParams (ps : list (text * text)) | CUnknown.
(** _read_connection_from_file 2989-3018 *)
Definition read_config (c : config) : res text :=
  match c with
  | CPlain t => Ok (strip (first_line t))
  | CParams ps => Ok (conn_text ps)
  | CUnknown => Raise ValueError
  end.

(** env_vars, 3135-3142 *)
Definition env_vars : list (text * text) :=
  [(str "PGDATABASE", str "dbname"); (str "PGHOST", str "host"); (str "PGPORT", str "port");
   (str "PGUSER", str "user"); (str "PGPASSWORD", str "password"); (str "PGPASSFILE", str "passfile")].
(** 3143-3149 *)
Definition env_params (env : text -> option text) : list (text * text) :=
  flat_map (fun vk : text * text => match vk with (var, key) => match env var with Some v => match v with [] => [] | _ => [(key, v)] end | None => [] end end) env_vars.

(** What connect() is given and finds: the connect string, the configuration file if one is given and whether it exists, the
    default file and the environment. *)
Record sources := mkS { s_string : text; s_config : option (option config); s_default : option text; s_env : text -> option text }.
(** 3115-3155 *)
Definition connect_string (s : sources) : res text :=
  match s_string s with
  | _ :: _ => Ok (strip (s_string s))
  | [] =>
      match s_config s with
      | Some (Some c) => read_config c
      | Some None => Raise ValueError
      | None =>
          match s_default s with
          | Some t => Ok (strip (first_line t))
          | None => match s_env s (str "PGDATABASE") with
                    | Some (_ :: _) => Ok (conn_text (env_params (s_env s)))
                    | _ => Raise ValueError
                    end
          end
      end
  end.

(** *** connecting *)
(** f"{orig_name} - {instance_idx}" *)
Definition suffixed (name : text) (k : nat) : text := name ++ str " - " ++ str (NilZero.string_of_uint (Nat.to_uint k)).
(** while name in db_pool, 3166-3170 *)
Fixpoint free_name (fuel : nat) (p : pool) (orig name : text) (k : nat) : res text :=
  match fuel with
  | O => Raise OutOfFuel
  | S fuel => if contains p name then free_name fuel p orig (suffixed orig k) (S k) else Ok name
  end.

(** _reconnect, postgres.py 2953-2975, duckdb.py 922-936 *)
Definition is_sys (s : system) (i : inst) : bool :=
  match s, i_sys i with Postgres, Postgres | DuckDB, DuckDB | Mysql, Mysql => true | _, _ => false end.
Definition reconnect (s : system) (p : pool) (name : text) : res inst :=
  rbind (retrieve p name) (fun i => if is_sys s i then Ok i else Raise AssertionError).

(** postgres.connect 3021-3172; [id] is the identity of a new object *)
Definition pg_connect (p : pool) (id : nat) (name : text) (src : sources) (refresh private : bool) : res (inst * pool) :=
  if contains p name && negb refresh then rbind (reconnect Postgres p name) (fun i => Ok (i, p))
  else rbind (connect_string src) (fun target =>
    let i := mkI Postgres target id in
    if private then Ok (i, p)
    else rbind (free_name (S (List.length p)) p name name 2) (fun name' => Ok (i, register p name' i))).
(** duckdb.connect 939-970 *)
Definition duck_connect (p : pool) (id : nat) (name file : text) (refresh private : bool) : res (inst * pool) :=
  if contains p name && negb refresh then rbind (reconnect DuckDB p name) (fun i => Ok (i, p))
  else let i := mkI DuckDB file id in if private then Ok (i, p) else Ok (i, register p name i).
(** The abstract methods of DatabaseStatistics, db/_db.py 2872-2969, and the methods of MysqlStatisticsInterface, mysql.py 409-452.
    A class with an abstract method left cannot be instantiated (abc). *)
Definition stats_methods : list text :=
  [str "_retrieve_total_rows_from_stats"; str "_retrieve_distinct_values_from_stats"; str "_retrieve_min_max_values_from_stats";
   str "_retrieve_most_common_values_from_stats"; str "_retrieve_histogram_from_stats"].
Definition mysql_stats_methods : list text :=
  [str "_retrieve_total_rows_from_stats"; str "_retrieve_distinct_values_from_stats"; str "_retrieve_min_max_values_from_stats";
   str "_retrieve_most_common_values_from_stats"].
Definition concrete (methods : list text) : bool := forallb (fun m => mem m methods) stats_methods.
(** mysql.connect 705-731 with MysqlInterface.__init__ 130-155, which creates the statistics after connecting *)
Definition mysql_connect (p : pool) (id : nat) (name args : text) (private : bool) : res (inst * pool) :=
  if concrete mysql_stats_methods
  then let i := mkI Mysql args id in if private then Ok (i, p) else Ok (i, register p name i)
  else Raise TypeError.
