(** Model of further ways to load workloads, postbound/workloads.py:
    55-81      _fetch_workload
    767-875    read_batch_workload, read_csv_workload
    924-1172   _assert_workload_loaded, job, job_light, job_complex, ssb, stack, stats, fetch_workload

    Simplifications: texts are lists of characters, the parser is an arbitrary function on texts; a CSV file is given by the cells of its
    query column and its label column (as converted by pandas); of the local disk only the directories below "workloads" and their files are
    kept, a file being its stem and what parsing its contents yields (as in Work_model.v); an archive is the content of its folder with the
    name of the workload, if there is one.  The moves of single files do not fail. *)
From Coq Require Import List Bool Arith Ascii String.
From Verif Require Import PyBase Ident_model Dicts_model Work_model.
Import ListNotations.
Local Open Scope list_scope.

Definition text := list ascii.
Definition nl : ascii := "010"%char.
(** file.readlines(): lines keep their line break *)
Fixpoint readlines (t : text) : list text :=
  match t with
  | [] => []
  | c :: r => if Ascii.eqb c nl then [c] :: readlines r
              else match readlines r with [] => [[c]] | l :: ls => (c :: l) :: ls end
  end.
Section Files.
  Context {Q : Type} {EQ : EqD Q} (parse : text -> res Q).
  (** [... for raw in raw_queries if raw] *)
  Definition truthy (l : text) : bool := match l with [] => false | _ => true end.
  (** read_batch_workload 767-798 *)
  Definition read_batch (nsort : list nat -> list nat) (t : text) : res (workload nat Q) :=
    rbind (rmapM parse (filter truthy (readlines t))) (fun qs => generate_workload nsort qs []).
  (** read_csv_workload 801-875, without and with a label column; an empty dictionary of labels and no queries give the same workload. *)
  Definition read_csv (nsort : list nat -> list nat) (cells : list text) : res (workload nat Q) :=
    rbind (rmapM parse cells) (fun qs => generate_workload nsort qs []).
  Definition read_csv_labels {L} {EL : EqD L} (nsort : list L -> list L) (rows : list (text * L)) : res (workload L Q) :=
    rbind (rmapM parse (map fst rows)) (fun qs => new nsort (invert (dict_of (combine qs (map snd rows))))).
End Files.

(** ** Predefined workloads *)
Inductive wname := Job | JobLight | JobComplex | Stats | Stack | Ssb.
#[global] Instance wname_EqD : EqD wname. Proof. unfold EqD. decide equality. Defined.
Section Fetch.
  Context {Q : Type} {EQ : EqD Q}.
  Definition files := list (string * option Q).
  (** the local directories, by the (lower case) names of the workloads *)
  Definition disk := wname -> option files.
  Definition put_dir (d : disk) (n : wname) (f : files) : disk := fun m => if eqd m n then Some f else d m.
  (** The download: it fails, or yields an archive, with or without the expected folder *)
  Inductive download := Failed | Archive (content : option files).
  (** _WorkloadSources 45-52 *)
  Definition has_source (n : wname) : bool := match n with Ssb => false | _ => true end.
  (** _fetch_workload 55-81: the directory is created before the download *)
  Definition fetch_dir (net : wname -> download) (d : disk) (n : wname) : disk * res files :=
    match d n with
    | Some f => (d, Ok f)
    | None =>
        let d := put_dir d n [] in
        if has_source n then
          match net n with
          | Failed => (d, Raise OtherError)
          | Archive None => (d, Raise OtherError)                     (* temp_dir.iterdir(): FileNotFoundError *)
          | Archive (Some f) => (put_dir d n f, Ok f)
          end
        else (d, Raise ValueError)
    end.
  (** job 936-978, job_light 981-1005, job_complex 1008-1036, ssb 1039-1073, stack 1076-1121, stats 1124-1147 with _assert_workload_loaded 924-933;
      stack also reads subdirectories, which are left out *)
  Definition load (nsort : list string -> list string) (net : wname -> download) (d : disk) (n : wname) : disk * res (workload string Q) :=
    let (d, r) := fetch_dir net d n in
    (d, rbind r (fun f => rbind (read PRaise nsort "" f) (fun w => match w_data w with [] => Raise ValueError | _ => Ok w end))).
  (** job 967-970: flavors *)
  Inductive flavor := Default | Light | Complex.
  Definition job_flavor (f : flavor) : wname := match f with Default => Job | Light => JobLight | Complex => JobComplex end.
  (** fetch_workload 1150-1172 *)
  Definition by_name (s : string) : res wname :=
    if (String.eqb s "job" || String.eqb s "imdb")%string then Ok (job_flavor Default)
    else if (String.eqb s "job-light" || String.eqb s "joblight")%string then Ok (job_flavor Light)
    else if (String.eqb s "job-complex" || String.eqb s "jobcomplex")%string then Ok (job_flavor Complex)
    else if String.eqb s "stats" then Ok Stats else if String.eqb s "stack" then Ok Stack else if String.eqb s "ssb" then Ok Ssb
    else Raise ValueError.
  Definition fetch_workload (nsort : list string -> list string) (net : wname -> download) (d : disk) (s : string) : disk * res (workload string Q) :=
    match by_name s with Ok n => load nsort net d n | Raise e => (d, Raise e) end.
End Fetch.
Arguments files : clear implicits. Arguments disk : clear implicits. Arguments download : clear implicits.
