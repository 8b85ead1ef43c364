(** What data frames should look like after an export. *)
From Coq Require Import List Bool Arith ZArith Ascii String.
From Verif Require Import PyBase Ident_model Exp_model.
Import ListNotations.

(** An entry after an export: complex objects are replaced by their JSON text, everything else is kept. *)
Inductive exported (dumps : cell -> res string) : cell -> cell -> Prop :=
| ex_str s : exported dumps (CStr s) (CStr s)
| ex_none : exported dumps CNone CNone
| ex_num z : exported dumps (CNum z) (CNum z)
| ex_other id : exported dumps (CObj false id) (CObj false id)
| ex_complex id t : dumps (CObj true id) = Ok t -> exported dumps (CObj true id) (CStr t).
Definition exported_column (dumps : cell -> res string) (a b : column) : Prop :=
  c_name a = c_name b /\ c_object a = c_object b /\ Forall2 (exported dumps) (c_cells a) (c_cells b).
(** Which entries are complex objects. *)
Definition complex (c : cell) : Prop := exists id, c = CObj true id.
(** Extensions and the formats that they stand for. *)
Definition extensions : list (string * format) :=
  [(".csv", Csv); (".parquet", Parquet); (".xlsx", Excel); (".xls", Excel); (".json", JsonF); (".hdf", Hdf); (".h5", Hdf); (".hdf5", Hdf);
   (".feather", Feather); (".orc", Orc)]%string.
(** The last value for a key in a list of entries. *)
Inductive last_value : list (nat * nat) -> nat -> nat -> Prop :=
| lv_last l r k v : (forall w, ~ In (k, w) r) -> last_value (l ++ (k, v) :: r) k v.
