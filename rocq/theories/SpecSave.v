(* SpecSave.v -- SPECIFICATION vocabulary for C49. *)
From Verif Require Export SpecSeries Save.

(* The values JSON can represent: no time units, no other objects, and dictionaries with (distinct) strings as keys. *)
Inductive storable : pv -> Prop :=
| st_null : storable VNull
| st_bool b : storable (VBool b)
| st_num q : storable (VNum q)
| st_str s : storable (VStr s)
| st_list l : (forall x, In x l -> storable x) -> storable (VList l)
| st_dict d : NoDup (map fst d) -> (forall k x, In (k, x) d -> (exists s, k = KS s) /\ storable x) -> storable (VDict d).

(* The data of a model are storable: different names, a time unit as resolution (if any) whose string is read back as the
   same unit, everything else as above. *)
Definition readable (ut : unit_text) (u : tunit) : Prop := ut_parse ut (ut_str ut u) = Ok u.
Definition storable_data (ut : unit_text) (d : dict pv) : Prop :=
  NoDup (dkeys d) /\
  forall k v, In (k, v) d -> if String.eqb k "resolution" then exists u, v = VUnit u /\ readable ut u else storable v.

(* A file system where everything is in a directory. *)
Definition tree (f : fs) : Prop := forall q x, f (q ++ [x]) <> None -> q = [] \/ f q = Some NDir.
(* A place where a directory can be made: not there, and not inside a file. *)
Definition free (f : fs) (p : path) : Prop :=
  p <> [] /\ f p = None /\ forall q r, p = q ++ r -> q <> [] -> f q = None \/ f q = Some NDir.
(* A model that can be saved. *)
Definition savable (m : pmodel) : Prop :=
  c_parametric (pm_class m) = true /\ (c_fit (pm_class m) = true -> pm_fitted m = true).
