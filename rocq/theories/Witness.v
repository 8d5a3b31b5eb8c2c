(* Witness.v -- concrete items and environments used by the non-vacuity examples and by
   the refutations. *)
From Verif Require Export Series.

(* A library that parses seconds exactly and considers two units close iff equal. *)
Definition ideal_env : env :=
  mkEnv (fun a b => Ok (tunit_eqb a b)) (fun x => Ok (UPhys x)).

Definition pt (t : Z) (v : Z) : item :=
  mkItem CDataTimePoint (qz t) (qz t) (UPhys q0) "UTC" (Some (DDict [("value"%string, qz v)])) [] None.
Definition ptd (t : Z) (d : data) : item :=
  mkItem CDataTimePoint (qz t) (qz t) (UPhys q0) "UTC" (Some d) [] None.
Definition ptz (t : Z) (tz : string) : item :=
  mkItem CDataTimePoint (qz t) (qz t) (UPhys q0) tz (Some (DDict [("value"%string, qz 0)])) [] None.
Definition tpt (t : Z) : item :=
  mkItem CTimePoint (qz t) (qz t) (UPhys q0) "UTC" None [] None.
Definition slot (a len v : Z) : item :=
  mkItem CDataTimeSlot (qz a) (qz (a + len)) (UPhys (qz len)) "UTC" (Some (DDict [("value"%string, qz v)])) [] None.
Definition d1 (v : Z) : data := DDict [("value"%string, qz v)].
Definition d2 (v w : Z) : data := DDict [("a"%string, qz v); ("b"%string, qz w)].

Definition is_err_of (r : result unit) (x : exc) : bool :=
  match r, x with
  | Err ValueError, ValueError => true | Err TypeError, TypeError => true
  | Err IndexError, IndexError => true | Err KeyError, KeyError => true
  | Err AttributeError, AttributeError => true
  | _, _ => false
  end.

(* equality of items (as the library compares them) for whole lists, decidable *)
Definition items_same (l l' : list item) : bool :=
  Nat.eqb (length l) (length l') && forallb (fun p => item_eqb (fst p) (snd p)) (combine l l').
