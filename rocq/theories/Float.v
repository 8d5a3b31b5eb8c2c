(* Float.v -- the numbers of the program as Python has them: IEEE 754 double
   precision.  The other model files compute with exact rationals; here the
   arithmetic rounds after every operation, and the parts of the code where
   that is observable are modelled again with it.
   Simplification: overflow, infinities and not-a-number are left out (the
   exponent has no upper bound), and so is the sign of zero. *)
From Coq Require Import Qround.
From Verif Require Import Base Items Series.
Open Scope Z_scope.

(* 2^k, for any integer k *)
Definition pow2 (k : Z) : Qc :=
  match k with
  | Zneg p => Qcinv (qz (2 ^ Zpos p))
  | _ => qz (2 ^ k)
  end.

(* the exponent of x: the e with 2^e <= |x| < 2^(e+1) *)
Definition expo (x : Qc) : Z :=
  let e := Z.log2 (Z.abs (Qnum (this x))) - Z.log2 (Zpos (Qden (this x))) in
  if qltb (qabs x) (pow2 e) then e - 1 else e.

(* the nearest integer, the even one when there are two *)
Definition near_even (x : Qc) : Z :=
  let f := Qfloor (this x) in
  let r := Qcminus x (qz f) in
  if qltb r (qfrac 1 2) then f
  else if qltb (qfrac 1 2) r then f + 1
  else if Z.even f then f else f + 1.

(* what a Python float operation stores when its exact result is x: the nearest
   number with 53 significant bits (fewer below 2^-1022), ties to even *)
Definition rnd (x : Qc) : Qc :=
  if qeqb x q0 then q0
  else let k := Z.max (expo x - 52) (-1074) in
       Qcmult (qz (near_even (Qcdiv x (pow2 k)))) (pow2 k).

(* the operators + - * on floats, and / with a non-zero divisor *)
Definition fadd (x y : Qc) : Qc := rnd (Qcplus x y).
Definition fsub (x y : Qc) : Qc := rnd (Qcminus x y).
Definition fmul (x y : Qc) : Qc := rnd (Qcmult x y).
Definition fdiv (x y : Qc) : Qc := rnd (Qcdiv x y).

(* datastructures.py 1257: int(time_diff*10000000)/10000000; the product is rounded,
   int() is exact, and the quotient of the two integers is rounded once *)
Definition f_trunc7 (x : Qc) : Qc :=
  fdiv (qz (qtrunc (fmul x (qz 10000000)))) (qz 10000000).

(* datastructures.py 1227-1275 then 1310: append of a point whose time is a float, as
   Series.v append_point but with the two time differences and the truncation rounded.
   The comparisons of 1243, 1246 and of Series.append are exact on floats. *)
Definition f_append_point (e : env) (s : series) (it : item) : series * result unit :=
  let fin s := set_prev s (Some (i_t it)) in
  match s_prev_t s with
  | None => series_append (fin s) it
  | Some p =>
    match s_items s with
    | [] => series_append (fin s) it
    | _ :: _ =>
      if qltb (i_t it) p then (fin s, Err ValueError)
      else if qeqb (i_t it) p then (fin s, Err ValueError)
      else match s_res s with
           | None =>
             let s1 := set_res_s s (Some (fsub (i_t it) p)) in
             match unit_of_s e (f_trunc7 (fsub (i_t it) p)) with
             | Err x => (fin s1, Err x)
             | Ok u => series_append (fin (set_res s1 (Some (RUnit u)))) it
             end
           | Some RVar => series_append (fin s) it
           | Some (RUnit _) =>
             match s_res_s s with
             | None => (fin s, Err AttributeError)
             | Some r =>
               if negb (qeqb r (fsub (i_t it) p))
               then series_append (fin (set_res (set_res_s s None) (Some RVar))) it
               else series_append (fin s) it
             end
           end
    end
  end.

(* datastructures.py 1222-1310: TimeSeries.append, with float times *)
Definition f_append (e : env) (s : series) (it : item) : series * result unit :=
  if is_point it then f_append_point e s it else append_slot e s it.

(* datastructures.py 622-640: the constructor appends its arguments one by one *)
Definition f_new (e : env) (tz : option string) (xs : list item) : result series :=
  foldM (fun s x => let '(s', r) := f_append e s x in do _ <- r; Ok s') xs (empty_series tz).
