(* Periodicity.v -- MODEL of the detection of the periodicity of a series (utilities.py 142-218).

   The Fourier transform (numpy.fft.fft) is the exact discrete one, on the real numbers of Coq's standard library, and
   find_peaks (scipy.signal, without options) gives the positions of the local maxima, in increasing order: of a flat maximum
   the middle one, rounded down; the first and the last position are never maxima.  As the comparisons of real numbers
   are decided by the classical axioms of the library, this is the only part of the model which does not compute. *)
From Coq Require Export Reals.
From Verif Require Export Intervals.
Local Open Scope R_scope.

(* a value of an item as a real number *)
Definition real (q : Qc) : R := Q2R (this q).
Definition rltb (a b : R) : bool := if Rlt_dec a b then true else false.
Definition reqb (a b : R) : bool := if Req_EM_T a b then true else false.

(* the sum of f 0 .. f (n-1) *)
Fixpoint rsum (n : nat) (f : nat -> R) : R := match n with O => 0 | S m => rsum m f + f m end.
(* 157-163: fft.fft(y), of which only the absolute values are used (170): sqrt(re^2 + im^2) of the k-th entry,
   where exp(-2 pi i k m / n) = cos(2 pi k m / n) - i sin(2 pi k m / n) *)
Definition angle (n k m : nat) : R := 2 * PI * INR k * INR m / INR n.
Definition dft (part : R -> R) (y : list R) (k : nat) : R := rsum (length y) (fun m => nth m y 0 * part (angle (length y) k m)).
Definition magnitude (y : list R) (k : nat) : R := sqrt (dft cos y k * dft cos y k + dft sin y k * dft sin y k).

(* round() of a number of Python: to the nearest integer, to the even one if there are two *)
Definition round_even (x : Qc) : Z :=
  let f := (Qnum (this x) / Zpos (Qden (this x)))%Z in
  let d := Qcminus x (qz f) in
  if qltb d (qfrac 1 2) then f
  else if qltb (qfrac 1 2) d then (f + 1)%Z
  else if Z.even f then f else (f + 1)%Z.

(* 165-170: the first half of the absolute values *)
Definition half_spectrum (y : list R) : list R :=
  map (magnitude y) (seq 0 (Z.to_nat (round_even (Qcdiv (qn (length y)) q2)))).

(* 173: find_peaks(yf).  Positions a .. b have all the same value, higher than the ones before and after them. *)
Definition plateau (l : list R) (a b : nat) : bool :=
  forallb (fun j => reqb (nth j l 0) (nth a l 0)) (seq a (S b - a))
  && rltb (nth (a - 1) l 0) (nth a l 0) && rltb (nth (S b) l 0) (nth a l 0).
Definition peak_at (l : list R) (i : nat) : bool :=
  existsb (fun a => existsb (fun b => Nat.eqb i ((a + b) / 2) && plateau l a b) (seq a (length l - 1 - a)))
          (seq 1 (length l - 1)).
Definition find_peaks (l : list R) : list nat := filter (peak_at l) (seq 0 (length l)).

(* 174-181: the peaks with their intensity, sorted by it (stable) and then reversed *)
Fixpoint insert_peak (p : nat * R) (l : list (nat * R)) : list (nat * R) :=
  match l with
  | [] => [p]
  | q :: m => if rltb (snd q) (snd p) then q :: insert_peak p m else p :: l
  end.
Definition sort_peaks (l : list (nat * R)) : list (nat * R) := fold_right insert_peak [] l.
Definition peaks_of (l : list R) : list (nat * R) := rev (sort_peaks (map (fun i => (i, nth i l 0)) (find_peaks l))).

(* 184-188: the frequency, as it is called: the number of items of one period *)
Definition period_of (n : nat) (p : nat * R) : Qc := Qcdiv (qn n) (qn (fst p)).

(* 197-205: the peak is not considered; IndexError (there are not two more) is ignored *)
Definition set_aside (n : nat) (p : nat * R) (rest : list (nat * R)) : bool :=
  match rest with
  | p1 :: p2 :: _ =>
    rltb ((snd p - snd p1) * 3) (snd p1 - snd p2)
    && qltb (Qcmult (period_of n p1) (qz 10)) (period_of n p) && qltb (Qcdiv (qn n) (qz 10)) (period_of n p)
  | _ => false
  end.

(* 191-210: the loop on the peaks, from the i-th on, with max_peak_frequency *)
Fixpoint scan_peaks (n i : nat) (found : option Qc) (peaks : list (nat * R)) : option Qc :=
  match peaks with
  | [] => found
  | p :: rest =>
    if set_aside n p rest then scan_peaks n (S i) found rest
    else let found := match found with
                      | Some f => if qeqb f q0 then Some (period_of n p) else found      (* if not max_peak_frequency *)
                      | None => Some (period_of n p)
                      end in
         if Nat.ltb 10 i then found else scan_peaks n (S i) found rest
  end.

(* 142-218.  The values are read with item.data[data_label]: lists raise TypeError.  Without labels: None. *)
Definition detect_periodicity (s : series) : result (option Z) :=
  match s_items s with
  | [] => Err ValueError
  | _ =>
    match resolution s with
    | Some RVar => Err ValueError
    | _ =>
      do ls <- labels_of s;
      match ls with
      | _ :: _ :: _ => Err NotImplementedError
      | [] => Ok None
      | [lb] =>
        do y <- mapM (fun x => data_at x lb) (s_items s);
        match scan_peaks (length y) 0 None (peaks_of (half_spectrum (map real y))) with
        | None => Err ValueError
        | Some f => if qeqb f q0 then Err ValueError else Ok (Some (round_even f))
        end
      end
    end
  end.
