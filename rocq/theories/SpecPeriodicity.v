(* SpecPeriodicity.v -- SPECIFICATION vocabulary for the detection of the periodicity (C83). *)
From Coq Require Export Sorted.
From Verif Require Export SpecRecon Periodicity.
Local Open Scope R_scope.

(* The values, at regular intervals, of a series with one label. *)
Definition signal (e : env) (s : series) (v : list Qc) : Prop :=
  ready e s /\ resolution s <> Some RVar /\ exists lb, single_label (s_items s) lb /\ column lb (s_items s) v.
(* The values repeat themselves every p items. *)
Definition repeats (p : nat) (v : list Qc) : Prop := forall m, (m + p < length v)%nat -> nth (m + p) v q0 = nth m v q0.
(* The integer nearest to a number: of two, the even one. *)
Definition nearest (x : Qc) (z : Z) : Prop :=
  Qcle (qabs (Qcminus x (qz z))) (qfrac 1 2) /\ (qabs (Qcminus x (qz z)) = qfrac 1 2 -> Z.Even z).
(* How strong the oscillation which repeats k times along the series is: the modulus of the k-th entry of
   the discrete Fourier transform. *)
Definition strength (v : list Qc) (k : nat) : R :=
  let n := length v in
  let part (f : R -> R) := sum_f_R0 (fun m => real (nth m v q0) * f (2 * PI * INR (k * m) / INR n)) (n - 1) in
  sqrt (Rsqr (part cos) + Rsqr (part sin)).
(* Position i, of those from 0 to h - 1, is a local maximum: the middle of a flat one. *)
Definition local_max (f : nat -> R) (h i : nat) : Prop :=
  exists a b, (1 <= a <= b)%nat /\ (S b < h)%nat /\ i = ((a + b) / 2)%nat /\ (forall j, (a <= j <= b)%nat -> f j = f a) /\ f (a - 1)%nat < f a /\ f (S b) < f a.
(* The numbers of repetitions considered: the local maxima, in the first half of the spectrum. *)
Definition candidate (v : list Qc) (k : nat) : Prop :=
  exists h, nearest (Qcdiv (qn (length v)) q2) (Z.of_nat h) /\ local_max (strength v) h k.
(* The strongest first; of those which are equally strong, the shortest period. *)
Definition before (v : list Qc) (i j : nat) : Prop := strength v j < strength v i \/ (strength v j = strength v i /\ (j < i)%nat).
Definition ranking (v : list Qc) (ks : list nat) : Prop := StronglySorted (before v) ks /\ forall k, In k ks <-> candidate v k.
(* The one in position i is discarded: there are two more, the next one is almost as strong when compared to the one after it
   and it has a period more than ten times shorter, where less than ten periods of the first fit in the series. *)
Definition discarded (v : list Qc) (ks : list nat) (i : nat) : Prop :=
  exists a b c, nth_error ks i = Some a /\ nth_error ks (i + 1) = Some b /\ nth_error ks (i + 2) = Some c /\
    3 * (strength v a - strength v b) < strength v b - strength v c /\ (10 * a < b)%nat /\ (a < 10)%nat.
