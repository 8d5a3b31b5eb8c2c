(* PropUtils.v -- THEOREMS C64-C67: error metrics, unit strings, unit arithmetic, rescaling. *)
From Verif Require Import SpecUtils BaseLemmas PropTactics OpsProofs2 ReconProofs3 UtilsProofs.

(* ===================== C64 ===================== *)

Lemma sum2_sym g a : (forall x y, g x y = g y x) -> forall b, sum2 g a b = sum2 g b a.
Proof. intros H. induction a as [|x a IH]; intros [|y b]; cbn [sum2]; try reflexivity. rewrite H, IH. reflexivity. Qed.
Lemma distance_zero x y : distance x y = q0 <-> x = y.
Proof. unfold distance. rewrite qabs_zero. apply minus_zero. Qed.
Lemma squared_zero x y : squared x y = q0 <-> x = y.
Proof. unfold squared. rewrite square_zero. apply minus_zero. Qed.

(* For each pair of non-empty sequences of the same length: the mean absolute error and the mean squared error
   are the averages of the distances and of the squared differences, are not negative, zero only for equal
   sequences, and symmetric. *)
Theorem C64_mean_absolute_error : forall a b, length a = length b -> a <> [] ->
  exists v, mae a b = Ok v /\ v = Qcdiv (sum2 distance a b) (qn (length a)) /\ Qcle q0 v /\ (v = q0 <-> a = b) /\ mae b a = Ok v.
Proof.
  intros a b L N. assert (Nb : b <> []) by (intros ->; destruct a; [contradiction|discriminate]).
  assert (M : forall x y : list Qc, x <> [] -> mae x y = mean_error abs_err x y) by (intros [|u x] y Hx; [contradiction|reflexivity]). rewrite !M by assumption.
  destruct (mean_metric abs_err distance a b) as (v & E & V & P & Z); [intros; apply qabs_nonneg|exact L|exact N|intros; split; [reflexivity|apply distance_zero]|].
  exists v. split; [exact E|]. split; [exact V|]. split; [exact P|]. split; [exact Z|]. rewrite (mean_ok abs_err distance b a) by (auto; intros; reflexivity). rewrite V, <- L. rewrite (sum2_sym distance a) by (intros; apply qabs_sym). reflexivity.
Qed.
Print Assumptions C64_mean_absolute_error.
Theorem C64_mean_squared_error : forall a b, length a = length b -> a <> [] ->
  exists v, mse a b = Ok v /\ v = Qcdiv (sum2 squared a b) (qn (length a)) /\ Qcle q0 v /\ (v = q0 <-> a = b) /\ mse b a = Ok v.
Proof.
  intros a b L N. assert (Nb : b <> []) by (intros ->; destruct a; [contradiction|discriminate]).
  assert (M : forall x y : list Qc, x <> [] -> mse x y = mean_error sq_err x y) by (intros [|u x] y Hx; [contradiction|reflexivity]). rewrite !M by assumption.
  destruct (mean_metric sq_err squared a b) as (v & E & V & P & Z); [intros; apply square_nonneg|exact L|exact N|intros; split; [reflexivity|apply squared_zero]|].
  exists v. split; [exact E|]. split; [exact V|]. split; [exact P|]. split; [exact Z|]. rewrite (mean_ok sq_err squared b a) by (auto; intros; reflexivity). rewrite V, <- L. rewrite (sum2_sym squared a) by (intros; unfold squared; ring). reflexivity.
Qed.
Print Assumptions C64_mean_squared_error.

(* The percentage error, if no true value is zero (otherwise it raises). *)
Lemma perc_ok x y : x <> q0 -> perc_err x y = Ok (relative x y) /\ (relative x y = q0 <-> x = y).
Proof.
  intros N. unfold perc_err, qdiv. rewrite qeqb_false by exact N. cbn [bind]. split; [reflexivity|]. unfold relative. rewrite qabs_zero. split; intros H.
  - apply minus_zero. assert (Q : Qcminus x y = Qcmult (Qcdiv (Qcminus x y) x) x) by (field; rewrite q0_eq in N; exact N). rewrite Q, H, q0_eq. ring.
  - rewrite H. assert (Z : Qcminus y y = q0) by (rewrite q0_eq; ring). rewrite Z. rewrite H in N. rewrite q0_eq in *. field. exact N.
Qed.
Lemma in_left (a b : list Qc) x y : In (x, y) (combine a b) -> In x a.
Proof. intros H. apply in_combine_l in H. exact H. Qed.
Theorem C64_mean_percentage_error : forall a b, length a = length b -> a <> [] -> ~ In q0 a ->
  exists v, mape a b = Ok v /\ v = Qcdiv (sum2 relative a b) (qn (length a)) /\ Qcle q0 v /\ (v = q0 <-> a = b).
Proof.
  intros a b L N Z. apply (mean_metric perc_err relative a b); [intros; apply qabs_nonneg|exact L|exact N|]. intros x y I. apply perc_ok. intros ->. apply Z. eapply in_left. exact I.
Qed.
Print Assumptions C64_mean_percentage_error.
Theorem C64_percentage_of_zero : forall a b, length a = length b -> In q0 a -> mape a b = Err ZeroDivisionError /\ max_ape a b = Err ZeroDivisionError.
Proof.
  intros a b L I. assert (M : map2M perc_err a b = Err ZeroDivisionError).
  { revert b L. induction a as [|x a IH]; intros [|y b] L; cbn [length] in L; try discriminate; [destruct I|]. cbn [map2M]. unfold perc_err at 1, qdiv. destruct (qeqb_spec x q0) as [E|E]; [reflexivity|]. cbn [bind].
    destruct I as [I|I]; [contradiction|]. rewrite IH; [reflexivity|exact I|lia]. }
  unfold mape, max_ape, mean_error, max_error, same_lengths. rewrite L, Nat.eqb_refl. cbn [bind]. rewrite M. split; reflexivity.
Qed.
Print Assumptions C64_percentage_of_zero.

(* The log error, for positive values, whatever function is zero exactly in one. *)
Lemma log_ok lg a b x y : log_like lg -> (forall x, In x a \/ In x b -> Qclt q0 x) -> In (x, y) (combine a b) -> log_err lg x y = Ok (log_ratio lg x y) /\ (log_ratio lg x y = q0 <-> x = y).
Proof.
  intros G P I.
  assert (Px : Qclt q0 x) by (apply P; left; apply in_combine_l in I; exact I). assert (Py : Qclt q0 y) by (apply P; right; apply in_combine_r in I; exact I).
  assert (Ny : y <> q0) by (intros X; rewrite X in Py; exact (Qclt_not_eq _ _ Py eq_refl)).
  assert (Pq : Qclt q0 (Qcdiv x y)).
  { apply Qcnot_le_lt. intros X. apply (Qcmult_le_compat_r _ _ y) in X; [|rewrite q0_eq in Py; apply Qclt_le_weak; exact Py]. assert (Q : Qcmult (Qcdiv x y) y = x) by (field; rewrite q0_eq in Ny; exact Ny). rewrite Q in X. assert (Z : Qcmult q0 y = q0) by (rewrite q0_eq; ring). rewrite Z in X. exact (Qcle_not_lt _ _ X Px). }
  unfold log_err, qdiv. rewrite qeqb_false by exact Ny. cbn [bind]. rewrite qleb_false by exact Pq. split; [reflexivity|]. unfold log_ratio. rewrite qabs_zero, (G _ Pq). rewrite q1_eq. split; intros H.
  - assert (Q : x = Qcmult (Qcdiv x y) y) by (field; rewrite q0_eq in Ny; exact Ny). rewrite Q, H. ring.
  - rewrite H. field. rewrite q0_eq in Ny. exact Ny.
Qed.
Theorem C64_mean_log_error : forall lg a b, log_like lg -> length a = length b -> a <> [] -> (forall x, In x a \/ In x b -> Qclt q0 x) ->
  exists v, male lg a b = Ok v /\ v = Qcdiv (sum2 (log_ratio lg) a b) (qn (length a)) /\ Qcle q0 v /\ (v = q0 <-> a = b).
Proof.
  intros lg a b G L N P. apply (mean_metric (log_err lg) (log_ratio lg) a b); [intros; apply qabs_nonneg|exact L|exact N|]. intros x y I. apply (log_ok lg a b x y G P I).
Qed.
Print Assumptions C64_mean_log_error.

(* The maximum errors are the greatest of the errors; the one of the absolute error bounds the mean. *)
Theorem C64_max_absolute_error : forall a b, length a = length b -> a <> [] ->
  exists m v, max_ae a b = Ok (Some m) /\ greatest distance a b m /\ mae a b = Ok v /\ Qcle v m /\ (m = q0 <-> a = b).
Proof.
  intros a b L N. destruct (max_metric abs_err distance a b L N) as (m & E & G); [intros; reflexivity|]. destruct (C64_mean_absolute_error a b L N) as (v & Ev & V & P & Z & _).
  exists m, v. split; [exact E|]. split; [exact G|]. split; [exact Ev|]. assert (B : Qcle v m) by (rewrite V; apply div_le; [apply qn_len_pos; exact N|]; apply sum2_le; [exact L|apply G]).
  split; [exact B|]. split; [intros M; apply Z; apply Qcle_antisym; [rewrite <- M; exact B|exact P]|]. intros <-. destruct G as ((i & x & y & Hx & Hy & ->) & _). rewrite Hx in Hy. injection Hy as <-. apply distance_zero. reflexivity.
Qed.
Print Assumptions C64_max_absolute_error.
Theorem C64_max_percentage_error : forall a b, length a = length b -> a <> [] -> ~ In q0 a ->
  exists m v, max_ape a b = Ok (Some m) /\ greatest relative a b m /\ mape a b = Ok v /\ Qcle v m.
Proof.
  intros a b L N Z. destruct (max_metric perc_err relative a b L N) as (m & E & G); [intros x y I; apply perc_ok; intros ->; apply Z; eapply in_left; exact I|].
  destruct (C64_mean_percentage_error a b L N Z) as (v & Ev & V & _). exists m, v. split; [exact E|]. split; [exact G|]. split; [exact Ev|]. rewrite V. apply div_le; [apply qn_len_pos; exact N|]. apply sum2_le; [exact L|apply G].
Qed.
Print Assumptions C64_max_percentage_error.
Theorem C64_max_log_error : forall lg a b, log_like lg -> length a = length b -> a <> [] -> (forall x, In x a \/ In x b -> Qclt q0 x) ->
  exists m v, max_ale lg a b = Ok (Some m) /\ greatest (log_ratio lg) a b m /\ male lg a b = Ok v /\ Qcle v m.
Proof.
  intros lg a b G L N P. destruct (max_metric (log_err lg) (log_ratio lg) a b L N) as (m & E & Gm); [intros x y I; apply (log_ok lg a b x y G P I)|].
  destruct (C64_mean_log_error lg a b G L N P) as (v & Ev & V & _). exists m, v. split; [exact E|]. split; [exact Gm|]. split; [exact Ev|]. rewrite V. apply div_le; [apply qn_len_pos; exact N|]. apply sum2_le; [exact L|apply Gm].
Qed.
Print Assumptions C64_max_log_error.
(* Of empty sequences there is no mean, and no maximum either. *)
Theorem C64_empty : forall lg, mae [] [] = Err ValueError /\ mse [] [] = Err ValueError /\ mape [] [] = Err ZeroDivisionError /\ male lg [] [] = Err ZeroDivisionError /\
  max_ae [] [] = Ok None /\ max_ape [] [] = Ok None /\ max_ale lg [] [] = Ok None.
Proof. intros lg. repeat split; reflexivity. Qed.
Print Assumptions C64_empty.

(* Different lengths are always refused. *)
Theorem C64_lengths : forall lg a b, length a <> length b ->
  mae a b = Err ValueError /\ mse a b = Err ValueError /\ mape a b = Err ValueError /\ male lg a b = Err ValueError /\
  max_ae a b = Err ValueError /\ max_ape a b = Err ValueError /\ max_ale lg a b = Err ValueError.
Proof.
  intros lg a b L. assert (M : forall f, mean_error f a b = Err ValueError /\ max_error f a b = Err ValueError) by (intros f; apply lengths_checked; exact L).
  assert (E : mae a b = mean_error abs_err a b /\ mse a b = mean_error sq_err a b) by (destruct a, b; try (split; reflexivity); exfalso; apply L; reflexivity). destruct E as [-> ->]. repeat split; apply M.
Qed.
Print Assumptions C64_lengths.
Example C64_nonvacuous : exists a b, length a = length b /\ a <> [] /\ ~ In q0 a /\ a <> b /\ mae a b = Ok (qz 2) /\ max_ae a b = Ok (Some (qz 4)) /\ (forall x, In x a \/ In x b -> Qclt q0 x).
Proof.
  exists [qz 1; qz 2], [qz 1; qz 6]. split; [reflexivity|]. split; [discriminate|]. split; [|split; [|split; [|split]]].
  - intros [H|[H|[]]]; apply qz_inj in H; discriminate.
  - discriminate.
  - vm_compute. f_equal; apply qeqb_eq; vm_compute; reflexivity.
  - vm_compute. do 2 f_equal; apply qeqb_eq; vm_compute; reflexivity.
  - intros x [[<-|[<-|[]]]|[<-|[<-|[]]]]; apply qltb_lt; vm_compute; reflexivity.
Qed.

(* ===================== C67 ===================== *)

(* It is the straight line through the end points. *)
Theorem C67_formula : forall v sf st tf tt', Qcle q0 sf -> Qclt sf st -> Qcle q0 tf -> Qcle q0 tt' -> Qcle sf v -> Qcle v st ->
  rescale v sf st tf tt' = Ok (Qcplus tf (Qcmult (Qcdiv (Qcminus v sf) (Qcminus st sf)) (Qcminus tt' tf))).
Proof. apply rescale_ok. Qed.
Theorem C67_end_points : forall sf st tf tt', Qcle q0 sf -> Qclt sf st -> Qcle q0 tf -> Qcle q0 tt' ->
  rescale sf sf st tf tt' = Ok tf /\ rescale st sf st tf tt' = Ok tt'.
Proof.
  intros sf st tf t' A B C D. rewrite !rescale_ok by (try assumption; try apply Qcle_refl; apply Qclt_le_weak; assumption).
  assert (N : Qcminus st sf <> 0%Qc) by (rewrite <- q0_eq; intros X; apply (proj1 (minus_zero st sf)) in X; rewrite X in B; exact (Qclt_not_eq _ _ B eq_refl)). split; f_equal; field; exact N.
Qed.
Print Assumptions C67_end_points.
Theorem C67_stays_in_range : forall v sf st tf tt', Qcle q0 sf -> Qclt sf st -> Qcle q0 tf -> Qcle tf tt' -> Qcle sf v -> Qcle v st ->
  exists r, rescale v sf st tf tt' = Ok r /\ Qcle tf r /\ Qcle r tt'.
Proof.
  intros v sf st tf t' A B C D E F. rewrite rescale_ok by (try assumption; qlra). eexists. split; [reflexivity|]. destruct (ratio_bounds v sf st B E F) as [P Q]. generalize dependent (Qcdiv (Qcminus v sf) (Qcminus st sf)). intros x P Q.
  assert (X : Qcle (Qcmult q0 (Qcminus t' tf)) (Qcmult x (Qcminus t' tf))) by (apply Qcmult_le_compat_r; [exact P|rewrite <- q0_eq; qlra]).
  assert (Y : Qcle (Qcmult x (Qcminus t' tf)) (Qcmult q1 (Qcminus t' tf))) by (apply Qcmult_le_compat_r; [exact Q|rewrite <- q0_eq; qlra]).
  assert (Z0 : Qcmult q0 (Qcminus t' tf) = q0) by (rewrite q0_eq; ring). assert (Z1 : Qcmult q1 (Qcminus t' tf) = Qcminus t' tf) by (rewrite q1_eq; ring). rewrite Z0 in X. rewrite Z1 in Y. split; qlra.
Qed.
Print Assumptions C67_stays_in_range.
Theorem C67_keeps_the_order : forall v w sf st tf tt' r r', Qcle q0 sf -> Qclt sf st -> Qcle q0 tf -> Qclt tf tt' -> Qcle sf v -> Qclt v w -> Qcle w st ->
  rescale v sf st tf tt' = Ok r -> rescale w sf st tf tt' = Ok r' -> Qclt r r'.
Proof.
  intros v w sf st tf t' r r' A B C D E F G. rewrite !rescale_ok by (try assumption; qlra). intros H K. injection H as <-. injection K as <-. pose proof (ratio_mono v w sf st B F) as M.
  assert (P : Qclt q0 (Qcminus t' tf)) by qlra. pose proof (Qcmult_lt_compat_r _ _ _ P M) as X. qlra.
Qed.
Print Assumptions C67_keeps_the_order.
Theorem C67_inverse : forall v sf st tf tt', Qcle q0 sf -> Qclt sf st -> Qcle q0 tf -> Qclt tf tt' -> Qcle sf v -> Qcle v st ->
  exists r, rescale v sf st tf tt' = Ok r /\ rescale r tf tt' sf st = Ok v.
Proof.
  intros v sf st tf t' A B C D E F. destruct (C67_stays_in_range v sf st tf t' A B C (Qclt_le_weak _ _ D) E F) as (r & H & P & Q). exists r. split; [exact H|]. rewrite rescale_ok in H by (try assumption; qlra). injection H as H.
  rewrite rescale_ok by (try assumption; qlra). f_equal. rewrite <- H.
  assert (N : Qcminus st sf <> 0%Qc) by (rewrite <- q0_eq; intros X; apply (proj1 (minus_zero st sf)) in X; rewrite X in B; exact (Qclt_not_eq _ _ B eq_refl)).
  assert (M : Qcminus t' tf <> 0%Qc) by (rewrite <- q0_eq; intros X; apply (proj1 (minus_zero t' tf)) in X; rewrite X in D; exact (Qclt_not_eq _ _ D eq_refl)). field. split; assumption.
Qed.
Print Assumptions C67_inverse.
(* Values outside the source range and negative values or ranges are refused, an empty source range too. *)
Theorem C67_refused : forall v sf st tf tt',
  (Qclt v sf \/ Qclt st v \/ Qclt v q0 \/ Qclt sf q0 \/ Qclt st q0 \/ Qclt tf q0 \/ Qclt tt' q0 -> rescale v sf st tf tt' = Err ValueError) /\
  (Qcle q0 v -> Qcle q0 tf -> Qcle q0 tt' -> rescale v v v tf tt' = Err ZeroDivisionError).
Proof.
  intros v sf st tf t'. split.
  - intros H. unfold rescale. destruct (qltb_spec v q0); [reflexivity|]. destruct (qltb_spec sf q0); [reflexivity|]. destruct (qltb_spec st q0); [reflexivity|]. destruct (qltb_spec tf q0); [reflexivity|]. destruct (qltb_spec t' q0); [reflexivity|]. destruct (qltb_spec v sf); [reflexivity|]. destruct (qltb_spec st v); [reflexivity|]. tauto.
  - intros A B C. unfold rescale. rewrite !qltb_false by (try assumption; apply Qcle_refl). assert (Z : Qcminus v v = q0) by (rewrite q0_eq; ring). rewrite Z. unfold qdiv. rewrite qeqb_refl. reflexivity.
Qed.
Print Assumptions C67_refused.
Example C67_nonvacuous : Qcle q0 (qz 2) /\ Qclt (qz 2) (qz 4) /\ Qcle q0 (qz 10) /\ Qclt (qz 10) (qz 30) /\ rescale (qz 3) (qz 2) (qz 4) (qz 10) (qz 30) = Ok (qz 20).
Proof. repeat (split; [first [apply qltb_lt; vm_compute; reflexivity | apply qleb_le; vm_compute; reflexivity]|]). vm_compute. f_equal; apply qeqb_eq; vm_compute; reflexivity. Qed.

(* ===================== C65 ===================== *)

(* The number is written as Python writes it: no superfluous zeros at the end. *)
Definition written_well (f : list nat) : Prop := f = [] \/ f = [0] \/ last f 0 <> 0.
Lemma lasts_s i f : i <> [] -> are_digits i -> are_digits f -> unit_string_lasts (decimal_string i f ++ "s") (decimal i f).
Proof. intros N Di Df. exists i, f, "s"%string, (qz 1). repeat (split; [assumption || reflexivity|]). change (qz 1) with q1. rewrite q1_eq. ring. Qed.
Lemma digits_okb l : forallb (fun n => Nat.ltb n 10) l = true -> are_digits l.
Proof. intros H. apply Forall_forall. intros n Hn. rewrite forallb_forall in H. apply Nat.ltb_lt. apply H. exact Hn. Qed.
Lemma friendly_lasts s q : unit_string_lasts (s ++ "s") q -> forall friendlier,
  unit_string_lasts (if friendlier : bool then if String.eqb s "60" then "1m"%string else if String.eqb s "600" then "10m"%string else if String.eqb s "3600" then "1h"%string else (s ++ "s")%string else (s ++ "s")%string) q.
Proof.
  intros H [|]; [|exact H].
  assert (M : forall i l k n, unit_string_lasts (digits i ++ "s") q -> i <> [] -> are_digits i -> n <> [] -> are_digits n -> letter_seconds l = Some k -> Qcmult (decimal i []) q1 = Qcmult (decimal n []) k -> unit_string_lasts (digits n ++ l) q).
  { intros i l k n L Ni Di Nn Dn Lk Q. assert (E : q = Qcmult (decimal n []) k) by (rewrite <- Q; apply (lasts_unique (digits i ++ "s")%string); [exact L|]; exists i, [], "s"%string, (qz 1); repeat (split; [assumption || reflexivity || constructor|]); reflexivity).
    exists n, [], l, k. repeat (split; [assumption || reflexivity|]). split; [constructor|]. split; assumption. }
  destruct (String.eqb_spec s "60") as [-> |_]; [apply (M [6; 0] "m"%string (qz 60) [1]); [exact H|discriminate|apply digits_okb; reflexivity|discriminate|apply digits_okb; reflexivity|reflexivity|apply qeqb_eq; vm_compute; reflexivity]|].
  destruct (String.eqb_spec s "600") as [-> |_]; [apply (M [6; 0; 0] "m"%string (qz 60) [1; 0]); [exact H|discriminate|apply digits_okb; reflexivity|discriminate|apply digits_okb; reflexivity|reflexivity|apply qeqb_eq; vm_compute; reflexivity]|].
  destruct (String.eqb_spec s "3600") as [-> |_]; [apply (M [3; 6; 0; 0] "h"%string (qz 3600) [1]); [exact H|discriminate|apply digits_okb; reflexivity|discriminate|apply digits_okb; reflexivity|reflexivity|apply qeqb_eq; vm_compute; reflexivity]|]. exact H.
Qed.
Lemma unit_string_shape i f b q : unit_string_lasts (drop_dot_zero (decimal_string i f) ++ "s") q -> unit_string_lasts (to_time_unit_string (decimal_string i f) b) q.
Proof. intros H. unfold to_time_unit_string. cbv zeta. apply friendly_lasts. exact H. Qed.
Lemma drop_plain i f : are_digits i -> are_digits f -> hd 1 f <> 0 -> drop_dot_zero (decimal_string i f) = decimal_string i f.
Proof.
  intros Di Df H. destruct f as [|n f]; cbn [decimal_string].
  - rewrite <- (str_app_nil (digits i)) at 1. rewrite drop_digits by exact Di. cbn [drop_dot_zero]. apply str_app_nil.
  - rewrite drop_digits by exact Di. f_equal. inversion Df as [|n' f' Hn Hf]; subst. assert (E : forall m, m < 10 -> m <> 0 -> drop_dot_zero (String "." (digits (m :: f))) = String "." (drop_dot_zero (digits (m :: f)))) by (intros m Hm Nm; do 10 (destruct m as [|m]; [try reflexivity; contradiction|]); lia).
    rewrite E by (try exact Hn; exact H). f_equal. rewrite <- (str_app_nil (digits (n :: f))) at 1. rewrite drop_digits by exact Df. cbn [drop_dot_zero]. apply str_app_nil.
Qed.
Lemma drop_zero i f : are_digits i -> are_digits f -> drop_dot_zero (decimal_string i (0 :: f)) = decimal_string (i ++ f) [].
Proof.
  intros Di Df. cbn [decimal_string]. rewrite drop_digits by exact Di. change (drop_dot_zero (String "." (digits (0 :: f)))) with (drop_dot_zero (digits f)). rewrite <- (str_app_nil (digits f)) at 1. rewrite drop_digits by exact Df. cbn [drop_dot_zero]. rewrite str_app_nil, <- digits_app. reflexivity.
Qed.
Lemma decimal_int l : decimal l [] = qz (value10 0 l).
Proof. unfold decimal. change (qz (value10 0 [])) with q0. change (qz (10 ^ Z.of_nat (length (@nil nat)))) with q1. rewrite q0_eq, q1_eq. field. discriminate. Qed.
Lemma decimal_zero i g : decimal i (0 :: g) = Qcplus (qz (value10 0 i)) (Qcdiv (qz (value10 0 g)) (qz (10 * 10 ^ Z.of_nat (length g)))).
Proof. unfold decimal. cbn [length]. rewrite Nat2Z.inj_succ, Z.pow_succ_r by lia. reflexivity. Qed.
(* The time unit made for a number of seconds (written in decimals) has exactly that length if and only if the
   number is an integer, or the first decimal is not zero. *)
Theorem C65_time_unit_string : forall i f friendlier, i <> [] -> are_digits i -> are_digits f -> written_well f ->
  (unit_string_lasts (to_time_unit_string (decimal_string i f) friendlier) (decimal i f) <-> (f = [] \/ f = [0] \/ hd 0 f <> 0)).
Proof.
  intros i f b N Di Df W. split.
  - intros H. destruct f as [|n f]; [left; reflexivity|]. cbn [hd]. destruct n as [|n]; [|right; right; discriminate]. destruct f as [|m f]; [right; left; reflexivity|]. exfalso.
    destruct W as [W|[W|W]]; [discriminate|discriminate|]. inversion Df as [|? ? _ Df']; subst.
    assert (L : unit_string_lasts (to_time_unit_string (decimal_string i (0 :: m :: f)) b) (decimal (i ++ m :: f) [])).
    { apply unit_string_shape. rewrite drop_zero by assumption. apply lasts_s; [destruct i; [contradiction|discriminate]| |constructor]. apply Forall_app. split; assumption. }
    pose proof (lasts_unique _ _ _ H L) as E. rewrite decimal_int, decimal_zero, value_app, (value_acc (m :: f) (value10 0 i)) in E.
    assert (Pg : (0 < value10 0 (m :: f))%Z).
    { assert (X : last (m :: f) 0 <> 0) by exact W. assert (Ng : m :: f <> []) by discriminate. destruct (exists_last Ng) as (g' & d & Eg). rewrite Eg in X |- *. rewrite last_last in X. rewrite value_app. cbn [value10]. pose proof (value_nonneg g' 0%Z (Z.le_refl 0)). lia. }
    assert (Pi : (0 <= value10 0 i)%Z) by (apply value_nonneg; lia).
    assert (Lg0 : (10 <= 10 ^ Z.of_nat (length (m :: f)))%Z) by (change 10%Z with (10 ^ 1)%Z at 1; apply Z.pow_le_mono_r; cbn [length]; lia).
    revert E Pg Pi Lg0. generalize (10 ^ Z.of_nat (length (m :: f)))%Z as A, (value10 0 i) as I, (value10 0 (m :: f)) as G. intros A I G E Pg Pi Lg0.
    assert (NZ : qz (10 * A) <> 0%Qc) by (rewrite <- q0_eq; intros X; apply qz_inj in X; lia).
    assert (E2 : qz ((I * A + G) * (10 * A)) = qz (I * (10 * A) + G)) by (rewrite qz_mult, (qz_plus (I * (10 * A))), (qz_mult I (10 * A)), <- E; field; exact NZ).
    apply qz_inj in E2. nia.
  - intros H. apply unit_string_shape. destruct f as [|n f].
    + rewrite drop_plain by (try assumption; discriminate). apply lasts_s; assumption.
    + destruct n as [|n].
      * destruct H as [H|[H|H]]; [discriminate| |contradiction H; reflexivity]. injection H as ->. rewrite drop_zero by (try assumption; constructor). rewrite app_nil_r.
        assert (Q : decimal i [0] = decimal i []) by (rewrite decimal_zero, decimal_int; change (qz (value10 0 [])) with q0; rewrite q0_eq; field; intros X; rewrite <- q0_eq in X; apply qz_inj in X; discriminate).
        rewrite Q. apply lasts_s; [assumption|assumption|constructor].
      * rewrite drop_plain by (try assumption; discriminate). apply lasts_s; assumption.
Qed.
Print Assumptions C65_time_unit_string.
(* The property is false of the code: 1.05 seconds give a unit of 15, and 0.05 seconds one of 5. *)
Theorem C65_small_decimals_refuted :
  to_time_unit_string "1.05" true = "15s"%string /\ unit_string_lasts "15s" (qz 15) /\ to_time_unit_string "0.05" true = "05s"%string /\ unit_string_lasts "05s" (qz 5) /\
  ~ unit_string_lasts (to_time_unit_string "1.05" true) (decimal [1] [0; 5]).
Proof.
  split; [reflexivity|]. split; [exists [1; 5], [], "s"%string, (qz 1); split; [reflexivity|split; [discriminate|split; [apply digits_okb; reflexivity|split; [constructor|split; [reflexivity|apply qeqb_eq; vm_compute; reflexivity]]]]]|].
  split; [reflexivity|]. split; [exists [0; 5], [], "s"%string, (qz 1); split; [reflexivity|split; [discriminate|split; [apply digits_okb; reflexivity|split; [constructor|split; [reflexivity|apply qeqb_eq; vm_compute; reflexivity]]]]]|].
  change "1.05"%string with (decimal_string [1] [0; 5]). rewrite C65_time_unit_string; [|discriminate|apply digits_okb; reflexivity|apply digits_okb; reflexivity|right; right; discriminate]. intros [X|[X|X]]; [discriminate|discriminate|contradiction X; reflexivity].
Qed.
Print Assumptions C65_small_decimals_refuted.
(* Below a tenth of a millisecond Python writes numbers with an exponent, and the result is not the string of
   a unit. *)
Theorem C65_tiny_refuted : forall q, ~ unit_string_lasts (to_time_unit_string "1e-05" true) q.
Proof.
  intros q (i & f & l & k & E & Ni & Di & Df & Lk & _). change (to_time_unit_string "1e-05" true) with (digits [1] ++ "e-05s")%string in E.
  assert (Se : stops "e-05s") by (intros n r Hn X; do 10 (destruct n as [|n]; [discriminate X|]); lia). destruct (letter_stops _ _ Lk) as [Sl Nl].
  assert (D1 : are_digits [1]) by (apply digits_okb; reflexivity).
  destruct f as [|d f]; cbn [decimal_string] in E; rewrite ?str_app_assoc in E.
  - apply digits_read in E; try assumption. destruct E as [_ <-]. cbn in Lk. discriminate.
  - apply digits_read in E; [|assumption|assumption|assumption|apply dot_stops]. destruct E as [_ E]. discriminate.
Qed.
Print Assumptions C65_tiny_refuted.
Example C65_nonvacuous : decimal_string [1] [5] = "1.5"%string /\ to_time_unit_string "1.5" true = "1.5s"%string /\ written_well [5] /\ to_time_unit_string "3600.0" true = "1h"%string /\ decimal_string [3; 6; 0; 0] [0] = "3600.0"%string /\ written_well [0].
Proof. repeat split; try reflexivity; [right; right; discriminate|right; left; reflexivity]. Qed.

(* ===================== C66 ===================== *)

(* With numbers: adding and subtracting a unit (from either side) are the operations on its value, and undo each
   other; so are multiplication and division. *)
Theorem C66_numbers : forall a x,
  unit_add (UNum a) (ONum x) = Ok (RNum (Qcplus x a)) /\ unit_rsub (UNum a) (ONum x) = Ok (RNum (Qcminus x a)) /\ unit_sub (UNum a) (ONum x) = Ok (RNum (Qcminus a x)) /\
  (forall y, unit_add (UNum a) (ONum x) = Ok (RNum y) -> unit_rsub (UNum a) (ONum y) = Ok (RNum x)) /\
  (forall y, unit_rsub (UNum a) (ONum x) = Ok (RNum y) -> unit_add (UNum a) (ONum y) = Ok (RNum x)) /\
  unit_mul (UNum a) (ONum x) = Ok (Qcmult x a) /\ (x <> q0 -> unit_div (UNum a) (ONum x) = Ok (Qcdiv a x)) /\ unit_div (UNum a) (ONum q0) = Err ZeroDivisionError.
Proof.
  intros a x. assert (R : forall y, unit_rsub (UNum a) (ONum y) = Ok (RNum (Qcminus y a))) by (intros y; unfold unit_rsub; cbn; do 2 f_equal; ring).
  split; [cbn; do 2 f_equal; ring|]. split; [apply R|]. split; [reflexivity|]. split; [intros y H; cbn in H; injection H as <-; rewrite R; do 2 f_equal; ring|].
  split; [intros y H; rewrite R in H; injection H as <-; cbn; do 2 f_equal; ring|]. split; [cbn; f_equal; ring|]. split; [intros N; cbn [unit_div]; unfold qdiv; rewrite qeqb_false by exact N; reflexivity|]. cbn [unit_div]. unfold qdiv. rewrite qeqb_refl. reflexivity.
Qed.
Print Assumptions C66_numbers.
(* Between units, the same on the values; the sum does not depend on the order. *)
Theorem C66_units : forall a b,
  unit_add (UNum a) (OUnit (UNum b)) = Ok (RNum (Qcplus a b)) /\ unit_add (UNum b) (OUnit (UNum a)) = Ok (RNum (Qcplus a b)) /\ unit_sub (UNum a) (OUnit (UNum b)) = Ok (RNum (Qcminus a b)).
Proof. intros a b. split; [reflexivity|]. split; [cbn; do 2 f_equal; ring|reflexivity]. Qed.
Print Assumptions C66_units.
(* A number divided by a unit; except for zero. *)
Theorem C66_number_by_unit_partial : forall a x, a <> q0 -> x <> q0 -> unit_rdiv (UNum a) (ONum x) = Ok (Qcdiv x a).
Proof.
  intros a x N M. unfold unit_rdiv. cbn [unit_div]. assert (D : qdiv a x = Ok (Qcdiv a x)) by (unfold qdiv; rewrite qeqb_false by exact M; reflexivity). rewrite D. cbn [bind]. unfold qdiv. rewrite qeqb_false.
  - f_equal. rewrite q1_eq. rewrite q0_eq in *. field. split; assumption.
  - intros X. apply N. assert (Q : a = Qcmult (Qcdiv a x) x) by (field; rewrite q0_eq in M; exact M). rewrite Q, X, q0_eq. ring.
Qed.
Print Assumptions C66_number_by_unit_partial.
Theorem C66_zero_by_unit_refuted : forall a, unit_rdiv (UNum a) (ONum q0) = Err ZeroDivisionError.
Proof. intros a. unfold unit_rdiv. cbn [unit_div]. assert (D : qdiv a q0 = Err ZeroDivisionError) by (unfold qdiv; rewrite qeqb_refl; reflexivity). rewrite D. reflexivity. Qed.
Print Assumptions C66_zero_by_unit_refuted.
(* With points: they can be added, but not subtracted afterwards, as points have no negation. *)
Theorem C66_points_refuted : forall a x, unit_add (UNum a) (OPoint [x]) = Ok (RPoint [Qcplus a x]) /\ forall y, unit_rsub (UNum a) (OPoint [y]) = Err TypeError.
Proof. intros a x. split; reflexivity. Qed.
Print Assumptions C66_points_refuted.
(* With time points and time units of fixed length it works, and also with any calendar unit whose shifts back
   and forth undo each other. *)
Theorem C66_time_points : forall c t u,
  (forall n, u = UCal n -> cal_shift c n (cal_shift c n t 1) (-1) = t /\ cal_shift c n (cal_shift c n t (-1)) 1 = t) ->
  time_minus c (time_plus c t u) u = t /\ time_plus c (time_minus c t u) u = t /\ (forall d, u = UPhys d -> time_plus c t u = Qcplus t d).
Proof.
  intros c t u H. unfold time_plus, time_minus. destruct u as [d|n]; cbn [unit_shift].
  - split; [change (qz (-1)) with (Qcopp q1); change (qz 1) with q1; rewrite q1_eq; ring|]. split; [change (qz (-1)) with (Qcopp q1); change (qz 1) with q1; rewrite q1_eq; ring|]. intros d' E. injection E as <-. change (qz 1) with q1. rewrite q1_eq. ring.
  - destruct (H n eq_refl) as [A B]. split; [exact A|]. split; [exact B|]. intros d E. discriminate.
Qed.
Print Assumptions C66_time_points.
(* Equality of numbers and units, in any combination, is an equivalence. *)
Lemma list_eqb_eq a : forall b, list_eqb a b = true <-> a = b.
Proof. induction a as [|x a IH]; intros [|y b]; cbn; try (split; [discriminate|discriminate]); [split; reflexivity|]. rewrite andb_true_iff, IH. split; [intros [X ->]; apply qeqb_eq in X; rewrite X; reflexivity|]. intros E. injection E as -> ->. split; [apply qeqb_refl|reflexivity]. Qed.
Lemma uval_eqb_eq u v : uval_eqb u v = true <-> u = v.
Proof.
  destruct u as [a|a], v as [b|b]; cbn; try (split; discriminate).
  - split; [intros X; apply qeqb_eq in X; rewrite X; reflexivity|]. intros E. injection E as ->. apply qeqb_refl.
  - rewrite list_eqb_eq. split; [intros ->; reflexivity|]. intros E. injection E as ->. reflexivity.
Qed.
Theorem C66_equality : (forall a, thing_eq a a = true) /\ (forall a b, thing_eq a b = thing_eq b a) /\ (forall a b c, thing_eq a b = true -> thing_eq b c = true -> thing_eq a c = true) /\
  (forall a x, thing_eq (TUnit (UNum a)) (TNum x) = true <-> a = x).
Proof.
  set (val := fun t => match t with TNum q => UNum q | TUnit v => v end).
  assert (H : forall a b, thing_eq a b = true <-> val a = val b).
  { intros [x|u] [y|v]; cbn [thing_eq unit_eq val]; rewrite ?uval_eqb_eq; try reflexivity; [|split; congruence]. change (qeqb x y) with (uval_eqb (UNum x) (UNum y)). apply uval_eqb_eq. }
  split; [intros a; apply H; reflexivity|]. split; [|split].
  - intros a b. destruct (thing_eq a b) eqn:E, (thing_eq b a) eqn:E'; try reflexivity; [apply H in E; symmetry in E; apply H in E; congruence|apply H in E'; symmetry in E'; apply H in E'; congruence].
  - intros a b c A B. apply H. apply H in A, B. congruence.
  - intros a x. rewrite H. cbn. split; [intros E; injection E as ->; reflexivity|intros ->; reflexivity].
Qed.
Print Assumptions C66_equality.
(* A unit cannot be built by the name of its argument. *)
Theorem C66_value_by_name_refuted : forall v, time_unit_by_name (Some v) None = Err KeyError.
Proof. reflexivity. Qed.
Print Assumptions C66_value_by_name_refuted.
