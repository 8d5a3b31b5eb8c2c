(* BaseLemmas.v -- lemmas and tactics on the shared vocabulary. *)
From Verif Require Export Base.
From Coq Require Import Permutation.

(* ---------------- rationals ---------------- *)

Lemma this_add x y : (this (Qcplus x y) == this x + this y)%Q.
Proof. apply Qred_correct. Qed.
Lemma this_sub x y : (this (Qcminus x y) == this x - this y)%Q.
Proof. unfold Qcminus. rewrite this_add. unfold Qminus. apply Qplus_comp; [reflexivity|]. apply Qred_correct. Qed.
Lemma this_mul x y : (this (Qcmult x y) == this x * this y)%Q.
Proof. apply Qred_correct. Qed.
Lemma this_opp x : (this (Qcopp x) == - this x)%Q.
Proof. apply Qred_correct. Qed.
Lemma this_inv x : (this (Qcinv x) == / this x)%Q.
Proof. apply Qred_correct. Qed.
Lemma this_Q2Qc q : (this (Q2Qc q) == q)%Q.
Proof. apply Qred_correct. Qed.
Lemma this_qz z : (this (qz z) == inject_Z z)%Q.
Proof. apply Qred_correct. Qed.
Lemma this_div x y : (this (Qcdiv x y) == this x * / this y)%Q.
Proof. unfold Qcdiv. rewrite this_mul, this_inv. reflexivity. Qed.
Lemma this_mul_cl c x : (this (Qcmult (qz c) x) == inject_Z c * this x)%Q.
Proof. rewrite this_mul, this_qz. reflexivity. Qed.
Lemma this_mul_cr c x : (this (Qcmult x (qz c)) == inject_Z c * this x)%Q.
Proof. rewrite this_mul, this_qz. apply Qmult_comm. Qed.
Lemma this_mul_fl c x : (this (Qcmult (Q2Qc c) x) == c * this x)%Q.
Proof. rewrite this_mul, this_Q2Qc. reflexivity. Qed.
Lemma this_mul_fr c x : (this (Qcmult x (Q2Qc c)) == c * this x)%Q.
Proof. rewrite this_mul, this_Q2Qc. apply Qmult_comm. Qed.
Lemma this_div_c p x : (this (Qcdiv x (qz (Zpos p))) == (1 # p) * this x)%Q.
Proof. rewrite this_div, this_qz. rewrite Qmult_comm. apply Qmult_comp; reflexivity. Qed.
Lemma qc_eq x y : x = y <-> (this x == this y)%Q.
Proof. split; [intros ->; reflexivity | apply Qc_is_canon]. Qed.

Lemma qeqb_spec x y : reflect (x = y) (qeqb x y).
Proof.
  unfold qeqb. destruct (Qeq_bool (this x) (this y)) eqn:E; constructor.
  - apply Qc_is_canon, Qeq_bool_iff, E.
  - intros ->. rewrite (proj2 (Qeq_bool_iff (this y) (this y))) in E; [discriminate|reflexivity].
Qed.
Lemma qleb_spec x y : reflect (Qcle x y) (qleb x y).
Proof.
  unfold qleb, Qcle. destruct (Qle_bool (this x) (this y)) eqn:E; constructor.
  - apply Qle_bool_iff, E.
  - intros H. apply Qle_bool_iff in H. congruence.
Qed.
Lemma qltb_spec x y : reflect (Qclt x y) (qltb x y).
Proof.
  unfold qltb, Qclt. destruct (Qle_bool (this y) (this x)) eqn:E; constructor.
  - intros H. apply Qle_bool_iff in E. revert H. apply Qle_not_lt, E.
  - apply Qnot_le_lt. intros H. apply Qle_bool_iff in H. congruence.
Qed.

(* Collect, for every Qc sub-term, its meaning in Q; then linear arithmetic. *)
Inductive qc_mark (x : Qc) : Prop := QcMark.
Ltac qc_fresh t :=
  lazymatch goal with H : qc_mark t |- _ => fail 1 | _ => pose proof (QcMark t) end.
Ltac is_pcst p :=
  lazymatch p with xH => idtac | xO ?q => is_pcst q | xI ?q => is_pcst q | _ => fail end.
Ltac is_zcst z :=
  lazymatch z with Z0 => idtac | Zpos ?p => is_pcst p | Zneg ?p => is_pcst p | _ => fail end.
Ltac qc_note t :=
  match t with
  | Qcplus ?x ?y => qc_fresh t; pose proof (this_add x y)
  | Qcminus ?x ?y => qc_fresh t; pose proof (this_sub x y)
  | Qcmult (qz ?c) ?y => is_zcst c; qc_fresh t; pose proof (this_mul_cl c y)
  | Qcmult ?x (qz ?c) => is_zcst c; qc_fresh t; pose proof (this_mul_cr c x)
  | Qcmult (Q2Qc ?c) ?y => qc_fresh t; pose proof (this_mul_fl c y)
  | Qcmult ?x (Q2Qc ?c) => qc_fresh t; pose proof (this_mul_fr c x)
  | Qcmult ?x ?y => qc_fresh t; pose proof (this_mul x y)
  | Qcdiv ?x (qz (Zpos ?p)) => is_pcst p; qc_fresh t; pose proof (this_div_c p x)
  | Qcopp ?x => qc_fresh t; pose proof (this_opp x)
  | Qcdiv ?x ?y => qc_fresh t; pose proof (this_div x y)
  | Qcinv ?x => qc_fresh t; pose proof (this_inv x)
  | Q2Qc ?x => qc_fresh t; pose proof (this_Q2Qc x)
  | qz ?x => is_zcst x; qc_fresh t; pose proof (this_qz x)
  end.
Ltac qc_term T :=
  match T with
  | context [Qcplus ?x ?y] => qc_note (Qcplus x y)
  | context [Qcminus ?x ?y] => qc_note (Qcminus x y)
  | context [Qcmult ?x ?y] => qc_note (Qcmult x y)
  | context [Qcopp ?x] => qc_note (Qcopp x)
  | context [Qcdiv ?x ?y] => qc_note (Qcdiv x y)
  | context [Qcinv ?x] => qc_note (Qcinv x)
  | context [qz ?x] => qc_note (qz x)
  | context [Q2Qc ?x] => qc_note (Q2Qc x)
  end.
Ltac qc_collect :=
  repeat match goal with
  | |- ?G => qc_term G
  | H : Qclt ?a ?b |- _ => first [qc_term a | qc_term b]
  | H : Qcle ?a ?b |- _ => first [qc_term a | qc_term b]
  | H : @eq Qc ?a ?b |- _ => first [qc_term a | qc_term b]
  end.
Ltac qc_prep :=
  repeat match goal with
  | H : not (Qclt _ _) |- _ => apply Qcnot_lt_le in H
  | H : not (Qcle _ _) |- _ => apply Qcnot_le_lt in H
  end;
  repeat match goal with
  | |- not (@eq Qc _ _) => intro
  | |- not (Qclt _ _) => intro
  | |- not (Qcle _ _) => intro
  end;
  unfold q0, q1, q2, qn, qfrac in *;
  qc_collect;
  repeat match goal with H : @eq Qc _ _ |- _ => apply qc_eq in H end;
  repeat match goal with H : Qclt _ _ |- _ => unfold Qclt in H end;
  repeat match goal with H : Qcle _ _ |- _ => unfold Qcle in H end;
  repeat match goal with H : qc_mark _ |- _ => clear H end;
  try apply Qc_is_canon; unfold Qclt, Qcle;
  unfold inject_Z in *.
Ltac qlra := qc_prep; lra.
Ltac qnra := qc_prep; nra.

(* one case split per boolean comparison *)
Ltac qcase :=
  match goal with
  | |- context [qltb ?x ?y] => destruct (qltb_spec x y)
  | |- context [qleb ?x ?y] => destruct (qleb_spec x y)
  | |- context [qeqb ?x ?y] => destruct (qeqb_spec x y)
  end.
Ltac qcaseH H :=
  match type of H with
  | context [qltb ?x ?y] => destruct (qltb_spec x y)
  | context [qleb ?x ?y] => destruct (qleb_spec x y)
  | context [qeqb ?x ?y] => destruct (qeqb_spec x y)
  end.

(* Field for Qc with q0/q1 normal forms *)
Lemma q0_eq : q0 = Q2Qc 0. Proof. reflexivity. Qed.
Lemma q1_eq : q1 = Q2Qc 1. Proof. reflexivity. Qed.
Lemma q1_neq_q0 : q1 <> q0. Proof. intro H. apply qc_eq in H. discriminate H. Qed.
Lemma q2_neq_q0 : q2 <> q0. Proof. intro H. apply qc_eq in H. discriminate H. Qed.

Lemma qeqb_refl x : qeqb x x = true.
Proof. destruct (qeqb_spec x x); congruence. Qed.
Lemma qleb_refl x : qleb x x = true.
Proof. destruct (qleb_spec x x); [reflexivity|exfalso; qlra]. Qed.
Lemma qltb_irrefl x : qltb x x = false.
Proof. destruct (qltb_spec x x); [exfalso; qlra|reflexivity]. Qed.
Lemma qltb_true x y : Qclt x y -> qltb x y = true.
Proof. destruct (qltb_spec x y); [reflexivity|contradiction]. Qed.
Lemma qltb_false x y : Qcle y x -> qltb x y = false.
Proof. intros H; destruct (qltb_spec x y); [exfalso; qlra|reflexivity]. Qed.
Lemma qleb_true x y : Qcle x y -> qleb x y = true.
Proof. destruct (qleb_spec x y); [reflexivity|contradiction]. Qed.
Lemma qleb_false x y : Qclt y x -> qleb x y = false.
Proof. intros H; destruct (qleb_spec x y); [exfalso; qlra|reflexivity]. Qed.
Lemma qeqb_false x y : x <> y -> qeqb x y = false.
Proof. intros H; destruct (qeqb_spec x y); [contradiction|reflexivity]. Qed.

Example qlra_test x y : Qclt x y -> Qclt (Qcmult x q2) (Qcplus y y).
Proof. intros; qlra. Qed.
Example qlra_test2 x y : Qclt x y -> Qclt x (Qcplus x (Qcdiv (Qcminus y x) q2)).
Proof. intros. qlra. Qed.
