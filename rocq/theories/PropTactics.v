(* PropTactics.v -- small tactics used by the refutations. *)
From Verif Require Import BaseLemmas.

(* a false closed (in)equality between rationals *)
Ltac qc_discriminate H :=
  exfalso; cbv beta in H;
  lazymatch type of H with
  | @eq Qc _ _ => apply qc_eq in H; vm_compute in H; discriminate H
  | Qclt _ _ => unfold Qclt in H; vm_compute in H; discriminate H
  | Qcle _ _ => unfold Qcle in H; vm_compute in H; apply H; reflexivity
  end.
Lemma qltb_lt x y : qltb x y = true -> Qclt x y.
Proof. destruct (qltb_spec x y); [auto|discriminate]. Qed.
Lemma qleb_le x y : qleb x y = true -> Qcle x y.
Proof. destruct (qleb_spec x y); [auto|discriminate]. Qed.
Lemma qeqb_eq x y : qeqb x y = true -> x = y.
Proof. destruct (qeqb_spec x y); [auto|discriminate]. Qed.
Lemma qeqb_neq x y : qeqb x y = false -> x <> y.
Proof. destruct (qeqb_spec x y); [discriminate|auto]. Qed.
