(* IntervalsProofs2.v -- coverage and data loss. *)
From Verif Require Import SpecIntervals BaseLemmas AccessProofs3 OpsProofs IntervalsProofs.

Lemma qmax_facts x y : Qcle x (qmax x y) /\ Qcle y (qmax x y) /\ (qmax x y = x \/ qmax x y = y).
Proof. unfold qmax. destruct (qleb_spec x y) as [H|H]; (split; [|split]); auto; qlra. Qed.
Lemma qmin_facts x y : Qcle (qmin x y) x /\ Qcle (qmin x y) y /\ (qmin x y = x \/ qmin x y = y).
Proof. unfold qmin. destruct (qleb_spec x y) as [H|H]; (split; [|split]); auto; qlra. Qed.
Ltac qmm1 x y facts t := let H := fresh in let m := fresh "m" in
  destruct (facts x y) as (? & ? & H); set (m := t) in *; clearbody m; destruct H.
Ltac qmm := repeat match goal with
  | |- context [qmax ?x ?y] => qmm1 x y qmax_facts (qmax x y)
  | |- context [qmin ?x ?y] => qmm1 x y qmin_facts (qmin x y)
  | H : context [qmax ?x ?y] |- _ => qmm1 x y qmax_facts (qmax x y)
  | H : context [qmin ?x ?y] |- _ => qmm1 x y qmin_facts (qmin x y)
  end.

Fixpoint chain (lo : Qc) (ivs : list (Qc * Qc)) : Prop :=
  match ivs with [] => True | (a, b) :: r => Qcle lo a /\ Qcle a b /\ chain b r end.
Definition olen (ivs : list (Qc * Qc)) (f t : Qc) : Qc := total (map (fun ab => overlap (fst ab) (snd ab) f t) ivs).
Definition ivs_of (l : list vpoint) : list (Qc * Qc) := map (fun p => (vp_from p, vp_to p)) (measured l).
Lemma covered_length_olen l f t : covered_length l f t = olen (ivs_of l) f t.
Proof. unfold covered_length, olen, ivs_of. rewrite map_map. reflexivity. Qed.

Lemma overlap_nonneg a b f t : Qcle q0 (overlap a b f t).
Proof. unfold overlap. apply qmax_facts. Qed.
Lemma overlap_outside a b f t : Qcle b f \/ Qcle t a -> overlap a b f t = q0.
Proof. intros [H|H]; unfold overlap; qmm; qlra. Qed.
Lemma overlap_inside a b f t : Qcle f t -> Qcle a b -> Qcle f b -> Qcle a t -> overlap a b f t = Qcminus (qmin b t) (qmax a f).
Proof. intros; unfold overlap; qmm; qlra. Qed.
Lemma olen_nonneg ivs f t : Qcle q0 (olen ivs f t).
Proof. induction ivs as [|[a b] r IH]; unfold olen in *; simpl; [apply Qcle_refl|]. pose proof (overlap_nonneg a b f t). qlra. Qed.
Lemma olen_upper : forall ivs lo f t, chain lo ivs -> Qcle (olen ivs f t) (qmax q0 (Qcminus t (qmax f lo))).
Proof.
  induction ivs as [|[a b] r IH]; intros lo f t H; unfold olen in *; simpl.
  - apply qmax_facts.
  - destruct H as (H1 & H2 & H3). specialize (IH b f t H3). unfold overlap at 1. generalize dependent (total (map (fun ab => overlap (fst ab) (snd ab) f t) r)). intros S HS.
    cbn [fst snd]. qmm; qlra.
Qed.
Lemma olen_le : forall ivs lo f t, chain lo ivs -> Qcle f t -> Qcle (olen ivs f t) (Qcminus t f).
Proof. intros ivs lo f t H L. pose proof (olen_upper ivs lo f t H) as U. generalize dependent (olen ivs f t). intros S HS. qmm; qlra. Qed.
Lemma olen_beyond : forall ivs lo f t, chain lo ivs -> Qcle t lo -> olen ivs f t = q0.
Proof. intros ivs lo f t H L. pose proof (olen_upper ivs lo f t H) as U. pose proof (olen_nonneg ivs f t). generalize dependent (olen ivs f t). intros S HS1 HS2. qmm; qlra. Qed.
Lemma overlap_from a b f f' t : Qcle f f' -> Qcle f' a -> overlap a b f t = overlap a b f' t.
Proof. intros; unfold overlap; qmm; qlra. Qed.
Lemma olen_from : forall ivs lo f f' t, chain lo ivs -> Qcle f f' -> Qcle f' lo -> olen ivs f t = olen ivs f' t.
Proof.
  induction ivs as [|[a b] r IH]; intros lo f f' t H L L'; unfold olen in *; simpl; [reflexivity|]. destruct H as (H1 & H2 & H3).
  assert (Qcle f' a) by (eapply Qcle_trans; [exact L'|exact H1]).
  rewrite (IH b f f' t H3 L) by (eapply Qcle_trans; eassumption). f_equal. apply overlap_from; assumption.
Qed.
Lemma overlap_split a b f m t : Qcle f m -> Qcle m t -> overlap a b f t = Qcplus (overlap a b f m) (overlap a b m t).
Proof. intros; unfold overlap; qmm; qlra. Qed.
Lemma olen_split ivs f m t : Qcle f m -> Qcle m t -> olen ivs f t = Qcplus (olen ivs f m) (olen ivs m t).
Proof.
  intros L L'. induction ivs as [|[a b] r IH]; unfold olen in *; simpl; [qlra|]. rewrite IH, (overlap_split a b f m t L L').
  generalize (total (map (fun ab => overlap (fst ab) (snd ab) f m) r)), (total (map (fun ab => overlap (fst ab) (snd ab) m t) r)). intros; qlra.
Qed.

Definition inside (ivs : list (Qc * Qc)) (x : Qc) : Prop := exists a b, In (a, b) ivs /\ Qcle a x /\ Qcle x b.
Lemma inside_cons a b r x : inside ((a, b) :: r) x <-> (Qcle a x /\ Qcle x b) \/ inside r x.
Proof.
  split.
  - intros (a' & b' & [E|H] & K); [injection E as -> ->; left; exact K|right; exists a', b'; auto].
  - intros [K|(a' & b' & H & K)]; [exists a, b; split; [left; reflexivity|exact K]|exists a', b'; split; [right; exact H|exact K]].
Qed.
Lemma chain_inside_ge : forall ivs lo x, chain lo ivs -> inside ivs x -> Qcle lo x.
Proof.
  induction ivs as [|[a b] r IH]; intros lo x H K; [destruct K as (? & ? & [] & _)|]. destruct H as (H1 & H2 & H3).
  apply inside_cons in K. destruct K as [[K _]|K]; [eapply Qcle_trans; eassumption|]. apply (IH b) in K; [|exact H3]. qlra.
Qed.
Lemma olen_full : forall ivs lo f t, chain lo ivs -> Qclt f t -> (forall x, Qclt f x -> Qclt x t -> inside ivs x) -> olen ivs f t = Qcminus t f.
Proof.
  induction ivs as [|[a b] r IH]; intros lo f t H L C.
  - exfalso. destruct (C (midpoint f t)) as (? & ? & [] & _); unfold midpoint; qlra.
  - destruct H as (H1 & H2 & H3). unfold olen. simpl. fold (olen r f t).
    destruct (Qclt_le_dec f b) as [Lb|Lb].
    + assert (Ha : Qcle a f).
      { destruct (Qclt_le_dec f a) as [Lf|Lf]; [|exact Lf]. exfalso.
        assert (G : inside ((a, b) :: r) (midpoint f (qmin a t))) by (apply C; unfold midpoint; qmm; qlra).
        apply inside_cons in G. destruct G as [[G _]|G]; [|apply (chain_inside_ge r b) in G; [|exact H3]]; unfold midpoint in G; qmm; qlra. }
      destruct (Qclt_le_dec b t) as [Lt|Lt].
      * rewrite (olen_from r b f b t H3) by (try apply Qcle_refl; apply Qclt_le_weak; exact Lb).
        rewrite (IH b b t H3 Lt).
        -- unfold overlap. qmm; qlra.
        -- intros x X1 X2. specialize (C x). rewrite inside_cons in C. destruct C as [[_ C]|C]; [qlra|exact X2| |exact C]. exfalso; qlra.
      * rewrite (olen_beyond r b f t H3 Lt). unfold overlap. qmm; qlra.
    + rewrite overlap_outside by (left; exact Lb). rewrite (IH b f t H3 L); [qlra|].
      intros x X1 X2. specialize (C x X1 X2). apply inside_cons in C. destruct C as [[_ C]|C]; [exfalso; qlra|exact C].
Qed.
Lemma olen_missing : forall ivs lo f t x, chain lo ivs -> Qcle f x -> Qcle x t -> Qclt f t -> ~ inside ivs x -> Qclt (olen ivs f t) (Qcminus t f).
Proof.
  induction ivs as [|[a b] r IH]; intros lo f t x H Lf Lt L C.
  - unfold olen. simpl. qlra.
  - destruct H as (H1 & H2 & H3). rewrite inside_cons in C.
    assert (C2 : ~ inside r x) by (intros K; apply C; right; exact K).
    unfold olen. simpl. fold (olen r f t).
    destruct (Qclt_le_dec x a) as [La|La].
    + assert (Q : Qcle (Qcplus (overlap a b f t) (olen r f t)) (qmax q0 (Qcminus t (qmax f a)))).
      { change (Qcplus (overlap a b f t) (olen r f t)) with (olen ((a, b) :: r) f t). apply olen_upper. simpl. split; [apply Qcle_refl|auto]. }
      generalize dependent (Qcplus (overlap a b f t) (olen r f t)). intros S HS. qmm; qlra.
    + assert (Lb : Qclt b x) by (destruct (Qclt_le_dec b x) as [K|K]; [exact K|exfalso; apply C; left; auto]).
      destruct (Qclt_le_dec f b) as [Lfb|Lfb].
      * rewrite (olen_from r b f b t H3) by (try apply Qcle_refl; apply Qclt_le_weak; exact Lfb).
        assert (Lbt : Qclt b t) by qlra.
        pose proof (IH b b t x H3 (Qclt_le_weak _ _ Lb) Lt Lbt C2) as I. generalize dependent (olen r b t). intros S HS. unfold overlap; qmm; qlra.
      * rewrite overlap_outside by (left; exact Lfb). pose proof (IH b f t x H3 Lf Lt L C2). generalize dependent (olen r f t). intros; qlra.
Qed.
Lemma olen_none ivs f t : (forall a b, In (a, b) ivs -> Qcle a b) -> (forall x, inside ivs x -> ~ (Qclt f x /\ Qclt x t)) -> Qclt f t -> olen ivs f t = q0.
Proof.
  intros Hab H L. induction ivs as [|[a b] r IH]; unfold olen in *; simpl; [reflexivity|]. rewrite IH.
  - assert (K : overlap a b f t = q0); [|rewrite K; qlra].
    assert (A : Qcle a b) by (apply Hab; left; reflexivity).
    destruct (Qclt_le_dec f b) as [L1|L1]; [|apply overlap_outside; left; exact L1].
    destruct (Qclt_le_dec a t) as [L2|L2]; [|apply overlap_outside; right; exact L2].
    exfalso. apply (H (midpoint (qmax a f) (qmin b t))).
    + apply inside_cons. left. unfold midpoint. qmm; split; qlra.
    + unfold midpoint. qmm; split; try qlra.
      
  - intros x y Hx. apply Hab. right. exact Hx.
  - intros x Hx. apply H. apply inside_cons. right. exact Hx.
Qed.
