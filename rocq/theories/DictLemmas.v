(* DictLemmas.v -- lemmas on insertion-ordered dictionaries. *)
From Verif Require Export BaseLemmas.

Lemma dget_In {V} k (d : dict V) : dget k d <> None <-> In k (dkeys d).
Proof.
  induction d as [|[k' v] d IH]; cbn; [tauto|]. destruct (String.eqb_spec k k'); subst.
  - split; [auto|discriminate].
  - rewrite IH. split; [auto|]. intros [H|H]; [congruence|exact H].
Qed.
Lemma dget_None {V} k (d : dict V) : dget k d = None <-> ~ In k (dkeys d).
Proof.
  rewrite <- dget_In. destruct (dget k d); split; try congruence.
  intros H. exfalso. apply H. discriminate.
Qed.
Lemma dget_Some_In {V} k (d : dict V) v : dget k d = Some v -> In (k, v) d.
Proof.
  induction d as [|[k' v'] d IH]; cbn; [discriminate|]. destruct (String.eqb_spec k k'); subst.
  - intros [= ->]. auto.
  - auto.
Qed.
Lemma dget_NoDup {V} k (d : dict V) v : NoDup (dkeys d) -> In (k, v) d -> dget k d = Some v.
Proof.
  induction d as [|[k' v'] d IH]; cbn; [intros _ []|]. intros Hn Hin. inversion Hn as [|? ? Hn1 Hn2]; subst.
  destruct Hin as [[= -> ->]|Hin]; [rewrite String.eqb_refl; reflexivity|].
  destruct (String.eqb_spec k k'); subst; [|auto].
  exfalso. apply Hn1. change k' with (fst (k', v)). apply in_map, Hin.
Qed.
Lemma dget_dset {V} k k' (v : V) d : dget k (dset k' v d) = if String.eqb k k' then Some v else dget k d.
Proof.
  induction d as [|[k2 v2] d IH]; cbn; [destruct (String.eqb k k'); reflexivity|].
  destruct (String.eqb_spec k' k2); subst; cbn.
  - destruct (String.eqb k k2); reflexivity.
  - rewrite IH. destruct (String.eqb_spec k k2), (String.eqb_spec k k'); subst; congruence.
Qed.
Lemma dkeys_ddel_In {V} k k' (d : dict V) : In k (dkeys (ddel k' d)) -> In k (dkeys d).
Proof.
  induction d as [|[k2 v2] d IH]; cbn; [auto|]. destruct (String.eqb_spec k' k2); cbn; auto. intros [H|H]; auto.
Qed.
Lemma ddel_NoDup {V} k (d : dict V) : NoDup (dkeys d) -> NoDup (dkeys (ddel k d)).
Proof.
  induction d as [|[k2 v2] d IH]; cbn; [auto|]. intros H. inversion H as [|? ? H1 H2]; subst.
  destruct (String.eqb k k2); [exact H2|]. cbn. constructor; [|auto]. intros Hin. apply H1. eapply dkeys_ddel_In, Hin.
Qed.
Lemma dget_ddel {V} k k' (d : dict V) : NoDup (dkeys d) ->
  dget k (ddel k' d) = if String.eqb k k' then None else dget k d.
Proof.
  induction d as [|[k2 v2] d IH]; cbn; [destruct (String.eqb k k'); reflexivity|].
  intros H. inversion H as [|? ? H1 H2]; subst.
  destruct (String.eqb_spec k' k2); subst.
  - destruct (String.eqb_spec k k2); [|reflexivity]. subst. apply dget_None, H1.
  - cbn. rewrite IH by exact H2. destruct (String.eqb_spec k k2), (String.eqb_spec k k'); subst; congruence.
Qed.
Lemma dkeys_dset {V} k (v : V) d : dkeys (dset k v d) = if dmem k d then dkeys d else dkeys d ++ [k].
Proof.
  unfold dmem, dkeys. induction d as [|[k2 v2] d IH]; cbn; [reflexivity|].
  destruct (String.eqb_spec k k2); subst; cbn; [reflexivity|]. rewrite IH. destruct (dget k d); reflexivity.
Qed.
Lemma NoDup_snoc {A} (l : list A) x : NoDup l -> ~ In x l -> NoDup (l ++ [x]).
Proof.
  induction l as [|y l IH]; cbn; intros Hn Hx; [repeat constructor; auto|].
  inversion Hn; subst. constructor.
  - rewrite in_app_iff. intros [H|[H|[]]]; [auto|]. subst. apply Hx. auto.
  - apply IH; auto.
Qed.
Lemma dset_NoDup {V} k (v : V) d : NoDup (dkeys d) -> NoDup (dkeys (dset k v d)).
Proof.
  intros H. rewrite dkeys_dset. unfold dmem. destruct (dget k d) eqn:E; [exact H|].
  apply NoDup_snoc; [exact H|]. apply dget_None, E.
Qed.
Lemma dkeys_dset_In {V} k k' (v : V) d : In k (dkeys (dset k' v d)) <-> k = k' \/ In k (dkeys d).
Proof.
  rewrite <- !dget_In, dget_dset. destruct (String.eqb_spec k k'); subst.
  - split; [auto|discriminate].
  - split; [auto|]. intros [H|H]; [contradiction|exact H].
Qed.
