(* LstmProofs2.v -- proofs about the features and the normalisation. *)
From Verif Require Import SpecLstm BaseLemmas PropTactics DictLemmas AccessProofs2 OpsProofs OpsProofs2 OpsProofs3 InterpProofs ReconProofs2 ReconProofs3 ReconProofs4 SeriesProofs2 LstmProofs.

Lemma get_lt {A} (l : list A) k : k < length l -> exists x, nth_error l k = Some x /\ In x l.
Proof. intros H. destruct (nth_error l k) as [x|] eqn:E; [exists x; split; [reflexivity|apply nth_error_In in E; exact E]|apply nth_error_None in E; lia]. Qed.
Lemma qn1 : qn 1 = q1. Proof. apply qeqb_eq. vm_compute. reflexivity. Qed.
Lemma qn2 : qn 2 = q2. Proof. apply qeqb_eq. vm_compute. reflexivity. Qed.
Lemma q2_nz : q2 <> q0. Proof. apply qeqb_neq. vm_compute. reflexivity. Qed.
Lemma minus_eq a b : Qcminus a b = q0 <-> a = b.
Proof. rewrite q0_eq. split; [|intros ->; ring]. intros H. replace a with (Qcplus (Qcminus a b) b) by ring. rewrite H. ring. Qed.

(* The difference between two items of the window, a .. b. *)
Lemma diff_between win k lb a b (den : Qc) : den <> q0 -> den = qn (b - a) -> k - 1 = a -> Nat.min (k + 1) (length win - 1) = b -> a < b -> b < length win -> (forall x, In x win -> with_dict x) ->
  exists v, or_zero (do d <- (do y' <- nth_item win b; do y <- data_at y' lb; do x' <- nth_item win a; do x <- data_at x' lb; Ok (Qcdiv (Qcminus y x) den)); Ok (if qeqb d q0 then q1 else d)) = Ok v /\
    diff_feature win k lb v.
Proof.
  intros Dz Dn Ea Eb Lab Lb D. destruct (get_lt win b Lb) as (y & Ey & Iy). destruct (get_lt win a ltac:(lia)) as (x & Ex & Ix).
  unfold diff_feature. rewrite Ea, Eb. unfold nth_item. rewrite Ey, Ex. cbn [bind].
  destruct (data_at_dict y lb (D y Iy)) as [(vy & Ay & By)|[Ay By]]; rewrite Ay; cbn [bind or_zero].
  - destruct (data_at_dict x lb (D x Ix)) as [(vx & Ax & Bx)|[Ax Bx]]; rewrite Ax; cbn [bind or_zero].
    + eexists. split; [reflexivity|]. exists x, y. split; [reflexivity|]. split; [reflexivity|]. split; [exact Lab|]. left. exists vx, vy. split; [exact Bx|]. split; [exact By|].
      destruct (qeqb_spec (Qcdiv (Qcminus vy vx) den) q0) as [Z|Z].
      * left. split; [|reflexivity]. assert (Q : Qcminus vy vx = q0). { replace (Qcminus vy vx) with (Qcmult (Qcdiv (Qcminus vy vx) den) den) by (field; rewrite <- q0_eq; exact Dz). rewrite Z. rewrite q0_eq. ring. } symmetry. exact (proj1 (minus_eq vy vx) Q).
      * right. split; [intros ->; apply Z; rewrite q0_eq; unfold Qcdiv; ring|]. rewrite <- Dn. field. rewrite <- q0_eq. exact Dz.
    + exists q0. split; [reflexivity|]. exists x, y. split; [reflexivity|]. split; [reflexivity|]. split; [exact Lab|]. right. split; [left; exact Bx|reflexivity].
  - exists q0. split; [reflexivity|]. exists x, y. split; [reflexivity|]. split; [reflexivity|]. split; [exact Lab|]. right. split; [right; exact By|reflexivity].
Qed.
Lemma div_one v : Qcdiv v q1 = v. Proof. replace q1 with (Q2Qc 1) by (apply qeqb_eq; vm_compute; reflexivity). field. discriminate. Qed.
Lemma diff_at_ok win k lb : 2 <= length win -> k < length win -> (forall x, In x win -> with_dict x) -> exists v, diff_at win k lb = Ok v /\ diff_feature win k lb v.
Proof.
  intros L K D. unfold diff_at. destruct (Nat.eqb_spec k 0) as [->|N0]; [|destruct (Nat.eqb_spec k (length win - 1)) as [Ek|N1]].
  - destruct (diff_between win 0 lb 0 1 q1) as (v & E & F); try lia; [discriminate|symmetry; apply qn1|exact D|]. exists v. split; [|exact F]. rewrite <- E. f_equal. destruct (nth_item win 1) as [y|]; [|reflexivity]. cbn [bind].
    destruct (data_at y lb); [|reflexivity]. cbn [bind]. destruct (nth_item win 0) as [x|]; [|reflexivity]. cbn [bind]. destruct (data_at x lb); [|reflexivity]. cbn [bind]. rewrite div_one. reflexivity.
  - destruct (diff_between win k lb (length win - 2) (length win - 1) q1) as (v & E & F); try lia; [discriminate|replace (length win - 1 - (length win - 2)) with 1 by lia; symmetry; apply qn1|exact D|]. exists v. split; [|exact F]. rewrite <- E. f_equal.
    destruct (nth_item win (length win - 1)) as [y|]; [|reflexivity]. cbn [bind].
    destruct (data_at y lb); [|reflexivity]. cbn [bind]. destruct (nth_item win (length win - 2)) as [x|]; [|reflexivity]. cbn [bind]. destruct (data_at x lb); [|reflexivity]. cbn [bind]. rewrite div_one. reflexivity.
  - apply (diff_between win k lb (k - 1) (k + 1) q2); try lia; [apply q2_nz|replace (k + 1 - (k - 1)) with 2 by lia; symmetry; apply qn2|exact D].
Qed.
Lemma item_features_ok hour features labels win k : (forall x, In x win -> with_dict x) -> k < length win -> (has_feature "diffs" features = true -> 2 <= length win) ->
  exists row, item_features hour features labels win k = Ok row /\ features_of hour features labels win k row.
Proof.
  intros D K L. unfold item_features, features_of. destruct (get_lt win k K) as (x & Ex & Ix). unfold nth_item at 1. rewrite Ex. cbn [bind].
  assert (V : exists vs, (if has_feature "values" features then mapM (fun lb => or_zero (data_at x lb)) labels else Ok []) = Ok vs /\ (if has_feature "values" features then Forall2 (value_feature win k) labels vs else vs = [])).
  { destruct (has_feature "values" features); [apply (value_feature_ok win k x labels Ex (D x Ix))|exists []; split; reflexivity]. }
  destruct V as (vs & V1 & V2). rewrite V1. cbn [bind].
  assert (V : exists ds, (if has_feature "diffs" features then mapM (diff_at win k) labels else Ok []) = Ok ds /\ (if has_feature "diffs" features then Forall2 (diff_feature win k) labels ds else ds = [])).
  { destruct (has_feature "diffs" features); [|exists []; split; reflexivity]. specialize (L eq_refl). clear - L K D. induction labels as [|lb labels IH]; cbn [mapM]; [exists []; split; [reflexivity|constructor]|].
    destruct IH as (ds & M & F). destruct (diff_at_ok win k lb L K D) as (v & E & Fv). rewrite E. cbn [bind]. rewrite M. cbn [bind]. exists (v :: ds). split; [reflexivity|]. constructor; assumption. }
  destruct V as (ds & D1 & D2). rewrite D1. cbn [bind]. eexists. split; [reflexivity|]. exists vs, ds, (if has_feature "hours" features then [Qcdiv (qz (hour (i_tz x) (i_t x))) (qz 24)] else []).
  split; [reflexivity|]. split; [exact V2|]. split; [exact D2|]. destruct (has_feature "hours" features); [|reflexivity]. eexists. split; [reflexivity|]. exists x. split; [exact Ex|]. field. intros E. apply (f_equal (fun q => qeqb q q0)) in E. vm_compute in E. discriminate.
Qed.
Lemma features_known features : known_features features <-> forallb (fun f => existsb (String.eqb f) ["values"; "diffs"; "hours"]%string) features = true.
Proof.
  rewrite forallb_forall. unfold known_features. split; intros H f I; specialize (H f I).
  - cbn [existsb]. destruct H as [-> | [-> | ->]]; reflexivity.
  - cbn [existsb] in H. destruct (String.eqb_spec f "values"); [left; assumption|]. destruct (String.eqb_spec f "diffs"); [right; left; assumption|]. destruct (String.eqb_spec f "hours"); [right; right; assumption|discriminate].
Qed.

Lemma with_context_ok c win r ctx : (ctx = None \/ ctx = Some [] \/ exists u, r = Some (RUnit u) /\ win <> [] /\ forall x, In x win -> is_slot x = false) ->
  exists win', with_context_item c win r ctx = Ok win' /\ with_context_after c r ctx win win'.
Proof.
  intros H. unfold with_context_item, with_context_after. destruct ctx as [[|kv d]|]; [exists win; split; reflexivity| |exists win; split; reflexivity].
  destruct H as [H|[H|(u & -> & N & P)]]; [discriminate|discriminate|]. destruct win as [|y win]; [contradiction|]. destruct (get_lt (y :: win) (length (y :: win) - 1)) as (x & E & I); [cbn [length]; lia|].
  unfold nth_item. rewrite E. cbn [bind]. rewrite (P x I). eexists. split; [reflexivity|]. exists u, x. eexists. split; [reflexivity|]. split; [reflexivity|]. split; [apply P; exact I|]. split; [reflexivity|]. split; [reflexivity|]. split; reflexivity.
Qed.
Lemma window_features_ok hour c win labels r features ctx win' : known_features features -> with_context_item c win r ctx = Ok win' -> (forall x, In x win' -> with_dict x) ->
  (has_feature "diffs" features = true -> 2 <= length win') ->
  exists rows, window_features hour c win labels r features ctx = Ok rows /\ length rows = length win' /\ forall k, k < length win' -> exists row, nth_error rows k = Some row /\ features_of hour features labels win' k row.
Proof.
  intros K W D L. unfold window_features. rewrite (proj1 (features_known features) K), W. cbn [bind].
  destruct (mapM_exists (item_features hour features labels win') (features_of hour features labels win') (seq 0 (length win'))) as (rows & E & Ln & N).
  { intros k I. apply in_seq in I. apply item_features_ok; [exact D|lia|exact L]. }
  exists rows. split; [exact E|]. rewrite seq_length in Ln. split; [exact Ln|]. intros k Hk. apply N. rewrite (nth_error_nth' _ 0) by (rewrite seq_length; exact Hk). rewrite seq_nth by exact Hk. reflexivity.
Qed.
