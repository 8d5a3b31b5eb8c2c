(* SpecRecon.v -- SPECIFICATION vocabulary for periodicity and reconstruction (C52, C53, C59, C60). *)
From Verif Require Export SpecModels Recon.

(* The data loss of the item is known, and at or above the threshold. *)
Definition lossy (thr : Qc) (x : item) : Prop := exists l, data_loss x = Some l /\ Qcle thr l.
(* Positions from .. to (included) are a run of items which satisfy P, not extensible on either side. *)
Definition maximal_run (P : item -> Prop) (l : list item) (from to : nat) : Prop :=
  from <= to /\ to < length l /\
  (forall j x, from <= j <= to -> nth_error l j = Some x -> P x) /\
  (forall j x, S j = from -> nth_error l j = Some x -> ~ P x) /\
  (forall x, nth_error l (S to) = Some x -> ~ P x).
(* The same indexes, but for data_reconstructed, which has the given value. *)
Definition flagged (v : Qc) (x x' : item) : Prop :=
  dget "data_reconstructed" (i_idx x') = Some (Some v) /\
  forall k, k <> "data_reconstructed"%string -> dget k (i_idx x') = dget k (i_idx x).
(* The data predicted for the k-th item of a gap. *)
Definition picked (pd : pdata) (k : nat) (d : data) : Prop :=
  match pd with
  | PList l => nth_error l k = Some d
  | PDict p => exists m, d = DDict m /\ NoDup (map fst m) /\
      forall lb v, In (lb, v) m -> exists l, dget lb p = Some l /\ nth_error l k = Some v
  end.
(* A series in the making: the items from position `from` on are the original ones, those before which are
   not lossy have the original data. *)
Definition so_far (thr : Qc) (s sk : series) (from : nat) : Prop :=
  sk = set_items s (s_items sk) /\ length (s_items sk) = length (s_items s) /\
  (forall j, from <= j -> nth_error (s_items sk) j = nth_error (s_items s) j) /\
  (forall j x y, nth_error (s_items s) j = Some x -> nth_error (s_items sk) j = Some y ->
     same_time x y /\ (~ lossy thr x -> i_data y = i_data x)).
(* The whole contents of an item but for data and indexes. *)
Definition same_shell (x y : item) : Prop := same_time x y /\ i_weight y = i_weight x.
(* A series built from its items, numeric and with dictionary data, points or slots. *)
Definition ready (e : env) (s : series) : Prop :=
  built e s /\ numeric (s_items s) /\ wf_items (s_items s) /\ (forall x, In x (s_items s) -> exists d, i_data x = Some (DDict d)) /\
  (forall u v, unit_close e u v <> Err AttributeError).
(* The reconstructor applied, in place or not, gives s'. *)
Definition reconstructs (e : env) (predict : series -> nat -> nat -> result pdata) (thr : Qc) (s s' : series) : Prop :=
  rec_apply_inplace predict thr s = (s', Ok tt) \/ rec_apply e predict thr s = Ok s'.
(* The instant is the n-th one of the grid of step d which starts at o (with 0 <= o < d); before the epoch
   only the grid of the multiples of d is meant. *)
Definition on_grid (o d : Qc) (t : Qc) (n : Z) : Prop :=
  Qcle q0 o /\ Qclt o d /\ t = Qcplus o (Qcmult (qz n) d) /\ (o = q0 \/ (0 <= n)%Z).
(* A function of time which repeats itself every p steps of d. *)
Definition periodic (f : Qc -> Qc) (p : Z) (d : Qc) : Prop := forall t, f (Qcplus t (Qcmult (qz p) d)) = f t.
(* The items the averages are computed on: those with the data loss below the limit. *)
Definition included (limit : option Qc) (x : item) : Prop :=
  forall l, limit = Some l -> forall v, dget "data_loss" (i_idx x) = Some (Some v) -> Qclt v l.
(* The data loss, if set, is a number. *)
Definition loss_known (x : item) : Prop := dget "data_loss" (i_idx x) <> Some None.
(* The series has the single label lb. *)
Definition single_label (l : list item) (lb : string) : Prop := forall x, In x l -> forall lb', has_label x lb' <-> lb' = lb.
(* The items are on the grid, and those in P are samples of the signal f. *)
Definition samples (f : Qc -> Qc) (lb : string) (o d : Qc) (P : item -> Prop) (l : list item) : Prop :=
  forall x, In x l -> (exists n, on_grid o d (i_t x) n) /\ (P x -> has_value x lb (f (i_t x))).
(* Each phase of the items of l is seen in an item of the other list which is in P. *)
Definition phases_seen (p : Z) (d : Qc) (P : item -> Prop) (seen l : list item) : Prop :=
  forall x, In x l -> exists y k, In y seen /\ P y /\ i_t x = Qcplus (i_t y) (Qcmult (qz (k * p)) d).
