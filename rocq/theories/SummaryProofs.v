(* SummaryProofs.v -- the text of the summary of a series. *)
From Verif Require Import SpecSummary BaseLemmas.

Lemma sapp_nil s : (s ++ "")%string = s.
Proof. induction s as [|a s IH]; [reflexivity|]. cbn [append]. rewrite IH. reflexivity. Qed.
Lemma sapp_assoc a b c : ((a ++ b) ++ c = a ++ (b ++ c))%string.
Proof. induction a as [|x a IH]; [reflexivity|]. cbn [append]. rewrite IH. reflexivity. Qed.
Lemma sep_cons sep x l : l <> [] -> separated sep (x :: l) = (x ++ sep ++ separated sep l)%string.
Proof. destruct l; [congruence|reflexivity]. Qed.

Section Texts.
Variable str : item -> string.
Definition comma : string := ("," ++ newline_s)%string.
Definition lsep : string := ("," ++ break true ++ " ")%string.
Lemma numbered_cons {A} (x : A) l : numbered (x :: l) = (0, x) :: combine (seq 1 (length l)) l.
Proof. reflexivity. Qed.
(* the items after the first *)
Lemma head_rest l : forall k, 0 < k ->
  texts_concat (map (fun ix : nat * item => let '(i, x) := ix in if Nat.eqb i 0 then (str x ++ "," ++ newline_s)%string else (" " ++ str x ++ "," ++ newline_s)%string) (combine (seq k (length l)) l)) =
  texts_concat (map (fun x => " " ++ str x ++ comma)%string l).
Proof.
  induction l as [|x l IH]; intros k Hk; [reflexivity|]. cbn [length seq combine map texts_concat]. rewrite IH by lia. destruct (Nat.eqb_spec k 0); [lia|]. reflexivity.
Qed.
Lemma rest_sep x l : (str x ++ comma ++ texts_concat (map (fun x => " " ++ str x ++ comma) l) = separated lsep (map str (x :: l)) ++ comma)%string.
Proof.
  revert x. induction l as [|y l IH]; intros x; [cbn [map texts_concat separated]; rewrite sapp_nil; reflexivity|].
  cbn [map texts_concat]. rewrite !sapp_assoc, IH. rewrite (sep_cons lsep (str x)) by discriminate. unfold lsep at 2, comma at 1, break, newline_s. rewrite !sapp_assoc. reflexivity.
Qed.
Lemma head_text x l : summary_head str (x :: l) = (separated lsep (map str (x :: l)) ++ comma)%string.
Proof. unfold summary_head. rewrite numbered_cons. cbn [map texts_concat Nat.eqb]. rewrite head_rest by lia. pose proof (rest_sep x l) as R. cbn [map] in R. rewrite <- R. unfold comma at 2. rewrite !sapp_assoc. reflexivity. Qed.
(* the items up to the last *)
Definition last_style (last : nat) (ix : nat * item) : string := let '(i, x) := ix in if Nat.eqb i last then (" " ++ str x)%string else (" " ++ str x ++ "," ++ newline_s)%string.
Lemma last_rest x l : forall k, texts_concat (map (last_style (k + length l)) (combine (seq k (length (x :: l))) (x :: l))) = (" " ++ separated lsep (map str (x :: l)))%string.
Proof.
  revert x. induction l as [|y l IH]; intros x k.
  - cbn [length seq combine map texts_concat last_style separated]. rewrite Nat.add_0_r, Nat.eqb_refl, sapp_nil. reflexivity.
  - cbn [length seq combine map texts_concat]. specialize (IH y (S k)). cbn [length seq combine map texts_concat] in IH. replace (k + S (length l)) with (S k + length l) by lia. rewrite IH. cbn [last_style].
    destruct (Nat.eqb_spec k (S k + length l)); [lia|]. cbn [map]. rewrite (sep_cons lsep (str x)) by discriminate. unfold lsep at 2, break, newline_s. rewrite !sapp_assoc. reflexivity.
Qed.
Lemma tail_text n l : l <> [] -> n = length l -> summary_tail str n l = (" " ++ separated lsep (map str l))%string.
Proof.
  intros Hl ->. destruct l as [|x l]; [congruence|]. unfold summary_tail, numbered. rewrite <- (last_rest x l 0). replace (length (x :: l) - 1) with (0 + length l) by (cbn [length]; lia). reflexivity.
Qed.
Lemma all_text l limit : length l <> 1 -> limit = 0 \/ length l < limit -> summary_all str l limit = separated lsep (map str l).
Proof.
  intros H1 HL. unfold summary_all. destruct l as [|x l]; [reflexivity|]. destruct l as [|y l]; [cbn [length] in H1; lia|].
  assert (E : map (fun ix : nat * item => let '(i, x0) := ix in if negb (Nat.eqb limit 0) && Nat.leb limit i then EmptyString else if Nat.eqb i 0 then (str x0 ++ "," ++ newline_s)%string else if Nat.eqb i (length (x :: y :: l) - 1) then (" " ++ str x0)%string else (" " ++ str x0 ++ "," ++ newline_s)%string) (numbered (x :: y :: l)) =
              (str x ++ "," ++ newline_s)%string :: map (last_style (1 + length l)) (combine (seq 1 (length (y :: l))) (y :: l))).
  { rewrite numbered_cons. cbn [map]. f_equal.
    - destruct (Nat.eqb_spec limit 0) as [->|N]; [reflexivity|]. destruct (Nat.leb_spec limit 0); [lia|]. reflexivity.
    - apply map_ext_in. intros [i z] I. apply in_combine_l in I. apply in_seq in I. cbn [length] in *. unfold last_style.
      assert (G : negb (Nat.eqb limit 0) && Nat.leb limit i = false) by (destruct (Nat.eqb_spec limit 0); [reflexivity|]; destruct (Nat.leb_spec limit i); [lia|reflexivity]). rewrite G.
      destruct (Nat.eqb_spec i 0); [lia|]. replace (S (S (length l)) - 1) with (1 + length l) by lia. reflexivity. }
  rewrite E. cbn [texts_concat]. rewrite last_rest. cbn [map]. rewrite (sep_cons lsep (str x)) by discriminate. unfold lsep at 2, break, newline_s. rewrite !sapp_assoc. reflexivity.
Qed.
Lemma all_one x limit : limit <> 1 -> summary_all str [x] limit = (str x ++ comma)%string.
Proof.
  intros H. unfold summary_all, numbered. cbn [length seq combine map texts_concat Nat.eqb]. destruct (Nat.eqb_spec limit 0) as [->|N]; cbn [negb andb]; [rewrite sapp_nil; reflexivity|]. destruct (Nat.leb_spec limit 0); [lia|]. rewrite sapp_nil. reflexivity.
Qed.
End Texts.

(* ---- without newlines ---- *)
Lemma flat_app a b : spaces_for_newlines (a ++ b)%string = (spaces_for_newlines a ++ spaces_for_newlines b)%string.
Proof. induction a as [|x a IH]; [reflexivity|]. cbn [append spaces_for_newlines]. rewrite IH. reflexivity. Qed.
Lemma flat_clean s : no_break s -> spaces_for_newlines s = s.
Proof.
  unfold no_break. induction s as [|x s IH]; intros H; [reflexivity|]. cbn [spaces_for_newlines]. cbn [list_ascii_of_string In] in H. rewrite IH by tauto. destruct (Ascii.eqb_spec x "010"); [subst; tauto|reflexivity].
Qed.
Lemma flat_sep l : (forall s, In s l -> no_break s) -> spaces_for_newlines (separated lsep l) = separated ("," ++ break false ++ " ")%string l.
Proof.
  induction l as [|x l IH]; intros H; [reflexivity|]. destruct l as [|y l]; [cbn [separated]; apply flat_clean, H; left; reflexivity|].
  rewrite !sep_cons by discriminate. rewrite !flat_app, IH by (intros s S; apply H; right; exact S). rewrite (flat_clean x) by (apply H; left; reflexivity). reflexivity.
Qed.
Definition not_dot_first (s : string) : Prop := match s with EmptyString => True | String a _ => is_dot a = false end.
Lemma dots_char x s : is_dot x = false -> commas_after_dots (String x s) = String x (commas_after_dots s).
Proof. intros H. destruct s as [|y [|z s]]; try reflexivity. cbn [commas_after_dots]. rewrite H. reflexivity. Qed.
Lemma dots_step x s : match s with String b (String c _) => is_dot x && is_dot b && is_dot c = false | _ => True end -> commas_after_dots (String x s) = String x (commas_after_dots s).
Proof. intros H. destruct s as [|y [|z s]]; try reflexivity. cbn [commas_after_dots]. rewrite H. reflexivity. Qed.
Lemma dots_app a b : no_dots a -> not_dot_first b -> commas_after_dots (a ++ b)%string = (a ++ commas_after_dots b)%string.
Proof.
  induction a as [|x a IH]; intros N B; [reflexivity|]. cbn [append]. rewrite dots_step.
  - rewrite IH; [reflexivity| |exact B]. intros (p & q & ->). apply N. exists (String x p), q. reflexivity.
  - destruct a as [|y [|z a]]; cbn [append].
    + destruct b as [|u [|v b]]; try exact I. cbn [not_dot_first] in B. rewrite B. destruct (is_dot x); reflexivity.
    + destruct b as [|u b]; [exact I|]. cbn [not_dot_first] in B. rewrite B. destruct (is_dot x), (is_dot y); reflexivity.
    + destruct (is_dot x) eqn:Ex; [|reflexivity]. destruct (is_dot y) eqn:Ey; [|reflexivity]. destruct (is_dot z) eqn:Ez; [|reflexivity]. exfalso. apply N. unfold is_dot in *. apply Ascii.eqb_eq in Ex, Ey, Ez. subst. exists ""%string, a. reflexivity.
Qed.
Definition fsep : string := ("," ++ break false ++ " ")%string.
Lemma dots_fsep t : commas_after_dots (fsep ++ t)%string = (fsep ++ commas_after_dots t)%string.
Proof. change (fsep ++ t)%string with (String "," (String " " (String " " t))). rewrite !dots_char by reflexivity. reflexivity. Qed.
Lemma dots_sep l b : (forall s, In s l -> no_dots s) -> not_dot_first b -> commas_after_dots (separated fsep l ++ b)%string = (separated fsep l ++ commas_after_dots b)%string.
Proof.
  intros H B. induction l as [|x l IH]; [reflexivity|]. destruct l as [|y l]; [cbn [separated]; apply dots_app; [apply H; left; reflexivity|exact B]|].
  rewrite !sep_cons by discriminate. rewrite !sapp_assoc. rewrite dots_app; [|apply H; left; reflexivity|reflexivity]. f_equal. rewrite dots_fsep. f_equal. apply IH. intros s S. apply H. right. exact S.
Qed.
(* what follows the title *)
Lemma flat_brackets title body fbody : clean title -> commas_after_dots (spaces_for_newlines body ++ "]")%string = (fbody ++ "]")%string ->
  commas_after_dots (spaces_for_newlines (brackets true title body)) = brackets false title fbody.
Proof.
  intros [C1 C2] H. unfold brackets. rewrite flat_app, (flat_clean title C1).
  assert (E : spaces_for_newlines (":" ++ break true ++ break true ++ "[" ++ body ++ "]")%string = String ":" (String " " (String " " (String "[" (spaces_for_newlines body ++ "]")%string)))).
  { change (spaces_for_newlines (":" ++ break true ++ break true ++ "[" ++ body ++ "]")%string) with (String ":" (String " " (String " " (String "[" (spaces_for_newlines (body ++ "]")%string))))). rewrite flat_app. reflexivity. }
  rewrite E, dots_app by (assumption || reflexivity). f_equal. rewrite !dots_char by reflexivity. rewrite H. reflexivity.
Qed.
