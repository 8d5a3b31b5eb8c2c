(* CsvProofs.v -- text: splitting, joining, lines, sanitizing. *)
From Verif Require Import SpecCsv BaseLemmas DictLemmas PropTactics.

Lemma chars_text l : chars (text l) = l.
Proof. induction l as [|c l IH]; cbn [text chars]; [reflexivity|f_equal; exact IH]. Qed.
Lemma text_chars s : text (chars s) = s.
Proof. induction s as [|c s IH]; cbn [text chars]; [reflexivity|f_equal; exact IH]. Qed.
Lemma chars_app a b : chars (a ++ b)%string = chars a ++ chars b.
Proof. induction a as [|c a IH]; cbn [append chars app]; [reflexivity|f_equal; exact IH]. Qed.
Lemma text_app a b : text (a ++ b) = (text a ++ text b)%string.
Proof. induction a as [|c a IH]; cbn [append text app]; [reflexivity|f_equal; exact IH]. Qed.
Lemma chars_nil s : chars s = [] -> s = EmptyString.
Proof. destruct s; [reflexivity|discriminate]. Qed.

Lemma split_piece sep a acc r : ~ In sep a -> split_chars sep acc (a ++ sep :: r) = text (rev acc ++ a) :: split_chars sep [] r.
Proof.
  revert acc. induction a as [|c a IH]; intros acc H; cbn [app split_chars].
  - destruct (Ascii.eqb_spec sep sep) as [_|N]; [|contradiction]. rewrite app_nil_r. reflexivity.
  - destruct (Ascii.eqb_spec c sep) as [->|N]; [exfalso; apply H; left; reflexivity|].
    rewrite IH; [cbn [rev]; rewrite <- app_assoc; reflexivity|intros X; apply H; right; exact X].
Qed.
Lemma split_last sep a acc : ~ In sep a -> split_chars sep acc a = [text (rev acc ++ a)].
Proof.
  revert acc. induction a as [|c a IH]; intros acc H; cbn [app split_chars]; [rewrite app_nil_r; reflexivity|].
  destruct (Ascii.eqb_spec c sep) as [->|N]; [exfalso; apply H; left; reflexivity|].
  rewrite IH; [cbn [rev]; rewrite <- app_assoc; reflexivity|intros X; apply H; right; exact X].
Qed.

(* Joined with a separator which is in none of them, the pieces are found back. *)
Lemma split_join sep l : l <> [] -> (forall s, In s l -> ~ In sep (chars s)) -> split_on sep (join (String sep EmptyString) l) = l.
Proof.
  unfold split_on. induction l as [|x l IH]; [contradiction|]. intros _ H. destruct l as [|y l].
  - cbn [join]. rewrite split_last by (apply H; left; reflexivity). cbn [rev app]. rewrite text_chars. reflexivity.
  - cbn [join]. rewrite !chars_app. cbn [chars app]. rewrite split_piece by (apply H; left; reflexivity). cbn [rev app]. rewrite text_chars.
    f_equal. apply IH; [discriminate|intros s Hs; apply H; right; exact Hs].
Qed.

(* Lines written one after the other are read back. *)
Lemma lines_join l : (forall s, In s l -> no_newline s) -> lines_of (join "" (map (fun s => s ++ end_line)%string l)) = l.
Proof.
  intros H. unfold lines_of, split_on.
  assert (X : split_chars newline [] (chars (join "" (map (fun s => s ++ end_line)%string l))) = l ++ [EmptyString]).
  { induction l as [|x l IH]; [reflexivity|]. assert (E : chars (join "" (map (fun s => s ++ end_line)%string (x :: l))) = chars x ++ newline :: chars (join "" (map (fun s => s ++ end_line)%string l))).
    { cbn [map join]. destruct (map _ l) as [|y r]; rewrite ?chars_app; cbn [chars app join]; [reflexivity|]. unfold end_line. cbn [chars app]. rewrite <- app_assoc. reflexivity. }
    rewrite E, split_piece by (apply H; left; reflexivity). cbn [rev app]. rewrite text_chars. f_equal. apply IH. intros s Hs. apply H. right. exact Hs. }
  rewrite X, rev_app_distr. cbn [rev app]. apply rev_involutive.
Qed.

Lemma join_empty_app a b : join "" (a ++ b) = (join "" a ++ join "" b)%string.
Proof.
  assert (C : forall x l, join "" (x :: l) = (x ++ join "" l)%string).
  { intros x l. destruct l; [cbn [join]; clear; induction x as [|c x IH]; cbn [append]; [reflexivity|f_equal; exact IH]|reflexivity]. }
  assert (A : forall x y z, ((x ++ y) ++ z = x ++ (y ++ z))%string) by (intros x y z; induction x as [|c x IH]; cbn [append]; [reflexivity|f_equal; exact IH]).
  induction a as [|x a IH]; [reflexivity|]. cbn [app]. rewrite !C, IH, A. reflexivity.
Qed.

(* ---- sanitizing ---- *)
Lemma char_in_iff c s : char_in c s = true <-> In c (chars s).
Proof.
  unfold char_in. rewrite existsb_exists. split; [intros (x & X & E); apply Ascii.eqb_eq in E; subst x; exact X|intros H; exists c; split; [exact H|apply Ascii.eqb_eq; reflexivity]].
Qed.
Lemma label_char_space c : label_char c -> is_space c = true -> c = " "%char.
Proof.
  intros ((A & B) & _) H. unfold is_space in H. apply orb_prop in H. destruct H as [H|H]; apply andb_prop in H; destruct H as [H1 H2]; apply Nat.leb_le in H1; apply Nat.leb_le in H2; [lia|].
  assert (N : nat_of_ascii c = 32) by lia. rewrite <- (ascii_nat_embedding c), N. reflexivity.
Qed.
Lemma collapse_plain l : Forall label_char l -> single_spaces l -> collapse false l = l /\ (forall c r, l = c :: r -> c <> " "%char -> collapse true l = l).
Proof.
  induction l as [|c l IH]; intros F S; [split; [reflexivity|intros ? ? X; discriminate]|].
  inversion F as [|? ? Hc Hl]; subst. assert (S' : single_spaces l) by (destruct l; [exact I|apply S]). destruct (IH Hl S') as [I1 I2]. cbn [collapse].
  destruct (is_space c) eqn:E.
  - apply (label_char_space _ Hc) in E. subst c. split.
    + f_equal. destruct l as [|d l]; [reflexivity|]. destruct S as [S _]. apply (I2 d l eq_refl). intros ->. apply S. split; reflexivity.
    + intros c r X. injection X as <- <-. intros N. contradiction.
  - split; [f_equal; exact I1|]. intros c' r X _. f_equal. exact I1.
Qed.
Lemma lstrip_plain l : (forall c r, l = c :: r -> is_space c = false) -> lstrip l = l.
Proof. destruct l as [|c r]; [reflexivity|]. intros H. cbn [lstrip]. rewrite (H c r eq_refl). reflexivity. Qed.
Lemma rev_first {A} (l : list A) c r : rev l = c :: r -> l = rev r ++ [c].
Proof. intros H. rewrite <- (rev_involutive l), H. reflexivity. Qed.
Lemma strip_plain l : (forall c r, l = c :: r -> is_space c = false) -> (forall c r, l = r ++ [c] -> is_space c = false) -> strip l = l.
Proof.
  intros A B. unfold strip. rewrite (lstrip_plain l A). rewrite (lstrip_plain (rev l)); [apply rev_involutive|].
  intros c r E. apply (B c (rev r)), rev_first, E.
Qed.
Lemma unquote_plain l : (forall c r, l = c :: r -> is_quote c = false) -> unquote_left l = l.
Proof. destruct l as [|c r]; [reflexivity|]. intros H. cbn [unquote_left]. rewrite (H c r eq_refl). reflexivity. Qed.
Lemma good_end_spec c : good_end c -> label_char c -> is_space c = false /\ is_quote c = false.
Proof.
  intros (A & B & C) L. split.
  - destruct (is_space c) eqn:E; [exfalso; exact (A (label_char_space _ L E))|reflexivity].
  - unfold is_quote. destruct (Ascii.eqb_spec c "'"); [contradiction|]. destruct (Ascii.eqb_spec c """"); [contradiction|reflexivity].
Qed.
Lemma str_mem_iff k l : str_mem k l = true <-> In k l.
Proof.
  unfold str_mem. rewrite existsb_exists. split; [intros (x & X & E); apply String.eqb_eq in E; subst x; exact X|intros H; exists k; split; [exact H|apply String.eqb_refl]].
Qed.
(* A plain label is kept as it is. *)
Lemma sanitize_plain s : plain_label s -> sanitize s = Some s.
Proof.
  intros (N & F & S & A & B & P). unfold sanitize. rewrite (proj1 (collapse_plain _ F S)).
  assert (A' : forall c r, chars s = c :: r -> is_space c = false /\ is_quote c = false).
  { intros c r E. apply good_end_spec; [exact (A c r E)|]. rewrite E in F. inversion F; assumption. }
  assert (B' : forall c r, chars s = r ++ [c] -> is_space c = false /\ is_quote c = false).
  { intros c r E. apply good_end_spec; [exact (B c r E)|]. rewrite E in F. apply Forall_app in F. destruct F as [_ F]. inversion F; assumption. }
  assert (St : strip (chars s) = chars s) by (apply strip_plain; [intros c r E; apply (A' c r E)|intros c r E; apply (B' c r E)]).
  rewrite St. rewrite (unquote_plain (chars s)) by (intros c r E; apply (A' c r E)).
  unfold unquote_right. rewrite (unquote_plain (rev (chars s))); [|intros c r E; apply (B' c (rev r)), rev_first, E]. rewrite rev_involutive, St.
  destruct (str_mem _ placeholders) eqn:M; [exfalso; apply P; apply str_mem_iff in M; exact M|]. rewrite text_chars. reflexivity.
Qed.
Lemma plain_no_comma s : plain_label s -> ~ In ","%char (chars s).
Proof. intros (_ & F & _) H. rewrite Forall_forall in F. apply F in H. destruct H as [_ H]. contradiction. Qed.
Lemma plain_no_newline s : plain_label s -> no_newline s.
Proof. intros (_ & F & _) H. rewrite Forall_forall in F. apply F in H. destruct H as [[H _] _]. cbn in H. lia. Qed.
Lemma content_plain s : plain_label s -> content s = true.
Proof. intros H. unfold content. rewrite (sanitize_plain s H). destruct H as [N _]. destruct (String.eqb_spec s ""); [contradiction|reflexivity]. Qed.

(* Numbers are plain labels as well. *)
Lemma number_char_all (P : ascii -> bool) : forallb P (chars "0123456789.-+e") = true -> forall c, number_char c -> P c = true.
Proof. intros H c X. rewrite forallb_forall in H. exact (H c X). Qed.
Lemma number_plain s : s <> EmptyString -> Forall number_char (chars s) -> plain_label s.
Proof.
  intros N F. rewrite Forall_forall in F.
  assert (NS : forall c, number_char c -> c <> " "%char) by (intros c H ->; apply (number_char_all (fun c => negb (Ascii.eqb c " ")) eq_refl) in H; discriminate).
  assert (G : forall c, number_char c -> good_end c).
  { intros c H. repeat split; intros ->; [apply (number_char_all (fun c => negb (Ascii.eqb c " ")) eq_refl) in H|apply (number_char_all (fun c => negb (Ascii.eqb c "'")) eq_refl) in H|apply (number_char_all (fun c => negb (Ascii.eqb c """")) eq_refl) in H]; discriminate. }
  split; [exact N|]. split.
  { apply Forall_forall. intros c H. apply F in H. split.
    - pose proof (number_char_all (fun c => Nat.leb 32 (nat_of_ascii c) && Nat.leb (nat_of_ascii c) 126) eq_refl c H) as X. apply andb_prop in X. destruct X as [X Y]. apply Nat.leb_le in X. apply Nat.leb_le in Y. split; assumption.
    - intros ->. apply (number_char_all (fun c => negb (Ascii.eqb c ",")) eq_refl) in H. discriminate. }
  split.
  { revert F. generalize (chars s). intros l. induction l as [|a l IH]; intros F; [exact I|]. destruct l as [|b l]; [exact I|]. split; [intros [E _]; apply (NS a); [apply F; left; reflexivity|exact E]|]. apply IH. intros c H. apply F. right. exact H. }
  split; [intros c r E; apply G, F; rewrite E; left; reflexivity|]. split; [intros c r E; apply G, F; rewrite E; apply in_or_app; right; left; reflexivity|].
  (* every character of a placeholder is a letter other than e, or the first letter is *)
  assert (Q : forall c, In c (drop_dots (lower (chars s))) -> number_char c).
  { intros c H. unfold drop_dots, lower in H. apply filter_In in H. destruct H as [H _]. apply in_map_iff in H. destruct H as (d & <- & H). apply F in H.
    assert (X : lower_char d = d) by (pose proof (number_char_all (fun c => Ascii.eqb (lower_char c) c) eq_refl d H) as X; apply Ascii.eqb_eq in X; exact X). rewrite X. exact H. }
  intros H. assert (L : exists c, In c (drop_dots (lower (chars s))) /\ (c = "n"%char \/ c = "u"%char)).
  { set (l := drop_dots (lower (chars s))) in *. destruct H as [H|[H|[H|[H|[H|[]]]]]]; apply (f_equal chars) in H; rewrite chars_text in H; cbn [chars] in H; rewrite <- H; eexists; (split; [left; reflexivity|]); auto. }
  destruct L as (c & L & E). apply Q in L. destruct E as [-> | ->]; [apply (number_char_all (fun c => negb (Ascii.eqb c "n")) eq_refl) in L|apply (number_char_all (fun c => negb (Ascii.eqb c "u")) eq_refl) in L]; discriminate.
Qed.
Lemma nt_plain nt q : exact_text nt -> plain_label (nt_str nt q).
Proof. intros (_ & H & _). apply number_plain; apply H. Qed.
Lemma nt_first nt q : exact_text nt -> exists c r, nt_str nt q = String c r /\ number_char c.
Proof. intros (_ & H & _). destruct (H q) as [N F]. destruct (nt_str nt q) as [|c r]; [contradiction|]. exists c, r. split; [reflexivity|]. inversion F; assumption. Qed.
Lemma comma_to_dot_same s : ~ In ","%char (chars s) -> comma_to_dot s = s.
Proof.
  intros H. unfold comma_to_dot. rewrite <- (text_chars s) at 2. f_equal. rewrite <- (map_id (chars s)) at 2. apply map_ext_in. intros c X.
  destruct (Ascii.eqb_spec c ","); [subst c; contradiction|reflexivity].
Qed.
Lemma to_float_number nt q l : exact_text nt -> to_float nt (nt_str nt q) l = Ok (Some q).
Proof.
  intros E. unfold to_float. rewrite (sanitize_plain _ (nt_plain nt q E)), (comma_to_dot_same _ (plain_no_comma _ (nt_plain nt q E))), (proj1 E q). reflexivity.
Qed.
Lemma none_plain : plain_label "None".
Proof.
  split; [discriminate|]. split; [repeat constructor; try (cbn; lia); discriminate|]. split; [repeat split; intros [X _]; discriminate|].
  split; [intros c r X; injection X as <- _; repeat split; discriminate|]. split; [|intros X; vm_compute in X; repeat (destruct X as [X|X]; [discriminate|]); exact X].
  intros c r X. assert (E : c = "e"%char) by (change (chars "None") with (["N"; "o"; "n"]%char ++ ["e"]%char) in X; apply app_inj_tail in X; symmetry; apply X). subst c. repeat split; discriminate.
Qed.
Lemma epoch_plain : plain_label "epoch".
Proof.
  split; [discriminate|]. split; [repeat constructor; try (cbn; lia); discriminate|]. split; [repeat split; intros [X _]; discriminate|].
  split; [intros c r X; injection X as <- _; repeat split; discriminate|]. split; [|intros X; vm_compute in X; repeat (destruct X as [X|X]; [discriminate|]); exact X].
  intros c r X. assert (E : c = "h"%char) by (change (chars "epoch") with (["e"; "p"; "o"; "c"]%char ++ ["h"]%char) in X; apply app_inj_tail in X; symmetry; apply X). subst c. repeat split; discriminate.
Qed.
Lemma str_opt_plain nt v : exact_text nt -> plain_label (str_opt nt v).
Proof. intros E. destruct v as [q|]; [apply nt_plain, E|apply none_plain]. Qed.
Lemma to_float_index nt v ix : exact_text nt -> to_float nt (str_opt nt v) (Some ("__" ++ ix)%string) = Ok v.
Proof.
  intros E. destruct v as [q|]; [apply to_float_number, E|]. cbn [str_opt]. unfold to_float. rewrite (sanitize_plain _ none_plain), (comma_to_dot_same _ (plain_no_comma _ none_plain)).
  destruct E as (_ & _ & N & _). rewrite N. reflexivity.
Qed.
