(* PropSummary.v -- THEOREMS C97: the summary of a series. *)
From Verif Require Import SpecSummary BaseLemmas PropTactics SummaryProofs OpsProofs10 PropAccess Witness.

(* ---------------- C97 ---------------- *)
(* the texts can be told from what is between them, if there are no newlines *)
Definition readable (newlines : bool) (title : string) (texts : list string) : Prop := newlines = true \/ (clean title /\ forall t, In t texts -> clean t).

Lemma summary_flat e str title s limit b texts (body : bool -> string) :
  readable b title texts -> ts_summary_lines e str title s limit = Ok (brackets true title (body true)) ->
  ((forall t, In t texts -> clean t) -> commas_after_dots (spaces_for_newlines (body true) ++ "]")%string = (body false ++ "]")%string) ->
  ts_summary e str title s limit b = Ok (brackets b title (body b)).
Proof.
  intros R E H. unfold ts_summary. rewrite E. cbn [bind]. destruct b; [reflexivity|]. destruct R as [R|[R1 R2]]; [discriminate|]. rewrite (flat_brackets title (body true) (body false) R1 (H R2)). reflexivity.
Qed.
Lemma halves limit : 2 <= limit -> let h := if Nat.even limit then limit / 2 else limit / 2 + 1 in h = limit - limit / 2 /\ 0 < h /\ 0 < limit / 2 /\ limit / 2 <= limit.
Proof.
  intros L2. cbv zeta. destruct (Nat.even limit) eqn:Ev.
  - apply Nat.even_spec in Ev. destruct Ev as (k & ->). rewrite Nat.mul_comm, Nat.div_mul in * by lia. lia.
  - assert (Od : Nat.odd limit = true) by (rewrite <- Nat.negb_even, Ev; reflexivity). apply Nat.odd_spec in Od. destruct Od as (k & ->). replace ((2 * k + 1) / 2) with k by (apply Nat.div_unique with 1; lia). lia.
Qed.
(* the two branches with head and tail *)
Lemma cut_lines e str title s limit : parses_units e -> wf_items (s_items s) -> 2 <= limit -> limit <= length (s_items s) ->
  ts_summary_lines e str title s limit = Ok (brackets true title (items_text true (map str (firstn (limit - limit / 2) (s_items s))) ++ comma ++ (if Nat.ltb limit (length (s_items s)) then " ..." ++ newline_s else "") ++ " " ++
    items_text true (map str (skipn (length (s_items s) - limit / 2) (s_items s))))%string).
Proof.
  intros He Hw L2 Ln. unfold ts_summary_lines. destruct (Nat.eqb_spec limit 0); [lia|]. destruct (Nat.ltb_spec (length (s_items s)) limit); [lia|]. cbn [orb]. destruct (Nat.eqb_spec limit 1); [lia|].
  destruct (halves limit L2) as (Eh & H0 & H2 & H3). rewrite Eh in *. assert (Ne : s_items s <> []) by (intros F; rewrite F in Ln; cbn in Ln; lia).
  destruct (C11_head_tail e s (Z.of_nat (limit - limit / 2)) He Hw Ne ltac:(lia)) as [Th _]. destruct (C11_head_tail e s (Z.of_nat (limit / 2)) He Hw Ne ltac:(lia)) as [_ Tt]. rewrite Th. cbn [bind]. destruct (Nat.eqb_spec (limit / 2) 0); [lia|]. rewrite Tt. cbn [bind].
  rewrite !Nat2Z.id. set (hd := firstn (limit - limit / 2) (s_items s)). set (tl := skipn (length (s_items s) - limit / 2) (s_items s)).
  assert (Lh : length hd = limit - limit / 2) by (unfold hd; rewrite firstn_length; lia). assert (Lt : length tl = limit / 2) by (unfold tl; rewrite skipn_length; lia).
  assert (Nt : tl <> []) by (intros F; rewrite F in Lt; cbn [length] in Lt; lia). rewrite (tail_text str (limit / 2) tl Nt (eq_sym Lt)).
  destruct hd as [|x hd0] eqn:Ehd; [cbn [length] in Lh; lia|]. rewrite head_text. unfold items_text. fold lsep. unfold brackets. f_equal. change (break true) with newline_s. rewrite !sapp_assoc. reflexivity.
Qed.
Lemma lsep_comma t : (lsep ++ t = comma ++ " " ++ t)%string.
Proof. reflexivity. Qed.
Lemma sep_app a bs : a <> [] -> bs <> [] -> (separated lsep (a ++ bs) = separated lsep a ++ comma ++ " " ++ separated lsep bs)%string.
Proof.
  intros Na Nb. induction a as [|x a IH]; [congruence|]. destruct a as [|y a].
  - cbn [app]. rewrite sep_cons by exact Nb. cbn [separated]. rewrite lsep_comma. reflexivity.
  - cbn [app] in *. rewrite (sep_cons lsep x (y :: a ++ bs)), (sep_cons lsep x (y :: a)) by discriminate. rewrite IH by discriminate. rewrite !sapp_assoc. reflexivity.
Qed.
Lemma map_ne {A B} (f : A -> B) l : 0 < length l -> map f l <> [].
Proof. destruct l; cbn; [lia|discriminate]. Qed.
Lemma texts_clean str (l l' : list item) : (forall t, In t (map str l) -> clean t) -> (forall x, In x l' -> In x l) -> (forall t, In t (map str l') -> no_break t) /\ (forall t, In t (map str l') -> no_dots t).
Proof. intros H I. assert (G : forall t, In t (map str l') -> clean t) by (intros t T; apply in_map_iff in T; destruct T as (x & <- & X); apply H, in_map, I, X). split; intros t T; apply (G t T). Qed.

(* All the items are shown, in their order, if there is no limit (None or 0) or if it is not below their number. *)
Theorem C97_all : forall e str title s limit newlines, parses_units e -> wf_items (s_items s) -> length (s_items s) <> 1 ->
  limit = 0 \/ length (s_items s) <= limit -> readable newlines title (map str (s_items s)) ->
  ts_summary e str title s limit newlines = Ok (brackets newlines title (items_text newlines (map str (s_items s)))).
Proof.
  intros e str title s limit b He Hw H1 HL R. apply (summary_flat e str title s limit b _ (fun b => items_text b (map str (s_items s))) R).
  - destruct (Nat.eqb limit 0 || Nat.ltb (length (s_items s)) limit) eqn:C.
    + unfold ts_summary_lines. rewrite C. rewrite all_text; [|exact H1|apply orb_true_iff in C; destruct C as [C|C]; [left; apply Nat.eqb_eq, C|right; apply Nat.ltb_lt, C]].
      unfold brackets, items_text. fold lsep. change (break true) with newline_s. rewrite !sapp_assoc. reflexivity.
    + apply orb_false_iff in C. destruct C as [C1 C2]. apply Nat.eqb_neq in C1. apply Nat.ltb_ge in C2. assert (En : length (s_items s) = limit) by lia. assert (L2 : 2 <= limit) by lia.
      rewrite (cut_lines e str title s limit He Hw L2) by lia. destruct (Nat.ltb_spec limit (length (s_items s))); [lia|]. f_equal. f_equal. destruct (halves limit L2) as (_ & _ & G2 & G3).
      assert (Hp : map str (s_items s) = map str (firstn (limit - limit / 2) (s_items s)) ++ map str (skipn (length (s_items s) - limit / 2) (s_items s))) by (rewrite <- map_app, En, firstn_skipn; reflexivity).
      rewrite Hp. unfold items_text. fold lsep. rewrite sep_app; [reflexivity| |]; apply map_ne; [rewrite firstn_length|rewrite skipn_length]; pose proof (halves limit L2) as (Hh & Hp0 & _); rewrite ?Hh in Hp0; lia.
  - intros Cl. destruct (texts_clean str _ (s_items s) Cl (fun x X => X)) as [Nb Nd]. unfold items_text. fold lsep fsep. rewrite flat_sep by exact Nb. fold fsep. rewrite dots_sep by (assumption || reflexivity). reflexivity.
Qed.
Print Assumptions C97_all.

(* With a limit from 2 on, and below their number, the first ones and the last ones are shown, half and half (one more of the
   first ones if the limit is odd), with the dots between: as many as the limit. *)
Theorem C97_some : forall e str title s limit newlines, parses_units e -> wf_items (s_items s) -> 2 <= limit < length (s_items s) ->
  readable newlines title (map str (s_items s)) ->
  let first := firstn (limit - limit / 2) (s_items s) in let last := skipn (length (s_items s) - limit / 2) (s_items s) in
  ts_summary e str title s limit newlines =
    Ok (brackets newlines title (items_text newlines (map str first) ++ left_out newlines ++ " " ++ items_text newlines (map str last))%string) /\
  length first + length last = limit.
Proof.
  intros e str title s limit b He Hw [L2 Ln] R. cbv zeta. split; [|rewrite firstn_length, skipn_length; destruct (halves limit L2); lia].
  apply (summary_flat e str title s limit b _ (fun b => items_text b (map str (firstn (limit - limit / 2) (s_items s))) ++ left_out b ++ " " ++ items_text b (map str (skipn (length (s_items s) - limit / 2) (s_items s))))%string R).
  - rewrite (cut_lines e str title s limit He Hw L2) by lia. destruct (Nat.ltb_spec limit (length (s_items s))); [|lia]. unfold left_out, comma. change (break true) with newline_s. rewrite ?sapp_assoc. reflexivity.
  - intros Cl. set (first := firstn _ _). set (last := skipn _ _). destruct (texts_clean str _ first Cl (fun x X => In_firstn _ _ x X)) as [Nb Nd]. destruct (texts_clean str _ last Cl (fun x X => In_skipn _ _ x X)) as [Mb Md].
    unfold items_text. fold lsep fsep. rewrite !flat_app, !flat_sep by assumption. fold fsep. rewrite !sapp_assoc. rewrite dots_sep by (assumption || reflexivity). f_equal.
    change (spaces_for_newlines (left_out true)) with ",  ... "%string. change (spaces_for_newlines " ") with " "%string. change (left_out false) with ",  ..., "%string.
    set (t := (separated fsep (map str last) ++ "]")%string). change (",  ... " ++ " " ++ t)%string with (String "," (String " " (String " " (String "." (String "." (String "." (String " " (String " " t)))))))).
    rewrite !dots_char by reflexivity. change (commas_after_dots (String "." (String "." (String "." (String " " (String " " t)))))) with ("...," ++ commas_after_dots (String " " (String " " t)))%string. rewrite !dots_char by reflexivity.
    unfold t. rewrite dots_sep by (assumption || reflexivity). reflexivity.
Qed.
Print Assumptions C97_some.

(* With a limit of one, or only one item, the first item is shown, with a comma after it. *)
Theorem C97_one : forall e str title s x rest limit newlines, parses_units e -> wf_items (s_items s) -> s_items s = x :: rest -> rest = [] \/ limit = 1 ->
  readable newlines title (map str (s_items s)) ->
  ts_summary e str title s limit newlines = Ok (brackets newlines title (str x ++ match rest with [] => "," ++ break newlines | _ => left_out newlines end)%string).
Proof.
  intros e str title s x rest limit b He Hw Es H R. apply (summary_flat e str title s limit b _ (fun b => str x ++ match rest with [] => "," ++ break b | _ => left_out b end)%string R).
  - unfold ts_summary_lines. rewrite Es. destruct (Nat.eqb_spec limit 1) as [->|N1].
    + cbn [Nat.eqb orb]. assert (Q : Nat.ltb (length (x :: rest)) 1 = false) by (apply Nat.ltb_ge; cbn [length]; lia). rewrite Q.
      assert (Ne : s_items s <> []) by (rewrite Es; discriminate). destruct (C11_head_tail e s 1 He Hw Ne ltac:(lia)) as [Th _]. change (Z.of_nat 1) with 1%Z. rewrite Th. cbn [bind]. rewrite Es. change (firstn (Z.to_nat 1) (x :: rest)) with [x]. rewrite head_text. cbn [map separated].
      destruct rest as [|y rest]; cbn [length Nat.ltb Nat.leb]; unfold brackets, left_out, comma; change (break true) with newline_s; rewrite !sapp_assoc; reflexivity.
    + destruct H as [->|H]; [|contradiction]. assert (Q : Nat.eqb limit 0 || Nat.ltb (length [x]) limit = true) by (cbn [length]; destruct (Nat.eqb_spec limit 0); [reflexivity|]; apply Nat.ltb_lt; lia). rewrite Q, all_one by exact N1.
      unfold brackets, comma. change (break true) with newline_s. rewrite !sapp_assoc. reflexivity.
  - intros Cl. assert (Cx : clean (str x)) by (apply Cl; rewrite Es; left; reflexivity). destruct Cx as [C1 C2]. rewrite flat_app, (flat_clean _ C1), !sapp_assoc. destruct rest as [|y rest]; (rewrite dots_app; [|exact C2|reflexivity]); reflexivity.
Qed.
Print Assumptions C97_one.

Definition letter (x : item) : string := ("item " ++ nat_str (Z.to_nat (qtrunc (i_t x))))%string.
Definition quote : string := String "010"%char EmptyString.
Example C97_nonvacuous : parses_units ideal_env /\ wf_items (s_items five_s) /\ 2 <= 3 < length (s_items five_s) /\ readable false "five" (map letter (s_items five_s)) /\
  map letter (s_items five_s) = ["item 0"; "item 10"; "item 20"; "item 30"; "item 40"]%string /\
  ts_summary ideal_env letter "five" five_s 3 false = Ok "five:  [item 0,  item 10,  ...,  item 40]"%string /\
  ts_summary ideal_env letter "five" five_s 3 true = Ok ("five:" ++ quote ++ quote ++ "[item 0," ++ quote ++ " item 10," ++ quote ++ " ..." ++ quote ++ " item 40]")%string /\
  ts_summary ideal_env letter "five" five_s 10 false = Ok "five:  [item 0,  item 10,  item 20,  item 30,  item 40]"%string /\
  ts_summary ideal_env letter "five" five_s 1 false = Ok "five:  [item 0,  ..., ]"%string.
Proof.
  assert (Cl : forall s, forallb (fun a => negb (Ascii.eqb a "010") && negb (Ascii.eqb a ".")) (list_ascii_of_string s) = true -> clean s).
  { intros s H. rewrite forallb_forall in H. split; [intros I; specialize (H _ I); discriminate|]. intros (a & b & ->). assert (I : In "."%char (list_ascii_of_string (a ++ "..." ++ b))) by (induction a as [|x a IH]; [left; reflexivity|right; apply IH; intros y Y; apply H; right; exact Y]).
    specialize (H _ I). discriminate. }
  assert (M : map letter (s_items five_s) = ["item 0"; "item 10"; "item 20"; "item 30"; "item 40"]%string) by (vm_compute; reflexivity).
  split; [exact ideal_parses|]. split; [left; exact five_wf|]. split; [cbn; lia|]. split; [|split; [exact M|]].
  - right. split; [apply Cl; reflexivity|]. rewrite M. intros t T. apply Cl. repeat (destruct T as [<-|T]; [reflexivity|]). destruct T.
  - repeat split; vm_compute; reflexivity.
Qed.
