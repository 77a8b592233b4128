(** * LoaderProofs4: directives and whole files. *)
From Verif Require Import Base Utf8 Dec DateProofs2 PriceModel BookModel BookSpec BookProofs BuilderProofs AccumModel LoaderModel LoaderSpec LoaderProofs LoaderProofs2 LoaderProofs3.
From Coq Require Import ZifyBool ZifyNat Zify.
Ltac Zify.zify_post_hook ::= idtac.

(** What the loader needs to know about Unicode: the ASCII letters and digits, and that blanks are neither. *)
Definition unicode_ok (is_letter is_udigit : Z -> bool) (to_upper : Z -> Z) : Prop :=
  (forall c, ascii_letter c -> is_letter c = true /\ to_upper c = upc c) /\
  (forall c, is_space c = true -> is_letter c = false /\ is_udigit c = false).

Section Files.
  Variables (is_letter is_udigit : Z -> bool) (to_upper : Z -> Z).
  Hypothesis Huni : unicode_ok is_letter is_udigit to_upper.
  Variable ord : list (str * Qc) -> list str.
  Variable fs : str -> option str.
  Variable resolve : str -> str -> str.
  Hypothesis Hord : forall m, NoDup (akeys m) -> Permutation (ord m) (akeys m).

  Notation step := (step is_letter is_udigit to_upper ord).
  Notation parse_file := (parse_file is_letter is_udigit to_upper ord fs resolve).
  Notation file_loop := (file_loop is_letter is_udigit to_upper ord resolve).
  Notation parse_identifier := (parse_identifier is_letter is_udigit to_upper).

  Lemma letters_not_space w : Forall ascii_letter w -> forall rest, w <> [] -> ws_rune (ch (w ++ rest)) = false.
  Proof. intros H rest N. destruct w as [|c w]; [congruence|]. inversion H as [|? ? Hc _]; subst. apply ws_not. cbn [app ch]. revert Hc. unfold ascii_letter, is_space, between. lia. Qed.
  Lemma parse_identifier_ok w up w1 rest : word w up -> w <> [] -> blanks w1 -> w1 <> [] -> encode up = up ->
    parse_identifier (w ++ w1 ++ rest) = (up, consume_ws rest).
  Proof.
    intros [Hw Hup] Hnw Hw1 Hn1 He. unfold LoaderModel.parse_identifier. rewrite consume_ws_id by (apply letters_not_space; assumption).
    rewrite span_app.
    - rewrite consume_ws_app' by exact Hw1. f_equal. rewrite <- He, <- Hup. f_equal. apply map_ext_in. intros c Hc. rewrite Forall_forall in Hw. apply Huni. apply Hw. exact Hc.
    - revert Hw. apply Forall_impl. intros c Hc. destruct Huni as [H _]. destruct (H c Hc) as [-> _]. rewrite orb_true_r. reflexivity.
    - right. destruct w1 as [|c w1]; [congruence|]. inversion Hw1 as [|? ? [Hc _] _]; subst. cbn [app ch]. destruct Huni as [_ H]. destruct (H c Hc) as [-> ->].
      assert (c =? 95 = false) by (revert Hc; unfold is_space, between; lia). rewrite H0. reflexivity.
  Qed.
  Lemma word_head c w up : word (c :: w) up -> (up = bs "ALIAS" \/ up = bs "INCLUDE") -> ws_rune c = false /\ c <> 0 /\
     ((c =? 59) || (c =? eol) || (c =? eof)) = false /\ ((c =? 61) || (c =? 68)) = false /\ (c =? 80) = false /\ digit c = false.
  Proof.
    intros [Hl Hm] Hup. assert (Hc : ascii_letter c) by (inversion Hl; assumption). clear Hl. cbn [map] in Hm.
    assert (E : upc c = 65 \/ upc c = 73) by (destruct Hup as [-> | ->]; cbv in Hm; injection Hm as E _; auto). clear Hm.
    assert (Hv : c = 65 \/ c = 97 \/ c = 73 \/ c = 105).
    { revert E Hc. unfold upc, ascii_letter. destruct (between 97 c 122) eqn:B; unfold between in B; lia. }
    destruct Hv as [->|[->|[->| ->]]]; repeat split; discriminate.
  Qed.
  Lemma word_nonempty w up : word w up -> (up = bs "ALIAS" \/ up = bs "INCLUDE") -> w <> [].
  Proof. intros [_ H] Hup ->. destruct Hup as [-> | ->]; discriminate. Qed.

  Lemma step_alias b al w w1 a w2 w3 lb w4 s l : word w (bs "ALIAS") -> blanks w1 -> w1 <> [] -> acct_ok a -> a <> [] -> blanks w2 -> blanks w3 ->
      acct_ok lb -> lb <> [] -> blanks w4 -> (w4 <> [] \/ s = []) -> Forall (fun c => c <> 0 /\ c <> 10) s ->
      step b al (w ++ w1 ++ a ++ w2 ++ [61] ++ w3 ++ lb ++ w4 ++ s ++ [10] ++ l) = Ok (Go b (aset str_eqb (encode a) (encode lb) al) (10 :: l)).
  Proof.
    intros Hw Hw1 Hn1 Ha Hna Hw2 Hw3 Hb Hnb Hw4 Hsep Hs. pose proof (word_nonempty w _ Hw (or_introl eq_refl)) as Hnw.
    set (tail := a ++ w2 ++ [61] ++ w3 ++ lb ++ w4 ++ s ++ [10] ++ l).
    pose proof (parse_identifier_ok w (bs "ALIAS") w1 tail Hw Hnw Hw1 Hn1 eq_refl) as Hid.
    destruct w as [|c w]; [congruence|]. destruct (word_head c w _ Hw (or_introl eq_refl)) as (Hws & _ & E1 & E2 & E3 & E4).
    unfold LoaderModel.step. rewrite consume_ws_id by exact Hws. change (ch ((c :: w) ++ w1 ++ tail)) with c. unfold has_ws. change (ch ((c :: w) ++ w1 ++ tail)) with c.
    rewrite Hws, E1, E2, E3, E4. cbn [negb]. cbv iota. rewrite Hid. cbv iota beta.
    change (str_eqb (bs "ALIAS") (bs "INCLUDE")) with false. change (str_eqb (bs "ALIAS") (bs "ALIAS")) with true. cbv iota.
    assert (Hat : ws_rune (ch tail) = false). { unfold tail. destruct a as [|x a]; [congruence|]. apply ws_not. inversion Ha; subst. apply acct_rune_head. assumption. }
    rewrite (consume_ws_id _ Hat).
    assert (Hae : forall z rest, blanks z -> acct_rune (ch (z ++ [61] ++ rest)) = false /\ ch (z ++ [61] ++ rest) <> 93).
    { intros z rest Hz. destruct z as [|y z]; [split; [reflexivity|discriminate]|]. apply line_end_acct. apply blank_line_end; [exact Hz|discriminate]. }
    assert (Hpa : parse_account tail = (encode a, w2 ++ [61] ++ w3 ++ lb ++ w4 ++ s ++ [10] ++ l)).
    { destruct (Hae w2 (w3 ++ lb ++ w4 ++ s ++ [10] ++ l) Hw2). apply (parse_account_ok []); try assumption. constructor. }
    rewrite Hpa. cbv iota beta. rewrite consume_ws_app by (try exact Hw2; reflexivity). cbn [app ch next tl]. change (negb (61 =? 61)) with false. cbv iota.
    assert (Hbe : acct_rune (ch (w4 ++ s ++ 10 :: l)) = false /\ ch (w4 ++ s ++ 10 :: l) <> 93).
    { destruct w4 as [|y w4]; [destruct Hsep as [Hsep| ->]; [congruence|split; [reflexivity|discriminate]]|]. apply line_end_acct. apply blank_line_end; [exact Hw4|discriminate]. }
    rewrite consume_ws_app; [|exact Hw3|]. 2:{ destruct lb as [|x lb]; [congruence|]. apply ws_not. inversion Hb; subst. apply acct_rune_head. assumption. }
    assert (Hpb : parse_account (lb ++ w4 ++ s ++ 10 :: l) = (encode lb, w4 ++ s ++ 10 :: l)).
    { destruct Hbe. apply (parse_account_ok []); try assumption. constructor. }
    rewrite Hpb. cbv iota beta.
    pose proof (encode_nonempty lb Hnb) as Hel. destruct (encode lb) as [|y el]; [congruence|].
    unfold parse_to_eol. rewrite consume_ws_idem. rewrite consume_ws_app' by exact Hw4.
    assert (Hsp : forall r, Forall (fun c => c <> 0 /\ c <> 10) r -> span line_rune (consume_ws (r ++ 10 :: l)) = (fst (span line_rune (consume_ws (r ++ 10 :: l))), 10 :: l)).
    { intros r Hr. induction Hr as [|z r [Hz0 Hz] Hr IH]; [reflexivity|]. destruct (ws_rune z) eqn:Ez.
      - assert (E : consume_ws ((z :: r) ++ 10 :: l) = consume_ws (r ++ 10 :: l)).
        { unfold consume_ws. cbn [app span]. rewrite Ez. destruct (span ws_rune (r ++ 10 :: l)). reflexivity. }
        rewrite E. exact IH.
      - rewrite consume_ws_id by exact Ez. rewrite span_app; [reflexivity| |right; reflexivity]. constructor; [unfold line_rune, eof, eol; lia|]. revert Hr. apply Forall_impl. intros x. unfold line_rune, eof, eol. lia. }
    rewrite (Hsp s Hs). reflexivity.
  Qed.

  Lemma include_name_ok n name : name_text n name -> include_name n = Ok name.
  Proof.
    intros H. destruct H as [s Hs|s Hs Hn Hh Hq]; unfold include_name.
    - cbn [app]. assert (El : last (34 :: s ++ [34]) 0 = 34) by (apply (last_last (34 :: s))). rewrite El. change ((34 =? 34) && (34 =? 34)) with true. cbv iota.
      assert (E : s ++ [34] <> []) by (destruct s; discriminate). rewrite removelast_last. destruct (s ++ [34]); [congruence|reflexivity].
    - destruct s as [|c s]; [congruence|]. cbn [hd] in Hq. assert (E : (c =? 34) && (last (c :: s) 0 =? 34) = false) by lia. rewrite E. reflexivity.
  Qed.
  Lemma step_include b al w w1 n name l : word w (bs "INCLUDE") -> blanks w1 -> w1 <> [] -> name_text n name ->
    step b al (w ++ w1 ++ n ++ [10] ++ l) = Ok (Include name b al (10 :: l)).
  Proof.
    intros Hw Hw1 Hn1 Hname. pose proof (word_nonempty w _ Hw (or_intror eq_refl)) as Hnw.
    set (tail := n ++ [10] ++ l).
    pose proof (parse_identifier_ok w (bs "INCLUDE") w1 tail Hw Hnw Hw1 Hn1 eq_refl) as Hid.
    destruct w as [|c w]; [congruence|]. destruct (word_head c w _ Hw (or_intror eq_refl)) as (Hws & _ & E1 & E2 & E3 & E4).
    unfold LoaderModel.step. rewrite consume_ws_id by exact Hws. change (ch ((c :: w) ++ w1 ++ tail)) with c. unfold has_ws. change (ch ((c :: w) ++ w1 ++ tail)) with c.
    rewrite Hws, E1, E2, E3, E4. cbn [negb]. cbv iota. rewrite Hid. cbv iota beta.
    change (str_eqb (bs "INCLUDE") (bs "INCLUDE")) with true. cbv iota.
    unfold parse_to_eol. rewrite consume_ws_idem.
    assert (Hnh : ws_rune (ch tail) = false /\ Forall (fun c => line_rune c = true) n).
    { unfold tail. destruct Hname as [s Hs|s Hs Hn Hh Hq].
      - split; [reflexivity|]. rewrite Forall_app. split; [repeat constructor|]. apply Forall_app. split; [|repeat constructor]. revert Hs. apply Forall_impl. intros x. unfold line_rune, eof, eol. lia.
      - split; [rewrite ch_app by exact Hn; apply ws_not; exact Hh|]. revert Hs. apply Forall_impl. intros x. unfold line_rune, eof, eol. lia. }
    destruct Hnh as [Hnh Hnl]. rewrite (consume_ws_id _ Hnh). unfold tail. rewrite span_app; [|exact Hnl|right; reflexivity].
    rewrite (include_name_ok n name Hname). reflexivity.
  Qed.

  Definition result_of (o : outcome builder) : fres := match o with Ok b => FOk b | _ => FErr end.

  Lemma line_nonempty nm t es : line_text nm t es -> (1 <= length t)%nat.
  Proof. intros H. destruct H; repeat (rewrite !app_length || cbn [length]); lia. Qed.
  Lemma file_loop_nl rec f fuel b al l : file_loop rec f (S fuel) b al (10 :: l) = file_loop rec f fuel b al l.
  Proof. reflexivity. Qed.

  Lemma ledger_run f al t es : ledger_text fs resolve f al t es -> forall before b, bsteps new_builder before = Ok b ->
    exists cs D, means before es cs /\ forall depth fuel, (D <= depth)%nat -> (length t < fuel)%nat ->
      file_loop (parse_file depth) f fuel b al t = result_of (bsteps b cs).
  Proof.
    induction 1 as [f al|f al t es l ds Ht Hl IH|f al w w1 a w2 w3 lb w4 s l es Hw Hw1 Hn1 Ha Hna Hw2 Hw3 Hb Hnb Hw4 Hsep Hs Hl IH|f al w w1 n name t l es ds Hw Hw1 Hn1 Hname Hfs Hsc Ht IHt Hl IHl]; intros before b E.
    - exists [], O. split; [constructor|]. intros depth fuel _ Hf. destruct fuel as [|fuel]; [lia|]. reflexivity.
    - destruct (step_line is_letter is_udigit to_upper ord Hord al t es l before b Ht E) as (Hch & cs & Hm & Hstep).
      pose proof (line_nonempty _ _ _ Ht) as Hlen.
      destruct (after_total before b cs E) as [(b' & Eb)|Eb].
      + assert (E' : bsteps new_builder (before ++ cs) = Ok b') by (rewrite bsteps_app, E; exact Eb).
        destruct (IH _ _ E') as (cs' & D & Hm' & Hrun). exists (cs ++ cs'), D. split; [eapply means_app; eassumption|].
        intros depth fuel HD Hf. destruct fuel as [|fuel]; [lia|]. cbn [LoaderModel.file_loop]. destruct (Z.eqb_spec (ch (t ++ l)) eof); [contradiction|].
        rewrite Hstep, Eb. cbn [obind]. rewrite app_length in Hf. rewrite Hrun by lia. rewrite bsteps_app, Eb. reflexivity.
      + destruct (means_ex ds (before ++ cs)) as (cs' & Hm'). exists (cs ++ cs'), O. split; [eapply means_app; eassumption|].
        intros depth fuel HD Hf. destruct fuel as [|fuel]; [lia|]. cbn [LoaderModel.file_loop]. destruct (Z.eqb_spec (ch (t ++ l)) eof); [contradiction|].
        rewrite Hstep, Eb. cbn [obind]. rewrite bsteps_app, Eb. reflexivity.
    - destruct (IH before b E) as (cs & D & Hm & Hrun). exists cs, D. split; [exact Hm|]. intros depth fuel HD Hf.
      destruct fuel as [|fuel]; [lia|]. cbn [LoaderModel.file_loop].
      assert (Hch : ch (w ++ w1 ++ a ++ w2 ++ [61] ++ w3 ++ lb ++ w4 ++ s ++ [10] ++ l) <> eof).
      { pose proof (word_nonempty w _ Hw (or_introl eq_refl)). destruct w as [|c w]; [congruence|]. destruct (word_head c w _ Hw (or_introl eq_refl)) as (_ & N0 & _). exact N0. }
      destruct (Z.eqb_spec (ch (w ++ w1 ++ a ++ w2 ++ [61] ++ w3 ++ lb ++ w4 ++ s ++ [10] ++ l)) eof) as [E0|_]; [contradiction|].
      rewrite (step_alias b al w w1 a w2 w3 lb w4 s l) by assumption.
      pose proof (word_nonempty w _ Hw (or_introl eq_refl)) as Hnw. rewrite !app_length in Hf. cbn [length] in Hf. destruct w as [|c w]; [congruence|]. cbn [length] in Hf.
      destruct fuel as [|fuel]; [lia|]. rewrite file_loop_nl. apply Hrun; lia.
    - destruct (IHt before b E) as (cs & D & Hm & Hrun).
      assert (Hch : ch (w ++ w1 ++ n ++ [10] ++ l) <> eof).
      { pose proof (word_nonempty w _ Hw (or_intror eq_refl)). destruct w as [|c w]; [congruence|]. destruct (word_head c w _ Hw (or_intror eq_refl)) as (_ & N0 & _). exact N0. }
      pose proof (word_nonempty w _ Hw (or_intror eq_refl)) as Hnw.
      assert (Hinc : forall depth, (S D <= depth)%nat -> parse_file depth b (resolve f name) al = result_of (bsteps b cs)).
      { intros depth HD. destruct depth as [|depth]; [lia|]. cbn [LoaderModel.parse_file]. rewrite Hfs. rewrite decode_encode by exact Hsc. apply Hrun; lia. }
      assert (Hstep := step_include b al w w1 n name l Hw Hw1 Hn1 Hname).
      destruct (after_total before b cs E) as [(b' & Eb)|Eb].
      + assert (E' : bsteps new_builder (before ++ cs) = Ok b') by (rewrite bsteps_app, E; exact Eb).
        destruct (IHl _ _ E') as (cs' & D' & Hm' & Hrun'). exists (cs ++ cs'), (Nat.max (S D) D'). split; [eapply means_app; eassumption|].
        intros depth fuel HD Hf. destruct fuel as [|fuel]; [lia|]. cbn [LoaderModel.file_loop]. destruct (Z.eqb_spec (ch (w ++ w1 ++ n ++ [10] ++ l)) eof) as [E0|_]; [contradiction|].
        rewrite Hstep. rewrite Hinc by lia. rewrite Eb. cbn [result_of].
        rewrite !app_length in Hf. destruct w as [|c w]; [congruence|]. cbn [length] in Hf. destruct fuel as [|fuel]; [lia|]. rewrite file_loop_nl. rewrite Hrun' by lia. rewrite bsteps_app, Eb. reflexivity.
      + destruct (means_ex ds (before ++ cs)) as (cs' & Hm'). exists (cs ++ cs'), (S D). split; [eapply means_app; eassumption|].
        intros depth fuel HD Hf. destruct fuel as [|fuel]; [lia|]. cbn [LoaderModel.file_loop]. destruct (Z.eqb_spec (ch (w ++ w1 ++ n ++ [10] ++ l)) eof) as [E0|_]; [contradiction|].
        rewrite Hstep. rewrite Hinc by lia. rewrite Eb. cbn [result_of]. rewrite bsteps_app, Eb. reflexivity.
  Qed.
End Files.
