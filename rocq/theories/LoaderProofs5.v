(** * LoaderProofs5: what is left to read always gets shorter; termination; every loaded file is a list of calls. *)
From Verif Require Import Base Utf8 Dec DateProofs2 PriceModel BookModel BookSpec BookProofs BuilderProofs AccumModel LoaderModel LoaderSpec LoaderProofs LoaderProofs2 LoaderProofs3.
From Coq Require Import ZifyBool ZifyNat Zify.
Ltac Zify.zify_post_hook ::= idtac.

(** ** What is left is the end of what was there. *)
Definition psuf (l' l : runes) : Prop := exists p, p <> [] /\ l = p ++ l'.
Lemma suf_refl l : suf l l. Proof. exists []. reflexivity. Qed.
Lemma suf_trans a b c : suf a b -> suf b c -> suf a c.
Proof. intros (p & ->) (q & ->). exists (q ++ p). apply app_assoc. Qed.
Lemma psuf_suf a b : psuf a b -> suf a b. Proof. intros (p & _ & H). exists p. exact H. Qed.
Lemma psuf_l a b c : psuf a b -> suf b c -> psuf a c.
Proof. intros (p & N & ->) (q & ->). exists (q ++ p). split; [destruct q; [exact N|discriminate]|apply app_assoc]. Qed.
Lemma psuf_r a b c : suf a b -> psuf b c -> psuf a c.
Proof. intros (p & ->) (q & N & ->). exists (q ++ p). split; [destruct q; [congruence|discriminate]|apply app_assoc]. Qed.
Lemma psuf_len a b : psuf a b -> (length a < length b)%nat.
Proof. intros (p & N & ->). rewrite app_length. destruct p; [congruence|cbn [length]; lia]. Qed.

Lemma span_eq f l : l = fst (span f l) ++ snd (span f l).
Proof. induction l as [|c l IH]; [reflexivity|]. cbn [span]. destruct (f c); [|reflexivity]. destruct (span f l). cbn [fst snd app] in *. congruence. Qed.
Lemma span_all f l : Forall (fun c => f c = true) (fst (span f l)).
Proof. induction l as [|c l IH]; [constructor|]. cbn [span]. destruct (f c) eqn:E; [|constructor]. destruct (span f l). cbn [fst] in *. constructor; assumption. Qed.
Lemma span_stop f l : f 0 = false -> f (ch (snd (span f l))) = false.
Proof. intros H0. induction l as [|c l IH]; [exact H0|]. cbn [span]. destruct (f c) eqn:E; [|exact E]. destruct (span f l). exact IH. Qed.
Lemma span_suf f l a r : span f l = (a, r) -> suf r l.
Proof. intros E. exists a. pose proof (span_eq f l) as H. rewrite E in H. exact H. Qed.
Lemma snd_span_suf f l : suf (snd (span f l)) l.
Proof. destruct (span f l) as [a r] eqn:E. exact (span_suf _ _ _ _ E). Qed.
Lemma consume_ws_suf l : suf (consume_ws l) l.
Proof. apply snd_span_suf. Qed.
Lemma next_suf l : suf (next l) l.
Proof. destruct l as [|c l]; [apply suf_refl|]. exists [c]. reflexivity. Qed.
Lemma next_psuf l : ch l <> 0 -> psuf (next l) l.
Proof. destruct l as [|c l]; [contradiction|]. intros _. exists [c]. split; [discriminate|reflexivity]. Qed.
Lemma skip_eol_suf l : suf (skip_eol l) l.
Proof. unfold skip_eol. destruct (_ =? _); [apply next_suf|apply suf_refl]. Qed.
Lemma consume_suf e l l' : consume e l = Ok l' -> suf l' l.
Proof. unfold consume. destruct (_ =? _); [|discriminate]. intros E. injection E as <-. apply next_suf. Qed.
Lemma parse_number_suf mn mx l v l' : parse_number mn mx l = Ok (v, l') -> suf l' l /\ ((1 <= mn)%nat -> psuf l' l).
Proof.
  unfold parse_number. destruct (span digit l) as [ds r] eqn:E. destruct (_ || _) eqn:B; [discriminate|]. intros H. injection H as <- <-.
  split; [exact (span_suf _ _ _ _ E)|]. intros Hm. exists ds. pose proof (span_eq digit l) as H. rewrite E in H. split; [|exact H]. intros ->. cbn [length] in B.
  destruct (Nat.ltb_spec 0 mn); [discriminate|lia].
Qed.
Ltac inv_bind H := let E := fresh "E" in apply obind_Ok in H as (? & E & H).
Lemma parse_date_suf l d l' : parse_date l = Ok (d, l') -> psuf l' l.
Proof.
  unfold parse_date. intros H. apply obind_Ok in H as ((y & l1) & E1 & H). apply obind_Ok in H as (l2 & E2 & H). apply obind_Ok in H as ((m & l3) & E3 & H).
  apply obind_Ok in H as (l4 & E4 & H). apply obind_Ok in H as ((dd & l5) & E5 & H). injection H as _ <-.
  apply parse_number_suf in E1 as [_ E1], E3 as [E3 _], E5 as [E5 _]. apply consume_suf in E2, E4.
  eapply psuf_r; [|apply E1; lia]. eapply suf_trans; [exact E5|]. eapply suf_trans; [exact E4|]. eapply suf_trans; [exact E3|]. exact E2.
Qed.
Lemma parse_time_suf l l' : parse_time l = Ok l' -> suf l' l.
Proof.
  unfold parse_time. intros H. apply obind_Ok in H as ((y & l1) & E1 & H). apply obind_Ok in H as (l2 & E2 & H). apply obind_Ok in H as ((m & l3) & E3 & H).
  apply obind_Ok in H as (l4 & E4 & H). apply obind_Ok in H as ((dd & l5) & E5 & H). injection H as <-.
  apply parse_number_suf in E1 as [E1 _], E3 as [E3 _], E5 as [E5 _]. apply consume_suf in E2, E4.
  repeat (eapply suf_trans; [eassumption|]). apply suf_refl.
Qed.
Lemma parse_quoted_suf l s l' : parse_quoted l = Ok (s, l') -> suf l' l.
Proof.
  unfold parse_quoted. intros H. apply obind_Ok in H as (l1 & E1 & H). destruct (span _ l1) as [a r] eqn:E2. apply obind_Ok in H as (l2 & E3 & H). injection H as <- <-.
  apply consume_suf in E1, E3. apply span_suf in E2. repeat (eapply suf_trans; [eassumption|]). apply suf_refl.
Qed.
Lemma amt_loop_suf l : forall d n m n' m' l', amt_loop d n m l = (n', m', l') -> suf l' l.
Proof.
  induction l as [|c l IH]; intros d n m n' m' l' H; cbn [amt_loop] in H.
  - injection H as _ _ <-. apply suf_refl.
  - assert (Hc : suf l (c :: l)) by (exists [c]; reflexivity).
    destruct (digit c); [eapply suf_trans; [eapply IH; exact H|exact Hc]|]. destruct (_ && _); [eapply suf_trans; [eapply IH; exact H|exact Hc]|].
    destruct (_ =? _); [eapply suf_trans; [eapply IH; exact H|exact Hc]|]. injection H as _ _ <-. apply suf_refl.
Qed.
Lemma parse_amt_suf l v l' : parse_amt l = Ok (v, l') -> suf l' l.
Proof.
  unfold parse_amt. destruct (ch (consume_ws l) =? 45).
  - destruct (amt_loop false 0 1 (next (consume_ws l))) as [[n m] r] eqn:E. intros H. apply obind_Ok in H as (x & _ & H). injection H as _ <-.
    apply amt_loop_suf in E. eapply suf_trans; [exact E|]. eapply suf_trans; [apply next_suf|apply consume_ws_suf].
  - destruct (amt_loop false 0 1 (consume_ws l)) as [[n m] r] eqn:E. intros H. apply obind_Ok in H as (x & _ & H). injection H as _ <-.
    apply amt_loop_suf in E. eapply suf_trans; [exact E|apply consume_ws_suf].
Qed.
Lemma parse_payee_suf l s l' : parse_payee l = Ok (s, l') -> suf l' l.
Proof.
  unfold parse_payee. destruct (_ =? _).
  - intros H. apply obind_Ok in H as ((x & l1) & E & H). injection H as _ <-. apply parse_quoted_suf in E. eapply suf_trans; [exact E|apply consume_ws_suf].
  - destruct (span _ _) as [a r] eqn:E. intros H. injection H as _ <-. apply span_suf in E. eapply suf_trans; [exact E|apply consume_ws_suf].
Qed.
Lemma parse_to_eol_suf l s l' : parse_to_eol l = (s, l') -> suf l' l.
Proof. unfold parse_to_eol. intros E. apply span_suf in E. eapply suf_trans; [exact E|apply consume_ws_suf]. Qed.
Lemma parse_note_suf l s l' : parse_note l = (s, l') -> suf l' l.
Proof.
  unfold parse_note. destruct (negb _); [intros H; injection H as _ <-; apply consume_ws_suf|].
  destruct (parse_to_eol _) as [a r] eqn:E. intros H. injection H as _ <-. apply parse_to_eol_suf in E. eapply suf_trans; [exact E|]. eapply suf_trans; [apply next_suf|apply consume_ws_suf].
Qed.
Lemma parse_transaction_suf l d p n l' : parse_transaction l = Ok (d, p, n, l') -> psuf l' l.
Proof.
  unfold parse_transaction. intros H. apply obind_Ok in H as ((d0 & l1) & E1 & H). apply parse_date_suf in E1. apply obind_Ok in H as ((p0 & l2) & E2 & H). apply parse_payee_suf in E2.
  destruct (parse_note l2) as [n0 l3] eqn:E3. injection H as _ _ _ <-. apply parse_note_suf in E3.
  eapply psuf_r; [|exact E1]. eapply suf_trans; [apply skip_eol_suf|]. eapply suf_trans; [exact E3|]. eapply suf_trans; [exact E2|].
  destruct (_ =? _); [eapply suf_trans; [apply consume_ws_suf|]; eapply suf_trans; [apply next_suf|]|]; apply consume_ws_suf.
Qed.
Lemma parse_account_suf l s l' : parse_account l = (s, l') -> suf l' l.
Proof.
  unfold parse_account. set (l1 := if _ || _ then _ else _). assert (H1 : suf l1 l).
  { unfold l1. destruct (_ || _); [eapply suf_trans; [apply next_suf|]|]; apply consume_ws_suf. }
  clearbody l1. destruct (span acct_rune l1) as [a r] eqn:E1. destruct (span acct_rune2 r) as [a2 r2] eqn:E2. intros H. injection H as _ <-. apply span_suf in E1, E2.
  eapply suf_trans; [|exact H1]. eapply suf_trans; [|exact E1]. eapply suf_trans; [|exact E2]. destruct (_ =? _); [apply next_suf|apply suf_refl].
Qed.
Lemma parse_ccy_suf l s l' : parse_ccy l = Ok (s, l') -> suf l' l.
Proof.
  unfold parse_ccy. destruct (_ =? _).
  - intros H. apply obind_Ok in H as ((x & l1) & E & H). injection H as _ <-. apply parse_quoted_suf in E. eapply suf_trans; [exact E|apply consume_ws_suf].
  - destruct (span _ _) as [a r] eqn:E. intros H. injection H as _ <-. apply span_suf in E. eapply suf_trans; [exact E|apply consume_ws_suf].
Qed.
Lemma parse_ccy_amt_suf l ca l' : parse_ccy_amt l = Ok (ca, l') -> suf l' l.
Proof.
  unfold parse_ccy_amt. destruct (_ || _); intros H; apply obind_Ok in H as ((x & l1) & E1 & H); apply obind_Ok in H as ((y & l2) & E2 & H); injection H as _ <-.
  - apply parse_ccy_suf in E1. apply parse_amt_suf in E2. eapply suf_trans; eassumption.
  - apply parse_amt_suf in E1. apply parse_ccy_suf in E2. eapply suf_trans; eassumption.
Qed.
Lemma skip_line_suf l : suf (skip_line l) l.
Proof. unfold skip_line. eapply suf_trans; [apply skip_eol_suf|apply snd_span_suf]. Qed.
Lemma skip_line_psuf l : ch l <> 0 -> psuf (skip_line l) l.
Proof.
  intros H. destruct l as [|c l]; [contradiction|]. cbn [ch] in H. unfold skip_line. cbn [span]. destruct (line_rune c) eqn:E.
  - destruct (span line_rune l) as [a r] eqn:Es. cbn [snd]. eapply psuf_r; [apply skip_eol_suf|]. apply span_suf in Es. eapply psuf_r; [exact Es|]. exists [c]. split; [discriminate|reflexivity].
  - cbn [snd]. assert (c = 10) by (revert E; unfold line_rune, eof, eol; lia). subst c. exists [10]. split; [discriminate|reflexivity].
Qed.
Lemma parse_price_suf b l b' l' : parse_price b l = Ok (b', l') -> psuf l' l /\ exists cs, bsteps b cs = Ok b'.
Proof.
  unfold parse_price. destruct (negb (ch l =? 80)) eqn:E0; [discriminate|]. intros H. apply obind_Ok in H as ((d & l1) & E1 & H). apply obind_Ok in H as (l2 & E2 & H).
  apply obind_Ok in H as ((u & l3) & E3 & H). apply obind_Ok in H as ((ca & l4) & E4 & H). injection H as <- <-. split.
  - apply parse_date_suf in E1. apply parse_time_suf in E2. apply parse_ccy_suf in E3. apply parse_ccy_amt_suf in E4.
    eapply psuf_r; [|apply next_psuf; intros Z; rewrite Z in E0; discriminate].
    eapply suf_trans; [apply skip_eol_suf|]. eapply suf_trans; [exact E4|]. eapply suf_trans; [apply consume_ws_suf|]. eapply suf_trans; [exact E3|]. eapply suf_trans; [exact E2|].
    eapply suf_trans; [apply consume_ws_suf|]. eapply suf_trans; [apply psuf_suf; exact E1|apply consume_ws_suf].
  - exists [CPrice d u (fst ca) (snd ca)]. reflexivity.
Qed.
Lemma elide_is_calls a n keys : forall b, exists cs, bsteps b cs = Ok (elide a n keys b).
Proof.
  induction keys as [|k keys IH]; intros b; [exists []; reflexivity|]. cbn [elide]. destruct (aget str_eqb k (bu_amts b)) as [v|]; [destruct (qc_is0 v)|]; try apply IH.
  destruct (IH (add_posting b a k (- v)%Qc n)) as (cs & E). exists (CPost a k (- v)%Qc n :: cs). exact E.
Qed.

Section Term.
  Variables (is_letter is_udigit : Z -> bool) (to_upper : Z -> Z).
  Variable ord : list (str * Qc) -> list str.
  Variable fs : str -> option str.
  Variable resolve : str -> str -> str.

  Notation step := (step is_letter is_udigit to_upper ord).
  Notation parse_posting := (parse_posting ord).
  Notation parse_file := (parse_file is_letter is_udigit to_upper ord fs resolve).
  Notation file_loop := (file_loop is_letter is_udigit to_upper ord resolve).

  Lemma parse_posting_suf nm b l b' l' : parse_posting nm b l = Ok (b', l') -> suf l' l /\ exists cs, bsteps b cs = Ok b'.
  Proof.
    unfold LoaderModel.parse_posting. destruct (parse_account (consume_ws l)) as [acct l1] eqn:E1. apply parse_account_suf in E1.
    set (l2 := consume_ws l1). destruct (if ch l2 =? 45 then (true, next l2) else (false, l2)) as [ng l3] eqn:E3.
    assert (H3 : suf l3 l).
    { assert (H2 : suf l2 l) by (eapply suf_trans; [apply consume_ws_suf|]; eapply suf_trans; [exact E1|apply consume_ws_suf]).
      destruct (ch l2 =? 45); injection E3 as _ <-; [eapply suf_trans; [apply next_suf|exact H2]|exact H2]. }
    intros H. apply obind_Ok in H as ([[ccy amt] l4] & E4 & H). apply parse_ccy_amt_suf in E4.
    apply obind_Ok in H as (l5 & E5 & H).
    assert (H5 : suf l5 (consume_ws l4)).
    { destruct (ch (consume_ws l4) =? 64); [|injection E5 as <-; apply suf_refl]. apply obind_Ok in E5 as ((x & l6) & E6 & E5). injection E5 as <-. apply parse_ccy_amt_suf in E6.
      eapply suf_trans; [exact E6|]. eapply suf_trans; [apply consume_ws_suf|apply next_suf]. }
    destruct (parse_note l5) as [note l6] eqn:E6. apply parse_note_suf in E6.
    assert (Hs : suf (skip_eol l6) l).
    { eapply suf_trans; [apply skip_eol_suf|]. eapply suf_trans; [exact E6|]. eapply suf_trans; [exact H5|]. eapply suf_trans; [apply consume_ws_suf|]. eapply suf_trans; [exact E4|exact H3]. }
    destruct ccy as [|c ccy]; injection H as <- <-; (split; [exact Hs|]).
    - apply elide_is_calls.
    - eexists [CPost _ _ _ _]. reflexivity.
  Qed.

  Notation include_at := (include_at to_upper).
  Notation names := (names to_upper fs resolve).
  Notation reaches := (reaches to_upper fs resolve).

  Lemma include_name_cases s name : include_name s = Ok name -> name = encode s \/ exists s', s = [34] ++ s' ++ [34] /\ name = encode s'.
  Proof.
    unfold include_name. destruct s as [|c s]; [discriminate|]. destruct ((c =? 34) && (last (c :: s) 0 =? 34)) eqn:E.
    - destruct s as [|d s]; [discriminate|]. intros H. injection H as <-. right. exists (removelast (d :: s)). split; [|reflexivity].
      assert (c = 34) by lia. subst c. assert (El : last (34 :: d :: s) 0 = 34) by lia. cbn [app]. f_equal.
      change (last (34 :: d :: s) 0) with (last (d :: s) 0) in El. rewrite <- El. apply app_removelast_last. discriminate.
    - intros H. injection H as <-. left. reflexivity.
  Qed.

  Lemma step_progress b nm l0 r : ch l0 <> 0 -> step b nm l0 = Ok r ->
    match r with
    | Go b' _ l' => psuf l' l0 /\ exists cs, bsteps b cs = Ok b'
    | Include name b' nm' l' => psuf l' l0 /\ b' = b /\ nm' = nm /\ exists l1, suf l1 l0 /\ include_at l1 name
    end.
  Proof.
    intros H0 H. unfold LoaderModel.step in H. set (l := consume_ws l0) in *. assert (Hl : suf l l0) by apply consume_ws_suf.
    assert (Hws : has_ws l0 = true -> psuf l l0).
    { intros Hw. unfold l, consume_ws. destruct l0 as [|c l0]; [contradiction|]. unfold has_ws in Hw. cbn [ch] in Hw. cbn [span]. rewrite Hw. destruct (span ws_rune l0) as [a r0] eqn:Es. cbn [snd].
      apply span_suf in Es. eapply psuf_r; [exact Es|]. exists [c]. split; [discriminate|reflexivity]. }
    assert (Hnw : has_ws l0 = false -> l = l0) by (intros Hw; apply consume_ws_id; exact Hw).
    assert (Hskip : psuf (skip_line l) l0).
    { destruct (has_ws l0) eqn:Hw; [eapply psuf_r; [apply skip_line_suf|apply Hws; reflexivity]|]. rewrite Hnw by reflexivity. apply skip_line_psuf. exact H0. }
    destruct (_ || _ || _); [injection H as <-; split; [exact Hskip|exists []; reflexivity]|].
    destruct (has_ws l0) eqn:Hw; cbn [negb] in H.
    - apply obind_Ok in H as ((b' & l') & E & H). injection H as <-. apply parse_posting_suf in E as [E Hcs]. split; [|exact Hcs]. eapply psuf_r; [exact E|apply Hws; reflexivity].
    - specialize (Hnw eq_refl). destruct (_ || _); [injection H as <-; split; [exact Hskip|exists []; reflexivity]|].
      destruct (ch l =? 80).
      { apply obind_Ok in H as ((b' & l') & E & H). injection H as <-. apply parse_price_suf in E as [E Hcs]. rewrite Hnw in E. split; [exact E|exact Hcs]. }
      destruct (digit (ch l)).
      { apply obind_Ok in H as ([[[d p] n] l'] & E & H). apply obind_Ok in H as (b' & Eb & H). injection H as <-. apply parse_transaction_suf in E. rewrite Hnw in E. split; [exact E|].
        exists [CTrans d p n]. cbn [bsteps bstep]. rewrite Eb. reflexivity. }
      destruct (LoaderModel.parse_identifier is_letter is_udigit to_upper l) as [cmd l1] eqn:Eid. unfold LoaderModel.parse_identifier in Eid.
      destruct (span _ (consume_ws l)) as [w r0] eqn:Ew. injection Eid as Ecmd El1. unfold l in Ew at 1. rewrite consume_ws_idem in Ew. fold l in Ew. pose proof (span_eq (fun c : Z => is_udigit c || is_letter c || (c =? 95)) l) as Hsp. rewrite Ew in Hsp. cbn [fst snd] in Hsp. rewrite Hnw in Hsp.
      assert (Hps : cmd <> [] -> psuf l1 l0).
      { intros Hc. exists (w ++ fst (span ws_rune r0)). split; [intros Ez; apply app_eq_nil in Ez as [-> _]; apply Hc; rewrite <- Ecmd; reflexivity|].
        rewrite <- app_assoc. rewrite <- El1. unfold consume_ws. rewrite <- span_eq. exact Hsp. }
      destruct (str_eqb_spec cmd (bs "INCLUDE")) as [Ei|_].
      + destruct (parse_to_eol l1) as [s l2] eqn:E2. apply obind_Ok in H as (name & En & H). injection H as <-.
        split; [eapply psuf_r; [exact (parse_to_eol_suf _ _ _ E2)|apply Hps; rewrite Ei; discriminate]|]. split; [reflexivity|]. split; [reflexivity|].
        exists l0. split; [apply suf_refl|]. unfold parse_to_eol in E2. rewrite <- El1, consume_ws_idem in E2.
        exists w, (fst (span ws_rune r0)), s, l2. split; [|split; [congruence|split; [apply span_all|]]].
        * assert (E3 : consume_ws r0 = s ++ l2) by (rewrite (span_eq line_rune (consume_ws r0)), E2; reflexivity). rewrite <- E3. unfold consume_ws. rewrite <- span_eq. exact Hsp.
        * pose proof (span_all line_rune (consume_ws r0)) as Ha. pose proof (span_stop line_rune (consume_ws r0) eq_refl) as Hb. rewrite E2 in Ha, Hb. split; [exact Ha|]. split; [exact Hb|]. apply include_name_cases. exact En.
      + destruct (str_eqb_spec cmd (bs "ALIAS")) as [Ei|_]; [|discriminate].
        destruct (parse_account l1) as [short l2] eqn:E2. destruct (negb _); [discriminate|]. destruct (parse_account (consume_ws (next (consume_ws l2)))) as [long l3] eqn:E3.
        destruct long as [|x long]; [discriminate|]. destruct (parse_to_eol (consume_ws l3)) as [y l4] eqn:E4. injection H as <-. split; [|exists []; reflexivity].
        eapply psuf_r; [|apply Hps; rewrite Ei; discriminate]. apply parse_account_suf in E2, E3. apply parse_to_eol_suf in E4.
        eapply suf_trans; [exact E4|]. eapply suf_trans; [apply consume_ws_suf|]. eapply suf_trans; [exact E3|]. eapply suf_trans; [apply consume_ws_suf|]. eapply suf_trans; [apply next_suf|]. eapply suf_trans; [apply consume_ws_suf|exact E2].
  Qed.
  (** ** No round diverges *)
  Lemma nd_bind {A B} (o : outcome A) (f : A -> outcome B) : o <> Diverge -> (forall x, f x <> Diverge) -> obind o f <> Diverge.
  Proof. intros H1 H2. destruct o; cbn [obind]; [apply H2|discriminate..|contradiction]. Qed.
  Lemma nd_new_rat a m : new_rat a m <> Diverge.
  Proof. unfold new_rat. destruct (_ =? _); discriminate. Qed.
  Lemma nd_consume e l : consume e l <> Diverge.
  Proof. unfold consume. destruct (_ =? _); discriminate. Qed.
  Lemma nd_number mn mx l : parse_number mn mx l <> Diverge.
  Proof. unfold parse_number. destruct (span digit l). destruct (_ || _); discriminate. Qed.
  Lemma nd_date l : parse_date l <> Diverge.
  Proof. unfold parse_date. repeat (apply nd_bind; [first [apply nd_number|apply nd_consume]|intros [? ?] || intros ?]). discriminate. Qed.
  Lemma nd_time l : parse_time l <> Diverge.
  Proof. unfold parse_time. repeat (apply nd_bind; [first [apply nd_number|apply nd_consume]|intros [? ?] || intros ?]). discriminate. Qed.
  Lemma nd_quoted l : parse_quoted l <> Diverge.
  Proof. unfold parse_quoted. apply nd_bind; [apply nd_consume|]. intros x. destruct (span _ x). apply nd_bind; [apply nd_consume|]. discriminate. Qed.
  Lemma nd_amt l : parse_amt l <> Diverge.
  Proof. unfold parse_amt. destruct (if _ =? 45 then _ else _) as [a r]. destruct (amt_loop false 0 1 r) as [[? ?] ?]. apply nd_bind; [apply nd_new_rat|discriminate]. Qed.
  Lemma nd_ccy l : parse_ccy l <> Diverge.
  Proof. unfold parse_ccy. destruct (_ =? _); [apply nd_bind; [apply nd_quoted|intros [? ?]; discriminate]|]. destruct (span _ _). discriminate. Qed.
  Lemma nd_ccy_amt l : parse_ccy_amt l <> Diverge.
  Proof. unfold parse_ccy_amt. destruct (_ || _); repeat (apply nd_bind; [first [apply nd_ccy|apply nd_amt]|intros [? ?]]); discriminate. Qed.
  Lemma nd_price b l : parse_price b l <> Diverge.
  Proof.
    unfold parse_price. destruct (negb _); [discriminate|]. apply nd_bind; [apply nd_date|intros [? ?]]. apply nd_bind; [apply nd_time|intros ?]. apply nd_bind; [apply nd_ccy|intros [? ?]].
    apply nd_bind; [apply nd_ccy_amt|intros [? ?]]. discriminate.
  Qed.
  Lemma nd_payee l : parse_payee l <> Diverge.
  Proof. unfold parse_payee. destruct (_ =? _); [apply nd_bind; [apply nd_quoted|intros [? ?]; discriminate]|]. destruct (span _ _). discriminate. Qed.
  Lemma nd_transaction l : parse_transaction l <> Diverge.
  Proof. unfold parse_transaction. apply nd_bind; [apply nd_date|intros [? ?]]. apply nd_bind; [apply nd_payee|intros [? ?]]. destruct (parse_note _). discriminate. Qed.
  Lemma nd_new_transaction b d p n : new_transaction b d p n <> Diverge.
  Proof.
    unfold new_transaction. apply nd_bind; [unfold check_and_clear; destruct (forallb _ _); discriminate|]. intros b'. apply nd_bind; [|discriminate].
    destruct (rename_loop_total (bu_prev b') d p) as (j & _ & -> & _). discriminate.
  Qed.
  Lemma nd_posting nm b l : parse_posting nm b l <> Diverge.
  Proof.
    unfold LoaderModel.parse_posting. destruct (parse_account _) as [? l1]. destruct (if ch (consume_ws l1) =? 45 then _ else _) as [? ?]. apply nd_bind; [apply nd_ccy_amt|intros [[ccy amt] l4]].
    apply nd_bind; [destruct (_ =? _); [apply nd_bind; [apply nd_ccy_amt|intros [? ?]; discriminate]|discriminate]|]. intros ?. destruct (parse_note _). destruct ccy; discriminate.
  Qed.
  Lemma nd_step b nm l : step b nm l <> Diverge.
  Proof.
    unfold LoaderModel.step. destruct (_ || _ || _); [discriminate|]. destruct (negb (has_ws l)).
    - destruct (_ || _); [discriminate|]. destruct (_ =? _); [apply nd_bind; [apply nd_price|intros [? ?]; discriminate]|].
      destruct (digit _); [apply nd_bind; [apply nd_transaction|intros [[[? ?] ?] ?]]; apply nd_bind; [apply nd_new_transaction|discriminate]|].
      destruct (LoaderModel.parse_identifier _ _ _ _) as [cmd l1]. destruct (str_eqb cmd _).
      + destruct (parse_to_eol l1). apply nd_bind; [|discriminate]. unfold include_name. destruct r; [discriminate|]. destruct (_ && _); [destruct r; discriminate|discriminate].
      + destruct (str_eqb cmd _); [|discriminate]. destruct (parse_account l1). destruct (negb _); [discriminate|]. destruct (parse_account _). destruct s0; [discriminate|]. destruct (parse_to_eol _). discriminate.
    - apply nd_bind; [apply nd_posting|intros [? ?]; discriminate].
  Qed.

  (** ** Files *)
  Lemma file_loop_calls rec f : (forall b g nm b', rec b g nm = FOk b' -> exists cs, bsteps b cs = Ok b') ->
    forall fuel b nm l b', file_loop rec f fuel b nm l = FOk b' -> exists cs, bsteps b cs = Ok b'.
  Proof.
    intros Hrec. induction fuel as [|fuel IH]; intros b nm l b' H; [discriminate|]. cbn [LoaderModel.file_loop] in H.
    destruct (Z.eqb_spec (ch l) eof) as [_|Hc]; [injection H as <-; exists []; reflexivity|].
    destruct (step b nm l) as [r| | |] eqn:E; try discriminate.
    pose proof (step_progress b nm l r Hc E) as P. destruct r as [b1 nm' l'|name b1 nm' l'].
    - destruct P as [_ (cs & Ecs)]. apply IH in H as (cs' & E'). exists (cs ++ cs'). rewrite bsteps_app, Ecs. exact E'.
    - destruct P as (_ & -> & -> & _). destruct (rec b (resolve f name) nm) as [b2| | |] eqn:Er; try discriminate.
      apply Hrec in Er as (cs & Ecs). apply IH in H as (cs' & E'). exists (cs ++ cs'). rewrite bsteps_app, Ecs. exact E'.
  Qed.
  Lemma parse_file_calls depth : forall b f nm b', parse_file depth b f nm = FOk b' -> exists cs, bsteps b cs = Ok b'.
  Proof.
    induction depth as [|dp IH]; intros b f nm b' H; [discriminate|]. cbn [LoaderModel.parse_file] in H. destruct (fs f); [|discriminate].
    eapply file_loop_calls; [exact IH|exact H].
  Qed.
  Lemma file_loop_fine rec f bytes : fs f = Some bytes -> (forall b g nm, names f g -> rec b g nm <> FDiverge) ->
    forall fuel b nm l, suf l (decode bytes) -> (length l < fuel)%nat -> file_loop rec f fuel b nm l <> FDiverge.
  Proof.
    intros Hf Hrec. induction fuel as [|fuel IH]; intros b nm l Hs Hl; [lia|]. cbn [LoaderModel.file_loop].
    destruct (Z.eqb_spec (ch l) eof) as [_|Hc]; [discriminate|].
    destruct (step b nm l) as [r| | |] eqn:E; try discriminate; [|exfalso; apply (nd_step _ _ _ E)].
    pose proof (step_progress b nm l r Hc E) as P. destruct r as [b1 nm' l'|name b1 nm' l'].
    - destruct P as [P _]. apply IH; [eapply suf_trans; [apply psuf_suf; exact P|exact Hs]|]. apply psuf_len in P. lia.
    - destruct P as (P & -> & -> & l1 & Hl1 & Hi).
      assert (Hn : names f (resolve f name)) by (exists bytes, l1, name; repeat split; [exact Hf|eapply suf_trans; [exact Hl1|exact Hs]|exact Hi]).
      pose proof (Hrec b (resolve f name) nm Hn) as Hr. destruct (rec b (resolve f name) nm) as [b2| | |]; try exact Hr.
      apply IH; [eapply suf_trans; [apply psuf_suf; exact P|exact Hs]|]. apply psuf_len in P. lia.
  Qed.
  Lemma file_loop_same rec rec' f bytes : fs f = Some bytes -> (forall b g nm, names f g -> rec b g nm = rec' b g nm) ->
    forall fuel b nm l, suf l (decode bytes) -> file_loop rec f fuel b nm l = file_loop rec' f fuel b nm l.
  Proof.
    intros Hf Hrec. induction fuel as [|fuel IH]; intros b nm l Hs; [reflexivity|]. cbn [LoaderModel.file_loop].
    destruct (Z.eqb_spec (ch l) eof) as [_|Hc]; [reflexivity|].
    destruct (step b nm l) as [r| | |] eqn:E; try reflexivity.
    pose proof (step_progress b nm l r Hc E) as P. destruct r as [b1 nm' l'|name b1 nm' l'].
    - destruct P as [P _]. apply IH. eapply suf_trans; [apply psuf_suf; exact P|exact Hs].
    - destruct P as (P & -> & -> & l1 & Hl1 & Hi).
      assert (Hn : names f (resolve f name)) by (exists bytes, l1, name; repeat split; [exact Hf|eapply suf_trans; [exact Hl1|exact Hs]|exact Hi]).
      rewrite (Hrec b _ nm Hn). destruct (rec' b (resolve f name) nm) as [b2| | |]; try reflexivity.
      apply IH. eapply suf_trans; [apply psuf_suf; exact P|exact Hs].
  Qed.
  Lemma parse_file_fine (rank : str -> nat) : (forall f g, names f g -> (rank g < rank f)%nat) ->
    forall depth f b nm, (rank f < depth)%nat -> parse_file depth b f nm <> FDiverge.
  Proof.
    intros Hr. induction depth as [|dp IH]; intros f b nm Hd; [lia|]. cbn [LoaderModel.parse_file]. destruct (fs f) as [bytes|] eqn:Ef; [|discriminate].
    apply (file_loop_fine (parse_file dp) f bytes Ef); [|apply suf_refl|lia]. intros b' g nm' Hn. apply IH. apply Hr in Hn. lia.
  Qed.
  Lemma parse_file_same (rank : str -> nat) : (forall f g, names f g -> (rank g < rank f)%nat) ->
    forall d d' f b nm, (rank f < d)%nat -> (rank f < d')%nat -> parse_file d b f nm = parse_file d' b f nm.
  Proof.
    intros Hr. induction d as [|d IH]; intros d' f b nm H1 H2; [lia|]. destruct d' as [|d']; [lia|]. cbn [LoaderModel.parse_file]. destruct (fs f) as [bytes|] eqn:Ef; [|reflexivity].
    apply (file_loop_same _ _ f bytes Ef); [|apply suf_refl]. intros b' g nm' Hn. apply Hr in Hn. apply IH; lia.
  Qed.
  Lemma reaches_first f g h : names f g -> reaches g h -> reaches f h.
  Proof. intros Hn H. induction H as [|x y H IH Hxy]; [eapply reach_step; [apply reach_self|exact Hn]|eapply reach_step; eassumption]. Qed.
  Lemma file_loop_exit rec f bytes : fs f = Some bytes -> (forall b g nm, names f g -> rec b g nm = FExit -> exists h, reaches g h /\ fs h = None) ->
    forall fuel b nm l, suf l (decode bytes) -> file_loop rec f fuel b nm l = FExit -> exists h, reaches f h /\ fs h = None.
  Proof.
    intros Hf Hrec. induction fuel as [|fuel IH]; intros b nm l Hs H; [discriminate|]. cbn [LoaderModel.file_loop] in H.
    destruct (Z.eqb_spec (ch l) eof) as [_|Hc]; [discriminate|].
    destruct (step b nm l) as [r| | |] eqn:E; try discriminate.
    pose proof (step_progress b nm l r Hc E) as P. destruct r as [b1 nm' l'|name b1 nm' l'].
    - destruct P as [P _]. eapply IH; [|exact H]. eapply suf_trans; [apply psuf_suf; exact P|exact Hs].
    - destruct P as (P & -> & -> & l1 & Hl1 & Hi).
      assert (Hn : names f (resolve f name)) by (exists bytes, l1, name; repeat split; [exact Hf|eapply suf_trans; [exact Hl1|exact Hs]|exact Hi]).
      destruct (rec b (resolve f name) nm) as [b2| | |] eqn:Er; try discriminate.
      + eapply IH; [|exact H]. eapply suf_trans; [apply psuf_suf; exact P|exact Hs].
      + destruct (Hrec _ _ _ Hn Er) as (h & Hh & Hnone). exists h. split; [eapply reaches_first; eassumption|exact Hnone].
  Qed.
  Lemma parse_file_exit depth : forall b f nm, parse_file depth b f nm = FExit -> exists h, reaches f h /\ fs h = None.
  Proof.
    induction depth as [|dp IH]; intros b f nm H; [discriminate|]. cbn [LoaderModel.parse_file] in H. destruct (fs f) as [bytes|] eqn:Ef; [|exists f; split; [apply reach_self|exact Ef]].
    eapply file_loop_exit; [exact Ef|intros b' g nm' _ H'; eapply IH; exact H'|apply suf_refl|exact H].
  Qed.
End Term.
