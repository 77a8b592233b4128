(** * LoaderProofs2: the parser reads the texts of LoaderSpec. *)
From Verif Require Import Base Utf8 Dec DateProofs2 PriceModel BookModel AccumModel LoaderModel LoaderSpec LoaderProofs.
From Coq Require Import ZifyBool ZifyNat Zify.
Ltac Zify.zify_post_hook ::= idtac.

Lemma span_nil f rest : f (ch rest) = false -> span f rest = ([], rest).
Proof. intros H. apply (span_app f [] rest); [constructor|right; exact H]. Qed.
Lemma encode_nonempty s : s <> [] -> encode s <> [].
Proof. destruct s as [|c s]; [congruence|]. intros _ E. cbn [encode map concat] in E. apply app_eq_nil in E. apply (enc_nonempty c). tauto. Qed.
Lemma consume_ok c l : consume c (c :: l) = Ok l.
Proof. unfold consume. cbn [ch next tl]. rewrite Z.eqb_refl. reflexivity. Qed.
Lemma digits_head s rest : digits s -> (1 <= length s)%nat -> exists c, ch (s ++ rest) = c /\ 48 <= c <= 57.
Proof. intros H L. destruct s as [|c s]; [cbn in L; lia|]. inversion H; subst. exists c. split; [reflexivity|assumption]. Qed.

Lemma parse_date_ok t d rest : date_text t d -> digit (ch rest) = false -> parse_date (t ++ rest) = Ok (d, rest).
Proof.
  intros H Hr. destruct H as [y m d vy vm vd Hy Hm Hd Ly Lm Ld Vy Vm Vd]. unfold parse_date. rewrite <- !app_assoc.
  rewrite (parse_number_ok 1 4 y) by (try assumption; reflexivity). cbn [obind app]. rewrite consume_ok. cbn [obind].
  rewrite (parse_number_ok 1 2 m) by (try assumption; reflexivity). cbn [obind app]. rewrite consume_ok. cbn [obind].
  rewrite (parse_number_ok 1 2 d) by assumption. cbn [obind].
  rewrite (digits_value_num _ _ Vy), (digits_value_num _ _ Vm), (digits_value_num _ _ Vd). f_equal. f_equal. lia.
Qed.
Lemma date_head t d rest : date_text t d -> exists c, ch (t ++ rest) = c /\ 48 <= c <= 57.
Proof. intros H. destruct H. rewrite <- !app_assoc. apply digits_head; [assumption|lia]. Qed.
Lemma parse_time_ok t rest : time_text t -> digit (ch rest) = false -> parse_time (t ++ rest) = Ok rest.
Proof.
  intros H Hr. destruct H as [h m s Hh Hm Hs Lh Lm Ls]. unfold parse_time. rewrite <- !app_assoc.
  rewrite (parse_number_ok 1 2 h) by (try assumption; reflexivity). cbn [obind app]. rewrite consume_ok. cbn [obind].
  rewrite (parse_number_ok 1 2 m) by (try assumption; reflexivity). cbn [obind app]. rewrite consume_ok. cbn [obind].
  rewrite (parse_number_ok 1 2 s) by assumption. reflexivity.
Qed.
Lemma time_head t rest : time_text t -> exists c, ch (t ++ rest) = c /\ 48 <= c <= 57.
Proof. intros H. destruct H. rewrite <- !app_assoc. apply digits_head; [assumption|lia]. Qed.

(** ** currencies and money *)
Lemma parse_quoted_ok s rest : Forall (fun c => c <> 0 /\ c <> 10 /\ c <> 34) s -> parse_quoted ([34] ++ s ++ [34] ++ rest) = Ok (s, rest).
Proof.
  intros H. unfold parse_quoted. cbn [app]. rewrite consume_ok. cbn [obind]. rewrite span_app.
  - rewrite consume_ok. reflexivity.
  - revert H. apply Forall_impl. intros c. unfold eof, eol. lia.
  - right. reflexivity.
Qed.
Lemma ccy_not_space c : is_ccy_rune c = true -> is_space c = false.
Proof. unfold is_ccy_rune. destruct (is_space c); [|reflexivity]. cbn [negb]. rewrite !andb_false_r. discriminate. Qed.
Lemma ccy_head t s rest : ccy_text t s -> ((ch (t ++ rest) =? 34) || is_ccy_rune (ch (t ++ rest))) = true /\ is_ccy_rune (ch (t ++ rest)) = true.
Proof.
  intros H. destruct H as [s _ _|s Hs Hn _]; [split; reflexivity|].
  destruct s as [|c s]; [congruence|]. inversion Hs as [|? ? Hc ?]; subst. cbn [app ch]. rewrite Hc, orb_true_r. auto.
Qed.
Lemma parse_ccy_ok w t s rest : blanks w -> ccy_text t s -> is_ccy_rune (ch rest) = false -> parse_ccy (w ++ t ++ rest) = Ok (s, rest).
Proof.
  intros Hw Ht Hr. unfold parse_ccy. rewrite consume_ws_app.
  2:exact Hw. 2:{ apply ws_not, ccy_not_space. apply (ccy_head t s rest Ht). }
  destruct Ht as [s Hs _|s Hs Hn H34].
  - rewrite <- !app_assoc. replace (ch ([34] ++ s ++ [34] ++ rest) =? 34) with true by reflexivity. rewrite parse_quoted_ok by exact Hs. reflexivity.
  - rewrite (ch_app _ _ Hn). destruct (Z.eqb_spec (hd 0 s) 34); [congruence|]. rewrite span_app; [reflexivity|exact Hs|right; exact Hr].
Qed.
Lemma ccy_nonempty t s : ccy_text t s -> s <> [].
Proof. intros H. destruct H as [s _ H|s _ H _]; apply encode_nonempty; exact H. Qed.

(** What may follow an amount on a line. *)
Definition line_end (l : runes) : Prop := (is_space (ch l) = true) \/ ch l = 64 \/ ch l = 59 \/ ch l = 0.
Lemma line_end_stops l : line_end l -> stops l.
Proof. unfold line_end, stops, is_space, digit, between. lia. Qed.
Lemma line_end_ccy l : line_end l -> is_ccy_rune (ch l) = false.
Proof. unfold line_end, is_ccy_rune. intros [H|[H|[H|H]]]; rewrite H; [rewrite !andb_false_r|..]; reflexivity. Qed.
Lemma amount_not_ccy c : (c = 45 \/ 48 <= c <= 57 \/ c = 46) -> is_ccy_rune c = false /\ c <> 34.
Proof. unfold is_ccy_rune, digit, between. lia. Qed.
Lemma blank_line_end w rest : blanks w -> w <> [] -> line_end (w ++ rest).
Proof. intros H N. left. destruct w as [|c w]; [congruence|]. inversion H as [|? ? [Hc _] _]; subst. exact Hc. Qed.

Lemma parse_ccy_amt_ok t ccy q rest : money_text t ccy q -> line_end rest -> parse_ccy_amt (t ++ rest) = Ok (ccy, q, rest).
Proof.
  intros H Hr. pose proof (line_end_stops _ Hr) as Hst. pose proof (line_end_ccy _ Hr) as Hcc. unfold parse_ccy_amt. destruct H as [c w a ccy q Hc Hw Ha|c w a ccy q Hc Hw Ha Hsep].
  - rewrite <- !app_assoc. destruct (ccy_head c ccy (w ++ a ++ rest) Hc) as [-> _].
    change (c ++ w ++ a ++ rest) with ([] ++ c ++ w ++ a ++ rest). rewrite (parse_ccy_ok [] c ccy (w ++ a ++ rest)); [|constructor|exact Hc|].
    + cbn [obind]. rewrite (parse_amt_ok w a q rest Hw Ha Hst). reflexivity.
    + destruct w as [|x w]; [|apply line_end_ccy, blank_line_end; [exact Hw|discriminate]].
      cbn [app]. destruct (amount_head a q rest Ha) as (x & -> & Hx). apply amount_not_ccy. exact Hx.
  - rewrite <- !app_assoc. destruct (amount_head a q (w ++ c ++ rest) Ha) as (x & Ex & Hx). rewrite Ex. destruct (amount_not_ccy _ Hx) as [-> N34].
    destruct (Z.eqb_spec x 34); [contradiction|]. cbn [orb].
    change (a ++ w ++ c ++ rest) with ([] ++ a ++ w ++ c ++ rest). rewrite (parse_amt_ok [] a q (w ++ c ++ rest)); [|constructor|exact Ha|].
    + cbn [obind]. rewrite (parse_ccy_ok w c ccy rest Hw Hc Hcc). reflexivity.
    + destruct w as [|y w]; [|apply line_end_stops, blank_line_end; [exact Hw|discriminate]].
      destruct Hsep as [Hsep|Hsep]; [congruence|]. cbn [app]. destruct (ccy_head c ccy rest Hc) as [_ Hcr].
      assert (E : ch (c ++ rest) = hd 0 c) by (apply ch_app; destruct Hc as [s Q1 Q2|s Q1 Q2 Q3]; [discriminate|exact Q2]).
      rewrite <- E in Hsep. revert Hcr Hsep. unfold is_ccy_rune, stops. destruct (digit (ch (c ++ rest))); [cbn [negb]; rewrite andb_false_r; discriminate|]. lia.
Qed.
Lemma amount_head_ws a q rest : amount_text a q -> ws_rune (ch (a ++ rest)) = false.
Proof. intros H. destruct (amount_head a q rest H) as (c & -> & Hc). apply ws_not, not_space. tauto. Qed.
Lemma money_head_ws t ccy q rest : money_text t ccy q -> ws_rune (ch (t ++ rest)) = false.
Proof.
  intros H. destruct H as [c w a ccy q Hc Hw Ha|c w a ccy q Hc Hw Ha Hsep]; rewrite <- app_assoc.
  - destruct (ccy_head c ccy ((w ++ a) ++ rest) Hc) as [_ H]. apply ws_not, ccy_not_space, H.
  - eapply amount_head_ws. exact Ha.
Qed.
(** A minus sign in front of the number can also be read as a sign of the whole. *)
Lemma amount_minus t q : amount_text (45 :: t) q -> amount_text t (- q)%Qc.
Proof.
  intros H. remember (45 :: t) as t0 eqn:E. destruct H as [neg ip v Hg Hv Hl Hn Hh|neg ip fp v q Hg Hg2 Hv Hl Hh Hq].
  - destruct neg.
    + injection E as E. subst t. rewrite Qcopp_involutive. apply (amt_int false); assumption.
    + cbn [app] in E. destruct ip as [|c ip]; [discriminate|]. injection E as -> _. inversion Hg as [|? ? Hx _]; subst. lia.
  - destruct neg.
    + injection E as E. subst t. apply (amt_dec false ip fp v); try assumption.
      replace (- q * qz (10 ^ Z.of_nat (length (no_commas fp))))%Qc with (- (q * qz (10 ^ Z.of_nat (length (no_commas fp)))))%Qc by ring. rewrite Hq. ring.
    + cbn [app] in E. destruct ip as [|c ip]; [discriminate|]. injection E as -> _. inversion Hg as [|? ? Hx _]; subst. lia.
Qed.
Lemma money_minus t ccy q : money_text (45 :: t) ccy q -> money_text t ccy (- q)%Qc.
Proof.
  intros H. remember (45 :: t) as t0 eqn:E. destruct H as [c w a ccy q Hc Hw Ha|c w a ccy q Hc Hw Ha Hsep].
  - exfalso. destruct (ccy_head c ccy (w ++ a) Hc) as [_ H]. rewrite E in H. discriminate.
  - destruct a as [|x a].
    + exfalso. destruct (amount_head [] q [] Ha) as (z & Hz & Hz'). cbn in Hz. lia.
    + injection E as -> <-. apply money_back; try assumption. apply amount_minus. exact Ha.
Qed.

(** ** notes, payees, accounts *)
Lemma nl_ws rest : ws_rune (ch (10 :: rest)) = false.
Proof. reflexivity. Qed.
Lemma parse_note_ok n nt rest : note_text n nt -> parse_note (n ++ 10 :: rest) = (nt, 10 :: rest).
Proof.
  intros H. unfold parse_note. destruct H as [w Hw|w1 w2 s Hw1 Hw2 Hs Hh].
  - rewrite consume_ws_app by (try assumption; reflexivity). reflexivity.
  - rewrite <- !app_assoc. rewrite consume_ws_app by (try assumption; reflexivity). cbn [app ch next tl]. change (negb (59 =? 59)) with false. cbv iota.
    unfold parse_to_eol. rewrite consume_ws_app; [|exact Hw2|].
    + rewrite span_app; [reflexivity| |right; reflexivity]. revert Hs. apply Forall_impl. intros c. unfold line_rune, eof, eol. lia.
    + destruct s as [|c s]; [reflexivity|]. apply ws_not. exact Hh.
Qed.
Lemma note_head n nt rest : note_text n nt -> line_end (n ++ 10 :: rest).
Proof.
  intros H. destruct H as [w Hw|w1 w2 s Hw1 Hw2 Hs Hh].
  - destruct w as [|c w]; [left; reflexivity|]. apply blank_line_end; [exact Hw|discriminate].
  - rewrite <- !app_assoc. destruct w1 as [|c w]; [right; right; left; reflexivity|]. apply blank_line_end; [exact Hw1|discriminate].
Qed.

Lemma drop_space_app w s : blanks w -> drop_space (w ++ s) = drop_space s.
Proof. intros H. induction H as [|c w [Hc _] _ IH]; [reflexivity|]. cbn [app drop_space]. rewrite Hc. exact IH. Qed.
Lemma drop_space_id s : is_space (hd 0 s) = false -> drop_space s = s.
Proof. destruct s as [|c s]; [reflexivity|]. cbn [hd drop_space]. intros ->. reflexivity. Qed.
Lemma last_rev (s : runes) : hd 0 (rev s) = last s 0.
Proof. destruct s as [|c s] using rev_ind; [reflexivity|]. rewrite rev_app_distr, last_last. reflexivity. Qed.
Lemma blanks_rev w : blanks w -> blanks (rev w).
Proof. intros H. apply Forall_rev. exact H. Qed.
Lemma drop_blanks w : blanks w -> drop_space w = [].
Proof. intros H. rewrite <- (app_nil_r w). rewrite drop_space_app by exact H. reflexivity. Qed.
Lemma trim_ok s w : is_space (hd 0 s) = false -> is_space (last s 0) = false -> blanks w -> trim_space (s ++ w) = s.
Proof.
  intros H1 H2 Hw. unfold trim_space. destruct s as [|c s].
  - cbn [app]. rewrite (drop_blanks w Hw). reflexivity.
  - rewrite (drop_space_id ((c :: s) ++ w)) by exact H1. rewrite rev_app_distr, drop_space_app by (apply blanks_rev; exact Hw).
    rewrite drop_space_id by (rewrite last_rev; exact H2). apply rev_involutive.
Qed.
Lemma consume_ws_idem l : consume_ws (consume_ws l) = consume_ws l.
Proof.
  unfold consume_ws at 2 3. induction l as [|c l IH]; [reflexivity|]. cbn [span]. destruct (ws_rune c) eqn:E.
  - destruct (span ws_rune l) as [a r]. cbn [snd] in *. exact IH.
  - cbn [snd]. apply consume_ws_id. exact E.
Qed.
Lemma consume_ws_app' w l : blanks w -> consume_ws (w ++ l) = consume_ws l.
Proof.
  intros H. apply blanks_ws in H. unfold consume_ws. induction H as [|c w Hc _ IH]; [reflexivity|]. cbn [app span]. rewrite Hc. destruct (span ws_rune (w ++ l)). exact IH.
Qed.
(** A note as the blanks before it and the rest. *)
Lemma note_split n nt rest : note_text n nt -> exists w n', n = w ++ n' /\ blanks w /\ note_text n' nt /\ (ch (n' ++ 10 :: rest) = 10 \/ ch (n' ++ 10 :: rest) = 59).
Proof.
  intros H. destruct H as [w Hw|w1 w2 s Hw1 Hw2 Hs Hh].
  - exists w, []. rewrite app_nil_r. repeat split; [exact Hw|apply note_none; constructor|left; reflexivity].
  - exists w1, ([59] ++ w2 ++ s). repeat split; [exact Hw1|apply (note_some []); [constructor|assumption..]|right; reflexivity].
Qed.
Lemma payee_blank w : blanks w -> Forall (fun c => payee_rune c = true) w.
Proof. apply Forall_impl. intros c [H N]. unfold payee_rune, eof, eol. unfold is_space, between in H. lia. Qed.
Lemma parse_payee_bare w s n nt rest : blanks w -> payee_ok s -> note_text n nt ->
  exists n', parse_payee (w ++ s ++ n ++ 10 :: rest) = Ok (encode s, n' ++ 10 :: rest) /\ note_text n' nt.
Proof.
  intros Hw (Hs & H34 & _ & Hh & Hl) Hn. destruct (note_split n nt rest Hn) as (w1 & n1 & -> & Hw1 & Hn1 & Hch).
  exists n1. split; [|exact Hn1]. unfold parse_payee. rewrite consume_ws_app' by exact Hw.
  destruct s as [|c s].
  - rewrite app_nil_l, <- app_assoc, consume_ws_app' by exact Hw1. rewrite consume_ws_id by (destruct Hch as [->| ->]; reflexivity).
    assert (E : (ch (n1 ++ 10 :: rest) =? 34) = false) by (destruct Hch as [->| ->]; reflexivity). rewrite E.
    rewrite span_nil; [reflexivity|destruct Hch as [->| ->]; reflexivity].
  - cbn [hd] in H34, Hh. rewrite consume_ws_id by (apply ws_not; exact Hh). change (ch ((c :: s) ++ (w1 ++ n1) ++ 10 :: rest)) with c.
    destruct (Z.eqb_spec c 34); [contradiction|]. rewrite <- app_assoc. rewrite (app_assoc (c :: s) w1). rewrite span_app.
    + rewrite trim_ok by assumption. reflexivity.
    + apply Forall_app. split; [|apply payee_blank; exact Hw1]. revert Hs. apply Forall_impl. intros x. unfold payee_rune, eof, eol. lia.
    + right. destruct Hch as [->| ->]; reflexivity.
Qed.
Lemma trim_both u s v : blanks u -> blanks v -> is_space (hd 0 s) = false -> is_space (last s 0) = false -> trim_space (u ++ s ++ v) = s.
Proof.
  intros Hu Hv H1 H2. rewrite <- (trim_ok s v H1 H2 Hv) at 2. unfold trim_space. rewrite drop_space_app by exact Hu. reflexivity.
Qed.
Lemma parse_payee_ok w s p n nt rest : blanks w -> payee_line s p -> note_text n nt ->
  exists n', parse_payee (w ++ s ++ n ++ 10 :: rest) = Ok (p, n' ++ 10 :: rest) /\ note_text n' nt.
Proof.
  intros Hw [s0 Hs|u s0 v Hu Hv Hf H1 H2] Hn; [apply parse_payee_bare; assumption|].
  exists n. split; [|exact Hn]. unfold parse_payee. rewrite consume_ws_app' by exact Hw.
  change (consume_ws (([34] ++ (u ++ s0 ++ v) ++ [34]) ++ n ++ 10 :: rest)) with (([34] ++ (u ++ s0 ++ v) ++ [34]) ++ n ++ 10 :: rest).
  change (ch (([34] ++ (u ++ s0 ++ v) ++ [34]) ++ n ++ 10 :: rest) =? 34) with true. cbv iota.
  replace (([34] ++ (u ++ s0 ++ v) ++ [34]) ++ n ++ 10 :: rest) with ([34] ++ (u ++ s0 ++ v) ++ [34] ++ (n ++ 10 :: rest)) by (rewrite <- !app_assoc; reflexivity).
  rewrite (parse_quoted_ok _ _ Hf). cbn [obind]. rewrite (trim_both u s0 v Hu Hv H1 H2). reflexivity.
Qed.
Lemma acct_rune_head c : acct_rune c = true -> c <> 33 /\ c <> 91 /\ c <> 59 /\ c <> 10 /\ c <> 0 /\ is_space c = false.
Proof. unfold acct_rune, is_space, between. lia. Qed.
Lemma parse_account_ok w a rest : blanks w -> acct_ok a -> a <> [] -> acct_rune (ch rest) = false -> ch rest <> 93 ->
  parse_account (w ++ a ++ rest) = (encode a, rest).
Proof.
  intros Hw Ha Hn Hr H93. unfold parse_account. destruct a as [|c a]; [congruence|]. assert (Hc : acct_rune c = true) by (inversion Ha; assumption).
  pose proof (acct_rune_head c Hc) as (N1 & N2 & _ & _ & _ & Hsp).
  rewrite consume_ws_app; [|exact Hw|apply ws_not; exact Hsp]. change (ch ((c :: a) ++ rest)) with c.
  destruct (Z.eqb_spec c 33); [contradiction|]. destruct (Z.eqb_spec c 91); [contradiction|]. cbn [orb].
  rewrite span_app; [|exact Ha|right; exact Hr].
  rewrite span_nil; [|revert Hr; unfold acct_rune, acct_rune2, between; lia].
  destruct (Z.eqb_spec (ch rest) 93); [contradiction|]. rewrite app_nil_r. reflexivity.
Qed.
