(** * GrammarProofs: each function of the loader reads exactly the texts of GrammarSpec. *)
From Verif Require Import Base Utf8 Dec DateProofs2 PriceModel BookModel BookSpec BookProofs BuilderProofs AccumModel LoaderModel LoaderSpec GrammarSpec LoaderProofs LoaderProofs2 LoaderProofs3 LoaderProofs5.
From Coq Require Import ZifyBool ZifyNat Zify.
Ltac Zify.zify_post_hook ::= idtac.

Lemma span_reads f s l r : f 0 = false -> span f l = (s, r) <-> reads f s l r.
Proof.
  intros H0. split.
  - intros E. pose proof (span_eq f l) as A. pose proof (span_all f l) as B. pose proof (span_stop f l H0) as C. rewrite E in A, B, C. cbn [fst snd] in *. split; [exact A|split; assumption].
  - intros (-> & Hs & Hr). apply span_app; [exact Hs|right; exact Hr].
Qed.
Lemma ws_skips l r : consume_ws l = r <-> skips l r.
Proof.
  unfold consume_ws, skips. split.
  - intros <-. destruct (span ws_rune l) as [w r] eqn:E. exists w. apply span_reads in E; [exact E|reflexivity].
  - intros (w & H). apply span_reads in H; [|reflexivity]. rewrite H. reflexivity.
Qed.
Lemma skips_ws l : skips l (consume_ws l). Proof. apply ws_skips. reflexivity. Qed.
Lemma consume_at e l r : e <> 0 -> consume e l = Ok r <-> l = e :: r.
Proof.
  intros He. unfold consume. split.
  - destruct l as [|c l]; cbn [ch next tl]; [destruct (Z.eqb_spec 0 e); [congruence|discriminate]|]. destruct (Z.eqb_spec c e); [|discriminate]. intros H. injection H as <-. congruence.
  - intros ->. cbn [ch next tl]. rewrite Z.eqb_refl. reflexivity.
Qed.
Lemma skip_may e l r : e <> 0 -> (if ch l =? e then next l else l) = r <-> may e l r.
Proof.
  intros He. unfold may. destruct (Z.eqb_spec (ch l) e) as [E|N].
  - destruct l as [|c l]; cbn [ch next tl] in *; [congruence|]. subst c. split; [intros <-; left; reflexivity|]. intros [H|[_ H]]; [injection H as <-; reflexivity|contradiction].
  - split; [intros <-; right; auto|]. intros [->|[H _]]; [cbn [ch] in N; congruence|exact H].
Qed.
Lemma skip_eol_may l r : skip_eol l = r <-> may 10 l r.
Proof. apply skip_may. discriminate. Qed.

Lemma number_ok n l v r : parse_number 1 n l = Ok (v, r) <-> number_at n l v r.
Proof.
  unfold parse_number, number_at. split.
  - destruct (span digit l) as [s r'] eqn:E. destruct (Nat.ltb_spec (length s) 1); [discriminate|]. destruct (Nat.ltb_spec n (length s)); [discriminate|]. cbn [orb]. intros H1. injection H1 as <- <-.
    exists s. split; [apply span_reads; [reflexivity|exact E]|]. split; [lia|]. apply digits_value_ex.
  - intros (s & H & Hl & Hv). apply span_reads in H; [|reflexivity]. rewrite H. destruct (Nat.ltb_spec (length s) 1); [lia|]. destruct (Nat.ltb_spec n (length s)); [lia|]. cbn [orb].
    apply digits_value_num in Hv. rewrite Hv. reflexivity.
Qed.
Lemma date_ok l d r : parse_date l = Ok (d, r) <-> date_at l d r.
Proof.
  unfold parse_date, date_at. split.
  - intros H. apply obind_Ok in H as ([y l1] & E1 & H). apply obind_Ok in H as (l2 & E2 & H). apply obind_Ok in H as ([m l3] & E3 & H). apply obind_Ok in H as (l4 & E4 & H).
    apply obind_Ok in H as ([dd l5] & E5 & H). injection H as <- <-. apply number_ok in E1, E3, E5. apply consume_at in E2, E4; try discriminate. subst l1 l3.
    exists y, m, dd, l2, l4. repeat split; try assumption. lia.
  - intros (y & m & dd & l1 & l2 & H1 & H2 & H3 & ->). apply number_ok in H1, H2, H3. rewrite H1. cbn [obind]. rewrite consume_ok. cbn [obind]. rewrite H2. cbn [obind]. rewrite consume_ok. cbn [obind]. rewrite H3. cbn [obind].
    do 2 f_equal. lia.
Qed.
Lemma time_ok l r : parse_time l = Ok r <-> time_at l r.
Proof.
  unfold parse_time, time_at. split.
  - intros H. apply obind_Ok in H as ([y l1] & E1 & H). apply obind_Ok in H as (l2 & E2 & H). apply obind_Ok in H as ([m l3] & E3 & H). apply obind_Ok in H as (l4 & E4 & H).
    apply obind_Ok in H as ([dd l5] & E5 & H). injection H as <-. apply number_ok in E1, E3, E5. apply consume_at in E2, E4; try discriminate. subst l1 l3.
    exists y, m, dd, l2, l4. repeat split; assumption.
  - intros (y & m & dd & l1 & l2 & H1 & H2 & H3). apply number_ok in H1, H2, H3. rewrite H1. cbn [obind]. rewrite consume_ok. cbn [obind]. rewrite H2. cbn [obind]. rewrite consume_ok. cbn [obind]. rewrite H3. reflexivity.
Qed.

Lemma quoted_class c : (negb (c =? eof) && negb (c =? eol) && negb (c =? 34)) = true <-> c <> 0 /\ c <> 10 /\ c <> 34.
Proof. unfold eof, eol. lia. Qed.
Lemma quoted_ok l s r : parse_quoted l = Ok (s, r) <-> quoted_at l s r.
Proof.
  unfold parse_quoted, quoted_at. split.
  - intros H. apply obind_Ok in H as (l1 & E1 & H). apply consume_at in E1; [|discriminate]. subst l. destruct (span _ l1) as [s' l2] eqn:E. apply obind_Ok in H as (l3 & E3 & H). injection H as <- <-.
    apply consume_at in E3; [|discriminate]. subst l2. apply span_reads in E; [|reflexivity]. destruct E as (-> & Hs & _). split; [reflexivity|]. revert Hs. apply Forall_impl. intros c. apply quoted_class.
  - intros [-> Hs]. rewrite (consume_ok 34). cbn [obind]. rewrite span_app; [rewrite (consume_ok 34); reflexivity| |right; reflexivity].
    revert Hs. apply Forall_impl. intros c. apply quoted_class.
Qed.

(** ** Amounts *)
Lemma wrap_mod z : exists k, wrap64 z = z + k * 2 ^ 64.
Proof. unfold wrap64. exists (- ((z + 2 ^ 63) / 2 ^ 64)). pose proof (Z.div_mod (z + 2 ^ 63) (2 ^ 64) ltac:(lia)). lia. Qed.
Lemma wrap_add z k : wrap64 (z + k * 2 ^ 64) = wrap64 z.
Proof. unfold wrap64. replace (z + k * 2 ^ 64 + 2 ^ 63) with (z + 2 ^ 63 + k * 2 ^ 64) by lia. rewrite Z.mod_add by lia. reflexivity. Qed.
Lemma wrap_wrap z : wrap64 (wrap64 z) = wrap64 z.
Proof. destruct (wrap_mod z) as (k & E). rewrite E at 1. apply wrap_add. Qed.
Lemma wrap_step z c : wrap64 (wrap64 (wrap64 z * 10) + c) = wrap64 (z * 10 + c).
Proof.
  destruct (wrap_mod z) as (k & ->). destruct (wrap_mod ((z + k * 2 ^ 64) * 10)) as (k' & ->). replace (_ + c) with ((z * 10 + c) + (10 * k + k') * 2 ^ 64) by lia. apply wrap_add.
Qed.
Lemma wrap_ten z : wrap64 (wrap64 z * 10) = wrap64 (z * 10).
Proof. destruct (wrap_mod z) as (k & ->). replace ((z + k * 2 ^ 64) * 10) with (z * 10 + (10 * k) * 2 ^ 64) by lia. apply wrap_add. Qed.
Lemma wrap_neg z : wrap64 (wrap64 z * -1) = wrap64 (- z).
Proof. destruct (wrap_mod z) as (k & ->). replace ((z + k * 2 ^ 64) * -1) with (- z + (- k) * 2 ^ 64) by lia. apply wrap_add. Qed.

Lemma amt_loop_group d s : forall n m r, Forall (fun c => group_rune c = true) s ->
  amt_loop d (wrap64 n) (wrap64 m) (s ++ r) = amt_loop d (wrap64 (run n (no_commas s))) (wrap64 (if d then m * 10 ^ Z.of_nat (length (no_commas s)) else m)) r.
Proof.
  induction s as [|c s IH]; intros n m r Hs.
  - cbn [app no_commas filter run fold_left length]. destruct d; [rewrite Z.mul_1_r|]; reflexivity.
  - inversion Hs as [|? ? Hc Hs']; subst. cbn [app amt_loop no_commas filter]. fold (no_commas s). unfold group_rune in Hc. destruct (digit c) eqn:Hd.
    + assert (N : (c =? 44) = false) by (revert Hd; unfold digit, between; lia). rewrite N. cbn [negb]. rewrite wrap_step. cbn [run fold_left length]. fold (run (n * 10 + (c - 48)) (no_commas s)).
      destruct d; [rewrite wrap_ten|]; rewrite IH by exact Hs'; [|reflexivity]. do 2 f_equal. rewrite Nat2Z.inj_succ, Z.pow_succ_r by lia. lia.
    + cbn [orb] in Hc. apply Z.eqb_eq in Hc. subst c. change (44 =? 46) with false. rewrite andb_false_r. change (44 =? 44) with true. cbn [negb]. cbv iota. apply IH. exact Hs'.
Qed.
Lemma amt_loop_halt d n m r : group_rune (ch r) = false -> (d = true \/ ch r <> 46) -> amt_loop d n m r = (n, m, r).
Proof.
  unfold group_rune. intros H1 H2. destruct r as [|c r]; [reflexivity|]. cbn [ch] in *. apply orb_false_iff in H1 as [H1 H3]. cbn [amt_loop]. rewrite H1, H3.
  destruct H2 as [->|H2]; [reflexivity|]. destruct (Z.eqb_spec c 46); [contradiction|]. rewrite andb_false_r. reflexivity.
Qed.
Lemma amt_loop_dot n m r : amt_loop false n m (46 :: r) = amt_loop true n m r.
Proof. reflexivity. Qed.
Lemma run_app2 a b : run 0 (a ++ b) = run (run 0 a) b. Proof. apply run_app. Qed.
Lemma digits_run s v : digits_value s v <-> v = run 0 s.
Proof. split; [intros H; apply digits_value_num in H; symmetry; exact H|]. intros ->. apply digits_value_ex. Qed.

Lemma new_rat_at a b q : new_rat a b = Ok q <-> b <> 0 /\ (q * qz b = qz a)%Qc.
Proof.
  split.
  - intros H. destruct (Z.eq_dec b 0) as [->|N]; [unfold new_rat in H; cbn in H; discriminate|]. split; [exact N|]. rewrite new_rat_div in H by exact N. injection H as <-.
    unfold Qcdiv. rewrite <- Qcmult_assoc, (Qcmult_comm (/ qz b)), Qcmult_inv_r, Qcmult_1_r; [reflexivity|]. intros E. apply N. apply qz_inj. exact E.
  - intros [N E]. rewrite new_rat_div by exact N. f_equal. rewrite <- E. unfold Qcdiv. rewrite <- Qcmult_assoc, Qcmult_inv_r, Qcmult_1_r; [reflexivity|]. intros E'. apply N. apply qz_inj. exact E'.
Qed.

Lemma amount_ok l q r : parse_amt l = Ok (q, r) <-> amount_at l q r.
Proof.
  unfold parse_amt, amount_at.
  assert (Key : forall l2, exists ip l3 fp r', reads group_rune ip l2 l3 /\ ((l3 = r' /\ ch l3 <> 46 /\ fp = []) \/ exists l4, l3 = 46 :: l4 /\ reads group_rune fp l4 r') /\
    amt_loop false 0 1 l2 = (wrap64 (run 0 (no_commas ip ++ no_commas fp)), wrap64 (10 ^ Z.of_nat (length (no_commas fp))), r')).
  { intros l2. destruct (span group_rune l2) as [ip l3] eqn:E1. apply span_reads in E1; [|reflexivity].
    assert (E0 : amt_loop false 0 1 l2 = amt_loop false (wrap64 (run 0 (no_commas ip))) (wrap64 1) l3).
    { destruct E1 as (-> & Hs & _). change (amt_loop false 0 1 (ip ++ l3)) with (amt_loop false (wrap64 0) (wrap64 1) (ip ++ l3)). apply (amt_loop_group false). exact Hs. }
    destruct (Z.eq_dec (ch l3) 46) as [E46|N].
    - destruct l3 as [|c l4]; cbn [ch] in E46; [discriminate|]. subst c. destruct (span group_rune l4) as [fp r'] eqn:E2. apply span_reads in E2; [|reflexivity].
      exists ip, (46 :: l4), fp, r'. split; [exact E1|]. split; [right; exists l4; auto|]. rewrite E0, amt_loop_dot. destruct E2 as (-> & Hs & Hr).
      rewrite (amt_loop_group true) by exact Hs. rewrite amt_loop_halt by (try exact Hr; left; reflexivity). rewrite run_app2, Z.mul_1_l. reflexivity.
    - exists ip, l3, [], l3. split; [exact E1|]. split; [left; auto|]. rewrite E0. rewrite amt_loop_halt by (try (right; exact N); apply E1). rewrite app_nil_r. reflexivity. }
  assert (Uniq : forall l2 ip l3 fp r', reads group_rune ip l2 l3 /\ ((l3 = r' /\ ch l3 <> 46 /\ fp = []) \/ exists l4, l3 = 46 :: l4 /\ reads group_rune fp l4 r') ->
    amt_loop false 0 1 l2 = (wrap64 (run 0 (no_commas ip ++ no_commas fp)), wrap64 (10 ^ Z.of_nat (length (no_commas fp))), r')).
  { intros l2 ip l3 fp r' [H1 H2]. destruct (Key l2) as (ip' & l3' & fp' & r'' & A & B & C).
    apply span_reads in H1; [|reflexivity]. apply span_reads in A; [|reflexivity]. rewrite H1 in A. injection A as <- <-.
    assert (E : fp' = fp /\ r'' = r').
    { destruct H2 as [(-> & N & ->)|(l4 & -> & H2)], B as [(B0 & N' & ->)|(l4' & B1 & B2)].
      - split; [reflexivity|symmetry; exact B0].
      - rewrite B1 in N. contradiction N. reflexivity.
      - contradiction N'. reflexivity.
      - injection B1 as <-. apply span_reads in H2, B2; try reflexivity. rewrite H2 in B2. injection B2 as <- <-. auto. }
    destruct E as [-> ->]. exact C. }
  split.
  - destruct (if ch (consume_ws l) =? 45 then (true, next (consume_ws l)) else (false, consume_ws l)) as [neg l2] eqn:En.
    destruct (Key l2) as (ip & l3 & fp & r' & A & B & C). rewrite C. intros H. apply obind_Ok in H as (v & E & H). injection H as -> ->. apply new_rat_at in E as [Nk E].
    exists neg, (consume_ws l), l2, ip, l3, fp, (run 0 (no_commas ip ++ no_commas fp)). split; [apply skips_ws|]. split.
    { destruct (Z.eqb_spec (ch (consume_ws l)) 45) as [E45|N45]; injection En as <- <-; [|auto]. destruct (consume_ws l) as [|c x]; [discriminate|]. cbn [ch next tl] in *. congruence. }
    split; [exact A|]. split; [exact B|]. split; [apply digits_run; reflexivity|]. cbn zeta. split; [exact Nk|]. rewrite E. destruct neg; [rewrite wrap_neg|]; reflexivity.
  - intros (neg & l1 & l2 & ip & l3 & fp & v & H1 & H2 & H3 & H4 & H5 & H6). cbn zeta in H6. destruct H6 as [Nk E]. apply ws_skips in H1. rewrite H1.
    assert (En : (if ch l1 =? 45 then (true, next l1) else (false, l1)) = (neg, l2)).
    { destruct neg; [rewrite H2; reflexivity|]. destruct H2 as [-> H2]. destruct (Z.eqb_spec (ch l2) 45); [contradiction|reflexivity]. }
    rewrite En. rewrite (Uniq l2 ip l3 fp r (conj H3 H4)). apply digits_run in H5. subst v.
    assert (Er : new_rat (if neg then wrap64 (wrap64 (run 0 (no_commas ip ++ no_commas fp)) * -1) else wrap64 (run 0 (no_commas ip ++ no_commas fp))) (wrap64 (10 ^ Z.of_nat (length (no_commas fp)))) = Ok q).
    { apply new_rat_at. split; [exact Nk|]. rewrite E. destruct neg; [rewrite wrap_neg|]; reflexivity. }
    rewrite Er. reflexivity.
Qed.

(** ** Text *)
Lemma drop_space_split s : exists u, s = u ++ drop_space s /\ Forall (fun c => is_space c = true) u /\ is_space (hd 0 (drop_space s)) = false.
Proof.
  induction s as [|c s (u & E & Hu & Hh)]; [exists []; repeat split; constructor|]. cbn [drop_space]. destruct (is_space c) eqn:Ec.
  - exists (c :: u). split; [cbn [app]; congruence|]. split; [constructor; assumption|exact Hh].
  - exists []. split; [reflexivity|]. split; [constructor|exact Ec].
Qed.
Lemma drop_space_more u s : Forall (fun c => is_space c = true) u -> drop_space (u ++ s) = drop_space s.
Proof. induction 1 as [|c u Hc _ IH]; [reflexivity|]. cbn [app drop_space]. rewrite Hc. exact IH. Qed.
Lemma drop_space_all u : Forall (fun c => is_space c = true) u -> drop_space u = [].
Proof. intros H. rewrite <- (app_nil_r u), drop_space_more by exact H. reflexivity. Qed.
Lemma hd_app_ne (a b : runes) : a <> [] -> hd 0 (a ++ b) = hd 0 a.
Proof. destruct a; [congruence|reflexivity]. Qed.
Lemma trim_ok2 s t : trim_space s = t <-> trimmed s t.
Proof.
  unfold trimmed, trim_space. split.
  - intros <-. destruct (drop_space_split s) as (u & E & Hu & Hh). set (m := drop_space s) in *. destruct (drop_space_split (rev m)) as (v & E' & Hv & Hh'). set (w := drop_space (rev m)) in *.
    exists u, (rev v). assert (Em : m = rev w ++ rev v) by (rewrite <- rev_app_distr, <- E', rev_involutive; reflexivity). split; [rewrite <- Em; exact E|]. split; [exact Hu|].
    split; [apply Forall_rev; exact Hv|]. split; [|rewrite <- last_rev, rev_involutive; exact Hh'].
    destruct (list_eq_dec Z.eq_dec (rev w) []) as [->|N]; [reflexivity|]. rewrite Em, hd_app_ne in Hh by exact N. exact Hh.
  - intros (u & v & -> & Hu & Hv & H1 & H2). rewrite drop_space_more by exact Hu. destruct t as [|c t].
    + cbn [app]. rewrite (drop_space_all v) by exact Hv. reflexivity.
    + rewrite (drop_space_id ((c :: t) ++ v)) by exact H1. rewrite rev_app_distr, drop_space_more by (apply Forall_rev; exact Hv). rewrite drop_space_id by (rewrite last_rev; exact H2). apply rev_involutive.
Qed.

Lemma ccy_ok l c r : parse_ccy l = Ok (c, r) <-> ccy_at l c r.
Proof.
  unfold parse_ccy, ccy_at. split.
  - intros H. destruct (Z.eqb_spec (ch (consume_ws l)) 34) as [E|N].
    + apply obind_Ok in H as ([s l1] & E1 & H). injection H as <- <-. apply quoted_ok in E1. exists (consume_ws l), s. split; [apply skips_ws|]. split; [reflexivity|]. left. exact E1.
    + destruct (span is_ccy_rune (consume_ws l)) as [s l1] eqn:E1. injection H as <- <-. apply span_reads in E1; [|reflexivity]. exists (consume_ws l), s. split; [apply skips_ws|]. split; [reflexivity|]. right. auto.
  - intros (l1 & s & H1 & -> & [H2|[H2 H3]]); apply ws_skips in H1; rewrite H1.
    + assert (E : ch l1 = 34) by (destruct H2 as [-> _]; reflexivity). rewrite E. change (34 =? 34) with true. cbv iota. apply quoted_ok in H2. rewrite H2. reflexivity.
    + destruct (Z.eqb_spec (ch l1) 34); [contradiction|]. apply span_reads in H3; [|reflexivity]. rewrite H3. reflexivity.
Qed.
Lemma money_ok l c q r : parse_ccy_amt l = Ok (c, q, r) <-> money_at l c q r.
Proof.
  unfold parse_ccy_amt, money_at. assert (E0 : ((ch l =? 34) || is_ccy_rune (ch l)) = is_ccy_rune (ch l)) by (destruct (Z.eqb_spec (ch l) 34) as [->|]; reflexivity). rewrite E0. split.
  - destruct (is_ccy_rune (ch l)); intros H.
    + apply obind_Ok in H as ([c' l1] & E1 & H). apply obind_Ok in H as ([q' l2] & E2 & H). injection H as <- <- <-. apply ccy_ok in E1. apply amount_ok in E2. exists l1. left. auto.
    + apply obind_Ok in H as ([q' l1] & E1 & H). apply obind_Ok in H as ([c' l2] & E2 & H). injection H as <- <- <-. apply ccy_ok in E2. apply amount_ok in E1. exists l1. right. auto.
  - intros (l1 & [(-> & H1 & H2)|(-> & H1 & H2)]).
    + apply ccy_ok in H1. apply amount_ok in H2. rewrite H1. cbn [obind]. rewrite H2. reflexivity.
    + apply ccy_ok in H2. apply amount_ok in H1. rewrite H1. cbn [obind]. rewrite H2. reflexivity.
Qed.
Lemma note_ok l n r : parse_note l = (n, r) <-> note_at l n r.
Proof.
  unfold parse_note, note_at, parse_to_eol. split.
  - intros H. exists (consume_ws l). split; [apply skips_ws|]. destruct (Z.eqb_spec (ch (consume_ws l)) 59) as [E|N]; cbn [negb] in H.
    + destruct (consume_ws l) as [|c l1]; [discriminate E|]. cbn [ch next tl] in *. subst c. destruct (span line_rune (consume_ws l1)) as [s l3] eqn:E3. injection H as <- <-. apply span_reads in E3; [|reflexivity].
      right. exists l1, (consume_ws l1), s. split; [reflexivity|]. split; [apply skips_ws|]. auto.
    + injection H as <- <-. left. auto.
  - intros (l1 & H1 & H2). apply ws_skips in H1. rewrite H1. destruct H2 as [(-> & N & ->)|(l2 & l3 & s & -> & H2 & H3 & ->)].
    + destruct (Z.eqb_spec (ch r) 59); [contradiction|reflexivity].
    + cbn [ch next tl]. change (59 =? 59) with true. cbn [negb]. cbv iota. apply ws_skips in H2. rewrite H2. apply span_reads in H3; [|reflexivity]. rewrite H3. reflexivity.
Qed.
Lemma payee_ok2 l p r : parse_payee l = Ok (p, r) <-> payee_at l p r.
Proof.
  unfold parse_payee, payee_at. split.
  - intros H. destruct (Z.eqb_spec (ch (consume_ws l)) 34) as [E|N].
    + apply obind_Ok in H as ([s l1] & E1 & H). injection H as <- <-. apply quoted_ok in E1. exists (consume_ws l), s, (trim_space s). split; [apply skips_ws|]. split; [left; exact E1|]. split; [apply trim_ok2; reflexivity|reflexivity].
    + destruct (span payee_rune (consume_ws l)) as [s l1] eqn:E1. injection H as <- <-. apply span_reads in E1; [|reflexivity]. exists (consume_ws l), s, (trim_space s). split; [apply skips_ws|]. split; [right; auto|].
      split; [apply trim_ok2; reflexivity|reflexivity].
  - intros (l1 & s & t & H1 & H2 & H3 & ->). apply ws_skips in H1. apply trim_ok2 in H3. subst t. rewrite H1. destruct H2 as [H2|[N H2]].
    + assert (E : ch l1 = 34) by (destruct H2 as [-> _]; reflexivity). rewrite E. change (34 =? 34) with true. cbv iota. apply quoted_ok in H2. rewrite H2. reflexivity.
    + destruct (Z.eqb_spec (ch l1) 34); [contradiction|]. apply span_reads in H2; [|reflexivity]. rewrite H2. reflexivity.
Qed.
Lemma acct_rune2_sub c : acct_rune c = false -> acct_rune2 c = false.
Proof. unfold acct_rune, acct_rune2. destruct (between 97 c 122), (between 65 c 90), (c =? 58), (c =? 95); cbn; try reflexivity; rewrite ?orb_true_r; try discriminate. Qed.
Lemma acct_ok2 l a r : parse_account l = (a, r) <-> acct_at l a r.
Proof.
  assert (Hbody : forall l2, parse_account l = (a, r) \/ True -> forall s l3, span acct_rune l2 = (s, l3) ->
    (let '(a1, l) := span acct_rune l2 in let '(a2, l) := span acct_rune2 l in let l := if ch l =? 93 then next l else l in (encode (a1 ++ a2), l)) = (encode s, if ch l3 =? 93 then next l3 else l3)).
  { intros l2 _ s l3 E. rewrite E. apply span_reads in E; [|reflexivity]. destruct E as (_ & _ & E). rewrite span_nil by (apply acct_rune2_sub; exact E). rewrite app_nil_r. reflexivity. }
  unfold parse_account in *. unfold acct_at. set (l2 := if (ch (consume_ws l) =? 33) || (ch (consume_ws l) =? 91) then next (consume_ws l) else consume_ws l) in *.
  split.
  - intros H. destruct (span acct_rune l2) as [s l3] eqn:E. assert (E2 := Hbody l2 (or_intror I) s l3 E). rewrite E in E2. rewrite E2 in H. injection H as <- <-.
    apply span_reads in E; [|reflexivity]. exists (consume_ws l), l2, s, l3. split; [apply skips_ws|]. split; [|split; [exact E|split; [apply skip_may; [discriminate|reflexivity]|reflexivity]]].
    unfold l2. destruct (Z.eqb_spec (ch (consume_ws l)) 33) as [E33|N33]; cbn [orb]; [|destruct (Z.eqb_spec (ch (consume_ws l)) 91) as [E91|N91]].
    + left. destruct (consume_ws l); [discriminate|]. cbn [ch next tl] in *. congruence.
    + right. left. destruct (consume_ws l); [discriminate|]. cbn [ch next tl] in *. congruence.
    + right. right. auto.
  - intros (l1 & l2' & s & l3 & H1 & H2 & H3 & H4 & ->). apply ws_skips in H1.
    assert (E2 : l2 = l2').
    { unfold l2. rewrite H1. destruct H2 as [E|[E|(E & N1 & N2)]]; [rewrite E; reflexivity|rewrite E; reflexivity|]. destruct (Z.eqb_spec (ch l1) 33); [contradiction|]. destruct (Z.eqb_spec (ch l1) 91); [contradiction|exact E]. }
    apply span_reads in H3; [|reflexivity]. rewrite <- E2 in H3. rewrite (Hbody l2 (or_intror I) s l3 H3). apply skip_may in H4; [|discriminate]. rewrite H4. reflexivity.
Qed.
Lemma line_ok l r : skip_line l = r <-> line_at l r.
Proof.
  unfold skip_line, line_at. split.
  - intros H. destruct (span line_rune l) as [s l1] eqn:E. cbn [snd] in H. apply span_reads in E; [|reflexivity]. exists s, l1. split; [exact E|apply skip_eol_may; exact H].
  - intros (s & l1 & H1 & H2). apply span_reads in H1; [|reflexivity]. rewrite H1. cbn [snd]. apply skip_eol_may. exact H2.
Qed.

(** ** Entries *)
Lemma trans_ok l d p n r : parse_transaction l = Ok (d, p, n, r) <-> trans_at l d p n r.
Proof.
  unfold parse_transaction, trans_at. split.
  - intros H. apply obind_Ok in H as ([d' l1] & E1 & H). set (l2 := consume_ws l1) in *. set (l3 := if ch l2 =? 42 then consume_ws (next l2) else l2) in *.
    apply obind_Ok in H as ([p' l4] & E4 & H). destruct (parse_note l4) as [n' l5] eqn:E5. injection H as <- <- <- <-.
    exists l1, l2, l3, l4, l5. split; [apply date_ok; exact E1|]. split; [apply skips_ws|]. split; [|split; [apply payee_ok2; exact E4|split; [apply note_ok; exact E5|apply skip_eol_may; reflexivity]]].
    unfold l3. destruct (Z.eqb_spec (ch l2) 42) as [E|N]; [|right; auto]. left. destruct l2 as [|c l2']; [discriminate|]. cbn [ch next tl] in *. subst c. exists l2'. split; [reflexivity|apply skips_ws].
  - intros (l1 & l2 & l3 & l4 & l5 & H1 & H2 & H3 & H4 & H5 & H6). apply date_ok in H1. rewrite H1. cbn [obind]. apply ws_skips in H2. rewrite H2.
    assert (E3 : (if ch l2 =? 42 then consume_ws (next l2) else l2) = l3).
    { destruct H3 as [(l' & E & H3)|[E N]]; [rewrite E; cbn [ch next tl]; apply ws_skips; exact H3|]. destruct (Z.eqb_spec (ch l2) 42); [contradiction|exact E]. }
    rewrite E3. apply payee_ok2 in H4. rewrite H4. cbn [obind]. apply note_ok in H5. rewrite H5. apply skip_eol_may in H6. rewrite H6. reflexivity.
Qed.
Lemma price_ok b l b' r : parse_price b l = Ok (b', r) <-> exists d u c q, price_at l d u c q r /\ b' = b_add_price b d u c q.
Proof.
  unfold parse_price, price_at. split.
  - destruct (Z.eqb_spec (ch l) 80) as [E|N]; cbn [negb]; [|discriminate]. destruct l as [|x l0]; [discriminate|]. cbn [ch next tl] in *. subst x. intros H.
    apply obind_Ok in H as ([d l2] & E2 & H). apply obind_Ok in H as (l4 & E4 & H). apply obind_Ok in H as ([u l5] & E5 & H). apply obind_Ok in H as ([[c q] l7] & E7 & H). injection H as <- <-.
    exists d, u, c, q. split; [|reflexivity]. exists l0, (consume_ws l0), l2, (consume_ws l2), l4, l5, (consume_ws l5), l7.
    split; [reflexivity|]. split; [apply skips_ws|]. split; [apply date_ok; exact E2|]. split; [apply skips_ws|]. split; [apply time_ok; exact E4|]. split; [apply ccy_ok; exact E5|]. split; [apply skips_ws|].
    split; [apply money_ok; exact E7|apply skip_eol_may; reflexivity].
  - intros (d & u & c & q & (l0 & l1 & l2 & l3 & l4 & l5 & l6 & l7 & -> & H1 & H2 & H3 & H4 & H5 & H6 & H7 & H8) & ->). cbn [ch next tl]. change (80 =? 80) with true. cbn [negb]. cbv iota.
    apply ws_skips in H1, H3, H6. apply date_ok in H2. apply time_ok in H4. apply ccy_ok in H5. apply money_ok in H7. apply skip_eol_may in H8.
    rewrite H1, H2. cbn [obind]. rewrite H3, H4. cbn [obind]. rewrite H5. cbn [obind]. rewrite H6, H7. cbn [obind fst snd]. rewrite H8. reflexivity.
Qed.
Lemma post_ok ord nm b l b' r : consume_ws l = l ->
  parse_posting ord nm b l = Ok (b', r) <->
  exists a c q n, post_at l a c q n r /\ b' = match c with [] => elide (rename nm a) n (ord (bu_amts b)) b | _ => add_posting b (rename nm a) c q n end.
Proof.
  intros Hl. unfold parse_posting, post_at. rewrite Hl. split.
  - intros H. destruct (parse_account l) as [a l1] eqn:E1. set (l2 := consume_ws l1) in *.
    destruct (if ch l2 =? 45 then (true, next l2) else (false, l2)) as [neg l3] eqn:E3. apply obind_Ok in H as ([[c q1] l4] & E4 & H). set (l5 := consume_ws l4) in *.
    apply obind_Ok in H as (l6 & E6 & H). destruct (parse_note l6) as [n l7] eqn:E7.
    exists a, c, (if neg then - q1 else q1)%Qc, n. split; [|fold (rename nm a) in H; destruct c; injection H as <- <-; reflexivity].
    exists l1, l2, l3, l4, l5, l6, l7, neg, q1. split; [apply acct_ok2; exact E1|]. split; [apply skips_ws|]. split.
    { destruct (Z.eqb_spec (ch l2) 45) as [E45|N45]; injection E3 as <- <-; [|auto]. destruct l2 as [|x l2']; [discriminate|]. cbn [ch next tl] in *. congruence. }
    split; [apply money_ok; exact E4|]. split; [reflexivity|]. split; [apply skips_ws|]. split.
    { destruct (Z.eqb_spec (ch l5) 64) as [E64|N64]; [|injection E6 as <-; right; auto]. left. apply obind_Ok in E6 as ([[c' q'] l9] & E9 & E6). injection E6 as <-.
      destruct l5 as [|x l8]; [discriminate|]. cbn [ch next tl] in *. subst x. exists l8, (consume_ws l8), c', q'. split; [reflexivity|]. split; [apply skips_ws|]. apply money_ok. exact E9. }
    split; [apply note_ok; exact E7|]. apply skip_eol_may. destruct c; injection H as _ <-; reflexivity.
  - intros (a & c & q & n & (l1 & l2 & l3 & l4 & l5 & l6 & l7 & neg & q1 & H1 & H2 & H3 & H4 & -> & H5 & H6 & H7 & H8) & ->).
    apply acct_ok2 in H1. rewrite H1. apply ws_skips in H2. rewrite H2.
    assert (E3 : (if ch l2 =? 45 then (true, next l2) else (false, l2)) = (neg, l3)).
    { destruct neg; [rewrite H3; reflexivity|]. destruct H3 as [-> H3]. destruct (Z.eqb_spec (ch l3) 45); [contradiction|reflexivity]. }
    rewrite E3. apply money_ok in H4. rewrite H4. cbn [obind]. apply ws_skips in H5. rewrite H5.
    assert (E6 : (if ch l5 =? 64 then do (_, l) <- parse_ccy_amt (consume_ws (next l5)); Ok l else Ok l5) = Ok l6).
    { destruct H6 as [(l8 & l9 & c' & q' & E & H6 & H9)|[E N]].
      - rewrite E. cbn [ch next tl]. change (64 =? 64) with true. cbv iota. apply ws_skips in H6. rewrite H6. apply money_ok in H9. rewrite H9. reflexivity.
      - destruct (Z.eqb_spec (ch l5) 64); [contradiction|]. rewrite E. reflexivity. }
    rewrite E6. cbn [obind]. apply note_ok in H7. rewrite H7. apply skip_eol_may in H8. rewrite H8. fold (rename nm a). destruct c; reflexivity.
Qed.
