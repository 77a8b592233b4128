(** * LoaderProofs: what the parts of the loader read. *)
From Verif Require Import Base Utf8 Dec DateProofs2 PriceModel BookModel AccumModel LoaderModel LoaderSpec.
From Coq Require Import ZifyBool ZifyNat Zify.
Ltac Zify.zify_post_hook ::= idtac.

(** ** spans and blanks *)
Lemma span_app f s rest : Forall (fun c => f c = true) s -> (rest = [] \/ f (ch rest) = false) -> span f (s ++ rest) = (s, rest).
Proof.
  intros Hs Hr. induction Hs as [|c s Hc _ IH]; cbn [app].
  - destruct rest as [|c rest]; [reflexivity|]. destruct Hr as [Hr|Hr]; [discriminate|]. cbn [span ch] in *. rewrite Hr. reflexivity.
  - cbn [span]. rewrite Hc, IH. reflexivity.
Qed.
Lemma span_len f l : (length (snd (span f l)) <= length l)%nat.
Proof. induction l as [|c l IH]; [cbn; lia|]. cbn [span]. destruct (f c); [|cbn; lia]. destruct (span f l). cbn [snd length] in *. lia. Qed.
Lemma span_len_lt f l : f (ch l) = true -> f 0 = false -> (length (snd (span f l)) < length l)%nat.
Proof.
  intros H H0. destruct l as [|c l]; [cbn [ch] in H; congruence|]. cbn [ch] in H. cbn [span]. rewrite H. pose proof (span_len f l). destruct (span f l). cbn [snd length] in *. lia.
Qed.
Lemma blanks_ws w : blanks w -> Forall (fun c => ws_rune c = true) w.
Proof. apply Forall_impl. intros c [H N]. unfold ws_rune, eol. rewrite H. destruct (Z.eqb_spec c 10); [congruence|reflexivity]. Qed.
Lemma consume_ws_app w rest : blanks w -> ws_rune (ch rest) = false -> consume_ws (w ++ rest) = rest.
Proof. intros Hw Hr. unfold consume_ws. rewrite span_app; [reflexivity|apply blanks_ws; exact Hw|right; exact Hr]. Qed.
Lemma consume_ws_id l : ws_rune (ch l) = false -> consume_ws l = l.
Proof. intros H. apply (consume_ws_app [] l); [constructor|exact H]. Qed.
Lemma consume_ws_len l : (length (consume_ws l) <= length l)%nat.
Proof. apply span_len. Qed.
Lemma ch_app s rest : s <> [] -> ch (s ++ rest) = hd 0 s.
Proof. destruct s; [congruence|reflexivity]. Qed.
Lemma blank_head w rest : blanks w -> w <> [] -> exists c, ch (w ++ rest) = c /\ is_space c = true /\ c <> 10.
Proof. intros Hw Hn. destruct w as [|c w]; [congruence|]. inversion Hw as [|? ? [H1 H2] ?]; subst. exists c. auto. Qed.

(** ** digits *)
Definition run (v : Z) (ds : runes) : Z := fold_left (fun v c => v * 10 + (c - 48)) ds v.
Lemma run_app v a b : run v (a ++ b) = run (run v a) b.
Proof. apply fold_left_app. Qed.
Lemma digits_value_num s v : digits_value s v -> num_of s = v.
Proof. induction 1 as [|s v c _ IH]; [reflexivity|]. change (num_of (s ++ [c])) with (run 0 (s ++ [c])). rewrite run_app. change (run 0 s) with (num_of s). rewrite IH. cbn [run fold_left]. lia. Qed.
Lemma digits_value_ex s : digits_value s (num_of s).
Proof.
  induction s as [|c s IH] using rev_ind; [constructor|]. assert (E : num_of (s ++ [c]) = 10 * num_of s + (c - 48)).
  { change (num_of (s ++ [c])) with (run 0 (s ++ [c])). rewrite run_app. cbn [run fold_left]. change (run 0 s) with (num_of s). lia. }
  rewrite E. constructor. exact IH.
Qed.
Lemma digit_ok c : 48 <= c <= 57 -> digit c = true.
Proof. unfold digit, between. lia. Qed.
Lemma digits_span s : digits s -> Forall (fun c => digit c = true) s.
Proof. apply Forall_impl. intros c. apply digit_ok. Qed.
Lemma parse_number_ok mn mx s rest : digits s -> (mn <= length s <= mx)%nat -> digit (ch rest) = false -> parse_number mn mx (s ++ rest) = Ok (num_of s, rest).
Proof.
  intros Hs Hl Hr. unfold parse_number. rewrite span_app; [|apply digits_span; exact Hs|right; exact Hr].
  destruct (Nat.ltb_spec (length s) mn); [lia|]. destruct (Nat.ltb_spec mx (length s)); [lia|]. reflexivity.
Qed.
Lemma run_ge ds : forall v, 0 <= v -> digits ds -> v * 10 ^ Z.of_nat (length ds) <= run v ds.
Proof.
  induction ds as [|c ds IH]; intros v Hv Hd; [cbn; lia|]. inversion Hd as [|? ? Hc Hd']; subst. cbn [run fold_left]. change (fold_left _ ds ?x) with (run x ds).
  assert (Hx : 0 <= v * 10 + (c - 48)) by lia. specialize (IH _ Hx Hd'). cbn [length]. rewrite Nat2Z.inj_succ, Z.pow_succ_r by lia.
  assert (0 < 10 ^ Z.of_nat (length ds)) by (apply Z.pow_pos_nonneg; lia). nia.
Qed.
Lemma run_lt ds : forall v, 0 <= v -> digits ds -> run v ds < (v + 1) * 10 ^ Z.of_nat (length ds).
Proof.
  induction ds as [|c ds IH]; intros v Hv Hd; [cbn; lia|]. inversion Hd as [|? ? Hc Hd']; subst. cbn [run fold_left]. change (fold_left _ ds ?x) with (run x ds).
  assert (Hx : 0 <= v * 10 + (c - 48)) by lia. specialize (IH _ Hx Hd'). cbn [length]. rewrite Nat2Z.inj_succ, Z.pow_succ_r by lia.
  assert (0 < 10 ^ Z.of_nat (length ds)) by (apply Z.pow_pos_nonneg; lia). nia.
Qed.
Lemma no_commas_digits s : grouped_digits s -> digits (no_commas s).
Proof.
  intros H. induction H as [|c s Hc _ IH]; [constructor|]. cbn [no_commas filter]. destruct (Z.eqb_spec c 44); cbn [negb]; [exact IH|constructor; [lia|exact IH]].
Qed.
Lemma wrap64_id z : - 2 ^ 63 <= z < 2 ^ 63 -> wrap64 z = z.
Proof. intros H. unfold wrap64. rewrite Z.mod_small by lia. lia. Qed.

(** ** amounts *)
Lemma amt_loop_app isDec s : forall num mag rest, grouped_digits s -> 0 <= num -> 0 < mag -> run num (no_commas s) < 2 ^ 63 ->
  (isDec = true -> mag * 10 ^ Z.of_nat (length (no_commas s)) < 2 ^ 63) ->
  amt_loop isDec num mag (s ++ rest) = amt_loop isDec (run num (no_commas s)) (if isDec then mag * 10 ^ Z.of_nat (length (no_commas s)) else mag) rest.
Proof.
  induction s as [|c s IH]; intros num mag rest Hs Hn Hm Hb Hb2.
  - cbn [app no_commas filter run fold_left length]. destruct isDec; [rewrite Z.mul_1_r|]; reflexivity.
  - inversion Hs as [|? ? Hc Hs']; subst. cbn [app amt_loop]. cbn [no_commas filter] in Hb, Hb2 |- *. fold (no_commas s) in *.
    destruct (Z.eqb_spec c 44) as [->|Nc]; cbn [negb] in Hb, Hb2 |- *.
    + change (digit 44) with false. cbv iota. change (44 =? 46) with false. rewrite andb_false_r. change (44 =? 44) with true. cbv iota. apply IH; assumption.
    + assert (Hcd : 48 <= c <= 57) by lia. rewrite (digit_ok c Hcd). cbn [run fold_left] in Hb |- *. change (fold_left _ (no_commas s) ?x) with (run x (no_commas s)) in *.
      pose proof (no_commas_digits s Hs') as Hd. assert (Hx : 0 <= num * 10 + (c - 48)) by lia. pose proof (run_ge _ _ Hx Hd) as Hge.
      assert (Hp : 0 < 10 ^ Z.of_nat (length (no_commas s))) by (apply Z.pow_pos_nonneg; lia).
      assert (Hx2 : num * 10 + (c - 48) < 2 ^ 63) by nia.
      rewrite (wrap64_id (num * 10)) by lia. rewrite wrap64_id by lia.
      cbn [length] in Hb2 |- *. rewrite Nat2Z.inj_succ, Z.pow_succ_r in * by lia.
      destruct isDec.
      * specialize (Hb2 eq_refl). assert (Hmm : mag * 10 < 2 ^ 63) by nia. rewrite (wrap64_id (mag * 10)) by lia. rewrite IH; [|assumption|lia|lia|exact Hb|intros _; lia].
        f_equal. lia.
      * apply IH; [assumption|lia|lia|exact Hb|discriminate].
Qed.
Definition stops (l : runes) : Prop := digit (ch l) = false /\ ch l <> 44 /\ ch l <> 46.
Lemma amt_loop_stop isDec num mag rest : stops rest -> amt_loop isDec num mag rest = (num, mag, rest).
Proof.
  intros (H1 & H2 & H3). destruct rest as [|c rest]; [reflexivity|]. cbn [ch] in *. cbn [amt_loop]. rewrite H1.
  destruct (Z.eqb_spec c 46); [congruence|]. rewrite andb_false_r. destruct (Z.eqb_spec c 44); [congruence|reflexivity].
Qed.
Lemma pow18 n : (n <= 18)%nat -> 10 ^ Z.of_nat n < 2 ^ 63.
Proof. intros H. apply Z.le_lt_trans with (10 ^ 18); [apply Z.pow_le_mono_r; lia|reflexivity]. Qed.
(** The first rune of a number. *)
Lemma amount_head t q rest : amount_text t q -> exists c, ch (t ++ rest) = c /\ (c = 45 \/ 48 <= c <= 57 \/ c = 46).
Proof.
  intros H. destruct H as [neg ip v Hg _ _ Hn Hh|neg ip fp v q Hg _ _ _ Hh _]; destruct neg; cbn [app ch]; try (eexists; split; [reflexivity|auto]; fail).
  - destruct ip as [|c ip]; [congruence|]. inversion Hg; subst. cbn [hd app ch] in *. exists c. split; [reflexivity|lia].
  - destruct ip as [|c ip]; cbn [app ch]; [exists 46; auto|]. inversion Hg; subst. cbn [hd] in *. exists c. split; [reflexivity|lia].
Qed.
Lemma not_space c : (c = 45 \/ 48 <= c <= 57 \/ c = 46 \/ c = 34 \/ c = 59 \/ c = 64 \/ c = 0) -> is_space c = false.
Proof. unfold is_space, between. lia. Qed.
Lemma ws_not c : is_space c = false -> ws_rune c = false.
Proof. unfold ws_rune. intros ->. reflexivity. Qed.
Lemma new_rat_div a b : b <> 0 -> new_rat a b = Ok (qz a / qz b)%Qc.
Proof. intros H. unfold new_rat. destruct (Z.eqb_spec b 0); [contradiction|reflexivity]. Qed.
Lemma qz_opp a : (qz (- a) = - qz a)%Qc.
Proof. assert (H : (qz (- a) + qz a = 0)%Qc) by (rewrite <- qz_add; rewrite Z.add_opp_diag_l; reflexivity). rewrite <- (Qcplus_0_r (- qz a)), <- H. ring. Qed.
Lemma parse_amt_ok w t q rest : blanks w -> amount_text t q -> stops rest -> parse_amt (w ++ t ++ rest) = Ok (q, rest).
Proof.
  intros Hw Ht Hr. unfold parse_amt.
  assert (Hc : consume_ws (w ++ t ++ rest) = t ++ rest).
  { apply consume_ws_app; [exact Hw|]. destruct (amount_head t q rest Ht) as (c & -> & Hc). apply ws_not, not_space. tauto. }
  rewrite Hc. clear Hc Hw w. destruct Ht as [neg ip v Hg Hv Hl Hn Hh|neg ip fp v q Hg Hg2 Hv Hl Hh Hq].
  - assert (Hloop : amt_loop false 0 1 (ip ++ rest) = (v, 1, rest)).
    { pose proof (no_commas_digits _ Hg) as Hd. rewrite amt_loop_app; [|exact Hg|lia|lia| |discriminate].
      - change (run 0 (no_commas ip)) with (num_of (no_commas ip)). rewrite (digits_value_num _ _ Hv). apply amt_loop_stop. exact Hr.
      - eapply Z.lt_trans; [apply run_lt; [lia|exact Hd]|]. rewrite Z.add_0_l, Z.mul_1_l. apply pow18. exact Hl. }
    assert (Hvb : 0 <= v < 2 ^ 63).
    { rewrite <- (digits_value_num _ _ Hv). change (num_of ?x) with (run 0 x). pose proof (no_commas_digits _ Hg) as Hd. pose proof (run_ge _ 0 ltac:(lia) Hd). pose proof (run_lt _ 0 ltac:(lia) Hd). pose proof (pow18 _ Hl). lia. }
    destruct neg.
    + cbn [app ch next tl]. rewrite Z.eqb_refl. rewrite Hloop. rewrite wrap64_id by lia. rewrite new_rat_div by lia. cbn [obind]. f_equal. f_equal.
      replace (v * -1) with (- v) by lia. rewrite qz_opp. change (qz 1) with 1%Qc. field. discriminate.
    + cbn [app]. assert (E : ch (ip ++ rest) =? 45 = false).
      { destruct ip as [|c ip]; [congruence|]. inversion Hg; subst. cbn [hd app ch] in *. lia. }
      rewrite E, Hloop. rewrite new_rat_div by lia. cbn [obind]. f_equal. f_equal. change (qz 1) with 1%Qc. field. discriminate.
  - assert (Hd1 := no_commas_digits _ Hg). assert (Hd2 := no_commas_digits _ Hg2). rewrite app_length in Hl.
    assert (Hnn : forall x, num_of x = run 0 x) by reflexivity. pose proof (digits_value_num _ _ Hv) as Ev. rewrite Hnn, run_app in Ev.
    assert (Hr1 : 0 <= run 0 (no_commas ip)) by (pose proof (run_ge _ 0 ltac:(lia) Hd1); lia).
    assert (Hvb : 0 <= v < 10 ^ Z.of_nat (length (no_commas ip) + length (no_commas fp))).
    { rewrite <- Ev. split; [pose proof (run_ge _ _ Hr1 Hd2); assert (0 < 10 ^ Z.of_nat (length (no_commas fp))) by (apply Z.pow_pos_nonneg; lia); nia|].
      eapply Z.lt_le_trans; [apply run_lt; [exact Hr1|exact Hd2]|]. rewrite Nat2Z.inj_add, Z.pow_add_r by lia. apply Z.mul_le_mono_nonneg_r; [apply Z.pow_nonneg; lia|].
      pose proof (run_lt _ 0 ltac:(lia) Hd1). lia. }
    pose proof (pow18 _ Hl) as Hp.
    assert (Hloop : amt_loop false 0 1 (ip ++ [46] ++ fp ++ rest) = (v, 10 ^ Z.of_nat (length (no_commas fp)), rest)).
    { rewrite amt_loop_app; [|exact Hg|lia|lia| |discriminate].
      - cbn [app amt_loop]. change (digit 46) with false. cbv iota. change (negb false && (46 =? 46)) with true. cbv iota. rewrite amt_loop_app; [|exact Hg2|exact Hr1|lia| |].
        + rewrite Ev, Z.mul_1_l. apply amt_loop_stop. exact Hr.
        + rewrite Ev. lia.
        + intros _. rewrite Z.mul_1_l. apply pow18. lia.
      - eapply Z.lt_trans; [apply run_lt; [lia|exact Hd1]|]. rewrite Z.add_0_l, Z.mul_1_l. apply pow18. lia. }
    assert (Hm : 10 ^ Z.of_nat (length (no_commas fp)) <> 0) by (apply Z.pow_nonzero; lia).
    assert (Hqq : forall z, (q * qz (10 ^ Z.of_nat (length (no_commas fp))) = qz z)%Qc -> (qz z / qz (10 ^ Z.of_nat (length (no_commas fp))) = q)%Qc).
    { intros z <-. field. apply qz_nz. exact Hm. }
    destruct neg.
    + rewrite <- !app_assoc. cbn [app ch next tl]. rewrite Z.eqb_refl. change (46 :: fp ++ rest) with ([46] ++ fp ++ rest). rewrite Hloop. rewrite wrap64_id by lia. rewrite new_rat_div by exact Hm. cbn [obind]. f_equal. f_equal.
      apply Hqq. rewrite Hq. replace (v * -1) with (- v) by lia. symmetry. apply qz_opp.
    + rewrite app_nil_l, <- !app_assoc. assert (E : ch (ip ++ [46] ++ fp ++ rest) =? 45 = false).
      { destruct ip as [|c ip]; [reflexivity|]. inversion Hg; subst. cbn [hd app ch] in *. lia. }
      rewrite E, Hloop. rewrite new_rat_div by exact Hm. cbn [obind]. f_equal. f_equal. apply Hqq. exact Hq.
Qed.
