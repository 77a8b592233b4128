(** * LoaderProps: C44-C48 and C51. *)
From Verif Require Import Base Utf8 Dec DateProofs2 PriceModel BookModel BookSpec BookProofs BuilderProofs OpsModel BookProps AccumModel LoaderModel LoaderSpec LoaderProofs LoaderProofs2 LoaderProofs3 LoaderProofs4 LoaderProofs5.
From Coq Require Import ZifyBool ZifyNat Zify.
Ltac Zify.zify_post_hook ::= idtac.

(** ** A Unicode table for the examples: ASCII only. *)
Definition x_letter (c : Z) : bool := between 97 c 122 || between 65 c 90.
Definition x_order (m : list (str * Qc)) : list str := rev (akeys m).
Lemma x_unicode : unicode_ok x_letter digit upc.
Proof.
  split; intros c H.
  - split; [|reflexivity]. revert H. unfold ascii_letter, x_letter, between. lia.
  - revert H. unfold is_space, x_letter, digit, between. lia.
Qed.
Lemma x_order_ok m : NoDup (akeys m) -> Permutation (x_order m) (akeys m).
Proof. intros _. apply Permutation_sym, Permutation_rev. Qed.
Definition x_join (_ name : str) : str := name.
Definition x_fs (files : list (str * str)) (f : str) : option str := aget str_eqb f files.
Definition x_load (files : list (str * str)) (f : str) : outcome book :=
  load_book x_letter digit upc x_order (x_fs files) x_join xsort 5 f.
Definition nl : str := [10].

(** ** C44: an amount left out balances the transaction. After any calls [before], a line with an account and no amount
    adds one posting for every open currency, and then every currency of the transaction sums to zero. *)
Theorem C44_left_out_amount_balances is_letter is_udigit to_upper ord al before b w1 a n note rest :
  (forall m, NoDup (akeys m) -> Permutation (ord m) (akeys m)) ->
  bsteps new_builder before = Ok b ->
  blanks w1 -> w1 <> [] -> acct_ok a -> a <> [] -> note_text n note ->
  exists ps b', balancing before (rename al (encode a)) note ps /\
    step is_letter is_udigit to_upper ord b al (w1 ++ a ++ n ++ [10] ++ rest) = Ok (Go b' al rest) /\
    bsteps new_builder (before ++ ps) = Ok b' /\ (forall c, open_sum (before ++ ps) c = 0%Qc).
Proof.
  intros Hord E Hw1 Hn1 Ha Hna Hn.
  assert (Hlt : line_text (rename al) (w1 ++ a ++ n ++ [10]) [Rest (rename al (encode a)) note]) by (constructor; assumption).
  destruct (step_line is_letter is_udigit to_upper ord Hord al _ _ rest before b Hlt E) as (_ & cs & Hm & Hs).
  inversion Hm as [| |? ? ? ? ps cs' Hb Hm']; subst. inversion Hm'; subst. rewrite app_nil_r in *.
  rewrite <- !app_assoc in Hs. destruct Hb as (cvs & -> & Hnd & Hcv).
  assert (Hrun : forall cvs b, exists b', bsteps b (map (fun '(c, v) => CPost (rename al (encode a)) c v note) cvs) = Ok b').
  { clear. induction cvs as [|[c v] cvs IH]; intros b; [exists b; reflexivity|]. cbn [map bsteps bstep obind]. apply IH. }
  destruct (Hrun cvs b) as (b' & Eb). rewrite Eb in Hs. cbn [obind] in Hs.
  exists (map (fun '(c, v) => CPost (rename al (encode a)) c v note) cvs), b'. split; [exists cvs; auto|]. split; [exact Hs|].
  split; [rewrite bsteps_app, E; exact Eb|].
  intros c. unfold open_sum, segments.
  assert (Hseg : forall cs cur, last (segments_from cur (cs ++ map (fun '(c, v) => CPost (rename al (encode a)) c v note) cvs)) [] = last (segments_from cur cs) [] ++ cvs).
  { clear. assert (Hne : forall cs sg, segments_from sg cs <> []). { induction cs as [|[] cs IH]; intros sg; cbn [segments_from]; try discriminate; apply IH. }
    induction cs as [|[] cs IH]; intros cur; cbn [app segments_from].
    - revert cur. induction cvs as [|[c v] cvs IH]; intros cur; cbn [map segments_from last]; [rewrite app_nil_r; reflexivity|]. rewrite IH. cbn [segments_from last]. rewrite <- app_assoc. reflexivity.
    - specialize (IH []). cbn [last]. destruct (segments_from [] (cs ++ _)) eqn:Es; [apply Hne in Es; contradiction|]. destruct (segments_from [] cs) eqn:Es'; [apply Hne in Es'; contradiction|]. exact IH.
    - apply IH.
    - apply IH. }
  rewrite Hseg, seg_sum_app. fold (segments before). change (seg_sum c (last (segments before) [])) with (open_sum before c).
  assert (Hc : forall x, In (c, x) cvs -> (x <> 0 /\ x = - open_sum before c)%Qc) by (intros x; apply Hcv).
  assert (Hc2 : (- open_sum before c <> 0)%Qc -> In (c, (- open_sum before c)%Qc) cvs) by (intros Hx; apply Hcv; auto).
  clear - Hnd Hc Hc2. set (q := open_sum before c) in *. clearbody q.
  assert (Hs : seg_sum c cvs = if qc_is0 q then 0%Qc else (- q)%Qc).
  { destruct (qc_is0 q) eqn:Eq.
    - apply qc_is0_eq in Eq. subst q. clear Hc2 Hnd. unfold seg_sum. induction cvs as [|[k v] cvs IH]; [reflexivity|]. cbn [filter]. destruct (str_eqb_spec k c) as [->|_].
      + destruct (Hc v (or_introl eq_refl)) as [N E]. exfalso. apply N. rewrite E. reflexivity.
      + apply IH. intros x Hx. apply Hc. right. exact Hx.
    - apply qc_is0_neq in Eq. assert (Hin : In (c, (- q)%Qc) cvs). { apply Hc2. intros Z. apply Eq. rewrite <- (Qcopp_involutive q), Z. reflexivity. }
      clear Hc Hc2. unfold seg_sum. induction cvs as [|[k v] cvs IH]; [destruct Hin|]. cbn [map fst] in Hnd. inversion Hnd as [|? ? Hk Hnd']; subst. cbn [filter].
      assert (Hnone : forall l : list (str * Qc), ~ In c (map fst l) -> filter (fun '(c', _) => str_eqb c' c) l = []).
      { clear. induction l as [|[y z] l IH]; [reflexivity|]. cbn [map fst In filter]. intros H. destruct (str_eqb_spec y c) as [->|_]; [exfalso; apply H; left; reflexivity|]. apply IH. intros Hx. apply H. right. exact Hx. }
      destruct (str_eqb_spec k c) as [->|Nk].
      + rewrite Hnone by exact Hk. cbn [map snd]. rewrite qsum_cons. destruct Hin as [Hin|Hin]; [injection Hin as <-; cbn [qsum fold_right]; ring|].
        exfalso. apply Hk. apply in_map_iff. exists (c, (- q)%Qc). auto.
      + apply IH; [exact Hnd'|]. destruct Hin as [Hin|Hin]; [congruence|exact Hin]. }
  rewrite Hs. destruct (qc_is0 q) eqn:Eq; [apply qc_is0_eq in Eq; rewrite Eq|]; ring.
Qed.
Print Assumptions C44_left_out_amount_balances.
(** The postings are determined up to their order. *)
Theorem C44_balancing_unique before a n ps ps' : balancing before a n ps -> balancing before a n ps' -> Permutation ps ps'.
Proof.
  intros (c1 & -> & N1 & H1) (c2 & -> & N2 & H2). apply Permutation_map. apply NoDup_Permutation; [apply NoDup_map_inv with (f := fst); exact N1|apply NoDup_map_inv with (f := fst); exact N2|].
  intros [c v]. rewrite H1, H2. reflexivity.
Qed.
Print Assumptions C44_balancing_unique.
Definition ex_rest : str := bs "2024/01/02 Shop" ++ nl ++ bs " A  10 GBP" ++ nl ++ bs " B  $-3.50" ++ nl ++ bs " C" ++ nl.
Example C44_nonvacuous : exists bk, x_load [(bs "m", ex_rest)] (bs "m") = Ok bk /\
  map (fun p => (p_acct p, p_ccy p, this (p_val p))) (bk_post bk) =
    [(bs "A", bs "GBP", 10 # 1); (bs "B", bs "$", -7 # 2); (bs "C", bs "$", 7 # 2); (bs "C", bs "GBP", -10 # 1)]%Q.
Proof. eexists. split; [vm_compute; reflexivity|]. vm_compute. reflexivity. Qed.

(** ** C45: amounts are read exactly: in every line, at most 18 digits. *)
Theorem C45_amounts_read_exactly_partial is_letter is_udigit to_upper ord al b w1 a w2 (neg : bool) t q w c ccy n note rest :
  blanks w1 -> w1 <> [] -> acct_ok a -> a <> [] -> blanks w2 -> w2 <> [] ->
  amount_text t q -> ccy_text c ccy -> blanks w -> (w <> [] \/ hd 0 c <> 44) -> note_text n note ->
  step is_letter is_udigit to_upper ord b al (w1 ++ a ++ w2 ++ (t ++ w ++ c) ++ n ++ [10] ++ rest) =
    Ok (Go (add_posting b (rename al (encode a)) ccy q note) al rest) /\
  step is_letter is_udigit to_upper ord b al (w1 ++ a ++ w2 ++ (c ++ w ++ t) ++ n ++ [10] ++ rest) =
    Ok (Go (add_posting b (rename al (encode a)) ccy q note) al rest).
Proof.
  intros Hw1 Hn1 Ha Hna Hw2 Hn2 Ht Hc Hw Hsep Hn.
  assert (H : forall m, money_text m ccy q -> step is_letter is_udigit to_upper ord b al (w1 ++ a ++ w2 ++ m ++ n ++ [10] ++ rest) =
    Ok (Go (add_posting b (rename al (encode a)) ccy q note) al rest)).
  { intros m Hm. unfold step.
    destruct a as [|x a]; [congruence|]. assert (Hx : acct_rune x = true) by (inversion Ha; assumption). pose proof (acct_rune_head x Hx) as (_ & _ & N1 & N2 & N3 & Hsp).
    rewrite consume_ws_app by (try exact Hw1; apply ws_not; exact Hsp). rewrite has_ws_true by assumption. cbn [negb]. cbv iota.
    assert (E1 : forall y, ((ch ((x :: a) ++ y) =? 59) || (ch ((x :: a) ++ y) =? eol) || (ch ((x :: a) ++ y) =? eof)) = false) by (intros y; cbn [app ch]; unfold eol, eof; lia).
    rewrite E1. pose proof (parse_posting_ok ord al b [] (x :: a) w2 false m ccy q [] n note rest ltac:(constructor) Ha Hna Hw2 Hn2 Hm cost_none Hn) as P.
    rewrite !app_nil_l in P. change ([10] ++ rest) with (10 :: rest). rewrite P. reflexivity. }
  split; apply H; constructor; assumption.
Qed.
Print Assumptions C45_amounts_read_exactly_partial.
Example C45_nonvacuous : amount_text (bs "-1,234.50") (Q2Qc (-12345 # 10)) /\ ccy_text (bs "GBP") (bs "GBP").
Proof.
  split.
  - apply (amt_dec true (bs "1,234") (bs "50") 123450).
    + repeat (constructor; [cbn; lia|]). constructor.
    + repeat (constructor; [cbn; lia|]). constructor.
    + apply (digits_value_ex (bs "123450")).
    + cbn. lia.
    + cbn. lia.
    + apply Qc_is_canon. reflexivity.
  - apply (ccy_bare (bs "GBP")); [repeat constructor|discriminate|discriminate].
Qed.
(** More digits wrap around silently; 64 decimals are rejected. *)
Theorem C45_long_amounts_refuted :
  (exists bk, x_load [(bs "m", bs "2024/01/02 S" ++ nl ++ bs " A  10000000000000000000 X" ++ nl ++ bs " B" ++ nl)] (bs "m") = Ok bk /\
     map (fun p => (p_acct p, this (p_val p))) (bk_post bk) = [(bs "A", -8446744073709551616 # 1); (bs "B", 8446744073709551616 # 1)]%Q) /\
  (exists bk, x_load [(bs "m", bs "2024/01/02 S" ++ nl ++ bs " A  2.0000000000000000000 X" ++ nl ++ bs " B" ++ nl)] (bs "m") = Ok bk /\
     forallb (fun p => negb (qc_eqb (p_val p) (qz 2)) && negb (qc_eqb (p_val p) (qz (-2)))) (bk_post bk) = true) /\
  x_load [(bs "m", bs "2024/01/02 S" ++ nl ++ bs " A  1." ++ repeat 48 64 ++ bs " X" ++ nl ++ bs " B" ++ nl)] (bs "m") = Error.
Proof.
  split; [eexists; split; [vm_compute; reflexivity|vm_compute; reflexivity]|]. split; [eexists; split; [vm_compute; reflexivity|vm_compute; reflexivity]|]. vm_compute. reflexivity.
Qed.
Print Assumptions C45_long_amounts_refuted.

(** ** C46: loading terminates when the files do not include one another in a circle: then a nesting bound exists, and
    beyond it the bound does not matter. *)
Theorem C46_loading_terminates_partial is_letter is_udigit to_upper ord fs resolve srt (rank : str -> nat) :
  (forall f g, names to_upper fs resolve f g -> (rank g < rank f)%nat) ->
  forall f depth depth', (rank f < depth)%nat -> (rank f < depth')%nat ->
    load_book is_letter is_udigit to_upper ord fs resolve srt depth f <> Diverge /\
    load_book is_letter is_udigit to_upper ord fs resolve srt depth f = load_book is_letter is_udigit to_upper ord fs resolve srt depth' f.
Proof.
  intros Hr f d d' H1 H2. unfold load_book. split.
  - pose proof (parse_file_fine is_letter is_udigit to_upper ord fs resolve rank Hr d f new_builder [] H1) as H.
    destruct (parse_file is_letter is_udigit to_upper ord fs resolve d new_builder f []); try discriminate; [|contradiction].
    unfold build, check_and_clear. destruct (forallb _ _); discriminate.
  - rewrite (parse_file_same is_letter is_udigit to_upper ord fs resolve rank Hr d d' f new_builder [] H1 H2). reflexivity.
Qed.
Print Assumptions C46_loading_terminates_partial.
(** A file without the letter I includes nothing, so it needs no bound at all. *)
Lemma no_include to_upper fs resolve f bytes : fs f = Some bytes -> Forall (fun c => to_upper c <> 73) (decode bytes) -> forall g, ~ names to_upper fs resolve f g.
Proof.
  intros Hf Hi g (by' & l & name & Hf' & (p & Hp) & (w & v & s & post & -> & Hw & _) & _). rewrite Hf in Hf'. injection Hf' as <-. destruct w as [|c w]; [discriminate|].
  rewrite Hp in Hi. rewrite Forall_app in Hi. destruct Hi as [_ Hi]. cbn [app] in Hi. inversion Hi as [|? ? Hc _]; subst.
  cbn [map encode concat] in Hw. assert (E : exists t, enc (to_upper c) ++ t = bs "INCLUDE") by (eexists; exact Hw). destruct E as (t & E). clear Hw.
  change (bs "INCLUDE") with (73 :: bs "NCLUDE") in E. unfold enc in E.
  destruct (negb (scalarb (to_upper c))); [discriminate|].
  destruct (to_upper c <? 128) eqn:B1; [|destruct (to_upper c <? 2048) eqn:B2; [|destruct (to_upper c <? 65536) eqn:B3]]; cbn [app] in E; assert (E' := f_equal (hd 0) E); cbn [hd] in E'; clear E.
  - lia.
  - pose proof (Z.div_le_mono 128 (to_upper c) 64 ltac:(lia) ltac:(lia)). change (128 / 64) with 2 in H. lia.
  - pose proof (Z.div_le_mono 2048 (to_upper c) 4096 ltac:(lia) ltac:(lia)). change (2048 / 4096) with 0 in H. lia.
  - pose proof (Z.div_le_mono 65536 (to_upper c) 262144 ltac:(lia) ltac:(lia)). change (65536 / 262144) with 0 in H. lia.
Qed.
Definition ex_files : list (str * str) := [(bs "m", bs "include s" ++ nl ++ ex_rest); (bs "s", ex_rest)].
Example C46_nonvacuous : exists rank : str -> nat,
  (forall f g, names upc (x_fs ex_files) (fun _ _ => bs "s") f g -> (rank g < rank f)%nat) /\ rank (bs "m") = 1%nat /\
  exists bk, load_book x_letter digit upc x_order (x_fs ex_files) (fun _ _ => bs "s") xsort 2 (bs "m") = Ok bk /\ length (bk_trans bk) = 2%nat.
Proof.
  exists (fun f => if str_eqb f (bs "m") then 1%nat else 0%nat). split; [|split; [reflexivity|]].
  - intros f g Hn. destruct (str_eqb_spec f (bs "m")) as [->|Nf].
    + destruct Hn as (? & ? & ? & _ & _ & _ & ->). cbn. lia.
    + destruct (str_eqb_spec f (bs "s")) as [->|Ns].
      * exfalso. revert Hn. apply (no_include upc _ _ (bs "s") ex_rest); [reflexivity|].
        assert (Hb : forallb (fun c => negb (upc c =? 73)) (decode ex_rest) = true) by (vm_compute; reflexivity).
        rewrite forallb_forall in Hb. rewrite Forall_forall. intros c Hc. specialize (Hb c Hc). lia.
      * exfalso. destruct Hn as (bytes & ? & ? & Hb & _). unfold x_fs, ex_files in Hb. cbn [aget] in Hb.
        destruct (str_eqb_spec (bs "m") f) as [E|_]; [apply Nf; symmetry; exact E|]. destruct (str_eqb_spec (bs "s") f) as [E|_]; [apply Ns; symmetry; exact E|]. discriminate Hb.
  - eexists. split; [vm_compute; reflexivity|vm_compute; reflexivity].
Qed.
(** A file that includes itself is never finished, however deep the nesting. *)
Theorem C46_circular_include_refuted depth srt :
  load_book x_letter digit upc x_order (x_fs [(bs "m", bs "include m" ++ nl)]) x_join srt depth (bs "m") = Diverge.
Proof.
  unfold load_book. assert (H : forall b, parse_file x_letter digit upc x_order (x_fs [(bs "m", bs "include m" ++ nl)]) x_join depth b (bs "m") [] = FDiverge).
  { induction depth as [|dp IH]; intros b; [reflexivity|]. cbn [parse_file]. change (x_fs [(bs "m", bs "include m" ++ nl)] (bs "m")) with (Some (bs "include m" ++ nl)). cbv iota beta zeta.
    change (decode (bs "include m" ++ nl)) with (bs "include m" ++ nl). change (S (length (bs "include m" ++ nl))) with (S 10).
    assert (Hs : step x_letter digit upc x_order b [] (bs "include m" ++ nl) = Ok (Include (bs "m") b [] nl)) by reflexivity.
    cbn [file_loop]. change (ch (bs "include m" ++ nl) =? eof) with false. cbv iota. rewrite Hs. change (x_join (bs "m") (bs "m")) with (bs "m"). rewrite IH. reflexivity. }
  rewrite H. reflexivity.
Qed.
Print Assumptions C46_circular_include_refuted.

(** ** C47: a loaded ledger is a balanced book. *)
Theorem C47_loaded_book_is_balanced is_letter is_udigit to_upper ord fs resolve srt depth f bk :
  sort_ok is_less srt -> load_book is_letter is_udigit to_upper ord fs resolve srt depth f = Ok bk ->
  balanced (bk_post bk) /\ book_ok bk /\ canonical (bk_post bk) /\ running (bk_post bk) /\ exists cs, build_calls srt cs = Ok bk.
Proof.
  intros Hsrt H. unfold load_book in H. destruct (parse_file is_letter is_udigit to_upper ord fs resolve depth new_builder f []) as [b| | |] eqn:E; try discriminate.
  apply parse_file_calls in E as (cs & E). assert (Hb : build_calls srt cs = Ok bk) by (unfold build_calls; rewrite E; exact H).
  destruct (build_calls_cases srt Hsrt cs) as [(_ & bk' & Eb & Hok & Hcan & Hrun & _)|[_ Eb]]; rewrite Hb in Eb; [|discriminate]. injection Eb as <-.
  split; [apply Hok|]. split; [exact Hok|]. split; [exact Hcan|]. split; [exact Hrun|]. exists cs. exact Hb.
Qed.
Print Assumptions C47_loaded_book_is_balanced.
(** The only crashes: a file that does not exist, or the last transaction does not balance. *)
Theorem C47_crashes_partial is_letter is_udigit to_upper ord fs resolve srt depth f :
  load_book is_letter is_udigit to_upper ord fs resolve srt depth f = Panic ->
  (exists g, reaches to_upper fs resolve f g /\ fs g = None) \/
  (exists cs b c, parse_file is_letter is_udigit to_upper ord fs resolve depth new_builder f [] = FOk b /\
     bsteps new_builder cs = Ok b /\ open_sum cs c <> 0%Qc).
Proof.
  unfold load_book. destruct (parse_file is_letter is_udigit to_upper ord fs resolve depth new_builder f []) as [b| | |] eqn:E; try discriminate.
  - intros H. right. pose proof E as E'. apply parse_file_calls in E as (cs & E). destruct (after_ok cs b E) as (used & H1 & H2 & _).
    unfold build, check_and_clear in H. destruct (forallb (fun '(_, v) => qc_is0 v) (bu_amts b)) eqn:Ef; [discriminate|].
    assert (Hx : exists c v, In (c, v) (bu_amts b) /\ v <> 0%Qc).
    { clear - Ef. induction (bu_amts b) as [|[c v] m IH]; [discriminate|]. cbn [forallb] in Ef. destruct (qc_is0 v) eqn:Ev.
      - destruct (IH Ef) as (c' & v' & Hin & Hv). exists c', v'. split; [right; exact Hin|exact Hv].
      - exists c, v. split; [left; reflexivity|apply qc_is0_neq; exact Ev]. }
    destruct Hx as (c & v & Hin & Hv). exists cs, b, c. split; [reflexivity|]. split; [exact E|]. unfold open_sum. rewrite <- H2. unfold getq.
    apply (aget_Some_iff _ str_eqb_eq) in Hin; [|exact H1]. rewrite Hin. exact Hv.
  - intros _. left. eapply parse_file_exit. exact E.
Qed.
Print Assumptions C47_crashes_partial.
Definition ex_open : str := bs "2024/01/02 Shop" ++ nl ++ bs " A  10 GBP" ++ nl ++ bs " B  -9 GBP" ++ nl.
(** An unbalanced last transaction crashes the program; the same transaction anywhere else is an error. *)
Theorem C47_unbalanced_last_transaction_refuted :
  x_load [(bs "m", ex_open)] (bs "m") = Panic /\ x_load [(bs "m", ex_open ++ bs "2024/01/03 S" ++ nl)] (bs "m") = Error /\
  x_load [(bs "m", bs "include x" ++ nl)] (bs "m") = Panic.
Proof. vm_compute. repeat split; reflexivity. Qed.
Print Assumptions C47_unbalanced_last_transaction_refuted.
Example C47_nonvacuous : exists bk, x_load [(bs "m", ex_rest)] (bs "m") = Ok bk /\ bk_post bk <> [].
Proof. eexists. split; [vm_compute; reflexivity|discriminate]. Qed.

(** ** C48: for texts in the grammar of LoaderSpec, across any number of included files, every line is passed on. *)
Theorem C48_every_line_passed_on_partial is_letter is_udigit to_upper ord fs resolve srt f t es :
  unicode_ok is_letter is_udigit to_upper -> (forall m, NoDup (akeys m) -> Permutation (ord m) (akeys m)) ->
  fs f = Some (encode t) -> Forall scalar t -> ledger_text fs resolve f [] t es ->
  exists cs bound, means [] es cs /\ forall depth, (bound <= depth)%nat ->
    load_book is_letter is_udigit to_upper ord fs resolve srt depth f =
      match bsteps new_builder cs with Ok b => build srt b | _ => Error end.
Proof.
  intros Hu Hord Hf Hsc Ht. destruct (ledger_run is_letter is_udigit to_upper Hu ord fs resolve Hord f [] t es Ht [] new_builder eq_refl) as (cs & D & Hm & Hrun).
  exists cs, (S D). split; [exact Hm|]. intros depth Hd. destruct depth as [|depth]; [lia|]. unfold load_book. cbn [parse_file]. rewrite Hf, decode_encode by exact Hsc.
  rewrite Hrun by lia. destruct (after_total [] new_builder cs eq_refl) as [(b & ->)| ->]; reflexivity.
Qed.
Print Assumptions C48_every_line_passed_on_partial.
(** A currency missing behind the amount, and a NUL in the file: something else is loaded, without an error. *)
Theorem C48_silently_changed_refuted :
  (exists bk, x_load [(bs "m", bs "2024/01/01 S" ++ nl ++ bs "  A  10 GBP" ++ nl ++ bs "  B  -7" ++ nl)] (bs "m") = Ok bk /\
     map (fun p => (p_acct p, p_ccy p, this (p_val p))) (bk_post bk) = [(bs "A", bs "GBP", 10 # 1); (bs "B", bs "GBP", -10 # 1)]%Q) /\
  (exists bk, x_load [(bs "m", bs "2024/01/01 S" ++ nl ++ bs "  A  10 GBP" ++ nl ++ bs "  B" ++ nl ++ [0] ++ nl ++ bs "2024/01/02 T" ++ nl ++ bs "  A  10 GBP" ++ nl ++ bs "  B" ++ nl)] (bs "m") = Ok bk /\
     length (bk_trans bk) = 1%nat) /\
  (exists bk, x_load [(bs "m", bs "2024/01/01 S" ++ nl ++ bs "  A  10 GBP @ 2 USD" ++ nl ++ bs "  B" ++ nl)] (bs "m") = Ok bk /\ bk_prices bk = []).
Proof.
  repeat split; eexists; (split; [vm_compute; reflexivity|vm_compute; reflexivity]).
Qed.
Print Assumptions C48_silently_changed_refuted.

(** A ledger with an include, an alias, a price, notes and a left-out amount is in the grammar. *)
Definition ex_sub : runes := bs "2024/01/01 * "" Shop "" ; first" ++ nl ++ bs "  F  1,250.50 GBP ; note" ++ nl ++ bs "  Assets" ++ nl.
Definition ex_main : runes := bs "alias F = Expense:Food" ++ nl ++ bs "include ""s.dat""" ++ nl ++ bs "P 2024/01/01 00:00:00 USD $2" ++ nl ++ bs "; end" ++ nl.
Definition ex_fs : str -> option str := x_fs [(bs "m", ex_main); (bs "s.dat", ex_sub)].
Definition ex_entries : list entry :=
  [Call (CTrans 20240101 (bs "Shop") (bs "first")); Call (CPost (bs "Expense:Food") (bs "GBP") (Q2Qc (2501 # 2)) (bs "note")); Rest (bs "Assets") [];
   Call (CPrice 20240101 (bs "USD") (bs "$") (qz 2))].
Ltac fa := repeat (constructor; [cbn; unfold ascii_letter, scalar; first [reflexivity|split; [reflexivity|discriminate]|lia|repeat split; first [discriminate|reflexivity]]|]); constructor.
Ltac blank := repeat (constructor; [split; [reflexivity|discriminate]|]); constructor.
Lemma ex_date : date_text (bs "2024/01/01") 20240101.
Proof. apply (date_ymd (bs "2024") (bs "01") (bs "01") 2024 1 1); try (cbn; lia); first [apply (digits_value_ex (bs "2024"))|apply (digits_value_ex (bs "01"))|fa]. Qed.
Lemma ex_ledger : ledger_text ex_fs x_join (bs "m") [] ex_main ex_entries.
Proof.
  unfold ex_main. apply (ledger_alias ex_fs x_join (bs "m") [] (bs "alias") [32] (bs "F") [32] [32] (bs "Expense:Food") [] []
    (bs "include ""s.dat""" ++ nl ++ bs "P 2024/01/01 00:00:00 USD $2" ++ nl ++ bs "; end" ++ nl) ex_entries).
  1:{ split; [fa|reflexivity]. } 1:blank. 1:discriminate. 1:fa. 1:discriminate. 1:blank. 1:blank. 1:fa. 1:discriminate. 1:constructor. 1:(right; reflexivity). 1:constructor.
  apply (ledger_include ex_fs x_join (bs "m") _ (bs "include") [32] (bs """s.dat""") (bs "s.dat") ex_sub
    (bs "P 2024/01/01 00:00:00 USD $2" ++ nl ++ bs "; end" ++ nl)
    [Call (CTrans 20240101 (bs "Shop") (bs "first")); Call (CPost (bs "Expense:Food") (bs "GBP") (Q2Qc (2501 # 2)) (bs "note")); Rest (bs "Assets") []]
    [Call (CPrice 20240101 (bs "USD") (bs "$") (qz 2))]).
  1:{ split; [fa|reflexivity]. } 1:blank. 1:discriminate. 1:{ apply (name_quoted (bs "s.dat")). fa. } 1:reflexivity. 1:{ apply ascii_scalar. fa. }
  - set (al := aset str_eqb _ _ _).
    apply (ledger_cons _ _ _ al (bs "2024/01/01 * "" Shop "" ; first" ++ nl) [Call (CTrans 20240101 (bs "Shop") (bs "first"))]
      (bs "  F  1,250.50 GBP ; note" ++ nl ++ bs "  Assets" ++ nl)).
    { apply (line_trans _ (bs "2024/01/01") 20240101 [32] (bs "* ") (bs """ Shop """) (bs "Shop") (bs " ; first") (bs "first")).
      - exact ex_date.
      - blank.
      - discriminate.
      - right. exists [32]. split; [reflexivity|blank].
      - apply (payee_quoted [32] (bs "Shop") [32]); [blank|blank|fa|reflexivity|reflexivity].
      - apply (note_some [32] [32] (bs "first")); [blank|blank|fa|reflexivity]. }
    apply (ledger_cons _ _ _ al (bs "  F  1,250.50 GBP ; note" ++ nl) [Call (CPost (bs "Expense:Food") (bs "GBP") (Q2Qc (2501 # 2)) (bs "note"))] (bs "  Assets" ++ nl)).
    { apply (line_post (rename al) (bs "  ") (bs "F") (bs "  ") false (bs "1,250.50 GBP") (bs "GBP") (Q2Qc (2501 # 2)) [] (bs " ; note") (bs "note")).
      1:blank. 1:discriminate. 1:fa. 1:discriminate. 1:blank. 1:discriminate. 2:constructor. 2:{ apply (note_some [32] [32] (bs "note")); [blank|blank|fa|reflexivity]. }
      apply (money_back (bs "GBP") [32] (bs "1,250.50")); [|blank| |left; discriminate].
      - apply (ccy_bare (bs "GBP")); [fa|discriminate|discriminate].
      - apply (amt_dec false (bs "1,250") (bs "50") 125050); [fa|fa|apply (digits_value_ex (bs "125050"))|cbn; lia|discriminate|]. apply Qc_is_canon. reflexivity. }
    apply (ledger_cons _ _ _ al (bs "  Assets" ++ nl) [Rest (bs "Assets") []] [] []).
    { apply (line_rest (rename al) (bs "  ") (bs "Assets") [] []); [blank|discriminate|fa|discriminate|]. apply note_none. constructor. }
    constructor.
  - apply (ledger_cons _ _ _ _ (bs "P 2024/01/01 00:00:00 USD $2" ++ nl) [Call (CPrice 20240101 (bs "USD") (bs "$") (qz 2))] (bs "; end" ++ nl) []).
    { apply (line_price _ [32] (bs "2024/01/01") 20240101 [32] (bs "00:00:00") [32] (bs "USD") (bs "USD") [32] (bs "$2") (bs "$") (qz 2)).
      1:blank. 1:exact ex_date. 1:blank. 1:discriminate. 1:{ apply (time_hms (bs "00") (bs "00") (bs "00")); try (cbn; lia); fa. } 1:blank. 1:discriminate.
      1:{ apply (ccy_bare (bs "USD")); [fa|discriminate|discriminate]. } 1:blank. 1:discriminate.
      apply (money_front (bs "$") [] (bs "2")); [|constructor|].
      - apply (ccy_bare (bs "$")); [fa|discriminate|discriminate].
      - apply (amt_int false (bs "2") 2); [fa|apply (digits_value_ex (bs "2"))|cbn; lia|discriminate|discriminate]. }
    apply (ledger_cons _ _ _ _ (bs "; end" ++ nl) [] [] []).
    { apply (line_comment _ [] (bs " end")); [constructor|fa]. }
    constructor.
Qed.
Example C48_nonvacuous : ex_fs (bs "m") = Some (encode ex_main) /\ Forall scalar ex_main /\ ledger_text ex_fs x_join (bs "m") [] ex_main ex_entries /\
  exists bk, load_book x_letter digit upc x_order ex_fs x_join xsort 3 (bs "m") = Ok bk /\
    map (fun p => (p_date p, p_payee p, p_acct p, p_ccy p, this (p_val p))) (bk_post bk) =
      [(20240101%Z, bs "Shop", bs "Assets", bs "GBP", -2501 # 2); (20240101%Z, bs "Shop", bs "Expense:Food", bs "GBP", 2501 # 2)]%Q.
Proof.
  split; [reflexivity|]. split; [apply ascii_scalar; fa|]. split; [exact ex_ledger|]. eexists. split; [vm_compute; reflexivity|vm_compute; reflexivity].
Qed.

(** ** C51: UTF-8. *)
Theorem C51_codec : forall s t, Forall scalar s -> Forall scalar t ->
  decode (encode s) = s /\ (encode s = encode t -> s = t) /\ str_cmp (encode s) (encode t) = str_cmp s t /\ Forall (fun b => 0 <= b < 256) (encode s) /\
  encode (decode (encode s)) = encode s.
Proof.
  intros s t Hs Ht. split; [apply decode_encode; exact Hs|]. split; [apply encode_inj; assumption|]. split; [apply encode_cmp; assumption|]. split; [apply encode_bytes|].
  rewrite decode_encode by exact Hs. reflexivity.
Qed.
Print Assumptions C51_codec.
Theorem C51_decoded_is_valid : forall bytes, Forall (fun b => 0 <= b < 256) bytes -> Forall scalar (decode bytes).
Proof. exact decode_scalar. Qed.
Print Assumptions C51_decoded_is_valid.
(** The bytes of a payee and of a note in the file are the bytes given to the builder. *)
Theorem C51_payee_and_note_preserved is_letter is_udigit to_upper ord b al dt d w s w1 w2 n rest :
  date_text dt d -> blanks w -> w <> [] -> payee_ok s -> blanks w1 -> blanks w2 -> Forall (fun c => c <> 0 /\ c <> 10) n -> is_space (hd 0 n) = false ->
  Forall scalar (dt ++ w ++ s ++ w1 ++ [59] ++ w2 ++ n ++ [10]) ->
  step is_letter is_udigit to_upper ord b al (decode (encode (dt ++ w) ++ encode s ++ encode (w1 ++ [59] ++ w2) ++ encode n ++ encode [10] ++ rest)) =
    (do b' <- new_transaction b d (encode s) (encode n); Ok (Go b' al (decode rest))).
Proof.
  intros Hdt Hw Hnw Hs Hw1 Hw2 Hn Hh Hsc.
  assert (E : encode (dt ++ w) ++ encode s ++ encode (w1 ++ [59] ++ w2) ++ encode n ++ encode [10] ++ rest = encode (dt ++ w ++ s ++ w1 ++ [59] ++ w2 ++ n ++ [10]) ++ rest).
  { rewrite !encode_app, <- !app_assoc. reflexivity. }
  rewrite E, decode_encode_app by exact Hsc. rewrite <- !app_assoc. set (r := decode rest).
  destruct (date_head dt d (w ++ s ++ w1 ++ [59] ++ w2 ++ n ++ [10] ++ r) Hdt) as (c & Ec & Hc).
  assert (Hwc : ws_rune c = false) by (apply ws_not, not_space; tauto). unfold step, has_ws. rewrite Ec, Hwc. rewrite consume_ws_id by (rewrite Ec; exact Hwc). rewrite Ec. cbn [negb].
  assert (E1 : ((c =? 59) || (c =? eol) || (c =? eof)) = false) by (unfold eol, eof; lia). assert (E2 : ((c =? 61) || (c =? 68)) = false) by lia. assert (E3 : (c =? 80) = false) by lia.
  rewrite E1, E2, E3, (digit_ok c Hc).
  pose proof (parse_transaction_ok dt d w [] s (encode s) (w1 ++ [59] ++ w2 ++ n) (encode n) r Hdt Hw Hnw (or_introl eq_refl) (payee_bare s Hs) (note_some w1 w2 n Hw1 Hw2 Hn Hh)) as P.
  rewrite app_nil_l, <- !app_assoc in P. change (10 :: r) with ([10] ++ r) in P. rewrite P. reflexivity.
Qed.
Print Assumptions C51_payee_and_note_preserved.
Example C51_nonvacuous : (* "Zürich €" *) payee_ok [90; 252; 114; 105; 99; 104; 32; 8364] /\ Forall scalar [90; 252; 114; 105; 99; 104; 32; 8364] /\
  encode [90; 252; 114; 105; 99; 104; 32; 8364] = [90; 195; 188; 114; 105; 99; 104; 32; 226; 130; 172].
Proof. split; [|split; [fa|reflexivity]]. repeat split; try discriminate. fa. Qed.
