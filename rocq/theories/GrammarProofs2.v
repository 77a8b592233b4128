(** * GrammarProofs2: rounds of the loader, and whole files. *)
From Verif Require Import Base Utf8 Dec DateProofs2 PriceModel BookModel BookSpec BookProofs BuilderProofs AccumModel LoaderModel LoaderSpec GrammarSpec LoaderProofs LoaderProofs2 LoaderProofs3 LoaderProofs4 LoaderProofs5 GrammarProofs.
From Coq Require Import ZifyBool ZifyNat Zify.
Ltac Zify.zify_post_hook ::= idtac.

Section Grammar.
  Variables (is_letter is_udigit : Z -> bool) (to_upper : Z -> Z).
  Hypothesis Hnul : is_letter 0 = false /\ is_udigit 0 = false.
  Variable ord : list (str * Qc) -> list str.
  Hypothesis Hord : forall m, NoDup (akeys m) -> Permutation (ord m) (akeys m).
  Variable fs : str -> option str.
  Variable resolve : str -> str -> str.

  Notation step := (step is_letter is_udigit to_upper ord).
  Notation parse_file := (parse_file is_letter is_udigit to_upper ord fs resolve).
  Notation file_loop := (file_loop is_letter is_udigit to_upper ord resolve).
  Notation parse_identifier := (parse_identifier is_letter is_udigit to_upper).
  Notation word_at := (word_at is_letter is_udigit to_upper).
  Notation command := (command is_letter is_udigit to_upper).
  Notation item := (item is_letter is_udigit to_upper).
  Notation include_line := (include_line is_letter is_udigit to_upper).
  Notation text_at := (text_at is_letter is_udigit to_upper fs resolve).

  Lemma word_ok l w r : ws_rune (ch l) = false -> parse_identifier l = (w, r) <-> word_at l w r.
  Proof.
    intros Hl. unfold LoaderModel.parse_identifier, GrammarSpec.word_at. rewrite consume_ws_id by exact Hl.
    assert (H0 : (fun c => is_udigit c || is_letter c || (c =? 95)) 0 = false) by (cbv beta; destruct Hnul as [-> ->]; reflexivity). split.
    - destruct (span _ l) as [s l1] eqn:E. intros H. injection H as <- <-. exists s, l1. split; [apply span_reads; [exact H0|exact E]|]. split; [apply skips_ws|reflexivity].
    - intros (s & l1 & H1 & H2 & ->). apply span_reads in H1; [|exact H0]. rewrite H1. apply ws_skips in H2. rewrite H2. reflexivity.
  Qed.
  Lemma include_name_at s name : include_name s = Ok name <->
    (exists s', s = [34] ++ s' ++ [34] /\ name = encode s') \/ (s <> [] /\ (hd 0 s <> 34 \/ last s 0 <> 34) /\ name = encode s).
  Proof.
    unfold include_name. destruct s as [|c s].
    - split; [discriminate|]. intros [(s' & E & _)|[N _]]; [discriminate|congruence].
    - destruct ((c =? 34) && (last (c :: s) 0 =? 34)) eqn:E.
      + assert (c = 34) by lia. subst c. assert (El : last (34 :: s) 0 = 34) by lia. destruct s as [|d s].
        * split; [discriminate|]. intros [(s' & E' & _)|(_ & [N|N] & _)]; [|cbn in N; congruence..]. cbn [app] in E'. injection E' as E'. destruct s'; discriminate.
        * change (last (34 :: d :: s) 0) with (last (d :: s) 0) in El. pose proof (app_removelast_last 0 (l := d :: s) ltac:(discriminate)) as Hrl. rewrite El in Hrl. split.
          { intros H. injection H as <-. left. exists (removelast (d :: s)). split; [cbn [app]; congruence|reflexivity]. }
          intros [(s' & E' & ->)|(_ & [N|N] & _)]; [|cbn [hd] in N; congruence|change (last (34 :: d :: s) 0) with (last (d :: s) 0) in N; congruence].
          cbn [app] in E'. injection E' as E'. rewrite E', removelast_last. reflexivity.
      + split.
        * intros H. injection H as <-. right. split; [discriminate|]. split; [|reflexivity]. cbn [hd]. destruct (Z.eq_dec c 34); [|left; assumption]. right. lia.
        * intros [(s' & E' & _)|(_ & _ & ->)]; [|reflexivity]. exfalso. rewrite E' in E. injection E' as -> E'.
          assert (El : last ([34] ++ s' ++ [34]) 0 = 34) by (rewrite app_assoc, last_last; reflexivity). rewrite El in E. discriminate E.
  Qed.

  Lemma skips_ch l l1 : skips l l1 -> ws_rune (ch l1) = false.
  Proof. intros (w & _ & _ & H). exact H. Qed.
  Lemma skips_flush l : ws_rune (ch l) = false -> skips l l.
  Proof. intros H. exists []. split; [reflexivity|]. split; [constructor|exact H]. Qed.
  Lemma ch_ws c : c = 59 \/ c = 10 \/ c = 0 \/ c = 61 \/ c = 68 \/ c = 80 \/ digit c = true -> ws_rune c = false.
  Proof.
    intros H. unfold ws_rune. assert (Hs : is_space c = false \/ c = 10) by (destruct H as [->|[->|[->|[->|[->|[->|H]]]]]]; auto; left; revert H; unfold digit, is_space, between; lia).
    destruct Hs as [-> | ->]; reflexivity.
  Qed.
  Lemma number_head n l v r : number_at n l v r -> digit (ch l) = true.
  Proof. intros (s & (-> & Hs & _) & Hl & _). destruct s as [|c s]; [cbn in Hl; lia|]. inversion Hs; assumption. Qed.
  Lemma trans_head l d p n r : trans_at l d p n r -> digit (ch l) = true.
  Proof. intros (l1 & ? & ? & ? & ? & (y & m & dd & l3 & l4 & H & _) & _). exact (number_head _ _ _ _ H). Qed.

  (** One round reads one entry. *)
  Lemma step_item b al l b' al' r : step b al l = Ok (Go b' al' r) -> ch l <> 0 -> exists es, item al l es al' r.
  Proof.
    intros H H0. unfold LoaderModel.step in H. set (l1 := consume_ws l) in *. assert (Hl1 : skips l l1) by apply skips_ws.
    destruct ((ch l1 =? 59) || (ch l1 =? eol) || (ch l1 =? eof)) eqn:E1.
    { injection H as _ <- <-. exists []. apply item_skip with l1; [exact Hl1|unfold eol, eof in E1; lia|apply line_ok; reflexivity]. }
    assert (Hn : ch l1 <> 59 /\ ch l1 <> 10 /\ ch l1 <> 0) by (unfold eol, eof in E1; lia). clear E1.
    unfold has_ws in H. destruct (ws_rune (ch l)) eqn:Ew; cbn [negb] in H.
    - apply obind_Ok in H as ((b1 & r1) & E & H). injection H as _ <- <-. apply post_ok in E as (a & c & q & n & Hp & _); [|unfold l1; apply consume_ws_idem].
      assert (Hi : indented l l1) by (unfold indented; tauto). destruct c as [|x c]; eexists; [eapply item_rest; eassumption|eapply item_post; [exact Hi|exact Hp|discriminate]].
    - assert (El : l1 = l) by (apply consume_ws_id; exact Ew). clearbody l1. subst l1. destruct ((ch l =? 61) || (ch l =? 68)) eqn:E2.
      { injection H as _ <- <-. exists []. apply item_directive; [lia|apply line_ok; reflexivity]. }
      destruct (ch l =? 80) eqn:E3.
      { apply obind_Ok in H as ((b1 & r1) & E & H). injection H as _ <- <-. apply price_ok in E as (d & u & c & q & Hp & _). eexists. apply item_price. exact Hp. }
      destruct (digit (ch l)) eqn:E4.
      { apply obind_Ok in H as ([[[d p] n] r1] & E & H). apply obind_Ok in H as (b1 & Eb & H). injection H as _ <- <-. apply trans_ok in E. eexists. apply item_trans. exact E. }
      destruct (parse_identifier l) as [w l1] eqn:Ei. apply word_ok in Ei; [|exact Ew].
      assert (Hc : command l w l1) by (split; [exact Ei|]; split; [exact Ew|]; split; [exact E4|]; cbn [In]; lia).
      destruct (str_eqb_spec w (bs "INCLUDE")) as [->|_]; [destruct (parse_to_eol l1); apply obind_Ok in H as (? & _ & H); discriminate|].
      destruct (str_eqb_spec w (bs "ALIAS")) as [->|_]; [|discriminate].
      destruct (parse_account l1) as [a l2] eqn:E5. destruct (Z.eqb_spec (ch (consume_ws l2)) 61) as [E61|]; cbn [negb] in H; [|discriminate].
      destruct (consume_ws l2) as [|x l3] eqn:E6; [discriminate E61|]. cbn [ch next tl] in E61, H. subst x. destruct (parse_account (consume_ws l3)) as [a2 l5] eqn:E7.
      destruct a2 as [|y a2]; [discriminate|]. unfold parse_to_eol in H. rewrite consume_ws_idem in H. destruct (span line_rune (consume_ws l5)) as [s r1] eqn:E8. injection H as _ <- <-.
      exists []. apply item_alias with l1 l2 l3 (consume_ws l3) l5 (consume_ws l5) s; [exact Hc|apply acct_ok2; exact E5|apply ws_skips; exact E6|apply skips_ws|apply acct_ok2; exact E7|discriminate|apply skips_ws|apply span_reads; [reflexivity|exact E8]].
  Qed.
  Lemma step_include_line b al l name b' al' r : step b al l = Ok (Include name b' al' r) -> include_line l name r /\ b' = b /\ al' = al.
  Proof.
    intros H. unfold LoaderModel.step in H. set (l1 := consume_ws l) in *.
    destruct ((ch l1 =? 59) || (ch l1 =? eol) || (ch l1 =? eof)) eqn:E1; [discriminate|].
    assert (Hn : ch l1 <> 59 /\ ch l1 <> 10 /\ ch l1 <> 0) by (unfold eol, eof in E1; lia). clear E1.
    unfold has_ws in H. destruct (ws_rune (ch l)) eqn:Ew; cbn [negb] in H; [apply obind_Ok in H as ([? ?] & _ & H); discriminate|].
    assert (El : l1 = l) by (apply consume_ws_id; exact Ew). clearbody l1. subst l1. destruct ((ch l =? 61) || (ch l =? 68)) eqn:E2; [discriminate|].
    destruct (ch l =? 80) eqn:E3; [apply obind_Ok in H as ([? ?] & _ & H); discriminate|].
    destruct (digit (ch l)) eqn:E4; [apply obind_Ok in H as ([[[? ?] ?] ?] & _ & H); apply obind_Ok in H as (? & _ & H); discriminate|].
    destruct (parse_identifier l) as [w l1] eqn:Ei. apply word_ok in Ei; [|exact Ew].
    assert (Hc : command l w l1) by (split; [exact Ei|]; split; [exact Ew|]; split; [exact E4|]; cbn [In]; lia).
    destruct (str_eqb_spec w (bs "INCLUDE")) as [->|_].
    - unfold parse_to_eol in H. destruct (span line_rune (consume_ws l1)) as [s r1] eqn:E5. apply obind_Ok in H as (nm & En & H). injection H as <- <- <- <-. split; [|auto].
      exists l1, (consume_ws l1), s. split; [exact Hc|]. split; [apply skips_ws|]. split; [apply span_reads; [reflexivity|exact E5]|apply include_name_at; exact En].
    - destruct (str_eqb_spec w (bs "ALIAS")) as [->|_]; [|discriminate]. destruct (parse_account l1). destruct (negb _); [discriminate|]. destruct (parse_account _) as [[|? ?] ?]; [discriminate|]. destruct (parse_to_eol _). discriminate.
  Qed.

  Lemma command_step b al l w r : command l w r -> step b al l =
    (let '(command, l) := (w, r) in
        if str_eqb command (bs "INCLUDE") then
          let '(s, l) := parse_to_eol l in
          do name <- include_name s; Ok (Include name b al l)
        else if str_eqb command (bs "ALIAS") then
          let '(short, l) := parse_account l in
          let l := consume_ws l in
          if negb (ch l =? 61) then Panic else
          let '(long, l) := parse_account (consume_ws (next l)) in
          let l := consume_ws l in
          match long with
          | [] => Panic
          | _ => let '(_, l) := parse_to_eol l in Ok (Go b (aset str_eqb short long al) l)
          end
        else Panic).
  Proof.
    intros (Hw & Ew & E4 & Hin). cbn [In] in Hin. apply word_ok in Hw; [|exact Ew]. unfold LoaderModel.step, has_ws. rewrite consume_ws_id by exact Ew. rewrite Ew.
    assert (E1 : ((ch l =? 59) || (ch l =? eol) || (ch l =? eof)) = false) by (unfold eol, eof; lia). assert (E2 : ((ch l =? 61) || (ch l =? 68)) = false) by lia. assert (E3 : (ch l =? 80) = false) by lia.
    rewrite E1, E2, E3, E4. cbn [negb]. cbv iota. rewrite Hw. reflexivity.
  Qed.

  Lemma item_step al l es al' r before b : item al l es al' r -> bsteps new_builder before = Ok b ->
    exists cs, means before es cs /\ step b al l = (do b' <- bsteps b cs; Ok (Go b' al' r)).
  Proof.
    intros H E. destruct H as [l l1 r H1 H2 H3|l r H1 H2|l d u c q r H|l d p n r H|l l1 a c q n r H1 H2 H3|l l1 a q n r H1 H2|l l1 l2 l3 l4 l5 l6 s a a2 r H1 H2 H3 H4 H5 H6 H7 H8].
    - exists []. split; [constructor|]. unfold LoaderModel.step. apply ws_skips in H1. rewrite H1. assert (E1 : ((ch l1 =? 59) || (ch l1 =? eol) || (ch l1 =? eof)) = true) by (unfold eol, eof; lia).
      rewrite E1. apply line_ok in H3. rewrite H3. reflexivity.
    - exists []. split; [constructor|]. assert (Ew : ws_rune (ch l) = false) by (apply ch_ws; tauto). unfold LoaderModel.step, has_ws. rewrite consume_ws_id, Ew by exact Ew.
      assert (E1 : ((ch l =? 59) || (ch l =? eol) || (ch l =? eof)) = false) by (unfold eol, eof; lia). assert (E2 : ((ch l =? 61) || (ch l =? 68)) = true) by lia.
      rewrite E1, E2. cbn [negb]. apply line_ok in H2. rewrite H2. reflexivity.
    - exists [CPrice d u c q]. split; [repeat constructor|]. assert (Ec : ch l = 80) by (destruct H as (? & ? & ? & ? & ? & ? & ? & ? & -> & _); reflexivity).
      assert (Ew : ws_rune (ch l) = false) by (rewrite Ec; reflexivity). unfold LoaderModel.step, has_ws. rewrite consume_ws_id, Ew by exact Ew. rewrite Ec.
      change ((80 =? 59) || (80 =? eol) || (80 =? eof)) with false. change ((80 =? 61) || (80 =? 68)) with false. change (80 =? 80) with true. cbn [negb]. cbv iota.
      assert (Ep : parse_price b l = Ok (b_add_price b d u c q, r)) by (apply price_ok; exists d, u, c, q; auto). rewrite Ep. reflexivity.
    - exists [CTrans d p n]. split; [repeat constructor|]. pose proof (trans_head _ _ _ _ _ H) as Ed. assert (Ew : ws_rune (ch l) = false) by (apply ch_ws; tauto).
      unfold LoaderModel.step, has_ws. rewrite consume_ws_id, Ew by exact Ew. unfold digit, between in Ed.
      assert (E1 : ((ch l =? 59) || (ch l =? eol) || (ch l =? eof)) = false) by (unfold eol, eof; lia). assert (E2 : ((ch l =? 61) || (ch l =? 68)) = false) by lia. assert (E3 : (ch l =? 80) = false) by lia.
      rewrite E1, E2, E3. cbn [negb]. unfold digit, between. rewrite Ed. apply trans_ok in H. rewrite H. cbn [obind bsteps bstep]. destruct (new_transaction b d p n); reflexivity.
    - destruct H1 as (Ew & Hs & N1 & N2 & N3). exists [CPost (rename al a) c q n]. split; [repeat constructor|]. pose proof (skips_ch _ _ Hs) as Hs'. apply ws_skips in Hs. unfold LoaderModel.step, has_ws. rewrite Hs, Ew.
      assert (E1 : ((ch l1 =? 59) || (ch l1 =? eol) || (ch l1 =? eof)) = false) by (unfold eol, eof; lia). rewrite E1. cbn [negb].
      assert (Ep : parse_posting ord al b l1 = Ok (add_posting b (rename al a) c q n, r)) by (apply post_ok; [apply consume_ws_id; exact Hs'|]; exists a, c, q, n; split; [exact H2|destruct c; [congruence|reflexivity]]).
      rewrite Ep. reflexivity.
    - destruct H1 as (Ew & Hs & N1 & N2 & N3). destruct (rest_run ord Hord before b (rename al a) n E) as (ps & Hps & Eps). exists (ps ++ []). split; [econstructor; [exact Hps|constructor]|]. rewrite app_nil_r.
      pose proof (skips_ch _ _ Hs) as Hs'. apply ws_skips in Hs. unfold LoaderModel.step, has_ws. rewrite Hs, Ew.
      assert (E1 : ((ch l1 =? 59) || (ch l1 =? eol) || (ch l1 =? eof)) = false) by (unfold eol, eof; lia). rewrite E1. cbn [negb].
      assert (Ep : parse_posting ord al b l1 = Ok (elide (rename al a) n (ord (bu_amts b)) b, r)) by (apply post_ok; [apply consume_ws_id; exact Hs'|]; exists a, [], q, n; split; [exact H2|reflexivity]).
      rewrite Ep, Eps. reflexivity.
    - exists []. split; [constructor|]. rewrite (command_step b al _ _ _ H1). cbv iota beta. change (str_eqb (bs "ALIAS") (bs "INCLUDE")) with false. change (str_eqb (bs "ALIAS") (bs "ALIAS")) with true. cbv iota.
      apply acct_ok2 in H2. rewrite H2. apply ws_skips in H3. rewrite H3. cbn [ch next tl]. change (61 =? 61) with true. cbn [negb]. cbv iota. apply ws_skips in H4. rewrite H4. apply acct_ok2 in H5. rewrite H5.
      pose proof (skips_ch _ _ H7) as H7'. apply ws_skips in H7. rewrite H7. destruct a2 as [|x a2]; [congruence|]. unfold parse_to_eol. rewrite consume_ws_id by exact H7'. apply span_reads in H8; [|reflexivity]. rewrite H8. reflexivity.
  Qed.
  Lemma include_step b al l name r : include_line l name r -> step b al l = Ok (Include name b al r).
  Proof.
    intros (l1 & l2 & s & Hc & H2 & H3 & H4). rewrite (command_step b al _ _ _ Hc). cbv iota beta. change (str_eqb (bs "INCLUDE") (bs "INCLUDE")) with true. cbv iota. unfold parse_to_eol. apply ws_skips in H2. rewrite H2.
    apply span_reads in H3; [|reflexivity]. rewrite H3. apply include_name_at in H4. rewrite H4. reflexivity.
  Qed.

  (** ** Whole files. *)
  Lemma text_run f al l es : text_at f al l es -> forall before b, bsteps new_builder before = Ok b ->
    exists cs D, means before es cs /\ forall depth fuel, (D <= depth)%nat -> (length l < fuel)%nat ->
      file_loop (parse_file depth) f fuel b al l = result_of (bsteps b cs).
  Proof.
    induction 1 as [f al l H0|f al l es al' r ds H0 Hi Ht IH|f al l name r bytes es ds Hi Hfs Ht IHt Hr IHr]; intros before b E.
    - exists [], O. split; [constructor|]. intros depth fuel _ Hf. destruct fuel as [|fuel]; [lia|]. cbn [LoaderModel.file_loop]. rewrite H0. reflexivity.
    - destruct (item_step al l es al' r before b Hi E) as (cs & Hm & Hstep).
      destruct (after_total before b cs E) as [(b' & Eb)|Eb]; rewrite Eb in Hstep; cbn [obind] in Hstep.
      + pose proof (step_progress is_letter is_udigit to_upper ord _ _ _ _ H0 Hstep) as [P _]. apply psuf_len in P.
        assert (E' : bsteps new_builder (before ++ cs) = Ok b') by (rewrite bsteps_app, E; exact Eb).
        destruct (IH _ _ E') as (cs' & D & Hm' & Hrun). exists (cs ++ cs'), D. split; [eapply means_app; eassumption|].
        intros depth fuel HD Hf. destruct fuel as [|fuel]; [lia|]. cbn [LoaderModel.file_loop]. destruct (Z.eqb_spec (ch l) eof); [contradiction|].
        rewrite Hstep. rewrite Hrun by lia. rewrite bsteps_app, Eb. reflexivity.
      + destruct (means_ex ds (before ++ cs)) as (cs' & Hm'). exists (cs ++ cs'), O. split; [eapply means_app; eassumption|].
        intros depth fuel HD Hf. destruct fuel as [|fuel]; [lia|]. cbn [LoaderModel.file_loop]. destruct (Z.eqb_spec (ch l) eof); [contradiction|].
        rewrite Hstep. rewrite bsteps_app, Eb. reflexivity.
    - destruct (IHt before b E) as (cs & D & Hm & Hrun).
      assert (H0 : ch l <> 0) by (destruct Hi as (? & ? & ? & (_ & _ & _ & N) & _); cbn [In] in N; lia).
      assert (Hinc : forall depth, (S D <= depth)%nat -> parse_file depth b (resolve f name) al = result_of (bsteps b cs)).
      { intros depth HD. destruct depth as [|depth]; [lia|]. cbn [LoaderModel.parse_file]. rewrite Hfs. apply Hrun; lia. }
      pose proof (include_step b al l name r Hi) as Hstep.
      pose proof (step_progress is_letter is_udigit to_upper ord _ _ _ _ H0 Hstep) as [P _]. apply psuf_len in P.
      destruct (after_total before b cs E) as [(b' & Eb)|Eb].
      + assert (E' : bsteps new_builder (before ++ cs) = Ok b') by (rewrite bsteps_app, E; exact Eb).
        destruct (IHr _ _ E') as (cs' & D' & Hm' & Hrun'). exists (cs ++ cs'), (Nat.max (S D) D'). split; [eapply means_app; eassumption|].
        intros depth fuel HD Hf. destruct fuel as [|fuel]; [lia|]. cbn [LoaderModel.file_loop]. destruct (Z.eqb_spec (ch l) eof) as [E0|_]; [contradiction|].
        rewrite Hstep. rewrite Hinc by lia. rewrite Eb. cbn [result_of]. rewrite Hrun' by lia. rewrite bsteps_app, Eb. reflexivity.
      + destruct (means_ex ds (before ++ cs)) as (cs' & Hm'). exists (cs ++ cs'), (S D). split; [eapply means_app; eassumption|].
        intros depth fuel HD Hf. destruct fuel as [|fuel]; [lia|]. cbn [LoaderModel.file_loop]. destruct (Z.eqb_spec (ch l) eof) as [E0|_]; [contradiction|].
        rewrite Hstep. rewrite Hinc by lia. rewrite Eb. cbn [result_of]. rewrite bsteps_app, Eb. reflexivity.
  Qed.

  Definition sound (rec : builder -> str -> alias -> fres) : Prop := forall b f al b', rec b f al = FOk b' -> forall before, bsteps new_builder before = Ok b ->
    exists bytes es cs, fs f = Some bytes /\ text_at f al (decode bytes) es /\ means before es cs /\ bsteps b cs = Ok b'.
  Lemma loop_text rec : sound rec -> forall f fuel b al l b', file_loop rec f fuel b al l = FOk b' -> forall before, bsteps new_builder before = Ok b ->
    exists es cs, text_at f al l es /\ means before es cs /\ bsteps b cs = Ok b'.
  Proof.
    intros Hrec f. induction fuel as [|fuel IH]; intros b al l b' H before E; [discriminate|]. cbn [LoaderModel.file_loop] in H.
    destruct (Z.eqb_spec (ch l) eof) as [H0|H0].
    { injection H as <-. exists [], []. split; [apply text_end; exact H0|]. split; [constructor|reflexivity]. }
    destruct (step b al l) as [t| | |] eqn:Es; try discriminate. destruct t as [b1 al1 l1|name b1 al1 l1].
    - destruct (step_item _ _ _ _ _ _ Es H0) as (es & Hi). destruct (item_step _ _ _ _ _ before b Hi E) as (cs & Hm & Hstep). rewrite Es in Hstep.
      symmetry in Hstep. apply obind_Ok in Hstep as (b2 & Eb & Hb2). injection Hb2 as ->.
      assert (E' : bsteps new_builder (before ++ cs) = Ok b1) by (rewrite bsteps_app, E; exact Eb).
      destruct (IH _ _ _ _ H _ E') as (es' & cs' & Ht & Hm' & Eb'). exists (es ++ es'), (cs ++ cs'). split; [eapply text_item; eassumption|]. split; [eapply means_app; eassumption|]. rewrite bsteps_app, Eb. exact Eb'.
    - destruct (step_include_line _ _ _ _ _ _ _ Es) as (Hi & -> & ->). destruct (rec b (resolve f name) al) as [b2| | |] eqn:Er; try discriminate.
      destruct (Hrec _ _ _ _ Er _ E) as (bytes & es & cs & Hfs & Ht & Hm & Eb).
      assert (E' : bsteps new_builder (before ++ cs) = Ok b2) by (rewrite bsteps_app, E; exact Eb).
      destruct (IH _ _ _ _ H _ E') as (es' & cs' & Ht' & Hm' & Eb'). exists (es ++ es'), (cs ++ cs'). split; [eapply text_include; eassumption|]. split; [eapply means_app; eassumption|]. rewrite bsteps_app, Eb. exact Eb'.
  Qed.
  Lemma file_text depth : sound (parse_file depth).
  Proof.
    induction depth as [|dp IH]; intros b f al b' H before E; [discriminate|]. cbn [LoaderModel.parse_file] in H. destruct (fs f) as [bytes|] eqn:Ef; [|discriminate].
    destruct (loop_text _ IH _ _ _ _ _ _ H _ E) as (es & cs & H1 & H2 & H3). exists bytes, es, cs. auto.
  Qed.
End Grammar.
