(** * LoaderProofs3: one line of a ledger, and whole files. *)
From Verif Require Import Base Utf8 Dec DateProofs2 PriceModel BookModel BookSpec BookProofs BuilderProofs AccumModel LoaderModel LoaderSpec LoaderProofs LoaderProofs2.
From Coq Require Import ZifyBool ZifyNat Zify.
Ltac Zify.zify_post_hook ::= idtac.

Lemma bsteps_app cs ds : forall b, bsteps b (cs ++ ds) = (do b' <- bsteps b cs; bsteps b' ds).
Proof. induction cs as [|c cs IH]; intros b; [reflexivity|]. cbn [app bsteps]. destruct (bstep b c); cbn [obind]; [apply IH|reflexivity..]. Qed.

(** ** The balancing postings *)
Definition rest_calls (acct note : str) (keys : list str) (b : builder) : list (str * Qc) :=
  map (fun k => (k, (- getq k (bu_amts b))%Qc)) (filter (fun k => negb (qc_is0 (getq k (bu_amts b)))) keys).
Definition to_posts (acct note : str) (cvs : list (str * Qc)) : list bcall := map (fun '(c, v) => CPost acct c v note) cvs.
Lemma rest_calls_add a n keys b k v a' n' : ~ In k keys -> rest_calls a n keys (add_posting b a' k v n') = rest_calls a n keys b.
Proof.
  intros H. unfold rest_calls. assert (E : forall x, In x keys -> getq x (bu_amts (add_posting b a' k v n')) = getq x (bu_amts b)).
  { intros x Hx. unfold add_posting; cbn [bu_amts]. apply getq_aset_neq. intros ->. contradiction. }
  clear H. induction keys as [|x keys IH]; [reflexivity|]. cbn [filter map]. rewrite (E x) by (left; reflexivity).
  assert (IH' : map (fun k0 : str => (k0, (- getq k0 (bu_amts (add_posting b a' k v n')))%Qc)) (filter (fun k0 : str => negb (qc_is0 (getq k0 (bu_amts (add_posting b a' k v n'))))) keys) =
    map (fun k0 : str => (k0, (- getq k0 (bu_amts b))%Qc)) (filter (fun k0 : str => negb (qc_is0 (getq k0 (bu_amts b)))) keys)) by (apply IH; intros y Hy; apply E; right; exact Hy).
  destruct (negb _); cbn [map]; [|exact IH']. rewrite IH'. rewrite (E x) by (left; reflexivity). reflexivity.
Qed.
Lemma qc_is0_0 : qc_is0 0%Qc = true.
Proof. reflexivity. Qed.
Lemma elide_calls a n keys : forall b, NoDup keys -> bsteps b (to_posts a n (rest_calls a n keys b)) = Ok (elide a n keys b).
Proof.
  induction keys as [|k keys IH]; intros b Hn; [reflexivity|]. inversion Hn as [|? ? Hk Hn']; subst. cbn [elide].
  assert (Ec : rest_calls a n (k :: keys) b = if qc_is0 (getq k (bu_amts b)) then rest_calls a n keys b else (k, (- getq k (bu_amts b))%Qc) :: rest_calls a n keys b).
  { unfold rest_calls. cbn [filter]. destruct (qc_is0 (getq k (bu_amts b))); reflexivity. }
  rewrite Ec. clear Ec. assert (Eg : getq k (bu_amts b) = match aget str_eqb k (bu_amts b) with Some v => v | None => 0%Qc end) by reflexivity.
  destruct (aget str_eqb k (bu_amts b)) as [v|] eqn:E; rewrite Eg.
  - destruct (qc_is0 v) eqn:Ev.
    + apply (IH b Hn').
    + cbn [map to_posts bsteps bstep obind]. rewrite <- (rest_calls_add a n keys b k (- v)%Qc a n Hk). apply IH. exact Hn'.
  - rewrite qc_is0_0. apply (IH b Hn').
Qed.
(** ** Reachable builders *)
Lemma after_ok before b : bsteps new_builder before = Ok b -> exists used, state_ok b used (last (segments before) []).
Proof.
  intros E. destruct (bsteps_cases before new_builder [] [] new_builder_ok) as [(_ & b' & E' & Hok & _)|[_ E']]; rewrite E in E'; [|discriminate].
  injection E' as <-. eexists. exact Hok.
Qed.
Lemma after_total before b cs : bsteps new_builder before = Ok b -> (exists b', bsteps b cs = Ok b') \/ bsteps b cs = Panic.
Proof.
  intros E. destruct (after_ok before b E) as (used & Hok). destruct (bsteps_cases cs b used _ Hok) as [(_ & b' & E' & _)|[_ E']]; [left; exists b'; exact E'|right; exact E'].
Qed.
Lemma balancing_of before b a n keys : bsteps new_builder before = Ok b -> NoDup keys -> (forall k, In k (akeys (bu_amts b)) -> In k keys) ->
  balancing before a n (to_posts a n (rest_calls a n keys b)).
Proof.
  intros E Hn Hk. destruct (after_ok before b E) as (used & H1 & H2 & _). exists (rest_calls a n keys b). split; [reflexivity|]. unfold rest_calls. split.
  - rewrite map_map. cbn [fst]. rewrite map_id. apply NoDup_filter. exact Hn.
  - intros c v. unfold open_sum. rewrite <- H2. rewrite in_map_iff. split.
    + intros (k & Ek & Hin). injection Ek as -> <-. apply filter_In in Hin as [_ Hz]. split; [|reflexivity]. intros E0.
      assert (Z0 : getq c (bu_amts b) = 0%Qc) by (rewrite <- (Qcopp_involutive (getq c (bu_amts b))), E0; reflexivity). rewrite Z0 in Hz. discriminate.
    + intros [Hv ->]. exists c. split; [reflexivity|]. apply filter_In. split.
      * apply Hk. unfold getq in Hv. destruct (aget str_eqb c (bu_amts b)) as [x|] eqn:Ex; [|exfalso; apply Hv; reflexivity].
        apply (aget_In _ str_eqb_eq) in Ex. unfold akeys. apply in_map_iff. exists (c, x). auto.
      * destruct (qc_is0 (getq c (bu_amts b))) eqn:Ez; [|reflexivity]. apply qc_is0_eq in Ez. rewrite Ez in Hv. exfalso. apply Hv. reflexivity.
Qed.
(** Such postings exist after any calls. *)
Lemma balancing_ex before a n : exists ps, balancing before a n ps.
Proof.
  set (g := open_sum before). set (keys := nodup str_eq_dec (map fst (last (segments before) []))).
  exists (to_posts a n (map (fun k => (k, (- g k)%Qc)) (filter (fun k => negb (qc_is0 (g k))) keys))). eexists. split; [reflexivity|]. split.
  - rewrite map_map. cbn [fst]. rewrite map_id. apply NoDup_filter, NoDup_nodup.
  - intros c v. rewrite in_map_iff. split.
    + intros (k & Ek & Hin). injection Ek as -> <-. apply filter_In in Hin as [_ Hz]. split; [|reflexivity]. intros E0.
      assert (Z0 : g c = 0%Qc) by (rewrite <- (Qcopp_involutive (g c)), E0; reflexivity). rewrite Z0 in Hz. discriminate.
    + intros [Hv ->]. exists c. split; [reflexivity|]. fold g in Hv |- *. apply filter_In. split.
      * unfold keys. apply nodup_In. destruct (in_dec str_eq_dec c (map fst (last (segments before) []))) as [Hi|Hi]; [exact Hi|]. exfalso. apply Hv.
        unfold g, open_sum, seg_sum. assert (F : filter (fun '(c', _) => str_eqb c' c) (last (segments before) []) = []).
        { induction (last (segments before) []) as [|[x y] s IH]; [reflexivity|]. cbn [map fst In] in Hi. cbn [filter]. destruct (str_eqb_spec x c) as [->|Nx]; [exfalso; apply Hi; left; reflexivity|]. apply IH. intros H. apply Hi. right. exact H. }
        rewrite F. reflexivity.
      * destruct (qc_is0 (g c)) eqn:Ez; [|reflexivity]. apply qc_is0_eq in Ez. rewrite Ez in Hv. exfalso. apply Hv. reflexivity.
Qed.
Lemma means_ex es : forall before, exists cs, means before es cs.
Proof.
  induction es as [|[c|a n] es IH]; intros before.
  - exists []. constructor.
  - destruct (IH (before ++ [c])) as (cs & H). exists (c :: cs). constructor. exact H.
  - destruct (balancing_ex before a n) as (ps & Hp). destruct (IH (before ++ ps)) as (cs & H). exists (ps ++ cs). econstructor; eassumption.
Qed.
Lemma means_app es cs ds cs' : forall before, means before es cs -> means (before ++ cs) ds cs' -> means before (es ++ ds) (cs ++ cs').
Proof.
  intros before H. induction H as [before|before c es cs H IH|before a n es ps cs Hp H IH]; intros H2; cbn [app].
  - rewrite app_nil_r in H2. exact H2.
  - constructor. apply IH. rewrite <- app_assoc. exact H2.
  - rewrite <- app_assoc. econstructor; [exact Hp|]. apply IH. rewrite <- app_assoc. exact H2.
Qed.

Section Lines.
  Variables (is_letter is_udigit : Z -> bool) (to_upper : Z -> Z).
  Variable ord : list (str * Qc) -> list str.
  (** The range visits every key once. *)
  Hypothesis Hord : forall m, NoDup (akeys m) -> Permutation (ord m) (akeys m).

  Notation step := (step is_letter is_udigit to_upper ord).
  Notation parse_posting := (parse_posting ord).

  Lemma skip_line_ok s rest : Forall (fun c => c <> 0 /\ c <> 10) s -> skip_line (s ++ 10 :: rest) = rest.
  Proof.
    intros H. unfold skip_line. rewrite span_app; [reflexivity| |right; reflexivity]. revert H. apply Forall_impl. intros c. unfold line_rune, eof, eol. lia.
  Qed.
  Lemma has_ws_true w rest : blanks w -> w <> [] -> has_ws (w ++ rest) = true.
  Proof. intros H N. unfold has_ws. destruct w as [|c w]; [congruence|]. apply blanks_ws in H. inversion H; subst. assumption. Qed.
  Lemma blank_nz w c : blanks w -> In c w -> c <> 0.
  Proof. intros H Hi. unfold blanks in H. rewrite Forall_forall in H. destruct (H _ Hi) as [Hs _]. intros ->. discriminate. Qed.

  (** The rest of a posting line after the amount *)
  Lemma cost_ok k n nt rest : cost_text k -> note_text n nt ->
    exists n', note_text n' nt /\ (let l := consume_ws (k ++ n ++ 10 :: rest) in
     if ch l =? 64 then do (_, l) <- parse_ccy_amt (consume_ws (next l)); Ok l else Ok l) = Ok (n' ++ 10 :: rest).
  Proof.
    intros Hk Hn. destruct Hk as [|w1 w2 m ccy q Hw1 Hw2 Hm].
    - destruct (note_split n nt rest Hn) as (w & n' & -> & Hw & Hn' & Hc). exists n'. split; [exact Hn'|]. rewrite app_nil_l, <- app_assoc. cbv zeta.
      rewrite consume_ws_app by (try exact Hw; destruct Hc as [->| ->]; reflexivity). destruct Hc as [->| ->]; reflexivity.
    - exists n. split; [exact Hn|]. rewrite <- !app_assoc. cbv zeta. rewrite consume_ws_app by (try exact Hw1; reflexivity). cbn [app ch next tl]. change (64 =? 64) with true. cbv iota.
      rewrite consume_ws_app; [|exact Hw2|eapply money_head_ws; exact Hm]. rewrite (parse_ccy_amt_ok m ccy q _ Hm); [reflexivity|]. eapply note_head. exact Hn.
  Qed.
  Lemma cost_end k n nt rest : cost_text k -> note_text n nt -> line_end (k ++ n ++ 10 :: rest).
  Proof.
    intros Hk Hn. destruct Hk as [|w1 w2 m ccy q Hw1 Hw2 Hm]; [eapply note_head; exact Hn|].
    rewrite <- !app_assoc. destruct w1 as [|c w1]; [right; left; reflexivity|]. apply blank_line_end; [exact Hw1|discriminate].
  Qed.
  Lemma line_end_acct l : line_end l -> acct_rune (ch l) = false /\ ch l <> 93.
  Proof. unfold line_end, acct_rune, is_space, between. lia. Qed.

  Lemma parse_posting_ok nm b w1 a w2 (neg : bool) m ccy q k n nt rest : blanks w1 -> acct_ok a -> a <> [] -> blanks w2 -> w2 <> [] ->
    money_text m ccy q -> cost_text k -> note_text n nt ->
    parse_posting nm b (w1 ++ a ++ w2 ++ (if neg then [45] else []) ++ m ++ k ++ n ++ 10 :: rest) =
    Ok (add_posting b (rename nm (encode a)) ccy (if neg then - q else q)%Qc nt, rest).
  Proof.
    intros Hw1 Ha Hna Hw2 Hnw2 Hm Hk Hn. unfold LoaderModel.parse_posting.
    assert (Hahead : ws_rune (ch (a ++ w2 ++ (if neg then [45] else []) ++ m ++ k ++ n ++ 10 :: rest)) = false).
    { destruct a as [|c a]; [congruence|]. apply ws_not. inversion Ha; subst. apply acct_rune_head. assumption. }
    rewrite (consume_ws_app w1 _ Hw1 Hahead).
    assert (Hacc : parse_account (a ++ w2 ++ (if neg then [45] else []) ++ m ++ k ++ n ++ 10 :: rest) = (encode a, w2 ++ (if neg then [45] else []) ++ m ++ k ++ n ++ 10 :: rest)).
    { destruct (line_end_acct _ (blank_line_end w2 ((if neg then [45] else []) ++ m ++ k ++ n ++ 10 :: rest) Hw2 Hnw2)). apply (parse_account_ok []); try assumption. constructor. }
    rewrite Hacc. change (match aget str_eqb (encode a) nm with Some n0 => n0 | None => encode a end) with (rename nm (encode a)).
    assert (Hend : line_end (k ++ n ++ 10 :: rest)) by (eapply cost_end; eassumption).
    assert (Hmain : exists s' q' l', (let l := consume_ws (w2 ++ (if neg then [45] else []) ++ m ++ k ++ n ++ 10 :: rest) in
      if ch l =? 45 then (true, next l) else (false, l)) = (s', l') /\
      parse_ccy_amt l' = Ok (ccy, q', k ++ n ++ 10 :: rest) /\ (if s' : bool then - q' else q')%Qc = (if neg then - q else q)%Qc).
    { rewrite consume_ws_app; [|exact Hw2|destruct neg; [reflexivity|cbn [app]; eapply money_head_ws; exact Hm]]. cbv zeta. destruct neg.
      - exists true, q, (m ++ k ++ n ++ 10 :: rest). split; [reflexivity|]. split; [|reflexivity]. apply parse_ccy_amt_ok; assumption.
      - rewrite app_nil_l. destruct (Z.eqb_spec (ch (m ++ k ++ n ++ 10 :: rest)) 45) as [E|E].
        + destruct m as [|c m].
          * exfalso. inversion Hm as [c w a0 x y Hc Hw Ha0 E1|c w a0 x y Hc Hw Ha0 Hs E1]; apply app_eq_nil in E1 as [-> E1].
            -- destruct (ccy_head [] ccy [] Hc) as [_ Hx]. discriminate.
            -- destruct (amount_head [] q [] Ha0) as (z & Hz & Hz'). cbn in Hz. lia.
          * cbn [app ch] in E. subst c. exists true, (- q)%Qc, (m ++ k ++ n ++ 10 :: rest). split; [reflexivity|].
            split; [apply parse_ccy_amt_ok; [apply money_minus; exact Hm|exact Hend]|apply Qcopp_involutive].
        + exists false, q, (m ++ k ++ n ++ 10 :: rest). split; [reflexivity|]. split; [|reflexivity]. apply parse_ccy_amt_ok; assumption. }
    destruct Hmain as (s' & q' & l' & E1 & E2 & E3). cbv zeta in E1. rewrite E1. cbv iota beta. rewrite E2. cbn [obind].
    destruct (cost_ok k n nt rest Hk Hn) as (n' & Hn' & Hc). cbv zeta in Hc. rewrite Hc. cbn [obind]. rewrite (parse_note_ok n' nt rest Hn').
    pose proof Hm as Hm0. assert (Hccy : ccy <> []) by (destruct Hm0; eapply ccy_nonempty; eassumption). destruct ccy as [|x ccy]; [congruence|]. cbn [skip_eol ch next tl]. change (skip_eol (10 :: rest)) with rest. rewrite E3. reflexivity.
  Qed.
  Lemma parse_rest_ok nm b w1 a n nt rest : blanks w1 -> acct_ok a -> a <> [] -> note_text n nt ->
    parse_posting nm b (w1 ++ a ++ n ++ 10 :: rest) = Ok (elide (rename nm (encode a)) nt (ord (bu_amts b)) b, rest).
  Proof.
    intros Hw1 Ha Hna Hn. unfold LoaderModel.parse_posting.
    assert (Hahead : ws_rune (ch (a ++ n ++ 10 :: rest)) = false).
    { destruct a as [|c a]; [congruence|]. apply ws_not. inversion Ha; subst. apply acct_rune_head. assumption. }
    rewrite (consume_ws_app w1 _ Hw1 Hahead).
    assert (Hacc : parse_account (a ++ n ++ 10 :: rest) = (encode a, n ++ 10 :: rest)).
    { destruct (line_end_acct _ (note_head n nt rest Hn)). apply (parse_account_ok []); try assumption. constructor. }
    rewrite Hacc. change (match aget str_eqb (encode a) nm with Some n0 => n0 | None => encode a end) with (rename nm (encode a)).
    destruct (note_split n nt rest Hn) as (w & n' & -> & Hw & Hn' & Hc). rewrite <- app_assoc.
    assert (Hws : ws_rune (ch (n' ++ 10 :: rest)) = false) by (destruct Hc as [->| ->]; reflexivity).
    rewrite consume_ws_app by assumption.
    assert (E45 : (ch (n' ++ 10 :: rest) =? 45) = false) by (destruct Hc as [->| ->]; reflexivity). rewrite E45.
    assert (Hm : parse_ccy_amt (n' ++ 10 :: rest) = Ok ([], 0%Qc, n' ++ 10 :: rest)).
    { unfold parse_ccy_amt. assert (E1 : ((ch (n' ++ 10 :: rest) =? 34) || is_ccy_rune (ch (n' ++ 10 :: rest))) = false) by (destruct Hc as [->| ->]; reflexivity).
      rewrite E1. unfold parse_amt. rewrite (consume_ws_id _ Hws), E45. rewrite amt_loop_stop by (unfold stops; destruct Hc as [->| ->]; repeat split; discriminate).
      rewrite new_rat_div by discriminate. cbn [obind]. unfold parse_ccy. rewrite (consume_ws_id _ Hws).
      assert (E2 : (ch (n' ++ 10 :: rest) =? 34) = false) by (destruct Hc as [->| ->]; reflexivity). rewrite E2.
      rewrite span_nil by (destruct Hc as [->| ->]; reflexivity). cbn [obind]. reflexivity. }
    rewrite Hm. cbn [obind]. rewrite (consume_ws_id _ Hws).
    assert (E64 : (ch (n' ++ 10 :: rest) =? 64) = false) by (destruct Hc as [->| ->]; reflexivity). rewrite E64. cbn [obind].
    rewrite (parse_note_ok n' nt rest Hn'). reflexivity.
  Qed.

  Lemma parse_price_ok b w1 dt d w2 tm w3 u unit w4 m ccy q rest : blanks w1 -> date_text dt d -> blanks w2 -> w2 <> [] -> time_text tm -> blanks w3 -> w3 <> [] ->
    ccy_text u unit -> blanks w4 -> w4 <> [] -> money_text m ccy q ->
    parse_price b (80 :: w1 ++ dt ++ w2 ++ tm ++ w3 ++ u ++ w4 ++ m ++ 10 :: rest) = Ok (b_add_price b d unit ccy q, rest).
  Proof.
    intros Hw1 Hdt Hw2 Hn2 Htm Hw3 Hn3 Hu Hw4 Hn4 Hm. unfold parse_price. cbn [ch next tl]. change (negb (80 =? 80)) with false. cbv iota.
    assert (Hdw : forall c, 48 <= c <= 57 -> ws_rune c = false) by (intros c Hc; apply ws_not, not_space; tauto).
    rewrite consume_ws_app; [|exact Hw1|destruct (date_head dt d (w2 ++ tm ++ w3 ++ u ++ w4 ++ m ++ 10 :: rest) Hdt) as (c & -> & Hc); apply Hdw; exact Hc].
    rewrite (parse_date_ok dt d _ Hdt) by (apply line_end_stops, blank_line_end; assumption). cbn [obind].
    rewrite consume_ws_app; [|exact Hw2|destruct (time_head tm (w3 ++ u ++ w4 ++ m ++ 10 :: rest) Htm) as (c & -> & Hc); apply Hdw; exact Hc].
    rewrite (parse_time_ok tm _ Htm) by (apply line_end_stops, blank_line_end; assumption). cbn [obind].
    rewrite (parse_ccy_ok w3 u unit _ Hw3 Hu) by (apply line_end_ccy, blank_line_end; assumption). cbn [obind].
    rewrite consume_ws_app; [|exact Hw4|eapply money_head_ws; exact Hm].
    rewrite (parse_ccy_amt_ok m ccy q _ Hm) by (left; reflexivity). cbn [obind fst snd]. reflexivity.
  Qed.

  Lemma parse_transaction_ok dt d w star s p n nt rest : date_text dt d -> blanks w -> w <> [] -> (star = [] \/ exists w', star = [42] ++ w' /\ blanks w') ->
    payee_line s p -> note_text n nt ->
    parse_transaction (dt ++ w ++ star ++ s ++ n ++ 10 :: rest) = Ok (d, p, nt, rest).
  Proof.
    intros Hdt Hw Hnw Hst Hs Hn. unfold parse_transaction. rewrite (parse_date_ok dt d _ Hdt) by (apply line_end_stops, blank_line_end; assumption). cbn [obind].
    assert (Hpay : exists w1, blanks w1 /\ (let l := consume_ws (w ++ star ++ s ++ n ++ 10 :: rest) in if ch l =? 42 then consume_ws (next l) else l) = consume_ws (w1 ++ s ++ n ++ 10 :: rest)).
    { destruct Hst as [->|(w' & -> & Hw')].
      - exists w. split; [exact Hw|]. cbv zeta. rewrite app_nil_l. rewrite consume_ws_app' by exact Hw.
        assert (E : (ch (consume_ws (s ++ n ++ 10 :: rest)) =? 42) = false).
        { destruct Hs as [s (_ & _ & H42 & Hh & _)|u s0 v _ _ _ _ _]; [|reflexivity]. destruct s as [|c s].
          - destruct (note_split n nt rest Hn) as (v & n' & -> & Hv & Hn' & Hc). rewrite app_nil_l, <- app_assoc. rewrite consume_ws_app; [|exact Hv|destruct Hc as [->| ->]; reflexivity]. destruct Hc as [->| ->]; reflexivity.
          - cbn [hd] in *. rewrite consume_ws_id by (apply ws_not; exact Hh). cbn [app ch]. lia. }
        rewrite E. reflexivity.
      - exists w'. split; [exact Hw'|]. cbv zeta. rewrite <- app_assoc. rewrite consume_ws_app by (try exact Hw; reflexivity). reflexivity. }
    destruct Hpay as (w1 & Hw1 & E). cbv zeta in E. rewrite E. destruct (parse_payee_ok w1 s p n nt rest Hw1 Hs Hn) as (n' & Ep & Hn').
    assert (Ep' : parse_payee (consume_ws (w1 ++ s ++ n ++ 10 :: rest)) = Ok (p, n' ++ 10 :: rest)).
    { rewrite <- Ep. unfold parse_payee. rewrite consume_ws_idem. reflexivity. }
    rewrite Ep'. cbn [obind]. rewrite (parse_note_ok n' nt rest Hn'). reflexivity.
  Qed.

  Lemma rest_run before b a n : bsteps new_builder before = Ok b ->
    exists ps, balancing before a n ps /\ bsteps b ps = Ok (elide a n (ord (bu_amts b)) b).
  Proof.
    intros E. destruct (after_ok before b E) as (used & H1 & _). pose proof (Hord _ H1) as Hp.
    assert (Hnd : NoDup (ord (bu_amts b))) by (eapply Permutation_NoDup; [apply Permutation_sym; exact Hp|exact H1]).
    exists (to_posts a n (rest_calls a n (ord (bu_amts b)) b)). split; [|apply elide_calls; exact Hnd].
    apply balancing_of; [exact E|exact Hnd|]. intros k Hk. apply Permutation_in with (2 := Hk). apply Permutation_sym. exact Hp.
  Qed.

  Lemma step_line al t es rest before b : line_text (rename al) t es -> bsteps new_builder before = Ok b ->
    ch (t ++ rest) <> 0 /\ exists cs, means before es cs /\ step b al (t ++ rest) = (do b' <- bsteps b cs; Ok (Go b' al rest)).
  Proof.
    intros H E. destruct H as [w Hw|w s Hw Hs|c s Hc Hs|dt d w star s p n nt Hdt Hw Hnw Hst Hs Hn|w1 a w2 neg m ccy q k n nt Hw1 Hn1 Ha Hna Hw2 Hn2 Hm Hk Hn|w1 a n nt Hw1 Hn1 Ha Hna Hn|w1 dt d w2 tm w3 u unit w4 m ccy q Hw1 Hdt Hw2 Hn2 Htm Hw3 Hn3 Hu Hw4 Hn4 Hm].
    - rewrite <- app_assoc. cbn [app]. split.
      { destruct w as [|c w]; [discriminate|]. apply (blank_nz (c :: w)); [exact Hw|left; reflexivity]. }
      exists []. split; [constructor|]. unfold LoaderModel.step. rewrite consume_ws_app by (try exact Hw; reflexivity). reflexivity.
    - rewrite <- !app_assoc. cbn [app]. split.
      { destruct w as [|c w]; [discriminate|]. apply (blank_nz (c :: w)); [exact Hw|left; reflexivity]. }
      exists []. split; [constructor|]. unfold LoaderModel.step. rewrite consume_ws_app by (try exact Hw; reflexivity). cbn [ch]. change ((59 =? 59) || _ || _) with true. cbv iota.
      change (59 :: s ++ 10 :: rest) with ((59 :: s) ++ 10 :: rest). rewrite skip_line_ok by (constructor; [split; discriminate|exact Hs]). reflexivity.
    - cbn [app]. rewrite <- app_assoc. split; [cbn [ch]; lia|]. exists []. split; [constructor|]. unfold LoaderModel.step.
      assert (Hwc : ws_rune c = false) by (apply ws_not; destruct Hc as [->| ->]; reflexivity).
      rewrite consume_ws_id by exact Hwc. cbn [ch]. unfold has_ws. cbn [ch]. rewrite Hwc. cbn [negb].
      assert (E1 : ((c =? 59) || (c =? eol) || (c =? eof)) = false) by (destruct Hc as [->| ->]; reflexivity).
      assert (E2 : ((c =? 61) || (c =? 68)) = true) by (destruct Hc as [->| ->]; reflexivity). rewrite E1, E2.
      change (c :: s ++ [10] ++ rest) with ((c :: s) ++ 10 :: rest). rewrite skip_line_ok by (constructor; [lia|exact Hs]). reflexivity.
    - rewrite <- !app_assoc. change ([10] ++ rest) with (10 :: rest). destruct (date_head dt d (w ++ star ++ s ++ n ++ 10 :: rest) Hdt) as (c & Ec & Hc).
      split; [rewrite Ec; lia|]. exists [CTrans d p nt]. split; [repeat constructor|]. unfold LoaderModel.step.
      assert (Hwc : ws_rune c = false) by (apply ws_not, not_space; tauto). unfold has_ws. rewrite Ec, Hwc. rewrite consume_ws_id by (rewrite Ec; exact Hwc). rewrite Ec. cbn [negb].
      assert (E1 : ((c =? 59) || (c =? eol) || (c =? eof)) = false) by (unfold eol, eof; lia). assert (E2 : ((c =? 61) || (c =? 68)) = false) by lia. assert (E3 : (c =? 80) = false) by lia.
      rewrite E1, E2, E3, (digit_ok c Hc). rewrite (parse_transaction_ok dt d w star s p n nt rest) by assumption. cbn [obind bsteps bstep].
      destruct (new_transaction b d p nt); reflexivity.
    - rewrite <- !app_assoc. change ([10] ++ rest) with (10 :: rest). split.
      { destruct w1 as [|c w]; [congruence|]. apply (blank_nz (c :: w)); [exact Hw1|left; reflexivity]. }
      exists [CPost (rename al (encode a)) ccy (if neg then - q else q)%Qc nt]. split; [repeat constructor|]. unfold LoaderModel.step.
      destruct a as [|c a]; [congruence|]. assert (Hc : acct_rune c = true) by (inversion Ha; assumption). pose proof (acct_rune_head c Hc) as (_ & _ & N1 & N2 & N3 & Hsp).
      rewrite consume_ws_app by (try exact Hw1; apply ws_not; exact Hsp). rewrite has_ws_true by assumption. cbn [negb]. cbv iota.
      assert (E1 : forall x, ((ch ((c :: a) ++ x) =? 59) || (ch ((c :: a) ++ x) =? eol) || (ch ((c :: a) ++ x) =? eof)) = false) by (intros x; cbn [app ch]; unfold eol, eof; lia).
      rewrite E1. pose proof (parse_posting_ok al b [] (c :: a) w2 neg m ccy q k n nt rest ltac:(constructor) Ha Hna Hw2 Hn2 Hm Hk Hn) as P. rewrite app_nil_l in P. rewrite P. reflexivity.
    - rewrite <- !app_assoc. change ([10] ++ rest) with (10 :: rest). split.
      { destruct w1 as [|c w]; [congruence|]. apply (blank_nz (c :: w)); [exact Hw1|left; reflexivity]. }
      destruct (rest_run before b (rename al (encode a)) nt E) as (ps & Hps & Eps).
      exists (ps ++ []). split; [econstructor; [exact Hps|constructor]|]. rewrite app_nil_r. unfold LoaderModel.step.
      destruct a as [|c a]; [congruence|]. assert (Hc : acct_rune c = true) by (inversion Ha; assumption). pose proof (acct_rune_head c Hc) as (_ & _ & N1 & N2 & N3 & Hsp).
      rewrite consume_ws_app by (try exact Hw1; apply ws_not; exact Hsp). rewrite has_ws_true by assumption. cbn [negb]. cbv iota.
      assert (E1 : forall x, ((ch ((c :: a) ++ x) =? 59) || (ch ((c :: a) ++ x) =? eol) || (ch ((c :: a) ++ x) =? eof)) = false) by (intros x; cbn [app ch]; unfold eol, eof; lia).
      rewrite E1. pose proof (parse_rest_ok al b [] (c :: a) n nt rest ltac:(constructor) Ha Hna Hn) as P. rewrite app_nil_l in P. rewrite P, Eps. reflexivity.
    - rewrite <- !app_assoc. change ([10] ++ rest) with (10 :: rest). split; [discriminate|]. exists [CPrice d unit ccy q]. split; [repeat constructor|]. unfold LoaderModel.step.
      cbn [app]. rewrite consume_ws_id by reflexivity. unfold has_ws. cbn [ch]. change (ws_rune 80) with false. cbn [negb]. change ((80 =? 59) || (80 =? eol) || (80 =? eof)) with false.
      change ((80 =? 61) || (80 =? 68)) with false. change (80 =? 80) with true. cbv iota.
      rewrite (parse_price_ok b w1 dt d w2 tm w3 u unit w4 m ccy q rest) by assumption. reflexivity.
  Qed.
End Lines.
