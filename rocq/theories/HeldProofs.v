(** * HeldProofs: lists of transactions a script keeps. *)
From Verif Require Import Base Dec DateModel PriceModel BookModel BookSpec BookProofs BuilderProofs OpsModel OpsProofs OpsProofs2 AccumModel HeapModel HeapSpec HeapProofs HeapProofs2 HeapProofs3 HeapProofs4 HeapProofs5
  ImportSpec ImportProofs1 BookOpModel ConvertModel ViewModel ViewSpec ViewProps HeldModel HeldSpec.
Local Open Scope nat_scope.

Lemma upd_same {A} (d : A) : forall k l, k < length l -> upd k (nth k l d) l = l.
Proof. induction k as [|k IH]; intros [|x l] H; cbn in *; try lia; [reflexivity|]. f_equal. apply IH. lia. Qed.
Lemma nth_NoDup_id {A} (d : A) (l : list A) is : NoDup l -> Permutation is (seq 0 (length l)) -> arrange d l is = l -> is = seq 0 (length l).
Proof.
  intros Hn Hp E. assert (Hlen : length is = length l) by (rewrite (Permutation_length Hp), seq_length; reflexivity).
  apply nth_ext with (d := 0) (d' := 0); [rewrite seq_length; exact Hlen|]. intros i Hi. rewrite seq_nth by lia. cbn.
  assert (Hb : nth i is 0 < length l). { assert (H : In (nth i is 0) is) by (apply nth_In; exact Hi). apply (Permutation_in _ Hp) in H. apply in_seq in H. lia. }
  assert (E1 : nth (nth i is 0) l d = nth i l d). { transitivity (nth i (arrange d l is) d); [|rewrite E; reflexivity]. pose proof (map_nth (fun i => nth i l d) is 0 i) as M. rewrite (nth_indep (map (fun i => nth i l d) is) _ d) in M by (rewrite map_length; exact Hi). symmetry. exact M. }
  apply (proj1 (NoDup_nth l d) Hn); [exact Hb|lia|exact E1].
Qed.
Lemma arrange_seq {A} (d : A) (l : list A) : arrange d l (seq 0 (length l)) = l.
Proof. unfold arrange. induction l as [|x l IH]; [reflexivity|]. cbn [length seq map nth]. f_equal. rewrite <- seq_shift, map_map. exact IH. Qed.

Lemma hmerge_id rs : forall rest done x, StronglySorted klt (map (look rs) (done ++ x :: rest)) ->
  hmerge (length rest) (length done + 1) (length done) (done ++ x :: rest) rs = (done ++ x :: rest, rs, length done + length rest).
Proof.
  induction rest as [|y rest IH]; intros done x Hs; cbn [length hmerge]; [rewrite Nat.add_0_r; reflexivity|].
  assert (E1 : nth (length done + 1) (done ++ x :: y :: rest) hzero = y) by (rewrite app_nth2 by lia; replace (length done + 1 - length done) with 1 by lia; reflexivity).
  assert (E2 : nth (length done) (done ++ x :: y :: rest) hzero = x) by (rewrite app_nth2 by lia; rewrite Nat.sub_diag; reflexivity).
  rewrite E1, E2. assert (Hk : hsame_key y x = false).
  { destruct (hsame_key y x) eqn:Ek; [exfalso|reflexivity]. unfold hsame_key in Ek. apply andb_true_iff in Ek as [Ek E6]. apply andb_true_iff in Ek as [Ek E5]. apply andb_true_iff in Ek as [E3 E4].
    apply Z.eqb_eq in E3. apply str_eqb_eq in E4, E5, E6. assert (Hlt : klt (look rs x) (look rs y)).
    { clear -Hs. rewrite map_app in Hs. revert Hs. generalize (map (look rs) done) as l. induction l as [|z l IHl]; cbn [app map]; intros Hs; inversion Hs as [|? ? H1 H2]; subst; [inversion H2; assumption|auto]. }
    unfold klt, pkey in Hlt. cbn [look p_date p_payee p_acct p_ccy] in Hlt. rewrite E3, E4, E5, E6, (lc_refl _ kcmp_lin) in Hlt. discriminate. }
  rewrite Hk. replace (S (length done) <? length done + 1) with false by (symmetry; apply Nat.ltb_ge; lia).
  specialize (IH (done ++ [x]) y). rewrite <- app_assoc in IH. cbn [app] in IH. specialize (IH Hs). rewrite app_length in IH. cbn [length] in IH.
  replace (S (length done + 1)) with (length done + 1 + 1) by lia. replace (S (length done)) with (length done + 1) by lia. rewrite IH. f_equal. lia.
Qed.
Lemma hdrop_id rs : forall rest done, Forall (fun p => rat rs (h_val p) <> 0%Qc) rest ->
  hdrop (length rest) (length done) (length done) (done ++ rest) rs = (done ++ rest, length done + length rest).
Proof.
  induction rest as [|y rest IH]; intros done Hz; cbn [length hdrop]; [rewrite Nat.add_0_r; reflexivity|]. inversion Hz; subst.
  assert (E1 : nth (length done) (done ++ y :: rest) hzero = y) by (rewrite app_nth2 by lia; rewrite Nat.sub_diag; reflexivity). rewrite E1.
  replace (qc_is0 (rat rs (h_val y))) with false by (symmetry; apply qc_is0_neq; assumption). rewrite Nat.ltb_irrefl.
  specialize (IH (done ++ [y]) H2). rewrite <- app_assoc, app_length in IH. cbn [app length] in IH. replace (S (length done)) with (length done + 1) by lia. rewrite IH. f_equal. lia.
Qed.
(** The balances are all that changes. *)
Lemma hbal_only : forall c amts rs x, (forall p, In p c -> x <> h_bal p) -> rat (hbal amts c rs) x = rat rs x.
Proof.
  induction c as [|p c IH]; intros amts rs x H; [reflexivity|]. cbn [hbal]. rewrite IH by (intros q Hq; apply H; right; exact Hq). apply rat_upd_neq. apply H. left. reflexivity.
Qed.
Lemma put_same m s : sl_ok m s -> put m (s_arr s) (s_off s) (cells m s) = m.
Proof.
  intros Hs. pose proof (cells_length m s Hs) as Hl. destruct Hs as [Ha Hb]. unfold put. rewrite Hl. destruct m as [rs ars]. cbn [m_rats m_arrs]. f_equal.
  assert (E : firstn (s_off s) (arr (mkM rs ars) (s_arr s)) ++ cells (mkM rs ars) s ++ skipn (s_off s + s_len s) (arr (mkM rs ars) (s_arr s)) = arr (mkM rs ars) (s_arr s)).
  { unfold cells. rewrite <- skipn_skipn'. rewrite firstn_skipn. apply firstn_skipn. }
  rewrite E. unfold arr. cbn [m_arrs]. apply upd_same. exact Ha.
Qed.

Definition bals (c : list hpost) (x : nat) : Prop := exists p, In p c /\ x = h_bal p.
Section Held.
  Variable ord : list posting -> list nat.
  Variable grow : nat -> nat.
  Variable compile : str -> option regexp.
  Variable today : Z.
  Hypothesis Hord : order_ok ord.
  Notation srt := (srt_of ord).
  Hypothesis Hsrt : sort_ok is_less srt.

  Lemma lens_perm (ts us : list trans) : Forall2 (fun t u => Permutation (map vis t) (map vis u)) ts us -> map (@length posting) us = map (@length posting) ts.
  Proof. induction 1 as [|t u ts us H _ IH]; [reflexivity|]. cbn [map]. rewrite IH. f_equal. apply Permutation_length in H. rewrite !map_length in H. symmetry. exact H. Qed.

  Lemma hcompact_id m hb vb : RB m hb vb -> book_ok vb -> canonical (bk_post vb) ->
    exists m', hcompact ord m hb = (m', hb) /\ RB m' hb (compact srt vb) /\ loc (fun _ => False) (bals (cells m (hb_post hb))) m m' /\ cells m' (hb_post hb) = cells m (hb_post hb).
  Proof.
    intros HR Hok Hcan. destruct (compact_RB ord Hord m hb vb HR) as (m' & hb' & E & HR' & _). pose proof HR as ((Hs & Hn & Hb) & Hl & Ht & Hc & Hne & Hp & Hy).
    pose proof (cells_length m _ Hs) as Hcl. destruct (s_len (hb_post hb)) as [|n] eqn:En.
    { unfold hcompact in E. rewrite En in E. cbn [Nat.eqb] in E. injection E as <- <-. exists m. split; [unfold hcompact; rewrite En; reflexivity|]. split; [exact HR'|]. split; [apply loc_refl|reflexivity]. }
    assert (Hplain : Forall plain (bk_post vb)) by apply Hok. destruct Hcan as [Hss Hz].
    set (c := cells m (hb_post hb)) in *. set (rs := m_rats m) in *.
    assert (Hlook : map (look rs) c = bk_post vb) by exact Hl.
    assert (Hnd : NoDup (map (look rs) c)). { rewrite Hlook. apply (NoDup_map_inv pkey). apply canonical_distinct. split; assumption. }
    assert (Ho : ord (map (look rs) c) = seq 0 (length c)).
    { rewrite <- (map_length (look rs) c). apply (nth_NoDup_id p0); [exact Hnd|apply Hord|]. rewrite Hlook. apply (srt_canonical_id srt Hsrt); assumption. }
    assert (Ea : arrange hzero c (ord (map (look rs) c)) = c) by (rewrite Ho; apply arrange_seq).
    assert (Em : hmerge (length c - 1) 1 0 c rs = (c, rs, n)).
    { destruct c as [|x c'] eqn:Ec; [discriminate Hcl|]. cbn [length] in Hcl. injection Hcl as Hcl. cbn [length]. rewrite Nat.sub_succ, Nat.sub_0_r. pose proof (hmerge_id rs c' [] x) as H. cbn [app length Nat.add] in H. rewrite H; [|rewrite Hlook; exact Hss]. rewrite Hcl. reflexivity. }
    assert (Ed : hdrop (S n) 0 0 c rs = (c, S n)).
    { pose proof (hdrop_id rs c []) as H. cbn [app length Nat.add] in H. rewrite Hcl in H. apply H. apply Forall_forall. intros p Hpc. rewrite <- Hlook in Hz. rewrite Forall_forall in Hz. exact (Hz (look rs p) (in_map _ _ _ Hpc)). }
    assert (E2 : exists ts, hcompact ord m hb = (set_rats m (hbal [] c rs), mkHB (mkS (s_arr (hb_post hb)) (s_off (hb_post hb)) (S n)) ts (hb_prices hb) (hb_ccy hb))).
    { unfold hcompact. rewrite En. cbn [Nat.eqb]. fold c rs. rewrite Ea, Em, Ed. cbn [Nat.eqb]. rewrite <- Hcl, firstn_all. eexists. unfold c at 1. rewrite (put_same m _ Hs). reflexivity. }
    destruct E2 as (ts & E2). rewrite E2 in E. injection E as <- <-. pose proof HR' as (_ & _ & Ht' & _). cbn [hb_trans hb_post s_arr s_off] in Ht'.
    assert (Ehb : mkHB (mkS (s_arr (hb_post hb)) (s_off (hb_post hb)) (S n)) ts (hb_prices hb) (hb_ccy hb) = hb).
    { rewrite Ht'. rewrite (lens_perm _ _ (regroup srt Hsrt vb Hok (canonical_distinct _ (conj Hss Hz)) Hz)), <- Ht, <- En. destruct hb as [s t pr cc]. destruct s. reflexivity. }
    rewrite Ehb in *. eexists. split; [exact E2|]. split; [exact HR'|]. split; [|reflexivity].
    destruct (hbal_spec c [] rs Hn Hb) as (L4 & _ & _). split; [cbn; lia|]. split; [cbn [set_rats m_rats]; fold rs; lia|]. split; [reflexivity|]. intros x _ Hx. cbn [set_rats m_rats]. apply hbal_only. intros p Hpc ->. apply Hx. exists p. auto.
  Qed.

  (** ** States of a script *)
  Record Good (st : sdata) (vb : book) : Prop := {
    g_RB : RB (sd_m st) (sd_b st) vb; g_ok : book_ok vb; g_can : canonical (bk_post vb);
    g_k : sd_k st < length (sd_t st); g_t : firstn (length (hb_trans (sd_b st))) (nth (sd_k st) (sd_t st) []) = hb_trans (sd_b st) }.
  Lemma rewrite_same ts t k : k < length t -> firstn (length ts) (nth k t []) = ts -> rewrite_trans ts t k = (t, k).
  Proof.
    intros Hk E. unfold rewrite_trans. assert (Hle : length ts <= length (nth k t [])) by (rewrite <- E at 1; rewrite firstn_length; lia).
    apply Nat.leb_le in Hle. rewrite Hle. rewrite <- E at 1. rewrite firstn_skipn. rewrite upd_same by exact Hk. reflexivity.
  Qed.
  Lemma compacted_good st m b vb : sd_k st < length (sd_t st) -> RB m b vb -> book_ok vb -> canonical (bk_post vb) -> Good (compacted st m b) vb.
  Proof.
    intros Hk HR Hok Hc. unfold compacted, rewrite_trans. destruct (length (hb_trans b) <=? length (nth (sd_k st) (sd_t st) [])); split; cbn [sd_m sd_b sd_t sd_k]; try assumption.
    - rewrite upd_length. exact Hk.
    - rewrite nth_upd_eq by exact Hk. rewrite firstn_app, firstn_all, Nat.sub_diag. cbn [firstn]. apply app_nil_r.
    - rewrite app_length. cbn. lia.
    - rewrite app_nth2 by lia. rewrite Nat.sub_diag. cbn [nth]. apply firstn_all.
  Qed.
  Lemma filtered_good st m b vb : RB m b vb -> book_ok vb -> canonical (bk_post vb) -> Good (filtered st m b) vb.
  Proof.
    intros HR Hok Hc. split; cbn [filtered sd_m sd_b sd_t sd_k]; try assumption.
    - rewrite app_length. cbn. lia.
    - rewrite app_nth2 by lia. rewrite Nat.sub_diag. cbn [nth]. apply firstn_all.
  Qed.
  Lemma date_canonical b c b' : book_ok b -> canonical (bk_post b) -> date_call c -> ~ bad_date today c -> data_step srt compile today b c = Ok (b', false) -> book_ok b' /\ canonical (bk_post b').
  Proof.
    intros Hok Hc Hd Hn E. destruct (dated_step srt Hsrt compile today b c Hok Hd Hn) as (b1 & E1 & Hok1 & P1). rewrite E in E1. injection E1 as <-. split; [exact Hok1|]. rewrite P1. apply filter_canonical. exact Hc.
  Qed.
  Lemma map_canonical mt r h alt b b' : book_ok b -> run_op srt (ORegexAccounts mt r h alt) b = Ok b' -> book_ok b' /\ canonical (bk_post b').
  Proof.
    intros Hok E. split; [apply (run_op_ok srt Hsrt (ORegexAccounts mt r h alt) b b' Hok); [intros ob C; discriminate C|exact E]|]. cbn [run_op] in E. injection E as <-. unfold regex_accounts, map_account. apply (compact_canonical srt Hsrt).
    cbn [with_post bk_post]. rewrite map_acct_loop_eq by (intros a n C; discriminate C). destruct Hok as (Hp & _). rewrite Forall_forall in *. intros p Hi. apply in_map_iff in Hi as (q & <- & Hq). specialize (Hp q Hq). split; [reflexivity|apply Hp].
  Qed.

  (** *** One call: the script sees what it would see with values *)
  Lemma hcall_sim st vb hs vs c : Good st vb ->
    match vcall_step srt compile today vb vs c with
    | Ok (vb', vs', failed) => exists st' hs', hcall_step ord grow compile today st hs c = Ok (st', hs', failed) /\ Good st' vb' /\
        match c with HTake => exists h, hs' = hs ++ [h] /\ vs' = vs ++ [bk_trans vb'] /\ show st' h = bk_trans vb' /\ h = (sd_k st', length (hb_trans (sd_b st'))) | _ => hs' = hs /\ vs' = vs end
    | Error => hcall_step ord grow compile today st hs c = Error
    | Panic => hcall_step ord grow compile today st hs c = Panic
    | Diverge => hcall_step ord grow compile today st hs c = Diverge
    end.
  Proof.
    intros HG. pose proof HG as [HR Hok Hcan Hk Ht]. destruct c as [|[s|s|from to alt]]; cbn [vcall_step hcall_step data_step].
    - unfold transactions. pose proof (op_RB ord grow Hord OTransactions _ _ _ HR eq_refl) as H. cbn [run_op res] in H. destruct H as (m' & hb' & E & HR' & _). rewrite E. cbn [obind].
      assert (HG' : Good (compacted st m' hb') (compact srt vb)) by (apply compacted_good; [exact Hk|exact HR'|apply (compact_book_ok srt Hsrt); exact Hok|apply (compact_canonical srt Hsrt); apply Hok]).
      do 2 eexists. split; [reflexivity|]. split; [exact HG'|]. assert (Eb : sd_b (compacted st m' hb') = hb') by (unfold compacted; destruct (rewrite_trans _ _ _); reflexivity). rewrite Eb in *. eexists. split; [reflexivity|]. split; [reflexivity|]. split; [|reflexivity].
      unfold show. cbn [fst snd]. pose proof (g_t _ _ HG') as Ht'. rewrite Eb in Ht'. rewrite Ht'. pose proof (RB_read _ _ _ (g_RB _ _ HG')) as Hr. rewrite Eb in Hr. rewrite <- Hr. reflexivity.
    - destruct (date_from_string today s =? 0)%Z eqn:Ed; cbn [obind].
      + do 2 eexists. split; [reflexivity|]. split; [exact HG|]. split; reflexivity.
      + apply Z.eqb_neq in Ed. destruct (dated_step srt Hsrt compile today vb (DSince s) Hok I Ed) as (b1 & E1 & Hok1 & P1). unfold data_step in E1. rewrite (proj2 (Z.eqb_neq _ _) Ed) in E1. apply obind_Ok in E1 as (b2 & E1 & E2). injection E2 as ->. rewrite E1. cbn [obind].
        pose proof (op_RB ord grow Hord (OSince (date_from_string today s)) _ _ _ HR eq_refl) as H. rewrite E1 in H. destruct H as (m' & hb' & E & HR' & _). rewrite E. cbn [obind]. do 2 eexists. split; [reflexivity|]. split; [|split; reflexivity].
        apply filtered_good; [exact HR'|exact Hok1|]. rewrite P1. apply filter_canonical. exact Hcan.
    - destruct (date_from_string today s =? 0)%Z eqn:Ed; cbn [obind].
      + do 2 eexists. split; [reflexivity|]. split; [exact HG|]. split; reflexivity.
      + apply Z.eqb_neq in Ed. destruct (dated_step srt Hsrt compile today vb (DAsof s) Hok I Ed) as (b1 & E1 & Hok1 & P1). unfold data_step in E1. rewrite (proj2 (Z.eqb_neq _ _) Ed) in E1. apply obind_Ok in E1 as (b2 & E1 & E2). injection E2 as ->. rewrite E1. cbn [obind].
        pose proof (op_RB ord grow Hord (OAsof (date_from_string today s)) _ _ _ HR eq_refl) as H. rewrite E1 in H. destruct H as (m' & hb' & E & HR' & _). rewrite E. cbn [obind]. do 2 eexists. split; [reflexivity|]. split; [|split; reflexivity].
        apply filtered_good; [exact HR'|exact Hok1|]. rewrite P1. apply filter_canonical. exact Hcan.
    - unfold must_compile. destruct (compile from) as [re|]; cbn [obind]; [|reflexivity].
      set (o := ORegexAccounts (rx_match re) (fun a => rx_repl re a to) (negb (str_eqb to [])) alt). pose proof (op_RB ord grow Hord o _ _ _ HR eq_refl) as H. destruct (run_op srt o vb) as [b1| | |] eqn:E1; cbn [res obind] in *; try (rewrite H; reflexivity).
      destruct H as (m' & hb' & E & HR' & _). rewrite E. cbn [obind]. destruct (map_canonical _ _ _ _ _ _ Hok E1) as [Hok1 Hcan1]. do 2 eexists. split; [reflexivity|]. split; [|split; reflexivity]. apply compacted_good; assumption.
  Qed.
  Lemma hcalls_sim cs : forall st vb hs vs, Good st vb -> length hs = length vs ->
    match vcalls srt compile today vb vs cs with
    | Ok (vb', vs', failed) => exists st' hs2, hcalls ord grow compile today st hs cs = Ok (st', hs ++ hs2, failed) /\ Good st' vb' /\ length (hs ++ hs2) = length vs'
    | Error => hcalls ord grow compile today st hs cs = Error
    | Panic => hcalls ord grow compile today st hs cs = Panic
    | Diverge => hcalls ord grow compile today st hs cs = Diverge
    end.
  Proof.
    induction cs as [|c cs IH]; intros st vb hs vs HG Hl; cbn [vcalls hcalls].
    - exists st, []. rewrite app_nil_r. auto.
    - pose proof (hcall_sim st vb hs vs c HG) as H. destruct (vcall_step srt compile today vb vs c) as [[[vb1 vs1] f]| | |]; cbn [obind]; try (rewrite H; reflexivity).
      destruct H as (st1 & hs1 & E & HG1 & Hc). rewrite E. cbn [obind]. assert (Hx : exists hx, hs1 = hs ++ hx /\ length hs1 = length vs1).
      { destruct c; [destruct Hc as (h & -> & -> & _); exists [h]; rewrite !app_length; cbn; split; [reflexivity|lia]|]. destruct Hc as [-> ->]. exists []. rewrite app_nil_r. auto. }
      destruct Hx as (hx & -> & Hl1). destruct f.
      + exists st1, hx. auto.
      + specialize (IH st1 vb1 (hs ++ hx) vs1 HG1 Hl1). destruct (vcalls srt compile today vb1 vs1 cs) as [[[vb2 vs2] f]| | |]; try exact IH.
        destruct IH as (st2 & hs2 & E2 & HG2 & Hl2). exists st2, (hx ++ hs2). rewrite app_assoc. auto.
  Qed.
  Lemma hcalls_app st hs cs1 cs2 st1 hs1 : hcalls ord grow compile today st hs cs1 = Ok (st1, hs1, false) ->
    hcalls ord grow compile today st hs (cs1 ++ cs2) = hcalls ord grow compile today st1 hs1 cs2.
  Proof.
    revert st hs. induction cs1 as [|c cs1 IH]; intros st hs E; cbn [hcalls app] in *; [injection E as -> ->; reflexivity|].
    destruct (hcall_step ord grow compile today st hs c) as [[[st2 hs2] f]| | |]; cbn [obind] in *; try discriminate. destruct f; [discriminate|]. apply IH. exact E.
  Qed.
  Lemma hcalls_prefix st hs cs1 cs2 st2 hs2 : hcalls ord grow compile today st hs (cs1 ++ cs2) = Ok (st2, hs2, false) ->
    exists st1 hs1, hcalls ord grow compile today st hs cs1 = Ok (st1, hs1, false).
  Proof.
    revert st hs. induction cs1 as [|c cs1 IH]; intros st hs E; cbn [hcalls app] in *; [eauto|].
    destruct (hcall_step ord grow compile today st hs c) as [[[st3 hs3] f]| | |]; cbn [obind] in *; try discriminate. destruct f; [discriminate|]. apply (IH _ _ E).
  Qed.

  (** ** What a later call may touch *)
  Definition Fwd (c0 : list hpost) (st0 st : sdata) : Prop :=
    loc (fun _ => False) (bals c0) (sd_m st0) (sd_m st) /\ sub (cells (sd_m st) (hb_post (sd_b st))) c0 /\
    forall k, k < length (sd_t st0) -> nth k (sd_t st) [] = nth k (sd_t st0) [] /\ k < length (sd_t st).
  Lemma bals_sub a b x : sub a b -> bals a x -> bals b x.
  Proof. intros H (p & Hp & ->). exists p. split; [exact (sub_In _ _ _ H Hp)|reflexivity]. Qed.
  Lemma take_same st vb hs st' hs' f : Good st vb -> hcall_step ord grow compile today st hs HTake = Ok (st', hs', f) ->
    exists m', st' = mkSD m' (sd_b st) (sd_t st) (sd_k st) /\ f = false /\ hs' = hs ++ [(sd_k st, length (hb_trans (sd_b st)))] /\ Good st' (compact srt vb) /\
      loc (fun _ => False) (bals (cells (sd_m st) (hb_post (sd_b st)))) (sd_m st) m' /\ cells m' (hb_post (sd_b st)) = cells (sd_m st) (hb_post (sd_b st)).
  Proof.
    intros HG E. pose proof HG as [HR Hok Hcan Hk Ht]. pose proof (hcall_sim st vb hs [] HTake HG) as HS. cbn [vcall_step transactions] in HS. destruct HS as (st1 & hs1 & E1 & HG1 & _). rewrite E in E1. injection E1 as <- <- ->.
    cbn [hcall_step hrun_op obind] in E. destruct (hcompact_id _ _ _ HR Hok Hcan) as (m' & E2 & HR2 & Hl2 & Hc2). rewrite E2 in E. cbn [obind] in E. unfold compacted in E. rewrite (rewrite_same _ _ _ Hk Ht) in E. cbn [sd_k] in E. injection E as <- <-.
    exists m'. repeat (split; [first [reflexivity|assumption]|]). assumption.
  Qed.
  Lemma date_ext st vb hs c st' hs' : Good st vb -> date_call c -> hcall_step ord grow compile today st hs (HData c) = Ok (st', hs', false) ->
    exists m' b', st' = filtered st m' b' /\ hs' = hs /\ ext (sd_m st) m' /\ sub (cells m' (hb_post b')) (cells (sd_m st) (hb_post (sd_b st))).
  Proof.
    intros HG Hd E. pose proof HG as [HR _ _ _ _].
    assert (X : forall f m' b', hfilter_transaction grow f (sd_m st) (sd_b st) = Ok (m', b') -> ext (sd_m st) m' /\ sub (cells m' (hb_post b')) (cells (sd_m st) (hb_post (sd_b st)))).
    { intros f m' b' E1. unfold hfilter_transaction in E1. pose proof (hfilter_spec grow (fun (_ : unit) t => Ok (first_of f t, tt)) tt _ _ _ (RB_WB _ _ _ HR)) as H. destruct (vfilter _ tt (bk_trans vb)) as [keep| | |]; try (rewrite H in E1; discriminate).
      destruct H as (m1 & b1 & E2 & Hx & _ & _ & _ & Hsub & _). rewrite E1 in E2. injection E2 as <- <-. auto. }
    destruct c as [s|s|f t a]; [| |destruct Hd]; cbn [hcall_step] in E; destruct (date_from_string today s =? 0)%Z eqn:Ed; try discriminate E; apply obind_Ok in E as ((m' & b') & E1 & E2); injection E2 as <- <-; cbn [hrun_op] in E1; rewrite Ed in E1; destruct (X _ _ _ E1); exists m', b'; auto.
  Qed.
  Lemma Fwd_step c0 st0 st vb hs c st' hs' : Good st vb -> Fwd c0 st0 st -> takes c \/ chooses c -> hcall_step ord grow compile today st hs c = Ok (st', hs', false) -> Fwd c0 st0 st'.
  Proof.
    intros HG (F1 & F2 & F3) Hc E. destruct Hc as [->|(d & -> & Hd)].
    - destruct (take_same _ _ _ _ _ _ HG E) as (m' & -> & _ & _ & _ & Hl & Hcells). split; [|split]; cbn [sd_m sd_b sd_t].
      + apply (loc_trans _ _ _ _ _ _ _ F1 Hl); [tauto|]. intros x _ Hx. exact (bals_sub _ _ _ F2 Hx).
      + rewrite Hcells. exact F2.
      + exact F3.
    - destruct (date_ext _ _ _ _ _ _ HG Hd E) as (m' & b' & -> & _ & Hx & Hsub). split; [|split]; cbn [filtered sd_m sd_b sd_t].
      + apply (loc_trans _ _ _ _ _ _ _ F1 Hx); tauto.
      + exact (sub_trans _ _ _ Hsub F2).
      + intros k Hk. destruct (F3 k Hk) as [H1 H2]. rewrite app_nth1 by exact H2. rewrite app_length. split; [exact H1|lia].
  Qed.
  Lemma Fwd_steps c0 st0 cs : forall st vb hs st' hs', Good st vb -> Fwd c0 st0 st -> Forall (fun c => takes c \/ chooses c) cs ->
    hcalls ord grow compile today st hs cs = Ok (st', hs', false) -> Fwd c0 st0 st' /\ exists hs2, hs' = hs ++ hs2.
  Proof.
    induction cs as [|c cs IH]; intros st vb hs st' hs' HG HF Hc E; cbn [hcalls] in E.
    - injection E as <- <-. split; [exact HF|]. exists []. rewrite app_nil_r. reflexivity.
    - inversion Hc; subst. apply obind_Ok in E as (((st1 & hs1) & f) & E1 & E2). destruct f; [discriminate|]. pose proof (Fwd_step _ _ _ _ _ _ _ _ HG HF H1 E1) as HF1.
      pose proof (hcall_sim st vb hs [] c HG) as HS. destruct (vcall_step srt compile today vb [] c) as [[[vb1 vs1] f]| | |]; try (rewrite HS in E1; discriminate). destruct HS as (st2 & hs2 & E3 & HG1 & Hx). rewrite E1 in E3. injection E3 as <- <- <-.
      destruct (IH _ _ _ _ _ HG1 HF1 H2 E2) as (HF2 & hs3 & ->). split; [exact HF2|]. destruct c; [destruct Hx as (h & -> & _); exists ([h] ++ hs3); rewrite app_assoc; reflexivity|]. destruct Hx as [-> _]. exists hs3. reflexivity.
  Qed.
  (** Reading a kept list later. *)
  Lemma show_later st0 vb st : Good st0 vb -> Fwd (cells (sd_m st0) (hb_post (sd_b st0))) st0 st ->
    map (map all_but_balance) (show st (sd_k st0, length (hb_trans (sd_b st0)))) = map (map all_but_balance) (bk_trans vb).
  Proof.
    intros [HR _ _ Hk Ht] (F1 & _ & F3). unfold show. cbn [fst snd]. destruct (F3 _ Hk) as [-> _]. rewrite Ht. pose proof (RB_read _ _ _ HR) as Hr. rewrite <- Hr. cbn [read bk_trans]. rewrite !map_map. apply map_ext_in. intros t Hin.
    destruct (RB_WB _ _ _ HR) as (_ & Hb & Hsl & Hcc & _). destruct HR as ((_ & Hn & _) & _). set (c0 := cells (sd_m st0) (hb_post (sd_b st0))) in *.
    unfold look_slice. rewrite (cells_loc _ _ _ _ _ F1) by (try tauto; apply Hsl; exact Hin). rewrite !map_map. apply map_ext_in. intros p Hp.
    assert (Hpc : In p c0) by (rewrite <- Hcc; apply in_concat; exists (cells (sd_m st0) t); split; [apply in_map; exact Hin|exact Hp]).
    unfold all_but_balance. cbn [look p_date p_payee p_tnote p_acct p_ccy p_val p_note]. destruct F1 as (_ & _ & _ & F1). rewrite F1; [reflexivity|apply Hb; apply ptrs_In; eauto|].
    intros (q & Hq & Eq). clear -Hn Hpc Hq Eq. induction c0 as [|x c IH]; [destruct Hpc|]. rewrite ptrs_cons in Hn. inversion Hn as [|? ? N1 N2]; subst. inversion N2 as [|? ? N3 N4]; subst.
    destruct Hpc as [->|Hpc], Hq as [->|Hq].
    - apply N1. left. symmetry. exact Eq.
    - apply N1. right. apply ptrs_In. exists q. auto.
    - apply N3. apply ptrs_In. exists p. auto.
    - apply IH; assumption.
  Qed.
  (** Taking the list again changes nothing, and choosing a period touches neither cells nor numbers. *)
  Lemma takes_exact cs : forall st vb hs st' hs', Good st vb -> compact srt vb = vb -> Forall takes cs -> hcalls ord grow compile today st hs cs = Ok (st', hs', false) ->
    Good st' vb /\ (exists hs2, hs' = hs ++ hs2) /\ sd_t st' = sd_t st /\ sd_k st' = sd_k st /\ hb_trans (sd_b st') = hb_trans (sd_b st).
  Proof.
    induction cs as [|c cs IH]; intros st vb hs st' hs' HG Hi Hc E; cbn [hcalls] in E.
    - injection E as <- <-. split; [exact HG|]. split; [exists []; rewrite app_nil_r; reflexivity|]. auto.
    - inversion Hc as [|? ? H1 H2]; subst. red in H1. subst c. apply obind_Ok in E as (((st1 & hs1) & f) & E1 & E2). destruct f; [discriminate|].
      destruct (take_same _ _ _ _ _ _ HG E1) as (m' & -> & _ & -> & HG1 & _). rewrite Hi in HG1. destruct (IH _ _ _ _ _ HG1 Hi H2 E2) as (G & (hs2 & ->) & T1 & T2 & T3). split; [exact G|]. split; [eexists; rewrite <- app_assoc; reflexivity|]. auto.
  Qed.
  Lemma chooses_ext cs : forall st vb hs st' hs', Good st vb -> Forall chooses cs -> hcalls ord grow compile today st hs cs = Ok (st', hs', false) ->
    ext (sd_m st) (sd_m st') /\ hs' = hs /\ forall k, k < length (sd_t st) -> nth k (sd_t st') [] = nth k (sd_t st) [].
  Proof.
    induction cs as [|c cs IH]; intros st vb hs st' hs' HG Hc E; cbn [hcalls] in E.
    - injection E as <- <-. split; [apply loc_refl|]. auto.
    - inversion Hc as [|? ? H1 H2]; subst. destruct H1 as (d & -> & Hd). apply obind_Ok in E as (((st1 & hs1) & f) & E1 & E2). destruct f; [discriminate|].
      pose proof (hcall_sim st vb hs [] (HData d) HG) as HS. destruct (vcall_step srt compile today vb [] (HData d)) as [[[vb1 vs1] f]| | |]; try (rewrite HS in E1; discriminate). destruct HS as (st2 & hs2 & E3 & HG1 & Hx). rewrite E1 in E3. injection E3 as <- <- <-.
      destruct (date_ext _ _ _ _ _ _ HG Hd E1) as (m' & b' & Est & -> & Hx1 & _). destruct (IH _ _ _ _ _ HG1 H2 E2) as (X & -> & K). subst st1. cbn [filtered sd_m sd_t] in *. split; [exact (ext_trans _ _ _ Hx1 X)|]. split; [reflexivity|].
      intros k Hk. rewrite K by (rewrite app_length; lia). apply app_nth1. exact Hk.
  Qed.
  (** ** Loading *)
  Lemma hbsteps_RU cs : forall m hu u, RU m hu u -> match bsteps u cs with
    | Ok u' => exists m' hu', hbsteps grow m hu cs = Ok (m', hu') /\ RU m' hu' u'
    | Error => hbsteps grow m hu cs = Error | Panic => hbsteps grow m hu cs = Panic | Diverge => hbsteps grow m hu cs = Diverge end.
  Proof.
    induction cs as [|c cs IH]; intros m hu u HR; cbn [bsteps hbsteps]; [eauto|]. pose proof (bstep_RU grow c m hu u HR) as H. unfold resu in H.
    destruct (bstep u c) as [u1| | |]; cbn [obind]; try (rewrite H; reflexivity). destruct H as (m1 & hu1 & E & HR1 & _). rewrite E. cbn [obind]. apply IH. exact HR1.
  Qed.
  Lemma load_good calls : match build_calls srt calls with
    | Ok b => exists st, hload ord grow calls = Ok st /\ Good st b
    | Error => hload ord grow calls = Error | Panic => hload ord grow calls = Panic | Diverge => hload ord grow calls = Diverge end.
  Proof.
    unfold build_calls, hload. destruct (hnew_builder (mkM [] [])) as [m0 hu0] eqn:E0. destruct (new_RU _ _ _ E0) as (_ & HR0 & _).
    pose proof (hbsteps_RU calls m0 hu0 new_builder HR0) as H. destruct (bsteps new_builder calls) as [u| | |] eqn:Eb; cbn [obind]; try (rewrite H; reflexivity).
    destruct H as (m1 & hu1 & E1 & HR1). rewrite E1. cbn [obind]. pose proof (build_RU ord Hord m1 hu1 u HR1) as H. destruct (check_and_clear u) as [u'| | |] eqn:Ec.
    - destruct H as (m2 & hb & b & E2 & E3 & HRb & _). rewrite E3, E2. cbn [obind]. eexists. split; [reflexivity|].
      destruct (build_calls_cases srt Hsrt calls) as [(_ & bk & E4 & Hok & Hcan & _)|[_ E4]]; unfold build_calls in E4; rewrite Eb in E4; cbn [obind] in E4; rewrite E3 in E4; [|discriminate]. injection E4 as <-.
      split; cbn [sd_m sd_b sd_t sd_k length nth]; try assumption; [lia|apply firstn_all].
    - unfold build. rewrite Ec. cbn [obind]. rewrite H. reflexivity.
    - unfold build. rewrite Ec. cbn [obind]. rewrite H. reflexivity.
    - unfold build. rewrite Ec. cbn [obind]. rewrite H. reflexivity.
  Qed.
End Held.
