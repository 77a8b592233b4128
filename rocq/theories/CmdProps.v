(** * CmdProps: C93 (the report command), C90 (the register command). *)
From Verif Require Import Base Regex Dec DateModel DateSpec DateProofs DateProofs2 PriceModel PriceSpec PriceProofs BookModel BookSpec BookProofs BuilderProofs
  OpsModel OpsProofs OpsProofs2 OpsProofs3 BookOpModel BookProps RegisterModel RegisterSpec RegisterProofs RegisterProps AccumModel AccumSpec AccumProofs AccumProps CmdModel CmdSpec CmdProofs.

Definition readable (b : book) : Prop := pb_ok (bk_prices b) /\ pb_pos (bk_prices b) /\ forall p, In p (bk_post b) -> valid_date (p_date p).

Lemma split_prices srt f b : bk_prices (map_transaction srt f b) = bk_prices b.
Proof. unfold map_transaction, compact. cbn [with_post bk_post]. destruct (map_trans_loop f 0 (bk_post b)); reflexivity. Qed.
Definition keyf (today : Z) (by_ : option by_period) (d : Z) (pay : str) : Z * str := match by_ with None => (d, pay) | Some k => (floor today d (by_name k), []) end.
Lemma keyf_placed today by_ p : valid_date (p_date p) -> placed today by_ p (fst (keyf today by_ (p_date p) (p_payee p))) (snd (keyf today by_ (p_date p) (p_payee p))).
Proof.
  destruct by_ as [k|]; cbn [keyf fst snd placed]; [|auto]. intros (y & m & d & V & E). split; [|reflexivity]. destruct k as [p0| |]; cbn [first_day by_name]; [|reflexivity..].
  exists y, m, d. split; [exact V|]. split; [exact E|]. rewrite E. unfold floor. apply valid_bounds in V as B. destruct V as (H1 & H2 & H3). rewrite floor_diff_spec by lia. rewrite Z.add_0_r. reflexivity.
Qed.
Lemma keyf_valid today by_ d pay : valid_date today -> valid_date d -> valid_date (fst (keyf today by_ d pay)).
Proof.
  intros Ht Hd. destruct by_ as [k|]; cbn [keyf fst]; [|exact Hd]. destruct k as [p0| |]; cbn [by_name]; [apply (proj1 (floor_idem today p0 d Hd))|exact Ht|exact Hd].
Qed.
Lemma by_text_skip by_ : str_eqb (by_text by_) (bs "skip") = match by_ with None => true | Some _ => false end.
Proof. destruct by_ as [[[]| |]|]; reflexivity. Qed.

Lemma Forall2_In_imp {A B} (R S : A -> B -> Prop) l m : (forall x y, In x l -> R x y -> S x y) -> Forall2 R l m -> Forall2 S l m.
Proof. intros H F. induction F as [|x y l m Hxy _ IH]; constructor; [apply H; [left; reflexivity|exact Hxy]|apply IH; intros a b Ha; apply H; right; exact Ha]. Qed.
Lemma Forall2_and {A B} (R S : A -> B -> Prop) l m : Forall2 R l m -> Forall2 S l m -> Forall2 (fun x y => R x y /\ S x y) l m.
Proof. intros F. induction F as [|x y l m Hxy _ IH]; intros G; inversion G; subst; constructor; [split; assumption|apply IH; assumption]. Qed.
Section Report.
  Variable srt : list posting -> list posting.
  Hypothesis Hs : sort_ok is_less srt.
  Variable compile : str -> option regexp.
  Variable parse_float : str -> option Qc.
  Variable today : Z.
  Hypothesis Htoday : valid_date today.
  Variable ploop : (pair -> pair) -> pbook -> pbook.
  Variable macros : str -> option (list str).
  Variable fuel : nat.
  Variable it : list posting -> list str -> list str.
  Variable micro : Qc -> Z.
  Variable base : str.
  Hypothesis Hbase : base <> [].
  Variable divider : Z.
  Notation report := (report_run srt compile parse_float today ploop macros fuel it micro base [divider]).
  Notation ops := (ops_of srt compile parse_float today ploop macros fuel).

  (** the book after --splitby and --convert *)
  Definition placed_book (by_ : option by_period) (b : book) : book := match by_ with None => b | Some k => split_by srt (fun _ => today) (by_name k) b end.
  Definition converted (convert : bool) (b : book) : book := if convert then map_amount (fun d c => (rate (bk_prices b) base d c, base)) b else b.
  Lemma placed_prices by_ b : bk_prices (placed_book by_ b) = bk_prices b.
  Proof. destruct by_; [apply split_prices|reflexivity]. Qed.
  Lemma placed_ok by_ b : book_ok b -> book_ok (placed_book by_ b).
  Proof. intros H. destruct by_; [|exact H]. apply (map_transaction_ok srt Hs (fun d _ => (floor today d (by_name b0), []))). exact H. Qed.
  Lemma placed_dates by_ b : readable b -> readable (placed_book by_ b).
  Proof.
    intros (H1 & H2 & H3). split; [rewrite placed_prices; exact H1|]. split; [rewrite placed_prices; exact H2|]. destruct by_ as [k|]; [|exact H3]. intros p Hp.
    apply (map_transaction_origin srt Hs (fun d _ => (floor today d (by_name k), []))) in Hp as (q & Hq & E & _). injection E as -> _. apply (keyf_valid today (Some k) (p_date q) [] Htoday). apply H3. exact Hq.
  Qed.
  Lemma placed_wtotal by_ w b : wtotal w (bk_post (placed_book by_ b)) = wtotal (fun d pay a c => w (fst (keyf today by_ d pay)) (snd (keyf today by_ d pay)) a c) (bk_post b).
  Proof. destruct by_ as [k|]; [|reflexivity]. apply (map_transaction_wtotal srt (fun d _ => (floor today d (by_name k), []))). exact Hs. Qed.
  Lemma converted_ok c b : book_ok b -> book_ok (converted c b).
  Proof. intros H. destruct c; [apply map_amount_ok|]; exact H. Qed.
  Lemma converted_dates c b : readable b -> readable (converted c b).
  Proof. intros H. destruct c; [|exact H]. destruct H as (H1 & H2 & H3). split; [exact H1|]. split; [exact H2|]. cbn [converted map_amount bk_post]. intros p Hp. apply in_map_iff in Hp as (q & <- & Hq). apply (H3 q Hq). Qed.
  Lemma converted_total c b g : total g (bk_post (converted c b)) =
    wtotal (fun d pay a cy => if g d pay a (if c then base else cy) then (if c then rate (bk_prices b) base d cy else 1)%Qc else 0%Qc) (bk_post b).
  Proof.
    destruct c; cbn [converted]; [rewrite map_amount_total; reflexivity|]. unfold total, wtotal. induction (bk_post b) as [|p l IH]; [reflexivity|]. cbn [filter map]. rewrite qsum_cons. unfold on at 1. destruct (g _ _ _ _); [cbn [map]; rewrite qsum_cons, IH|rewrite IH]; ring.
  Qed.
  Lemma report_unfold o args b b1 by_ : ops args b = Ok b1 -> readable b1 -> ro_type o <> bs "Beancount" -> ro_by o = by_text by_ -> (ro_credit o = [] \/ compile (ro_credit o) <> None) ->
    report o args b = if ro_sum o then accumulate srt it micro base [divider] (if str_eqb (ro_credit o) [] then None else option_map rx_match (compile (ro_credit o))) (ro_hidden o) (converted (ro_convert o) (placed_book by_ b1))
      else Ok (transactions srt (converted (ro_convert o) (placed_book by_ b1))).
  Proof.
    intros E Hr Ht Hby Hc. unfold report_run. rewrite E. cbn [obind]. destruct (str_eqb_spec (ro_type o) (bs "Beancount")) as [|_]; [contradiction|]. cbn [negb andb]. rewrite Hby, by_text_skip.
    assert (Eb : (if negb (match by_ with None => true | Some _ => false end) then split_by srt (fun _ => today) (by_text by_) b1 else b1) = placed_book by_ b1) by (destruct by_; reflexivity). rewrite Eb.
    assert (Ec : convert_if (ro_convert o) base (placed_book by_ b1) = Ok (converted (ro_convert o) (placed_book by_ b1))).
    { unfold convert_if, converted. destruct (ro_convert o); [|reflexivity]. destruct (str_eqb_spec base []); [contradiction|]. destruct (placed_dates by_ b1 Hr) as (H1 & H2 & H3). apply convert_ok; assumption. }
    rewrite Ec. cbn [obind].
    assert (Ed : (if negb (str_eqb (ro_credit o) []) then match compile (ro_credit o) with Some re => Ok (Some (rx_match re)) | None => Error end else Ok None) = Ok (if str_eqb (ro_credit o) [] then None else option_map rx_match (compile (ro_credit o)))).
    { destruct (str_eqb_spec (ro_credit o) []) as [|N]; [reflexivity|]. cbn [negb]. destruct Hc as [Hc|Hc]; [contradiction|]. destruct (compile (ro_credit o)); [reflexivity|congruence]. }
    rewrite Ed. cbn [obind]. destruct (ro_sum o); [|reflexivity]. destruct (str_eqb_spec base []); [contradiction|]. reflexivity.
  Qed.

  (** ** C93. What a report adds up. Every posting of the book (after the operations) is counted exactly once, under its date and payee or the first day
      of its period, in its currency or (--convert) in the base currency, at the price of that day; every transaction reported sums to zero. *)
  Theorem C93_report_partial o args b b1 by_ : reachable srt b -> ops args b = Ok b1 -> readable b1 -> ro_type o <> bs "Beancount" -> ro_by o = by_text by_ ->
    (ro_credit o = [] \/ compile (ro_credit o) <> None) -> ro_sum o = false ->
    exists b2 ts, report o args b = Ok (b2, ts) /\
      (forall p, In p (concat ts) -> p_val p <> 0%Qc /\ (ro_convert o = true -> p_ccy p = base)) /\
      (forall t p q, In t ts -> In p t -> In q t -> p_date p = p_date q /\ p_payee p = p_payee q) /\
      (forall t c, In t ts -> qsum (map p_val (filter (fun p => str_eqb (p_ccy p) c) t)) = 0%Qc) /\
      StronglySorted (fun t u => forall p q, In p t -> In q u -> p_date p < p_date q \/ (by_ = None /\ p_date p = p_date q /\ str_cmp (p_payee p) (p_payee q) = Lt)) ts /\
      exists (key : posting -> Z * str) (r : posting -> Qc),
        (forall p, In p (bk_post b1) -> placed today by_ p (fst (key p)) (snd (key p)) /\
           if ro_convert o then worth (bk_prices b1) (fst (key p)) (p_ccy p) base (r p) else r p = 1%Qc) /\
        forall d pay a c, total (at_key d pay a c) (concat ts) =
          sum_of (fun p => if (fst (key p) =? d) && str_eqb (snd (key p)) pay && str_eqb (p_acct p) a && str_eqb (if ro_convert o then base else p_ccy p) c then (r p * p_val p)%Qc else 0%Qc) (bk_post b1).
  Proof.
    intros Hb E Hr Ht Hby Hc Hsum. rewrite (report_unfold o args b b1 by_ E Hr Ht Hby Hc), Hsum. apply (reachable_ok srt Hs) in Hb. apply (ops_of_ok srt Hs) in E as Hok; [|exact Hb]. clear Hb E.
    set (b2 := placed_book by_ b1). set (b3 := converted (ro_convert o) b2). assert (Hok3 : book_ok b3) by (apply converted_ok, placed_ok, Hok).
    exists (compact srt b3), (bk_trans (compact srt b3)). split; [reflexivity|]. pose proof (compact_book_ok srt Hs b3 Hok3) as (_ & Hcat & (G1 & G2) & _). pose proof (compact_tidy srt b3 Hs Hok3) as Htd.
    assert (Hkey : forall p, In p (bk_post (compact srt b3)) -> exists q, In q (bk_post b3) /\ pkey q = pkey p).
    { intros p. destruct (bk_post b3) as [|x l] eqn:E3; [rewrite compact_nil by exact E3; rewrite E3; contradiction|]. rewrite compact_eq by (rewrite E3; discriminate). cbn [bk_post]. rewrite E3. apply (cposts_pkey_in srt Hs). }
    split; [|split; [|split; [|split]]].
    - rewrite Hcat. intros p Hp. split.
      + pose proof (compact_canonical srt Hs b3 (proj1 Hok3)) as ((_ & Hz) & _). rewrite Forall_forall in Hz. apply Hz. exact Hp.
      + intros Hcv. destruct (Hkey p Hp) as (q & Hq & Ek). apply pkey_eq in Ek as (_ & _ & _ & <-). unfold b3, converted in Hq. rewrite Hcv in Hq. cbn [map_amount bk_post] in Hq. apply in_map_iff in Hq as (x & <- & _). reflexivity.
    - intros t p q Hin Hp Hq. rewrite Forall_forall in G1. destruct (G1 t Hin) as [_ Hu]. specialize (Hu p q Hp Hq). unfold dp in Hu. injection Hu as -> ->. auto.
    - intros t c Hin. rewrite Forall_forall in Htd. destruct (Htd t Hin) as (Hn & Hu & _ & _ & Hbal). destruct t as [|p t]; [congruence|]. rewrite <- (trans_ccy_sum (p :: t) p c Hu (or_introl eq_refl)). apply Hbal.
    - assert (Hpay : by_ <> None -> forall p, In p (bk_post (compact srt b3)) -> p_payee p = []).
      { intros Hn p Hp. destruct by_ as [k|]; [|congruence]. destruct (Hkey p Hp) as (q & Hq & Ek). apply pkey_eq in Ek as (_ & Epay & _). rewrite <- Epay. clear Epay.
        assert (Hq2 : exists x, In x (bk_post b2) /\ p_payee q = p_payee x). { unfold b3, converted in Hq. destruct (ro_convert o); [|eauto]. cbn [map_amount bk_post] in Hq. apply in_map_iff in Hq as (x & <- & Hx). exists x. split; [exact Hx|reflexivity]. }
        destruct Hq2 as (x & Hx & ->). apply (map_transaction_origin srt Hs (fun d _ => (floor today d (by_name k), []))) in Hx as (y & _ & Ey & _). injection Ey as _ ->. reflexivity. }
      assert (Hin : forall t p, In t (bk_trans (compact srt b3)) -> In p t -> In p (bk_post (compact srt b3))) by (intros t p H1 H2; rewrite <- Hcat; apply in_concat; eauto).
      eapply StronglySorted_impl; [|exact G2]. intros t u Hti Hui H p q Hp Hq. specialize (H p q Hp Hq). unfold dplt, dpcmp, lex, dp in H. cbn [fst snd] in H. destruct (Z.compare_spec (p_date p) (p_date q)) as [Ed|Hlt|]; [|left; exact Hlt|discriminate].
      right. destruct by_ as [k|]; [|auto]. exfalso. rewrite (Hpay ltac:(discriminate) p (Hin t p Hti Hp)), (Hpay ltac:(discriminate) q (Hin u q Hui Hq)) in H. discriminate.
    - exists (fun p => keyf today by_ (p_date p) (p_payee p)), (fun p => if ro_convert o then rate (bk_prices b1) base (fst (keyf today by_ (p_date p) (p_payee p))) (p_ccy p) else 1%Qc). split.
      + intros p Hp. destruct Hr as (H1 & H2 & H3). split; [apply keyf_placed, H3, Hp|]. destruct (ro_convert o); [|reflexivity]. apply rate_worth; [exact H1|exact H2|]. apply keyf_valid; [exact Htoday|apply H3, Hp].
      + intros d pay a c. rewrite Hcat, (compact_total srt Hs). unfold b3. rewrite converted_total. unfold b2. rewrite placed_wtotal, placed_prices. unfold wtotal, sum_of. f_equal. apply map_ext. intros p. unfold at_key.
        destruct ((_ =? d) && _ && _ && _); [reflexivity|ring].
  Qed.

  (** --sum: the rows of each transaction of the summary are its own postings (with zero rows for the accounts of the others) and the subtotals of accounts; the
      rows of the top level sum to zero. *)
  Theorem C93_summary_partial o args b b1 by_ : reachable srt b -> ops args b = Ok b1 -> readable b1 -> ro_type o <> bs "Beancount" -> ro_by o = by_text by_ ->
    any_order it -> ro_credit o = [] -> ro_hidden o = [] -> ro_sum o = true -> ro_convert o = true ->
    exists b2 ts ts', report o args b = Ok (b2, ts') /\ report (mkRO (ro_type o) (ro_by o) true false [] []) args b = Ok (b2, ts) /\
      Forall2 (fun t t' =>
        sum_over (fun r => p_level r = 0) p_val t' 0%Qc /\ (forall r, In r t' -> p_ccy r = base) /\
        exists leaves subs, Permutation t' (leaves ++ subs) /\ Forall (ordinary t) leaves /\ NoDup (map p_acct leaves) /\
          (forall a, In a (map p_acct leaves) <-> exists u p, In u ts /\ In p u /\ p_acct p = a) /\
          NoDup (map p_acct subs) /\ Forall (fun r => sum_over (fun p => at_or_below divider (p_acct r) (p_acct p)) p_val t (p_val r)) subs) ts ts'.
  Proof.
    intros Hb E Hr Ht Hby Hi Hcr Hh Hsum Hcv. destruct (C93_report_partial (mkRO (ro_type o) (ro_by o) true false [] []) args b b1 by_ Hb E Hr Ht Hby (or_introl eq_refl) eq_refl) as (b2 & ts & E1 & Hp & Hu & Hz & _).
    assert (E1' := E1). rewrite (report_unfold (mkRO (ro_type o) (ro_by o) true false [] []) args b b1 by_ E Hr Ht Hby (or_introl eq_refl)) in E1'. cbn [ro_sum ro_convert] in E1'. pose proof (report_unfold o args b b1 by_ E Hr Ht Hby (or_introl Hcr)) as E2. rewrite Hsum, Hcv, Hcr, Hh in E2. cbn [str_eqb] in E2.
    apply (reachable_ok srt Hs) in Hb. apply (ops_of_ok srt Hs) in E as Hok; [|exact Hb]. set (b3 := converted true (placed_book by_ b1)) in *. assert (Hok3 : book_ok b3) by (apply converted_ok, placed_ok, Hok).
    assert (Hr3 : readable b3) by (apply converted_dates, placed_dates, Hr). injection E1' as Eb2 Ets. exists b2, ts. cbn [ro_convert] in Hp.
    pose proof (compact_book_ok srt Hs b3 Hok3) as (_ & Hcat & (G1 & _) & _). rewrite Ets in Hcat, G1.
    destruct (bk_post (compact srt b3)) as [|x l] eqn:Ep.
    { assert (Ets0 : ts = []). { destruct ts as [|t ts0]; [reflexivity|]. apply Forall_inv in G1 as [G1 _]. destruct t; [congruence|discriminate Hcat]. }
      exists []. split; [|split; [exact E1|rewrite Ets0; constructor]]. rewrite E2. unfold accumulate. cbv zeta. rewrite Ep. unfold transactions. rewrite (compact_nil srt (compact srt b3) Ep). rewrite Eb2 at 1. rewrite Ets, Ets0. reflexivity. }
    assert (Hsm : summarisable_ok srt b3).
    { destruct Hr3 as (H1 & H2 & H3). split; [exact Hok3|]. split; [exact H1|]. split; [exact H2|]. unfold transactions. cbn [fst snd]. split; [rewrite Ep; discriminate|]. intros t p Hin Hpin.
      assert (Hpp : In p (bk_post (compact srt b3))) by (rewrite Ep, <- Hcat, <- Ets; apply in_concat; eauto).
      destruct (bk_post b3) as [|x0 l0] eqn:E3; [rewrite compact_nil in Hpp by exact E3; rewrite E3 in Hpp; contradiction|]. rewrite compact_eq in Hpp by (rewrite E3; discriminate). cbn [bk_post] in Hpp. rewrite E3 in Hpp. apply (cposts_pkey_in srt Hs) in Hpp as (q & Hq & Ek).
      apply pkey_eq in Ek as (<- & _). apply H3. rewrite <- E3 in *. exact Hq. }
    destruct (subtotals_exact_ok srt it micro base divider b3 Hs Hi Hsm) as (ts' & Ea & F1). destruct (top_level_ok srt it micro base divider b3 Hs Hi Hsm) as (ts'' & Ea' & F2).
    rewrite Ea in Ea'. injection Ea' as <-. unfold transactions in Ea, F1, F2. cbn [fst snd] in Ea, F1, F2. rewrite Ets in F1, F2. exists ts'. split; [rewrite E2, Ea; rewrite Eb2; reflexivity|]. split; [exact E1|].
    assert (Hall : forall t p, In t ts -> In p t -> p_ccy p = base) by (intros t p Hin Hpin; apply (Hp p); [apply in_concat; eauto|reflexivity]).
    assert (Hconv : forall t, In t ts -> forall p, In p t -> conv (bk_prices b3) base p = p_val p) by (intros t Hin p Hpin; unfold conv; rewrite (Hall t p Hin Hpin), str_eqb_refl; reflexivity).
    pose proof (Forall2_and _ _ _ _ F1 F2) as F. clear F1 F2. eapply Forall2_In_imp; [|exact F]. intros t t' Hin ((leaves & subs & Pt & H1 & H2 & H3 & H4 & H5 & H6 & H7) & H8 & H9 & H10).
    assert (Hl : forall r, In r leaves -> p_ccy r = base). { intros r Hrin. assert (Hac : In (ac r) (map ac leaves)) by (apply in_map; exact Hrin). apply H3 in Hac as (u & p & Hui & Hpi & Eac). unfold ac in Eac. injection Eac as _ <-. eapply Hall; eassumption. }
    split; [|split].
    - assert (Eq0 : qsum (map (conv (bk_prices b3) base) t) = 0%Qc).
      { rewrite (map_ext_in _ p_val) by (apply Hconv; exact Hin). rewrite <- (Hz t base Hin). f_equal. f_equal. symmetry. apply filter_all. apply Forall_forall. intros p Hpin. rewrite (Hall t p Hin Hpin). apply str_eqb_refl. }
      rewrite Eq0 in H10. exact H10.
    - intros r Hrin. apply (Permutation_in _ Pt) in Hrin. apply in_app_iff in Hrin as [Hrin|Hrin]; [apply Hl, Hrin|]. rewrite Forall_forall in H4. apply (H4 r Hrin).
    - exists leaves, subs. split; [exact Pt|]. split; [exact H1|]. split; [|split; [|split; [exact H5|]]].
      + clear - H2 Hl. induction leaves as [|r leaves IH]; [constructor|]. cbn [map] in *. inversion H2 as [|? ? Hn H2']; subst. constructor; [|apply IH; [exact H2'|intros x Hx; apply Hl; right; exact Hx]].
        intros Hin. apply Hn. apply in_map_iff in Hin as (q & Eq & Hq). apply in_map_iff. exists q. split; [|exact Hq]. unfold ac. rewrite Eq, (Hl q (or_intror Hq)), (Hl r (or_introl eq_refl)). reflexivity.
      + intros a. split.
        * intros Ha. apply in_map_iff in Ha as (r & <- & Hrin). assert (Hac : In (ac r) (map ac leaves)) by (apply in_map; exact Hrin). apply H3 in Hac as (u & p & Hui & Hpi & Eac). unfold ac in Eac. injection Eac as <- _. eauto.
        * intros (u & p & Hui & Hpi & <-). assert (Hac : In (p_acct p, p_ccy p) (map ac leaves)) by (apply H3; exists u, p; auto). apply in_map_iff in Hac as (r & Er & Hrin). unfold ac in Er. injection Er as <- _. apply in_map. exact Hrin.
      + revert H4. apply Forall_impl. intros r (_ & H). specialize (Hconv t Hin). clear - H Hconv. remember (p_val r) as s eqn:Es. clear Es. induction H as [|p t s Hpp H IH|p t s Hpp H IH].
        * constructor.
        * rewrite (Hconv p (or_introl eq_refl)). apply sum_yes; [exact Hpp|]. apply IH. intros q Hq. apply Hconv. right. exact Hq.
        * apply sum_no; [exact Hpp|]. apply IH. intros q Hq. apply Hconv. right. exact Hq.
  Qed.
End Report.
Print Assumptions C93_report_partial.
Print Assumptions C93_summary_partial.
