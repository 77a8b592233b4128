(** * BalanceProps: C110, from the bytes of a ledger file to the text of its period report. *)
From Verif Require Import Base Utf8 Regex Dec DateModel DateSpec DateProofs DateProofs2 PriceModel PriceSpec PriceProofs BookModel BookSpec BookProofs BuilderProofs
  OpsModel OpsProofs OpsProofs2 OpsProofs3 BookOpModel BookProps RegisterModel RegisterSpec RegisterProofs AccumModel AccumSpec AccumProofs AccumProofs2 AccumProofs3 AccumProps
  LoaderModel LoaderSpec GrammarSpec LoaderProps GrammarProofs GrammarProofs2 GrammarProps ExportModel PrintModel PrintSpec PrintProofs PrintProofs2 PrintProps ReportSpec PrintProofs3 ReportProps
  CmdModel CmdSpec CmdProofs CmdProps AppendProofs BalanceSpec BalanceProofs.

Lemma filter_weight {A} (pd : A -> bool) f l : qsum (map f (filter pd l)) = qsum (map (fun x => if pd x then f x else 0%Qc) l).
Proof. induction l as [|x l IH]; [reflexivity|]. cbn [filter map]. rewrite qsum_cons. destruct (pd x); [cbn [map]; rewrite qsum_cons, IH; reflexivity|rewrite IH; ring]. Qed.

Lemma Forall2_map_l {A B C} (R : A -> C -> Prop) (Q : B -> C -> Prop) (f : A -> B) l m : (forall x y, In x l -> R x y -> Q (f x) y) -> Forall2 R l m -> Forall2 Q (map f l) m.
Proof. intros H F. induction F as [|x y l m Hxy _ IH]; cbn [map]; constructor; [apply H; [left; reflexivity|exact Hxy]|]. apply IH. intros a b Ha. apply H. right. exact Ha. Qed.

Section Columns.
  Variable srt : list posting -> list posting.
  Hypothesis Hs : sort_ok is_less srt.
  Variable today : Z.
  Hypothesis Htoday : valid_date today.
  Variable d : Z.
  Variable k : by_period.
  Variable cs : list bcall.
  Variable bk : book.
  Hypothesis Eb : build_calls srt cs = Ok bk.
  Hypothesis Hnam : Forall (named_amount d) (amounts (-1) cs).
  Hypothesis Hpr : Forall (fun '(d, _, v) => valid_date d /\ (0 < v)%Qc) (price_lines cs).
  Let b2 := split_by srt (fun _ => today) (by_name k) bk.
  Let fl (x : Z) := floor today x (by_name k).

  Lemma bal_facts : book_ok bk /\ canonical (bk_post bk) /\ bk_prices bk = prices_of cs /\
    (forall h, total (fun d _ a c => h d a c) (bk_post bk) = qsum (map am_val (filter (fun x => h (am_date x) (am_acct x) (am_ccy x)) (amounts (-1) cs)))).
  Proof.
    destruct (build_calls_cases srt Hs cs) as [(_ & bk' & E & Hok & Hcan & _ & Ht & b & Est & Epr & _)|[_ E]]; rewrite Eb in E; [|discriminate]. injection E as <-.
    split; [exact Hok|]. split; [exact Hcan|]. split; [rewrite Epr, (steps_prices _ _ _ Est); reflexivity|].
    intros h. rewrite Ht, total_amounts, (posted_amounts cs _ _ _ _ Est). reflexivity.
  Qed.
  Lemma bal_readable : readable bk.
  Proof.
    destruct bal_facts as (Hok & Hcan & Ep & Ht). rewrite Forall_forall in Hpr. split; [rewrite Ep; apply built_ok, Forall_forall; intros [[x y] v] H; apply (Hpr _ H)|].
    split; [rewrite Ep; apply built_pos, Forall_forall; intros [[x y] v] H; apply (Hpr _ H)|]. intros p Hp.
    pose proof (Ht (fun d' _ _ => d' =? p_date p)) as H.
    (* a posting of the book has the date of an amount *)
    destruct (in_dec Z.eq_dec (p_date p) (map am_date (amounts (-1) cs))) as [Hi|Hn].
    { apply in_map_iff in Hi as (x & <- & Hx). rewrite Forall_forall in Hnam. apply (Hnam x Hx). }
    exfalso. clear H. destruct (build_calls_cases srt Hs cs) as [(_ & bk' & E & _ & _ & _ & Ht' & b & Est & _)|[_ E]]; rewrite Eb in E; [|discriminate]. injection E as <-.
    assert (Hv : p_val p <> 0%Qc) by (destruct Hcan as [_ Hz]; rewrite Forall_forall in Hz; exact (Hz p Hp)). apply Hv.
    rewrite <- (total_key (bk_post bk) (canonical_nodup _ Hcan) p Hp), Ht'. apply total_absent. intros q Hq. destruct (on _ q) eqn:Eq; [|reflexivity]. exfalso. apply at_key_on in Eq. apply pkey_eq in Eq as (Ed & _).
    apply Hn. pose proof (posted_amounts cs _ _ (-1, []) [] Est) as Ea. cbn [fst] in Ea. rewrite <- Ed, <- Ea, map_map. cbn [am_date]. apply (in_map p_date). exact Hq.
  Qed.
  Lemma bal_ok : book_ok b2.
  Proof. apply (map_transaction_ok srt Hs (fun d _ => (fl d, []))). apply bal_facts. Qed.
  Lemma bal_total D a c : total (at_key D [] a c) (bk_post (compact srt b2)) =
    qsum (map am_val (filter (fun x => (fl (am_date x) =? D) && str_eqb (am_acct x) a && str_eqb (am_ccy x) c) (amounts (-1) cs))).
  Proof.
    destruct bal_facts as (Hok & Hcan & Ep & Ht). rewrite <- (Ht (fun d a' c' => (fl d =? D) && str_eqb a' a && str_eqb c' c)).
    rewrite (compact_total srt Hs), !total_as_wtotal. unfold b2. pose proof (map_transaction_wtotal srt (fun d _ => (fl d, [])) (fun d p a' c' => if at_key D [] a c d p a' c' then 1%Qc else 0%Qc) bk Hs) as E. etransitivity; [exact E|].
    unfold wtotal. f_equal. apply map_ext. intros p. cbn [fst snd]. unfold at_key. rewrite (str_eqb_refl []), andb_true_r. reflexivity.
  Qed.
  Lemma bal_sum D a c v : period_total today k cs D a c v <-> v = total (at_key D [] a c) (bk_post (compact srt b2)).
  Proof.
    rewrite bal_total. unfold period_total. apply sum_over_in. intros x Hx. rewrite Forall_forall in Hnam. destruct (Hnam x Hx) as (Hd & _).
    rewrite !andb_true_iff, Z.eqb_eq, !str_eqb_eq.
    assert (Hf : fl (am_date x) = D <-> first_day today k (am_date x) D).
    { assert (P : first_day today k (am_date x) (fl (am_date x))) by (apply (proj1 (keyf_placed today (Some k) (mkP (am_date x) [] [] [] [] 0%Qc [] 0%Qc 0 [] []) Hd))).
      split; [intros <-; exact P|]. intros Q. destruct k as [p0| |]; cbn [first_day] in P, Q; [|congruence..].
      destruct P as (y & m & dd & V & E & ->), Q as (y' & m' & dd' & V' & E' & ->). rewrite E in E'. unfold ymd in E'. destruct V as (V1 & V2 & V3), V' as (W1 & W2 & W3).
      pose proof (dim_bounds y m). pose proof (dim_bounds y' m'). assert (y = y' /\ m = m') as [-> ->] by lia. reflexivity. }
    rewrite Hf. tauto.
  Qed.
  Lemma bal_post p : In p (bk_post (compact srt b2)) -> p_payee p = [] /\ valid_date (p_date p) /\ account_ok d (p_acct p) /\ decode (p_ccy p) <> [] /\ p_val p <> 0%Qc /\
    total (at_key (p_date p) [] (p_acct p) (p_ccy p)) (bk_post (compact srt b2)) = p_val p.
  Proof.
    intros Hp. pose proof (compact_canonical srt Hs b2 (proj1 bal_ok)) as Hcan.
    assert (Epay : p_payee p = []).
    { destruct (bk_post b2) as [|x l] eqn:E2; [rewrite compact_nil in Hp by exact E2; rewrite E2 in Hp; contradiction|]. rewrite compact_eq in Hp by (rewrite E2; discriminate). cbn [bk_post] in Hp. apply (cposts_pkey_in srt Hs) in Hp as (q & Hq & Ek).
      apply pkey_eq in Ek as (_ & <- & _). unfold b2 in Hq. apply (map_transaction_origin srt Hs (fun d _ => (fl d, []))) in Hq as (y & _ & Ey & _). injection Ey as _ ->. reflexivity. }
    assert (Hcan' : canonical (bk_post (compact srt b2))) by exact (proj1 Hcan). assert (Hv : p_val p <> 0%Qc) by (destruct Hcan' as [_ Hz]; rewrite Forall_forall in Hz; exact (Hz p Hp)).
    pose proof (total_key _ (canonical_nodup _ Hcan') p Hp) as Ht. rewrite Epay in Ht. split; [exact Epay|].
    assert (Hx : exists x, In x (amounts (-1) cs) /\ fl (am_date x) = p_date p /\ am_acct x = p_acct p /\ am_ccy x = p_ccy p).
    { rewrite bal_total in Ht. destruct (filter _ (amounts (-1) cs)) as [|x l] eqn:Ef; [exfalso; apply Hv; rewrite <- Ht; reflexivity|].
      exists x. assert (Hi : In x (x :: l)) by (left; reflexivity). rewrite <- Ef in Hi. apply filter_In in Hi as [Hi Hb]. rewrite !andb_true_iff, Z.eqb_eq, !str_eqb_eq in Hb. tauto. }
    destruct Hx as (x & Hx & Ed & Ea & Ec). rewrite Forall_forall in Hnam. destruct (Hnam x Hx) as (N1 & N2 & N3). rewrite <- Ed, <- Ea, <- Ec. split; [exact (keyf_valid today (Some k) (am_date x) [] Htoday N1)|].
    split; [exact N2|]. split; [exact N3|]. split; [exact Hv|]. rewrite Ed, Ea, Ec. exact Ht.
  Qed.
  Lemma bal_moves D a c : moves_in today k cs D a c <-> exists p, In p (bk_post (compact srt b2)) /\ p_date p = D /\ p_acct p = a /\ p_ccy p = c.
  Proof.
    unfold moves_in. split.
    - intros (v & Hv & Hn). apply bal_sum in Hv. destruct (existsb (on (at_key D [] a c)) (bk_post (compact srt b2))) eqn:E.
      + apply existsb_exists in E as (p & Hp & E). exists p. split; [exact Hp|]. unfold on, at_key in E. rewrite !andb_true_iff, Z.eqb_eq, !str_eqb_eq in E. tauto.
      + exfalso. apply Hn. rewrite Hv. apply total_absent. intros p Hp. destruct (on (at_key D [] a c) p) eqn:E1; [|reflexivity]. assert (F : existsb (on (at_key D [] a c)) (bk_post (compact srt b2)) = true) by (apply existsb_exists; eauto). congruence.
    - intros (p & Hp & <- & <- & <-). destruct (bal_post p Hp) as (_ & _ & _ & _ & Hv & Ht). exists (p_val p). split; [apply bal_sum; symmetry; exact Ht|exact Hv].
  Qed.
  Definition day_of (t : trans) : Z := match t with p :: _ => p_date p | [] => 0 end.
  Lemma bal_columns it micro base : any_order it -> bk_post (compact srt b2) <> [] ->
    exists ts Ds, accumulate srt it micro base [d] None [] b2 = Ok (compact srt b2, ts) /\ StronglySorted Z.lt Ds /\ Forall2 (period_column today k base d cs) Ds ts /\
      (forall D, In D Ds <-> exists a c, moves_in today k cs D a c).
  Proof.
    intros Hi Hne. pose proof bal_ok as Hok. pose proof (compact_book_ok srt Hs b2 Hok) as (_ & Hcat & (G1 & G2) & _). pose proof (compact_tidy srt b2 Hs Hok) as Htd.
    set (ts0 := bk_trans (compact srt b2)) in *. rewrite Forall_forall in G1.
    assert (Hin : forall t p, In t ts0 -> In p t -> In p (bk_post (compact srt b2))) by (intros t p H1 H2; rewrite <- Hcat; apply in_concat; eauto).
    assert (Hex : forall p, In p (bk_post (compact srt b2)) -> exists t, In t ts0 /\ In p t) by (intros p; rewrite <- Hcat; intros H; apply in_concat in H; exact H).
    assert (Hday : forall t p, In t ts0 -> In p t -> p_date p = day_of t). { intros t p H1 H2. destruct (G1 t H1) as [Hn Hu]. destruct t as [|q t]; [congruence|]. specialize (Hu p q H2 (or_introl eq_refl)). unfold dp in Hu. injection Hu as -> _. reflexivity. }
    assert (Hlt : StronglySorted (fun t u => day_of t < day_of u) ts0).
    { eapply StronglySorted_impl; [|exact G2]. intros t u Ht Hu H. destruct (G1 t Ht) as [Hn _], (G1 u Hu) as [Hn' _]. destruct t as [|p t]; [congruence|]. destruct u as [|q u]; [congruence|]. specialize (H p q (or_introl eq_refl) (or_introl eq_refl)). cbn [day_of].
      unfold dplt, dpcmp, lex, dp in H. cbn [fst snd] in H. destruct (Z.compare_spec (p_date p) (p_date q)) as [Ed|Hl|]; [|exact Hl|discriminate].
      rewrite (proj1 (bal_post p (Hin _ p Ht (or_introl eq_refl)))), (proj1 (bal_post q (Hin _ q Hu (or_introl eq_refl)))) in H. discriminate H. }
    assert (Huniq : forall t u, In t ts0 -> In u ts0 -> day_of t = day_of u -> t = u).
    { clear - Hlt. induction Hlt as [|x l _ IH Hx]; intros t u H1 H2 E; [contradiction|]. rewrite Forall_forall in Hx. destruct H1 as [->|H1], H2 as [->|H2]; [reflexivity|specialize (Hx _ H2); lia|specialize (Hx _ H1); lia|exact (IH t u H1 H2 E)]. }
    assert (Hprices : bk_prices b2 = prices_of cs) by (unfold b2, split_by; rewrite split_prices; apply bal_facts).
    destruct bal_readable as (R1 & R2 & _). assert (Ebp : bk_prices bk = prices_of cs) by apply bal_facts. rewrite Ebp in R1, R2.
    assert (Hsm : summarisable srt b2).
    { split; [|split; [rewrite Hprices; exact R1|split; [rewrite Hprices; exact R2|split; [exact Hne|]]]].
      - apply (reach_op srt (OSplitBy today (by_name k)) bk); [exact (reach_build srt cs bk Eb)|intros ob Eo; discriminate Eo|reflexivity].
      - intros t p Ht Hp. apply (bal_post p). exact (Hin t p Ht Hp). }
    pose proof (C38_summary_rows srt it micro base d None [] b2 Hs Hi Hsm) as (ts & rows & E & Eid & Hun & _).
    pose proof (C39_subtotals_exact srt it micro base d b2 Hs Hi Hsm) as (ts' & E' & F1). rewrite E in E'. injection E' as <-.
    pose proof (C40_top_level_total srt it micro base d b2 Hs Hi Hsm) as (ts' & E' & F2). rewrite E in E'. injection E' as <-.
    unfold transactions in E, Eid, F1, F2. cbn [fst snd] in E, Eid, F1, F2. fold ts0 in Eid, F1, F2.
    exists ts, (map day_of ts0). split; [exact E|]. split; [|split].
    - clear - Hlt. induction Hlt as [|x l H IH Hx]; cbn [map]; constructor; [exact IH|]. rewrite Forall_forall in *. intros y Hy. apply in_map_iff in Hy as (t & <- & Ht). exact (Hx t Ht).
    - assert (F : Forall2 (period_column today k base d cs) (map day_of ts0) ts); [|exact F].
      assert (F3 : Forall2 (fun t t' => forall p, In p t' -> p_date p = day_of t) ts0 ts).
      { clear - Eid Hun G1. assert (G : forall t, In t ts0 -> t <> []) by (intros t Ht; apply (G1 t Ht)). clear G1. revert Eid G. generalize ts0. induction Hun as [|t' ts Ht' _ IH]; intros [|t l] Eid G; try discriminate Eid; constructor.
        - cbn [map] in Eid. injection Eid as E1 _. intros p Hp. destruct t' as [|q t']; [contradiction|]. specialize (G t (or_introl eq_refl)). destruct t as [|x t]; [congruence|]. cbn [trans_id] in E1. injection E1 as E1 _.
          specialize (Ht' p q Hp (or_introl eq_refl)). unfold dp in Ht'. injection Ht' as Ht' _. cbn [day_of]. rewrite <- E1. exact Ht'.
        - apply IH; [cbn [map] in Eid; injection Eid as _ Eid; exact Eid|intros x Hx; apply G; right; exact Hx]. }
      pose proof (Forall2_and _ _ _ _ F1 (Forall2_and _ _ _ _ F2 F3)) as F. clear F1 F2 F3.
      revert F. apply Forall2_map_l.
      intros t t' Ht ((leaves & subs & Pt & H1 & H2 & H3 & H4 & H5 & H6 & H7) & (_ & _ & H10) & Hdate).
      assert (Hocc : forall a c, occurs ts0 (a, c) <-> exists D', moves_in today k cs D' a c).
      { intros a c. unfold occurs. split.
        - intros (u & p & Hu & Hp & Ep). injection Ep as <- <-. exists (p_date p). apply bal_moves. exists p. split; [exact (Hin u p Hu Hp)|auto].
        - intros (D' & Hm). apply bal_moves in Hm as (p & Hp & _ & <- & <-). destruct (Hex p Hp) as (u & Hu & Hpu). exists u, p. auto. }
      assert (Hvd : valid_date (day_of t)). { destruct (G1 t Ht) as [Hn _]. destruct t as [|p t]; [congruence|]. apply (bal_post p). apply (Hin (p :: t)); [exact Ht|left; reflexivity]. }
      assert (Hconv : forall p, In p t -> conv (bk_prices b2) base p = (p_val p * rate (prices_of cs) base (day_of t) (p_ccy p))%Qc).
      { intros p Hp. unfold conv, rate. rewrite Hprices, <- (Hday t p Ht Hp). destruct (str_eqb (p_ccy p) base) eqn:Ec; [unfold get_price; rewrite Ec; ring|]. destruct (get_price _ _ _ _) as [[r pt]| | |]; ring. }
      assert (Hnt : NoDup (map ac t)).
      { rewrite Forall_forall in Htd. destruct (Htd t Ht) as (_ & Hu & Hsrt & _ & _). clear - Hu Hsrt. induction t as [|p t IH]; cbn [map]; constructor; apply StronglySorted_inv in Hsrt as [Hss Hp]; [|apply IH; [intros x y Hx Hy; apply Hu; right; assumption|exact Hss]].
        intros Hin. apply in_map_iff in Hin as (q & Eq & Hq). rewrite Forall_forall in Hp. specialize (Hp q Hq). specialize (Hu p q (or_introl eq_refl) (or_intror Hq)). unfold klt in Hp.
        assert (pkey p = pkey q) as Epk by (apply pkey_eq; unfold dp in Hu; unfold ac in Eq; injection Hu as -> ->; injection Eq as -> ->; auto). rewrite Epk in Hp. exact (lc_lt_irrefl _ kcmp_lin _ Hp). }
      assert (Htl : forall p, In p t -> In (ac p) (map ac leaves)) by (intros p Hp; apply H3; exists t, p; auto).
      split; [apply Forall_forall; exact Hdate|]. exists leaves, subs, (rate (prices_of cs) base (day_of t)). split; [exact Pt|]. split; [exact H2|]. split; [intros a c; rewrite <- Hocc; apply H3|]. split; [|split; [|split; [exact H5|split; [|split]]]].
      + intros r Hr. apply bal_sum. rewrite Forall_forall in H1. destruct (H1 r Hr) as [(p & Hp & _ & _ & Ea & Ec & Ev & _)|(Hno & Ev & _)]; rewrite Ev.
        * rewrite Ea, Ec, <- (Hday t p Ht Hp). symmetry. apply (bal_post p). exact (Hin t p Ht Hp).
        * symmetry. apply total_absent. intros p Hp. destruct (on _ p) eqn:Eo; [|reflexivity]. exfalso. unfold on, at_key in Eo. rewrite !andb_true_iff, Z.eqb_eq, !str_eqb_eq in Eo. destruct Eo as (((Ed & _) & Ea) & Ec).
          destruct (Hex p Hp) as (u & Hu & Hpu). rewrite (Hday u p Hu Hpu) in Ed. rewrite (Huniq u t Hu Ht Ed) in Hpu. apply (Hno p Hpu). auto.
      + intros c. apply rate_worth; [exact R1|exact R2|exact Hvd].
      + intros r Hr. rewrite Forall_forall in H4. destruct (H4 r Hr) as [Ec Hsum]. split; [exact Ec|].
        assert (Hb : forall x : posting, at_belowb d (p_acct r) (p_acct x) = true <-> at_or_below d (p_acct r) (p_acct x)) by (intros x; apply at_belowb_spec).
        apply (sum_over_in _ (fun q => at_belowb d (p_acct r) (p_acct q))); [intros x _; apply Hb|]. apply (sum_over_in _ (fun q => at_belowb d (p_acct r) (p_acct q)) _ _ (fun x _ => Hb x)) in Hsum. rewrite Hsum, !filter_weight.
        pose proof (same_sum (fun x => if at_belowb d (p_acct r) (fst x) then rate (prices_of cs) base (day_of t) (snd x) else 0%Qc) t leaves Hnt H2 H1 Htl) as Es. unfold ac in Es. cbn [fst snd] in Es.
        etransitivity; [|etransitivity; [exact Es|]]; f_equal; [apply map_ext_in; intros p Hp; rewrite (Hconv p Hp)|apply map_ext; intros p]; destruct (at_belowb _ _ _); ring.
      + intros a c Hac. apply H6. apply H3. exact Hac.
      + replace (qsum (map (fun q => (p_val q * rate (prices_of cs) base (day_of t) (p_ccy q))%Qc) leaves)) with (qsum (map (conv (bk_prices b2) base) t)); [exact H10|].
        rewrite (map_ext_in _ _ _ Hconv). apply (same_sum (fun x => rate (prices_of cs) base (day_of t) (snd x))); assumption.
    - intros D. split.
      + intros HD. apply in_map_iff in HD as (t & <- & Ht). destruct (G1 t Ht) as [Hn _]. destruct t as [|p t]; [congruence|]. exists (p_acct p), (p_ccy p). apply bal_moves. exists p. split; [apply (Hin (p :: t)); [exact Ht|left; reflexivity]|auto].
      + intros (a & c & Hm). apply bal_moves in Hm as (p & Hp & <- & _). destruct (Hex p Hp) as (t & Ht & Hpt). rewrite (Hday t p Ht Hpt). apply in_map. exact Ht.
  Qed.
End Columns.

(** ** C110. The text of a file, as read by the grammar of C88, stands for the calls [cs]. [report --sum] by any period then prints, if
    every transaction balances and something moves: a table whose columns are exactly the periods in which something moves, in order; in each column
    exactly one row for every account and currency that moves in any period, with what the file posts to it in that period; and subtotals at
    the prices of the first day of the period. It fails otherwise. *)
Theorem C110_period_report_partial : forall is_letter is_udigit to_upper ord fs resolve srt it micro compile parse_float today ploop macros fuel base divider is_print f64 colour width k f bytes es,
  is_letter 0 = false /\ is_udigit 0 = false -> (forall m, NoDup (akeys m) -> Permutation (ord m) (akeys m)) -> sort_ok is_less srt -> any_order it -> valid_date today -> decode base <> [] ->
  fs f = Some bytes -> text_at is_letter is_udigit to_upper fs resolve f [] (decode bytes) es -> Forall (reportable divider) es -> opened_first es ->
  exists cs bound, means [] es cs /\ forall depth, (bound <= depth)%nat ->
    let printed :=
      do b <- load_book is_letter is_udigit to_upper ord fs resolve srt depth f;
      do x <- report_run srt compile parse_float today ploop macros fuel it micro base [divider] (mkRO (bs "Text") (by_name k) false true [] []) [] b;
      summary_text is_print f64 is_letter (bk_ccy (fst x)) colour width (snd x) in
    (~ all_balanced cs /\ (printed = Panic \/ printed = Error)) \/
    (all_balanced cs /\ (forall D a c, ~ moves_in today k cs D a c) /\ printed = Panic) \/
    (all_balanced cs /\ exists Ds ts bk table ws,
       build_calls srt cs = Ok bk /\ StronglySorted Z.lt Ds /\ (forall D, In D Ds <-> exists a c, moves_in today k cs D a c) /\
       Forall2 (period_column today k base divider cs) Ds ts /\ ts <> [] /\
       rows_of table = expected_table f64 is_letter (bk_ccy bk) colour ts /\ length ws = S (length ts) /\
       printed = Ok (table_text (lines_of is_print ws table))).
Proof.
  intros is_letter is_udigit to_upper ord fs resolve srt it micro compile parse_float today ploop macros fuel base divider is_print f64 colour width k f bytes es Hn Hord Hs Hi Htoday Hbase Hf Ht Hrep Hopen.
  destruct (C88_every_ledger_loads is_letter is_udigit to_upper ord fs resolve srt f bytes es Hn Hord Hf Ht) as (cs & bound & Hm & Hload). exists cs, bound. split; [exact Hm|]. intros depth Hd printed. unfold printed. clear printed. rewrite (Hload depth Hd).
  assert (Hb0 : base <> []) by (intros ->; apply Hbase; reflexivity).
  destruct (means_good divider [] es cs Hm Hrep) as [Hg1 Hg2]; [intros ? ? ? ? []|]. specialize (Hg1 (-1) (or_intror Hopen)).
  destruct (build_calls_cases srt Hs cs) as [(Hall & bk & Eb & _)|[Hnall Eb]].
  2:{ left. split; [exact Hnall|]. unfold build_calls in Eb. destruct (bsteps new_builder cs) as [b| | |]; cbn [obind] in *; [rewrite Eb; left; reflexivity|right; reflexivity..]. }
  right. assert (El : match bsteps new_builder cs with Ok b => build srt b | _ => Error end = Ok bk).
  { unfold build_calls in Eb. destruct (bsteps new_builder cs) as [b| | |]; cbn [obind] in Eb; [exact Eb|discriminate..]. }
  rewrite El. cbn [obind].
  rewrite (report_unfold srt Hs compile parse_float today Htoday ploop macros fuel it micro base Hb0 divider (mkRO (bs "Text") (by_name k) false true [] []) [] bk bk (Some k));
    [|reflexivity|eapply bal_readable; eassumption|discriminate|reflexivity|left; reflexivity].
  cbn [ro_sum ro_convert ro_credit ro_hidden str_eqb converted placed_book]. set (b2 := split_by srt (fun _ => today) (by_name k) bk).
  assert (Hcc : forall b, bk_ccy (compact srt b) = bk_ccy b) by (intros b; unfold compact; destruct (bk_post b); reflexivity).
  assert (Eccy : bk_ccy (compact srt b2) = bk_ccy bk) by (rewrite Hcc; unfold b2, split_by, map_transaction; rewrite Hcc; reflexivity).
  destruct (bk_post (compact srt b2)) as [|x l] eqn:Ep.
  - left. split; [exact Hall|]. split.
    + intros D a c Hmv. apply (bal_moves srt Hs today Htoday divider k cs bk Eb Hg1) in Hmv as (p & Hp & _). fold b2 in Hp. rewrite Ep in Hp. contradiction.
    + unfold accumulate. cbv zeta. rewrite Ep. unfold transactions. rewrite (compact_nil srt (compact srt b2) Ep). cbn [obind fst snd].
      pose proof (compact_book_ok srt Hs b2 (bal_ok srt Hs today k cs bk Eb)) as (_ & Hcat & (G1 & _) & _). rewrite Ep in Hcat.
      assert (E0 : bk_trans (compact srt b2) = []). { destruct (bk_trans (compact srt b2)) as [|t ts0]; [reflexivity|]. apply Forall_inv in G1 as [G1 _]. destruct t; [congruence|discriminate Hcat]. }
      rewrite E0. reflexivity.
  - right. split; [exact Hall|]. destruct (bal_columns srt Hs today Htoday divider k cs bk Eb Hg1 Hg2 it micro base Hi) as (ts & Ds & Ea & H1 & H2 & H3); [fold b2; rewrite Ep; discriminate|]. fold b2 in Ea.
    assert (Hsm : summarisable srt b2).
    { destruct (bal_readable srt Hs divider cs bk Eb Hg1 Hg2) as (R1 & R2 & _). assert (Epr : bk_prices b2 = bk_prices bk) by (unfold b2, split_by; apply split_prices).
      split; [|split; [rewrite Epr; exact R1|split; [rewrite Epr; exact R2|split; [unfold transactions; cbn [fst]; rewrite Ep; discriminate|]]]].
      - apply (reach_op srt (OSplitBy today (by_name k)) bk); [exact (reach_build srt cs bk Eb)|intros ob Eo; discriminate Eo|reflexivity].
      - intros t p Hti Hp. pose proof (compact_book_ok srt Hs b2 (bal_ok srt Hs today k cs bk Eb)) as (_ & Hcat & _). apply (bal_post srt Hs today Htoday divider k cs bk Eb Hg1 p). fold b2. rewrite <- Hcat. apply in_concat. eauto. }
    assert (Hnm : nameable divider base (snd (transactions srt b2))).
    { split; [exact Hbase|]. intros a c (t & p & Hti & Hp & Eac). injection Eac as <- <-. pose proof (compact_book_ok srt Hs b2 (bal_ok srt Hs today k cs bk Eb)) as (_ & Hcat & _).
      destruct (bal_post srt Hs today Htoday divider k cs bk Eb Hg1 p) as (_ & _ & (N1 & N2) & N3 & _); [fold b2; rewrite <- Hcat; apply in_concat; eauto|]. auto. }
    destruct (C71_summary_report_partial srt it micro base divider b2 Hs Hi Hsm Hnm None [] f64 is_letter (bk_ccy bk) colour is_print width) as (ts' & Ea' & Etab & _ & _ & table & ws & Er & Hlen & Etext).
    unfold transactions in Ea'. cbn [fst] in Ea'. rewrite Ea in Ea'. injection Ea' as <-. exists Ds, ts, bk, table, ws. split; [exact Eb|]. split; [exact H1|]. split; [exact H3|]. split; [exact H2|]. split; [|split; [symmetry; exact Er|split; [exact Hlen|]]].
    + intros ->. discriminate Etab.
    + rewrite Ea. cbn [obind fst snd]. rewrite Eccy. exact Etext.
Qed.
Print Assumptions C110_period_report_partial.

(** A file with two months, a price, a transaction completed by the loader, an account that ends with nothing. *)
Definition ex110 : str :=
  bs "P 2024/01/01 00:00:00 USD 2 GBP" ++ nl ++
  bs "2024/01/05 Shop" ++ nl ++ bs " Exp:Food  10.50 GBP" ++ nl ++ bs " Cash" ++ nl ++
  bs "2024/01/09 Trip" ++ nl ++ bs " Exp:Fun  4 USD" ++ nl ++ bs " Cash" ++ nl ++
  bs "2024/02/01 Back" ++ nl ++ bs " Exp:Fun  -1 USD" ++ nl ++ bs " Cash  1 USD" ++ nl ++
  bs "2024/02/02 Swap" ++ nl ++ bs " Cash  -3 GBP" ++ nl ++ bs " Bank  3 GBP" ++ nl ++
  bs "2024/02/03 Swap" ++ nl ++ bs " Bank  -3 GBP" ++ nl ++ bs " Cash" ++ nl.
Ltac lit := vm_compute; reflexivity.
Ltac skip := apply ws_skips; lit.
Ltac no_at := right; split; [reflexivity|vm_compute; intros X; discriminate X].
Ltac its_post neg := eexists _, _, _, _, _, _, _, neg, _; split; [apply acct_ok2; lit|]; split; [skip|]; split; [first [reflexivity|split; [reflexivity|vm_compute; intros X; discriminate X]]|];
    split; [apply GrammarProofs.money_ok; lit|]; split; [lit|]; split; [skip|]; split; [no_at|]; split; [apply note_ok; lit|apply skip_eol_may; lit].
Ltac inside := split; [lit|]; split; [skip|]; repeat split; vm_compute; intros X; discriminate X.
Ltac a_post neg := eapply item_post; [inside|its_post neg|intros X; discriminate X].
Ltac a_rest := eapply item_rest; [inside|its_post false].
Ltac a_trans := eapply item_trans; apply trans_ok; lit.
Ltac a_price := eapply item_price; eexists _, _, _, _, _, _, _, _; split; [reflexivity|]; split; [skip|]; split; [apply date_ok; lit|]; split; [skip|]; split; [apply time_ok; lit|];
  split; [apply ccy_ok; lit|]; split; [skip|]; split; [apply GrammarProofs.money_ok; lit|apply skip_eol_may; lit].
Ltac an_item tac := eapply text_item; [vm_compute; intros X; discriminate X|tac|].
Definition x_fs110 := x_fs [(bs "m", ex110)].
Lemma ex110_text : exists es, text_at x_letter digit upc x_fs110 x_join (bs "m") [] (decode ex110) es /\ Forall (reportable 58) es /\ opened_first es.
Proof.
  eexists. split.
  - let x := eval vm_compute in (decode ex110) in change (decode ex110) with x.
    an_item a_price.
    an_item a_trans. an_item ltac:(a_post false). an_item a_rest.
    an_item a_trans. an_item ltac:(a_post false). an_item a_rest.
    an_item a_trans. an_item ltac:(a_post true). an_item ltac:(a_post false).
    an_item a_trans. an_item ltac:(a_post true). an_item ltac:(a_post false).
    an_item a_trans. an_item ltac:(a_post true). an_item a_rest.
    apply text_end. reflexivity.
  - cbn [app]. split; [|exact I].
    assert (V : forall d, In d [20240101; 20240105; 20240109; 20240201; 20240202; 20240203] -> valid_date d).
    { intros d H. exists (d / 10000), (d / 100 mod 100), (d mod 100). cbn [In] in H. decompose [or] H; try contradiction; subst d; vm_compute; repeat split; intros X; discriminate X. }
    repeat constructor; try (apply V; cbn [In]; tauto); vm_compute; intros X; discriminate X.
Qed.
Definition ex110_report (k : by_period) : outcome str :=
  do b <- load_book x_letter digit upc x_order x_fs110 x_join xsort 1 (bs "m");
  do x <- report_run xsort (fun _ => None) (fun _ => None) 20240301 (fun _ pb => pb) (fun _ => None) 5 x_it x_micro (bs "GBP") [58] (mkRO (bs "Text") (by_name k) false true [] []) [] b;
  summary_text x_print x_plain_f64 x_ascii_letter (bk_ccy (fst x)) false 80 (snd x).
Example C110_nonvacuous : (exists es, text_at x_letter digit upc x_fs110 x_join (bs "m") [] (decode ex110) es /\ Forall (reportable 58) es /\ opened_first es) /\
  ex110_report (ByPeriod Monthly) = Ok (table_text [
    bs "Account 2024/01/01 2024/02/01";
    bs "Cash    GBP  -18.5 GBP    2.0";
    bs "        GBP  -10.5 GBP    0.0";
    bs "        USD     -4 USD      1";
    [];
    bs "Exp     GBP   18.5 GBP   -2.0";
    bs "  Food  GBP   10.5 GBP    0.0";
    bs "  Fun   GBP    8.0 GBP   -2.0";
    bs "        USD      4 USD     -1"]) /\
  ex110_report ByToday = Ok (table_text [
    bs "Account 2024/03/01";
    bs "Exp     GBP   16.5";
    bs "  Food  GBP   10.5";
    bs "  Fun   GBP    6.0";
    bs "        USD      3";
    [];
    bs "Cash    GBP  -16.5";
    bs "        GBP  -10.5";
    bs "        USD     -3"]).
Proof. split; [exact ex110_text|]. split; vm_compute; reflexivity. Qed.
(** EXPECTED: a ledger that loads has a report. REFUTED: nothing moves, the report crashes. *)
Theorem C110_nothing_moves_refuted : exists bytes bk,
  x_load [(bs "m", bytes)] (bs "m") = Ok bk /\
  forall it micro f64 isl colour width k, (do x <- report_run xsort (fun _ => None) (fun _ => None) 20240301 (fun _ pb => pb) (fun _ => None) 5 it micro (bs "GBP") [58] (mkRO (bs "Text") (by_name k) false true [] []) [] bk;
    summary_text x_print f64 isl (bk_ccy (fst x)) colour width (snd x)) = Panic.
Proof.
  exists (bs "2024/01/05 Swap" ++ nl ++ bs " Cash  3 GBP" ++ nl ++ bs " Cash  -3 GBP" ++ nl). eexists. split; [vm_compute; reflexivity|].
  intros it micro f64 isl colour width k. destruct k as [[]| |]; vm_compute; reflexivity.
Qed.
Print Assumptions C110_nothing_moves_refuted.
