(** * RegisterProps: properties C30-C37. [srt] is any sort that returns a sorted permutation, [m] the account
    pattern, [split] the --split flag, [base] the base currency. *)
From Verif Require Import Base Dec DateModel DateSpec DateProofs DateProofs2 PriceModel PriceSpec PriceProofs BookModel BookSpec BookProofs BuilderProofs
  OpsModel OpsProofs OpsProofs2 OpsProofs3 BookProps RegisterModel RegisterSpec RegisterProofs.

(** A register for the examples: a purchase split over two accounts, a currency exchange, a foreign payment. *)
Definition reg_calls : list bcall :=
  [ CPrice 20240101 (bs "USD") (bs "GBP") (qz 2);
    CTrans 20240105 (bs "Shop") (bs "tn");
    CPost (bs "Cash") (bs "GBP") (qz (-15)) (bs "pn"); CPost (bs "Food") (bs "GBP") (qz 10) []; CPost (bs "Misc") (bs "GBP") (qz 5) [];
    CTrans 20240106 (bs "Bank") [];
    CPost (bs "Cash") (bs "GBP") (qz (-30)) []; CPost (bs "Cash") (bs "USD") (qz 10) []; CPost (bs "Trade") (bs "GBP") (qz 30) []; CPost (bs "Trade") (bs "USD") (qz (-10)) [];
    CTrans 20240110 (bs "Hotel") [];
    CPost (bs "Cash") (bs "USD") (qz (-4)) []; CPost (bs "Travel") (bs "USD") (qz 4) [] ].
Definition reg_book : book := built reg_calls.
Lemma reg_reach : reachable xsort reg_book.
Proof. apply built_reach. vm_compute. reflexivity. Qed.
Definition is_cash (a : str) : bool := str_eqb a (bs "Cash").
Definition eview (e : entry) :=
  (e_date e, e_payee e, e_counter e, (this (e_amt e), e_ccy e, this (e_bal e)), (this (e_base e), e_src e, this (e_basebal e))).
Definition reg_of (split : bool) : list entry := match extract_register xsort (bs "GBP") is_cash split reg_book with Ok (_, l) => l | _ => [] end.
Example reg_view_split : map eview (reg_of true) =
  [ (20240105, bs "Shop", bs "Food", ((-10 # 1)%Q, bs "GBP", (-10 # 1)%Q), ((-10 # 1)%Q, Exact, (-10 # 1)%Q));
    (20240105, bs "Shop", bs "Misc", ((-5 # 1)%Q, bs "GBP", (-15 # 1)%Q), ((-5 # 1)%Q, Exact, (-15 # 1)%Q));
    (20240106, bs "Bank", bs "Trade", ((-30 # 1)%Q, bs "GBP", (-45 # 1)%Q), ((-30 # 1)%Q, Exact, (-45 # 1)%Q));
    (20240106, bs "Bank", bs "Trade", ((10 # 1)%Q, bs "USD", (10 # 1)%Q), ((30 # 1)%Q, Trade, (-15 # 1)%Q));
    (20240110, bs "Hotel", bs "Travel", ((-4 # 1)%Q, bs "USD", (6 # 1)%Q), ((-2 # 1)%Q, OutOfRange, (-17 # 1)%Q)) ].
Proof. vm_compute. reflexivity. Qed.
Example reg_view_joined : map (fun e => (e_counter e, this (e_amt e))) (firstn 1 (reg_of false)) = [(bs "Food;Misc", (-15 # 1)%Q)].
Proof. vm_compute. reflexivity. Qed.

(** ** C30. The register is the concatenation of one block of entries per matching posting (in the order of the
    transactions); every entry of a block carries the date, payee, account, currency and notes of the posting, and
    the amounts of the block sum to the amount of the posting. Without --split each block is one entry. *)
Lemma register_amounts_ok : forall srt base m split b b' es, sort_ok is_less srt -> book_ok b ->
  extract_register srt base m split b = Ok (b', es) ->
  b' = fst (transactions srt b) /\
  exists blocks, concat blocks = es /\
    Forall2 (fun tp block => Forall (names (snd tp)) block /\ qsum (map e_amt block) = p_val (snd tp) /\ (split = false -> length block = 1%nat))
      (matching m (snd (transactions srt b))) blocks.
Proof.
  intros srt base m split b b' es Hs Hr E. unfold extract_register in E. apply obind_Ok in E as (l & E & E2).
  injection E2 as <- <-. split; [reflexivity|]. unfold transactions. cbn [snd].
  pose proof (compact_tidy srt b Hs Hr) as Ht. apply trans_loop_spec in E as ((blocks & C & F) & _); [|exact Ht].
  exists blocks. split; [exact C|].
  assert (Hin : Forall (fun tp : trans * posting => tidy (fst tp) /\ In (snd tp) (fst tp)) (matching m (bk_trans (compact srt b)))).
  { rewrite Forall_forall in *. intros [t p] Hin. unfold matching in Hin. apply in_flat_map in Hin as (t' & Ht' & Hin). apply in_map_iff in Hin as (p' & E1 & Hp').
    injection E1 as <- <-. apply filter_In in Hp' as [Hp' _]. cbn [fst snd]. auto. }
  clear - F Hin. induction F as [|tp blk tps bls Hb F IH]; constructor; [|apply IH; exact (Forall_inv_tail Hin)].
  destruct (Forall_inv Hin) as [Ht Hp]. destruct Hb as (al & Ea & Hf). destruct (allocate_spec split _ _ Ht Hp) as (al' & Ea' & Hsum & _ & Hjoin & _).
  rewrite Ea in Ea'. injection Ea' as <-. split; [|split].
  - clear - Hf. induction Hf as [|va e al es H _ IH]; constructor; [apply H|exact IH].
  - rewrite (entry_sum _ _ _ _ _ _ Hf). exact Hsum.
  - intros Hsp. rewrite (Hjoin Hsp) in Hf. inversion Hf as [|? ? ? ? _ H2]. inversion H2. reflexivity.
Qed.
Theorem C30_register_amounts : forall srt base m split b b' es, sort_ok is_less srt -> reachable srt b ->
  extract_register srt base m split b = Ok (b', es) ->
  b' = fst (transactions srt b) /\
  exists blocks, concat blocks = es /\
    Forall2 (fun tp block => Forall (names (snd tp)) block /\ qsum (map e_amt block) = p_val (snd tp) /\ (split = false -> length block = 1%nat))
      (matching m (snd (transactions srt b))) blocks.
Proof. intros srt base m split b b' es Hs Hr. apply register_amounts_ok; [exact Hs|apply (reachable_ok srt Hs), Hr]. Qed.
Print Assumptions C30_register_amounts.
Example C30_nonvacuous : length (matching is_cash (snd (transactions xsort reg_book))) = 4%nat /\ length (reg_of true) = 5%nat.
Proof. split; vm_compute; reflexivity. Qed.

(** ** C31 *)
Lemma register_balances_ok : forall srt base m split b b' es, sort_ok is_less srt -> book_ok b ->
  extract_register srt base m split b = Ok (b', es) ->
  (forall l1 e l2, es = l1 ++ e :: l2 ->
     e_bal e = ccy_sum (e_ccy e) (l1 ++ [e]) /\ e_basebal e = qsum (map e_base (l1 ++ [e]))) /\
  (forall c, ccy_sum c es = total (fun _ _ a c' => m a && str_eqb c' c) (bk_post b)).
Proof.
  intros srt base m split b b' es Hs Hr E. pose proof (register_amounts_ok _ _ _ _ _ _ _ Hs Hr E) as (_ & blocks & C & F).
  unfold extract_register in E. apply obind_Ok in E as (l & E & E2).
  injection E2 as <- <-. pose proof (compact_tidy srt b Hs Hr) as Ht. apply trans_loop_spec in E as (_ & B); [|exact Ht]. split.
  - intros l1 e l2 E. destruct (bal_rec_spec _ _ _ B _ _ _ E) as [H1 H2]. cbn [rbal aget] in H1. unfold rbal in H1. cbn [aget] in H1. rewrite H1, H2. unfold base_sum. split; ring.
  - intros c. rewrite <- (compact_total srt Hs). pose proof (compact_book_ok srt Hs b Hr) as (_ & Hc & _). rewrite <- Hc.
    unfold transactions in F. cbn [snd] in F. rewrite <- C.
    assert (Hm : forall ts, total (fun _ _ a c' => m a && str_eqb c' c) (concat ts) = qsum (map (fun tp : trans * posting => if str_eqb (p_ccy (snd tp)) c then p_val (snd tp) else 0%Qc) (matching m ts))).
    { induction ts as [|t ts IH]; [reflexivity|]. unfold matching in *. cbn [concat flat_map]. rewrite total_app, map_app, qsum_app, IH. f_equal.
      rewrite map_map. cbn [snd]. clear. induction t as [|p t IH]; [reflexivity|]. rewrite total_cons, IH. unfold on. cbn [filter].
      destruct (m (p_acct p)); cbn [andb map]; [rewrite qsum_cons; reflexivity|ring]. }
    rewrite Hm. clear - F. induction F as [|tp bl tps bls H F IH]; [reflexivity|]. cbn [concat map]. rewrite ccy_sum_app, qsum_cons, IH. f_equal.
    destruct H as (Hn & Hsum & _). destruct (str_eqb_spec (p_ccy (snd tp)) c) as [Ec|Nc].
    + rewrite ccy_sum_same; [exact Hsum|]. eapply Forall_impl; [|exact Hn]. intros e He. rewrite <- Ec. apply He.
    + apply (ccy_sum_other c (p_ccy (snd tp))); [|congruence]. eapply Forall_impl; [|exact Hn]. intros e He. apply He.
Qed.
Theorem C31_register_balances : forall srt base m split b b' es, sort_ok is_less srt -> reachable srt b ->
  extract_register srt base m split b = Ok (b', es) ->
  (forall l1 e l2, es = l1 ++ e :: l2 ->
     e_bal e = ccy_sum (e_ccy e) (l1 ++ [e]) /\ e_basebal e = qsum (map e_base (l1 ++ [e]))) /\
  (forall c, ccy_sum c es = total (fun _ _ a c' => m a && str_eqb c' c) (bk_post b)).
Proof. intros srt base m split b b' es Hs Hr. apply register_balances_ok; [exact Hs|apply (reachable_ok srt Hs), Hr]. Qed.
Print Assumptions C31_register_balances.
Example C31_nonvacuous : exists l1 e l2, reg_of true = l1 ++ e :: l2 /\ length l1 = 3%nat /\ this (e_bal e) = (10 # 1)%Q.
Proof.
  exists (firstn 3 (reg_of true)), (nth 3 (reg_of true) (mkE 0 [] [] [] 0%Qc [] 0%Qc [] [] 0%Qc Exact 0%Qc)), (skipn 4 (reg_of true)).
  split; [|split; vm_compute; reflexivity].
  assert (H : forall l, length l = 5%nat -> l = firstn 3 l ++ nth 3 l (mkE 0 [] [] [] 0%Qc [] 0%Qc [] [] 0%Qc Exact 0%Qc) :: skipn 4 l).
  { intros l Hl. do 5 (destruct l as [|? l]; [discriminate|]). reflexivity. }
  apply H. vm_compute. reflexivity.
Qed.

Lemma split_entries pb base t p sum : forall qs al,
  Forall2 (fun q a => fst a = p_acct q /\ (snd a * sum = p_val p * p_val q)%Qc) qs al -> forall es, Forall2 (entry_for pb base t p) al es ->
  Forall2 (fun q e => e_counter e = p_acct q /\ (e_amt e * sum = p_val p * p_val q)%Qc) qs es.
Proof.
  intros qs al H. induction H as [|q a qs al H _ IH]; intros es F; inversion F as [|? e ? es' He F2]; subst; constructor; [|apply IH; exact F2].
  destruct He as (_ & -> & -> & _). exact H.
Qed.

(** ** C32. With readable prices the register never fails, every matching posting has at least one entry, and the
    counter-accounts are those of the postings of the same transaction booked in the opposite direction: one entry
    each (sharing the amount in proportion) with --split, all of them joined by ";" without. *)
Lemma register_complete_ok : forall srt base m split b, sort_ok is_less srt -> book_ok b ->
  pb_ok (bk_prices b) -> pb_pos (bk_prices b) ->
  (forall t p, In t (snd (transactions srt b)) -> In p t -> valid_date (p_date p)) ->
  exists b' es blocks, extract_register srt base m split b = Ok (b', es) /\ concat blocks = es /\
    Forall2 (fun tp block => block <> [] /\ exists opp, opposites (snd tp) (fst tp) opp /\ opp <> [] /\
        (split = true -> Forall2 (fun q e => e_counter e = p_acct q /\ (e_amt e * qsum (map p_val opp) = p_val (snd tp) * p_val q)%Qc) opp block) /\
        (split = false -> map e_counter block = [join (bs ";") (map p_acct opp)]))
      (matching m (snd (transactions srt b))) blocks.
Proof.
  intros srt base m split b Hs Hr Hpo Hpp Hv. unfold transactions in *. cbn [snd] in *.
  pose proof (compact_tidy srt b Hs Hr) as Ht.
  assert (Epr : bk_prices (compact srt b) = bk_prices b) by (unfold compact; destruct (bk_post b); reflexivity).
  destruct (trans_loop_ok m split (bk_prices (compact srt b)) base (bk_trans (compact srt b)) [] 0%Qc Ht) as (es & E).
  { rewrite Forall_forall. intros t Hin p Hp _. rewrite Epr. destruct (get_price_total (bk_prices b) (p_date p) base (p_ccy p) Hpo Hpp (Hv t p Hin Hp)) as (v & pt & -> & _). eauto. }
  pose proof E as E0. apply trans_loop_spec in E0 as ((blocks & C & F) & _); [|exact Ht].
  exists (compact srt b), es, blocks. split; [unfold extract_register; cbn zeta; rewrite E; reflexivity|]. split; [exact C|].
  assert (Hin : Forall (fun tp : trans * posting => tidy (fst tp) /\ In (snd tp) (fst tp)) (matching m (bk_trans (compact srt b)))).
  { rewrite Forall_forall in *. intros [t p] Hin. unfold matching in Hin. apply in_flat_map in Hin as (t' & Ht' & Hin). apply in_map_iff in Hin as (p' & E1 & Hp').
    injection E1 as <- <-. apply filter_In in Hp' as [Hp' _]. cbn [fst snd]. auto. }
  clear - F Hin. induction F as [|tp blk tps bls Hb F IH]; constructor; [|apply IH; exact (Forall_inv_tail Hin)].
  destruct (Forall_inv Hin) as [Ht Hp]. destruct Hb as (al & Ea & Hf). destruct (allocate_spec split _ _ Ht Hp) as (al' & Ea' & _ & Hne & Hjoin & Hsplit).
  rewrite Ea in Ea'. injection Ea' as <-.
  split; [intros ->; inversion Hf; congruence|]. exists (counters (fst tp) (snd tp)).
  pose proof Ht as (_ & _ & _ & Hz & _).
  assert (Ho : opposites (snd tp) (fst tp) (counters (fst tp) (snd tp))) by (apply counters_opposites; [rewrite Forall_forall in Hz; apply Hz; exact Hp|exact Hz]).
  split; [exact Ho|]. split; [apply (opposites_sum _ _ _ Ht Hp Ho)|]. split.
  - intros Hsp. exact (split_entries _ _ _ _ _ _ _ (Hsplit Hsp) _ Hf).
  - intros Hsp. rewrite (Hjoin Hsp) in Hf. inversion Hf as [|? e ? es He H2]. inversion H2. subst. destruct He as (_ & Ec & _). cbn [map]. rewrite Ec. reflexivity.
Qed.
Theorem C32_register_complete : forall srt base m split b, sort_ok is_less srt -> reachable srt b ->
  pb_ok (bk_prices b) -> pb_pos (bk_prices b) ->
  (forall t p, In t (snd (transactions srt b)) -> In p t -> valid_date (p_date p)) ->
  exists b' es blocks, extract_register srt base m split b = Ok (b', es) /\ concat blocks = es /\
    Forall2 (fun tp block => block <> [] /\ exists opp, opposites (snd tp) (fst tp) opp /\ opp <> [] /\
        (split = true -> Forall2 (fun q e => e_counter e = p_acct q /\ (e_amt e * qsum (map p_val opp) = p_val (snd tp) * p_val q)%Qc) opp block) /\
        (split = false -> map e_counter block = [join (bs ";") (map p_acct opp)]))
      (matching m (snd (transactions srt b))) blocks.
Proof. intros srt base m split b Hs Hr. apply register_complete_ok; [exact Hs|apply (reachable_ok srt Hs), Hr]. Qed.
Print Assumptions C32_register_complete.
Example C32_nonvacuous : pb_ok (bk_prices reg_book) /\ pb_pos (bk_prices reg_book) /\
  (forall t p, In t (snd (transactions xsort reg_book)) -> In p t -> valid_date (p_date p)).
Proof.
  assert (V : forall d, In d [20240101; 20240105; 20240106; 20240110] -> valid_date d).
  { intros d [<-|[<-|[<-|[<-|[]]]]]; [exists 2024, 1, 1|exists 2024, 1, 5|exists 2024, 1, 6|exists 2024, 1, 10]; (split; [cbv; intuition congruence|reflexivity]). }
  assert (Ep : map (fun e => (fst e, map (fun p => (pr_date p, this (pr_val p))) (snd e))) (bk_prices reg_book) = [((bs "USD", bs "GBP"), [(20240101, (2 # 1)%Q)])]) by (vm_compute; reflexivity).
  destruct (bk_prices reg_book) as [|[k l] [|]]; try discriminate. destruct l as [|[d v] [|]]; try discriminate. cbn [map fst snd pr_date pr_val] in Ep. injection Ep as -> -> Ev.
  split; [|split].
  - split; [repeat constructor; intros []|]. constructor; [|constructor]. cbn [snd]. split; [discriminate|]. split; [repeat constructor; apply V; cbn; tauto|repeat constructor].
  - constructor; [|constructor]. cbn [snd]. constructor; [|constructor]. cbn [pr_val]. unfold Qclt. rewrite Ev. reflexivity.
  - intros t p Ht Hp. apply V.
    assert (Hd : forallb (forallb (fun p => existsb (Z.eqb (p_date p)) [20240101; 20240105; 20240106; 20240110])) (snd (transactions xsort reg_book)) = true) by (vm_compute; reflexivity).
    rewrite forallb_forall in Hd. specialize (Hd t Ht). rewrite forallb_forall in Hd. specialize (Hd p Hp). apply existsb_exists in Hd as (d & Hd & E). apply Z.eqb_eq in E. rewrite E. exact Hd.
Qed.

Lemma extract_is srt base m split b :
  match extract_register srt base m split b with Ok _ => true | _ => false end = true ->
  extract_register srt base m split b = Ok (fst (transactions srt b), match extract_register srt base m split b with Ok (_, l) => l | _ => [] end).
Proof.
  destruct (extract_register srt base m split b) as [[b' es]| | |] eqn:E; intros H; try discriminate H. f_equal. f_equal.
  unfold extract_register in E. apply obind_Ok in E as (l & _ & E). injection E as <- _. reflexivity.
Qed.

(** ** C33. The conversion uses the price of the base currency in the currency of the entry, the wrong way round:
    4 USD at 2 GBP per USD are shown as 2 GBP. *)
Theorem C33_base_amount_refuted : exists b es e r,
  reachable xsort b /\ extract_register xsort (bs "GBP") is_cash true b = Ok (fst (transactions xsort b), es) /\ In e es /\
  e_ccy e = bs "USD" /\ e_src e = OutOfRange /\
  get_price (bk_prices b) (e_date e) (e_ccy e) (bs "GBP") = Ok (r, OutOfRange) /\ r = qz 2 /\
  e_amt e = qz (-4) /\ e_base e = qz (-2) /\ e_base e <> (r * e_amt e)%Qc.
Proof.
  assert (E2 : extract_register xsort (bs "GBP") is_cash true reg_book = Ok (fst (transactions xsort reg_book), reg_of true)).
  { apply extract_is. vm_compute. reflexivity. }
  assert (Hl : forall (l : list entry) d, l <> [] -> In (last l d) l).
  { intros l d Hn. destruct (exists_last Hn) as (l' & x & ->). rewrite last_last. apply in_app_iff. right. left. reflexivity. }
  set (d := mkE 0 [] [] [] 0%Qc [] 0%Qc [] [] 0%Qc Exact 0%Qc).
  exists reg_book, (reg_of true), (last (reg_of true) d), (qz 2).
  split; [exact reg_reach|]. split; [exact E2|]. split; [apply Hl; vm_compute; discriminate|].
  split; [vm_compute; reflexivity|]. split; [vm_compute; reflexivity|].
  assert (Q : forall a b : Qc, qc_eqb a b = true -> a = b) by (intros a b; apply qc_eqb_eq).
  split.
  { assert (H : match get_price (bk_prices reg_book) (e_date (last (reg_of true) d)) (e_ccy (last (reg_of true) d)) (bs "GBP") with Ok (r, OutOfRange) => qc_eqb r (qz 2) | _ => false end = true) by (vm_compute; reflexivity).
    assert (G : forall o : outcome (Qc * ptype), match o with Ok (r, OutOfRange) => qc_eqb r (qz 2) | _ => false end = true -> o = Ok (qz 2, OutOfRange)).
    { intros [[r []]| | |] Hx; try discriminate Hx. apply Q in Hx. rewrite Hx. reflexivity. }
    exact (G (get_price (bk_prices reg_book) (e_date (last (reg_of true) d)) (e_ccy (last (reg_of true) d)) (bs "GBP")) H). }
  split; [reflexivity|]. split; [apply Q; vm_compute; reflexivity|]. split; [apply Q; vm_compute; reflexivity|].
  intros H. apply qc_eqb_eq in H. revert H. vm_compute. discriminate.
Qed.
Print Assumptions C33_base_amount_refuted.
(** What holds: base-currency entries are exact, entries of a trade use the traded rate, otherwise the price of
    the base currency in the currency of the entry is used as the factor. *)
Theorem C33_base_amount_partial : forall srt base m split b b' es, sort_ok is_less srt -> reachable srt b ->
  extract_register srt base m split b = Ok (b', es) ->
  forall e, In e es ->
    (e_ccy e = base -> e_base e = e_amt e /\ e_src e = Exact) /\
    (e_ccy e <> base -> exists t, In t (snd (transactions srt b)) /\ Forall (fun p => p_date p = e_date e /\ p_payee p = e_payee e) t /\
       ((exists r, traded base (e_ccy e) t r /\ e_src e = Trade /\ e_base e = (r * e_amt e)%Qc) \/
        (exists r, (forall k p q, pair_at t k p q -> ~ is_trade base (e_ccy e) p q) /\
           get_price (bk_prices b) (e_date e) base (e_ccy e) = Ok (r, e_src e) /\ e_base e = (r * e_amt e)%Qc))).
Proof.
  intros srt base m split b b' es Hs Hr E e He. apply (reachable_ok srt Hs) in Hr. unfold extract_register in E. apply obind_Ok in E as (l & E & E2).
  injection E2 as <- <-. pose proof (compact_tidy srt b Hs Hr) as Ht. apply trans_loop_spec in E as ((blocks & C & F) & _); [|exact Ht].
  assert (Epr : bk_prices (compact srt b) = bk_prices b) by (unfold compact; destruct (bk_post b); reflexivity). rewrite Epr in F.
  rewrite <- C in He. apply in_concat in He as (bl & Hbl & He).
  assert (exists tp, In tp (matching m (bk_trans (compact srt b))) /\ block_for (bk_prices b) base split tp bl) as ([t p] & Htp & (al & _ & Hf)).
  { clear - F Hbl. induction F as [|tp x tps xs H F IH]; [contradiction|]. destruct Hbl as [->|Hbl]; [exists tp; split; [left; reflexivity|exact H]|].
    destruct (IH Hbl) as (tp' & H1 & H2). exists tp'. split; [right; exact H1|exact H2]. }
  cbn [fst snd] in Hf. unfold matching in Htp. apply in_flat_map in Htp as (t' & Ht' & Hin). apply in_map_iff in Hin as (p' & E1 & Hp'). injection E1 as -> ->. apply filter_In in Hp' as [Hp _].
  assert (Hef : exists va, entry_for (bk_prices b) base t p va e).
  { clear - Hf He. induction Hf as [|va x al es H _ IH]; [contradiction|]. destruct He as [<-|He]; [eauto|exact (IH He)]. }
  destruct Hef as (va & (Nd & Np & _ & Nc & _) & _ & _ & Eb). rewrite Forall_forall in Ht. pose proof (Ht t Ht') as (Hne & Hu & _ & Hz & _).
  unfold base_amount in Eb. rewrite <- Nc in Eb. destruct (str_eqb_spec (e_ccy e) base) as [Ec|Nec].
  - split; [intros _; injection Eb as <- <-; auto|congruence].
  - split; [congruence|]. intros _. exists t. split; [exact Ht'|]. split.
    { rewrite Forall_forall. intros q Hq. specialize (Hu q p Hq Hp). unfold dp in Hu. rewrite Nd, Np. injection Hu as -> ->. auto. }
    destruct (infer_rate_spec base (e_ccy e) t Hz) as [(r & Ei & Htr)|[Ei Hno]]; rewrite Ei in Eb; cbn [obind] in Eb.
    + left. exists r. injection Eb as E1 E2. auto.
    + right. destruct t as [|h t]; [congruence|]. change (index (h :: t) 0) with (Ok h) in Eb. cbn [obind] in Eb. apply obind_Ok in Eb as ([r src] & Eg & Eb).
      injection Eb as E1 E2. exists r. split; [exact Hno|]. specialize (Hu h p (or_introl eq_refl) Hp). unfold dp in Hu. injection Hu as Ehd _. rewrite Nd, <- Ehd, Eg, E2. auto.
Qed.
Print Assumptions C33_base_amount_partial.

(** ** C34 *)
Lemma register_window_ok : forall srt base m split b b' es mn mx, sort_ok is_less srt -> book_ok b ->
  extract_register srt base m split b = Ok (b', es) ->
  filter_by_date mn mx es = Ok (filter (fun e => ((mn =? 0) || (mn <=? e_date e)) && ((mx =? 0) || (e_date e <? mx))) es).
Proof.
  intros srt base m split b b' es mn mx Hs Hr E. apply filter_by_date_spec. unfold extract_register in E. apply obind_Ok in E as (l & E & E2).
  injection E2 as <- <-. pose proof (compact_tidy srt b Hs Hr) as Ht. apply trans_loop_spec in E as ((blocks & C & F) & _); [|exact Ht]. rewrite <- C.
  eapply blocks_dates; [exact F|]. apply matching_dates. apply (compact_book_ok srt Hs b Hr).
Qed.
Theorem C34_register_window : forall srt base m split b b' es mn mx, sort_ok is_less srt -> reachable srt b ->
  extract_register srt base m split b = Ok (b', es) ->
  filter_by_date mn mx es = Ok (filter (fun e => ((mn =? 0) || (mn <=? e_date e)) && ((mx =? 0) || (e_date e <? mx))) es).
Proof. intros srt base m split b b' es mn mx Hs Hr. apply register_window_ok; [exact Hs|apply (reachable_ok srt Hs), Hr]. Qed.
Print Assumptions C34_register_window.
Example C34_nonvacuous : match filter_by_date 20240106 20240110 (reg_of true) with Ok l => map e_date l | _ => [] end = [20240106; 20240106].
Proof. vm_compute. reflexivity. Qed.

(** ** C35. Counting is right; ascending keeps the order. *)
Theorem C35_count_ascending_partial : forall count rep,
  print_rows (show_rows count true rep) = Ok (cut_count count rep) /\
  (0 < count -> cut_count count rep = firstn (Z.to_nat count) rep) /\
  (count < 0 -> cut_count count rep = skipn (length rep - Z.to_nat (- count)) rep) /\
  (count = 0 -> cut_count count rep = rep).
Proof. intros count rep. split; [apply print_rows_some|apply cut_count_spec]. Qed.
Print Assumptions C35_count_ascending_partial.
(** Descending output of any non-empty register crashes: only half of the reversed rows are filled in. *)
Theorem C35_descending_refuted : forall rep, rep <> [] -> print_rows (show_rows 0 false rep) = Panic.
Proof. exact show_desc_panics. Qed.
Print Assumptions C35_descending_refuted.
Example C35_nonvacuous : reg_of true <> [] /\ map e_date (cut_count (-2) (reg_of true)) = [20240106; 20240110].
Proof. split; [vm_compute; discriminate|vm_compute; reflexivity]. Qed.

(** ** C36. [pair_at t k p q]: p, q are the first two postings of a run of one account in t. *)
Theorem C36_inferred_rate : forall base unit t, Forall (fun p => p_val p <> 0%Qc) t ->
  (exists r, infer_rate base unit t = Ok (Some r) /\ (0 < r)%Qc /\
     exists pre p q post, t = pre ++ p :: q :: post /\ p_acct p = p_acct q /\
       exists pb pu, ((pb = p /\ pu = q) \/ (pb = q /\ pu = p)) /\ p_ccy pb = base /\ p_ccy pu = unit /\
         ((0 < p_val pb /\ p_val pu < 0) \/ (p_val pb < 0 /\ 0 < p_val pu))%Qc /\
         (r * p_val pu = - p_val pb)%Qc) \/
  (infer_rate base unit t = Ok None /\ forall k p q, pair_at t k p q -> ~ is_trade base unit p q).
Proof.
  intros base unit t Hz. destruct (infer_rate_spec base unit t Hz) as [(r & E & H)|H]; [left|right; exact H].
  exists r. split; [exact E|]. split; [exact (traded_pos _ _ _ _ H)|]. exact H.
Qed.
Print Assumptions C36_inferred_rate.
Example C36_nonvacuous :
  match nth_error (bk_trans reg_book) 1 with Some t =>
    (forallb (fun p => negb (qc_is0 (p_val p))) t, match infer_rate (bs "GBP") (bs "USD") t with Ok (Some r) => this r | _ => 0%Q end) | None => (false, 0%Q) end
  = (true, 3 # 1)%Q.
Proof. vm_compute. reflexivity. Qed.

(** ** C37. InferRates has no exit from its loop: whatever the number of iterations, it has not returned. *)
Theorem C37_infer_rates_refuted : forall base t n r, infer_rates n base t <> Ok r.
Proof. intros base t n r. apply infer_rates_never. Qed.
Print Assumptions C37_infer_rates_refuted.
