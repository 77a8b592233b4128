(** * DataExportProps2: the dates of the JSON export (C63); transactions, currencies and prices of the Beancount
    export (C82). *)
From Verif Require Import Base Dec DateModel DateSpec DateProofs PriceModel BookModel BookSpec BookProofs BuilderProofs OpsModel OpsProofs BookProps
  LoaderModel LoaderSpec LoaderProofs ExportModel ExportSpec ExportProofs ExportProps DataExportModel DataExportSpec DataExportProps DataExportSpec2.

(** ** C63: the date of a transaction *)
Theorem C63_json_date : forall d, valid_date d -> d < 100000000 -> rfc_date (rfc3339 d) d.
Proof.
  intros d (y & m & dd & (Hy & Hm & Hd) & ->) Hlt. unfold ymd in *.
  pose proof (dim_bounds y m) as Hd31.
  assert (E1 : Z.quot (y * 10000 + m * 100 + dd) 10000 = y) by (rewrite Z.quot_div_nonneg by lia; symmetry; apply (Z.div_unique _ _ _ (m * 100 + dd)); lia).
  assert (E2 : Z.rem (Z.quot (y * 10000 + m * 100 + dd) 100) 100 = m).
  { rewrite Z.quot_div_nonneg by lia. replace ((y * 10000 + m * 100 + dd) / 100) with (y * 100 + m) by (apply (Z.div_unique _ _ _ dd); lia).
    rewrite Z.rem_mod_nonneg by lia. symmetry. apply (Z.mod_unique _ _ y); lia. }
  assert (E3 : Z.rem (y * 10000 + m * 100 + dd) 100 = dd) by (rewrite Z.rem_mod_nonneg by lia; symmetry; apply (Z.mod_unique _ _ (y * 100 + m)); lia).
  unfold rfc3339. rewrite E1, E2, E3. clear E1 E2 E3. unfold fmt_0d.
  destruct (Z.ltb_spec y 0); [lia|]. destruct (Z.ltb_spec m 0); [lia|]. destruct (Z.ltb_spec dd 0); [lia|].
  exists (zpad 4 (dec y)), (zpad 2 (dec m)), (zpad 2 (dec dd)). split; [reflexivity|].
  split; [apply zpad_length; [lia|lia|change (10 ^ Z.of_nat 4) with 10000; lia]|].
  split; [apply zpad_length; [lia|lia|change (10 ^ Z.of_nat 2) with 100; lia]|].
  split; [apply zpad_length; [lia|lia|change (10 ^ Z.of_nat 2) with 100; lia]|].
  split; [apply dig_digits, zpad_digits; lia|]. split; [apply dig_digits, zpad_digits; lia|]. split; [apply dig_digits, zpad_digits; lia|].
  rewrite !zpad_val by lia. reflexivity.
Qed.
Print Assumptions C63_json_date.

(** ** C82 *)
Lemma unblanked_filter s : unblanked s (filter (fun c => negb (c =? 32)) s).
Proof. induction s as [|c s IH]; [constructor|]. cbn [filter]. destruct (Z.eqb_spec c 32) as [->|H]; cbn [negb]; constructor; assumption. Qed.
Lemma bean_ccy_printed upper c : ccy_printed upper c (bean_ccy upper c).
Proof. eexists. split; [apply unblanked_filter|reflexivity]. Qed.

Section Content.
  Variable f64 : Qc -> Qc.
  Variable title upper : str -> str.
  Variable decs : list (str * Z).
  (** The posting [r] of the file shows the posting [p] of the book; its number is exact if the float64 and the
      decimals of the currency allow. *)
  Definition post_shown (p : posting) (r : file_post) : Prop :=
    let '(a, n, u, note) := r in
    a = title (p_acct p) /\ ccy_printed upper (p_ccy p) u /\ note = p_note p /\
    (float64_ok f64 -> short_amount (decs_for decs (p_ccy p)) (p_val p) -> amount_text n (p_val p)).
  Definition trans_shown (t : trans) (r : file_trans) : Prop :=
    let '((d, payee, note), ps) := r in
    Forall2 post_shown t ps /\ exists p, head t = Some p /\ d = p_date p /\ payee = p_payee p /\ note = p_tnote p.
  Definition price_shown (x : str * str * price) (r : Z * str * str * str) : Prop :=
    let '((u, c), p) := x in let '(d, u', n, c') := r in
    d = pr_date p /\ ccy_printed upper u u' /\ ccy_printed upper c c' /\
    (float64_ok f64 -> short_amount (decs_for decs c) (pr_val p) -> amount_text n (pr_val p)).

  Lemma read_posts_app l ds : read_posts (map (bean_post f64 title upper decs) l ++ DEnd :: ds)
    = map (fun p => (title (p_acct p), format_number f64 decs (p_ccy p) (p_val p), bean_ccy upper (p_ccy p), p_note p)) l.
  Proof. induction l as [|p l IH]; [reflexivity|]. cbn [map app bean_post read_posts]. rewrite IH. reflexivity. Qed.
  Lemma read_trans_posts l ds : read_trans (map (bean_post f64 title upper decs) l ++ DEnd :: ds) = read_trans ds.
  Proof. induction l as [|p l IH]; [reflexivity|]. cbn [map app bean_post read_trans]. exact IH. Qed.
  Lemma bean_trans_read ts : forall ds rest, bean_trans f64 title upper decs ts = Ok ds ->
    exists r, read_trans (ds ++ rest) = r ++ read_trans rest /\ Forall2 trans_shown ts r /\ read_prices ds = [].
  Proof.
    induction ts as [|t ts IH]; intros ds rest E; [injection E as <-; exists []; repeat split; constructor|].
    destruct t as [|p t]; [discriminate E|].
    change (bean_trans f64 title upper decs ((p :: t) :: ts)) with (do r <- bean_trans f64 title upper decs ts;
        Ok (DTrans (p_date p) (p_payee p) (p_tnote p) :: map (bean_post f64 title upper decs) (p :: t) ++ DEnd :: r)) in E.
    assert (Hl : head (p :: t) = Some p) by reflexivity. set (l := p :: t) in *. clearbody l. destruct (bean_trans f64 title upper decs ts) as [d0| | |]; try discriminate E.
    cbn [obind] in E. injection E as <-. destruct (IH d0 rest eq_refl) as (r & E1 & F & P). clear IH.
    exists (((p_date p, p_payee p, p_tnote p), map (fun p => (title (p_acct p), format_number f64 decs (p_ccy p) (p_val p), bean_ccy upper (p_ccy p), p_note p)) l) :: r). split; [|split].
    - cbn [app read_trans]. rewrite <- app_assoc. cbn [app]. rewrite read_posts_app, read_trans_posts, E1. reflexivity.
    - constructor; [|exact F]. split; [|exists p; auto]. clear. generalize l. intros k. induction k as [|q k IHk]; constructor; [|exact IHk].
      split; [reflexivity|]. split; [apply bean_ccy_printed|]. split; [reflexivity|]. intros Hf Hsh. apply fmt_amount_text; assumption.
    - unfold read_prices in *. cbn [flat_map app]. rewrite flat_map_app. cbn [flat_map app]. rewrite P, app_nil_r. clear. induction l; [reflexivity|exact IHl].
  Qed.
  Lemma read_trans_quiet ds : forall rest, Forall (fun d => match d with DTrans _ _ _ => False | _ => True end) ds -> read_trans (ds ++ rest) = read_trans rest.
  Proof. intros rest H. induction H as [|d ds Hd _ IH]; [reflexivity|]. cbn [app read_trans]. destruct d; try exact IH. contradiction. Qed.
  Lemma read_prices_quiet ds : Forall (fun d => match d with DPrice _ _ _ _ => False | _ => True end) ds -> read_prices ds = [].
  Proof. intros H. unfold read_prices. induction H as [|d ds Hd _ IH]; [reflexivity|]. cbn [flat_map]. rewrite IH. destruct d; try reflexivity. contradiction. Qed.

  Lemma read_prices_app a b : read_prices (a ++ b) = read_prices a ++ read_prices b.
  Proof. apply flat_map_app. Qed.
  Lemma open_close_kind l : forall ds, open_close l = Ok ds -> Forall (fun d => match d with DOpen _ _ | DClose _ _ => True | _ => False end) ds.
  Proof.
    induction l as [|[a i] l IH]; intros ds E; [injection E as <-; constructor|]. cbn [open_close] in E.
    destruct (ai_zero i).
    - destruct (add_days (ai_last i) 1); try discriminate E. cbn [obind] in E. destruct (open_close l) as [r| | |]; try discriminate E.
      cbn [obind app] in E. injection E as <-. repeat constructor. apply IH. reflexivity.
    - cbn [obind] in E. destruct (open_close l) as [r| | |]; try discriminate E. cbn [obind app] in E. injection E as <-. repeat constructor. apply IH. reflexivity.
  Qed.

  Lemma prices_read op pb : NoDup (map fst pb) -> Permutation (op pb) (map fst pb) ->
    exists rows, Permutation rows (all_prices pb) /\ Forall2 price_shown rows (read_prices (bean_prices f64 upper op decs pb)).
  Proof.
    intros Hn Hp. exists (flat_map (fun k => map (fun p => (k, p)) (match aget pair_eqb k pb with Some l => l | None => [] end)) (op pb)). split.
    - etransitivity; [apply Permutation_flat_map; exact Hp|].
      replace (all_prices pb) with (flat_map (fun k => map (fun p => (k, p)) (match aget pair_eqb k pb with Some l => l | None => [] end)) (map fst pb)); [reflexivity|].
      unfold all_prices. rewrite flat_map_concat_map, (flat_map_concat_map _ pb), map_map. f_equal. apply map_ext_in. intros [[u c] l] Hi. cbn [fst].
      apply (aget_Some_iff _ pair_eqb_eq) in Hi; [|exact Hn]. rewrite Hi. reflexivity.
    - unfold bean_prices. generalize (op pb). intros ks. induction ks as [|[u c] ks IH]; [constructor|]. cbn [flat_map].
      unfold read_prices. rewrite flat_map_app. apply Forall2_app; [|exact IH].
      destruct (aget pair_eqb (u, c) pb) as [l|]; [|constructor]. clear. induction l as [|p l IHl]; [constructor|]. cbn [map flat_map app]. constructor; [|exact IHl].
      split; [reflexivity|]. split; [apply bean_ccy_printed|]. split; [apply bean_ccy_printed|]. intros Hf Hsh. apply fmt_amount_text; assumption.
  Qed.
End Content.

(** The transactions of the file are those of the book, in order, with all their postings; the prices are those of the
    book. (Holds for every order in which Go walks the maps of accounts and prices.) *)
Theorem C82_beancount_content_partial : forall f64 title upper oa op srt base b, sort_ok is_less srt -> (forall l, Permutation (oa l) l) ->
  (forall pb, Permutation (op pb) (map fst pb)) -> reachable srt b -> NoDup (map fst (bk_prices b)) ->
  Forall (fun p => valid_date (p_date p)) (concat (snd (transactions srt b))) ->
  exists ds rows, export_beancount f64 title upper oa op srt base b = Ok ds /\
    Forall2 (trans_shown f64 title upper (bk_ccy b)) (snd (transactions srt b)) (read_trans ds) /\
    Permutation rows (all_prices (bk_prices b)) /\ Forall2 (price_shown f64 upper (bk_ccy b)) rows (read_prices ds).
Proof.
  intros f64 title upper oa op srt base b Hs Ho Hop Hr Hnd Hv.
  destruct (export_spec f64 title upper oa op srt base b Hs Ho Hr Hv) as (ds & oc & E & Eoc & _).
  assert (Epr : bk_prices (fst (transactions srt b)) = bk_prices b).
  { unfold transactions. cbn [fst]. unfold compact. destruct (bk_post b); reflexivity. }
  destruct (prices_read f64 upper (bk_ccy b) op (bk_prices b) Hnd (Hop _)) as (rows & P1 & P2).
  exists ds, rows. split; [exact E|]. unfold export_beancount in E.
  assert (Et : transactions srt b = (fst (transactions srt b), snd (transactions srt b))) by apply surjective_pairing. rewrite Et in E.
  rewrite Epr in E. set (ts := snd (transactions srt b)) in *. rewrite Eoc in E. cbn [obind] in E.
  destruct (bean_trans f64 title upper (bk_ccy b) ts) as [tr| | |] eqn:Etr; try discriminate E. cbn [obind] in E. injection E as <-.
  set (prices := bean_prices _ _ _ _ _) in *. pose proof (bean_prices_quiet f64 upper op (bk_ccy b) (bk_prices b)) as Hq. fold prices in Hq.
  pose proof (open_close_kind _ _ Eoc) as Hoc. set (bd := match base with [] => [] | _ => [DOption base] end).
  assert (Hb : Forall (fun d => match d with DOption _ => True | _ => False end) bd) by (unfold bd; destruct base; repeat constructor). clearbody bd.
  destruct (bean_trans_read f64 title upper (bk_ccy b) ts tr (DTitle (bs "Prices") :: prices) Etr) as (r & R1 & R2 & R3).
  split; [|split; [exact P1|]].
  - rewrite (read_trans_quiet bd) by (eapply Forall_impl; [|exact Hb]; intros []; auto).
    rewrite (read_trans_quiet oc) by (eapply Forall_impl; [|exact Hoc]; intros []; auto). cbn [app read_trans].
    refine (eq_ind r (fun x => Forall2 _ ts x) R2 _ _). symmetry. etransitivity; [exact R1|].
    cbn [read_trans]. rewrite <- (app_nil_r prices). rewrite (read_trans_quiet prices) by (eapply Forall_impl; [|exact Hq]; intros []; auto). apply app_nil_r.
  - refine (eq_ind (read_prices prices) (fun x => Forall2 _ rows x) P2 _ _).
    change (read_prices prices = read_prices (bd ++ oc ++ [DTitle (bs "Transactions")] ++ tr ++ [DTitle (bs "Prices")] ++ prices)).
    rewrite !read_prices_app. rewrite R3.
    rewrite (read_prices_quiet bd) by (eapply Forall_impl; [|exact Hb]; intros []; auto). rewrite (read_prices_quiet oc) by (eapply Forall_impl; [|exact Hoc]; intros []; auto). reflexivity.
Qed.
Print Assumptions C82_beancount_content_partial.

(** Expected: different currencies of the book stay different, and a price has the form of a Beancount directive,
    a date followed by the word price. Neither holds: blanks and case are lost, and every price line starts with "P ". *)
Definition bean2_calls : list bcall :=
  [ CPrice 20240105 (bs "Fund 1") (bs "GBP") (qz 3); CPrice 20240105 (bs "fund1") (bs "GBP") (qz 5);
    CTrans 20240105 (bs "Buy") (bs "n"); CPost (bs "Assets") (bs "Fund 1") (qz 10) (bs "x"); CPost (bs "Equity") (bs "Fund 1") (qz (-10)) [];
    CPost (bs "Assets") (bs "fund1") (qz 7) []; CPost (bs "Equity") (bs "fund1") (qz (-7)) [] ].
(** strings.ToUpper on ASCII *)
Definition x_upper (s : str) : str := map (fun c => if (97 <=? c) && (c <=? 122) then c - 32 else c) s.
Definition bean2_export := export_beancount (fun q => q) (fun a => a) x_upper (fun l => l) (fun pb => map fst pb) xsort [] (built bean2_calls).
Theorem C82_currencies_refuted : reachable xsort (built bean2_calls) /\
  read_trans (the_list bean2_export) = [((20240105, bs "Buy", bs "n"),
     [(bs "Assets", bs "10", bs "FUND1", bs "x"); (bs "Assets", bs "7", bs "FUND1", []);
      (bs "Equity", bs "-10", bs "FUND1", []); (bs "Equity", bs "-7", bs "FUND1", [])])] /\
  read_prices (the_list bean2_export) = [(20240105, bs "FUND1", bs "3.00", bs "GBP"); (20240105, bs "FUND1", bs "5.00", bs "GBP")].
Proof. split; [apply built_reach; vm_compute; reflexivity|]. split; vm_compute; reflexivity. Qed.
Print Assumptions C82_currencies_refuted.
Theorem C82_price_line_refuted : forall d u n c, exists s, directive_text (DPrice d u n c) = 80 :: 32 :: s.
Proof. intros d u n c. eexists. reflexivity. Qed.
Print Assumptions C82_price_line_refuted.
(** The hypotheses of C82 are met. *)
Example C82_nonvacuous : (bean2_export = Ok (the_list bean2_export)) /\ NoDup (map fst (bk_prices (built bean2_calls))) /\
  Forall (fun p => valid_date (p_date p)) (concat (snd (transactions xsort (built bean2_calls)))).
Proof.
  split; [apply the_list_ok; vm_compute; reflexivity|]. split.
  - assert (E : map fst (bk_prices (built bean2_calls)) = [(bs "Fund 1", bs "GBP"); (bs "fund1", bs "GBP")]) by (vm_compute; reflexivity).
    rewrite E. constructor; [|constructor; [|constructor]]; [|intros []]. intros [H|[]]. discriminate H.
  - apply (dates_valid _ [20240105; 20240105; 20240105; 20240105]); [vm_compute; reflexivity|].
    repeat constructor; apply (ymd_valid 2024 1 5); unfold valid_ymd; cbn; lia.
Qed.

(** ** The text of the directives: one line each in the syntax of Beancount (fields separated by spaces, a posting indented, comments behind ';'). *)
Definition blanks (s : str) : Prop := s <> [] /\ Forall (fun c => c = 32) s.
Definition trailer (note s : str) : Prop := (note = [] /\ s = []) \/ (note <> [] /\ exists w w', blanks w /\ blanks w' /\ s = w ++ [59] ++ w' ++ note).
Inductive bean_line : directive -> str -> Prop :=
| BOpen d a w w' : blanks w -> blanks w' -> bean_line (DOpen d a) (date_string d ++ w ++ bs "open" ++ w' ++ a)
| BClose d a w w' : blanks w -> blanks w' -> bean_line (DClose d a) (date_string d ++ w ++ bs "close" ++ w' ++ a)
| BOption c w w' : blanks w -> blanks w' -> bean_line (DOption c) (bs "option" ++ w ++ bs """operating_currency""" ++ w' ++ bs """" ++ c ++ bs """")
| BTrans d p n w w' t : blanks w -> blanks w' -> trailer n t -> bean_line (DTrans d p n) (date_string d ++ w ++ bs "*" ++ w' ++ bs """" ++ p ++ bs """" ++ t)
| BPost a n c note w w' w'' t : blanks w -> blanks w' -> (2 <= length w')%nat -> blanks w'' -> trailer note t ->
    bean_line (DPost a n c note) (w ++ a ++ w' ++ n ++ w'' ++ c ++ t)
| BTitle t w : blanks w -> bean_line (DTitle t) ([59] ++ w ++ t).
Theorem C82_lines : forall d, (exists s, bean_line d s /\ (directive_text d = s ++ [10] \/ directive_text d = s ++ [10; 10] \/ directive_text d = [10] ++ s ++ [10])) \/
  d = DEnd /\ directive_text d = [10] \/ exists dt u n c, d = DPrice dt u n c.
Proof.
  assert (B1 : blanks [32]) by (split; [discriminate|constructor; [reflexivity|constructor]]). assert (B2 : blanks [32; 32]) by (split; [discriminate|repeat (constructor; [reflexivity|]); constructor]).
  assert (Ht : forall n, trailer n (show_note n)). { intros [|c n]; [left; split; reflexivity|right; split; [discriminate|]]. exists [32; 32], [32]. split; [exact B2|split; [exact B1|reflexivity]]. }
  intros d. destruct d as [c|dt a|dt a|t|dt p n|a n c note| |dt u n c]; cbn [directive_text].
  - left. eexists. split; [apply (BOption c [32] [32] B1 B1)|]. right; left. rewrite <- !app_assoc. reflexivity.
  - left. eexists. split; [apply (BOpen dt a [32] [32] B1 B1)|]. left. rewrite <- !app_assoc. reflexivity.
  - left. eexists. split; [apply (BClose dt a [32] [32] B1 B1)|]. left. rewrite <- !app_assoc. reflexivity.
  - left. eexists. split; [apply (BTitle t [32] B1)|]. right; right. rewrite <- !app_assoc. reflexivity.
  - left. eexists. split; [apply (BTrans dt p n [32] [32] _ B1 B1 (Ht n))|]. left. rewrite <- !app_assoc. reflexivity.
  - left. eexists. split; [apply (BPost a n c note [32; 32] [32; 32] [32] _ B2 B2 (le_n 2) B1 (Ht note))|]. left. rewrite <- !app_assoc. reflexivity.
  - right; left. split; reflexivity.
  - right; right. eauto.
Qed.
Print Assumptions C82_lines.
