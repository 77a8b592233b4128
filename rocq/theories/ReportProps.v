(** * ReportProps: C71 (text report of a summary) and C72 (HTML report). *)
From Verif Require Import Base Dec DateModel DateSpec DateProofs DateProofs2 PriceModel PriceSpec PriceProofs BookModel BookSpec BookProofs BuilderProofs
  OpsModel OpsProofs OpsProofs2 OpsProofs3 BookProps RegisterModel RegisterSpec RegisterProofs AccumModel AccumSpec AccumProofs AccumProofs2 AccumProofs3 AccumProps
  Utf8 LoaderModel ExportModel PrintModel PrintSpec PrintProofs PrintProofs2 PrintProps ReportSpec PrintProofs3 HtmlProofs.

(** Accounts a report can name: not empty, not ending in the divider; currencies with at least one character. *)
Definition nameable (d : Z) (to : str) (ts : list trans) : Prop :=
  decode to <> [] /\ forall a c, occurs ts (a, c) -> a <> [] /\ last a (d + 1) <> d /\ decode c <> [].

Lemma term_false_ne d K a : NoDup K -> a <> [] -> last a (d + 1) <> d -> term_of d K false a <> [].
Proof.
  intros Hn Ha Hl E. destruct (term_of_ok d K false a Hn) as [_ [(H & _)|(_ & [[_ H]|(k & _ & H & _)])]]; [discriminate|congruence|].
  rewrite E in H. apply Hl. rewrite H. rewrite last_last. reflexivity.
Qed.
Definition key_of (i : str * Z * str * str) : str * (str * str) := (fst (fst (fst i)), (snd (fst i), snd i)).
Lemma row_key_id p : row_key p = key_of (row_id p).
Proof. reflexivity. Qed.

Lemma NoDup_map_inj' {A B} (f : A -> B) l : NoDup l -> (forall x y, In x l -> In y l -> f x = f y -> x = y) -> NoDup (map f l).
Proof.
  induction 1 as [|x l Hx Hn IH]; intros Hi; cbn [map]; constructor.
  - intros F. apply in_map_iff in F as (y & Ey & Hy). apply Hx. rewrite (Hi x y (or_introl eq_refl) (or_intror Hy)); [exact Hy|symmetry; exact Ey].
  - apply IH. intros a b Ha Hb. apply Hi; right; assumption.
Qed.
Lemma NoDup_app' {A} (l m : list A) : NoDup l -> NoDup m -> (forall x, In x l -> ~ In x m) -> NoDup (l ++ m).
Proof.
  induction 1 as [|x l Hx Hn IH]; intros Hm Hd; [exact Hm|]. cbn [app]. constructor.
  - rewrite in_app_iff. intros [F|F]; [contradiction|]. exact (Hd x (or_introl eq_refl) F).
  - apply IH; [exact Hm|]. intros y Hy. apply Hd. right. exact Hy.
Qed.
Lemma last_In {A} (l : list A) x : l <> [] -> In (last l x) l.
Proof. induction l as [|a [|b l] IH]; intros H; [congruence|left; reflexivity|]. right. apply IH. discriminate. Qed.

(** The rows of a summary, whatever is hidden or negated. *)
Lemma summary_keys srt it micro to d b : sort_ok is_less srt -> any_order it -> summarisable srt b -> nameable d to (snd (transactions srt b)) ->
  forall credit hidden, exists ts rows, accumulate srt it micro to [d] credit hidden b = Ok (fst (transactions srt b), ts) /\ ts <> [] /\ NoDup (map key_of rows) /\
    Forall (fun t => t <> [] /\ Permutation (map row_id t) rows) ts /\
    (forall t p, In t ts -> In p t -> 0 <= p_level p /\ decode (p_ccy p) <> []).
Proof.
  intros Hs Hi Hsum [Hto Hnm] credit hidden. destruct (summarisable_main srt it micro to d b Hs Hi (summarisable_weaken srt b Hs Hsum)) as (K & acl & ts & E & Ec & Hvis & K1 & K2 & K3 & A1 & A2 & F & S1 & S2 & _).
  set (vis := fun k : str * Z * str * str => negb (nonempty hidden && str_eqb (fst (fst (fst k))) hidden)).
  set (R := map (fun k : str * str => (fst k, level_of K d true (fst k), term_of d K true (fst k), snd k)) acl ++ map (fun k => (k, level_of K d false k, term_of d K false k, to)) K).
  exists (map (hide credit hidden) ts), (filter vis R). split; [unfold transactions; cbn [fst]; apply Ec|].
  assert (Hids : forall t, map row_id (hide credit hidden t) = filter vis (map row_id t)).
  { intros t. unfold hide. rewrite map_map. rewrite (map_ext (fun x => row_id (neg_if credit x)) row_id) by (intros p; unfold neg_if; destruct credit as [m|]; [destruct (m (p_acct p))|]; reflexivity).
    induction t as [|p t IH]; [reflexivity|]. cbn [filter map]. unfold is_hidden at 1. unfold vis at 1. cbn [row_id fst]. destruct (nonempty hidden && str_eqb (p_acct p) hidden); cbn [negb]; [exact IH|]. cbn [map]. f_equal. exact IH. }
  assert (Hper : Forall (fun t => Permutation (map row_id t) R) ts).
  { rewrite Forall_forall. intros t' Ht'. destruct (Forall2_In_r _ _ _ _ F Ht') as (t & Ht & g & leaves & subs & _ & Pa & F1 & F2 & Fs & Pt).
    etransitivity; [apply Permutation_map; exact Pt|]. rewrite map_app, (leaves_ids _ _ _ _ F1), (subs_ids _ _ _ _ _ _ _ F2). unfold R. apply Permutation_app; apply Permutation_map; [exact Pa|apply Hi]. }
  assert (HR : NoDup (map key_of R)).
  { unfold R. rewrite map_app, !map_map. unfold key_of. cbn [fst snd]. apply NoDup_app'.
    - apply NoDup_map_inj'; [exact A1|]. intros [a c] [a' c'] _ _ H. cbn [fst snd] in H. injection H as -> _ ->. reflexivity.
    - apply NoDup_map_inj'; [exact K1|]. intros k k' _ _ H. injection H as -> _. reflexivity.
    - intros x Hx Hx'. apply in_map_iff in Hx as ([a c] & <- & Ha). apply in_map_iff in Hx' as (k & H & Hk). cbn [fst snd] in H. injection H as -> Ht _.
      destruct (Hnm a c) as (N1 & N2 & _); [apply A2; exact Ha|]. apply (term_false_ne d K a K1 N1 N2). rewrite Ht.
      destruct (term_of_ok d K true a K1) as [_ [(_ & _ & H)|([H|H] & _)]]; [exact H|discriminate|contradiction]. }
  assert (HRin : forall a l tm c, In (a, l, tm, c) R -> 0 <= l /\ decode c <> []).
  { intros a l tm c H. unfold R in H. apply in_app_iff in H as [H|H]; apply in_map_iff in H as (k & H & Hk); injection H as _ <- _ <-.
    - split; [unfold level_of; lia|]. destruct k as [a' c']. apply (Hnm a' c'). apply A2. exact Hk.
    - split; [unfold level_of; lia|exact Hto]. }
  assert (Hts : Forall (fun t => t <> [] /\ Permutation (map row_id t) (filter vis R)) (map (hide credit hidden) ts)).
  { rewrite Forall_forall in *. intros t' Ht'. apply in_map_iff in Ht' as (t & <- & Ht). split.
    - destruct (proj1 (Forall_forall _ _) (Hvis hidden) t Ht) as (r & Hr & Er). intros E0. assert (Hin : In (neg_if credit r) (hide credit hidden t)) by (apply in_map; apply filter_In; split; [exact Hr|rewrite Er; reflexivity]). rewrite E0 in Hin. contradiction.
    - rewrite Hids. apply filter_perm. apply Hper. exact Ht. }
  split; [|split; [|split; [exact Hts|]]].
  - destruct Hsum as (Hr & _ & _ & Hne & _). apply (reachable_ok srt Hs) in Hr. pose proof (compact_book_ok srt Hs b Hr) as (_ & HT & _). unfold transactions in *. cbn [fst snd] in *.
    intros E0. apply map_eq_nil in E0. subst ts. inversion F as [E1|]. apply Hne. rewrite <- HT, <- E1. reflexivity.
  - clear - HR. induction R as [|x R IH]; [constructor|]. cbn [map] in HR. apply NoDup_cons_iff in HR as [H1 H2]. cbn [filter]. destruct (vis x); [|exact (IH H2)]. cbn [map]. constructor; [|exact (IH H2)].
    intros H. apply H1. apply in_map_iff in H as (y & Ey & Hy). apply filter_In in Hy as [Hy _]. apply in_map_iff. eauto.
  - intros t p Ht Hp. rewrite Forall_forall in Hts. destruct (Hts t Ht) as [_ Pt]. apply (HRin (p_acct p) (p_level p) (p_term p) (p_ccy p)).
    assert (Hin : In (row_id p) (filter vis R)) by (apply (Permutation_in _ Pt), in_map, Hp). apply filter_In in Hin as [Hin _]. exact Hin.
Qed.

(** A table without a missing cell. *)
Definition filled_in (cells : list (option column)) (l : list column) : Prop := cells = map Some l.
Lemma layout_rows l cells (g : posting -> list column) : (forall v, In v l -> cells v = map Some (g v)) ->
  forall first, exists table, layout first l cells = rows_of table /\ (forall n, (forall v, In v l -> length (g v) = n) -> well_shaped n table).
Proof.
  intros H. induction l as [|v l IH]; intros first; [exists []; split; [reflexivity|constructor]|].
  destruct (IH (fun w Hw => H w (or_intror Hw)) false) as (table & E & W). cbn [layout]. rewrite E, (H v (or_introl eq_refl)).
  exists ((if negb first && (p_level v =? 0) then [None] else []) ++ Some (g v) :: table). split.
  - unfold rows_of. rewrite map_app. cbn [map option_map]. f_equal. destruct (negb first && _); reflexivity.
  - intros n Hn. specialize (W n (fun w Hw => Hn w (or_intror Hw))). unfold well_shaped. apply Forall_app. split; [destruct (negb first && _); repeat constructor|]. constructor; [apply Hn; left; reflexivity|exact W].
Qed.
Lemma last_none n ws : last_shrinkable (repeat false n) ws = None.
Proof. revert ws. induction n as [|n IH]; intros [|w ws]; try reflexivity. cbn [repeat last_shrinkable]. rewrite IH. reflexivity. Qed.
Lemma find_ok t k : In k (map row_key t) -> exists p, In p t /\ row_key p = k /\ find (fun p => key_eqb (row_key p) k) t = Some p.
Proof.
  intros H. apply in_map_iff in H as (p & Ep & Hp). destruct (find (fun p => key_eqb (row_key p) k) t) as [q|] eqn:E.
  - apply find_some in E as [H1 H2]. apply key_eqb_eq in H2. exists q. auto.
  - pose proof (find_none _ _ E p Hp) as H. cbv beta in H. rewrite Ep, key_eqb_refl in H. discriminate.
Qed.

(** ** C71. The text report of a summary has one line per row of the last transaction and one amount column per
    transaction, each holding that row's amount in that transaction; it is printed without failure, whatever the
    terminal width, the colours, the negated accounts and the hidden account. *)
Theorem C71_summary_report_partial : forall srt it micro to d b, sort_ok is_less srt -> any_order it -> summarisable srt b -> nameable d to (snd (transactions srt b)) ->
  forall credit hidden f64 is_letter decs colour is_print tw, exists ts, accumulate srt it micro to [d] credit hidden b = Ok (fst (transactions srt b), ts) /\
    summary_table f64 is_letter decs colour ts = Ok (expected_table f64 is_letter decs colour ts) /\
    (forall t v, In t ts -> In v (last ts []) -> exists p c, In p t /\ row_key p = row_key v /\ (forall q, In q t -> row_key q = row_key v -> q = p) /\
        column_money f64 is_letter decs colour (p_ccy p) (p_val p) = Ok c /\ amount_cell f64 is_letter decs colour t (row_key v) = Some c) /\
    (forall t v, In t ts -> In v t -> In (row_key v) (map row_key (last ts []))) /\
    exists table ws, expected_table f64 is_letter decs colour ts = rows_of table /\ length ws = S (length ts) /\
      summary_text is_print f64 is_letter decs colour tw ts = Ok (table_text (lines_of is_print ws table)).
Proof.
  intros srt it micro to d b Hs Hi Hsum Hnm credit hidden f64 is_letter decs colour is_print tw.
  destruct (summary_keys srt it micro to d b Hs Hi Hsum Hnm credit hidden) as (ts & rows & E & Hne & Hn & Hts & Hpos). rewrite Forall_forall in Hts.
  exists ts. split; [exact E|].
  assert (Hkeys : forall t, In t ts -> Permutation (map row_key t) (map key_of rows)).
  { intros t Ht. change (map row_key t) with (map (fun p => key_of (row_id p)) t). rewrite <- map_map. apply Permutation_map. apply Hts. exact Ht. }
  pose proof (last_In ts [] Hne) as Hl.
  assert (Hin : forall t t', In t ts -> In t' ts -> forall p, In p t -> In (row_key p) (map row_key t')).
  { intros t t' Ht Ht' p Hp. apply (Permutation_in _ (Permutation_sym (Hkeys t' Ht'))), (Permutation_in _ (Hkeys t Ht)), in_map, Hp. }
  assert (Hnd : forall t, In t ts -> NoDup (map row_key t)) by (intros t Ht; exact (Permutation_NoDup (Permutation_sym (Hkeys t Ht)) Hn)).
  assert (Etab : summary_table f64 is_letter decs colour ts = Ok (expected_table f64 is_letter decs colour ts)).
  { apply summary_table_ok; [exact Hne|apply Forall_forall; intros t Ht; apply Hts; exact Ht|]. intros t Ht. split; [apply Hnd; exact Ht|]. split; [intros p Hp; exact (Hin t _ Ht Hl p Hp)|]. intros p Hp. destruct (Hpos t p Ht Hp). auto. }
  split; [exact Etab|].
  assert (Hcell : forall t v, In t ts -> In v (last ts []) -> exists p c, In p t /\ row_key p = row_key v /\ (forall q, In q t -> row_key q = row_key v -> q = p) /\
        column_money f64 is_letter decs colour (p_ccy p) (p_val p) = Ok c /\ amount_cell f64 is_letter decs colour t (row_key v) = Some c).
  { intros t v Ht Hv. destruct (find_ok t (row_key v) (Hin _ t Hl Ht v Hv)) as (p & Hp & Ep & Ef). destruct (Hpos t p Ht Hp) as [_ Hc]. destruct (money_ok f64 is_letter decs colour (p_ccy p) (p_val p) Hc) as (c & Ec).
    exists p, c. split; [exact Hp|]. split; [exact Ep|]. split; [|split; [exact Ec|]].
    - intros q Hq Eq. rewrite <- Ep in Eq. specialize (Hnd t Ht). clear - Hnd Hp Hq Eq. induction t as [|x t IH]; [contradiction|]. cbn [map] in Hnd. apply NoDup_cons_iff in Hnd as [H1 H2].
      destruct Hp as [->|Hp]; destruct Hq as [->|Hq]; [reflexivity| | |exact (IH H2 Hp Hq)].
      + exfalso. apply H1. rewrite <- Eq. apply in_map. exact Hq.
      + exfalso. apply H1. rewrite Eq. apply in_map. exact Hp.
    - unfold amount_cell. rewrite Ef, Ec. reflexivity. }
  split; [exact Hcell|]. split; [intros t v Ht Hv; exact (Hin t _ Ht Hl v Hv)|].
  set (g := fun v => ColString (label colour v) :: map (fun t => match amount_cell f64 is_letter decs colour t (row_key v) with Some c => c | None => ColString [] end) ts).
  destruct (layout_rows (last ts []) (fun v => Some (ColString (label colour v)) :: map (fun t => amount_cell f64 is_letter decs colour t (row_key v)) ts) g) with (first := true) as (table & El & Hw).
  { intros v Hv. unfold g. cbn [map]. f_equal. rewrite map_map. apply map_ext_in. intros t Ht. destruct (Hcell t v Ht Hv) as (p & c & _ & _ & _ & _ & ->). reflexivity. }
  set (header := ColString (ansi colour UL (bs "Account")) :: map (fun t : trans => match t with p :: _ => ColRight (ansi colour UL (date_string (p_date p))) | [] => ColString [] end) ts).
  assert (Ex : expected_table f64 is_letter decs colour ts = rows_of (Some header :: table)).
  { unfold expected_table, header, rows_of. cbn [map option_map]. fold (rows_of table). f_equal; [|exact El]. f_equal. f_equal. rewrite map_map. apply map_ext_in. intros t Ht. destruct t; [destruct (Hts _ Ht); congruence|reflexivity]. }
  assert (Lh : length header = S (length ts)) by (unfold header; cbn [length]; rewrite map_length; reflexivity).
  destruct (C53_no_crash_partial is_print tw (Some header :: table) header (repeat false (S (length ts)))) as (ws & Ew & Lw).
  - reflexivity.
  - discriminate.
  - constructor; [reflexivity|]. rewrite Lh. apply Hw. intros v _. unfold g. cbn [length]. rewrite map_length. reflexivity.
  - rewrite repeat_length, Lh. reflexivity.
  - intros x H. rewrite last_none in H. discriminate.
  - exists (Some header :: table), ws. split; [exact Ex|]. split; [rewrite Lw; exact Lh|]. unfold summary_text. rewrite Etab. cbn [obind]. rewrite Ex. exact Ew.
Qed.
Print Assumptions C71_summary_report_partial.

(** A report of no transaction at all crashes: the table is laid out after the last one. *)
Theorem C71_empty_report_refuted : forall is_print f64 is_letter decs colour tw, summary_text is_print f64 is_letter decs colour tw [] = Panic.
Proof. reflexivity. Qed.
Print Assumptions C71_empty_report_refuted.
Definition x_plain_f64 (q : Qc) : Qc := q.
Definition x_ascii_letter (r : Z) : bool := ((65 <=? r) && (r <=? 90)) || ((97 <=? r) && (r <=? 122)).
Definition nameableb (d : Z) (to : str) (ts : list trans) : bool :=
  nonempty (decode to) && forallb (forallb (fun p => nonempty (p_acct p) && negb (last (p_acct p) (d + 1) =? d) && nonempty (decode (p_ccy p)))) ts.
Lemma nonempty_ne s : nonempty s = true -> s <> [].
Proof. destruct s; [discriminate|discriminate]. Qed.
Lemma nameableb_ok d to ts : nameableb d to ts = true -> nameable d to ts.
Proof.
  intros H. apply andb_true_iff in H as [H1 H2]. split; [apply nonempty_ne; exact H1|]. intros a c (t & p & Ht & Hp & E). injection E as <- <-. rewrite forallb_forall in H2. specialize (H2 t Ht). rewrite forallb_forall in H2. specialize (H2 p Hp).
  apply andb_true_iff in H2 as [H2 H4]. apply andb_true_iff in H2 as [H2 H3]. split; [apply nonempty_ne; exact H2|]. split; [apply negb_true_iff in H3; apply Z.eqb_neq; exact H3|apply nonempty_ne; exact H4].
Qed.
Definition x_summary_text (calls : list bcall) : outcome str :=
  match accumulate xsort x_it x_micro (bs "GBP") [58] None [] (x_built calls) with
  | Ok (_, ts) => summary_text x_print x_plain_f64 x_ascii_letter [(bs "GBP", 2); (bs "USD", 0)] false 80 ts | _ => Panic end.
Example C71_nonvacuous : sort_ok is_less xsort /\ any_order x_it /\ summarisable xsort sum_book /\ nameable 58 (bs "GBP") (snd (transactions xsort sum_book)) /\
  x_summary_text sum_calls = Ok (table_text [
    bs "Account 2024/01/05 2024/01/06";
    bs "Exp     GBP  15.00 GBP   8.00";
    bs "  Fun   GBP   0.00 GBP   8.00";
    bs "        USD      0 USD      4";
    bs "  Food  GBP  15.00 GBP   0.00";
    bs "    In  GBP   5.00 GBP   0.00";
    bs "    Out GBP  10.00 GBP   0.00";
    [];
    bs "Cash    GBP -15.00 GBP  -8.00";
    bs "        GBP -15.00 GBP   0.00";
    bs "        USD      0 USD     -4"]).
Proof.
  split; [exact xsort_ok|]. split; [exact x_it_ok|]. split; [apply (x_summarisable [20240101; 20240105; 20240106]); [exact x_dates|vm_compute; reflexivity..]|].
  split; [apply nameableb_ok; vm_compute; reflexivity|]. vm_compute. reflexivity.
Qed.
(** Without summarising, an account of the last transaction that an earlier one lacks is a missing cell: the printer
    crashes. The other way round the report is refused. *)
Definition gap_calls (a b : str) : list bcall :=
  [ CTrans 20240105 (bs "Shop") []; CPost (bs "A") (bs "GBP") (qz 10) []; CPost (bs "B") (bs "GBP") (qz (-10)) [];
    CTrans 20240106 (bs "Trip") []; CPost (bs "A") (bs "GBP") (qz 10) []; CPost a (bs "GBP") (qz (-4)) []; CPost b (bs "GBP") (qz (-6)) [] ].
Theorem C71_not_summarised_refuted : exists srt b, sort_ok is_less srt /\ summarisable srt b /\ nameable 58 (bs "GBP") (snd (transactions srt b)) /\
  summary_text x_print x_plain_f64 x_ascii_letter [] false 80 (snd (transactions srt b)) = Panic.
Proof.
  exists xsort, (x_built (gap_calls (bs "B") (bs "C"))). split; [exact xsort_ok|]. split; [apply (x_summarisable [20240101; 20240105; 20240106]); [exact x_dates|vm_compute; reflexivity..]|].
  split; [apply nameableb_ok; vm_compute; reflexivity|]. vm_compute. reflexivity.
Qed.
Print Assumptions C71_not_summarised_refuted.

(** ** C72. Each transaction of the HTML report leaves as many elements open as the level of its last row. *)
Theorem C72_elements_closed_partial : forall f64 is_letter decs css ts, free css -> Forall (fun t => t <> [] /\ Forall tame t) ts ->
  exists out, html_report f64 is_letter decs css ts = Ok out /\ opened out - closed out = left_open ts /\
    (Forall (fun t => forall p, In p t -> p_level p = 0) ts -> opened out = closed out).
Proof.
  intros f64 is_letter decs css ts Hc H. destruct (html_report_surplus f64 is_letter decs css ts Hc H) as (out & E & Hs). exists out. split; [exact E|]. split; [exact Hs|].
  intros H0. unfold surplus in Hs. enough (left_open ts = 0) by lia. clear - H0 H. induction ts as [|t ts IH]; [reflexivity|]. unfold left_open in *. cbn [fold_right].
  apply Forall_cons_iff in H as [[Ht _] H]. apply Forall_cons_iff in H0 as [H0 H0']. rewrite (IH H H0'). destruct t as [|p t]; [congruence|]. unfold end_level. rewrite (H0 _ (last_In _ _ Ht)). reflexivity.
Qed.
Print Assumptions C72_elements_closed_partial.
Lemma accum_val srt it micro to dv b (F : list trans -> Z) v : F [] <> v ->
  match accumulate srt it micro to dv None [] b with Ok (_, ts) => F ts | _ => F [] end = v ->
  exists ts, accumulate srt it micro to dv None [] b = Ok (compact srt b, ts) /\ F ts = v.
Proof.
  unfold accumulate, transactions. cbv zeta. intros H0. destruct (bk_post (compact srt b)) as [|p l] eqn:E.
  - intros H1. exists (bk_trans (compact srt (compact srt b))). split; [|exact H1]. f_equal. f_equal. unfold compact at 1. rewrite E. reflexivity.
  - destruct (accum_rows srt it micro (bk_prices (compact srt b)) (p :: l) to dv) as [rows| | |]; cbn [obind]; try contradiction.
    destruct (hide None [] rows) as [|r rs]; [contradiction|]. intros H1. eexists. split; [reflexivity|exact H1].
Qed.
Definition tameb (p : posting) : bool := forallb (fun s => negb (existsb (Z.eqb 60) s)) [p_term p; p_ccy p; p_payee p] && nonempty (decode (p_ccy p)).
Lemma tameb_ok p : tameb p = true -> tame p.
Proof.
  intros H. apply andb_true_iff in H as [H1 H2]. rewrite forallb_forall in H1. unfold tame.
  assert (F : forall s, In s [p_term p; p_ccy p; p_payee p] -> free s) by (intros s Hs; apply free_lit; apply negb_true_iff; exact (H1 s Hs)).
  split; [apply F; cbn; auto|]. split; [apply F; cbn; auto|]. split; [apply nonempty_ne; exact H2|apply F; cbn; auto].
Qed.
(** The summary of the example: two transactions, each leaves one element open. *)
Theorem C72_elements_closed_refuted : exists srt it micro b ts out, sort_ok is_less srt /\ any_order it /\ summarisable srt b /\
  accumulate srt it micro (bs "GBP") [58] None [] b = Ok (fst (transactions srt b), ts) /\ Forall (fun t => t <> [] /\ Forall tame t) ts /\
  html_report x_plain_f64 x_ascii_letter [] [] ts = Ok out /\ opened out = closed out + 2.
Proof.
  set (F := fun ts : list trans => if forallb (fun t => negb (Nat.eqb (length t) 0) && forallb tameb t) ts then match html_report x_plain_f64 x_ascii_letter [] [] ts with Ok out => opened out - closed out | _ => 0 end else 0).
  destruct (accum_val xsort x_it x_micro (bs "GBP") [58] sum_book F 2) as (ts & E & Hv); [discriminate|vm_compute; reflexivity|].
  unfold F in Hv. match type of Hv with (if ?c then _ else _) = _ => destruct c eqn:Ef end; [|discriminate Hv]. destruct (html_report x_plain_f64 x_ascii_letter [] [] ts) as [out| | |] eqn:Eh; try discriminate Hv.
  exists xsort, x_it, x_micro, sum_book, ts, out. split; [exact xsort_ok|]. split; [exact x_it_ok|]. split; [apply (x_summarisable [20240101; 20240105; 20240106]); [exact x_dates|vm_compute; reflexivity..]|].
  split; [exact E|]. split; [|split; [exact Eh|lia]]. apply Forall_forall. intros t Ht. rewrite forallb_forall in Ef. specialize (Ef t Ht). apply andb_true_iff in Ef as [E1 E2]. split; [destruct t; [discriminate|discriminate]|].
  apply Forall_forall. intros p Hp. rewrite forallb_forall in E2. apply tameb_ok. exact (E2 p Hp).
Qed.
Print Assumptions C72_elements_closed_refuted.
(** An account name is not escaped. *)
Theorem C72_escaping_refuted : exists p out, decode (p_ccy p) <> [] /\ html_report x_plain_f64 x_ascii_letter [] [] [[p]] = Ok out /\
  count_sub (bs "<b>") out = 1 /\ p_term p = bs "<b>".
Proof.
  exists (mkP 20240105 [] [] (bs "<b>") (bs "GBP") 0%Qc [] 0%Qc 0 (bs "<b>") []). eexists. split; [discriminate|]. split; [vm_compute; reflexivity|]. split; reflexivity.
Qed.
Print Assumptions C72_escaping_refuted.
