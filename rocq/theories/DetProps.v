(** * DetProps: C108, the same ledger gives the same output, whatever the order in which Go visits its maps. *)
From Verif Require Import Base Utf8 Dec Regex DateModel PriceModel BookModel BookSpec BookProofs BuilderProofs OpsModel BookProps BookOpModel RegisterModel AccumModel AccumSpec AccumProofs AccumProofs2 AccumProofs3 AccumProps
  LoaderModel LoaderSpec LoaderProofs LoaderProofs5 LoaderProps ExportModel DataExportModel PrintModel CmdModel DetSpec DetModel DetProofs DetProofs2 DetProofs3 DetProofs4.
From Coq Require Import ZifyBool ZifyNat Zify.
Ltac Zify.zify_post_hook ::= idtac.

(** ** Loading *)
(** Two runs that load the same files, with any two orders of the open balances and any two correct sorts, end the same way; the books
    have the same transactions, postings, amounts, balances, prices and decimals. Only posting notes may differ. *)
Theorem C108_load_partial : forall is_letter is_udigit to_upper ord1 ord2 fs resolve srt1 srt2 depth f,
  some_order ord1 -> some_order ord2 -> sort_ok is_less srt1 -> sort_ok is_less srt2 ->
  both same_but_notes (load_book is_letter is_udigit to_upper ord1 fs resolve srt1 depth f)
                      (load_book is_letter is_udigit to_upper ord2 fs resolve srt2 depth f).
Proof.
  intros is_letter is_udigit to_upper ord1 ord2 fs resolve srt1 srt2 depth f O1 O2 S1 S2. unfold load_book.
  pose proof (sim_file is_letter is_udigit to_upper ord1 ord2 O1 O2 fs resolve depth new_builder new_builder f [] sim_new) as H.
  pose proof (on_file is_letter is_udigit to_upper ord1 fs resolve depth new_builder f []) as N.
  destruct (parse_file _ _ _ ord1 _ _ _ _ _ _) as [b1| | |], (parse_file _ _ _ ord2 _ _ _ _ _ _) as [b2| | |]; cbn [fres_rel both] in *; try contradiction; auto.
  apply build_but_notes; try assumption. apply N; [exact on_new|reflexivity].
Qed.
Print Assumptions C108_load_partial.

(** With sorts that keep the order of equal postings the notes agree as well. *)
Theorem C108_load_stable_partial : forall is_letter is_udigit to_upper ord1 ord2 fs resolve srt1 srt2 depth f,
  some_order ord1 -> some_order ord2 -> sort_ok is_less srt1 -> sort_ok is_less srt2 -> stable srt1 -> stable srt2 ->
  both same_book (load_book is_letter is_udigit to_upper ord1 fs resolve srt1 depth f)
                 (load_book is_letter is_udigit to_upper ord2 fs resolve srt2 depth f).
Proof.
  intros is_letter is_udigit to_upper ord1 ord2 fs resolve srt1 srt2 depth f O1 O2 S1 S2 T1 T2. unfold load_book.
  pose proof (sim_file is_letter is_udigit to_upper ord1 ord2 O1 O2 fs resolve depth new_builder new_builder f [] sim_new) as H.
  pose proof (on_file is_letter is_udigit to_upper ord1 fs resolve depth new_builder f []) as N.
  destruct (parse_file _ _ _ ord1 _ _ _ _ _ _) as [b1| | |], (parse_file _ _ _ ord2 _ _ _ _ _ _) as [b2| | |]; cbn [fres_rel both] in *; try contradiction; auto.
  apply build_same; auto. apply N; [exact on_new|reflexivity].
Qed.
Print Assumptions C108_load_stable_partial.

(** ... and so they do with any sort when no two postings that are merged have different notes. *)
Theorem C108_load_notes_partial : forall is_letter is_udigit to_upper ord1 ord2 fs resolve srt1 srt2 depth f bu,
  some_order ord1 -> some_order ord2 -> sort_ok is_less srt1 -> sort_ok is_less srt2 ->
  parse_file is_letter is_udigit to_upper ord1 fs resolve depth new_builder f [] = FOk bu ->
  (forall p q, In p (bu_post bu) -> In q (bu_post bu) -> pkey p = pkey q -> p_note p = p_note q) ->
  both same_book (load_book is_letter is_udigit to_upper ord1 fs resolve srt1 depth f)
                 (load_book is_letter is_udigit to_upper ord2 fs resolve srt2 depth f).
Proof.
  intros is_letter is_udigit to_upper ord1 ord2 fs resolve srt1 srt2 depth f bu O1 O2 S1 S2 E Hn. unfold load_book.
  pose proof (sim_file is_letter is_udigit to_upper ord1 ord2 O1 O2 fs resolve depth new_builder new_builder f [] sim_new) as H.
  pose proof (on_file is_letter is_udigit to_upper ord1 fs resolve depth new_builder f [] bu on_new E) as N. rewrite E in *.
  destruct (parse_file _ _ _ ord2 _ _ _ _ _ _) as [b2| | |]; cbn [fres_rel both] in *; try contradiction.
  apply build_same; auto.
Qed.
Print Assumptions C108_load_notes_partial.

(** ** Commands *)
Section Commands.
  Variable srt : list posting -> list posting.
  Variable compile : str -> option regexp.
  Variable parse_float : str -> option Qc.
  Variable today : Z.
  Variable ploop : (pair -> pair) -> pbook -> pbook.
  Variable macros : str -> option (list str).
  Variable fuel : nat.
  Variable micro : Qc -> Z.
  Variables base divider : str.
  Variable all : bool.
  Variable f64 : Qc -> Qc.
  Variables is_letter is_print : Z -> bool.
  Variables title upper : str -> str.
  Variable colour : bool.
  Variable width : Z.

  (** The text of a report (text.go), the HTML page (html.go), the ledger text (ledger.go) for what report_run hands over. *)
  Definition text_of (x : book * list trans) : outcome str := summary_text is_print f64 is_letter (bk_ccy (fst x)) colour width (snd x).
  Definition html_of (css : str) (x : book * list trans) : outcome str := html_report f64 is_letter (bk_ccy (fst x)) css (snd x).
  Definition ledger_of (x : book * list trans) : outcome str := show_all f64 is_letter (bk_ccy (fst x)) (snd x).

  Lemma run_decs o args b x it : report_run srt compile parse_float today ploop macros fuel it micro base divider o args b = Ok x -> bk_ccy (fst x) = bk_ccy b.
  Proof.
    intros E. pose proof (rd_report srt (bk_ccy b) compile parse_float today ploop macros fuel it micro base divider o args b) as H.
    assert (R : redec (bk_ccy b) b = b) by (destruct b; reflexivity). rewrite R, E in H. cbn [lift] in H. injection H as H. rewrite H. reflexivity.
  Qed.
  Lemma text_redec d x : (forall c, aget str_eqb c d = aget str_eqb c (bk_ccy (fst x))) -> text_of (redec d (fst x), snd x) = text_of x.
  Proof. intros H. unfold text_of, summary_text. cbn [fst snd redec bk_ccy]. rewrite (dec_table d (bk_ccy (fst x)) H). reflexivity. Qed.
  Lemma html_redec css d x : (forall c, aget str_eqb c d = aget str_eqb c (bk_ccy (fst x))) -> html_of css (redec d (fst x), snd x) = html_of css x.
  Proof. intros H. unfold html_of, html_report. cbn [fst snd redec bk_ccy]. rewrite (dec_html d (bk_ccy (fst x)) H). reflexivity. Qed.
  Lemma ledger_redec d x : (forall c, aget str_eqb c d = aget str_eqb c (bk_ccy (fst x))) -> ledger_of (redec d (fst x), snd x) = ledger_of x.
  Proof. intros H. unfold ledger_of. cbn [fst snd redec bk_ccy]. apply dec_all. exact H. Qed.
  Lemma it_report it1 it2 o args b : any_order it1 -> any_order it2 -> sort_ok is_less srt -> stable srt ->
    report_run srt compile parse_float today ploop macros fuel it1 micro base divider o args b = report_run srt compile parse_float today ploop macros fuel it2 micro base divider o args b.
  Proof.
    intros I1 I2 Hs Ht. unfold report_run. destruct (ops_of _ _ _ _ _ _ _ _ _) as [b1| | |]; cbn [obind]; try reflexivity. destruct (convert_if _ _ _) as [b2| | |]; cbn [obind]; try reflexivity.
    destruct (if negb _ && _ then _ else _) as [cr| | |]; cbn [obind]; try reflexivity. destruct (_ && ro_sum o); [|reflexivity]. destruct (str_eqb base []); [reflexivity|].
    apply it_accumulate; assumption.
  Qed.

  (** Any printer that reads the decimals by currency. *)
  Lemma report_same (pr : book * list trans -> outcome str) it1 it2 o args b1 b2 :
    (forall d x, (forall c, aget str_eqb c d = aget str_eqb c (bk_ccy (fst x))) -> pr (redec d (fst x), snd x) = pr x) ->
    any_order it1 -> any_order it2 -> sort_ok is_less srt -> stable srt -> same_book b1 b2 ->
    (do x <- report_run srt compile parse_float today ploop macros fuel it1 micro base divider o args b1; pr x) =
    (do x <- report_run srt compile parse_float today ploop macros fuel it2 micro base divider o args b2; pr x).
  Proof.
    intros Hpr I1 I2 Hs Ht Hb. rewrite (same_redec b1 b2 Hb), rd_report, lift_bind, (it_report it1 it2 o args b1 I1 I2 Hs Ht).
    destruct (report_run srt compile parse_float today ploop macros fuel it2 micro base divider o args b1) as [x| | |] eqn:E; cbn [obind]; try reflexivity.
    symmetry. apply Hpr. rewrite (run_decs _ _ _ _ _ E). intros c. symmetry. apply Hb.
  Qed.

  (** report: the text, the page and the ledger that are printed are byte for byte the same, for any orders of the balances and of the
      subtotals. *)
  Theorem C108_report_partial : forall is_udigit to_upper ord1 ord2 it1 it2 fs resolve depth f o args css,
    some_order ord1 -> some_order ord2 -> any_order it1 -> any_order it2 -> sort_ok is_less srt -> stable srt ->
    let run ord it printer :=
      do b <- load_book is_letter is_udigit to_upper ord fs resolve srt depth f;
      do x <- report_run srt compile parse_float today ploop macros fuel it micro base divider o args b; printer x in
    run ord1 it1 text_of = run ord2 it2 text_of /\ run ord1 it1 (html_of css) = run ord2 it2 (html_of css) /\
    run ord1 it1 ledger_of = run ord2 it2 ledger_of.
  Proof.
    intros is_udigit to_upper ord1 ord2 it1 it2 fs resolve depth f o args css O1 O2 I1 I2 Hs Ht run.
    assert (G : forall pr, (forall d x, (forall c, aget str_eqb c d = aget str_eqb c (bk_ccy (fst x))) -> pr (redec d (fst x), snd x) = pr x) -> run ord1 it1 pr = run ord2 it2 pr).
    { intros pr Hpr. unfold run. pose proof (C108_load_stable_partial is_letter is_udigit to_upper ord1 ord2 fs resolve srt srt depth f O1 O2 Hs Hs Ht Ht) as H.
      destruct (load_book _ _ _ ord1 _ _ _ _ _) as [b1| | |], (load_book _ _ _ ord2 _ _ _ _ _) as [b2| | |]; cbn [both obind] in *; try contradiction; try reflexivity.
      apply report_same; assumption. }
    split; [apply G, text_redec|split; [apply G, html_redec|apply G, ledger_redec]].
  Qed.

  (** register and accts: the registers with every row, and the list of accounts. *)
  Theorem C108_register_accts_partial : forall is_udigit to_upper ord1 ord2 fs resolve depth f o args pat,
    some_order ord1 -> some_order ord2 -> sort_ok is_less srt -> stable srt ->
    let load ord := load_book is_letter is_udigit to_upper ord fs resolve srt depth f in
    (do b <- load ord1; register_run srt compile parse_float today ploop macros fuel base all o args pat b) =
    (do b <- load ord2; register_run srt compile parse_float today ploop macros fuel base all o args pat b) /\
    (do b <- load ord1; accts_run compile all args b) = (do b <- load ord2; accts_run compile all args b) /\
    forall withAcct withBal rep b1 b2, load ord1 = Ok b1 -> load ord2 = Ok b2 ->
      register_text is_print f64 is_letter (bk_ccy b1) colour width rep withAcct withBal =
      register_text is_print f64 is_letter (bk_ccy b2) colour width rep withAcct withBal.
  Proof.
    intros is_udigit to_upper ord1 ord2 fs resolve depth f o args pat O1 O2 Hs Ht load.
    pose proof (C108_load_stable_partial is_letter is_udigit to_upper ord1 ord2 fs resolve srt srt depth f O1 O2 Hs Hs Ht Ht) as H. fold (load ord1) (load ord2) in H.
    destruct (load ord1) as [b1| | |], (load ord2) as [b2| | |]; cbn [both obind] in *; try contradiction; try (split; [reflexivity|split; [reflexivity|discriminate]]).
    split; [|split].
    - rewrite (same_redec b1 b2 H). symmetry. apply rd_register.
    - rewrite (same_redec b1 b2 H). reflexivity.
    - intros wa wb rep c1 c2 E1 E2. injection E1 as <-. injection E2 as <-. unfold register_text. rewrite (dec_register_rows (bk_ccy b1) (bk_ccy b2) (proj2 (proj2 (proj2 H)))). reflexivity.
  Qed.

  (** export as Json or CSV: the same. *)
  Theorem C108_export_data_partial : forall is_udigit to_upper ord1 ord2 oa1 oa2 op1 op2 fs resolve depth f type args,
    some_order ord1 -> some_order ord2 -> sort_ok is_less srt -> stable srt -> type = bs "Json" \/ type = bs "CSV" ->
    let run ord oa op :=
      do b <- load_book is_letter is_udigit to_upper ord fs resolve srt depth f;
      export_run srt compile parse_float today ploop macros fuel base f64 is_letter title upper oa op type args b in
    run ord1 oa1 op1 = run ord2 oa2 op2.
  Proof.
    intros is_udigit to_upper ord1 ord2 oa1 oa2 op1 op2 fs resolve depth f type args O1 O2 Hs Ht Hty run. unfold run.
    pose proof (C108_load_stable_partial is_letter is_udigit to_upper ord1 ord2 fs resolve srt srt depth f O1 O2 Hs Hs Ht Ht) as H.
    destruct (load_book _ _ _ ord1 _ _ _ _ _) as [b1| | |], (load_book _ _ _ ord2 _ _ _ _ _) as [b2| | |]; cbn [both obind] in *; try contradiction; try reflexivity.
    rewrite (same_redec b1 b2 H). unfold export_run. rewrite rd_ops, lift_bind. destruct (ops_of _ _ _ _ _ _ _ args b1) as [b| | |]; cbn [obind]; try reflexivity.
    destruct Hty as [-> | ->].
    - cbn [str_eqb]. change (str_eqb (bs "Json") (bs "Json")) with true. cbv iota. unfold export_json. rewrite rd_trans. reflexivity.
    - change (str_eqb (bs "CSV") (bs "Json")) with false. change (str_eqb (bs "CSV") (bs "Beancount")) with false. change (str_eqb (bs "CSV") (bs "CSV")) with true. cbv iota. unfold export_csv. rewrite rd_trans. reflexivity.
  Qed.

  (** export as a ledger: the same text up to the order of the price lists, one per pair. [op1], [op2] are the orders of the pairs. *)
  Theorem C108_export_ledger_partial : forall is_udigit to_upper ord1 ord2 oa1 oa2 op1 op2 fs resolve depth f type args,
    some_order ord1 -> some_order ord2 -> sort_ok is_less srt -> stable srt ->
    (forall pb, Permutation (op1 pb) (akeys pb)) -> (forall pb, Permutation (op2 pb) (akeys pb)) ->
    ~ In type [bs "Json"; bs "CSV"; bs "Beancount"] ->
    let run ord oa op :=
      do b <- load_book is_letter is_udigit to_upper ord fs resolve srt depth f;
      export_run srt compile parse_float today ploop macros fuel base f64 is_letter title upper oa op type args b in
    both (fun x y => exists text ps qs, x = XLedger (text ++ concat ps) /\ y = XLedger (text ++ concat qs) /\ Permutation ps qs)
      (run ord1 oa1 op1) (run ord2 oa2 op2).
  Proof.
    intros is_udigit to_upper ord1 ord2 oa1 oa2 op1 op2 fs resolve depth f type args O1 O2 Hs Ht P1 P2 Hty run. unfold run.
    pose proof (C108_load_stable_partial is_letter is_udigit to_upper ord1 ord2 fs resolve srt srt depth f O1 O2 Hs Hs Ht Ht) as H.
    destruct (load_book _ _ _ ord1 _ _ _ _ _) as [b1| | |], (load_book _ _ _ ord2 _ _ _ _ _) as [b2| | |]; cbn [both obind] in *; try contradiction; try exact I.
    rewrite (same_redec b1 b2 H). unfold export_run. rewrite rd_ops, lift_bind.
    assert (Ed : forall b, ops_of srt compile parse_float today ploop macros fuel args b1 = Ok b -> bk_ccy b = bk_ccy b1).
    { intros b E. pose proof (rd_ops srt (bk_ccy b1) compile parse_float today ploop macros fuel args b1) as R.
      assert (R' : redec (bk_ccy b1) b1 = b1) by (destruct b1; reflexivity). rewrite R', E in R. cbn [lift] in R. injection R as R. rewrite R. reflexivity. }
    destruct (ops_of _ _ _ _ _ _ _ args b1) as [b| | |]; cbn [obind]; try exact I. specialize (Ed b eq_refl).
    assert (N : forall s, In s [bs "Json"; bs "CSV"; bs "Beancount"] -> str_eqb type s = false) by (intros s Hin; apply str_eqb_neq; intros ->; contradiction).
    rewrite !N by (cbn [In]; auto). unfold export_ledger. rewrite rd_trans. destruct (transactions srt b) as [b' ts]. cbn [fst snd]. change (bk_ccy (redec (bk_ccy b2) b)) with (bk_ccy b2). change (bk_prices (redec (bk_ccy b2) b')) with (bk_prices b').
    assert (Hd : forall c, aget str_eqb c (bk_ccy b2) = aget str_eqb c (bk_ccy b)) by (intros c; rewrite Ed; symmetry; apply H).
    rewrite (dec_all (bk_ccy b2) (bk_ccy b) Hd), (dec_prices (bk_ccy b2) (bk_ccy b) Hd). destruct (show_all f64 is_letter (bk_ccy b) ts) as [a| | |]; cbn [obind]; try exact I.
    pose proof (show_prices_perm f64 is_letter (bk_ccy b) (bk_prices b') (op1 (bk_prices b')) (op2 (bk_prices b')) ltac:(rewrite P1, P2; reflexivity)) as Hp.
    destruct (show_prices _ _ _ _ (op1 _)) as [s1| | |], (show_prices _ _ _ _ (op2 _)) as [s2| | |]; cbn [both obind] in *; try contradiction; try exact I.
    destruct Hp as (ps & qs & -> & -> & Pp). exists (a ++ [10] ++ bs "; Prices" ++ [10]), ps, qs. rewrite <- !app_assoc. split; [reflexivity|split; [reflexivity|exact Pp]].
  Qed.
End Commands.
Print Assumptions C108_report_partial.
Print Assumptions C108_register_accts_partial.
Print Assumptions C108_export_data_partial.
Print Assumptions C108_export_ledger_partial.
