(** * RegFileProps: C112, from the bytes of a ledger file to the registers that are printed. *)
From Verif Require Import Base Utf8 Regex Dec DateModel DateSpec DateProofs DateProofs2 PriceModel PriceSpec PriceProofs BookModel BookSpec BookProofs BuilderProofs
  OpsModel OpsProofs OpsProofs2 OpsProofs3 BookOpModel BookProps RegisterModel RegisterSpec RegisterProofs AccumModel AccumSpec AccumProofs AccumProofs2 AccumProofs3 AccumProps
  LoaderModel LoaderSpec GrammarSpec LoaderProps GrammarProofs GrammarProofs2 GrammarProps ExportModel PrintModel PrintSpec PrintProofs PrintProofs2 PrintProps RegisterText ReportSpec PrintProofs3 ReportProps
  CmdModel CmdSpec CmdProofs CmdProps CmdProps2 CmdProps3 AppendProofs BalanceSpec BalanceProofs BalanceProps PagerModel PagerSpec PagerProps RegFileSpec RegFileProofs.

(** The accounts of the file are written with plain characters. *)
Definition plain_entry (e : LoaderSpec.entry) : Prop := match e with Call (CPost a _ _ _) | Rest a _ => plain_name a | _ => True end.
Lemma means_plain before es cs : means before es cs -> Forall plain_entry es -> forall date, Forall (fun x => plain_name (am_acct x)) (amounts date cs).
Proof.
  induction 1 as [before|before x es cs _ IH|before a n es ps cs Hbal _ IH]; intros Hr date.
  - constructor.
  - apply Forall_cons_iff in Hr as [Hx Hr]. destruct x as [dt p n|a c v n|dt u c v]; cbn [amounts plain_entry] in *; [apply IH; exact Hr|constructor; [exact Hx|apply IH; exact Hr]|apply IH; exact Hr].
  - apply Forall_cons_iff in Hr as [Hx Hr]. destruct Hbal as (cvs & Eps & _). rewrite (amounts_posts _ _ _ _ Eps). apply Forall_app. split; [|apply IH; exact Hr].
    apply Forall_forall. intros x H. apply in_map_iff in H as ([c v] & <- & _). exact Hx.
Qed.
Lemma reg_ccy srt d cs bk m split full : sort_ok is_less srt -> build_calls srt cs = Ok bk -> Forall (named_amount d) (amounts (-1) cs) ->
  register_of m split (snd (transactions srt bk)) full -> Forall (fun e => decode (e_ccy e) <> []) full.
Proof.
  intros Hs Eb Hn ((blocks & <- & F) & _). destruct (reg_cat srt Hs cs bk Eb) as [Hcat _]. apply Forall_forall. intros e He. apply in_concat in He as (bl & Hbl & He).
  destruct (Forall2_in_r _ _ _ F bl Hbl) as ([t p] & Hp & Hnm & _). cbn [snd] in Hnm. rewrite Forall_forall in Hnm. destruct (Hnm e He) as (_ & _ & _ & -> & _).
  assert (Hpp : In p (bk_post (compact srt bk))). { rewrite <- Hcat. apply (in_map snd) in Hp. rewrite matching_filter in Hp. apply filter_In in Hp as [Hp _]. exact Hp. }
  destruct (bk_post bk) as [|x0 l0] eqn:E3; [rewrite compact_nil in Hpp by exact E3; rewrite E3 in Hpp; contradiction|]. rewrite compact_eq in Hpp by (rewrite E3; discriminate). cbn [bk_post] in Hpp.
  apply (cposts_pkey_in srt Hs) in Hpp as (q & Hq & Ek). apply pkey_eq in Ek as (_ & _ & _ & <-). destruct (post_amount srt Hs cs bk Eb q Hq) as (x & Hx & _ & _ & <-). rewrite Forall_forall in Hn. apply (Hn x Hx).
Qed.
Lemma counted_cut count es : counted count es (cut_count count es).
Proof.
  destruct (cut_count_spec count es) as (H1 & H2 & H3). split; [|split]; intros H.
  - rewrite (H1 H). exists (skipn (Z.to_nat count) es). rewrite firstn_skipn, firstn_length. split; [reflexivity|lia].
  - rewrite (H2 H). exists (firstn (length es - Z.to_nat (- count)) es). rewrite firstn_skipn, skipn_length. split; [reflexivity|lia].
  - exact (H3 H).
Qed.

Section File.
  Variable is_letter is_udigit : Z -> bool.
  Variable to_upper : Z -> Z.
  Variable ord : list (str * Qc) -> list str.
  Variable fs : str -> option str.
  Variable resolve : str -> str -> str.
  Variable srt : list posting -> list posting.
  Variable compile : str -> option regexp.
  Variable today : Z.
  Variable base : str.
  Variable divider : Z.
  Variable is_print : Z -> bool.
  Variable f64 : Qc -> Qc.
  Variable colour : bool.
  Variable t : tty.
  Variable all : bool.
  Variable count : Z.

  (** ** C112. goledger register --asc: for every ledger file, what is printed for every account that matches. *)
  Theorem C112_register_of_file_partial o pat re lo hi f bytes es :
    is_letter 0 = false /\ is_udigit 0 = false -> (forall m, NoDup (akeys m) -> Permutation (ord m) (akeys m)) -> sort_ok is_less srt -> is_print 67 = true ->
    fs f = Some bytes -> text_at is_letter is_udigit to_upper fs resolve f [] (decode bytes) es -> Forall (reportable divider) es -> opened_first es -> Forall plain_entry es ->
    compile pat = Some re -> literal compile -> bound (go_begin o) lo -> bound (go_end o) hi -> go_combined o = false ->
    exists cs bound, means [] es cs /\ forall depth, (bound <= depth)%nat ->
      let loaded := load_book is_letter is_udigit to_upper ord fs resolve srt depth f in
      (~ all_balanced cs /\ (loaded = Panic \/ loaded = Error)) \/
      (all_balanced cs /\ exists bk accts fulls shown texts,
         loaded = Ok bk /\ registered cs all (rx_match re) accts /\
         Forall2 (register_lines cs) accts fulls /\
         Forall2 (fun full lines => exists win, sublist_of (fun e => in_window lo hi (e_date e)) full win /\ counted count win lines) fulls shown /\
         Forall2 (fun lines s => exists ws, length ws = 5%nat /\ s = table_text (lines_of is_print ws (register_table f64 is_letter (bk_ccy bk) colour false true lines))) shown texts /\
         says is_print (t_width t) (register_actions f64 is_letter colour srt compile today base all count true o pat bk) (concat (map (section_text colour) (combine accts texts))) Done).
  Proof.
    intros Hn Hord Hs HC Hf Ht Hrep Hopen Hplain Ere Hl Blo Bhi Hcomb.
    destruct (C88_every_ledger_loads is_letter is_udigit to_upper ord fs resolve srt f bytes es Hn Hord Hf Ht) as (cs & bnd & Hm & Hload). exists cs, bnd. split; [exact Hm|]. intros depth Hd loaded. unfold loaded. clear loaded. rewrite (Hload depth Hd).
    destruct (means_good divider [] es cs Hm Hrep) as [Hg1 Hg2]; [intros ? ? ? ? []|]. specialize (Hg1 (-1) (or_intror Hopen)).
    destruct (build_calls_cases srt Hs cs) as [(Hall & bk & Eb & _)|[Hnall Eb]].
    2:{ left. split; [exact Hnall|]. unfold build_calls in Eb. destruct (bsteps new_builder cs) as [b| | |]; cbn [obind] in *; [rewrite Eb; left; reflexivity|right; reflexivity..]. }
    right. split; [exact Hall|]. assert (El : match bsteps new_builder cs with Ok b => build srt b | _ => Error end = Ok bk).
    { unfold build_calls in Eb. destruct (bsteps new_builder cs) as [b| | |]; cbn [obind] in Eb; [exact Eb|discriminate..]. }
    rewrite El. clear El. set (accts := accounts (rx_match re) (negb all) bk).
    assert (Hpl : Forall plain_name accts).
    { apply Forall_forall. intros a Ha. unfold accts in Ha. assert (In a (accounts (rx_match re) false bk)) as Ha'. { apply accounts_In. apply accounts_In in Ha as (v & E & _). exists v. split; [exact E|discriminate]. }
      apply accounts_all in Ha' as (_ & p & Hin & <-). destruct (post_amount srt Hs cs bk Eb p Hin) as (x & Hx & _ & <- & _). pose proof (means_plain _ _ _ Hm Hplain (-1)) as Hmp. rewrite Forall_forall in Hmp. exact (Hmp x Hx). }
    destruct (bal_facts srt Hs cs bk Eb) as (Hok & _). pose proof (bal_readable srt Hs divider cs bk Eb Hg1 Hg2) as Hrd.
    destruct (registers_spec srt Hs compile today base o lo hi Hl Blo Bhi accts bk _ Hok Hrd eq_refl Hpl) as (l & Er & Fl & HF).
    assert (HX : exists fulls, Forall2 (fun x full => sublist_of (fun e => in_window lo hi (e_date e)) full (snd x) /\ register_of (fun y => str_eqb y (fst x)) (go_split o) (snd (transactions srt bk)) full) l fulls).
    { clear - HF. induction HF as [|x l (full & H) _ (fulls & IH)]; [exists []; constructor|]. exists (full :: fulls). constructor; assumption. }
    destruct HX as (fulls & HX).
    assert (HT : exists texts, Forall2 (fun x s => register_text is_print f64 is_letter (bk_ccy bk) colour (t_width t) (show_rows count true (snd x)) false true = Ok s /\
        exists ws, length ws = 5%nat /\ s = table_text (lines_of is_print ws (register_table f64 is_letter (bk_ccy bk) colour false true (cut_count count (snd x))))) l texts).
    { clear - HX Hs Eb Hg1 HC. induction HX as [|x full l fulls [Hw Hr] _ (texts & IH)]; [exists []; constructor|].
      assert (Hcc : Forall (fun e => decode (e_ccy e) <> []) (cut_count count (snd x))).
      { pose proof (reg_ccy srt divider cs bk _ _ _ Hs Eb Hg1 Hr) as Hfull. rewrite Forall_forall in *. intros e He. apply Hfull.
        assert (He2 : In e (snd x)). { destruct (counted_cut count (snd x)) as (C1 & C2 & C3). destruct (Z.compare_spec 0 count) as [Hc|Hc|Hc]; [rewrite (C3 (eq_sym Hc)) in He; exact He|destruct (C1 Hc) as (r & -> & _); apply in_app_iff; left; exact He|destruct (C2 Hc) as (r & -> & _); apply in_app_iff; right; exact He]. }
        clear - Hw He2. induction Hw; [contradiction|destruct He2 as [<-|He2]; [left; reflexivity|right; auto]|right; auto]. }
      destruct (last_column is_print f64 is_letter (bk_ccy bk) colour false true (cut_count count (snd x)) HC) as (w & Hw1 & Hw2).
      destruct (C53_no_crash_partial is_print (t_width t) (register_table f64 is_letter (bk_ccy bk) colour false true (cut_count count (snd x))) (headings colour false true) (register_shrink false true) eq_refl) as (ws & E & L);
        [discriminate|apply table_shaped|apply Nat.le_refl|intros y Hy; rewrite Hw1 in Hy; injection Hy as <-; exact Hw2|].
      eexists (_ :: texts). constructor; [|exact IH]. split; [|exists ws; split; [exact L|reflexivity]]. unfold show_rows. rewrite register_text_table by exact Hcc. exact E. }
    destruct HT as (texts & HT). exists bk, accts, fulls, (map (fun x => cut_count count (snd x)) l), texts. split; [reflexivity|]. split; [apply (reg_accounts srt Hs cs bk Eb)|].
    split; [|split; [|split]].
    - rewrite <- Fl. clear - HX Hs Eb. induction HX as [|x full l fulls [_ Hr] _ IH]; [constructor|]. cbn [map]. constructor; [|exact IH]. exact (reg_lines srt Hs cs bk Eb _ _ _ Hr).
    - clear - HX. induction HX as [|x full l fulls [Hw _] _ IH]; [constructor|]. cbn [map]. constructor; [|exact IH]. exists (snd x). split; [exact Hw|apply counted_cut].
    - clear - HT. induction HT as [|x s l texts [_ H] _ IH]; [constructor|]. cbn [map]. constructor; assumption.
    - apply (C111_register_partial is_print t f64 is_letter colour srt compile today base all count true o pat bk accts l texts Hcomb).
      + unfold list_accounts. rewrite Ere. reflexivity.
      + exact Er.
      + clear - HT. induction HT as [|x s l texts [H _] _ IH]; constructor; assumption.
  Qed.
End File.
Print Assumptions C112_register_of_file_partial.

Definition plain_nameb (a : str) : bool := forallb (fun c => ((65 <=? c) && (c <=? 90)) || ((97 <=? c) && (c <=? 122)) || ((48 <=? c) && (c <=? 57)) || existsb (Z.eqb c) [38; 39; 58; 95; 32]) a.
Lemma plain_nameb_ok a : plain_nameb a = true -> plain_name a.
Proof.
  intros H. apply Forall_forall. intros c Hc. unfold plain_nameb in H. rewrite forallb_forall in H. specialize (H c Hc). rewrite !orb_true_iff, !andb_true_iff, !Z.leb_le, existsb_exists in H. unfold plain_char.
  destruct H as [[[H|H]|H]|(x & Hx & E)]; [auto|auto|auto|]. apply Z.eqb_eq in E as ->. auto.
Qed.
(** The file of C110: its hypotheses hold of it. *)
Lemma ex112_text : exists es, text_at x_letter digit upc x_fs110 x_join (bs "m") [] (decode ex110) es /\ Forall (reportable 58) es /\ opened_first es /\ Forall plain_entry es.
Proof.
  eexists. split.
  - let x := eval vm_compute in (decode ex110) in change (decode ex110) with x.
    an_item a_price.
    an_item a_trans. an_item ltac:(a_post false). an_item a_rest.
    an_item a_trans. an_item ltac:(a_post false). an_item a_rest.
    an_item a_trans. an_item ltac:(a_post true). an_item ltac:(a_post false).
    an_item a_trans. an_item ltac:(a_post true). an_item ltac:(a_post false).
    an_item a_trans. an_item ltac:(a_post true). an_item a_rest.
    apply text_end. reflexivity.
  - cbn [app]. split; [|split; [exact I|]].
    + assert (V : forall d, In d [20240101; 20240105; 20240109; 20240201; 20240202; 20240203] -> valid_date d).
      { intros d H. exists (d / 10000), (d / 100 mod 100), (d mod 100). cbn [In] in H. decompose [or] H; try contradiction; subst d; vm_compute; repeat split; intros X; discriminate X. }
      repeat constructor; try (apply V; cbn [In]; tauto); vm_compute; intros X; discriminate X.
    + repeat (apply Forall_cons; [first [exact I|apply plain_nameb_ok; vm_compute; reflexivity]|]). apply Forall_nil.
Qed.
Definition ex112 (all : bool) (count : Z) (asc : bool) (o : register_opts) (pat : str) : list action :=
  match load_book x_letter digit upc x_order x_fs110 x_join xsort 1 (bs "m") with
  | Ok b => register_actions x_plain_f64 x_ascii_letter false xsort x_compile 20240301 (bs "GBP") all count asc o pat b | _ => [ACrash] end.
Definition go112 (from : str) : register_opts := mkGO from [] false false true.
Example C112_nonvacuous : (exists es, text_at x_letter digit upc x_fs110 x_join (bs "m") [] (decode ex110) es /\ Forall (reportable 58) es /\ opened_first es /\ Forall plain_entry es) /\
  literal x_compile /\ bound (go_begin (go112 (bs "2024/01/06"))) (Some 20240106) /\ bound (go_end (go112 (bs "2024/01/06"))) None /\ (exists re, x_compile (bs "a") = Some re) /\
  command x_print no_tty (ex112 true 0 true (go112 (bs "2024/01/06")) (bs "a")) = (mkWorld (table_text [
    []; bs "Bank";
    bs "Date       Payee Counteraccount   Amount Balance";
    bs "2024/02/02 Swap  Cash           GBP  3.0 GBP 3.0";
    bs "2024/02/03 Swap  Cash           GBP -3.0 GBP 0.0";
    []; bs "Cash";
    bs "Date       Payee Counteraccount   Amount   Balance";
    bs "2024/01/09 Trip  Exp:Fun        USD   -4 USD    -4";
    bs "2024/02/01 Back  Exp:Fun        USD    1 USD    -3";
    bs "2024/02/02 Swap  Bank           GBP -3.0 GBP -13.5";
    bs "2024/02/03 Swap  Bank           GBP  3.0 GBP -10.5"]) None, Done, false) /\
  command x_print no_tty (ex112 false 2 true (go112 []) (bs "Cash")) = (mkWorld (table_text [
    []; bs "Cash";
    bs "Date       Payee Counteraccount    Amount   Balance";
    bs "2024/01/05 Shop  Exp:Food       GBP -10.5 GBP -10.5";
    bs "2024/01/09 Trip  Exp:Fun        USD    -4 USD    -4"]) None, Done, false).
Proof.
  split; [exact ex112_text|]. split; [exact x_literal|]. split.
  { cbn [go_begin go112]. assert (Ed : bs "2024/01/06" = date_string 20240106) by (vm_compute; reflexivity). rewrite Ed. apply b_date; [exists 2024, 1, 6; split; [cbv; intuition congruence|reflexivity]|lia]. }
  split; [constructor|]. split; [eexists; reflexivity|]. split; vm_compute; reflexivity.
Qed.
(** REFUTED: without --asc, the default, the first register crashes the command after its heading (C35). *)
Theorem C112_descending_refuted : command x_print no_tty (ex112 true 0 false (go112 []) (bs "a")) = (mkWorld (table_text [[]; bs "Bank"]) None, Crashed, false).
Proof. vm_compute. reflexivity. Qed.
Print Assumptions C112_descending_refuted.
