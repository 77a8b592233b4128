(** * RegCmdProps: C118, goledger register from the words of the command line to the registers that are printed. *)
From Verif Require Import Base Utf8 Regex Dec DateModel DateSpec DateProofs DateProofs2 PriceModel PriceSpec PriceProofs BookModel BookSpec BookProofs BuilderProofs
  OpsModel OpsProofs OpsProofs2 OpsProofs3 BookOpModel BookProps RegisterModel RegisterSpec RegisterProofs AccumModel AccumSpec AccumProofs AccumProofs2 AccumProofs3 AccumProps
  LoaderModel LoaderSpec GrammarSpec LoaderProps GrammarProofs GrammarProofs2 GrammarProps ExportModel PrintModel PrintSpec PrintProofs PrintProofs2 PrintProps RegisterText ReportSpec PrintProofs3 ReportProps
  CmdModel CmdSpec CmdProofs CmdProps CmdProps2 CmdProps3 AppendProofs BalanceSpec BalanceProofs BalanceProps PagerModel PagerSpec PagerProps RegFileSpec RegFileProofs RegFileProps
  OptionsModel OptionsSpec OptionsProofs OptionsProps CommandProps.


Section Reg.
  Variable is_print : Z -> bool.
  Variables (f64 : Qc -> Qc) (is_letter is_udigit : Z -> bool) (to_upper : Z -> Z) (ord : list (str * Qc) -> list str) (fs : str -> option str) (resolve : str -> str -> str).
  Variables (srt : list posting -> list posting) (compile : str -> option regexp) (today : Z) (base : str) (divider : Z) (tw : Z).
  (** The rows behind C112. *)
  Lemma file_registers all count colour o pat re lo hi f bytes es :
    is_letter 0 = false /\ is_udigit 0 = false -> (forall m, NoDup (akeys m) -> Permutation (ord m) (akeys m)) -> sort_ok is_less srt -> is_print 67 = true ->
    fs f = Some bytes -> text_at is_letter is_udigit to_upper fs resolve f [] (decode bytes) es -> Forall (reportable divider) es -> opened_first es -> Forall plain_entry es ->
    compile pat = Some re -> literal compile -> bound (go_begin o) lo -> bound (go_end o) hi -> go_combined o = false ->
    exists cs bound, means [] es cs /\ forall depth, (bound <= depth)%nat ->
      let loaded := load_book is_letter is_udigit to_upper ord fs resolve srt depth f in
      (~ all_balanced cs /\ (loaded = Panic \/ loaded = Error)) \/
      (all_balanced cs /\ exists bk fulls texts l,
         loaded = Ok bk /\ list_accounts compile all pat bk = Ok (map fst l) /\ registers srt compile today base o (map fst l) bk = Ok l /\ registered cs all (rx_match re) (map fst l) /\
         Forall2 (register_lines cs) (map fst l) fulls /\
         Forall2 (fun full lines => exists win, sublist_of (fun e => in_window lo hi (e_date e)) full win /\ counted count win lines) fulls (map (fun x => cut_count count (snd x)) l) /\
         Forall2 (fun lines s => exists ws, length ws = 5%nat /\ s = table_text (lines_of is_print ws (register_table f64 is_letter (bk_ccy bk) colour false true lines))) (map (fun x => cut_count count (snd x)) l) texts /\
         Forall2 (fun x s => register_text is_print f64 is_letter (bk_ccy bk) colour tw (show_rows count true (snd x)) false true = Ok s) l texts).
  Proof.
    intros Hn Hord Hs HC Hf Ht Hrep Hopen Hplain Ere Hl Blo Bhi Hcomb.
    destruct (C88_every_ledger_loads is_letter is_udigit to_upper ord fs resolve srt f bytes es Hn Hord Hf Ht) as (cs & bnd & Hm & Hload). exists cs, bnd. split; [exact Hm|]. intros depth Hd loaded. unfold loaded. clear loaded. rewrite (Hload depth Hd).
    destruct (means_good divider [] es cs Hm Hrep) as [Hg1 Hg2]; [intros ? ? ? ? []|]. specialize (Hg1 (-1) (or_intror Hopen)).
    destruct (build_calls_cases srt Hs cs) as [(Hall & bk & Eb & _)|[Hnall Eb]].
    2:{ left. split; [exact Hnall|]. unfold build_calls in Eb. destruct (bsteps new_builder cs) as [b| | |]; cbn [obind] in *; [rewrite Eb; left; reflexivity|right; reflexivity..]. }
    right. split; [exact Hall|]. assert (El : match bsteps new_builder cs with Ok b => build srt b | _ => Error end = Ok bk).
    { unfold build_calls in Eb. destruct (bsteps new_builder cs) as [b| | |]; cbn [obind] in Eb; [exact Eb|discriminate..]. }
    rewrite El. clear El. set (accts := accounts (rx_match re) (negb all) bk).
    assert (Hpl : Forall plain_name accts).
    { apply Forall_forall. intros a Ha. unfold accts in Ha. assert (In a (accounts (rx_match re) false bk)) as Ha'. { apply accounts_In. apply accounts_In in Ha as (v & E & _). exists v. split; [exact E|discriminate]. }
      apply accounts_all in Ha' as (_ & p & Hin & <-). destruct (post_amount srt Hs cs bk Eb p Hin) as (x & Hx & _ & <- & _). pose proof (means_plain _ _ _ Hm Hplain (-1)) as Hmp. rewrite Forall_forall in Hmp. exact (Hmp x Hx). }
    destruct (bal_facts srt Hs cs bk Eb) as (Hok & _). pose proof (bal_readable srt Hs divider cs bk Eb Hg1 Hg2) as Hrd.
    destruct (registers_spec srt Hs compile today base o lo hi Hl Blo Bhi accts bk _ Hok Hrd eq_refl Hpl) as (l & Er & Fl & HF).
    assert (HX : exists fulls, Forall2 (fun x full => sublist_of (fun e => in_window lo hi (e_date e)) full (snd x) /\ register_of (fun y => str_eqb y (fst x)) (go_split o) (snd (transactions srt bk)) full) l fulls).
    { clear - HF. induction HF as [|x l (full & H) _ (fulls & IH)]; [exists []; constructor|]. exists (full :: fulls). constructor; assumption. }
    destruct HX as (fulls & HX).
    assert (HT : exists texts, Forall2 (fun x s => register_text is_print f64 is_letter (bk_ccy bk) colour (tw) (show_rows count true (snd x)) false true = Ok s /\
        exists ws, length ws = 5%nat /\ s = table_text (lines_of is_print ws (register_table f64 is_letter (bk_ccy bk) colour false true (cut_count count (snd x))))) l texts).
    { clear - HX Hs Eb Hg1 HC. induction HX as [|x full l fulls [Hw Hr] _ (texts & IH)]; [exists []; constructor|].
      assert (Hcc : Forall (fun e => decode (e_ccy e) <> []) (cut_count count (snd x))).
      { pose proof (reg_ccy srt divider cs bk _ _ _ Hs Eb Hg1 Hr) as Hfull. rewrite Forall_forall in *. intros e He. apply Hfull.
        assert (He2 : In e (snd x)). { destruct (counted_cut count (snd x)) as (C1 & C2 & C3). destruct (Z.compare_spec 0 count) as [Hc|Hc|Hc]; [rewrite (C3 (eq_sym Hc)) in He; exact He|destruct (C1 Hc) as (r & -> & _); apply in_app_iff; left; exact He|destruct (C2 Hc) as (r & -> & _); apply in_app_iff; right; exact He]. }
        clear - Hw He2. induction Hw; [contradiction|destruct He2 as [<-|He2]; [left; reflexivity|right; auto]|right; auto]. }
      destruct (last_column is_print f64 is_letter (bk_ccy bk) colour false true (cut_count count (snd x)) HC) as (w & Hw1 & Hw2).
      destruct (C53_no_crash_partial is_print (tw) (register_table f64 is_letter (bk_ccy bk) colour false true (cut_count count (snd x))) (headings colour false true) (register_shrink false true) eq_refl) as (ws & E & L);
        [discriminate|apply table_shaped|apply Nat.le_refl|intros y Hy; rewrite Hw1 in Hy; injection Hy as <-; exact Hw2|].
      eexists (_ :: texts). constructor; [|exact IH]. split; [|exists ws; split; [exact L|reflexivity]]. unfold show_rows. rewrite register_text_table by exact Hcc. exact E. }
    destruct HT as (texts & HT). exists bk, fulls, texts, l. split; [reflexivity|]. rewrite Fl. split; [unfold list_accounts; rewrite Ere; reflexivity|]. split; [exact Er|]. split; [apply (reg_accounts srt Hs cs bk Eb)|].
    split; [|split; [|split]].
    - rewrite <- Fl. clear - HX Hs Eb. induction HX as [|x full l fulls [_ Hr] _ IH]; [constructor|]. cbn [map]. constructor; [|exact IH]. exact (reg_lines srt Hs cs bk Eb _ _ _ Hr).
    - clear - HX. induction HX as [|x full l fulls [Hw _] _ IH]; [constructor|]. cbn [map]. constructor; [|exact IH]. exists (snd x). split; [exact Hw|apply counted_cut].
    - clear - HT. induction HT as [|x s l texts [_ H] _ IH]; [constructor|]. cbn [map]. constructor; assumption.
    - clear - HT. induction HT as [|x s l texts [H _] _ IH]; constructor; assumption.
  Qed.
End Reg.

(** goledger register PATTERN --asc --type Text --split: the registers that are printed, one under the name of every account. *)
Theorem C118_register_partial : forall fold parse_int lang line args first config c
    is_letter is_udigit to_upper ord fs resolve srt compile parse_float today ploop fuel base divider is_print f64 width from to lo hi count split all colour pat re f bytes es,
  written (is_switch (common lang ++ register_options)) (letter_of common_letters) line args -> decode_config first config (builtin lang) = Ok c ->
  Forall (usable fold parse_int (common lang ++ register_options)) line -> words line = [pat] -> compile pat = Some re -> literal compile ->
  let set_to := set_to fold parse_int (common lang ++ register_options) line config in
  set_to (bs "help") (VB false) -> set_to (bs "ledger") (VS f) -> set_to (bs "ccy") (VS base) -> set_to (bs "all") (VB all) -> set_to (bs "type") (VS (bs "Text")) ->
  set_to (bs "begin") (VS from) -> set_to (bs "asof") (VS to) -> set_to (bs "combined") (VB false) -> set_to (bs "convert") (VB false) -> set_to (bs "split") (VB split) ->
  set_to (bs "count") (VI count) -> set_to (bs "asc") (VB true) -> set_to (bs "colour") (VB colour) ->
  bound from lo -> bound to hi ->
  is_letter 0 = false /\ is_udigit 0 = false -> (forall m, NoDup (akeys m) -> Permutation (ord m) (akeys m)) -> sort_ok is_less srt -> is_print 67 = true ->
  fs f = Some bytes -> text_at is_letter is_udigit to_upper fs resolve f [] (decode bytes) es -> Forall (reportable divider) es -> opened_first es -> Forall plain_entry es ->
  exists cs bound, means [] es cs /\ forall depth, (bound <= depth)%nat ->
    let load f := load_book is_letter is_udigit to_upper ord fs resolve srt depth f in
    let run := register_main fold parse_int srt compile parse_float today ploop fuel load c args in
    (~ all_balanced cs /\ (run = Panic \/ run = Error)) \/
    (all_balanced cs /\ exists bk look accts fulls shown rows texts,
       load f = Ok bk /\ run = Ok (Some (look, combine (map Some accts) rows)) /\ length rows = length accts /\ lk_form look = FText /\ lk_colour look = colour /\
       registered cs all (rx_match re) accts /\
       Forall2 (register_lines cs) accts fulls /\
       Forall2 (fun full lines => exists win, sublist_of (fun e => in_window lo hi (e_date e)) full win /\ counted count win lines) fulls shown /\
       Forall2 (fun lines s => exists ws, length ws = 5%nat /\ s = table_text (lines_of is_print ws (register_table f64 is_letter (bk_ccy bk) colour false true lines))) shown texts /\
       Forall2 (fun r s => register_text is_print f64 is_letter (bk_ccy bk) (lk_colour look) width r false true = Ok s) rows texts).
Proof.
  intros fold parse_int lang line args first config c is_letter is_udigit to_upper ord fs resolve srt compile parse_float today ploop fuel base divider is_print f64 width from to lo hi count split all colour pat re f bytes es
    Hw Hc Hu Hwords Hre Hlit st Hhelp Hledger Hccy Hall Htype Hfrom Hto Hcomb Hconv Hsplit Hcount Hasc Hcol Blo Bhi Hn Hord Hs HC Hf Ht Hrep Hopen Hplain.
  set (o := mkGO from to false false split).
  destruct (file_registers is_print f64 is_letter is_udigit to_upper ord fs resolve srt compile today base divider width all count colour o pat re lo hi f bytes es Hn Hord Hs HC Hf Ht Hrep Hopen Hplain Hre Hlit Blo Bhi eq_refl) as (cs & bnd & Hm & H).
  exists cs, bnd. split; [exact Hm|]. intros depth Hd load run. specialize (H depth Hd). cbv zeta in H. change (load_book is_letter is_udigit to_upper ord fs resolve srt depth f) with (load f) in H.
  assert (G : exists look macros, lk_form look = FText /\ lk_colour look = colour /\ run =
      do b <- load f; do l <- register_run srt compile parse_float today ploop macros fuel base all o [] pat b;
      if (length l =? 0)%nat then Ok (Some (look, [])) else Ok (Some (look, map (fun r => (fst r, show_rows count true (snd r))) l))).
  { destruct (C116_register_partial fold parse_int lang srt compile parse_float today ploop fuel load line args first config c Hw Hc) as [_ E]. destruct (E Hu) as (v & macros & Hv & _ & _ & _ & E'). clear E.
    pose proof (fun n w => set_to_only fold parse_int _ line config v n w Hv) as Hset. fold st in Hset. rewrite (Hset _ _ Hhelp) in E'. specialize (E' eq_refl [] pat Hwords). unfold run. rewrite E'. clear E'.
    rewrite (Hset _ _ Hledger), (Hset _ _ Hccy), (Hset _ _ Hall), (Hset _ _ Htype), (Hset _ _ Hfrom), (Hset _ _ Hto), (Hset _ _ Hcomb), (Hset _ _ Hconv), (Hset _ _ Hsplit), (Hset _ _ Hcount), (Hset _ _ Hasc), (Hset _ _ Hcol).
    eexists {| lk_form := FText; lk_colour := colour; lk_lang := txt (v (bs "lang")) |}, macros. split; [reflexivity|]. split; [reflexivity|]. reflexivity. }
  destruct G as (look & macros & Hform & Hcolour & E). rewrite E. clear E.
  destruct H as [[H1 [-> | ->]]|(H1 & bk & fulls & texts & l & Hload & Hacc & Hreg & Hregd & HF1 & HF2 & HF3 & HF4)]; [left; split; [exact H1|left; reflexivity]|left; split; [exact H1|right; reflexivity]|].
  right. split; [exact H1|]. exists bk, look, (map fst l), fulls, (map (fun x => cut_count count (snd x)) l), (map (fun x => show_rows count true (snd x)) l), texts.
  split; [exact Hload|]. split.
  { rewrite Hload. cbn [obind]. assert (register_run srt compile parse_float today ploop macros fuel base all o [] pat bk = Ok (map (fun x => (Some (fst x), snd x)) l)) as ->.
    { unfold register_run. cbn [go_convert go_combined o convert_if obind]. assert (ops_of srt compile parse_float today ploop macros fuel [] bk = Ok bk) as -> by reflexivity. cbn [obind]. rewrite Hacc. cbn [obind]. change (registers _ _ _ _ o (map fst l) bk) with (registers srt compile today base o (map fst l) bk). rewrite Hreg. reflexivity. }
    cbn [obind]. rewrite map_map. cbn [fst snd]. assert (map (fun x : str * list RegisterModel.entry => (Some (fst x), show_rows count true (snd x))) l = combine (map Some (map fst l)) (map (fun x => show_rows count true (snd x)) l)) as E.
    { clear. induction l as [|x l IH]; [reflexivity|]. cbn [map combine]. rewrite IH. reflexivity. }
    destruct l as [|x l]; [reflexivity|]. cbn [map length Nat.eqb] in *. rewrite E. reflexivity. }
  split; [rewrite !map_length; reflexivity|]. split; [exact Hform|]. split; [exact Hcolour|]. split; [exact Hregd|]. split; [exact HF1|]. split; [exact HF2|]. split; [exact HF3|]. rewrite Hcolour.
  clear - HF4. induction HF4 as [|x s l texts Hx _ IH]; cbn [map]; constructor; assumption.
Qed.
Print Assumptions C118_register_partial.

(** register -lm a --all --type=text --begin 2024/01/06 --asc --split on the ledger of C110, with a configuration file for the currency and the colours. *)
Definition ex118_rfile : list (list str * value) := [([bs "colour"], VB false); ([bs "BaseCCY"], VS (bs "GBP")); ([bs "register"; bs "Type"], VS (bs "CSV"))].
Definition ex118_rline : list item :=
  [Opt (bs "ledger") (bs "m"); Word (bs "a"); Opt (bs "all") (bs "true"); Opt (bs "type") (bs "text"); Opt (bs "begin") (bs "2024/01/06"); Opt (bs "asc") (bs "true"); Opt (bs "split") (bs "true")].
Definition ex118_rargs : list str := [bs "-lm"; bs "a"; bs "--all"; bs "--type=text"; bs "--begin"; bs "2024/01/06"; bs "--asc"; bs "--split"].
Definition ex118_registers : outcome (list (option str * outcome str)) :=
  let load := load_book x_letter digit upc x_order x_fs110 x_join xsort 1 in
  do c <- decode_config false ex118_rfile (builtin (bs "en")); do b <- load (bs "m");
  do r <- register_main equal_fold (fun _ => None) xsort x_compile (fun _ => None) 20240301 (fun _ pb => pb) 5 load c ex118_rargs;
  match r with None => Ok [] | Some (l, rs) => Ok (map (fun r => (fst r, register_text x_print x_plain_f64 x_ascii_letter (bk_ccy b) (lk_colour l) 80 (snd r) false true)) rs) end.
Example C118_register_nonvacuous :
  let os := common (bs "en") ++ register_options in let st := set_to equal_fold (fun _ => None) os ex118_rline ex118_rfile in
  written (is_switch os) (letter_of common_letters) ex118_rline ex118_rargs /\ Forall (usable equal_fold (fun _ => None) os) ex118_rline /\ words ex118_rline = [bs "a"] /\
  (st (bs "help") (VB false) /\ st (bs "ledger") (VS (bs "m")) /\ st (bs "ccy") (VS (bs "GBP")) /\ st (bs "all") (VB true) /\ st (bs "type") (VS (bs "Text")) /\
   st (bs "begin") (VS (bs "2024/01/06")) /\ st (bs "asof") (VS []) /\ st (bs "combined") (VB false) /\ st (bs "convert") (VB false) /\ st (bs "split") (VB true) /\
   st (bs "count") (VI 0) /\ st (bs "asc") (VB true) /\ st (bs "colour") (VB false)) /\
  bound (bs "2024/01/06") (Some 20240106) /\ bound [] None /\ literal x_compile /\ (exists re, x_compile (bs "a") = Some re) /\
  (exists es, text_at x_letter digit upc x_fs110 x_join (bs "m") [] (decode ex110) es /\ Forall (reportable 58) es /\ opened_first es /\ Forall plain_entry es) /\
  ex118_registers = Ok [
    (Some (bs "Bank"), Ok (table_text [
      bs "Date       Payee Counteraccount   Amount Balance";
      bs "2024/02/02 Swap  Cash           GBP  3.0 GBP 3.0";
      bs "2024/02/03 Swap  Cash           GBP -3.0 GBP 0.0"]));
    (Some (bs "Cash"), Ok (table_text [
      bs "Date       Payee Counteraccount   Amount   Balance";
      bs "2024/01/09 Trip  Exp:Fun        USD   -4 USD    -4";
      bs "2024/02/01 Back  Exp:Fun        USD    1 USD    -3";
      bs "2024/02/02 Swap  Bank           GBP -3.0 GBP -13.5";
      bs "2024/02/03 Swap  Bank           GBP  3.0 GBP -10.5"]))].
Proof.
  intros os st. split. { unfold ex118_rline, ex118_rargs.
    refine (W_letter_at _ (letter_of common_letters) 108 (bs "m") _ _ _ _ _ _ _); [discriminate|reflexivity|discriminate|discriminate|].
    apply W_word; [discriminate|]. apply (W_switch _ _ (bs "all")); [discriminate|cbn; intuition discriminate|discriminate|reflexivity|].
    apply (W_equals _ _ (bs "type") (bs "text")); [discriminate|cbn; intuition discriminate|discriminate|]. apply (W_two _ _ (bs "begin")); [discriminate|cbn; intuition discriminate|discriminate|reflexivity|].
    apply (W_switch _ _ (bs "asc")); [discriminate|cbn; intuition discriminate|discriminate|reflexivity|]. apply (W_switch _ _ (bs "split")); [discriminate|cbn; intuition discriminate|discriminate|reflexivity|]. apply W_end. }
  set (O := fun k => nth k os (mkOption [] AnyText [] VT)).
  assert (HO : forall k, (k < 17)%nat -> In (O k) os) by (intros k Hk; apply nth_In; exact Hk).
  assert (Hty : stands_for equal_fold (fun _ => None) (o_sort (O 8%nat)) (bs "text") (VS (bs "Text"))).
  { exists [], (bs "Text"), [bs "JSON"; bs "CSV"]. repeat split; repeat constructor. }
  split. { repeat constructor.
    - exists (O 0%nat), (VS (bs "m")). split; [apply HO; lia|]. split; reflexivity.
    - exists (O 6%nat), (VB true). split; [apply HO; lia|]. split; [reflexivity|]. left. cbn. tauto.
    - exists (O 8%nat), (VS (bs "Text")). split; [apply HO; lia|]. split; [reflexivity|exact Hty].
    - exists (O 10%nat), (VS (bs "2024/01/06")). split; [apply HO; lia|]. split; reflexivity.
    - exists (O 13%nat), (VB true). split; [apply HO; lia|]. split; [reflexivity|]. left. cbn. tauto.
    - exists (O 15%nat), (VB true). split; [apply HO; lia|]. split; [reflexivity|]. left. cbn. tauto. }
  split; [reflexivity|]. split.
  { assert (Hno : forall n, In n [bs "help"; bs "ccy"; bs "asof"; bs "combined"; bs "convert"; bs "count"; bs "colour"] -> Forall (fun i => ~ is_opt n i) ex118_rline).
    { intros n Hn. cbn [In] in Hn. unfold ex118_rline. decompose [or] Hn; try contradiction; subst n; repeat (apply Forall_cons; [cbn; first [discriminate|tauto]|]); apply Forall_nil. }
    assert (Hd : forall o v, In o os -> In (o_name o) [bs "help"; bs "asof"; bs "combined"; bs "convert"; bs "count"] -> o_default o = v -> Forall (fun e => o_key o = [] \/ ~ same_key (fst e) (o_key o)) ex118_rfile -> st (o_name o) v).
    { intros o v Ho Hn <- Hf. exists o. split; [exact Ho|]. split; [reflexivity|]. apply E_default; [apply Hno; cbn [In] in *; tauto|exact Hf]. }
    assert (Hl : forall o t v l1 l2, In o os -> stands_for equal_fold (fun _ => None) (o_sort o) t v -> ex118_rline = l1 ++ Opt (o_name o) t :: l2 -> Forall (fun i => ~ is_opt (o_name o) i) l2 -> st (o_name o) v).
    { intros o t v l1 l2 Ho Hv E Hf. exists o. split; [exact Ho|]. split; [reflexivity|]. exact (E_line _ _ o ex118_rline ex118_rfile l1 t l2 v E Hf Hv). }
    assert (Hk : forall k, In k [7; 9; 11; 12; 16]%nat -> Forall (fun e => o_key (O k) = [] \/ ~ same_key (fst e) (o_key (O k))) ex118_rfile).
    { intros k Hk. cbn [In] in Hk. decompose [or] Hk; try contradiction; subst k; unfold ex118_rfile; repeat (apply Forall_cons; [first [left; reflexivity|right; intros E; vm_compute in E; discriminate E]|]); apply Forall_nil. }
    assert (Hb : stands_for equal_fold (fun _ => None) Switch (bs "true") (VB true)) by (left; cbn; tauto).
    split. { apply (Hd (O 7%nat)); [apply HO; lia|cbn; tauto|reflexivity|]. apply Hk. cbn; tauto. }
    split. { apply (Hl (O 0%nat) (bs "m") _ [] (skipn 1 ex118_rline)); [apply HO; lia|reflexivity|reflexivity|]. repeat (apply Forall_cons; [cbn; first [discriminate|tauto]|]); apply Forall_nil. }
    split. { exists (O 1%nat). split; [apply HO; lia|]. split; [reflexivity|]. apply (E_file _ _ (O 1%nat) ex118_rline ex118_rfile (firstn 1 ex118_rfile) [bs "BaseCCY"] (VS (bs "GBP")) (skipn 2 ex118_rfile)); [apply Hno; cbn; tauto|reflexivity|discriminate|reflexivity|].
      repeat (apply Forall_cons; [intros E; vm_compute in E; discriminate E|]); apply Forall_nil. }
    split. { apply (Hl (O 6%nat) (bs "true") _ (firstn 2 ex118_rline) (skipn 3 ex118_rline)); [apply HO; lia|exact Hb|reflexivity|]. repeat (apply Forall_cons; [cbn; first [discriminate|tauto]|]); apply Forall_nil. }
    split. { apply (Hl (O 8%nat) (bs "text") _ (firstn 3 ex118_rline) (skipn 4 ex118_rline)); [apply HO; lia|exact Hty|reflexivity|]. repeat (apply Forall_cons; [cbn; first [discriminate|tauto]|]); apply Forall_nil. }
    split. { apply (Hl (O 10%nat) (bs "2024/01/06") _ (firstn 4 ex118_rline) (skipn 5 ex118_rline)); [apply HO; lia|reflexivity|reflexivity|]. repeat (apply Forall_cons; [cbn; first [discriminate|tauto]|]); apply Forall_nil. }
    split. { apply (Hd (O 11%nat)); [apply HO; lia|cbn; tauto|reflexivity|]. apply Hk. cbn; tauto. }
    split. { apply (Hd (O 9%nat)); [apply HO; lia|cbn; tauto|reflexivity|]. apply Hk. cbn; tauto. }
    split. { apply (Hd (O 16%nat)); [apply HO; lia|cbn; tauto|reflexivity|]. apply Hk. cbn; tauto. }
    split. { apply (Hl (O 15%nat) (bs "true") _ (firstn 6 ex118_rline) []); [apply HO; lia|exact Hb|reflexivity|]. apply Forall_nil. }
    split. { apply (Hd (O 12%nat)); [apply HO; lia|cbn; tauto|reflexivity|]. apply Hk. cbn; tauto. }
    split. { apply (Hl (O 13%nat) (bs "true") _ (firstn 5 ex118_rline) (skipn 6 ex118_rline)); [apply HO; lia|exact Hb|reflexivity|]. repeat (apply Forall_cons; [cbn; first [discriminate|tauto]|]); apply Forall_nil. }
    exists (O 5%nat). split; [apply HO; lia|]. split; [reflexivity|]. apply (E_file _ _ (O 5%nat) ex118_rline ex118_rfile [] [bs "colour"] (VB false) (skipn 1 ex118_rfile)); [apply Hno; cbn; tauto|reflexivity|discriminate|reflexivity|].
    repeat (apply Forall_cons; [intros E; vm_compute in E; discriminate E|]); apply Forall_nil. }
  destruct C112_nonvacuous as (Ht & Hlit & B1 & B2 & Hre & _). split; [exact B1|]. split; [exact B2|]. split; [exact Hlit|]. split; [exact Hre|]. split; [exact Ht|]. vm_compute. reflexivity.
Qed.
