(** * CommandProps: C118, report and accts from the words of the command line, the configuration and the bytes of the ledger file to what is printed. *)
From Verif Require Import Base Utf8 Regex Dec DateModel DateSpec PriceModel BookModel BookSpec BookProofs BuilderProofs BookOpModel BookProps RegisterModel AccumModel AccumSpec AccumProps
  LoaderModel LoaderSpec GrammarSpec LoaderProps GrammarProps ExportModel PrintModel PrintSpec PrintProps ReportSpec ReportProps CmdModel CmdSpec BalanceSpec BalanceProps
  OptionsModel OptionsSpec OptionsProofs OptionsProps.

(** The value of the option n that is in effect. *)
Definition set_to (fold : str -> str -> bool) (parse_int : str -> option Z) (opts : list option_doc) (line : list item) (file : list (list str * value)) (n : str) (w : value) : Prop :=
  exists o, In o opts /\ o_name o = n /\ in_effect fold parse_int o line file w.
Lemma set_to_only fold parse_int opts line file v n w : values_of fold parse_int opts line file v -> set_to fold parse_int opts line file n w -> v n = w.
Proof. intros Hv (o & Ho & <- & Hw). unfold values_of in Hv. rewrite Forall_forall in Hv. exact (C116_one_value_partial _ _ _ _ _ _ _ (Hv o Ho) Hw). Qed.

Theorem C118_report_partial : forall fold parse_int lang line args first config c
    is_letter is_udigit to_upper ord fs resolve srt it micro compile parse_float today ploop fuel base divider is_print f64 colour width k f bytes es,
  written (is_switch (common lang ++ report_options)) (letter_of common_letters) line args -> decode_config first config (builtin lang) = Ok c ->
  Forall (usable fold parse_int (common lang ++ report_options)) line -> words line = [] ->
  let set_to := set_to fold parse_int (common lang ++ report_options) line config in
  set_to (bs "help") (VB false) -> set_to (bs "ledger") (VS f) -> set_to (bs "ccy") (VS base) -> set_to (bs "divider") (VS [divider]) -> set_to (bs "type") (VS (bs "Text")) ->
  set_to (bs "splitby") (VS (CmdSpec.by_name k)) -> set_to (bs "sum") (VB true) -> set_to (bs "convert") (VB false) -> set_to (bs "credit") (VS []) -> set_to (bs "hidden") (VS []) ->
  set_to (bs "colour") (VB colour) ->
  is_letter 0 = false /\ is_udigit 0 = false -> (forall m, NoDup (akeys m) -> Permutation (ord m) (akeys m)) -> sort_ok is_less srt -> any_order it -> valid_date today -> decode base <> [] ->
  fs f = Some bytes -> text_at is_letter is_udigit to_upper fs resolve f [] (decode bytes) es -> Forall (reportable divider) es -> opened_first es ->
  exists cs bound, means [] es cs /\ forall depth, (bound <= depth)%nat ->
    let printed :=
      do r <- report_main fold parse_int srt compile parse_float today ploop fuel it micro (fun f => load_book is_letter is_udigit to_upper ord fs resolve srt depth f) c args;
      match r with
      | None => Ok None
      | Some (l, x) => match lk_form l with
                       | FText => do s <- summary_text is_print f64 is_letter (bk_ccy (fst x)) (lk_colour l) width (snd x); Ok (Some s)
                       | _ => Ok None
                       end
      end in
    (~ all_balanced cs /\ (printed = Panic \/ printed = Error)) \/
    (all_balanced cs /\ (forall D a c, ~ moves_in today k cs D a c) /\ printed = Panic) \/
    (all_balanced cs /\ exists Ds ts bk table ws,
       build_calls srt cs = Ok bk /\ StronglySorted Z.lt Ds /\ (forall D, In D Ds <-> exists a c, moves_in today k cs D a c) /\
       Forall2 (period_column today k base divider cs) Ds ts /\ ts <> [] /\
       rows_of table = expected_table f64 is_letter (bk_ccy bk) colour ts /\ length ws = S (length ts) /\
       printed = Ok (Some (table_text (lines_of is_print ws table)))).
Proof.
  intros fold parse_int lang line args first config c is_letter is_udigit to_upper ord fs resolve srt it micro compile parse_float today ploop fuel base divider is_print f64 colour width k f bytes es
    Hw Hc Hu Hwords st Hhelp Hledger Hccy Hdiv Htype Hby Hsum Hconv Hcred Hhid Hcol Hn Hord Hs Hi Htoday Hbase Hf Ht Hrep Hopen.
  assert (G : forall load, exists lg, report_main fold parse_int srt compile parse_float today ploop fuel it micro load c args =
         do b <- load f;
         do x <- report_run srt compile parse_float today ploop (fun _ => None) fuel it micro base [divider] (mkRO (bs "Text") (CmdSpec.by_name k) false true [] []) [] b;
         Ok (Some (mkLook FText colour lg, x))).
  { intros load. destruct (C116_report_partial fold parse_int lang srt compile parse_float today ploop fuel it micro load line args first config c Hw Hc) as [_ H]. destruct (H Hu) as (v & macros & Hv & _ & _ & E). clear H.
    pose proof (fun n w => set_to_only fold parse_int _ line config v n w Hv) as Hset. fold st in Hset. rewrite (Hset _ _ Hhelp) in E. specialize (E eq_refl). rewrite E. clear E.
    rewrite (Hset _ _ Hledger), (Hset _ _ Hccy), (Hset _ _ Hdiv), (Hset _ _ Htype), (Hset _ _ Hby), (Hset _ _ Hsum), (Hset _ _ Hconv), (Hset _ _ Hcred), (Hset _ _ Hhid), (Hset _ _ Hcol), Hwords.
    exists (txt (v (bs "lang"))). reflexivity. }
  destruct (C110_period_report_partial is_letter is_udigit to_upper ord fs resolve srt it micro compile parse_float today ploop (fun _ => None) fuel base divider is_print f64 colour width k f bytes es
    Hn Hord Hs Hi Htoday Hbase Hf Ht Hrep Hopen) as (cs & bound & Hm & H). exists cs, bound. split; [exact Hm|]. intros depth Hd printed. specialize (H depth Hd). cbv zeta in H.
  set (load := fun f => load_book is_letter is_udigit to_upper ord fs resolve srt depth f) in printed. destruct (G load) as (lg & E). unfold printed. rewrite E. clear E G printed. unfold load. clear load.
  match type of H with context [?x = Panic] => assert (Ep : x = x) by reflexivity; set (p110 := x) in *; clear Ep end.
  match goal with |- context [?x = Panic] => assert (x = do s <- p110; Ok (Some s)) as ->; [unfold p110|] end.
  { destruct (load_book _ _ _ _ _ _ _ _ _) as [b| | |]; cbn [obind]; [|reflexivity..]. destruct (report_run _ _ _ _ _ _ _ _ _ _ _ _ _ _) as [x| | |]; cbn [obind]; [|reflexivity..]. reflexivity. }
  clearbody p110. destruct H as [[H1 [-> | ->]]|[(H1 & H2 & ->)|(H1 & Ds & ts & bk & table & ws & K1 & K2 & K3 & K4 & K5 & K6 & K7 & ->)]]; cbn [obind]; [left; auto..|right; left; auto|].
  right; right; split; [exact H1|]; exists Ds, ts, bk, table, ws; repeat (split; [assumption|]); reflexivity.
Qed.
Print Assumptions C118_report_partial.


(** report -lm --ccy=GBP --type=text --sum --splitby Today on the ledger of C110, with a configuration file that says otherwise about the currency and the form. *)
Definition ex118_file : list (list str * value) := [([bs "baseCCY"], VS (bs "EUR")); ([bs "REPORT"; bs "type"], VS (bs "Json")); ([bs "colour"], VB false)].
Definition ex118_line : list item := [Opt (bs "ledger") (bs "m"); Opt (bs "ccy") (bs "GBP"); Opt (bs "type") (bs "text"); Opt (bs "sum") (bs "true"); Opt (bs "splitby") (bs "Today")].
Definition ex118_args : list str := [bs "-lm"; bs "--ccy=GBP"; bs "--type=text"; bs "--sum"; bs "--splitby"; bs "Today"].
Example C118_nonvacuous :
  let os := common (bs "en") ++ report_options in let st := set_to equal_fold (fun _ => None) os ex118_line ex118_file in
  written (is_switch os) (letter_of common_letters) ex118_line ex118_args /\ Forall (usable equal_fold (fun _ => None) os) ex118_line /\ words ex118_line = [] /\
  (st (bs "help") (VB false) /\ st (bs "ledger") (VS (bs "m")) /\ st (bs "ccy") (VS (bs "GBP")) /\ st (bs "divider") (VS [58]) /\ st (bs "type") (VS (bs "Text")) /\
   st (bs "splitby") (VS (CmdSpec.by_name ByToday)) /\ st (bs "sum") (VB true) /\ st (bs "convert") (VB false) /\ st (bs "credit") (VS []) /\ st (bs "hidden") (VS []) /\ st (bs "colour") (VB false)) /\
  (exists es, text_at x_letter digit upc x_fs110 x_join (bs "m") [] (decode ex110) es /\ Forall (reportable 58) es /\ opened_first es) /\
  x_report false ex118_file ex118_args = Ok (Some (mkLook FText false (bs "en"), table_text [
    bs "Account 2024/03/01";
    bs "Exp     GBP   16.5";
    bs "  Food  GBP   10.5";
    bs "  Fun   GBP    6.0";
    bs "        USD      3";
    [];
    bs "Cash    GBP  -16.5";
    bs "        GBP  -10.5";
    bs "        USD     -3"])).
Proof.
  intros os st. split. { unfold ex118_line, ex118_args.
    refine (W_letter_at _ (letter_of common_letters) 108 (bs "m") _ _ _ _ _ _ _); [discriminate|reflexivity|discriminate|discriminate|]. apply (W_equals _ _ (bs "ccy") (bs "GBP")); [discriminate|cbn; intuition discriminate|discriminate|].
    apply (W_equals _ _ (bs "type") (bs "text")); [discriminate|cbn; intuition discriminate|discriminate|]. apply (W_switch _ _ (bs "sum")); [discriminate|cbn; intuition discriminate|discriminate|reflexivity|].
    apply (W_two _ _ (bs "splitby")); [discriminate|cbn; intuition discriminate|discriminate|reflexivity|]. apply W_end. }
  assert (Hby : stands_for equal_fold (fun _ => None) (o_sort (nth 0 report_options (mkOption [] AnyText [] VT))) (bs "Today") (VS (bs "today"))).
  { exists [bs "yearly"; bs "quarterly"; bs "monthly"], (bs "today"), [bs "none"; bs "skip"]. repeat split; repeat constructor. }
  assert (Hty : stands_for equal_fold (fun _ => None) (o_sort (nth 1 report_options (mkOption [] AnyText [] VT))) (bs "text") (VS (bs "Text"))).
  { exists [], (bs "Text"), [bs "Ledger"; bs "Json"; bs "HTML"; bs "Beancount"]. repeat split; repeat constructor. }
  split. { repeat constructor.
    - exists (nth 0 (common []) (mkOption [] AnyText [] VT)), (VS (bs "m")). split; [cbn; tauto|]. split; reflexivity.
    - exists (nth 1 (common []) (mkOption [] AnyText [] VT)), (VS (bs "GBP")). split; [cbn; tauto|]. split; reflexivity.
    - exists (nth 1 report_options (mkOption [] AnyText [] VT)), (VS (bs "Text")). split; [cbn; tauto|]. split; [reflexivity|exact Hty].
    - exists (nth 2 report_options (mkOption [] AnyText [] VT)), (VB true). split; [cbn; tauto|]. split; [reflexivity|]. left. cbn. tauto.
    - exists (nth 0 report_options (mkOption [] AnyText [] VT)), (VS (bs "today")). split; [cbn; tauto|]. split; [reflexivity|exact Hby]. }
  split; [reflexivity|]. split.
  { assert (Hno : forall n, In n [bs "help"; bs "divider"; bs "convert"; bs "credit"; bs "hidden"; bs "colour"] -> Forall (fun i => ~ is_opt n i) ex118_line).
    { intros n Hn. cbn [In] in Hn. unfold ex118_line. decompose [or] Hn; try contradiction; subst n; repeat constructor; cbn; discriminate. }
    assert (Hd : forall o v, In o os -> In (o_name o) [bs "help"; bs "divider"; bs "convert"; bs "credit"; bs "hidden"] -> o_default o = v -> Forall (fun e => o_key o = [] \/ ~ same_key (fst e) (o_key o)) ex118_file -> st (o_name o) v).
    { intros o v Ho Hn <- Hf. exists o. split; [exact Ho|]. split; [reflexivity|]. apply E_default; [apply Hno; cbn [In] in *; tauto|exact Hf]. }
    assert (Hl : forall o t v l1 l2, In o os -> stands_for equal_fold (fun _ => None) (o_sort o) t v -> ex118_line = l1 ++ Opt (o_name o) t :: l2 -> Forall (fun i => ~ is_opt (o_name o) i) l2 -> st (o_name o) v).
    { intros o t v l1 l2 Ho Hv E Hf. exists o. split; [exact Ho|]. split; [reflexivity|]. exact (E_line _ _ o ex118_line ex118_file l1 t l2 v E Hf Hv). }
    set (O := fun k => nth k os (mkOption [] AnyText [] VT)).
    assert (HO : forall k, (k < 16)%nat -> In (O k) os) by (intros k Hk; apply nth_In; exact Hk).
    assert (Hk : forall k, In k [2; 7; 11; 14; 15]%nat -> Forall (fun e => o_key (O k) = [] \/ ~ same_key (fst e) (o_key (O k))) ex118_file).
    { intros k Hk. cbn [In] in Hk. decompose [or] Hk; try contradiction; subst k; unfold ex118_file; repeat (apply Forall_cons; [first [left; reflexivity|right; intros E; vm_compute in E; discriminate E]|]); apply Forall_nil. }
    split. { apply (Hd (O 7%nat)); [apply HO; lia|cbn; tauto|reflexivity|]. apply Hk. cbn; tauto. }
    split. { apply (Hl (O 0%nat) (bs "m") _ []  (tl ex118_line)); [apply HO; lia|reflexivity|reflexivity|]. repeat constructor; cbn; discriminate. }
    split. { apply (Hl (O 1%nat) (bs "GBP") _ (firstn 1 ex118_line) (skipn 2 ex118_line)); [apply HO; lia|reflexivity|reflexivity|]. repeat constructor; cbn; discriminate. }
    split. { apply (Hd (O 2%nat)); [apply HO; lia|cbn; tauto|reflexivity|]. apply Hk. cbn; tauto. }
    split. { apply (Hl (O 9%nat) (bs "text") _ (firstn 2 ex118_line) (skipn 3 ex118_line)); [apply HO; lia|exact Hty|reflexivity|]. repeat constructor; cbn; discriminate. }
    split. { apply (Hl (O 8%nat) (bs "Today") _ (firstn 4 ex118_line) []); [apply HO; lia|exact Hby|reflexivity|]. constructor. }
    split. { apply (Hl (O 10%nat) (bs "true") _ (firstn 3 ex118_line) (skipn 4 ex118_line)); [apply HO; lia|left; cbn; tauto|reflexivity|]. repeat constructor; cbn; discriminate. }
    split. { apply (Hd (O 11%nat)); [apply HO; lia|cbn; tauto|reflexivity|]. apply Hk. cbn; tauto. }
    split. { apply (Hd (O 14%nat)); [apply HO; lia|cbn; tauto|reflexivity|]. apply Hk. cbn; tauto. }
    split. { apply (Hd (O 15%nat)); [apply HO; lia|cbn; tauto|reflexivity|]. apply Hk. cbn; tauto. }
    exists (O 5%nat). split; [apply HO; lia|]. split; [reflexivity|]. apply (E_file _ _ (O 5%nat) ex118_line ex118_file (firstn 2 ex118_file) [bs "colour"] (VB false) []); [apply Hno; cbn; tauto|reflexivity|discriminate|reflexivity|constructor]. }
  split; [exact ex110_text|]. vm_compute. reflexivity.
Qed.
