(** * OptionsProps: C116, the options of a command. *)
From Verif Require Import Base Regex Dec DateModel PriceModel BookModel BookOpModel RegisterModel AccumModel CfgModel CmdModel ConfigModel DataExportModel ExportModel DetModel
  Utf8 LoaderModel LoaderSpec BookProps AccumProps LoaderProps PrintModel PrintSpec PrintProps ReportProps BalanceSpec BalanceProps OptionsModel OptionsSpec OptionsProofs.

Lemma no_flag_field k n : field_path config_ty k <> Some [bs "flag"; n].
Proof.
  destruct config_ty as [| | | | | |fs] eqn:Ec; try discriminate Ec. assert (Hd : NoDup (folded fs)) by (apply nodupb_ok; injection Ec as <-; vm_compute; reflexivity).
  assert (Hn : ~ In (bs "flag") (map fst fs)). { injection Ec as <-. cbn [map fst]. intros H. repeat (destruct H as [H|H]; [discriminate H|]). contradiction. }
  destruct k as [|k1 ks]; [discriminate|]. cbn [field_path]. destruct (lookup_name k1 fs) as [[m t]|] eqn:El; [|discriminate]. apply (lookup_name_ok fs k1 m t Hd) in El as [H1 _]. destruct (field_path t ks); [|discriminate].
  cbn [option_map]. intros H. injection H as -> _. apply Hn. apply (in_map fst) in H1. exact H1.
Qed.
Ltac one_link := split; [reflexivity|]; split; [first [exact I|reflexivity]|]; split; [first [left; split; [reflexivity|intros k; apply no_flag_field]|right; split; [discriminate|]; split; [vm_compute; reflexivity|reflexivity]]|reflexivity].
Ltac link := repeat (constructor; [one_link|]); constructor.
Lemma link_common lang : Forall2 (linked (builtin lang)) app_flags (common lang). Proof. link. Qed.
Lemma link_report lang : Forall2 (linked (builtin lang)) report_flags report_options. Proof. link. Qed.
Lemma link_register lang : Forall2 (linked (builtin lang)) register_flags register_options. Proof. link. Qed.
Lemma link_export lang : Forall2 (linked (builtin lang)) export_flags export_options. Proof. link. Qed.
Lemma link_accts lang : Forall2 (linked (builtin lang)) accts_flags accts_options. Proof. link. Qed.

Ltac distinct := repeat (constructor; [let H := fresh in cbn; intros H; repeat (destruct H as [H|H]; [discriminate H|]); contradiction|]); constructor.
Section Options.
  Variable fold : str -> str -> bool.
  Variable parse_int : str -> option Z.
  Variable lang : str.
  (** The values of all options of a command at once. *)
  Definition values_of (os : list option_doc) (line : list item) (file : list (list str * value)) (v : str -> value) : Prop :=
    Forall (fun o => in_effect fold parse_int o line file (v (o_name o))) os.
  Definition val_in (table : list flag) (c : conf) (n : str) : value := match by_name table n with Some f => c (f_field f) | None => VT end.
  Lemma run_table tab opts letters : Forall2 (linked (builtin lang)) tab opts -> NoDup (map f_name (app_flags ++ tab)) -> NoDup (map f_field (app_flags ++ tab)) ->
    (forall f, In f (app_flags ++ tab) -> hd [] (f_field f) <> bs "Macros") -> (forall x, by_letter (app_flags ++ tab) x = by_name (app_flags ++ tab) (letter_of letters x)) ->
    forall line args first file c, written (is_switch (common lang ++ opts)) (letter_of letters) line args -> decode_config first file (builtin lang) = Ok c ->
    (Forall (usable fold parse_int (common lang ++ opts)) line -> exists c', parse_args fold parse_int (app_flags ++ tab) args c = Ok (c', words line) /\
       values_of (common lang ++ opts) line file (val_in (app_flags ++ tab) c') /\ macros_in file (macros_of c')) /\
    (~ Forall (usable fold parse_int (common lang ++ opts)) line -> parse_args fold parse_int (app_flags ++ tab) args c = Error).
  Proof.
    intros Hl Hn Hf Hm Hlet line args first file c Hw Hc. pose proof (Forall2_app (link_common lang) Hl) as Hlink.
    assert (Hp : parse_args fold parse_int (app_flags ++ tab) args c = do c' <- apply_all fold parse_int (app_flags ++ tab) line c; Ok (c', words line)).
    { eapply parse_written; [|exact Hlet|exact Hw]. intros n f H. exact (linked_switch (builtin lang) _ _ Hn Hlink n f H). }
    rewrite Hp. split.
    - intros Hu. destruct (apply_usable fold parse_int (builtin lang) _ _ line Hn Hlink Hu c) as (c' & Ha). exists c'. rewrite Ha. split; [reflexivity|]. split; [|exact (effect_macros fold parse_int lang _ line file first c c' Hm Hc Ha)].
      apply Forall_forall. intros o Ho.
      assert (exists f, In f (app_flags ++ tab) /\ linked (builtin lang) f o) as (f & Hfin & Hlo). { clear - Hlink Ho. induction Hlink as [|f o' fs os' H _ IH]; [destruct Ho|]. destruct Ho as [->|Ho]; [exists f; split; [left; reflexivity|exact H]|]. destruct (IH Ho) as (g & Hg & Hlg). exists g. split; [right; exact Hg|exact Hlg]. }
      unfold val_in. assert (by_name (app_flags ++ tab) (o_name o) = Some f) as -> by (apply by_name_ok; [exact Hn|]; split; [exact Hfin|exact (proj1 Hlo)]).
      exact (effect fold parse_int (builtin lang) _ f o line file first c c c' Hn Hf Hfin Hlo Hc eq_refl Ha).
    - intros Hu. rewrite (apply_unusable fold parse_int (builtin lang) _ _ line Hn Hlink Hu c). reflexivity.
  Qed.

  Variable srt : list posting -> list posting.
  Variable compile : str -> option regexp.
  Variable parse_float : str -> option Qc.
  Variable today : Z.
  Variable ploop : (pair -> pair) -> pbook -> pbook.
  Variable fuel : nat.
  Variable it : list posting -> list str -> list str.
  Variable micro : Qc -> Z.
  Variable load : str -> outcome book.
  Variable f64 : Qc -> Qc.
  Variable is_letter : Z -> bool.
  Variables title upper : str -> str.
  Variable order_accts : list (str * acct_info) -> list (str * acct_info).
  Variable order_pairs : pbook -> list (str * str).

  Ltac letters_ok := let x := fresh in intros x; unfold letter_of, by_letter, common_letters; cbn [app app_flags report_flags register_flags export_flags accts_flags find f_short fst snd];
    destruct (108 =? x); [reflexivity|]; destruct (104 =? x); reflexivity.
  Ltac paths := let H := fresh in cbn; intros ? H; repeat (destruct H as [<-|H]; [intros X; discriminate X|]); contradiction.

  (** ** C116. goledger report: the ledger that is read, the operations, all options of the report and of the printing. *)
  Theorem C116_report_partial line args first file c : written (is_switch (common lang ++ report_options)) (letter_of common_letters) line args -> decode_config first file (builtin lang) = Ok c ->
    let run := report_main fold parse_int srt compile parse_float today ploop fuel it micro load c args in
    (~ Forall (usable fold parse_int (common lang ++ report_options)) line -> run = Error) /\
    (Forall (usable fold parse_int (common lang ++ report_options)) line -> exists v macros, values_of (common lang ++ report_options) line file v /\ macros_in file macros /\
       (on (v (bs "help")) = true -> run = Ok None) /\
       (on (v (bs "help")) = false -> run =
          do b <- load (txt (v (bs "ledger")));
          do x <- report_run srt compile parse_float today ploop macros fuel it micro (txt (v (bs "ccy"))) (txt (v (bs "divider")))
            {| ro_type := txt (v (bs "type")); ro_by := txt (v (bs "splitby")); ro_convert := on (v (bs "convert")); ro_sum := on (v (bs "sum"));
               ro_credit := txt (v (bs "credit")); ro_hidden := txt (v (bs "hidden")) |} (words line) b;
          Ok (Some ({| lk_form := if str_eqb (txt (v (bs "type"))) (bs "Text") then FText else if str_eqb (txt (v (bs "type"))) (bs "Json") then FJson (on (v (bs "jsonpretty")))
                                  else if str_eqb (txt (v (bs "type"))) (bs "HTML") then FHtml (txt (v (bs "htmlcss"))) else if str_eqb (txt (v (bs "type"))) (bs "Beancount") then FBeancount else FLedger;
                       lk_colour := on (v (bs "colour")); lk_lang := txt (v (bs "lang")) |}, x)))).
  Proof.
    intros Hw Hc run. destruct (run_table report_flags report_options common_letters (link_report lang) ltac:(distinct) ltac:(distinct) ltac:(paths) ltac:(letters_ok) line args first file c Hw Hc) as [H1 H2]. split.
    - intros Hu. unfold run, report_main, execute. rewrite (H2 Hu). reflexivity.
    - intros Hu. destruct (H1 Hu) as (c' & Ep & Hv & Hmac). exists (val_in (app_flags ++ report_flags) c'), (macros_of c'). split; [exact Hv|]. split; [exact Hmac|].
      assert (Erun : run = if get_flag c' [bs "flag"; bs "help"] then Ok None else do x <- (do b <- load (get_str c' [bs "Ledger"]);
        do x <- report_run srt compile parse_float today ploop (macros_of c') fuel it micro (get_str c' [bs "BaseCCY"]) (get_str c' [bs "Divider"])
          (mkRO (get_str c' [bs "Report"; bs "Type"]) (get_str c' [bs "Report"; bs "Combineby"]) (get_flag c' [bs "Report"; bs "Convert"])
             (get_flag c' [bs "Report"; bs "Sum"]) (get_str c' [bs "Report"; bs "Credit"]) (get_str c' [bs "Report"; bs "Hidden"])) (words line) b;
        Ok (look_of c' (report_form c'), x)); Ok (Some x)) by (unfold run, report_main, execute; rewrite Ep; reflexivity).
      clearbody run. subst run. clear. split; intros Hh; change (on (val_in (app_flags ++ report_flags) c' (bs "help"))) with (get_flag c' [bs "flag"; bs "help"]) in Hh; rewrite Hh; [reflexivity|].
      change (txt (val_in (app_flags ++ report_flags) c' (bs "ledger"))) with (get_str c' [bs "Ledger"]). destruct (load (get_str c' [bs "Ledger"])) as [b| | |]; cbn [obind]; [|reflexivity..].
      change (txt (val_in (app_flags ++ report_flags) c' (bs "ccy"))) with (get_str c' [bs "BaseCCY"]). change (txt (val_in (app_flags ++ report_flags) c' (bs "divider"))) with (get_str c' [bs "Divider"]).
      change (txt (val_in (app_flags ++ report_flags) c' (bs "type"))) with (get_str c' [bs "Report"; bs "Type"]). change (txt (val_in (app_flags ++ report_flags) c' (bs "splitby"))) with (get_str c' [bs "Report"; bs "Combineby"]).
      change (on (val_in (app_flags ++ report_flags) c' (bs "convert"))) with (get_flag c' [bs "Report"; bs "Convert"]). change (on (val_in (app_flags ++ report_flags) c' (bs "sum"))) with (get_flag c' [bs "Report"; bs "Sum"]).
      change (txt (val_in (app_flags ++ report_flags) c' (bs "credit"))) with (get_str c' [bs "Report"; bs "Credit"]). change (txt (val_in (app_flags ++ report_flags) c' (bs "hidden"))) with (get_str c' [bs "Report"; bs "Hidden"]).
      change (on (val_in (app_flags ++ report_flags) c' (bs "jsonpretty"))) with (get_flag c' [bs "Report"; bs "JsonPretty"]). change (txt (val_in (app_flags ++ report_flags) c' (bs "htmlcss"))) with (get_str c' [bs "Report"; bs "HTMLCSS"]).
      change (on (val_in (app_flags ++ report_flags) c' (bs "colour"))) with (get_flag c' [bs "Colour"]). change (txt (val_in (app_flags ++ report_flags) c' (bs "lang"))) with (get_str c' [bs "Lang"]).
      destruct (report_run _ _ _ _ _ _ _ _ _ _ _ _ _ _) as [x| | |]; reflexivity.
  Qed.

  (** goledger register: the last word is the account, the words before it are operations; without a word the command is refused. *)
  Theorem C116_register_partial line args first file c : written (is_switch (common lang ++ register_options)) (letter_of common_letters) line args -> decode_config first file (builtin lang) = Ok c ->
    let run := register_main fold parse_int srt compile parse_float today ploop fuel load c args in
    (~ Forall (usable fold parse_int (common lang ++ register_options)) line -> run = Error) /\
    (Forall (usable fold parse_int (common lang ++ register_options)) line -> exists v macros, values_of (common lang ++ register_options) line file v /\ macros_in file macros /\
       (on (v (bs "help")) = true -> run = Ok None) /\
       (on (v (bs "help")) = false -> words line = [] -> run = Error) /\
       (on (v (bs "help")) = false -> forall ops acct, words line = ops ++ [acct] -> run =
          do b <- load (txt (v (bs "ledger")));
          do l <- register_run srt compile parse_float today ploop macros fuel (txt (v (bs "ccy"))) (on (v (bs "all")))
            {| go_begin := txt (v (bs "begin")); go_end := txt (v (bs "asof")); go_combined := on (v (bs "combined")); go_convert := on (v (bs "convert")); go_split := on (v (bs "split")) |} ops acct b;
          let lk f := {| lk_form := f; lk_colour := on (v (bs "colour")); lk_lang := txt (v (bs "lang")) |} in
          let rows := map (fun r => (fst r, show_rows (num (v (bs "count"))) (on (v (bs "asc"))) (snd r))) l in
          if (length l =? 0)%nat then Ok (Some (lk FText, []))
          else if str_eqb (txt (v (bs "type"))) (bs "Text") then Ok (Some (lk FText, rows)) else if str_eqb (txt (v (bs "type"))) (bs "JSON") then Ok (Some (lk (FJson true), rows))
          else if str_eqb (txt (v (bs "type"))) (bs "CSV") then Ok (Some (lk FCsv, rows)) else Error)).
  Proof.
    intros Hw Hc run. destruct (run_table register_flags register_options common_letters (link_register lang) ltac:(distinct) ltac:(distinct) ltac:(paths) ltac:(letters_ok) line args first file c Hw Hc) as [H1 H2]. split.
    - intros Hu. unfold run, register_main, execute. rewrite (H2 Hu). reflexivity.
    - intros Hu. destruct (H1 Hu) as (c' & Ep & Hv & Hmac). exists (val_in (app_flags ++ register_flags) c'), (macros_of c'). split; [exact Hv|]. split; [exact Hmac|].
      unfold run, register_main, execute. rewrite Ep. cbn [obind]. clear run Ep Hv Hmac H1 H2 Hu Hw Hc.
      change (on (val_in (app_flags ++ register_flags) c' (bs "help"))) with (get_flag c' [bs "flag"; bs "help"]).
      change (txt (val_in (app_flags ++ register_flags) c' (bs "ledger"))) with (get_str c' [bs "Ledger"]). change (txt (val_in (app_flags ++ register_flags) c' (bs "ccy"))) with (get_str c' [bs "BaseCCY"]).
      change (on (val_in (app_flags ++ register_flags) c' (bs "all"))) with (get_flag c' [bs "All"]). change (txt (val_in (app_flags ++ register_flags) c' (bs "type"))) with (get_str c' [bs "Register"; bs "Type"]).
      change (txt (val_in (app_flags ++ register_flags) c' (bs "begin"))) with (get_str c' [bs "Register"; bs "BeginDate"]). change (txt (val_in (app_flags ++ register_flags) c' (bs "asof"))) with (get_str c' [bs "Register"; bs "EndDate"]).
      change (on (val_in (app_flags ++ register_flags) c' (bs "combined"))) with (get_flag c' [bs "Register"; bs "Combined"]). change (on (val_in (app_flags ++ register_flags) c' (bs "convert"))) with (get_flag c' [bs "Register"; bs "Convert"]).
      change (on (val_in (app_flags ++ register_flags) c' (bs "split"))) with (get_flag c' [bs "Register"; bs "Split"]). change (num (val_in (app_flags ++ register_flags) c' (bs "count"))) with (get_num c' [bs "Register"; bs "Count"]).
      change (on (val_in (app_flags ++ register_flags) c' (bs "asc"))) with (get_flag c' [bs "Register"; bs "Asc"]). change (on (val_in (app_flags ++ register_flags) c' (bs "colour"))) with (get_flag c' [bs "Colour"]).
      change (txt (val_in (app_flags ++ register_flags) c' (bs "lang"))) with (get_str c' [bs "Lang"]). split; [intros ->; reflexivity|]. split; [intros -> ->; reflexivity|]. intros -> ops acct ->.
      destruct (ops ++ [acct]) as [|w ws] eqn:E; [destruct ops; discriminate|]. rewrite <- E, removelast_last, last_last. destruct (load _) as [b| | |]; cbn [obind]; [|reflexivity..].
      destruct (register_run _ _ _ _ _ _ _ _ _ _ _ _ _) as [l| | |]; cbn [obind]; [|reflexivity..]. destruct l as [|r l]; [reflexivity|]. unfold register_form. cbv zeta. cbn [length Nat.eqb].
      destruct (str_eqb (get_str c' [bs "Register"; bs "Type"]) (bs "Text")); [reflexivity|]. destruct (str_eqb (get_str c' [bs "Register"; bs "Type"]) (bs "JSON")); [reflexivity|].
      destruct (str_eqb (get_str c' [bs "Register"; bs "Type"]) (bs "CSV")); reflexivity.
  Qed.

  (** goledger export *)
  Theorem C116_export_partial line args first file c : written (is_switch (common lang ++ export_options)) (letter_of common_letters) line args -> decode_config first file (builtin lang) = Ok c ->
    let run := export_main fold parse_int srt compile parse_float today ploop fuel load f64 is_letter title upper order_accts order_pairs c args in
    (~ Forall (usable fold parse_int (common lang ++ export_options)) line -> run = Error) /\
    (Forall (usable fold parse_int (common lang ++ export_options)) line -> exists v macros, values_of (common lang ++ export_options) line file v /\ macros_in file macros /\
       (on (v (bs "help")) = true -> run = Ok None) /\
       (on (v (bs "help")) = false -> run =
          do b <- load (txt (v (bs "ledger")));
          do x <- export_run srt compile parse_float today ploop macros fuel (txt (v (bs "ccy"))) f64 is_letter title upper order_accts order_pairs (txt (v (bs "type"))) (words line) b;
          Ok (Some ({| lk_form := match x with XJson _ => FJson (on (v (bs "jsonpretty"))) | XBean _ => FBeancount | XCsv _ => FCsv | XLedger _ => FLedger end;
                       lk_colour := on (v (bs "colour")); lk_lang := txt (v (bs "lang")) |}, x)))).
  Proof.
    intros Hw Hc run. destruct (run_table export_flags export_options common_letters (link_export lang) ltac:(distinct) ltac:(distinct) ltac:(paths) ltac:(letters_ok) line args first file c Hw Hc) as [H1 H2]. split.
    - intros Hu. unfold run, export_main, execute. rewrite (H2 Hu). reflexivity.
    - intros Hu. destruct (H1 Hu) as (c' & Ep & Hv & Hmac). exists (val_in (app_flags ++ export_flags) c'), (macros_of c'). split; [exact Hv|]. split; [exact Hmac|].
      unfold run, export_main, execute. rewrite Ep. cbn [obind]. clear run Ep Hv Hmac H1 H2 Hu Hw Hc.
      change (on (val_in (app_flags ++ export_flags) c' (bs "help"))) with (get_flag c' [bs "flag"; bs "help"]). split; intros ->; [reflexivity|].
      change (txt (val_in (app_flags ++ export_flags) c' (bs "ledger"))) with (get_str c' [bs "Ledger"]). change (txt (val_in (app_flags ++ export_flags) c' (bs "ccy"))) with (get_str c' [bs "BaseCCY"]).
      change (txt (val_in (app_flags ++ export_flags) c' (bs "type"))) with (get_str c' [bs "Export"; bs "Type"]). change (on (val_in (app_flags ++ export_flags) c' (bs "jsonpretty"))) with (get_flag c' [bs "Export"; bs "JsonPretty"]).
      change (on (val_in (app_flags ++ export_flags) c' (bs "colour"))) with (get_flag c' [bs "Colour"]). change (txt (val_in (app_flags ++ export_flags) c' (bs "lang"))) with (get_str c' [bs "Lang"]).
      destruct (load _) as [b| | |]; cbn [obind]; [|reflexivity..]. destruct (export_run _ _ _ _ _ _ _ _ _ _ _ _ _ _ _ _ _) as [x| | |]; reflexivity.
  Qed.

  (** goledger accts: at most one word *)
  Theorem C116_accts_partial line args first file c : written (is_switch (common lang ++ accts_options)) (letter_of common_letters) line args -> decode_config first file (builtin lang) = Ok c ->
    let run := accts_main fold parse_int compile load c args in
    (~ Forall (usable fold parse_int (common lang ++ accts_options)) line -> run = Error) /\
    (Forall (usable fold parse_int (common lang ++ accts_options)) line -> exists v, values_of (common lang ++ accts_options) line file v /\
       (on (v (bs "help")) = true -> run = Ok None) /\
       (on (v (bs "help")) = false -> (2 <= length (words line))%nat -> run = Error) /\
       (on (v (bs "help")) = false -> (length (words line) <= 1)%nat -> run =
          do b <- load (txt (v (bs "ledger")));
          do l <- accts_run compile (on (v (bs "all"))) (words line) b;
          Ok (Some ({| lk_form := if on (v (bs "json")) then FJson true else FText; lk_colour := on (v (bs "colour")); lk_lang := txt (v (bs "lang")) |}, l)))).
  Proof.
    intros Hw Hc run. destruct (run_table accts_flags accts_options common_letters (link_accts lang) ltac:(distinct) ltac:(distinct) ltac:(paths) ltac:(letters_ok) line args first file c Hw Hc) as [H1 H2]. split.
    - intros Hu. unfold run, accts_main, execute. rewrite (H2 Hu). reflexivity.
    - intros Hu. destruct (H1 Hu) as (c' & Ep & Hv & _). exists (val_in (app_flags ++ accts_flags) c'). split; [exact Hv|].
      unfold run, accts_main, execute. rewrite Ep. cbn [obind]. clear run Ep Hv H1 H2 Hu Hw Hc.
      change (on (val_in (app_flags ++ accts_flags) c' (bs "help"))) with (get_flag c' [bs "flag"; bs "help"]). split; [intros ->; reflexivity|].
      change (txt (val_in (app_flags ++ accts_flags) c' (bs "ledger"))) with (get_str c' [bs "Ledger"]). change (on (val_in (app_flags ++ accts_flags) c' (bs "all"))) with (get_flag c' [bs "All"]).
      change (on (val_in (app_flags ++ accts_flags) c' (bs "json"))) with (get_flag c' [bs "flag"; bs "json"]).
      change (on (val_in (app_flags ++ accts_flags) c' (bs "colour"))) with (get_flag c' [bs "Colour"]). change (txt (val_in (app_flags ++ accts_flags) c' (bs "lang"))) with (get_str c' [bs "Lang"]).
      split; intros -> Hlen; [destruct (Nat.ltb_spec 1 (length (words line))); [reflexivity|lia]|]. destruct (Nat.ltb_spec 1 (length (words line))); [lia|].
      destruct (load _) as [b| | |]; cbn [obind]; [|reflexivity..]. destruct (accts_run _ _ _ _) as [x| | |]; reflexivity.
  Qed.

  (** goledger ccy: the currencies of the ledger with their decimals; a word is refused. *)
  Theorem C116_ccy_partial walk line args first file c : written (is_switch (common lang)) (letter_of common_letters) line args -> decode_config first file (builtin lang) = Ok c ->
    let run := ccy_main fold parse_int load walk c args in
    (~ Forall (usable fold parse_int (common lang)) line -> run = Error) /\
    (Forall (usable fold parse_int (common lang)) line -> exists v, values_of (common lang) line file v /\
       (on (v (bs "help")) = true -> run = Ok None) /\
       (on (v (bs "help")) = false -> words line <> [] -> run = Error) /\
       (on (v (bs "help")) = false -> words line = [] -> run =
          do b <- load (txt (v (bs "ledger"))); Ok (Some (concat (map (fun x => fst x ++ bs " => " ++ fmt_d (snd x) ++ bs " decimals" ++ [10]) (walk (bk_ccy b))))))).
  Proof.
    intros Hw Hc run. destruct (run_table [] [] common_letters ltac:(constructor) ltac:(distinct) ltac:(distinct) ltac:(paths) ltac:(letters_ok) line args first file c) as [H1 H2]; [rewrite app_nil_r; exact Hw|exact Hc|]. rewrite app_nil_r in H1, H2. split.
    - intros Hu. unfold run, ccy_main, execute. rewrite (H2 Hu). reflexivity.
    - intros Hu. destruct (H1 Hu) as (c' & Ep & Hv & _). exists (val_in (app_flags ++ []) c'). split; [exact Hv|].
      unfold run, ccy_main, execute. rewrite Ep. cbn [obind]. clear run Ep Hv H1 H2 Hu Hw Hc.
      change (on (val_in (app_flags ++ []) c' (bs "help"))) with (get_flag c' [bs "flag"; bs "help"]). change (txt (val_in (app_flags ++ []) c' (bs "ledger"))) with (get_str c' [bs "Ledger"]).
      split; [intros ->; reflexivity|]. split; [intros -> H; destruct (words line); [contradiction|reflexivity]|]. intros -> ->. destruct (load _) as [b| | |]; reflexivity.
  Qed.
End Options.
Print Assumptions C116_ccy_partial.
Print Assumptions C116_report_partial.
Print Assumptions C116_register_partial.
Print Assumptions C116_export_partial.
Print Assumptions C116_accts_partial.

(** ** One value: an option has exactly one value in effect. *)
Lemma last_unique {A} (P : A -> Prop) l1 x l2 l1' x' l2' : l1 ++ x :: l2 = l1' ++ x' :: l2' -> P x -> P x' -> Forall (fun y => ~ P y) l2 -> Forall (fun y => ~ P y) l2' -> x = x'.
Proof.
  intros E Hx Hx' H H'. revert l1' E. induction l1 as [|y l1 IH]; intros [|y' l1'] E; cbn [app] in E; injection E as -> E.
  - reflexivity.
  - exfalso. subst l2. rewrite Forall_app in H. destruct H as [_ H]. inversion H; contradiction.
  - exfalso. subst l2'. rewrite Forall_app in H'. destruct H' as [_ H']. inversion H'; contradiction.
  - exact (IH l1' E).
Qed.
Theorem C116_one_value_partial fold parse_int o line file v v' : in_effect fold parse_int o line file v -> in_effect fold parse_int o line file v' -> v = v'.
Proof.
  assert (Hs : forall s t a b, stands_for fold parse_int s t a -> stands_for fold parse_int s t b -> a = b).
  { intros s t a b Ha Hb. assert (exists k, kind_sort k s) as (k & Hk). { destruct s as [| | |vs|]; [exists FStr|exists FBool|exists FInt|exists (FEnum vs)|exists FFormat]; cbn; auto. }
    apply (parse_value_ok fold parse_int k s t a Hk) in Ha. apply (parse_value_ok fold parse_int k s t b Hk) in Hb. congruence. }
  assert (Hno : forall l1 t l2, Forall (fun i => ~ is_opt (o_name o) i) (l1 ++ Opt (o_name o) t :: l2) -> False).
  { intros l1 t l2 H. rewrite Forall_app in H. destruct H as [_ H]. inversion H as [|? ? Hn _]. apply Hn. reflexivity. }
  assert (Hnf : forall (e1 : list (list str * value)) k w e2, o_key o <> [] -> same_key k (o_key o) -> Forall (fun e => o_key o = [] \/ ~ same_key (fst e) (o_key o)) (e1 ++ (k, w) :: e2) -> False).
  { intros e1 k w e2 Hne Hk H. rewrite Forall_app in H. destruct H as [_ H]. inversion H as [|? ? [Hn|Hn] _]; contradiction. }
  intros [l1 t l2 a E1 F1 S1|e1 k a e2 L1 E1 N1 K1 F1|L1 F1] [l1' t' l2' b E2 F2 S2|e1' k' b e2' L2 E2 N2 K2 F2|L2 F2]; subst; try (exfalso; eapply Hno; eassumption); try (exfalso; eapply Hnf; eassumption); try reflexivity.
  - assert (Opt (o_name o) t = Opt (o_name o) t') as E by (eapply (last_unique (is_opt (o_name o))); [exact E2|reflexivity|reflexivity|exact F1|exact F2]). injection E as <-. exact (Hs _ _ _ _ S1 S2).
  - assert ((k, a) = (k', b)) as E by (eapply (last_unique (fun e => same_key (fst e) (o_key o))); [exact E2|exact K1|exact K2|exact F1|exact F2]). injection E as _ <-. reflexivity.
Qed.
Print Assumptions C116_one_value_partial.

(** ** A command line with every way of writing options, and a configuration file, on the ledger of C110. *)
Definition ex116_file : list (list str * value) :=
  [([bs "baseCCY"], VS (bs "EUR")); ([bs "REPORT"], VT); ([bs "REPORT"; bs "Sum"], VB true); ([bs "REPORT"; bs "combineby"], VS (bs "yearly")); ([bs "REPORT"; bs "type"], VS (bs "Json"));
   ([bs "macros"; bs "m"], VL [])].
Definition ex116_line : list item :=
  [Opt (bs "ccy") (bs "USD"); Opt (bs "splitby") (bs "Today"); Word (bs "m"); Opt (bs "ledger") (bs "m"); Opt (bs "type") (bs "text"); Opt (bs "colour") (bs "F"); Opt (bs "ccy") (bs "GBP"); Opt (bs "all") (bs "true"); Word (bs "m")].
Definition ex116_args : list str := [bs "--ccy=USD"; bs "--splitby"; bs "Today"; bs "m"; bs "-lm"; bs "--type=text"; bs "--colour=F"; bs "--ccy"; bs "GBP"; bs "--all"; bs "m"].
Definition x_report (first : bool) (file : list (list str * value)) (args : list str) : outcome (option (look * str)) :=
  do c <- decode_config first file (builtin (bs "en"));
  do r <- report_main equal_fold (fun _ => None) xsort (fun _ => None) (fun _ => None) 20240301 (fun _ pb => pb) 5 x_it x_micro (fun f => load_book x_letter digit upc x_order x_fs110 x_join xsort 1 f) c args;
  match r with None => Ok None | Some (l, x) => do s <- summary_text x_print x_plain_f64 x_ascii_letter (bk_ccy (fst x)) (lk_colour l) 80 (snd x); Ok (Some (l, s)) end.
Example C116_nonvacuous :
  written (is_switch (common (bs "en") ++ report_options)) (letter_of common_letters) ex116_line ex116_args /\ Forall (usable equal_fold (fun _ => None) (common (bs "en") ++ report_options)) ex116_line /\
  x_report false ex116_file ex116_args = Ok (Some (mkLook FText false (bs "en"), table_text [
    bs "Account 2024/03/01";
    bs "Exp     GBP   16.5";
    bs "  Food  GBP   10.5";
    bs "  Fun   GBP    6.0";
    bs "        USD      3";
    [];
    bs "Cash    GBP  -16.5";
    bs "        GBP  -10.5";
    bs "        USD     -3"])) /\
  x_report false ex116_file [bs "-l"; bs "m"; bs "--help"] = Ok None /\
  x_report false ex116_file [bs "-l"; bs "m"; bs "--type=Texts"] = Error /\ x_report false ex116_file [bs "-l"; bs "m"; bs "--sums"] = Error /\
  x_report false [([bs "reports"; bs "sum"], VB true)] [bs "-l"; bs "m"; bs "--ccy=GBP"] = Error /\ x_report false [([bs "report"; bs "sum"], VI 1)] [bs "-l"; bs "m"; bs "--ccy=GBP"] = Error.
Proof.
  split. { unfold ex116_line, ex116_args.
    apply (W_equals _ _ (bs "ccy") (bs "USD")); [discriminate|cbn; intuition discriminate|discriminate|]. apply (W_two _ _ (bs "splitby")); [discriminate|cbn; intuition discriminate|discriminate|reflexivity|].
    apply W_word; [discriminate|]. refine (W_letter_at _ (letter_of common_letters) 108 (bs "m") _ _ _ _ _ _ _); [discriminate|reflexivity|discriminate|discriminate|]. apply (W_equals _ _ (bs "type") (bs "text")); [discriminate|cbn; intuition discriminate|discriminate|].
    apply (W_equals _ _ (bs "colour") (bs "F")); [discriminate|cbn; intuition discriminate|discriminate|]. apply (W_two _ _ (bs "ccy")); [discriminate|cbn; intuition discriminate|discriminate|reflexivity|].
    apply (W_switch _ _ (bs "all")); [discriminate|cbn; intuition discriminate|discriminate|reflexivity|]. apply W_word; [discriminate|]. apply W_end. }
  split. { repeat constructor.
    - exists (nth 1 (common []) (mkOption [] AnyText [] VT)), (VS (bs "USD")). split; [cbn; tauto|]. split; reflexivity.
    - exists (nth 0 report_options (mkOption [] AnyText [] VT)), (VS (bs "today")). split; [cbn; tauto|]. split; [reflexivity|]. exists [bs "yearly"; bs "quarterly"; bs "monthly"], (bs "today"), [bs "none"; bs "skip"]. repeat split; repeat constructor.
    - exists (nth 0 (common []) (mkOption [] AnyText [] VT)), (VS (bs "m")). split; [cbn; tauto|]. split; reflexivity.
    - exists (nth 1 report_options (mkOption [] AnyText [] VT)), (VS (bs "Text")). split; [cbn; tauto|]. split; [reflexivity|]. exists [], (bs "Text"), [bs "Ledger"; bs "Json"; bs "HTML"; bs "Beancount"]. repeat split; repeat constructor.
    - exists (nth 5 (common []) (mkOption [] AnyText [] VT)), (VB false). split; [cbn; tauto|]. split; [reflexivity|]. right. cbn. tauto.
    - exists (nth 1 (common []) (mkOption [] AnyText [] VT)), (VS (bs "GBP")). split; [cbn; tauto|]. split; reflexivity.
    - exists (nth 6 (common []) (mkOption [] AnyText [] VT)), (VB true). split; [cbn; tauto|]. split; [reflexivity|]. left. cbn. tauto. }
  split; [vm_compute; reflexivity|]. repeat split; vm_compute; reflexivity.
Qed.

Lemma parse_only_words fold parse_int table ws : Forall (fun w => hd 0 w <> 45) ws -> forall c, parse_args fold parse_int table ws c = Ok (c, ws).
Proof.
  induction 1 as [|w ws Hw _ IH]; intros c; [reflexivity|]. cbn [parse_args]. assert (arg_of w = AWord) as ->. { destruct w as [|a [|b w]]; [reflexivity..|]. cbn [hd] in Hw. cbn [arg_of]. destruct (Z.eqb_spec a 45); [contradiction|reflexivity]. }
  rewrite IH. reflexivity.
Qed.
(** What a report that was printed tells about the options. *)
Lemma report_printed fold parse_int srt compile parse_float today ploop fuel it micro load c args l x :
  report_main fold parse_int srt compile parse_float today ploop fuel it micro load c args = Ok (Some (l, x)) -> exists c' ws, parse_args fold parse_int (app_flags ++ report_flags) args c = Ok (c', ws) /\ lk_form l = report_form c'.
Proof.
  unfold report_main, execute. destruct (parse_args fold parse_int (app_flags ++ report_flags) args c) as [[c' ws]| | |]; cbn [obind]; try discriminate.
  destruct (get_flag c' [bs "flag"; bs "help"]); [discriminate|]. destruct (load _) as [b| | |]; cbn [obind]; try discriminate. destruct (report_run _ _ _ _ _ _ _ _ _ _ _ _ _ _) as [y| | |]; cbn [obind]; try discriminate.
  intros H. injection H as <- _. eauto.
Qed.
Lemma report_without_currency fold parse_int srt compile parse_float today ploop fuel it micro load c args c' ws x : parse_args fold parse_int (app_flags ++ report_flags) args c = Ok (c', ws) ->
  get_flag c' [bs "flag"; bs "help"] = false -> str_eqb (get_str c' [bs "Report"; bs "Type"]) (bs "Beancount") = false -> get_flag c' [bs "Report"; bs "Convert"] = true -> get_str c' [bs "BaseCCY"] = [] ->
  report_main fold parse_int srt compile parse_float today ploop fuel it micro load c args <> Ok x.
Proof.
  intros Ep Eh Et Ec Eb. unfold report_main, execute. rewrite Ep. cbn [obind]. rewrite Eh. destruct (load _) as [b| | |]; cbn [obind]; try discriminate.
  unfold report_run. cbn [ro_type ro_by ro_convert ro_sum ro_credit ro_hidden]. destruct (ops_of _ _ _ _ _ _ _ _ _) as [b2| | |]; cbn [obind]; try discriminate. cbv zeta. rewrite Et, Ec, Eb. cbn [negb andb]. discriminate.
Qed.
Lemma type_flag fold parse_int c t ws : fold (bs "Text") t = true -> Forall (fun w => hd 0 w <> 45) ws ->
  parse_args fold parse_int (app_flags ++ report_flags) (bs "--type" :: t :: ws) c = Ok (set_field [bs "Report"; bs "Type"] (VS (bs "Text")) c, ws).
Proof.
  intros Hf Hws. assert (Hw : written (is_switch (common [] ++ report_options)) (letter_of common_letters) (Opt (bs "type") t :: map Word ws) (bs "--type" :: t :: ws)).
  { apply (W_two _ _ (bs "type")); [discriminate|cbn; intuition discriminate|discriminate|reflexivity|]. induction Hws; [apply W_end|apply W_word; assumption]. }
  cbn [parse_args]. change (arg_of (bs "--type")) with (ALong (bs "type")). cbv iota. change ((hd 0 (bs "type") =? 45) || (hd 0 (bs "type") =? 61)) with false. cbv iota. change (CfgModel.cut 61 (bs "type")) with (@None (str * str)). cbv iota.
  change (by_name (app_flags ++ report_flags) (bs "type")) with (Some (mkFlag (bs "type") None [bs "Report"; bs "Type"] (FEnum [bs "Text"; bs "Ledger"; bs "Json"; bs "HTML"; bs "Beancount"]))). cbv iota.
  cbn [alone f_kind]. unfold set_flag. cbn [f_kind f_field parse_value enum_set]. rewrite Hf. cbn [option_map obind]. apply parse_only_words. exact Hws.
Qed.
Lemma ccy_flag fold parse_int c ccy : parse_args fold parse_int (app_flags ++ report_flags) [bs "--ccy"; ccy] c = Ok (set_field [bs "BaseCCY"] (VS ccy) c, []).
Proof.
  cbn [parse_args]. change (arg_of (bs "--ccy")) with (ALong (bs "ccy")). cbv iota. change ((hd 0 (bs "ccy") =? 45) || (hd 0 (bs "ccy") =? 61)) with false. cbv iota. change (CfgModel.cut 61 (bs "ccy")) with (@None (str * str)). cbv iota.
  change (by_name (app_flags ++ report_flags) (bs "ccy")) with (Some (mkFlag (bs "ccy") None [bs "BaseCCY"] FStr)). reflexivity.
Qed.

(** ** EXPECTED: a value that an option cannot have is refused in the configuration file, too. REFUTED: type = "text" is taken as it stands, and the report is printed as a ledger;
    [--type text] is the text report. *)
Theorem C116_file_value_refuted fold parse_int srt compile parse_float today ploop fuel it micro load lang : fold (bs "Text") (bs "text") = true ->
  exists c, decode_config false [([bs "report"; bs "type"], VS (bs "text"))] (builtin lang) = Ok c /\
    (forall l x, report_main fold parse_int srt compile parse_float today ploop fuel it micro load c [] = Ok (Some (l, x)) -> lk_form l = FLedger) /\
    (forall l x, report_main fold parse_int srt compile parse_float today ploop fuel it micro load c [bs "--type"; bs "text"] = Ok (Some (l, x)) -> lk_form l = FText).
Proof.
  intros Hf. exists (store_value (builtin lang) ([bs "report"; bs "type"], VS (bs "text"))). split; [reflexivity|]. split; intros l x H; apply report_printed in H as (c' & ws & Ep & ->).
  - cbn [parse_args] in Ep. injection Ep as <- _. reflexivity.
  - rewrite (type_flag _ _ _ _ [] Hf ltac:(constructor)) in Ep. injection Ep as <- _. reflexivity.
Qed.
Print Assumptions C116_file_value_refuted.

(** ** EXPECTED: after the first start the report works. REFUTED: the configuration that is written has convert = true and no currency, so that every report without --ccy is
    refused, whatever the ledger; and type = "Ansi", so that with --ccy it is printed as a ledger. *)
Theorem C116_first_start_refuted fold parse_int srt compile parse_float today ploop fuel it micro load lang :
  simple_toml default_config = Some (keys_of first_values) /\
  exists c, decode_config true first_values (builtin lang) = Ok c /\
    (forall ws x, Forall (fun w => hd 0 w <> 45) ws -> report_main fold parse_int srt compile parse_float today ploop fuel it micro load c ws <> Ok x) /\
    (forall ccy l x, report_main fold parse_int srt compile parse_float today ploop fuel it micro load c [bs "--ccy"; ccy] = Ok (Some (l, x)) -> lk_form l = FLedger).
Proof.
  split; [vm_compute; reflexivity|]. exists (fold_left store_value first_values (builtin lang)). split; [reflexivity|]. split.
  - intros ws x Hws. apply (report_without_currency _ _ _ _ _ _ _ _ _ _ _ _ _ _ _ _ (parse_only_words fold parse_int _ ws Hws _)); vm_compute; reflexivity.
  - intros ccy l x H. apply report_printed in H as (c' & ws & Ep & ->). rewrite ccy_flag in Ep. injection Ep as <- _. reflexivity.
Qed.
Print Assumptions C116_first_start_refuted.

(** ** EXPECTED: register works without a configuration. REFUTED: the built-in type is no type at all: every register with an account to show is refused unless --type is given. *)
Theorem C116_register_type_refuted fold parse_int srt compile parse_float today ploop fuel load lang ws l r : Forall (fun w => hd 0 w <> 45) ws ->
  register_main fold parse_int srt compile parse_float today ploop fuel load (builtin lang) ws = Ok (Some (l, r)) -> r = [].
Proof.
  intros Hws. unfold register_main, execute. rewrite (parse_only_words fold parse_int _ ws Hws). cbn [obind].
  assert (get_flag (builtin lang) [bs "flag"; bs "help"] = false) as -> by reflexivity. assert (register_form (builtin lang) = None) as -> by reflexivity. destruct ws as [|w ws']; [discriminate|].
  destruct (load _) as [b| | |]; cbn [obind]; try discriminate. destruct (register_run _ _ _ _ _ _ _ _ _ _ _ _ _) as [[|x rs]| | |]; cbn [obind]; try discriminate.
  intros H. injection H as _ <-. reflexivity.
Qed.
Print Assumptions C116_register_type_refuted.
