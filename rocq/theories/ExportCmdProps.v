(** * ExportCmdProps: C118, goledger export from the words of the command line to a file that shows the same ledger. *)
From Verif Require Import Base Utf8 Dec Regex DateModel PriceModel BookModel BookSpec BookOpModel DataExportModel
  BookProps LoaderModel LoaderSpec LoaderProps DetSpec DetModel CmdModel LoaderProofs4 ExportModel ExportSpec ExportProps MigrateProps OptionsModel OptionsSpec OptionsProofs OptionsProps CommandProps.

(** The text that `goledger export` writes for a ledger file, saved under any name and read again, shows the same transactions and prices. *)
Theorem C118_export_partial : forall fold parse_int lang line args first config c
    is_letter is_udigit to_upper ord fs resolve srt compile parse_float today ploop fuel f64 title upper order_accts order type f depth b,
  written (is_switch (common lang ++ export_options)) (letter_of common_letters) line args -> decode_config first config (builtin lang) = Ok c ->
  Forall (usable fold parse_int (common lang ++ export_options)) line -> words line = [] ->
  let set_to := set_to fold parse_int (common lang ++ export_options) line config in
  set_to (bs "help") (VB false) -> set_to (bs "ledger") (VS f) -> set_to (bs "type") (VS type) -> ~ In type [bs "Json"; bs "CSV"; bs "Beancount"] ->
  unicode_ok is_letter is_udigit to_upper -> some_order ord -> sort_ok is_less srt -> float64_ok f64 -> (forall pb, Permutation (order pb) (map fst pb)) ->
  load_book is_letter is_udigit to_upper ord fs resolve srt depth f = Ok b -> exportable srt b ->
  exists look text,
    export_main fold parse_int srt compile parse_float today ploop fuel (fun f => load_book is_letter is_udigit to_upper ord fs resolve srt depth f) f64 is_letter title upper order_accts order c args
      = Ok (Some (look, XLedger text)) /\ lk_form look = FLedger /\
    forall fs' f', fs' f' = Some text -> exists bk bound, forall depth', (bound <= depth')%nat ->
      load_book is_letter is_udigit to_upper ord fs' resolve srt depth' f' = Ok bk /\ same_ledger srt b bk.
Proof.
  intros fold parse_int lang line args first config c is_letter is_udigit to_upper ord fs resolve srt compile parse_float today ploop fuel f64 title upper order_accts order type f depth b
    Hw Hc Hu Hwords st Hhelp Hledger Htype Hother Huni Hord Hs Hf64 Ho Hload Hex.
  destruct (C116_export_partial fold parse_int lang srt compile parse_float today ploop fuel (fun f => load_book is_letter is_udigit to_upper ord fs resolve srt depth f) f64 is_letter title upper order_accts order line args first config c Hw Hc) as [_ E].
  destruct (E Hu) as (v & macros & Hv & _ & _ & E'). clear E.
  pose proof (fun n w => set_to_only fold parse_int _ line config v n w Hv) as Hset. fold st in Hset. rewrite (Hset _ _ Hhelp) in E'. specialize (E' eq_refl). rewrite E'. clear E'.
  rewrite (Hset _ _ Hledger), (Hset _ _ Htype), Hwords. cbn [txt]. rewrite Hload. cbn [obind].
  destruct (C109_export_command_partial is_letter is_udigit to_upper ord resolve f64 srt compile parse_float today ploop macros fuel (txt (v (bs "ccy"))) title upper order_accts Huni Hord Hs Hf64
    fs f depth b [] b order type Ho Hother Hload eq_refl Hex) as (text & -> & H).
  cbn [obind]. eexists _, text. split; [reflexivity|]. split; [reflexivity|exact H].
Qed.
Print Assumptions C118_export_partial.

(** export --ledger=m --type ledger, with a configuration file that asks for something else. *)
Definition ex118_xfile : list (list str * value) := [([bs "Export"; bs "type"], VS (bs "CSV")); ([bs "ledger"], VS (bs "other"))].
Definition ex118_xline : list item := [Opt (bs "ledger") (bs "m"); Opt (bs "type") (bs "ledger")].
Definition ex118_xargs : list str := [bs "--ledger=m"; bs "--type"; bs "ledger"].
Example C118_export_nonvacuous :
  let os := common (bs "en") ++ export_options in let st := set_to equal_fold (fun _ => None) os ex118_xline ex118_xfile in
  written (is_switch os) (letter_of common_letters) ex118_xline ex118_xargs /\ Forall (usable equal_fold (fun _ => None) os) ex118_xline /\ words ex118_xline = [] /\
  (st (bs "help") (VB false) /\ st (bs "ledger") (VS (bs "m")) /\ st (bs "type") (VS (bs "Ledger"))) /\ ~ In (bs "Ledger") [bs "Json"; bs "CSV"; bs "Beancount"] /\
  unicode_ok x_letter digit upc /\ some_order x_order /\ float64_ok x_f64 /\ (forall pb, Permutation (x_order2 pb) (map fst pb)) /\
  x_load [(bs "m", m_text2)] (bs "m") = Ok (m_book m_text2) /\ exportable xsort (m_book m_text2) /\
  (do c <- decode_config false ex118_xfile (builtin (bs "en"));
   export_main equal_fold (fun _ => None) xsort (fun _ => None) (fun _ => None) 0 (fun _ pb => pb) 0 (x_load [(bs "m", m_text2)]) x_f64 x_letter (fun s => s) (fun s => s) (fun l => l) x_order2 c ex118_xargs)
    = Ok (Some (mkLook FLedger true (bs "en"), XLedger (m_half (bs "0.50")))).
Proof.
  intros os st. split. { unfold ex118_xline, ex118_xargs. apply (W_equals _ _ (bs "ledger") (bs "m")); [discriminate|cbn; intuition discriminate|discriminate|].
    apply (W_two _ _ (bs "type")); [discriminate|cbn; intuition discriminate|discriminate|reflexivity|]. apply W_end. }
  set (O := fun k => nth k os (mkOption [] AnyText [] VT)).
  assert (HO : forall k, (k < 10)%nat -> In (O k) os) by (intros k Hk; apply nth_In; exact Hk).
  assert (Hty : stands_for equal_fold (fun _ => None) (o_sort (O 8%nat)) (bs "ledger") (VS (bs "Ledger"))).
  { exists [], (bs "Ledger"), [bs "Json"; bs "Beancount"; bs "CSV"]. repeat split; repeat constructor. }
  split. { repeat constructor.
    - exists (O 0%nat), (VS (bs "m")). split; [apply HO; lia|]. split; reflexivity.
    - exists (O 8%nat), (VS (bs "Ledger")). split; [apply HO; lia|]. split; [reflexivity|exact Hty]. }
  split; [reflexivity|]. split.
  { split. { exists (O 7%nat). split; [apply HO; lia|]. split; [reflexivity|]. apply (E_default _ _ (O 7%nat)); [repeat (apply Forall_cons; [cbn; discriminate|]); apply Forall_nil|repeat constructor]. }
    split. { exists (O 0%nat). split; [apply HO; lia|]. split; [reflexivity|]. apply (E_line _ _ (O 0%nat) ex118_xline ex118_xfile [] (bs "m") (tl ex118_xline)); [reflexivity| |reflexivity]. repeat (apply Forall_cons; [cbn; discriminate|]); apply Forall_nil. }
    exists (O 8%nat). split; [apply HO; lia|]. split; [reflexivity|]. apply (E_line _ _ (O 8%nat) ex118_xline ex118_xfile (firstn 1 ex118_xline) (bs "ledger") []); [reflexivity|constructor|exact Hty]. }
  destruct C109_nonvacuous as (U & Or & F & Po & Ot & L & X & _). split; [exact Ot|]. split; [exact U|]. split; [exact Or|]. split; [exact F|]. split; [exact Po|]. split; [exact L|]. split; [exact X|]. vm_compute. reflexivity.
Qed.
