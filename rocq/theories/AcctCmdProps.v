(** * AcctCmdProps: C118, goledger accts from the words of the command line to what is printed. *)
From Verif Require Import Base Utf8 Regex Dec DateModel DateSpec PriceModel BookModel BookSpec BookProofs BookOpModel
  LoaderModel LoaderSpec GrammarSpec CmdModel RegisterModel RegisterText PagerModel PagerSpec PagerProps RegFileSpec ConvertModel JsonModel JsonSpec JsonProps AcctFileSpec AcctFileProps
  BookProps AccumProps LoaderProps ExportModel ExportProps PrintProps CmdProps3 AppendProofs BalanceProps LoaderProps OptionsModel OptionsSpec OptionsProofs OptionsProps CommandProps.

Theorem C118_accts_partial : forall fold parse_int lang line args first config c is_print short is_letter is_udigit to_upper ord fs resolve srt compile tw all json colour pat re f bytes es,
  written (is_switch (common lang ++ accts_options)) (letter_of common_letters) line args -> decode_config first config (builtin lang) = Ok c ->
  Forall (usable fold parse_int (common lang ++ accts_options)) line -> (words line = [] /\ pat = bs "^.*$" \/ words line = [pat]) -> compile pat = Some re ->
  let set_to := set_to fold parse_int (common lang ++ accts_options) line config in
  set_to (bs "help") (VB false) -> set_to (bs "ledger") (VS f) -> set_to (bs "all") (VB all) -> set_to (bs "json") (VB json) -> set_to (bs "colour") (VB colour) ->
  is_print 32 = true -> Forall (fun c => is_print c = true) (bs "Account") ->
  is_letter 0 = false /\ is_udigit 0 = false -> (forall m, NoDup (akeys m) -> Permutation (ord m) (akeys m)) -> sort_ok is_less srt ->
  fs f = Some bytes -> text_at is_letter is_udigit to_upper fs resolve f [] (decode bytes) es -> Forall (legible_entry is_print) es ->
  exists cs bound, means [] es cs /\ forall depth, (bound <= depth)%nat ->
    let run := accts_main fold parse_int compile (fun f => load_book is_letter is_udigit to_upper ord fs resolve srt depth f) c args in
    (~ all_balanced cs /\ (run = Panic \/ run = Error)) \/
    (all_balanced cs /\ exists accts listed look, registered cs all (rx_match re) accts /\ run = Ok (Some (look, listed)) /\ lk_form look = (if json then FJson true else FText) /\ lk_colour look = colour /\
       says is_print tw (accts_actions (lk_colour look) (Ok listed)) (name_column colour (bs "Account") accts) Done /\
       exists s, accts_json short listed = Ok s /\ json_file exactly 1 s (JArr (map JStr accts))).
Proof.
  intros fold parse_int lang line args first config c is_print short is_letter is_udigit to_upper ord fs resolve srt compile tw all json colour pat re f bytes es
    Hw Hc Hu Hwords Hre st Hhelp Hledger Hall Hjson Hcol H32 HA Hn Hord Hs Hf Ht Hleg.
  assert (G : forall load, exists look, lk_form look = (if json then FJson true else FText) /\ lk_colour look = colour /\ accts_main fold parse_int compile load c args =
      do b <- load f; do l <- accts_run compile all (words line) b; Ok (Some (look, l))).
  { intros load. destruct (C116_accts_partial fold parse_int lang compile (fun _ => None) 0 (fun _ ws => ws) load (fun _ => false) (fun s => s) (fun s => s) line args first config c Hw Hc) as [_ H]. destruct (H Hu) as (v & Hv & _ & _ & E). clear H.
    pose proof (fun n w => set_to_only fold parse_int _ line config v n w Hv) as Hset. fold st in Hset. rewrite (Hset _ _ Hhelp) in E. specialize (E eq_refl).
    assert ((length (words line) <= 1)%nat) as Hl by (destruct Hwords as [[-> _]| ->]; cbn; lia). specialize (E Hl). rewrite E. clear E.
    rewrite (Hset _ _ Hledger), (Hset _ _ Hall), (Hset _ _ Hjson), (Hset _ _ Hcol).
    eexists. split; [|split]; [| |reflexivity]; reflexivity. }
  destruct (C115_accounts_of_file_partial is_print H32 HA is_letter is_udigit to_upper ord fs resolve srt compile short all (words line) pat re colour tw f bytes es Hn Hord Hs Hf Ht Hleg Hwords Hre) as (cs & bound & Hm & H).
  exists cs, bound. split; [exact Hm|]. intros depth Hd run. specialize (H depth Hd). cbv zeta in H.
  destruct (G (fun f => load_book is_letter is_udigit to_upper ord fs resolve srt depth f)) as (look & Hform & Hcolour & E). unfold run. clear run. rewrite E. clear E G.
  destruct H as [[H1 [-> | ->]]|(H1 & bk & accts & Hload & Hreg & Hsay & s & Hj & Hjf)]; [left; split; [exact H1|left; reflexivity]|left; split; [exact H1|right; reflexivity]|].
  right. split; [exact H1|]. rewrite Hload. cbn [obind]. destruct (accts_run compile all (words line) bk) as [l| | |] eqn:Er; cbn [obind] in *; try discriminate Hj.
  exists accts, l, look. split; [exact Hreg|]. split; [reflexivity|]. split; [exact Hform|]. split; [exact Hcolour|]. rewrite Hcolour. split; [exact Hsay|]. exists s. split; [exact Hj|exact Hjf].
Qed.
Print Assumptions C118_accts_partial.

(** accts -lm a --all on the ledger of C110, with a configuration file that switches colours off. *)
Definition ex118_afile : list (list str * value) := [([bs "Colour"], VB false); ([bs "all"], VB false)].
Definition ex118_aline : list item := [Opt (bs "ledger") (bs "m"); Word (bs "a"); Opt (bs "all") (bs "true")].
Definition ex118_aargs : list str := [bs "-lm"; bs "a"; bs "--all"].
Example C118_accts_nonvacuous :
  let os := common (bs "en") ++ accts_options in let st := set_to equal_fold (fun _ => None) os ex118_aline ex118_afile in
  written (is_switch os) (letter_of common_letters) ex118_aline ex118_aargs /\ Forall (usable equal_fold (fun _ => None) os) ex118_aline /\ words ex118_aline = [bs "a"] /\ (exists re, a_compile (bs "a") = Some re) /\
  (st (bs "help") (VB false) /\ st (bs "ledger") (VS (bs "m")) /\ st (bs "all") (VB true) /\ st (bs "json") (VB false) /\ st (bs "colour") (VB false)) /\
  (exists es, text_at x_letter digit upc x_fs110 x_join (bs "m") [] (decode ex110) es /\ Forall (legible_entry x_print) es) /\
  (do c <- decode_config false ex118_afile (builtin (bs "en"));
   accts_main equal_fold (fun _ => None) a_compile (fun f => load_book x_letter digit upc x_order x_fs110 x_join xsort 1 f) c ex118_aargs) = Ok (Some (mkLook FText false (bs "en"), [bs "Bank"; bs "Cash"])).
Proof.
  intros os st. split. { unfold ex118_aline, ex118_aargs.
    refine (W_letter_at _ (letter_of common_letters) 108 (bs "m") _ _ _ _ _ _ _); [discriminate|reflexivity|discriminate|discriminate|].
    apply W_word; [discriminate|]. apply (W_switch _ _ (bs "all")); [discriminate|cbn; intuition discriminate|discriminate|reflexivity|]. apply W_end. }
  set (O := fun k => nth k os (mkOption [] AnyText [] VT)).
  assert (HO : forall k, (k < 9)%nat -> In (O k) os) by (intros k Hk; apply nth_In; exact Hk).
  split. { repeat constructor.
    - exists (O 0%nat), (VS (bs "m")). split; [apply HO; lia|]. split; reflexivity.
    - exists (O 6%nat), (VB true). split; [apply HO; lia|]. split; [reflexivity|]. left. cbn. tauto. }
  split; [reflexivity|]. split; [eexists; reflexivity|]. split.
  { assert (Hno : forall n, In n [bs "help"; bs "json"; bs "colour"] -> Forall (fun i => ~ is_opt n i) ex118_aline).
    { intros n Hn. cbn [In] in Hn. unfold ex118_aline. decompose [or] Hn; try contradiction; subst n; repeat constructor; cbn; first [discriminate|tauto]. }
    split. { exists (O 7%nat). split; [apply HO; lia|]. split; [reflexivity|]. apply (E_default _ _ (O 7%nat)); [apply Hno; cbn; tauto|repeat constructor]. }
    split. { exists (O 0%nat). split; [apply HO; lia|]. split; [reflexivity|]. apply (E_line _ _ (O 0%nat) ex118_aline ex118_afile [] (bs "m") (tl ex118_aline)); [reflexivity| |reflexivity]. repeat constructor; cbn; first [discriminate|tauto]. }
    split. { exists (O 6%nat). split; [apply HO; lia|]. split; [reflexivity|]. apply (E_line _ _ (O 6%nat) ex118_aline ex118_afile (firstn 2 ex118_aline) (bs "true") []); [reflexivity|constructor|left; cbn; tauto]. }
    split. { exists (O 8%nat). split; [apply HO; lia|]. split; [reflexivity|]. apply (E_default _ _ (O 8%nat)); [apply Hno; cbn; tauto|repeat constructor]. }
    exists (O 5%nat). split; [apply HO; lia|]. split; [reflexivity|]. apply (E_file _ _ (O 5%nat) ex118_aline ex118_afile [] [bs "Colour"] (VB false) (tl ex118_afile)); [apply Hno; cbn; tauto|reflexivity|discriminate|reflexivity|].
    apply Forall_cons; [intros E; vm_compute in E; discriminate E|constructor]. }
  destruct C115_nonvacuous as (Ht & _). split; [exact Ht|]. vm_compute. reflexivity.
Qed.
