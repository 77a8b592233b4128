(** * PagerProps: C111, where the output of a command goes. *)
From Verif Require Import Base Regex Dec DateModel PriceModel BookModel BookSpec BookProofs OpsModel BookOpModel BookProps RegisterModel AccumModel AccumSpec AccumProofs AccumProps Utf8 LoaderModel LoaderProps ExportModel PrintModel PrintSpec PrintProofs PrintProofs2 PrintProps
  ReportSpec ReportProps CmdModel CmdProofs CmdProps CmdProps2 CmdProps3 PagerModel PagerSpec.

Lemma tall_dec t rows : tall t rows \/ ~ tall t rows.
Proof. unfold tall. destruct (Z.eq_dec (t_width t) (-1)); [right; tauto|]. destruct (t_less t); [|right; intros (_ & F & _); discriminate]. destruct (Z_lt_dec (t_height t) (Z.of_nat (length rows))); [left; auto|right; tauto]. Qed.
Lemma no_tall_app t a b : no_tall t (a ++ b) <-> no_tall t a /\ no_tall t b.
Proof. unfold no_tall. setoid_rewrite in_app_iff. firstorder. Qed.

Section Exec.
  Variable is_print : Z -> bool.
  Variable t : tty.
  Notation says := (says is_print (t_width t)).
  Notation exec := (exec is_print t).

  (** Once the printer writes to the pager. *)
  Lemma exec_paged : forall acts, ~ In ANew acts -> forall u p, exists s st, says acts s st /\ exec acts (mkWorld u (Some p)) true = (mkWorld u (Some (p ++ s)), st).
  Proof.
    induction acts as [|a acts IH]; intros Hn u p.
    - exists [], Done. split; [constructor|]. cbn. rewrite app_nil_r. reflexivity.
    - destruct a as [|x|rows shrink| |]; cbn [PagerModel.exec].
      + exfalso. apply Hn. left. reflexivity.
      + destruct (IH (fun H => Hn (or_intror H)) u (p ++ x)) as (s & st & H & E). exists (x ++ s), st. split; [constructor; exact H|]. cbn [write on_term in_pager option_map]. rewrite <- app_assoc in E. exact E.
      + assert (Ei : (if t_height t <? Z.of_nat (length rows) then initialise_less t (mkWorld u (Some p)) true else (mkWorld u (Some p), true)) = (mkWorld u (Some p), true)) by (destruct (_ <? _); reflexivity). rewrite Ei.
        destruct (print_columns is_print (t_width t) rows shrink) as [x| | |] eqn:Ex.
        * destruct (IH (fun H => Hn (or_intror H)) u (p ++ x)) as (s & st & H & E). exists (x ++ s), st. split; [eapply says_table; eassumption|]. cbn [write on_term in_pager option_map]. rewrite <- app_assoc in E. exact E.
        * exists [], Crashed. split; [apply says_bad_table; congruence|]. rewrite app_nil_r. reflexivity.
        * exists [], Crashed. split; [apply says_bad_table; congruence|]. rewrite app_nil_r. reflexivity.
        * exists [], Crashed. split; [apply says_bad_table; congruence|]. rewrite app_nil_r. reflexivity.
      + exists [], Failed. split; [constructor|]. rewrite app_nil_r. reflexivity.
      + exists [], Crashed. split; [constructor|]. rewrite app_nil_r. reflexivity.
  Qed.
  (** Before that. *)
  Lemma exec_plain : forall acts, ~ In ANew acts -> forall u,
    (exists l1 l2 s st, acts = l1 ++ l2 /\ no_tall t l1 /\ (l2 = [] \/ st <> Done) /\ says acts s st /\ exec acts (mkWorld u None) false = (mkWorld (u ++ s) None, st)) \/
    (exists l1 rows shrink l2 s1 s2 st, acts = l1 ++ ATable rows shrink :: l2 /\ no_tall t l1 /\ tall t rows /\ says l1 s1 Done /\ says (ATable rows shrink :: l2) s2 st /\
       exec acts (mkWorld u None) false = (mkWorld (u ++ s1) (Some s2), st)).
  Proof.
    induction acts as [|a acts IH]; intros Hn u.
    - left. exists [], [], [], Done. split; [reflexivity|]. split; [intros ? ? []|]. split; [left; reflexivity|]. split; [constructor|]. cbn. rewrite app_nil_r. reflexivity.
    - assert (Hn' : ~ In ANew acts) by (intros H; apply Hn; right; exact H). destruct a as [|x|rows shrink| |]; cbn [PagerModel.exec].
      + exfalso. apply Hn. left. reflexivity.
      + destruct (IH Hn' (u ++ x)) as [(l1 & l2 & s & st & -> & H1 & H2 & H3 & E)|(l1 & rows & shrink & l2 & s1 & s2 & st & -> & H1 & H2 & H3 & H4 & E)].
        * left. exists (APrint x :: l1), l2, (x ++ s), st. split; [reflexivity|]. split; [intros r q [F|F]; [discriminate|eapply H1; exact F]|]. split; [exact H2|]. split; [constructor; exact H3|]. cbn [write on_term in_pager]. rewrite <- app_assoc in E. exact E.
        * right. exists (APrint x :: l1), rows, shrink, l2, (x ++ s1), s2, st. split; [reflexivity|]. split; [intros r q [F|F]; [discriminate|eapply H1; exact F]|]. split; [exact H2|]. split; [constructor; exact H3|]. split; [exact H4|]. cbn [write on_term in_pager]. rewrite <- app_assoc in E. exact E.
      + destruct (tall_dec t rows) as [Ht|Ht].
        * destruct Ht as (T1 & T2 & T3). rewrite (proj2 (Z.ltb_lt _ _) T3). unfold initialise_less. cbn [in_pager]. rewrite (proj2 (Z.eqb_neq _ _) T1), T2. cbn [orb on_term].
          right. exists [], rows, shrink, acts, []. destruct (print_columns is_print (t_width t) rows shrink) as [x| | |] eqn:Ex.
          -- destruct (exec_paged acts Hn' u x) as (s & st & H & E). exists (x ++ s), st. split; [reflexivity|]. split; [intros ? ? []|]. split; [split; auto|]. split; [constructor|]. split; [eapply says_table; eassumption|]. cbn [write on_term in_pager option_map app]. rewrite app_nil_r. exact E.
          -- exists [], Crashed. split; [reflexivity|]. split; [intros ? ? []|]. split; [split; auto|]. split; [constructor|]. split; [apply says_bad_table; congruence|]. rewrite app_nil_r. reflexivity.
          -- exists [], Crashed. split; [reflexivity|]. split; [intros ? ? []|]. split; [split; auto|]. split; [constructor|]. split; [apply says_bad_table; congruence|]. rewrite app_nil_r. reflexivity.
          -- exists [], Crashed. split; [reflexivity|]. split; [intros ? ? []|]. split; [split; auto|]. split; [constructor|]. split; [apply says_bad_table; congruence|]. rewrite app_nil_r. reflexivity.
        * assert (Ei : (if t_height t <? Z.of_nat (length rows) then initialise_less t (mkWorld u None) false else (mkWorld u None, false)) = (mkWorld u None, false)).
          { destruct (Z.ltb_spec (t_height t) (Z.of_nat (length rows))) as [L|L]; [|reflexivity]. unfold initialise_less. cbn [in_pager orb]. destruct (Z.eqb_spec (t_width t) (-1)); [reflexivity|]. destruct (t_less t) eqn:El; [|reflexivity]. exfalso. apply Ht. split; auto. }
          rewrite Ei. destruct (print_columns is_print (t_width t) rows shrink) as [x| | |] eqn:Ex;
            [|left; exists [ATable rows shrink], acts, [], Crashed; split; [reflexivity|]; split; [intros r q [F|[]]; injection F as <- <-; exact Ht|]; split; [right; discriminate|]; split; [apply says_bad_table; congruence|]; rewrite app_nil_r; reflexivity..].
          destruct (IH Hn' (u ++ x)) as [(l1 & l2 & s & st & -> & H1 & H2 & H3 & E)|(l1 & rows' & shrink' & l2 & s1 & s2 & st & -> & H1 & H2 & H3 & H4 & E)].
          -- left. exists (ATable rows shrink :: l1), l2, (x ++ s), st. split; [reflexivity|]. split; [intros r q [F|F]; [injection F as <- <-; exact Ht|eapply H1; exact F]|]. split; [exact H2|]. split; [eapply says_table; eassumption|]. cbn [write on_term in_pager]. rewrite <- app_assoc in E. exact E.
          -- right. exists (ATable rows shrink :: l1), rows', shrink', l2, (x ++ s1), s2, st. split; [reflexivity|]. split; [intros r q [F|F]; [injection F as <- <-; exact Ht|eapply H1; exact F]|]. split; [exact H2|]. split; [eapply says_table; eassumption|]. split; [exact H4|]. cbn [write on_term in_pager]. rewrite <- app_assoc in E. exact E.
      + left. exists [], (AFail :: acts), [], Failed. split; [reflexivity|]. split; [intros ? ? []|]. split; [right; discriminate|]. split; [constructor|]. rewrite app_nil_r. reflexivity.
      + left. exists [], (ACrash :: acts), [], Crashed. split; [reflexivity|]. split; [intros ? ? []|]. split; [right; discriminate|]. split; [constructor|]. rewrite app_nil_r. reflexivity.
  Qed.

  (** ** C111. Nothing that a command prints is lost, doubled or reordered: what comes before the first table that is too tall goes to the terminal, that table and
      everything after it to the pager, which is started at most once; the pager is given the end of its input, and waited for, whenever the command succeeds. *)
  Theorem C111_output_partial acts : one_printer acts ->
    exists s st w closed, says acts s st /\ command is_print t acts = (w, st, closed) /\
      s = on_term w ++ match in_pager w with Some p => p | None => [] end /\
      (closed = true <-> st = Done /\ in_pager w <> None) /\
      (st = Done -> in_pager w = None -> no_tall t acts) /\
      (forall p, in_pager w = Some p -> exists l1 rows shrink l2, acts = l1 ++ ATable rows shrink :: l2 /\ tall t rows /\ no_tall t l1 /\ says l1 (on_term w) Done).
  Proof.
    intros (rest & -> & Hn). unfold command, start_world. cbn [PagerModel.exec].
    destruct (exec_plain rest Hn []) as [(l1 & l2 & s & st & -> & H1 & H2 & H3 & E)|(l1 & rows & shrink & l2 & s1 & s2 & st & -> & H1 & H2 & H3 & H4 & E)]; rewrite E; cbn [app].
    - exists s, st, (mkWorld s None), (match st with Done => false | _ => false end). cbn [on_term in_pager]. split; [constructor; exact H3|]. split; [destruct st; reflexivity|]. split; [rewrite app_nil_r; reflexivity|].
      split; [split; [destruct st; discriminate|intros [_ F]; congruence]|]. split; [|intros p F; discriminate]. intros Hd _ r q [F|F]; [discriminate|]. destruct H2 as [->|F2]; [rewrite app_nil_r in F; eapply H1; exact F|contradiction].
    - assert (Hall : says (l1 ++ ATable rows shrink :: l2) (s1 ++ s2) st).
      { clear - H3 H4. remember Done as d eqn:Ed. induction H3; try discriminate Ed; cbn [app]; rewrite <- ?app_assoc; [exact H4|constructor; auto|constructor; auto|eapply says_table; eauto]. }
      exists (s1 ++ s2), st, (mkWorld s1 (Some s2)), (match st with Done => true | _ => false end). cbn [on_term in_pager]. split; [constructor; exact Hall|]. split; [destruct st; reflexivity|]. split; [reflexivity|].
      split; [split; [destruct st; [split; [reflexivity|discriminate]|discriminate..]|intros [-> _]; reflexivity]|]. split; [intros _ F; discriminate|]. intros p _. exists (ANew :: l1), rows, shrink, l2. split; [reflexivity|]. split; [exact H2|]. split; [intros r q [F|F]; [discriminate|eapply H1; exact F]|constructor; exact H3].
  Qed.

  (** The commands report (Text) and accts print one table: all of it on the terminal, or all of it in the pager. *)
  Theorem C111_report_partial f64 is_letter colour x s : summary_text is_print f64 is_letter (bk_ccy (fst x)) colour (t_width t) (snd x) = Ok s ->
    exists rows, summary_table f64 is_letter (bk_ccy (fst x)) colour (snd x) = Ok rows /\
      (tall t rows /\ command is_print t (report_actions f64 is_letter colour (Ok x)) = (mkWorld [] (Some s), Done, true) \/
       ~ tall t rows /\ command is_print t (report_actions f64 is_letter colour (Ok x)) = (mkWorld s None, Done, false)).
  Proof.
    intros E. unfold summary_text in E. apply obind_Ok in E as (rows & Er & E). exists rows. split; [exact Er|]. unfold report_actions, stop. rewrite Er.
    unfold command, start_world. cbn [PagerModel.exec]. destruct (tall_dec t rows) as [Ht|Ht]; [left|right]; (split; [exact Ht|]).
    - destruct Ht as (T1 & T2 & T3). rewrite (proj2 (Z.ltb_lt _ _) T3). unfold initialise_less. cbn [in_pager]. rewrite (proj2 (Z.eqb_neq _ _) T1), T2. cbn [orb on_term]. rewrite E. reflexivity.
    - assert (Ei : (if t_height t <? Z.of_nat (length rows) then initialise_less t (mkWorld [] None) false else (mkWorld [] None, false)) = (mkWorld [] None, false)).
      { destruct (Z.ltb_spec (t_height t) (Z.of_nat (length rows))) as [L|L]; [|reflexivity]. unfold initialise_less. cbn [in_pager orb]. destruct (Z.eqb_spec (t_width t) (-1)); [reflexivity|]. destruct (t_less t) eqn:El; [|reflexivity]. exfalso. apply Ht. split; auto. }
      rewrite Ei, E. reflexivity.
  Qed.
End Exec.
Print Assumptions C111_output_partial.
Print Assumptions C111_report_partial.

(** The commands use one printer each. *)
Lemma stop_no_new {A} (o : outcome A) f : (forall x, ~ In ANew (f x)) -> ~ In ANew (stop o f).
Proof. intros H. destruct o; cbn [stop]; [apply H|intros [F|[]]; discriminate..]. Qed.
Lemma show_no_new f64 is_letter colour count asc decs wa rep : ~ In ANew (show_actions f64 is_letter colour count asc decs wa rep).
Proof. unfold show_actions. apply stop_no_new. intros rows [F|[]]. discriminate. Qed.
Lemma accounts_no_new f64 is_letter colour srt compile today base count asc o decs : forall accts b, ~ In ANew (accounts_actions f64 is_letter colour srt compile today base count asc o decs accts b).
Proof.
  induction accts as [|a accts IH]; intros b; cbn [accounts_actions]; [intros []|]. intros [F|F]; [discriminate|]. destruct (compile _) as [re|]; [|destruct F as [F|[]]; discriminate].
  revert F. apply stop_no_new. intros x F. apply in_app_iff in F as [F|F]; [exact (show_no_new _ _ _ _ _ _ _ _ F)|exact (IH _ F)].
Qed.
Theorem C111_one_printer f64 is_letter colour :
  (forall x, one_printer (report_actions f64 is_letter colour (Ok x))) /\
  (forall o, one_printer (accts_actions colour o)) /\
  (forall srt compile today base all count asc o pat b, one_printer (register_actions f64 is_letter colour srt compile today base all count asc o pat b)).
Proof.
  split; [|split].
  - intros x. eexists. split; [reflexivity|]. apply stop_no_new. intros rows [F|[]]. discriminate.
  - intros o. eexists. split; [reflexivity|]. apply stop_no_new. intros rows [F|[]]. discriminate.
  - intros. unfold register_actions. eexists. split; [reflexivity|]. destruct (go_combined o).
    + destruct (compile pat) as [re|]; [|intros [F|[]]; discriminate]. apply stop_no_new. intros x. apply show_no_new.
    + apply stop_no_new. intros accts. apply accounts_no_new.
Qed.
Print Assumptions C111_one_printer.

Section Says.
  Variable is_print : Z -> bool.
  Variable t : tty.
  Variable f64 : Qc -> Qc.
  Variable is_letter : Z -> bool.
  Variable colour : bool.
  Variable srt : list posting -> list posting.
  Variable compile : str -> option regexp.
  Variable today : Z.
  Variable base : str.
  Variable all : bool.
  Variable count : Z.
  Variable asc : bool.

  (** What register prints: for every account a blank line, its name and its register. *)
  Definition section_text (x : str * str) : str := [10] ++ ansi colour BlueUL (fst x) ++ [10] ++ snd x.
  Lemma says_app : forall a s b s' st, says is_print (t_width t) a s Done -> says is_print (t_width t) b s' st -> says is_print (t_width t) (a ++ b) (s ++ s') st.
  Proof.
    intros a s b s' st H Hb. remember Done as d eqn:Ed. induction H; try discriminate Ed; cbn [app]; rewrite <- ?app_assoc; [exact Hb|constructor; auto|constructor; auto|eapply says_table; eauto].
  Qed.
  Theorem C111_register_partial o pat b accts l texts : go_combined o = false -> list_accounts compile all pat b = Ok accts -> registers srt compile today base o accts b = Ok l ->
    Forall2 (fun x s => register_text is_print f64 is_letter (bk_ccy b) colour (t_width t) (show_rows count asc (snd x)) false true = Ok s) l texts ->
    says is_print (t_width t) (register_actions f64 is_letter colour srt compile today base all count asc o pat b) (concat (map section_text (combine accts texts))) Done.
  Proof.
    intros Hc Ea El Ht. unfold register_actions. rewrite Hc, Ea. constructor. cbn [stop]. generalize (bk_ccy b) Ht. clear Ea Ht. intros decs. revert b l texts El.
    induction accts as [|a accts IH]; intros b l texts El Ht; cbn [registers accounts_actions] in *.
    - constructor.
    - destruct (compile (bs "^" ++ a ++ bs "$")) as [re|]; [|discriminate El]. apply obind_Ok in El as ([b' rep] & E1 & El). apply obind_Ok in El as (l' & E2 & El). injection El as <-. rewrite E1. cbn [stop fst snd].
      inversion Ht as [|x s l0 ss Hs Hss]; subst. cbn [combine map concat]. unfold section_text at 1. cbn [fst snd] in *. unfold register_text in Hs. apply obind_Ok in Hs as (rows & Er & Ep).
      pose proof (IH b' l' ss E2 Hss) as H.
      replace (([10] ++ ansi colour BlueUL a ++ [10] ++ s) ++ concat (map section_text (combine accts ss))) with (([10] ++ ansi colour BlueUL a ++ [10]) ++ (s ++ concat (map section_text (combine accts ss)))) by (rewrite <- !app_assoc; reflexivity).
      constructor. apply says_app; [|exact H]. unfold show_actions. rewrite Er. cbn [stop]. rewrite <- (app_nil_r s). eapply says_table; [exact Ep|constructor].
  Qed.
End Says.
Print Assumptions C111_register_partial.

(** accts: one table with a heading, so more than height - 1 accounts go to the pager. *)
Definition accts_rows (colour : bool) (accts : list str) : list row := Some [Some (ColString (ansi colour BlueUL (bs "Account")))] :: map (fun a => Some [Some (ColString a)]) accts.
Theorem C111_accts_partial is_print t colour accts s : t_width t <> -1 -> t_less t = true ->
  print_columns is_print (t_width t) (accts_rows colour accts) [false] = Ok s ->
  command is_print t (accts_actions colour (Ok accts)) = if t_height t <? 1 + Z.of_nat (length accts) then (mkWorld [] (Some s), Done, true) else (mkWorld s None, Done, false).
Proof.
  intros T1 T2 E. unfold accts_rows in E. unfold command, start_world, accts_actions. cbn [exec stop]. unfold row in *.
  replace (Z.of_nat (length (Some [Some (ColString (ansi colour BlueUL (bs "Account")))] :: map (fun a => Some [Some (ColString a)]) accts))) with (1 + Z.of_nat (length accts)) by (cbn [length]; rewrite map_length; lia).
  unfold initialise_less. cbn [in_pager]. rewrite (proj2 (Z.eqb_neq _ _) T1), T2. cbn [orb on_term]. destruct (_ <? _); rewrite E; reflexivity.
Qed.
Print Assumptions C111_accts_partial.

(** The report of C71 has eleven rows: on a terminal of ten lines it goes to the pager, on one of eleven it does not. *)
Definition tty_of (h : Z) : tty := mkTTY 80 h true.
Definition x_report_actions (calls : list bcall) : list action :=
  report_actions x_plain_f64 x_ascii_letter false (accumulate xsort x_it x_micro (bs "GBP") [58] None [] (x_built calls)).
Definition x_shown : str := table_text [
    bs "Account 2024/01/05 2024/01/06";
    bs "Exp     GBP     15 GBP      8";
    bs "  Fun   GBP      0 GBP      8";
    bs "        USD      0 USD      4";
    bs "  Food  GBP     15 GBP      0";
    bs "    In  GBP      5 GBP      0";
    bs "    Out GBP     10 GBP      0";
    [];
    bs "Cash    GBP    -15 GBP     -8";
    bs "        GBP    -15 GBP      0";
    bs "        USD      0 USD     -4"].
Example C111_nonvacuous : command x_print (tty_of 10) (x_report_actions sum_calls) = (mkWorld [] (Some x_shown), Done, true) /\
  command x_print (tty_of 11) (x_report_actions sum_calls) = (mkWorld x_shown None, Done, false) /\
  command x_print no_tty (x_report_actions sum_calls) = (mkWorld x_shown None, Done, false).
Proof. split; [|split]; vm_compute; reflexivity. Qed.
Definition x_register_actions (all : bool) (pat : str) : list action :=
  register_actions x_plain_f64 x_ascii_letter false xsort x_compile 20240301 (bs "GBP") all 25 true (mkGO [] [] false false true) pat cmd_book.
(** The hypotheses of C111_register_partial hold of this book, and it prints what C90_nonvacuous says. *)
Example C111_register_nonvacuous : match list_accounts x_compile true (bs "r") cmd_book with
  | Ok accts => match registers xsort x_compile 20240301 (bs "GBP") (mkGO [] [] false false true) accts cmd_book with
      | Ok l => Some (accts, map (fun x => register_text x_print x_plain_f64 x_ascii_letter (bk_ccy cmd_book) false 80 (show_rows 25 true (snd x)) false true) l) | _ => None end
  | _ => None end =
  Some ([bs "Card"; bs "Shares"; bs "Travel"],
    [Ok (table_text [bs "Date       Payee Counteraccount   Amount  Balance"; bs "2024/02/01 Trip  Travel         JPY -100 JPY -100"]);
     Ok (table_text [bs "Date       Payee Counteraccount   Amount Balance"; bs "2024/01/01 Buy   Bank           USD  100 USD 100"; bs "2024/01/31 Sell  Bank           USD -100 USD   0"]);
     Ok (table_text [bs "Date       Payee Counteraccount  Amount Balance"; bs "2024/02/01 Trip  Card           JPY 100 JPY 100"])]).
Proof. vm_compute. reflexivity. Qed.
(** REFUTED. What a command prints does not stay together: the heading of the account Shares is on the terminal, its register in the pager. *)
Theorem C111_two_places_refuted : command x_print (tty_of 2) (x_register_actions true (bs "r")) =
  (mkWorld ([10] ++ table_text [bs "Card"; bs "Date       Payee Counteraccount   Amount  Balance"; bs "2024/02/01 Trip  Travel         JPY -100 JPY -100"; []; bs "Shares"])
     (Some (table_text [bs "Date       Payee Counteraccount   Amount Balance"; bs "2024/01/01 Buy   Bank           USD  100 USD 100"; bs "2024/01/31 Sell  Bank           USD -100 USD   0";
        []; bs "Travel"; bs "Date       Payee Counteraccount  Amount Balance"; bs "2024/02/01 Trip  Card           JPY 100 JPY 100"])), Done, true).
Proof. vm_compute. reflexivity. Qed.
Print Assumptions C111_two_places_refuted.
(** REFUTED. The pager is not always ended: a report that is not summarised and has a missing cell (C71) crashes after less was started; nothing closes less's input nor waits for it. *)
Theorem C111_left_running_refuted : exists srt b t, sort_ok is_less srt /\ summarisable srt b /\
  command x_print t (report_actions x_plain_f64 x_ascii_letter false (Ok (transactions srt b))) = (mkWorld [] (Some []), Crashed, false).
Proof.
  exists xsort, (x_built (gap_calls (bs "B") (bs "C"))), (tty_of 2). split; [exact xsort_ok|]. split; [apply (x_summarisable [20240101; 20240105; 20240106]); [exact x_dates|vm_compute; reflexivity..]|]. vm_compute. reflexivity.
Qed.
Print Assumptions C111_left_running_refuted.
