(** * AcctFileProps: C115, from the bytes of a ledger file to the list of its accounts. *)
From Verif Require Import Base Utf8 Regex Dec DateModel DateSpec DateProofs DateProofs2 PriceModel PriceSpec PriceProofs BookModel BookSpec BookProofs BuilderProofs
  OpsModel OpsProofs OpsProofs2 OpsProofs3 BookOpModel BookProps RegisterModel RegisterSpec RegisterProofs AccumModel AccumSpec AccumProofs AccumProofs2 AccumProofs3 AccumProps
  LoaderModel LoaderSpec GrammarSpec LoaderProps GrammarProofs GrammarProofs2 GrammarProps ExportModel ConvertModel PrintModel PrintSpec PrintProofs PrintProofs2 PrintProps RegisterText ReportSpec PrintProofs3 ReportProps
  CmdModel CmdSpec CmdProofs CmdProps CmdProps2 CmdProps3 AppendProofs BalanceSpec BalanceProofs BalanceProps PagerModel PagerSpec PagerProps RegFileSpec RegFileProofs RegFileProps
  JsonModel JsonSpec JsonProps AcctFileSpec.

Lemma means_legible is_print before es cs : means before es cs -> Forall (legible_entry is_print) es -> forall date, Forall (fun x => legible is_print (am_acct x)) (amounts date cs).
Proof.
  induction 1 as [before|before x es cs _ IH|before a n es ps cs Hbal _ IH]; intros Hr date.
  - constructor.
  - apply Forall_cons_iff in Hr as [Hx Hr]. destruct x as [dt p n|a c v n|dt u c v]; cbn [amounts legible_entry] in *; [apply IH; exact Hr|constructor; [exact Hx|apply IH; exact Hr]|apply IH; exact Hr].
  - apply Forall_cons_iff in Hr as [Hx Hr]. destruct Hbal as (cvs & Eps & _). rewrite (amounts_posts _ _ _ _ Eps). apply Forall_app. split; [|apply IH; exact Hr].
    apply Forall_forall. intros x H. apply in_map_iff in H as ([c v] & <- & _). exact Hx.
Qed.

Ltac scal := apply Forall_forall; intros c Hc; unfold scalar; vm_compute in Hc; repeat (destruct Hc as [<-|Hc]; [lia|]); contradiction.
Section Column.
  Variable is_print : Z -> bool.
  Hypothesis H32 : is_print 32 = true.
  Definition nothing_lost (ps : list piece) : Prop := Forall (fun p => match p with Char r => shown is_print r = true /\ r <> 9 /\ r <> 27 | Colour b => ~ In 109 b end) ps.
  Lemma cut_all ps : nothing_lost ps -> forall w, (length (visible is_print ps) <= w)%nat -> cut is_print w ps = ps.
  Proof.
    induction 1 as [|[r|b] ps Hp _ IH]; intros w Hw; [reflexivity| |].
    - destruct Hp as (Hp & H9 & _). cbn [visible cut] in *. rewrite Hp in *. cbn [length] in Hw. destruct w as [|w]; [lia|]. unfold untab. destruct (Z.eqb_spec r 9); [contradiction|]. f_equal. apply IH. lia.
    - cbn [visible cut] in *. f_equal. apply IH. exact Hw.
  Qed.
  Lemma nothing_ok ps : nothing_lost ps -> Forall piece_ok ps.
  Proof. apply Forall_impl. intros [r|b]; cbn [piece_ok]; tauto. Qed.
  Lemma encode_blanks n : encode (repeat 32 n) = repeat 32 n.
  Proof. induction n as [|n IH]; [reflexivity|]. change (repeat 32 (S n)) with ([32] ++ repeat 32 n). rewrite encode_app, IH. reflexivity. Qed.
  Lemma text_blanks n : text (repeat (Char 32) n) = repeat 32 n.
  Proof. induction n as [|n IH]; [reflexivity|]. cbn [repeat]. unfold text in *. cbn [map concat piece_text app]. rewrite IH. reflexivity. Qed.
  Lemma pad_names ps w : nothing_lost ps -> Forall scalar (text ps) -> (length (visible is_print ps) <= w)%nat ->
    pad_string is_print (encode (text ps)) (Z.of_nat w) true = encode (text ps) ++ repeat 32 (w - length (visible is_print ps)).
  Proof.
    intros Hl Hs Hw. destruct (C52_padding is_print (encode (text ps)) ps (Z.of_nat w) true H32 (encode_bytes _) (decode_encode _ Hs) (nothing_ok ps Hl) ltac:(lia)) as (E & _). rewrite E, Nat2Z.id.
    unfold padded. rewrite cut_all by assumption. unfold blanks_for. rewrite text_app, encode_app, text_blanks, encode_blanks. reflexivity.
  Qed.
  (** The pieces of a legible name. *)
  Lemma legible_pieces a : legible is_print a -> exists ps, a = encode (text ps) /\ nothing_lost ps /\ Forall scalar (text ps) /\ length (visible is_print ps) = characters a /\ clean a ps.
  Proof.
    intros (r & -> & Hsc & Hr). exists (map Char r). assert (Et : text (map Char r) = r) by (clear; induction r as [|c r IH]; [reflexivity|]; unfold text in *; cbn [map concat piece_text app]; rewrite IH; reflexivity).
    assert (Hn : nothing_lost (map Char r)) by (apply Forall_map; eapply Forall_impl; [|exact Hr]; cbn; unfold shown; intros c (-> & H1 & H2); auto).
    rewrite Et. split; [reflexivity|]. split; [exact Hn|]. split; [exact Hsc|]. split.
    - unfold characters. rewrite decode_encode by exact Hsc. clear - Hr. induction Hr as [|c r (H & _) _ IH]; [reflexivity|]. cbn [map visible]. unfold shown. rewrite H. cbn [orb length]. f_equal. exact IH.
    - split; [rewrite Et; reflexivity|]. split; [rewrite Et; exact Hsc|apply nothing_ok; exact Hn].
  Qed.
  Lemma heading_pieces colour : Forall (fun c => is_print c = true) (bs "Account") -> exists ps, heading_text colour (bs "Account") = encode (text ps) /\ nothing_lost ps /\ Forall scalar (text ps) /\
    length (visible is_print ps) = 7%nat /\ clean (heading_text colour (bs "Account")) ps.
  Proof.
    intros HA. assert (HS : Forall (fun c => shown is_print c = true) (bs "Account")) by (eapply Forall_impl; [|exact HA]; unfold shown; intros c ->; reflexivity).
    assert (G : forall ps, heading_text colour (bs "Account") = encode (text ps) -> nothing_lost ps -> Forall scalar (text ps) -> length (visible is_print ps) = 7%nat ->
      exists ps, heading_text colour (bs "Account") = encode (text ps) /\ nothing_lost ps /\ Forall scalar (text ps) /\ length (visible is_print ps) = 7%nat /\ clean (heading_text colour (bs "Account")) ps).
    { intros ps E1 E2 E3 E4. exists ps. split; [exact E1|]. split; [exact E2|]. split; [exact E3|]. split; [exact E4|]. split; [exact E1|]. split; [exact E3|apply nothing_ok; exact E2]. }
    assert (HN : nothing_lost (map Char (bs "Account"))).
    { apply Forall_map. apply Forall_forall. intros c Hc. rewrite Forall_forall in HS. split; [apply HS; exact Hc|]. cbn in Hc. repeat (destruct Hc as [<-|Hc]; [split; discriminate|]). contradiction. }
    assert (HV : length (visible is_print (map Char (bs "Account"))) = 7%nat).
    { change 7%nat with (length (bs "Account")). clear - HS. induction HS as [|c r H _ IH]; [reflexivity|]. cbn [map visible]. rewrite H. cbn [length]. f_equal. exact IH. }
    destruct colour.
    - apply (G (Colour (bs "[4;34") :: map Char (bs "Account") ++ [Colour (bs "[0")])).
      + reflexivity.
      + constructor; [cbn; lia|]. apply Forall_app. split; [exact HN|]. constructor; [cbn; lia|constructor].
      + scal.
      + cbn [visible]. rewrite visible_app, app_length, HV. reflexivity.
    - apply (G (map Char (bs "Account"))); [reflexivity|exact HN|scal|exact HV].
  Qed.
End Column.

Section File.
  Variable is_print : Z -> bool.
  Hypothesis H32 : is_print 32 = true.
  Hypothesis HA : Forall (fun c => is_print c = true) (bs "Account").
  Lemma longest_zmax names : zmax (map (fun a => Z.of_nat (characters a)) names) = Z.of_nat (longest names).
  Proof. induction names as [|a names IH]; [reflexivity|]. unfold zmax, longest in *. cbn [map fold_right]. rewrite IH. lia. Qed.
  Lemma longest_ge names a : In a names -> (characters a <= longest names)%nat.
  Proof. induction names as [|x names IH]; [intros []|]. unfold longest in *. cbn [map fold_right]. intros [->|H]; [lia|]. specialize (IH H). lia. Qed.
  Lemma names_printed colour tw accts : Forall (legible is_print) accts ->
    print_columns is_print tw (accts_rows colour accts) [false] = Ok (name_column colour (bs "Account") accts).
  Proof.
    intros Hl. set (table := Some [ColString (heading_text colour (bs "Account"))] :: map (fun a => Some [ColString a]) accts).
    assert (Erows : accts_rows colour accts = rows_of table).
    { unfold accts_rows, table, rows_of. cbn [map option_map]. rewrite map_map. destruct colour; reflexivity. }
    rewrite Erows. clear Erows.
    destruct (heading_pieces is_print colour HA) as (hp & Eh & Nh & Sh & Lh & Ch).
    assert (Hcells : cells_ok table).
    { intros cells v [Hc|Hc] Hv; [injection Hc as <-; destruct Hv as [<-|[]]; exact (clean_terminated _ _ Ch)|]. apply in_map_iff in Hc as (a & E & Ha). injection E as <-. destruct Hv as [<-|[]].
      rewrite Forall_forall in Hl. destruct (legible_pieces is_print a (Hl a Ha)) as (ps & _ & _ & _ & _ & C). exact (clean_terminated _ _ C). }
    assert (Hshape : well_shaped 1 table) by (constructor; [reflexivity|]; apply Forall_forall; intros x Hx; apply in_map_iff in Hx as (a & <- & _); reflexivity).
    destruct (C53_not_shrunk is_print tw table [ColString (heading_text colour (bs "Account"))] [false] H32 eq_refl ltac:(discriminate) Hshape Hcells ltac:(cbn; lia)) as (E & _ & _); [right; right; repeat constructor|].
    rewrite E. clear E. f_equal.
    assert (Hlen : forall a ps, clean a ps -> text_length is_print a = Z.of_nat (length (visible is_print ps))) by (intros a ps C; apply clean_length; exact C).
    assert (Ew : natural is_print table (length [ColString (heading_text colour (bs "Account"))]) = [Z.of_nat (longest (bs "Account" :: accts))]).
    { unfold natural. cbn [length seq map]. f_equal. rewrite <- longest_zmax. unfold widest, table. cbn [map]. unfold lengths at 1. cbn [map nth col_length]. rewrite (Hlen _ _ Ch), Lh. unfold zmax. cbn [fold_right]. f_equal.
      rewrite map_map. f_equal. apply map_ext_in. intros a Ha. unfold lengths. cbn [map nth col_length]. rewrite Forall_forall in Hl. destruct (legible_pieces is_print a (Hl a Ha)) as (ps & _ & _ & _ & L & C). rewrite (Hlen _ _ C), L. reflexivity. }
    rewrite Ew. unfold lines_of, table, table_text, name_column. cbn [map]. rewrite !map_map. cbn [PrintSpec.line_of col_pad]. rewrite !app_nil_r.
    assert (H7 : (7 <= longest (bs "Account" :: accts))%nat) by (pose proof (longest_ge (bs "Account" :: accts) (bs "Account") (or_introl eq_refl)) as H; exact H).
    apply (f_equal (@concat Z)). apply f_equal2.
    - apply f_equal2; [|reflexivity]. rewrite Eh at 1. rewrite (pad_names is_print H32 hp _ Nh Sh) by (rewrite Lh; exact H7). rewrite Lh, <- Eh. reflexivity.
    - apply map_ext_in. intros a Ha. apply f_equal2; [|reflexivity]. cbn [PrintSpec.line_of col_pad]. rewrite ?app_nil_r. rewrite Forall_forall in Hl. destruct (legible_pieces is_print a (Hl a Ha)) as (ps & Ea & N & Sc & L & C).
      assert (Hle : (length (visible is_print ps) <= longest (bs "Account" :: accts))%nat) by (rewrite L; apply longest_ge; right; exact Ha).
      rewrite Ea at 1. rewrite (pad_names is_print H32 ps _ N Sc Hle). rewrite L, <- Ea. reflexivity.
  Qed.

  Variable is_letter is_udigit : Z -> bool.
  Variable to_upper : Z -> Z.
  Variable ord : list (str * Qc) -> list str.
  Variable fs : str -> option str.
  Variable resolve : str -> str -> str.
  Variable srt : list posting -> list posting.
  Variable compile : str -> option regexp.
  Variable short : bool.

  (** ** C115. goledger accts, and accts --json: for every ledger file, the accounts that are listed and the text that is printed. *)
  Theorem C115_accounts_of_file_partial all args pat re colour tw f bytes es :
    is_letter 0 = false /\ is_udigit 0 = false -> (forall m, NoDup (akeys m) -> Permutation (ord m) (akeys m)) -> sort_ok is_less srt ->
    fs f = Some bytes -> text_at is_letter is_udigit to_upper fs resolve f [] (decode bytes) es -> Forall (legible_entry is_print) es ->
    (args = [] /\ pat = bs "^.*$" \/ args = [pat]) -> compile pat = Some re ->
    exists cs bound, means [] es cs /\ forall depth, (bound <= depth)%nat ->
      let loaded := load_book is_letter is_udigit to_upper ord fs resolve srt depth f in
      (~ all_balanced cs /\ (loaded = Panic \/ loaded = Error)) \/
      (all_balanced cs /\ exists bk accts, loaded = Ok bk /\ registered cs all (rx_match re) accts /\
         says is_print tw (accts_actions colour (accts_run compile all args bk)) (name_column colour (bs "Account") accts) Done /\
         exists s, (do l <- accts_run compile all args bk; accts_json short l) = Ok s /\ json_file exactly 1 s (JArr (map JStr accts))).
  Proof.
    intros Hn Hord Hs Hf Ht Hleg Hargs Ere.
    destruct (C88_every_ledger_loads is_letter is_udigit to_upper ord fs resolve srt f bytes es Hn Hord Hf Ht) as (cs & bnd & Hm & Hload). exists cs, bnd. split; [exact Hm|]. intros depth Hd loaded. unfold loaded. clear loaded. rewrite (Hload depth Hd).
    destruct (build_calls_cases srt Hs cs) as [(Hall & bk & Eb & _)|[Hnall Eb]].
    2:{ left. split; [exact Hnall|]. unfold build_calls in Eb. destruct (bsteps new_builder cs) as [b| | |]; cbn [obind] in *; [rewrite Eb; left; reflexivity|right; reflexivity..]. }
    right. split; [exact Hall|]. assert (El : match bsteps new_builder cs with Ok b => build srt b | _ => Error end = Ok bk).
    { unfold build_calls in Eb. destruct (bsteps new_builder cs) as [b| | |]; cbn [obind] in Eb; [exact Eb|discriminate..]. }
    rewrite El. clear El. set (accts := accounts (rx_match re) (negb all) bk). exists bk, accts. split; [reflexivity|].
    assert (Hl : Forall (legible is_print) accts).
    { apply Forall_forall. intros a Ha. unfold accts in Ha. assert (In a (accounts (rx_match re) false bk)) as Ha'. { apply accounts_In. apply accounts_In in Ha as (v & E & _). exists v. split; [exact E|discriminate]. }
      apply accounts_all in Ha' as (_ & p & Hin & <-). destruct (post_amount srt Hs cs bk Eb p Hin) as (x & Hx & _ & <- & _). pose proof (means_legible _ _ _ _ Hm Hleg (-1)) as Hmp. rewrite Forall_forall in Hmp. exact (Hmp x Hx). }
    assert (Erun : accts_run compile all args bk = Ok accts).
    { unfold accts_run, list_accounts. destruct Hargs as [[-> Ep]| ->]; [rewrite <- Ep|]; rewrite Ere; reflexivity. }
    split; [apply (reg_accounts srt Hs cs bk Eb)|]. rewrite Erun. split.
    - pose proof (names_printed colour tw accts Hl) as Ep. unfold accts_actions. cbn [stop]. apply says_new. rewrite <- (app_nil_r (name_column colour (bs "Account") accts)). apply says_table; [exact Ep|apply says_end].
    - cbn [obind]. apply C98_accounts. eapply Forall_impl; [|exact Hl]. intros a (r & -> & Hsc & _). exists r. split; [reflexivity|exact Hsc].
  Qed.
End File.
Print Assumptions C115_accounts_of_file_partial.

Lemma plain_legible a : plain_name a -> legible x_print a.
Proof.
  intros H. assert (B : forall c, In c a -> 32 <= c < 127).
  { intros c Hc. unfold plain_name in H. rewrite Forall_forall in H. specialize (H c Hc). unfold plain_char in H. cbn [In] in H. lia. }
  exists a. split; [symmetry; apply encode_ascii; apply Forall_forall; intros c Hc; specialize (B c Hc); lia|]. split; apply Forall_forall; intros c Hc; specialize (B c Hc).
  - unfold scalar. lia.
  - unfold x_print. split; [|lia]. apply andb_true_iff. split; [apply Z.leb_le; lia|apply negb_true_iff, Z.eqb_neq; lia].
Qed.
(** The compiler of CmdProps3, which does not know "*", and the default pattern. *)
Definition a_compile (s : str) : option regexp := if str_eqb s (bs "^.*$") then Some (mkRe (fun _ => true) (fun _ r => r)) else x_compile s.
Definition ex115 (all : bool) (args : list str) (colour : bool) : world * status * bool :=
  command x_print no_tty (accts_actions colour (do b <- load_book x_letter digit upc x_order x_fs110 x_join xsort 1 (bs "m"); accts_run a_compile all args b)).
Example C115_nonvacuous : (exists es, text_at x_letter digit upc x_fs110 x_join (bs "m") [] (decode ex110) es /\ Forall (legible_entry x_print) es) /\
  x_print 32 = true /\ Forall (fun c => x_print c = true) (bs "Account") /\ (exists re, a_compile (bs "^.*$") = Some re) /\
  ex115 false [] false = (mkWorld (table_text [bs "Account "; bs "Cash    "; bs "Exp:Food"; bs "Exp:Fun "]) None, Done, false) /\
  ex115 true [bs "a"] true = (mkWorld (table_text [27 :: bs "[4;34mAccount" ++ 27 :: bs "[0m"; bs "Bank   "; bs "Cash   "]) None, Done, false).
Proof.
  split. { destruct ex112_text as (es & Ht & _ & _ & Hp). exists es. split; [exact Ht|]. eapply Forall_impl; [|exact Hp]. intros [[d p n|a c v n|d u c v]|a n]; cbn; try exact (fun H => H); apply plain_legible. }
  split; [reflexivity|]. split; [apply Forall_forall; intros c Hc; vm_compute in Hc; repeat (destruct Hc as [<-|Hc]; [reflexivity|]); contradiction|]. split; [eexists; reflexivity|]. split; vm_compute; reflexivity.
Qed.

(** Expected: every account with money is listed. An account with 5 GBP is missing because its last posting, in another currency, leaves that currency at zero. *)
Definition ex115_two : str :=
  bs "2024/01/05 Pay" ++ nl ++ bs " Cash  5 GBP" ++ nl ++ bs " Cash  3 USD" ++ nl ++ bs " Bank" ++ nl ++
  bs "2024/01/06 Buy" ++ nl ++ bs " Shop  3 USD" ++ nl ++ bs " Cash" ++ nl.
Theorem C115_money_hidden_refuted : exists bk, x_load [(bs "m", ex115_two)] (bs "m") = Ok bk /\
  this (total (in_acct (bs "Cash") (bs "GBP")) (bk_post bk)) = (5 # 1)%Q /\
  accts_run a_compile false [] bk = Ok [bs "Bank"; bs "Shop"].
Proof. eexists. split; [vm_compute; reflexivity|]. split; vm_compute; reflexivity. Qed.
Print Assumptions C115_money_hidden_refuted.
