(** * CmdProps2: C90 (the register command). *)
From Verif Require Import Base Regex Dec DateModel DateSpec DateProofs DateProofs2 PriceModel PriceSpec PriceProofs BookModel BookSpec BookProofs BuilderProofs
  OpsModel OpsProofs OpsProofs2 OpsProofs3 BookOpModel BookProps RegisterModel RegisterSpec RegisterProofs RegisterProps CmdModel CmdSpec CmdProofs CmdProps.

(** A pattern of plain characters between ^ and $ matches just its text. *)
Definition literal (compile : str -> option regexp) : Prop :=
  forall a, plain_name a -> exists re, compile (bs "^" ++ a ++ bs "$") = Some re /\ forall t, rx_match re t = str_eqb t a.

Definition lim (o : option Z) : Z := match o with None => 0 | Some d => d end.
Lemma bound_lim today s d : bound s d -> date_from_string today s = lim d /\ (d = None \/ exists x, d = Some x /\ 0 < x).
Proof.
  intros [|x V L]; [split; [reflexivity|left; reflexivity]|]. split; [apply date_string_roundtrip; assumption|]. right. exists x. split; [reflexivity|].
  destruct V as (y & m & dd & V & ->). apply valid_bounds in V as B. unfold ymd. destruct V as (H1 & H2 & H3). lia.
Qed.
Lemma window_sub lo hi es : (lo = None \/ exists x, lo = Some x /\ 0 < x) -> (hi = None \/ exists x, hi = Some x /\ 0 < x) ->
  sublist_of (fun e => in_window lo hi (e_date e)) es (filter (fun e => ((lim lo =? 0) || (lim lo <=? e_date e)) && ((lim hi =? 0) || (e_date e <? lim hi))) es).
Proof.
  intros Hlo Hhi. induction es as [|e es IH]; [constructor|]. cbn [filter].
  assert (H : in_window lo hi (e_date e) <-> ((lim lo =? 0) || (lim lo <=? e_date e)) && ((lim hi =? 0) || (e_date e <? lim hi)) = true).
  { unfold in_window. rewrite andb_true_iff, !orb_true_iff, !Z.eqb_eq, Z.leb_le, Z.ltb_lt.
    destruct Hlo as [->|(x & -> & Hx)]; destruct Hhi as [->|(y & -> & Hy)]; cbn [lim]; split; intros (A & B); split; intros; try discriminate; try (left; reflexivity);
      repeat match goal with H : Some _ = Some _ |- _ => injection H as <- end; try (destruct A; lia); try (destruct B; lia); try (right; auto). }
  destruct (_ && _) eqn:E; [apply so_yes; [apply H; reflexivity|exact IH]|apply so_no; [rewrite H; discriminate|exact IH]].
Qed.

Section Register.
  Variable srt : list posting -> list posting.
  Hypothesis Hs : sort_ok is_less srt.
  Variable compile : str -> option regexp.
  Variable parse_float : str -> option Qc.
  Variable today : Z.
  Variable ploop : (pair -> pair) -> pbook -> pbook.
  Variable macros : str -> option (list str).
  Variable fuel : nat.
  Variable base : str.
  Variable all : bool.
  Notation register := (register_run srt compile parse_float today ploop macros fuel base all).
  Notation ops := (ops_of srt compile parse_float today ploop macros fuel).

  Lemma convert_if_ok c b b0 : book_ok b -> convert_if c base b = Ok b0 -> book_ok b0.
  Proof.
    intros H E. unfold convert_if in E. destruct c; [|injection E as <-; exact H]. destruct (str_eqb base []); [discriminate|]. unfold convert_book in E. destruct (forallb _ _); [|discriminate]. injection E as <-. apply map_amount_ok. exact H.
  Qed.
  Lemma one_register_spec o m b lo hi : book_ok b -> readable b -> bound (go_begin o) lo -> bound (go_end o) hi ->
    exists rep full, one_register srt today base o m b = Ok (compact srt b, rep) /\ sublist_of (fun e => in_window lo hi (e_date e)) full rep /\ register_of m (go_split o) (snd (transactions srt b)) full.
  Proof.
    intros Hok (H1 & H2 & H3) Blo Bhi.
    destruct (register_complete_ok srt base m (go_split o) b Hs Hok H1 H2) as (b' & es & blocks & E & C & F).
    { intros t p Ht Hp. unfold transactions in Ht. cbn [snd] in Ht. pose proof (compact_book_ok srt Hs b Hok) as (_ & Hcat & _). assert (Hpp : In p (bk_post (compact srt b))) by (rewrite <- Hcat; apply in_concat; eauto).
      destruct (bk_post b) as [|x0 l0] eqn:E3; [rewrite compact_nil in Hpp by exact E3; rewrite E3 in Hpp; contradiction|]. rewrite compact_eq in Hpp by (rewrite E3; discriminate). cbn [bk_post] in Hpp. rewrite E3 in Hpp. apply (cposts_pkey_in srt Hs) in Hpp as (q & Hq & Ek).
      apply pkey_eq in Ek as (<- & _). apply H3. exact Hq. }
    pose proof (register_amounts_ok srt base m (go_split o) b b' es Hs Hok E) as (Eb & bl & Cb & Fb). pose proof (register_balances_ok srt base m (go_split o) b b' es Hs Hok E) as (B1 & B2).
    destruct (bound_lim today _ _ Blo) as (L1 & L2). destruct (bound_lim today _ _ Bhi) as (L3 & L4).
    pose proof (register_window_ok srt base m (go_split o) b b' es (lim lo) (lim hi) Hs Hok E) as W. eexists. exists es. unfold one_register. rewrite E. cbn [obind]. rewrite L1, L3, W. cbn [obind].
    split; [rewrite Eb; reflexivity|]. split; [apply window_sub; assumption|]. split; [exists bl; split; assumption|]. split; [exact B1|].
    intros c. rewrite B2. pose proof (compact_book_ok srt Hs b Hok) as (_ & Hcat & _). unfold transactions. cbn [snd]. rewrite Hcat. rewrite <- (compact_total srt Hs). reflexivity.
  Qed.
  Lemma readable_compact b : book_ok b -> readable b -> readable (compact srt b).
  Proof.
    intros Hok (H1 & H2 & H3). destruct (bk_post b) as [|x0 l0] eqn:E3; [rewrite compact_nil by exact E3; split; [exact H1|split; [exact H2|rewrite E3; contradiction]]|].
    assert (Ep : bk_prices (compact srt b) = bk_prices b) by (unfold compact; rewrite E3; reflexivity). split; [rewrite Ep; exact H1|]. split; [rewrite Ep; exact H2|]. intros p Hpp.
    rewrite compact_eq in Hpp by (rewrite E3; discriminate). cbn [bk_post] in Hpp. apply (cposts_pkey_in srt Hs) in Hpp as (q & Hq & Ek). apply pkey_eq in Ek as (<- & _). apply H3. rewrite <- E3. exact Hq.
  Qed.
  Lemma registers_spec o lo hi : literal compile -> bound (go_begin o) lo -> bound (go_end o) hi -> forall accts b ts, book_ok b -> readable b -> snd (transactions srt b) = ts -> Forall plain_name accts ->
    exists l, registers srt compile today base o accts b = Ok l /\ map fst l = accts /\
      Forall (fun s => exists full, sublist_of (fun e => in_window lo hi (e_date e)) full (snd s) /\ register_of (fun x => str_eqb x (fst s)) (go_split o) ts full) l.
  Proof.
    intros Hl Blo Bhi. induction accts as [|a accts IH]; intros b ts Hok Hr Ht Hp; [exists []; split; [reflexivity|split; [reflexivity|constructor]]|]. inversion Hp as [|? ? Ha Hp']; subst.
    destruct (Hl a Ha) as (re & Ere & Hm). destruct (one_register_spec o (rx_match re) b lo hi Hok Hr Blo Bhi) as (rep & full & E & W & R).
    destruct (IH (compact srt b) (snd (transactions srt b)) (compact_book_ok srt Hs b Hok) (readable_compact b Hok Hr)) as (l & El & Fl & Hl'); [|exact Hp'|].
    { unfold transactions. cbn [snd]. rewrite compact_idem; [reflexivity|exact Hs|apply Hok]. }
    exists ((a, rep) :: l). cbn [registers]. rewrite Ere, E. cbn [obind]. rewrite El. cbn [obind]. split; [reflexivity|]. split; [cbn [map fst]; rewrite Fl; reflexivity|]. constructor; [|exact Hl'].
    exists full. cbn [fst snd]. split; [exact W|]. destruct R as ((bl & C & F) & R2 & R3).
    assert (Em : forall ts, matching (rx_match re) ts = matching (fun x => str_eqb x a) ts). { intros ts. unfold matching. apply flat_map_ext. intros t. f_equal. apply filter_ext. intros p. apply Hm. }
    split; [exists bl; rewrite <- Em; auto|]. split; [exact R2|]. intros c. rewrite R3. do 2 f_equal. apply filter_ext. intros p. rewrite Hm. reflexivity.
  Qed.

  (** ** C90. The register command: for each account that matches the pattern, in alphabetical order, one register of exactly the postings of that account, of
      the days from --begin on and before --asof. *)
  Theorem C90_register_partial o args pat re b b0 b1 lo hi : reachable srt b -> convert_if (go_convert o) base b = Ok b0 -> ops args b0 = Ok b1 -> readable b1 ->
    compile pat = Some re -> literal compile -> (forall p, In p (bk_post b1) -> plain_name (p_acct p)) -> bound (go_begin o) lo -> bound (go_end o) hi -> go_combined o = false ->
    exists accts secs, register o args pat b = Ok (combine (map Some accts) secs) /\
      StronglySorted (fun a a' => str_cmp a a' = Lt) accts /\
      (all = true -> forall a, In a accts <-> rx_match re a = true /\ exists p, In p (bk_post b1) /\ p_acct p = a) /\
      (all = false -> running (bk_post b1) -> (forall p q, In p (bk_post b1) -> In q (bk_post b1) -> p_acct p = p_acct q -> p_ccy p = p_ccy q) ->
         forall a, In a accts <-> rx_match re a = true /\ exists c, total (in_acct a c) (bk_post b1) <> 0%Qc) /\
      Forall2 (fun a es => exists full, sublist_of (fun e => in_window lo hi (e_date e)) full es /\ register_of (fun x => str_eqb x a) (go_split o) (snd (transactions srt b1)) full) accts secs.
  Proof.
    intros Hb E0 E1 Hr Ere Hl Hp Blo Bhi Hc. apply (reachable_ok srt Hs) in Hb. pose proof (convert_if_ok _ _ _ Hb E0) as Hok0. apply (ops_of_ok srt Hs) in E1 as Hok; [|exact Hok0].
    set (accts := accounts (rx_match re) (negb all) b1).
    assert (Hpl : Forall plain_name accts).
    { apply Forall_forall. intros a Ha. unfold accts in Ha. assert (In a (accounts (rx_match re) false b1)) as Ha'. { apply accounts_In. apply accounts_In in Ha as (v & E & _). exists v. split; [exact E|discriminate]. } apply accounts_all in Ha' as (_ & p & Hin & <-). apply Hp. exact Hin. }
    destruct (registers_spec o lo hi Hl Blo Bhi accts b1 _ Hok Hr eq_refl Hpl) as (l & El & Fl & Hl'). exists accts, (map snd l). split; [|split; [apply accounts_strict|split; [|split]]].
    - unfold register_run. rewrite E0. cbn [obind]. rewrite E1. cbn [obind]. rewrite Hc. unfold list_accounts. rewrite Ere. cbn [obind]. fold accts. rewrite El. cbn [obind]. f_equal. rewrite <- Fl. clear. induction l as [|[a es] l IH]; [reflexivity|]. cbn [map combine fst snd]. rewrite IH. reflexivity.
    - intros Ha a. unfold accts. rewrite Ha. apply accounts_all.
    - intros Ha Hrun H1 a. unfold accts. rewrite Ha. apply accounts_balance; assumption.
    - rewrite <- Fl. clear - Hl'. induction Hl' as [|s l H _ IH]; constructor; assumption.
  Qed.
  (** --combined: one register of the postings of all the accounts that match. *)
  Theorem C90_combined_partial o args pat re b b0 b1 lo hi : reachable srt b -> convert_if (go_convert o) base b = Ok b0 -> ops args b0 = Ok b1 -> readable b1 ->
    compile pat = Some re -> bound (go_begin o) lo -> bound (go_end o) hi -> go_combined o = true ->
    exists es full, register o args pat b = Ok [(None, es)] /\ sublist_of (fun e => in_window lo hi (e_date e)) full es /\ register_of (rx_match re) (go_split o) (snd (transactions srt b1)) full.
  Proof.
    intros Hb E0 E1 Hr Ere Blo Bhi Hc. apply (reachable_ok srt Hs) in Hb. pose proof (convert_if_ok _ _ _ Hb E0) as Hok0. apply (ops_of_ok srt Hs) in E1 as Hok; [|exact Hok0].
    destruct (one_register_spec o (rx_match re) b1 lo hi Hok Hr Blo Bhi) as (rep & full & E & W & R). exists rep, full. split; [|split; assumption].
    unfold register_run. rewrite E0. cbn [obind]. rewrite E1. cbn [obind]. rewrite Hc, Ere, E. reflexivity.
  Qed.
End Register.
Print Assumptions C90_register_partial.
Print Assumptions C90_combined_partial.

(** --convert: every amount becomes its worth in the base currency on its own day. *)
Theorem C90_convert_partial : forall base b, base <> [] -> readable b ->
  exists b0, convert_if true base b = Ok b0 /\
    Forall2 (fun p q => p_date q = p_date p /\ p_payee q = p_payee p /\ p_acct q = p_acct p /\ p_ccy q = base /\
      exists r, worth (bk_prices b) (p_date p) (p_ccy p) base r /\ p_val q = (p_val p * r)%Qc) (bk_post b) (bk_post b0).
Proof.
  intros base b Hb (H1 & H2 & H3). unfold convert_if. destruct (str_eqb_spec base []); [contradiction|]. rewrite convert_ok by assumption. eexists. split; [reflexivity|].
  cbn [map_amount bk_post]. assert (H : forall l, (forall p, In p l -> valid_date (p_date p)) -> Forall2 (fun p q => p_date q = p_date p /\ p_payee q = p_payee p /\ p_acct q = p_acct p /\ p_ccy q = base /\
      exists r, worth (bk_prices b) (p_date p) (p_ccy p) base r /\ p_val q = (p_val p * r)%Qc) l (map (amount_of (fun d c => (rate (bk_prices b) base d c, base))) l)).
  { induction l as [|p l IH]; intros Hv; [constructor|]. cbn [map]. constructor; [|apply IH; intros q Hq; apply Hv; right; exact Hq]. repeat (split; [reflexivity|]). exists (rate (bk_prices b) base (p_date p) (p_ccy p)). split; [apply rate_worth; [exact H1|exact H2|apply Hv; left; reflexivity]|reflexivity]. }
  apply H. exact H3.
Qed.
Print Assumptions C90_convert_partial.
