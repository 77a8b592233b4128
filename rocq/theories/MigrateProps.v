(** * MigrateProps: C109, goledger export as a way to move a ledger to a new file, as commands on files. *)
From Verif Require Import Base Utf8 Dec Regex DateModel PriceModel BookModel BookSpec BookProofs BuilderProofs OpsModel BookProps BookOpModel LoaderProofs4 AppendProps2 DataExportModel
  LoaderModel LoaderSpec LoaderProofs LoaderProofs5 LoaderProps DetSpec DetModel DetProofs3 DetProofs4 CmdModel CmdProofs ExportModel ExportSpec ExportProofs3 ExportProps.
From Coq Require Import ZifyBool ZifyNat Zify.
Ltac Zify.zify_post_hook ::= idtac.

(** The conditions of ExportSpec for a whole book. *)
Definition exportable (srt : list posting -> list posting) (b : book) : Prop :=
  let ts := snd (transactions srt b) in
  Forall (exportable_post (decs_for (bk_ccy b))) (concat ts) /\ Forall one_note ts /\ exportable_prices (decs_for (bk_ccy b)) (bk_prices b).
(** [bk] shows the same transactions and the same prices as [b]. *)
Definition same_ledger (srt : list posting -> list posting) (b bk : book) : Prop :=
  map (map facts) (snd (transactions srt bk)) = map (map facts) (snd (transactions srt b)) /\
  forall k, aget pair_eqb k (bk_prices bk) = aget pair_eqb k (bk_prices b).
(** The same text up to the order of the price lists. *)
Definition same_text (s t : str) : Prop := exists head ps qs, s = head ++ concat ps /\ t = head ++ concat qs /\ Permutation ps qs.

Section Migrate.
  Variable is_letter is_udigit : Z -> bool.
  Variable to_upper : Z -> Z.
  Variable ord : list (str * Qc) -> list str.
  Variable resolve : str -> str -> str.
  Variable f64 : Qc -> Qc.
  Variable srt : list posting -> list posting.
  Variable compile : str -> option regexp.
  Variable parse_float : str -> option Qc.
  Variable today : Z.
  Variable ploop : (pair -> pair) -> pbook -> pbook.
  Variable macros : str -> option (list str).
  Variable fuel : nat.
  Variables base : str.
  Variables title upper : str -> str.
  Variable order_accts : list (str * acct_info) -> list (str * acct_info).
  Hypothesis Hu : unicode_ok is_letter is_udigit to_upper.
  Hypothesis Hord : some_order ord.
  Hypothesis Hs : sort_ok is_less srt.
  Hypothesis Hf : float64_ok f64.
  Notation loads fs f depth b := (load_book is_letter is_udigit to_upper ord fs resolve srt depth f = Ok b) (only parsing).
  Notation ops args b := (ops_of srt compile parse_float today ploop macros fuel args b) (only parsing).
  Notation exported order type args b := (export_run srt compile parse_float today ploop macros fuel base f64 is_letter title upper order_accts order type args b) (only parsing).
  Definition other_type (type : str) : Prop := ~ In type [bs "Json"; bs "CSV"; bs "Beancount"].
  Definition pair_order (order : pbook -> list (str * str)) : Prop := forall pb, Permutation (order pb) (map fst pb).

  Lemma export_as type order args b b1 : other_type type -> ops args b = Ok b1 ->
    exported order type args b = do s <- export_ledger f64 is_letter srt order b1; Ok (XLedger s).
  Proof.
    intros Ht E. unfold export_run. rewrite E. cbn [obind]. assert (N : forall s, In s [bs "Json"; bs "CSV"; bs "Beancount"] -> str_eqb type s = false) by (intros s Hin; apply str_eqb_neq; intros ->; contradiction).
    rewrite !N by (cbn [In]; auto). reflexivity.
  Qed.
  Lemma strip_facts t : map facts (map strip t) = map facts t.
  Proof. rewrite map_map. reflexivity. Qed.
  Lemma show_strip decs ts : show_all f64 is_letter decs (map (map strip) ts) = show_all f64 is_letter decs ts.
  Proof.
    assert (P : forall t, show_posts f64 is_letter decs (map strip t) = show_posts f64 is_letter decs t) by (induction t as [|p t IH]; [reflexivity|]; cbn [map show_posts]; rewrite IH; reflexivity).
    induction ts as [|t ts IH]; [reflexivity|]. cbn [map show_all]. rewrite IH. destruct t as [|p t]; [reflexivity|]. cbn [map show_trans]. change (strip p :: map strip t) with (map strip (p :: t)). rewrite P. reflexivity.
  Qed.
  Lemma show_prices_ext decs pb1 pb2 l : (forall k, aget pair_eqb k pb1 = aget pair_eqb k pb2) -> show_prices f64 is_letter decs pb1 l = show_prices f64 is_letter decs pb2 l.
  Proof. intros H. induction l as [|[u c] l IH]; [reflexivity|]. cbn [show_prices]. rewrite H, IH. reflexivity. Qed.
  Lemma same_keys (m1 m2 : pbook) : NoDup (map fst m1) -> NoDup (map fst m2) -> (forall k, aget pair_eqb k m1 = aget pair_eqb k m2) -> Permutation (map fst m1) (map fst m2).
  Proof.
    intros H1 H2 H. apply NoDup_Permutation; [exact H1|exact H2|].
    assert (A : forall m m' : pbook, NoDup (map fst m) -> (forall k, aget pair_eqb k m = aget pair_eqb k m') -> forall k, In k (map fst m) -> In k (map fst m')).
    { intros m m' Hm E k Hk. apply in_map_iff in Hk as ([k' l] & <- & Hin). cbn [fst]. apply (aget_Some_iff _ pair_eqb_eq) in Hin; [|exact Hm]. rewrite E in Hin.
      apply aget_In in Hin; [|exact pair_eqb_eq]. apply in_map_iff. exists (k', l). split; [reflexivity|exact Hin]. }
    intros k. split; apply A; try assumption. intros; symmetry; apply H.
  Qed.
  Lemma compact_prices b : bk_prices (compact srt b) = bk_prices b.
  Proof. unfold compact. destruct (bk_post b); reflexivity. Qed.
  Lemma compact_ccy b : bk_ccy (compact srt b) = bk_ccy b.
  Proof. unfold compact. destruct (bk_post b); reflexivity. Qed.

  (** The text that is exported from the reloaded book, when the decimals have not changed. *)
  Lemma again order order' b bk ts text : pair_order order -> pair_order order' -> snd (transactions srt b) = ts -> bk_trans bk = map (map strip) ts -> snd (transactions srt bk) = bk_trans bk ->
    NoDup (map fst (bk_prices b)) -> NoDup (map fst (bk_prices bk)) -> (forall k, aget pair_eqb k (bk_prices bk) = aget pair_eqb k (bk_prices b)) ->
    (forall c, aget str_eqb c (bk_ccy bk) = aget str_eqb c (bk_ccy b)) ->
    export_ledger f64 is_letter srt order b = Ok text -> exists text', export_ledger f64 is_letter srt order' bk = Ok text' /\ same_text text text'.
  Proof.
    intros Ho Ho' Ets T1 T2 Nb Nk Hp Hd E. unfold export_ledger in *. destruct (transactions srt b) as [b' ts'] eqn:Eb. cbn [snd] in Ets. subst ts'.
    assert (Eb' : bk_prices b' = bk_prices b) by (unfold transactions in Eb; injection Eb as <- _; apply compact_prices).
    destruct (transactions srt bk) as [k' tk] eqn:Ek. cbn [snd] in T2. subst tk. assert (Ek' : bk_prices k' = bk_prices bk) by (unfold transactions in Ek; injection Ek as <- _; apply compact_prices).
    rewrite T1, show_strip, (dec_all (bk_ccy bk) (bk_ccy b) Hd), (dec_prices (bk_ccy bk) (bk_ccy b) Hd). rewrite Eb', Ek' in *.
    destruct (show_all f64 is_letter (bk_ccy b) ts) as [a| | |]; cbn [obind] in *; try discriminate.
    rewrite (show_prices_ext (bk_ccy b) (bk_prices bk) (bk_prices b) _ Hp).
    assert (P : Permutation (order (bk_prices b)) (order' (bk_prices bk))) by (rewrite (Ho (bk_prices b)), (Ho' (bk_prices bk)); apply same_keys; [exact Nb|exact Nk|intros k; symmetry; apply Hp]).
    pose proof (show_prices_perm f64 is_letter (bk_ccy b) (bk_prices b) _ _ P) as H.
    destruct (show_prices f64 is_letter (bk_ccy b) (bk_prices b) (order (bk_prices b))) as [s| | |]; cbn [obind] in E; try discriminate.
    destruct (show_prices f64 is_letter (bk_ccy b) (bk_prices b) (order' (bk_prices bk))) as [t| | |]; cbn [both] in H; try contradiction.
    destruct H as (ps & qs & -> & -> & Pq). injection E as <-. cbn [obind]. eexists. split; [reflexivity|]. exists (a ++ [10] ++ bs "; Prices" ++ [10]), ps, qs. rewrite <- !app_assoc. auto.
  Qed.

  (** Loading a ledger, applying the operations and exporting it gives a file which, when it is loaded, shows the same ledger as was exported. *)
  Theorem C109_export_command_partial : forall fs f depth b args b1 order type, pair_order order -> other_type type ->
    loads fs f depth b -> ops args b = Ok b1 -> exportable srt b1 ->
    exists text, exported order type args b = Ok (XLedger text) /\
      forall fs' f', fs' f' = Some text -> exists bk bound, forall depth', (bound <= depth')%nat -> loads fs' f' depth' bk /\ same_ledger srt b1 bk.
  Proof.
    intros fs f depth b args b1 order type Ho Ht Hl Ha (X1 & X2 & X3).
    assert (Hok : book_ok b1) by (eapply (ops_of_ok srt Hs); [apply (C47_loaded_book_is_balanced _ _ _ _ _ _ _ _ _ _ Hs Hl)|exact Ha]).
    destruct (export_reload is_letter is_udigit to_upper ord resolve f64 srt order b1 _ Hu Hord Ho Hs Hf Hok eq_refl X1 X2 X3) as (text & E & H).
    exists text. split; [rewrite (export_as type order args b b1 Ht Ha), E; reflexivity|]. intros fs' f' Hfs. destruct (H fs' f' Hfs) as (bk & bound & Hb). exists bk, bound. intros depth' Hd.
    destruct (Hb depth' Hd) as (L & T1 & _ & T2 & _ & T3 & _). split; [exact L|]. split; [|exact T3]. rewrite T2, T1, map_map. apply map_ext. intros t. apply strip_facts.
  Qed.

  (** Exporting the new file gives the new file again, if no currency has changed its number of decimals. *)
  Theorem C109_again_partial : forall fs f depth b args b1 order order' type text fs' f' depth' bk, pair_order order -> pair_order order' -> other_type type ->
    loads fs f depth b -> ops args b = Ok b1 -> exportable srt b1 -> exported order type args b = Ok (XLedger text) ->
    fs' f' = Some text -> loads fs' f' depth' bk -> (forall c, aget str_eqb c (bk_ccy bk) = aget str_eqb c (bk_ccy b1)) ->
    exists text', exported order' type [] bk = Ok (XLedger text') /\ same_text text text'.
  Proof.
    intros fs f depth b args b1 order order' type text fs' f' depth' bk Ho Ho' Ht Hl Ha (X1 & X2 & X3) Ex Hfs Hbk Hd.
    assert (Hok : book_ok b1) by (eapply (ops_of_ok srt Hs); [apply (C47_loaded_book_is_balanced _ _ _ _ _ _ _ _ _ _ Hs Hl)|exact Ha]).
    destruct (export_reload is_letter is_udigit to_upper ord resolve f64 srt order b1 _ Hu Hord Ho Hs Hf Hok eq_refl X1 X2 X3) as (text0 & E & H).
    rewrite (export_as type order args b b1 Ht Ha), E in Ex. cbn [obind] in Ex. injection Ex as ->. destruct (H fs' f' Hfs) as (bk0 & bound & Hb).
    assert (Hsame : bk0 = bk).
    { destruct (Hb (Nat.max bound depth') ltac:(lia)) as (L & _). unfold load_book in *. destruct (parse_file is_letter is_udigit to_upper ord fs' resolve depth' new_builder f' []) as [u| | |] eqn:Eu; try discriminate.
      rewrite (parse_file_mono is_letter is_udigit to_upper ord fs' resolve depth' (Nat.max bound depth') new_builder f' [] u ltac:(lia) Eu) in L. congruence. }
    subst bk0. destruct (Hb bound (Nat.le_refl _)) as (_ & T1 & _ & T2 & T5 & T3 & _).
    destruct (again order order' b1 bk _ text Ho Ho' eq_refl T1 T2 (proj1 X3) T5 T3 Hd E) as (text' & E' & Hst).
    exists text'. split; [|exact Hst]. rewrite (export_as type order' [] bk bk Ht ltac:(reflexivity)), E'. reflexivity.
  Qed.

  (** From the second export on the file does not change any more: [bk1] is loaded from an export, [text2] is its export, [bk2] is loaded from it. *)
  Theorem C109_settled_partial : forall fs f depth b args b1 order0 order1 order2 type text1 fs1 f1 depth1 bk1 text2 fs2 f2 depth2 bk2,
    pair_order order0 -> pair_order order1 -> pair_order order2 -> other_type type ->
    loads fs f depth b -> ops args b = Ok b1 -> exportable srt b1 -> exported order0 type args b = Ok (XLedger text1) ->
    fs1 f1 = Some text1 -> loads fs1 f1 depth1 bk1 -> exportable srt bk1 -> exported order1 type [] bk1 = Ok (XLedger text2) ->
    fs2 f2 = Some text2 -> loads fs2 f2 depth2 bk2 ->
    exists text3, exported order2 type [] bk2 = Ok (XLedger text3) /\ same_text text2 text3.
  Proof.
    intros fs f depth b args b1 order0 order1 order2 type text1 fs1 f1 depth1 bk1 text2 fs2 f2 depth2 bk2 Ho0 Ho1 Ho2 Ht Hl Ha (X1 & X2 & X3) Ex Hfs1 Hbk1 (Y1 & Y2 & Y3) Ex2 Hfs2 Hbk2.
    assert (Hok : book_ok b1) by (eapply (ops_of_ok srt Hs); [apply (C47_loaded_book_is_balanced _ _ _ _ _ _ _ _ _ _ Hs Hl)|exact Ha]).
    assert (Uniq : forall fs f bk bk0 d bound, loads fs f d bk -> (forall d', (bound <= d')%nat -> loads fs f d' bk0) -> bk0 = bk).
    { clear. intros fs f bk bk0 d bound Hbk H. specialize (H (Nat.max bound d) ltac:(lia)). unfold load_book in *. destruct (parse_file is_letter is_udigit to_upper ord fs resolve d new_builder f []) as [u| | |] eqn:Eu; try discriminate.
      rewrite (parse_file_mono is_letter is_udigit to_upper ord fs resolve d (Nat.max bound d) new_builder f [] u ltac:(lia) Eu) in H. congruence. }
    destruct (export_reload is_letter is_udigit to_upper ord resolve f64 srt order0 b1 _ Hu Hord Ho0 Hs Hf Hok eq_refl X1 X2 X3) as (t0 & E0 & H0).
    rewrite (export_as type order0 args b b1 Ht Ha), E0 in Ex. cbn [obind] in Ex. injection Ex as ->. destruct (H0 fs1 f1 Hfs1) as (k1 & bound1 & Hb1).
    assert (k1 = bk1) by (eapply Uniq; [exact Hbk1|intros d' Hd'; apply (Hb1 d' Hd')]). subst k1. destruct (Hb1 bound1 (Nat.le_refl _)) as (_ & T1 & _ & T2 & T5 & T3 & T4).
    pose proof (C47_loaded_book_is_balanced _ _ _ _ _ _ _ _ _ _ Hs Hbk1) as (_ & Hok1 & _).
    destruct (export_reload is_letter is_udigit to_upper ord resolve f64 srt order1 bk1 _ Hu Hord Ho1 Hs Hf Hok1 eq_refl Y1 Y2 Y3) as (t1 & E1 & H1).
    rewrite (export_as type order1 [] bk1 bk1 Ht ltac:(reflexivity)), E1 in Ex2. cbn [obind] in Ex2. injection Ex2 as ->. destruct (H1 fs2 f2 Hfs2) as (k2 & bound2 & Hb2).
    assert (k2 = bk2) by (eapply Uniq; [exact Hbk2|intros d' Hd'; apply (Hb2 d' Hd')]). subst k2. destruct (Hb2 bound2 (Nat.le_refl _)) as (_ & U1 & _ & U2 & U5 & U3 & U4).
    assert (Hd : forall c, aget str_eqb c (bk_ccy bk2) = aget str_eqb c (bk_ccy bk1)).
    { intros c. rewrite U4, T4, T2, T1, <- concat_map, map_map. reflexivity. }
    destruct (again order1 order2 bk1 bk2 _ text2 Ho1 Ho2 eq_refl U1 U2 (proj1 Y3) U5 U3 Hd E1) as (text' & E' & Hst).
    exists text'. split; [|exact Hst]. rewrite (export_as type order2 [] bk2 bk2 Ht ltac:(reflexivity)), E'. reflexivity.
  Qed.
End Migrate.
Print Assumptions C109_export_command_partial.
Print Assumptions C109_again_partial.
Print Assumptions C109_settled_partial.

(** ** The second export can change amounts. The first has three decimals because of a posting that was merged away. *)
Definition m_compile (_ : str) : option regexp := None.
Definition m_export (text : str) : outcome exported :=
  do b <- x_load [(bs "m", text)] (bs "m");
  export_run xsort m_compile (fun _ => None) 20200101 (fun _ pb => pb) (fun _ => None) 5 (bs "GBP") x_f64 x_letter (fun s => s) (fun s => s) (fun l => l) x_order2 (bs "Ledger") [] b.
Definition m_eighth (n : str) : str := bs "2020/01/01 x" ++ nl ++ bs "  a  GBP " ++ n ++ nl ++ bs "  b  GBP -" ++ n ++ nl ++ nl ++ nl ++ bs "; Prices" ++ nl.
Definition m_text : str := bs "2020/01/01 x" ++ nl ++ bs "  a  GBP 0.126" ++ nl ++ bs "  a  GBP -0.001" ++ nl ++ bs "  b" ++ nl.
Definition m_book (text : str) : book := match x_load [(bs "m", text)] (bs "m") with Ok b => b | _ => mkBook [] [] [] [] end.
Lemma m_exportable text : (match bk_prices (m_book text) with [] => true | _ => false end) = true ->
  forallb (exportableb (decs_for (bk_ccy (m_book text)))) (concat (snd (transactions xsort (m_book text)))) = true ->
  forallb (fun t => match t with [] => true | p :: t' => forallb (fun q => str_eqb (p_tnote q) (p_tnote p)) t' end) (snd (transactions xsort (m_book text))) = true ->
  exportable xsort (m_book text).
Proof.
  intros H1 H2 H3. split; [eapply forallb_Forall; [apply exportableb_ok|exact H2]|]. split.
  - rewrite Forall_forall. intros t Ht. rewrite forallb_forall in H3. specialize (H3 t Ht). destruct t as [|p t]; [intros ? ? []|]. rewrite forallb_forall in H3.
    assert (G : forall q, In q (p :: t) -> p_tnote q = p_tnote p) by (intros q [<-|Hq]; [reflexivity|apply str_eqb_eq, H3, Hq]). intros q r Hq Hr. rewrite (G q Hq), (G r Hr). reflexivity.
  - destruct (bk_prices (m_book text)); [|discriminate]. split; constructor.
Qed.
Theorem C109_twice_refuted :
  x_load [(bs "m", m_text)] (bs "m") = Ok (m_book m_text) /\ exportable xsort (m_book m_text) /\
  m_export m_text = Ok (XLedger (m_eighth (bs "0.125"))) /\ m_export (m_eighth (bs "0.125")) = Ok (XLedger (m_eighth (bs "0.1"))).
Proof.
  split; [vm_compute; reflexivity|]. split; [|split; vm_compute; reflexivity]. apply m_exportable; vm_compute; reflexivity.
Qed.
Print Assumptions C109_twice_refuted.

(** ** The hypotheses are met: decimals that change once (the posting with 0.01 is merged away), and the file that no longer changes. *)
Definition m_half (n : str) : str := bs "2020/01/01 x" ++ nl ++ bs "  a  GBP " ++ n ++ nl ++ bs "  b  GBP -" ++ n ++ nl ++ nl ++ nl ++ bs "; Prices" ++ nl.
Definition m_text2 : str := bs "2020/01/01 x" ++ nl ++ bs "  a  GBP 0.51" ++ nl ++ bs "  a  GBP -0.01" ++ nl ++ bs "  b" ++ nl.
Example C109_nonvacuous :
  unicode_ok x_letter digit upc /\ some_order x_order /\ float64_ok x_f64 /\ pair_order x_order2 /\ other_type (bs "Ledger") /\
  x_load [(bs "m", m_text2)] (bs "m") = Ok (m_book m_text2) /\ exportable xsort (m_book m_text2) /\ m_export m_text2 = Ok (XLedger (m_half (bs "0.50"))) /\
  x_load [(bs "m", m_half (bs "0.50"))] (bs "m") = Ok (m_book (m_half (bs "0.50"))) /\ exportable xsort (m_book (m_half (bs "0.50"))) /\
  m_export (m_half (bs "0.50")) = Ok (XLedger (m_half (bs "0.5"))) /\ m_export (m_half (bs "0.5")) = Ok (XLedger (m_half (bs "0.5"))).
Proof.
  split; [exact x_unicode|]. split; [exact x_order_ok|]. split; [exact x_f64_ok|]. split; [intros pb; reflexivity|]. split; [intros [H|[H|[H|[]]]]; discriminate H|].
  split; [vm_compute; reflexivity|]. split; [apply m_exportable; vm_compute; reflexivity|]. split; [vm_compute; reflexivity|].
  split; [vm_compute; reflexivity|]. split; [apply m_exportable; vm_compute; reflexivity|]. split; vm_compute; reflexivity.
Qed.
