(** * ExportProps: C49, the ledger export can be loaded again. *)
From Verif Require Import Base Dec Utf8 DateModel DateProofs2 PriceModel PriceSpec PriceProofs BookModel BookSpec BookProofs BuilderProofs OpsModel OpsProofs OpsProofs2 BookProps AccumModel
  LoaderModel LoaderSpec LoaderProofs LoaderProofs4 LoaderProps ExportModel ExportSpec ExportProofs ExportProofs2 ExportProofs3 F64Model F64Proofs.
From Coq Require Import ZifyBool ZifyNat Zify.
Ltac Zify.zify_post_hook ::= idtac.

(** The reloaded book, for any book in order. *)
Lemma export_reload is_letter is_udigit to_upper ord resolve f64 srt order b ts :
  unicode_ok is_letter is_udigit to_upper -> (forall m, NoDup (akeys m) -> Permutation (ord m) (akeys m)) ->
  (forall pb, Permutation (order pb) (map fst pb)) -> sort_ok is_less srt -> float64_ok f64 ->
  book_ok b -> snd (transactions srt b) = ts ->
  Forall (exportable_post (decs_for (bk_ccy b))) (concat ts) -> Forall one_note ts -> exportable_prices (decs_for (bk_ccy b)) (bk_prices b) ->
  exists text, export_ledger f64 is_letter srt order b = Ok text /\
    forall fs f, fs f = Some text -> exists bk bound, forall depth, (bound <= depth)%nat ->
      load_book is_letter is_udigit to_upper ord fs resolve srt depth f = Ok bk /\
      bk_trans bk = map (map strip) ts /\ bk_post bk = map strip (concat ts) /\ snd (transactions srt bk) = bk_trans bk /\ NoDup (map fst (bk_prices bk)) /\
      (forall k, aget pair_eqb k (bk_prices bk) = aget pair_eqb k (bk_prices b)) /\ bk_ccy bk = map (fun '(c, v) => (c, decimals_of v)) (max_denoms [] (map bare (concat ts))).
Proof.
  intros Hu Hord Hpo Hs Hf Hok Ets Hposts Hnote Hprices.
  pose proof (compact_book_ok srt Hs b Hok) as (_ & Hc & Hwg & Hbal).
  unfold transactions in Ets. cbn [snd] in Ets. rewrite Ets in *.
  assert (Hcan : canonical (concat ts)) by (rewrite Hc; apply (compact_canonical srt Hs); apply Hok).
  assert (Hrun : running (concat ts)).
  { rewrite Hc. destruct (bk_post b) as [|x l] eqn:E.
    - rewrite compact_nil by exact E. rewrite E. apply running_nil.
    - apply (compact_canonical srt Hs); [apply Hok|rewrite E; discriminate]. }
  assert (Hcp : bk_prices (compact srt b) = bk_prices b) by (unfold compact; destruct (bk_post b); reflexivity).
  assert (Hts : Forall (fun t => t <> [] /\ Forall (exportable_post (decs_for (bk_ccy b))) t) ts).
  { destruct Hwg as [G1 _]. rewrite Forall_forall in *. intros t Ht. split; [apply (G1 t Ht)|]. rewrite Forall_forall. intros p Hp. apply Hposts. apply in_concat. exists t. auto. }
  destruct (export_reads f64 is_letter (bk_ccy b) Hf [] srt order b ts) as (t & Et & [Hsc Hreads]); try assumption; try reflexivity.
  { rewrite Forall_forall. intros t Ht. rewrite Forall_forall. intros p Hp. reflexivity. }
  { intros k Hk. eapply Permutation_in; [apply Hpo|exact Hk]. }
  exists (encode t). split; [exact Et|]. intros fs f Hfs.
  specialize (Hreads fs resolve f [] [] (ledger_nil fs resolve f [])). rewrite !app_nil_r in Hreads.
  destruct (C48_every_line_passed_on_partial is_letter is_udigit to_upper ord fs resolve srt f t _ Hu Hord Hfs Hsc Hreads) as (cs & bound & Hm & Hload).
  apply means_calls_unique in Hm. subst cs. destruct Hprices as [Hnd Hpb].
  destruct (rebuild srt ts (bk_prices b) (order (bk_prices b)) Hs Hwg) as (bu & bk & E1 & E2 & T1 & T2 & T3 & T4 & T5); try assumption.
  - rewrite Hc. exact Hbal.
  - apply Hpo.
  - eapply Forall_impl; [|exact Hpb]. intros [[u c] l]. cbn. tauto.
  - exists bk, bound. intros depth Hd. rewrite Hload, E1 by exact Hd. split; [exact E2|]. split; [exact T1|]. split; [exact T2|]. split; [|split; [exact T5|split; [exact T3|exact T4]]].
    unfold transactions. cbn [snd]. destruct (concat ts) as [|p l] eqn:Ec.
      * rewrite compact_nil; [reflexivity|exact T2].
      * rewrite compact_eq by (rewrite T2; discriminate). cbn [bk_trans]. rewrite T2, T1, cposts_strip by assumption. rewrite group_all_strip. f_equal. rewrite <- Ec.
        apply well_grouped_group_all. exact Hwg.
Qed.
(** ** C49. [decs_for (bk_ccy b)] is the number of decimals per currency (2 if unknown). For a book within the conditions of
    ExportSpec, the export succeeds, and a file with its contents loads as a book with the same transactions (date, payee,
    notes, accounts, currencies, amounts and balances) and the same prices, whatever the iteration order of the maps. *)
Theorem C49_export_reload is_letter is_udigit to_upper ord resolve f64 srt order b ts :
  unicode_ok is_letter is_udigit to_upper -> (forall m, NoDup (akeys m) -> Permutation (ord m) (akeys m)) ->
  (forall pb, Permutation (order pb) (map fst pb)) -> sort_ok is_less srt -> float64_ok f64 ->
  reachable srt b -> snd (transactions srt b) = ts ->
  Forall (exportable_post (decs_for (bk_ccy b))) (concat ts) -> Forall one_note ts -> exportable_prices (decs_for (bk_ccy b)) (bk_prices b) ->
  exists text, export_ledger f64 is_letter srt order b = Ok text /\
    forall fs f, fs f = Some text -> exists bk bound, forall depth, (bound <= depth)%nat ->
      load_book is_letter is_udigit to_upper ord fs resolve srt depth f = Ok bk /\
      map (map facts) (bk_trans bk) = map (map facts) ts /\ snd (transactions srt bk) = bk_trans bk /\
      forall k, aget pair_eqb k (bk_prices bk) = aget pair_eqb k (bk_prices b).
Proof.
  intros Hu Hord Hpo Hs Hf Hr Ets Hposts Hnote Hprices.
  destruct (export_reload is_letter is_udigit to_upper ord resolve f64 srt order b ts Hu Hord Hpo Hs Hf (reachable_ok srt Hs b Hr) Ets Hposts Hnote Hprices) as (text & E & H).
  exists text. split; [exact E|]. intros fs f Hfs. destruct (H fs f Hfs) as (bk & bound & Hb). exists bk, bound. intros depth Hd. destruct (Hb depth Hd) as (L & T1 & _ & T2 & _ & T3 & _).
  split; [exact L|]. split; [|split; [exact T2|exact T3]]. rewrite T1, map_map. apply map_ext. intros t0. rewrite map_map. apply map_ext. intros p. reflexivity.
Qed.
Print Assumptions C49_export_reload.

(** The condition on transaction notes holds for every book as it was built (date -1 is the date of postings before the
    first transaction). *)
Lemma posted_note cs : forall cur note ids p q, In p (posted cur note ids cs) -> In q (posted cur note ids cs) -> NoDup (cur :: ids) ->
  (dp p = cur -> p_tnote p = note) /\ (In (dp p) (cur :: ids)) /\ (dp p = dp q -> p_tnote p = p_tnote q).
Proof.
  induction cs as [|[d pay n|a c v n|d u c v] cs IH]; intros cur note ids p q Hp Hq Hnd; cbn [posted] in *; try contradiction.
  - destruct ids as [|i ids]; [contradiction|]. inversion Hnd as [|? ? Hni Hnd']; subst. destruct (IH i n ids p q Hp Hq Hnd') as (H1 & H2 & H3). split; [|split; [right; exact H2|exact H3]].
    intros E. rewrite E in H2. contradiction.
  - assert (Hall : forall r, r = mkP (fst cur) (snd cur) note a c v n 0%Qc 0 [] [] \/ In r (posted cur note ids cs) -> (dp r = cur -> p_tnote r = note) /\ In (dp r) (cur :: ids)).
    { intros r [->|Hr]; [split; [reflexivity|left; destruct cur; reflexivity]|]. destruct (IH cur note ids r r Hr Hr Hnd) as (H1 & H2 & _). auto. }
    assert (Hp' := Hall p ltac:(destruct Hp; auto)). assert (Hq' := Hall q ltac:(destruct Hq; auto)). split; [apply Hp'|]. split; [apply Hp'|]. intros E.
    destruct Hp as [<-|Hp], Hq as [<-|Hq].
    + reflexivity.
    + symmetry. apply Hq'. rewrite <- E. destruct cur; reflexivity.
    + apply Hp'. rewrite E. destruct cur; reflexivity.
    + destruct (IH cur note ids p q Hp Hq Hnd) as (_ & _ & H3). apply H3. exact E.
  - apply IH; assumption.
Qed.
Lemma identities_dates cs : forall b d p, In (d, p) (identities b cs) -> exists p' n, In (CTrans d p' n) cs.
Proof.
  induction cs as [|c cs IH]; intros b d p H; cbn [identities] in H; [contradiction|]. destruct (bstep b c) as [b'| | |] eqn:E; try contradiction.
  apply in_app_or in H as [H|H]; [|destruct (IH _ _ _ H) as (p' & n & Hin); exists p', n; right; exact Hin].
  destruct c as [d0 p0 n0| |]; try contradiction. destruct H as [H|[]]. injection H as Hd _. exists p0, n0. left. f_equal. rewrite <- Hd.
  cbn [bstep] in E. unfold new_transaction in E. destruct (check_and_clear b); try discriminate. cbn [obind] in E. destruct (rename_loop _ _ _ _ _ _); try discriminate. cbn [obind] in E.
  injection E as <-. reflexivity.
Qed.
Theorem C49_one_note_when_built srt cs b : sort_ok is_less srt -> build_calls srt cs = Ok b -> (forall d p n, In (CTrans d p n) cs -> d <> -1) ->
  Forall one_note (snd (transactions srt b)).
Proof.
  intros Hs E Hd. unfold build_calls in E. destruct (bsteps_cases cs new_builder [] [] new_builder_ok) as [(_ & b1 & E1 & Hok & Hp)|[_ E1]]; rewrite E1 in E; [|discriminate].
  cbn [obind] in E. unfold build in E. destruct (check_and_clear b1) as [b2| | |] eqn:E2; try discriminate. cbn [obind] in E. injection E as <-.
  assert (Ep : bu_post b2 = bu_post b1) by (unfold check_and_clear in E2; destruct (forallb _ _); [injection E2 as <-; reflexivity|discriminate]).
  assert (Hplain : Forall plain (bu_post b2)) by (rewrite Ep; apply Hok).
  unfold transactions. cbn [snd]. rewrite (compact_idem srt Hs) by exact Hplain.
  destruct (bu_post b2) as [|x l] eqn:Ex.
  - rewrite compact_nil by reflexivity. constructor.
  - rewrite compact_eq by discriminate. cbn [bk_trans bk_post]. rewrite <- Ex in *. pose proof (group_all_concat (cposts srt (bu_post b2))) as Hcc.
    pose proof (cposts_grouped srt Hs (bu_post b2) Hplain) as [G1 _]. rewrite Forall_forall in *. intros t Ht p q Hpt Hqt.
    assert (Hin : forall r, In r t -> In r (cposts srt (bu_post b2))) by (intros r Hr; rewrite <- Hcc; apply in_concat; exists t; auto).
    destruct (cposts_origin srt Hs _ p (Hin p Hpt)) as (p' & Hp' & Kp & Mp). destruct (cposts_origin srt Hs _ q (Hin q Hqt)) as (q' & Hq' & Kq & Mq).
    destruct (G1 t Ht) as [_ Hdp]. specialize (Hdp p q Hpt Hqt).
    assert (Edp : forall a c, pkey a = pkey c -> dp a = dp c) by (intros a c Ek; apply pkey_eq in Ek as (k1 & k2 & _); unfold dp; congruence).
    rewrite Ep, Hp in Hp', Hq'. cbn [new_builder bu_post app bu_date bu_payee bu_note] in Hp', Hq'.
    assert (Hnd : NoDup ((-1, []) :: identities new_builder cs)).
    { constructor; [|apply Hok]. intros Hi. apply identities_dates in Hi as (p0 & n0 & Hi). exact (Hd _ _ _ Hi eq_refl). }
    destruct (posted_note cs _ _ _ p' q' Hp' Hq' Hnd) as (_ & _ & H3).
    assert (Et : forall a c, meta a = meta c -> p_tnote a = p_tnote c) by (intros a c Em; unfold meta in Em; injection Em; auto).
    rewrite <- (Et _ _ Mp), <- (Et _ _ Mq). apply H3. rewrite (Edp _ _ Kp), (Edp _ _ Kq). exact Hdp.
Qed.
Print Assumptions C49_one_note_when_built.

(** ** A checker for the conditions, for the examples. *)
Definition textb (s : str) (P : runes -> bool) : bool := let r := decode s in str_eqb (encode r) s && forallb scalarb r && P r.
Lemma textb_ok s P : textb s P = true -> exists r, is_text s r /\ P r = true.
Proof.
  unfold textb. cbv zeta. intros H. apply andb_true_iff in H as [H HP]. apply andb_true_iff in H as [H1 H2]. apply str_eqb_eq in H1. exists (decode s). split; [|exact HP].
  split; [symmetry; exact H1|]. rewrite Forall_forall. intros c Hc. rewrite forallb_forall in H2. apply scalarb_ok. apply H2. exact Hc.
Qed.
Definition note_okb (s : str) := textb s (fun r => forallb (fun c => negb (c =? 0) && negb (c =? 10)) r && negb (is_space (hd 0 r))).
Definition payee_textb (s : str) := textb s (fun r => forallb (fun c => negb (c =? 0) && negb (c =? 10) && negb (c =? 59)) r && negb (hd 0 r =? 34) && negb (hd 0 r =? 42)
  && negb (is_space (hd 0 r)) && negb (is_space (last r 0))).
Definition acct_textb (s : str) := negb (str_eqb s []) && forallb acct_rune s.
Definition bare_ccyb (s : str) := textb s (fun r => negb (str_eqb r []) && forallb is_ccy_rune r && negb (hd 0 r =? 34)).
Definition quotable_ccyb (s : str) := textb s (fun r => existsb (fun c => negb (is_ccy_rune c)) r && forallb (fun c => negb (c =? 0) && negb (c =? 10) && negb (c =? 34)) r).
Definition short_amountb (k : Z) (q : Qc) := between 0 k 17 && (Qnum (this q) * 10 ^ k mod Zpos (Qden (this q)) =? 0) && (Z.abs (Qnum (this q) * 10 ^ k / Zpos (Qden (this q))) <=? 10 ^ 15).
Definition exportableb (dec : str -> Z) (p : posting) : bool :=
  (0 <? p_date p) && (p_date p <? 100000000) && payee_textb (p_payee p) && note_okb (p_tnote p) && acct_textb (p_acct p) && (bare_ccyb (p_ccy p) || quotable_ccyb (p_ccy p))
  && short_amountb (dec (p_ccy p)) (p_val p) && note_okb (p_note p).
Ltac bools := repeat match goal with H : (_ && _) = true |- _ => apply andb_true_iff in H as [? ?] end.
Lemma forallb_Forall {A} (f : A -> bool) (P : A -> Prop) l : (forall x, f x = true -> P x) -> forallb f l = true -> Forall P l.
Proof. intros H Hf. rewrite forallb_forall in Hf. rewrite Forall_forall. auto. Qed.
Lemma note_okb_ok s : note_okb s = true -> note_ok s.
Proof. intros H. apply textb_ok in H as (r & Hr & H). bools. exists r. split; [exact Hr|]. split; [|apply negb_true_iff; assumption]. eapply forallb_Forall; [|eassumption]. cbn. lia. Qed.
Lemma payee_textb_ok s : payee_textb s = true -> payee_text s.
Proof.
  intros H. apply textb_ok in H as (r & Hr & H). bools. exists r. split; [exact Hr|]. unfold payee_ok.
  split; [eapply forallb_Forall; [|eassumption]; cbn; lia|]. repeat split; try (apply negb_true_iff; assumption); lia.
Qed.
Lemma bare_ccyb_ok s : bare_ccyb s = true -> bare_ccy s.
Proof.
  intros H. apply textb_ok in H as (r & Hr & H). bools. exists r. split; [exact Hr|]. split; [intros ->; discriminate|]. split; [eapply forallb_Forall; [|eassumption]; auto|lia].
Qed.
Lemma quotable_ccyb_ok s : quotable_ccyb s = true -> quotable_ccy s.
Proof.
  intros H. apply textb_ok in H as (r & Hr & H). bools. exists r. split; [exact Hr|]. split; [|eapply forallb_Forall; [|eassumption]; cbn; lia].
  apply existsb_exists in H as (c & Hin & Hc). apply Exists_exists. exists c. split; [exact Hin|]. apply negb_true_iff. exact Hc.
Qed.
Lemma short_amountb_ok k q : short_amountb k q = true -> short_amount k q.
Proof.
  unfold short_amountb, between. intros H. bools. split; [lia|]. exists (Qnum (this q) * 10 ^ k / Zpos (Qden (this q))). split; [|lia].
  apply Qc_is_canon. rewrite this_mult, !this_qz. unfold Qeq, Qmult. cbn [Qnum Qden inject_Z]. rewrite !Z.mul_1_r.
  assert (E : Qnum (this q) * 10 ^ k mod Z.pos (Qden (this q)) = 0) by lia. pose proof (Z.div_mod (Qnum (this q) * 10 ^ k) (Zpos (Qden (this q))) ltac:(lia)) as D.
  rewrite Pos.mul_1_r. rewrite E in D. lia.
Qed.
Lemma exportableb_ok dec p : exportableb dec p = true -> exportable_post dec p.
Proof.
  unfold exportableb. intros H. bools. unfold exportable_post, date_ok. split; [lia|]. split; [apply payee_textb_ok; assumption|]. split; [apply note_okb_ok; assumption|].
  split. { unfold acct_textb in *. bools. split; [intros E; rewrite E in *; discriminate|]. eapply forallb_Forall; [|eassumption]. auto. }
  split. { match goal with H : (_ || _) = true |- _ => apply orb_true_iff in H as [H|H] end; [left; apply bare_ccyb_ok|right; apply quotable_ccyb_ok]; assumption. }
  split; [apply short_amountb_ok; assumption|apply note_okb_ok; assumption].
Qed.

Definition x_f64 : Qc -> Qc := to_f64.
Lemma x_f64_ok : float64_ok x_f64. Proof. exact to_f64_ok. Qed.
(** "Zürich" and a currency that must be quoted. *)
Definition ex49 : list bcall :=
  [ CTrans 20240105 ([90; 195; 188] ++ bs "rich") (bs "weekly; shop");
    CPost (bs "Expense:Food") (bs "GBP") (qz 1234567 / qz 100)%Qc (bs "lunch"); CPost (bs "Assets:Cash") (bs "GBP") (- (qz 1234567 / qz 100))%Qc [];
    CPost (bs "Assets:Fund") (bs "Fund 1") (qz (-3)) []; CPost (bs "Assets:Cash") (bs "Fund 1") (qz 3) [];
    CPrice 20240101 (bs "USD") (bs "GBP") (qz 3 / qz 4)%Qc; CPrice 20240201 (bs "USD") (bs "GBP") (qz 4 / qz 5)%Qc ].
Definition x_order2 (pb : pbook) : list (str * str) := map fst pb.
Definition ex49_text : str :=
  bs "2024/01/05 Z" ++ [195; 188] ++ bs "rich  ; weekly; shop" ++ nl ++ bs "  Assets:Cash  ""Fund 1"" 3" ++ nl ++ bs "  Assets:Cash  GBP -12,345.67" ++ nl ++
  bs "  Assets:Fund  ""Fund 1"" -3" ++ nl ++ bs "  Expense:Food  GBP 12,345.67  ; lunch" ++ nl ++ nl ++ nl ++ bs "; Prices" ++ nl ++
  bs "P 2024/01/01 00:00:00 USD GBP 0.75" ++ nl ++ bs "P 2024/02/01 00:00:00 USD GBP 0.80" ++ nl.
Lemma ex49_prices : exportable_prices (decs_for (bk_ccy (built ex49))) (bk_prices (built ex49)).
Proof.
  assert (E : exists a b, bk_prices (built ex49) = [((bs "USD", bs "GBP"), [mkPrice 20240101 a; mkPrice 20240201 b])] /\ short_amountb 2 a = true /\ short_amountb 2 b = true)
    by (eexists _, _; split; [vm_compute; reflexivity|split; vm_compute; reflexivity]).
  destruct E as (a & b & -> & Ha & Hb). assert (Ed : decs_for (bk_ccy (built ex49)) (bs "GBP") = 2) by (vm_compute; reflexivity).
  split; [repeat constructor; intros []|]. constructor; [|constructor]. cbn beta iota. rewrite Ed. split; [apply bare_ccyb_ok; reflexivity|]. split; [apply bare_ccyb_ok; reflexivity|]. split; [discriminate|].
  split; [repeat constructor; cbn; lia|]. repeat constructor; cbn [pr_date pr_val]; try lia; apply short_amountb_ok; assumption.
Qed.
Example C49_nonvacuous :
  export_ledger x_f64 x_letter xsort x_order2 (built ex49) = Ok ex49_text /\
  reachable xsort (built ex49) /\ float64_ok x_f64 /\ (forall pb, Permutation (x_order2 pb) (map fst pb)) /\
  Forall (exportable_post (decs_for (bk_ccy (built ex49)))) (concat (snd (transactions xsort (built ex49)))) /\
  Forall one_note (snd (transactions xsort (built ex49))) /\ exportable_prices (decs_for (bk_ccy (built ex49))) (bk_prices (built ex49)).
Proof.
  assert (Hb : build_calls xsort ex49 = Ok (built ex49)) by (apply built_eq; vm_compute; reflexivity).
  split; [vm_compute; reflexivity|]. split; [exact (reach_build _ _ _ Hb)|]. split; [exact x_f64_ok|]. split; [reflexivity|].
  split; [eapply forallb_Forall; [apply exportableb_ok|vm_compute; reflexivity]|].
  split; [|exact ex49_prices]. apply (C49_one_note_when_built xsort ex49 _ xsort_ok Hb). intros d p n [H|[H|[H|[H|[H|[H|[H|[]]]]]]]]; congruence.
Qed.

(** ** Outside these conditions the export of a loaded book is changed on reload, without any error.
    1. An amount of 0.125 is exported with one decimal.
    2. Price units are not quoted: the price of 2 GBP for a "Fund 1" comes back as 1 GBP for a "Fund". *)
Definition ex49_eighth : str := bs "2024/01/01 S" ++ nl ++ bs "  A  GBP 0.125" ++ nl ++ bs "  B  GBP -0.125" ++ nl.
Definition ex49_unit : str := bs "2024/01/01 S" ++ nl ++ bs "  A  GBP 1" ++ nl ++ bs "  B  GBP -1" ++ nl ++ bs "P 2024/01/01 00:00:00 ""Fund 1"" GBP 2" ++ nl.
Definition reload (text : str) : outcome book :=
  match x_load [(bs "m", text)] (bs "m") with
  | Ok b => match export_ledger x_f64 x_letter xsort x_order2 b with Ok t => x_load [(bs "n", t)] (bs "n") | Panic => Panic | _ => Error end
  | _ => Error
  end.
Definition amounts (o : outcome book) : list Q := match o with Ok b => map (fun p => this (p_val p)) (bk_post b) | _ => [] end.
Definition quotes (o : outcome book) : list (str * str * list (Z * Q)) :=
  match o with Ok b => map (fun '((u, c), l) => ((u, c), map (fun p => (pr_date p, this (pr_val p))) l)) (bk_prices b) | _ => [] end.
Theorem C49_changed_on_reload_refuted :
  (amounts (x_load [(bs "m", ex49_eighth)] (bs "m")) = [1 # 8; -1 # 8]%Q /\ amounts (reload ex49_eighth) = [1 # 10; -1 # 10]%Q) /\
  (quotes (x_load [(bs "m", ex49_unit)] (bs "m")) = [(bs "Fund 1", bs "GBP", [(20240101%Z, 2 # 1)])]%Q /\
   quotes (reload ex49_unit) = [(bs "Fund", bs "GBP", [(20240101%Z, 1 # 1)])]%Q).
Proof. split; split; vm_compute; reflexivity. Qed.
Print Assumptions C49_changed_on_reload_refuted.
