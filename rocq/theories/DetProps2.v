(** * DetProps2: C108 continued: summaries with any sort, the ccy command, what is not determined, and examples. *)
From Verif Require Import Base Utf8 Dec Regex DateModel DateProofs PriceModel BookModel BookSpec BookProofs BuilderProofs OpsModel BookProps BookOpModel RegisterModel AccumModel AccumSpec AccumProofs AccumProofs2 AccumProofs3 AccumProps
  LoaderModel LoaderSpec LoaderProofs LoaderProofs5 LoaderProps ExportModel ExportProps DataExportModel PrintModel CmdModel DetSpec DetModel DetProofs DetProofs2 DetProofs3 DetProofs4 DetProps.
From Coq Require Import ZifyBool ZifyNat Zify.
Ltac Zify.zify_post_hook ::= idtac.

(** ** Summaries *)
Lemma hide_none rows : hide None [] rows = rows.
Proof. unfold hide. rewrite (map_ext _ (fun x => x)) by reflexivity. rewrite map_id. induction rows as [|p l IH]; [reflexivity|]. cbn [filter]. change (negb (is_hidden [] p)) with true. cbv iota. rewrite IH. reflexivity. Qed.
Lemma NoDup_map_imp {A B C} (f : A -> B) (g : A -> C) l : (forall x y, In x l -> In y l -> g x = g y -> f x = f y) -> NoDup (map f l) -> NoDup (map g l).
Proof.
  induction l as [|x l IH]; intros H Hn; cbn [map] in *; constructor; inversion Hn as [|? ? Hx Hn']; subst.
  - intros Hin. apply in_map_iff in Hin as (y & E & Hy). apply Hx. rewrite <- (H y x (or_intror Hy) (or_introl eq_refl) E). apply in_map. exact Hy.
  - apply IH; [|exact Hn']. intros; apply H; try right; assumption.
Qed.
Lemma NoDup_app_map {A B} (f : A -> B) l m : NoDup (map f l) -> NoDup (map f m) -> (forall x y, In x l -> In y m -> f x <> f y) -> NoDup (map f (l ++ m)).
Proof.
  intros H1 H2 H. induction l as [|x l IH]; [exact H2|]. cbn [map app] in *. inversion H1 as [|? ? Hx H1']; subst. constructor.
  - intros Hin. apply in_map_iff in Hin as (y & E & Hy). apply in_app_iff in Hy as [Hy|Hy].
    + apply Hx. rewrite <- E. apply in_map. exact Hy.
    + apply (H x y); [left; reflexivity|exact Hy|congruence].
  - apply IH; [exact H1'|]. intros; apply H; [right|]; assumption.
Qed.
Lemma NoDup_grouped ts : well_grouped ts -> Forall (fun t => NoDup (map fkey t)) ts -> NoDup (map fkey (concat ts)).
Proof.
  intros [_ Hs] Hf. induction Hs as [|t ts Hs IH Ht]; [constructor|]. cbn [concat]. apply NoDup_app_map; [exact (Forall_inv Hf)|apply IH; exact (Forall_inv_tail Hf)|].
  intros p q Hp Hq E. apply in_concat in Hq as (u & Hu & Hq). rewrite Forall_forall in Ht. specialize (Ht u Hu p q Hp Hq). unfold dplt in Ht.
  assert (Ed : dp p = dp q) by (unfold fkey in E; injection E; intros; unfold dp; congruence). rewrite Ed in Ht.
  unfold dpcmp in Ht. exact (lc_lt_irrefl _ (lex_lin _ _ Zcmp_lin str_cmp_lin) _ Ht).
Qed.
(** For a book that can be summarised no two rows are equal for the order, so the sort need not be stable. *)
Theorem C108_summary_partial : forall srt it1 it2 micro to d credit hidden b,
  sort_ok is_less srt -> any_order it1 -> any_order it2 -> summarisable srt b ->
  accumulate srt it1 micro to [d] credit hidden b = accumulate srt it2 micro to [d] credit hidden b.
Proof.
  intros srt it1 it2 micro to d credit hidden b Hs H1 H2 Hsum.
  destruct (summarisable_main srt it1 micro to d b Hs H1 (summarisable_weaken srt b Hs Hsum)) as (K & acl & ts & E & _ & _ & K1 & _ & _ & A1 & _ & F & _ & Hg & _).
  unfold accumulate in *. cbn zeta in *. destruct (bk_post (compact srt b)) as [|p0 l0] eqn:Eb; [reflexivity|].
  destruct (accum_rows srt it1 micro (bk_prices (compact srt b)) (p0 :: l0) to [d]) as [r| | |] eqn:Er; cbn [obind] in E; try discriminate.
  rewrite hide_none in E. assert (Ets : group_all r = ts) by (destruct r; [discriminate|injection E as E; exact E]).
  assert (En : NoDup (map fkey r)).
  { rewrite <- (group_all_concat r), Ets. apply NoDup_grouped; [exact Hg|]. rewrite Forall_forall. intros t' Ht'.
    destruct (Forall2_In_r _ _ _ _ F Ht') as (t & Ht & g & leaves & subs & _ & Pa & F1 & F2 & _ & Pt).
    apply (Permutation_NoDup (Permutation_sym (Permutation_map fkey Pt))). apply NoDup_app_map.
    - apply (NoDup_map_imp ac); [|rewrite (leaves_ac _ _ _ _ F1); exact (Permutation_NoDup (Permutation_sym Pa) A1)].
      intros x y _ _ Ek. unfold fkey in Ek. injection Ek; intros; unfold ac; congruence.
    - apply (NoDup_map_imp p_acct); [|rewrite (subs_accts _ _ _ _ _ _ _ F2); exact (Permutation_NoDup (Permutation_sym (H1 g K)) K1)].
      intros x y _ _ Ek. unfold fkey in Ek. injection Ek; intros; congruence.
    - intros r0 s Hr Hs' Ek. unfold fkey in Ek. injection Ek as _ _ _ Ea El _.
      destruct (Forall2_In_r _ _ _ _ F1 Hr) as (p & _ & (sr & ->)). destruct (Forall2_In_r _ _ _ _ F2 Hs') as (k & Hk & (q & sr' & _ & ->)). cbn [set_level p_acct p_level] in *.
      subst k. apply (Permutation_in _ (H1 g K)) in Hk. rewrite level_split in El by exact K1. apply mem_str_In in Hk. rewrite Hk in El. unfold level_of in El. cbn [andb] in El.
      assert (Ef : filter (fun k => belowb d k (p_acct p) || false) K = filter (fun k => belowb d k (p_acct p)) K) by (apply filter_ext; intros x; apply orb_false_r). cbn [p_acct] in El. rewrite Ef in El. lia. }
  rewrite (it_no_ties it1 it2 H1 H2 srt micro _ _ _ _ _ Hs Er En). reflexivity.
Qed.
Print Assumptions C108_summary_partial.

(** ** ccy: the same lines *)
Lemma denoms_NoDup l : forall m, NoDup (akeys m) -> NoDup (akeys (max_denoms m l)).
Proof.
  induction l as [|p l IH]; intros m H; [exact H|]. cbn [max_denoms]. apply IH. destruct (aget str_eqb (p_ccy p) m) as [e|]; [|apply aset_NoDup; [exact str_eqb_eq|exact H]].
  destruct (e <? denom (p_val p)); [apply aset_NoDup; [exact str_eqb_eq|exact H]|exact H].
Qed.
Lemma load_NoDup is_letter is_udigit to_upper ord fs resolve srt depth f b :
  load_book is_letter is_udigit to_upper ord fs resolve srt depth f = Ok b -> NoDup (akeys (bk_ccy b)).
Proof.
  unfold load_book. destruct (parse_file _ _ _ _ _ _ _ _ _ _) as [u| | |]; try discriminate. unfold build. destruct (check_and_clear u) as [u'| | |]; try discriminate. cbn [obind]. intros E. injection E as <-.
  assert (Ec : forall b0, bk_ccy (compact srt b0) = bk_ccy b0) by (intros b0; unfold compact; destruct (bk_post b0); reflexivity).
  rewrite Ec. cbn [bk_ccy]. unfold akeys. rewrite map_map. rewrite (map_ext _ fst) by (intros [k v]; reflexivity). apply (denoms_NoDup _ []). constructor.
Qed.
Lemma same_entries (m1 m2 : list (str * Z)) : NoDup (akeys m1) -> NoDup (akeys m2) -> (forall c, aget str_eqb c m1 = aget str_eqb c m2) -> Permutation m1 m2.
Proof.
  assert (Hd : forall m : list (str * Z), NoDup (akeys m) -> NoDup m) by (intros m H; apply (NoDup_map_inv fst); exact H).
  intros H1 H2 H. apply NoDup_Permutation; [apply Hd, H1|apply Hd, H2|]. intros [k v].
  rewrite <- (aget_Some_iff str_eqb str_eqb_eq k v m1 H1), <- (aget_Some_iff str_eqb str_eqb_eq k v m2 H2), H. reflexivity.
Qed.
(** Every run prints the same lines; [walk1], [walk2] are the orders of the range over the map. *)
Theorem C108_ccy_partial : forall is_letter is_udigit to_upper ord1 ord2 fs resolve srt1 srt2 depth f walk1 walk2,
  some_order ord1 -> some_order ord2 -> sort_ok is_less srt1 -> sort_ok is_less srt2 ->
  (forall m, Permutation (walk1 m) m) -> (forall m, Permutation (walk2 m) m) ->
  both (fun x y => exists ls ms, x = concat ls /\ y = concat ms /\ Permutation ls ms)
    (do b <- load_book is_letter is_udigit to_upper ord1 fs resolve srt1 depth f; Ok (ccy_run walk1 b))
    (do b <- load_book is_letter is_udigit to_upper ord2 fs resolve srt2 depth f; Ok (ccy_run walk2 b)).
Proof.
  intros is_letter is_udigit to_upper ord1 ord2 fs resolve srt1 srt2 depth f walk1 walk2 O1 O2 S1 S2 W1 W2.
  pose proof (C108_load_partial is_letter is_udigit to_upper ord1 ord2 fs resolve srt1 srt2 depth f O1 O2 S1 S2) as H.
  destruct (load_book _ _ _ ord1 _ _ _ _ _) as [b1| | |] eqn:E1, (load_book _ _ _ ord2 _ _ _ _ _) as [b2| | |] eqn:E2; cbn [both obind] in *; try contradiction; try exact I.
  exists (map ccy_line (walk1 (bk_ccy b1))), (map ccy_line (walk2 (bk_ccy b2))). split; [reflexivity|split; [reflexivity|]]. apply Permutation_map.
  rewrite W1, W2. apply same_entries; [exact (load_NoDup _ _ _ _ _ _ _ _ _ _ E1)|exact (load_NoDup _ _ _ _ _ _ _ _ _ _ E2)|apply H].
Qed.
Print Assumptions C108_ccy_partial.

(** ** What is not determined *)
Lemma xsort_stable : stable xsort.
Proof.
  intros l q. unfold xsort. set (t := fun p => negb (is_less p q) && negb (is_less q p)).
  assert (Hi : forall x l, sorted_by is_less l -> filter t (insert_by is_less x l) = filter t (x :: l)).
  { intros x m. induction m as [|y m IH]; intros Hm; [reflexivity|]. cbn [insert_by]. destruct (is_less y x) eqn:E; [|reflexivity]. apply StronglySorted_inv in Hm as [Hm _].
    cbn [filter]. rewrite (IH Hm). cbn [filter]. destruct (t y) eqn:Ty, (t x) eqn:Tx; try reflexivity. exfalso. unfold t in Ty, Tx.
    apply andb_true_iff in Ty as [Y1 Y2], Tx as [X1 X2]. apply negb_true_iff in Y1, Y2, X1, X2. rewrite is_less_fcmp in *.
    pose proof (lc_anti _ fcmp_lin) as An. pose proof (lc_eq _ fcmp_lin) as Eqv.
    assert (Qy : fcmp (fkey y) (fkey q) = Eq) by (specialize (An (fkey y) (fkey q)); destruct (fcmp (fkey y) (fkey q)), (fcmp (fkey q) (fkey y)); cbn in *; congruence).
    assert (Qx : fcmp (fkey x) (fkey q) = Eq) by (specialize (An (fkey x) (fkey q)); destruct (fcmp (fkey x) (fkey q)), (fcmp (fkey q) (fkey x)); cbn in *; congruence).
    apply Eqv in Qy, Qx. rewrite Qy, Qx, (lc_refl _ fcmp_lin) in E. discriminate. }
  induction l as [|x l IH]; [reflexivity|]. cbn [isort]. rewrite Hi by (apply isort_sorted, is_less_swo). cbn [filter]. rewrite IH. reflexivity.
Qed.

(** The two orders used below: as stored, and backwards. *)
Lemma akeys_order : some_order akeys.
Proof. intros m _. reflexivity. Qed.
Lemma x_some_order : some_order x_order.
Proof. exact x_order_ok. Qed.
Definition d_pairs (pb : pbook) : list (str * str) := akeys pb.
Definition d_pairs' (pb : pbook) : list (str * str) := rev (akeys pb).
Lemma d_pairs_ok pb : Permutation (d_pairs pb) (akeys pb). Proof. reflexivity. Qed.
Lemma d_pairs'_ok pb : Permutation (d_pairs' pb) (akeys pb). Proof. symmetry. apply Permutation_rev. Qed.
Definition d_compile (_ : str) : option regexp := None.
Definition d_float (_ : str) : option Qc := None.
Definition d_macros (_ : str) : option (list str) := None.
Definition d_ploop (f : pair -> pair) (pb : pbook) : pbook := pb.

(** A ledger with two currencies, an amount left out, and prices of two units. *)
Definition d_text : str :=
  bs "2020/01/01 x" ++ nl ++ bs "  a  GBP 10.01" ++ nl ++ bs "  c  USD 3" ++ nl ++ bs "  b" ++ nl ++ nl ++
  bs "P 2020/01/01 00:00:00 USD GBP 0.75" ++ nl ++ bs "P 2020/01/01 00:00:00 EUR GBP 0.90" ++ nl.
Definition d_load (ord : list (str * Qc) -> list str) : outcome book := load_book x_letter digit upc ord (x_fs [(bs "m", d_text)]) x_join xsort 5 (bs "m").
Definition d_export (ord : list (str * Qc) -> list str) (op : pbook -> list (str * str)) : outcome exported :=
  do b <- d_load ord; export_run xsort d_compile d_float 20200101 d_ploop d_macros 5 (bs "GBP") x_f64 x_letter (fun s => s) (fun s => s) (fun l => l) op (bs "Ledger") [] b.

(** The same ledger exported twice: the prices come in a different order. *)
Definition d_head : str :=
  bs "2020/01/01 x" ++ nl ++ bs "  a  GBP 10.01" ++ nl ++ bs "  b  GBP -10.01" ++ nl ++ bs "  b  USD -3" ++ nl ++ bs "  c  USD 3" ++ nl ++ nl ++ nl ++ bs "; Prices" ++ nl.
Definition d_usd : str := bs "P 2020/01/01 00:00:00 USD GBP 0.75" ++ nl.
Definition d_eur : str := bs "P 2020/01/01 00:00:00 EUR GBP 0.90" ++ nl.
Theorem C108_export_refuted :
  (forall pb, Permutation (d_pairs pb) (akeys pb)) /\ (forall pb, Permutation (d_pairs' pb) (akeys pb)) /\
  d_export akeys d_pairs = Ok (XLedger (d_head ++ d_usd ++ d_eur)) /\ d_export akeys d_pairs' = Ok (XLedger (d_head ++ d_eur ++ d_usd)).
Proof. split; [exact d_pairs_ok|split; [exact d_pairs'_ok|split; vm_compute; reflexivity]]. Qed.
Print Assumptions C108_export_refuted.

(** ccy run twice on the same ledger. *)
Definition d_ccy (walk : list (str * Z) -> list (str * Z)) : outcome str := do b <- d_load akeys; Ok (ccy_run walk b).
Theorem C108_ccy_refuted :
  (forall m, Permutation ((fun m : list (str * Z) => m) m) m) /\ (forall m : list (str * Z), Permutation (rev m) m) /\
  d_ccy (fun m => m) = Ok (bs "GBP => 2 decimals" ++ nl ++ bs "USD => 0 decimals" ++ nl) /\
  d_ccy (@rev _) = Ok (bs "USD => 0 decimals" ++ nl ++ bs "GBP => 2 decimals" ++ nl).
Proof. split; [reflexivity|split; [intros m; symmetry; apply Permutation_rev|split; vm_compute; reflexivity]]. Qed.
Print Assumptions C108_ccy_refuted.

(** A correct sort that does not keep the order of equal postings: the note of a merged posting then depends on the order in which the
    currencies of a left-out amount were visited, although they have nothing to do with it. *)
Definition d_srt (l : list posting) : list posting :=
  if existsb (fun p => str_eqb (p_ccy p) (bs "GBP")) (firstn 1 (rev l)) then xsort l else xsort (rev l).
Lemma d_srt_ok : sort_ok is_less d_srt.
Proof.
  intros l. unfold d_srt. destruct (existsb _ _); [apply xsort_ok|]. split; [|apply xsort_ok]. transitivity (rev l); [apply Permutation_rev|apply xsort_ok].
Qed.
Definition d_merged : str :=
  bs "2020/01/01 x" ++ nl ++ bs "  a  GBP 1 ; first" ++ nl ++ bs "  a  GBP 1 ; second" ++ nl ++ bs "  c  USD 1" ++ nl ++ bs "  b" ++ nl.
Definition d_notes (ord : list (str * Qc) -> list str) : outcome (list (str * str)) :=
  do b <- load_book x_letter digit upc ord (x_fs [(bs "m", d_merged)]) x_join d_srt 5 (bs "m"); Ok (map (fun p => (p_acct p, p_note p)) (bk_post b)).
Theorem C108_notes_refuted :
  sort_ok is_less d_srt /\ some_order akeys /\ some_order x_order /\
  d_notes akeys = Ok [(bs "a", bs "second"); (bs "b", []); (bs "b", []); (bs "c", [])] /\
  d_notes x_order = Ok [(bs "a", bs "first"); (bs "b", []); (bs "b", []); (bs "c", [])].
Proof. split; [exact d_srt_ok|split; [exact akeys_order|split; [exact x_some_order|split; vm_compute; reflexivity]]]. Qed.
Print Assumptions C108_notes_refuted.

(** ** The hypotheses are met: a report of the ledger above, with both orders, has text. *)
Definition d_report (ord : list (str * Qc) -> list str) (it : list posting -> list str -> list str) : outcome str :=
  do b <- d_load ord;
  do x <- report_run xsort d_compile d_float 20200101 d_ploop d_macros 5 it x_micro (bs "GBP") (bs ":") (mkRO (bs "Text") [] false true [] []) [] b;
  text_of x_f64 x_letter (fun _ => true) false 60 x.
Definition x_it' (_ : list posting) (l : list str) : list str := rev l.
Example C108_nonvacuous :
  some_order akeys /\ some_order x_order /\ any_order x_it /\ any_order x_it' /\ sort_ok is_less xsort /\ stable xsort /\
  d_report akeys x_it = d_report x_order x_it' /\ (exists t, d_report akeys x_it = Ok t /\ (100 < length t)%nat) /\
  exists b1 b2, d_load akeys = Ok b1 /\ d_load x_order = Ok b2 /\ length (bk_trans b1) = 1%nat /\ length (bk_post b1) = 4%nat /\ bk_post b1 = bk_post b2.
Proof.
  split; [exact akeys_order|]. split; [exact x_some_order|]. split; [exact x_it_ok|]. split; [intros g l; symmetry; apply Permutation_rev|]. split; [exact xsort_ok|]. split; [exact xsort_stable|].
  split; [vm_compute; reflexivity|]. split.
  - assert (H : match d_report akeys x_it with Ok t => (100 <? Z.of_nat (length t)) | _ => false end = true) by (vm_compute; reflexivity).
    destruct (d_report akeys x_it) as [t| | |]; try discriminate. exists t. split; [reflexivity|lia].
  - eexists _, _. split; [vm_compute; reflexivity|]. split; [vm_compute; reflexivity|]. repeat split.
Qed.
