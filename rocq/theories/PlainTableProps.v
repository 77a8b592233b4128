(** * PlainTableProps: property C114, the text report of transactions that are not summarised. *)
From Verif Require Import Base Dec DateModel DateSpec DateProofs DateProofs2 PriceModel PriceSpec PriceProofs BookModel BookSpec BookProofs BuilderProofs
  OpsModel OpsProofs OpsProofs2 OpsProofs3 BookProps RegisterModel RegisterSpec RegisterProofs AccumModel AccumSpec AccumProps
  Utf8 LoaderModel ExportModel PrintModel PrintSpec PrintProofs PrintProofs2 PrintProps ReportSpec PrintProofs3 ReportProps PlainTableSpec PlainTableProofs.

(** A book with at least one posting; no currency is empty. *)
Definition listable (srt : list posting -> list posting) (b : book) : Prop :=
  reachable srt b /\ bk_post (fst (transactions srt b)) <> [] /\ forall t p, In t (snd (transactions srt b)) -> In p t -> decode (p_ccy p) <> [].
Lemma listable_showable srt b : sort_ok is_less srt -> listable srt b -> showable (snd (transactions srt b)).
Proof.
  intros Hs (Hr & Hne & Hc). apply (reachable_ok srt Hs) in Hr. pose proof (compact_book_ok srt Hs b Hr) as (Hpl & HT & (Hg & _) & _). pose proof (compact_tidy srt b Hs Hr) as Htd. unfold transactions in *. cbn [fst snd] in *. split.
  - intros E. apply Hne. rewrite <- HT, E. reflexivity.
  - rewrite Forall_forall in *. intros t Ht. destruct (Htd t Ht) as (Hn & Hu & Hss & _). split; [exact Hn|]. split; [|intros p Hp; split; [exact (Hc t p Ht Hp)|]].
    + clear - Hss Hu. induction t as [|p t IH]; cbn [map]; constructor; apply StronglySorted_inv in Hss as [Hss Hp]; [|apply IH; [intros x y Hx Hy; apply Hu; right; assumption|exact Hss]].
      intros Hin. apply in_map_iff in Hin as (q & Eq & Hq). rewrite Forall_forall in Hp. specialize (Hp q Hq). specialize (Hu p q (or_introl eq_refl) (or_intror Hq)). unfold klt in Hp.
      assert (pkey p = pkey q) as Epk by (apply pkey_eq; unfold dp in Hu; unfold row_key in Eq; injection Hu as -> ->; injection Eq as -> _ ->; auto). rewrite Epk in Hp. exact (lc_lt_irrefl _ kcmp_lin _ Hp).
    + assert (Hin : In p (bk_post (compact srt b))) by (rewrite <- HT; apply in_concat; eauto). destruct (Hpl p Hin) as [-> _]. lia.
Qed.

(** ** C114. If every transaction has the rows of the last one and no other, the report is one line per row and one column per
    transaction; if a transaction has a row the last one lacks, it is refused with an error. *)
Theorem C114_text_report_partial : forall srt b is_print f64 is_letter decs colour tw, sort_ok is_less srt -> listable srt b ->
  let ts := snd (transactions srt b) in let printed := summary_text is_print f64 is_letter decs colour tw ts in
  (fits ts -> complete ts ->
     summary_table f64 is_letter decs colour ts = Ok (expected_table f64 is_letter decs colour ts) /\
     (forall t v, In t ts -> In v (last ts []) -> exists p c, In p t /\ same_row p v /\ (forall q, In q t -> same_row q v -> q = p) /\
        column_money f64 is_letter decs colour (p_ccy p) (p_val p) = Ok c /\ amount_cell f64 is_letter decs colour t (row_key v) = Some c) /\
     exists table ws, expected_table f64 is_letter decs colour ts = rows_of table /\ length ws = S (length ts) /\ printed = Ok (table_text (lines_of is_print ws table))) /\
  ((exists t v, In t ts /\ In v t /\ ~ has_row (last ts []) v) -> printed = Error).
Proof.
  intros srt b is_print f64 is_letter decs colour tw Hs Hl. pose proof (listable_showable srt b Hs Hl) as Hsh. cbv zeta. set (ts := snd (transactions srt b)) in *. split.
  - intros Hf Hc. split; [apply table_of; assumption|]. destruct (table_printed is_print f64 is_letter decs colour tw ts Hsh Hf Hc) as [H1 H2]. split; [|exact H2]. intros t v Ht Hv. destruct (H1 t v Ht Hv) as (p & c & Hp & Sp & E1 & E2).
    exists p, c. split; [exact Hp|]. split; [exact Sp|]. split; [|auto]. intros q Hq Sq. destruct Hsh as [_ Hsh]. rewrite Forall_forall in Hsh. destruct (Hsh t Ht) as (_ & Hnd & _).
    assert (Ek : row_key q = row_key p) by (apply same_row_key in Sp, Sq; congruence). clear - Hnd Hp Hq Ek. induction t as [|x t IH]; [contradiction|]. cbn [map] in Hnd. apply NoDup_cons_iff in Hnd as [H1 H2].
    destruct Hp as [->|Hp], Hq as [->|Hq]; [reflexivity| | |exact (IH Hp Hq H2)].
    + destruct H1. rewrite <- Ek. apply in_map. exact Hq.
    + destruct H1. rewrite Ek. apply in_map. exact Hp.
  - apply table_refused. exact Hsh.
Qed.
Print Assumptions C114_text_report_partial.

(** Expected: printed or refused. Whenever the last transaction has a row that another lacks, and the others have none that
    it lacks, the command crashes. *)
Theorem C114_gap_refuted :
  (forall srt b is_print f64 is_letter decs colour tw, sort_ok is_less srt -> listable srt b -> let ts := snd (transactions srt b) in
     fits ts -> (exists t v, In t ts /\ In v (last ts []) /\ ~ has_row t v) -> summary_text is_print f64 is_letter decs colour tw ts = Panic) /\
  (exists b, listable xsort b /\ fits (snd (transactions xsort b)) /\ exists t v, In t (snd (transactions xsort b)) /\ In v (last (snd (transactions xsort b)) []) /\ ~ has_row t v).
Proof.
  split; [intros srt b is_print f64 is_letter decs colour tw Hs Hl ts Hf Hg; apply table_crashes; [apply listable_showable; assumption|exact Hf|exact Hg]|].
  set (b := x_built (gap_calls (bs "B") (bs "C"))). exists b. set (ts := snd (transactions xsort b)).
  assert (Hsum : summarisable xsort b) by (apply (x_summarisable [20240101; 20240105; 20240106]); [exact x_dates|vm_compute; reflexivity..]).
  assert (Hnm : nameable 58 (bs "GBP") ts) by (apply nameableb_ok; vm_compute; reflexivity).
  split. { destruct Hsum as (H1 & _ & _ & H2 & _). split; [exact H1|]. split; [exact H2|]. intros t p Ht Hp. apply (proj2 Hnm (p_acct p) (p_ccy p)). exists t, p. auto. }
  assert (Hb : forallb (fun t => forallb (fun v => existsb (fun p => key_eqb (row_key p) (row_key v)) (last ts [])) t) ts = true) by (vm_compute; reflexivity).
  assert (Hg : existsb (fun t => existsb (fun v => negb (existsb (fun p => key_eqb (row_key p) (row_key v)) t)) (last ts [])) ts = true) by (vm_compute; reflexivity).
  assert (Hrow : forall t v, existsb (fun p => key_eqb (row_key p) (row_key v)) t = true <-> has_row t v).
  { intros t v. rewrite existsb_exists. unfold has_row. split; intros (p & Hp & E); exists p; (split; [exact Hp|]); [apply same_row_key, key_eqb_eq; exact E|apply key_eqb_eq, same_row_key; exact E]. }
  split.
  - intros t v Ht Hv. rewrite forallb_forall in Hb. specialize (Hb t Ht). rewrite forallb_forall in Hb. apply Hrow. exact (Hb v Hv).
  - apply existsb_exists in Hg as (t & Ht & Hg). apply existsb_exists in Hg as (v & Hv & Hg). exists t, v. split; [exact Ht|]. split; [exact Hv|]. rewrite <- Hrow. apply negb_true_iff in Hg. rewrite Hg. discriminate.
Qed.
Print Assumptions C114_gap_refuted.

(** Expected: each line begins with the name of the account. In a book as it was loaded every name is blank (C62). *)
Definition two_days : list bcall :=
  [ CTrans 20240105 (bs "Shop") []; CPost (bs "Food") (bs "GBP") (qz 10) []; CPost (bs "Cash") (bs "GBP") (qz (-10)) [];
    CTrans 20240106 (bs "Shop") []; CPost (bs "Food") (bs "GBP") (qz 7) []; CPost (bs "Cash") (bs "GBP") (qz (-7)) [] ].
Theorem C114_blank_names_refuted : exists b, listable xsort b /\ fits (snd (transactions xsort b)) /\ complete (snd (transactions xsort b)) /\
  summary_text x_print x_plain_f64 x_ascii_letter [(bs "GBP", 2)] false 80 (snd (transactions xsort b)) = Ok (table_text [
    bs "Account 2024/01/05 2024/01/06";
    bs "        GBP -10.00 GBP  -7.00";
    [];
    bs "        GBP  10.00 GBP   7.00"]).
Proof.
  set (b := x_built two_days). exists b. set (ts := snd (transactions xsort b)).
  assert (Hsum : summarisable xsort b) by (apply (x_summarisable [20240101; 20240105; 20240106]); [exact x_dates|vm_compute; reflexivity..]).
  assert (Hnm : nameable 58 (bs "GBP") ts) by (apply nameableb_ok; vm_compute; reflexivity).
  split. { destruct Hsum as (H1 & _ & _ & H2 & _). split; [exact H1|]. split; [exact H2|]. intros t p Ht Hp. apply (proj2 Hnm (p_acct p) (p_ccy p)). exists t, p. auto. }
  assert (Hb : forallb (fun t => forallb (fun v => existsb (fun p => key_eqb (row_key p) (row_key v)) (last ts [])) t) ts = true) by (vm_compute; reflexivity).
  assert (Hg : forallb (fun t => forallb (fun v => existsb (fun p => key_eqb (row_key p) (row_key v)) t) (last ts [])) ts = true) by (vm_compute; reflexivity).
  assert (Hrow : forall t v, existsb (fun p => key_eqb (row_key p) (row_key v)) t = true -> has_row t v).
  { intros t v H. apply existsb_exists in H as (p & Hp & E). exists p. split; [exact Hp|]. apply same_row_key, key_eqb_eq. exact E. }
  split; [|split; [|vm_compute; reflexivity]].
  - intros t v Ht Hv. rewrite forallb_forall in Hb. specialize (Hb t Ht). rewrite forallb_forall in Hb. apply Hrow. exact (Hb v Hv).
  - intros t v Ht Hv. rewrite forallb_forall in Hg. specialize (Hg t Ht). rewrite forallb_forall in Hg. apply Hrow. exact (Hg v Hv).
Qed.
Print Assumptions C114_blank_names_refuted.
(** A report that is refused: the first transaction has an account that the last one lacks. *)
Example C114_refused_nonvacuous : listable xsort (x_built (gap_calls (bs "D") (bs "C"))) /\
  summary_text x_print x_plain_f64 x_ascii_letter [] false 80 (snd (transactions xsort (x_built (gap_calls (bs "D") (bs "C"))))) = Error.
Proof.
  set (b := x_built (gap_calls (bs "D") (bs "C"))). assert (Hsum : summarisable xsort b) by (apply (x_summarisable [20240101; 20240105; 20240106]); [exact x_dates|vm_compute; reflexivity..]).
  assert (Hnm : nameable 58 (bs "GBP") (snd (transactions xsort b))) by (apply nameableb_ok; vm_compute; reflexivity).
  split; [|vm_compute; reflexivity]. destruct Hsum as (H1 & _ & _ & H2 & _). split; [exact H1|]. split; [exact H2|]. intros t p Ht Hp. apply (proj2 Hnm (p_acct p) (p_ccy p)). exists t, p. auto.
Qed.
