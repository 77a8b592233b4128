(** * RegisterText: the text register fits the terminal (C53). *)
From Verif Require Import Base Dec DateModel PriceModel BookModel RegisterModel Utf8 LoaderModel ExportModel PrintModel PrintSpec PrintProofs PrintProofs2 PrintProps PrintProofs3 HtmlProofs.

Section T.
  Variables (is_print : Z -> bool) (f64 : Qc -> Qc) (is_letter : Z -> bool) (decs : list (str * Z)) (colour : bool).
  Notation money := (column_money f64 is_letter decs colour).
  (** A cell of an amount: symbol and number, negative numbers in red. *)
  Definition amount_column (ccy : str) (v : Qc) : column := match money ccy v with Ok c => c | _ => ColString [] end.
  Definition headings (wa wb : bool) : list column :=
    [ColString (ansi colour UL (bs "Date")); ColString (ansi colour UL (bs "Payee"))] ++
    (if wa then [ColString (ansi colour UL (bs "Account"))] else []) ++
    [ColString (ansi colour UL (bs "Counteraccount")); ColRight (ansi colour UL (bs "Amount"))] ++
    (if wb then [ColRight (ansi colour UL (bs "Balance"))] else []).
  Definition entry_cells (wa wb : bool) (e : entry) : list column :=
    [ColString (date_string (e_date e)); ColString (e_payee e)] ++ (if wa then [ColString (e_acct e)] else []) ++
    [ColString (e_counter e); amount_column (e_ccy e) (e_amt e)] ++ (if wb then [amount_column (e_ccy e) (e_bal e)] else []).
  Definition register_table (wa wb : bool) (es : list entry) : list (option (list column)) :=
    Some (headings wa wb) :: map (fun e => Some (entry_cells wa wb e)) es.

  Lemma register_text_table tw wa wb es : Forall (fun e => decode (e_ccy e) <> []) es ->
    register_text is_print f64 is_letter decs colour tw (map Some es) wa wb = print_columns is_print tw (rows_of (register_table wa wb es)) (register_shrink wa wb).
  Proof.
    intros H. unfold register_text, register_table, rows_of. cbn [map option_map].
    assert (E : register_rows f64 is_letter decs colour wa wb (map Some es) = Ok (map (option_map (map Some)) (map (fun e => Some (entry_cells wa wb e)) es))).
    { induction H as [|e es He _ IH]; [reflexivity|]. cbn [map register_rows]. rewrite IH. unfold register_row, entry_cells, amount_column.
      destruct (money_ok f64 is_letter decs colour (e_ccy e) (e_amt e) He) as (c & ->). destruct (money_ok f64 is_letter decs colour (e_ccy e) (e_bal e) He) as (c' & ->). cbn [obind].
      destruct wa, wb; reflexivity. }
    rewrite E. cbn [obind]. f_equal. f_equal. unfold register_header, headings. destruct wa, wb; reflexivity.
  Qed.
  Lemma headings_length wa wb : length (headings wa wb) = length (register_shrink wa wb).
  Proof. destruct wa, wb; reflexivity. Qed.
  Lemma table_shaped wa wb es : well_shaped (length (headings wa wb)) (register_table wa wb es).
  Proof. constructor; [reflexivity|]. apply Forall_forall. intros r Hr. apply in_map_iff in Hr as (e & <- & _). unfold entry_cells. destruct wa, wb; reflexivity. Qed.

  Lemma widest_ge table n cells j : well_shaped n table -> In (Some cells) table -> nth j (lengths is_print cells) 0 <= widest is_print table j.
  Proof.
    intros _ H. unfold widest. generalize (in_map (fun r => match r with Some cells => nth j (lengths is_print cells) 0 | None => 0 end) table (Some cells) H). cbv beta. generalize (map (fun r => match r with Some cells => nth j (lengths is_print cells) 0 | None => 0 end) table).
    intros l Hl. unfold zmax. induction l as [|x l IH]; [contradiction|]. cbn [fold_right]. destruct Hl as [->|Hl]; [lia|]. specialize (IH Hl). lia.
  Qed.
  (** The heading "Counteraccount" keeps the last shrinkable column from being empty. *)
  Lemma last_column wa wb es : is_print 67 = true ->
    exists x, last_shrinkable (register_shrink wa wb) (natural is_print (register_table wa wb es) (length (headings wa wb))) = Some x /\ 0 < x.
  Proof.
    intros HC. set (j := if wa then 3%nat else 2%nat). exists (widest is_print (register_table wa wb es) j). split; [unfold j; destruct wa, wb; reflexivity|].
    assert (H : nth j (lengths is_print (headings wa wb)) 0 <= widest is_print (register_table wa wb es) j) by (apply (widest_ge _ (length (headings wa wb))); [apply table_shaped|left; reflexivity]).
    enough (0 < nth j (lengths is_print (headings wa wb)) 0) by lia. clear H.
    assert (E : nth j (lengths is_print (headings wa wb)) 0 = text_length is_print (ansi colour UL (bs "Counteraccount"))) by (unfold j; destruct wa, wb; reflexivity).
    rewrite E. assert (G : forall rs esc, 0 <= len_loop is_print esc rs).
    { clear. induction rs as [|r rs IH]; intros esc; cbn [len_loop]; [lia|]. pose proof (IH true). pose proof (IH false). pose proof (IH (negb (r =? ansi_end))). destruct esc; [assumption|]. destruct (r =? ansi_start); [assumption|]. destruct (placed is_print r); lia. }
    unfold text_length, ansi. destruct colour.
    - change (decode (UL ++ bs "Counteraccount" ++ Reset)) with (27 :: 91 :: 52 :: 109 :: 67 :: bs "ounteraccount" ++ Reset). generalize (bs "ounteraccount" ++ Reset). intros tl.
      cbn [len_loop]. change (27 =? ansi_start) with true. change (91 =? ansi_end) with false. change (52 =? ansi_end) with false. change (109 =? ansi_end) with true. change (67 =? ansi_start) with false. cbn [negb]. cbv iota. unfold placed. rewrite HC. cbn [orb]. pose proof (G tl false). lia.
    - change (decode (bs "Counteraccount")) with (67 :: bs "ounteraccount"). generalize (bs "ounteraccount"). intros tl. cbn [len_loop]. change (67 =? ansi_start) with false. cbv iota. unfold placed. rewrite HC. cbn [orb]. pose proof (G tl false). lia.
  Qed.
  Lemma money_columns wa wb es : money_fixed (register_shrink wa wb) (register_table wa wb es).
  Proof.
    intros cells j sym amt H Hj. destruct H as [H|H].
    - injection H as <-. unfold headings in Hj. destruct wa, wb; cbn [app] in Hj; do 7 (destruct j as [|j]; [cbn in Hj; try discriminate; try reflexivity|]); destruct j; discriminate.
    - apply in_map_iff in H as (e & E & _). injection E as <-. unfold entry_cells in Hj. destruct wa, wb; cbn [app] in Hj; do 7 (destruct j as [|j]; [cbn in Hj; try discriminate; try reflexivity|]); destruct j; discriminate.
  Qed.

  (** *** Cells *)
  Lemma num_plain s : numchars s -> plainb s = true.
  Proof. intros H. apply forallb_forall. intros c Hc. unfold numchars in H. rewrite Forall_forall in H. specialize (H c Hc). destruct (Z.eqb_spec c 27); lia. Qed.
  Lemma clean_app a b p q : clean a p -> clean b q -> clean (a ++ b) (p ++ q).
  Proof.
    intros (-> & A2 & A3) (-> & B2 & B3). assert (E : text (p ++ q) = text p ++ text q) by (unfold text; rewrite map_app, concat_app; reflexivity). unfold clean. rewrite E, encode_app.
    split; [reflexivity|]. split; [apply Forall_app; split; assumption|apply Forall_app; split; assumption].
  Qed.
  Lemma ansi_clean c body s ps : c = 27 :: body ++ [109] -> Forall (fun b => 0 <= b < 128 /\ b <> 109) body -> clean s ps -> exists ps', clean (ansi colour c s) ps'.
  Proof.
    intros -> Hb Hs. unfold ansi. destruct colour; [|eauto]. exists ([Colour body] ++ ps ++ [Colour (bs "[0")]).
    assert (Hbody : Forall (fun c => 0 <= c < 128) (27 :: body ++ [109])) by (constructor; [lia|]; apply Forall_app; split; [eapply Forall_impl; [|exact Hb]; cbn; intros; lia|repeat constructor; lia]).
    apply clean_app; [|apply clean_app; [exact Hs|]].
    - unfold clean, text. cbn [map concat piece_text]. rewrite app_nil_r. split; [symmetry; apply encode_ascii; exact Hbody|]. split; [apply ascii_scalar; exact Hbody|]. constructor; [|constructor]. cbn. intros F. rewrite Forall_forall in Hb. specialize (Hb _ F). lia.
    - change Reset with (27 :: bs "[0" ++ [109]). unfold clean, text. cbn [map concat piece_text]. rewrite app_nil_r. split; [reflexivity|]. split; [apply ascii_scalar; repeat constructor; cbn; lia|]. constructor; [|constructor]. cbn. intuition discriminate.
  Qed.
  Definition readable_entry (e : entry) : Prop :=
    decode (e_ccy e) <> [] /\ terminated (e_payee e) /\ terminated (e_acct e) /\ terminated (e_counter e) /\ exists ps, clean (e_ccy e) ps.
  Lemma amount_ok ccy v ps : decode ccy <> [] -> clean ccy ps -> cell_ok (amount_column ccy v).
  Proof.
    intros Hn Hc. unfold amount_column, column_money. destruct (format_symbol_ok is_letter ccy Hn) as (sym & -> & Hs). cbn [obind].
    assert (Hsym : exists ps', clean sym ps') by (destruct Hs as [->| ->]; [eauto|eexists; apply clean_app; [exact Hc|apply (plain_clean [32]); reflexivity]]). destruct Hsym as (ps' & Hsym).
    assert (Hnum : exists q, clean (format_number f64 decs ccy v) q) by (unfold format_number; eexists; apply plain_clean, num_plain, num_fmt_float). destruct Hnum as (q & Hnum).
    assert (HB : Forall (fun b => 0 <= b < 128 /\ b <> 109) (bs "[0;34")) by (repeat constructor; cbn; lia). assert (HR : Forall (fun b => 0 <= b < 128 /\ b <> 109) (bs "[0;31")) by (repeat constructor; cbn; lia).
    destruct (v ?= 0)%Qc; cbn [cell_ok]; (split; [exact (ansi_clean Blue (bs "[0;34") _ _ eq_refl HB Hsym)|]).
    1,3: destruct (ansi_clean Blue (bs "[0;34") _ _ eq_refl HB Hnum) as (z & Hz); exact (clean_terminated _ _ Hz).
    destruct (ansi_clean Red (bs "[0;31") _ _ eq_refl HR Hnum) as (z & Hz); exact (clean_terminated _ _ Hz).
  Qed.
  Lemma table_cells wa wb es : Forall readable_entry es -> cells_ok (register_table wa wb es).
  Proof.
    intros H cells v [Hc|Hc] Hv.
    - injection Hc as <-. assert (HU : Forall (fun b => 0 <= b < 128 /\ b <> 109) (bs "[4")) by (repeat constructor; cbn; lia).
      assert (Hh : forall s, plainb s = true -> terminated (ansi colour UL s)). { intros s Hs. destruct (ansi_clean UL (bs "[4") _ _ eq_refl HU (plain_clean s Hs)) as (z & Hz). exact (clean_terminated _ _ Hz). }
      unfold headings in Hv. rewrite !in_app_iff in Hv. cbn [In] in Hv. destruct wa, wb; cbn [In] in Hv; repeat (destruct Hv as [Hv|Hv]); try contradiction; subst v; cbn [cell_ok]; apply Hh; reflexivity.
    - apply in_map_iff in Hc as (e & E & He). injection E as <-. rewrite Forall_forall in H. destruct (H e He) as (Hn & H1 & H2 & H3 & ps & H4).
      assert (Hd : terminated (date_string (e_date e))) by (eapply clean_terminated; apply plain_clean, num_plain, num_date).
      unfold entry_cells in Hv. rewrite !in_app_iff in Hv. cbn [In] in Hv. destruct wa, wb; cbn [In] in Hv; repeat (destruct Hv as [Hv|Hv]); try contradiction; subst v; try exact Hd; try assumption; apply (amount_ok _ _ ps); assumption.
  Qed.

  (** Payees and accounts may be cut; dates and amounts may not. *)
  Definition may_be_cut (wa wb : bool) : list bool :=
    match wa, wb with
    | false, false => [false; true; true; false]
    | false, true => [false; true; true; false; false]
    | true, false => [false; true; true; true; false]
    | true, true => [false; true; true; true; false; false]
    end.
  Lemma cut_shrink wa wb : may_be_cut wa wb = register_shrink wa wb.
  Proof. destruct wa, wb; reflexivity. Qed.

  (** The register is printed without failure; when it is wider than the terminal, payees and accounts are cut and
      every line has exactly the width of the terminal; otherwise nothing is cut. *)
  Theorem C53_register tw wa wb es : is_print 67 = true -> is_print 32 = true -> Forall readable_entry es ->
    let table := register_table wa wb es in let n := length (headings wa wb) in
    exists ws, register_text is_print f64 is_letter decs colour tw (map Some es) wa wb = Ok (table_text (lines_of is_print ws table)) /\ length ws = n /\
      (0 < tw < full_width is_print table n -> full_width is_print table n - tw <= zsum_where (may_be_cut wa wb) (natural is_print table n) ->
         (forall j, (j < n)%nat -> shrunk (nth j (may_be_cut wa wb) false) (widest is_print table j) (nth j ws 0)) /\
         forall cells, In (Some cells) table -> text_length is_print (line_of is_print ws cells) = tw) /\
      (tw <= 0 \/ full_width is_print table n <= tw -> ws = natural is_print table n).
  Proof.
    rewrite cut_shrink. intros HC H32 Hes table n. assert (Hne : Forall (fun e => decode (e_ccy e) <> []) es) by (eapply Forall_impl; [|exact Hes]; intros e He; apply He).
    rewrite register_text_table by exact Hne. fold table. assert (Hn : (n <= length (register_shrink wa wb))%nat) by (unfold n; rewrite headings_length; reflexivity).
    assert (Hh : headings wa wb <> []) by (unfold headings; discriminate).
    assert (Ln : length (natural is_print table n) = n) by (unfold natural; rewrite map_length, seq_length; reflexivity).
    destruct (Z_le_gt_dec tw 0) as [Hz|Hz]; [|destruct (Z_le_gt_dec (full_width is_print table n) tw) as [Hw|Hw]].
    - destruct (C53_not_shrunk is_print tw table (headings wa wb) (register_shrink wa wb) H32 eq_refl Hh (table_shaped wa wb es) (table_cells wa wb es Hes) Hn) as (E & _); [auto|].
      exists (natural is_print table n). split; [exact E|]. split; [exact Ln|]. split; [lia|reflexivity].
    - destruct (C53_not_shrunk is_print tw table (headings wa wb) (register_shrink wa wb) H32 eq_refl Hh (table_shaped wa wb es) (table_cells wa wb es Hes) Hn) as (E & _); [auto|].
      exists (natural is_print table n). split; [exact E|]. split; [exact Ln|]. split; [lia|reflexivity].
    - destruct (last_column wa wb es HC) as (x & Hx & Hx0).
      destruct (Z_le_gt_dec (full_width is_print table n - tw) (zsum_where (register_shrink wa wb) (natural is_print table n))) as [Hs|Hs].
      + destruct (C53_fits_terminal_partial is_print tw table (headings wa wb) (register_shrink wa wb) H32 eq_refl Hh (table_shaped wa wb es) (table_cells wa wb es Hes) Hn (money_columns wa wb es)) as (ws & E & L & A & B); [fold n; lia|exact Hs|exists x; split; [exact Hx|exact Hx0]|].
        exists ws. split; [exact E|]. split; [exact L|]. split; [intros _ _; split; assumption|intros [Hq|Hq]; exfalso; lia].
      + destruct (C53_no_crash_partial is_print tw table (headings wa wb) (register_shrink wa wb) eq_refl Hh (table_shaped wa wb es) Hn) as (ws & E & L).
        { intros y Hy. unfold table in Hy. rewrite Hx in Hy. injection Hy as <-. exact Hx0. }
        exists ws. split; [exact E|]. split; [exact L|]. split; [intros _ Hq; exfalso; lia|intros [Hq|Hq]; exfalso; lia].
  Qed.
End T.
Print Assumptions C53_register.

Definition ex_entries : list entry :=
  [mkE 20240105 (bs "Assets:Bank:Current") (bs "Corner Shop and Bakery") (bs "Expenses:Food:Groceries") (- qz 12)%Qc (bs "GBP") (qz 88) [] [] 0%Qc Exact 0%Qc;
   mkE 20240109 (bs "Assets:Bank:Current") (bs "Salary") (bs "Income:Job") (qz 1500) (bs "GBP") (qz 1588) [] [] 0%Qc Exact 0%Qc].
Definition readableb (e : entry) : bool := match decode (e_ccy e) with [] => false | _ => true end && forallb plainb [e_payee e; e_acct e; e_counter e; e_ccy e].
Lemma readableb_ok e : readableb e = true -> readable_entry e.
Proof.
  intros H. apply andb_true_iff in H as [H1 H2]. rewrite forallb_forall in H2. assert (T : forall s, In s [e_payee e; e_acct e; e_counter e; e_ccy e] -> clean s (map Char s)) by (intros s Hs; apply plain_clean, H2, Hs).
  split; [destruct (decode (e_ccy e)); [discriminate|discriminate]|]. repeat split; try (eapply clean_terminated; apply T; cbn; auto). eexists. apply T. cbn. auto.
Qed.
Example C53_register_nonvacuous : Forall readable_entry ex_entries /\ x_print 67 = true /\ x_print 32 = true /\
  register_text x_print (fun q => q) (fun _ => true) [(bs "GBP", 2)] false 60 (map Some ex_entries) false true = Ok (table_text [
    bs "Date       Payee       Counteracco       Amount      Balance";
    bs "2024/01/05 Corner Shop Expenses:Fo GBP   -12.00 GBP    88.00";
    bs "2024/01/09 Salary      Income:Job  GBP 1,500.00 GBP 1,588.00"]).
Proof.
  split; [|split; [reflexivity|split; [reflexivity|vm_compute; reflexivity]]]. apply Forall_forall. intros e He. apply readableb_ok. revert e He. apply forallb_forall. vm_compute. reflexivity.
Qed.
