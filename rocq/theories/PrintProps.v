(** * PrintProps: C52, C53. [is_print] is unicode.IsPrint, of which only "a blank is printable" is assumed. *)
From Verif Require Import Base Dec DateModel PriceModel BookModel RegisterModel Utf8 LoaderModel ExportModel PrintModel PrintSpec PrintProofs PrintProofs2.

(** ** C52. A text is a list of characters and terminated colour sequences. *)
Theorem C52_padding is_print s ps w left :
  is_print 32 = true -> Forall (fun b => 0 <= b < 256) s -> decode s = text ps -> Forall piece_ok ps -> 0 <= w ->
  let ps' := padded is_print (Z.to_nat w) left ps in
  pad_string is_print s w left = encode (text ps') /\ decode (pad_string is_print s w left) = text ps' /\ Forall piece_ok ps' /\
  text_length is_print s = Z.of_nat (length (visible is_print ps)) /\
  text_length is_print (pad_string is_print s w left) = w /\
  colours ps' = colours ps /\
  visible is_print ps' = (let blanks := repeat 32 (Z.to_nat w - length (visible is_print ps)) in
                          let kept := firstn (Z.to_nat w) (visible is_print ps) in if left then kept ++ blanks else blanks ++ kept).
Proof.
  intros H32 Hb E Ho Hw ps'. assert (Ep : pad_string is_print s w left = encode (text ps')) by (apply pad_string_ok; assumption).
  assert (Hsc : Forall scalar (text ps')) by (apply text_scalar_padded; rewrite <- E; apply decode_scalar; exact Hb).
  assert (Ed : decode (pad_string is_print s w left) = text ps') by (rewrite Ep; apply decode_encode; exact Hsc).
  assert (Ho' : Forall piece_ok ps') by (apply padded_ok; exact Ho).
  split; [exact Ep|]. split; [exact Ed|]. split; [exact Ho'|]. split; [apply text_length_ok; assumption|].
  split; [rewrite (text_length_ok _ _ _ Ed Ho'); unfold ps'; rewrite padded_length by exact H32; lia|].
  split; [apply padded_colours|]. apply padded_visible. exact H32.
Qed.
Print Assumptions C52_padding.
(** Every text has this form, except that a colour sequence may be cut off at the end. *)
Theorem C52_every_text rs :
  exists ps tail, Forall piece_ok ps /\ rs = text ps ++ tail /\ (tail = [] \/ exists body, tail = 27 :: body /\ ~ In 109 body).
Proof. exact (pieces_of (fun _ => true) rs). Qed.
Print Assumptions C52_every_text.
(** Padding again changes nothing, on either side. *)
Theorem C52_padding_again is_print s ps w left left' :
  is_print 32 = true -> Forall (fun b => 0 <= b < 256) s -> decode s = text ps -> Forall piece_ok ps -> 0 <= w ->
  pad_string is_print (pad_string is_print s w left) w left' = pad_string is_print s w left.
Proof.
  intros H32 Hb E Ho Hw. destruct (C52_padding is_print s ps w left H32 Hb E Ho Hw) as (Ep & Ed & Ho' & _).
  rewrite (pad_string_ok is_print _ _ w left' Ed Ho'), padded_idem by exact H32. symmetry. exact Ep.
Qed.
Print Assumptions C52_padding_again.

Definition x_print (r : Z) : bool := (32 <=? r) && negb (r =? 127).
(** A red "Zürich", a tab and a bell. *)
Definition ex52 : list piece := [Colour (bs "[0;31"); Char 90; Char 252; Char 114; Char 105; Char 9; Char 99; Char 7; Char 104; Colour (bs "[0")].
Example C52_nonvacuous :
  decode (encode (text ex52)) = text ex52 /\ Forall piece_ok ex52 /\ Forall (fun b => 0 <= b < 256) (encode (text ex52)) /\ x_print 32 = true /\
  text_length x_print (encode (text ex52)) = 7 /\
  pad_string x_print (encode (text ex52)) 5 true = encode (text [Colour (bs "[0;31"); Char 90; Char 252; Char 114; Char 105; Char 32; Colour (bs "[0")]) /\
  pad_string x_print (encode (text ex52)) 9 false = bs "  " ++ encode (text [Colour (bs "[0;31"); Char 90; Char 252; Char 114; Char 105; Char 32; Char 99; Char 104; Colour (bs "[0")]).
Proof.
  split; [vm_compute; reflexivity|]. split; [repeat constructor; cbn; intuition discriminate|]. split; [apply encode_bytes|]. repeat split; vm_compute; reflexivity.
Qed.
(** A colour sequence cut off at the end swallows the padding. *)
Example C52_cut_off_colour : text_length x_print (pad_string x_print (27 :: bs "[0") 3 true) = 0.
Proof. vm_compute. reflexivity. Qed.

(** ** C53. [widest is_print table j] is the natural width of column j, [rows_of table] the table as passed to PrintColumns. *)
Definition natural (is_print : Z -> bool) (table : list (option (list column))) (n : nat) : list Z := map (widest is_print table) (seq 0 n).
Definition full_width (is_print : Z -> bool) (table : list (option (list column))) (n : nat) : Z := zsum (natural is_print table n) + (Z.of_nat n - 1).
Definition lines_of (is_print : Z -> bool) (ws : list Z) (table : list (option (list column))) : list str :=
  map (fun r => match r with Some cells => line_of is_print ws cells | None => [] end) table.
Definition money_fixed (fl : list bool) (table : list (option (list column))) : Prop :=
  forall cells j sym amt, In (Some cells) table -> nth_error cells j = Some (ColMoney sym amt) -> nth j fl false = false.
Definition cells_ok (table : list (option (list column))) : Prop := forall cells v, In (Some cells) table -> In v cells -> cell_ok v.

Lemma nth_map_seq (f : nat -> Z) n j : (j < n)%nat -> nth j (map f (seq 0 n)) 0 = f j.
Proof. intros H. rewrite (nth_indep _ 0 (f O)) by (rewrite map_length, seq_length; lia). rewrite map_nth, seq_nth by exact H. reflexivity. Qed.

Lemma shrunk_sym is_print fl table n ws : well_shaped n table -> money_fixed fl table ->
  (forall j, (j < n)%nat -> shrunk (nth j fl false) (widest is_print table j) (nth j ws 0)) ->
  forall cells j v, In (Some cells) table -> nth_error cells j = Some v -> sym_width is_print v <= nth j ws 0.
Proof.
  intros Hs Hm Hsh cells j v Hin Hv. unfold well_shaped in Hs. rewrite Forall_forall in Hs. specialize (Hs _ Hin). cbn beta iota in Hs.
  assert (Hj : (j < n)%nat) by (rewrite <- Hs; apply nth_error_Some; congruence). specialize (Hsh j Hj). pose proof (widest_ge is_print table j cells v Hin Hv) as Hge.
  pose proof (widest_nonneg is_print table j). destruct v as [s|s|sym amt]; cbn [sym_width].
  - unfold shrunk in Hsh. destruct (nth j fl false); lia.
  - unfold shrunk in Hsh. destruct (nth j fl false); lia.
  - rewrite (Hm _ _ _ _ Hin Hv) in Hsh. cbn [shrunk] in Hsh. cbn [col_length] in Hge. pose proof (text_length_nonneg is_print amt). lia.
Qed.
Lemma table_out is_print tw table header fl ws :
  hd_error table = Some (Some header) -> header <> [] -> well_shaped (length header) table -> length ws = length header ->
  fit tw (natural is_print table (length header)) fl = Ok ws ->
  print_columns is_print tw (rows_of table) fl = Ok (table_text (lines_of is_print ws table)).
Proof.
  intros Hh Hne Hs Lw Ef. assert (Hne' : ws <> []) by (intros ->; destruct header; [congruence|discriminate]).
  destruct table as [|r0 table']; [discriminate|]. cbn [hd_error] in Hh. injection Hh as ->. set (table := Some header :: table') in *. unfold print_columns. change (rows_of table) with (Some (map Some header) :: rows_of table') at 1. cbn beta iota. rewrite map_length.
  destruct (widths_ok is_print table (repeat 0 (length header))) as (ws1 & E1 & L1 & N1).
  - rewrite repeat_length. exact Hs.
  - apply Forall_forall. intros x Hx. apply repeat_spec in Hx. lia.
  - rewrite E1. cbn [obind]. assert (Ew : ws1 = natural is_print table (length header)).
    { apply (nth_ext _ _ 0 0); [unfold natural; rewrite map_length, seq_length, L1, repeat_length; reflexivity|]. intros j Hj. rewrite L1, repeat_length in Hj. unfold natural.
      rewrite nth_map_seq by exact Hj. rewrite N1 by (rewrite repeat_length; exact Hj). rewrite nth_repeat. pose proof (widest_nonneg is_print table j). lia. }
    rewrite Ew, Ef. cbn [obind]. apply print_table_ok; [exact Hne'|]. rewrite Lw. exact Hs.
Qed.
Lemma table_printed is_print tw table header fl ws :
  is_print 32 = true -> hd_error table = Some (Some header) -> header <> [] -> well_shaped (length header) table -> cells_ok table ->
  length ws = length header -> (forall cells j v, In (Some cells) table -> nth_error cells j = Some v -> sym_width is_print v <= nth j ws 0) ->
  fit tw (natural is_print table (length header)) fl = Ok ws ->
  print_columns is_print tw (rows_of table) fl = Ok (table_text (lines_of is_print ws table)) /\
  (forall cells, In (Some cells) table -> text_length is_print (line_of is_print ws cells) = zsum ws + (Z.of_nat (length header) - 1)).
Proof.
  intros H32 Hh Hne Hs Hc Lw Hm Ef. assert (Hne' : ws <> []) by (intros ->; destruct header; [congruence|discriminate]).
  split; [exact (table_out is_print tw table header fl ws Hh Hne Hs Lw Ef)|].
  intros cells Hin. pose proof Hs as Hs'. unfold well_shaped in Hs'. rewrite Forall_forall in Hs'. specialize (Hs' _ Hin). cbn beta iota in Hs'.
  assert (W : Forall2 (fun v w => sym_width is_print v <= w) cells ws).
  { apply Forall2_nth_iff'. split; [lia|]. intros j v w Hv Hw. rewrite <- (nth_error_nth _ _ 0 Hw). exact (Hm _ _ _ Hin Hv). }
  destruct (line_length is_print H32 ws cells) as (qs & _ & L); [lia|exact Hne'|apply Forall_forall; intros v Hv; exact (Hc _ _ Hin Hv)|exact W|]. rewrite L, Lw. reflexivity.
Qed.

(** A table wider than the terminal, whose shrinkable columns are wide enough and whose last shrinkable column is not empty. *)
Theorem C53_fits_terminal_partial is_print tw table header fl :
  is_print 32 = true -> hd_error table = Some (Some header) -> header <> [] -> well_shaped (length header) table -> cells_ok table ->
  (length header <= length fl)%nat -> money_fixed fl table ->
  let n := length header in
  0 < tw < full_width is_print table n -> full_width is_print table n - tw <= zsum_where fl (natural is_print table n) ->
  (exists x, last_shrinkable fl (natural is_print table n) = Some x /\ 0 < x) ->
  exists ws, print_columns is_print tw (rows_of table) fl = Ok (table_text (lines_of is_print ws table)) /\ length ws = n /\
    (forall j, (j < n)%nat -> shrunk (nth j fl false) (widest is_print table j) (nth j ws 0)) /\
    (forall cells, In (Some cells) table -> text_length is_print (line_of is_print ws cells) = tw).
Proof.
  intros H32 Hh Hne Hs Hc Hfl Hm n Htw Henough (x & Hx & Hx0).
  assert (Ln : length (natural is_print table n) = n) by (unfold natural; rewrite map_length, seq_length; reflexivity).
  assert (Hnn : Forall (fun w => 0 <= w) (natural is_print table n)) by (unfold natural; apply Forall_forall; intros y Hy; apply in_map_iff in Hy as (j & <- & _); apply widest_nonneg).
  destruct (totals_ok (natural is_print table n) fl) as (k & Et & _ & Hk); [lia|].
  destruct (shrink_ok (natural is_print table n) fl (full_width is_print table n - tw)) as (ws & Es & Ez & Lw & Hsh); [lia|exact Hnn|lia|intros y Hy; congruence|].
  assert (Hsh' : forall j, (j < n)%nat -> shrunk (nth j fl false) (widest is_print table j) (nth j ws 0)).
  { intros j Hj. specialize (Hsh j ltac:(lia)). unfold natural in Hsh at 1. rewrite nth_map_seq in Hsh by exact Hj. exact Hsh. }
  assert (Ef : fit tw (natural is_print table n) fl = Ok ws).
  { unfold fit. rewrite Et. cbn [obind]. rewrite Ln. change (zsum (natural is_print table n) + (Z.of_nat n - 1)) with (full_width is_print table n).
    assert (0 < k) by (apply Hk; congruence). replace ((0 <? tw) && (0 <? k) && (tw <? full_width is_print table n)) with true by lia. exact Es. }
  destruct (table_printed is_print tw table header fl ws H32 Hh Hne Hs Hc ltac:(lia) (shrunk_sym is_print fl table n ws Hs Hm Hsh') Ef) as [E1 E2].
  exists ws. split; [exact E1|]. split; [lia|]. split; [exact Hsh'|]. intros cells Hin. rewrite (E2 cells Hin), Ez. unfold full_width. lia.
Qed.
Print Assumptions C53_fits_terminal_partial.

(** Otherwise nothing is shrunk: every column gets its natural width and all lines are equally wide. *)
Theorem C53_not_shrunk is_print tw table header fl :
  is_print 32 = true -> hd_error table = Some (Some header) -> header <> [] -> well_shaped (length header) table -> cells_ok table ->
  (length header <= length fl)%nat ->
  let n := length header in
  tw <= 0 \/ full_width is_print table n <= tw \/ Forall (fun f => f = false) fl ->
  print_columns is_print tw (rows_of table) fl = Ok (table_text (lines_of is_print (natural is_print table n) table)) /\
  (forall cells j v, In (Some cells) table -> nth_error cells j = Some v -> col_length is_print v <= widest is_print table j) /\
  (forall cells, In (Some cells) table -> text_length is_print (line_of is_print (natural is_print table n) cells) = full_width is_print table n).
Proof.
  intros H32 Hh Hne Hs Hc Hfl n Hcase. assert (Ln : length (natural is_print table n) = n) by (unfold natural; rewrite map_length, seq_length; reflexivity).
  destruct (totals_ok (natural is_print table n) fl) as (k & Et & Hk0 & Hk); [lia|].
  assert (Ef : fit tw (natural is_print table n) fl = Ok (natural is_print table n)).
  { unfold fit. rewrite Et. cbn [obind]. rewrite Ln. change (zsum (natural is_print table n) + (Z.of_nat n - 1)) with (full_width is_print table n).
    assert (Hc' : tw <= 0 \/ full_width is_print table n <= tw \/ k <= 0).
    { destruct Hcase as [H|[H|H]]; auto. right. right. destruct (Z.le_gt_cases k 0) as [|Hpos]; [assumption|]. exfalso. assert (Hpos' : 0 < k) by lia. apply Hk in Hpos'. apply Hpos'.
      clear - H. generalize (natural is_print table n). revert H. induction 1 as [|f fl -> _ IH]; intros [|w ws]; try reflexivity. cbn [last_shrinkable]. rewrite IH. reflexivity. }
    replace ((0 <? tw) && (0 <? k) && (tw <? full_width is_print table n)) with false by lia. reflexivity. }
  assert (Hw : forall cells j v, In (Some cells) table -> nth_error cells j = Some v -> sym_width is_print v <= nth j (natural is_print table n) 0).
  { intros cells j v Hin Hv. unfold well_shaped in Hs. rewrite Forall_forall in Hs. pose proof (Hs _ Hin) as Hl. cbn beta iota in Hl.
    assert (Hj : (j < n)%nat) by (unfold n; rewrite <- Hl; apply nth_error_Some; congruence). unfold natural. rewrite nth_map_seq by exact Hj.
    pose proof (widest_ge is_print table j cells v Hin Hv) as Hge. pose proof (widest_nonneg is_print table j). destruct v as [s|s|sym amt]; cbn [sym_width]; try lia. cbn [col_length] in Hge. pose proof (text_length_nonneg is_print amt). lia. }
  destruct (table_printed is_print tw table header fl _ H32 Hh Hne Hs Hc Ln Hw Ef) as [E1 E2].
  split; [exact E1|]. split; [intros cells j v; apply widest_ge|]. exact E2.
Qed.
Print Assumptions C53_not_shrunk.

(** No table whose last shrinkable column is not empty makes PrintColumns crash, whatever the width of the terminal and the texts. *)
Theorem C53_no_crash_partial is_print tw table header fl :
  hd_error table = Some (Some header) -> header <> [] -> well_shaped (length header) table -> (length header <= length fl)%nat ->
  (forall x, last_shrinkable fl (natural is_print table (length header)) = Some x -> 0 < x) ->
  exists ws, print_columns is_print tw (rows_of table) fl = Ok (table_text (lines_of is_print ws table)) /\ length ws = length header.
Proof.
  intros Hh Hne Hs Hfl Hx. set (n := length header) in *. assert (Ln : length (natural is_print table n) = n) by (unfold natural; rewrite map_length, seq_length; reflexivity).
  assert (Hnn : Forall (fun w => 0 <= w) (natural is_print table n)) by (unfold natural; apply Forall_forall; intros y Hy; apply in_map_iff in Hy as (j & <- & _); apply widest_nonneg).
  destruct (totals_ok (natural is_print table n) fl) as (k & Et & _); [lia|].
  assert (Ef : exists ws, fit tw (natural is_print table n) fl = Ok ws /\ length ws = n).
  { unfold fit. rewrite Et. cbn [obind]. destruct ((0 <? tw) && (0 <? k) && _); [|exists (natural is_print table n); split; [reflexivity|exact Ln]].
    rewrite Ln. destruct (shrink_total (natural is_print table n) fl (zsum (natural is_print table n) + (Z.of_nat n - 1) - tw)) as (ws & E & L); [lia|exact Hnn|exact Hx|]. exists ws. split; [exact E|lia]. }
  destruct Ef as (ws & Ef & Lw). exists ws. split; [|exact Lw]. apply (table_out is_print tw table header fl ws Hh Hne Hs Lw Ef).
Qed.
Print Assumptions C53_no_crash_partial.

(** If the last shrinkable column is empty, a narrow terminal makes PrintColumns divide by zero. *)
Theorem C53_empty_column_refuted :
  exists table, print_columns x_print 4 (rows_of table) [true; true] = Panic /\ print_columns x_print 80 (rows_of table) [true; true] = Ok (bs "abcdef " ++ [10]).
Proof. exists [Some [ColString (bs "abcdef"); ColString []]]. split; vm_compute; reflexivity. Qed.
Print Assumptions C53_empty_column_refuted.

Lemma clean_terminated s ps : clean s ps -> terminated s.
Proof. intros (-> & Hs & Ho). split; [apply encode_bytes|]. exists ps. split; [apply decode_encode; exact Hs|exact Ho]. Qed.
Definition plainb (s : str) : bool := forallb (fun c => (0 <=? c) && (c <? 128) && negb (c =? 27)) s.
Lemma plain_clean s : plainb s = true -> clean s (map Char s).
Proof.
  intros H. unfold plainb in H. rewrite forallb_forall in H. assert (Ha : Forall (fun c => 0 <= c < 128) s) by (apply Forall_forall; intros c Hc; specialize (H c Hc); lia).
  assert (E : text (map Char s) = s) by (clear; induction s as [|c s IH]; [reflexivity|]; cbn [map]; unfold text in *; cbn [map concat piece_text app]; rewrite IH; reflexivity).
  unfold clean. rewrite E. split; [symmetry; apply encode_ascii; exact Ha|]. split; [apply ascii_scalar; exact Ha|]. apply Forall_forall. intros p Hp. apply in_map_iff in Hp as (c & <- & Hc). cbn. specialize (H c Hc). lia.
Qed.
(** A register-like table with three shrinkable columns, natural width 59, on a terminal of 45. *)
Definition ex53 : list (option (list column)) :=
  [ Some [ColString (bs "Date"); ColString (bs "Payee"); ColString (bs "Account"); ColString (bs "Counteraccount"); ColRight (bs "Amount")];
    Some [ColString (bs "2024/01/05"); ColString (bs "Corner shop"); ColString (bs "Assets:Cash"); ColString (bs "Expense:Food"); ColMoney (bs "GBP ") (bs "-1.50")];
    None ].
Definition ex53_fl : list bool := [false; true; true; true; false].
Definition cell_okb (v : column) : bool := match v with ColString s | ColRight s => plainb s | ColMoney a b => plainb a && plainb b end.
Lemma cell_okb_ok v : cell_okb v = true -> cell_ok v.
Proof.
  destruct v as [s|s|a b]; cbn [cell_okb cell_ok]; intros H; try (eapply clean_terminated; apply plain_clean; exact H).
  apply andb_true_iff in H as [Ha Hb]. split; [eexists; apply plain_clean; exact Ha|eapply clean_terminated; apply plain_clean; exact Hb].
Qed.
Example C53_nonvacuous :
  (exists h, hd_error ex53 = Some (Some h) /\ h <> [] /\ length h = 5%nat) /\ well_shaped 5 ex53 /\ cells_ok ex53 /\ money_fixed ex53_fl ex53 /\
  full_width x_print ex53 5 = 59 /\ zsum_where ex53_fl (natural x_print ex53 5) = 36 /\ last_shrinkable ex53_fl (natural x_print ex53 5) = Some 14 /\
  print_columns x_print 45 (rows_of ex53) ex53_fl =
    Ok (bs "Date       Payee   Account Countera    Amount" ++ [10] ++ bs "2024/01/05 Corner  Assets: Expense: GBP -1.50" ++ [10; 10]).
Proof.
  split; [eexists; split; [reflexivity|split; [discriminate|reflexivity]]|]. split; [repeat constructor|].
  split; [intros cells v Hc Hv; apply cell_okb_ok; revert v Hv; apply forallb_forall; revert cells Hc; intros cells [E|[E|[E|[]]]]; inversion E; subst; vm_compute; reflexivity|].
  split; [|repeat split; vm_compute; reflexivity].
  intros cells j sym amt [E|[E|[E|[]]]] Hj; inversion E; subst; clear E; do 6 (destruct j as [|j]; [cbn in Hj |- *; try discriminate; try reflexivity|]); destruct j; discriminate.
Qed.
