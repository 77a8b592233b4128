(** * PrintProofs2: tables (C53). *)
From Verif Require Import Base Dec DateModel PriceModel BookModel RegisterModel Utf8 LoaderModel ExportModel PrintModel PrintSpec PrintProofs.

Section T.
  Variable is_print : Z -> bool.
  Hypothesis H32 : is_print 32 = true.
  Notation sym_width := (PrintSpec.sym_width is_print).
  Notation line_of := (PrintSpec.line_of is_print).
  Notation lengths := (PrintSpec.lengths is_print).
  Notation widest := (PrintSpec.widest is_print).


  Lemma clean_length s ps : clean s ps -> text_length is_print s = Z.of_nat (length (visible is_print ps)).
  Proof. intros (E & Hs & Ho). apply text_length_ok; [|exact Ho]. rewrite E. apply decode_encode. exact Hs. Qed.
  Lemma clean_app a b p q : clean a p -> clean b q -> clean (a ++ b) (p ++ q).
  Proof.
    intros (-> & S1 & O1) (-> & S2 & O2). unfold clean. rewrite text_app, encode_app. split; [reflexivity|]. split; apply Forall_app; split; assumption.
  Qed.
  Lemma clean_length_app a b p q : clean a p -> clean b q -> text_length is_print (a ++ b) = text_length is_print a + text_length is_print b.
  Proof. intros Ha Hb. rewrite (clean_length _ _ (clean_app _ _ _ _ Ha Hb)), (clean_length _ _ Ha), (clean_length _ _ Hb), visible_app, app_length. lia. Qed.
  Lemma pad_clean s w left : terminated s -> exists qs, clean (pad_string is_print s w left) qs /\ text_length is_print (pad_string is_print s w left) = Z.max 0 w.
  Proof.
    intros (Hb & ps & E & Ho). exists (padded is_print (Z.to_nat w) left ps). assert (C : clean (pad_string is_print s w left) (padded is_print (Z.to_nat w) left ps)).
    { split; [apply pad_string_ok; assumption|]. split; [|apply padded_ok; exact Ho]. apply text_scalar_padded. rewrite <- E. apply decode_scalar. exact Hb. }
    split; [exact C|]. rewrite (clean_length _ _ C), padded_length by exact H32. lia.
  Qed.
  Lemma text_length_nonneg s : 0 <= text_length is_print s.
  Proof.
    unfold text_length. generalize (decode s). intros l. generalize false. induction l as [|r l IH]; intros e; cbn [len_loop]; [lia|].
    destruct e; [apply IH|]. destruct (r =? ansi_start); [apply IH|]. destruct (placed is_print r); [specialize (IH false); lia|apply IH].
  Qed.
  Lemma col_length_nonneg v : 0 <= col_length is_print v.
  Proof. destruct v as [s|s|a b]; cbn [col_length]; try apply text_length_nonneg. pose proof (text_length_nonneg a). pose proof (text_length_nonneg b). lia. Qed.

  Lemma col_pad_clean v w : cell_ok v -> sym_width v <= w -> exists qs, clean (col_pad is_print v w) qs /\ text_length is_print (col_pad is_print v w) = w.
  Proof.
    destruct v as [s|s|sym amt]; cbn [cell_ok PrintSpec.sym_width col_pad].
    - intros H Hw. destruct (pad_clean s w true H) as (qs & C & L). exists qs. split; [exact C|lia].
    - intros H Hw. destruct (pad_clean s w false H) as (qs & C & L). exists qs. split; [exact C|lia].
    - intros [(ps & Hs) H] Hw. destruct (pad_clean amt (w - text_length is_print sym) false H) as (qs & C & L). exists (ps ++ qs). split; [apply clean_app; assumption|].
      rewrite (clean_length_app _ _ _ _ Hs C), L. lia.
  Qed.

  Lemma print_cells_ok ws : forall cells, length cells = length ws -> ws <> [] -> print_cells is_print ws (map Some cells) = Ok (line_of ws cells ++ [10]).
  Proof.
    induction ws as [|w ws IH]; intros [|v cells] Hl Hne; try discriminate; [congruence|]. cbn [map print_cells PrintSpec.line_of]. destruct ws as [|w2 ws].
    - destruct cells; [|discriminate]. cbn [print_cells obind]. rewrite app_nil_r, app_nil_r. reflexivity.
    - cbn [length] in Hl. injection Hl as Hl. rewrite IH; [|cbn [length]; lia|discriminate]. cbn [obind app]. rewrite <- !app_assoc. reflexivity.
  Qed.
  Lemma clean_blank : clean [32] [Char 32].
  Proof. split; [reflexivity|]. split; [constructor; [unfold scalar; lia|constructor]|]. constructor; [cbn; discriminate|constructor]. Qed.
  Lemma line_length ws : forall cells, length cells = length ws -> ws <> [] -> Forall cell_ok cells -> Forall2 (fun v w => sym_width v <= w) cells ws ->
    exists qs, clean (line_of ws cells) qs /\ text_length is_print (line_of ws cells) = zsum ws + (Z.of_nat (length ws) - 1).
  Proof.
    induction ws as [|w ws IH]; intros [|v cells] Hl Hne Hc Hw; try discriminate; [congruence|]. cbn [PrintSpec.line_of zsum length]. inversion Hc as [|? ? C1 C2]; subst. inversion Hw as [|? ? ? ? W1 W2]; subst.
    destruct (col_pad_clean v w C1 W1) as (p & P & L). destruct ws as [|w2 ws].
    - exists p. rewrite app_nil_r. split; [exact P|]. cbn [zsum length]. lia.
    - cbn [length] in Hl. injection Hl as Hl. destruct (IH cells) as (q & Q & LQ); [cbn [length]; lia|discriminate|exact C2|exact W2|].
      pose proof (clean_app _ _ _ _ clean_blank Q) as BQ. exists (p ++ [Char 32] ++ q). split; [apply clean_app; [exact P|exact BQ]|].
      rewrite (clean_length_app _ _ _ _ P BQ), (clean_length_app _ _ _ _ clean_blank Q), L, LQ.
      assert (E : text_length is_print [32] = 1) by (rewrite (clean_length _ _ clean_blank); cbn [visible]; unfold shown; rewrite H32; reflexivity).
      rewrite E. cbn [zsum length]. lia.
  Qed.

  (** Natural widths *)
  Definition maxp (p : Z * Z) : Z := Z.max (fst p) (snd p).
  Lemma widen_ok ws : forall cells, length cells = length ws -> widen is_print ws (map Some cells) = Ok (map maxp (combine ws (lengths cells))).
  Proof.
    induction ws as [|w ws IH]; intros [|v cells] Hl; try discriminate; [reflexivity|]. cbn [map widen PrintSpec.lengths combine] in *. injection Hl as Hl. unfold PrintSpec.lengths in IH. rewrite IH by exact Hl. cbn [obind].
    replace (maxp (w, col_length is_print v)) with (if w <? col_length is_print v then col_length is_print v else w); [reflexivity|]. unfold maxp. cbn [fst snd]. destruct (Z.ltb_spec w (col_length is_print v)); lia.
  Qed.
  Lemma widths_ok table : forall ws, well_shaped (length ws) table -> Forall (fun w => 0 <= w) ws ->
    exists ws', col_widths is_print ws (rows_of table) = Ok ws' /\ length ws' = length ws /\ forall j, (j < length ws)%nat -> nth j ws' 0 = Z.max (nth j ws 0) (widest table j).
  Proof.
    induction table as [|[cells|] table IH]; intros ws Hs Hw.
    - exists ws. split; [reflexivity|]. split; [reflexivity|]. intros j Hj. cbn. assert (0 <= nth j ws 0) by (rewrite Forall_forall in Hw; apply Hw; apply nth_In; exact Hj). lia.
    - inversion Hs as [|? ? H1 H2]; subst. cbn [rows_of map option_map col_widths]. rewrite widen_ok by exact H1. cbn [obind].
      set (ws1 := map maxp (combine ws (lengths cells))).
      assert (L1 : length ws1 = length ws) by (unfold ws1, PrintSpec.lengths; rewrite map_length, combine_length, map_length; lia).
      assert (N1 : forall j, (j < length ws)%nat -> nth j ws1 0 = Z.max (nth j ws 0) (nth j (lengths cells) 0)).
      { intros j Hj. unfold ws1. rewrite (nth_indep _ 0 (maxp (0, 0))) by (rewrite map_length, combine_length; unfold PrintSpec.lengths; rewrite map_length; lia).
        rewrite map_nth, combine_nth by (unfold PrintSpec.lengths; rewrite map_length; lia). reflexivity. }
      destruct (IH ws1) as (ws' & E & L & N); [rewrite L1; exact H2| |].
      + apply Forall_forall. intros x Hx. apply (In_nth _ _ 0) in Hx as (j & Hj & <-). rewrite L1 in Hj. rewrite N1 by exact Hj. assert (0 <= nth j ws 0) by (rewrite Forall_forall in Hw; apply Hw; apply nth_In; exact Hj). lia.
      + exists ws'. split; [exact E|]. split; [congruence|]. intros j Hj. rewrite N by lia. rewrite N1 by exact Hj. unfold PrintSpec.widest. cbn [map zmax fold_right]. fold (zmax (map (fun r => match r with Some c => nth j (lengths c) 0 | None => 0 end) table)). lia.
    - inversion Hs as [|? ? _ H2]; subst. cbn [rows_of map option_map col_widths]. destruct (IH ws H2 Hw) as (ws' & E & L & N). exists ws'. split; [exact E|]. split; [exact L|].
      intros j Hj. rewrite N by exact Hj. unfold PrintSpec.widest. cbn [map zmax fold_right]. fold (zmax (map (fun r => match r with Some c => nth j (lengths c) 0 | None => 0 end) table)).
      assert (0 <= nth j ws 0) by (rewrite Forall_forall in Hw; apply Hw; apply nth_In; exact Hj). lia.
  Qed.
  Lemma widest_nonneg table j : 0 <= widest table j.
  Proof. unfold PrintSpec.widest. induction (map _ table) as [|x l IH]; cbn [zmax fold_right]; [lia|]. fold (zmax l). lia. Qed.
  Lemma widest_ge table j cells v : In (Some cells) table -> nth_error cells j = Some v -> col_length is_print v <= widest table j.
  Proof.
    intros Hin Hv. unfold PrintSpec.widest. assert (E : nth j (lengths cells) 0 = col_length is_print v).
    { unfold PrintSpec.lengths. apply nth_error_nth. rewrite nth_error_map, Hv. reflexivity. }
    rewrite <- E. clear E Hv. induction table as [|r table IH]; [destruct Hin|]. cbn [map zmax fold_right]. fold (zmax (map (fun r => match r with Some c => nth j (lengths c) 0 | None => 0 end) table)).
    destruct Hin as [->|Hin]; [lia|]. specialize (IH Hin). lia.
  Qed.

  Lemma print_table_ok ws table : ws <> [] -> well_shaped (length ws) table ->
    print_table is_print ws (rows_of table) = Ok (table_text (map (fun r => match r with Some cells => line_of ws cells | None => [] end) table)).
  Proof.
    intros Hne. induction table as [|[cells|] table IH]; intros Hs; inversion Hs as [|? ? H1 H2]; subst; cbn [rows_of map option_map print_table]; [reflexivity| |].
    - rewrite print_cells_ok by assumption. cbn [obind]. fold (rows_of table). rewrite IH by exact H2. cbn [obind]. reflexivity.
    - fold (rows_of table). rewrite IH by exact H2. reflexivity.
  Qed.
End T.

Lemma Forall2_nth_iff' {A B} (R : A -> B -> Prop) l m :
  Forall2 R l m <-> length l = length m /\ forall j x y, nth_error l j = Some x -> nth_error m j = Some y -> R x y.
Proof.
  split.
  - induction 1 as [|x y l m Hxy _ [IL IH]]; [split; [reflexivity|intros [|j] ? ? H; discriminate]|]. split; [cbn [length]; lia|].
    intros [|j] a b Ha Hb; cbn [nth_error] in *; [congruence|exact (IH j a b Ha Hb)].
  - revert m. induction l as [|x l IH]; intros [|y m] [L H]; try discriminate; constructor; [exact (H O x y eq_refl eq_refl)|]. apply IH. split; [cbn [length] in L; lia|].
    intros j a b Ha Hb. exact (H (S j) a b Ha Hb).
Qed.
