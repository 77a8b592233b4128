(** * PlainTableProofs: the table of transactions that need not have the same rows. *)
From Verif Require Import Base Dec DateModel PriceModel BookModel BookSpec RegisterModel Utf8 LoaderModel ExportModel PrintModel PrintSpec PrintProofs PrintProofs2 PrintProps ReportSpec PrintProofs3 ReportProps PlainTableSpec.

Lemma same_row_key p q : same_row p q <-> row_key p = row_key q.
Proof. unfold same_row, row_key. split; [intros (-> & -> & ->); reflexivity|intros H; injection H; auto]. Qed.
Lemma has_row_key t v : has_row t v <-> In (row_key v) (map row_key t).
Proof. unfold has_row. rewrite in_map_iff. split; intros (p & H1 & H2); exists p; (split; [|]); try assumption; [apply same_row_key|apply same_row_key]; assumption. Qed.

Lemma set_nth_len {A} j (x : A) l : (j < length l)%nat -> length (set_nth j x l) = length l.
Proof. intros H. unfold set_nth. rewrite app_length, firstn_length. cbn [length]. rewrite skipn_length. lia. Qed.

Section T.
  Variables (is_print : Z -> bool) (f64 : Qc -> Qc) (is_letter : Z -> bool) (decs : list (str * Z)) (colour : bool) (tw : Z).
  (** rows that can be shown *)
  Definition showable (ts : list trans) : Prop := ts <> [] /\ Forall (fun t => t <> [] /\ NoDup (map row_key t) /\ forall p, In p t -> decode (p_ccy p) <> [] /\ 0 <= p_level p) ts.

  Lemma row_in_dec p l : In (row_key p) (map row_key l) \/ ~ In (row_key p) (map row_key l).
  Proof.
    destruct (existsb (key_eqb (row_key p)) (map row_key l)) eqn:E; [left; apply existsb_exists in E as (k & Hk & Ek); apply key_eqb_eq in Ek; rewrite Ek; exact Hk|].
    right. intros H. assert (X : existsb (key_eqb (row_key p)) (map row_key l) = true) by (apply existsb_exists; exists (row_key p); split; [exact H|apply key_eqb_refl]). congruence.
  Qed.
  (** refused *)
  Lemma fill_trans_refuses l h idx j t : NoDup (map row_key l) -> (forall k, In k (map row_key l) -> aget key_eqb k idx = Some (1 + pos true l k)%nat) ->
    (forall k, ~ In k (map row_key l) -> aget key_eqb k idx = None) -> forall f, (forall p, In p t -> decode (p_ccy p) <> []) -> (forall v, In v l -> (j < length (f v))%nat) ->
    (exists p, In p t /\ ~ In (row_key p) (map row_key l)) -> fill_trans f64 is_letter decs colour idx j t (h :: layout true l f) = Error.
  Proof.
    intros Hn Hi Ho. induction t as [|p t IH]; intros f Hc Hj (q & Hq & Nq); [destruct Hq|]. cbn [fill_trans].
    destruct (row_in_dec p l) as [D|D]; [|rewrite (Ho _ D); reflexivity]. rewrite (Hi _ D). destruct (money_ok f64 is_letter decs colour (p_ccy p) (p_val p)) as (c & Ec); [apply Hc; left; reflexivity|]. rewrite Ec. cbn [obind].
    rewrite set_cell_ok by assumption. cbn [obind]. apply IH; [intros x Hx; apply Hc; right; exact Hx| |].
    - intros v Hv. unfold PrintProofs3.upd. destruct (key_eqb (row_key v) (row_key p)); [rewrite set_nth_len|]; apply Hj; exact Hv.
    - destruct Hq as [->|Hq]; [contradiction|]. eauto.
  Qed.
  Lemma rows_in_dec t l : (forall p, In p t -> In (row_key p) (map row_key l)) \/ exists p, In p t /\ ~ In (row_key p) (map row_key l).
  Proof.
    induction t as [|p t [IH|(q & Hq & Nq)]]; [left; intros p []| |right; exists q; split; [right; exact Hq|exact Nq]].
    destruct (row_in_dec p l) as [H|H]; [left; intros q [<-|Hq]; [exact H|exact (IH q Hq)]|right; exists p; split; [left; reflexivity|exact H]].
  Qed.
  Lemma fill_all_refuses l h idx ts : NoDup (map row_key l) -> (forall k, In k (map row_key l) -> aget key_eqb k idx = Some (1 + pos true l k)%nat) ->
    (forall k, ~ In k (map row_key l) -> aget key_eqb k idx = None) ->
    (forall t, In t ts -> NoDup (map row_key t) /\ (forall p, In p t -> decode (p_ccy p) <> [])) ->
    (exists t p, In t ts /\ In p t /\ ~ In (row_key p) (map row_key l)) ->
    forall j f, (forall v, In v l -> (j + length ts <= length (f v))%nat) -> fill_all f64 is_letter decs colour idx j ts (h :: layout true l f) = Error.
  Proof.
    intros Hn Hi Ho. induction ts as [|t ts IH]; intros H (t0 & p & Ht0 & Hp & Np) j f Hj; [destruct Ht0|]. cbn [fill_all]. destruct (H t (or_introl eq_refl)) as [H1 H2]. cbn [length] in Hj.
    destruct (rows_in_dec t l) as [D|D].
    - rewrite (fill_trans_ok f64 is_letter decs colour l h idx j t Hn Hi f H1 D H2) by (intros v Hv; specialize (Hj v Hv); lia). cbn [obind]. apply IH; [intros x Hx; apply H; right; exact Hx| |].
      + destruct Ht0 as [->|Ht0]; [destruct (Np (D p Hp))|]. eauto.
      + intros v Hv. unfold fill_cell. specialize (Hj v Hv). destruct (find _ t) as [q|]; [destruct (column_money _ _ _ _ _ _); [rewrite set_nth_len by lia|..]|]; lia.
    - rewrite (fill_trans_refuses l h idx j t Hn Hi Ho f H2); [reflexivity|intros v Hv; specialize (Hj v Hv); lia|exact D].
  Qed.
  Lemma last_in (ts : list trans) : ts <> [] -> In (last ts []) ts. Proof. apply last_In. Qed.
  Lemma table_refused ts : showable ts -> (exists t v, In t ts /\ In v t /\ ~ has_row (last ts []) v) -> summary_text is_print f64 is_letter decs colour tw ts = Error.
  Proof.
    intros [Hne H] (t0 & v0 & Ht0 & Hv0 & N0). rewrite has_row_key in N0. rewrite Forall_forall in H. unfold summary_text, summary_table. destruct ts as [|t1 ts0] eqn:Ets; [congruence|]. rewrite <- Ets in *. clear Ets t1 ts0.
    rewrite header_ok by (apply Forall_forall; intros t Ht; apply H; exact Ht). cbn [obind]. destruct (H _ (last_in ts Hne)) as (_ & Hn & Hc). set (l := last ts []) in *.
    match goal with |- context [label_rows _ _ _ _ [?h] []] => set (hd := h) end.
    destruct (label_rows_ok colour (length ts) l true [hd] [] Hn) as (idx & E & I1 & I2); [intros v Hv; apply Hc; exact Hv|]. rewrite E. cbn [obind app].
    rewrite (fill_all_refuses l hd idx ts Hn I1); [reflexivity|intros k Hk; rewrite (I2 k Hk); reflexivity| |eauto|].
    - intros t Ht. destruct (H t Ht) as (_ & A & B). split; [exact A|]. intros p Hp. apply B. exact Hp.
    - intros v _. cbn [length]. rewrite repeat_length. apply Nat.le_refl.
  Qed.

  (** crashes *)
  Lemma widen_cases ws : forall cells, (exists r, widen is_print ws cells = Ok r /\ length r = length ws) \/ widen is_print ws cells = Panic.
  Proof.
    induction ws as [|w ws IH]; intros cells; cbn [widen]; [left; exists []; auto|]. destruct cells as [|[v|] cells]; [right; reflexivity| |right; reflexivity].
    destruct (IH cells) as [(r & E & L)|E]; rewrite E; cbn [obind]; [left; eexists; split; [reflexivity|cbn [length]; lia]|right; reflexivity].
  Qed.
  Lemma widen_gap ws : forall cells j, (j < length ws)%nat -> nth_error cells j = Some None -> widen is_print ws cells = Panic.
  Proof.
    induction ws as [|w ws IH]; intros cells j Hj E; [cbn [length] in Hj; lia|]. cbn [widen]. destruct cells as [|[v|] cells]; [reflexivity| |reflexivity]. destruct j as [|j]; [discriminate|]. cbn [nth_error] in E. cbn [length] in Hj.
    rewrite (IH cells j) by (try exact E; lia). reflexivity.
  Qed.
  Lemma col_widths_gap rows : forall ws cells j, In (Some cells) rows -> (j < length ws)%nat -> nth_error cells j = Some None -> col_widths is_print ws rows = Panic.
  Proof.
    induction rows as [|r rows IH]; intros ws cells j Hin Hj E; [destruct Hin|]. cbn [col_widths]. destruct Hin as [->|Hin]; [rewrite (widen_gap ws cells j Hj E); reflexivity|].
    destruct r as [cs|]; [|exact (IH ws cells j Hin Hj E)]. destruct (widen_cases ws cs) as [(r & Er & L)|Er]; rewrite Er; cbn [obind]; [|reflexivity]. apply (IH r cells j Hin); [lia|exact E].
  Qed.
  Lemma layout_in l f v : forall first, In v l -> In (Some (f v)) (layout first l f).
  Proof. induction l as [|u l IH]; intros first H; [destruct H|]. cbn [layout]. apply in_app_iff. right. destruct H as [->|H]; [left; reflexivity|right; apply IH; exact H]. Qed.
  Lemma table_of ts : showable ts -> fits ts -> summary_table f64 is_letter decs colour ts = Ok (expected_table f64 is_letter decs colour ts).
  Proof.
    intros [Hne H] Hf. rewrite Forall_forall in H. apply summary_table_ok; [exact Hne|apply Forall_forall; intros t Ht; apply H; exact Ht|]. intros t Ht. destruct (H t Ht) as (_ & A & B). split; [exact A|]. split; [|exact B].
    intros p Hp. apply has_row_key. exact (Hf t p Ht Hp).
  Qed.
  Lemma table_crashes ts : showable ts -> fits ts -> (exists t v, In t ts /\ In v (last ts []) /\ ~ has_row t v) -> summary_text is_print f64 is_letter decs colour tw ts = Panic.
  Proof.
    intros Hs Hf (t & v & Ht & Hv & N). unfold summary_text. rewrite (table_of ts Hs Hf). cbn [obind]. unfold print_columns, expected_table.
    apply In_nth_error in Ht as (j & Ej). assert (Lj : (j < length ts)%nat) by (apply nth_error_Some; congruence).
    rewrite (col_widths_gap _ _ (Some (ColString (label colour v)) :: map (fun t => amount_cell f64 is_letter decs colour t (row_key v)) ts) (S j)); [reflexivity| | |].
    - right. apply (layout_in (last ts []) (fun v => Some (ColString (label colour v)) :: map (fun t => amount_cell f64 is_letter decs colour t (row_key v)) ts) v true Hv).
    - rewrite repeat_length. cbn [length]. rewrite map_length. apply -> Nat.succ_lt_mono; exact Lj.
    - cbn [nth_error]. rewrite nth_error_map, Ej. cbn [option_map]. f_equal. unfold amount_cell. destruct (find (fun p => key_eqb (row_key p) (row_key v)) t) as [p|] eqn:F; [|reflexivity].
      apply find_some in F as [F1 F2]. apply key_eqb_eq in F2. destruct N. exists p. split; [exact F1|apply same_row_key; exact F2].
  Qed.

  (** printed *)
  Lemma table_printed ts : showable ts -> fits ts -> complete ts ->
    (forall t v, In t ts -> In v (last ts []) -> exists p c, In p t /\ same_row p v /\ column_money f64 is_letter decs colour (p_ccy p) (p_val p) = Ok c /\ amount_cell f64 is_letter decs colour t (row_key v) = Some c) /\
    exists table ws, expected_table f64 is_letter decs colour ts = rows_of table /\ length ws = S (length ts) /\
      summary_text is_print f64 is_letter decs colour tw ts = Ok (table_text (lines_of is_print ws table)).
  Proof.
    intros Hs Hf Hc. pose proof (table_of ts Hs Hf) as Etab. destruct Hs as [Hne H]. rewrite Forall_forall in H.
    assert (Hcell : forall t v, In t ts -> In v (last ts []) -> exists p c, In p t /\ same_row p v /\ column_money f64 is_letter decs colour (p_ccy p) (p_val p) = Ok c /\ amount_cell f64 is_letter decs colour t (row_key v) = Some c).
    { intros t v Ht Hv. destruct (find_ok t (row_key v) (proj1 (has_row_key t v) (Hc t v Ht Hv))) as (p & Hp & Ep & Ef). destruct (H t Ht) as (_ & _ & B). destruct (B p Hp) as [Hd _]. destruct (money_ok f64 is_letter decs colour (p_ccy p) (p_val p) Hd) as (c & Ec).
      exists p, c. split; [exact Hp|]. split; [apply same_row_key; exact Ep|]. split; [exact Ec|]. unfold amount_cell. rewrite Ef, Ec. reflexivity. }
    split; [exact Hcell|].
    set (g := fun v => ColString (label colour v) :: map (fun t => match amount_cell f64 is_letter decs colour t (row_key v) with Some c => c | None => ColString [] end) ts).
    destruct (layout_rows (last ts []) (fun v => Some (ColString (label colour v)) :: map (fun t => amount_cell f64 is_letter decs colour t (row_key v)) ts) g) with (first := true) as (table & El & Hw).
    { intros v Hv. unfold g. cbn [map]. f_equal. rewrite map_map. apply map_ext_in. intros t Ht. destruct (Hcell t v Ht Hv) as (p & c & _ & _ & _ & ->). reflexivity. }
    set (header := ColString (ansi colour UL (bs "Account")) :: map (fun t : trans => match t with p :: _ => ColRight (ansi colour UL (date_string (p_date p))) | [] => ColString [] end) ts).
    assert (Ex : expected_table f64 is_letter decs colour ts = rows_of (Some header :: table)).
    { unfold expected_table, header, rows_of. cbn [map option_map]. fold (rows_of table). f_equal; [|exact El]. f_equal. f_equal. rewrite map_map. apply map_ext_in. intros t Ht. destruct t; [destruct (H _ Ht); congruence|reflexivity]. }
    assert (Lh : length header = S (length ts)) by (unfold header; cbn [length]; rewrite map_length; reflexivity).
    destruct (C53_no_crash_partial is_print tw (Some header :: table) header (repeat false (S (length ts)))) as (ws & Ew & Lw).
    - reflexivity.
    - discriminate.
    - constructor; [reflexivity|]. rewrite Lh. apply Hw. intros v _. unfold g. cbn [length]. rewrite map_length. reflexivity.
    - rewrite repeat_length, Lh. reflexivity.
    - intros x F. rewrite last_none in F. discriminate.
    - exists (Some header :: table), ws. split; [exact Ex|]. split; [rewrite Lw; exact Lh|]. unfold summary_text. rewrite Etab. cbn [obind]. rewrite Ex. exact Ew.
  Qed.
End T.
