(** * ConvertProps: C91 (CSV data of a script), C92 (JSON data of a script). *)
From Verif Require Import Base Utf8 Dec DateModel DateProofs2 PriceModel BookModel BookSpec BookProofs BuilderProofs OpsModel OpsProofs OpsProofs2 OpsProofs3 BookProps AccumModel LoaderModel LoaderSpec LoaderProofs LoaderProps
  ExportModel ExportSpec ExportProofs2 ExportProofs3 ExportProps DataExportModel DataExportProps ConvertModel ConvertSpec ConvertProofs.
From Coq Require Import Qround ZifyBool ZifyNat Zify.
Ltac Zify.zify_post_hook ::= idtac.

(** ** C91. The reader reads exactly the tables whose rows have the same number of cells, cell by cell; every other text is refused with an error. *)
Theorem C91_csv_tables_partial comma t u : valid_delim comma = true -> is_space comma = false -> unix t u ->
  (forall rs, csv_read comma t = Ok rs <-> table comma u rs /\ rectangular rs) /\
  ((forall rs, ~ (table comma u rs /\ rectangular rs)) -> csv_read comma t = Error).
Proof.
  intros Hv Hs Hu. apply unix_ok in Hu. subst u. unfold csv_read. rewrite Hv. cbn [negb]. cbv zeta iota. set (l := csv_norm t). clearbody l. clear t.
  assert (Hok : forall rs, csv_records (S (length l)) comma l = Ok rs <-> table comma l rs) by (intros rs; split; [apply table_sound; assumption|intros H; apply (table_read comma Hv Hs l rs H); lia]).
  destruct (records_end comma (S (length l)) l ltac:(lia)) as [E | (rs & E)]; rewrite E in *; cbn [obind].
  - split; [|reflexivity]. intros rs. split; [discriminate|]. intros [H _]. apply Hok in H. discriminate.
  - assert (Ht : table comma l rs) by (apply Hok; reflexivity). destruct (even_rows rs) eqn:Er.
    + apply even_rows_ok in Er. split; [|intros H; exfalso; apply (H rs); auto]. intros rs'. split; [intros H; injection H as <-; auto|]. intros [H _]. apply Hok in H. exact H.
    + split; [|reflexivity]. intros rs'. split; [discriminate|]. intros [H Hr]. apply Hok in H. injection H as <-. apply even_rows_ok in Hr. congruence.
Qed.
Print Assumptions C91_csv_tables_partial.
(** A delimiter that a CSV file cannot have (a quote, the end of a line, NUL, no Unicode character) is refused whatever the file. *)
Theorem C91_bad_delimiter comma delim header bytes : In comma [0; 34; 13; 10; 65533] \/ ~ scalar comma -> read_csv (comma :: delim) header bytes = Error.
Proof.
  intros H. unfold read_csv, csv_read. assert (valid_delim comma = false) as ->; [|reflexivity]. unfold valid_delim. change rune_error with 65533.
  destruct H as [[<-|[<-|[<-|[<-|[<-|[]]]]]] | H]; try reflexivity. destruct (scalarb comma) eqn:E; [exfalso; apply H; apply scalarb_ok; exact E|]. rewrite !Bool.andb_false_r. reflexivity.
Qed.
Print Assumptions C91_bad_delimiter.

Definition strings (r : list runes) : list sval := map (fun v => SStr (encode v)) r.
Lemma csv_dict_app hdr : forall rec m, length rec = length hdr -> NoDup (map encode hdr) -> (forall h, In h hdr -> ~ In (encode h) (akeys m)) ->
  csv_dict hdr rec m = m ++ combine (map encode hdr) (strings rec).
Proof.
  induction hdr as [|h hdr IH]; intros [|v rec] m Hl Hn Hm; try discriminate; [cbn; rewrite app_nil_r; reflexivity|]. cbn [csv_dict]. inversion Hn as [|? ? Hh Hn']; subst.
  assert (E : aset str_eqb (encode h) (SStr (encode v)) m = m ++ [(encode h, SStr (encode v))]).
  { specialize (Hm h (or_introl eq_refl)). clear - Hm. induction m as [|[k x] m IHm]; [reflexivity|]. cbn [aset akeys map fst app In] in *. destruct (str_eqb_spec k (encode h)) as [->|_]; [exfalso; apply Hm; left; reflexivity|].
    f_equal. apply IHm. intros Hin. apply Hm. right. exact Hin. }
  rewrite E, IH; [cbn [map strings combine]; rewrite <- app_assoc; reflexivity|cbn in Hl; congruence|exact Hn'|].
  intros x Hx. unfold akeys. rewrite map_app, in_app_iff. intros [Hin|[Hin|[]]]; [exact (Hm x (or_intror Hx) Hin)|]. cbn [fst] in Hin. apply Hh. rewrite Hin. apply in_map. exact Hx.
Qed.
(** What the script sees of a valid UTF-8 file: lists of cells, or one dict per row that gives every cell under the name at the head of its column. *)
Theorem C91_script_sees_partial delim comma t u rs : valid_delim comma = true -> is_space comma = false -> unix t u -> table comma u rs -> rectangular rs -> Forall scalar t ->
  read_csv (comma :: delim) false (encode t) = Ok (SList (map (fun r => SList (strings r)) rs)) /\
  forall hdr body, rs = hdr :: body -> NoDup (map encode hdr) ->
    read_csv (comma :: delim) true (encode t) = Ok (SList (map (fun r => SDict (combine (map encode hdr) (strings r))) body)).
Proof.
  intros Hv Hs Hu Ht Hr Hsc. destruct (C91_csv_tables_partial comma t u Hv Hs Hu) as [H _]. apply (conj Ht) in Hr. assert (Hrect := proj2 Hr). apply H in Hr. clear H. rename Hr into H. rename Hrect into Hr. unfold read_csv. rewrite decode_encode by exact Hsc. rewrite H. cbn [obind]. split; [reflexivity|].
  intros hdr body -> Hn. f_equal. f_equal. apply map_ext_in. intros r Hin. f_equal.
  rewrite csv_dict_app; [reflexivity|apply Hr; [right; exact Hin|left; reflexivity]|exact Hn|intros ? _ []].
Qed.
Print Assumptions C91_script_sees_partial.

(** ** The file of [export --type csv], imported again. *)
Definition csv_ok (s : str) : Prop := exists r, is_text s r /\ Forall (fun c => c <> 13) r.
Lemma ascii_csv_ok s : Forall (fun c => 32 <= c < 128) s -> csv_ok s.
Proof.
  intros H. assert (Ha : Forall (fun c => 0 <= c < 128) s) by (revert H; apply Forall_impl; lia). exists s. split; [split; [symmetry; apply encode_ascii; exact Ha|]|revert H; apply Forall_impl; lia].
  revert H. apply Forall_impl. unfold scalar. lia.
Qed.
Lemma dig_print s : Forall (fun c => is_dig c = true) s -> Forall (fun c => 32 <= c < 128) s.
Proof. apply Forall_impl. unfold is_dig. lia. Qed.
Lemma fmt_0d_print w z : Forall (fun c => 32 <= c < 128) (fmt_0d w z).
Proof. unfold fmt_0d. destruct (z <? 0) eqn:E; [constructor; [lia|]|]; apply dig_print, zpad_digits; lia. Qed.
Lemma date_print d : Forall (fun c => 32 <= c < 128) (date_string d).
Proof.
  unfold date_string. destruct (d =? 0).
  - apply Forall_forall. intros c Hc. apply repeat_spec in Hc. lia.
  - repeat (apply Forall_app; split); try apply fmt_0d_print; repeat constructor; lia.
Qed.
Lemma round_even_nonneg x : (0 <= x)%Qc -> 0 <= round_even x.
Proof.
  intros H. assert (Hf : 0 <= Qfloor (this x)). { change 0 with (Qfloor 0%Q). apply Qfloor_resp_le. exact H. }
  unfold round_even. cbv zeta. destruct (_ ?= _)%Qc; [destruct (Z.even _)| |]; lia.
Qed.
Lemma fmt_f_print q : Forall (fun c => 32 <= c < 128) (fmt_f q).
Proof.
  unfold fmt_f. cbv zeta. set (neg := match (q ?= 0)%Qc with Lt => true | _ => false end).
  assert (H : (0 <= if neg then - q else q)%Qc).
  { unfold neg. destruct (q ?= 0)%Qc eqn:E.
    - apply Qceq_alt in E. rewrite E. apply Qcle_refl.
    - apply Qclt_alt in E. assert (Hle : (q <= 0)%Qc) by (apply Qclt_le_weak; exact E). apply Qcopp_le_compat in Hle. exact Hle.
    - apply Qcgt_alt in E. apply Qclt_le_weak. exact E. }
  assert (Hz : 0 <= round_even ((if neg then - q else q) * qz (10 ^ 6))%Qc).
  { apply round_even_nonneg. rewrite <- (Qcmult_0_l (qz (10 ^ 6))). apply Qcmult_le_compat_r; [exact H|]. vm_compute. discriminate. }
  set (z := round_even _) in *. change (10 ^ 6) with 1000000. apply Forall_app; split; [|apply Forall_app; split; [|apply Forall_app; split]].
  - destruct neg; repeat constructor; lia.
  - apply dig_print, dec_digits. apply Z.div_pos; lia.
  - repeat constructor; lia.
  - apply dig_print, zpad_digits. apply Z.mod_pos_bound. lia.
Qed.

Lemma csv_ok_decode s : csv_ok s -> encode (decode s) = s /\ Forall scalar (decode s) /\ Forall (fun c => c <> 13) (decode s).
Proof. intros (r & [-> Hr] & Hc). rewrite decode_encode by exact Hr. auto. Qed.
Ltac one_scalar := repeat (apply Forall_cons; [first [assumption|unfold scalar; lia]|]); apply Forall_nil.
Ltac one_P := repeat (apply Forall_cons; [assumption|]); apply Forall_nil.
Lemma write_all (P : Z -> Prop) comma rs : P 34 -> P 10 -> P comma -> Forall (Forall (Forall P)) rs -> Forall P (csv_write comma rs).
Proof.
  intros H34 H10 Hc H. assert (Hf : forall f, Forall P f -> Forall P (csv_write_field comma f)).
  { intros f Hf. unfold csv_write_field. destruct (needs_quotes comma f); [|exact Hf]. apply Forall_app. split; [one_P|]. apply Forall_app. split; [|one_P].
    induction Hf as [|c f H1 _ IH]; [constructor|]. rewrite escape_cons. apply Forall_app. split; [|exact IH]. destruct (c =? 34); one_P. }
  induction H as [|r rs Hr _ IH]; [constructor|]. unfold csv_write. cbn [flat_map]. apply Forall_app. split; [|exact IH]. clear IH rs.
  induction Hr as [|f r H1 Hr IH]; [one_P|]. destruct r as [|g r]; [apply Forall_app; split; [apply Hf, H1|one_P]|].
  change (csv_write_record comma (f :: g :: r)) with (csv_write_field comma f ++ [comma] ++ csv_write_record comma (g :: r)). apply Forall_app. split; [apply Hf, H1|]. apply Forall_app. split; [one_P|exact IH].
Qed.
Lemma write_scalar comma rs : scalar comma -> Forall (Forall (Forall scalar)) rs -> Forall scalar (csv_write comma rs).
Proof. apply write_all; unfold scalar; lia. Qed.
Lemma write_no_cr comma rs : comma <> 13 -> Forall (Forall (Forall (fun c => c <> 13))) rs -> Forall (fun c => c <> 13) (csv_write comma rs).
Proof. apply (write_all (fun c => c <> 13)); discriminate. Qed.
(** A table of strings, written and read again. *)
Theorem C91_write_read_partial delim comma (rows : list (list str)) : valid_delim comma = true -> is_space comma = false ->
  Forall (fun r => r <> [] /\ r <> [[]] /\ Forall csv_ok r) rows -> rectangular rows ->
  read_csv (comma :: delim) false (encode (csv_write comma (map (map decode) rows))) = Ok (SList (map (fun r => SList (map SStr r)) rows)) /\
  forall hdr body, rows = hdr :: body -> NoDup hdr ->
    read_csv (comma :: delim) true (encode (csv_write comma (map (map decode) rows))) = Ok (SList (map (fun r => SDict (combine hdr (map SStr r))) body)).
Proof.
  intros Hv Hs Hrows Hr. set (cells := map (map decode) rows).
  assert (Ht : table comma (csv_write comma cells) cells).
  { apply write_table. unfold cells. apply Forall_map. revert Hrows. apply Forall_impl. intros r (H1 & H2 & H3). split; [destruct r; [exfalso; apply H1; reflexivity|discriminate]|].
    intros E. destruct r as [|s [|? ?]]; try discriminate. injection E as E. apply H2. apply Forall_inv in H3. apply csv_ok_decode in H3 as [H3 _]. rewrite E in H3. rewrite <- H3. reflexivity. }
  assert (H13 : Forall (fun c => c <> 13) (csv_write comma cells)).
  { apply write_no_cr; [revert Hv; unfold valid_delim; lia|]. unfold cells. apply Forall_map. revert Hrows. apply Forall_impl. intros r (_ & _ & H3). apply Forall_map. revert H3. apply Forall_impl. intros s Hc. apply csv_ok_decode, Hc. }
  assert (Hsc : Forall scalar (csv_write comma cells)).
  { apply write_scalar; [revert Hv; unfold valid_delim, scalarb, scalar; lia|]. unfold cells. apply Forall_map. revert Hrows. apply Forall_impl. intros r (_ & _ & H3). apply Forall_map. revert H3. apply Forall_impl. intros s Hc. apply csv_ok_decode, Hc. }
  assert (Hrc : rectangular cells).
  { intros x y Hx Hy. unfold cells in *. apply in_map_iff in Hx as (x' & <- & Hx). apply in_map_iff in Hy as (y' & <- & Hy). rewrite !map_length. apply Hr; assumption. }
  assert (Hback : forall r, In r rows -> map encode (map decode r) = r).
  { intros r Hin. rewrite Forall_forall in Hrows. destruct (Hrows r Hin) as (_ & _ & H3). clear - H3. induction H3 as [|s r Hc _ IH]; [reflexivity|]. cbn [map]. rewrite IH. apply csv_ok_decode in Hc as [-> _]. reflexivity. }
  assert (Hst : forall r, In r rows -> strings (map decode r) = map SStr r).
  { intros r Hin. rewrite <- (Hback r Hin) at 2. unfold strings. rewrite !map_map. reflexivity. }
  destruct (C91_script_sees_partial delim comma _ _ _ Hv Hs (proj2 (unix_ok _ _) (norm_id _ H13)) Ht Hrc Hsc) as [E1 E2]. split.
  - rewrite E1. f_equal. f_equal. unfold cells. rewrite map_map. apply map_ext_in. intros r Hin. rewrite (Hst r Hin). reflexivity.
  - intros hdr body -> Hn. rewrite (E2 (map decode hdr) (map (map decode) body) eq_refl).
    + f_equal. f_equal. rewrite map_map. apply map_ext_in. intros r Hin. rewrite (Hback hdr (or_introl eq_refl)), (Hst r (or_intror Hin)). reflexivity.
    + rewrite (Hback hdr (or_introl eq_refl)). exact Hn.
Qed.
Print Assumptions C91_write_read_partial.

(** The CSV file exported from a book, imported with header: one dict per posting. *)
Theorem C91_export_import_partial f64 srt b : sort_ok is_less srt -> reachable srt b -> Forall one_note (snd (transactions srt b)) ->
  (forall p, In p (concat (snd (transactions srt b))) -> csv_ok (p_payee p) /\ csv_ok (p_tnote p) /\ csv_ok (p_acct p) /\ csv_ok (p_ccy p) /\ csv_ok (p_note p)) ->
  exists ds, read_csv [44] true (encode (csv_write 44 (map (map decode) (export_csv f64 srt b)))) = Ok (SList ds) /\
    Forall2 (fun p d => exists amt, d = SDict [(bs "date", SStr (date_string (p_date p))); (bs "payee", SStr (p_payee p)); (bs "transaction_note", SStr (p_tnote p));
        (bs "account", SStr (p_acct p)); (bs "currency", SStr (p_ccy p)); (bs "amount", SStr amt); (bs "post_note", SStr (p_note p))] /\
        (float64_ok f64 -> short_amount 6 (p_val p) -> amount_text amt (p_val p)))
      (concat (snd (transactions srt b))) ds.
Proof.
  intros Hs Hr Ho Hok. destruct (C76_csv_partial f64 srt b Hs Hr Ho) as (rows & E & Hrows). rewrite E.
  assert (Hx : csv_rows f64 (snd (transactions srt b)) = rows) by (unfold export_csv in E; injection E; auto).
  assert (Hlen : Forall (fun r => length r = 7%nat) rows). { clear - Hrows. induction Hrows as [|p r ps rs (amt & -> & _) _ IH]; constructor; [reflexivity|exact IH]. }
  assert (Hdir : Forall (fun r => r <> [] /\ r <> [[]] /\ Forall csv_ok r) rows).
  { rewrite <- Hx in *. unfold csv_rows in *. clear - Hok. revert Hok. generalize (snd (transactions srt b)). intros ts Hok. apply Forall_forall. intros r Hin. apply in_flat_map in Hin as (t & Ht & Hin). destruct t as [|q t]; [destruct Hin|].
    apply in_map_iff in Hin as (p & <- & Hp). assert (Hp' : In p (concat ts)) by (apply in_concat; exists (q :: t); auto). assert (Hq' : In q (concat ts)) by (apply in_concat; exists (q :: t); split; [exact Ht|left; reflexivity]).
    destruct (Hok p Hp') as (_ & _ & H3 & H4 & H5). destruct (Hok q Hq') as (H1 & H2 & _). split; [discriminate|]. split; [discriminate|].
    repeat (apply Forall_cons; [first [assumption|apply ascii_csv_ok; first [apply date_print|apply fmt_f_print]]|]). constructor. }
  assert (Hall : Forall (fun r => r <> [] /\ r <> [[]] /\ Forall csv_ok r) (csv_header :: rows)).
  { constructor; [|exact Hdir]. split; [discriminate|]. split; [discriminate|]. repeat constructor; apply ascii_csv_ok; cbv; repeat constructor; discriminate. }
  assert (Hrec : rectangular (csv_header :: rows)).
  { assert (H7 : forall r, In r (csv_header :: rows) -> length r = 7%nat) by (rewrite Forall_forall in Hlen; intros r [<-|Hin]; [reflexivity|apply Hlen, Hin]). intros x y Hx' Hy'. rewrite (H7 x Hx'), (H7 y Hy'). reflexivity. }
  destruct (C91_write_read_partial [] 44 _ eq_refl eq_refl Hall Hrec) as [_ H]. specialize (H csv_header rows eq_refl).
  rewrite H by (unfold csv_header; repeat (constructor; [cbn; intuition discriminate|]); constructor). eexists. split; [reflexivity|].
  clear - Hrows. induction Hrows as [|p r ps rs (amt & -> & Ha) _ IH]; [constructor|]. cbn [map]. constructor; [|exact IH]. exists amt. split; [reflexivity|exact Ha].
Qed.
Print Assumptions C91_export_import_partial.

(** EXPECTED: any delimiter of the documentation can be used, and no cell is lost. REFUTED: with a tab as the delimiter an empty cell
    disappears and the cells behind it move to the left (or the file is refused); of two columns of the same name only the last is seen. *)
Definition ex91_tab : runes := bs "a" ++ [9] ++ [] ++ [9] ++ bs "b" ++ nl.
Theorem C91_delimiters_refuted :
  valid_delim 9 = true /\ table 9 ex91_tab [[bs "a"; []; bs "b"]] /\ csv_read 9 ex91_tab = Ok [[bs "a"; bs "b"]] /\
  read_csv [9] true (bs "Date" ++ [9] ++ bs "Note" ++ [9] ++ bs "Amount" ++ nl ++ bs "2024/01/02" ++ [9; 9] ++ bs "3.50" ++ nl) = Error /\
  read_csv (bs ",") true (bs "Amount,Amount" ++ nl ++ bs "1,2" ++ nl) = Ok (SList [SDict [(bs "Amount", SStr (bs "2"))]]).
Proof.
  split; [reflexivity|]. split; [|repeat split; vm_compute; reflexivity].
  assert (H : row 9 (bs "a" ++ [9] ++ [] ++ [9] ++ bs "b") [bs "a"; []; bs "b"]).
  { apply (row_more 9 (bs "a") (bs "a") ([] ++ [9] ++ bs "b") [[]; bs "b"]).
    - apply (cell_plain 9 [] (bs "a")); [constructor| |reflexivity]. repeat constructor; discriminate.
    - apply (row_more 9 [] [] (bs "b") [bs "b"]); [apply (cell_plain 9 [] []); [constructor|constructor|reflexivity]|].
      apply row_one. apply (cell_plain 9 [] (bs "b")); [constructor| |reflexivity]. repeat constructor; discriminate. }
  apply (table_row 9 _ _ [] [] H); [discriminate|constructor].
Qed.
Print Assumptions C91_delimiters_refuted.

(** A file with quotes, blanks, a quoted line end and CR LF. *)
Definition ex91 : runes := bs "Date, " ++ [34] ++ bs "Full name" ++ [34] ++ [13; 10] ++ [10] ++ bs "1/2, " ++ [34] ++ bs "a " ++ [34; 34] ++ bs "b" ++ [34; 34; 44; 10] ++ bs "c" ++ [34] ++ [13; 10] ++ bs "3/4,".
Example C91_nonvacuous : read_csv (bs ",") true (encode ex91) =
  Ok (SList [SDict [(bs "Date", SStr (bs "1/2")); (bs "Full name", SStr (bs "a " ++ [34] ++ bs "b" ++ [34; 44; 10] ++ bs "c"))]; SDict [(bs "Date", SStr (bs "3/4")); (bs "Full name", SStr [])]]).
Proof. vm_compute. reflexivity. Qed.
Example C91_nonvacuous_table : exists u, unix ex91 u /\ u <> ex91 /\ table 44 u [[bs "Date"; bs "Full name"]; [bs "1/2"; bs "a " ++ [34] ++ bs "b" ++ [34; 44; 10] ++ bs "c"]; [bs "3/4"; []]].
Proof.
  exists (csv_norm ex91). split; [apply unix_ok; reflexivity|]. split; [intros E; apply (f_equal (@length Z)) in E; vm_compute in E; discriminate|].
  assert (P : forall s, forallb (fun c => negb (c =? 44) && negb (c =? 34) && negb (c =? 10)) s = true -> is_space (hd 0 s) = false -> cell 44 s s).
  { intros s Hs Hh. apply (cell_plain 44 [] s); [constructor| |exact Hh]. apply Forall_forall. intros c Hc. rewrite forallb_forall in Hs. specialize (Hs c Hc). lia. }
  apply (table_row 44 (bs "Date, " ++ [34] ++ bs "Full name" ++ [34])); [|discriminate|].
  { apply (row_more 44 (bs "Date")); [apply P; reflexivity|]. apply row_one. apply (cell_quoted 44 [32] (bs "Full name")); [repeat constructor; discriminate|]. apply (escape_escaped (bs "Full name")). }
  apply (table_blank 44).
  apply (table_row 44 (bs "1/2, " ++ [34] ++ bs "a " ++ [34; 34] ++ bs "b" ++ [34; 34; 44; 10] ++ bs "c" ++ [34])); [|discriminate|].
  { apply (row_more 44 (bs "1/2")); [apply P; reflexivity|]. apply row_one. apply (cell_quoted 44 [32] (bs "a " ++ [34; 34] ++ bs "b" ++ [34; 34; 44; 10] ++ bs "c")); [repeat constructor; discriminate|].
    apply (escape_escaped (bs "a " ++ [34] ++ bs "b" ++ [34; 44; 10] ++ bs "c")). }
  apply table_last; [|discriminate]. apply (row_more 44 (bs "3/4")); [apply P; reflexivity|]. apply row_one. apply P; reflexivity.
Qed.

(** ** C92 *)
Lemma json_ind' (P : json -> Prop) : P JNull -> (forall b, P (JBool b)) -> (forall q, P (JNum q)) -> (forall s, P (JStr s)) ->
  (forall l, Forall P l -> P (JArr l)) -> (forall m, Forall (fun kv => P (snd kv)) m -> P (JObj m)) -> forall j, P j.
Proof.
  intros H1 H2 H3 H4 H5 H6. fix F 1. intros [| | | |l|m]; [exact H1|apply H2|apply H3|apply H4|apply H5|apply H6].
  - induction l as [|x l IH]; constructor; [apply F|exact IH].
  - induction m as [|[k v] m IH]; constructor; [apply F|exact IH].
Qed.
Lemma starlark_none f64 order j : json_to_starlark f64 order j = SNone <-> j = JNull.
Proof. destruct j; cbn; split; try discriminate; reflexivity. Qed.
Theorem C92_json_seen_partial f64 order j : (forall m, Permutation m (order m)) -> map_like j -> seen f64 j (json_to_starlark f64 order j).
Proof.
  intros Ho. induction j as [|b|q|s|l IH|m IH] using json_ind'; intros Hm; cbn [json_to_starlark]; try constructor.
  - inversion Hm as [| | | |? Hl|]; subst. clear Hm. induction IH as [|x l Hx _ IHl]; [constructor|]. apply Forall_cons_iff in Hl as [Hl1 Hl2]. cbn [map]. constructor; [apply Hx, Hl1|apply IHl, Hl2].
  - inversion Hm as [| | | | |? Hn Hl]; subst. set (conv := fun kv : str * json => _).
    eapply Permutation_NoDup; [apply Permutation_map; apply Ho|]. clear - Hn. induction m as [|[k v] m IHm]; [constructor|]. inversion Hn as [|? ? Hk Hn']; subst. cbn [flat_map]. rewrite map_app.
    assert (Hin : forall m', incl (map fst (flat_map conv m')) (map fst m')).
    { clear. induction m' as [|[k v] m' IH]; [intros x []|]. cbn [flat_map map fst]. rewrite map_app. intros x Hx. apply in_app_iff in Hx as [Hx|Hx]; [|right; apply IH, Hx]. unfold conv in Hx. cbn [fst snd] in Hx. destruct (json_to_starlark f64 order v); cbn [map fst In] in *; (contradiction || (destruct Hx as [<-|[]]; left; reflexivity)). }
    unfold conv at 1. cbn [fst snd]. destruct (json_to_starlark f64 order v); cbn [map app fst]; try (constructor; [intros Hx; apply Hk; apply (Hin m), Hx|]); apply IHm, Hn'.
  - inversion Hm as [| | | | |? Hn Hl]; subst. intros k v Hin. eapply Permutation_in in Hin; [|apply Permutation_sym, Ho]. apply in_flat_map in Hin as ([k' j] & Hin & Hv). cbn [fst snd] in Hv.
    assert (E : v = json_to_starlark f64 order j /\ k = k' /\ v <> SNone) by (destruct (json_to_starlark f64 order j); cbn [In] in Hv; (contradiction || (destruct Hv as [Hv|[]]; injection Hv as <- <-; repeat split; discriminate))).
    destruct E as (-> & -> & Hv'). split; [exact Hv'|]. exists j. split; [exact Hin|]. rewrite Forall_forall in IH, Hl. apply (IH _ Hin). apply (Hl _ Hin).
  - inversion Hm as [| | | | |? Hn Hl]; subst. intros k j Hin Hj. exists (json_to_starlark f64 order j). eapply Permutation_in; [apply Ho|]. apply in_flat_map. exists (k, j). split; [exact Hin|]. cbn [fst snd].
    rewrite <- (starlark_none f64 order) in Hj. destruct (json_to_starlark f64 order j); try (left; reflexivity). congruence.
Qed.
Print Assumptions C92_json_seen_partial.
(** float64 on integers between 2^53 and 2^54: the nearest even number. *)
Definition x_float (q : Qc) : Qc := if (Qle_bool (inject_Z (2 ^ 53)) (this q)) && (Qle_bool (this q) (inject_Z (2 ^ 54))) then (qz (2 * round_even (q * / qz 2)))%Qc else q.
(** EXPECTED: every value of the file is seen, and every member of an object can be asked for. REFUTED: only the first value of the file is read
    (one object per line: the other lines are dropped without an error, and so is anything that is no JSON); members that are null are
    missing; numbers of 17 digits change. *)
Theorem C92_everything_seen_refuted :
  (forall f64 order a rest, read_json f64 order (Some a :: rest) = read_json f64 order [Some a]) /\
  (forall f64 order, order [] = [] -> read_json f64 order [Some (JObj [(bs "note", JNull)])] = Ok (SDict [])) /\
  read_json x_float (fun m => m) [Some (JNum (qz 9007199254740993))] = Ok (SFloat (qz 9007199254740992)).
Proof.
  split; [reflexivity|]. split; [intros f64 order H; cbn; rewrite H; reflexivity|].
  cbn [read_json json_to_starlark]. vm_compute. reflexivity.
Qed.
Print Assumptions C92_everything_seen_refuted.
Example C92_nonvacuous : map_like (JArr [JNull; JObj [(bs "a", JNum 1%Qc); (bs "b", JNull); (bs "c", JObj [])]]) /\
  json_to_starlark x_float (@rev _) (JArr [JNull; JObj [(bs "a", JNum 1%Qc); (bs "b", JNull); (bs "c", JObj [])]]) = SList [SNone; SDict [(bs "c", SDict []); (bs "a", SFloat 1%Qc)]].
Proof.
  split; [|reflexivity]. repeat (constructor; cbn [map fst snd]); cbn; intuition discriminate.
Qed.
