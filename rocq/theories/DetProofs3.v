(** * DetProofs3: the operations and commands on books that look the same (C108). *)
From Verif Require Import Base Dec Regex DateModel PriceModel BookModel BookSpec BookProofs OpsModel BookOpModel RegisterModel AccumModel ExportModel DataExportModel PrintModel CmdModel DetSpec DetProofs DetProofs2.
From Coq Require Import ZifyBool ZifyNat Zify.
Ltac Zify.zify_post_hook ::= idtac.

(** ** Another table of decimals *)
Definition redec (d : list (str * Z)) (b : book) : book := mkBook (bk_post b) (bk_trans b) (bk_prices b) d.
Definition lift {A B} (f : A -> B) (o : outcome A) : outcome B := match o with Ok a => Ok (f a) | Error => Error | Panic => Panic | Diverge => Diverge end.
Lemma lift_bind {A B C} (f : A -> B) (o : outcome A) (k : B -> outcome C) : obind (lift f o) k = obind o (fun a => k (f a)).
Proof. destruct o; reflexivity. Qed.
Lemma same_redec b1 b2 : same_book b1 b2 -> b2 = redec (bk_ccy b2) b1.
Proof. destruct b1, b2. unfold same_book, redec. cbn. intros (-> & -> & -> & _). reflexivity. Qed.

Section Redec.
  Variable srt : list posting -> list posting.
  Variable d : list (str * Z).
  Notation rd := (redec d).
  Lemma rd_compact b : compact srt (rd b) = rd (compact srt b).
  Proof. unfold compact. cbn [redec bk_post]. destruct (bk_post b); reflexivity. Qed.
  Lemma rd_with b p : with_post (rd b) p = rd (with_post b p).
  Proof. reflexivity. Qed.
  Lemma rd_trans b : transactions srt (rd b) = (rd (fst (transactions srt b)), snd (transactions srt b)).
  Proof. unfold transactions. rewrite rd_compact. reflexivity. Qed.
  Lemma rd_filter f b : filter_transaction f (rd b) = lift rd (filter_transaction f b).
  Proof. unfold filter_transaction. cbn [redec bk_trans bk_prices bk_ccy]. destruct (existsb _ _); reflexivity. Qed.
  Lemma rd_run o b : run_op srt o (rd b) = lift rd (run_op srt o b).
  Proof.
    destruct o; cbn [run_op lift]; try reflexivity;
      try (unfold map_account, regex_accounts, map_account, map_transaction, split_by, map_transaction, depreciate, adjust_post; rewrite ?rd_with, ?rd_compact; reflexivity).
    - apply rd_filter.
    - unfold filter_since. destruct (d0 =? 0); [reflexivity|apply rd_filter].
    - unfold filter_asof. destruct (d0 =? 0); [reflexivity|apply rd_filter].
    - apply rd_filter.
    - unfold adjust_by. destruct (str_eqb by_ (bs "none")); [reflexivity|]. cbn [redec bk_post]. destruct (min_max_date (bk_post b)) as [mn mx].
      destruct (days_since mx mn); cbn [obind lift]; try reflexivity. destruct (adjust_factor by_ a); cbn [obind lift]; try reflexivity.
      change (mkBook (bk_post b) (bk_trans b) (bk_prices b) d) with (rd b). rewrite rd_with, rd_compact. reflexivity.
    - unfold remove_duplicates_of. destruct (transactions srt main) as [main' rt]. cbn [redec bk_trans]. destruct (dedup_loop rt (bk_trans b)); reflexivity.
    - unfold reclassify. destruct (transactions srt ref) as [ref' rts]. rewrite rd_trans. destruct (transactions srt b) as [b' ts]. reflexivity.
    - rewrite rd_trans. reflexivity.
  Qed.
  Variable compile : str -> option regexp.
  Variable parse_float : str -> option Qc.
  Variable today : Z.
  Variable ploop : (pair -> pair) -> pbook -> pbook.
  Variable macros : str -> option (list str).
  Notation rdr := (lift (fun x : book * option str => (rd (fst x), snd x))).
  Lemma rd_fine o : fine (lift rd o) = rdr (fine o).
  Proof. destruct o; reflexivity. Qed.
  Lemma rd_must s k b : (forall re, k re (rd b) = lift rd (k re b)) -> fine (must_compile compile s (fun re => k re (rd b))) = rdr (fine (must_compile compile s (fun re => k re b))).
  Proof. intros H. unfold must_compile. destruct (compile s) as [re|]; [rewrite H; apply rd_fine|reflexivity]. Qed.
  Lemma rd_plain b op : plain_op srt compile parse_float today ploop (rd b) op = rdr (plain_op srt compile parse_float today ploop b op).
  Proof.
    unfold plain_op. destruct (op_split op) as [[ty act]|]; [|reflexivity].
    destruct (str_eqb ty (bs "mapccy=")). { destruct (full_match mapccy_re act) as [gs|]; [|reflexivity]. apply (rd_must _ (fun re b => Ok (regex_ccy ploop re (group gs 2) b))). reflexivity. }
    destruct (str_eqb ty (bs "map=")). { destruct (full_match map_re act); [|reflexivity]. apply (rd_must _ (fun re b => run_op srt _ b)). intros. apply rd_run. }
    destruct (str_eqb ty (bs "move=")). { destruct (full_match number_re act); [|reflexivity]. destruct (parse_float _); [|reflexivity]. apply (rd_must _ (fun re b => run_op srt _ b)). intros. apply rd_run. }
    destruct (str_eqb ty (bs "asof=")). { destruct (_ =? 0); [reflexivity|]. rewrite rd_run. apply rd_fine. }
    destruct (str_eqb ty (bs "since=")). { destruct (_ =? 0); [reflexivity|]. rewrite rd_run. apply rd_fine. }
    destruct (str_eqb ty (bs "combine=")). { destruct (find_floor _ _); [|reflexivity]. rewrite rd_run. apply rd_fine. }
    destruct (str_eqb ty (bs "depreciate=")); [|reflexivity]. destruct (full_match number_re act); [|reflexivity]. destruct (atoi _); [|reflexivity]. apply (rd_must _ (fun re b => run_op srt _ b)). intros. apply rd_run.
  Qed.
  Lemma rd_each one : (forall b op, one (rd b) op = rdr (one b op)) -> forall ops b, each one ops (rd b) = rdr (each one ops b).
  Proof.
    intros H. induction ops as [|op ops IH]; intros b; [reflexivity|]. cbn [each]. rewrite H. destruct (one b op) as [[b' e]| | |]; cbn [lift obind fst snd]; try reflexivity.
    destruct e; [reflexivity|apply IH].
  Qed.
  Lemma rd_book_op : forall fuel b op, book_op srt compile parse_float today ploop macros fuel (rd b) op = rdr (book_op srt compile parse_float today ploop macros fuel b op).
  Proof. induction fuel as [|fuel IH]; intros b op; [reflexivity|]. cbn [book_op]. destruct (macros op); [apply rd_each; exact IH|apply rd_plain]. Qed.
  Lemma rd_ops fuel args b : ops_of srt compile parse_float today ploop macros fuel args (rd b) = lift rd (ops_of srt compile parse_float today ploop macros fuel args b).
  Proof.
    unfold ops_of, book_ops. rewrite rd_each by (apply rd_book_op). destruct (each _ args b) as [[b' e]| | |]; cbn [lift obind fst snd]; try reflexivity. destruct e; reflexivity.
  Qed.
  Lemma rd_convert c base b : convert_if c base (rd b) = lift rd (convert_if c base b).
  Proof. unfold convert_if. destruct c; [|reflexivity]. destruct (str_eqb base []); [reflexivity|]. unfold convert_book. cbn [redec bk_post bk_prices]. destruct (forallb _ _); reflexivity. Qed.
  Variable fuel : nat.
  Variable it : list posting -> list str -> list str.
  Variable micro : Qc -> Z.
  Variables base divider : str.
  Variable all : bool.
  Notation rdt := (lift (fun x : book * list trans => (rd (fst x), snd x))).
  Lemma rd_accumulate to dv credit hidden b : accumulate srt it micro to dv credit hidden (rd b) = rdt (accumulate srt it micro to dv credit hidden b).
  Proof.
    unfold accumulate. rewrite rd_compact. cbn zeta. destruct (bk_post (compact srt b)) as [|x l] eqn:E.
    - cbn [redec bk_post]. rewrite E. change (mkBook (bk_post (compact srt b)) (bk_trans (compact srt b)) (bk_prices (compact srt b)) d) with (rd (compact srt b)). rewrite rd_trans. reflexivity.
    - change (bk_post (rd (compact srt b))) with (bk_post (compact srt b)). change (bk_prices (rd (compact srt b))) with (bk_prices (compact srt b)). rewrite E.
      destruct (accum_rows _ _ _ _ _ _ _) as [rows| | |]; cbn [obind lift]; try reflexivity. destruct (hide credit hidden rows); reflexivity.
  Qed.
  Lemma rd_report o args b : report_run srt compile parse_float today ploop macros fuel it micro base divider o args (rd b) = rdt (report_run srt compile parse_float today ploop macros fuel it micro base divider o args b).
  Proof.
    unfold report_run. rewrite rd_ops. destruct (ops_of _ _ _ _ _ _ _ args b) as [b1| | |]; cbn [lift obind]; try reflexivity.
    set (bean := str_eqb (ro_type o) (bs "Beancount")).
    assert (E : (if negb bean && negb (str_eqb (ro_by o) (bs "skip")) then split_by srt (fun _ => today) (ro_by o) (rd b1) else rd b1)
      = rd (if negb bean && negb (str_eqb (ro_by o) (bs "skip")) then split_by srt (fun _ => today) (ro_by o) b1 else b1)).
    { destruct (negb bean && _); [|reflexivity]. unfold split_by, map_transaction. rewrite rd_with, rd_compact. reflexivity. }
    rewrite E. set (b2 := if negb bean && _ then _ else b1). rewrite rd_convert. destruct (convert_if (negb bean && ro_convert o) base b2) as [b3| | |]; cbn [lift obind]; try reflexivity.
    destruct (if negb bean && negb (str_eqb (ro_credit o) []) then _ else _) as [credit| | |]; cbn [lift obind]; try reflexivity.
    destruct (negb bean && ro_sum o); [destruct (str_eqb base []); [reflexivity|apply rd_accumulate]|]. rewrite rd_trans. reflexivity.
  Qed.
  Lemma rd_accts args b : accts_run compile all args (rd b) = accts_run compile all args b.
  Proof. unfold accts_run, list_accounts. reflexivity. Qed.
  Lemma rd_one o m b : one_register srt today base o m (rd b) = lift (fun x => (rd (fst x), snd x)) (one_register srt today base o m b).
  Proof.
    unfold one_register, extract_register. rewrite rd_compact. cbn [redec bk_prices bk_trans]. destruct (trans_loop _ _ _ _ _ _ _) as [es| | |]; cbn [obind lift]; try reflexivity.
    destruct (filter_by_date _ _ _); reflexivity.
  Qed.
  Lemma rd_registers o : forall accts b, registers srt compile today base o accts (rd b) = registers srt compile today base o accts b.
  Proof.
    induction accts as [|a accts IH]; intros b; [reflexivity|]. cbn [registers]. destruct (compile _) as [re|]; [|reflexivity]. rewrite rd_one.
    destruct (one_register _ _ _ _ _ b) as [[b' rep]| | |]; cbn [lift obind fst snd]; try reflexivity. rewrite IH. reflexivity.
  Qed.
  Lemma rd_register o args pat b : register_run srt compile parse_float today ploop macros fuel base all o args pat (rd b) = register_run srt compile parse_float today ploop macros fuel base all o args pat b.
  Proof.
    unfold register_run. rewrite rd_convert, lift_bind. destruct (convert_if (go_convert o) base b) as [b1| | |]; cbn [obind]; try reflexivity.
    rewrite rd_ops, lift_bind. destruct (ops_of _ _ _ _ _ _ _ args b1) as [b2| | |]; cbn [obind]; try reflexivity.
    destruct (go_combined o).
    - destruct (compile pat) as [re|]; [|reflexivity]. rewrite rd_one, lift_bind. destruct (one_register _ _ _ _ _ b2) as [[b3 rep]| | |]; reflexivity.
    - change (list_accounts compile all pat (rd b2)) with (list_accounts compile all pat b2). destruct (list_accounts compile all pat b2) as [accts| | |]; cbn [obind]; try reflexivity. rewrite rd_registers. reflexivity.
  Qed.
End Redec.

(** ** Printing reads the table of decimals by lookup only *)
Section Decs.
  Variables d1 d2 : list (str * Z).
  Hypothesis Hd : forall c, aget str_eqb c d1 = aget str_eqb c d2.
  Variable f64 : Qc -> Qc.
  Variable is_letter : Z -> bool.
  Lemma dec_number c v : format_number f64 d1 c v = format_number f64 d2 c v.
  Proof. unfold format_number, decs_for. rewrite Hd. reflexivity. Qed.
  Lemma dec_posts l : show_posts f64 is_letter d1 l = show_posts f64 is_letter d2 l.
  Proof. induction l as [|p l IH]; [reflexivity|]. cbn [show_posts]. rewrite IH. unfold show_post. rewrite dec_number. reflexivity. Qed.
  Lemma dec_all ts : show_all f64 is_letter d1 ts = show_all f64 is_letter d2 ts.
  Proof. induction ts as [|t ts IH]; [reflexivity|]. cbn [show_all]. rewrite IH. unfold show_trans. destruct t; [reflexivity|]. rewrite dec_posts. reflexivity. Qed.
  Lemma dec_prices pb l : show_prices f64 is_letter d1 pb l = show_prices f64 is_letter d2 pb l.
  Proof.
    induction l as [|[u c] l IH]; [reflexivity|]. cbn [show_prices]. rewrite IH. f_equal.
    generalize (match aget pair_eqb (u, c) pb with Some l => l | None => [] end). intros pl. induction pl as [|p pl IHp]; [reflexivity|]. cbn [show_price_list]. rewrite IHp. f_equal.
    unfold show_price. rewrite dec_number. reflexivity.
  Qed.
  Lemma dec_bean title upper ts : bean_trans f64 title upper d1 ts = bean_trans f64 title upper d2 ts.
  Proof.
    induction ts as [|t ts IH]; [reflexivity|]. cbn [bean_trans]. destruct t as [|p t]; [reflexivity|]. rewrite IH. destruct (bean_trans f64 title upper d2 ts); cbn [obind]; try reflexivity.
    f_equal. f_equal. f_equal. apply map_ext. intros q. unfold bean_post. rewrite dec_number. reflexivity.
  Qed.
  Variable colour : bool.
  Lemma dec_money c v : column_money f64 is_letter d1 colour c v = column_money f64 is_letter d2 colour c v.
  Proof. unfold column_money. rewrite dec_number. reflexivity. Qed.
End Decs.
