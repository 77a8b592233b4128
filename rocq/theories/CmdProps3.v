(** * CmdProps3: C90, C93: concrete cases, and what does not hold. *)
From Verif Require Import Base Regex Dec DateModel DateSpec DateProofs DateProofs2 PriceModel PriceSpec PriceProofs BookModel BookSpec BookProofs BuilderProofs
  OpsModel OpsProofs OpsProofs2 OpsProofs3 BookOpModel BookOpProps BookProps RegisterModel RegisterSpec RegisterProofs RegisterProps AccumModel AccumSpec AccumProofs AccumProps CmdModel CmdSpec CmdProofs CmdProps CmdProps2.

(** *** Deciding [readable] *)
Fixpoint increasing (l : pricelist) : bool := match l with a :: ((b :: _) as l') => (pr_date a <? pr_date b) && increasing l' | _ => true end.
Fixpoint distinct (l : list pair) : bool := match l with [] => true | k :: l' => negb (existsb (pair_eqb k) l') && distinct l' end.
Definition pos_b (q : Qc) : bool := match Qnum (this q) with Zpos _ => true | _ => false end.
Definition readable_b (ds : list Z) (b : book) : bool :=
  let dated d := existsb (Z.eqb d) ds in
  distinct (map fst (bk_prices b)) && forallb (fun e => match snd e with [] => false | _ => true end && increasing (snd e) && forallb (fun p => dated (pr_date p) && pos_b (pr_val p)) (snd e)) (bk_prices b) && forallb (fun p => dated (p_date p)) (bk_post b).
Lemma increasing_sorted l : increasing l = true -> StronglySorted (fun a b => pr_date a <= pr_date b) l.
Proof.
  intros H. assert (G : StronglySorted (fun a b => pr_date a < pr_date b) l).
  { apply Sorted_StronglySorted; [intros x y z; lia|]. induction l as [|a l IH]; [constructor|]. destruct l as [|b l]; [repeat constructor|]. cbn [increasing] in H. apply andb_true_iff in H as [H1 H2]. constructor; [apply IH; exact H2|constructor; apply Z.ltb_lt; exact H1]. }
  clear H. induction G as [|a l G IH F]; constructor; [exact IH|]. revert F. apply Forall_impl. intros; lia.
Qed.
Lemma pos_b_pos q : pos_b q = true -> (0 < q)%Qc.
Proof. unfold pos_b, Qclt, Qlt. cbn [this Q2Qc]. destruct (Qnum (this q)) eqn:E; try discriminate. intros _. simpl. lia. Qed.
Lemma readable_b_ok ds b : (forall x, In x ds -> valid_date x) -> readable_b ds b = true -> readable b.
Proof.
  intros V H. unfold readable_b in H. rewrite !andb_true_iff in H. destruct H as [[H1 H2] H3].
  assert (D : forall d, existsb (Z.eqb d) ds = true -> valid_date d) by (intros d Hd; apply existsb_exists in Hd as (x & Hx & E); apply Z.eqb_eq in E; subst x; apply V; exact Hx).
  rewrite forallb_forall in H2, H3. split; [split|split].
  - revert H1. generalize (map fst (bk_prices b)). induction l as [|k l IH]; intros H; [constructor|]. cbn [distinct] in H. apply andb_true_iff in H as [H4 H5]. constructor; [|apply IH; exact H5]. intros Hin. apply negb_true_iff in H4. assert (E : existsb (pair_eqb k) l = true) by (apply existsb_exists; exists k; split; [exact Hin|apply pair_eqb_eq; reflexivity]). congruence.
  - apply Forall_forall. intros [k l] He. specialize (H2 (k, l) He). cbn [snd] in H2 |- *. rewrite !andb_true_iff in H2. destruct H2 as [[H4 H5] H6]. rewrite forallb_forall in H6. split; [destruct l; [discriminate H4|discriminate]|]. split; [|apply increasing_sorted; exact H5]. apply Forall_forall. intros p Hp. specialize (H6 p Hp). apply andb_true_iff in H6 as [H6 _]. apply D. exact H6.
  - apply Forall_forall. intros [k l] He. specialize (H2 (k, l) He). cbn [snd] in H2 |- *. rewrite !andb_true_iff in H2. destruct H2 as [[H4 H5] H6]. rewrite forallb_forall in H6. apply Forall_forall. intros p Hp. specialize (H6 p Hp). apply andb_true_iff in H6 as [_ H6]. apply pos_b_pos. exact H6.
  - intros p Hp. apply D. apply H3. exact Hp.
Qed.

(** *** A compiler for some patterns: texts where '.' stands for any character, anchored by ^ and $ or anywhere; "^A+B$"; texts with ( or [ do not compile. *)
Fixpoint wild (p t : str) : option str := match p, t with [], _ => Some t | c :: p', x :: t' => if (c =? 46) || (c =? x) then wild p' t' else None | _ :: _, [] => None end.
Definition wild_all (p t : str) : bool := match wild p t with Some [] => true | _ => false end.
Fixpoint wild_in (p t : str) : bool := match wild p t with Some _ => true | None => match t with [] => false | _ :: t' => wild_in p t' end end.
Definition x_match (s : str) (t : str) : bool :=
  if str_eqb s (bs "^A+B$") then match full_match (RSeq (RPlus (Z.eqb 65)) (RLit (bs "B"))) t with Some _ => true | None => false end
  else match s with 94 :: s' => wild_all (removelast s') t | _ => wild_in s t end.
Definition x_compile (s : str) : option regexp := if existsb (fun c => (c =? 40) || (c =? 91)) s then None else Some (mkRe (x_match s) (fun t r => if x_match s t then r else t)).
Lemma plain_not (l : list Z) c : plain_char c -> forallb (fun x => negb (((65 <=? x) && (x <=? 90)) || ((97 <=? x) && (x <=? 122)) || ((48 <=? x) && (x <=? 57)) || existsb (Z.eqb x) [38; 39; 58; 95; 32])) l = true -> ~ In c l.
Proof.
  intros Hc H Hin. rewrite forallb_forall in H. specialize (H c Hin). apply negb_true_iff in H. rewrite !orb_false_iff, !andb_false_iff, !Z.leb_gt in H. destruct H as [[[H1 H2] H3] H4].
  assert (E : existsb (Z.eqb c) [38; 39; 58; 95; 32] = true -> False) by congruence. destruct Hc as [Hc|[Hc|[Hc|Hc]]]; try lia. apply E. apply existsb_exists. exists c. split; [exact Hc|apply Z.eqb_refl].
Qed.
Lemma wild_plain a : plain_name a -> forall t, wild_all a t = str_eqb t a.
Proof.
  intros H. unfold wild_all. induction H as [|c a Hc _ IH]; intros t; [destruct t; reflexivity|]. destruct t as [|x t]; [reflexivity|]. cbn [wild str_eqb].
  destruct (Z.eqb_spec c 46) as [->|_]; [exfalso; apply (plain_not [46] 46 Hc eq_refl); left; reflexivity|]. cbn [orb]. rewrite (Z.eqb_sym x c). destruct (c =? x); [apply IH|reflexivity].
Qed.
Lemma x_literal : literal x_compile.
Proof.
  intros a Ha. unfold x_compile. assert (E : existsb (fun c => (c =? 40) || (c =? 91)) (bs "^" ++ a ++ bs "$") = false).
  { apply not_true_is_false. intros E. apply existsb_exists in E as (c & Hin & Hc). apply in_app_iff in Hin as [Hin|Hin]; [destruct Hin as [<-|[]]; discriminate|]. apply in_app_iff in Hin as [Hin|Hin]; [|destruct Hin as [<-|[]]; discriminate].
    rewrite orb_true_iff, !Z.eqb_eq in Hc. unfold plain_name in Ha. rewrite Forall_forall in Ha. apply (plain_not [40; 91] c (Ha c Hin) eq_refl). destruct Hc as [->| ->]; [left|right; left]; reflexivity. }
  rewrite E. eexists. split; [reflexivity|]. intros t. cbn [rx_match]. unfold x_match. destruct (str_eqb_spec (bs "^" ++ a ++ bs "$") (bs "^A+B$")) as [Eq|_].
  - exfalso. assert (Ha2 : a = bs "A+B") by (change (bs "^A+B$") with (bs "^" ++ bs "A+B" ++ bs "$") in Eq; apply app_inv_head in Eq; apply app_inv_tail in Eq; exact Eq). subst a. unfold plain_name in Ha. rewrite Forall_forall in Ha. apply (plain_not [43] 43); [apply Ha; right; left; reflexivity|reflexivity|left; reflexivity].
  - change (bs "^" ++ a ++ bs "$") with (94 :: (a ++ [36])). cbv iota beta. rewrite removelast_last. apply wild_plain. exact Ha.
Qed.

(** *** A book with prices: USD 2 on 1 January, 3 on 31 January, no price for JPY. *)
Definition cmd_calls : list bcall :=
  [ CPrice 20240101 (bs "USD") (bs "GBP") (qz 2); CPrice 20240131 (bs "USD") (bs "GBP") (qz 3);
    CTrans 20240101 (bs "Buy") []; CPost (bs "Shares") (bs "USD") (qz 100) []; CPost (bs "Bank") (bs "USD") (qz (-100)) [];
    CTrans 20240131 (bs "Sell") []; CPost (bs "Shares") (bs "USD") (qz (-100)) []; CPost (bs "Bank") (bs "USD") (qz 100) [];
    CTrans 20240201 (bs "Trip") []; CPost (bs "Travel") (bs "JPY") (qz 100) []; CPost (bs "Card") (bs "JPY") (qz (-100)) [] ].
Definition cmd_book : book := x_built cmd_calls.
Lemma cmd_reach : reachable xsort cmd_book.
Proof. apply x_reach. vm_compute. reflexivity. Qed.
Lemma cmd_dates : forall x, In x [20240101; 20240131; 20240201] -> valid_date x.
Proof. intros x [<-|[<-|[<-|[]]]]; [exists 2024, 1, 1|exists 2024, 1, 31|exists 2024, 2, 1]; (split; [cbv; intuition congruence|reflexivity]). Qed.
Lemma cmd_readable : readable cmd_book.
Proof. apply (readable_b_ok [20240101; 20240131; 20240201]); [exact cmd_dates|vm_compute; reflexivity]. Qed.
Lemma x_today : valid_date 20240301.
Proof. exists 2024, 3, 1. split; [cbv; intuition congruence|reflexivity]. Qed.
Definition x_report := report_run xsort x_compile x_float 20240301 x_ploop x_macros 5 x_it x_micro (bs "GBP") [58].
Definition x_register (all : bool) := register_run xsort x_compile x_float 20240301 x_ploop x_macros 5 (bs "GBP") all.
Definition pv (p : posting) := (p_date p, p_acct p, p_ccy p, Qnum (this (p_val p))).
Definition rep_rows (o : outcome (book * list trans)) : list (list (Z * str * str * Z)) := match o with Ok (_, ts) => map (map pv) ts | _ => [] end.
Definition x_opts (by_ : str) (convert sum : bool) : report_opts := mkRO (bs "Text") by_ convert sum [] [].

(** The hypotheses of C93 hold of this book; its monthly report in GBP. *)
Example C93_nonvacuous : sort_ok is_less xsort /\ any_order x_it /\ reachable xsort cmd_book /\ readable cmd_book /\ valid_date 20240301 /\
  ops_of xsort x_compile x_float 20240301 x_ploop x_macros 5 [] cmd_book = Ok cmd_book /\
  rep_rows (x_report (x_opts (bs "none") true false) [] cmd_book) =
    [ [ (20240101, bs "Bank", bs "GBP", -200); (20240101, bs "Shares", bs "GBP", 200) ]; [ (20240131, bs "Bank", bs "GBP", 300); (20240131, bs "Shares", bs "GBP", -300) ];
      [ (20240201, bs "Card", bs "GBP", -100); (20240201, bs "Travel", bs "GBP", 100) ] ] /\
  rep_rows (x_report (x_opts (bs "monthly") true true) [] cmd_book) =
    [ [ (20240201, bs "Travel", bs "GBP", 100); (20240201, bs "Card", bs "GBP", -100) ] ].
Proof.
  split; [exact xsort_ok|]. split; [exact x_it_ok|]. split; [exact cmd_reach|]. split; [exact cmd_readable|]. split; [exact x_today|]. split; [reflexivity|]. split; vm_compute; reflexivity.
Qed.
Lemma when_ok {A B} (f : B -> bool) (o : outcome (A * B)) : match o with Ok (_, y) => f y | _ => false end = true -> exists x y, o = Ok (x, y) /\ f y = true.
Proof. destruct o as [[x y]| | |]; try discriminate. eauto. Qed.

(** ** C93 refuted. Expected: --convert takes every amount at the price of its own day. With --splitby the price of the first day of the period is used. *)
Theorem C93_price_of_day_refuted : exists b b2 ts a (r : posting -> Qc), reachable xsort b /\ readable b /\
  x_report (x_opts (bs "monthly") true false) [] b = Ok (b2, ts) /\
  (forall p, In p (bk_post b) -> worth (bk_prices b) (p_date p) (p_ccy p) (bs "GBP") (r p)) /\
  total (in_acct a (bs "GBP")) (concat ts) <> sum_of (fun p => if str_eqb (p_acct p) a then (r p * p_val p)%Qc else 0%Qc) (bk_post b).
Proof.
  set (r := fun p => rate (bk_prices cmd_book) (bs "GBP") (p_date p) (p_ccy p)).
  destruct (when_ok (fun ts => negb (qc_eqb (total (in_acct (bs "Shares") (bs "GBP")) (concat ts)) (sum_of (fun p => if str_eqb (p_acct p) (bs "Shares") then (r p * p_val p)%Qc else 0%Qc) (bk_post cmd_book))))
    (x_report (x_opts (bs "monthly") true false) [] cmd_book)) as (b2 & ts & E & H); [vm_compute; reflexivity|].
  exists cmd_book, b2, ts, (bs "Shares"), r. split; [exact cmd_reach|]. split; [exact cmd_readable|]. split; [exact E|]. split.
  - intros p Hp. destruct cmd_readable as (H1 & H2 & H3). apply rate_worth; [exact H1|exact H2|apply H3; exact Hp].
  - intros Eq. apply (proj2 (qc_eqb_eq _ _)) in Eq. rewrite Eq in H. discriminate H.
Qed.
Print Assumptions C93_price_of_day_refuted.
(** Expected: an amount without a price is refused or kept in its currency. 100 JPY become 100 GBP. *)
Theorem C93_no_price_refuted : exists b b2 ts p q, reachable xsort b /\ x_report (x_opts (bs "none") true false) [] b = Ok (b2, ts) /\
  In p (bk_post b) /\ p_ccy p = bs "JPY" /\ (forall k l, In (k, l) (bk_prices b) -> fst k <> bs "JPY" /\ snd k <> bs "JPY") /\
  In q (concat ts) /\ p_acct q = p_acct p /\ p_date q = p_date p /\ p_ccy q = bs "GBP" /\ p_val q = p_val p /\ p_val p <> 0%Qc.
Proof.
  set (is_p := fun (c : str) p => str_eqb (p_acct p) (bs "Travel") && str_eqb (p_ccy p) c && (p_date p =? 20240201) && qc_eqb (p_val p) (qz 100)).
  destruct (when_ok (fun ts => existsb (is_p (bs "GBP")) (concat ts)) (x_report (x_opts (bs "none") true false) [] cmd_book)) as (b2 & ts & E & H); [vm_compute; reflexivity|].
  assert (Hp : existsb (is_p (bs "JPY")) (bk_post cmd_book) = true) by (vm_compute; reflexivity).
  apply existsb_exists in H as (q & Hq & Eq). apply existsb_exists in Hp as (p & Hp & Ep). unfold is_p in Eq, Ep. rewrite !andb_true_iff, !str_eqb_eq, !Z.eqb_eq, !qc_eqb_eq in Eq, Ep. destruct Eq as [[[Q1 Q2] Q3] Q4], Ep as [[[P1 P2] P3] P4].
  exists cmd_book, b2, ts, p, q. split; [exact cmd_reach|]. split; [exact E|]. split; [exact Hp|]. split; [exact P2|]. split.
  { assert (Hk : forallb (fun e : pair * pricelist => negb (str_eqb (fst (fst e)) (bs "JPY")) && negb (str_eqb (snd (fst e)) (bs "JPY"))) (bk_prices cmd_book) = true) by (vm_compute; reflexivity).
    intros k l Hin. rewrite forallb_forall in Hk. specialize (Hk (k, l) Hin). cbn [fst] in Hk. apply andb_true_iff in Hk as [K1 K2]. split; intros Ek; [rewrite Ek in K1; discriminate K1|rewrite Ek in K2; discriminate K2]. }
  split; [exact Hq|]. split; [rewrite Q1, P1; reflexivity|]. split; [rewrite Q3, P3; reflexivity|]. split; [exact Q2|]. split; [rewrite Q4, P4; reflexivity|]. rewrite P4. intros Ez. apply (proj2 (qc_eqb_eq _ _)) in Ez. revert Ez. vm_compute. discriminate.
Qed.
Print Assumptions C93_no_price_refuted.

(** ** C90: the hypotheses hold of this book. *)
Definition ev (e : entry) := (e_date e, e_acct e, e_ccy e, Qnum (this (e_amt e)), Qnum (this (e_bal e))).
Definition reg_rows (o : outcome (list (option str * list entry))) := match o with Ok l => Some (map (fun s => (fst s, map ev (snd s))) l) | _ => None end.
Definition x_go (from to : str) (combined convert : bool) : register_opts := mkGO from to combined convert true.
Lemma cmd_plain : forall p, In p (bk_post cmd_book) -> plain_name (p_acct p).
Proof.
  assert (H : forallb (fun p => forallb (fun c => ((65 <=? c) && (c <=? 90)) || ((97 <=? c) && (c <=? 122))) (p_acct p)) (bk_post cmd_book) = true) by (vm_compute; reflexivity).
  intros p Hp. rewrite forallb_forall in H. specialize (H p Hp). apply Forall_forall. intros c Hc. rewrite forallb_forall in H. specialize (H c Hc). rewrite orb_true_iff, !andb_true_iff, !Z.leb_le in H. unfold plain_char. destruct H as [H|H]; [left; exact H|right; left; exact H].
Qed.
Example C90_nonvacuous : literal x_compile /\ (forall p, In p (bk_post cmd_book) -> plain_name (p_acct p)) /\ bound (bs "2024/01/02") (Some 20240102) /\ bound [] None /\
  convert_if true (bs "GBP") cmd_book <> Panic /\
  reg_rows (x_register true (x_go (bs "2024/01/02") [] false false) [] (bs "a") cmd_book) =
    Some [ (Some (bs "Bank"), [(20240131, bs "Bank", bs "USD", 100, 0)]); (Some (bs "Card"), [(20240201, bs "Card", bs "JPY", -100, -100)]);
           (Some (bs "Shares"), [(20240131, bs "Shares", bs "USD", -100, 0)]); (Some (bs "Travel"), [(20240201, bs "Travel", bs "JPY", 100, 100)]) ] /\
  reg_rows (x_register true (x_go [] (bs "2024/02/01") true true) [bs "map=/Shares/Stock/"] (bs "S") cmd_book) =
    Some [ (None, [(20240101, bs "Stock", bs "GBP", 200, 200); (20240131, bs "Stock", bs "GBP", -300, -100)]) ].
Proof.
  split; [exact x_literal|]. split; [exact cmd_plain|]. split; [assert (Ed : bs "2024/01/02" = date_string 20240102) by (vm_compute; reflexivity); rewrite Ed; apply b_date; [exists 2024, 1, 2; split; [cbv; intuition congruence|reflexivity]|lia]|]. split; [constructor|]. split; [vm_compute; discriminate|]. split; vm_compute; reflexivity.
Qed.

(** ** C90 refuted. Expected: the register of an account shows the postings of that account. The name is used as a regular expression: "A.B" also
    shows the postings of "AxB", and "A+B" shows those of "AB" and none of its own. *)
Definition odd_calls : list bcall :=
  [ CTrans 20240101 (bs "s") []; CPost (bs "A.B") (bs "GBP") (qz 5) []; CPost (bs "AxB") (bs "GBP") (qz 7) []; CPost (bs "A+B") (bs "GBP") (qz 9) []; CPost (bs "AB") (bs "GBP") (qz (-21)) [] ].
Definition odd_book : book := x_built odd_calls.
Theorem C90_name_is_pattern_refuted : exists b, reachable xsort b /\ reg_rows (x_register true (x_go [] [] false false) [] (bs "A") b) =
  Some [ (Some (bs "A+B"), [(20240101, bs "AB", bs "GBP", -9, -9); (20240101, bs "AB", bs "GBP", -5, -14); (20240101, bs "AB", bs "GBP", -7, -21)]);
         (Some (bs "A.B"), [(20240101, bs "A+B", bs "GBP", 9, 9); (20240101, bs "A.B", bs "GBP", 5, 14); (20240101, bs "AxB", bs "GBP", 7, 21)]);
         (Some (bs "AB"), [(20240101, bs "AB", bs "GBP", -9, -9); (20240101, bs "AB", bs "GBP", -5, -14); (20240101, bs "AB", bs "GBP", -7, -21)]);
         (Some (bs "AxB"), [(20240101, bs "AxB", bs "GBP", 7, 7)]) ].
Proof. exists odd_book. split; [apply x_reach; vm_compute; reflexivity|]. vm_compute. reflexivity. Qed.
Print Assumptions C90_name_is_pattern_refuted.
(** A name that is not a regular expression ends the command, however many other accounts match. *)
Theorem C90_name_not_compiling_refuted : exists b, reachable xsort b /\ (exists p, In p (bk_post b) /\ p_acct p = bs "Zoo") /\
  x_register true (x_go [] [] false false) [] (bs "o") b = Error /\ x_register true (x_go [] [] true false) [] (bs "o") b <> Error.
Proof.
  set (cs := [ CTrans 20240101 (bs "s") []; CPost (bs "Foo (x") (bs "GBP") (qz 5) []; CPost (bs "Zoo") (bs "GBP") (qz (-5)) [] ]). exists (x_built cs).
  split; [apply x_reach; vm_compute; reflexivity|]. assert (H : existsb (fun p => str_eqb (p_acct p) (bs "Zoo")) (bk_post (x_built cs)) = true) by (vm_compute; reflexivity).
  split; [apply existsb_exists in H as (p & Hp & E); apply str_eqb_eq in E; eauto|]. split; [vm_compute; reflexivity|vm_compute; discriminate].
Qed.
Print Assumptions C90_name_not_compiling_refuted.
(** Expected: a pattern that is not a regular expression is reported as an error. With --combined it is; otherwise, and in accts, the process crashes. *)
Theorem C90_bad_pattern_refuted : forall srt compile parse_float today ploop macros fuel base all o args pat b b0 b1,
  convert_if (go_convert o) base b = Ok b0 -> ops_of srt compile parse_float today ploop macros fuel args b0 = Ok b1 -> compile pat = None ->
  register_run srt compile parse_float today ploop macros fuel base all o args pat b = (if go_combined o then Error else Panic) /\
  accts_run compile all [pat] b = Panic.
Proof.
  intros * E0 E1 Ec. unfold register_run, accts_run, list_accounts. rewrite E0. cbn [obind]. rewrite E1. cbn [obind]. rewrite Ec. destruct (go_combined o); split; reflexivity.
Qed.
Print Assumptions C90_bad_pattern_refuted.
Example C90_bad_pattern_nonvacuous : x_compile (bs "[") = None /\ x_register true (x_go [] [] false false) [] (bs "[") cmd_book = Panic.
Proof. split; vm_compute; reflexivity. Qed.
(** Expected: an unreadable --begin or --asof is an error. It is ignored. *)
Theorem C90_bad_date_refuted : exists b, reachable xsort b /\ reg_rows (x_register true (x_go (bs "1st Feb") [] false false) [] (bs "Shares") b) =
  Some [ (Some (bs "Shares"), [(20240101, bs "Shares", bs "USD", 100, 100); (20240131, bs "Shares", bs "USD", -100, 0)]) ].
Proof. exists cmd_book. split; [exact cmd_reach|]. vm_compute. reflexivity. Qed.
Print Assumptions C90_bad_date_refuted.
(** Expected: without --all the accounts with a balance are shown. The balance looked at is the one before --convert: Shares, with -100 GBP, is left out. *)
Theorem C90_stale_balance_refuted : exists b b0, reachable xsort b /\ convert_if true (bs "GBP") b = Ok b0 /\ total (in_acct (bs "Shares") (bs "GBP")) (bk_post b0) <> 0%Qc /\
  reg_rows (x_register false (x_go [] [] false true) [] (bs "Shares") b) = Some [].
Proof.
  destruct (C90_convert_partial (bs "GBP") cmd_book ltac:(discriminate) cmd_readable) as (b0 & E & _). exists cmd_book, b0. split; [exact cmd_reach|]. split; [exact E|]. split; [|vm_compute; reflexivity].
  assert (H : match convert_if true (bs "GBP") cmd_book with Ok c => negb (qc_eqb (total (in_acct (bs "Shares") (bs "GBP")) (bk_post c)) 0%Qc) | _ => false end = true) by (vm_compute; reflexivity).
  rewrite E in H. intros Eq. apply (proj2 (qc_eqb_eq _ _)) in Eq. rewrite Eq in H. discriminate.
Qed.
Print Assumptions C90_stale_balance_refuted.
(** An operation that cannot be carried out ends either command with an error, and nothing is reported. *)
Theorem C93_failing_operation_partial : forall srt compile parse_float today ploop macros fuel it micro base divider all args b b' bad,
  book_ops srt compile parse_float today ploop macros fuel args b = Ok (b', Some bad) ->
  (forall o, report_run srt compile parse_float today ploop macros fuel it micro base divider o args b = Error) /\
  (forall o pat, go_convert o = false -> register_run srt compile parse_float today ploop macros fuel base all o args pat b = Error).
Proof. intros * E. unfold report_run, register_run, ops_of. rewrite E. cbn [obind]. split; [reflexivity|]. intros o pat ->. cbn [convert_if obind]. rewrite E. reflexivity. Qed.
Print Assumptions C93_failing_operation_partial.
Example C93_failing_nonvacuous : x_ops x_macros 5 [bs "since=2024-01-01"; bs "combine=weekly"] cmd_book <> Panic /\
  match x_ops x_macros 5 [bs "since=2024-01-01"; bs "combine=weekly"] cmd_book with Ok (_, Some op) => op = bs "combine=weekly" | _ => False end.
Proof. split; [vm_compute; discriminate|vm_compute; reflexivity]. Qed.

(** Without a base currency a report that converts or summarises, and a register that converts, are refused with an error (unless an
    operation fails first). *)
Theorem C93_no_base_currency_partial : forall srt compile parse_float today ploop macros fuel it micro divider all args b b',
  ops_of srt compile parse_float today ploop macros fuel args b = Ok b' ->
  (forall o, str_eqb (ro_type o) (bs "Beancount") = false -> ro_convert o = true \/ (ro_sum o = true /\ ro_credit o = []) ->
     report_run srt compile parse_float today ploop macros fuel it micro [] divider o args b = Error) /\
  (forall o pat, go_convert o = true -> register_run srt compile parse_float today ploop macros fuel [] all o args pat b = Error).
Proof.
  intros * E. split.
  - intros o Hb H. unfold report_run. rewrite E. cbn [obind]. rewrite Hb. cbn [negb andb]. destruct (ro_convert o) eqn:Ec; [reflexivity|]. destruct H as [H|[H1 H2]]; [discriminate|]. unfold convert_if. cbn [obind]. rewrite H1, H2. reflexivity.
  - intros o pat H. unfold register_run. rewrite H. reflexivity.
Qed.
Print Assumptions C93_no_base_currency_partial.
Example C93_no_base_nonvacuous : x_ops x_macros 5 [bs "since=2024-01-01"] cmd_book <> Panic /\ match x_ops x_macros 5 [bs "since=2024-01-01"] cmd_book with Ok (_, None) => True | _ => False end.
Proof. split; [vm_compute; discriminate|vm_compute; exact I]. Qed.
