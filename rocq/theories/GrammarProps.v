(** * GrammarProps: C88, exactly which texts are ledgers. *)
From Verif Require Import Base Utf8 Dec DateProofs2 PriceModel BookModel BookSpec BookProofs BuilderProofs OpsModel BookProps AccumModel LoaderModel LoaderSpec GrammarSpec
  LoaderProofs LoaderProofs2 LoaderProofs3 LoaderProofs4 LoaderProofs5 LoaderProps GrammarProofs GrammarProofs2.
From Coq Require Import ZifyBool ZifyNat Zify.
Ltac Zify.zify_post_hook ::= idtac.

(** ** C88. Whatever loads is a text of GrammarSpec, and the book is built of what its entries mean; no other text loads. *)
Theorem C88_only_ledgers_load_partial is_letter is_udigit to_upper ord fs resolve srt depth f bk :
  is_letter 0 = false /\ is_udigit 0 = false -> (forall m, NoDup (akeys m) -> Permutation (ord m) (akeys m)) ->
  load_book is_letter is_udigit to_upper ord fs resolve srt depth f = Ok bk ->
  exists bytes es cs, fs f = Some bytes /\ text_at is_letter is_udigit to_upper fs resolve f [] (decode bytes) es /\ means [] es cs /\ build_calls srt cs = Ok bk.
Proof.
  intros Hn Hord H. unfold load_book in H. destruct (parse_file is_letter is_udigit to_upper ord fs resolve depth new_builder f []) as [b| | |] eqn:E; try discriminate.
  destruct (file_text is_letter is_udigit to_upper Hn ord Hord fs resolve depth _ _ _ _ E [] eq_refl) as (bytes & es & cs & Hf & Ht & Hm & Eb).
  exists bytes, es, cs. split; [exact Hf|]. split; [exact Ht|]. split; [exact Hm|]. unfold build_calls. rewrite Eb. exact H.
Qed.
Print Assumptions C88_only_ledgers_load_partial.
(** The characters that separate words, and are trimmed from names: the white space of Unicode. *)
Theorem C88_white_space c : is_space c = true <->
  In c [9; 10; 11; 12; 13; 32; 133; 160; 5760; 8192; 8193; 8194; 8195; 8196; 8197; 8198; 8199; 8200; 8201; 8202; 8232; 8233; 8239; 8287; 12288].
Proof. unfold is_space, between. cbn [In]. lia. Qed.
Print Assumptions C88_white_space.
(** The characters of an account name. *)
Theorem C88_account_characters c : acct_rune c = true <-> In c (bs "abcdefghijklmnopqrstuvwxyzABCDEFGHIJKLMNOPQRSTUVWXYZ0123456789:_&'").
Proof.
  assert (E : bs "abcdefghijklmnopqrstuvwxyzABCDEFGHIJKLMNOPQRSTUVWXYZ0123456789:_&'" = map Z.of_nat (seq 97 26 ++ seq 65 26 ++ seq 48 10) ++ [58; 95; 38; 39]) by (vm_compute; reflexivity). rewrite E.
  rewrite in_app_iff, in_map_iff. setoid_rewrite in_app_iff. setoid_rewrite in_app_iff. setoid_rewrite in_seq. unfold acct_rune, between. cbn [In]. split.
  - intros H. destruct (Z_lt_le_dec c 97) as [H1|H1].
    + destruct (Z_lt_le_dec c 65) as [H2|H2].
      * destruct (Z_lt_le_dec c 48) as [H3|H3]; [right; lia|]. destruct (Z_le_gt_dec c 57) as [H4|H4]; [|right; lia]. left. exists (Z.to_nat c). lia.
      * destruct (Z_le_gt_dec c 90) as [H4|H4]; [|right; lia]. left. exists (Z.to_nat c). lia.
    + left. exists (Z.to_nat c). lia.
  - intros [(x & <- & H)|H]; lia.
Qed.
Print Assumptions C88_account_characters.
(** The characters of a currency written without quotes: all but white space, digits and ; @ - . (and the end of the text). *)
Theorem C88_currency_characters c : is_ccy_rune c = true <-> is_space c = false /\ c <> 0 /\ ~ In c (bs ";@-.0123456789").
Proof.
  assert (E : bs ";@-.0123456789" = [59; 64; 45; 46; 48; 49; 50; 51; 52; 53; 54; 55; 56; 57]) by reflexivity. rewrite E.
  unfold is_ccy_rune, digit, eof, eol, between. cbn [In]. destruct (is_space c) eqn:Es; [split; [lia|intros (C & _); discriminate]|].
  assert (c <> 10) by (intros ->; discriminate Es). cbn [negb]. lia.
Qed.
Print Assumptions C88_currency_characters.

(** Every text of GrammarSpec is read to its end, and is refused only if its transactions do not balance. *)
Theorem C88_every_ledger_loads is_letter is_udigit to_upper ord fs resolve srt f bytes es :
  is_letter 0 = false /\ is_udigit 0 = false -> (forall m, NoDup (akeys m) -> Permutation (ord m) (akeys m)) ->
  fs f = Some bytes -> text_at is_letter is_udigit to_upper fs resolve f [] (decode bytes) es ->
  exists cs bound, means [] es cs /\ forall depth, (bound <= depth)%nat ->
    load_book is_letter is_udigit to_upper ord fs resolve srt depth f =
      match bsteps new_builder cs with Ok b => build srt b | _ => Error end.
Proof.
  intros Hn Hord Hf Ht. destruct (text_run is_letter is_udigit to_upper Hn ord Hord fs resolve f [] _ es Ht [] new_builder eq_refl) as (cs & D & Hm & Hrun).
  exists cs, (S D). split; [exact Hm|]. intros depth Hd. destruct depth as [|depth]; [lia|]. unfold load_book. cbn [parse_file]. rewrite Hf.
  cbv zeta. rewrite Hrun by lia. destruct (after_total [] new_builder cs eq_refl) as [(b & ->)| ->]; reflexivity.
Qed.
Print Assumptions C88_every_ledger_loads.

Lemma x_nul : x_letter 0 = false /\ digit 0 = false. Proof. split; reflexivity. Qed.
Definition ex88 (rest : str) : outcome book := x_load [(bs "m", bs "2024/01/02 Shop" ++ nl ++ bs "  Food  3 GBP" ++ rest ++ nl ++ bs "  Cash" ++ nl)] (bs "m").
Definition ex88_rows (o : outcome book) : list (Z * str * str * str * Q) :=
  match o with Ok b => map (fun p => (p_date p, p_payee p, p_acct p, p_ccy p, this (p_val p))) (bk_post b) | _ => [] end.
(** A ledger, and texts that are none: a year of five digits, a word behind an amount, a string that is not closed. *)
Example C88_nonvacuous : ex88_rows (ex88 []) = [(20240102%Z, bs "Shop", bs "Cash", bs "GBP", -3 # 1); (20240102%Z, bs "Shop", bs "Food", bs "GBP", 3 # 1)]%Q /\
  ex88 (bs " Lunch") = Error /\
  x_load [(bs "m", bs "20240/01/02 Shop" ++ nl ++ bs "  Food  3 GBP" ++ nl ++ bs "  Cash" ++ nl)] (bs "m") = Error /\
  x_load [(bs "m", bs "2024/01/02 " ++ [34] ++ bs "Shop" ++ nl ++ bs "  Food  3 GBP" ++ nl ++ bs "  Cash" ++ nl)] (bs "m") = Error.
Proof. split; [vm_compute; reflexivity|]. split; [vm_compute; reflexivity|]. split; vm_compute; reflexivity. Qed.
(** EXPECTED: every line that is no comment is one entry. REFUTED: behind an amount, a word that begins with D or a balance assertion
    is dropped; another transaction may begin in the middle of a line; a price needs no unit. *)
Theorem C88_lines_refuted :
  ex88 (bs " Dinner") = ex88 [] /\ ex88 (bs " = 400 USD") = ex88 [] /\
  ex88_rows (x_load [(bs "m", bs "2024/01/02 Shop" ++ nl ++ bs "  Food  3 GBP" ++ nl ++ bs "  Cash -3 GBP 2024/02/02 Bar" ++ nl ++ bs "  Food  4 GBP" ++ nl ++ bs "  Cash" ++ nl)] (bs "m")) =
    [(20240102%Z, bs "Shop", bs "Cash", bs "GBP", -3 # 1); (20240102%Z, bs "Shop", bs "Food", bs "GBP", 3 # 1);
     (20240202%Z, bs "Bar", bs "Cash", bs "GBP", -4 # 1); (20240202%Z, bs "Bar", bs "Food", bs "GBP", 4 # 1)]%Q /\
  match x_load [(bs "m", bs "P 2024/01/02 00:00:00 " ++ [34; 34] ++ bs " 4 USD" ++ nl)] (bs "m") with Ok b => length (bk_prices b) = 1%nat | _ => False end.
Proof. repeat split; vm_compute; reflexivity. Qed.
Print Assumptions C88_lines_refuted.
