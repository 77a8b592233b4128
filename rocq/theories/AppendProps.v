(** * AppendProps: C87 (lines added to a ledger file). *)
From Verif Require Import Base Utf8 Dec DateProofs2 PriceModel BookModel BookSpec BookProofs BuilderProofs OpsModel OpsProofs BookProps AccumModel LoaderModel LoaderSpec
  LoaderProofs LoaderProofs2 LoaderProofs3 LoaderProofs4 LoaderProofs5 LoaderProofs6 LoaderProofs7 LoaderProps AppendSpec AppendProofs.
From Coq Require Import ZifyBool ZifyNat Zify.
Ltac Zify.zify_post_hook ::= idtac.

(** ** C87. A ledger file with text [s] that loads stands for some builder calls [cs] and leaves some aliases [al] in
    force, all declared in its text. Whatever lines (in the grammar of LoaderSpec, also includes and aliases) are then
    added at its end: loading the longer file does the calls [cs] and then those of the added lines, read with the
    aliases [al]; the rest of the directory is unchanged. If the longer file loads, the account totals grow by the amounts
    added, and if the first entry added is a transaction header, every earlier posting is kept. *)
Theorem C87_append_lines is_letter is_udigit to_upper ord resolve srt fs f s depth main :
  unicode_ok is_letter is_udigit to_upper -> (forall m, NoDup (akeys m) -> Permutation (ord m) (akeys m)) -> sort_ok is_less srt ->
  complete s -> fs f = Some s -> load_book is_letter is_udigit to_upper ord fs resolve srt depth f = Ok main ->
  exists cs al, build_calls srt cs = Ok main /\ (forall a, rename al a <> a -> declares to_upper (decode s) a) /\
    forall fs' x es, (forall g, g <> f -> fs' g = fs g) -> fs' f = Some (s ++ encode x) -> Forall scalar x ->
      ledger_text fs' resolve f al x es ->
      exists ds bound, means cs es ds /\ forall depth', (bound <= depth')%nat ->
        load_book is_letter is_udigit to_upper ord fs' resolve srt depth' f =
          match bsteps new_builder (cs ++ ds) with Ok b => build srt b | _ => Error end /\
        forall new, load_book is_letter is_udigit to_upper ord fs' resolve srt depth' f = Ok new ->
          (forall a c, total (in_acct a c) (bk_post new) = (total (in_acct a c) (bk_post main) + posts_to a c ds)%Qc) /\
          (forall d pay n es', es = Call (CTrans d pay n) :: es' -> grown (bk_post main) (bk_post new)).
Proof.
  intros Hu Hord Hs Hc Hf H. unfold load_book in H.
  destruct (parse_file is_letter is_udigit to_upper ord fs resolve depth new_builder f []) as [b| | |] eqn:E; try discriminate.
  destruct (parse_file_calls is_letter is_udigit to_upper ord fs resolve depth _ _ _ _ E) as (cs & Ecs).
  destruct (append_run is_letter is_udigit to_upper ord resolve Hu Hord fs f s depth b Hc Hf E) as (al & Hal & Hrun).
  assert (Hmain : build_calls srt cs = Ok main) by (unfold build_calls; rewrite Ecs; exact H).
  exists cs, al. split; [exact Hmain|]. split.
  - intros a Ha. unfold rename in Ha. destruct (aget str_eqb a al) as [n|] eqn:Ea; [|congruence]. apply (alias_declares is_letter is_udigit). apply Hal.
    apply (aget_In _ str_eqb_eq) in Ea. apply in_map_iff. exists (a, n). auto.
  - intros fs' x es Hs' Hf' Hx Ht. destruct (Hrun fs' x es cs Hs' Hf' Hx Ht Ecs) as (ds & D & Hm & Hl). exists ds, D. split; [exact Hm|].
    intros d Hd. assert (El : load_book is_letter is_udigit to_upper ord fs' resolve srt d f = match bsteps new_builder (cs ++ ds) with Ok b => build srt b | _ => Error end).
    { unfold load_book. rewrite (Hl d Hd), bsteps_app, Ecs. cbn [obind]. destruct (bsteps b ds); reflexivity. }
    split; [exact El|]. intros new En. rewrite En in El.
    assert (Hnew : build_calls srt (cs ++ ds) = Ok new) by (unfold build_calls; destruct (bsteps new_builder (cs ++ ds)); try discriminate El; symmetry; exact El).
    destruct (grown_calls srt cs ds main new Hs Hmain Hnew) as [HT HG]. split; [exact HT|].
    intros dt pay n es' Ees. subst es. inversion Hm as [|? c ? ds' Hm'|]; subst. apply (HG dt pay n ds' eq_refl).
    intros d0 p0 n0 Hin E0. pose proof (ledger_dates _ _ _ _ _ _ Ht d0 p0 n0 (means_dates _ _ _ Hm _ _ _ Hin)). lia.
Qed.
Print Assumptions C87_append_lines.

(** A ledger with an include and an alias, and a transaction added under the name the alias renames. *)
Definition ex87_old : str := bs "alias F = Food" ++ nl ++ bs "include s" ++ nl ++ bs "2024/01/02 Shop" ++ nl ++ bs "  F  3 GBP" ++ nl ++ bs "  Cash" ++ nl.
Definition ex87_sub : str := bs "2024/01/01 Shop" ++ nl ++ bs "  F  1 GBP" ++ nl ++ bs "  Cash" ++ nl.
Definition ex87_add : runes := bs "2024/01/02 Shop" ++ nl ++ bs "  F  5 GBP" ++ nl ++ bs "  Cash" ++ nl.
Definition ex87_fs (s : str) : str -> option str := x_fs [(bs "m", s); (bs "s", ex87_sub)].
Definition ex87_rows (o : outcome book) : list (Z * str * str * Q) :=
  match o with Ok b => map (fun p => (p_date p, p_payee p, p_acct p, this (p_val p))) (bk_post b) | _ => [] end.
Lemma ex87_text : ledger_text (ex87_fs (ex87_old ++ encode ex87_add)) x_join (bs "m") [(bs "F", bs "Food")] ex87_add
  [Call (CTrans 20240102 (bs "Shop") []); Call (CPost (bs "Food") (bs "GBP") (qz 5) []); Rest (bs "Cash") []].
Proof.
  set (al := [(bs "F", bs "Food")]). set (fs := ex87_fs _).
  apply (ledger_cons fs x_join (bs "m") al (bs "2024/01/02 Shop" ++ nl) [Call (CTrans 20240102 (bs "Shop") [])] (bs "  F  5 GBP" ++ nl ++ bs "  Cash" ++ nl)).
  { apply (line_trans _ (bs "2024/01/02") 20240102 [32] [] (bs "Shop") (bs "Shop") [] []).
    - apply (date_ymd (bs "2024") (bs "01") (bs "02") 2024 1 2); try (cbn; lia); first [apply (digits_value_ex (bs "2024"))|apply (digits_value_ex (bs "01"))|apply (digits_value_ex (bs "02"))|fa].
    - blank.
    - discriminate.
    - left. reflexivity.
    - apply (payee_bare (bs "Shop")). split; [fa|]. repeat split; discriminate || reflexivity.
    - apply note_none. constructor. }
  apply (ledger_cons fs x_join (bs "m") al (bs "  F  5 GBP" ++ nl) [Call (CPost (bs "Food") (bs "GBP") (qz 5) [])] (bs "  Cash" ++ nl)).
  { apply (line_post (rename al) (bs "  ") (bs "F") (bs "  ") false (bs "5 GBP") (bs "GBP") (qz 5) [] [] []).
    1:blank. 1:discriminate. 1:fa. 1:discriminate. 1:blank. 1:discriminate. 2:constructor. 2:{ apply note_none. constructor. }
    apply (money_back (bs "GBP") [32] (bs "5")); [|blank| |left; discriminate].
    - apply (ccy_bare (bs "GBP")); [fa|discriminate|discriminate].
    - apply (amt_int false (bs "5") 5); [fa|apply (digits_value_ex (bs "5"))|cbn; lia|discriminate|discriminate]. }
  apply (ledger_cons fs x_join (bs "m") al (bs "  Cash" ++ nl) [Rest (bs "Cash") []] [] []).
  { apply (line_rest (rename al) (bs "  ") (bs "Cash") [] []); [blank|discriminate|fa|discriminate|]. apply note_none. constructor. }
  constructor.
Qed.
Example C87_nonvacuous :
  complete ex87_old /\ Forall scalar ex87_add /\
  ex87_rows (load_book x_letter digit upc x_order (ex87_fs ex87_old) x_join xsort 5 (bs "m")) =
    [(20240101%Z, bs "Shop", bs "Cash", -1 # 1); (20240101%Z, bs "Shop", bs "Food", 1 # 1);
     (20240102%Z, bs "Shop", bs "Cash", -3 # 1); (20240102%Z, bs "Shop", bs "Food", 3 # 1)]%Q /\
  ex87_rows (load_book x_letter digit upc x_order (ex87_fs (ex87_old ++ encode ex87_add)) x_join xsort 5 (bs "m")) =
    [(20240101%Z, bs "Shop", bs "Cash", -1 # 1); (20240101%Z, bs "Shop", bs "Food", 1 # 1);
     (20240102%Z, bs "Shop", bs "Cash", -3 # 1); (20240102%Z, bs "Shop", bs "Food", 3 # 1);
     (20240102%Z, bs "Shop (2)", bs "Cash", -5 # 1); (20240102%Z, bs "Shop (2)", bs "Food", 5 # 1)]%Q.
Proof.
  split; [split; [right; exists (removelast ex87_old); reflexivity|]|].
  { intros H. assert (X : forallb (fun c => negb (c =? 0)) ex87_old = true) by reflexivity. rewrite forallb_forall in X. specialize (X 0 H). discriminate X. }
  split; [apply ascii_scalar; fa|]. split; vm_compute; reflexivity.
Qed.

(** Why [complete]: a last line without its newline is continued by the added text, and after a NUL nothing added is
    read; both files load, without an error. *)
Theorem C87_incomplete_refuted :
  let add := bs "2024/01/05 Shop" ++ nl ++ bs "  Food  5 GBP" ++ nl ++ bs "  Cash" ++ nl in
  let base := bs "2024/01/02 Shop" ++ nl ++ bs "  Food  3 GBP" ++ nl in
  let rows s := ex87_rows (x_load [(bs "m", s)] (bs "m")) in
  rows (base ++ bs "  Cash ; c") = [(20240102%Z, bs "Shop", bs "Cash", -3 # 1); (20240102%Z, bs "Shop", bs "Food", 3 # 1)]%Q /\
  rows ((base ++ bs "  Cash ; c") ++ add) = [(20240102%Z, bs "Shop", bs "Cash", -8 # 1); (20240102%Z, bs "Shop", bs "Food", 8 # 1)]%Q /\
  rows ((base ++ bs "  Cash" ++ nl ++ [0] ++ nl) ++ add) = rows (base ++ bs "  Cash" ++ nl ++ [0] ++ nl) /\
  rows (base ++ bs "  Cash" ++ nl ++ [0] ++ nl) = [(20240102%Z, bs "Shop", bs "Cash", -3 # 1); (20240102%Z, bs "Shop", bs "Food", 3 # 1)]%Q.
Proof. repeat split; vm_compute; reflexivity. Qed.
Print Assumptions C87_incomplete_refuted.
