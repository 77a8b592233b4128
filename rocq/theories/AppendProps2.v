(** * AppendProps2: C85, the output of import added to the ledger. *)
From Verif Require Import Base Utf8 Dec DateModel DateProofs2 PriceModel BookModel BookSpec BookProofs BuilderProofs OpsModel OpsProofs OpsProofs2 OpsProofs3 BookProps AccumModel LoaderModel LoaderSpec
  LoaderProofs LoaderProofs2 LoaderProofs3 LoaderProofs4 LoaderProofs5 LoaderProofs6 LoaderProofs7 LoaderProps ScriptModel ScriptSpec ScriptProps ExportModel ExportSpec ExportProofs2 ExportProofs3 ExportProps
  ImportModel ImportSpec ImportProofs1 ImportProofs2 ImportProofs3 ImportProps ImportProofs4 AppendSpec AppendProofs AppendProofs2 AppendProps.

Lemma show_all_app f64 isl decs a : forall b ta tb, show_all f64 isl decs a = Ok ta -> show_all f64 isl decs b = Ok tb -> show_all f64 isl decs (a ++ b) = Ok (ta ++ tb).
Proof.
  induction a as [|t a IH]; intros b ta tb Ea Eb; [injection Ea as <-; exact Eb|]. cbn [show_all app] in *. apply obind_Ok in Ea as (x & Ex & Ea). apply obind_Ok in Ea as (y & Ey & Ea). injection Ea as <-.
  rewrite Ex. cbn [obind]. rewrite (IH b y tb Ey Eb). cbn [obind]. rewrite <- app_assoc. reflexivity.
Qed.
Lemma show_all_concat f64 isl decs out : Forall (fun o : list trans * str => show_all f64 isl decs (fst o) = Ok (snd o)) out ->
  show_all f64 isl decs (concat (map fst out)) = Ok (concat (map snd out)).
Proof. induction 1 as [|o out H _ IH]; [reflexivity|]. cbn [map concat]. apply show_all_app; assumption. Qed.

Lemma parse_file_mono is_letter is_udigit to_upper ord fs resolve : forall d d' b f nm b1, (d <= d')%nat ->
  parse_file is_letter is_udigit to_upper ord fs resolve d b f nm = FOk b1 -> parse_file is_letter is_udigit to_upper ord fs resolve d' b f nm = FOk b1.
Proof.
  induction d as [|d IH]; intros d' b f nm b1 L E; [discriminate|]. destruct d' as [|d']; [lia|]. cbn [parse_file] in *. destruct (fs f) as [bytes|]; [|discriminate]. cbv zeta in *.
  assert (HX : forall fuel b nm l, file_loop is_letter is_udigit to_upper ord resolve (parse_file is_letter is_udigit to_upper ord fs resolve d) f fuel b nm l = FOk b1 ->
    file_loop is_letter is_udigit to_upper ord resolve (parse_file is_letter is_udigit to_upper ord fs resolve d') f fuel b nm l = FOk b1).
  { induction fuel as [|fuel IHf]; intros b0 nm0 l E0; [discriminate|]. cbn [file_loop] in *. destruct (ch l =? eof); [exact E0|]. destruct (step is_letter is_udigit to_upper ord b0 nm0 l) as [t| | |]; try discriminate.
    destruct t as [b2 nm2 l2|name b2 nm2 l2]; [apply IHf; exact E0|]. destruct (parse_file is_letter is_udigit to_upper ord fs resolve d b2 (resolve f name) nm2) as [b3| | |] eqn:Er; try discriminate.
    rewrite (IH d' _ _ _ _ ltac:(lia) Er). apply IHf. exact E0. }
  apply HX. exact E.
Qed.

Section Again.
  Variables (is_letter is_udigit : Z -> bool) (to_upper : Z -> Z) (ord : list (str * Qc) -> list str) (resolve : str -> str -> str) (srt : list posting -> list posting)
    (f64 : Qc -> Qc) (today : Z) (set_string : str -> option Qc) (jw dist : str -> str -> Qc)
    (o1 : nat -> str -> list (str * Z) -> list (str * Z)) (o2 : nat -> nat -> list (str * str) -> list (str * str)).
  Hypothesis Hu : unicode_ok is_letter is_udigit to_upper.
  Hypothesis Hord : forall m, NoDup (akeys m) -> Permutation (ord m) (akeys m).
  Hypothesis Hs : sort_ok is_less srt.
  Hypothesis Hf64 : float64_ok f64.
  Hypothesis Hd : similarity jw dist.
  Hypothesis Ho1 : forall k x l, Permutation l (o1 k x l).
  Hypothesis Ho2 : forall k n l, Permutation l (o2 k n l).
  Notation load := (fun fs depth f => load_book is_letter is_udigit to_upper ord fs resolve srt depth f).

  Lemma appended i base fs f s depth main cs files out r fs' :
    complete s -> fs f = Some s -> load fs depth f = Ok main ->
    stands_for is_letter is_udigit to_upper ord fs resolve depth f cs ->
    run_import srt f64 is_letter today set_string jw o1 o2 i base main files = (out, r) ->
    let printed := concat (map fst out) in
    Forall (exportable_post (decs_for (bk_ccy main))) (concat printed) ->
    (forall p, In p (concat printed) -> ~ declares to_upper (decode s) (p_acct p)) ->
    (forall g, g <> f -> fs' g = fs g) -> fs' f = Some (s ++ concat (map snd out)) ->
    exists new us bound, (forall d, (bound <= d)%nat -> load fs' d f = Ok new) /\
      build_calls srt cs = Ok main /\ build_calls srt (cs ++ flat_map enter printed) = Ok new /\ Forall2 entered printed us /\
      Permutation (map amt (bk_post new)) (map amt (bk_post main) ++ map amt (concat us)) /\
      (forall p, In p (concat us) -> exists q, In q (bk_post new) /\ vis q = vis p) /\
      (forall a c, total (in_acct a c) (bk_post new) = (total (in_acct a c) (bk_post main) + total (in_acct a c) (concat printed))%Qc) /\
      (im_dedup i = true -> (forall k, In k (identities new_builder cs) -> has (snd (transactions srt main)) k) -> Forall2 same_trans printed us).
  Proof.
    intros Hc Hf Hl (b & Eb & Ecs) E printed Hex Hal Hs' Hf'.
    assert (Hmain : build_calls srt cs = Ok main) by (unfold load_book in Hl; rewrite Eb in Hl; unfold build_calls; rewrite Ecs; exact Hl).
    assert (Hreach : reachable srt main) by (eapply reach_build; exact Hmain).
    destruct (append_run is_letter is_udigit to_upper ord resolve Hu Hord fs f s depth b Hc Hf Eb) as (al & Hw & Hrun).
    destruct (out_sane srt f64 is_letter today set_string jw dist o1 o2 i base main files out r Hs Hd Ho1 Ho2 Hreach E) as [Hsane Hclean0]. fold printed in Hsane, Hclean0.
    pose proof (show_all_concat _ _ _ _ (out_text srt f64 is_letter today set_string jw dist o1 o2 i base main files out r Hs Hd Ho1 Ho2 Hreach E)) as Htext. fold printed in Htext.
    destruct (out_keys srt f64 is_letter today set_string jw dist o1 o2 i base main files out r Hs Hd Ho1 Ho2 Hreach E) as [Hkeys Hfresh]. fold printed in Hkeys, Hfresh.
    rewrite Forall_forall in Hex. assert (Hin : forall t p, In t printed -> In p t -> In p (concat printed)) by (intros t p Ht Hp; apply in_concat; exists t; auto).
    assert (Hclean : Forall clean printed).
    { rewrite Forall_forall in *. intros t Ht. destruct (Hclean0 t Ht) as [Hz Hnd]. split; [|exact Hnd]. rewrite Forall_forall in *. intros p Hp. split; [apply Hz; exact Hp|].
      destruct (Hex p (Hin t p Ht Hp)) as (Hdt & _). unfold date_ok in Hdt. lia. }
    destruct (show_all_reads f64 is_letter (bk_ccy main) Hf64 al printed) as (x & Ex & [Hsc Hreads]).
    { rewrite Forall_forall. intros t Ht. rewrite Forall_forall. intros p Hp. apply (not_renamed al (declares to_upper (decode s))).
      - intros a Ha. apply (alias_declares is_letter is_udigit). apply Hw. exact Ha.
      - apply Hal. apply (Hin t); assumption. }
    { rewrite Forall_forall. intros t Ht. split; [rewrite Forall_forall in Hsane; apply (Hsane t Ht)|]. rewrite Forall_forall. intros p Hp. apply Hex. apply (Hin t); assumption. }
    rewrite Htext in Ex. injection Ex as Ex. rewrite Ex in Hf'.
    specialize (Hreads fs' resolve f [] [] (ledger_nil fs' resolve f al)). rewrite !app_nil_r in Hreads.
    destruct (Hrun fs' x _ cs Hs' Hf' Hsc Hreads Ecs) as (ds & D & Hm & Hload). apply means_calls_unique in Hm. subst ds.
    destruct (entered_book srt cs printed main Hs Hmain Hsane Hclean) as (new & us & Enew & Hent & Hsame & Hperm & Hkeep & Htot & _).
    assert (Een : flat_map enter printed = flat_map trans_calls printed) by (apply flat_map_ext; apply enter_calls).
    exists new, us, D. split.
    { intros d Hdd. unfold load_book. rewrite (Hload d Hdd). unfold build_calls in Enew. rewrite bsteps_app, Ecs in Enew. cbn [obind] in Enew. destruct (bsteps b (flat_map trans_calls printed)); try discriminate Enew. exact Enew. }
    split; [exact Hmain|]. split; [rewrite Een; exact Enew|]. split; [exact Hent|]. split; [exact Hperm|]. split; [exact Hkeep|]. split; [exact Htot|].
    intros Hi Hid. apply Hsame. apply nodup_app; [|exact Hkeys|intros k Hk Hk'; apply (Hfresh Hi k Hk'); apply Hid; exact Hk].
    destruct (bsteps_cases cs new_builder [] [] new_builder_ok) as [(_ & b0 & E0 & (_ & _ & _ & _ & _ & Hnd) & _)|[_ E0]]; [exact Hnd|rewrite Ecs in E0; discriminate E0].
  Qed.
End Again.

(** ** C85. The ledger file [f] with text [s] loads as [main]; [cs] are the builder calls that does. The output of an import
    (all files or those before an error) is added at its end. If every posting printed can be written exactly with the
    decimals the ledger has for its currency (and the other conditions of ExportSpec), and no account printed is renamed by
    an alias in [s], then the longer file loads, as a book with the postings of [main] and those printed, each transaction
    with its notes, accounts and amounts, under its own payee or a numbered variant. With deduplication the payees are the
    ones printed, if every transaction opened in the ledger is still visible in [main] (none has only zero amounts). *)
Theorem C85_import_appended_partial is_letter is_udigit to_upper ord resolve srt f64 today set_string jw dist o1 o2 i base fs f s depth main cs files out r fs' :
  unicode_ok is_letter is_udigit to_upper -> (forall m, NoDup (akeys m) -> Permutation (ord m) (akeys m)) ->
  sort_ok is_less srt -> float64_ok f64 -> similarity jw dist ->
  (forall k x l, Permutation l (o1 k x l)) -> (forall k n l, Permutation l (o2 k n l)) ->
  complete s -> fs f = Some s -> load_book is_letter is_udigit to_upper ord fs resolve srt depth f = Ok main ->
  stands_for is_letter is_udigit to_upper ord fs resolve depth f cs ->
  run_import srt f64 is_letter today set_string jw o1 o2 i base main files = (out, r) ->
  let printed := concat (map fst out) in
  Forall (exportable_post (decs_for (bk_ccy main))) (concat printed) ->
  (forall p, In p (concat printed) -> ~ declares to_upper (decode s) (p_acct p)) ->
  (forall g, g <> f -> fs' g = fs g) -> fs' f = Some (s ++ concat (map snd out)) ->
  exists new us bound, (forall d, (bound <= d)%nat -> load_book is_letter is_udigit to_upper ord fs' resolve srt d f = Ok new) /\
    Forall2 entered printed us /\
    Permutation (map amt (bk_post new)) (map amt (bk_post main) ++ map amt (concat us)) /\
    (forall p, In p (concat us) -> exists q, In q (bk_post new) /\ vis q = vis p) /\
    (forall a c, total (in_acct a c) (bk_post new) = (total (in_acct a c) (bk_post main) + total (in_acct a c) (concat printed))%Qc) /\
    (im_dedup i = true -> (forall k, In k (identities new_builder cs) -> has (snd (transactions srt main)) k) -> Forall2 same_trans printed us).
Proof.
  intros Hu Hord Hs Hf64 Hd H1 H2 Hc Hf Hl Hst E printed Hex Hal Hs' Hf'.
  destruct (appended is_letter is_udigit to_upper ord resolve srt f64 today set_string jw dist o1 o2 Hu Hord Hs Hf64 Hd H1 H2 i base fs f s depth main cs files out r fs' Hc Hf Hl Hst E Hex Hal Hs' Hf')
    as (new & us & bound & A & _ & _ & B). exists new, us, bound. split; [exact A|exact B].
Qed.
Print Assumptions C85_import_appended_partial.

Lemma has_posts srt cs b : sort_ok is_less srt -> build_calls srt cs = Ok b -> forall k, has (snd (transactions srt b)) k <-> exists p, In p (bk_post b) /\ (p_date p, p_payee p) = k.
Proof.
  intros Hs E k. assert (Hok : book_ok b /\ canonical (bk_post b)).
  { destruct (build_calls_cases srt Hs cs) as [(_ & bk & E' & H1 & H2 & _)|[_ E']]; rewrite E in E'; [injection E' as <-; auto|discriminate E']. }
  destruct Hok as [Hok Hcan]. pose proof (compact_book_ok srt Hs b Hok) as (_ & Hc & _ & _). unfold transactions. cbn [snd].
  pose proof (compact_canonical srt Hs b (proj1 Hok)) as [Hcan' _].
  assert (HP : Permutation (map amt (bk_post (compact srt b))) (map amt (bk_post b))).
  { apply amt_perm; [apply canonical_nodup; exact Hcan'|apply canonical_nodup; exact Hcan|apply Hcan'|apply Hcan|]. intros d pay a c. apply (compact_total srt Hs). }
  split.
  - intros (t & p & Ht & Hp & Ek). assert (Hin : In (amt p) (map amt (bk_post b))) by (eapply Permutation_in; [exact HP|]; apply in_map; rewrite <- Hc; apply in_concat; exists t; auto).
    apply in_map_iff in Hin as (q & Eq & Hq). exists q. split; [exact Hq|]. unfold amt in Eq. congruence.
  - intros (p & Hp & Ek). assert (Hin : In (amt p) (map amt (bk_post (compact srt b)))) by (eapply Permutation_in; [symmetry; exact HP|]; apply in_map; exact Hp).
    apply in_map_iff in Hin as (q & Eq & Hq). rewrite <- Hc in Hq. apply in_concat in Hq as (t & Ht & Hq). exists t, q. split; [exact Ht|]. split; [exact Hq|]. unfold amt in Eq. congruence.
Qed.

(** ** C85, importing again: after that, importing the same files with deduplication prints nothing. *)
Theorem C85_import_twice_partial is_letter is_udigit to_upper ord resolve srt f64 today set_string jw dist o1 o2 o1' o2' i i2 base fs f s depth main cs files out fs' d new :
  unicode_ok is_letter is_udigit to_upper -> (forall m, NoDup (akeys m) -> Permutation (ord m) (akeys m)) ->
  sort_ok is_less srt -> float64_ok f64 -> similarity jw dist ->
  (forall k x l, Permutation l (o1 k x l)) -> (forall k n l, Permutation l (o2 k n l)) ->
  (forall k x l, Permutation l (o1' k x l)) -> (forall k n l, Permutation l (o2' k n l)) ->
  complete s -> fs f = Some s -> load_book is_letter is_udigit to_upper ord fs resolve srt depth f = Ok main ->
  stands_for is_letter is_udigit to_upper ord fs resolve depth f cs ->
  im_dedup i = true -> (forall k, In k (identities new_builder cs) -> has (snd (transactions srt main)) k) ->
  run_import srt f64 is_letter today set_string jw o1 o2 i base main files = (out, Ok tt) ->
  let printed := concat (map fst out) in
  Forall (exportable_post (decs_for (bk_ccy main))) (concat printed) ->
  (forall p, In p (concat printed) -> ~ declares to_upper (decode s) (p_acct p)) ->
  (forall g, g <> f -> fs' g = fs g) -> fs' f = Some (s ++ concat (map snd out)) ->
  load_book is_letter is_udigit to_upper ord fs' resolve srt d f = Ok new ->
  im_dedup i2 = true -> im_account i2 = im_account i -> im_counter i2 = im_counter i -> im_ccy i2 = im_ccy i ->
  run_import srt f64 is_letter today set_string jw o1' o2' i2 base new files = (map (fun _ => ([], [])) files, Ok tt).
Proof.
  intros Hu Hord Hs Hf64 Hd H1 H2 H3 H4 Hc Hf Hl Hst Hi Hid E printed Hex Hal Hs' Hf' Hnew Hi2 Ea Ec Ey.
  destruct (appended is_letter is_udigit to_upper ord resolve srt f64 today set_string jw dist o1 o2 Hu Hord Hs Hf64 Hd H1 H2 i base fs f s depth main cs files out (Ok tt) fs' Hc Hf Hl Hst E Hex Hal Hs' Hf')
    as (new' & us & bound & A & Bm & Bn & _ & Hperm & Hkeep & _ & Hsame).
  specialize (Hsame Hi Hid).
  assert (En : new = new').
  { unfold load_book in Hnew. destruct (parse_file is_letter is_udigit to_upper ord fs' resolve d new_builder f []) as [b| | |] eqn:Eb; try discriminate Hnew.
    pose proof (parse_file_mono is_letter is_udigit to_upper ord fs' resolve d (Nat.max d bound) new_builder f [] b ltac:(lia) Eb) as Eb'. specialize (A (Nat.max d bound) ltac:(lia)). unfold load_book in A. rewrite Eb' in A. congruence. }
  subst new'. assert (Hin : forall p, In p (bk_post main) \/ In p (concat us) -> exists q, In q (bk_post new) /\ (p_date q, p_payee q) = (p_date p, p_payee p)).
  { intros p Hp. assert (Hia : In (amt p) (map amt (bk_post new))) by (eapply Permutation_in; [symmetry; exact Hperm|]; rewrite <- map_app; apply in_map; apply in_app_iff; exact Hp).
    apply in_map_iff in Hia as (q & Eq & Hq). exists q. split; [exact Hq|]. unfold amt in Eq. congruence. }
  eapply (C84_import_again srt f64 is_letter today set_string jw dist o1 o2 o1' o2' i i2 base main new files out); try eassumption.
  - eapply reach_build. exact Bm.
  - eapply reach_build. exact Bn.
  - intros k Hk. apply (has_posts srt cs main Hs Bm) in Hk as (p & Hp & Ek). apply (has_posts srt _ new Hs Bn). destruct (Hin p (or_introl Hp)) as (q & Hq & Eq). exists q. split; [exact Hq|congruence].
  - intros ts text k Ho (t & p & Ht & Hp & Ek). apply (has_posts srt _ new Hs Bn).
    assert (Hpr : In t printed) by (apply in_concat; exists ts; split; [apply in_map_iff; exists (ts, text); auto|exact Ht]).
    assert (Hu' : exists u, In u us /\ same_trans t u) by (clear - Hsame Hpr; induction Hsame as [|a b l l' H _ IH]; [destruct Hpr|]; destruct Hpr as [<-|Hpr]; [exists b; split; [left; reflexivity|exact H]|destruct (IH Hpr) as (u & X & Y); exists u; split; [right; exact X|exact Y]]).
    destruct Hu' as (u & Hu1 & Hu2). unfold same_trans in Hu2. assert (Hv : In (vis p) (map vis u)) by (rewrite Hu2; apply in_map; exact Hp).
    apply in_map_iff in Hv as (p' & Ev & Hp'). destruct (Hin p') as (q & Hq & Eq); [right; apply in_concat; exists u; auto|]. exists q. split; [exact Hq|]. unfold vis in Ev. congruence.
Qed.
Print Assumptions C85_import_twice_partial.

(** ** Examples *)
Lemma declares_nothing l a : forallb (fun c => between 0 c 127 && negb (upc c =? 73)) l = true -> ~ declares upc l a.
Proof.
  intros H (pre & w & v & m & t & post & E & Ew & _). subst l. rewrite forallb_forall in H.
  assert (Hw : forall c, In c w -> 0 <= c < 128 /\ upc c <> 73) by (intros c Hc; specialize (H c ltac:(apply in_app_iff; right; apply in_app_iff; left; exact Hc)); unfold between in H; lia).
  rewrite encode_ascii in Ew.
  - assert (X : In 73 (map upc w)) by (rewrite Ew; right; right; left; reflexivity). apply in_map_iff in X as (c & Ec & Hc). destruct (Hw c Hc). congruence.
  - rewrite Forall_forall. intros x Hx. apply in_map_iff in Hx as (c & <- & Hc). destruct (Hw c Hc) as [Hr _]. unfold upc, between. destruct ((97 <=? c) && (c <=? 122)) eqn:Eb; lia.
Qed.
Definition ex85_old : str := bs "2024/01/04 Shop" ++ nl ++ bs "  Cash  -1 GBP" ++ nl ++ bs "  Food" ++ nl.
Definition ex85_cs : list bcall := [CTrans 20240104 (bs "Shop") []; CPost (bs "Cash") (bs "GBP") (qz (-1)) []; CPost (bs "Food") (bs "GBP") (qz 1) []].
Definition ex85_fs (s : str) : str -> option str := x_fs [(bs "m", s)].
Definition ex85_book (s : str) : book := match x_load [(bs "m", s)] (bs "m") with Ok b => b | _ => mkBook [] [] [] [] end.
Definition ex85_run (s : str) (files : list script) : list (list trans * str) * outcome unit :=
  run_import xsort x_f64 x_letter 20240301 x_ss x_jw (fun _ _ l => rev l) (fun _ _ l => l) (x_imp true true) (bs "GBP") (ex85_book s) files.
(** The file with the output of an import added. *)
Definition ex85_more (s : str) (files : list script) : str := s ++ concat (map snd (fst (ex85_run s files))).
Definition ex85_loads (s : str) : bool := match x_load [(bs "m", s)] (bs "m") with Ok _ => true | _ => false end.
Lemma ex85_load s : ex85_loads s = true -> load_book x_letter digit upc x_order (ex85_fs s) x_join xsort 5 (bs "m") = Ok (ex85_book s).
Proof. unfold ex85_loads, ex85_book, x_load, ex85_fs. destruct (load_book _ _ _ _ _ _ _ _ _); intros H; [reflexivity|discriminate H..]. Qed.
Lemma ex85_exportable dec ts : forallb (forallb (exportableb dec)) ts = true -> Forall (exportable_post dec) (concat ts).
Proof.
  intros H. rewrite Forall_forall. intros p Hp. apply in_concat in Hp as (t & Ht & Hp). rewrite forallb_forall in H. specialize (H t Ht). rewrite forallb_forall in H. apply exportableb_ok. exact (H p Hp).
Qed.
Example C85_nonvacuous :
  complete ex85_old /\ ex85_fs ex85_old (bs "m") = Some ex85_old /\
  load_book x_letter digit upc x_order (ex85_fs ex85_old) x_join xsort 5 (bs "m") = Ok (ex85_book ex85_old) /\
  stands_for x_letter digit upc x_order (ex85_fs ex85_old) x_join 5 (bs "m") ex85_cs /\
  (forall k, In k (identities new_builder ex85_cs) -> has (snd (transactions xsort (ex85_book ex85_old))) k) /\
  Forall (exportable_post (decs_for (bk_ccy (ex85_book ex85_old)))) (concat (concat (map fst (fst (ex85_run ex85_old x_files))))) /\
  (forall a, ~ declares upc (decode ex85_old) a) /\ snd (ex85_run ex85_old x_files) = Ok tt /\
  ex87_rows (x_load [(bs "m", ex85_more ex85_old x_files)] (bs "m")) =
    [(20240104%Z, bs "Shop", bs "Cash", -1 # 1); (20240104%Z, bs "Shop", bs "Food", 1 # 1);
     (20240201%Z, bs "Shop", bs "Cash", -5 # 1); (20240201%Z, bs "Shop", bs "Food", 5 # 1);
     (20240202%Z, bs "Cinema", bs "Cash", -9 # 1); (20240202%Z, bs "Cinema", bs "Unknown", 9 # 1)]%Q.
Proof.
  split; [split; [right; exists (removelast ex85_old); reflexivity|]|].
  { intros H. assert (X : forallb (fun c => negb (c =? 0)) ex85_old = true) by reflexivity. rewrite forallb_forall in X. specialize (X 0 H). discriminate X. }
  split; [reflexivity|]. split; [apply ex85_load; vm_compute; reflexivity|].
  split; [eexists; split; [vm_compute; reflexivity|vm_compute; reflexivity]|].
  split; [intros k H; apply has_keys; revert k H; apply keys_incl; vm_compute; reflexivity|].
  split; [apply ex85_exportable; vm_compute; reflexivity|].
  split; [intros a; apply declares_nothing; vm_compute; reflexivity|]. split; vm_compute; reflexivity.
Qed.

(** Without the conditions: amounts are printed with the decimals the ledger has for the currency (2 for a new currency).
    Amounts that need more are changed: 0.001 BTC is printed as 0.00, and importing again prints it again; 0.125, 0.125 and
    -0.25 are printed as 0.12, 0.12 and -0.25, and the ledger can no longer be loaded. And a transaction of the ledger that
    has only zero amounts is not seen by deduplication, but its identity is taken: the imported transaction is loaded as
    "Shop (2)", and importing again prints it again. *)
Definition ex85_add (q : Qc) (second : bool) : args :=
  mkArgs (bs "2024-02-01") (bs "Shop") (VFloat (Some q)) (Some (bs "BTC")) None None (if second then VFloat (Some q) else VNone) (Some (bs "BTC")) None (if second then bs "Fee" else []) None [] [].
Theorem C85_import_appended_refuted :
  let small : list script := [([ex85_add (Q2Qc (1 # 1000)) false], false)] in
  let three : list script := [([ex85_add (Q2Qc (1 # 8)) true], false)] in
  let plain : list script := [([x_add (bs "2024-02-01") (bs "Shop") (-5)], false)] in
  let zero := ex85_old ++ bs "2024/02/01 Shop" ++ nl ++ bs "  Cash  0 GBP" ++ nl ++ bs "  Food  0 GBP" ++ nl in
  (map snd (fst (ex85_run ex85_old small)) = [bs "2024/02/01 Shop" ++ nl ++ bs "  Cash  BTC 0.00" ++ nl ++ bs "  Food  BTC -0.00" ++ nl ++ nl] /\
   ex87_rows (x_load [(bs "m", ex85_more ex85_old small)] (bs "m")) = ex87_rows (x_load [(bs "m", ex85_old)] (bs "m")) /\
   map (fun o => length (fst o)) (fst (ex85_run (ex85_more ex85_old small) small)) = [1%nat]) /\
  (snd (ex85_run ex85_old three) = Ok tt /\ x_load [(bs "m", ex85_more ex85_old three)] (bs "m") = Panic) /\
  (ex87_rows (x_load [(bs "m", ex85_more zero plain)] (bs "m")) =
     [(20240104%Z, bs "Shop", bs "Cash", -1 # 1); (20240104%Z, bs "Shop", bs "Food", 1 # 1);
      (20240201%Z, bs "Shop (2)", bs "Cash", -5 # 1); (20240201%Z, bs "Shop (2)", bs "Food", 5 # 1)]%Q /\
   map snd (fst (ex85_run (ex85_more zero plain) plain)) = map snd (fst (ex85_run zero plain))).
Proof. split; [|split]; [split; [|split]|split|split]; vm_compute; reflexivity. Qed.
Print Assumptions C85_import_appended_refuted.
