(** * AppendProofs: lines added to a ledger file, on the level of the builder and the book. *)
From Verif Require Import Base Utf8 Dec DateProofs2 PriceModel BookModel BookSpec BookProofs BuilderProofs OpsModel OpsProofs AccumModel LoaderModel LoaderSpec
  LoaderProofs LoaderProofs2 LoaderProofs3 LoaderProofs4 LoaderProofs5 LoaderProofs6 LoaderProofs7 ExportModel ExportSpec ExportProofs2 ExportProofs3 ImportSpec AppendSpec.
From Coq Require Import ZifyBool ZifyNat Zify.
Ltac Zify.zify_post_hook ::= idtac.

Lemma acct2_sub c : acct_rune c = false -> acct_rune2 c = false.
Proof. unfold acct_rune, acct_rune2, between. lia. Qed.
Lemma alias_declares is_letter is_udigit to_upper l a : alias_word is_letter is_udigit to_upper l a -> declares to_upper l a.
Proof.
  intros (l1 & l2 & (pre & ->) & Hid & Hac). unfold parse_identifier in Hid.
  pose proof (span_eq ws_rune l1) as E1. fold (consume_ws l1) in E1.
  pose proof (span_eq (fun c => is_udigit c || is_letter c || (c =? 95)) (consume_ws l1)) as E2.
  destruct (span _ (consume_ws l1)) as [w l3]. cbn [fst snd] in E2. injection Hid as Hw Hl2.
  pose proof (span_eq ws_rune l3) as E3. fold (consume_ws l3) in E3.
  unfold parse_account in Hac. rewrite <- Hl2, consume_ws_idem in Hac.
  set (l4 := consume_ws l3) in *. set (l5 := if (ch l4 =? 33) || (ch l4 =? 91) then next l4 else l4) in *.
  assert (E4 : exists m, l4 = m ++ l5 /\ (m = [] \/ m = [33] \/ m = [91])).
  { unfold l5. destruct l4 as [|c l4]; [exists []; split; [reflexivity|auto]|]. cbn [ch]. destruct (Z.eqb_spec c 33) as [->|]; [exists [33]; split; [reflexivity|auto]|].
    destruct (Z.eqb_spec c 91) as [->|]; [exists [91]; split; [reflexivity|auto]|]. exists []. split; [reflexivity|auto]. }
  destruct E4 as (m & E4 & Hm). clearbody l5.
  pose proof (span_eq acct_rune l5) as E5. pose proof (span_all acct_rune l5) as H5. pose proof (span_stop acct_rune l5 eq_refl) as S5.
  destruct (span acct_rune l5) as [s post]. cbn [fst snd] in *. rewrite (span_nil acct_rune2 post) in Hac by (apply acct2_sub; exact S5). cbn [fst] in Hac. rewrite app_nil_r in Hac.
  exists (pre ++ fst (span ws_rune l1)), w, (fst (span ws_rune l3)), m, s, post. split; [|repeat split; auto; apply span_all].
  rewrite <- E5, <- E4, <- E3, <- E2, <- app_assoc, <- E1. reflexivity.
Qed.
Lemma not_renamed al (P : str -> Prop) a : (forall x, In x (map fst al) -> P x) -> ~ P a -> rename al a = a.
Proof.
  intros H Ha. unfold rename. destruct (aget str_eqb a al) as [n|] eqn:E; [|reflexivity]. exfalso. apply Ha, H.
  apply (aget_In _ str_eqb_eq) in E. apply in_map_iff. exists (a, n). auto.
Qed.

(** ** The builder *)
Definition line_of (p : posting) := (p_date p, p_tnote p, p_acct p, p_ccy p, p_val p, p_note p).
Lemma enter_calls t : enter t = trans_calls t. Proof. destruct t; reflexivity. Qed.
Lemma enter_run ts : forall b used seg, state_ok b used seg -> (forall c, seg_sum c seg = 0%Qc) ->
  Forall (fun t : trans => t <> [] /\ (forall p q, In p t -> In q t -> dp p = dp q) /\ balanced t) ts ->
  exists b' used' seg' ps, bsteps b (flat_map trans_calls ts) = Ok b' /\ state_ok b' used' seg' /\ (forall c, seg_sum c seg' = 0%Qc) /\
    bu_post b' = bu_post b ++ ps /\ forall a c, total (in_acct a c) ps = total (in_acct a c) (concat ts).
Proof.
  induction ts as [|t ts IH]; intros b used seg Hok Hz Hts.
  - exists b, used, seg, []. cbn. rewrite app_nil_r. repeat split; auto; apply Hok.
  - inversion Hts as [|? ? (Hne & Hdp & Hbal) Hts']; subst. destruct t as [|p t]; [congruence|]. cbn [flat_map trans_calls].
    destruct (new_transaction_cases b used seg (p_date p) (p_payee p) (p_tnote p) Hok) as [(_ & b1 & E1 & Hd & Hn & Hp & Hpr & Hfi & _ & Hok1)|[Hno _]]; [|contradiction].
    destruct (posts_run (p :: t) b1 _ _ Hok1) as (b2 & E2 & Hok2 & Hp2 & Hpr2). cbn [app] in Hok2.
    assert (Hz2 : forall c, seg_sum c (map (fun p => (p_ccy p, p_val p)) (p :: t)) = 0%Qc).
    { intros c. rewrite (seg_of_trans c (p_date p) (p_payee p)); [apply Hbal|]. rewrite Forall_forall. intros q Hq. apply (Hdp q p Hq). left. reflexivity. }
    destruct (IH b2 _ _ Hok2 Hz2 Hts') as (b3 & used3 & seg3 & ps & E3 & Hok3 & Hz3 & Hp3 & Ht3).
    eexists b3, used3, seg3, (_ ++ ps). split; [|split; [exact Hok3|split; [exact Hz3|split]]].
    + rewrite <- app_comm_cons. cbn [bsteps bstep]. rewrite E1. cbn [obind]. rewrite bsteps_app, E2. exact E3.
    + rewrite Hp3, Hp2, Hp, <- app_assoc. reflexivity.
    + intros a c. rewrite total_app. cbn [concat]. rewrite total_app, Ht3. f_equal.
      generalize (p :: t). intros l. induction l as [|q l IHl]; [reflexivity|]. cbn [map]. rewrite !total_cons, IHl. reflexivity.
Qed.

(** Building after more calls. *)
Lemma build_state srt b used seg : sort_ok is_less srt -> state_ok b used seg -> (forall c, seg_sum c seg = 0%Qc) ->
  exists bk, build srt b = Ok bk /\ bk_post bk = cposts srt (bu_post b) /\ book_ok bk /\ canonical (bk_post bk) /\ (forall g, total g (bk_post bk) = total g (bu_post b)).
Proof.
  intros Hs (H1 & H2 & H3 & H4 & _) Hz. unfold build.
  destruct (check_cases b H1) as [(Hc & b' & Ec & (S1 & _) & _)|[Hc _]]; [|exfalso; apply Hc; intros c; rewrite H2; apply Hz].
  rewrite Ec. cbn [obind]. eexists. split; [reflexivity|]. rewrite S1. set (bk := mkBook _ _ _ _).
  assert (Hbal : balanced (bk_post bk)). { intros d pay c. cbn [bk bk_post]. rewrite H3, Hc. destruct (_ && _); reflexivity. }
  assert (Hok : book_ok (compact srt bk)). { apply (compact_ok srt Hs); [exact H4|exact Hbal|]. cbn [bk bk_post bk_trans]. intros ->. reflexivity. }
  split; [|split; [exact Hok|split; [apply (compact_canonical srt Hs bk); exact H4|intros g; apply (compact_total srt Hs)]]].
  destruct (bu_post b) as [|x l] eqn:E.
  - rewrite compact_nil by reflexivity. cbn [bk bk_post]. unfold cposts. destruct (Hs []) as [Hp _]. apply Permutation_nil in Hp. rewrite Hp. reflexivity.
  - rewrite compact_eq by discriminate. reflexivity.
Qed.

(** A list of postings with distinct keys and no zero is known by its totals. *)
Lemma total_key l : NoDup (map pkey l) -> forall p, In p l -> total (at_key (p_date p) (p_payee p) (p_acct p) (p_ccy p)) l = p_val p.
Proof.
  induction l as [|x l IH]; intros Hn p Hp; [destruct Hp|]. cbn [map] in Hn. apply NoDup_cons_iff in Hn as [H1 H2]. rewrite total_cons. destruct Hp as [->|Hp].
  - rewrite (proj2 (at_key_on p p) eq_refl). rewrite total_none; [ring|]. intros q Hq. apply not_true_iff_false. rewrite at_key_on. intros E. apply H1. rewrite <- E. apply in_map. exact Hq.
  - destruct (on _ x) eqn:E; [apply at_key_on in E; exfalso; apply H1; rewrite E; apply in_map; exact Hp|]. rewrite IH by assumption. ring.
Qed.
Lemma amt_iff l : NoDup (map pkey l) -> Forall (fun p => p_val p <> 0%Qc) l ->
  forall d pay a c v, In (d, pay, a, c, v) (map amt l) <-> v <> 0%Qc /\ v = total (at_key d pay a c) l.
Proof.
  intros Hn Hz d pay a c v. rewrite Forall_forall in Hz. split.
  - intros H. apply in_map_iff in H as (p & E & Hp). unfold amt in E. injection E as <- <- <- <- <-. split; [apply Hz; exact Hp|]. symmetry. apply total_key; assumption.
  - intros [Hv E]. destruct (existsb (on (at_key d pay a c)) l) eqn:Ex.
    + apply existsb_exists in Ex as (p & Hp & Ho). assert (Hk : (p_date p, p_payee p, p_acct p, p_ccy p) = (d, pay, a, c)).
      { unfold on, at_key in Ho. rewrite !andb_true_iff, Z.eqb_eq, !str_eqb_eq in Ho. destruct Ho as [[[-> ->] ->] ->]. reflexivity. }
      injection Hk as <- <- <- <-. rewrite total_key in E by assumption. subst v. apply in_map_iff. exists p. auto.
    + exfalso. apply Hv. rewrite E. apply total_none. intros q Hq. apply not_true_iff_false. intros Ho. assert (X : existsb (on (at_key d pay a c)) l = true) by (apply existsb_exists; eauto). congruence.
Qed.
Lemma amt_nodup l : NoDup (map pkey l) -> NoDup (map amt l).
Proof.
  intros H. apply (NoDup_map_inv (fun x => match x with (d, pay, a, c, v) => (d, (pay, (a, c))) end)). rewrite map_map. exact H.
Qed.
Lemma amt_perm l l' : NoDup (map pkey l) -> NoDup (map pkey l') -> Forall (fun p => p_val p <> 0%Qc) l -> Forall (fun p => p_val p <> 0%Qc) l' ->
  (forall d pay a c, total (at_key d pay a c) l = total (at_key d pay a c) l') -> Permutation (map amt l) (map amt l').
Proof.
  intros N1 N2 Z1 Z2 H. apply NoDup_Permutation; [apply amt_nodup; exact N1|apply amt_nodup; exact N2|].
  intros [[[[d pay] a] c] v]. rewrite (amt_iff l N1 Z1), (amt_iff l' N2 Z2), H. reflexivity.
Qed.
(** A posting whose key occurs once is kept as it is. *)
Lemma cposts_keeps srt l1 l2 p : sort_ok is_less srt -> Forall plain (l1 ++ p :: l2) -> p_val p <> 0%Qc -> (forall q, In q (l1 ++ l2) -> pkey q <> pkey p) ->
  exists q, In q (cposts srt (l1 ++ p :: l2)) /\ vis q = vis p.
Proof.
  intros Hs Hp Hv Hk. pose proof (cposts_canonical srt Hs _ Hp) as Hc. set (l := l1 ++ p :: l2) in *.
  assert (Hnd : NoDup (map pkey (cposts srt l))).
  { destruct Hc as [Hc _]. clear - Hc. induction Hc as [|x m _ IH Hx]; [constructor|]. cbn [map]. constructor; [|exact IH]. intros Hin. apply in_map_iff in Hin as (y & E & Hy).
    rewrite Forall_forall in Hx. specialize (Hx y Hy). unfold klt in Hx. rewrite E, (lc_refl _ kcmp_lin) in Hx. discriminate. }
  assert (Ht : total (at_key (p_date p) (p_payee p) (p_acct p) (p_ccy p)) (cposts srt l) = p_val p).
  { rewrite (cposts_total srt Hs). unfold l. rewrite total_app, total_cons, (proj2 (at_key_on p p) eq_refl).
    assert (Hno : forall m, (forall q, In q m -> In q (l1 ++ l2)) -> total (at_key (p_date p) (p_payee p) (p_acct p) (p_ccy p)) m = 0%Qc).
    { intros m Hm. apply total_none. intros q Hq. apply not_true_iff_false. rewrite at_key_on. apply Hk, Hm, Hq. }
    rewrite !Hno; [ring|..]; intros q Hq; apply in_app_iff; auto. }
  assert (Hin : In (amt p) (map amt (cposts srt l))). { apply amt_iff; [exact Hnd|apply Hc|]. split; [exact Hv|symmetry; exact Ht]. }
  apply in_map_iff in Hin as (q & E & Hq). exists q. split; [exact Hq|].
  destruct (cposts_origin srt Hs l q Hq) as (r & Hr & Kr & Mr). unfold amt in E. injection E as E1 E2 E3 E4 E5.
  assert (Er : r = p).
  { assert (Ek : pkey r = pkey p) by (rewrite Kr; unfold pkey; congruence). unfold l in Hr. apply in_app_iff in Hr as [Hr|[Hr|Hr]]; [exfalso; apply (Hk r); [apply in_app_iff; auto|exact Ek]|auto|exfalso; apply (Hk r); [apply in_app_iff; auto|exact Ek]]. }
  subst r. unfold meta in Mr. injection Mr as M1 M2 M3 M4 M5. unfold vis. congruence.
Qed.

(** ** More calls after a history *)
Lemma posted_dp cs : forall cur note ids p, In p (posted cur note ids cs) -> In (dp p) (cur :: ids).
Proof.
  induction cs as [|[d pay n|a c v n|d u c v] cs IH]; intros cur note ids p Hp; cbn [posted] in Hp; [destruct Hp|..].
  - destruct ids as [|i ids]; [destruct Hp|]. right. exact (IH _ _ _ _ Hp).
  - destruct Hp as [<-|Hp]; [left; destruct cur; reflexivity|exact (IH _ _ _ _ Hp)].
  - exact (IH _ _ _ _ Hp).
Qed.
Lemma posted_totals a c cs : forall b b' cur note, bsteps b cs = Ok b' -> total (in_acct a c) (posted cur note (identities b cs) cs) = posts_to a c cs.
Proof.
  induction cs as [|x cs IH]; intros b b' cur note E; [reflexivity|]. cbn [bsteps] in E. apply obind_Ok in E as (b1 & E1 & E). cbn [identities]. rewrite E1.
  unfold posts_to. cbn [map]. rewrite qsum_cons. change (qsum (map _ cs)) with (posts_to a c cs).
  destruct x as [d pay n|a' c' v n|d u c' v]; cbn [posted app].
  - rewrite (IH b1 b' _ _ E). ring.
  - rewrite total_cons, (IH b1 b' _ _ E). unfold on, in_acct. cbn [p_acct p_ccy p_date p_payee p_val]. destruct (str_eqb a' a && str_eqb c' c); ring.
  - rewrite (IH b1 b' _ _ E). ring.
Qed.
Lemma identity_dates cs : forall b d p, In (d, p) (identities b cs) -> exists p' n, In (CTrans d p' n) cs.
Proof.
  induction cs as [|c cs IH]; intros b d p H; cbn [identities] in H; [contradiction|]. destruct (bstep b c) as [b'| | |] eqn:E; try contradiction.
  apply in_app_or in H as [H|H]; [|destruct (IH _ _ _ H) as (p' & n & Hin); exists p', n; right; exact Hin].
  destruct c as [d0 p0 n0| |]; try contradiction. destruct H as [H|[]]. injection H as Hd _. exists p0, n0. left. f_equal. rewrite <- Hd.
  cbn [bstep] in E. unfold new_transaction in E. destruct (check_and_clear b); try discriminate. cbn [obind] in E. destruct (rename_loop _ _ _ _ _ _); try discriminate. cbn [obind] in E.
  injection E as <-. reflexivity.
Qed.
Lemma canonical_nodup l : canonical l -> NoDup (map pkey l).
Proof.
  intros [H _]. induction H as [|x m _ IH Hx]; [constructor|]. cbn [map]. constructor; [|exact IH]. intros Hin. apply in_map_iff in Hin as (y & E & Hy).
  rewrite Forall_forall in Hx. specialize (Hx y Hy). unfold klt in Hx. rewrite E, (lc_refl _ kcmp_lin) in Hx. discriminate.
Qed.
Lemma build_ok_state srt b used seg bk : sort_ok is_less srt -> state_ok b used seg -> build srt b = Ok bk ->
  bk_post bk = cposts srt (bu_post b) /\ canonical (bk_post bk) /\ (forall g, total g (bk_post bk) = total g (bu_post b)) /\ (forall c, seg_sum c seg = 0%Qc).
Proof.
  intros Hs Hok E. assert (Hz : forall c, seg_sum c seg = 0%Qc).
  { destruct Hok as (H1 & H2 & _). destruct (check_cases b H1) as [(Hc & _)|[_ Ec]]; [intros c; rewrite <- H2; apply Hc|]. unfold build in E. rewrite Ec in E. discriminate E. }
  destruct (build_state srt b used seg Hs Hok Hz) as (bk' & E' & H1 & _ & H2 & H3). rewrite E in E'. injection E' as <-. auto.
Qed.
Lemma grown_calls srt cs ds main new : sort_ok is_less srt -> build_calls srt cs = Ok main -> build_calls srt (cs ++ ds) = Ok new ->
  (forall a c, total (in_acct a c) (bk_post new) = (total (in_acct a c) (bk_post main) + posts_to a c ds)%Qc) /\
  (forall d pay n ds', ds = CTrans d pay n :: ds' -> (forall d p n, In (CTrans d p n) ds -> d <> -1) -> grown (bk_post main) (bk_post new)).
Proof.
  intros Hs E1 E2. unfold build_calls in E1, E2. apply obind_Ok in E1 as (b & Eb & E1).
  destruct (bsteps_cases cs new_builder [] [] new_builder_ok) as [(_ & b0 & E0 & Hok & Hp)|[_ E0]]; rewrite Eb in E0; [injection E0 as <-|discriminate E0]. cbn [app bu_post new_builder] in Hp, Hok.
  rewrite bsteps_app, Eb in E2. cbn [obind] in E2. apply obind_Ok in E2 as (b' & Eb' & E2).
  destruct (bsteps_cases ds b _ _ Hok) as [(_ & b0 & E0 & Hok' & Hp')|[_ E0]]; rewrite Eb' in E0; [injection E0 as <-|discriminate E0].
  destruct (build_ok_state srt b _ _ main Hs Hok E1) as (_ & C1 & T1 & _). destruct (build_ok_state srt b' _ _ new Hs Hok' E2) as (_ & C2 & T2 & _).
  split.
  - intros a c. rewrite T2, T1, Hp', total_app, (posted_totals a c ds b b') by exact Eb'. reflexivity.
  - intros d pay n ds' Eds Hd.
    assert (Hdis : forall p q, In p (bu_post b) -> In q (posted (bu_date b, bu_payee b) (bu_note b) (identities b ds) ds) -> dp p <> dp q).
    { intros p q Hpi Hq E. assert (Hqi : In (dp q) (identities b ds)).
      { rewrite Eds in *. destruct (identities b (CTrans d pay n :: ds')) as [|i ids] eqn:Ei; cbn [posted] in Hq; [destruct Hq|]. exact (posted_dp _ _ _ _ _ Hq). }
      rewrite Hp in Hpi. apply posted_dp in Hpi as [Hpi|Hpi].
      - rewrite <- E, <- Hpi in Hqi. apply identity_dates in Hqi as (p' & n' & Hi). exact (Hd _ _ _ Hi eq_refl).
      - destruct Hok' as (_ & _ & _ & _ & _ & Hnd). rewrite E in Hpi. revert Hnd Hpi Hqi. clear. generalize (identities new_builder cs) (identities b ds) (dp q). intros l1 l2 k. induction l1 as [|x l1 IH]; intros Hnd H1 H2; [destruct H1|].
        cbn [app] in Hnd. apply NoDup_cons_iff in Hnd as [Hn Hnd]. destruct H1 as [->|H1]; [apply Hn; apply in_app_iff; auto|exact (IH Hnd H1 H2)]. }
    assert (N1 := canonical_nodup _ C1). assert (N2 := canonical_nodup _ C2).
    assert (Hsame : forall q, (exists p, In p (bu_post b) /\ dp p = dp q) -> total (at_key (p_date q) (p_payee q) (p_acct q) (p_ccy q)) (bk_post new) = total (at_key (p_date q) (p_payee q) (p_acct q) (p_ccy q)) (bk_post main)).
    { intros q (p & Hpi & Epq). rewrite T2, T1, Hp', total_app. rewrite (total_none _ (posted _ _ _ _)); [ring|].
      intros r Hr. apply not_true_iff_false. rewrite at_key_on. intros Ek. apply (Hdis p r Hpi Hr). rewrite Epq. apply pkey_eq in Ek as (k1 & k2 & _). unfold dp. congruence. }
    assert (Horig : forall p, In p (bk_post main) -> exists r, In r (bu_post b) /\ dp r = dp p).
    { intros p Hpi. destruct (build_ok_state srt b _ _ main Hs Hok E1) as (Em & _). rewrite Em in Hpi. destruct (cposts_origin srt Hs _ p Hpi) as (r & Hr & Kr & _). exists r. split; [exact Hr|].
      apply pkey_eq in Kr as (k1 & k2 & _). unfold dp. congruence. }
    split.
    + intros p Hpi. apply (amt_iff _ N2 (proj2 C2)). assert (Hin : In (amt p) (map amt (bk_post main))) by (apply in_map; exact Hpi). apply (amt_iff _ N1 (proj2 C1)) in Hin as [Hv Hin].
      split; [exact Hv|]. rewrite Hsame by (apply Horig; exact Hpi). exact Hin.
    + intros q Hq. destruct (existsb (fun p => (p_date p =? p_date q) && str_eqb (p_payee p) (p_payee q)) (bk_post main)) eqn:Ex.
      * left. apply existsb_exists in Ex as (p & Hpi & Epq). apply andb_true_iff in Epq as [Ed Ep]. apply Z.eqb_eq in Ed. apply str_eqb_eq in Ep. destruct (Horig p Hpi) as (r & Hr & Er).
        assert (Hin : In (amt q) (map amt (bk_post new))) by (apply in_map; exact Hq). apply (amt_iff _ N2 (proj2 C2)) in Hin as [Hv Hin]. apply (amt_iff _ N1 (proj2 C1)). split; [exact Hv|].
        rewrite <- Hsame; [exact Hin|]. exists r. split; [exact Hr|]. rewrite Er. unfold dp. congruence.
      * right. intros p Hpi E. injection E as Ed Ep. assert (X : existsb (fun p => (p_date p =? p_date q) && str_eqb (p_payee p) (p_payee q)) (bk_post main) = true).
        { apply existsb_exists. exists p. split; [exact Hpi|]. rewrite Ed, Ep, Z.eqb_refl, (proj2 (str_eqb_eq _ _) eq_refl). reflexivity. }
        congruence.
Qed.
(** Dates in a ledger text are not negative. *)
Lemma digits_value_nonneg s v : digits s -> digits_value s v -> 0 <= v.
Proof.
  intros Hs H. induction H as [|s v c H IH]; [lia|]. apply Forall_app in Hs as [H1 H2]. apply Forall_inv in H2. cbn beta in H2. specialize (IH H1). lia.
Qed.
Lemma date_text_nonneg t d : date_text t d -> 0 <= d.
Proof.
  intros H. destruct H as [y m d vy vm vd Hy Hm Hd _ _ _ Vy Vm Vd].
  apply digits_value_nonneg in Vy; [|exact Hy]. apply digits_value_nonneg in Vm; [|exact Hm]. apply digits_value_nonneg in Vd; [|exact Hd]. lia.
Qed.
Lemma ledger_dates fs resolve f al t es : ledger_text fs resolve f al t es -> forall d p n, In (Call (CTrans d p n)) es -> 0 <= d.
Proof.
  induction 1 as [|f al t es l ds Hl _ IH|f al w w1 a w2 w3 b w4 s l es _ _ _ _ _ _ _ _ _ _ _ _ _ IH|f al w w1 n name t l es ds _ _ _ _ _ _ _ IH1 _ IH2]; intros d p nn Hin.
  - destruct Hin.
  - apply in_app_iff in Hin as [Hin|Hin]; [|exact (IH _ _ _ Hin)]. destruct Hl; cbn [In] in Hin; try contradiction; destruct Hin as [Hin|[]]; try discriminate Hin. injection Hin as <- _ _. eapply date_text_nonneg; eassumption.
  - exact (IH _ _ _ Hin).
  - apply in_app_iff in Hin as [Hin|Hin]; [exact (IH1 _ _ _ Hin)|exact (IH2 _ _ _ Hin)].
Qed.
Lemma means_dates before es cs : means before es cs -> forall d p n, In (CTrans d p n) cs -> In (Call (CTrans d p n)) es.
Proof.
  induction 1 as [|before c es cs _ IH|before a n es ps cs Hb _ IH]; intros d p nn Hin; [destruct Hin| |].
  - destruct Hin as [->|Hin]; [left; reflexivity|right; exact (IH _ _ _ Hin)].
  - apply in_app_iff in Hin as [Hin|Hin]; [|right; exact (IH _ _ _ Hin)]. destruct Hb as (cvs & -> & _). apply in_map_iff in Hin as ([c v] & E & _). discriminate E.
Qed.
