(** * DataExportProps: C63 (JSON), C64 (Beancount), C76 (CSV). *)
From Verif Require Import Base Dec DateModel DateSpec DateProofs PriceModel BookModel BookSpec BookProofs BuilderProofs OpsModel OpsProofs BookProps
  LoaderModel LoaderSpec LoaderProofs ExportModel ExportSpec ExportProofs ExportProps DataExportModel DataExportSpec.

Section Bean.
  Variable title : str -> str.
  Definition titled (a : str) (p : posting) : Prop := title (p_acct p) = a.

  (** The table built from the postings: first date, last date, and the balance after the last posting. *)
  Lemma gather_spec l : StronglySorted (fun p q => p_date p <= p_date q) l ->
    NoDup (map fst (fold_left (gather1 title) l [])) /\
    forall a, match aget str_eqb a (fold_left (gather1 title) l []) with
              | None => Forall (fun p => ~ titled a p) l
              | Some i => (exists p, In p l /\ titled a p /\ p_date p = ai_first i) /\
                          (forall p, In p l -> titled a p -> ai_first i <= p_date p <= ai_last i) /\
                          exists l1 q l2, l = l1 ++ q :: l2 /\ titled a q /\ Forall (fun p => ~ titled a p) l2 /\
                            ai_last i = p_date q /\ ai_zero i = qc_is0 (p_bal q)
              end.
  Proof.
    induction l as [|x l IH] using rev_ind; intros Hs.
    { cbn [fold_left map]. split; [constructor|]. intros a. constructor. }
    assert (Hs' : StronglySorted (fun p q => p_date p <= p_date q) l /\ Forall (fun p => p_date p <= p_date x) l).
    { clear IH. induction l as [|y l IHl]; cbn [app] in Hs; [split; constructor|]. apply StronglySorted_inv in Hs as [H1 H2].
      destruct (IHl H1) as [H3 H4]. apply Forall_app in H2 as [H5 H6]. apply Forall_cons_iff in H6 as [H6 _].
      split; constructor; auto. }
    destruct Hs' as [Hs1 Hs2]. destruct (IH Hs1) as [Hn Hg]. clear IH.
    rewrite fold_left_app. cbn [fold_left]. set (m := fold_left (gather1 title) l []) in *. unfold gather1. cbv zeta.
    split; [apply (aset_NoDup _ str_eqb_eq); exact Hn|]. intros a.
    destruct (str_eqb_spec (title (p_acct x)) a) as [Ea|Na].
    - rewrite Ea, (aget_aset_eq _ str_eqb_eq). specialize (Hg a). destruct (aget str_eqb a m) as [i|].
      + destruct Hg as ((p & P1 & P2 & P3) & Hb & _). cbn [ai_first ai_last ai_zero]. split; [|split].
        * exists p. split; [apply in_app_iff; auto|]. auto.
        * intros q Hq Ht. apply in_app_iff in Hq as [Hq|[<-|[]]].
          -- pose proof (Hb q Hq Ht). rewrite Forall_forall in Hs2. specialize (Hs2 q Hq). lia.
          -- rewrite Forall_forall in Hs2. specialize (Hs2 p P1). lia.
        * exists l, x, []. split; [reflexivity|]. split; [exact Ea|]. split; [constructor|]. auto.
      + cbn [ai_first ai_last ai_zero]. split; [|split].
        * exists x. split; [apply in_app_iff; right; left; reflexivity|]. auto.
        * intros q Hq Ht. apply in_app_iff in Hq as [Hq|[<-|[]]]; [|lia]. rewrite Forall_forall in Hg. exfalso. exact (Hg q Hq Ht).
        * exists l, x, []. split; [reflexivity|]. split; [exact Ea|]. split; [constructor|]. auto.
    - rewrite (aget_aset_neq _ str_eqb_eq) by congruence. specialize (Hg a). destruct (aget str_eqb a m) as [i|].
      + destruct Hg as ((p & P1 & P2 & P3) & Hb & l1 & q & l2 & El & Q1 & Q2 & Q3 & Q4). split; [|split].
        * exists p. split; [apply in_app_iff; auto|]. auto.
        * intros r Hr Ht. apply in_app_iff in Hr as [Hr|[<-|[]]]; [apply Hb; assumption|]. contradiction.
        * exists l1, q, (l2 ++ [x]). split; [rewrite El, <- app_assoc; reflexivity|]. split; [exact Q1|]. split; [|auto].
          apply Forall_app. split; [exact Q2|]. constructor; [exact Na|constructor].
      + apply Forall_app. split; [exact Hg|]. constructor; [exact Na|constructor].
  Qed.

  Lemma open_close_spec l : NoDup (map fst l) -> Forall (fun '(_, i) => valid_date (ai_last i)) l ->
    exists ds, open_close l = Ok ds /\ opened ds = map fst l /\ closed ds = map fst (filter (fun '(_, i) => ai_zero i) l) /\
      (forall k, uses_from k ds = []) /\ Forall (fun d => match d with DOpen _ _ | DClose _ _ => True | _ => False end) ds /\
      (forall d a, In (DOpen d a) ds <-> exists i, In (a, i) l /\ d = ai_first i) /\
      (forall d a, In (DClose d a) ds -> exists i, In (a, i) l /\ ai_zero i = true /\ ai_last i < d).
  Proof.
    induction l as [|[a i] l IH]; intros Hn Hv.
    { exists []. cbn. split; [reflexivity|]. split; [reflexivity|]. split; [reflexivity|]. split; [reflexivity|]. split; [constructor|]. split.
      - intros d a. split; [contradiction|]. intros (i & [] & _).
      - intros d a []. }
    cbn [map] in Hn. apply NoDup_cons_iff in Hn as [_ Hn]. apply Forall_cons_iff in Hv as [Hv1 Hv].
    destruct (IH Hn Hv) as (ds & E & O & C & U & F & I1 & I2). clear IH. cbn [open_close].
    destruct (ai_zero i) eqn:Ez.
    - destruct (as_days_ok _ Hv1) as (n & En & Hn0). destruct (add_days_spec _ 1 n Hv1 En ltac:(lia)) as (D & ED & VD & SD).
      rewrite ED. cbn [obind]. rewrite E. cbn [obind]. eexists. split; [reflexivity|].
      assert (Hlt : ai_last i < D).
      { unfold days_since in SD. destruct (as_days D) as [k| | |] eqn:Ek; try discriminate SD. rewrite En in SD. cbn [obind] in SD. injection SD as SD.
        destruct (Z.lt_trichotomy (ai_last i) D) as [H|[H|H]]; [exact H|exfalso; subst D; rewrite En in Ek; injection Ek as <-; lia|exfalso; pose proof (as_days_lt D (ai_last i) k n VD Hv1 Ek En H); lia]. }
      cbn [app opened closed flat_map map fst filter]. rewrite Ez. cbn [map fst]. fold (opened ds) (closed ds).
      split; [rewrite O; reflexivity|]. split; [rewrite C; reflexivity|]. split; [intros k; cbn [uses_from]; apply U|].
      split; [constructor; [exact I|]; constructor; [exact I|exact F]|]. split.
      + intros d a0. cbn [In]. rewrite I1. split.
        * intros [H|[H|(i0 & H1 & H2)]]; [injection H as <- <-; exists i; auto|discriminate H|exists i0; auto].
        * intros (i0 & [H|H] & ->); [injection H as <- <-; left; reflexivity|right; right; exists i0; auto].
      + intros d a0 [H|[H|H]]; [discriminate H| |].
        * injection H as <- <-. exists i. split; [left; reflexivity|auto].
        * destruct (I2 d a0 H) as (i0 & H1 & H2 & H3). exists i0. split; [right; exact H1|auto].
    - cbn [obind]. rewrite E. cbn [obind]. eexists. split; [reflexivity|].
      cbn [app opened closed flat_map map fst filter]. rewrite Ez. fold (opened ds) (closed ds).
      split; [rewrite O; reflexivity|]. split; [rewrite C; reflexivity|]. split; [intros k; cbn [uses_from]; apply U|].
      split; [constructor; [exact I|exact F]|]. split.
      + intros d a0. cbn [In]. rewrite I1. split.
        * intros [H|(i0 & H1 & H2)]; [injection H as <- <-; exists i; auto|exists i0; auto].
        * intros (i0 & [H|H] & ->); [injection H as <- <-; left; reflexivity|right; exists i0; auto].
      + intros d a0 [H|H]; [discriminate H|]. destruct (I2 d a0 H) as (i0 & H1 & H2 & H3). exists i0. split; [right; exact H1|auto].
  Qed.

  Lemma uses_app ds : forall ds' k, exists k', uses_from k (ds ++ ds') = uses_from k ds ++ uses_from k' ds'.
  Proof.
    induction ds as [|d ds IH]; intros ds' k; [exists k; reflexivity|].
    destruct d; cbn [app uses_from]; try apply IH.
    destruct (IH ds' k) as (k' & E). exists k'. rewrite E. reflexivity.
  Qed.
  Lemma uses_quiet ds k : Forall (fun d => match d with DPost _ _ _ _ => False | _ => True end) ds -> uses_from k ds = [].
  Proof. intros H. revert k. induction H as [|d ds Hd _ IH]; intros k; [reflexivity|]. destruct d; cbn [uses_from]; try apply IH. contradiction. Qed.

  Lemma bean_trans_spec f64 upper decs ts : Forall (fun t => t <> [] /\ forall p q, In p t -> In q t -> dp p = dp q) ts ->
    exists ds, bean_trans f64 title upper decs ts = Ok ds /\
      (forall k, uses_from k ds = map (fun p => (p_date p, title (p_acct p))) (concat ts)) /\
      opened ds = [] /\ closed ds = [] /\ Forall (fun d => match d with DOpen _ _ | DClose _ _ => False | _ => True end) ds.
  Proof.
    induction ts as [|t ts IH]; intros H; [exists []; repeat split; auto|].
    apply Forall_cons_iff in H as [[Hne Hdp] H]. destruct (IH H) as (ds & E & U & O & C & F). clear IH.
    destruct t as [|p t]; [congruence|]. cbn [bean_trans]. rewrite E. cbn [obind]. eexists. split; [reflexivity|].
    assert (Hd : forall q, In q (p :: t) -> p_date q = p_date p).
    { intros q Hq. pose proof (Hdp q p Hq (or_introl eq_refl)) as H1. unfold dp in H1. congruence. }
    set (u := p :: t) in *. clearbody u. clear Hne Hdp. split; [|split; [|split]].
    - intros k. cbn [uses_from concat]. revert Hd. induction u as [|q u IHu]; intros Hd; cbn [map app uses_from].
      + cbn [uses_from]. rewrite U. reflexivity.
      + rewrite IHu; [|intros r Hr; apply Hd; right; exact Hr]. rewrite (Hd q (or_introl eq_refl)). reflexivity.
    - unfold opened in *. cbn [flat_map]. rewrite flat_map_app. cbn [flat_map]. rewrite O, app_nil_r. clear. induction u; [reflexivity|exact IHu].
    - unfold closed in *. cbn [flat_map]. rewrite flat_map_app. cbn [flat_map]. rewrite C, app_nil_r. clear. induction u; [reflexivity|exact IHu].
    - constructor; [exact I|]. apply Forall_app. split; [|constructor; [exact I|exact F]]. clear. induction u; constructor; [exact I|assumption].
  Qed.
End Bean.

Lemma bean_prices_quiet f64 upper op decs pb : Forall (fun d => match d with DPrice _ _ _ _ => True | _ => False end) (bean_prices f64 upper op decs pb).
Proof.
  unfold bean_prices. apply Forall_forall. intros d Hd. apply in_flat_map in Hd as ([u c] & _ & Hd). apply in_map_iff in Hd as (p & <- & _). exact I.
Qed.

Lemma exported_sorted srt b : sort_ok is_less srt -> reachable srt b ->
  let ts := snd (transactions srt b) in
  Forall (fun t => t <> [] /\ forall p q, In p t -> In q t -> dp p = dp q) ts /\
  StronglySorted (fun p q => p_date p <= p_date q) (concat ts) /\ running (concat ts) /\ bk_post (compact srt b) = concat ts.
Proof.
  intros Hs Hr. pose proof (reachable_ok srt Hs b Hr) as Hok. pose proof (compact_book_ok srt Hs b Hok) as (_ & Hc & (Hw & _) & _).
  unfold transactions. cbn [snd]. cbv zeta. split; [exact Hw|]. rewrite Hc.
  destruct (compact_canonical srt Hs b (proj1 Hok)) as [[Hcan _] Hrun]. split; [|split; [|reflexivity]].
  - eapply StronglySorted_impl; [|exact Hcan]. intros p q _ _ H. unfold klt, kcmp, pkey, lex in H.
    cbn [fst snd] in H. destruct (p_date p ?= p_date q) eqn:E; [apply Z.compare_eq in E; rewrite E; apply Z.le_refl|apply Z.compare_lt_iff in E; apply Z.lt_le_incl; exact E|discriminate H].
  - destruct (bk_post b) as [|x l] eqn:E; [|apply Hrun; discriminate]. rewrite compact_nil by exact E. rewrite E.
    intros l1 p l2 E0. destruct l1; discriminate E0.
Qed.

(** The whole export. *)
Lemma export_spec f64 title upper oa op srt base b : sort_ok is_less srt -> (forall l, Permutation (oa l) l) -> reachable srt b ->
  let ts := snd (transactions srt b) in
  Forall (fun p => valid_date (p_date p)) (concat ts) ->
  exists ds oc, export_beancount f64 title upper oa op srt base b = Ok ds /\
    open_close (oa (gather title ts)) = Ok oc /\
    uses ds = map (fun p => (p_date p, title (p_acct p))) (concat ts) /\
    opened ds = opened oc /\ closed ds = closed oc /\
    (forall d a, In (DOpen d a) ds <-> In (DOpen d a) oc) /\ (forall d a, In (DClose d a) ds <-> In (DClose d a) oc).
Proof.
  intros Hs Ho Hr. cbv zeta. intros Hv. destruct (exported_sorted srt b Hs Hr) as (Hw & Hsort & _ & _). cbv zeta in *.
  unfold export_beancount. set (ts := snd (transactions srt b)) in *.
  assert (Et : transactions srt b = (fst (transactions srt b), ts)) by apply surjective_pairing. rewrite Et. clearbody ts.
  destruct (gather_spec title (concat ts) Hsort) as [Hn Hg]. change (fold_left (gather1 title) (concat ts) []) with (gather title ts) in *.
  assert (Hn' : NoDup (map fst (oa (gather title ts)))).
  { eapply Permutation_NoDup; [apply Permutation_map; symmetry; apply Ho|exact Hn]. }
  assert (Hv' : Forall (fun '(_, i) => valid_date (ai_last i)) (oa (gather title ts))).
  { eapply Permutation_Forall; [symmetry; apply Ho|]. apply Forall_forall. intros [a i] Hi.
    apply (aget_Some_iff _ str_eqb_eq) in Hi; [|exact Hn]. specialize (Hg a). rewrite Hi in Hg. destruct Hg as (_ & _ & l1 & q & l2 & El & _ & _ & Eq & _).
    rewrite Eq. rewrite El in Hv. apply Forall_app in Hv as [_ Hv]. apply Forall_cons_iff in Hv. apply Hv. }
  destruct (open_close_spec title _ Hn' Hv') as (oc & Eoc & O & C & U & F & _). rewrite Eoc. cbn [obind].
  destruct (bean_trans_spec title f64 upper (bk_ccy b) ts Hw) as (tr & Etr & Utr & Otr & Ctr & Ftr). rewrite Etr. cbn [obind].
  eexists. exists oc. split; [reflexivity|]. split; [reflexivity|].
  set (base_ds := match base with [] => [] | _ => [DOption base] end).
  set (prices := bean_prices _ _ _ _ _). pose proof (bean_prices_quiet f64 upper op (bk_ccy b) (bk_prices (fst (transactions srt b)))) as Hpr. fold prices in Hpr. clearbody prices.
  assert (Hb : Forall (fun d => match d with DOption _ => True | _ => False end) base_ds) by (unfold base_ds; destruct base; repeat constructor).
  clearbody base_ds.
  assert (Ob : forall l, Forall (fun d => match d with DOpen _ _ | DClose _ _ => False | _ => True end) l -> opened l = [] /\ closed l = []).
  { induction 1 as [|d l Hd _ [I1 I2]]; [auto|]. unfold opened, closed in *. cbn [flat_map]. destruct d; try contradiction; auto. }
  assert (Hb' : Forall (fun d => match d with DOpen _ _ | DClose _ _ => False | _ => True end) base_ds) by (eapply Forall_impl; [|exact Hb]; intros []; auto).
  assert (Hpr' : Forall (fun d => match d with DOpen _ _ | DClose _ _ => False | _ => True end) prices) by (eapply Forall_impl; [|exact Hpr]; intros []; auto).
  split; [|split; [|split; [|split]]].
  - unfold uses. destruct (uses_app base_ds (oc ++ [DTitle (bs "Transactions")] ++ tr ++ [DTitle (bs "Prices")] ++ prices) 0) as (k1 & E1). rewrite E1.
    rewrite (uses_quiet base_ds) by (eapply Forall_impl; [|exact Hb]; intros []; auto). cbn [app].
    destruct (uses_app oc (DTitle (bs "Transactions") :: tr ++ [DTitle (bs "Prices")] ++ prices) k1) as (k2 & E2). etransitivity; [exact E2|]. rewrite U. cbn [app uses_from].
    destruct (uses_app tr (DTitle (bs "Prices") :: prices) k2) as (k3 & E3). etransitivity; [exact E3|]. rewrite Utr. cbn [uses_from].
    rewrite (uses_quiet prices) by (eapply Forall_impl; [|exact Hpr]; intros []; auto). apply app_nil_r.
  - unfold opened in *. rewrite !flat_map_app. cbn [flat_map app]. rewrite Otr. rewrite (proj1 (Ob _ Hb')), (proj1 (Ob _ Hpr')). cbn [app]. apply app_nil_r.
  - unfold closed in *. rewrite !flat_map_app. cbn [flat_map app]. rewrite Ctr. rewrite (proj2 (Ob _ Hb')), (proj2 (Ob _ Hpr')). cbn [app]. apply app_nil_r.
  - intros d a. rewrite !in_app_iff. cbn [In]. split; [|auto]. rewrite Forall_forall in *.
    intros [H|[H|[[H|[]]|[H|[[H|[]]|H]]]]]; try discriminate H; try exact H; exfalso; [exact (Hb' _ H)|exact (Ftr _ H)|exact (Hpr' _ H)].
  - intros d a. rewrite !in_app_iff. cbn [In]. split; [|auto]. rewrite Forall_forall in *.
    intros [H|[H|[[H|[]]|[H|[[H|[]]|H]]]]]; try discriminate H; try exact H; exfalso; [exact (Hb' _ H)|exact (Ftr _ H)|exact (Hpr' _ H)].
Qed.

(** ** C64. The postings of the file are those of the book, in order; every account that is used is opened exactly
    once, on the date of its first posting, and if it is closed all its postings are dated before the closing. *)
Theorem C64_accounts_open : forall f64 title upper oa op srt base b, sort_ok is_less srt -> (forall l, Permutation (oa l) l) -> reachable srt b ->
  let ts := snd (transactions srt b) in
  Forall (fun p => valid_date (p_date p)) (concat ts) ->
  exists ds, export_beancount f64 title upper oa op srt base b = Ok ds /\
    uses ds = map (fun p => (p_date p, title (p_acct p))) (concat ts) /\
    NoDup (opened ds) /\ NoDup (closed ds) /\ incl (closed ds) (opened ds) /\
    (forall d0 a, In (DOpen d0 a) ds -> In (d0, a) (uses ds)) /\
    (forall d a, In (d, a) (uses ds) -> exists d0, In (DOpen d0 a) ds /\ d0 <= d) /\
    (forall d a dc, In (d, a) (uses ds) -> In (DClose dc a) ds -> d < dc).
Proof.
  intros f64 title upper oa op srt base b Hs Ho Hr ts Hv. destruct (export_spec f64 title upper oa op srt base b Hs Ho Hr Hv) as (ds & oc & E & Eoc & U & O & C & I1 & I2).
  exists ds. split; [exact E|]. split; [exact U|]. clear E. pose proof (exported_sorted srt b Hs Hr) as X. cbv zeta in X. fold ts in X. destruct X as (_ & Hsort & _ & _).
  fold ts in U, Eoc.
  destruct (gather_spec title (concat ts) Hsort) as [Hn Hg]. change (fold_left (gather1 title) (concat ts) []) with (gather title ts) in *.
  assert (Hn' : NoDup (map fst (oa (gather title ts)))).
  { eapply Permutation_NoDup; [apply Permutation_map; symmetry; apply Ho|exact Hn]. }
  assert (Hin : forall a i, In (a, i) (oa (gather title ts)) <-> aget str_eqb a (gather title ts) = Some i).
  { intros a i. rewrite (aget_Some_iff _ str_eqb_eq) by exact Hn. split; apply Permutation_in; [|symmetry]; apply Ho. }
  assert (Hv' : Forall (fun '(_, i) => valid_date (ai_last i)) (oa (gather title ts))).
  { apply Forall_forall. intros [a i] Hi. apply Hin in Hi. specialize (Hg a). rewrite Hi in Hg. destruct Hg as (_ & _ & l1 & q & l2 & El & _ & _ & Eq & _).
    rewrite Eq. rewrite El in Hv. apply Forall_app in Hv as [_ Hv]. apply Forall_cons_iff in Hv. apply Hv. }
  destruct (open_close_spec title _ Hn' Hv') as (oc' & Eoc' & O' & C' & _ & _ & J1 & J2). rewrite Eoc in Eoc'. injection Eoc' as <-.
  assert (Hu : forall d a, In (d, a) (uses ds) <-> exists p, In p (concat ts) /\ p_date p = d /\ titled title a p).
  { intros d a. rewrite U, in_map_iff. split; intros (p & H1 & H2).
    - injection H1 as H1 H3. exists p. auto.
    - exists p. destruct H2 as [H2 H3]. unfold titled in H3. split; [congruence|exact H1]. }
  rewrite O, C, O', C'. split; [exact Hn'|]. split.
  { clear - Hn'. induction (oa (gather title ts)) as [|[a i] l IH]; [constructor|]. cbn [map fst] in Hn'. apply NoDup_cons_iff in Hn' as [H1 H2].
    cbn [filter]. destruct (ai_zero i); [|auto]. cbn [map fst]. constructor; [|auto]. intros H. apply H1. apply in_map_iff in H as (x & Ex & Hx).
    apply filter_In in Hx as [Hx _]. apply in_map_iff. eauto. }
  split.
  { intros a Ha. apply in_map_iff in Ha as (x & Ex & Hx). apply filter_In in Hx as [Hx _]. apply in_map_iff. eauto. }
  split; [|split].
  - intros d0 a H. apply I1, J1 in H as (i & Hi & ->). apply Hin in Hi. specialize (Hg a). rewrite Hi in Hg. destruct Hg as ((p & P1 & P2 & P3) & _).
    apply Hu. exists p. auto.
  - intros d a H. apply Hu in H as (p & P1 & <- & P3). specialize (Hg a). destruct (aget str_eqb a (gather title ts)) as [i|] eqn:Ei.
    + destruct Hg as (_ & Hb & _). exists (ai_first i). split; [|apply Hb; assumption]. apply I1, J1. exists i. split; [apply Hin; exact Ei|reflexivity].
    + exfalso. rewrite Forall_forall in Hg. exact (Hg p P1 P3).
  - intros d a dc H Hc. apply I2, J2 in Hc as (i & Hi & _ & Hlt). apply Hin in Hi. specialize (Hg a). rewrite Hi in Hg. destruct Hg as (_ & Hb & _).
    apply Hu in H as (p & P1 & <- & P3). specialize (Hb p P1 P3). lia.
Qed.
Print Assumptions C64_accounts_open.

(** An account is closed exactly when its balance is zero, if all the postings under its name are of one account and
    one currency. *)
Theorem C64_closed_iff_zero_partial : forall f64 title upper oa op srt base b ds, sort_ok is_less srt -> (forall l, Permutation (oa l) l) -> reachable srt b ->
  let ts := snd (transactions srt b) in
  Forall (fun p => valid_date (p_date p)) (concat ts) ->
  export_beancount f64 title upper oa op srt base b = Ok ds ->
  forall x c, (forall p, In p (concat ts) -> title (p_acct p) = title x -> p_acct p = x /\ p_ccy p = c) ->
    In (title x) (opened ds) -> (In (title x) (closed ds) <-> total (in_acct x c) (concat ts) = 0%Qc).
Proof.
  intros f64 title upper oa op srt base b ds Hs Ho Hr ts Hv E x c Hone Hopen. set (a := title x) in *.
  destruct (export_spec f64 title upper oa op srt base b Hs Ho Hr Hv) as (ds' & oc & E' & Eoc & _ & O & C & _ & _).
  rewrite E in E'. injection E' as <-. pose proof (exported_sorted srt b Hs Hr) as X. cbv zeta in X. fold ts in X. destruct X as (_ & Hsort & Hrun & _).
  fold ts in Eoc.
  destruct (gather_spec title (concat ts) Hsort) as [Hn Hg]. change (fold_left (gather1 title) (concat ts) []) with (gather title ts) in *.
  assert (Hn' : NoDup (map fst (oa (gather title ts)))).
  { eapply Permutation_NoDup; [apply Permutation_map; symmetry; apply Ho|exact Hn]. }
  assert (Hin : forall a i, In (a, i) (oa (gather title ts)) <-> aget str_eqb a (gather title ts) = Some i).
  { intros a0 i. rewrite (aget_Some_iff _ str_eqb_eq) by exact Hn. split; apply Permutation_in; [|symmetry]; apply Ho. }
  assert (Hv' : Forall (fun '(_, i) => valid_date (ai_last i)) (oa (gather title ts))).
  { apply Forall_forall. intros [a0 i] Hi. apply Hin in Hi. specialize (Hg a0). rewrite Hi in Hg. destruct Hg as (_ & _ & l1 & q & l2 & El & _ & _ & Eq & _).
    rewrite Eq. rewrite El in Hv. apply Forall_app in Hv as [_ Hv]. apply Forall_cons_iff in Hv. apply Hv. }
  destruct (open_close_spec title _ Hn' Hv') as (oc' & Eoc' & O' & C' & _). rewrite Eoc in Eoc'. injection Eoc' as <-.
  rewrite O, O' in Hopen. apply in_map_iff in Hopen as ([a' i] & Ea & Hi). cbn [fst] in Ea. subst a'. apply Hin in Hi.
  specialize (Hg a). rewrite Hi in Hg. destruct Hg as (_ & _ & l1 & q & l2 & El & Hq & Hno & _ & Ez).
  assert (Hbal : p_bal q = total (in_acct x c) (concat ts)).
  { destruct (Hone q) as [Ha Hc]; [rewrite El; apply in_app_iff; right; left; reflexivity|exact Hq|].
    rewrite (Hrun l1 q l2 El), Ha, Hc. rewrite El. change (q :: l2) with ([q] ++ l2). rewrite app_assoc, (total_app _ (l1 ++ [q]) l2).
    replace (total (in_acct x c) l2) with 0%Qc; [ring|]. clear - Hno. unfold total. 
    replace (filter (on (in_acct x c)) l2) with (@nil posting); [reflexivity|]. symmetry.
    induction Hno as [|p l Hp _ IH]; [reflexivity|]. cbn [filter]. unfold on at 1, in_acct at 1.
    destruct (str_eqb_spec (p_acct p) x) as [Ex|]; [|exact IH]. exfalso. apply Hp. unfold titled, a. rewrite Ex. reflexivity. }
  rewrite C, C'. rewrite <- Hbal. split.
  - intros H. apply in_map_iff in H as ([a' j] & Ea & Hj). cbn [fst] in Ea. subst a'. apply filter_In in Hj as [Hj Hz]. apply Hin in Hj.
    rewrite Hi in Hj. injection Hj as <-. rewrite Ez in Hz. apply qc_is0_eq. exact Hz.
  - intros H. apply in_map_iff. exists (a, i). split; [reflexivity|]. apply filter_In. split; [apply Hin; exact Hi|]. rewrite Ez. apply qc_is0_eq. exact H.
Qed.
Print Assumptions C64_closed_iff_zero_partial.

(** Expected: only accounts with a zero balance are closed. The balance tested is that of the currency of the last
    posting only, so an account with money left in another currency is closed. *)
Definition bean_calls : list bcall :=
  [ CTrans 20240105 (bs "Save") []; CPost (bs "assets:Bank") (bs "GBP") (qz 10) []; CPost (bs "income") (bs "GBP") (qz (-10)) [];
    CTrans 20240207 (bs "Buy") []; CPost (bs "assets:Bank") (bs "USD") (qz 5) []; CPost (bs "income") (bs "USD") (qz (-5)) [];
    CTrans 20240229 (bs "Sell") []; CPost (bs "assets:Bank") (bs "USD") (qz (-5)) []; CPost (bs "income") (bs "USD") (qz 5) [];
    CTrans 20240301 (bs "Pay") []; CPost (bs "cash") (bs "GBP") (qz 2) []; CPost (bs "debt") (bs "GBP") (qz (-2)) [] ].
(** strings.Title of these names *)
Definition x_title (s : str) : str :=
  if str_eqb s (bs "assets:Bank") then bs "Assets:Bank" else if str_eqb s (bs "income") then bs "Income"
  else if str_eqb s (bs "cash") then bs "Cash" else if str_eqb s (bs "debt") then bs "Debt" else s.
Definition bean_export := export_beancount (fun q => q) x_title (fun s => s) (fun l => l) (fun _ => []) xsort [] (built bean_calls).
Lemma dates_valid l ds : map p_date l = ds -> Forall valid_date ds -> Forall (fun p => valid_date (p_date p)) l.
Proof. intros <-. apply Forall_map. Qed.
Lemma ymd_valid y m d : valid_ymd y m d -> valid_date (ymd y m d). Proof. intros H. exists y, m, d. auto. Qed.
Lemma bean_reach : reachable xsort (built bean_calls).
Proof. apply built_reach. vm_compute. reflexivity. Qed.
Lemma bean_dates : Forall (fun p => valid_date (p_date p)) (concat (snd (transactions xsort (built bean_calls)))).
Proof.
  apply (dates_valid _ [20240105; 20240105; 20240207; 20240207; 20240229; 20240229; 20240301; 20240301]); [vm_compute; reflexivity|].
  repeat constructor;
    [apply (ymd_valid 2024 1 5)|apply (ymd_valid 2024 1 5)|apply (ymd_valid 2024 2 7)|apply (ymd_valid 2024 2 7)
    |apply (ymd_valid 2024 2 29)|apply (ymd_valid 2024 2 29)|apply (ymd_valid 2024 3 1)|apply (ymd_valid 2024 3 1)]; unfold valid_ymd; cbn; lia.
Qed.
Definition the_list (o : outcome (list directive)) : list directive := match o with Ok l => l | _ => [] end.
Lemma the_list_ok o : match o with Ok _ => true | _ => false end = true -> o = Ok (the_list o).
Proof. destruct o; try discriminate. reflexivity. Qed.
Lemma bean_head : firstn 7 (the_list bean_export) =
  [DOpen 20240105 (bs "Assets:Bank"); DClose 20240301 (bs "Assets:Bank"); DOpen 20240105 (bs "Income"); DClose 20240301 (bs "Income");
   DOpen 20240301 (bs "Cash"); DOpen 20240301 (bs "Debt"); DTitle (bs "Transactions")].
Proof. vm_compute. reflexivity. Qed.
Lemma bean_lists : (opened (the_list bean_export), closed (the_list bean_export)) =
  ([bs "Assets:Bank"; bs "Income"; bs "Cash"; bs "Debt"], [bs "Assets:Bank"; bs "Income"]).
Proof. vm_compute. reflexivity. Qed.
Lemma bean_left : qc_eqb (total (in_acct (bs "assets:Bank") (bs "GBP")) (bk_post (built bean_calls))) 0%Qc = false.
Proof. vm_compute. reflexivity. Qed.
Lemma qc_eqb_neq a b : qc_eqb a b = false -> a <> b.
Proof. intros H E. apply (proj2 (qc_eqb_eq _ _)) in E. congruence. Qed.
Lemma in_firstn {A} n (l : list A) x r : firstn n l = r -> In x r -> In x l.
Proof. intros <- H. rewrite <- (firstn_skipn n l). apply in_app_iff. left. exact H. Qed.
Lemma pair_use {A B} (a : list A) (b : list B) c d (P : list A -> list B -> Prop) : (a, b) = (c, d) -> P c d -> P a b.
Proof. intros [= -> ->]. auto. Qed.

Theorem C64_closed_with_money_refuted : exists ds, reachable xsort (built bean_calls) /\ bean_export = Ok ds /\
  Forall (fun p => valid_date (p_date p)) (concat (snd (transactions xsort (built bean_calls)))) /\
  In (DClose 20240301 (bs "Assets:Bank")) ds /\ ~ In (bs "Cash") (closed ds) /\ In (bs "Cash") (opened ds) /\
  total (in_acct (bs "assets:Bank") (bs "GBP")) (bk_post (built bean_calls)) <> 0%Qc.
Proof.
  exists (the_list bean_export). split; [exact bean_reach|]. split; [apply the_list_ok; vm_compute; reflexivity|]. split; [exact bean_dates|].
  split; [apply (in_firstn _ _ _ _ bean_head); right; left; reflexivity|].
  assert (H : ~ In (bs "Cash") (closed (the_list bean_export)) /\ In (bs "Cash") (opened (the_list bean_export))).
  { apply (pair_use _ _ _ _ (fun o c => ~ In (bs "Cash") c /\ In (bs "Cash") o) bean_lists). split.
    - intros [F|[F|[]]]; discriminate F.
    - right. right. left. reflexivity. }
  destruct H as [H1 H2]. split; [exact H1|]. split; [exact H2|]. apply qc_eqb_neq. exact bean_left.
Qed.
Print Assumptions C64_closed_with_money_refuted.
(** The hypotheses of C64 are met by this book; the text of the export: *)
Example C64_nonvacuous : concat (map directive_text (firstn 11 (the_list bean_export))) =
  bs "2024/01/05 open Assets:Bank" ++ [10] ++ bs "2024/03/01 close Assets:Bank" ++ [10] ++
  bs "2024/01/05 open Income" ++ [10] ++ bs "2024/03/01 close Income" ++ [10] ++
  bs "2024/03/01 open Cash" ++ [10] ++ bs "2024/03/01 open Debt" ++ [10] ++ [10] ++ bs "; Transactions" ++ [10] ++
  bs "2024/01/05 * ""Save""" ++ [10] ++ bs "  Assets:Bank  10 GBP" ++ [10] ++ bs "  Income  -10 GBP" ++ [10] ++ [10].
Proof. vm_compute. reflexivity. Qed.

(** ** C63 *)
Lemma text_omit k s fs : (forall v, In (k, v) fs -> False) -> text_field k (JObj (fs ++ omit k s)) = Some s.
Proof.
  intros H. unfold text_field, field. assert (E : aget str_eqb k (fs ++ omit k s) = match s with [] => None | _ => Some (JStr s) end).
  { induction fs as [|[k' v'] fs IH]; cbn [app].
    - destruct s; cbn [omit aget]; [reflexivity|]. rewrite (proj2 (str_eqb_eq k k) eq_refl). reflexivity.
    - cbn [aget]. destruct (str_eqb_spec k' k) as [->|_]; [exfalso; apply (H v'); left; reflexivity|]. apply IH. intros v Hv. apply (H v). right. exact Hv. }
  rewrite E. destruct s; reflexivity.
Qed.

Definition json_of_post (f64 : Qc -> Qc) (p : posting) (j : json) : Prop :=
  text_field (bs "account") j = Some (p_acct p) /\ text_field (bs "ccy") j = Some (p_ccy p) /\
  field (bs "amount") j = Some (JNum (f64 (p_val p))) /\ text_field (bs "note") j = Some (p_tnote p).
Lemma json_post_ok f64 p : json_of_post f64 p (json_post f64 p).
Proof.
  unfold json_of_post, json_post. split; [reflexivity|]. split; [reflexivity|]. split; [reflexivity|].
  apply text_omit. intros v [H|[H|[H|[]]]]; discriminate H.
Qed.
(** The export lists the transactions of the book and their postings in order, with date, payee, accounts, currencies
    and (float64) amounts. The note of each posting in the file is the note of the TRANSACTION. *)
Theorem C63_json_fields_partial : forall f64 srt b, sort_ok is_less srt -> reachable srt b ->
  exists js, export_json f64 srt b = Ok js /\
    Forall2 (fun t j => exists p ps jps, t = p :: ps /\
        field (bs "date") j = Some (JStr (rfc3339 (p_date p))) /\ text_field (bs "payee") j = Some (p_payee p) /\
        text_field (bs "note") j = Some (p_tnote p) /\ field (bs "posts") j = Some (JArr jps) /\
        Forall2 (json_of_post f64) t jps) (snd (transactions srt b)) js.
Proof.
  intros f64 srt b Hs Hr. destruct (exported_sorted srt b Hs Hr) as (Hw & _). cbv zeta in Hw. unfold export_json.
  induction Hw as [|t ts [Hne _] _ (js & E & F)]; [exists []; split; [reflexivity|constructor]|].
  destruct t as [|p t]; [congruence|]. cbn [json_all json_trans obind]. rewrite E. cbn [obind]. eexists. split; [reflexivity|]. constructor; [|exact F].
  exists p, t, (map (json_post f64) (p :: t)). split; [reflexivity|]. split; [reflexivity|].
  split; [destruct (p_payee p), (p_tnote p); reflexivity|]. split; [destruct (p_payee p), (p_tnote p); reflexivity|].
  split; [destruct (p_payee p), (p_tnote p); reflexivity|].
  generalize (p :: t). intros l. induction l as [|q l IH]; constructor; [apply json_post_ok|exact IH].
Qed.
Print Assumptions C63_json_fields_partial.

(** Expected: the note of an exported posting is the note of that posting. It never is unless the two notes agree. *)
Theorem C63_posting_note_refuted :
  (forall f64 p, text_field (bs "note") (json_post f64 p) = Some (p_note p) <-> p_note p = p_tnote p) /\
  exists p, In p (bk_post (built ex49)) /\ p_note p = bs "lunch" /\ text_field (bs "note") (json_post (fun q => q) p) = Some (bs "weekly; shop").
Proof.
  split.
  - intros f64 p. destruct (json_post_ok f64 p) as (_ & _ & _ & E). rewrite E. split; [congruence|intros ->; reflexivity].
  - assert (H : existsb (fun p => str_eqb (p_note p) (bs "lunch") && str_eqb (p_tnote p) (bs "weekly; shop")) (bk_post (built ex49)) = true) by (vm_compute; reflexivity).
    apply existsb_exists in H as (p & Hp & H). apply andb_true_iff in H as [H1 H2]. apply str_eqb_eq in H1, H2. exists p. split; [exact Hp|]. split; [exact H1|].
    destruct (json_post_ok (fun q => q) p) as (_ & _ & _ & E). rewrite E, H2. reflexivity.
Qed.
Print Assumptions C63_posting_note_refuted.
Example C63_nonvacuous : reachable xsort (built ex49) /\ rfc3339 20240105 = bs "2024-01-05T00:00:00Z".
Proof. split; [apply built_reach; vm_compute; reflexivity|reflexivity]. Qed.

(** ** C76 *)
(** The rows of the CSV file are the postings in order; an amount that is exact with six decimals (and has at most 15
    digits) is written exactly. *)
Definition row_of (f64 : Qc -> Qc) (p : posting) (r : list str) : Prop :=
  exists amt, r = [date_string (p_date p); p_payee p; p_tnote p; p_acct p; p_ccy p; amt; p_note p] /\
    (float64_ok f64 -> short_amount 6 (p_val p) -> amount_text amt (p_val p)).
Lemma fmt_f_exact f64 q : float64_ok f64 -> short_amount 6 q -> amount_text (fmt_f (f64 q)) q.
Proof.
  intros Hf (Hk & n & Hq & Hn). destruct (round_exact f64 6 q n Hf Hk Hq Hn) as (neg & E1 & E2 & E3). unfold fmt_f. rewrite E1, E3, E2. clear neg E1 E2 E3.
  change (10 ^ 6) with 1000000 in *.
  pose proof (Z.div_mod (Z.abs n) 1000000 ltac:(lia)) as Hdm. pose proof (Z.mod_pos_bound (Z.abs n) 1000000 ltac:(lia)) as Hmb.
  assert (Ha : 0 <= Z.abs n / 1000000) by (apply Z.div_pos; lia). set (a := Z.abs n / 1000000) in *. set (b := Z.abs n mod 1000000) in *.
  pose proof (dig_digits _ (dec_digits a Ha)) as Hda. pose proof (dec_nonempty a Ha) as Hne.
  assert (Hb : 0 <= b) by lia. pose proof (dig_digits _ (zpad_digits 6 b Hb)) as Hdb.
  assert (Hlb : length (zpad 6 (dec b)) = 6%nat) by (apply zpad_length; [lia|lia|change (10 ^ Z.of_nat 6) with 1000000; lia]).
  apply (amt_dec (n <? 0) (dec a) (zpad 6 (dec b)) (Z.abs n)).
  - eapply Forall_impl; [|exact Hda]. cbn. lia.
  - eapply Forall_impl; [|exact Hdb]. cbn. lia.
  - rewrite (no_commas_id _ Hda), (no_commas_id _ Hdb). replace (Z.abs n) with (num_of (dec a ++ zpad 6 (dec b))); [apply digits_value_ex|].
    rewrite num_digval, digval_app, Hlb, (dec_val a Ha), (zpad_val _ b Hb). change (10 ^ Z.of_nat 6) with 1000000. lia.
  - rewrite (no_commas_id _ Hda), (no_commas_id _ Hdb), app_length, Hlb.
    assert (Hla : (length (dec a) <= 10)%nat).
    { apply dec_length_le; [exact Ha|lia|]. change (10 ^ Z.of_nat 10) with 10000000000. change (10 ^ 15) with 1000000000000000 in Hn. lia. }
    lia.
  - destruct (dec a) as [|c l]; [congruence|]. apply Forall_cons_iff in Hda as [Hc _]. cbn. lia.
  - rewrite (no_commas_id _ Hdb), Hlb. change (10 ^ Z.of_nat 6) with 1000000. rewrite Hq. destruct (Z.ltb_spec n 0); [rewrite <- qz_opp|]; f_equal; lia.
Qed.
Theorem C76_csv_partial : forall f64 srt b, sort_ok is_less srt -> reachable srt b -> Forall one_note (snd (transactions srt b)) ->
  exists rows, export_csv f64 srt b = csv_header :: rows /\ Forall2 (row_of f64) (concat (snd (transactions srt b))) rows.
Proof.
  intros f64 srt b Hs Hr Ho. destruct (exported_sorted srt b Hs Hr) as (Hw & _). cbv zeta in Hw. unfold export_csv. eexists. split; [reflexivity|].
  revert Ho. generalize (snd (transactions srt b)) Hw. clear. intros ts Hw. induction Hw as [|t ts [Hne Hdp] _ IH]; intros Ho; [constructor|].
  apply Forall_cons_iff in Ho as [Ho1 Ho2]. cbn [concat csv_rows flat_map]. apply Forall2_app; [|apply IH; exact Ho2].
  destruct t as [|q t]; [congruence|].
  assert (H : forall p, In p (q :: t) -> p_date p = p_date q /\ p_payee p = p_payee q /\ p_tnote p = p_tnote q).
  { intros p Hp. pose proof (Hdp p q Hp (or_introl eq_refl)) as E. unfold dp in E. split; [congruence|]. split; [congruence|].
    apply Ho1; [exact Hp|left; reflexivity]. }
  revert H. generalize (q :: t). intros l H. induction l as [|p l IHl]; [constructor|]. cbn [map]. constructor.
  - destruct (H p (or_introl eq_refl)) as (E1 & E2 & E3). exists (fmt_f (f64 (p_val p))). rewrite E1, E2, E3. split; [reflexivity|]. intros. apply fmt_f_exact; assumption.
  - apply IHl. intros r Hr. apply H. right. exact Hr.
Qed.
Print Assumptions C76_csv_partial.

(** Expected: the amounts of the CSV file are the amounts of the book. With more than six decimals they are not: two
    postings that differ in the book are written alike, and a small amount is written as zero. *)
Definition csv_calls : list bcall :=
  [ CTrans 20240105 (bs "Buy") []; CPost (bs "Assets:Coins") (bs "BTC") (qz 1 / qz (10 ^ 8))%Qc []; CPost (bs "Equity") (bs "BTC") (- (qz 1 / qz (10 ^ 8)))%Qc [] ].
Theorem C76_csv_exact_refuted : reachable xsort (built csv_calls) /\ map (fun p => this (p_val p)) (bk_post (built csv_calls)) = [(1 # 100000000)%Q; (-1 # 100000000)%Q] /\ export_csv x_f64 xsort (built csv_calls) =
   [ csv_header;
     [bs "2024/01/05"; bs "Buy"; []; bs "Assets:Coins"; bs "BTC"; bs "0.000000"; []];
     [bs "2024/01/05"; bs "Buy"; []; bs "Equity"; bs "BTC"; bs "-0.000000"; []] ].
Proof. split; [apply built_reach; vm_compute; reflexivity|]. split; vm_compute; reflexivity. Qed.
Print Assumptions C76_csv_exact_refuted.
Example C76_nonvacuous : reachable xsort (built ex49) /\ Forall one_note (snd (transactions xsort (built ex49))) /\ nth 1 (export_csv x_f64 xsort (built ex49)) [] =
    [bs "2024/01/05"; [90; 195; 188] ++ bs "rich"; bs "weekly; shop"; bs "Assets:Cash"; bs "Fund 1"; bs "3.000000"; []].
Proof.
  split; [apply built_reach; vm_compute; reflexivity|]. split; [|vm_compute; reflexivity].
  apply (C49_one_note_when_built xsort ex49); [exact xsort_ok|apply built_eq; vm_compute; reflexivity|].
  intros d p n [H|H]; [injection H as <- _ _; discriminate|]. repeat (destruct H as [H|H]; [discriminate H|]). destruct H.
Qed.
