(** * HeapProofs4: operations and builder calls, one object. *)
From Verif Require Import Base Dec DateModel PriceModel BookModel BookSpec BookProofs OpsModel OpsProofs AccumModel HeapModel HeapSpec HeapProofs HeapProofs2 HeapProofs3.
Local Open Scope nat_scope.

Section Ops.
  Variable ord : list posting -> list nat.
  Variable grow : nat -> nat.
  Hypothesis Hord : order_ok ord.
  Notation srt := (srt_of ord).

  Lemma RB_empty m hb vb : RB m hb vb -> bk_post vb = [] -> hb_trans hb = [] /\ bk_trans vb = [].
  Proof.
    intros (_ & _ & Ht & Hc & Hn & _) E. assert (Et : bk_trans vb = []) by (destruct (bk_trans vb) as [|t ts]; [reflexivity|]; rewrite E in Hc; cbn in Hc; destruct t; [apply Forall_inv in Hn; congruence|discriminate]).
    rewrite Ht, Et. auto.
  Qed.
  Lemma compact_RB m hb vb : RB m hb vb -> exists m' hb', hcompact ord m hb = (m', hb') /\ RB m' hb' (compact srt vb) /\ mv m (hb_post hb) m' (hb_post hb').
  Proof.
    intros H. pose proof (RB_empty _ _ _ H) as He. destruct H as (Ho & Hl & _ & _ & _ & Hp & Hy). apply hcompact_spec; assumption.
  Qed.
  (** Rewrite the postings in place, then compact. *)
  Lemma put_compact m hb vb c : RB m hb vb -> length c = s_len (hb_post hb) -> ptrs c = ptrs (cells m (hb_post hb)) ->
    exists m' hb', hcompact ord (put_post m hb c) hb = (m', hb') /\ RB m' hb' (compact srt (with_post vb (map (look (m_rats m)) c))) /\ mv m (hb_post hb) m' (hb_post hb').
  Proof.
    intros H Hlen Hp. pose proof (RB_empty _ _ _ H) as He. destruct H as (Ho & Hl & _ & _ & _ & Hpr & Hy).
    destruct (put_own m (hb_post hb) c Ho Hlen Hp) as (Ho1 & Hc1 & Hmv). fold (put_post m hb c) in Ho1, Hc1, Hmv.
    destruct (hcompact_spec ord Hord (put_post m hb c) hb (with_post vb (map (look (m_rats m)) c)) Ho1) as (m' & hb' & E & HR & Hm); [unfold look_slice; rewrite Hc1; reflexivity| |exact Hpr|exact Hy|].
    - cbn. intros E. apply He. rewrite <- Hl. unfold look_slice. apply map_eq_nil in E. subst c. apply length_zero_iff_nil. rewrite map_length, (own_loc_len _ _ Ho). symmetry. exact Hlen.
    - exists m', hb'. split; [exact E|]. split; [exact HR|]. exact (mv_trans _ _ _ _ _ _ Hmv Hm).
  Qed.

  Lemma hmap_acct_spec rs f : forall c amap, map (look rs) (hmap_acct f amap c) = map_acct_loop f amap (map (look rs) c) /\ ptrs (hmap_acct f amap c) = ptrs c /\ length (hmap_acct f amap c) = length c.
  Proof.
    induction c as [|p c IH]; intros amap; [cbn; auto|]. cbn [hmap_acct map map_acct_loop]. change (p_acct (look rs p)) with (h_acct p).
    destruct (match aget str_eqb (h_acct p) amap with Some n => (n, amap) | None => let n := f (h_acct p) in (n, aset str_eqb (h_acct p) n amap) end) as [n amap'].
    destruct (IH amap') as (H1 & H2 & H3). cbn [map length]. rewrite H1, H3, !ptrs_cons, H2. cbn. auto.
  Qed.
  Lemma map_trans_const f : forall l i, map_trans_loop (fun _ => f) i l = map (fun p => let '(d, pay) := f (p_date p) (p_payee p) in set_date p d pay) l.
  Proof. induction l as [|p l IH]; intros i; [reflexivity|]. cbn. destruct (f (p_date p) (p_payee p)). rewrite IH. reflexivity. Qed.

  Lemma hmap_amt_spec f : forall c rs, NoDup (ptrs c) -> below (length rs) (ptrs c) ->
    exists c' rs', hmap_amt f c rs = (c', rs') /\ ptrs c' = ptrs c /\ length c' = length c /\ length rs' = length rs /\
      map (look rs') c' = map (amount_of f) (map (look rs) c) /\ (forall x, ~ In x (ptrs c) -> rat rs' x = rat rs x).
  Proof.
    induction c as [|p c IH]; intros rs Hn Hb; [cbn; do 2 eexists; repeat split|].
    cbn [hmap_amt]. destruct (f (h_date p) (h_ccy p)) as [v y] eqn:Ef. rewrite ptrs_cons in Hn. inversion Hn as [|? ? H1 Hn1]; subst. inversion Hn1 as [|? ? H2 Hn2]; subst.
    set (rs1 := upd (h_val p) (rat rs (h_val p) * v)%Qc rs).
    assert (Hb1 : below (length rs1) (ptrs c)) by (unfold rs1; rewrite upd_length; intros x Hx; apply Hb; right; right; exact Hx).
    destruct (IH rs1 Hn2 Hb1) as (c' & rs' & E & P & L & R & V & F). rewrite E. do 2 eexists. split; [reflexivity|]. rewrite !ptrs_cons, P. split; [reflexivity|]. cbn [length map]. rewrite L.
    split; [reflexivity|]. split; [rewrite R; apply upd_length|].
    assert (Hvb : h_bal p <> h_val p) by (intros Eq; apply H1; left; exact Eq).
    assert (Hpv : h_val p < length rs) by (apply Hb; left; reflexivity).
    split.
    - f_equal.
      + unfold amount_of. cbn [look p_date p_ccy]. rewrite Ef. unfold look, set_ccyval, hset_ccy. cbn. rewrite !F by (try exact H2; intros Hi; apply H1; right; exact Hi).
        unfold rs1. rewrite rat_upd_eq by exact Hpv. rewrite rat_upd_neq by exact Hvb. reflexivity.
      + rewrite V. f_equal. apply map_look_ext. intros x Hx. unfold rs1. apply rat_upd_neq. intros ->. apply H1. right. exact Hx.
    - intros x Hx. rewrite F by (intros Hi; apply Hx; right; right; exact Hi). unfold rs1. apply rat_upd_neq. intros ->. apply Hx. left. reflexivity.
  Qed.
  Lemma map_amount_RB f m hb vb : RB m hb vb -> exists m', hmap_amount f m hb = (m', hb) /\ RB m' hb (map_amount f vb) /\ mv m (hb_post hb) m' (hb_post hb).
  Proof.
    intros (Ho & Hl & Ht & Hc & Hne & Hp & Hy). pose proof Ho as (Hs & Hn & Hb). unfold hmap_amount.
    destruct (hmap_amt_spec f (cells m (hb_post hb)) (m_rats m) Hn Hb) as (c & rs & E & P & L & R & V & F). rewrite E.
    rewrite (own_loc_len _ _ Ho) in L. destruct (put_own m (hb_post hb) c Ho L P) as ((Hs1 & Hn1 & Hb1) & Hc1 & (Hm1 & _)). fold (put_post m hb c) in Hs1, Hn1, Hb1, Hc1, Hm1.
    assert (Hc2 : cells (set_rats (put_post m hb c) rs) (hb_post hb) = c) by exact Hc1.
    eexists. split; [reflexivity|]. split.
    - split; [split; [exact Hs1|rewrite Hc2, P; split; [exact Hn|cbn; rewrite R; exact Hb]]|]. split; [unfold look_slice; rewrite Hc2; cbn; rewrite V, <- Hl; reflexivity|].
      cbn [map_amount bk_trans bk_post bk_prices bk_ccy]. split; [rewrite Ht; f_equal; rewrite map_map; apply map_ext; intros t; rewrite map_length; reflexivity|].
      split; [rewrite <- concat_map, Hc; reflexivity|]. split; [rewrite Forall_map; revert Hne; apply Forall_impl; intros t H E'; apply H; exact (map_eq_nil _ _ E')|]. auto.
    - split; [|split; [left; reflexivity|rewrite Hc2, P; auto]]. destruct Hm1 as (M1 & M2 & M3 & M4). split; [exact M1|]. split; [cbn; rewrite R; lia|]. split; [exact M3|].
      intros x _ Hx. cbn. apply F. exact Hx.
  Qed.

  (** *** Outcomes *)
  Definition res (h : outcome (mem * hbook)) (v : outcome book) (Q : mem -> hbook -> book -> Prop) : Prop :=
    match v with
    | Ok b => exists m' hb', h = Ok (m', hb') /\ Q m' hb' b
    | Error => h = Error
    | Panic => h = Panic
    | Diverge => h = Diverge
    end.
  Lemma filter_res_RB {T} (f : T -> trans -> outcome (bool * T)) st m hb vb : RB m hb vb ->
    res (hfilter grow f st m hb) (obind (vfilter f st (bk_trans vb)) (fun keep => Ok (mkBook (concat keep) keep (bk_prices vb) (bk_ccy vb))))
        (fun m' hb' b => RB m' hb' b /\ mv m (hb_post hb) m' (hb_post hb')).
  Proof.
    intros H. pose proof (hfilter_spec grow f st m hb vb (RB_WB _ _ _ H)) as Hf. pose proof (fun keep => filtered_RB grow f st m hb vb keep H) as Hk.
    destruct (vfilter f st (bk_trans vb)) as [keep| | |]; cbn [obind res]; try exact Hf. destruct (Hk keep eq_refl) as (m' & hb' & E & HR & Hm & _). eauto.
  Qed.
  Lemma filter_transaction_RB f m hb vb : RB m hb vb -> res (hfilter_transaction grow f m hb) (filter_transaction f vb) (fun m' hb' b => RB m' hb' b /\ mv m (hb_post hb) m' (hb_post hb')).
  Proof. intros H. rewrite <- vfilter_plain. apply filter_res_RB. exact H. Qed.

  (** AdjustBy makes everything new; it only needs to read the book. *)
  Lemma adjust_by_spec by_ m hb vb : WB m hb vb -> str_eqb by_ (bs "none") = false ->
    res (hadjust_by ord grow by_ m hb) (adjust_by srt by_ vb) (fun m' hb' b => RB m' hb' b /\ ext m m' /\ length (m_arrs m) <= s_arr (hb_post hb') /\ (forall x, In x (ptrs (cells m' (hb_post hb'))) -> length (m_rats m) <= x)).
  Proof.
    intros (Hs & Hb & Ht & Hc & Hr & Hne) Enone. unfold hadjust_by, adjust_by. rewrite Enone.
    assert (Hl : look_slice m (hb_post hb) = bk_post vb) by (rewrite <- Hr; reflexivity). rewrite Hl.
    destruct (min_max_date (bk_post vb)) as [mn mx]. destruct (days_since mx mn) as [dd| | |]; cbn [obind res]; try reflexivity.
    destruct (adjust_factor by_ dd) as [fac| | |]; cbn [obind res]; try reflexivity.
    unfold make_posts. destruct (alloc_arr m (repeat hzero (s_len (hb_post hb)))) as [m1 a] eqn:Ea. apply alloc_arr_ext in Ea as (Hext & -> & Hl1 & Harr & Hrats).
    set (np0 := mkS (length (m_arrs m)) 0 0).
    assert (Ho0 : own m1 np0) by (split; [split; cbn; lia|]; cbn; split; [constructor|intros x []]).
    assert (Hst0 : stable (hb_post hb) np0) by (unfold stable; cbn; intros E; destruct Hs as [Hs _]; lia).
    assert (Hs1 : sl_ok m1 (hb_post hb)) by (apply (sl_ok_loc _ _ _ _ _ Hext Hs); tauto).
    assert (Hc1 : cells m1 (hb_post hb) = cells m (hb_post hb)) by (apply (cells_loc _ _ _ _ _ Hext (proj1 Hs)); tauto).
    destruct (hrange grow (fun p => [(h_acct p, h_date p, fac)]) (hb_post hb) (s_len (hb_post hb)) 0 m1 np0) as [m2 np2] eqn:Eh.
    pose proof (hrange_spec grow (hb_post hb) (fun p => [(h_acct p, h_date p, fac)]) (fun p => [by_factor p fac]) (s_len (hb_post hb)) 0 m1 np0 m2 np2 Ho0 Hst0 Hs1) as Hem.
    rewrite Hc1, Hrats in Hem. specialize (Hem Hb ltac:(intros; reflexivity) ltac:(lia) Eh). cbn [skipn] in Hem. fold (look_slice m (hb_post hb)) in Hem. rewrite Hl in Hem.
    destruct Hem as (O2 & L2 & A2 & (new & C2 & P2 & V2) & _ & _). cbn [np0 s_arr] in L2, A2. change (cells m1 np0) with (@nil hpost) in C2. cbn [app] in C2.
    assert (Vm : flat_map (fun p => [by_factor p fac]) (bk_post vb) = map (fun p => by_factor p fac) (bk_post vb)) by (generalize (bk_post vb); induction l as [|q l IH]; [reflexivity|cbn; rewrite IH; reflexivity]).
    rewrite Vm in V2.
    assert (Hx2 : ext m m2) by (apply (loc_trans _ _ _ _ _ _ _ Hext L2); [intros b Hb' <-; lia|tauto]).
    destruct (hcompact_spec ord Hord m2 (with_hpost hb np2) (with_post vb (map (fun p => by_factor p fac) (bk_post vb))) O2) as (m' & hb' & E & HR & Hm).
    { cbn. unfold look_slice. rewrite C2. exact V2. }
    { cbn. intros E. apply map_eq_nil in E. rewrite <- Hl in E. unfold look_slice in E. apply map_eq_nil in E. rewrite E in Hc. rewrite <- Hr in Hne |- *. cbn in Hne |- *.
      destruct (hb_trans hb) as [|t ts]; [split; reflexivity|]. exfalso. cbn in Hc. apply app_eq_nil in Hc as [Hc0 _]. apply Forall_inv in Hne. apply Hne. unfold look_slice. rewrite Hc0. reflexivity. }
    { cbn. rewrite <- Hr. reflexivity. }
    { cbn. rewrite <- Hr. reflexivity. }
    cbn [obind res]. exists m', hb'. split; [rewrite E; reflexivity|]. split; [exact HR|]. destruct Hm as (M1 & M2 & M3). cbn [with_hpost hb_post] in M1, M2, M3. rewrite C2 in M1, M3.
    assert (Hlen : length (m_arrs m) <= s_arr np2) by (destruct A2 as [A2|A2]; lia).
    assert (Hlx : length (m_arrs m) <= length (m_arrs m2) /\ length (m_rats m) <= length (m_rats m2)) by (destruct Hx2 as (X1 & X2 & _); split; [exact X1|exact X2]).
    split; [|split].
    - apply (loc_trans _ _ _ _ _ _ _ Hx2 M1); [intros b Hb' <-; lia|]. intros x Hx Hi. specialize (P2 x Hi). rewrite Hrats in P2. lia.
    - destruct M2 as [M2|M2]; [rewrite M2; exact Hlen|lia].
    - intros x Hi. destruct (M3 x Hi) as [Hi'|Hi']; [specialize (P2 x Hi'); rewrite Hrats in P2; lia|lia].
  Qed.

  (** Depreciate, AdjustPost: append to the own array. *)
  Lemma emit_compact gen vgen m hb vb : RB m hb vb ->
    (forall rs p, vgen (look rs p) = map (fun '(a, d, fac) => by_acct_date_factor (look rs p) a d fac) (gen p)) ->
    exists m' hb', (let '(m1, np) := hrange grow gen (hb_post hb) (s_len (hb_post hb)) 0 m (hb_post hb) in hcompact ord m1 (with_hpost hb np)) = (m', hb') /\
      RB m' hb' (compact srt (with_post vb (bk_post vb ++ flat_map vgen (bk_post vb)))) /\ mv m (hb_post hb) m' (hb_post hb').
  Proof.
    intros H Hg. pose proof (RB_empty _ _ _ H) as He. destruct H as (Ho & Hl & _ & _ & _ & Hp & Hy). pose proof Ho as (Hs & Hn & Hb).
    destruct (hrange grow gen (hb_post hb) (s_len (hb_post hb)) 0 m (hb_post hb)) as [m1 np] eqn:Eh.
    destruct (hrange_spec grow (hb_post hb) gen vgen (s_len (hb_post hb)) 0 m (hb_post hb) m1 np Ho ltac:(unfold stable; lia) Hs Hb Hg ltac:(lia) Eh) as (O1 & L1 & A1 & (new & C1 & P1 & V1) & _).
    cbn [skipn] in V1. fold (look_slice m (hb_post hb)) in V1. rewrite Hl in V1.
    assert (Hmv : mv m (hb_post hb) m1 np).
    { split; [apply (loc_weaken _ _ _ _ _ _ L1); [auto|tauto]|]. split; [exact A1|]. rewrite C1, ptrs_app. intros x Hx. apply in_app_iff in Hx as [Hx|Hx]; [left; exact Hx|right; apply P1; exact Hx]. }
    assert (Hl1 : look_slice m1 np = bk_post vb ++ flat_map vgen (bk_post vb)).
    { unfold look_slice. rewrite C1, map_app, V1, <- Hl. f_equal. unfold look_slice. apply map_look_ext. intros x Hx. apply L1; [apply Hb; exact Hx|tauto]. }
    destruct (hcompact_spec ord Hord m1 (with_hpost hb np) (with_post vb (bk_post vb ++ flat_map vgen (bk_post vb))) O1 Hl1) as (m' & hb' & E & HR & Hm); [|exact Hp|exact Hy|].
    - cbn. intros E. apply app_eq_nil in E as [E _]. apply He. exact E.
    - exists m', hb'. split; [exact E|]. split; [exact HR|]. exact (mv_trans _ _ _ _ _ _ Hmv Hm).
  Qed.
  Lemma depr_times_eq today rs p nacct period periods : forall n d,
    depr_loop today (look rs p) nacct period periods n d = map (fun '(a, d, fac) => by_acct_date_factor (look rs p) a d fac) (depr_times today (h_acct p) nacct period periods n d).
  Proof. induction n as [|n IH]; intros d; [reflexivity|]. cbn [depr_loop depr_times map]. rewrite IH. reflexivity. Qed.
  Lemma depr_gen_eq today mt r period periods rs p :
    depr_posts today mt r period periods (look rs p) = map (fun '(a, d, fac) => by_acct_date_factor (look rs p) a d fac) (depr_gen today mt r period periods p).
  Proof. unfold depr_posts, depr_gen. cbn [look p_acct p_date]. destruct (mt (h_acct p)); [|reflexivity]. cbn [map]. rewrite <- depr_times_eq. reflexivity. Qed.
  Lemma adj_gen_eq mt r fac rs p : adj_posts mt r fac (look rs p) = map (fun '(a, d, fac) => by_acct_date_factor (look rs p) a d fac) (adj_gen mt r fac p).
  Proof. unfold adj_posts, adj_gen. cbn [look p_acct]. destruct (mt (h_acct p)); reflexivity. Qed.

  (** *** Every operation on one book *)
  Lemma op_RB o m hb vb : RB m hb vb -> other_book o = None ->
    res (hrun_op ord grow o m hb) (run_op srt o vb) (fun m' hb' b => RB m' hb' b /\ mv m (hb_post hb) m' (hb_post hb')).
  Proof.
    intros H Hoth. pose proof H as (Ho & Hl & _). pose proof (own_loc_len _ _ Ho) as Hcl.
    assert (Hacct : forall f, res (Ok (hmap_account ord f m hb)) (Ok (map_account srt f vb)) (fun m' hb' b => RB m' hb' b /\ mv m (hb_post hb) m' (hb_post hb'))).
    { intros f. cbn [res]. destruct (hmap_acct_spec (m_rats m) f (cells m (hb_post hb)) []) as (H1 & H2 & H3).
      destruct (put_compact m hb vb (hmap_acct f [] (cells m (hb_post hb))) H ltac:(congruence) H2) as (m' & hb' & E & HR & Hm). exists m', hb'. unfold hmap_account. rewrite E.
      split; [reflexivity|]. split; [|exact Hm]. rewrite H1 in HR. fold (look_slice m (hb_post hb)) in HR. rewrite Hl in HR. exact HR. }
    assert (Htr : forall f, res (Ok (hmap_transaction ord f m hb)) (Ok (map_transaction srt (fun _ => f) vb)) (fun m' hb' b => RB m' hb' b /\ mv m (hb_post hb) m' (hb_post hb'))).
    { intros f. cbn [res]. set (g := fun p => let '(d, pay) := f (h_date p) (h_payee p) in hset_date p d pay).
      assert (Hp : ptrs (map g (cells m (hb_post hb))) = ptrs (cells m (hb_post hb))).
      { generalize (cells m (hb_post hb)). induction l as [|q l IH]; [reflexivity|]. cbn [map]. rewrite !ptrs_cons, IH. unfold g. destruct (f (h_date q) (h_payee q)). reflexivity. }
      destruct (put_compact m hb vb (map g (cells m (hb_post hb))) H ltac:(rewrite map_length; exact Hcl) Hp) as (m' & hb' & E & HR & Hm). exists m', hb'. unfold hmap_transaction. fold g. rewrite E.
      split; [reflexivity|]. split; [|exact Hm]. unfold map_transaction. rewrite map_trans_const, <- Hl. unfold look_slice. rewrite map_map. rewrite map_map in HR.
      erewrite map_ext; [exact HR|]. intros q. unfold g. cbn [look p_date p_payee]. destruct (f (h_date q) (h_payee q)). reflexivity. }
    destruct o; cbn [hrun_op run_op other_book] in *; try discriminate.
    - apply Hacct.
    - apply Hacct.
    - cbn [res]. destruct (map_amount_RB f m hb vb H) as (m' & E & HR & Hm). rewrite E. eauto.
    - apply Htr.
    - unfold split_by. apply (Htr (fun d _ => (floor today d by_, []))).
    - apply filter_transaction_RB. exact H.
    - unfold filter_since. destruct (d =? 0)%Z; [cbn [res]; exists m, hb; split; [reflexivity|]; split; [exact H|apply mv_refl]|apply filter_transaction_RB; exact H].
    - unfold filter_asof. destruct (d =? 0)%Z; [cbn [res]; exists m, hb; split; [reflexivity|]; split; [exact H|apply mv_refl]|apply filter_transaction_RB; exact H].
    - apply filter_transaction_RB. exact H.
    - destruct (str_eqb by_ (bs "none")) eqn:En.
      + unfold hadjust_by, adjust_by. rewrite En. cbn [res]. exists m, hb. split; [reflexivity|]. split; [exact H|apply mv_refl].
      + pose proof (adjust_by_spec by_ m hb vb (RB_WB _ _ _ H) En) as Ha. unfold res in *. destruct (adjust_by srt by_ vb) as [b| | |]; try exact Ha.
        destruct Ha as (m' & hb' & E & HR & Hx & Hla & Hp). exists m', hb'. split; [exact E|]. split; [exact HR|]. split; [apply ext_loc; exact Hx|]. split; [right; exact Hla|]. auto.
    - cbn [res]. destruct (emit_compact _ _ m hb vb H (fun rs p => depr_gen_eq today m0 r period periods rs p)) as (m' & hb' & E & HR & Hm). unfold hdepreciate. rewrite E. eauto.
    - cbn [res]. destruct (emit_compact _ _ m hb vb H (fun rs p => adj_gen_eq m0 r factor rs p)) as (m' & hb' & E & HR & Hm). unfold hadjust_post. rewrite E. eauto.
    - cbn [res]. destruct (compact_RB m hb vb H) as (m' & hb' & E & HR & Hm). rewrite E. eauto.
  Qed.

  (** *** Reclassification writes through the transactions *)
  Lemma hreclass_cells_ok dist ord2 refacct pm i rs c :
    ptrs (hreclass_cells dist ord2 refacct pm i c) = ptrs c /\ length (hreclass_cells dist ord2 refacct pm i c) = length c /\
    map (look rs) (hreclass_cells dist ord2 refacct pm i c) = reclass_trans ord2 dist refacct pm i (map (look rs) c).
  Proof.
    unfold hreclass_cells, reclass_trans. destruct c as [|p [|q [|r c]]]; cbn [map]; auto.
    cbn [look p_acct p_payee]. destruct (str_eqb (h_acct p) refacct); [|destruct (str_eqb (h_acct q) refacct); [|auto]];
      destruct (best (dist (h_payee p)) (ord2 i pm) 0%Qc []) as [mx a]; destruct (qc_ltb 0%Qc mx); cbn; auto.
  Qed.
  Fixpoint reclass_all (g : nat -> list hpost -> list hpost) (i : nat) (cs : list (list hpost)) : list (list hpost) :=
    match cs with [] => [] | c :: cs' => g i c :: reclass_all g (S i) cs' end.
  Lemma hreclass_loop_spec dist ord2 refacct pm a : forall cs i m off pre tail, a < length (m_arrs m) -> arr m a = pre ++ concat cs ++ tail -> length pre = off ->
    let m' := hreclass_loop dist ord2 refacct pm i m (tiles a off (map (@length hpost) cs)) in
    m_rats m' = m_rats m /\ length (m_arrs m') = length (m_arrs m) /\ (forall b, b <> a -> arr m' b = arr m b) /\
    arr m' a = pre ++ concat (reclass_all (hreclass_cells dist ord2 refacct pm) i cs) ++ tail.
  Proof.
    induction cs as [|c cs IH]; intros i m off pre tail Ha Harr Hpre; cbn [map tiles hreclass_loop reclass_all concat]; [auto|]. cbn [concat] in Harr.
    cbn [s_arr s_off].
    assert (Ec : cells m (mkS a off (length c)) = c).
    { unfold cells. cbn [s_arr s_off s_len]. rewrite Harr, skipn_app_exact by exact Hpre. rewrite <- app_assoc. apply firstn_app_exact. reflexivity. }
    rewrite Ec. set (c' := hreclass_cells dist ord2 refacct pm i c). assert (Hc' : length c' = length c) by apply (hreclass_cells_ok dist ord2 refacct pm i []).
    set (m1 := put m a off c').
    assert (Harr1 : arr m1 a = (pre ++ c') ++ concat cs ++ tail).
    { unfold m1. rewrite arr_put_eq by exact Ha. rewrite Harr. rewrite firstn_app_exact by exact Hpre. rewrite Hc', <- (app_assoc pre c'). apply f_equal. apply f_equal.
      replace (pre ++ (c ++ concat cs) ++ tail) with ((pre ++ c) ++ concat cs ++ tail) by (rewrite <- !app_assoc; reflexivity). apply skipn_app_exact. rewrite app_length. lia. }
    assert (Hl1 : length (m_arrs m1) = length (m_arrs m)) by apply put_arrs.
    destruct (IH (S i) m1 (off + length c) (pre ++ c') tail ltac:(lia) Harr1 ltac:(rewrite app_length; lia)) as (R & L & B & A). cbv zeta in *.
    split; [rewrite R; reflexivity|]. split; [lia|]. split; [intros b Hb; rewrite B by exact Hb; apply arr_put_neq; exact Hb|]. rewrite A, <- !app_assoc. reflexivity.
  Qed.
  Lemma reclass_all_look rs dist ord2 refacct pm : forall cs i,
    map (map (look rs)) (reclass_all (hreclass_cells dist ord2 refacct pm) i cs) = reclass_loop ord2 dist refacct pm i (map (map (look rs)) cs) /\
    ptrs (concat (reclass_all (hreclass_cells dist ord2 refacct pm) i cs)) = ptrs (concat cs) /\
    map (@length hpost) (reclass_all (hreclass_cells dist ord2 refacct pm) i cs) = map (@length hpost) cs.
  Proof.
    induction cs as [|c cs IH]; intros i; [cbn; auto|]. cbn [reclass_all map reclass_loop concat]. destruct (IH (S i)) as (H1 & H2 & H3). destruct (hreclass_cells_ok dist ord2 refacct pm i rs c) as (G1 & G2 & G3).
    rewrite H1, !ptrs_app, H2, H3, G1, G2, G3. auto.
  Qed.
  Lemma concat_lens {A} : forall x y : list (list A), map (@length A) x = map (@length A) y -> length (concat x) = length (concat y).
  Proof. induction x as [|c x IH]; intros [|d y] E; try discriminate; [reflexivity|]. cbn in *. rewrite !app_length. injection E as -> E. f_equal. apply IH. exact E. Qed.
  Lemma slice_decomp m s : sl_ok m s -> exists pre tail, arr m (s_arr s) = pre ++ cells m s ++ tail /\ length pre = s_off s.
  Proof.
    intros [_ H]. exists (firstn (s_off s) (arr m (s_arr s))), (skipn (s_off s + s_len s) (arr m (s_arr s))). split; [|rewrite firstn_length; lia]. unfold cells.
    rewrite <- (firstn_skipn (s_off s) (arr m (s_arr s))) at 1. f_equal.
    rewrite <- (firstn_skipn (s_len s) (skipn (s_off s) (arr m (s_arr s)))) at 1. f_equal. apply skipn_skipn'.
  Qed.
  Lemma reclass_RB dist ord2 refacct pm m hb vb : RB m hb vb ->
    let ts' := reclass_loop ord2 dist refacct pm 0 (bk_trans vb) in
    let m' := hreclass_loop dist ord2 refacct pm 0 m (hb_trans hb) in
    RB m' hb (mkBook (concat ts') ts' (bk_prices vb) (bk_ccy vb)) /\ mv m (hb_post hb) m' (hb_post hb).
  Proof.
    intros H. cbv zeta. pose proof (RB_WB _ _ _ H) as (_ & _ & Hts & Hcc & Hread & _). destruct H as ((Hs & Hn & Hb) & Hl & Ht & Hc & Hne & Hp & Hy).
    set (cs := map (cells m) (hb_trans hb)) in *.
    assert (Hv : map (map (look (m_rats m))) cs = bk_trans vb) by (unfold cs; rewrite map_map; rewrite <- Hread; reflexivity).
    assert (Hlens : map (@length hpost) cs = map (@length posting) (bk_trans vb)) by (rewrite <- Hv, map_map; apply map_ext; intros c; rewrite map_length; reflexivity).
    destruct (slice_decomp m (hb_post hb) Hs) as (pre & tail & Harr & Hpre). rewrite <- Hcc in Harr.
    pose proof (hreclass_loop_spec dist ord2 refacct pm (s_arr (hb_post hb)) cs 0 m (s_off (hb_post hb)) pre tail (proj1 Hs) Harr Hpre) as HL. cbv zeta in HL. rewrite Hlens, <- Ht in HL.
    set (m' := hreclass_loop dist ord2 refacct pm 0 m (hb_trans hb)) in *. destruct HL as (R & L & B & A).
    destruct (reclass_all_look (m_rats m) dist ord2 refacct pm cs 0) as (V & P & N). set (cs' := reclass_all (hreclass_cells dist ord2 refacct pm) 0 cs) in *.
    assert (Hlen : length (concat cs') = s_len (hb_post hb)).
    { rewrite <- (cells_length m _ Hs), <- Hcc. apply concat_lens. exact N. }
    assert (Hcells : cells m' (hb_post hb) = concat cs').
    { unfold cells. rewrite A, skipn_app_exact by exact Hpre. apply firstn_app_exact. exact Hlen. }
    rewrite <- Hv. rewrite <- V. split.
    - split; [split; [split; [rewrite L; apply Hs|rewrite A, !app_length, Hlen; lia]|]|].
      + rewrite Hcells, P, Hcc. split; [exact Hn|rewrite R; exact Hb].
      + cbn [bk_post bk_trans bk_prices bk_ccy]. split; [unfold look_slice; rewrite Hcells, R, concat_map; reflexivity|]. split.
        * rewrite Ht. f_equal. rewrite map_map. rewrite <- Hlens, <- N. apply map_ext. intros c. rewrite map_length. reflexivity.
        * split; [reflexivity|]. split; [|auto]. rewrite V, Hv. clear - Hne. generalize 0. induction Hne as [|t ts Ht _ IH]; intros i; cbn [reclass_loop]; constructor; [|apply IH].
          unfold reclass_trans. destruct t as [|p [|q [|r t]]]; try assumption. destruct (str_eqb _ _); [|destruct (str_eqb _ _); [|assumption]]; destruct (best _ _ _ _) as [mx a]; destruct (qc_ltb _ _); discriminate.
    - split; [|split; [left; reflexivity|rewrite Hcells, P, Hcc; auto]]. split; [lia|]. split; [rewrite R; lia|]. split; [intros b _ Hb'; apply B; congruence|]. intros x _ _. rewrite R. reflexivity.
  Qed.

  (** *** Builders *)
  Definition strip (u : builder) : builder := mkB [] (bu_prev u) (bu_amts u) (bu_date u) (bu_payee u) (bu_note u) (bu_prices u).
  Definition RU (m : mem) (hu : hbuilder) (u : builder) : Prop := own m (hbu_post hu) /\ look_slice m (hbu_post hu) = bu_post u /\ hbu_b hu = strip u.
  Lemma check_strip u : check_and_clear (strip u) = match check_and_clear u with Ok u' => Ok (strip u') | Error => Error | Panic => Panic | Diverge => Diverge end.
  Proof. unfold check_and_clear, strip. cbn. destruct (forallb _ _); reflexivity. Qed.
  Lemma check_post u u' : check_and_clear u = Ok u' -> bu_post u' = bu_post u.
  Proof. unfold check_and_clear. destruct (forallb _ _); intros E; [injection E as <-; reflexivity|discriminate]. Qed.
  Lemma new_trans_strip u d p n : new_transaction (strip u) d p n = match new_transaction u d p n with Ok u' => Ok (strip u') | Error => Error | Panic => Panic | Diverge => Diverge end.
  Proof.
    unfold new_transaction. rewrite check_strip. destruct (check_and_clear u) as [u'| | |]; cbn [obind]; try reflexivity. cbn [strip bu_prev].
    destruct (rename_loop _ _ _ _ _ _); reflexivity.
  Qed.
  Lemma new_trans_post u d p n u' : new_transaction u d p n = Ok u' -> bu_post u' = bu_post u.
  Proof.
    unfold new_transaction. intros E. apply obind_Ok in E as (u1 & E1 & E). apply obind_Ok in E as (c & _ & E). injection E as <-. cbn. apply check_post in E1. exact E1.
  Qed.
  Definition resu (h : outcome (mem * hbuilder)) (v : outcome builder) (Q : mem -> hbuilder -> builder -> Prop) : Prop :=
    match v with
    | Ok b => exists m' hb', h = Ok (m', hb') /\ Q m' hb' b
    | Error => h = Error
    | Panic => h = Panic
    | Diverge => h = Diverge
    end.
  Lemma alloc_own m s q m' x : own m s -> alloc m q = (m', x) -> own m' s /\ cells m' s = cells m s /\ ~ In x (ptrs (cells m s)) /\ look_slice m' s = look_slice m s /\ mv m s m' s.
  Proof.
    intros ((Hs1 & Hs2) & Hn & Hb) E. apply alloc_ext in E as (X & -> & L & _ & A).
    assert (Ec : cells m' s = cells m s) by (unfold cells, arr; rewrite A; reflexivity).
    split; [split; [split; [rewrite A; exact Hs1|unfold arr; rewrite A; exact Hs2]|rewrite Ec; split; [exact Hn|intros x Hx; specialize (Hb x Hx); lia]]|].
    split; [exact Ec|]. split; [intros Hi; specialize (Hb _ Hi); lia|]. split.
    - unfold look_slice. rewrite Ec. apply map_look_ext. intros x Hx. apply X; [apply Hb; exact Hx|tauto].
    - split; [apply ext_loc; exact X|]. split; [left; reflexivity|]. rewrite Ec. auto.
  Qed.
  Lemma bstep_RU c m hu u : RU m hu u -> resu (hbstep grow m hu c) (bstep u c) (fun m' hu' u' => RU m' hu' u' /\ mv m (hbu_post hu) m' (hbu_post hu')).
  Proof.
    intros (Ho & Hl & Hb). destruct c as [d p n|a c v n|d x c v]; cbn [hbstep bstep].
    - rewrite Hb, new_trans_strip. destruct (new_transaction u d p n) as [u'| | |] eqn:E; cbn [obind resu]; try reflexivity.
      exists m, (mkHU (hbu_post hu) (strip u')). split; [reflexivity|]. split; [|apply mv_refl]. split; [exact Ho|]. cbn. split; [rewrite (new_trans_post _ _ _ _ _ E); exact Hl|reflexivity].
    - cbn [resu]. destruct (alloc m v) as [m1 q] eqn:E1. destruct (alloc_own _ _ _ _ _ Ho E1) as (O1 & C1 & N1 & K1 & M1). pose proof (alloc_ext _ _ _ _ E1) as (X1 & Q1 & L1 & V1 & A1).
      unfold hadd_posting. destruct (alloc m1 0%Qc) as [m2 z] eqn:E2. destruct (alloc_own _ _ _ _ _ O1 E2) as (O2 & C2 & N2 & K2 & M2). pose proof (alloc_ext _ _ _ _ E2) as (X2 & Q2 & L2 & V2 & A2).
      set (hp := mkH (bu_date (hbu_b hu)) (bu_payee (hbu_b hu)) (bu_note (hbu_b hu)) a c q n z 0 [] []).
      destruct (append grow m2 (hbu_post hu) [hp]) as [m3 s3] eqn:E3.
      destruct (append_one grow (hbu_post hu) m2 (hbu_post hu) hp m3 s3 O2 ltac:(unfold stable; lia) (proj1 (proj1 O2))) as (O3 & R3 & L3 & A3 & C3 & _); try exact E3; cbn [hp h_val h_bal]; try lia.
      { rewrite C2, C1. intros Hi. rewrite C1 in N2. apply N1. exact Hi. }
      { rewrite C2. exact N2. }
      do 2 eexists. split; [reflexivity|]. cbn [hbu_post hbu_b].
      assert (Rq : rat (m_rats m3) q = v). { rewrite R3. destruct X2 as (_ & _ & _ & X2). rewrite X2 by (try tauto; lia). exact V1. }
      assert (Hmv3 : mv m2 (hbu_post hu) m3 s3 \/ True) by (right; exact I).
      split.
      + split; [exact O3|]. cbn [hbu_post hbu_b]. split.
        * unfold look_slice. rewrite C3, map_app, R3. change (map (look (m_rats m2)) (cells m2 (hbu_post hu))) with (look_slice m2 (hbu_post hu)). rewrite K2, K1, Hl. cbn [map add_posting bu_post]. f_equal. f_equal.
          unfold look, hp. cbn. rewrite <- R3, Rq, R3, V2, Hb. reflexivity.
        * rewrite Rq, Hb. unfold add_posting, strip. cbn. reflexivity.
      + split; [|split].
        * apply (loc_trans _ _ (eq (s_arr (hbu_post hu))) (fun _ => False) _ _ _ (ext_loc (eq (s_arr (hbu_post hu))) (fun x => In x (ptrs (cells m (hbu_post hu)))) _ _ (ext_trans _ _ _ X1 X2)) L3); [auto|tauto].
        * rewrite A2, A1 in A3. exact A3.
        * rewrite C3, C2, C1, ptrs_app. intros x Hx. apply in_app_iff in Hx as [Hx|Hx]; [left; exact Hx|]. right. cbn in Hx. destruct Hx as [<-|[<-|[]]]; lia.
    - cbn [resu]. do 2 eexists. split; [reflexivity|]. split; [|apply mv_refl]. split; [exact Ho|]. cbn. split; [exact Hl|]. rewrite Hb. reflexivity.
  Qed.
  Lemma build_RU m hu u : RU m hu u ->
    match check_and_clear u with
    | Ok u' => exists m' hb b, hbuild ord m hu = Ok (m', mkHU (hbu_post hu) (strip u'), hb) /\ build srt u = Ok b /\ RB m' hb b /\ mv m (hbu_post hu) m' (hb_post hb)
    | Error => hbuild ord m hu = Error
    | Panic => hbuild ord m hu = Panic
    | Diverge => hbuild ord m hu = Diverge
    end.
  Proof.
    intros (Ho & Hl & Hb). unfold hbuild, build. rewrite Hb, check_strip. destruct (check_and_clear u) as [u'| | |] eqn:Ec; cbn [obind]; try reflexivity.
    apply check_post in Ec. rewrite Hl, Ec.
    set (rmap := map (fun '(c, v) => (c, decimals_of v)) (max_denoms [] (bu_post u))).
    destruct (hcompact_spec ord Hord m (mkHB (hbu_post hu) (repeat (mkS (s_arr (hbu_post hu)) 0 0) (s_len (hbu_post hu))) (build_prices (bu_prices (strip u'))) rmap)
      (mkBook (bu_post u) (repeat [] (length (bu_post u))) (build_prices (bu_prices u')) rmap) Ho Hl) as (m' & hb & E & HR & Hm); try reflexivity.
    - cbn. intros E0. assert (s_len (hbu_post hu) = 0) as ->; [|rewrite E0; auto]. rewrite <- (own_loc_len _ _ Ho), <- (map_length (look (m_rats m))). change (map (look (m_rats m)) (cells m (hbu_post hu))) with (look_slice m (hbu_post hu)). rewrite Hl, E0. reflexivity.
    - rewrite E. do 3 eexists. split; [reflexivity|]. split; [reflexivity|]. split; [exact HR|exact Hm].
  Qed.
End Ops.
