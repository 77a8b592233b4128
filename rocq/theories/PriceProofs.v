(** * PriceProofs *)
From Verif Require Import Base DateModel DateSpec DateProofs DateProofs2 PriceModel PriceSpec.

Lemma index_Ok {A} (l : list A) i x : index l i = Ok x <-> nth_error l i = Some x.
Proof. unfold index. destruct (nth_error l i); split; congruence. Qed.
Lemma index_lt {A} (l : list A) i : (i < length l)%nat -> exists x, index l i = Ok x /\ nth_error l i = Some x.
Proof.
  intros H. apply nth_error_Some in H. unfold index. destruct (nth_error l i) as [x|]; [|congruence].
  exists x. auto.
Qed.
Lemma nth_split2 {A} (l : list A) i x y : nth_error l i = Some x -> nth_error l (S i) = Some y ->
  exists a b, l = a ++ x :: y :: b.
Proof.
  intros H1 H2. apply nth_error_split in H1 as (a & b & -> & Hl). exists a.
  rewrite nth_error_app2 in H2 by lia. replace (S i - length a)%nat with 1%nat in H2 by lia.
  destruct b as [|z b]; cbn in H2; [discriminate|]. injection H2 as ->. exists b. reflexivity.
Qed.
Lemma last_index {A} (l : list A) : l <> [] ->
  exists front x, l = front ++ [x] /\ (match length l with O => Panic | S n => index l n end) = Ok x.
Proof.
  intros H. destruct (exists_last H) as (front & x & ->). exists front, x. split; [reflexivity|].
  rewrite app_length, Nat.add_comm. cbn [length plus]. apply index_Ok.
  rewrite nth_error_app2 by lia. rewrite Nat.sub_diag. reflexivity.
Qed.

Lemma interpolate_ok d lo hi : valid_date d -> valid_date (pr_date lo) -> valid_date (pr_date hi) ->
  pr_date lo < d < pr_date hi ->
  exists v, interpolate d lo hi = Ok (v, Inferred) /\ on_line d lo hi v.
Proof.
  intros V V1 V2 H. unfold interpolate, days_since.
  destruct (as_days_ok d V) as (nd & Ed & _). destruct (as_days_ok _ V1) as (nl & El & _).
  destruct (as_days_ok _ V2) as (nh & Eh & _). rewrite Ed, El, Eh. cbn [obind].
  pose proof (as_days_lt _ _ _ _ V1 V El Ed ltac:(lia)) as L1.
  pose proof (as_days_lt _ _ _ _ V V2 Ed Eh ltac:(lia)) as L2.
  unfold new_rat. destruct (Z.eqb_spec (nh - nl) 0); [lia|]. cbn [obind].
  eexists. split; [reflexivity|]. exists nd, nl, nh. repeat split; auto.
  field. apply qz_nz. lia.
Qed.

Section Search.
  Variables (p : pricelist) (d : Z).
  Hypothesis Hlast : forall x front, p = front ++ [x] -> d <= pr_date x.
  Lemma bsearch_spec fuel : forall mn mx a,
    (mn < mx <= length p)%nat -> (mx - mn < fuel)%nat ->
    nth_error p mn = Some a -> pr_date a <= d ->
    (mx = length p \/ exists b, nth_error p mx = Some b /\ d < pr_date b) ->
    (exists x, In x p /\ pr_date x = d /\ bsearch fuel p d mn mx = Ok (inl (pr_val x))) \/
    (exists i lo hi, bsearch fuel p d mn mx = Ok (inr i) /\ nth_error p i = Some lo /\
       nth_error p (S i) = Some hi /\ pr_date lo < d < pr_date hi).
  Proof.
    induction fuel as [|f IH]; intros mn mx a Hb Hf Ha Had Hmx; [lia|].
    cbn [bsearch]. destruct (Nat.ltb_spec mn mx); [|lia].
    set (mid := ((mn + mx) / 2)%nat).
    assert (Hmid : (mn <= mid < mx)%nat).
    { subst mid. pose proof (Nat.div_mod (mn + mx) 2 ltac:(lia)) as E.
      pose proof (Nat.mod_upper_bound (mn + mx) 2 ltac:(lia)). lia. }
    destruct (index_lt p mid ltac:(lia)) as (m & -> & Em). cbn [obind].
    destruct (Z.ltb_spec (pr_date m) d) as [Hlt|Hge].
    - destruct (Nat.eqb_spec mid mn) as [E|E].
      + right. exists mn, m. rewrite E in Em.
        assert (Hmx1 : mx = S mn).
        { subst mid. pose proof (Nat.div_mod (mn + mx) 2 ltac:(lia)) as E2.
          pose proof (Nat.mod_upper_bound (mn + mx) 2 ltac:(lia)). lia. }
        subst mx. destruct Hmx as [Hmx|(b & Hb1 & Hb2)].
        * exfalso. apply nth_error_split in Em as (l1 & l2 & Ep & Hl1).
          assert (l2 = []) as -> by (rewrite Ep, app_length in Hmx; cbn in Hmx; destruct l2; [auto|cbn in Hmx; lia]).
          specialize (Hlast _ _ Ep). lia.
        * exists b. repeat split; auto.
      + eapply IH; [lia | lia | exact Em | lia | exact Hmx].
    - destruct (Z.ltb_spec d (pr_date m)) as [Hlt|Hge2].
      + assert (mid <> mn) by (intros E; rewrite E in Em; rewrite Ha in Em; injection Em as <-; lia).
        eapply IH; [lia | lia | exact Ha | exact Had | right; exists m; auto].
      + left. exists m. repeat split; [eapply nth_error_In; exact Em | lia].
  Qed.
End Search.

Lemma sorted_le_between pl front lo hi rest d :
  StronglySorted (fun a b => pr_date a <= pr_date b) pl -> pl = front ++ lo :: hi :: rest ->
  pr_date lo < d < pr_date hi -> forall p, In p pl -> pr_date p <> d.
Proof.
  intros Hs -> Hd p Hin. apply StronglySorted_app in Hs as (_ & Hs & Hc).
  inversion Hs as [|? ? Hs2 _]; subst. inversion Hs2 as [|? ? _ Hall]; subst. rewrite Forall_forall in Hall.
  apply in_app_iff in Hin as [Hin|[<-|[<-|Hin]]].
  - pose proof (Hc p lo Hin (or_introl eq_refl)). lia.
  - lia.
  - lia.
  - pose proof (Hall p Hin). lia.
Qed.

Lemma pl_get_spec pl d : pl_ok pl -> valid_date d ->
  exists v t, pl_get pl d = Ok (v, t) /\ quote pl d v t.
Proof.
  intros (Hne & Hv & Hs) Vd. unfold pl_get.
  destruct pl as [|p0 pl']; [congruence|]. set (pl := p0 :: pl') in *.
  change (index pl 0) with (Ok p0). cbn [obind].
  destruct (Z.ltb_spec d (pr_date p0)) as [H0|H0].
  { do 2 eexists. split; [reflexivity|]. eapply q_before; [reflexivity|exact H0]. }
  destruct (last_index pl ltac:(discriminate)) as (front & pn & Efr & Eidx).
  rewrite Eidx. cbn [obind].
  destruct (Z.ltb_spec (pr_date pn) d) as [Hn|Hn].
  { do 2 eexists. split; [reflexivity|]. eapply q_after; [exact Efr|exact Hn]. }
  destruct (bsearch_spec pl d) with (fuel := S (length pl)) (mn := 0%nat) (mx := length pl) (a := p0)
    as [(x & Hx & Hxd & E)|(i & lo & hi & E & E1 & E2 & Hb)].
  - intros x f0 Ef. rewrite Efr in Ef. apply app_inj_tail in Ef as [_ <-]. exact Hn.
  - subst pl. cbn [length]. lia.
  - lia.
  - reflexivity.
  - exact H0.
  - left; reflexivity.
  - rewrite E. cbn [obind]. do 2 eexists. split; [reflexivity|]. apply q_exact; assumption.
  - rewrite E. cbn [obind]. unfold index. rewrite E1, E2. cbn [obind].
    rewrite Forall_forall in Hv.
    destruct (interpolate_ok d lo hi Vd) as (v & Ei & Hl).
    + apply Hv. eapply nth_error_In; exact E1.
    + apply Hv. eapply nth_error_In; exact E2.
    + exact Hb.
    + rewrite Ei. exists v, Inferred. split; [reflexivity|].
      destruct (nth_split2 pl i lo hi E1 E2) as (a & b & Ep).
      eapply q_between; [exact Ep|exact Hb| |exact Hl].
      eapply sorted_le_between; [exact Hs|exact Ep|exact Hb].
Qed.

(** An interpolated price lies between the two quotes. *)
Lemma qz_pos n : 0 < n -> (0 < qz n)%Qc.
Proof. intros H. unfold Qclt, qz, Q2Qc. cbn [this]. rewrite !Qred_correct. unfold Qlt. cbn. lia. Qed.
Lemma Qcmult_le_cancel_r a b k : (0 < k)%Qc -> (a * k <= b * k)%Qc -> (a <= b)%Qc.
Proof.
  intros Hk H. destruct (Qclt_le_dec b a) as [C|C]; [|exact C].
  exfalso. apply (Qcle_not_lt _ _ H). apply Qcmult_lt_compat_r; assumption.
Qed.
Lemma Qc_sub_le a b : (a <= b)%Qc <-> (0 <= b - a)%Qc.
Proof.
  split; intros H.
  - pose proof (Qcplus_le_compat _ _ _ _ H (Qcle_refl (- a))) as G.
    replace (a + - a)%Qc with 0%Qc in G by ring. exact G.
  - pose proof (Qcplus_le_compat _ _ _ _ H (Qcle_refl a)) as G.
    replace (0 + a)%Qc with a in G by ring. replace (b - a + a)%Qc with b in G by ring. exact G.
Qed.
Lemma on_line_between d lo hi v : on_line d lo hi v ->
  (pr_val lo <= pr_val hi -> pr_val lo <= v /\ v <= pr_val hi)%Qc /\
  (pr_val hi <= pr_val lo -> pr_val hi <= v /\ v <= pr_val lo)%Qc.
Proof.
  intros (nd & nl & nh & _ & _ & _ & Hb & E).
  pose proof (qz_pos (nh - nl) ltac:(lia)) as Hk. pose proof (qz_pos (nd - nl) ltac:(lia)) as Hd.
  pose proof (qz_pos (nh - nd) ltac:(lia)) as Hr.
  assert (Ek : qz (nh - nl) = (qz (nd - nl) + qz (nh - nd))%Qc) by (replace (nh - nl) with ((nd - nl) + (nh - nd)) by lia; apply qz_add).
  assert (E2 : ((pr_val hi - v) * qz (nh - nl) = (pr_val hi - pr_val lo) * qz (nh - nd))%Qc).
  { replace ((pr_val hi - v) * qz (nh - nl))%Qc
      with ((pr_val hi - pr_val lo) * qz (nh - nl) - (v - pr_val lo) * qz (nh - nl))%Qc by ring.
    rewrite E, Ek. ring. }
  assert (Hmul : forall a k, (0 < k -> 0 <= a -> 0 <= a * k)%Qc).
  { intros a k Hk0 Ha. replace 0%Qc with (0 * k)%Qc by ring. apply Qcmult_le_compat_r; [exact Ha|].
    apply Qclt_le_weak; exact Hk0. }
  assert (Hcan : forall a k, (0 < k -> 0 <= a * k -> 0 <= a)%Qc).
  { intros a k Hk0 Ha. apply (Qcmult_le_cancel_r 0 a k Hk0). replace (0 * k)%Qc with 0%Qc by ring. exact Ha. }
  split; intros H; apply Qc_sub_le in H.
  - split; apply Qc_sub_le; apply (Hcan _ (qz (nh - nl)) Hk).
    + rewrite E. apply Hmul; assumption.
    + rewrite E2. apply Hmul; assumption.
  - split; apply Qc_sub_le; apply (Hcan _ (qz (nh - nl)) Hk).
    + replace ((v - pr_val hi) * qz (nh - nl))%Qc with (- ((pr_val hi - v) * qz (nh - nl)))%Qc by ring.
      rewrite E2. replace (- ((pr_val hi - pr_val lo) * qz (nh - nd)))%Qc with ((pr_val lo - pr_val hi) * qz (nh - nd))%Qc by ring.
      apply Hmul; assumption.
    + replace ((pr_val lo - v) * qz (nh - nl))%Qc with (- ((v - pr_val lo) * qz (nh - nl)))%Qc by ring.
      rewrite E. replace (- ((pr_val hi - pr_val lo) * qz (nd - nl)))%Qc with ((pr_val lo - pr_val hi) * qz (nd - nl))%Qc by ring.
      apply Hmul; assumption.
Qed.

(** Any lower bound of the quotes is a lower bound of the lookup: in particular positive prices stay positive. *)
Lemma Qc_le_total a b : (a <= b \/ b <= a)%Qc.
Proof. destruct (Qclt_le_dec a b) as [H|H]; [left; apply Qclt_le_weak; exact H | right; exact H]. Qed.
Lemma quote_pos pl d v t : Forall (fun p => (0 < pr_val p)%Qc) pl -> quote pl d v t -> (0 < v)%Qc.
Proof.
  intros Hp H. rewrite Forall_forall in Hp. destruct H as [p rest -> _|p front -> _|p Hin _|front lo hi rest v Ep _ _ Hl].
  - apply Hp. left; reflexivity.
  - apply Hp. apply in_app_iff. right. left. reflexivity.
  - apply Hp. exact Hin.
  - apply on_line_between in Hl as [H1 H2].
    assert (Hlo : (0 < pr_val lo)%Qc) by (apply Hp; rewrite Ep; apply in_app_iff; right; left; reflexivity).
    assert (Hhi : (0 < pr_val hi)%Qc) by (apply Hp; rewrite Ep; apply in_app_iff; right; right; left; reflexivity).
    destruct (Qc_le_total (pr_val lo) (pr_val hi)) as [C|C].
    + eapply Qclt_le_trans; [exact Hlo|]. apply H1. exact C.
    + eapply Qclt_le_trans; [exact Hhi|]. apply H2. exact C.
Qed.

(** On lists without repeated dates the specification is a function. *)
Lemma strict_sorted_le pl : pl_strict pl -> StronglySorted (fun a b => pr_date a <= pr_date b) pl.
Proof. apply StronglySorted_impl. intros. lia. Qed.
Lemma strict_same_date pl p q : pl_strict pl -> In p pl -> In q pl -> pr_date p = pr_date q -> p = q.
Proof.
  intros Hs. induction Hs as [|x pl Hs IH Hall]; intros Hp Hq E; [contradiction|].
  rewrite Forall_forall in Hall.
  destruct Hp as [<-|Hp], Hq as [<-|Hq]; auto.
  - specialize (Hall _ Hq). lia.
  - specialize (Hall _ Hp). lia.
Qed.
Lemma sorted_all_ge p rest : StronglySorted (fun a b => pr_date a <= pr_date b) (p :: rest) ->
  forall x, In x (p :: rest) -> pr_date p <= pr_date x.
Proof. intros H x [<-|Hx]; [lia|]. inversion H as [|? ? _ Hall]. rewrite Forall_forall in Hall. auto. Qed.
Lemma sorted_all_le p front : StronglySorted (fun a b => pr_date a <= pr_date b) (front ++ [p]) ->
  forall x, In x (front ++ [p]) -> pr_date x <= pr_date p.
Proof.
  intros H x Hx. apply StronglySorted_app in H as (_ & _ & H). apply in_app_iff in Hx as [Hx|[<-|[]]]; [|lia].
  apply H; [exact Hx|left; reflexivity].
Qed.

Lemma between_unique pl f1 lo1 hi1 r1 f2 lo2 hi2 r2 d :
  StronglySorted (fun a b => pr_date a <= pr_date b) pl ->
  pl = f1 ++ lo1 :: hi1 :: r1 -> pl = f2 ++ lo2 :: hi2 :: r2 ->
  pr_date lo1 < d < pr_date hi1 -> pr_date lo2 < d < pr_date hi2 -> lo1 = lo2 /\ hi1 = hi2.
Proof.
  revert f1 f2. induction pl as [|x pl IH]; intros f1 f2 Hs E1 E2 H1 H2.
  - destruct f1; discriminate.
  - destruct f1 as [|a f1], f2 as [|b f2]; cbn in E1, E2.
    + injection E1 as <- E1. injection E2 as <- E2. rewrite E1 in E2. injection E2 as <- _. auto.
    + exfalso. injection E1 as <- E1. injection E2 as <- E2.
      apply StronglySorted_inv in Hs as [Hs' _]. rewrite E1 in Hs'.
      assert (Hin : In lo2 (hi1 :: r1)) by (rewrite <- E1; rewrite E2; apply in_app_iff; right; left; reflexivity).
      pose proof (sorted_all_ge _ _ Hs' _ Hin). lia.
    + exfalso. injection E1 as <- E1. injection E2 as <- E2.
      apply StronglySorted_inv in Hs as [Hs' _]. rewrite E2 in Hs'.
      assert (Hin : In lo1 (hi2 :: r2)) by (rewrite <- E2; rewrite E1; apply in_app_iff; right; left; reflexivity).
      pose proof (sorted_all_ge _ _ Hs' _ Hin). lia.
    + injection E1 as _ E1. injection E2 as _ E2. apply StronglySorted_inv in Hs as [Hs' _]. eapply IH; eauto.
Qed.

Lemma quote_fun pl d v t v' t' : pl_strict pl -> quote pl d v t -> quote pl d v' t' -> v = v' /\ t = t'.
Proof.
  intros Hst H H'. pose proof (strict_sorted_le _ Hst) as Hs.
  destruct H as [p rest E Hd|p front E Hd|p Hin Hd|front lo hi rest v E Hd Hno Hl];
  destruct H' as [q rest' E' Hd'|q front' E' Hd'|q Hin' Hd'|front' lo' hi' rest' v' E' Hd' Hno' Hl'].
  - rewrite E in E'. injection E' as -> _. auto.
  - exfalso. rewrite E in Hs. pose proof (sorted_all_ge _ _ Hs q) as G. rewrite <- E, E' in G.
    specialize (G ltac:(apply in_app_iff; right; left; reflexivity)). lia.
  - exfalso. rewrite E in Hs, Hin'. pose proof (sorted_all_ge _ _ Hs q Hin'). lia.
  - exfalso. rewrite E in Hs. pose proof (sorted_all_ge _ _ Hs lo') as G. rewrite <- E, E' in G.
    specialize (G ltac:(apply in_app_iff; right; left; reflexivity)). lia.
  - exfalso. rewrite E in Hs. pose proof (sorted_all_le _ _ Hs q) as G. rewrite <- E, E' in G.
    specialize (G ltac:(left; reflexivity)). lia.
  - rewrite E in E'. apply app_inj_tail in E' as [_ ->]. auto.
  - exfalso. rewrite E in Hs, Hin'. pose proof (sorted_all_le _ _ Hs q Hin'). lia.
  - exfalso. rewrite E in Hs. pose proof (sorted_all_le _ _ Hs hi') as G. rewrite <- E, E' in G.
    specialize (G ltac:(apply in_app_iff; right; right; left; reflexivity)). lia.
  - exfalso. rewrite E' in Hs, Hin. pose proof (sorted_all_ge _ _ Hs p Hin). lia.
  - exfalso. rewrite E' in Hs, Hin. pose proof (sorted_all_le _ _ Hs p Hin). lia.
  - rewrite (strict_same_date pl p q Hst Hin Hin') by congruence. auto.
  - exfalso. apply (Hno' p Hin). exact Hd.
  - exfalso. rewrite E' in Hs. pose proof (sorted_all_ge _ _ Hs lo) as G. rewrite <- E', E in G.
    specialize (G ltac:(apply in_app_iff; right; left; reflexivity)). lia.
  - exfalso. rewrite E' in Hs. pose proof (sorted_all_le _ _ Hs hi) as G. rewrite <- E', E in G.
    specialize (G ltac:(apply in_app_iff; right; right; left; reflexivity)). lia.
  - exfalso. apply (Hno q Hin'). exact Hd'.
  - destruct (between_unique pl _ _ _ _ _ _ _ _ d Hs E E' Hd Hd') as [-> ->].
    destruct Hl as (nd & nl & nh & A1 & A2 & A3 & Hb & A4).
    destruct Hl' as (nd' & nl' & nh' & B1 & B2 & B3 & Hb' & B4).
    rewrite A1 in B1; injection B1 as <-. rewrite A2 in B2; injection B2 as <-. rewrite A3 in B3; injection B3 as <-.
    split; [|reflexivity].
    pose proof (qz_nz (nh - nl) ltac:(lia)) as Hnz.
    assert (G : ((v - pr_val lo') = (v' - pr_val lo'))%Qc).
    { replace (v - pr_val lo')%Qc with ((v - pr_val lo') * qz (nh - nl) / qz (nh - nl))%Qc by (field; exact Hnz).
      rewrite A4, <- B4. field. exact Hnz. }
    replace v with ((v - pr_val lo') + pr_val lo')%Qc by ring. rewrite G. ring.
Qed.

(** ** The iterator *)
Lemma it_advance_spec pl d : forall fuel idx, (idx <= length pl)%nat -> (length pl - idx < fuel)%nat ->
  exists j, it_advance fuel pl idx d = Ok j /\ (idx <= j <= length pl)%nat /\
    (forall i p, (idx <= i < j)%nat -> nth_error pl i = Some p -> pr_date p < d) /\
    (forall p, nth_error pl j = Some p -> d <= pr_date p).
Proof.
  induction fuel as [|f IH]; intros idx H1 H2; [lia|].
  cbn [it_advance]. destruct (Nat.ltb_spec idx (length pl)).
  - destruct (index_lt pl idx ltac:(lia)) as (p & -> & Ep). cbn [obind].
    destruct (Z.ltb_spec (pr_date p) d).
    + destruct (IH (S idx)) as (j & E & Hj & Hlt & Hge); [lia|lia|].
      exists j. repeat split; try lia; auto.
      intros i q Hi Hq. destruct (Nat.eq_dec i idx) as [->|]; [congruence|]. apply (Hlt i); [lia|exact Hq].
    + exists idx. repeat split; try lia. intros q Hq. congruence.
  - exists idx. repeat split; try lia. intros p Hp. assert (nth_error pl idx <> None) by congruence.
    apply nth_error_Some in H0. lia.
Qed.

Definition it_ok (pl : pricelist) (idx : nat) (d : Z) : Prop :=
  (idx <= length pl)%nat /\ forall i p, (i < idx)%nat -> nth_error pl i = Some p -> pr_date p < d.

Lemma it_get_spec pl idx d : pl_ok pl -> valid_date d -> it_ok pl idx d ->
  exists j v t, it_get pl idx d = Ok (j, (v, t)) /\ quote pl d v t /\
    forall d', d <= d' -> it_ok pl j d'.
Proof.
  intros (Hne & Hv & Hs) Vd (Hi & Hbelow). unfold it_get.
  destruct (it_advance_spec pl d (S (length pl)) idx Hi ltac:(lia)) as (j & E & Hj & Hlt & Hge).
  rewrite E. cbn [obind].
  assert (Hall : forall i p, (i < j)%nat -> nth_error pl i = Some p -> pr_date p < d).
  { intros i p Hij Hp. destruct (Nat.lt_ge_cases i idx) as [C|C]; [eapply Hbelow; eauto|].
    apply (Hlt i); [lia|exact Hp]. }
  assert (Hok : forall d', d <= d' -> it_ok pl j d').
  { intros d' Hd'. split; [lia|]. intros i p Hij Hp. specialize (Hall i p Hij Hp). lia. }
  destruct (Nat.eqb_spec j (length pl)) as [->|Hnj].
  - destruct (last_index pl Hne) as (front & x & Ef & Ex). rewrite Ex. cbn [obind].
    exists (length pl), (pr_val x), OutOfRange. split; [reflexivity|]. split; [|exact Hok].
    eapply q_after; [exact Ef|]. apply (Hall (length front)).
    + rewrite Ef, app_length. cbn. lia.
    + rewrite Ef, nth_error_app2, Nat.sub_diag by lia. reflexivity.
  - destruct (index_lt pl j ltac:(lia)) as (p & -> & Ep). cbn [obind].
    specialize (Hge p Ep).
    destruct (Z.eqb_spec (pr_date p) d) as [Ed|Ed].
    + exists j, (pr_val p), Exact. split; [reflexivity|]. split; [|exact Hok].
      apply q_exact; [eapply nth_error_In; exact Ep|exact Ed].
    + destruct j as [|i].
      * destruct pl as [|p0 pl']; [congruence|]. cbn in Ep. injection Ep as <-.
        cbn [index nth_error obind]. do 3 eexists. split; [reflexivity|]. split; [|exact Hok].
        eapply q_before; [reflexivity|lia].
      * destruct (index_lt pl i ltac:(lia)) as (lo & -> & El). cbn [obind].
        rewrite Forall_forall in Hv.
        pose proof (Hall i lo ltac:(lia) El) as Hlo.
        destruct (interpolate_ok d lo p Vd) as (v & Ei & Hl).
        { apply Hv. eapply nth_error_In; exact El. }
        { apply Hv. eapply nth_error_In; exact Ep. }
        { lia. }
        rewrite Ei. cbn [obind]. exists (S i), v, Inferred. split; [reflexivity|]. split; [|exact Hok].
        destruct (nth_split2 pl i lo p El Ep) as (a & b & Epl).
        eapply q_between; [exact Epl|lia| |exact Hl].
        eapply sorted_le_between; [exact Hs|exact Epl|lia].
Qed.

(** Run an iterator over a sequence of dates. *)
Fixpoint it_run (pl : pricelist) (idx : nat) (ds : list Z) : outcome (list (Qc * ptype)) :=
  match ds with
  | [] => Ok []
  | d :: ds' => do (j, r) <- it_get pl idx d; do rs <- it_run pl j ds'; Ok (r :: rs)
  end.
Fixpoint map_out {A B} (f : A -> outcome B) (l : list A) : outcome (list B) :=
  match l with [] => Ok [] | x :: l' => do y <- f x; do ys <- map_out f l'; Ok (y :: ys) end.

Lemma it_run_spec pl ds : pl_ok pl -> pl_strict pl -> Forall valid_date ds ->
  forall idx, StronglySorted Z.le ds -> (forall d ds', ds = d :: ds' -> it_ok pl idx d) ->
  it_run pl idx ds = map_out (pl_get pl) ds.
Proof.
  intros Hok Hst Hv. induction Hv as [|d ds Vd Hv IH]; intros idx Hs Hidx; [reflexivity|].
  cbn [it_run map_out].
  destruct (it_get_spec pl idx d Hok Vd (Hidx _ _ eq_refl)) as (j & v & t & E & Hq & Hj).
  destruct (pl_get_spec pl d Hok Vd) as (v' & t' & E' & Hq').
  destruct (quote_fun pl d v t v' t' Hst Hq Hq') as [-> ->].
  rewrite E, E'. cbn [obind]. inversion Hs as [|? ? Hs' Hall]; subst.
  rewrite (IH j Hs'); [reflexivity|].
  intros d2 ds2 ->. apply Hj. rewrite Forall_forall in Hall. apply Hall. left; reflexivity.
Qed.

(** ** Builder *)
Lemma add_price_get pb d u c v k :
  aget pair_eqb k (add_price pb d u c v) =
  if pair_eqb (u, c) k then Some (match aget pair_eqb k pb with Some l => l | None => [] end ++ [mkPrice d v])
  else aget pair_eqb k pb.
Proof.
  unfold add_price. destruct (pair_eqb (u, c) k) eqn:E.
  - apply pair_eqb_eq in E. subst k.
    destruct (aget pair_eqb (u, c) pb); rewrite (aget_aset_eq _ pair_eqb_eq); reflexivity.
  - assert (k <> (u, c)) by (intros ->; rewrite (proj2 (pair_eqb_eq _ _) eq_refl) in E; discriminate).
    destruct (aget pair_eqb (u, c) pb); rewrite (aget_aset_neq _ pair_eqb_eq) by assumption; reflexivity.
Qed.
Lemma add_price_NoDup pb d u c v : NoDup (map fst pb) -> NoDup (map fst (add_price pb d u c v)).
Proof.
  intros H. unfold add_price.
  destruct (aget pair_eqb (u, c) pb); apply (aset_NoDup _ pair_eqb_eq); exact H.
Qed.
Lemma add_all_spec l : forall pb, NoDup (map fst pb) ->
  NoDup (map fst (add_all l pb)) /\
  forall k, aget pair_eqb k (add_all l pb) =
    match aget pair_eqb k pb, adds_for k l with
    | None, [] => None
    | Some x, a => Some (x ++ a)
    | None, a => Some a
    end.
Proof.
  induction l as [|[[d [u c]] v] l IH]; intros pb Hn.
  - cbn. split; [exact Hn|]. intros k. destruct (aget pair_eqb k pb); [rewrite app_nil_r|]; reflexivity.
  - unfold add_all in *. cbn [fold_left].
    destruct (IH (add_price pb d u c v) (add_price_NoDup _ _ _ _ _ Hn)) as [H1 H2].
    split; [exact H1|]. intros k. rewrite H2, add_price_get. unfold adds_for. cbn [filter].
    destruct (pair_eqb (u, c) k) eqn:E; cbn [map].
    + destruct (aget pair_eqb k pb); [|reflexivity]. rewrite <- app_assoc. reflexivity.
    + reflexivity.
Qed.
Lemma build_prices_get pb k : aget pair_eqb k (build_prices pb) = option_map (isort price_less) (aget pair_eqb k pb).
Proof.
  unfold build_prices. induction pb as [|[k' l] pb IH]; [reflexivity|]. cbn.
  destruct (pair_eqb k' k); [reflexivity|exact IH].
Qed.
Lemma build_prices_keys pb : map fst (build_prices pb) = map fst pb.
Proof. unfold build_prices. rewrite map_map. apply map_ext. intros [k l]. reflexivity. Qed.

Lemma price_less_swo : swo price_less.
Proof.
  unfold price_less. split.
  - intros a b H. apply Z.ltb_lt in H. apply Z.ltb_ge. lia.
  - intros a b c H1 H2. apply Z.ltb_ge in H1. apply Z.ltb_ge in H2. apply Z.ltb_ge. lia.
Qed.
Lemma isort_price_sorted l : StronglySorted (fun a b => pr_date a <= pr_date b) (isort price_less l).
Proof.
  eapply StronglySorted_impl; [|apply (isort_sorted price_less l price_less_swo)].
  intros a b _ _ H. unfold price_less in H. apply Z.ltb_ge in H. exact H.
Qed.
Lemma isort_price_ok l : l <> [] -> Forall (fun p => valid_date (pr_date p)) l -> pl_ok (isort price_less l).
Proof.
  intros Hne Hv. split; [|split].
  - intros E. apply Hne. apply Permutation_nil. rewrite <- E. symmetry. apply isort_perm.
  - rewrite Forall_forall in *. intros p Hp. apply Hv.
    eapply Permutation_in; [symmetry; apply isort_perm|exact Hp].
  - apply isort_price_sorted.
Qed.

Lemma pl_ok_get pb k l : pb_ok pb -> aget pair_eqb k pb = Some l -> pl_ok l.
Proof.
  intros [_ H] E. apply (aget_In _ pair_eqb_eq) in E. rewrite Forall_forall in H. apply (H _ E).
Qed.

Lemma built_ok l : Forall (fun '(d, _, _) => valid_date d) l -> pb_ok (build_prices (add_all l [])).
Proof.
  intros Hv. destruct (add_all_spec l [] (NoDup_nil _)) as [Hn Hg].
  assert (Hn' : NoDup (map fst (build_prices (add_all l [])))) by (rewrite build_prices_keys; exact Hn).
  split; [exact Hn'|]. rewrite Forall_forall. intros [k pl] Hin. cbn.
  apply (aget_Some_iff _ pair_eqb_eq k pl _ Hn') in Hin.
  rewrite build_prices_get, Hg in Hin. cbn in Hin.
  destruct (adds_for k l) as [|a al] eqn:E; cbn in Hin; [discriminate|].
  injection Hin as <-. change (insert_by price_less a (isort price_less al)) with (isort price_less (a :: al)).
  apply isort_price_ok; [discriminate|]. rewrite <- E.
  rewrite Forall_forall in *. intros p Hp. unfold adds_for in Hp. apply in_map_iff in Hp as ([[d k'] v] & <- & Hp).
  apply filter_In in Hp as [Hp _]. apply (Hv _ Hp).
Qed.

(** ** getPrice *)
Lemma get_price_same pb d u : get_price pb d u u = Ok (1%Qc, Exact).
Proof. unfold get_price. rewrite str_eqb_refl. reflexivity. Qed.
Lemma get_price_direct pb d u c l : u <> c -> aget pair_eqb (u, c) pb = Some l -> get_price pb d u c = pl_get l d.
Proof. intros H E. unfold get_price. apply str_eqb_neq in H. rewrite H, E. reflexivity. Qed.
Lemma get_price_none pb d u c : u <> c -> aget pair_eqb (u, c) pb = None -> aget pair_eqb (c, u) pb = None ->
  get_price pb d u c = Ok (1%Qc, PNone).
Proof. intros H E E2. unfold get_price. apply str_eqb_neq in H. rewrite H, E, E2. reflexivity. Qed.
Lemma get_price_inverse pb d u c l v t : u <> c -> aget pair_eqb (u, c) pb = Some l -> aget pair_eqb (c, u) pb = None ->
  get_price pb d u c = Ok (v, t) -> v <> 0%Qc -> get_price pb d c u = Ok ((/ v)%Qc, t).
Proof.
  intros H E E2 G Hv. unfold get_price in *. pose proof H as H'. apply str_eqb_neq in H.
  rewrite H, E in G. rewrite str_eqb_sym, H, E2, E. rewrite G. cbn [obind].
  unfold rat_inv. apply qc_is0_neq in Hv. rewrite Hv. reflexivity.
Qed.

Definition pb_pos (pb : pbook) : Prop := Forall (fun e => Forall (fun p => (0 < pr_val p)%Qc) (snd e)) pb.
Lemma get_price_total pb d u c : pb_ok pb -> pb_pos pb -> valid_date d ->
  exists v t, get_price pb d u c = Ok (v, t) /\ (0 < v)%Qc.
Proof.
  intros Hok Hpos Vd. unfold get_price.
  destruct (str_eqb u c); [exists 1%Qc, Exact; split; reflexivity|].
  assert (Hg : forall k l, aget pair_eqb k pb = Some l -> exists v t, pl_get l d = Ok (v, t) /\ (0 < v)%Qc).
  { intros k l E. destruct (pl_get_spec l d (pl_ok_get pb k l Hok E) Vd) as (v & t & E1 & Hq).
    exists v, t. split; [exact E1|]. eapply quote_pos; [|exact Hq].
    unfold pb_pos in Hpos. rewrite Forall_forall in Hpos. apply (Hpos (k, l)).
    apply (aget_In _ pair_eqb_eq). exact E. }
  destruct (aget pair_eqb (u, c) pb) as [l|] eqn:E1; [eapply Hg; exact E1|].
  destruct (aget pair_eqb (c, u) pb) as [l|] eqn:E2.
  - destruct (Hg _ _ E2) as (v & t & -> & Hv). cbn [obind]. unfold rat_inv.
    assert (Hnz : v <> 0%Qc) by (intros ->; apply (Qclt_not_eq _ _ Hv); reflexivity).
    rewrite (proj2 (qc_is0_neq v) Hnz). cbn [obind]. exists (/ v)%Qc, t. split; [reflexivity|].
    destruct (Qclt_le_dec 0 (/ v)) as [C|C]; [exact C|]. exfalso.
    assert (G : (/ v * v <= 0 * v)%Qc) by (apply Qcmult_le_compat_r; [exact C|apply Qclt_le_weak; exact Hv]).
    rewrite Qcmult_comm, Qcmult_inv_r in G by exact Hnz. rewrite Qcmult_0_l in G. apply G. reflexivity.
  - exists 1%Qc, PNone. split; reflexivity.
Qed.
(** Without any condition on the values: the direct direction never fails, the inverse fails only on zero. *)
Lemma get_price_cases pb d u c : pb_ok pb -> valid_date d ->
  (exists v t, get_price pb d u c = Ok (v, t)) \/
  (get_price pb d u c = Panic /\ aget pair_eqb (u, c) pb = None /\
   exists l t, aget pair_eqb (c, u) pb = Some l /\ pl_get l d = Ok (0%Qc, t)).
Proof.
  intros Hok Vd. unfold get_price.
  destruct (str_eqb u c); [left; eauto|].
  destruct (aget pair_eqb (u, c) pb) as [l|] eqn:E1.
  { destruct (pl_get_spec l d (pl_ok_get pb _ l Hok E1) Vd) as (v & t & E & _). left; eauto. }
  destruct (aget pair_eqb (c, u) pb) as [l|] eqn:E2; [|left; eauto].
  destruct (pl_get_spec l d (pl_ok_get pb _ l Hok E2) Vd) as (v & t & E & _). rewrite E. cbn [obind].
  unfold rat_inv. destruct (qc_is0 v) eqn:E0; cbn [obind].
  - apply qc_is0_eq in E0. subst v. right. repeat split; eauto.
  - left; eauto.
Qed.

(** ** Order of additions does not matter (distinct dates). *)
Lemma sorted_perm_unique (R : price -> price -> Prop) a b :
  (forall x y, R x y -> ~ R y x) -> StronglySorted R a -> StronglySorted R b -> Permutation a b -> a = b.
Proof.
  intros Hasym Ha. revert b. induction Ha as [|x a Ha IH Hall]; intros b Hb Hp.
  - apply Permutation_nil in Hp. congruence.
  - destruct b as [|y b]; [symmetry in Hp; apply Permutation_nil in Hp; discriminate|].
    inversion Hb as [|? ? Hb' Hall']; subst. rewrite Forall_forall in Hall, Hall'.
    assert (x = y).
    { assert (Hx : In x (y :: b)) by (eapply Permutation_in; [exact Hp|left; reflexivity]).
      assert (Hy : In y (x :: a)) by (eapply Permutation_in; [symmetry; exact Hp|left; reflexivity]).
      destruct Hx as [->|Hx]; [reflexivity|]. destruct Hy as [->|Hy]; [reflexivity|].
      exfalso. apply (Hasym x y); [apply Hall; exact Hy|apply Hall'; exact Hx]. }
    subst y. f_equal. apply IH; [exact Hb'|]. apply Permutation_cons_inv in Hp. exact Hp.
Qed.
Lemma isort_strict l : NoDup (map pr_date l) -> pl_strict (isort price_less l).
Proof.
  intros Hn. pose proof (isort_price_sorted l) as Hs.
  assert (Hn' : NoDup (map pr_date (isort price_less l))).
  { eapply Permutation_NoDup; [apply Permutation_map; apply isort_perm|exact Hn]. }
  revert Hs Hn'. generalize (isort price_less l). intros m Hs Hn'. unfold pl_strict.
  induction Hs as [|x m Hs IH Hall]; [constructor|].
  cbn in Hn'. inversion Hn' as [|? ? H1 H2]; subst. constructor; [apply IH; exact H2|].
  rewrite Forall_forall in *. intros y Hy. specialize (Hall y Hy).
  assert (pr_date x <> pr_date y) by (intros E; apply H1; rewrite E; apply in_map; exact Hy). lia.
Qed.
Lemma adds_for_perm k l l' : Permutation l l' -> Permutation (adds_for k l) (adds_for k l').
Proof. intros H. unfold adds_for. apply Permutation_map. apply filter_perm. exact H. Qed.
Lemma build_order_indep l l' : Permutation l l' ->
  (forall k, NoDup (map pr_date (adds_for k l))) ->
  forall d u c, get_price (build_prices (add_all l [])) d u c = get_price (build_prices (add_all l' [])) d u c.
Proof.
  intros Hp Hn d u c.
  assert (Hk : forall k, aget pair_eqb k (build_prices (add_all l [])) = aget pair_eqb k (build_prices (add_all l' []))).
  { intros k. rewrite !build_prices_get.
    rewrite (proj2 (add_all_spec l [] (NoDup_nil _)) k), (proj2 (add_all_spec l' [] (NoDup_nil _)) k). cbn.
    pose proof (adds_for_perm k l l' Hp) as Hpk. specialize (Hn k).
    assert (Es : isort price_less (adds_for k l) = isort price_less (adds_for k l')).
    { apply (sorted_perm_unique (fun a b => pr_date a < pr_date b)).
      - intros x y H1 H2. lia.
      - apply isort_strict. exact Hn.
      - apply isort_strict. eapply Permutation_NoDup; [apply Permutation_map; exact Hpk|exact Hn].
      - rewrite <- !isort_perm. exact Hpk. }
    destruct (adds_for k l) as [|a al] eqn:E1.
    - apply Permutation_nil in Hpk. rewrite Hpk. reflexivity.
    - destruct (adds_for k l') as [|b bl] eqn:E2.
      + symmetry in Hpk. apply Permutation_nil in Hpk. discriminate.
      + cbn [option_map]. f_equal. exact Es. }
  unfold get_price. rewrite !Hk. reflexivity.
Qed.

(** ** merge *)
Lemma pt_merge_rank a b : rank (pt_merge a b) = Z.min (rank a) (rank b).
Proof. destruct a, b; reflexivity. Qed.
Lemma rank_inj a b : rank a = rank b -> a = b.
Proof. destruct a, b; cbn; congruence. Qed.
Lemma value_type_perm pb d c us us' : Permutation us us' ->
  (forall u, exists v t, get_price pb d u c = Ok (v, t)) ->
  forall pt, value_type pb d us c pt = value_type pb d us' c pt.
Proof.
  intros Hp Hok. induction Hp as [|u us us' Hp IH|u w us|us1 us2 us3 H1 IH1 H2 IH2]; intros pt; cbn [value_type].
  - reflexivity.
  - destruct (Hok u) as (v & t & ->). cbn [obind]. apply IH.
  - destruct (Hok u) as (v & t & ->), (Hok w) as (v' & t' & ->). cbn [obind].
    f_equal. apply rank_inj. rewrite !pt_merge_rank. lia.
  - rewrite IH1. apply IH2.
Qed.
Lemma value_type_min pb d c us : forall pt r, value_type pb d us c pt = Ok r ->
  (r = pt \/ exists u v, In u us /\ get_price pb d u c = Ok (v, r)) /\
  rank r <= rank pt /\ forall u v t, In u us -> get_price pb d u c = Ok (v, t) -> rank r <= rank t.
Proof.
  induction us as [|u us IH]; cbn [value_type]; intros pt r H.
  - injection H as <-. repeat split; [left; reflexivity|lia|contradiction].
  - apply obind_Ok in H as ([v t] & E & H). apply IH in H as (H1 & H2 & H3).
    rewrite pt_merge_rank in H2. repeat split.
    + destruct H1 as [->|(u' & v' & Hin & E')]; [|right; exists u', v'; split; [right; exact Hin|exact E']].
      destruct (Z.le_gt_cases (rank pt) (rank t)) as [C|C].
      * left. apply rank_inj. rewrite pt_merge_rank. lia.
      * right. exists u, v. split; [left; reflexivity|]. rewrite E. f_equal. f_equal.
        apply rank_inj. rewrite pt_merge_rank. lia.
    + lia.
    + intros u' v' t' [<-|Hin] E'; [|eapply H3; eauto].
      rewrite E in E'. injection E' as _ <-. lia.
Qed.
