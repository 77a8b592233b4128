(** * AppendProofs2: transactions entered after a history (C85). *)
From Verif Require Import Base Utf8 Dec DateProofs2 PriceModel BookModel BookSpec BookProofs BuilderProofs OpsModel OpsProofs AccumModel LoaderModel LoaderSpec
  LoaderProofs LoaderProofs2 LoaderProofs3 LoaderProofs4 LoaderProofs5 LoaderProofs6 LoaderProofs7 ExportModel ExportSpec ExportProofs2 ExportProofs3 ImportSpec AppendSpec AppendProofs.
From Coq Require Import ZifyBool ZifyNat Zify.
Ltac Zify.zify_post_hook ::= idtac.

Definition titled (pay : str) (p : posting) : posting := mkP (p_date p) pay (p_tnote p) (p_acct p) (p_ccy p) (p_val p) (p_note p) 0%Qc 0 [] [].

Definition sane (t : trans) : Prop := t <> [] /\ (forall p q, In p t -> In q t -> dp p = dp q) /\ one_note t /\ balanced t.
Definition variant (pay : str) (t : trans) : Prop := Forall (fun p => pay = p_payee p \/ exists n, 2 <= n /\ pay = numbered (p_payee p) n) t.
Definition retitle (pays : list str) (ts : list trans) : list trans := map (fun '(pay, t) => map (titled pay) t) (combine pays ts).
Lemma enter_run2 ts : forall b used seg, state_ok b used seg -> (forall c, seg_sum c seg = 0%Qc) -> Forall sane ts ->
  exists b' seg' pays, bsteps b (flat_map trans_calls ts) = Ok b' /\ Forall2 variant pays ts /\
    (NoDup (used ++ tkeys ts) -> Forall2 (fun pay t => Forall (fun p => pay = p_payee p) t) pays ts) /\
    state_ok b' (used ++ tkeys (retitle pays ts)) seg' /\ (forall c, seg_sum c seg' = 0%Qc) /\ bu_post b' = bu_post b ++ concat (retitle pays ts) /\ bu_prices b' = bu_prices b.
Proof.
  induction ts as [|t ts IH]; intros b used seg Hok Hz Hts.
  - exists b, seg, []. cbn. rewrite !app_nil_r. repeat split; auto; try apply Hok; constructor.
  - inversion Hts as [|? ? (Hne & Hdp & Hnote & Hbal) Hts']; subst. destruct t as [|p t]; [congruence|]. cbn [flat_map trans_calls].
    destruct (new_transaction_cases b used seg (p_date p) (p_payee p) (p_tnote p) Hok) as [(_ & b1 & E1 & Hd & Hn & Hp & Hpr & Hfi & _ & Hok1)|[Hno _]]; [|contradiction].
    destruct (posts_run (p :: t) b1 _ _ Hok1) as (b2 & E2 & Hok2 & Hp2 & Hpr2). cbn [app] in Hok2.
    assert (Hz2 : forall c, seg_sum c (map (fun p => (p_ccy p, p_val p)) (p :: t)) = 0%Qc).
    { intros c. rewrite (seg_of_trans c (p_date p) (p_payee p)); [apply Hbal|]. rewrite Forall_forall. intros q Hq. apply (Hdp q p Hq). left. reflexivity. }
    destruct (IH b2 _ _ Hok2 Hz2 Hts') as (b3 & seg3 & pays & E3 & L & Hfr & Hok3 & Hz3 & Hp3 & Hpr3).
    assert (Hpay : forall q, In q (p :: t) -> p_payee q = p_payee p) by (intros q Hq; assert (X : dp q = dp p) by (apply Hdp; [exact Hq|left; reflexivity]); unfold dp in X; congruence).
    exists b3, seg3, (bu_payee b1 :: pays). split; [|split; [|split]].
    + rewrite <- app_comm_cons. cbn [bsteps bstep]. rewrite E1. cbn [obind]. rewrite bsteps_app, E2. exact E3.
    + constructor; [|exact L]. unfold variant. rewrite Forall_forall. intros q Hq. rewrite (Hpay q Hq). destruct Hfi as [[E _]|(_ & n & H1 & H2 & _)]; [left; exact E|right; exists n; auto].
    + intros Hnd. unfold tkeys in Hnd. cbn [map] in Hnd. change (dp p) with (p_date p, p_payee p) in Hnd. fold (tkeys ts) in Hnd.
      assert (Hfresh : ~ In (p_date p, p_payee p) used) by (apply NoDup_remove_2 in Hnd; intros X; apply Hnd; apply in_app_iff; auto).
      assert (E : bu_payee b1 = p_payee p) by (destruct Hfi as [[E _]|[Hin _]]; [exact E|contradiction]).
      constructor; [rewrite Forall_forall; intros q Hq; rewrite (Hpay q Hq); exact E|]. apply Hfr. rewrite E, <- app_assoc. exact Hnd.
    + unfold retitle in *. cbn [combine map]. unfold tkeys in *. cbn [map]. change (dp (titled (bu_payee b1) p)) with (p_date p, bu_payee b1). rewrite <- app_assoc in Hok3. cbn [app] in Hok3.
      split; [exact Hok3|]. split; [exact Hz3|]. split; [|congruence]. rewrite Hp3, Hp2, Hp, <- app_assoc. f_equal. cbn [concat]. f_equal.
      change (titled (bu_payee b1) p :: map (titled (bu_payee b1)) t) with (map (titled (bu_payee b1)) (p :: t)). apply map_ext_in. intros q Hq.
      assert (Edp : dp q = dp p) by (apply Hdp; [exact Hq|left; reflexivity]). assert (Et : p_tnote q = p_tnote p) by (apply Hnote; [exact Hq|left; reflexivity]).
      unfold titled. rewrite Hd, Hn. unfold dp in Edp. f_equal; congruence.
Qed.
Lemma retitle_entered pays ts : Forall2 variant pays ts -> Forall2 entered ts (retitle pays ts).
Proof.
  induction 1 as [|pay t pays ts H _ IH]; [constructor|]. constructor; [|exact IH]. exists pay. split; [exact H|]. rewrite map_map. apply map_ext. intros p. reflexivity.
Qed.
Lemma retitle_same pays ts : Forall2 (fun pay t => Forall (fun p => pay = p_payee p) t) pays ts -> Forall2 same_trans ts (retitle pays ts).
Proof.
  induction 1 as [|pay t pays ts H _ IH]; [constructor|]. constructor; [|exact IH]. unfold same_trans. rewrite map_map. apply map_ext_in. intros p Hp.
  rewrite Forall_forall in H. unfold vis, titled. cbn. rewrite (H p Hp). reflexivity.
Qed.
Lemma total_titled a c pay t : total (in_acct a c) (map (titled pay) t) = total (in_acct a c) t.
Proof. induction t as [|p t IH]; [reflexivity|]. cbn [map]. rewrite !total_cons, IH. reflexivity. Qed.
Lemma retitle_total a c pays ts : Forall2 variant pays ts -> total (in_acct a c) (concat (retitle pays ts)) = total (in_acct a c) (concat ts).
Proof.
  induction 1 as [|pay t pays ts _ _ IH]; [reflexivity|]. unfold retitle in *. cbn [combine map concat]. rewrite !total_app, total_titled, IH. reflexivity.
Qed.
Lemma nodup_groups ts : Forall (fun t : trans => t <> [] /\ forall p q, In p t -> In q t -> dp p = dp q) ts -> NoDup (tkeys ts) ->
  Forall (fun t => NoDup (map pkey t)) ts -> NoDup (map pkey (concat ts)).
Proof.
  induction ts as [|t ts IH]; intros H1 H2 H3; [constructor|]. apply Forall_cons_iff in H1 as [[Hne Hdp] H1]. apply Forall_cons_iff in H3 as [H3 H4].
  unfold tkeys in H2. cbn [map] in H2. apply NoDup_cons_iff in H2 as [H2 H5]. specialize (IH H1 H5 H4). cbn [concat]. rewrite map_app.
  assert (Hdis : forall p, In p t -> ~ In (pkey p) (map pkey (concat ts))).
  { intros p Hp Hin. apply in_map_iff in Hin as (q & E & Hq). apply H2. apply in_concat in Hq as (u & Hu & Hq). apply in_map_iff. exists u. split; [|exact Hu].
    rewrite Forall_forall in H1. destruct (H1 u Hu) as [Hnu Hdu]. destruct u as [|q0 u]; [destruct Hq|]. destruct t as [|p0 t]; [destruct Hp|].
    rewrite (Hdu q0 q (or_introl eq_refl) Hq), (Hdp p0 p (or_introl eq_refl) Hp). apply pkey_eq in E as (k1 & k2 & _). unfold dp. congruence. }
  clear - H3 Hdis IH. induction t as [|p t IHt]; [exact IH|]. cbn [map app] in *. apply NoDup_cons_iff in H3 as [H3 H4]. constructor.
  - rewrite in_app_iff. intros [H|H]; [contradiction|]. exact (Hdis p (or_introl eq_refl) H).
  - apply IHt; [exact H4|]. intros q Hq. apply Hdis. right. exact Hq.
Qed.
(** What the entered transactions need of the printed ones. *)
Definition clean (t : trans) : Prop := Forall (fun p => p_val p <> 0%Qc /\ p_date p <> -1) t /\ NoDup (map pkey t).
Lemma titled_clean pay t : sane t -> clean t -> map (titled pay) t <> [] /\ (forall p q, In p (map (titled pay) t) -> In q (map (titled pay) t) -> dp p = dp q) /\ clean (map (titled pay) t).
Proof.
  intros (Hne & Hdp & _ & _) (Hz & Hnd). split; [destruct t; [congruence|discriminate]|]. split.
  - intros p q Hp Hq. apply in_map_iff in Hp as (p0 & <- & Hp). apply in_map_iff in Hq as (q0 & <- & Hq). specialize (Hdp p0 q0 Hp Hq). unfold dp in *. cbn. congruence.
  - split.
    + rewrite Forall_forall in *. intros p Hp. apply in_map_iff in Hp as (p0 & <- & Hp). exact (Hz p0 Hp).
    + rewrite map_map. clear Hne Hz. induction t as [|p t IH]; [constructor|]. cbn [map] in *. apply NoDup_cons_iff in Hnd as [H1 H2]. constructor.
      * intros Hin. apply H1. apply in_map_iff in Hin as (q & E & Hq). apply in_map_iff. exists q. split; [|exact Hq].
        specialize (Hdp q p (or_intror Hq) (or_introl eq_refl)). unfold pkey in *. cbn in E. unfold dp in Hdp. congruence.
      * apply IH; [|exact H2]. intros a b Ha Hb. apply Hdp; right; assumption.
Qed.
Lemma retitle_clean pays ts : Forall sane ts -> Forall clean ts ->
  Forall (fun t : trans => t <> [] /\ forall p q, In p t -> In q t -> dp p = dp q) (retitle pays ts) /\ Forall clean (retitle pays ts).
Proof.
  intros H1 H2. revert pays. induction ts as [|t ts IH]; intros pays; [unfold retitle; rewrite combine_nil; split; constructor|].
  apply Forall_cons_iff in H1 as [S1 H1]. apply Forall_cons_iff in H2 as [C1 H2]. destruct pays as [|pay pays]; [split; constructor|]. unfold retitle in *. cbn [combine map].
  destruct (titled_clean pay t S1 C1) as (A & B & C). destruct (IH H1 H2 pays) as [D E]. split; constructor; auto.
Qed.

Lemma entered_book srt cs ts main : sort_ok is_less srt -> build_calls srt cs = Ok main -> Forall sane ts -> Forall clean ts ->
  exists new us, build_calls srt (cs ++ flat_map trans_calls ts) = Ok new /\ Forall2 entered ts us /\
    (NoDup (identities new_builder cs ++ tkeys ts) -> Forall2 same_trans ts us) /\
    Permutation (map amt (bk_post new)) (map amt (bk_post main) ++ map amt (concat us)) /\
    (forall p, In p (concat us) -> exists q, In q (bk_post new) /\ vis q = vis p) /\
    (forall a c, total (in_acct a c) (bk_post new) = (total (in_acct a c) (bk_post main) + total (in_acct a c) (concat ts))%Qc) /\
    (forall p q, In p (bk_post main) -> In q (concat us) -> dp p <> dp q).
Proof.
  intros Hs E Hsane Hclean. unfold build_calls in E. apply obind_Ok in E as (b & Eb & E).
  destruct (bsteps_cases cs new_builder [] [] new_builder_ok) as [(_ & b0 & E0 & Hok & Hp)|[_ E0]]; rewrite Eb in E0; [injection E0 as <-|discriminate E0]. cbn [app bu_post new_builder] in Hp, Hok.
  destruct (build_ok_state srt b _ _ main Hs Hok E) as (Em & C1 & T1 & Hz).
  destruct (enter_run2 ts b _ _ Hok Hz Hsane) as (b' & seg' & pays & Er & Hvar & Hsame & Hok' & Hz' & Hp' & _).
  destruct (build_state srt b' _ _ Hs Hok' Hz') as (new & En & Ep & Hbok & C2 & T2).
  destruct (retitle_clean pays ts Hsane Hclean) as [Hgrp Hcl]. set (us := retitle pays ts) in *.
  exists new, us. split; [unfold build_calls; rewrite bsteps_app, Eb; cbn [obind]; rewrite Er; exact En|].
  split; [apply retitle_entered; exact Hvar|]. split; [intros H; apply retitle_same; auto|].
  assert (Hnd' : NoDup (identities new_builder cs ++ tkeys us)) by (destruct Hok' as (_ & _ & _ & _ & _ & X); exact X).
  assert (Hndu : NoDup (map pkey (concat us))).
  { apply nodup_groups; [exact Hgrp| |eapply Forall_impl; [|exact Hcl]; intros t [_ H]; exact H]. clear - Hnd'. induction (identities new_builder cs) as [|x l IH]; [exact Hnd'|]. cbn [app] in Hnd'. apply NoDup_cons_iff in Hnd' as [_ H]. exact (IH H). }
  assert (Hzu : forall q, In q (concat us) -> p_val q <> 0%Qc /\ p_date q <> -1 /\ In (dp q) (tkeys us)).
  { intros q Hq. apply in_concat in Hq as (u & Hu & Hq). rewrite Forall_forall in Hcl, Hgrp. destruct (Hcl u Hu) as [Hv _]. rewrite Forall_forall in Hv. destruct (Hv q Hq) as [V1 V2]. split; [exact V1|]. split; [exact V2|].
    destruct (Hgrp u Hu) as [_ Hdu]. unfold tkeys. apply in_map_iff. exists u. split; [|exact Hu]. destruct u as [|q0 u]; [destruct Hq|]. apply Hdu; [left; reflexivity|exact Hq]. }
  assert (Hdis : forall p q, In p (bu_post b) -> In q (concat us) -> dp p <> dp q).
  { intros p q Hpi Hq Epq. destruct (Hzu q Hq) as (_ & Hd & Hk). rewrite Hp in Hpi. apply posted_dp in Hpi as [Hpi|Hpi].
    - apply Hd. rewrite Epq in Hpi. unfold dp in Hpi. injection Hpi as Hpi _. auto.
    - rewrite Epq in Hpi. revert Hnd' Hpi Hk. clear. generalize (identities new_builder cs) (tkeys us) (dp q). intros l1 l2 k. induction l1 as [|x l1 IH]; intros Hnd H1 H2; [destruct H1|].
      cbn [app] in Hnd. apply NoDup_cons_iff in Hnd as [Hn Hnd]. destruct H1 as [->|H1]; [apply Hn; apply in_app_iff; auto|exact (IH Hnd H1 H2)]. }
  assert (Hdism : forall p q, In p (bk_post main) -> In q (concat us) -> dp p <> dp q).
  { intros p q Hpi Hq. rewrite Em in Hpi. destruct (cposts_origin srt Hs _ p Hpi) as (r & Hr & Kr & _). apply pkey_eq in Kr as (k1 & k2 & _).
    intros X. apply (Hdis r q Hr Hq). rewrite <- X. unfold dp. congruence. }
  split; [|split; [|split; [|exact Hdism]]].
  - rewrite <- map_app. apply amt_perm.
    + apply canonical_nodup. exact C2.
    + rewrite map_app. pose proof (canonical_nodup _ C1) as N1. clear - N1 Hndu Hdism. induction (bk_post main) as [|p l IH]; [exact Hndu|]. cbn [map app] in *. apply NoDup_cons_iff in N1 as [H1 H2]. constructor.
      * rewrite in_app_iff. intros [H|H]; [contradiction|]. apply in_map_iff in H as (q & E & Hq). apply (Hdism p q (or_introl eq_refl) Hq). apply pkey_eq in E as (k1 & k2 & _). unfold dp. congruence.
      * apply IH; [|exact H2]. intros x q Hx. apply Hdism. right. exact Hx.
    + apply C2.
    + apply Forall_app. split; [apply C1|]. rewrite Forall_forall. intros q Hq. apply (Hzu q Hq).
    + intros d pay a c. rewrite T2, Hp', !total_app, T1. reflexivity.
  - intros p Hpi. pose proof Hpi as Hpi'. apply in_split in Hpi as (l1 & l2 & El). rewrite Ep, Hp', El. rewrite app_assoc.
    apply cposts_keeps; [exact Hs| | |].
    + rewrite <- app_assoc, <- El, <- Hp'. apply Hok'.
    + apply (Hzu p Hpi').
    + intros q Hq. rewrite <- app_assoc in Hq. apply in_app_iff in Hq as [Hq|Hq].
      * intros X. apply (Hdis q p Hq Hpi'). apply pkey_eq in X as (k1 & k2 & _). unfold dp. congruence.
      * intros X. rewrite El in Hndu. rewrite map_app in Hndu. cbn [map] in Hndu. apply NoDup_remove_2 in Hndu. apply Hndu. rewrite <- X, <- map_app. apply in_map. exact Hq.
  - intros a c. rewrite T2, Hp', total_app, T1. f_equal. apply retitle_total. exact Hvar.
Qed.
