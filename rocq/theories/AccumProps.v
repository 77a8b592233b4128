(** * AccumProps: properties C38-C42, C69, C70 of Accumulate. [srt] is any sort that returns a sorted permutation,
    [it] any order of visiting a Go map, [micro] the conversion float64/int64 of the sort key. *)
From Verif Require Import Base Dec DateModel DateSpec DateProofs DateProofs2 PriceModel PriceSpec PriceProofs BookModel BookSpec BookProofs BuilderProofs
  OpsModel OpsProofs OpsProofs2 OpsProofs3 BookProps RegisterModel RegisterSpec RegisterProofs AccumModel AccumSpec AccumProofs AccumProofs2 AccumProofs3.

(** A summary is asked of a book with readable prices and at least one posting. *)
Definition summarisable (srt : list posting -> list posting) (b : book) : Prop :=
  reachable srt b /\ pb_ok (bk_prices b) /\ pb_pos (bk_prices b) /\ bk_post (fst (transactions srt b)) <> [] /\
  (forall t p, In t (snd (transactions srt b)) -> In p t -> valid_date (p_date p)).
Definition summarisable_ok (srt : list posting -> list posting) (b : book) : Prop :=
  book_ok b /\ pb_ok (bk_prices b) /\ pb_pos (bk_prices b) /\ bk_post (fst (transactions srt b)) <> [] /\
  (forall t p, In t (snd (transactions srt b)) -> In p t -> valid_date (p_date p)).
Lemma summarisable_weaken srt b : sort_ok is_less srt -> summarisable srt b -> summarisable_ok srt b.
Proof. intros Hs (Hr & H). split; [apply (reachable_ok srt Hs), Hr|exact H]. Qed.
Definition any_order (it : list posting -> list str -> list str) : Prop := forall g l, Permutation (it g l) l.

Lemma summarisable_main srt it micro to d b : sort_ok is_less srt -> any_order it -> summarisable_ok srt b ->
  exists K acl ts,
    accumulate srt it micro to [d] None [] b = Ok (compact srt b, ts) /\
    (forall credit hidden, accumulate srt it micro to [d] credit hidden b = Ok (compact srt b, map (hide credit hidden) ts)) /\
    (forall hidden, Forall (fun t => exists r, In r t /\ is_hidden hidden r = false) ts) /\
    NoDup K /\ (forall p, In p (bk_post (compact srt b)) -> p_ccy p <> to -> In (p_acct p) K) /\
    (forall k, In k K -> exists p, In p (bk_post (compact srt b)) /\ at_or_below d k (p_acct p)) /\
    NoDup acl /\ (forall k, In k acl <-> occurs (snd (transactions srt b)) k) /\
    Forall2 (fun t t' => exists g leaves subs, Permutation g (filled acl t) /\ Permutation (map ac g) acl /\
       Forall2 (leaf_rel d K) g leaves /\ Forall2 (sub_rel (bk_prices b) to d K g) (it g K) subs /\ sorts micro (bk_prices b) to d K g (leaves ++ subs) /\ Permutation t' (leaves ++ subs))
      (snd (transactions srt b)) ts /\ Forall (sorted_by is_less) ts /\ well_grouped ts /\ adjacent_keys d (bk_post (compact srt b)) K.
Proof.
  intros Hs Hi (Hr & Hpo & Hpp & Hne & Hv). unfold transactions in *. cbn [fst snd] in *.
  pose proof (compact_book_ok srt Hs b Hr) as (_ & HT & Hg & _).
  assert (HTP : forall p, In p (bk_post (compact srt b)) <-> exists t, In t (bk_trans (compact srt b)) /\ In p t) by (intros p; rewrite <- HT, in_concat; reflexivity).
  destruct (accum_main srt it micro Hs Hi to d b Hr Hne) as (K & acl & ts & E & Ec & Hvis & K1 & K2 & K3 & A1 & A2 & F & S1 & S2 & S3).
  { intros p c Hp. apply HTP in Hp as (t & Ht & Hp). destruct (get_price_total (bk_prices b) (p_date p) c to Hpo Hpp (Hv t p Ht Hp)) as (v & pt & H & _). eauto. }
  exists K, acl, ts. repeat (split; [assumption|]). split.
  { intros k. rewrite A2, in_map_iff. unfold occurs, ac. split; [intros (p & <- & Hp); apply HTP in Hp as (t & Ht & Hp); eauto|intros (t & p & Ht & Hp & <-); exists p; split; [reflexivity|apply HTP; eauto]]. }
  split; [|split; [assumption|split; assumption]]. pose proof (compact_tidy srt b Hs Hr) as Htd.
  assert (HTin : Forall (fun t => t <> [] /\ NoDup (map ac t) /\ (forall k, In k (map ac t) -> In k acl)) (bk_trans (compact srt b))).
  { rewrite Forall_forall in *. destruct Hg as (Hgf & _). rewrite Forall_forall in Hgf. intros t Ht. split; [apply (Hgf t Ht)|]. split.
    - specialize (Htd t Ht). pose proof (compact_canonical srt Hs b) as Hcan.
      assert (Hss : StronglySorted klt t).
      { destruct (bk_post b) as [|x l] eqn:Eb; [exfalso; apply Hne; unfold compact; rewrite Eb; exact Eb|]. assert (Hc : StronglySorted klt (concat (bk_trans (compact srt b)))) by (rewrite HT; apply Hcan; rewrite <- Eb; apply Hr).
        apply sorted_concat_each in Hc. rewrite Forall_forall in Hc. exact (Hc t Ht). }
      destruct (Hgf t Ht) as [_ Hu]. clear - Hss Hu. induction t as [|p t IH]; cbn [map]; constructor; apply StronglySorted_inv in Hss as [Hss Hp]; [|apply IH; [exact Hss|intros x y Hx Hy; apply Hu; right; assumption]].
      intros Hin. apply in_map_iff in Hin as (q & Eq & Hq). rewrite Forall_forall in Hp. specialize (Hp q Hq). specialize (Hu p q (or_introl eq_refl) (or_intror Hq)). unfold klt in Hp.
      assert (pkey p = pkey q) as Epk by (apply pkey_eq; unfold dp in Hu; unfold ac in Eq; injection Hu as -> ->; injection Eq as -> ->; auto). rewrite Epk in Hp. exact (lc_lt_irrefl _ kcmp_lin _ Hp).
    - intros k Hk. apply A2. apply in_map_iff in Hk as (p & <- & Hp). apply in_map. apply HTP. eauto. }
  pose proof (Forall2_same_l _ _ _ _ HTin F) as F'. eapply Forall2_imp; [|exact F']. intros t t' ((H1 & H2 & H3) & (blk & (g & leaves & subs & Pg & F1 & F2 & Fs & ->) & Pt)).
  exists g, leaves, subs. split; [exact Pg|]. split; [etransitivity; [apply Permutation_map; exact Pg|apply filled_pairs; assumption]|]. auto.
Qed.

(** ** C38 *)
Theorem C38_summary_rows : forall srt it micro to d credit hidden b, sort_ok is_less srt -> any_order it -> summarisable srt b ->
  exists ts rows, accumulate srt it micro to [d] credit hidden b = Ok (fst (transactions srt b), ts) /\
    map trans_id ts = map trans_id (snd (transactions srt b)) /\ Forall uniform ts /\
    Forall (fun t => Permutation (map row_id t) rows) ts /\
    (forall a c, occurs (snd (transactions srt b)) (a, c) -> (hidden = [] \/ a <> hidden) -> exists lv tm, In (a, lv, tm, c) rows) /\
    Forall2 (fun t t' => forall r, In r t' -> (forall p, In p t -> ~ at_or_below d (p_acct r) (p_acct p)) -> p_val r = 0%Qc)
      (snd (transactions srt b)) ts.
Proof.
  intros srt it micro to d credit hidden b Hs Hi Hsum. destruct (summarisable_main srt it micro to d b Hs Hi (summarisable_weaken srt b Hs Hsum)) as (K & acl & ts & E & Ec & Hvis & K1 & K2 & K3 & A1 & A2 & F & S1 & S2 & _).
  unfold transactions in *. cbn [fst snd] in *.
  set (vis := fun k : str * Z * str * str => negb (nonempty hidden && str_eqb (fst (fst (fst k))) hidden)).
  set (R := map (fun k : str * str => (fst k, level_of K d true (fst k), term_of d K true (fst k), snd k)) acl ++ map (fun k => (k, level_of K d false k, term_of d K false k, to)) K).
  exists (map (hide credit hidden) ts), (filter vis R). split; [apply Ec|].
  assert (Hids : forall t, map row_id (hide credit hidden t) = filter vis (map row_id t)).
  { intros t. unfold hide. rewrite map_map. rewrite (map_ext (fun x => row_id (neg_if credit x)) row_id) by (intros p; unfold neg_if; destruct credit as [m|]; [destruct (m (p_acct p))|]; reflexivity).
    induction t as [|p t IH]; [reflexivity|]. cbn [filter map]. unfold is_hidden at 1. unfold vis at 1. cbn [row_id fst]. destruct (nonempty hidden && str_eqb (p_acct p) hidden); cbn [negb]; [exact IH|]. cbn [map]. f_equal. exact IH. }
  assert (Hper : Forall (fun t => Permutation (map row_id t) R) ts).
  { rewrite Forall_forall. intros t' Ht'. destruct (Forall2_In_r _ _ _ _ F Ht') as (t & Ht & g & leaves & subs & _ & Pa & F1 & F2 & Fs & Pt).
    etransitivity; [apply Permutation_map; exact Pt|]. rewrite map_app, (leaves_ids _ _ _ _ F1), (subs_ids _ _ _ _ _ _ _ F2). unfold R. apply Permutation_app; apply Permutation_map; [exact Pa|apply Hi]. }
  split; [|split; [|split; [|split]]].
  - assert (Hgrp : Forall2 (fun t t' => same_trans t t') (bk_trans (compact srt b)) (map (hide credit hidden) ts)).
    { clear - F Hvis. specialize (Hvis hidden). induction F as [|t t' T us H F IH]; cbn [map]; constructor; [|apply IH; exact (Forall_inv_tail Hvis)].
      destruct (Forall_inv Hvis) as (r & Hr & Er). destruct H as (g & leaves & subs & Pg & _ & F1 & F2 & Fs & Pt). split.
      - intros E. assert (Hin : In (neg_if credit r) (hide credit hidden t')) by (apply in_map; apply filter_In; split; [exact Hr|rewrite Er; reflexivity]). rewrite E in Hin. contradiction.
      - intros p Hp. unfold hide in Hp. apply in_map_iff in Hp as (q & <- & Hq). apply filter_In in Hq as [Hq _]. rewrite neg_if_dp. apply (Permutation_in _ Pt) in Hq.
        assert (Hb : block it micro (bk_prices b) to d K acl t (leaves ++ subs)) by (exists g, leaves, subs; auto 10).
        assert (Htn : t <> []). { intros ->. cbn in Pg. apply Permutation_sym, Permutation_nil in Pg. subst g. inversion F1; subst. cbn in Hq.
          destruct (Forall2_In_r _ _ _ _ F2 Hq) as (k & _ & (q0 & sr & [] & _)). }
        exact (proj2 (block_same it micro _ _ _ _ _ _ _ Htn Hb) q Hq). }
    destruct Hsum as (Hr & _). apply (reachable_ok srt Hs) in Hr. pose proof (compact_book_ok srt Hs b Hr) as (_ & _ & (Hgf & _) & _). clear - Hgrp Hgf. revert Hgrp Hgf. generalize (map (hide credit hidden) ts). intros us Hgrp Hgf. induction Hgrp as [|t t' T us [Hn Hd] F IH]; [reflexivity|]. cbn [map]. rewrite IH by exact (Forall_inv_tail Hgf). f_equal.
    destruct (Forall_inv Hgf) as [Htn Hu]. destruct t as [|p t]; [congruence|]. destruct t' as [|p' t']; [congruence|]. cbn [trans_id]. destruct (Hd p' (or_introl eq_refl)) as (q & Hq & ->). f_equal. apply Hu; [exact Hq|left; reflexivity].
  - destruct S2 as (S2 & _). rewrite Forall_forall in *. intros t' Ht'. apply in_map_iff in Ht' as (t & <- & Ht). intros p q Hp Hq. unfold hide in Hp, Hq. apply in_map_iff in Hp as (p0 & <- & Hp). apply in_map_iff in Hq as (q0 & <- & Hq).
    rewrite !neg_if_dp. apply filter_In in Hp as [Hp _]. apply filter_In in Hq as [Hq _]. apply (S2 t Ht); assumption.
  - rewrite Forall_forall in *. intros t' Ht'. apply in_map_iff in Ht' as (t & <- & Ht). rewrite Hids. apply filter_perm. exact (Hper t Ht).
  - intros a c Hoc Hh. exists (level_of K d true a), (term_of d K true a). apply filter_In. split.
    + unfold R. apply in_app_iff. left. apply in_map_iff. exists (a, c). split; [reflexivity|apply A2; exact Hoc].
    + unfold vis. cbn [fst]. destruct Hh as [->|Hh]; [reflexivity|]. apply str_eqb_neq in Hh. rewrite Hh, andb_false_r. reflexivity.
  - clear - F. induction F as [|t t' T us (g & leaves & subs & Pg & _ & F1 & F2 & Fs & Pt) F IH]; cbn [map]; constructor; [|exact IH]. intros r Hr Hno.
    unfold hide in Hr. apply in_map_iff in Hr as (r0 & Er & Hr). apply filter_In in Hr as [Hr _].
    assert (Ea : p_acct r = p_acct r0) by (subst r; unfold neg_if; destruct credit as [m|]; [destruct (m (p_acct r0))|]; reflexivity).
    assert (Ev : p_val r0 = 0%Qc -> p_val r = 0%Qc) by (intros Hz; subst r; unfold neg_if; destruct credit as [m|]; [destruct (m (p_acct r0))|]; cbn [set_val p_val]; rewrite Hz; reflexivity).
    apply Ev. clear Ev Er. rewrite Ea in Hno. clear Ea r. apply (Permutation_in _ Pt) in Hr. apply in_app_iff in Hr as [Hr|Hr].
    + destruct (Forall2_In_r _ _ _ _ F1 Hr) as (p & Hp & (sr & ->)). cbn [set_level p_acct p_val] in *. apply (Permutation_in _ Pg) in Hp. unfold filled in Hp. apply in_app_iff in Hp as [Hp|Hp]; [destruct (Hno p Hp); left; reflexivity|].
      pose proof (fill_zero acl t) as Hz. rewrite Forall_forall in Hz. exact (Hz p Hp).
    + destruct (Forall2_In_r _ _ _ _ F2 Hr) as (k & Hk & (q & sr & _ & ->)). cbn [p_acct p_val] in *. rewrite (tree_sum_perm _ _ _ _ _ _ Pg), tree_sum_filled. unfold tree_sum. rewrite filter_none; [reflexivity|].
      rewrite Forall_forall. intros p Hp. destruct (at_belowb d k (p_acct p)) eqn:Eb; [|reflexivity]. apply at_belowb_spec in Eb. destruct (Hno p Hp Eb).
Qed.
Print Assumptions C38_summary_rows.

(** ** C39. The rows of a transaction are ordinary rows, one for each account and currency of the book, and
    subtotal rows, at most one per account and one for each account with a foreign currency. *)
Lemma subtotals_exact_ok : forall srt it micro to d b, sort_ok is_less srt -> any_order it -> summarisable_ok srt b ->
  exists ts, accumulate srt it micro to [d] None [] b = Ok (fst (transactions srt b), ts) /\
    Forall2 (fun t t' => exists leaves subs, Permutation t' (leaves ++ subs) /\
        Forall (ordinary t) leaves /\ NoDup (map ac leaves) /\ (forall k, In k (map ac leaves) <-> occurs (snd (transactions srt b)) k) /\
        Forall (subtotal_of (bk_prices b) to d t) subs /\ NoDup (map p_acct subs) /\
        (forall a c, occurs (snd (transactions srt b)) (a, c) -> c <> to -> In a (map p_acct subs)) /\
        (forall k, In k (map p_acct subs) -> exists a c, occurs (snd (transactions srt b)) (a, c) /\ at_or_below d k a))
      (snd (transactions srt b)) ts.
Proof.
  intros srt it micro to d b Hs Hi Hsum. destruct (summarisable_main srt it micro to d b Hs Hi Hsum) as (K & acl & ts & E & _ & _ & K1 & K2 & K3 & A1 & A2 & F & _).
  exists ts. split; [exact E|]. assert (Hocc : forall p, In p (bk_post (compact srt b)) <-> exists t, In t (snd (transactions srt b)) /\ In p t).
  { destruct Hsum as (Hr & _). pose proof (compact_book_ok srt Hs b Hr) as (_ & HT & _). intros p. unfold transactions. cbn [snd]. rewrite <- HT, in_concat. reflexivity. }
  eapply Forall2_imp; [|exact F]. intros t t' (g & leaves & subs & Pg & Pa & F1 & F2 & Fs & Pt). exists leaves, subs. split; [exact Pt|].
  pose proof (leaves_ac _ _ _ _ F1) as Eac. pose proof (subs_accts _ _ _ _ _ _ _ F2) as Esub.
  split; [|split; [|split; [|split; [|split; [|split]]]]].
  - rewrite Forall_forall. intros r Hr. destruct (Forall2_In_r _ _ _ _ F1 Hr) as (p & Hp & (sr & ->)). apply (Permutation_in _ Pg) in Hp. unfold filled in Hp. apply in_app_iff in Hp as [Hp|Hp].
    + left. exists p. split; [exact Hp|]. repeat split.
    + right. destruct t as [|p0 t]; [contradiction|]. cbn [fill_of] in Hp. apply in_map_iff in Hp as ([a c] & <- & Hk). unfold missing in Hk. apply filter_In in Hk as [_ Hk]. split; [|repeat split].
      intros q Hq [Ea Ecy]. cbn [set_level zero_post p_acct p_ccy fst snd] in Ea, Ecy. apply negb_true_iff in Hk. assert (Hin : In (a, c) (map ac (p0 :: t))) by (apply in_map_iff; exists q; split; [unfold ac; congruence|exact Hq]).
      apply mem_pair_In in Hin. congruence.
  - rewrite Eac. exact (Permutation_NoDup (Permutation_sym Pa) A1).
  - intros k. rewrite Eac, <- A2. split; apply Permutation_in; [exact Pa|apply Permutation_sym; exact Pa].
  - rewrite Forall_forall. intros r Hr. destruct (Forall2_In_r _ _ _ _ F2 Hr) as (k & Hk & (q & sr & _ & ->)). split; [reflexivity|]. cbn [p_acct p_val]. rewrite (tree_sum_perm _ _ _ _ _ _ Pg), tree_sum_filled. unfold tree_sum.
    apply (sum_over_filter (fun p => at_or_below d k (p_acct p)) (fun p => at_belowb d k (p_acct p))). intros x. apply at_belowb_spec.
  - rewrite Esub. exact (Permutation_NoDup (Permutation_sym (Hi g K)) K1).
  - intros a c (t0 & p & Ht0 & Hp & Ek) Hc. rewrite Esub. apply (Permutation_in _ (Permutation_sym (Hi g K))). injection Ek as <- <-. apply K2; [apply Hocc; eauto|exact Hc].
  - intros k Hk. rewrite Esub in Hk. apply (Permutation_in _ (Hi g K)) in Hk. destruct (K3 k Hk) as (p & Hp & Hb). apply Hocc in Hp as (t0 & Ht0 & Hp). exists (p_acct p), (p_ccy p). split; [exists t0, p; auto|exact Hb].
Qed.
Theorem C39_subtotals_exact : forall srt it micro to d b, sort_ok is_less srt -> any_order it -> summarisable srt b ->
  exists ts, accumulate srt it micro to [d] None [] b = Ok (fst (transactions srt b), ts) /\
    Forall2 (fun t t' => exists leaves subs, Permutation t' (leaves ++ subs) /\
        Forall (ordinary t) leaves /\ NoDup (map ac leaves) /\ (forall k, In k (map ac leaves) <-> occurs (snd (transactions srt b)) k) /\
        Forall (subtotal_of (bk_prices b) to d t) subs /\ NoDup (map p_acct subs) /\
        (forall a c, occurs (snd (transactions srt b)) (a, c) -> c <> to -> In a (map p_acct subs)) /\
        (forall k, In k (map p_acct subs) -> exists a c, occurs (snd (transactions srt b)) (a, c) /\ at_or_below d k a))
      (snd (transactions srt b)) ts.
Proof. intros srt it micro to d b Hs Hi H. apply subtotals_exact_ok; [exact Hs|exact Hi|]. apply summarisable_weaken; assumption. Qed.
Print Assumptions C39_subtotals_exact.

(** ** C40 *)
Lemma top_level_ok : forall srt it micro to d b, sort_ok is_less srt -> any_order it -> summarisable_ok srt b ->
  exists ts, accumulate srt it micro to [d] None [] b = Ok (fst (transactions srt b), ts) /\
    Forall2 (fun t t' =>
        (forall r, In r t' -> 0 <= p_level r) /\ (forall r, In r t' -> p_level r = 0 -> p_ccy r = to) /\
        sum_over (fun r => p_level r = 0) p_val t' (qsum (map (conv (bk_prices b) to) t)))
      (snd (transactions srt b)) ts.
Proof.
  intros srt it micro to d b Hs Hi Hsum. destruct (summarisable_main srt it micro to d b Hs Hi Hsum) as (K & acl & ts & E & _ & _ & K1 & K2 & K3 & A1 & A2 & F & _).
  exists ts. split; [exact E|]. assert (Hocc : forall p, In p (bk_post (compact srt b)) <-> exists t, In t (snd (transactions srt b)) /\ In p t).
  { destruct Hsum as (Hr & _). pose proof (compact_book_ok srt Hs b Hr) as (_ & HT & _). intros p. unfold transactions. cbn [snd]. rewrite <- HT, in_concat. reflexivity. }
  eapply Forall2_imp; [|exact F]. intros t t' (g & leaves & subs & Pg & Pa & F1 & F2 & Fs & Pt).
  assert (Hk : forall p, In p g -> p_ccy p <> to -> In (p_acct p) K).
  { intros p Hp Hc. assert (Hin : In (ac p) acl) by (apply (Permutation_in _ Pa); apply in_map; exact Hp). apply A2 in Hin as (t0 & q & Ht0 & Hq & Eq). unfold ac in Eq. injection Eq as Ea Ecy. rewrite <- Ea. apply K2; [apply Hocc; eauto|congruence]. }
  split; [|split].
  - intros r Hr. apply (Permutation_in _ Pt) in Hr. apply in_app_iff in Hr as [Hr|Hr].
    + destruct (Forall2_In_r _ _ _ _ F1 Hr) as (p & _ & (sr & ->)). cbn [set_level p_level]. unfold level_of. lia.
    + destruct (Forall2_In_r _ _ _ _ F2 Hr) as (k & _ & (q & sr & _ & ->)). cbn [p_level]. unfold level_of. lia.
  - intros r Hr Hl. apply (Permutation_in _ Pt) in Hr. apply in_app_iff in Hr as [Hr|Hr].
    + destruct (Forall2_In_r _ _ _ _ F1 Hr) as (p & Hp & (sr & ->)). cbn [set_level p_level p_ccy] in *. destruct (str_eqb_spec (p_ccy p) to) as [|N]; [assumption|].
      exfalso. pose proof (proj1 (level0_true K d (p_acct p)) Hl) as E'. apply (E' (p_acct p) (Hk p Hp N)). left. reflexivity.
    + destruct (Forall2_In_r _ _ _ _ F2 Hr) as (k & _ & (q & sr & _ & ->)). reflexivity.
  - assert (Ev : qsum (map p_val (filter (fun r => p_level r =? 0) t')) = qsum (map (conv (bk_prices b) to) t)).
    { rewrite (qsum_perm _ _ (Permutation_map p_val (filter_perm _ _ _ Pt))), filter_app, map_app, qsum_app.
      rewrite (leaves_level0 (bk_prices b) to _ _ _ _ F1 Hk), (subs_level0 _ _ _ _ _ _ _ F2).
      assert (Pk : Permutation (filter (fun k => level_of K d false k =? 0) (it g K)) (top K d)) by (apply filter_perm; apply Hi).
      rewrite (qsum_perm _ _ (Permutation_map (fun k => tree_sum (bk_prices b) to d k g) Pk)), Qcplus_comm, top_sum by exact K1. exact (conv_sum_filled _ _ acl t g Pg). }
    rewrite <- Ev. apply sum_over_filter. intros r. apply Z.eqb_eq.
Qed.
Theorem C40_top_level_total : forall srt it micro to d b, sort_ok is_less srt -> any_order it -> summarisable srt b ->
  exists ts, accumulate srt it micro to [d] None [] b = Ok (fst (transactions srt b), ts) /\
    Forall2 (fun t t' =>
        (forall r, In r t' -> 0 <= p_level r) /\ (forall r, In r t' -> p_level r = 0 -> p_ccy r = to) /\
        sum_over (fun r => p_level r = 0) p_val t' (qsum (map (conv (bk_prices b) to) t)))
      (snd (transactions srt b)) ts.
Proof. intros srt it micro to d b Hs Hi H. apply top_level_ok; [exact Hs|exact Hi|]. apply summarisable_weaken; assumption. Qed.
Print Assumptions C40_top_level_total.

(** ** C41 *)
Theorem C41_credit_and_hidden : forall srt it micro to d b, sort_ok is_less srt -> any_order it -> summarisable srt b ->
  exists ts, accumulate srt it micro to [d] None [] b = Ok (fst (transactions srt b), ts) /\
    forall credit hidden, accumulate srt it micro to [d] credit hidden b = Ok (fst (transactions srt b),
      map (fun t => map (fun r => match credit with Some m => if m (p_acct r) then set_val r (- p_val r)%Qc else r | None => r end)
                        (filter (fun r => negb (negb (str_eqb hidden []) && str_eqb (p_acct r) hidden)) t)) ts).
Proof.
  intros srt it micro to d b Hs Hi Hsum. destruct (summarisable_main srt it micro to d b Hs Hi (summarisable_weaken srt b Hs Hsum)) as (K & acl & ts & E & Ec & _).
  exists ts. split; [exact E|]. intros credit hidden. rewrite Ec. f_equal. f_equal. apply map_ext. intros t. unfold hide. rewrite (filter_ext _ (fun r => negb (negb (str_eqb hidden []) && str_eqb (p_acct r) hidden))); [reflexivity|].
  intros r. unfold is_hidden. destruct hidden; reflexivity.
Qed.
Print Assumptions C41_credit_and_hidden.

(** ** C69. The level of a row is the number of subtotal rows above it; its displayed name is what follows the name
    of the nearest of them (empty for an account directly below its own subtotal). *)
Theorem C69_levels_and_names : forall srt it micro to d b, sort_ok is_less srt -> any_order it -> summarisable srt b ->
  exists ts, accumulate srt it micro to [d] None [] b = Ok (fst (transactions srt b), ts) /\
    exists K, NoDup K /\ Forall (fun t' => exists leaves subs, Permutation t' (leaves ++ subs) /\ Permutation (map p_acct subs) K /\
        (forall r, In r leaves -> exists above, NoDup above /\ (forall k, In k above <-> In k K /\ at_or_below d k (p_acct r)) /\ p_level r = Z.of_nat (length above) /\
           (In (p_acct r) K -> p_term r = []) /\
           (~ In (p_acct r) K -> (above = [] /\ p_term r = p_acct r) \/ exists k, In k above /\ p_acct r = k ++ d :: p_term r /\ forall k', In k' above -> (length k' <= length k)%nat)) /\
        (forall r, In r subs -> exists above, NoDup above /\ (forall k, In k above <-> In k K /\ below d k (p_acct r)) /\ p_level r = Z.of_nat (length above) /\
           ((above = [] /\ p_term r = p_acct r) \/ exists k, In k above /\ p_acct r = k ++ d :: p_term r /\ forall k', In k' above -> (length k' <= length k)%nat))) ts.
Proof.
  intros srt it micro to d b Hs Hi Hsum. destruct (summarisable_main srt it micro to d b Hs Hi (summarisable_weaken srt b Hs Hsum)) as (K & acl & ts & E & _ & _ & K1 & K2 & K3 & A1 & A2 & F & _).
  exists ts. split; [exact E|]. exists K. split; [exact K1|]. rewrite Forall_forall. intros t' Ht'. destruct (Forall2_In_r _ _ _ _ F Ht') as (t & Ht & g & leaves & subs & _ & _ & F1 & F2 & Fs & Pt).
  exists leaves, subs. split; [exact Pt|]. split; [rewrite (subs_accts _ _ _ _ _ _ _ F2); apply Hi|]. split; intros r Hr.
  - destruct (Forall2_In_r _ _ _ _ F1 Hr) as (p & _ & (sr & ->)). cbn [set_level p_acct p_level p_term]. set (a := p_acct p).
    set (ab := filter (fun k => belowb d k a || (true && str_eqb a k)) K).
    assert (Hab : forall k, In k ab <-> In k K /\ at_or_below d k a).
    { intros k. unfold ab. rewrite filter_In, <- at_belowb_spec. cbn [andb]. unfold at_belowb. change (has_prefix a (k ++ [d])) with (belowb d k a). rewrite orb_comm. tauto. }
    exists ab. split; [apply NoDup_filter; exact K1|]. split; [exact Hab|]. split; [reflexivity|].
    destruct (term_of_ok d K true a K1) as [_ [(_ & Hin & Et)|([H|Hnin] & H2)]]; [|discriminate|].
    + split; [intros _; exact Et|contradiction].
    + split; [contradiction|]. intros _. destruct H2 as [[Hno Et]|(k & Hk & Ea & Hmax)].
      * left. split; [|exact Et]. destruct ab as [|k l]; [reflexivity|]. destruct (proj1 (Hab k) (or_introl eq_refl)) as [Hk [->|Hb]]; [contradiction|destruct (Hno k Hk Hb)].
      * right. exists k. split; [apply Hab; split; [exact Hk|right; eexists; exact Ea]|]. split; [exact Ea|]. intros k' Hk'. apply Hab in Hk' as [Hk' [->|Hb]]; [contradiction|exact (Hmax k' Hk' Hb)].
  - destruct (Forall2_In_r _ _ _ _ F2 Hr) as (a & _ & (q & sr & _ & ->)). cbn [p_acct p_level p_term].
    set (ab := filter (fun k => belowb d k a || (false && str_eqb a k)) K).
    assert (Hab : forall k, In k ab <-> In k K /\ below d k a) by (intros k; unfold ab; rewrite filter_In; cbn [andb]; rewrite orb_false_r, belowb_spec; tauto).
    exists ab. split; [apply NoDup_filter; exact K1|]. split; [exact Hab|]. split; [reflexivity|].
    destruct (term_of_ok d K false a K1) as [_ [(H & _)|(_ & H2)]]; [discriminate|]. destruct H2 as [[Hno Et]|(k & Hk & Ea & Hmax)].
    + left. split; [|exact Et]. destruct ab as [|k l]; [reflexivity|]. destruct (proj1 (Hab k) (or_introl eq_refl)) as [Hk Hb]. destruct (Hno k Hk Hb).
    + right. exists k. split; [apply Hab; split; [exact Hk|eexists; exact Ea]|]. split; [exact Ea|]. intros k' Hk'. apply Hab in Hk' as [Hk' Hb]. exact (Hmax k' Hk' Hb).
Qed.
Print Assumptions C69_levels_and_names.

(** ** C42. Two siblings with equal amounts tie in the sort key: the row of B comes between A and the children of A.
    A subtotal always precedes the rows below it. *)
Lemma sort_parts_below micro vals d r : forall k done,
  exists more, sort_parts micro vals [d] done (k ++ d :: r) = sort_parts micro vals [d] done k ++ more.
Proof.
  assert (Hd : forall x, has_prefix (d :: x) [d] = true) by (intros x; cbn [has_prefix]; rewrite Z.eqb_refl; destruct x; reflexivity).
  induction k as [|c k IH]; intros done.
  - cbn [app sort_parts nonempty]. rewrite Hd. cbn [negb andb]. eexists. reflexivity.
  - destruct (IH (done ++ [c])) as (more & E). exists more. cbn [app]. cbn [sort_parts nonempty]. cbn [has_prefix].
    rewrite E, app_assoc. destruct k; reflexivity.
Qed.
Lemma join_app_prefix s l m : exists z, join s (l ++ m) = join s l ++ z.
Proof.
  induction l as [|x [|y l] IH].
  - exists (join s m). reflexivity.
  - destruct m as [|z m]; [exists []; cbn; rewrite app_nil_r; reflexivity|]. eexists. cbn [app join]. reflexivity.
  - destruct IH as (z & E). exists z. cbn [app join] in *. rewrite E, !app_assoc. reflexivity.
Qed.
Lemma sort_below micro vals d k r : exists z, get_sort_order_string micro vals (k ++ d :: r) [d] = get_sort_order_string micro vals k [d] ++ z.
Proof.
  destruct k as [|c k]; [eexists; reflexivity|]. cbn [app get_sort_order_string]. destruct (sort_parts_below micro vals d r k [c]) as (more & ->). apply join_app_prefix.
Qed.
Lemma str_cmp_prefix a z : str_cmp a (a ++ z) = match z with [] => Eq | _ => Lt end.
Proof. induction a as [|x a IH]; [destruct z; reflexivity|]. cbn [app str_cmp]. rewrite Z.compare_refl. exact IH. Qed.
Lemma str_ltb_irrefl a : str_ltb a a = false.
Proof. unfold str_ltb. rewrite (lc_refl _ str_cmp_lin). reflexivity. Qed.
Lemma less_by_key s r z : dp s = dp r -> p_sort r = p_sort s ++ z ->
  (exists y, p_acct r = p_acct s ++ y /\ y <> []) \/ (p_acct r = p_acct s /\ p_level s < p_level r) -> is_less s r = true.
Proof.
  intros Hdp Hsort H. unfold dp in Hdp. injection Hdp as E1 E2. unfold is_less. rewrite E1, E2, Z.ltb_irrefl, str_ltb_irrefl.
  unfold str_ltb at 1 2. rewrite Hsort. pose proof (str_cmp_anti (p_sort s) (p_sort s ++ z)) as Ha. rewrite Ha, str_cmp_prefix.
  destruct z as [|c z]; [|reflexivity]. cbn [CompOpp].
  destruct H as [(y & Ey & Ny)|[Ea Hl]].
  - unfold str_ltb at 1. rewrite Ey, str_cmp_prefix. destruct y; [congruence|reflexivity].
  - rewrite Ea, str_ltb_irrefl. apply Z.ltb_lt in Hl. rewrite Hl. reflexivity.
Qed.
Theorem C42_parent_first_partial : forall srt it micro to d b, sort_ok is_less srt -> any_order it -> summarisable srt b ->
  exists ts, accumulate srt it micro to [d] None [] b = Ok (fst (transactions srt b), ts) /\
    Forall (fun t' => exists leaves subs, Permutation t' (leaves ++ subs) /\
        (forall r, In r leaves <-> In r t' /\ ~ In r subs) /\
        forall l1 r l2 s, t' = l1 ++ r :: l2 -> In s l2 -> In s subs ->
          ~ below d (p_acct s) (p_acct r) /\ (p_acct r = p_acct s -> ~ In r leaves)) ts.
Proof.
  intros srt it micro to d b Hs Hi Hsum. destruct (summarisable_main srt it micro to d b Hs Hi (summarisable_weaken srt b Hs Hsum)) as (K & acl & ts & E & _ & _ & K1 & K2 & K3 & A1 & A2 & F & S1 & (S2 & _) & _).
  exists ts. split; [exact E|]. rewrite Forall_forall in *. intros t' Ht'. destruct (Forall2_In_r _ _ _ _ F Ht') as (t & Ht & g & leaves & subs & _ & _ & F1 & F2 & Fs & Pt).
  assert (Hlev : forall r s, In r leaves -> In s subs -> p_acct r = p_acct s -> p_level s < p_level r).
  { intros r s Hr Hs' Ea. destruct (Forall2_In_r _ _ _ _ F1 Hr) as (p & _ & (sr & ->)). destruct (Forall2_In_r _ _ _ _ F2 Hs') as (k & Hk & (q & sr' & _ & ->)). cbn [set_level p_acct p_level] in *.
    subst k. apply (Permutation_in _ (Hi g K)) in Hk. rewrite level_split by exact K1. apply mem_str_In in Hk. rewrite Hk. unfold level_of. cbn [andb].
    rewrite (filter_ext _ (fun k => belowb d k (p_acct p))) by (intros x; apply orb_false_r). lia. }
  exists leaves, subs. split; [exact Pt|]. split.
  { intros r. split.
    - intros Hr. split; [apply (Permutation_in _ (Permutation_sym Pt)), in_app_iff; auto|]. intros Hs'. pose proof (Hlev r r Hr Hs' eq_refl). lia.
    - intros [Hr Hns]. apply (Permutation_in _ Pt) in Hr. apply in_app_iff in Hr as [Hr|Hr]; [exact Hr|contradiction]. }
  intros l1 r l2 s Et Hs2 Hss. assert (Hr : In r t') by (rewrite Et, in_app_iff; right; left; reflexivity). assert (Hst : In s t') by (rewrite Et, in_app_iff; right; right; exact Hs2).
  assert (Hno : is_less s r = true -> False).
  { intros HL. specialize (S1 t' Ht'). rewrite Et in S1. apply StronglySorted_app in S1 as (_ & S1 & _). apply StronglySorted_inv in S1 as [_ S1]. rewrite Forall_forall in S1. specialize (S1 s Hs2). cbn beta in S1. congruence. }
  destruct (S2 t' Ht') as [_ Hdp]. specialize (Hdp s r Hst Hr).
  assert (Hsr : forall x, In x t' -> p_sort x = get_sort_order_string micro (vals_of (bk_prices b) to d K g) (p_acct x) [d]).
  { intros x Hx. apply (Permutation_in _ Pt) in Hx. unfold sorts in Fs. rewrite Forall_forall in Fs. apply Fs. exact Hx. }
  split.
  - intros (y & Ey). apply Hno. destruct (sort_below micro (vals_of (bk_prices b) to d K g) d (p_acct s) y) as (z & Ez). apply (less_by_key s r z Hdp).
    + rewrite (Hsr r Hr), (Hsr s Hst), Ey. exact Ez.
    + left. exists (d :: y). split; [exact Ey|discriminate].
  - intros Ea Hl. apply Hno. apply (less_by_key s r [] Hdp).
    + rewrite (Hsr r Hr), (Hsr s Hst), Ea, app_nil_r. reflexivity.
    + right. split; [exact Ea|]. apply Hlev; assumption.
Qed.
Print Assumptions C42_parent_first_partial.

(** ** Examples *)
Definition x_it (_ : list posting) (l : list str) : list str := l.
Lemma x_it_ok : any_order x_it. Proof. intros g l. apply Permutation_refl. Qed.
Definition x_micro (q : Qc) : Z := Z.quot (Qnum (this q) * 1000000) (Zpos (Qden (this q))).
Definition x_built (cs : list bcall) : book := match build_calls xsort cs with Ok b => b | _ => mkBook [] [] [] [] end.
Definition x_ok (cs : list bcall) : bool := match build_calls xsort cs with Ok _ => true | _ => false end.
Definition dates_in (ds : list Z) (ts : list trans) : bool := forallb (forallb (fun p => existsb (Z.eqb (p_date p)) ds)) ts.
Definition price_okb (ds : list Z) (pb : pbook) : bool :=
  match pb with
  | [] => true
  | [(_, [pr])] => existsb (Z.eqb (pr_date pr)) ds && (match Qnum (this (pr_val pr)) with Zpos _ => true | _ => false end)
  | _ => false
  end.
Definition some_post (b : book) : bool := match bk_post b with [] => false | _ => true end.
Lemma x_reach cs : x_ok cs = true -> reachable xsort (x_built cs).
Proof.
  unfold x_ok, x_built. intros H. destruct (build_calls xsort cs) as [b| | |] eqn:E; try discriminate. exact (reach_build _ _ _ E).
Qed.
Lemma price_okb_ok ds pb : (forall x, In x ds -> valid_date x) -> price_okb ds pb = true -> pb_ok pb /\ pb_pos pb.
Proof.
  intros V H. destruct pb as [|[k l] [|]]; [split; [split; constructor|constructor]| |destruct l as [|? [|]]; discriminate].
  destruct l as [|[dt v] [|]]; try discriminate. cbn [price_okb pr_date pr_val] in H. apply andb_true_iff in H as [Hd Hv]. apply existsb_exists in Hd as (x & Hx & E). apply Z.eqb_eq in E. subst x. split.
  - split; [repeat constructor; intros []|]. constructor; [|constructor]. cbn [snd]. split; [discriminate|]. split; [repeat constructor; apply V; exact Hx|repeat constructor].
  - constructor; [|constructor]. cbn [snd]. constructor; [|constructor]. cbn [pr_val]. unfold Qclt, Qlt. cbn [this Q2Qc]. destruct (Qnum (this v)) eqn:En; try discriminate. simpl. lia.
Qed.
Lemma x_summarisable ds cs : (forall x, In x ds -> valid_date x) -> x_ok cs = true -> price_okb ds (bk_prices (x_built cs)) = true ->
  some_post (fst (transactions xsort (x_built cs))) = true -> dates_in ds (snd (transactions xsort (x_built cs))) = true -> summarisable xsort (x_built cs).
Proof.
  intros V H1 H2 H3 H4. destruct (price_okb_ok ds _ V H2) as [H5 H6]. split; [apply x_reach; exact H1|]. split; [exact H5|]. split; [exact H6|]. split.
  - intros E. unfold some_post in H3. rewrite E in H3. discriminate.
  - intros t p Ht Hp. apply V. unfold dates_in in H4. rewrite forallb_forall in H4. specialize (H4 t Ht). rewrite forallb_forall in H4. specialize (H4 p Hp). apply existsb_exists in H4 as (x & Hx & E). apply Z.eqb_eq in E. rewrite E. exact Hx.
Qed.
(** Rows of a summary: account, currency, amount, level, displayed name. *)
Definition rview (p : posting) := (p_date p, p_acct p, p_ccy p, Qnum (this (p_val p)), p_level p, p_term p).
Definition x_rows (to : str) (b : book) : list (list (Z * str * str * Z * Z * str)) :=
  match accumulate xsort x_it x_micro to [58] None [] b with Ok (_, ts) => map (map rview) ts | _ => [] end.

Definition sum_calls : list bcall :=
  [ CPrice 20240101 (bs "USD") (bs "GBP") (qz 2);
    CTrans 20240105 (bs "Shop") [];
    CPost (bs "Exp:Food:Out") (bs "GBP") (qz 10) []; CPost (bs "Exp:Food:In") (bs "GBP") (qz 5) []; CPost (bs "Cash") (bs "GBP") (qz (-15)) [];
    CTrans 20240106 (bs "Trip") []; CPost (bs "Exp:Fun") (bs "USD") (qz 4) []; CPost (bs "Cash") (bs "USD") (qz (-4)) [] ].
Definition sum_book : book := x_built sum_calls.
Lemma x_dates : forall x, In x [20240101; 20240105; 20240106] -> valid_date x.
Proof. intros x [<-|[<-|[<-|[]]]]; [exists 2024, 1, 1|exists 2024, 1, 5|exists 2024, 1, 6]; (split; [cbv; intuition congruence|reflexivity]). Qed.
(** Hypotheses of C38-C42 and C69 for a book with sub-accounts and two currencies. *)
Example summary_nonvacuous : sort_ok is_less xsort /\ any_order x_it /\ summarisable xsort sum_book /\ x_rows (bs "GBP") sum_book =
  [ [ (20240105, bs "Exp", bs "GBP", 15, 0, bs "Exp"); (20240105, bs "Exp:Food", bs "GBP", 15, 1, bs "Food"); (20240105, bs "Exp:Food:Out", bs "GBP", 10, 2, bs "Out");
      (20240105, bs "Exp:Food:In", bs "GBP", 5, 2, bs "In"); (20240105, bs "Exp:Fun", bs "GBP", 0, 1, bs "Fun"); (20240105, bs "Exp:Fun", bs "USD", 0, 2, []);
      (20240105, bs "Cash", bs "GBP", -15, 0, bs "Cash"); (20240105, bs "Cash", bs "GBP", -15, 1, []); (20240105, bs "Cash", bs "USD", 0, 1, []) ];
    [ (20240106, bs "Exp", bs "GBP", 8, 0, bs "Exp"); (20240106, bs "Exp:Fun", bs "GBP", 8, 1, bs "Fun"); (20240106, bs "Exp:Fun", bs "USD", 4, 2, []);
      (20240106, bs "Exp:Food", bs "GBP", 0, 1, bs "Food"); (20240106, bs "Exp:Food:In", bs "GBP", 0, 2, bs "In"); (20240106, bs "Exp:Food:Out", bs "GBP", 0, 2, bs "Out");
      (20240106, bs "Cash", bs "GBP", -8, 0, bs "Cash"); (20240106, bs "Cash", bs "GBP", 0, 1, []); (20240106, bs "Cash", bs "USD", -4, 1, []) ] ].
Proof.
  split; [exact xsort_ok|]. split; [exact x_it_ok|]. split; [apply (x_summarisable [20240101; 20240105; 20240106]); [exact x_dates|vm_compute; reflexivity..]|]. vm_compute. reflexivity.
Qed.

(** C42: with A and B of equal amount, B is listed between A and the children of A. *)
Definition tie_calls : list bcall :=
  [ CTrans 20240105 (bs "Shop") []; CPost (bs "A:x") (bs "GBP") (qz 10) []; CPost (bs "A:y") (bs "GBP") (qz 20) [];
    CPost (bs "B:x") (bs "GBP") (qz 10) []; CPost (bs "B:y") (bs "GBP") (qz 20) []; CPost (bs "C") (bs "GBP") (qz (-60)) [] ].
Definition arow (p : posting) := (p_acct p, Qnum (this (p_val p)), p_level p).
Lemma accum_is srt it micro to dv b (f : posting -> str * Z * Z) v :
  match accumulate srt it micro to dv None [] b with Ok (_, ts) => map (map f) ts | _ => [] end = v -> v <> [] ->
  exists ts, accumulate srt it micro to dv None [] b = Ok (compact srt b, ts) /\ map (map f) ts = v.
Proof.
  unfold accumulate, transactions. cbv zeta. destruct (bk_post (compact srt b)) as [|p l] eqn:E.
  - intros H1 H2. exists (bk_trans (compact srt (compact srt b))). split; [|exact H1]. f_equal. f_equal. unfold compact at 1. rewrite E. reflexivity.
  - destruct (accum_rows srt it micro (bk_prices (compact srt b)) (p :: l) to dv) as [rows| | |]; cbn [obind]; try (intros <- H; congruence).
    destruct (hide None [] rows) as [|r rs]; [intros <- H; congruence|]. intros H1 H2. eexists. split; [reflexivity|exact H1].
Qed.
Theorem C42_tree_order_refuted : exists srt it micro b ts t l1 l2 l3 s r x, sort_ok is_less srt /\ any_order it /\ summarisable srt b /\
  accumulate srt it micro (bs "GBP") [58] None [] b = Ok (fst (transactions srt b), ts) /\ In t ts /\
  t = l1 ++ s :: l2 ++ x :: l3 /\ hd_error l2 = Some r /\
  below 58 (p_acct s) (p_acct x) /\ ~ at_or_below 58 (p_acct s) (p_acct r).
Proof.
  destruct (accum_is xsort x_it x_micro (bs "GBP") [58] (x_built tie_calls) arow
    [[(bs "A", 30, 0); (bs "B", 30, 0); (bs "A:y", 20, 1); (bs "B:y", 20, 1); (bs "A:x", 10, 1); (bs "B:x", 10, 1); (bs "C", -60, 0)]]) as (ts & E & Hv); [vm_compute; reflexivity|discriminate|].
  destruct ts as [|t [|]]; try discriminate Hv. injection Hv as Hv.
  destruct t as [|s [|r [|x l3]]]; try discriminate Hv. cbn [map] in Hv. injection Hv as E1 _ _ E2 _ _ E3 _.
  exists xsort, x_it, x_micro, (x_built tie_calls), [s :: r :: x :: l3], (s :: r :: x :: l3), [], [r], l3, s, r, x.
  split; [exact xsort_ok|]. split; [exact x_it_ok|]. split; [apply (x_summarisable [20240101; 20240105; 20240106]); [exact x_dates|vm_compute; reflexivity..]|].
  split; [exact E|]. split; [left; reflexivity|]. split; [reflexivity|]. split; [reflexivity|]. rewrite E1, E2, E3. split; [exists (bs "y"); reflexivity|].
  intros [HH|(z & HH)]; discriminate HH.
Qed.
Print Assumptions C42_tree_order_refuted.

(** ** C70. findMaxCommonPrefix takes the end of the shorter name for the end of a component when the longer one goes
    on with the divider: of A:Foo:x and A:Foobar it makes the "parent" A:Foo, and the parent A is lost. *)
Definition lost_calls : list bcall :=
  [ CTrans 20240105 (bs "Shop") []; CPost (bs "A:Foo:x") (bs "GBP") (qz 10) []; CPost (bs "A:Foobar") (bs "GBP") (qz 20) []; CPost (bs "C") (bs "GBP") (qz (-30)) [] ].
Theorem C70_shared_parent_refuted : exists srt it micro b ts, sort_ok is_less srt /\ any_order it /\ summarisable srt b /\
  accumulate srt it micro (bs "GBP") [58] None [] b = Ok (fst (transactions srt b), ts) /\
  occurs (snd (transactions srt b)) (bs "A:Foo:x", bs "GBP") /\ occurs (snd (transactions srt b)) (bs "A:Foobar", bs "GBP") /\
  forall t r, In t ts -> In r t -> p_acct r <> bs "A".
Proof.
  destruct (accum_is xsort x_it x_micro (bs "GBP") [58] (x_built lost_calls) arow
    [[(bs "A:Foobar", 20, 0); (bs "A:Foo", 10, 0); (bs "A:Foo:x", 10, 1); (bs "C", -30, 0)]]) as (ts & E & Hv); [vm_compute; reflexivity|discriminate|].
  assert (Hocc : forall k, existsb (existsb (fun p => pair_eqb (p_acct p, p_ccy p) k)) (snd (transactions xsort (x_built lost_calls))) = true -> occurs (snd (transactions xsort (x_built lost_calls))) k).
  { intros k H. apply existsb_exists in H as (t & Ht & H). apply existsb_exists in H as (p & Hp & H). exists t, p. split; [exact Ht|]. split; [exact Hp|]. apply pair_eqb_eq in H. exact H. }
  exists xsort, x_it, x_micro, (x_built lost_calls), ts.
  split; [exact xsort_ok|]. split; [exact x_it_ok|]. split; [apply (x_summarisable [20240101; 20240105; 20240106]); [exact x_dates|vm_compute; reflexivity..]|].
  split; [exact E|]. split; [apply Hocc; vm_compute; reflexivity|]. split; [apply Hocc; vm_compute; reflexivity|].
  intros t r Ht Hr Er. assert (Hin : In (arow r) (concat (map (map arow) ts))) by (apply in_concat; exists (map arow t); split; apply in_map; assumption).
  rewrite Hv in Hin. unfold arow in Hin. rewrite Er in Hin. cbn in Hin. intuition congruence.
Qed.
Print Assumptions C70_shared_parent_refuted.

(** The parent of two accounts whose next components differ gets a subtotal when no component name is followed by the
    divider in one account and extended in another ("Foo:x" and "Foobar" below the same parent). *)
Definition clear_names (d : Z) (accts : str -> Prop) : Prop :=
  forall a b k x c y, accts a -> accts b -> below d (k ++ d :: x) a -> b = (k ++ d :: x) ++ c :: y -> c = d.
Definition no_div (d : Z) (s : str) : Prop := ~ In d s.
(** [a] and [b] are in different children of [k]: the component after [k] is x for one and y for the other. *)
Definition child (d : Z) (k x a : str) : Prop := no_div d x /\ at_or_below d (k ++ d :: x) a.

Lemma fcp_scan_at d k : forall l r i prefix, no_div d k ->
  fcp_scan [d] (k ++ l) (k ++ r) i prefix = fcp_scan [d] l r (i + length k) prefix.
Proof.
  induction k as [|c k IH]; intros l r i prefix Hn; cbn [app length]; [f_equal; lia|]. cbn [fcp_scan]. rewrite Z.eqb_refl.
  assert (Hc : has_prefix (c :: k ++ l) [d] = false). { cbn [has_prefix]. destruct (Z.eqb_spec d c) as [->|]; [destruct Hn; left; reflexivity|reflexivity]. }
  rewrite Hc, IH by (intros H; apply Hn; right; exact H). f_equal; lia.
Qed.
Lemma fcp_scan_any d k : forall l r i prefix, exists prefix', fcp_scan [d] (k ++ l) (k ++ r) i prefix = fcp_scan [d] l r (i + length k) prefix'.
Proof.
  induction k as [|c k IH]; intros l r i prefix; cbn [app length]; [exists prefix; f_equal; lia|]. cbn [fcp_scan]. rewrite Z.eqb_refl.
  destruct (IH l r (S i) (if has_prefix (c :: k ++ l) [d] then i else prefix)) as (p' & ->). exists p'. f_equal; lia.
Qed.
Lemma head_split d (x : str) : forall y u v, no_div d x -> no_div d y -> x <> y -> (u = x \/ exists r, u = x ++ d :: r) -> (v = y \/ exists r, v = y ++ d :: r) ->
  exists c u' v', u = c ++ u' /\ v = c ++ v' /\ no_div d c /\
    ((exists p q u2 v2, u' = p :: u2 /\ v' = q :: v2 /\ p <> q) \/ (u' = [] /\ v' <> []) \/ (v' = [] /\ u' <> [])) /\
    (hd_error u' = Some d -> c = x /\ (exists q v2, v' = q :: v2 /\ q <> d)) /\ (hd_error v' = Some d -> c = y /\ (exists q u2, u' = q :: u2 /\ q <> d)).
Proof.
  induction x as [|a x IH]; intros y u v Hx Hy Hne Hu Hv.
  - destruct y as [|b y]; [congruence|]. exists [], u, v. split; [reflexivity|]. split; [reflexivity|]. split; [intros []|].
    assert (Hb : b <> d) by (intros ->; apply Hy; left; reflexivity).
    assert (exists v2, v = b :: v2) as (v2 & ->) by (destruct Hv as [->|(r & ->)]; eexists; reflexivity).
    destruct Hu as [->|(r & ->)]; cbn [app hd_error].
    + split; [right; left; split; [reflexivity|discriminate]|]. split; [discriminate|intros H; congruence].
    + split; [left; exists d, b, r, v2; auto|]. split; [intros _; split; [reflexivity|exists b, v2; auto]|intros H; congruence].
  - destruct y as [|b y].
    + exists [], u, v. split; [reflexivity|]. split; [reflexivity|]. split; [intros []|].
      assert (Ha : a <> d) by (intros ->; apply Hx; left; reflexivity).
      assert (exists u2, u = a :: u2) as (u2 & ->) by (destruct Hu as [->|(r & ->)]; eexists; reflexivity).
      destruct Hv as [->|(r & ->)]; cbn [app hd_error].
      * split; [right; right; split; [reflexivity|discriminate]|]. split; [intros H; congruence|discriminate].
      * split; [left; exists a, d, u2, r; auto|]. split; [intros H; congruence|]. intros _; split; [reflexivity|exists a, u2; auto].
    + assert (Ha : a <> d) by (intros ->; apply Hx; left; reflexivity). assert (Hb : b <> d) by (intros ->; apply Hy; left; reflexivity).
      destruct (Z.eq_dec a b) as [->|Hab].
      * assert (exists u0, u = b :: u0 /\ (u0 = x \/ exists r, u0 = x ++ d :: r)) as (u0 & -> & Hu0) by (destruct Hu as [->|(r & ->)]; eexists; (split; [reflexivity|]); eauto).
        assert (exists v0, v = b :: v0 /\ (v0 = y \/ exists r, v0 = y ++ d :: r)) as (v0 & -> & Hv0) by (destruct Hv as [->|(r & ->)]; eexists; (split; [reflexivity|]); eauto).
        destruct (IH y u0 v0) as (c & u' & v' & -> & -> & Hc & H1 & H2 & H3); [intros H; apply Hx; right; exact H|intros H; apply Hy; right; exact H|congruence|exact Hu0|exact Hv0|].
        exists (b :: c), u', v'. split; [reflexivity|]. split; [reflexivity|]. split; [intros [H|H]; [congruence|contradiction]|]. split; [exact H1|].
        split; intros H; [destruct (H2 H) as [-> H4]|destruct (H3 H) as [-> H4]]; (split; [reflexivity|exact H4]).
      * exists [], u, v. split; [reflexivity|]. split; [reflexivity|]. split; [intros []|].
        assert (exists u2, u = a :: u2) as (u2 & ->) by (destruct Hu as [->|(r & ->)]; eexists; reflexivity).
        assert (exists v2, v = b :: v2) as (v2 & ->) by (destruct Hv as [->|(r & ->)]; eexists; reflexivity).
        split; [left; exists a, b, u2, v2; auto|]. split; intros H; injection H as H; congruence.
Qed.
(** The common prefix of two accounts in different children of [k]. *)
Lemma fcp_children d k x y a b : no_div d x -> no_div d y -> x <> y -> at_or_below d (k ++ d :: x) a -> at_or_below d (k ++ d :: y) b ->
  (forall c z, below d (k ++ d :: x) a -> b = (k ++ d :: x) ++ c :: z -> c = d) -> (forall c z, below d (k ++ d :: y) b -> a = (k ++ d :: y) ++ c :: z -> c = d) ->
  find_max_common_prefix a b [d] = k.
Proof.
  intros Hx Hy Hne Ha Hb H1 H2.
  assert (Hsp : forall w s, at_or_below d (k ++ d :: w) s -> exists u, s = k ++ d :: u /\ (u = w \/ exists r, u = w ++ d :: r)).
  { intros w s [->|(r & ->)]; [exists w; auto|]. exists (w ++ d :: r). split; [rewrite <- app_assoc; reflexivity|eauto]. }
  destruct (Hsp x a Ha) as (u & Ea & Hu). destruct (Hsp y b Hb) as (v & Eb & Hv).
  destruct (head_split d x y u v Hx Hy Hne Hu Hv) as (c & u' & v' & Eu & Ev & Hc & Hdiff & Hdu & Hdv).
  assert (Nu : hd_error u' <> Some d).
  { intros E. destruct (Hdu E) as [-> (q & v2 & Ev' & Hq)]. destruct u' as [|z u']; [discriminate|]. injection E as ->. apply Hq. apply (H1 q v2).
    - exists u'. rewrite Ea, Eu, <- app_assoc. reflexivity.
    - rewrite Eb, Ev, Ev', <- app_assoc. reflexivity. }
  assert (Nv : hd_error v' <> Some d).
  { intros E. destruct (Hdv E) as [-> (q & u2 & Eu' & Hq)]. destruct v' as [|z v']; [discriminate|]. injection E as ->. apply Hq. apply (H2 q u2).
    - exists v'. rewrite Eb, Ev, <- app_assoc. reflexivity.
    - rewrite Ea, Eu, Eu', <- app_assoc. reflexivity. }
  assert (Hend : exists p0, fcp_scan [d] a b 0 0 = (length (k ++ d :: c), length k, u', v') /\ p0 = length k).
  { exists (length k). split; [|reflexivity]. rewrite Ea, Eb, Eu, Ev. destruct (fcp_scan_any d k (d :: c ++ u') (d :: c ++ v') 0 0) as (p' & ->). cbn [fcp_scan]. rewrite Z.eqb_refl.
    assert (Hd : has_prefix (d :: c ++ u') [d] = true) by (cbn [has_prefix]; rewrite Z.eqb_refl; destruct (c ++ u'); reflexivity).
    rewrite Hd, fcp_scan_at by exact Hc. rewrite app_length. cbn [length].
    assert (Hstop : forall i p, fcp_scan [d] u' v' i p = (i, p, u', v')).
    { intros i p. destruct Hdiff as [(p1 & q1 & u2 & v2 & -> & -> & Hpq)|[[-> _]|[-> _]]]; cbn [fcp_scan]; [apply Z.eqb_neq in Hpq; rewrite Hpq; reflexivity|reflexivity|destruct u'; reflexivity]. }
    rewrite Hstop. f_equal. f_equal. f_equal. lia. }
  destruct Hend as (p0 & E & _). unfold find_max_common_prefix. rewrite E.
  assert (E1 : nonempty u' && has_prefix u' [d] = false).
  { destruct u' as [|z u']; [reflexivity|]. cbn [nonempty has_prefix andb]. destruct (Z.eqb_spec d z) as [->|]; [destruct Nu; reflexivity|reflexivity]. }
  assert (E2 : nonempty v' && has_prefix v' [d] = false).
  { destruct v' as [|z v']; [reflexivity|]. cbn [nonempty has_prefix andb]. destruct (Z.eqb_spec d z) as [->|]; [destruct Nv; reflexivity|reflexivity]. }
  rewrite E1, E2. cbn [orb].
  assert (E3 : negb (nonempty u') && negb (nonempty v') = false).
  { destruct Hdiff as [(p1 & q1 & u2 & v2 & -> & -> & _)|[[-> Hn]|[-> Hn]]]; [reflexivity|destruct v'; [congruence|reflexivity]|destruct u'; [congruence|reflexivity]]. }
  rewrite E3. rewrite Ea, firstn_app, Nat.sub_diag, firstn_all, firstn_O, app_nil_r. reflexivity.
Qed.
(** In a sorted list everything between two strings with a common prefix has that prefix. *)
Lemma prefix_between p : forall a b c, str_cmp (p ++ a) c <> Gt -> str_cmp c (p ++ b) <> Gt -> exists r, c = p ++ r.
Proof.
  induction p as [|z p IH]; intros a b c H1 H2; [exists c; reflexivity|]. destruct c as [|w c]; [cbn in H1; congruence|]. cbn [app str_cmp] in *.
  rewrite (Z.compare_antisym w z) in H1. destruct (w ?= z) eqn:E; cbn [CompOpp] in *; try congruence. apply Z.compare_eq in E. subst w.
  destruct (IH a b c H1 H2) as (r & ->). exists r. reflexivity.
Qed.
(** The first component after [k]. *)
Lemma component d k s : forall r, s = k ++ d :: r -> exists x, child d k x s.
Proof.
  intros r ->. destruct (in_dec Z.eq_dec d r) as [Hin|Hn].
  - assert (exists x y, r = x ++ d :: y /\ no_div d x) as (x & y & -> & Hx).
    { clear - Hin. induction r as [|c r IH]; [contradiction|]. destruct (Z.eq_dec c d) as [->|Hc]; [exists [], r; split; [reflexivity|intros []]|].
      destruct Hin as [H|H]; [contradiction|]. destruct (IH H) as (x & y & -> & Hx). exists (c :: x), y. split; [reflexivity|]. intros [H'|H']; [contradiction|exact (Hx H')]. }
    exists x. split; [exact Hx|]. right. exists y. rewrite <- app_assoc. reflexivity.
  - exists r. split; [exact Hn|left; reflexivity].
Qed.
Lemma child_inj d k x y a : child d k x a -> child d k y a -> x = y.
Proof.
  intros [Hx Ha] [Hy Hb].
  assert (Hsp : forall w, at_or_below d (k ++ d :: w) a -> exists u, a = k ++ d :: u /\ (u = w \/ exists r, u = w ++ d :: r)).
  { intros w [->|(r & ->)]; [exists w; auto|]. exists (w ++ d :: r). split; [rewrite <- app_assoc; reflexivity|eauto]. }
  destruct (Hsp x Ha) as (u & Ea & Hu). destruct (Hsp y Hb) as (v & Eb & Hv). rewrite Ea in Eb. apply app_inv_head in Eb. injection Eb as Euv. subst v.
  destruct (list_eq_dec Z.eq_dec x y) as [|Hne]; [assumption|exfalso].
  destruct (head_split d x y u u Hx Hy Hne Hu Hv) as (c & u' & v' & E1 & E2 & _ & Hd & _). rewrite E1 in E2. apply app_inv_head in E2. subst v'.
  destruct Hd as [(p & q & u2 & v2 & -> & E & Hpq)|[[-> H]|[-> H]]]; [injection E as -> _; congruence|congruence..].
Qed.
Lemma adjacent_switch d k x : forall A a b, StronglySorted (fun a b => str_cmp a b <> Gt) (a :: A) -> child d k x a -> In b A -> (exists y, child d k y b /\ y <> x) ->
  exists l1 u v l2 y z, a :: A = l1 ++ u :: v :: l2 /\ child d k y u /\ child d k z v /\ y <> z.
Proof.
  induction A as [|c A IH]; intros a b Hs Ha Hb (y & Hy & Hne); [contradiction|].
  assert (Hc : exists r, c = (k ++ [d]) ++ r).
  { destruct Ha as [_ Ha]. destruct Hy as [_ Hy]. apply StronglySorted_inv in Hs as [Hs Hsa]. rewrite Forall_forall in Hsa. pose proof (Hsa c (or_introl eq_refl)) as H1.
    assert (Hform : forall w s, at_or_below d (k ++ d :: w) s -> exists r, s = (k ++ [d]) ++ r) by (intros w s [->|(r & ->)]; [exists w|exists (w ++ d :: r)]; rewrite <- !app_assoc; reflexivity).
    destruct (Hform _ _ Ha) as (ra & ->). destruct Hb as [->|Hb]; [exact (Hform _ _ Hy)|]. destruct (Hform _ _ Hy) as (rb & ->).
    apply StronglySorted_inv in Hs as [_ Hs]. rewrite Forall_forall in Hs. apply (prefix_between (k ++ [d]) ra rb c); [exact H1|exact (Hs _ Hb)]. }
  destruct Hc as (r & Ec). assert (E' : c = k ++ d :: r) by (rewrite Ec, <- app_assoc; reflexivity). destruct (component d k c r E') as (w & Hw).
  destruct (list_eq_dec Z.eq_dec x w) as [->|Hxw].
  - destruct Hb as [->|Hb]; [destruct Hne; exact (child_inj _ _ _ _ _ Hy Hw)|]. apply StronglySorted_inv in Hs as [Hs _].
    destruct (IH c b Hs Hw Hb (ex_intro _ y (conj Hy Hne))) as (l1 & u & v & l2 & y' & z' & E & H). exists (a :: l1), u, v, l2, y', z'. split; [cbn [app]; rewrite <- E; reflexivity|exact H].
  - exists [], a, c, A, x, w. auto.
Qed.
Theorem C70_shared_parent_partial : forall srt it micro to d b, sort_ok is_less srt -> any_order it -> summarisable srt b ->
  clear_names d (fun a => exists c, occurs (snd (transactions srt b)) (a, c)) ->
  exists ts, accumulate srt it micro to [d] None [] b = Ok (fst (transactions srt b), ts) /\
    forall a1 c1 a2 c2 k x y, occurs (snd (transactions srt b)) (a1, c1) -> occurs (snd (transactions srt b)) (a2, c2) ->
      child d k x a1 -> child d k y a2 -> x <> y -> k <> [] ->
      Forall2 (fun t t' => exists r, In r t' /\ p_acct r = k /\ subtotal_of (bk_prices b) to d t r) (snd (transactions srt b)) ts.
Proof.
  intros srt it micro to d b Hs Hi Hsum Hcl. destruct (summarisable_main srt it micro to d b Hs Hi (summarisable_weaken srt b Hs Hsum)) as (K & acl & ts & E & _ & _ & K1 & K2 & K3 & A1 & A2 & F & S1 & S2 & A & HA1 & HA2 & HA3).
  exists ts. split; [exact E|]. intros a1 c1 a2 c2 k x y H1 H2 Hx Hy Hne Hk.
  assert (Hocc : forall a, In a A <-> exists c, occurs (snd (transactions srt b)) (a, c)).
  { intros a. rewrite HA2, in_map_iff. destruct Hsum as (Hr & _). apply (reachable_ok srt Hs) in Hr. pose proof (compact_book_ok srt Hs b Hr) as (_ & HT & _). unfold transactions, occurs. cbn [snd]. rewrite <- HT. split.
    - intros (p & <- & Hp). apply in_concat in Hp as (t & Ht & Hp). exists (p_ccy p), t, p. auto.
    - intros (c & t & p & Ht & Hp & Ep). injection Ep as <- <-. exists p. split; [reflexivity|apply in_concat; eauto]. }
  assert (Hswitch : exists l1 u v l2 y z, A = l1 ++ u :: v :: l2 /\ child d k y u /\ child d k z v /\ y <> z).
  { assert (Hin1 : In a1 A) by (apply Hocc; eauto). assert (Hin2 : In a2 A) by (apply Hocc; eauto).
    apply in_split in Hin1 as (m1 & m2 & EA). assert (Hin2' := Hin2). rewrite EA in Hin2'. apply in_app_iff in Hin2' as [Hin2'|Hin2'].
    - apply in_split in Hin2' as (n1 & n2 & En). assert (EA' : A = n1 ++ a2 :: (n2 ++ a1 :: m2)) by (rewrite EA, En, <- app_assoc; reflexivity).
      assert (Hsub : StronglySorted (fun a b => str_cmp a b <> Gt) (a2 :: (n2 ++ a1 :: m2))) by (rewrite EA' in HA1; apply StronglySorted_app in HA1 as (_ & HA1 & _); exact HA1).
      destruct (adjacent_switch d k y (n2 ++ a1 :: m2) a2 a1 Hsub Hy) as (l1 & u & v & l2 & y' & z' & E1 & H); [apply in_app_iff; right; left; reflexivity|exists x; auto|].
      exists (n1 ++ l1), u, v, l2, y', z'. split; [rewrite EA', E1, <- app_assoc; reflexivity|exact H].
    - destruct Hin2' as [E2|Hin2']; [subst a2; destruct Hne; exact (child_inj _ _ _ _ _ Hx Hy)|].
      assert (Hsub : StronglySorted (fun a b => str_cmp a b <> Gt) (a1 :: m2)) by (rewrite EA in HA1; apply StronglySorted_app in HA1 as (_ & HA1 & _); exact HA1).
      destruct (adjacent_switch d k x m2 a1 a2 Hsub Hx Hin2' (ex_intro _ y (conj Hy (fun e => Hne (eq_sym e))))) as (l1 & u & v & l2 & y' & z' & E1 & H).
      exists (m1 ++ l1), u, v, l2, y', z'. split; [rewrite EA, E1, <- app_assoc; reflexivity|exact H]. }
  destruct Hswitch as (l1 & u & v & l2 & y' & z' & EA & Hu & Hv & Hyz).
  assert (Hou : exists c, occurs (snd (transactions srt b)) (u, c)) by (apply Hocc; rewrite EA, in_app_iff; right; left; reflexivity).
  assert (Hov : exists c, occurs (snd (transactions srt b)) (v, c)) by (apply Hocc; rewrite EA, in_app_iff; right; right; left; reflexivity).
  assert (Hfcp : find_max_common_prefix u v [d] = k).
  { destruct Hu as [Hu1 Hu2]. destruct Hv as [Hv1 Hv2]. apply (fcp_children d k y' z' u v Hu1 Hv1 Hyz Hu2 Hv2).
    - intros c z Hb Ez. exact (Hcl u v k y' c z Hou Hov Hb Ez).
    - intros c z Hb Ez. exact (Hcl v u k z' c z Hov Hou Hb Ez). }
  pose proof (HA3 l1 u v l2 EA) as HK. rewrite Hfcp in HK. specialize (HK Hk).
  eapply Forall2_imp; [|exact F]. intros t t' (g & leaves & subs & Pg & Pa & F1 & F2 & Fs & Pt).
  assert (Hkit : In k (it g K)) by (apply (Permutation_in _ (Permutation_sym (Hi g K))); exact HK).
  destruct (Forall2_In_l _ _ _ _ F2 Hkit) as (r & Hr & (q & sr & _ & Er)). exists r. split; [apply (Permutation_in _ (Permutation_sym Pt)), in_app_iff; right; exact Hr|].
  subst r. split; [reflexivity|]. split; [reflexivity|]. cbn [p_acct p_val]. rewrite (tree_sum_perm _ _ _ _ _ _ Pg), tree_sum_filled. unfold tree_sum.
  apply (sum_over_filter (fun p => at_or_below d k (p_acct p)) (fun p => at_belowb d k (p_acct p))). intros p. apply at_belowb_spec.
Qed.
Print Assumptions C70_shared_parent_partial.
(** Its hypotheses hold of the example book: the shared parents are Exp and Exp:Food. *)
Definition clear_at (d : Z) (a b : str) (i : nat) : bool :=
  negb (match nth_error a i with Some c => c =? d | None => false end && str_eqb (firstn i a) (firstn i b)
        && match nth_error b i with Some c => negb (c =? d) | None => false end).
Definition clear_b (d : Z) (l : list str) : bool := forallb (fun a => forallb (fun b => forallb (clear_at d a b) (seq 0 (length a))) l) l.
Lemma clear_b_ok d l : clear_b d l = true -> clear_names d (fun a => In a l).
Proof.
  intros H a b k x c y Ha Hb (r & Ea) Eb. unfold clear_b in H. rewrite forallb_forall in H. specialize (H a Ha). rewrite forallb_forall in H. specialize (H b Hb). rewrite forallb_forall in H.
  set (s := k ++ d :: x) in *. assert (Hi : In (length s) (seq 0 (length a))) by (apply in_seq; rewrite Ea, app_length; cbn [length]; lia). specialize (H _ Hi). unfold clear_at in H.
  assert (En : forall z w, nth_error (s ++ z :: w) (length s) = Some z) by (intros z w; rewrite nth_error_app2, Nat.sub_diag by lia; reflexivity).
  assert (Ef : forall w, firstn (length s) (s ++ w) = s) by (intros w; rewrite firstn_app, Nat.sub_diag, firstn_all, firstn_O, app_nil_r; reflexivity).
  rewrite Ea, Eb, !En, !Ef, Z.eqb_refl, str_eqb_refl in H. cbn [andb] in H. rewrite negb_involutive in H. apply Z.eqb_eq. exact H.
Qed.
Example C70_nonvacuous : clear_names 58 (fun a => exists c, occurs (snd (transactions xsort sum_book)) (a, c)) /\
  occurs (snd (transactions xsort sum_book)) (bs "Exp:Food:In", bs "GBP") /\ occurs (snd (transactions xsort sum_book)) (bs "Exp:Fun", bs "USD") /\
  child 58 (bs "Exp") (bs "Food") (bs "Exp:Food:In") /\ child 58 (bs "Exp") (bs "Fun") (bs "Exp:Fun").
Proof.
  assert (Hocc : forall k, existsb (existsb (fun p => pair_eqb (p_acct p, p_ccy p) k)) (snd (transactions xsort sum_book)) = true -> occurs (snd (transactions xsort sum_book)) k).
  { intros k H. apply existsb_exists in H as (t & Ht & H). apply existsb_exists in H as (p & Hp & H). exists t, p. split; [exact Ht|]. split; [exact Hp|]. apply pair_eqb_eq in H. exact H. }
  split; [|split; [apply Hocc; vm_compute; reflexivity|split; [apply Hocc; vm_compute; reflexivity|]]].
  - pose proof (clear_b_ok 58 [bs "Exp:Food:Out"; bs "Exp:Food:In"; bs "Cash"; bs "Exp:Fun"]) as H. assert (Hc : clear_b 58 [bs "Exp:Food:Out"; bs "Exp:Food:In"; bs "Cash"; bs "Exp:Fun"] = true) by (vm_compute; reflexivity).
    specialize (H Hc). assert (Hl : forall a, (exists c, occurs (snd (transactions xsort sum_book)) (a, c)) -> In a [bs "Exp:Food:Out"; bs "Exp:Food:In"; bs "Cash"; bs "Exp:Fun"]).
    { intros a (c & t & p & Ht & Hp & E). injection E as <- _. assert (Hall : forallb (forallb (fun p => mem_str (p_acct p) [bs "Exp:Food:Out"; bs "Exp:Food:In"; bs "Cash"; bs "Exp:Fun"])) (snd (transactions xsort sum_book)) = true) by (vm_compute; reflexivity).
      rewrite forallb_forall in Hall. specialize (Hall t Ht). rewrite forallb_forall in Hall. specialize (Hall p Hp). apply mem_str_In in Hall. exact Hall. }
    intros a b k x c y Ha Hb. apply H; apply Hl; assumption.
  - split; (split; [intros HH; cbn in HH; intuition discriminate|]); [right; exists (bs "In"); reflexivity|left; reflexivity].
Qed.
