(** * BuilderProofs: the builder accepts exactly the balanced histories and never reuses an identity. *)
From Verif Require Import Base Dec DateModel PriceModel BookModel BookSpec BookProofs.

Definition getq (c : str) (m : list (str * Qc)) : Qc := match aget str_eqb c m with Some v => v | None => 0%Qc end.

Lemma getq_aset_eq c v m : getq c (aset str_eqb c v m) = v.
Proof. unfold getq. rewrite (aget_aset_eq _ str_eqb_eq). reflexivity. Qed.
Lemma getq_aset_neq c c' v m : c' <> c -> getq c' (aset str_eqb c v m) = getq c' m.
Proof. intros H. unfold getq. rewrite (aget_aset_neq _ str_eqb_eq) by exact H. reflexivity. Qed.

(** ** check_and_clear *)
Lemma forallb_zero m : NoDup (akeys m) ->
  (forallb (fun '(_, v) => qc_is0 v) m = true <-> forall c, getq c m = 0%Qc).
Proof.
  intros Hn. rewrite forallb_forall. split.
  - intros H c. unfold getq. destruct (aget str_eqb c m) as [v|] eqn:E; [|reflexivity].
    apply (aget_In _ str_eqb_eq) in E. specialize (H _ E). apply qc_is0_eq. exact H.
  - intros H [c v] Hin. specialize (H c). unfold getq in H.
    rewrite (proj2 (aget_Some_iff _ str_eqb_eq c v m Hn) Hin) in H. apply qc_is0_eq. exact H.
Qed.
Lemma getq_cleared c (m : list (str * Qc)) : getq c (map (fun '(k, _) => (k, 0%Qc)) m) = 0%Qc.
Proof.
  unfold getq. induction m as [|[k v] m IH]; [reflexivity|]. cbn [map aget]. destruct (str_eqb k c); [reflexivity|exact IH].
Qed.
Lemma akeys_cleared (m : list (str * Qc)) : akeys (map (fun '(k, _) => (k, 0%Qc)) m) = akeys m.
Proof. unfold akeys. rewrite map_map. apply map_ext. intros [k v]. reflexivity. Qed.

(** Everything but the open sums is untouched. *)
Definition same_rest (b b' : builder) : Prop :=
  bu_post b' = bu_post b /\ bu_prev b' = bu_prev b /\ bu_date b' = bu_date b /\ bu_payee b' = bu_payee b
  /\ bu_note b' = bu_note b /\ bu_prices b' = bu_prices b.
Lemma check_cases b : NoDup (akeys (bu_amts b)) ->
  ((forall c, getq c (bu_amts b) = 0%Qc) /\
   exists b', check_and_clear b = Ok b' /\ same_rest b b' /\ NoDup (akeys (bu_amts b')) /\ forall c, getq c (bu_amts b') = 0%Qc)
  \/ (~ (forall c, getq c (bu_amts b) = 0%Qc) /\ check_and_clear b = Panic).
Proof.
  intros Hn. unfold check_and_clear. destruct (forallb _ (bu_amts b)) eqn:E.
  - left. split; [apply (forallb_zero _ Hn); exact E|]. eexists. split; [reflexivity|].
    split; [repeat split|]. cbn [bu_amts]. split; [rewrite akeys_cleared; exact Hn|]. intros c. apply getq_cleared.
  - right. split; [|reflexivity]. intros H. apply (forallb_zero _ Hn) in H. congruence.
Qed.

(** ** Identities *)
Lemma tkey_inj d p d' p' : tkey d p = tkey d' p' -> d = d' /\ p = p'.
Proof.
  unfold tkey. intros H. cbn [app] in H.
  destruct (split_first_space _ _ _ _ (fmt_d_no_space d) (fmt_d_no_space d') H) as [H1 H2].
  split; [apply fmt_d_inj; exact H1|exact H2].
Qed.
Definition cand (p : str) (i : Z) : str := if i <=? 1 then p else numbered p i.
Lemma numbered_inj p i j : numbered p i = numbered p j -> i = j.
Proof.
  unfold numbered. intros H. apply app_inv_head in H. apply app_inv_head in H. apply app_inv_tail in H.
  apply fmt_d_inj. exact H.
Qed.
Lemma numbered_neq p i : numbered p i <> p.
Proof.
  unfold numbered. intros H. apply (f_equal (@length Z)) in H. rewrite !app_length in H. cbn [length bs] in H. lia.
Qed.
Lemma cand_inj p i j : 1 <= i -> 1 <= j -> cand p i = cand p j -> i = j.
Proof.
  unfold cand. intros Hi Hj. destruct (Z.leb_spec i 1), (Z.leb_spec j 1); intros H'.
  - lia.
  - symmetry in H'. apply numbered_neq in H'. contradiction.
  - apply numbered_neq in H'. contradiction.
  - apply numbered_inj in H'. exact H'.
Qed.
Lemma mem_str_In k l : mem_str k l = true <-> In k l.
Proof.
  unfold mem_str. rewrite existsb_exists. split.
  - intros (x & Hx & E). apply str_eqb_eq in E. congruence.
  - intros H. exists k. split; [exact H|apply str_eqb_refl].
Qed.
Lemma rename_loop_spec prev d p : forall fuel idx, 1 <= idx ->
  (exists j, idx <= j /\ rename_loop fuel prev d p (cand p idx) idx = Ok (cand p j) /\ ~ In (tkey d (cand p j)) prev /\
     forall k, idx <= k < j -> In (tkey d (cand p k)) prev)
  \/ (rename_loop fuel prev d p (cand p idx) idx = Diverge /\
      forall k, idx <= k < idx + Z.of_nat fuel -> In (tkey d (cand p k)) prev).
Proof.
  induction fuel as [|f IH]; intros idx Hi.
  - right. split; [reflexivity|]. intros k Hk. lia.
  - cbn [rename_loop]. destruct (mem_str _ prev) eqn:E.
    + apply mem_str_In in E.
      replace (p ++ bs " (" ++ fmt_d (idx + 1) ++ bs ")") with (cand p (idx + 1)).
      2:{ unfold cand. destruct (Z.leb_spec (idx + 1) 1); [lia|]. reflexivity. }
      destruct (IH (idx + 1) ltac:(lia)) as [(j & Hj & H1 & H2 & H3)|[H1 H2]].
      * left. exists j. split; [lia|]. split; [exact H1|]. split; [exact H2|]. intros k Hk.
        destruct (Z.eq_dec k idx) as [->|Hne]; [exact E|apply H3; lia].
      * right. split; [exact H1|]. intros k Hk. destruct (Z.eq_dec k idx) as [->|Hne]; [exact E|apply H2; lia].
    + left. exists idx. split; [lia|]. split; [reflexivity|]. split.
      * intros Hin. apply mem_str_In in Hin. congruence.
      * intros k Hk. lia.
Qed.
Lemma rename_loop_total prev d p :
  exists j, 1 <= j /\ rename_loop (S (length prev)) prev d p p 1 = Ok (cand p j) /\ ~ In (tkey d (cand p j)) prev /\
     forall k, 1 <= k < j -> In (tkey d (cand p k)) prev.
Proof.
  destruct (rename_loop_spec prev d p (S (length prev)) 1 ltac:(lia)) as [H|[_ H]].
  - exact H.
  - exfalso.
    set (ks := map (fun i => tkey d (cand p (1 + Z.of_nat i))) (seq 0 (S (length prev)))).
    assert (Hnd : NoDup ks).
    { apply FinFun.Injective_map_NoDup; [|apply seq_NoDup]. intros i j E. apply tkey_inj in E as [_ E].
      apply cand_inj in E; lia. }
    assert (Hinc : incl ks prev).
    { intros k Hk. apply in_map_iff in Hk as (i & <- & Hi). apply in_seq in Hi. apply H. lia. }
    pose proof (NoDup_incl_length Hnd Hinc) as HL. unfold ks in HL. rewrite map_length, seq_length in HL. lia.
Qed.
Lemma cand_fresh used d p j :
  1 <= j -> ~ In (d, cand p j) used -> (forall k, 1 <= k < j -> In (d, cand p k) used) ->
  fresh_identity used d p (cand p j).
Proof.
  intros Hj Hn Hall. unfold fresh_identity. destruct (Z.eq_dec j 1) as [->|Hne].
  - left. split; [reflexivity|exact Hn].
  - right. split; [apply (Hall 1); lia|]. exists j. split; [lia|].
    assert (E : cand p j = numbered p j) by (unfold cand; destruct (Z.leb_spec j 1); [lia|reflexivity]).
    split; [exact E|]. split; [exact Hn|]. intros k Hk. specialize (Hall k ltac:(lia)).
    unfold cand in Hall. destruct (Z.leb_spec k 1); [lia|exact Hall].
Qed.

(** ** The state after a history *)
Definition state_ok (b : builder) (used : list (Z * str)) (seg : list (str * Qc)) : Prop :=
  NoDup (akeys (bu_amts b)) /\
  (forall c, getq c (bu_amts b) = seg_sum c seg) /\
  (forall d pay c, total (in_trans d pay c) (bu_post b) =
     if (d =? bu_date b) && str_eqb pay (bu_payee b) then getq c (bu_amts b) else 0%Qc) /\
  Forall plain (bu_post b) /\
  (forall k, In k (bu_prev b) <-> exists d p, In (d, p) used /\ k = tkey d p) /\ NoDup used.

Lemma seg_sum_app c a b : seg_sum c (a ++ b) = (seg_sum c a + seg_sum c b)%Qc.
Proof. unfold seg_sum. rewrite filter_app, map_app, qsum_app. reflexivity. Qed.
Lemma prev_used b used seg : state_ok b used seg -> forall d p, In (tkey d p) (bu_prev b) <-> In (d, p) used.
Proof.
  intros (_ & _ & _ & _ & H & _) d p. rewrite H. split.
  - intros (d' & p' & Hin & E). apply tkey_inj in E as [-> ->]. exact Hin.
  - intros Hin. exists d, p. auto.
Qed.

Lemma new_builder_ok : state_ok new_builder [] [].
Proof.
  unfold state_ok, new_builder; cbn [bu_amts bu_post bu_date bu_payee bu_prev].
  split; [constructor|]. split; [reflexivity|]. split.
  - intros d pay c. destruct (_ && _); reflexivity.
  - split; [constructor|]. split; [|constructor]. intros k. cbn [In]. split; [contradiction|]. intros (d & p & [] & _).
Qed.

Lemma add_posting_ok b used seg acct ccy amt note : state_ok b used seg ->
  state_ok (add_posting b acct ccy amt note) used (seg ++ [(ccy, amt)]).
Proof.
  intros (H1 & H2 & H3 & H4 & H5 & H6). unfold state_ok, add_posting; cbn [bu_amts bu_post bu_date bu_payee bu_prev].
  set (v := match aget str_eqb ccy (bu_amts b) with Some v => (v + amt)%Qc | None => amt end).
  assert (Hv : v = (getq ccy (bu_amts b) + amt)%Qc).
  { unfold v, getq. destruct (aget str_eqb ccy (bu_amts b)); [reflexivity|ring]. }
  assert (Hg : forall c, getq c (aset str_eqb ccy v (bu_amts b)) = (getq c (bu_amts b) + (if str_eqb ccy c then amt else 0))%Qc).
  { intros c. destruct (str_eqb_spec ccy c) as [->|Hne].
    - rewrite getq_aset_eq. exact Hv.
    - rewrite getq_aset_neq by congruence. ring. }
  split; [apply (aset_NoDup _ str_eqb_eq); exact H1|]. split.
  { intros c. rewrite Hg, H2, seg_sum_app. f_equal. unfold seg_sum. cbn [filter]. destruct (str_eqb ccy c); cbn [map snd]; rewrite ?qsum_cons; cbn [qsum fold_right]; ring. }
  split.
  { intros d pay c. rewrite total_app, total_cons, total_nil, H3. unfold on, in_trans at 1.
    cbn [p_date p_payee p_ccy p_val p_acct]. rewrite (Z.eqb_sym d), (str_eqb_sym pay).
    destruct ((bu_date b =? d) && str_eqb (bu_payee b) pay); cbn [andb]; [rewrite Hg|]; ring. }
  split; [|auto]. apply Forall_app. split; [exact H4|]. repeat constructor.
Qed.
Lemma b_add_price_ok b used seg d u c v : state_ok b used seg -> state_ok (b_add_price b d u c v) used seg.
Proof. intros H. exact H. Qed.

Lemma new_transaction_cases b used seg d p n : state_ok b used seg ->
  ((forall c, seg_sum c seg = 0%Qc) /\ exists b', new_transaction b d p n = Ok b' /\ bu_date b' = d /\ bu_note b' = n /\
     bu_post b' = bu_post b /\ bu_prices b' = bu_prices b /\
     fresh_identity used d p (bu_payee b') /\ ~ In (d, bu_payee b') used /\ state_ok b' (used ++ [(d, bu_payee b')]) [])
  \/ (~ (forall c, seg_sum c seg = 0%Qc) /\ new_transaction b d p n = Panic).
Proof.
  intros Hok. pose proof (prev_used _ _ _ Hok) as Hpu. destruct Hok as (H1 & H2 & H3 & H4 & H5 & H6).
  destruct (check_cases b H1) as [(Hz & b' & Hc & (S1 & S2 & S3 & S4 & S5 & S6) & Hn' & Hz')|[Hz Hc]].
  - left. split; [intros c; rewrite <- H2; apply Hz|].
    unfold new_transaction. rewrite Hc. cbn [obind]. rewrite S2.
    destruct (rename_loop_total (bu_prev b) d p) as (j & Hj & Hl & Hnot & Hall). rewrite Hl. cbn [obind].
    eexists. split; [reflexivity|]. cbn [bu_date bu_payee bu_post bu_note bu_prices]. split; [reflexivity|].
    split; [reflexivity|]. split; [exact S1|]. split; [exact S6|].
    rewrite Hpu in Hnot. split.
    { apply cand_fresh; [exact Hj|exact Hnot|]. intros k Hk. apply Hpu. apply Hall. exact Hk. }
    split; [exact Hnot|].
    unfold state_ok; cbn [bu_amts bu_post bu_date bu_payee bu_prev].
    split; [exact Hn'|]. split; [intros c; rewrite Hz'; reflexivity|]. split.
    { intros d' pay' c. rewrite S1, H3, Hz, Hz'. destruct (_ && _), (_ && _); reflexivity. }
    split; [rewrite S1; exact H4|]. split.
    { intros k. cbn [In]. rewrite H5. split.
      - intros [<-|(d' & p' & Hin & ->)]; [exists d, (cand p j)|exists d', p']; rewrite in_app_iff; cbn [In]; auto.
      - intros (d' & p' & Hin & ->). rewrite in_app_iff in Hin. destruct Hin as [Hin|[E|[]]].
        + right. exists d', p'. auto.
        + injection E as <- <-. left. reflexivity. }
    apply NoDup_rev in H6. rewrite <- (rev_involutive (used ++ _)). apply NoDup_rev. rewrite rev_unit.
    constructor; [rewrite <- in_rev; exact Hnot|exact H6].
  - right. split.
    + intros H. apply Hz. intros c. rewrite H2. apply H.
    + unfold new_transaction. rewrite Hc. reflexivity.
Qed.

(** Induction over the calls. *)
Lemma bsteps_cases cs : forall b used seg, state_ok b used seg ->
  ((forall s c, In s (removelast (segments_from seg cs)) -> seg_sum c s = 0%Qc) /\
   exists b', bsteps b cs = Ok b' /\ state_ok b' (used ++ identities b cs) (last (segments_from seg cs) []) /\
     bu_post b' = bu_post b ++ posted (bu_date b, bu_payee b) (bu_note b) (identities b cs) cs)
  \/ (~ (forall s c, In s (removelast (segments_from seg cs)) -> seg_sum c s = 0%Qc) /\ bsteps b cs = Panic).
Proof.
  assert (Hne : forall cs seg, segments_from seg cs <> []).
  { induction cs0 as [|[] cs0 IH]; intros sg; cbn [segments_from]; try discriminate; apply IH. }
  induction cs as [|c cs IH]; intros b used seg Hok.
  - left. split; [intros s c [] |]. exists b. split; [reflexivity|]. cbn [identities posted segments_from last].
    rewrite !app_nil_r. auto.
  - destruct c as [d p n|a c v n|d u c v]; cbn [bsteps bstep segments_from identities].
    + destruct (new_transaction_cases b used seg d p n Hok) as [(Hz & b' & E & Hd & Hnt & Hpost & Hprices & Hf & Hnot & Hok')|[Hz E]].
      * rewrite E. cbn [obind]. specialize (IH b' _ _ Hok').
        assert (Hrl : removelast (seg :: segments_from [] cs) = seg :: removelast (segments_from [] cs)).
        { cbn [removelast]. destruct (segments_from [] cs) eqn:Es; [apply Hne in Es; contradiction|reflexivity]. }
        assert (Hla : last (seg :: segments_from [] cs) [] = last (segments_from [] cs) []).
        { cbn [last]. destruct (segments_from [] cs) eqn:Es; [apply Hne in Es; contradiction|reflexivity]. }
        rewrite Hrl, Hla. destruct IH as [(IHz & b'' & IH1 & IH2 & IH3)|[IHz IH1]].
        -- left. split; [intros s c [<-|Hs]; [apply Hz|apply IHz; exact Hs]|].
           exists b''. split; [exact IH1|]. rewrite Hd in *. cbn [app]. rewrite <- app_assoc in IH2. split; [exact IH2|].
           cbn [posted]. rewrite IH3, Hpost, Hnt. reflexivity.
        -- right. split; [|exact IH1]. intros H. apply IHz. intros s c Hs. apply H. right. exact Hs.
      * rewrite E. right. split; [|reflexivity]. intros H. apply Hz. intros c. apply H.
        cbn [removelast]. destruct (segments_from [] cs) eqn:Es; [apply Hne in Es; contradiction|left; reflexivity].
    + cbn [obind app]. pose proof (add_posting_ok b used seg a c v n Hok) as Hok'.
      destruct (IH _ _ _ Hok') as [(IHz & b'' & IH1 & IH2 & IH3)|[IHz IH1]].
      * left. split; [exact IHz|]. exists b''. split; [exact IH1|]. split; [exact IH2|].
        rewrite IH3. cbn [posted add_posting bu_post bu_date bu_payee bu_note]. rewrite <- app_assoc. reflexivity.
      * right. auto.
    + cbn [obind app]. destruct (IH _ _ _ (b_add_price_ok b used seg d u c v Hok)) as [(IHz & b'' & IH1 & IH2 & IH3)|[IHz IH1]].
      * left. split; [exact IHz|]. exists b''. split; [exact IH1|]. split; [exact IH2|]. exact IH3.
      * right. auto.
Qed.
Lemma segs_split cs seg : segments_from seg cs = removelast (segments_from seg cs) ++ [last (segments_from seg cs) []].
Proof.
  apply app_removelast_last. revert seg. induction cs as [|[] cs IH]; intros sg; cbn [segments_from]; try discriminate; apply IH.
Qed.

Section Build.
  Variable srt : list posting -> list posting.
  Hypothesis Hsrt : sort_ok is_less srt.

  Lemma build_calls_cases cs :
    (all_balanced cs /\ exists bk, build_calls srt cs = Ok bk /\ book_ok bk /\ canonical (bk_post bk) /\ running (bk_post bk) /\
       (forall g, total g (bk_post bk) = total g (posted (-1, []) [] (identities new_builder cs) cs)) /\
       exists b, bsteps new_builder cs = Ok b /\ bk_prices bk = build_prices (bu_prices b) /\
         bk_ccy bk = map (fun '(c, v) => (c, decimals_of v)) (max_denoms [] (bu_post b)) /\
         bu_post b = posted (-1, []) [] (identities new_builder cs) cs)
    \/ (~ all_balanced cs /\ build_calls srt cs = Panic).
  Proof.
    unfold build_calls, all_balanced, segments. rewrite (segs_split cs []).
    destruct (bsteps_cases cs new_builder [] [] new_builder_ok) as [(Hz & b & E & Hok & Hpost)|[Hz E]].
    - rewrite E. cbn [obind]. unfold build. destruct Hok as (H1 & H2 & H3 & H4 & H5 & H6).
      destruct (check_cases b H1) as [(Hc & b' & Ec & (S1 & S2 & S3 & S4 & S5 & S6) & Hn' & Hz')|[Hc Ec]].
      + left. split.
        { intros s c Hs. apply in_app_iff in Hs as [Hs|[<-|[]]]; [apply Hz; exact Hs|]. rewrite <- H2. apply Hc. }
        rewrite Ec. cbn [obind]. eexists. split; [reflexivity|].
        set (bk := mkBook _ _ _ _).
        assert (Epost : bk_post bk = bu_post b) by exact S1.
        assert (Hp : Forall plain (bk_post bk)) by (rewrite Epost; exact H4).
        split.
        { apply (compact_ok srt Hsrt); [exact Hp| |].
          - intros d pay c. rewrite Epost, H3, Hc. destruct (_ && _); reflexivity.
          - cbn [bk bk_post bk_trans]. intros ->. reflexivity. }
        destruct (compact_canonical srt Hsrt bk Hp) as [Hcan Hrun]. split; [exact Hcan|]. split.
        { destruct (bk_post bk) as [|x l] eqn:Eb; [|apply Hrun; congruence]. rewrite compact_nil by exact Eb. rewrite Eb.
          intros l1 p l2 E0. destruct l1; discriminate. }
        split; [intros g; rewrite (compact_total srt Hsrt), Epost, Hpost; reflexivity|].
        exists b. split; [reflexivity|].
        assert (Hpr : bk_prices (compact srt bk) = bk_prices bk /\ bk_ccy (compact srt bk) = bk_ccy bk).
        { unfold compact. destruct (bk_post bk); split; reflexivity. }
        destruct Hpr as [-> ->]. split; [cbn [bk bk_prices]; congruence|]. split; [cbn [bk bk_ccy]; congruence|exact Hpost].
      + right. rewrite Ec. split; [|reflexivity]. intros H. apply Hc. intros c. rewrite H2. apply H.
        apply in_app_iff. right. left. reflexivity.
    - right. rewrite E. split; [|reflexivity]. intros H. apply Hz. intros s c Hs. apply H. apply in_app_iff. left. exact Hs.
  Qed.
End Build.
