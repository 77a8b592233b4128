(** * HeapProofs6: Accumulate with its arrays. *)
From Verif Require Import Base Dec DateModel PriceModel BookModel BookSpec BookProofs BuilderProofs OpsModel OpsProofs OpsProofs2 RegisterModel RegisterSpec RegisterProofs
  AccumModel AccumSpec AccumProofs AccumProofs2 AccumProofs3 HeapModel HeapSpec HeapProofs HeapProofs2 HeapProofs3 HeapProofs4 HeapProofs5.
Local Open Scope nat_scope.

Section Acc.
  Variable ord : list posting -> list nat.
  Variable grow : nat -> nat.
  Variable it : list posting -> list str -> list str.
  Variable micro : Qc -> Z.
  Hypothesis Hord : order_ok ord.
  Notation srt := (srt_of ord).

  Lemma happend_all_spec orig : forall add m s m' s', own m s -> stable orig s -> s_arr orig < length (m_arrs m) -> happend_all grow m s add = (m', s') ->
    emitted orig m s m' s' add /\ s_arr orig < length (m_arrs m').
  Proof.
    induction add as [|p add IH]; intros m s m' s' Ho Hst Hor E.
    - injection E as <- <-. split; [apply emitted_refl; assumption|exact Hor].
    - cbn [happend_all] in E. destruct (alloc m (p_val p)) as [m1 v] eqn:E1. destruct (alloc m1 (p_bal p)) as [m2 z] eqn:E2.
      set (hp := mkH (p_date p) (p_payee p) (p_tnote p) (p_acct p) (p_ccy p) v (p_note p) z (p_level p) (p_term p) (p_sort p)) in *.
      destruct (append grow m2 s [hp]) as [m3 s3] eqn:E3.
      destruct (alloc_own grow _ _ _ _ _ Ho E1) as (O1 & C1 & N1 & K1 & M1). pose proof (alloc_ext _ _ _ _ E1) as (X1 & Q1 & L1 & V1 & A1).
      destruct (alloc_own grow _ _ _ _ _ O1 E2) as (O2 & C2 & N2 & K2 & M2). pose proof (alloc_ext _ _ _ _ E2) as (X2 & Q2 & L2 & V2 & A2).
      destruct (append_one grow orig m2 s hp m3 s3 O2 Hst) as (O3 & R3 & L3 & A3 & C3 & Eo3 & S3 & Z3); try exact E3; cbn [hp h_val h_bal]; try lia.
      { rewrite A2, A1. exact Hor. }
      { rewrite C2, C1. exact N1. }
      { rewrite C2. exact N2. }
      assert (Em : emitted orig m s m3 s3 [p]).
      { split; [exact O3|]. split; [apply (loc_trans (eq (s_arr s)) (fun _ => False) _ _ _ _ _ (ext_loc _ _ _ _ (ext_trans _ _ _ X1 X2)) L3); auto|]. split; [rewrite A2, A1 in A3; exact A3|].
        split; [|split; [rewrite Eo3; unfold cells, arr; rewrite A2, A1; reflexivity|exact S3]]. exists [hp]. split; [congruence|]. split; [cbn; intros x [<-|[<-|[]]]; lia|]. cbn [map]. f_equal.
        unfold look, hp. cbn. rewrite R3, V2. destruct X2 as (_ & _ & _ & X2). rewrite X2 by (try tauto; lia). rewrite V1. destruct p; reflexivity. }
      destruct (IH m3 s3 m' s' O3 S3 Z3 E) as [IHe IHo]. split; [|exact IHo]. exact (emitted_trans grow orig m s m3 s3 m' s' _ _ Ho Em IHe).
  Qed.
  (** The array is kept exactly when there is room for everything. *)
  Lemma happend_all_room : forall add m s m' s', sl_ok m s -> happend_all grow m s add = (m', s') ->
    if s_off s + s_len s + length add <=? length (arr m (s_arr s)) then s' = mkS (s_arr s) (s_off s) (s_len s + length add) /\ length (arr m' (s_arr s)) = length (arr m (s_arr s)) else length (m_arrs m) <= s_arr s'.
  Proof.
    induction add as [|p add IH]; intros m s m' s' Hs E.
    - injection E as <- <-. destruct Hs as [_ Hs]. cbn [length]. rewrite !Nat.add_0_r. replace (_ <=? _) with true by (symmetry; apply Nat.leb_le; exact Hs). destruct s; auto.
    - cbn [happend_all] in E. destruct (alloc m (p_val p)) as [m1 v] eqn:E1. destruct (alloc m1 (p_bal p)) as [m2 z] eqn:E2.
      pose proof (alloc_ext _ _ _ _ E1) as (_ & _ & _ & _ & A1). pose proof (alloc_ext _ _ _ _ E2) as (_ & _ & _ & _ & A2). rewrite A1 in A2.
      assert (Hs2 : sl_ok m2 s) by (unfold sl_ok, arr in *; rewrite A2; exact Hs). assert (Ear : forall a, arr m2 a = arr m a) by (intros a; unfold arr; rewrite A2; reflexivity).
      match type of E with context[append grow m2 s ?l] => destruct (append grow m2 s l) as [m3 s3] eqn:E3; set (q := l) in * end.
      destruct (append_spec grow m2 s q m3 s3 Hs2 E3) as (B1 & _ & _ & B4 & _). specialize (IH m3 s3 m' s' B1 E).
      unfold append in E3. cbn [q length] in E3. rewrite Ear in E3. destruct (s_off s + (s_len s + 1) <=? length (arr m (s_arr s))) eqn:El.
      + injection E3 as <- <-. cbn [s_arr s_off s_len] in IH. apply Nat.leb_le in El.
        assert (Hlen : length (arr (put m2 (s_arr s) (s_off s + s_len s) q) (s_arr s)) = length (arr m (s_arr s))).
        { rewrite <- Ear. apply arr_put_length; [rewrite A2; apply Hs|rewrite Ear; cbn [q length]; lia]. }
        rewrite Hlen in IH. cbn [length]. replace (s_off s + s_len s + S (length add)) with (s_off s + (s_len s + 1) + length add) by lia. replace (s_len s + S (length add)) with (s_len s + 1 + length add) by lia.
        destruct (_ <=? _); [exact IH|]. destruct B4 as (B4 & _). rewrite A2 in B4. lia.
      + apply Nat.leb_gt in El. replace (_ <=? _) with false by (symmetry; apply Nat.leb_gt; cbn [length]; lia).
        injection E3 as <- <-. cbn [s_arr s_off s_len] in IH. cbn [m_arrs] in IH. rewrite A2, app_length in IH. cbn [length] in IH.
        destruct (_ <=? _); [destruct IH as [-> _]; cbn; lia|lia].
  Qed.
  Lemma arrange_seq {A} (d : A) l : arrange d l (seq 0 (length l)) = l.
  Proof. unfold arrange. induction l as [|x l IH]; [reflexivity|]. cbn [length seq map nth]. f_equal. rewrite <- seq_shift, map_map. exact IH. Qed.
  (** If sorting leaves a list without repetition as it is, the order is 0, 1, 2, ... *)
  Lemma order_id l : NoDup l -> srt l = l -> ord l = seq 0 (length l).
  Proof.
    intros Hn E. pose proof (Hord l) as Hp. assert (Hlen : length (ord l) = length l) by (rewrite (Permutation_length Hp); apply seq_length).
    apply (nth_ext _ _ 0 0); [rewrite seq_length; exact Hlen|]. intros i Hi. rewrite seq_nth by lia. cbn [Nat.add].
    assert (Hj : nth i (ord l) 0 < length l). { assert (Hin : In (nth i (ord l) 0) (seq 0 (length l))) by (apply (Permutation_in _ Hp); apply nth_In; exact Hi). apply in_seq in Hin. lia. }
    assert (En : nth i (srt l) p0 = nth (nth i (ord l) 0) l p0).
    { unfold srt_of, arrange. rewrite (nth_indep _ p0 (nth 0 l p0)) by (rewrite map_length; exact Hi). exact (map_nth (fun i => nth i l p0) (ord l) 0 i). }
    rewrite E in En. rewrite NoDup_nth in Hn. symmetry. apply (Hn i (nth i (ord l) 0)); [lia|exact Hj|exact En].
  Qed.
  Lemma hsort_spec m s : own m s -> own (hsort ord m s) s /\ look_slice (hsort ord m s) s = srt (look_slice m s) /\ Permutation (cells (hsort ord m s) s) (cells m s) /\ m_rats (hsort ord m s) = m_rats m /\ loc (eq (s_arr s)) (fun _ => False) m (hsort ord m s).
  Proof.
    intros Ho. pose proof Ho as (Hs & Hn & Hb). unfold hsort. set (c := arrange hzero (cells m s) (ord (look_slice m s))).
    assert (Hp : Permutation c (cells m s)). { apply arrange_perm. pose proof (Hord (look_slice m s)) as H. unfold look_slice in *. rewrite map_length in H. exact H. }
    assert (Hlen : length c = s_len s) by (rewrite (Permutation_length Hp); apply cells_length; exact Hs).
    assert (Hc : cells (put m (s_arr s) (s_off s) c) s = c).
    { destruct s as [a off n]. cbn [s_arr s_off s_len] in *. rewrite <- Hlen. rewrite (cells_put m a off c (length c)); [apply firstn_all|apply Hs|destruct Hs as [_ Hs]; cbn in Hs; lia|lia]. }
    split.
    - destruct Hs as [Hs1 Hs2]. split; [split; [rewrite put_arrs; exact Hs1|rewrite arr_put_length by (try exact Hs1; lia); exact Hs2]|]. rewrite Hc. split; [exact (Permutation_NoDup (Permutation_sym (perm_ptrs _ _ Hp)) Hn)|].
      intros x Hx. apply Hb. exact (Permutation_in _ (perm_ptrs _ _ Hp) Hx).
    - split; [|split; [rewrite Hc; exact Hp|split; [reflexivity|apply loc_put]]]. unfold look_slice at 1. rewrite Hc. change (m_rats (put m (s_arr s) (s_off s) c)) with (m_rats m). unfold c, look_slice.
      rewrite (arrange_map (look (m_rats m)) hzero p0). { reflexivity. } pose proof (Hord (look_slice m s)) as H. unfold look_slice in H. rewrite map_length in H. exact H.
  Qed.

  Definition adds (cb : book) : outcome (list posting) :=
    match bk_post cb with [] => Ok [] | p :: _ => fill_all (S (length (bk_post cb))) (acct_list (bk_post cb)) p (bk_post cb) end.
  Lemma accumulate_eq to dv cr hid vb : bk_post (compact srt vb) <> [] ->
    accumulate srt it micro to dv cr hid vb =
      (do add <- adds (compact srt vb); do ts <- accum_rest ord it micro (bk_prices (compact srt vb)) (srt (bk_post (compact srt vb) ++ add)) to dv cr hid; Ok (compact srt vb, ts)).
  Proof.
    intros Hne. unfold accumulate, adds, accum_rows, add_empty_accounts, accum_rest. cbv zeta. destruct (bk_post (compact srt vb)) as [|p l]; [congruence|].
    destruct (fill_all _ _ _ _) as [add| | |]; cbn [obind]; try reflexivity. destruct (map_o _ _) as [rows| | |]; cbn [obind]; try reflexivity.
    destruct (hide _ _ _); reflexivity.
  Qed.
  Definition acc_spared (m1 : mem) (hb1 : hbook) (cb : book) : Prop := forall add, adds cb = Ok add -> (add = [] /\ NoDup (bk_post cb) /\ srt (bk_post cb) = bk_post cb) \/ room m1 hb1 < length add.
  Definition acc_post (m1 : mem) (hb1 : hbook) (cb : book) (m' : mem) (hb' : hbook) (b' : book) : Prop :=
    (acc_spared m1 hb1 cb -> RB m' hb' b') /\
    (forall add, bk_post cb <> [] -> adds cb = Ok add -> length add <= room m1 hb1 -> look_slice m' (hb_post hb') = firstn (length (bk_post cb)) (srt (bk_post cb ++ add))).
  Lemma accumulate_RB to dv cr hid m hb vb m1 hb1 : RB m hb vb -> hcompact ord m hb = (m1, hb1) ->
    match accumulate srt it micro to dv cr hid vb with
    | Ok (b', ts) => exists m' hb', haccumulate ord grow it micro to dv cr hid m hb = Ok (m', hb', ts) /\ mv m (hb_post hb) m' (hb_post hb') /\ acc_post m1 hb1 (compact srt vb) m' hb' b'
    | Error => haccumulate ord grow it micro to dv cr hid m hb = Error
    | Panic => haccumulate ord grow it micro to dv cr hid m hb = Panic
    | Diverge => haccumulate ord grow it micro to dv cr hid m hb = Diverge
    end.
  Proof.
    intros HR Ec. destruct (compact_RB ord Hord m hb vb HR) as (m1' & hb1' & Ec' & HR1 & Hm1). rewrite Ec in Ec'. injection Ec' as <- <-.
    unfold haccumulate. rewrite Ec. set (cb := compact srt vb) in *. pose proof HR1 as (Ho1 & Hl1 & Ht1 & Hc1 & Hn1 & Hp1 & Hy1). pose proof (own_loc_len _ _ Ho1) as Hcl.
    assert (Hlen : s_len (hb_post hb1) = length (bk_post cb)) by (rewrite <- Hl1; unfold look_slice; rewrite map_length; symmetry; exact Hcl).
    destruct (bk_post cb) as [|p l] eqn:Epost.
    - rewrite Hlen. cbn [length Nat.eqb]. unfold accumulate. cbv zeta. fold cb. rewrite Epost. cbn [transactions].
      destruct (compact_RB ord Hord m1 hb1 cb HR1) as (m2 & hb2 & Ec2 & HR2 & Hm2). rewrite Ec2. exists m2, hb2. unfold transactions.
      split; [f_equal; f_equal; rewrite <- (RB_read _ _ _ HR2); reflexivity|]. split; [exact (mv_trans _ _ _ _ _ _ Hm1 Hm2)|]. split; [intros _; exact HR2|]. intros add Hne. rewrite Epost in Hne. congruence.
    - assert (Hne : bk_post cb <> []) by congruence. rewrite (accumulate_eq to dv cr hid vb Hne). fold cb. rewrite Hlen. cbn [length Nat.eqb]. rewrite Hl1, <- Hp1.
      unfold adds. rewrite Epost. change (S (length l)) with (length (p :: l)).
      destruct (fill_all (S (length (p :: l))) (acct_list (p :: l)) p (p :: l)) as [add| | |] eqn:Ef; cbn [obind]; try reflexivity.
      destruct (happend_all grow m1 (hb_post hb1) add) as [m2 s2] eqn:Eh.
      destruct (happend_all_spec (hb_post hb1) add m1 (hb_post hb1) m2 s2 Ho1 ltac:(unfold stable; lia) (proj1 (proj1 Ho1)) Eh) as [(O2 & L2 & A2 & (new & C2 & P2 & V2) & E2 & S2) _].
      assert (Hl2 : look_slice m2 s2 = (p :: l) ++ add).
      { unfold look_slice. rewrite C2, map_app, V2. f_equal. rewrite <- Hl1. unfold look_slice. apply map_look_ext. intros x Hx. apply L2; [apply Ho1; exact Hx|tauto]. }
      destruct (hsort_spec m2 s2 O2) as (O3 & Hl3 & Pm & R3 & L3). set (m3 := hsort ord m2 s2) in *. rewrite Hl3, Hl2.
      destruct (accum_rest ord it micro (hb_prices hb1) (srt ((p :: l) ++ add)) to dv cr hid) as [ts| | |]; cbn [obind]; try reflexivity.
      exists m3, hb1. split; [reflexivity|].
      pose proof (happend_all_room add m1 (hb_post hb1) m2 s2 (proj1 Ho1) Eh) as Hroom.
      assert (Hloc3 : loc (eq (s_arr (hb_post hb1))) (fun _ => False) m1 m3).
      { apply (loc_trans _ _ _ _ _ _ _ L2 L3); [|tauto]. intros a Ha <-. destruct A2 as [A2|A2]; [symmetry; exact A2|lia]. }
      assert (Hsame_arr : s_off (hb_post hb1) + s_len (hb_post hb1) + length add <= length (arr m1 (s_arr (hb_post hb1))) ->
                s2 = mkS (s_arr (hb_post hb1)) (s_off (hb_post hb1)) (s_len (hb_post hb1) + length add) /\ cells m3 (hb_post hb1) = firstn (s_len (hb_post hb1)) (cells m3 s2)).
      { intros Hle. apply Nat.leb_le in Hle. rewrite Hle in Hroom. destruct Hroom as [-> _]. split; [reflexivity|]. unfold cells. cbn [s_arr s_off s_len]. rewrite firstn_firstn. f_equal. lia. }
      assert (Hmoved : length (arr m1 (s_arr (hb_post hb1))) < s_off (hb_post hb1) + s_len (hb_post hb1) + length add -> cells m3 (hb_post hb1) = cells m1 (hb_post hb1)).
      { intros Hgt. assert (Hx : (s_off (hb_post hb1) + s_len (hb_post hb1) + length add <=? length (arr m1 (s_arr (hb_post hb1)))) = false) by (apply Nat.leb_gt; exact Hgt). rewrite Hx in Hroom.
        rewrite <- E2. apply (cells_loc _ _ _ _ _ L3); [destruct L2 as (L2 & _), Ho1 as ((Ho1 & _) & _); lia|]. destruct Ho1 as ((Ho1 & _) & _). lia. }
      assert (Hframe : cells m3 (hb_post hb1) = cells m1 (hb_post hb1) -> RB m3 hb1 cb).
      { intros Ecells. assert (Hs3 : sl_ok m3 (hb_post hb1)).
        { split; [destruct Hloc3 as (H & _), Ho1 as ((Ho1 & _) & _); lia|]. destruct (Nat.le_gt_cases (s_off (hb_post hb1) + s_len (hb_post hb1)) (length (arr m3 (s_arr (hb_post hb1))))) as [H|H]; [exact H|].
          assert (Hcl3 : length (cells m3 (hb_post hb1)) = s_len (hb_post hb1)) by (rewrite Ecells; exact Hcl). unfold cells in Hcl3. rewrite firstn_length, skipn_length in Hcl3. rewrite Hlen in *. cbn [length] in *. lia. }
        split; [split; [exact Hs3|rewrite Ecells; split; [apply Ho1|]]|].
        - intros x Hx. destruct Ho1 as (_ & _ & Hb). specialize (Hb x Hx). destruct Hloc3 as (_ & H & _). lia.
        - split; [|rewrite Epost; auto 10]. rewrite Epost, <- Hl1. unfold look_slice. rewrite Ecells. apply map_look_ext. intros x Hx. apply Hloc3; [apply Ho1; exact Hx|tauto]. }
      assert (Hptrs : forall x, In x (ptrs (cells m3 (hb_post hb1))) -> In x (ptrs (cells m1 (hb_post hb1))) \/ length (m_rats m1) <= x).
      { intros x Hx. destruct (Nat.le_gt_cases (s_off (hb_post hb1) + s_len (hb_post hb1) + length add) (length (arr m1 (s_arr (hb_post hb1))))) as [Hle|Hgt].
        - destruct (Hsame_arr Hle) as [_ Ecf]. rewrite Ecf in Hx. apply ptrs_In in Hx as (q & Hq & Hx). assert (Hq' : In q (cells m2 s2)) by (apply (Permutation_in _ Pm); rewrite <- (firstn_skipn (s_len (hb_post hb1)) (cells m3 s2)); apply in_app_iff; left; exact Hq).
          rewrite C2 in Hq'. apply in_app_iff in Hq' as [Hq'|Hq']; [left; apply ptrs_In; eauto|right; apply P2; apply ptrs_In; eauto].
        - rewrite (Hmoved Hgt) in Hx. left. exact Hx. }
      assert (Hmv3 : mv m1 (hb_post hb1) m3 (hb_post hb1)) by (split; [apply (loc_weaken _ _ _ _ _ _ Hloc3); [auto|tauto]|split; [left; reflexivity|exact Hptrs]]).
      split; [exact (mv_trans _ _ _ _ _ _ Hm1 Hmv3)|]. split.
      + intros Hsp. unfold acc_spared, adds in Hsp. rewrite Epost in Hsp. specialize (Hsp add Ef). destruct Hsp as [(-> & Hnd & Hsrt)|Hlt].
        * apply Hframe. cbn in Eh. injection Eh as <- <-. unfold m3, hsort. rewrite Hl1, (order_id _ Hnd Hsrt). change (p :: l) with (p :: l) in *.
          replace (length (p :: l)) with (length (cells m1 (hb_post hb1))) by (rewrite Hcl, Hlen; reflexivity). rewrite arrange_seq.
          destruct (hb_post hb1) as [a off n] eqn:Es. cbn [s_arr s_off]. destruct Ho1 as ((Hs1 & Hs2) & _). cbn [s_arr s_off s_len] in *. 
          rewrite (cells_put m1 a off (cells m1 (mkS a off n)) n); [apply firstn_all2; lia|exact Hs1|lia|lia].
        * apply Hframe, Hmoved. unfold room in Hlt. lia.
      + intros add' _ Eadd Hle. unfold adds in Eadd. rewrite Epost in Eadd |- *. rewrite Ef in Eadd. injection Eadd as <-. unfold room in Hle. destruct Ho1 as ((Hs1 & Hs2) & _).
        destruct (Hsame_arr ltac:(lia)) as [_ Ecf]. unfold look_slice at 1. rewrite Ecf, <- firstn_map. rewrite Hlen. f_equal. exact (eq_trans Hl3 (f_equal srt Hl2)).
  Qed.
End Acc.
