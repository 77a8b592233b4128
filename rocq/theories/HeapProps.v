(** * HeapProps: properties C43, C60, C61. A program (HeapModel.v) with shared arrays and amounts changed in place is
    compared with the same program on independent values (HeapSpec.v). [ord] is any sort (the order it puts a list in),
    [grow] any growth of append. *)
From Verif Require Import Base Dec DateModel PriceModel BookModel BookSpec BookProofs BuilderProofs OpsModel OpsProofs OpsProofs2 RegisterModel RegisterSpec RegisterProofs
  AccumModel AccumSpec AccumProofs AccumProofs2 AccumProofs3 HeapModel HeapSpec HeapProofs HeapProofs2 HeapProofs3 HeapProofs4 HeapProofs5 HeapProofs6 HeapProofs7 HeapProofs8.
Local Open Scope nat_scope.

(** ** C61 *)
Theorem C61_shared_memory_partial : forall ord grow it micro cs m0, order_ok ord -> tidy [] cs ->
  agree (hrun ord grow it micro cs m0 []) (vrun (srt_of ord) it micro cs []).
Proof.
  intros ord grow it micro cs m0 Ho Ht. destruct (run_sim ord grow it micro Ho cs [] m0 [] [] (Sim_init m0) Ht) as [dead H]. exact (simstep_agree dead _ _ H).
Qed.
Print Assumptions C61_shared_memory_partial.
(** Hence the theorems about reachable books hold of what such a program shows. *)
Theorem C61_books_reachable : forall ord grow it micro cs m0 m os k b, order_ok ord -> sort_ok is_less (srt_of ord) -> careful ord grow it micro [] cs m0 [] ->
  hrun ord grow it micro cs m0 [] = Ok (m, os) -> seen_book m os k = Some b -> reachable (srt_of ord) b.
Proof.
  intros ord grow it micro cs m0 m os k b Ho Hs Hc E Hk. destruct (careful_sim ord grow it micro Ho Hs cs [] m0 [] [] (Sim_init m0) (good_nil ord) Hc) as (dead & H & Hg).
  unfold simstep in H. destruct (vrun (srt_of ord) it micro cs []) as [vs| | |] eqn:Ev; try congruence. destruct H as (m' & os' & E' & HS). rewrite E in E'. injection E' as <- <-.
  rewrite (Sim_seen _ _ _ _ k HS) in Hk. unfold val_seen in Hk. specialize (Hg vs eq_refl k). destruct (nth_error vs k) as [[u|b']|]; try discriminate. injection Hk as <-. exact Hg.
Qed.
Print Assumptions C61_books_reachable.

(** ** C43 *)
Theorem C43_book_kept_partial : forall ord grow it micro cs m0, order_ok ord -> sort_ok is_less (srt_of ord) -> careful ord grow it micro [] cs m0 [] ->
  agree (hrun ord grow it micro cs m0 []) (vrun (srt_of ord) it micro cs []).
Proof.
  intros ord grow it micro cs m0 Ho Hs Hc. destruct (careful_sim ord grow it micro Ho Hs cs [] m0 [] [] (Sim_init m0) (good_nil ord) Hc) as (dead & H & _). exact (simstep_agree dead _ _ H).
Qed.
Print Assumptions C43_book_kept_partial.
(** Whatever room there is: the summary itself is right, no other book changes, and if the added rows fit behind the
    postings, the book is left with the first postings of the sorted mixture. *)
Theorem C43_summary_always : forall ord grow it micro cs m0 m os k hb to dv credit hidden,
  order_ok ord -> sort_ok is_less (srt_of ord) -> careful ord grow it micro [] cs m0 [] -> hrun ord grow it micro cs m0 [] = Ok (m, os) ->
  nth_error os k = Some (ObjB hb) ->
  match accumulate (srt_of ord) it micro to dv credit hidden (read m hb) with
  | Ok (b', ts) => exists m' hb', haccumulate ord grow it micro to dv credit hidden m hb = Ok (m', hb', ts) /\
      (forall j, j <> k -> seen_book m' (upd k (ObjB hb') os) j = seen_book m os j) /\
      (forall m1 b1, hcompact ord m hb = (m1, b1) -> added (bk_trans b') <> 0 -> added (bk_trans b') <= room m1 b1 ->
         exists z, length z = added (bk_trans b') /\ Forall (fun p => p_val p = 0%Qc) z /\ bk_post (read m' hb') = firstn (length (bk_post b')) (srt_of ord (bk_post b' ++ z)))
  | Error => haccumulate ord grow it micro to dv credit hidden m hb = Error
  | Panic => haccumulate ord grow it micro to dv credit hidden m hb = Panic
  | Diverge => haccumulate ord grow it micro to dv credit hidden m hb = Diverge
  end.
Proof.
  intros ord grow it micro cs m0 m os k hb to dv credit hidden Ho Hs Hc E Hk. destruct (careful_sim ord grow it micro Ho Hs cs [] m0 [] [] (Sim_init m0) (good_nil ord) Hc) as (dead & H & Hg).
  unfold simstep in H. destruct (vrun (srt_of ord) it micro cs []) as [vs| | |] eqn:Ev; try congruence. destruct H as (m' & os' & E' & HS). rewrite E in E'. injection E' as <- <-.
  specialize (Hg vs eq_refl). destruct (Sim_book _ _ _ _ k HS) as [(hb0 & vb & E1 & E2 & N1 & N2 & Hd & HR)|[E1 _]]; [|unfold the_book in E1; rewrite Hk in E1; discriminate].
  rewrite Hk in N1. injection N1 as <-. rewrite (RB_read _ _ _ HR). destruct (hcompact ord m hb) as [m1 b1] eqn:Ec. pose proof (reachable_ok _ Hs _ (good_book _ _ _ _ _ Hg E2)) as Hok.
  pose proof (accumulate_RB ord grow it micro Ho to dv credit hidden m hb vb m1 b1 HR Ec) as Ha. destruct (accumulate (srt_of ord) it micro to dv credit hidden vb) as [[b' ts]| | |] eqn:Eacc; try exact Ha.
  destruct Ha as (m' & hb' & Eh & Hm & (_ & Hdam)). exists m', hb'. split; [exact Eh|].
  split.
  - intros j Hj. destruct HS as (Hl & _ & Hr & Hap). unfold seen_book. rewrite nth_error_upd_neq by exact Hj. destruct (nth_error os j) as [[u|ob]|] eqn:Ej; try reflexivity.
    destruct (nth_error_same _ _ _ _ Hl Ej) as [v Evj]. destruct (Hr j _ _ Ej Evj) as [[_ (u & w & Hu & _)]|[Hnd HRj]]; [discriminate|]. destruct (Hap j k _ _ Hj Hnd Hd Ej Hk) as [A1 A2]. destruct v as [u|vj]; [contradiction|]. cbn [Rel post_of] in *.
    destruct (own_frame _ _ _ _ (hb_post ob) Hm (proj1 HRj) A1 A2) as (F1 & _ & F3 & _). pose proof (Rel_frame m m' (ObjB ob) (ValB vj) HRj F1 F3) as HRj'. cbn [Rel] in HRj'. rewrite (RB_read _ _ _ HRj), (RB_read _ _ _ HRj'). reflexivity.
  - intros m1' b1' E0 Hne Hle. injection E0 as <- <-. set (cb := compact (srt_of ord) vb) in *.
    assert (Hcase : bk_post cb <> [] /\ b' = cb).
    { destruct (bk_post cb) as [|p l] eqn:Ep.
      - exfalso. unfold accumulate in Eacc. cbv zeta in Eacc. fold cb in Eacc. rewrite Ep in Eacc. unfold transactions in Eacc. injection Eacc as Eb _. apply Hne. rewrite <- Eb.
        assert (Ett : bk_trans (compact (srt_of ord) cb) = []) by (unfold compact; rewrite Ep; apply (book_ok_nil); [exact (compact_book_ok _ Hs _ Hok)|exact Ep]). rewrite Ett. reflexivity.
      - split; [discriminate|]. rewrite accumulate_eq in Eacc by (fold cb; rewrite Ep; discriminate). fold cb in Eacc. apply obind_Ok in Eacc as (add & _ & Eacc). apply obind_Ok in Eacc as (rows & _ & Eacc). injection Eacc as <- _. reflexivity. }
    destruct Hcase as [Hpne ->]. set (z := concat (map (fill_of (acct_list (bk_post cb))) (bk_trans cb))).
    assert (Hz : length z = added (bk_trans cb)) by exact (adds_length _ vb Hs Hok). exists z. split; [exact Hz|]. split.
    + rewrite Forall_forall. intros p Hp. apply in_concat in Hp as (l & Hl & Hp). apply in_map_iff in Hl as (t & <- & _). pose proof (fill_zero (acct_list (bk_post cb)) t) as Hfz. rewrite Forall_forall in Hfz. exact (Hfz p Hp).
    + apply (Hdam z Hpne); [exact (adds_eq _ vb Hs Hok)|lia].
Qed.
Print Assumptions C43_summary_always.

(** ** C60 *)
Theorem C60_select_then_scale_partial : forall ord grow it micro cs1 k fs by_ cs2 m0,
  order_ok ord -> tidy [] (cs1 ++ cs2) -> Forall (fun o => selects o = true) fs -> by_ <> bs "none" ->
  let prog := cs1 ++ KDuplicate k :: map (KOp (made cs1)) fs ++ KOp (made cs1) (OAdjustBy by_) :: cs2 in
  agree (hrun ord grow it micro prog m0 []) (vrun (srt_of ord) it micro prog []).
Proof.
  intros ord grow it micro cs1 k fs by_ cs2 m0 Ho Ht Hf Hn prog. apply str_eqb_neq in Hn. destruct (dup_run ord grow it micro Ho cs1 k fs by_ cs2 m0 Ht Hf Hn) as [dead H]. exact (simstep_agree dead _ _ H).
Qed.
Print Assumptions C60_select_then_scale_partial.
