(** * HeapProofs8: Duplicate. *)
From Verif Require Import Base Dec DateModel PriceModel BookModel BookSpec BookProofs BuilderProofs OpsModel OpsProofs OpsProofs2 
  AccumModel HeapModel HeapSpec HeapProofs HeapProofs2 HeapProofs3 HeapProofs4 HeapProofs5.
Local Open Scope nat_scope.

Section Dup.
  Variable ord : list posting -> list nat.
  Variable grow : nat -> nat.
  Variable it : list posting -> list str -> list str.
  Variable micro : Qc -> Z.
  Hypothesis Hord : order_ok ord.
  Notation srt := (srt_of ord).

  Definition deads (cs : list cmd) (dead : list nat) : list nat := fold_left (fun d c => dead_after c d) cs dead.
  Lemma tidy_app a : forall b dead, tidy dead (a ++ b) <-> tidy dead a /\ tidy (deads a dead) b.
  Proof.
    induction a as [|c a IH]; intros b dead; [cbn; tauto|]. unfold deads in *. cbn [app fold_left].
    destruct c; cbn [tidy dead_after]; try (rewrite IH; tauto); tauto.
  Qed.
  Lemma run_sim_deads : forall cs dead m os vs, Sim dead m os vs -> tidy dead cs ->
    simstep (deads cs dead) (hrun ord grow it micro cs m os) (vrun srt it micro cs vs).
  Proof.
    induction cs as [|c cs IH]; intros dead m os vs HS Ht; [cbn; do 2 eexists; split; [reflexivity|exact HS]|]. apply (tidy_cons grow micro) in Ht as [Ht1 Ht]. cbn [hrun vrun].
    pose proof (step_sim ord grow it micro Hord c dead m os vs HS Ht1) as H. unfold simstep in H. destruct (vstep srt it micro c vs) as [vs'| | |]; cbn [obind]; try (rewrite H; reflexivity).
    destruct H as (m' & os' & E & HS'). rewrite E. cbn [obind]. exact (IH _ _ _ _ HS' Ht).
  Qed.
  Lemma hrun_app a : forall b m os, hrun ord grow it micro (a ++ b) m os = obind (hrun ord grow it micro a m os) (fun x => hrun ord grow it micro b (fst x) (snd x)).
  Proof. induction a as [|c a IH]; intros b m os; [reflexivity|]. cbn [app hrun]. destruct (hstep ord grow it micro c m os) as [[m' os']| | |]; cbn [obind]; [apply IH| | |]; reflexivity. Qed.
  Lemma vrun_app a : forall b vs, vrun srt it micro (a ++ b) vs = obind (vrun srt it micro a vs) (fun x => vrun srt it micro b x).
  Proof. induction a as [|c a IH]; intros b vs; [reflexivity|]. cbn [app vrun]. destruct (vstep srt it micro c vs) as [vs'| | |]; cbn [obind]; [apply IH| | |]; reflexivity. Qed.
  Lemma vstep_made c vs vs' : vstep srt it micro c vs = Ok vs' -> length vs' = length vs + made [c].
  Proof.
    destruct c as [|k c|k|k o|k j|k j ord1 ord2 dist refacct|k|k to dv cr hid]; cbn [vstep made]; intros E; repeat (apply obind_Ok in E as (? & ? & E)); try (destruct (other_book o); [discriminate|]; apply obind_Ok in E as (? & ? & E));
      injection E as <-; rewrite ?app_length, ?upd_length; cbn [length]; lia.
  Qed.
  Lemma vrun_made : forall cs vs vs', vrun srt it micro cs vs = Ok vs' -> length vs' = length vs + made cs.
  Proof.
    induction cs as [|c cs IH]; intros vs vs' E; [injection E as <-; cbn; lia|]. cbn [vrun] in E. apply obind_Ok in E as (vs1 & E1 & E). apply IH in E. apply vstep_made in E1.
    assert (made (c :: cs) = made [c] + made cs) by (destruct c; reflexivity). lia.
  Qed.
  Lemma nth_error_last {A} (l : list A) x : nth_error (l ++ [x]) (length l) = Some x.
  Proof. rewrite nth_error_app2 by lia. rewrite Nat.sub_diag. reflexivity. Qed.
  Lemma upd_last {A} (l : list A) x y : upd (length l) y (l ++ [x]) = l ++ [y].
  Proof. induction l as [|a l IH]; cbn; [reflexivity|rewrite IH; reflexivity]. Qed.

  Lemma dup_WB m hb vb m' d : RB m hb vb -> hduplicate m hb = (m', d) -> WB m' d vb /\ ext m m'.
  Proof.
    intros H E. pose proof (RB_read _ _ _ H) as Hread0. pose proof (RB_WB _ _ _ H) as (Hs & Hb & Ht & Hc & Hread & Hne). unfold hduplicate in E. destruct (alloc_arr m (cells m (hb_post hb))) as [m1 a] eqn:Ea.
    apply alloc_arr_ext in Ea as (Hx & -> & Hl1 & Harr & Hr). injection E as <- <-. split; [|exact Hx].
    assert (Hcells : forall s, sl_ok m s -> cells m1 s = cells m s) by (intros s [Hs1 _]; apply (cells_loc _ _ _ _ _ Hx Hs1); tauto).
    assert (Hpost : cells m1 (mkS (length (m_arrs m)) 0 (s_len (hb_post hb))) = cells m (hb_post hb)).
    { unfold cells at 1. cbn [s_arr s_off s_len skipn]. rewrite Harr. apply firstn_all2. rewrite cells_length by exact Hs. lia. }
    split; [split; cbn [s_arr s_off s_len hb_post]; [lia|rewrite Harr, cells_length by exact Hs; lia]|]. cbn [hb_post hb_trans]. rewrite Hpost, Hr. split; [exact Hb|].
    split; [intros t Hin; apply (sl_ok_loc _ _ _ _ _ Hx); [apply Ht; exact Hin|tauto]|]. split; [rewrite <- Hc; f_equal; apply map_ext_in; intros t Hin; apply Hcells; apply Ht; exact Hin|].
    split; [|exact Hne]. rewrite <- Hread. unfold read, look_slice. cbn [hb_post hb_trans hb_prices hb_ccy]. rewrite Hpost, Hr. f_equal. apply map_ext_in. intros t Hin. rewrite Hcells by (apply Ht; exact Hin). reflexivity.
  Qed.
  Lemma select_WB o m hb vb : selects o = true -> WB m hb vb ->
    res (hrun_op ord grow o m hb) (run_op srt o vb) (fun m' hb' b => WB m' hb' b /\ ext m m').
  Proof.
    intros Hs HW.
    assert (Hf : forall f, res (hfilter_transaction grow f m hb) (filter_transaction f vb) (fun m' hb' b => WB m' hb' b /\ ext m m')).
    { intros f. rewrite <- vfilter_plain. unfold hfilter_transaction. set (g := fun (_ : unit) t => Ok (first_of f t, tt)).
      pose proof (hfilter_spec grow g tt m hb vb HW) as Hf. pose proof (fun keep => filtered_WB grow g tt m hb vb keep HW) as Hk.
      destruct (vfilter g tt (bk_trans vb)) as [keep| | |]; cbn [obind res]; try exact Hf. destruct (Hk keep eq_refl) as (m' & hb' & E & HR & Hx). eauto. }
    assert (Hid : res (Ok (m, hb)) (Ok vb) (fun m' hb' b => WB m' hb' b /\ ext m m')) by (cbn; exists m, hb; split; [reflexivity|split; [exact HW|apply loc_refl]]).
    destruct o; try discriminate; cbn [hrun_op run_op].
    - apply Hf.
    - unfold filter_since. destruct (d =? 0)%Z; [exact Hid|apply Hf].
    - unfold filter_asof. destruct (d =? 0)%Z; [exact Hid|apply Hf].
    - apply Hf.
  Qed.
  (** A last object that is only read. *)
  Definition Sim1 (dead : list nat) (m : mem) (os : list obj) (vs : list vobj) : Prop :=
    exists os0 vs0 hb vb, os = os0 ++ [ObjB hb] /\ vs = vs0 ++ [ValB vb] /\ Sim dead m os0 vs0 /\ WB m hb vb.
  Definition simstep1 (dead : list nat) (h : outcome (mem * list obj)) (v : outcome (list vobj)) : Prop :=
    match v with Ok vs => exists m os, h = Ok (m, os) /\ Sim1 dead m os vs | Error => h = Error | Panic => h = Panic | Diverge => h = Diverge end.
  Lemma sel_run n : forall fs dead m os vs, Sim1 dead m os vs -> length vs = S n -> Forall (fun o => selects o = true) fs ->
    simstep1 dead (hrun ord grow it micro (map (KOp n) fs) m os) (vrun srt it micro (map (KOp n) fs) vs).
  Proof.
    induction fs as [|o fs IH]; intros dead m os vs HS Hl Hf; [cbn; eauto|]. cbn [map hrun vrun hstep vstep]. destruct HS as (os0 & vs0 & hb & vb & -> & -> & HS & HW).
    rewrite app_length in Hl. cbn [length] in Hl. assert (Hv : n = length vs0) by lia. pose proof HS as (Hlen & _). assert (Ho : n = length os0) by lia.
    unfold the_book, val_book. replace (nth_error (os0 ++ [ObjB hb]) n) with (Some (ObjB hb)) by (rewrite Ho; symmetry; apply nth_error_last). replace (nth_error (vs0 ++ [ValB vb]) n) with (Some (ValB vb)) by (rewrite Hv; symmetry; apply nth_error_last).
    cbn [obind]. pose proof (select_WB o m hb vb (Forall_inv Hf) HW) as Hs. assert (Eo : other_book o = None) by (pose proof (Forall_inv Hf) as H; destruct o; try reflexivity; discriminate). rewrite Eo.
    unfold res in Hs. destruct (run_op srt o vb) as [b| | |]; cbn [obind]; try (rewrite Hs; reflexivity). destruct Hs as (m' & hb' & E & HW' & Hx). rewrite E. cbn [obind].
    replace (upd n (ObjB hb') (os0 ++ [ObjB hb])) with (os0 ++ [ObjB hb']) by (rewrite Ho; symmetry; apply upd_last). replace (upd n (ValB b) (vs0 ++ [ValB vb])) with (vs0 ++ [ValB b]) by (rewrite Hv; symmetry; apply upd_last).
    apply IH; [|rewrite app_length; cbn; lia|exact (Forall_inv_tail Hf)]. exists os0, vs0, hb', b. split; [reflexivity|]. split; [reflexivity|]. split; [exact (Sim_ext _ _ _ _ _ HS Hx)|exact HW'].
  Qed.
  Lemma adjust_step n by_ dead m os vs : Sim1 dead m os vs -> length vs = S n -> str_eqb by_ (bs "none") = false ->
    simstep dead (hstep ord grow it micro (KOp n (OAdjustBy by_)) m os) (vstep srt it micro (KOp n (OAdjustBy by_)) vs).
  Proof.
    intros (os0 & vs0 & hb & vb & -> & -> & HS & HW) Hl Hn. cbn [hstep vstep other_book hrun_op run_op]. rewrite app_length in Hl. cbn [length] in Hl. assert (Hv : n = length vs0) by lia. pose proof HS as (Hlen & _). assert (Ho : n = length os0) by lia.
    unfold the_book, val_book. replace (nth_error (os0 ++ [ObjB hb]) n) with (Some (ObjB hb)) by (rewrite Ho; symmetry; apply nth_error_last). replace (nth_error (vs0 ++ [ValB vb]) n) with (Some (ValB vb)) by (rewrite Hv; symmetry; apply nth_error_last).
    cbn [obind]. pose proof (adjust_by_spec ord grow Hord by_ m hb vb HW Hn) as Hs. unfold res in Hs. destruct (adjust_by srt by_ vb) as [b| | |]; cbn [obind]; try (rewrite Hs; reflexivity).
    destruct Hs as (m' & hb' & E & HR & Hx & Ha & Hp). rewrite E. cbn [obind simstep]. do 2 eexists. split; [reflexivity|].
    replace (upd n (ObjB hb') (os0 ++ [ObjB hb])) with (os0 ++ [ObjB hb']) by (rewrite Ho; symmetry; apply upd_last). replace (upd n (ValB b) (vs0 ++ [ValB vb])) with (vs0 ++ [ValB b]) by (rewrite Hv; symmetry; apply upd_last).
    exact (Sim_new _ m _ _ _ (ObjB hb') (ValB b) HS Hx HR Ha Hp).
  Qed.
  Lemma dup_run cs1 k fs by_ cs2 m : tidy [] (cs1 ++ cs2) -> Forall (fun o => selects o = true) fs -> str_eqb by_ (bs "none") = false ->
    let prog := cs1 ++ KDuplicate k :: map (KOp (made cs1)) fs ++ KOp (made cs1) (OAdjustBy by_) :: cs2 in
    exists dead, simstep dead (hrun ord grow it micro prog m []) (vrun srt it micro prog []).
  Proof.
    intros Ht Hf Hn prog. unfold prog. apply tidy_app in Ht as [Ht1 Ht2]. rewrite hrun_app, vrun_app.
    pose proof (run_sim_deads cs1 [] m [] [] (Sim_init m) Ht1) as H1. unfold simstep in H1. destruct (vrun srt it micro cs1 []) as [vs1| | |] eqn:Ev1; cbn [obind]; try (rewrite H1; exists []; reflexivity).
    destruct H1 as (m1 & os1 & E1 & HS1). rewrite E1. cbn [obind fst snd]. apply vrun_made in Ev1. cbn [length Nat.add] in Ev1. set (n := made cs1) in *. cbn [hrun vrun hstep vstep].
    destruct (Sim_book _ _ _ _ k HS1) as [(hb & vb & F1 & F2 & _ & _ & _ & HR)|[F1 F2]]; rewrite F1, F2; cbn [obind]; [|exists []; reflexivity].
    destruct (hduplicate m1 hb) as [m2 d] eqn:Ed. destruct (dup_WB _ _ _ _ _ HR Ed) as [HW Hx]. cbn [obind].
    assert (HS2 : Sim1 (deads cs1 []) m2 (os1 ++ [ObjB d]) (vs1 ++ [ValB vb])) by (exists os1, vs1, d, vb; split; [reflexivity|split; [reflexivity|split; [exact (Sim_ext _ _ _ _ _ HS1 Hx)|exact HW]]]).
    rewrite hrun_app, vrun_app. assert (Hln : length (vs1 ++ [ValB vb]) = S n) by (rewrite app_length; cbn; lia).
    pose proof (sel_run n fs _ _ _ _ HS2 Hln Hf) as H3. unfold simstep1 in H3. destruct (vrun srt it micro (map (KOp n) fs) (vs1 ++ [ValB vb])) as [vs3| | |] eqn:Ev3; cbn [obind]; try (rewrite H3; exists []; reflexivity).
    destruct H3 as (m3 & os3 & E3 & HS3). rewrite E3. cbn [obind fst snd]. apply vrun_made in Ev3. assert (Hm0 : made (map (KOp n) fs) = 0) by (clear; induction fs; [reflexivity|exact IHfs]). rewrite Hm0 in Ev3.
    pose proof (adjust_step n by_ _ _ _ _ HS3 ltac:(lia) Hn) as H4. cbn [hrun vrun]. unfold simstep in H4. destruct (vstep srt it micro (KOp n (OAdjustBy by_)) vs3) as [vs4| | |]; cbn [obind]; try (rewrite H4; exists []; reflexivity).
    destruct H4 as (m4 & os4 & E4 & HS4). rewrite E4. cbn [obind]. exists (deads cs2 (deads cs1 [])). exact (run_sim_deads cs2 _ _ _ _ HS4 Ht2).
  Qed.
End Dup.
