(** * HeapProofs3: the book operations on the heap do what the value-level operations do. *)
From Verif Require Import Base Dec DateModel PriceModel BookModel BookSpec BookProofs OpsModel OpsProofs AccumModel HeapModel HeapSpec HeapProofs HeapProofs2.
Local Open Scope nat_scope.

Lemma own_loc_len m s : own m s -> length (cells m s) = s_len s.
Proof. intros (H & _). apply cells_length. exact H. Qed.
(** Rewriting the cells of an owned slice without touching the pointers. *)
Lemma put_own m s c : own m s -> length c = s_len s -> ptrs c = ptrs (cells m s) ->
  own (put m (s_arr s) (s_off s) c) s /\ cells (put m (s_arr s) (s_off s) c) s = c /\ mv m s (put m (s_arr s) (s_off s) c) s.
Proof.
  intros ((Ha & Hl) & Hn & Hb) Hlen Hp.
  assert (Hc : cells (put m (s_arr s) (s_off s) c) s = c).
  { destruct s as [a off n]. cbn [s_arr s_off s_len] in *. rewrite cells_put; [rewrite <- Hlen; apply firstn_all|exact Ha|lia|lia]. }
  split; [|split; [exact Hc|]].
  - split; [split; [rewrite put_arrs; exact Ha|rewrite arr_put_length by (try exact Ha; lia); exact Hl]|]. rewrite Hc, Hp. split; [exact Hn|exact Hb].
  - split; [|split; [left; reflexivity|rewrite Hc, Hp; auto]]. apply (loc_weaken _ _ _ _ _ _ (loc_put m (s_arr s) (s_off s) c)); [auto|tauto].
Qed.

(** ** Filters *)
Section Filter.
  Context {T : Type}.
  Variable grow : nat -> nat.
  Variable f : T -> trans -> outcome (bool * T).
  Fixpoint vfilter (st : T) (ts : list trans) : outcome (list trans) :=
    match ts with
    | [] => Ok []
    | t :: ts' => match t with
                  | [] => Panic
                  | _ => do (keep, st) <- f st t; do r <- vfilter st ts'; Ok (if keep then t :: r else r)
                  end
    end.
  Definition slens (ts : list slice) : nat := list_sum (map s_len ts).
  Lemma hfilter_loop_spec : forall ts st m newp newt,
    (forall t, In t ts -> sl_ok m t /\ s_arr t <> s_arr newp) -> sl_ok m newp -> s_off newp = 0 -> s_len newp + slens ts <= length (arr m (s_arr newp)) ->
    match vfilter st (map (look_slice m) ts) with
    | Ok keep => exists m', hfilter_loop grow f st m newp newt ts
          = Ok (m', mkS (s_arr newp) 0 (s_len newp + length (concat keep)), newt ++ tiles (s_arr newp) (s_len newp) (map (@length posting) keep)) /\
        m_rats m' = m_rats m /\ loc (eq (s_arr newp)) (fun _ => False) m m' /\ sl_ok m' (mkS (s_arr newp) 0 (s_len newp + length (concat keep))) /\
        exists ks, cells m' (mkS (s_arr newp) 0 (s_len newp + length (concat keep))) = cells m newp ++ ks /\ sub ks (concat (map (cells m) ts)) /\ map (look (m_rats m)) ks = concat keep
    | Error => hfilter_loop grow f st m newp newt ts = Error
    | Panic => hfilter_loop grow f st m newp newt ts = Panic
    | Diverge => hfilter_loop grow f st m newp newt ts = Diverge
    end.
  Proof.
    induction ts as [|t ts IH]; intros st m newp newt Hts Hnp Hoff Hroom.
    - cbn [map vfilter]. exists m. cbn [hfilter_loop concat length tiles map]. rewrite Nat.add_0_r.
      assert (E : mkS (s_arr newp) 0 (s_len newp) = newp) by (destruct newp; cbn in *; subst; reflexivity). rewrite E, app_nil_r.
      split; [reflexivity|]. split; [reflexivity|]. split; [apply loc_refl|]. split; [exact Hnp|]. exists []. rewrite app_nil_r. repeat split. constructor.
    - cbn [map vfilter hfilter_loop]. destruct (Hts t (or_introl eq_refl)) as [Hst Hne]. pose proof (cells_length m t Hst) as Hcl.
      destruct (look_slice m t) as [|q tl] eqn:El.
      + assert (s_len t = 0) as -> by (rewrite <- Hcl; rewrite <- (map_length (look (m_rats m))); change (map (look (m_rats m)) (cells m t)) with (look_slice m t); rewrite El; reflexivity). reflexivity.
      + assert (Hlt : s_len t = length (look_slice m t)) by (unfold look_slice; rewrite map_length; symmetry; exact Hcl).
        replace (s_len t =? 0) with false by (symmetry; apply Nat.eqb_neq; rewrite Hlt, El; cbn; lia).
        destruct (f st (q :: tl)) as [[keep st']| | |] eqn:Ef; cbn [obind]; try reflexivity.
        assert (Hrest : forall t', In t' ts -> sl_ok m t' /\ s_arr t' <> s_arr newp) by (intros t' Ht'; apply Hts; right; exact Ht').
        assert (Hsum : slens (t :: ts) = s_len t + slens ts) by reflexivity.
        destruct keep.
        * rewrite append_room by (rewrite Hoff, Hcl; cbn; lia).
          set (m1 := put m (s_arr newp) (s_off newp + s_len newp) (cells m t)). set (np1 := mkS (s_arr newp) (s_off newp) (s_len newp + length (cells m t))).
          assert (Happ : append grow m newp (cells m t) = (m1, np1)) by (apply append_room; rewrite Hoff, Hcl; cbn; lia).
          destruct (append_spec grow m newp (cells m t) m1 np1 Hnp Happ) as (A1 & A2 & A3 & A4 & _ & A6 & A7).
          assert (Hrest1 : forall t', In t' ts -> sl_ok m1 t' /\ s_arr t' <> s_arr np1).
          { intros t' Ht'. destruct (Hrest t' Ht') as [H1 H2]. split; [|exact H2]. apply (sl_ok_loc _ _ _ _ _ A4 H1). congruence. }
          assert (Hview : map (look_slice m1) ts = map (look_slice m) ts /\ map (cells m1) ts = map (cells m) ts).
          { assert (forall t', In t' ts -> cells m1 t' = cells m t') by (intros t' Ht'; destruct (Hrest t' Ht') as [[H1 _] H2]; apply (cells_loc _ _ _ _ _ A4 H1); congruence).
            split; apply map_ext_in; intros t' Ht'; [unfold look_slice; rewrite A3|]; rewrite H by exact Ht'; reflexivity. }
          destruct Hview as [Hv1 Hv2].
          assert (Harr : length (arr m1 (s_arr newp)) = length (arr m (s_arr newp))) by (apply arr_put_length; [apply Hnp|rewrite Hoff, Hcl; cbn; lia]).
          specialize (IH st' m1 np1 (newt ++ [mkS (s_arr np1) (s_off np1 + s_len newp) (s_len np1 - s_len newp)]) Hrest1 A1 Hoff).
          rewrite Hv1, Hv2 in IH. unfold np1 in IH. cbn [s_arr s_off s_len] in IH. specialize (IH ltac:(rewrite Harr, Hcl; lia)).
          cbn [map] in *. destruct (vfilter st' (map (look_slice m) ts)) as [keep| | |] eqn:Ev; cbn [obind]; try exact IH.
          destruct IH as (m' & E & Er & Eloc & Eok & ks & Ec & Esub & Elook). rewrite Hoff in *. cbn [Nat.add] in *. rewrite Hcl in *.
          exists m'. cbn [concat length map tiles]. cbn [map concat]. 
          assert (Elen : length (q :: tl) = s_len t) by (rewrite <- El; symmetry; exact Hlt).
          assert (En : s_len newp + length ((q :: tl) ++ concat keep) = s_len newp + s_len t + length (concat keep)) by (rewrite app_length, Elen; lia).
          rewrite En. assert (Enp : np1 = mkS (s_arr newp) 0 (s_len newp + s_len t)) by (unfold np1; rewrite Hoff, Hcl; reflexivity). rewrite Enp. cbn [s_arr s_off s_len Nat.add].
          split; [|split; [congruence|split; [|split; [exact Eok|]]]].
          -- rewrite E. f_equal. f_equal. rewrite <- app_assoc. cbn [app length]. replace (s_len newp + s_len t - s_len newp) with (s_len t) by lia.
             cbn [length] in Elen. rewrite Elen. reflexivity.
          -- apply (loc_trans _ _ _ _ _ _ _ A4 Eloc); auto.
          -- exists (cells m t ++ ks). split; [rewrite Ec, <- Enp, A2, <- app_assoc; reflexivity|]. split; [apply sub_app; [apply sub_refl|exact Esub]|].
             rewrite map_app. rewrite A3 in Elook. rewrite Elook. change (map (look (m_rats m)) (cells m t)) with (look_slice m t). rewrite El. reflexivity.
        * specialize (IH st' m newp newt Hrest Hnp Hoff ltac:(lia)).
          destruct (vfilter st' (map (look_slice m) ts)) as [keep| | |] eqn:Ev; cbn [obind]; try exact IH.
          destruct IH as (m' & E & Er & Eloc & Eok & ks & Ec & Esub & Elook). exists m'. repeat (split; [assumption|]). exists ks. split; [exact Ec|]. split; [|exact Elook].
          cbn [map concat]. apply (sub_app [] (cells m t) ks _ (sub_none _) Esub).
  Qed.
  (** A book whose postings and transactions can be read (they need not be its own). *)
  Definition WB (m : mem) (hb : hbook) (vb : book) : Prop :=
    sl_ok m (hb_post hb) /\ below (length (m_rats m)) (ptrs (cells m (hb_post hb))) /\
    (forall t, In t (hb_trans hb) -> sl_ok m t) /\ concat (map (cells m) (hb_trans hb)) = cells m (hb_post hb) /\
    read m hb = vb /\ Forall (fun t : trans => t <> []) (bk_trans vb).
  Lemma vfilter_ne : forall ts st keep, vfilter st ts = Ok keep -> Forall (fun t : trans => t <> []) keep.
  Proof.
    induction ts as [|t ts IH]; intros st keep E; cbn [vfilter] in E; [injection E as <-; constructor|]. destruct t as [|p t]; [discriminate|].
    apply obind_Ok in E as ([k st'] & _ & E). apply obind_Ok in E as (r & Er & E). injection E as <-. specialize (IH _ _ Er). destruct k; [constructor; [discriminate|exact IH]|exact IH].
  Qed.
  Lemma hfilter_spec st m hb vb : WB m hb vb ->
    match vfilter st (bk_trans vb) with
    | Ok keep => exists m' hb', hfilter grow f st m hb = Ok (m', hb') /\ ext m m' /\ m_rats m' = m_rats m /\ length (m_arrs m) <= s_arr (hb_post hb') /\
        sl_ok m' (hb_post hb') /\ sub (cells m' (hb_post hb')) (cells m (hb_post hb)) /\ look_slice m' (hb_post hb') = concat keep /\
        hb_trans hb' = tiles (s_arr (hb_post hb')) (s_off (hb_post hb')) (map (@length posting) keep) /\ hb_prices hb' = bk_prices vb /\ hb_ccy hb' = bk_ccy vb
    | Error => hfilter grow f st m hb = Error
    | Panic => hfilter grow f st m hb = Panic
    | Diverge => hfilter grow f st m hb = Diverge
    end.
  Proof.
    intros (Hs & Hb & Ht & Hc & Hr & _). unfold hfilter, make_posts. destruct (alloc_arr m (repeat hzero (s_len (hb_post hb)))) as [m1 a] eqn:Ea.
    apply alloc_arr_ext in Ea as (Hext & -> & Hl1 & Harr & Hrats).
    assert (Hc1 : forall t, s_arr t < length (m_arrs m) -> cells m1 t = cells m t) by (intros t Hlt; apply (cells_loc _ _ _ _ _ Hext Hlt); tauto).
    assert (Htr : map (look_slice m1) (hb_trans hb) = bk_trans vb /\ map (cells m1) (hb_trans hb) = map (cells m) (hb_trans hb)).
    { rewrite <- Hr. cbn. split; apply map_ext_in; intros t Hin; [unfold look_slice; rewrite Hrats|]; rewrite Hc1 by (apply Ht; exact Hin); reflexivity. }
    destruct Htr as [Htr Htc].
    assert (Hlen : slens (hb_trans hb) = s_len (hb_post hb)).
    { rewrite <- (cells_length m _ Hs), <- Hc. unfold slens. clear - Ht. induction (hb_trans hb) as [|t ts IH]; [reflexivity|]. cbn [map concat list_sum fold_right]. rewrite app_length, (cells_length m t) by (apply Ht; left; reflexivity).
      change (fold_right Nat.add 0 (map s_len ts)) with (list_sum (map s_len ts)). rewrite IH by (intros t' H'; apply Ht; right; exact H'). reflexivity. }
    pose proof (hfilter_loop_spec (hb_trans hb) st m1 (mkS (length (m_arrs m)) 0 0) []) as H. cbn [s_arr s_off s_len] in H. rewrite Htr, Htc in H.
    specialize (H ltac:(intros t Hin; split; [apply (sl_ok_loc _ _ _ _ _ Hext (Ht t Hin)); tauto|destruct (Ht t Hin); lia])).
    specialize (H ltac:(split; cbn [s_arr s_off s_len]; lia) eq_refl ltac:(rewrite Hlen, Harr, repeat_length; lia)).
    destruct (vfilter st (bk_trans vb)) as [keep| | |]; try (rewrite H; reflexivity).
    destruct H as (m' & E & Er & Eloc & Eok & ks & Ec & Esub & Elook). rewrite E. cbn [obind]. do 2 eexists. split; [reflexivity|]. cbn [hb_post hb_trans hb_prices hb_ccy s_arr s_off].
    assert (E0 : cells m1 (mkS (length (m_arrs m)) 0 0) = []) by reflexivity. rewrite E0 in Ec. cbn [app] in Ec.
    split; [apply (loc_trans _ _ _ _ _ _ _ Hext Eloc); [intros b Hb' <-; lia|tauto]|]. split; [congruence|]. split; [lia|]. split; [exact Eok|]. rewrite Ec, Hc in *.
    split; [exact Esub|]. split; [unfold look_slice; rewrite Ec, Er; exact Elook|]. split; [reflexivity|]. rewrite <- Hr. split; reflexivity.
  Qed.
End Filter.

Lemma tiles_In a : forall ns off t, In t (tiles a off ns) -> s_arr t = a /\ off <= s_off t /\ s_off t + s_len t <= off + list_sum ns.
Proof.
  induction ns as [|n ns IH]; intros off t H; [contradiction|]. cbn [tiles In list_sum fold_right] in *. change (fold_right Nat.add 0 ns) with (list_sum ns).
  destruct H as [<-|H]; [cbn; lia|]. destruct (IH _ _ H) as (H1 & H2 & H3). cbn in *. lia.
Qed.
Lemma tiles_cells m a : forall ns off, off + list_sum ns <= length (arr m a) ->
  concat (map (cells m) (tiles a off ns)) = firstn (list_sum ns) (skipn off (arr m a)).
Proof.
  induction ns as [|n ns IH]; intros off H; [reflexivity|]. cbn [tiles map concat list_sum fold_right] in *. change (fold_right Nat.add 0 ns) with (list_sum ns) in *.
  rewrite IH by lia. unfold cells. cbn [s_arr s_off s_len]. rewrite <- (firstn_skipn n (skipn off (arr m a))) at 2. rewrite skipn_skipn'.
  rewrite firstn_app. rewrite firstn_firstn. replace (Nat.min (n + list_sum ns) n) with n by lia. f_equal. rewrite firstn_length, skipn_length. f_equal. lia.
Qed.
Lemma sum_lengths (ts : list trans) : list_sum (map (@length posting) ts) = length (concat ts).
Proof. induction ts as [|t ts IH]; [reflexivity|]. cbn [map concat list_sum fold_right]. rewrite app_length. change (fold_right Nat.add 0 (map (@length posting) ts)) with (list_sum (map (@length posting) ts)). rewrite IH. reflexivity. Qed.
Lemma RB_len m hb vb : RB m hb vb -> list_sum (map (@length posting) (bk_trans vb)) = s_len (hb_post hb).
Proof.
  intros ((Hs & _) & Hl & _ & Hc & _). rewrite sum_lengths, Hc, <- Hl. unfold look_slice. rewrite map_length. apply cells_length. exact Hs.
Qed.
Lemma RB_WB m hb vb : RB m hb vb -> WB m hb vb.
Proof.
  intros H. pose proof (RB_read _ _ _ H) as Hr. pose proof (RB_len _ _ _ H) as Hlen. destruct H as ((Hs & Hn & Hb) & Hl & Ht & Hc & Hnt & Hp & Hy).
  split; [exact Hs|]. split; [exact Hb|]. split; [|split; [|split; [exact Hr|exact Hnt]]].
  - intros t Hin. rewrite Ht in Hin. apply tiles_In in Hin as (H1 & H2 & H3). destruct Hs as [Hs1 Hs2]. split; rewrite H1; [exact Hs1|lia].
  - rewrite Ht, tiles_cells by (rewrite Hlen; apply Hs). rewrite Hlen. reflexivity.
Qed.

(** A filter on a readable book makes a readable book, on an owned book an owned one. *)
Lemma filtered_RB {S} grow (f : S -> trans -> outcome (bool * S)) st m hb vb keep : RB m hb vb -> vfilter f st (bk_trans vb) = Ok keep ->
  exists m' hb', hfilter grow f st m hb = Ok (m', hb') /\ RB m' hb' (mkBook (concat keep) keep (bk_prices vb) (bk_ccy vb)) /\ mv m (hb_post hb) m' (hb_post hb') /\ ext m m'.
Proof.
  intros H Ek. pose proof (hfilter_spec grow f st m hb vb (RB_WB _ _ _ H)) as Hf. rewrite Ek in Hf. destruct Hf as (m' & hb' & E & Hx & Hr & Ha & Hok & Hsub & Hlk & Ht & Hp & Hy).
  destruct H as ((_ & Hn & Hb) & _). exists m', hb'. split; [exact E|]. apply sub_ptrs in Hsub. split; [|split; [|exact Hx]].
  - split; [split; [exact Hok|split; [exact (sub_NoDup _ _ Hsub Hn)|rewrite Hr; exact (below_sub _ _ _ Hsub Hb)]]|]. split; [exact Hlk|]. split; [exact Ht|]. cbn. pose proof (vfilter_ne f _ _ _ Ek). auto.
  - split; [apply ext_loc; exact Hx|]. split; [right; exact Ha|]. intros x Hi. left. exact (sub_In _ _ _ Hsub Hi).
Qed.
Lemma filtered_WB {S} grow (f : S -> trans -> outcome (bool * S)) st m hb vb keep : WB m hb vb -> vfilter f st (bk_trans vb) = Ok keep ->
  exists m' hb', hfilter grow f st m hb = Ok (m', hb') /\ WB m' hb' (mkBook (concat keep) keep (bk_prices vb) (bk_ccy vb)) /\ ext m m'.
Proof.
  intros H Ek. pose proof (hfilter_spec grow f st m hb vb H) as Hf. rewrite Ek in Hf. destruct Hf as (m' & hb' & E & Hx & Hr & Ha & Hok & Hsub & Hlk & Ht & Hp & Hy).
  destruct H as (Hs & Hb & _). exists m', hb'. split; [exact E|]. split; [|exact Hx]. apply sub_ptrs in Hsub.
  assert (Hlen : list_sum (map (@length posting) keep) = s_len (hb_post hb')) by (rewrite sum_lengths, <- Hlk; unfold look_slice; rewrite map_length; apply cells_length; exact Hok).
  split; [exact Hok|]. split; [rewrite Hr; exact (below_sub _ _ _ Hsub Hb)|]. split; [|split; [|split; [|exact (vfilter_ne f _ _ _ Ek)]]].
  - intros t Hin. rewrite Ht in Hin. apply tiles_In in Hin as (H1 & H2 & H3). destruct Hok as [Hs1 Hs2]. split; rewrite H1; [exact Hs1|lia].
  - rewrite Ht, tiles_cells by (rewrite Hlen; apply Hok). rewrite Hlen. reflexivity.
  - unfold read. rewrite Hlk, Hp, Hy. f_equal. rewrite Ht. apply tiles_read; [exact Hok|exact Hlk].
Qed.

(** The value-level filters are [vfilter]s. *)
Lemma vfilter_plain f b : obind (vfilter (fun (_ : unit) t => Ok (first_of f t, tt)) tt (bk_trans b)) (fun keep => Ok (mkBook (concat keep) keep (bk_prices b) (bk_ccy b))) = filter_transaction f b.
Proof.
  unfold filter_transaction. generalize (bk_trans b). intros ts.
  assert (H : vfilter (fun (_ : unit) t => Ok (first_of f t, tt)) tt ts = if existsb (fun t => match t with [] => true | _ => false end) ts then Panic else Ok (filter (first_of f) ts)).
  { induction ts as [|t ts IH]; [reflexivity|]. cbn [vfilter existsb filter]. destruct t as [|p t]; [reflexivity|]. cbn [obind orb]. rewrite IH. match goal with |- context [existsb ?g ts] => destruct (existsb g ts) end; [reflexivity|]. cbn [obind]. destruct (first_of f (p :: t)); reflexivity. }
  rewrite H. match goal with |- context [existsb ?g ts] => destruct (existsb g ts) end; reflexivity.
Qed.
Lemma obind_id {A} (o : outcome A) : obind o (fun r => Ok r) = o.
Proof. destruct o; reflexivity. Qed.
Lemma vfilter_dedup : forall ts ref, vfilter dedup_keep ref ts = dedup_loop ref ts.
Proof.
  induction ts as [|t ts IH]; intros ref; [reflexivity|]. cbn [vfilter dedup_loop]. destruct t as [|p t]; [reflexivity|]. unfold dedup_keep at 1.
  destruct (dedup_advance ref (p_date p) (p_payee p)) as [|[|q rt] ref'] eqn:Ea; cbn [obind].
  - rewrite IH. destruct (dedup_loop [] ts); reflexivity.
  - reflexivity.
  - rewrite IH. destruct (str_eqb (p_payee q) (p_payee p) && (p_date q =? p_date p)%Z); cbn [negb]; [apply obind_id|reflexivity].
Qed.

(** ** Appending generated postings *)
Section Emit.
  Variable grow : nat -> nat.
  Definition emitted (orig : slice) (m : mem) (np : slice) (m' : mem) (np' : slice) (vs : list posting) : Prop :=
    own m' np' /\ loc (eq (s_arr np)) (fun _ => False) m m' /\ (s_arr np' = s_arr np \/ length (m_arrs m) <= s_arr np') /\
    (exists new, cells m' np' = cells m np ++ new /\ (forall x, In x (ptrs new) -> length (m_rats m) <= x) /\ map (look (m_rats m')) new = vs) /\
    cells m' orig = cells m orig /\ stable orig np'.
  Lemma emitted_refl orig m np : own m np -> stable orig np -> emitted orig m np m np [].
  Proof.
    intros H Hst. split; [exact H|]. split; [apply loc_refl|]. split; [left; reflexivity|]. split; [|split; [reflexivity|exact Hst]].
    exists []. rewrite app_nil_r. cbn. repeat split; tauto.
  Qed.
  Lemma emitted_trans orig m np m1 np1 m2 np2 l1 l2 : own m np -> emitted orig m np m1 np1 l1 -> emitted orig m1 np1 m2 np2 l2 -> emitted orig m np m2 np2 (l1 ++ l2).
  Proof.
    intros ((Hs0 & _) & _) (O1 & L1 & A1 & (n1 & C1 & P1 & V1) & E1 & S1) (O2 & L2 & A2 & (n2 & C2 & P2 & V2) & E2 & S2).
    split; [exact O2|]. split; [|split; [|split; [|split; [congruence|exact S2]]]].
    - apply (loc_trans _ _ _ _ _ _ _ L1 L2); [|tauto]. intros a Ha <-. destruct A1 as [A1|A1]; [symmetry; exact A1|lia].
    - destruct L1 as (L1 & _). destruct A2 as [A2|A2]; [rewrite A2; exact A1|right; lia].
    - exists (n1 ++ n2). split; [rewrite C2, C1, app_assoc; reflexivity|]. split.
      + rewrite ptrs_app. intros x Hx. apply in_app_iff in Hx as [Hx|Hx]; [apply P1; exact Hx|]. specialize (P2 x Hx). destruct L1 as (_ & L1 & _). lia.
      + rewrite map_app, V2. f_equal. rewrite <- V1. apply map_look_ext. intros x Hx. apply L2; [|tauto]. apply O1. rewrite C1, ptrs_app. apply in_app_iff. right. exact Hx.
  Qed.
  Lemma hdup_spec m p a d fac m' q : hdup m p a d fac = (m', q) ->
    ext m m' /\ m_arrs m' = m_arrs m /\ length (m_rats m') = S (S (length (m_rats m))) /\ h_val q = length (m_rats m) /\ h_bal q = S (length (m_rats m)) /\
    look (m_rats m') q = by_acct_date_factor (look (m_rats m) p) a d fac.
  Proof.
    unfold hdup. destruct (alloc m (rat (m_rats m) (h_val p) * fac)%Qc) as [m1 r] eqn:E1. destruct (alloc m1 0%Qc) as [m2 z] eqn:E2. intros E. injection E as <- <-.
    apply alloc_ext in E1 as (X1 & -> & L1 & R1 & A1). apply alloc_ext in E2 as (X2 & -> & L2 & R2 & A2).
    split; [exact (ext_trans _ _ _ X1 X2)|]. split; [congruence|]. split; [lia|]. cbn [h_val h_bal]. split; [reflexivity|]. split; [exact L1|].
    unfold look, by_acct_date_factor. cbn [h_val h_bal h_date h_payee h_tnote h_acct h_ccy h_note h_level h_term h_sort p_val p_payee p_tnote p_ccy p_note p_sort].
    rewrite R2. destruct X2 as (_ & _ & _ & X2). rewrite X2 by (try tauto; lia). rewrite R1. reflexivity.
  Qed.
  Lemma append_one orig m np q m' np' : own m np -> stable orig np -> s_arr orig < length (m_arrs m) ->
    h_val q < length (m_rats m) -> h_bal q < length (m_rats m) -> h_val q <> h_bal q -> ~ In (h_val q) (ptrs (cells m np)) -> ~ In (h_bal q) (ptrs (cells m np)) ->
    append grow m np [q] = (m', np') -> own m' np' /\ m_rats m' = m_rats m /\ loc (eq (s_arr np)) (fun _ => False) m m' /\ (s_arr np' = s_arr np \/ length (m_arrs m) <= s_arr np') /\
      cells m' np' = cells m np ++ [q] /\ cells m' orig = cells m orig /\ stable orig np' /\ s_arr orig < length (m_arrs m').
  Proof.
    intros (Hs & Hn & Hb) Hst Ho Hv Hz Hne Hv' Hz' E. destruct (append_spec grow m np [q] m' np' Hs E) as (A1 & A2 & A3 & A4 & A5 & A6 & A7).
    destruct (A7 orig Ho Hst) as [B1 B2].
    assert (Hp : ptrs (cells m' np') = ptrs (cells m np) ++ [h_val q; h_bal q]) by (rewrite A2, ptrs_app; reflexivity).
    split; [split; [exact A1|split; rewrite Hp]|].
    - apply NoDup_app_iff. split; [exact Hn|]. split; [constructor; [intros [H|[]]; congruence|constructor; [tauto|constructor]]|]. intros x Hx [<-|[<-|[]]]; contradiction.
    - rewrite A3. intros x Hx. apply in_app_iff in Hx as [Hx|[<-|[<-|[]]]]; [apply Hb; exact Hx|exact Hv|exact Hz].
    - repeat (split; [assumption|]). destruct A4 as (A4 & _). lia.
  Qed.
  Lemma hemit_spec orig p : forall es m np m' np', own m np -> stable orig np -> s_arr orig < length (m_arrs m) -> below (length (m_rats m)) (ptrs [p]) ->
    hemit grow m np p es = (m', np') -> emitted orig m np m' np' (map (fun '(a, d, fac) => by_acct_date_factor (look (m_rats m) p) a d fac) es) /\ s_arr orig < length (m_arrs m').
  Proof.
    induction es as [|[[a d] fac] es IH]; intros m np m' np' Ho Hst Hor Hp E.
    - injection E as <- <-. split; [apply emitted_refl; assumption|exact Hor].
    - cbn [hemit] in E. destruct (hdup m p a d fac) as [m1 q] eqn:Ed. destruct (append grow m1 np [q]) as [m2 np2] eqn:Ea.
      apply hdup_spec in Ed as (X & Xa & Xl & Hv & Hz & Hq).
      assert (Ho1 : own m1 np /\ cells m1 np = cells m np /\ cells m1 orig = cells m orig).
      { assert (Ec : forall s, cells m1 s = cells m s) by (intros s; unfold cells, arr; rewrite Xa; reflexivity). destruct Ho as ((Hs1 & Hs2) & Hn & Hb). split; [|split; apply Ec].
        split; [split; [rewrite Xa; exact Hs1|unfold arr in *; rewrite Xa; exact Hs2]|]. rewrite Ec. split; [exact Hn|]. intros x Hx. specialize (Hb x Hx). lia. }
      destruct Ho1 as (Ho1 & Ec1 & Ec2). pose proof Ho as (_ & _ & Hb).
      destruct (append_one orig m1 np q m2 np2 Ho1 Hst) as (O2 & R2 & L2 & A2 & C2 & E2 & S2 & Z2); try exact Ea; try lia.
      { rewrite Xa. exact Hor. }
      { rewrite Hv, Ec1. intros Hi. specialize (Hb _ Hi). lia. }
      { rewrite Hz, Ec1. intros Hi. specialize (Hb _ Hi). lia. }
      assert (Em : emitted orig m np m2 np2 [by_acct_date_factor (look (m_rats m) p) a d fac]).
      { split; [exact O2|]. split; [apply (loc_trans (eq (s_arr np)) (fun _ => False) _ _ _ _ _ (ext_loc _ _ _ _ X) L2); auto|]. split; [rewrite Xa in A2; exact A2|].
        split; [|split; [congruence|exact S2]]. exists [q]. split; [congruence|]. split; [cbn; intros x [<-|[<-|[]]]; lia|]. cbn. rewrite R2, Hq. reflexivity. }
      assert (Hp2 : below (length (m_rats m2)) (ptrs [p])) by (rewrite R2, Xl; intros x Hx; specialize (Hp x Hx); lia).
      destruct (IH m2 np2 m' np' O2 S2 Z2 Hp2 E) as [IHe IHo]. split; [|exact IHo].
      assert (Elk : look (m_rats m2) p = look (m_rats m) p) by (rewrite R2; apply look_ext; apply X; try tauto; apply Hp; cbn; auto).
      rewrite Elk in IHe. exact (emitted_trans orig m np m2 np2 m' np' _ _ Ho Em IHe).
  Qed.
  Lemma nth_firstn_skipn {A} (l : list A) i d : i < length l -> skipn i l = nth i l d :: skipn (S i) l.
  Proof. revert i; induction l as [|x l IH]; intros [|i] H; cbn in *; try lia; [reflexivity|]. rewrite (IH i) by lia. reflexivity. Qed.
  Lemma hrange_spec orig gen vgen : forall n i m np m' np', own m np -> stable orig np -> sl_ok m orig -> below (length (m_rats m)) (ptrs (cells m orig)) ->
    (forall rs p, vgen (look rs p) = map (fun '(a, d, fac) => by_acct_date_factor (look rs p) a d fac) (gen p)) ->
    s_len orig = i + n -> hrange grow gen orig n i m np = (m', np') ->
    emitted orig m np m' np' (flat_map vgen (map (look (m_rats m)) (skipn i (cells m orig)))).
  Proof.
    induction n as [|n IH]; intros i m np m' np' Ho Hst Hs Hb Hg Hlen E.
    - injection E as <- <-. rewrite skipn_all2 by (rewrite cells_length by exact Hs; lia). apply emitted_refl; assumption.
    - cbn [hrange] in E. pose proof (cells_length m orig Hs) as Hcl. set (p := nth i (cells m orig) hzero) in *.
      assert (Hi : i < length (cells m orig)) by lia.
      destruct (hemit grow m np p (gen p)) as [m1 np1] eqn:Ee.
      assert (Hpb : below (length (m_rats m)) (ptrs [p])).
      { intros x Hx. apply Hb. apply ptrs_In. exists p. split; [apply nth_In; exact Hi|]. cbn in Hx. destruct Hx as [<-|[<-|[]]]; auto. }
      destruct (hemit_spec orig p (gen p) m np m1 np1 Ho Hst (proj1 Hs) Hpb Ee) as [Em Hor1]. pose proof Em as (O1 & L1 & _ & _ & Ec1 & S1).
      assert (Hs1 : sl_ok m1 orig).
      { split; [exact Hor1|]. destruct (Nat.le_gt_cases (s_off orig + s_len orig) (length (arr m1 (s_arr orig)))) as [H|H]; [exact H|].
        assert (length (cells m1 orig) = s_len orig) by (rewrite Ec1; exact Hcl). unfold cells in H0. rewrite firstn_length, skipn_length in H0. lia. }
      assert (Hb1 : below (length (m_rats m1)) (ptrs (cells m1 orig))) by (rewrite Ec1; intros x Hx; specialize (Hb x Hx); destruct L1 as (_ & L1 & _); lia).
      specialize (IH (S i) m1 np1 m' np' O1 S1 Hs1 Hb1 Hg ltac:(lia) E).
      rewrite (nth_firstn_skipn _ i hzero Hi). fold p. cbn [map flat_map]. rewrite Hg.
      assert (Hsame : map (look (m_rats m1)) (skipn (S i) (cells m1 orig)) = map (look (m_rats m)) (skipn (S i) (cells m orig))).
      { rewrite Ec1. apply map_look_ext. intros x Hx. apply L1; [|tauto]. apply Hb. apply ptrs_In in Hx as (p' & Hp' & Hx). apply ptrs_In. exists p'. split; [|exact Hx].
        rewrite <- (firstn_skipn (S i) (cells m orig)). apply in_app_iff. right. exact Hp'. }
      rewrite Hsame in IH. exact (emitted_trans orig m np m1 np1 m' np' _ _ Ho Em IH).
  Qed.
End Emit.
