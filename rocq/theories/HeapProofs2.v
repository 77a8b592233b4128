(** * HeapProofs2: what an operation may touch; append; compact. *)
From Verif Require Import Base Dec DateModel PriceModel BookModel BookSpec BookProofs OpsModel OpsProofs AccumModel HeapModel HeapSpec HeapProofs.
Local Open Scope nat_scope.

(** ** Only the arrays in [A] and the rationals in [P] change. *)
Definition loc (A P : nat -> Prop) (m m' : mem) : Prop :=
  length (m_arrs m) <= length (m_arrs m') /\ length (m_rats m) <= length (m_rats m') /\
  (forall a, a < length (m_arrs m) -> ~ A a -> arr m' a = arr m a) /\
  (forall x, x < length (m_rats m) -> ~ P x -> rat (m_rats m') x = rat (m_rats m) x).
Definition ext := loc (fun _ => False) (fun _ => False).
Lemma loc_refl A P m : loc A P m m.
Proof. repeat split; auto. Qed.
Lemma loc_trans A P A' P' m m' m'' : loc A P m m' -> loc A' P' m' m'' ->
  (forall a, a < length (m_arrs m) -> A' a -> A a) -> (forall x, x < length (m_rats m) -> P' x -> P x) -> loc A P m m''.
Proof.
  intros (H1 & H2 & H3 & H4) (G1 & G2 & G3 & G4) HA HP. split; [lia|]. split; [lia|]. split.
  - intros a Ha Hn. rewrite G3; [apply H3; assumption|lia|]. intros Hi. apply Hn. apply HA; assumption.
  - intros x Hx Hn. rewrite G4; [apply H4; assumption|lia|]. intros Hi. apply Hn. apply HP; assumption.
Qed.
Lemma loc_weaken (A P A' P' : nat -> Prop) m m' : loc A P m m' -> (forall a, A a -> A' a) -> (forall x, P x -> P' x) -> loc A' P' m m'.
Proof.
  intros (H1 & H2 & H3 & H4) HA HP. repeat split; auto.
Qed.
Lemma ext_loc A P m m' : ext m m' -> loc A P m m'.
Proof. intros H. apply (loc_weaken _ _ _ _ _ _ H); tauto. Qed.
Lemma ext_trans m m' m'' : ext m m' -> ext m' m'' -> ext m m''.
Proof. intros H H'. apply (loc_trans _ _ _ _ _ _ _ H H'); tauto. Qed.

Definition sl_ok (m : mem) (s : slice) : Prop := s_arr s < length (m_arrs m) /\ s_off s + s_len s <= length (arr m (s_arr s)).
Lemma cells_length m s : sl_ok m s -> length (cells m s) = s_len s.
Proof. intros [_ H]. unfold cells. rewrite firstn_length, skipn_length. lia. Qed.
Lemma cells_loc A P m m' s : loc A P m m' -> s_arr s < length (m_arrs m) -> ~ A (s_arr s) -> cells m' s = cells m s.
Proof. intros (_ & _ & H & _) Hs Hn. unfold cells. rewrite H by assumption. reflexivity. Qed.
Lemma sl_ok_loc A P m m' s : loc A P m m' -> sl_ok m s -> ~ A (s_arr s) -> sl_ok m' s.
Proof. intros (H0 & _ & H & _) [Hs Hl] Hn. split; [lia|]. rewrite H by assumption. exact Hl. Qed.
Lemma look_slice_loc A P m m' s : loc A P m m' -> s_arr s < length (m_arrs m) -> ~ A (s_arr s) -> below (length (m_rats m)) (ptrs (cells m s)) ->
  (forall x, In x (ptrs (cells m s)) -> ~ P x) -> look_slice m' s = look_slice m s.
Proof.
  intros Hl Hs Hn Hb HP. unfold look_slice. rewrite (cells_loc _ _ _ _ _ Hl Hs Hn). apply map_look_ext. intros x Hx.
  apply Hl; [apply Hb; exact Hx|apply HP; exact Hx].
Qed.

(** ** Writing to an array *)
Lemma arr_put_eq m a off l : a < length (m_arrs m) -> arr (put m a off l) a = firstn off (arr m a) ++ l ++ skipn (off + length l) (arr m a).
Proof. intros H. unfold arr, put. cbn. apply nth_upd_eq. exact H. Qed.
Lemma arr_put_neq m a b off l : b <> a -> arr (put m a off l) b = arr m b.
Proof. intros H. unfold arr, put. cbn. apply nth_upd_neq. exact H. Qed.
Lemma put_arrs m a off l : length (m_arrs (put m a off l)) = length (m_arrs m).
Proof. unfold put. cbn. apply upd_length. Qed.
Lemma arr_put_length m a b off l : a < length (m_arrs m) -> off + length l <= length (arr m a) -> length (arr (put m a off l) b) = length (arr m b).
Proof.
  intros H Hl. destruct (Nat.eq_dec b a) as [->|Hn]; [|rewrite arr_put_neq by exact Hn; reflexivity].
  rewrite arr_put_eq by exact H. rewrite !app_length, firstn_length, skipn_length. lia.
Qed.
Lemma loc_put m a off l : loc (eq a) (fun _ => False) m (put m a off l).
Proof.
  split; [rewrite put_arrs; lia|]. split; [cbn; lia|]. split; [|reflexivity]. intros b _ Hn. apply arr_put_neq. congruence.
Qed.
Lemma skipn_app_exact {A} n (a b : list A) : length a = n -> skipn n (a ++ b) = b.
Proof. intros <-. rewrite skipn_app, skipn_all, Nat.sub_diag. reflexivity. Qed.
Lemma firstn_app_le {A} n (a b : list A) : n <= length a -> firstn n (a ++ b) = firstn n a.
Proof. intros H. rewrite firstn_app. replace (n - length a) with 0 by lia. cbn. apply app_nil_r. Qed.
Lemma firstn_app_exact {A} n (a b : list A) : length a = n -> firstn n (a ++ b) = a.
Proof. intros <-. rewrite firstn_app_le by lia. apply firstn_all. Qed.
Lemma cells_put m a off l n : a < length (m_arrs m) -> off + length l <= length (arr m a) -> n <= length l ->
  cells (put m a off l) (mkS a off n) = firstn n l.
Proof.
  intros Ha Hl Hn. unfold cells. cbn [s_arr s_off s_len]. rewrite arr_put_eq by exact Ha. rewrite skipn_app_exact by (rewrite firstn_length; lia).
  apply firstn_app_le. exact Hn.
Qed.
(** A slice that ends before the written part is unchanged. *)
Lemma cells_put_before m a off l s : a < length (m_arrs m) -> off + length l <= length (arr m a) -> (s_arr s = a -> s_off s + s_len s <= off) ->
  cells (put m a off l) s = cells m s.
Proof.
  intros Ha Hl Hs. unfold cells. destruct (Nat.eq_dec (s_arr s) a) as [E|E]; [|rewrite arr_put_neq by exact E; reflexivity].
  specialize (Hs E). rewrite E, arr_put_eq by exact Ha.
  assert (Hf : forall x : list hpost, s_off s + s_len s <= length x -> firstn (s_len s) (skipn (s_off s) x) = skipn (s_off s) (firstn (s_off s + s_len s) x)).
  { intros x Hx. rewrite skipn_firstn_comm. f_equal. lia. }
  rewrite !Hf by (try rewrite !app_length, firstn_length, skipn_length; lia). f_equal.
  rewrite firstn_app_le by (rewrite firstn_length; lia). rewrite firstn_firstn. f_equal. lia.
Qed.

(** ** append *)
Section Append.
  Variable grow : nat -> nat.
  Definition stable (orig s : slice) : Prop := s_arr orig = s_arr s -> s_off orig + s_len orig <= s_off s + s_len s.
  Lemma append_spec m s xs m' s' : sl_ok m s -> append grow m s xs = (m', s') ->
    sl_ok m' s' /\ cells m' s' = cells m s ++ xs /\ m_rats m' = m_rats m /\ loc (eq (s_arr s)) (fun _ => False) m m' /\
    (s_arr s' = s_arr s \/ length (m_arrs m) <= s_arr s') /\ s_len s' = s_len s + length xs /\
    (forall orig, s_arr orig < length (m_arrs m) -> stable orig s -> cells m' orig = cells m orig /\ stable orig s' ).
  Proof.
    intros Hs E. unfold append in E. pose proof (cells_length m s Hs) as Hcl. destruct Hs as [Ha Hl]. destruct (_ <=? _) eqn:El; injection E as <- <-.
    - apply Nat.leb_le in El.
      split; [split; cbn [s_arr s_off s_len]; [rewrite put_arrs; exact Ha|rewrite arr_put_length by (try exact Ha; lia); lia]|]. cbn [s_arr s_off s_len].
      split; [|split; [reflexivity|split; [apply loc_put|split; [left; reflexivity|split; [reflexivity|]]]]].
      + unfold cells at 1. cbn [s_arr s_off s_len]. rewrite arr_put_eq by exact Ha.
        assert (E1 : firstn (s_off s + s_len s) (arr m (s_arr s)) = firstn (s_off s) (arr m (s_arr s)) ++ cells m s).
        { unfold cells. rewrite <- (firstn_skipn (s_off s) (arr m (s_arr s))) at 1. rewrite firstn_app, firstn_firstn, firstn_length.
          replace (Nat.min (s_off s + s_len s) (s_off s)) with (s_off s) by lia. f_equal. f_equal. lia. }
        rewrite E1, <- !app_assoc. rewrite skipn_app_exact by (rewrite firstn_length; lia). rewrite app_assoc, firstn_app_exact; [reflexivity|rewrite app_length, Hcl; reflexivity].
      + intros orig Ho Hst. split; [apply cells_put_before; [exact Ha|lia|exact Hst]|]. unfold stable in *. cbn. intros Eo. specialize (Hst Eo). lia.
    - cbn [s_arr s_off s_len].
      assert (Hnew : arr (mkM (m_rats m) (m_arrs m ++ [cells m s ++ xs ++ repeat hzero (grow (s_len s + length xs))])) (length (m_arrs m)) = cells m s ++ xs ++ repeat hzero (grow (s_len s + length xs)))
        by (unfold arr; cbn; apply nth_mid).
      assert (Hold : forall b, b < length (m_arrs m) -> arr (mkM (m_rats m) (m_arrs m ++ [cells m s ++ xs ++ repeat hzero (grow (s_len s + length xs))])) b = arr m b)
        by (intros b Hb; unfold arr; cbn; apply app_nth1; exact Hb).
      split; [split; cbn [s_arr s_off s_len m_arrs]; [rewrite app_length; cbn; lia|rewrite Hnew, !app_length, Hcl; lia]|].
      split; [unfold cells at 1; cbn [s_arr s_off s_len]; rewrite Hnew; cbn [skipn]; rewrite app_assoc, firstn_app_exact; [reflexivity|rewrite app_length, Hcl; reflexivity]|].
      split; [reflexivity|]. split; [split; [cbn; rewrite app_length; lia|split; [cbn; lia|split; [intros b Hb _; apply Hold; exact Hb|reflexivity]]]|].
      split; [right; lia|]. split; [reflexivity|]. intros orig Ho _. split; [unfold cells; rewrite Hold by exact Ho; reflexivity|]. unfold stable. cbn. lia.
  Qed.
  (** No new array when there is room. *)
  Lemma append_room m s xs : s_off s + (s_len s + length xs) <= length (arr m (s_arr s)) ->
    append grow m s xs = (put m (s_arr s) (s_off s + s_len s) xs, mkS (s_arr s) (s_off s) (s_len s + length xs)).
  Proof. intros H. unfold append. replace (_ <=? _) with true by (symmetry; apply Nat.leb_le; exact H). reflexivity. Qed.
End Append.

Lemma alloc_ext m q m' x : alloc m q = (m', x) -> ext m m' /\ x = length (m_rats m) /\ length (m_rats m') = S (length (m_rats m)) /\ rat (m_rats m') x = q /\ m_arrs m' = m_arrs m.
Proof.
  intros E. injection E as <- <-. cbn. repeat split; cbn; try (rewrite app_length; cbn; lia); try lia.
  - intros y Hy _. apply rat_app. exact Hy.
  - apply nth_mid.
Qed.
Lemma alloc_arr_ext m l m' a : alloc_arr m l = (m', a) -> ext m m' /\ a = length (m_arrs m) /\ length (m_arrs m') = S (length (m_arrs m)) /\ arr m' a = l /\ m_rats m' = m_rats m.
Proof.
  intros E. injection E as <- <-. cbn. split; [|split; [reflexivity|split; [rewrite app_length; cbn; lia|split; [unfold arr; cbn; apply nth_mid|reflexivity]]]].
  split; [cbn; rewrite app_length; lia|]. split; [cbn; lia|]. split; [|reflexivity]. intros b Hb _. unfold arr. cbn. apply app_nth1. exact Hb.
Qed.

(** ** Ownership *)
Definition own (m : mem) (s : slice) : Prop := sl_ok m s /\ NoDup (ptrs (cells m s)) /\ below (length (m_rats m)) (ptrs (cells m s)).
(** An operation moved an owned slice from [s] to [s'] and touched only what [s] owns. *)
Definition mv (m : mem) (s : slice) (m' : mem) (s' : slice) : Prop :=
  loc (eq (s_arr s)) (fun x => In x (ptrs (cells m s))) m m' /\ (s_arr s' = s_arr s \/ length (m_arrs m) <= s_arr s') /\
  (forall x, In x (ptrs (cells m' s')) -> In x (ptrs (cells m s)) \/ length (m_rats m) <= x).
Lemma mv_refl m s : mv m s m s.
Proof. split; [apply loc_refl|]. split; [left; reflexivity|]. auto. Qed.
Lemma mv_trans m s m' s' m'' s'' : mv m s m' s' -> mv m' s' m'' s'' -> mv m s m'' s''.
Proof.
  intros (H1 & H2 & H3) (G1 & G2 & G3). split; [|split].
  - apply (loc_trans _ _ _ _ _ _ _ H1 G1).
    + intros a Ha <-. destruct H2 as [H2|H2]; [symmetry; exact H2|lia].
    + intros x Hx Hi. destruct (H3 x Hi) as [Hi'|Hi']; [exact Hi'|lia].
  - destruct H1 as (L1 & _). destruct G2 as [G2|G2]; [rewrite G2; exact H2|right; lia].
  - destruct H1 as (_ & L2 & _). intros x Hx. destruct (G3 x Hx) as [Hi|Hi]; [apply H3; exact Hi|right; lia].
Qed.
(** Objects that own other things are not affected. *)
Lemma own_frame m s m' s' o : mv m s m' s' -> own m o -> s_arr o <> s_arr s -> (forall x, In x (ptrs (cells m o)) -> ~ In x (ptrs (cells m s))) ->
  own m' o /\ cells m' o = cells m o /\ look_slice m' o = look_slice m o /\ s_arr o <> s_arr s' /\ (forall x, In x (ptrs (cells m' o)) -> ~ In x (ptrs (cells m' s'))).
Proof.
  intros (Hl & Ha & Hp) ((Ho & Hol) & Hn & Hb) Hne Hd.
  assert (Ec : cells m' o = cells m o) by (apply (cells_loc _ _ _ _ _ Hl Ho); congruence).
  split; [|split; [exact Ec|split; [|split]]].
  - split; [|rewrite Ec; split; [exact Hn|intros x Hx; specialize (Hb x Hx); destruct Hl as (_ & L & _); lia]].
    apply (sl_ok_loc _ _ _ _ _ Hl); [split; assumption|congruence].
  - apply (look_slice_loc _ _ _ _ _ Hl Ho); [congruence|exact Hb|exact Hd].
  - destruct Ha as [->|Ha]; [exact Hne|lia].
  - rewrite Ec. intros x Hx Hi. destruct (Hp x Hi) as [Hi'|Hi']; [exact (Hd x Hx Hi')|specialize (Hb x Hx); lia].
Qed.

(** ** Books *)
Definition RB (m : mem) (hb : hbook) (vb : book) : Prop :=
  own m (hb_post hb) /\ look_slice m (hb_post hb) = bk_post vb /\
  hb_trans hb = tiles (s_arr (hb_post hb)) (s_off (hb_post hb)) (map (@length posting) (bk_trans vb)) /\
  concat (bk_trans vb) = bk_post vb /\ Forall (fun t : trans => t <> []) (bk_trans vb) /\ hb_prices hb = bk_prices vb /\ hb_ccy hb = bk_ccy vb.
Lemma tiles_look m a : forall (ts : list trans) off pre tail, map (look (m_rats m)) (arr m a) = pre ++ concat ts ++ tail -> length pre = off ->
  map (look_slice m) (tiles a off (map (@length posting) ts)) = ts.
Proof.
  induction ts as [|t ts IH]; intros off pre tail E Hp; [reflexivity|]. cbn [map tiles concat] in *. f_equal.
  - unfold look_slice, cells. cbn [s_arr s_off s_len]. rewrite <- firstn_map, <- skipn_map, E. rewrite skipn_app_exact by exact Hp. rewrite <- app_assoc. apply firstn_app_exact. reflexivity.
  - apply (IH _ (pre ++ t) tail); [rewrite E, <- !app_assoc; reflexivity|rewrite app_length; lia].
Qed.
Lemma skipn_skipn' {A} a b (l : list A) : skipn a (skipn b l) = skipn (b + a) l.
Proof. revert l; induction b as [|b IH]; intros l; [reflexivity|]. destruct l; [rewrite !skipn_nil; reflexivity|]. cbn. apply IH. Qed.
Lemma slice_split m s : sl_ok m s -> exists tail, map (look (m_rats m)) (arr m (s_arr s)) = map (look (m_rats m)) (firstn (s_off s) (arr m (s_arr s))) ++ look_slice m s ++ tail.
Proof.
  intros [_ H]. exists (map (look (m_rats m)) (skipn (s_off s + s_len s) (arr m (s_arr s)))). unfold look_slice, cells. rewrite <- !map_app. f_equal.
  rewrite <- (firstn_skipn (s_off s) (arr m (s_arr s))) at 1. f_equal.
  rewrite <- (firstn_skipn (s_len s) (skipn (s_off s) (arr m (s_arr s)))) at 1. f_equal. rewrite skipn_skipn'. reflexivity.
Qed.
Lemma tiles_read m s (ts : list trans) : sl_ok m s -> look_slice m s = concat ts ->
  map (look_slice m) (tiles (s_arr s) (s_off s) (map (@length posting) ts)) = ts.
Proof.
  intros Hs E. destruct (slice_split m s Hs) as (tail & Et). rewrite E in Et. apply (tiles_look m (s_arr s) ts _ _ tail Et).
  rewrite map_length, firstn_length. destruct Hs. lia.
Qed.
Lemma RB_read m hb vb : RB m hb vb -> read m hb = vb.
Proof.
  intros ((Hs & _) & Hp & Ht & Hc & _ & Hpr & Hcc). destruct vb as [vp vt vpr vcc]. cbn in *. unfold read. f_equal; try assumption.
  rewrite Ht. apply tiles_read; [exact Hs|congruence].
Qed.
Lemma tiles_length a : forall ns off, length (tiles a off ns) = length ns.
Proof. induction ns; intros; cbn; auto. Qed.

Lemma group_runs_ne : forall l first acc, acc <> [] -> Forall (fun t : trans => t <> []) (group_runs first acc l).
Proof.
  assert (Hr : forall acc : list posting, acc <> [] -> rev acc <> []) by (intros acc H E; apply H; rewrite <- (rev_involutive acc), E; reflexivity).
  induction l as [|x l IH]; intros first acc H; cbn [group_runs]; [constructor; [apply Hr; exact H|constructor]|].
  destruct (_ || _); [constructor; [apply Hr; exact H|]|]; apply IH; discriminate.
Qed.
Lemma group_all_ne l : Forall (fun t : trans => t <> []) (group_all l).
Proof. destruct l; [constructor|apply group_runs_ne; discriminate]. Qed.

(** ** compact *)
Section Compact.
  Variable ord : list posting -> list nat.
  Hypothesis Hord : order_ok ord.
  Lemma arrange_perm {A} (d : A) (l : list A) is : Permutation is (seq 0 (length l)) -> Permutation (arrange d l is) l.
  Proof.
    intros H. unfold arrange. rewrite (Permutation_map (fun i => nth i l d) H). clear H is.
    assert (E : map (fun i => nth i l d) (seq 0 (length l)) = l); [|rewrite E; reflexivity].
    induction l as [|x l IH]; [reflexivity|]. cbn [length seq map nth]. f_equal. rewrite <- seq_shift, map_map. exact IH.
  Qed.
  Lemma arrange_map {A B} (f : A -> B) (d : A) (d' : B) (l : list A) is : Permutation is (seq 0 (length l)) -> map f (arrange d l is) = arrange d' (map f l) is.
  Proof.
    intros H. unfold arrange. rewrite map_map. apply map_ext_in. intros i Hi. apply (Permutation_in _ H) in Hi. apply in_seq in Hi.
    rewrite (nth_indep (map f l) d' (f d)) by (rewrite map_length; lia). symmetry. apply map_nth.
  Qed.
  Lemma perm_ptrs a b : Permutation a b -> Permutation (ptrs a) (ptrs b).
  Proof. intros H. unfold ptrs. apply Permutation_flat_map. exact H. Qed.

  Lemma hcompact_spec m hb vb : own m (hb_post hb) -> look_slice m (hb_post hb) = bk_post vb ->
    (bk_post vb = [] -> hb_trans hb = [] /\ bk_trans vb = []) ->
    hb_prices hb = bk_prices vb -> hb_ccy hb = bk_ccy vb ->
    exists m' hb', hcompact ord m hb = (m', hb') /\ RB m' hb' (compact (srt_of ord) vb) /\ mv m (hb_post hb) m' (hb_post hb').
  Proof.
    intros (Hs & Hn & Hb) Hl Hempty Hpr Hcc. pose proof (cells_length m _ Hs) as Hcl.
    unfold hcompact. destruct (s_len (hb_post hb)) as [|n] eqn:En.
    - cbn [Nat.eqb]. exists m, hb. split; [reflexivity|]. assert (Ep : bk_post vb = []).
      { rewrite <- Hl. unfold look_slice. destruct (cells m (hb_post hb)); [reflexivity|discriminate]. }
      destruct (Hempty Ep) as [Ht Hc]. split; [|apply mv_refl]. unfold compact. rewrite Ep. split; [split; [exact Hs|split; assumption]|]. split; [exact Hl|].
      rewrite Ht, Hc. split; [reflexivity|]. split; [rewrite Ep; reflexivity|]. split; [constructor|]. auto.
    - cbn [Nat.eqb]. set (c0 := cells m (hb_post hb)) in *. set (c1 := arrange hzero c0 (ord (map (look (m_rats m)) c0))).
      assert (Hp0 : Permutation (ord (map (look (m_rats m)) c0)) (seq 0 (length c0))) by (rewrite <- (map_length (look (m_rats m)) c0); apply Hord).
      assert (Hp1 : Permutation c1 c0) by (apply arrange_perm; exact Hp0).
      assert (Hlen1 : length c1 = S n) by (rewrite (Permutation_length Hp1); exact Hcl).
      assert (Hn1 : NoDup (ptrs c1)) by (apply (Permutation_NoDup (Permutation_sym (perm_ptrs _ _ Hp1))); exact Hn).
      assert (Hin1 : forall x, In x (ptrs c1) <-> In x (ptrs c0)) by (intros x; split; apply Permutation_in; [|apply Permutation_sym]; apply perm_ptrs; exact Hp1).
      assert (Hb1 : below (length (m_rats m)) (ptrs c1)) by (intros x Hx; apply Hb; apply Hin1; exact Hx).
      assert (Hv1 : map (look (m_rats m)) c1 = srt_of ord (bk_post vb)) by (unfold c1, srt_of; rewrite (arrange_map _ _ p0 _ _ Hp0), <- Hl; reflexivity).
      destruct c1 as [|x c1']; [discriminate|]. cbn [length] in Hlen1. injection Hlen1 as Hlen1.
      destruct (hmerge_spec c1' [] x [] (m_rats m) Hn1 Hb1) as (c2 & rs2 & t2 & E2 & L2 & R2 & T2 & V2 & S2 & F2). cbn [app length map] in *.
      replace (S (length c1') - 1) with (length c1') by lia. change (0 + 1 + 0) with 1 in E2. rewrite E2.
      set (p2 := firstn (S t2) c2) in *.
      assert (Lp2 : length p2 = S t2) by (unfold p2; rewrite firstn_length; lia).
      destruct (hdrop_spec rs2 p2 [] [] (skipn (S t2) c2)) as (c3 & t3 & E3 & L3 & T3 & V3). cbn [app length] in *. unfold p2 in E3 at 2, L3. rewrite firstn_skipn in E3, L3. rewrite Lp2 in E3. change (0 + 0) with 0 in E3.
      rewrite E3.
      set (p3 := firstn t3 c3) in *.
      assert (Sub3 : sub p3 (x :: c1')) by (rewrite V3; eapply sub_trans; [apply sub_filter|exact S2]).
      assert (Hn3 : NoDup (ptrs p3)) by exact (sub_NoDup _ _ (sub_ptrs _ _ Sub3) Hn1).
      assert (Hb3 : below (length rs2) (ptrs p3)) by (rewrite R2; exact (below_sub _ _ _ (sub_ptrs _ _ Sub3) Hb1)).
      assert (Hlen3 : length c3 = S n) by (rewrite L3, L2; lia).
      assert (Lp3 : length p3 = t3) by (unfold p3; rewrite firstn_length; lia).
      destruct (hbal_spec p3 [] rs2 Hn3 Hb3) as (L4 & V4 & F4).
      set (rs4 := hbal [] p3 rs2) in *.
      (* the value side *)
      assert (Hvp : map (look rs2) p3 = drop_zero (merge_all (srt_of ord (bk_post vb)))).
      { rewrite V3. transitivity (drop_zero (map (look rs2) p2)).
        - unfold drop_zero. clear. induction p2 as [|q l IH]; [reflexivity|]. cbn [filter map]. change (p_val (look rs2 q)) with (rat rs2 (h_val q)).
          destruct (negb (qc_is0 (rat rs2 (h_val q)))); cbn [map]; rewrite IH; reflexivity.
        - rewrite V2. f_equal. unfold merge_all. rewrite <- Hv1. reflexivity. }
      assert (Hne : bk_post vb <> []) by (rewrite <- Hl; unfold look_slice; fold c0; intros E; destruct c0; [discriminate Hcl|discriminate]).
      assert (Hc : compact (srt_of ord) vb = let p := run_bal [] (map (look rs2) p3) in mkBook p (group_all p) (bk_prices vb) (bk_ccy vb)).
      { unfold compact. rewrite Hvp. destruct (bk_post vb); [congruence|reflexivity]. }
      cbv zeta in Hc. rewrite <- V4 in Hc. rewrite Hc.
      set (s := hb_post hb) in *. set (ts := if t3 =? 0 then [] else hgroup (s_arr s) (s_off s) c3 (t3 - 1) 1 0).
      do 2 eexists. split; [reflexivity|]. cbn [hb_post].
      assert (Hput : s_off s + length c3 <= length (arr m (s_arr s))) by (rewrite Hlen3; destruct Hs as [_ Hs]; fold s in Hs; lia).
      assert (Ha : s_arr s < length (m_arrs m)) by apply Hs.
      assert (Hcells : cells (set_rats (put m (s_arr s) (s_off s) c3) rs4) (mkS (s_arr s) (s_off s) t3) = p3).
      { unfold cells. cbn [set_rats s_arr s_off s_len]. change (arr (set_rats ?q rs4)) with (arr q). apply (cells_put m (s_arr s) (s_off s) c3 t3 Ha Hput). exact T3. }
      assert (Hlook : look_slice (set_rats (put m (s_arr s) (s_off s) c3) rs4) (mkS (s_arr s) (s_off s) t3) = map (look rs4) p3) by (unfold look_slice; rewrite Hcells; reflexivity).
      split; [split; [|split; [exact Hlook|split; [|split; [cbn; apply group_all_concat|split; [apply group_all_ne|split; [exact Hpr|exact Hcc]]]]]]|].
      + split; [split; cbn [hb_post s_arr s_off s_len]|].
        * change (m_arrs (set_rats ?q rs4)) with (m_arrs q). rewrite put_arrs. exact Ha.
        * change (arr (set_rats ?q rs4)) with (arr q). rewrite arr_put_length by assumption. lia.
        * cbn [hb_post]. rewrite Hcells. split; [exact Hn3|]. cbn [set_rats m_rats]. rewrite L4. exact Hb3.
      + cbn [hb_trans hb_post s_arr s_off bk_trans]. unfold ts. destruct p3 as [|q p3'] eqn:Ep3.
        * cbn in Lp3. subst t3. reflexivity.
        * cbn [length] in Lp3. rewrite <- Lp3. cbn [Nat.eqb Nat.sub]. rewrite Nat.sub_0_r.
          pose proof (hgroup_spec rs4 (s_arr s) (s_off s) p3' [] q [] (skipn t3 c3)) as Hg. cbn [app length map rev] in Hg.
          assert (Ec3 : q :: p3' ++ skipn t3 c3 = c3) by (change (q :: p3' ++ skipn t3 c3) with ((q :: p3') ++ skipn t3 c3); rewrite <- Ep3; apply firstn_skipn).
          rewrite Ec3 in Hg. cbn [plus] in Hg. rewrite Nat.add_0_r in Hg. exact Hg.
      + split; [|split; [left; reflexivity|]].
        * split; [change (m_arrs (set_rats ?q rs4)) with (m_arrs q); rewrite put_arrs; lia|]. split; [cbn [set_rats m_rats]; rewrite L4, R2; lia|]. split.
          -- intros a _ Hne'. change (arr (set_rats ?q rs4)) with (arr q). apply arr_put_neq. congruence.
          -- intros y _ Hy. cbn [set_rats m_rats]. fold c0 in Hy. rewrite F4, F2; [reflexivity| |]; intros Hi; apply Hy; apply Hin1; [exact Hi|exact (sub_In _ _ _ (sub_ptrs _ _ Sub3) Hi)].
        * rewrite Hcells. intros y Hy. left. fold c0. apply Hin1. exact (sub_In _ _ _ (sub_ptrs _ _ Sub3) Hy).
  Qed.
End Compact.
