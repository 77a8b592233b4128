(** * ExportProofs3: building the calls of an exported book gives the book back. *)
From Verif Require Import Base Dec DateModel DateProofs2 PriceModel PriceSpec PriceProofs BookModel BookSpec BookProofs BuilderProofs OpsModel OpsProofs Utf8 LoaderModel LoaderSpec
  LoaderProofs LoaderProofs2 LoaderProofs3 LoaderProofs4 ExportModel ExportSpec ExportProofs2.

(** What is left of a posting after export and reload. *)
Definition strip (p : posting) : posting := mkP (p_date p) (p_payee p) (p_tnote p) (p_acct p) (p_ccy p) (p_val p) (p_note p) (p_bal p) 0 [] [].
Definition bare (p : posting) : posting := mkP (p_date p) (p_payee p) (p_tnote p) (p_acct p) (p_ccy p) (p_val p) (p_note p) 0%Qc 0 [] [].

Lemma seg_of_trans c d pay (t : trans) : Forall (fun p => dp p = (d, pay)) t ->
  seg_sum c (map (fun p => (p_ccy p, p_val p)) t) = total (in_trans d pay c) t.
Proof.
  induction 1 as [|p t Hp _ IH]; [reflexivity|]. rewrite total_cons. cbn [map]. change ((p_ccy p, p_val p) :: ?l) with ([(p_ccy p, p_val p)] ++ l).
  rewrite seg_sum_app, IH. f_equal. unfold dp in Hp. injection Hp as Hd Hpay. unfold on, in_trans. rewrite Hd, Hpay, Z.eqb_refl, (proj2 (str_eqb_eq pay pay) eq_refl). cbn [andb].
  unfold seg_sum. cbn [filter]. destruct (str_eqb (p_ccy p) c); cbn [map snd qsum fold_right]; unfold qsum; cbn; ring.
Qed.

Lemma posts_run l : forall b used seg, state_ok b used seg ->
  exists b', bsteps b (map post_call l) = Ok b' /\ state_ok b' used (seg ++ map (fun p => (p_ccy p, p_val p)) l) /\
    bu_post b' = bu_post b ++ map (fun p => mkP (bu_date b) (bu_payee b) (bu_note b) (p_acct p) (p_ccy p) (p_val p) (p_note p) 0%Qc 0 [] []) l /\
    bu_prices b' = bu_prices b.
Proof.
  induction l as [|p l IH]; intros b used seg Hok.
  - exists b. rewrite !app_nil_r. repeat split; auto; apply Hok.
  - cbn [map bsteps bstep obind post_call]. pose proof (add_posting_ok b used seg (p_acct p) (p_ccy p) (p_val p) (p_note p) Hok) as Hok1.
    destruct (IH _ _ _ Hok1) as (b' & E & Hok' & Hp & Hpr). exists b'. split; [exact E|]. split; [rewrite <- app_assoc in Hok'; exact Hok'|]. split; [|exact Hpr].
    rewrite Hp. unfold add_posting. cbn [bu_post bu_date bu_payee bu_note]. rewrite <- app_assoc. reflexivity.
Qed.

Lemma trans_run ts : forall b used seg, state_ok b used seg -> (forall c, seg_sum c seg = 0%Qc) ->
  Forall (fun t : trans => t <> [] /\ (forall p q, In p t -> In q t -> dp p = dp q) /\ one_note t /\ balanced t) ts ->
  NoDup (used ++ tkeys ts) ->
  exists b' seg', bsteps b (flat_map trans_calls ts) = Ok b' /\ state_ok b' (used ++ tkeys ts) seg' /\ (forall c, seg_sum c seg' = 0%Qc) /\
    bu_post b' = bu_post b ++ map bare (concat ts) /\ bu_prices b' = bu_prices b.
Proof.
  induction ts as [|t ts IH]; intros b used seg Hok Hz Hts Hnd.
  - exists b, seg. cbn. rewrite !app_nil_r. repeat split; auto; apply Hok.
  - inversion Hts as [|? ? (Hne & Hdp & Hnote & Hbal) Hts']; subst. destruct t as [|p t]; [congruence|]. cbn [flat_map trans_calls].
    assert (Hfresh : ~ In (p_date p, p_payee p) used).
    { intros Hin. cbn [tkeys map] in Hnd. change (dp p) with (p_date p, p_payee p) in Hnd. apply NoDup_remove_2 in Hnd. apply Hnd. apply in_or_app. left. exact Hin. }
    destruct (new_transaction_cases b used seg (p_date p) (p_payee p) (p_tnote p) Hok) as [(_ & b1 & E1 & Hd & Hn & Hp & Hpr & Hfi & _ & Hok1)|[Hno _]]; [|contradiction].
    assert (Hpay : bu_payee b1 = p_payee p) by (destruct Hfi as [[E _]|[Hin _]]; [exact E|contradiction]). rewrite Hpay in Hok1.
    destruct (posts_run (p :: t) b1 _ _ Hok1) as (b2 & E2 & Hok2 & Hp2 & Hpr2). cbn [app] in Hok2.
    assert (Hz2 : forall c, seg_sum c (map (fun p => (p_ccy p, p_val p)) (p :: t)) = 0%Qc).
    { intros c. rewrite (seg_of_trans c (p_date p) (p_payee p)); [apply Hbal|]. rewrite Forall_forall. intros q Hq. apply (Hdp q p Hq). left. reflexivity. }
    destruct (IH b2 _ _ Hok2 Hz2 Hts') as (b3 & seg3 & E3 & Hok3 & Hz3 & Hp3 & Hpr3).
    { rewrite <- app_assoc. exact Hnd. }
    exists b3, seg3. split; [|split; [|split; [exact Hz3|split; [|congruence]]]].
    + rewrite <- app_comm_cons. cbn [bsteps bstep]. rewrite E1. cbn [obind]. rewrite bsteps_app, E2. exact E3.
    + rewrite <- app_assoc in Hok3. exact Hok3.
    + rewrite Hp3, Hp2, Hp, <- app_assoc. f_equal. cbn [concat]. rewrite map_app. f_equal. apply map_ext_in. intros q Hq. unfold bare.
      assert (Eq : dp q = dp p) by (apply Hdp; [exact Hq|left; reflexivity]). unfold dp in Eq. injection Eq as Eq1 Eq2.
      rewrite Hd, Hpay, Hn, Eq1, Eq2, (Hnote p q) by (try exact Hq; left; reflexivity). reflexivity.
Qed.

(** Prices *)
Definition addn (k : str * str) (p : price) : addition := (pr_date p, k, pr_val p).
Lemma price_run u c l : forall b, bsteps b (map (price_call u c) l) =
  Ok (mkB (bu_post b) (bu_prev b) (bu_amts b) (bu_date b) (bu_payee b) (bu_note b) (add_all (map (addn (u, c)) l) (bu_prices b))).
Proof.
  induction l as [|p l IH]; intros b; [destruct b; reflexivity|]. cbn [map bsteps bstep price_call obind]. rewrite IH. unfold b_add_price. cbn. reflexivity.
Qed.
Definition all_adds (pb : pbook) (pairs : list (str * str)) : list addition :=
  flat_map (fun k => map (addn k) (match aget pair_eqb k pb with Some l => l | None => [] end)) pairs.
Lemma add_all_app a b pb : add_all (a ++ b) pb = add_all b (add_all a pb).
Proof. unfold add_all. apply fold_left_app. Qed.
Lemma prices_run pb pairs : forall b, bsteps b (flat_map (pair_calls pb) pairs) =
  Ok (mkB (bu_post b) (bu_prev b) (bu_amts b) (bu_date b) (bu_payee b) (bu_note b) (add_all (all_adds pb pairs) (bu_prices b))).
Proof.
  induction pairs as [|[u c] pairs IH]; intros b; [destruct b; reflexivity|]. cbn [flat_map all_adds]. rewrite bsteps_app. unfold pair_calls at 1. cbn [fst snd].
  rewrite price_run. cbn [obind]. rewrite IH. cbn. rewrite add_all_app. reflexivity.
Qed.
Lemma adds_for_same k l : adds_for k (map (addn k) l) = l.
Proof.
  unfold adds_for. induction l as [|[d v] l IH]; [reflexivity|]. cbn [map addn filter]. rewrite (proj2 (pair_eqb_eq k k) eq_refl). cbn [map]. rewrite IH. reflexivity.
Qed.
Lemma adds_for_other k k' l : k' <> k -> adds_for k (map (addn k') l) = [].
Proof.
  intros H. unfold adds_for. induction l as [|[d v] l IH]; [reflexivity|]. cbn [map addn filter]. destruct (pair_eqb k' k) eqn:E; [apply pair_eqb_eq in E; contradiction|]. exact IH.
Qed.
Lemma adds_for_app k a b : adds_for k (a ++ b) = adds_for k a ++ adds_for k b.
Proof. unfold adds_for. rewrite filter_app, map_app. reflexivity. Qed.
Lemma adds_for_all pb pairs k : NoDup pairs ->
  adds_for k (all_adds pb pairs) = if existsb (fun k' => pair_eqb k' k) pairs then match aget pair_eqb k pb with Some l => l | None => [] end else [].
Proof.
  induction pairs as [|k' pairs IH]; intros Hnd; [reflexivity|]. inversion Hnd as [|? ? Hni Hnd']; subst. change (all_adds pb (k' :: pairs)) with (map (addn k') (match aget pair_eqb k' pb with Some l => l | None => [] end) ++ all_adds pb pairs). cbn [existsb]. rewrite adds_for_app, (IH Hnd').
  destruct (pair_eqb k' k) eqn:E.
  - apply pair_eqb_eq in E. subst k'. rewrite adds_for_same. destruct (existsb (fun k' => pair_eqb k' k) pairs) eqn:Ex; [|cbn; apply app_nil_r].
    apply existsb_exists in Ex as (k' & Hin & Ek). apply pair_eqb_eq in Ek. subst k'. contradiction.
  - assert (k' <> k) by (intros ->; rewrite (proj2 (pair_eqb_eq k k) eq_refl) in E; discriminate). rewrite adds_for_other by assumption. reflexivity.
Qed.
Lemma isort_sorted_id l : StronglySorted (fun a b => pr_date a <= pr_date b) l -> isort price_less l = l.
Proof.
  induction 1 as [|p l Hs IH Hall]; [reflexivity|]. cbn [isort]. rewrite IH. destruct l as [|q l]; [reflexivity|]. cbn [insert_by]. unfold price_less at 1.
  inversion Hall as [|? ? Hq _]; subst. replace (pr_date q <? pr_date p) with false by lia. reflexivity.
Qed.

(** Compacting postings that are canonical already. *)
Lemma run_bal_strip : forall l m, map strip (run_bal m l) = run_bal m (map strip l).
Proof. induction l as [|p l IH]; intros m; [reflexivity|]. cbn [run_bal map]. rewrite IH. reflexivity. Qed.
Lemma group_runs_strip : forall l first acc, group_runs (strip first) (map strip acc) (map strip l) = map (map strip) (group_runs first acc l).
Proof.
  induction l as [|x l IH]; intros first acc; cbn [group_runs map]; [rewrite map_rev; reflexivity|]. cbn [strip p_date p_payee].
  destruct (negb (p_date x =? p_date first) || negb (str_eqb (p_payee x) (p_payee first))).
  - cbn [map]. rewrite map_rev. f_equal. apply (IH x [x]).
  - apply (IH first (x :: acc)).
Qed.
Lemma group_all_strip l : group_all (map strip l) = map (map strip) (group_all l).
Proof. destruct l as [|x l]; [reflexivity|]. apply (group_runs_strip l x [x]). Qed.
Lemma cposts_bare srt l : sort_ok is_less srt -> canonical l -> running l -> cposts srt (map bare l) = map strip l.
Proof.
  intros Hs [Hsort Hnz] Hrun. unfold cposts.
  assert (Hk : StronglySorted klt (map bare l)).
  { apply sorted_pkey_iff. rewrite map_map. apply sorted_pkey_iff in Hsort. exact Hsort. }
  rewrite (srt_canonical_id srt Hs); [|rewrite Forall_forall; intros p Hp; apply in_map_iff in Hp as (q & <- & _); split; reflexivity|exact Hk].
  rewrite merge_all_id by exact Hk. rewrite drop_zero_id by (rewrite Forall_forall in *; intros p Hp; apply in_map_iff in Hp as (q & <- & Hq); apply (Hnz q Hq)).
  rewrite (run_bal_nobal_eq _ (map strip l)) by (rewrite !map_map; reflexivity). rewrite <- run_bal_strip, running_fixed by exact Hrun. reflexivity.
Qed.

Lemma cposts_strip srt l : sort_ok is_less srt -> canonical l -> running l -> cposts srt (map strip l) = map strip l.
Proof.
  intros Hs [Hsort Hnz] Hrun. unfold cposts.
  assert (Hk : StronglySorted klt (map strip l)).
  { apply sorted_pkey_iff. rewrite map_map. apply sorted_pkey_iff in Hsort. exact Hsort. }
  rewrite (srt_canonical_id srt Hs); [|rewrite Forall_forall; intros p Hp; apply in_map_iff in Hp as (q & <- & _); split; reflexivity|exact Hk].
  rewrite merge_all_id by exact Hk. rewrite drop_zero_id by (rewrite Forall_forall in *; intros p Hp; apply in_map_iff in Hp as (q & <- & Hq); apply (Hnz q Hq)).
  rewrite <- run_bal_strip, running_fixed by exact Hrun. reflexivity.
Qed.

Lemma means_calls cs : forall before, means before (map Call cs) cs.
Proof. induction cs as [|c cs IH]; intros before; [constructor|]. cbn [map]. constructor. apply IH. Qed.
Lemma means_calls_unique cs : forall before ds, means before (map Call cs) ds -> ds = cs.
Proof. induction cs as [|c cs IH]; intros before ds H; inversion H; subst; [reflexivity|]. f_equal. eapply IH. eassumption. Qed.

Lemma rebuild srt ts pb pairs : sort_ok is_less srt -> well_grouped ts -> balanced (concat ts) -> canonical (concat ts) -> running (concat ts) ->
  Forall one_note ts -> NoDup (map fst pb) -> Permutation pairs (map fst pb) ->
  Forall (fun e : (str * str) * pricelist => snd e <> [] /\ StronglySorted (fun a b => pr_date a <= pr_date b) (snd e)) pb ->
  exists b bk, bsteps new_builder (flat_map trans_calls ts ++ flat_map (pair_calls pb) pairs) = Ok b /\ build srt b = Ok bk /\
    bk_trans bk = map (map strip) ts /\ bk_post bk = map strip (concat ts) /\ (forall k, aget pair_eqb k (bk_prices bk) = aget pair_eqb k pb) /\
    bk_ccy bk = map (fun '(c, v) => (c, decimals_of v)) (max_denoms [] (map bare (concat ts))) /\ NoDup (map fst (bk_prices bk)).
Proof.
  intros Hs Hwg Hbal Hcan Hrun Hnote Hnd Hperm Hpb.
  assert (Hkeys : NoDup (tkeys ts)).
  { destruct Hwg as [G1 G2]. clear - G1 G2. induction G2 as [|t ts G2 IH Hall]; [constructor|]. inversion G1 as [|? ? [Hne _] G1']; subst. cbn [tkeys map]. constructor; [|apply IH; exact G1'].
    intros Hin. apply in_map_iff in Hin as (u & Eu & Hu). rewrite Forall_forall in Hall, G1'. destruct t as [|p t]; [congruence|]. destruct u as [|q u]; [destruct (G1' _ Hu); congruence|].
    specialize (Hall _ Hu p q (or_introl eq_refl) (or_introl eq_refl)). unfold dplt in Hall. rewrite Eu in Hall. exact (lc_lt_irrefl _ dpcmp_lin _ Hall). }
  assert (Hts : Forall (fun t : trans => t <> [] /\ (forall p q, In p t -> In q t -> dp p = dp q) /\ one_note t /\ balanced t) ts).
  { pose proof (balanced_each ts Hwg Hbal) as Hb. destruct Hwg as [G1 _]. rewrite Forall_forall in *. intros t Ht. destruct (G1 t Ht). repeat split; auto. }
  destruct (trans_run ts new_builder [] [] new_builder_ok ltac:(reflexivity) Hts Hkeys) as (b1 & seg & E1 & Hok & Hz & Hp & Hpr).
  set (b2 := mkB (bu_post b1) (bu_prev b1) (bu_amts b1) (bu_date b1) (bu_payee b1) (bu_note b1) (add_all (all_adds pb pairs) (bu_prices b1))).
  assert (E2 : bsteps new_builder (flat_map trans_calls ts ++ flat_map (pair_calls pb) pairs) = Ok b2) by (rewrite bsteps_app, E1; cbn [obind]; apply prices_run).
  assert (Hchk : exists b3, check_and_clear b2 = Ok b3 /\ same_rest b2 b3).
  { destruct Hok as (N1 & N2 & _). destruct (check_cases b2 N1) as [(_ & b3 & E3 & Hsr & _)|[Hno _]]; [exists b3; auto|]. exfalso. apply Hno. intros c. rewrite N2. apply Hz. }
  destruct Hchk as (b3 & E3 & (R1 & _ & _ & _ & _ & R6)).
  assert (Hprices : forall k, aget pair_eqb k (build_prices (bu_prices b3)) = aget pair_eqb k pb).
  { intros k. rewrite R6. cbn [b2 bu_prices]. rewrite Hpr. cbn [new_builder bu_prices]. rewrite build_prices_get.
    destruct (add_all_spec (all_adds pb pairs) [] ltac:(constructor)) as [_ Hget]. rewrite Hget. cbn [aget].
    rewrite adds_for_all by (eapply Permutation_NoDup; [symmetry; exact Hperm|exact Hnd]).
    destruct (aget pair_eqb k pb) as [l|] eqn:El.
    - assert (Hin : In (k, l) pb) by (apply (aget_Some_iff _ pair_eqb_eq); assumption).
      assert (Hk : existsb (fun k' => pair_eqb k' k) pairs = true).
      { apply existsb_exists. exists k. split; [|apply pair_eqb_eq; reflexivity]. eapply Permutation_in; [symmetry; exact Hperm|]. apply in_map_iff. exists (k, l). split; [reflexivity|exact Hin]. }
      rewrite Hk. rewrite Forall_forall in Hpb. destruct (Hpb _ Hin) as [Hne Hsort]. cbn [snd] in *. destruct l as [|p l]; [congruence|]. cbn [option_map]. rewrite isort_sorted_id by exact Hsort. reflexivity.
    - destruct (existsb (fun k' => pair_eqb k' k) pairs); reflexivity. }
  assert (Hpnd : NoDup (map fst (build_prices (bu_prices b3)))).
  { rewrite build_prices_keys, R6. cbn [b2 bu_prices]. rewrite Hpr. apply (add_all_spec (all_adds pb pairs) [] ltac:(constructor)). }
  exists b2. unfold build. rewrite E3. cbn [obind]. eexists. split; [exact E2|]. split; [reflexivity|].
  assert (Hpost : bu_post b3 = map bare (concat ts)) by (rewrite R1; cbn [b2 bu_post]; rewrite Hp; reflexivity). rewrite Hpost.
  destruct (concat ts) as [|p l] eqn:Ec.
  - cbn [map length repeat]. rewrite compact_nil by reflexivity. cbn [bk_trans bk_post bk_prices bk_ccy]. split; [|split; [reflexivity|split; [exact Hprices|split; [reflexivity|exact Hpnd]]]].
    destruct ts as [|t ts]; [reflexivity|]. destruct Hwg as [G1 _]. inversion G1 as [|? ? [Hne _] _]; subst. destruct t; [congruence|discriminate].
  - rewrite compact_eq by discriminate. cbn [bk_trans bk_post bk_prices bk_ccy]. rewrite cposts_bare by assumption. split; [|split; [reflexivity|split; [exact Hprices|split; [reflexivity|exact Hpnd]]]].
    rewrite group_all_strip. f_equal. rewrite <- Ec. apply well_grouped_group_all. exact Hwg.
Qed.
