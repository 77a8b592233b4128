(** * BalanceProofs: lemmas for C110. *)
From Verif Require Import Base Utf8 Regex Dec DateModel DateSpec DateProofs DateProofs2 PriceModel PriceSpec PriceProofs BookModel BookSpec BookProofs BuilderProofs
  OpsModel OpsProofs OpsProofs2 OpsProofs3 BookProps RegisterModel RegisterSpec RegisterProofs AccumModel AccumSpec AccumProofs AccumProofs2 AccumProofs3 AccumProps
  LoaderModel LoaderSpec CmdModel CmdSpec CmdProofs CmdProps BalanceSpec.

Lemma sum_over_in {A} (P : A -> Prop) (pd : A -> bool) f l : (forall x, In x l -> (pd x = true <-> P x)) -> forall s, sum_over P f l s <-> s = qsum (map f (filter pd l)).
Proof.
  intros H. assert (G : sum_over P f l (qsum (map f (filter pd l)))).
  { induction l as [|x l IH]; [constructor|]. cbn [filter]. specialize (IH (fun y Hy => H y (or_intror Hy))). destruct (pd x) eqn:E.
    - cbn [map]. rewrite qsum_cons. apply sum_yes; [apply H; [left; reflexivity|exact E]|exact IH].
    - apply sum_no; [|exact IH]. intros F. apply H in F; [congruence|left; reflexivity]. }
  intros s. split; [intros Hsu; apply (sum_over_fun _ _ _ _ Hsu _ G)|intros ->; exact G].
Qed.

(** What is posted, without payees and notes. *)
Lemma posted_amounts cs : forall b b' cur note, bsteps b cs = Ok b' ->
  map (fun p => mkAmt (p_date p) (p_acct p) (p_ccy p) (p_val p)) (posted cur note (identities b cs) cs) = amounts (fst cur) cs.
Proof.
  induction cs as [|x cs IH]; intros b b' cur note E; [reflexivity|]. cbn [bsteps] in E. apply obind_Ok in E as (b1 & E1 & E). cbn [identities]. rewrite E1.
  destruct x as [d pay n|a c v n|d u c v]; cbn [posted app amounts].
  - rewrite (IH b1 b' _ _ E). cbn [fst]. f_equal. cbn [bstep] in E1. unfold new_transaction in E1. apply obind_Ok in E1 as (b2 & _ & E1). apply obind_Ok in E1 as (cur' & _ & E1). injection E1 as <-. reflexivity.
  - cbn [map p_date p_acct p_ccy p_val]. f_equal. apply (IH b1 b' _ _ E).
  - apply (IH b1 b' _ _ E).
Qed.
Lemma steps_prices cs : forall b b', bsteps b cs = Ok b' -> bu_prices b' = add_all (price_lines cs) (bu_prices b).
Proof.
  induction cs as [|x cs IH]; intros b b' E; cbn [bsteps] in E; [injection E as <-; reflexivity|]. apply obind_Ok in E as (b1 & E1 & E). rewrite (IH _ _ E). destruct x as [d pay n|a c v n|d u c v]; cbn [price_lines bstep] in *.
  - unfold new_transaction in E1. apply obind_Ok in E1 as (b2 & Ec & E1). apply obind_Ok in E1 as (cur' & _ & E1). injection E1 as <-. cbn [bu_prices]. f_equal.
    unfold check_and_clear in Ec. destruct (forallb _ _); [|discriminate]. injection Ec as <-. reflexivity.
  - injection E1 as <-. reflexivity.
  - injection E1 as <-. reflexivity.
Qed.
Lemma built_pos l : Forall (fun '(_, _, v) => (0 < v)%Qc) l -> pb_pos (build_prices (add_all l [])).
Proof.
  intros Hv. destruct (add_all_spec l [] (NoDup_nil _)) as [Hn Hg].
  assert (Hn' : NoDup (map fst (build_prices (add_all l [])))) by (rewrite build_prices_keys; exact Hn).
  unfold pb_pos. rewrite Forall_forall. intros [k pl] Hin. cbn [snd]. apply (aget_Some_iff _ pair_eqb_eq k pl _ Hn') in Hin. rewrite build_prices_get, Hg in Hin. cbn in Hin.
  destruct (adds_for k l) as [|a al] eqn:E; cbn in Hin; [discriminate|]. injection Hin as <-. change (insert_by price_less a (isort price_less al)) with (isort price_less (a :: al)). rewrite <- E.
  rewrite Forall_forall in *. intros p Hp. apply (Permutation_in _ (Permutation_sym (isort_perm price_less _))) in Hp. unfold adds_for in Hp. apply in_map_iff in Hp as ([[d k'] v] & <- & Hp).
  apply filter_In in Hp as [Hp _]. apply (Hv _ Hp).
Qed.

Lemma total_as_wtotal g l : total g l = wtotal (fun d p a c => if g d p a c then 1%Qc else 0%Qc) l.
Proof.
  unfold total, wtotal. induction l as [|p l IH]; [reflexivity|]. cbn [filter map]. rewrite qsum_cons. unfold on at 1. destruct (g _ _ _ _); [cbn [map]; rewrite qsum_cons, IH|rewrite IH]; ring.
Qed.
Lemma total_amounts (h : Z -> str -> str -> bool) l : total (fun d _ a c => h d a c) l =
  qsum (map am_val (filter (fun x => h (am_date x) (am_acct x) (am_ccy x)) (map (fun p => mkAmt (p_date p) (p_acct p) (p_ccy p) (p_val p)) l))).
Proof.
  unfold total. induction l as [|p l IH]; [reflexivity|]. cbn [filter map]. unfold on at 1. cbn [am_date am_acct am_ccy]. destruct (h _ _ _); cbn [map]; [rewrite !qsum_cons, IH; reflexivity|exact IH].
Qed.
Lemma total_absent g l : (forall p, In p l -> on g p = false) -> total g l = 0%Qc.
Proof. unfold total. induction l as [|p l IH]; intros H; [reflexivity|]. cbn [filter]. rewrite (H p (or_introl eq_refl)). apply IH. intros q Hq. apply H. right. exact Hq. Qed.

(** The rows of a transaction, completed with zero rows, have the same weighted sums. *)
Lemma same_sum (G : str * str -> Qc) : forall t leaves, NoDup (map ac t) -> NoDup (map ac leaves) -> Forall (ordinary t) leaves -> (forall p, In p t -> In (ac p) (map ac leaves)) ->
  qsum (map (fun p => (p_val p * G (ac p))%Qc) t) = qsum (map (fun p => (p_val p * G (ac p))%Qc) leaves).
Proof.
  induction t as [|p t IH]; intros leaves Hn Hl Ho Hin.
  - cbn [map]. clear Hin Hl. induction Ho as [|r leaves Hr _ IH]; [reflexivity|]. cbn [map]. rewrite qsum_cons. destruct Hr as [(p & [] & _)|(_ & -> & _)]. rewrite <- IH. cbn [qsum fold_right]. ring.
  - cbn [map] in Hn. apply NoDup_cons_iff in Hn as [Hp Hn]. pose proof (Hin p (or_introl eq_refl)) as Hr. apply in_map_iff in Hr as (r & Er & Hr). apply in_split in Hr as (l1 & l2 & ->).
    assert (Pm : Permutation (l1 ++ r :: l2) (r :: l1 ++ l2)) by (symmetry; apply Permutation_middle). rewrite (qsum_perm _ _ (Permutation_map _ Pm)). cbn [map]. rewrite !qsum_cons, Er.
    apply (Permutation_NoDup (Permutation_map ac Pm)) in Hl. cbn [map] in Hl. apply NoDup_cons_iff in Hl as [Hr Hl]. apply (Permutation_Forall Pm) in Ho. apply Forall_cons_iff in Ho as [Hor Ho].
    assert (Ev : p_val r = p_val p).
    { unfold ac in Er. injection Er as Ea Ec. destruct Hor as [(q & [<-|Hq] & _ & _ & Ha & Hc & Hv & _)|(Hno & _)]; [exact Hv| |].
      - exfalso. apply Hp. apply in_map_iff. exists q. split; [|exact Hq]. unfold ac. rewrite <- Ha, <- Hc, Ea, Ec. reflexivity.
      - exfalso. apply (Hno p (or_introl eq_refl)). auto. }
    rewrite Ev. f_equal. apply IH; [exact Hn|exact Hl| |].
    + rewrite Forall_forall in *. intros x Hx. assert (Nx : ac x <> ac p). { intros F. apply Hr. rewrite Er, <- F. apply in_map. exact Hx. }
      destruct (Ho x Hx) as [(q & [<-|Hq] & H)|(Hno & H)]; [|left; eauto|right; split; [intros q Hq; apply Hno; right; exact Hq|exact H]].
      exfalso. destruct H as (_ & _ & Ha & Hc & _). apply Nx. unfold ac. rewrite Ha, Hc. reflexivity.
    + intros q Hq. assert (Nq : ac q <> ac r). { rewrite Er. intros F. apply Hp. rewrite <- F. apply in_map. exact Hq. }
      pose proof (Hin q (or_intror Hq)) as H. apply (Permutation_in _ (Permutation_map ac Pm)) in H. destruct H as [H|H]; [congruence|exact H].
Qed.

(** What the entries say about the calls. *)
Lemma amounts_posts ps cvs a n : ps = map (fun '(c, v) => CPost a c v n) cvs -> forall date cs, amounts date (ps ++ cs) = map (fun '(c, v) => mkAmt date a c v) cvs ++ amounts date cs.
Proof. intros ->. induction cvs as [|[c v] cvs IH]; intros date cs; [reflexivity|]. cbn [map app amounts]. f_equal. apply IH. Qed.
Lemma prices_posts ps cvs a n : ps = map (fun '(c, v) => CPost a c v n) cvs -> forall cs, price_lines (ps ++ cs) = price_lines cs.
Proof. intros ->. induction cvs as [|[c v] cvs IH]; intros cs; [reflexivity|]. exact (IH cs). Qed.
Lemma segment_in cs : forall cur seg c v, In seg (segments_from cur cs) -> In (c, v) seg -> In (c, v) cur \/ exists a n, In (CPost a c v n) cs.
Proof.
  induction cs as [|x cs IH]; intros cur seg c v Hs Hi; cbn [segments_from] in Hs.
  - destruct Hs as [<-|[]]. left. exact Hi.
  - destruct x as [d p n|a c' v' n|d u c' v'].
    + destruct Hs as [<-|Hs]; [left; exact Hi|]. destruct (IH _ _ _ _ Hs Hi) as [[]|(a & n' & H)]. right. exists a, n'. right. exact H.
    + destruct (IH _ _ _ _ Hs Hi) as [H|(a' & n' & H)]; [|right; exists a', n'; right; exact H]. apply in_app_iff in H as [H|[H|[]]]; [left; exact H|]. injection H as <- <-. right. exists a, n. left. reflexivity.
    + destruct (IH _ _ _ _ Hs Hi) as [H|(a' & n' & H)]; [left; exact H|]. right. exists a', n'. right. exact H.
Qed.
Lemma segments_ne cs : forall cur, segments_from cur cs <> [].
Proof. induction cs as [|[]]; intros cur; cbn [segments_from]; try discriminate; apply IHcs. Qed.
Lemma open_sum_in before c : open_sum before c <> 0%Qc -> exists a v n, In (CPost a c v n) before.
Proof.
  intros H. unfold open_sum, seg_sum in H. set (seg := last (segments before) []) in *.
  assert (Hs : In seg (segments before)). { unfold seg, segments. destruct (segments_from [] before) as [|x l] eqn:E; [exfalso; exact (segments_ne before [] E)|]. destruct (exists_last (l := x :: l)) as (l' & y & ->); [discriminate|]. rewrite last_last. apply in_or_app. right. left. reflexivity. }
  destruct (filter (fun '(c', _) => str_eqb c' c) seg) as [|[c' v] l] eqn:E; [exfalso; apply H; reflexivity|]. assert (Hi : In (c', v) (filter (fun '(c', _) => str_eqb c' c) seg)) by (rewrite E; left; reflexivity).
  apply filter_In in Hi as [Hi Hc]. apply str_eqb_eq in Hc as ->. destruct (segment_in _ _ _ _ _ Hs Hi) as [[]|(a & n & Hp)]. eauto.
Qed.
Definition named_amount (d : Z) (x : amount) : Prop := valid_date (am_date x) /\ account_ok d (am_acct x) /\ decode (am_ccy x) <> [].
Lemma means_good d before es cs : means before es cs -> Forall (reportable d) es -> (forall a c v n, In (CPost a c v n) before -> decode c <> []) ->
  (forall date, valid_date date \/ opened_first es -> Forall (named_amount d) (amounts date cs)) /\
  Forall (fun '(d, _, v) => valid_date d /\ (0 < v)%Qc) (price_lines cs).
Proof.
  induction 1 as [before|before x es cs _ IH|before a n es ps cs Hbal _ IH]; intros Hr Hb.
  - split; [intros; constructor|constructor].
  - apply Forall_cons_iff in Hr as [Hx Hr]. destruct IH as [I1 I2]; [exact Hr| |].
    { intros a c v n H. apply in_app_iff in H as [H|[H|[]]]; [eapply Hb; exact H|]. subst x. apply Hx. }
    destruct x as [dt p n|a c v n|dt u c v]; cbn [amounts price_lines reportable opened_first] in *.
    + split; [|exact I2]. intros _ _. apply I1. left. exact Hx.
    + split; [|exact I2]. intros date [Hd|[]]. constructor; [|apply I1; left; exact Hd]. split; [exact Hd|exact Hx].
    + split; [exact I1|]. constructor; [exact Hx|exact I2].
  - apply Forall_cons_iff in Hr as [Hx Hr]. destruct Hbal as (cvs & Eps & _ & Hcv). destruct IH as [I1 I2]; [exact Hr| |].
    { intros a' c v n' H. apply in_app_iff in H as [H|H]; [eapply Hb; exact H|]. rewrite Eps in H. apply in_map_iff in H as ([c1 v1] & H & Hi). injection H as <- <- <- <-. apply Hcv in Hi as [H1 H2].
      destruct (open_sum_in before c1) as (a0 & v0 & n0 & H0); [|eapply Hb; exact H0]. intros F. rewrite F in H2. apply H1. rewrite H2. reflexivity. }
    rewrite (prices_posts _ _ _ _ Eps). split; [|exact I2]. intros date [Hd|[]]. rewrite (amounts_posts _ _ _ _ Eps). apply Forall_app. split; [|apply I1; left; exact Hd].
    apply Forall_forall. intros x H. apply in_map_iff in H as ([c v] & <- & Hi). apply Hcv in Hi as [H1 H2]. split; [exact Hd|]. split; [exact Hx|]. cbn [am_ccy].
    destruct (open_sum_in before c) as (a0 & v0 & n0 & H0); [|eapply Hb; exact H0]. intros F. rewrite F in H2. apply H1. rewrite H2. reflexivity.
Qed.
