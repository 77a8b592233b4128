(** * OpsProofs3: reclassification, account listing, decimals. *)
From Verif Require Import Base Dec DateModel DateSpec DateProofs2 PriceModel PriceProofs BookModel BookSpec BookProofs BuilderProofs OpsModel OpsProofs.

(** ** Association list membership *)
Lemma aset_In {V} (k : str) (v : V) m a b : In (a, b) (aset str_eqb k v m) -> (a = k /\ b = v) \/ In (a, b) m.
Proof.
  induction m as [|[k' v'] m IH]; cbn [aset]; [intros [E|[]]; injection E as <- <-; auto|].
  destruct (str_eqb_spec k' k) as [->|Hne].
  - intros [E|H]; [injection E as <- <-; auto|right; right; exact H].
  - intros [E|H]; [right; left; exact E|]. apply IH in H as [H|H]; [auto|right; right; exact H].
Qed.
Lemma aset_nonnil {V} (k : str) (v : V) m : aset str_eqb k v m <> [].
Proof. destruct m as [|[k' v'] m]; cbn [aset]; [discriminate|]. destruct (str_eqb k' k); discriminate. Qed.

(** ** Counting counter-accounts *)
Lemma counter_of_spec refacct t c : counter_of refacct t = Some c <-> counter refacct t c.
Proof.
  split.
  - destruct t as [|p [|q [|? ?]]]; cbn [counter_of]; try discriminate.
    destruct (str_eqb_spec (p_acct p) refacct) as [E|E].
    + intros H. injection H as <-. apply counter_first. exact E.
    + destruct (str_eqb_spec (p_acct q) refacct) as [E2|E2]; [|discriminate]. intros H. injection H as <-. apply counter_second; assumption.
  - intros [p q E|p q E E2]; cbn [counter_of].
    + rewrite (proj2 (str_eqb_eq _ _) E). reflexivity.
    + rewrite (proj2 (str_eqb_neq _ _) E), (proj2 (str_eqb_eq _ _) E2). reflexivity.
Qed.
Definition cc_ok (m : list (str * list (str * Z))) (S : str -> str -> Prop) : Prop :=
  NoDup (akeys m) /\
  (forall x cs, aget str_eqb x m = Some cs -> cs <> [] /\ forall c k, In (c, k) cs -> 0 < k /\ S x c) /\
  (forall x c, S x c -> exists cs, aget str_eqb x m = Some cs).
Lemma cc_ext m S S' : (forall x c, S x c <-> S' x c) -> cc_ok m S -> cc_ok m S'.
Proof.
  intros H (H1 & H2 & H3). split; [exact H1|]. split.
  - intros x cs E. destruct (H2 x cs E) as [Hn Hk]. split; [exact Hn|]. intros c k Hin. rewrite <- H. apply Hk. exact Hin.
  - intros x c Hs. rewrite <- H in Hs. eapply H3. exact Hs.
Qed.
Lemma count_counters_ok refacct : forall ts m S, cc_ok m S ->
  cc_ok (count_counters refacct m ts) (fun x c => S x c \/ exists t, In t ts /\ counter refacct t c /\ payee_of t = x).
Proof.
  induction ts as [|t ts IH]; intros m S Hm.
  - cbn [count_counters]. eapply cc_ext; [|exact Hm]. intros x c. split; [auto|]. intros [H|(t & [] & _)]. exact H.
  - cbn [count_counters]. set (m' := match counter_of refacct t with None => m | _ => _ end).
    assert (Hm' : cc_ok m' (fun x c => S x c \/ (counter refacct t c /\ payee_of t = x))).
    { subst m'. destruct (counter_of refacct t) as [c0|] eqn:E.
      - destruct Hm as (H1 & H2 & H3). pose proof (proj1 (counter_of_spec _ _ _) E) as Hc.
        assert (Hset : forall d, d <> [] -> (forall c k, In (c, k) d -> 0 < k /\ (S (payee_of t) c \/ c = c0)) ->
                  cc_ok (aset str_eqb (payee_of t) d m) (fun x c => S x c \/ (counter refacct t c /\ payee_of t = x))).
        { intros d Hd Hdk. split; [apply (aset_NoDup _ str_eqb_eq); exact H1|]. split.
          - intros x cs Ex. destruct (str_eqb_spec x (payee_of t)) as [->|Hne].
            + rewrite (aget_aset_eq _ str_eqb_eq) in Ex. injection Ex as <-. split; [exact Hd|].
              intros c k Hin. destruct (Hdk c k Hin) as [Hk [Hs| ->]]; split; auto.
            + rewrite (aget_aset_neq _ str_eqb_eq) in Ex by exact Hne. destruct (H2 x cs Ex) as [Hn Hk]. split; [exact Hn|].
              intros c k Hin. destruct (Hk c k Hin). auto.
          - intros x c Hs. destruct (str_eqb_spec x (payee_of t)) as [->|Hne].
            + rewrite (aget_aset_eq _ str_eqb_eq). eauto.
            + rewrite (aget_aset_neq _ str_eqb_eq) by exact Hne. destruct Hs as [Hs|[_ Hs]]; [eapply H3; exact Hs|congruence]. }
        destruct (aget str_eqb (payee_of t) m) as [d|] eqn:Ed.
        + destruct (H2 _ _ Ed) as [Hn Hk]. unfold bump. destruct (aget str_eqb c0 d) as [k0|] eqn:E0.
          * apply Hset; [apply aset_nonnil|]. intros c k Hin. apply aset_In in Hin as [[-> ->]|Hin].
            -- apply (aget_In _ str_eqb_eq) in E0. destruct (Hk _ _ E0). split; [lia|auto].
            -- destruct (Hk _ _ Hin). auto.
          * apply Hset; [apply aset_nonnil|]. intros c k Hin. apply aset_In in Hin as [[-> ->]|Hin].
            -- split; [lia|auto].
            -- destruct (Hk _ _ Hin). auto.
        + apply Hset; [discriminate|]. intros c k [E1|[]]. injection E1 as <- <-. split; [lia|auto].
      - eapply cc_ext; [|exact Hm]. intros x c. split; [auto|]. intros [H|[H _]]; [exact H|].
        apply counter_of_spec in H. congruence. }
    apply IH in Hm'. eapply cc_ext; [|exact Hm']. intros x c. cbn [In]. split.
    + intros [[H|[H1 H2]]|(u & Hu & H1 & H2)]; [auto|right; exists t; auto|right; exists u; auto].
    + intros [H|(u & [<-|Hu] & H1 & H2)]; [auto|left; right; auto|right; exists u; auto].
Qed.
Lemma choose_in : forall l d, (forall c k, In (c, k) l -> 0 < k) -> (l = [] /\ choose l 0 d = d) \/ In (choose l 0 d) (map fst l).
Proof.
  induction l as [|[c k] l IH]; intros d H; [auto|]. right. cbn [choose].
  rewrite (proj2 (Z.ltb_lt 0 k)) by (apply (H c); left; reflexivity).
  destruct (IH c) as [[-> E]|E]; [intros c' k' Hin; apply (H c'); right; exact Hin| |].
  - left. exact (eq_sym E).
  - right. exact E.
Qed.
Lemma qc_ltb_spec a b : qc_ltb a b = true <-> (a < b)%Qc.
Proof.
  unfold qc_ltb. destruct (Qclt_le_dec a b) as [H|H]; split; auto; try discriminate.
  intros H2. exfalso. exact (Qclt_not_le _ _ H2 H).
Qed.
Lemma qc_ltb_false a b : qc_ltb a b = false -> (b <= a)%Qc.
Proof. unfold qc_ltb. destruct (Qclt_le_dec a b) as [H|H]; [discriminate|auto]. Qed.
Lemma best_spec d : forall l mx mc mx' mc', best d l mx mc = (mx', mc') ->
  (mx <= mx')%Qc /\ (forall p c, In (p, c) l -> (d p <= mx')%Qc) /\
  ((mx' = mx /\ mc' = mc) \/ exists p, In (p, mc') l /\ mx' = d p /\ (mx < mx')%Qc).
Proof.
  induction l as [|[p c] l IH]; intros mx mc mx' mc' E; cbn [best] in E.
  - injection E as <- <-. split; [apply Qcle_refl|]. split; [intros p c []|]. auto.
  - destruct (qc_ltb mx (d p)) eqn:El.
    + apply qc_ltb_spec in El. apply IH in E as (H1 & H2 & H3). split; [eapply Qcle_trans; [apply Qclt_le_weak; exact El|exact H1]|]. split.
      * intros p' c' [E|Hin]; [injection E as <- <-; exact H1|eapply H2; exact Hin].
      * right. destruct H3 as [[-> ->]|(p' & Hin & -> & Hlt)].
        -- exists p. split; [left; reflexivity|]. auto.
        -- exists p'. split; [right; exact Hin|]. split; [reflexivity|]. eapply Qcle_lt_trans; [|exact Hlt]. apply Qclt_le_weak. exact El.
    + apply qc_ltb_false in El. apply IH in E as (H1 & H2 & H3). split; [exact H1|]. split.
      * intros p' c' [E|Hin]; [injection E as <- <-; eapply Qcle_trans; eassumption|eapply H2; exact Hin].
      * destruct H3 as [H3|(p' & Hin & H4)]; [auto|]. right. exists p'. split; [right; exact Hin|exact H4].
Qed.

Section Reclass.
  Variable ord1 : str -> list (str * Z) -> list (str * Z).
  Variable ord2 : nat -> list (str * str) -> list (str * str).
  Hypothesis Hord1 : forall x l, Permutation l (ord1 x l).
  Hypothesis Hord2 : forall i l, Permutation l (ord2 i l).
  Variable dist : str -> str -> Qc.

  Lemma seen_payee refacct rts x c : Forall (fun t => forall p q, In p t -> In q t -> dp p = dp q) rts ->
    (seen refacct rts x c <-> exists t, In t rts /\ counter refacct t c /\ payee_of t = x).
  Proof.
    intros Hu. split.
    - intros (t & Ht & Hc & Hp). exists t. split; [exact Ht|]. split; [exact Hc|]. destruct Hc; apply Forall_inv in Hp; exact Hp.
    - intros (t & Ht & Hc & Hp). exists t. split; [exact Ht|]. split; [exact Hc|]. rewrite Forall_forall in *. intros p Hin.
      assert (exists q, In q t /\ p_payee q = x) as (q & Hq & <-).
      { destruct Hc as [a b _|a b _ _]; exists a; split; auto with datatypes. }
      specialize (Hu t Ht p q Hin Hq). unfold dp in Hu. congruence.
  Qed.
  Lemma payee_mapping_spec refacct rts : Forall (fun t => forall p q, In p t -> In q t -> dp p = dp q) rts ->
    (forall x c, In (x, c) (payee_mapping ord1 refacct rts) -> seen refacct rts x c) /\
    (forall x c, seen refacct rts x c -> exists c', In (x, c') (payee_mapping ord1 refacct rts)).
  Proof.
    intros Hu. pose proof (count_counters_ok refacct rts [] (fun _ _ => False)) as H.
    destruct H as (H1 & H2 & H3).
    { split; [constructor|]. split; [discriminate|contradiction]. }
    unfold payee_mapping. split.
    - intros x c Hin. apply in_map_iff in Hin as ([x' cs] & E & Hin). injection E as -> <-.
      apply (aget_Some_iff _ str_eqb_eq _ _ _ H1) in Hin. destruct (H2 _ _ Hin) as [Hne Hk].
      assert (Hin' : forall c k, In (c, k) (ord1 x cs) -> In (c, k) cs).
      { intros c k Hi. eapply Permutation_in; [symmetry; apply Hord1|exact Hi]. }
      destruct (choose_in (ord1 x cs) []) as [[E _]|E].
      + intros c k Hi. apply (Hk c k). apply Hin'. exact Hi.
      + exfalso. apply Hne. pose proof (Hord1 x cs) as Hp. rewrite E in Hp. symmetry in Hp. apply Permutation_nil in Hp. exact Hp.
      + apply in_map_iff in E as ([c k] & E & Hi). cbn [fst] in E. rewrite <- E. destruct (Hk c k (Hin' _ _ Hi)) as [_ [[]|Hs]].
        apply seen_payee; [exact Hu|exact Hs].
    - intros x c Hs. apply seen_payee in Hs; [|exact Hu]. destruct (H3 x c (or_intror Hs)) as (cs & E).
      apply (aget_In _ str_eqb_eq) in E. exists (choose (ord1 x cs) 0 []). apply in_map_iff. exists (x, cs). auto.
  Qed.

  Lemma reclass_trans_spec refacct rts i t :
    Forall (fun t => forall p q, In p t -> In q t -> dp p = dp q) rts ->
    (forall p q, In p t -> In q t -> dp p = dp q) ->
    reclassified dist refacct rts t (reclass_trans ord2 dist refacct (payee_mapping ord1 refacct rts) i t).
  Proof.
    intros Hu Ht. destruct (payee_mapping_spec refacct rts Hu) as [M1 M2]. set (pm := payee_mapping ord1 refacct rts) in *.
    destruct (counter_of refacct t) as [c0|] eqn:Ec.
    2:{ left. split.
        - destruct t as [|p [|q [|? ?]]]; try reflexivity. cbn [counter_of] in Ec. cbn [reclass_trans].
          destruct (str_eqb (p_acct p) refacct); [discriminate|]. destruct (str_eqb (p_acct q) refacct); [discriminate|reflexivity].
        - left. intros c Hc. apply counter_of_spec in Hc. congruence. }
    apply counter_of_spec in Ec. set (pay := payee_of t).
    assert (Hpay : has_payee t pay).
    { destruct Ec as [p q _|p q _ _]; (split; [discriminate|]); subst pay; cbn [payee_of]; rewrite Forall_forall; intros r Hr;
        specialize (Ht r p Hr (or_introl eq_refl)); unfold dp in Ht; congruence. }
    destruct (best (dist pay) (ord2 i pm) 0%Qc []) as [mx mc] eqn:Eb.
    destruct (best_spec _ _ _ _ _ _ Eb) as (B1 & B2 & B3).
    assert (Hall : forall x c, seen refacct rts x c -> (dist pay x <= mx)%Qc).
    { intros x c Hs. destruct (M2 x c Hs) as (c' & Hin). eapply B2. eapply Permutation_in; [apply Hord2|exact Hin]. }
    destruct (qc_ltb 0 mx) eqn:El.
    - apply qc_ltb_spec in El. right. destruct B3 as [[-> _]|(x & Hin & -> & _)]; [exfalso; exact (Qclt_not_le _ _ El (Qcle_refl _))|].
      exists pay, x, mc. split; [exact Hpay|]. split; [apply M1; eapply Permutation_in; [symmetry; apply Hord2|exact Hin]|].
      split; [exact El|]. split; [exact Hall|].
      destruct Ec as [p q E|p q E E2]; cbn [reclass_trans payee_of] in *; subst pay.
      + rewrite (proj2 (str_eqb_eq _ _) E), Eb, (proj2 (qc_ltb_spec _ _) El). apply rec_first. exact E.
      + rewrite (proj2 (str_eqb_neq _ _) E), (proj2 (str_eqb_eq _ _) E2), Eb, (proj2 (qc_ltb_spec _ _) El). apply rec_second; assumption.
    - left. split.
      + destruct Ec as [p q E|p q E E2]; cbn [reclass_trans payee_of] in *; subst pay.
        * rewrite (proj2 (str_eqb_eq _ _) E), Eb, El. reflexivity.
        * rewrite (proj2 (str_eqb_neq _ _) E), (proj2 (str_eqb_eq _ _) E2), Eb, El. reflexivity.
      + right. exists pay. split; [exact Hpay|]. intros x c Hs. apply qc_ltb_false in El. eapply Qcle_trans; [eapply Hall; exact Hs|exact El].
  Qed.
  Lemma reclass_loop_spec refacct rts : Forall (fun t => forall p q, In p t -> In q t -> dp p = dp q) rts ->
    forall ts i, Forall (fun t => forall p q, In p t -> In q t -> dp p = dp q) ts ->
    Forall2 (reclassified dist refacct rts) ts (reclass_loop ord2 dist refacct (payee_mapping ord1 refacct rts) i ts).
  Proof.
    intros Hu. induction ts as [|t ts IH]; intros i Ht; cbn [reclass_loop]; [constructor|].
    inversion Ht; subst. constructor; [apply reclass_trans_spec; assumption|apply IH; assumption].
  Qed.
  Lemma grouped_uniform ts : well_grouped ts -> Forall (fun t : trans => forall p q, In p t -> In q t -> dp p = dp q) ts.
  Proof. intros [H _]. eapply Forall_impl; [|exact H]. intros t [_ Hu]. exact Hu. Qed.
  Lemma reclassify_spec srt (Hsrt : sort_ok is_less srt) ref b refacct : book_ok ref -> book_ok b ->
    let r := snd (reclassify srt ord1 ord2 dist ref b refacct) in
    Forall2 (reclassified dist refacct (bk_trans (compact srt ref))) (bk_trans (compact srt b)) (bk_trans r) /\
    bk_post r = concat (bk_trans r) /\ bk_prices r = bk_prices b /\ bk_ccy r = bk_ccy b.
  Proof.
    intros Hr Hb. cbn zeta. unfold reclassify, transactions. cbn [snd bk_trans bk_post bk_prices bk_ccy].
    pose proof (compact_book_ok srt Hsrt _ Hr) as (_ & _ & Gr & _). pose proof (compact_book_ok srt Hsrt _ Hb) as (_ & _ & Gb & _).
    split; [apply reclass_loop_spec; apply grouped_uniform; assumption|]. split; [reflexivity|].
    unfold compact. destruct (bk_post b); split; reflexivity.
  Qed.
End Reclass.

(** ** Account listing *)
Lemma last_bals_snoc m l : forall acc p, last_bals m acc (l ++ [p]) =
  if m (p_acct p) then aset str_eqb (p_acct p) (p_bal p) (last_bals m acc l) else last_bals m acc l.
Proof. induction l as [|x l IH]; intros acc p; [reflexivity|]. cbn [app last_bals]. apply IH. Qed.
Lemma last_bals_NoDup m l : forall acc, NoDup (akeys acc) -> NoDup (akeys (last_bals m acc l)).
Proof.
  induction l as [|p l IH]; intros acc H; [exact H|]. cbn [last_bals]. apply IH. destruct (m _); [|exact H].
  apply (aset_NoDup _ str_eqb_eq). exact H.
Qed.
Lemma aget_some_key {V} a (m : list (str * V)) : (exists v, aget str_eqb a m = Some v) <-> In a (akeys m).
Proof.
  destruct (aget str_eqb a m) as [v|] eqn:E.
  - split; [|eauto]. intros _. apply (aget_In _ str_eqb_eq) in E. apply (in_map fst) in E. exact E.
  - apply (aget_None _ str_eqb_eq) in E. split; [intros (v & H); discriminate|contradiction].
Qed.
Lemma last_bals_keys m l a : (exists v, aget str_eqb a (last_bals m [] l) = Some v) <-> m a = true /\ exists p, In p l /\ p_acct p = a.
Proof.
  induction l as [|p l IH] using rev_ind.
  - cbn. split; [intros (v & H); discriminate|intros [_ (p & [] & _)]].
  - rewrite last_bals_snoc. destruct (m (p_acct p)) eqn:Em.
    + destruct (str_eqb_spec a (p_acct p)) as [->|Hne].
      * rewrite (aget_aset_eq _ str_eqb_eq). split; [|eauto]. intros _. split; [exact Em|]. exists p. split; [apply in_app_iff; right; left; reflexivity|reflexivity].
      * rewrite (aget_aset_neq _ str_eqb_eq) by exact Hne. rewrite IH. split; intros [H (q & Hq & E)]; (split; [exact H|]).
        -- exists q. split; [apply in_app_iff; left; exact Hq|exact E].
        -- apply in_app_iff in Hq as [Hq|[<-|[]]]; [exists q; auto|congruence].
    + rewrite IH. split; intros [H (q & Hq & E)]; (split; [exact H|]).
      * exists q. split; [apply in_app_iff; left; exact Hq|exact E].
      * apply in_app_iff in Hq as [Hq|[<-|[]]]; [exists q; auto|congruence].
Qed.
Lemma str_ltb_swo : swo str_ltb.
Proof. apply (swo_of_key str_cmp (fun x => x) str_cmp_lin). Qed.
Definition str_lt (a b : str) : Prop := str_cmp a b = Lt.
Lemma isort_strict l : NoDup l -> StronglySorted str_lt (isort str_ltb l).
Proof.
  intros Hn. assert (Hn' : NoDup (isort str_ltb l)) by (eapply Permutation_NoDup; [apply isort_perm|exact Hn]).
  pose proof (isort_sorted str_ltb l str_ltb_swo) as Hs. revert Hn' Hs. generalize (isort str_ltb l). clear.
  induction l as [|x l IH]; intros Hn Hs; [constructor|]. apply StronglySorted_inv in Hs as [Hs Hall]. inversion Hn as [|? ? Hx Hn']; subst.
  constructor; [apply IH; assumption|]. rewrite Forall_forall in *. intros y Hy. specialize (Hall y Hy). unfold str_lt, str_ltb in *.
  rewrite (str_cmp_anti x y) in Hall. destruct (str_cmp x y) eqn:E; [|reflexivity|discriminate].
  apply str_cmp_eq in E. subst. contradiction.
Qed.
Lemma filter_true {A} (f : A -> bool) l : (forall x, In x l -> f x = true) -> filter f l = l.
Proof. intros H. apply filter_all. rewrite Forall_forall. exact H. Qed.
Lemma accounts_strict m o b : StronglySorted str_lt (accounts m o b).
Proof.
  unfold accounts. apply isort_strict. pose proof (last_bals_NoDup m (bk_post b) [] (NoDup_nil _)) as H.
  revert H. generalize (last_bals m [] (bk_post b)). induction l as [|[k v] l IH]; intros H; [constructor|].
  cbn [filter]. inversion H as [|? ? H1 H2]; subst. destruct (_ || _); [|apply IH; exact H2]. cbn [map fst]. constructor; [|apply IH; exact H2].
  intros Hin. apply H1. apply in_map_iff in Hin as ([k' v'] & E & Hin). apply filter_In in Hin as [Hin _]. cbn [fst] in E. subst.
  apply (in_map fst) in Hin. exact Hin.
Qed.
Lemma accounts_In m o b a : In a (accounts m o b) <->
  exists v, aget str_eqb a (last_bals m [] (bk_post b)) = Some v /\ (o = true -> v <> 0%Qc).
Proof.
  unfold accounts. pose proof (last_bals_NoDup m (bk_post b) [] (NoDup_nil _)) as Hn.
  split.
  - intros H. apply (Permutation_in _ (Permutation_sym (isort_perm str_ltb _))) in H.
    apply in_map_iff in H as ([k v] & E & H). cbn [fst] in E. subst. apply filter_In in H as [H Hz]. exists v.
    split; [apply (aget_Some_iff _ str_eqb_eq _ _ _ Hn); exact H|]. intros ->. cbn [negb orb] in Hz. apply negb_true_iff, qc_is0_neq in Hz. exact Hz.
  - intros (v & E & Hz). apply (Permutation_in _ (isort_perm str_ltb _)). apply in_map_iff. exists (a, v). split; [reflexivity|].
    apply filter_In. split; [apply (aget_Some_iff _ str_eqb_eq _ _ _ Hn); exact E|]. destruct o; [|reflexivity].
    cbn [negb orb]. apply negb_true_iff, qc_is0_neq. auto.
Qed.
Lemma accounts_all m b a : In a (accounts m false b) <-> m a = true /\ exists p, In p (bk_post b) /\ p_acct p = a.
Proof.
  rewrite accounts_In, <- last_bals_keys. split; [intros (v & E & _); eauto|intros (v & E); exists v; split; [exact E|discriminate]].
Qed.
(** With one currency per account the last balance is the account's balance. *)
Lemma running_prefix l p : running (l ++ [p]) -> running l /\ p_bal p = total (in_acct (p_acct p) (p_ccy p)) (l ++ [p]).
Proof.
  intros H. split.
  - intros l1 q l2 E. apply (H l1 q (l2 ++ [p])). rewrite E, <- app_assoc. reflexivity.
  - apply (H l p []). reflexivity.
Qed.
Lemma last_bals_total m l : running l -> (forall p q, In p l -> In q l -> p_acct p = p_acct q -> p_ccy p = p_ccy q) ->
  forall a v, aget str_eqb a (last_bals m [] l) = Some v -> exists p, In p l /\ p_acct p = a /\ v = total (in_acct a (p_ccy p)) l.
Proof.
  induction l as [|p l IH] using rev_ind; intros Hr Hc a v; [discriminate|].
  rewrite last_bals_snoc. apply running_prefix in Hr as [Hr Hb].
  assert (Hc' : forall p0 q, In p0 l -> In q l -> p_acct p0 = p_acct q -> p_ccy p0 = p_ccy q).
  { intros x y Hx Hy. apply Hc; apply in_app_iff; left; assumption. }
  assert (Hold : p_acct p <> a -> aget str_eqb a (last_bals m [] l) = Some v ->
            exists q, In q (l ++ [p]) /\ p_acct q = a /\ v = total (in_acct a (p_ccy q)) (l ++ [p])).
  { intros Hne E. destruct (IH Hr Hc' a v E) as (q & Hq & Ha & ->). exists q. split; [apply in_app_iff; auto|]. split; [exact Ha|].
    rewrite total_app, total_cons, total_nil, on_in_acct. rewrite (proj2 (str_eqb_neq _ _) Hne). cbn [andb]. ring. }
  destruct (m (p_acct p)) eqn:Em.
  - destruct (str_eqb_spec a (p_acct p)) as [->|Hne].
    + rewrite (aget_aset_eq _ str_eqb_eq). intros E. injection E as <-. exists p. split; [apply in_app_iff; right; left; reflexivity|]. split; [reflexivity|exact Hb].
    + rewrite (aget_aset_neq _ str_eqb_eq) by exact Hne. apply Hold. congruence.
  - intros E. apply Hold; [|exact E]. intros <-. assert (m (p_acct p) = true) by (apply (last_bals_keys m l); eauto). congruence.
Qed.
Lemma accounts_balance m b : running (bk_post b) ->
  (forall p q, In p (bk_post b) -> In q (bk_post b) -> p_acct p = p_acct q -> p_ccy p = p_ccy q) ->
  forall a, In a (accounts m true b) <-> m a = true /\ exists c, total (in_acct a c) (bk_post b) <> 0%Qc.
Proof.
  intros Hr Hc a. rewrite accounts_In. split.
  - intros (v & E & Hz). split; [apply (last_bals_keys m (bk_post b)); eauto|].
    destruct (last_bals_total m _ Hr Hc a v E) as (p & Hp & Ha & ->). exists (p_ccy p). auto.
  - intros [Hm (c & Hz)].
    assert (Hex : exists p, In p (bk_post b) /\ p_acct p = a /\ p_ccy p = c).
    { destruct (existsb (on (in_acct a c)) (bk_post b)) eqn:E.
      - apply existsb_exists in E as (p & Hp & E). rewrite on_in_acct, andb_true_iff, !str_eqb_eq in E. exists p. tauto.
      - exfalso. apply Hz. apply total_none. intros p Hp. apply not_true_iff_false. intros E2.
        assert (existsb (on (in_acct a c)) (bk_post b) = true) by (apply existsb_exists; eauto). congruence. }
    destruct Hex as (p & Hp & Ha & Hcc).
    destruct (proj2 (last_bals_keys m (bk_post b) a)) as (v & E); [split; [exact Hm|eauto]|].
    exists v. split; [exact E|]. intros _. destruct (last_bals_total m _ Hr Hc a v E) as (q & Hq & Ha2 & ->).
    rewrite (Hc q p Hq Hp) by congruence. rewrite Hcc. exact Hz.
Qed.

(** ** Decimals *)
Lemma count_dec_spec v : forall fuel p c k, 1 <= v -> p = 10 ^ c -> 0 <= c -> v <= p * 2 ^ Z.of_nat fuel ->
  (forall j, 0 <= j < c -> 10 ^ j < v) -> count_dec fuel p v c = k ->
  c <= k /\ v <= 10 ^ k /\ forall j, 0 <= j < k -> 10 ^ j < v.
Proof.
  induction fuel as [|f IH]; intros p c k Hv Hp Hc Hb Hl; cbn [count_dec].
  - intros <-. change (2 ^ Z.of_nat 0) with 1 in Hb. split; [lia|]. split; [lia|exact Hl].
  - destruct (Z.ltb_spec p v) as [Hlt|Hge].
    + intros E. destruct (IH (p * 10) (c + 1) k) as (H1 & H2 & H3); try assumption; try lia.
      * rewrite Z.pow_add_r by lia. lia.
      * rewrite Nat2Z.inj_succ, Z.pow_succ_r in Hb by lia. pose proof (Z.pow_pos_nonneg 2 (Z.of_nat f) ltac:(lia) ltac:(lia)). 
        assert (0 < p) by (rewrite Hp; apply Z.pow_pos_nonneg; lia). nia.
      * intros j Hj. destruct (Z.eq_dec j c) as [->|Hne]; [lia|apply Hl; lia].
      * split; [lia|]. split; [exact H2|exact H3].
    + intros <-. split; [lia|]. split; [lia|exact Hl].
Qed.
Lemma decimals_of_spec v : 1 <= v -> 0 <= decimals_of v /\ v <= 10 ^ decimals_of v /\ forall j, 0 <= j < decimals_of v -> 10 ^ j < v.
Proof.
  intros Hv. apply (count_dec_spec v (S (Z.to_nat (Z.log2 v))) 1 0); try lia; [|reflexivity].
  rewrite Nat2Z.inj_succ, Z2Nat.id by apply Z.log2_nonneg. pose proof (Z.log2_spec v ltac:(lia)). lia.
Qed.
Lemma max_denoms_spec l : forall m c,
  match aget str_eqb c (max_denoms m l) with
  | Some e => (aget str_eqb c m = Some e \/ exists p, In p l /\ p_ccy p = c /\ denom (p_val p) = e) /\
      (forall p, In p l -> p_ccy p = c -> denom (p_val p) <= e) /\ (forall e0, aget str_eqb c m = Some e0 -> e0 <= e)
  | None => aget str_eqb c m = None /\ forall p, In p l -> p_ccy p <> c
  end.
Proof.
  induction l as [|p l IH]; intros m c.
  - cbn [max_denoms]. destruct (aget str_eqb c m) as [e|]; [|split; [reflexivity|intros p []]].
    split; [auto|]. split; [intros p []|]. intros e0 E. injection E as <-. lia.
  - cbn [max_denoms]. set (m' := match aget str_eqb (p_ccy p) m with Some _ => _ | None => _ end).
    specialize (IH m' c).
    assert (Hm' : (c <> p_ccy p -> aget str_eqb c m' = aget str_eqb c m) /\
      (c = p_ccy p -> exists e, aget str_eqb c m' = Some e /\ denom (p_val p) <= e /\ (forall e0, aget str_eqb c m = Some e0 -> e0 <= e) /\
          (e = denom (p_val p) \/ aget str_eqb c m = Some e))).
    { subst m'. split.
      - intros Hne. destruct (aget str_eqb (p_ccy p) m) as [e|]; [destruct (e <? _)|]; try reflexivity; apply (aget_aset_neq _ str_eqb_eq); exact Hne.
      - intros ->. destruct (aget str_eqb (p_ccy p) m) as [e|] eqn:E.
        + destruct (Z.ltb_spec e (denom (p_val p))).
          * exists (denom (p_val p)). rewrite (aget_aset_eq _ str_eqb_eq). split; [reflexivity|]. split; [lia|]. split; [intros e0 E0; injection E0 as <-; lia|auto].
          * exists e. split; [exact E|]. split; [lia|]. split; [intros e0 E0; injection E0 as <-; lia|auto].
        + exists (denom (p_val p)). rewrite (aget_aset_eq _ str_eqb_eq). split; [reflexivity|]. split; [lia|]. split; [discriminate|auto]. }
    destruct Hm' as [Hn Hy]. destruct (str_eqb_spec c (p_ccy p)) as [Ec|Hne].
    + destruct (Hy Ec) as (e' & E' & Hle & Hold & Hor). destruct (aget str_eqb c (max_denoms m' l)) as [e|].
      * destruct IH as (I1 & I2 & I3). specialize (I3 e' E'). split.
        { destruct I1 as [I1|(q & Hq & Hc & Hd)].
          - rewrite E' in I1. injection I1 as <-. destruct Hor as [->|Hor]; [|left; exact Hor].
            right. exists p. split; [left; reflexivity|]. auto.
          - right. exists q. split; [right; exact Hq|]. auto. }
        split.
        -- intros q [<-|Hq] Hc; [lia|apply I2; assumption].
        -- intros e0 E0. specialize (Hold e0 E0). lia.
      * destruct IH as [I1 _]. congruence.
    + specialize (Hn Hne). rewrite Hn in IH. destruct (aget str_eqb c (max_denoms m' l)) as [e|].
      * destruct IH as (I1 & I2 & I3). split.
        { destruct I1 as [I1|(q & Hq & Hc & Hd)]; [left; exact I1|]. right. exists q. split; [right; exact Hq|]. auto. }
        split; [|exact I3]. intros q [<-|Hq] Hc; [congruence|apply I2; assumption].
      * destruct IH as [I1 I2]. split; [exact I1|]. intros q [<-|Hq]; [congruence|apply I2; exact Hq].
Qed.
Lemma aget_map_snd {V W} (f : V -> W) c (m : list (str * V)) :
  aget str_eqb c (map (fun '(k, v) => (k, f v)) m) = option_map f (aget str_eqb c m).
Proof. induction m as [|[k v] m IH]; [reflexivity|]. cbn [map aget]. destruct (str_eqb k c); [reflexivity|exact IH]. Qed.
Lemma denom_pos q : 1 <= denom q.
Proof. unfold denom. lia. Qed.
(** [q] is exact in k decimals iff its reduced denominator divides 10^k. *)
Lemma exact_in_iff k q : 0 <= k -> (exact_in k q <-> (denom q | 10 ^ k)).
Proof.
  intros Hk. unfold exact_in, denom. destruct q as [[n d] Hred]. cbn [this Qden].
  assert (Hg : Z.gcd n (Zpos d) = 1).
  { pose proof (Qred_identity2 _ Hred) as H. cbn [Qnum Qden] in H. exact H. }
  assert (Hiff : forall z, (({| this := n # d; canon := Hred |} : Qc) * qz (10 ^ k))%Qc = qz z <-> n * 10 ^ k = z * Zpos d).
  { intros z. split; intros H.
    - apply (f_equal (fun x => Qeq (this x) (this (qz z)))) in H. cbv beta in H.
      assert (H' : this ({| this := n # d; canon := Hred |} * qz (10 ^ k))%Qc == this (qz z)) by (rewrite H; reflexivity).
      unfold Qcmult, qz, Q2Qc in H'. cbn [this] in H'. rewrite !Qred_correct in H'. unfold Qeq, inject_Z in H'. cbn in H'. nia.
    - apply Qc_is_canon. unfold Qcmult, qz, Q2Qc. cbn [this]. rewrite !Qred_correct. unfold Qeq, inject_Z. cbn. nia. }
  split.
  - intros (z & Hz). apply Hiff in Hz. apply (Z.gauss _ n); [|rewrite Z.gcd_comm; exact Hg]. exists z. lia.
  - intros (z & Hz). exists (n * z). apply Hiff. rewrite Hz. ring.
Qed.
