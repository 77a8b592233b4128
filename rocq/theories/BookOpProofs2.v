(** * BookOpProofs2: the operations keep the book sound; the loop over the prices. *)
From Verif Require Import Base Dec Regex DateModel PriceModel BookModel BookSpec BookProofs OpsModel OpsProofs BookOpModel BookOpSpec BookOpProofs.

(** ** Transactions do not depend on prices *)
Section Prices.
  Variable srt : list posting -> list posting.
  Hypothesis Hsrt : sort_ok is_less srt.

  Lemma compact_same b b' : same_trans b b' -> same_trans (compact srt b) (compact srt b').
  Proof.
    intros [H1 H2]. unfold same_trans, compact. rewrite <- H1. destruct (bk_post b) as [|p l] eqn:E; [now rewrite E, <- H1, <- H2|]. now split.
  Qed.
  Lemma filter_same f b b' c : same_trans b b' -> filter_transaction f b = Ok c ->
    exists c', filter_transaction f b' = Ok c' /\ same_trans c c'.
  Proof.
    intros [H1 H2]. unfold filter_transaction. rewrite <- H2. destruct (existsb _ _); [discriminate|]. intros [= <-].
    eexists. split; [reflexivity|]. now split.
  Qed.
  Lemma call_same today re a b b' c : same_trans b b' -> run_op srt (call today re a) b = Ok c ->
    exists c', run_op srt (call today re a) b' = Ok c' /\ same_trans c c'.
  Proof.
    intros S. pose proof S as [H1 H2]. destruct a; cbn [call run_op].
    - intros [= <-]. eexists. split; [reflexivity|]. unfold same_trans, map_amount. cbn. now rewrite H1, H2.
    - intros [= <-]. eexists. split; [reflexivity|]. unfold map_account. apply compact_same. split; cbn; [now rewrite H1|exact H2].
    - intros [= <-]. eexists. split; [reflexivity|]. unfold adjust_post. apply compact_same. split; cbn; [now rewrite H1|exact H2].
    - unfold filter_asof. destruct (d =? 0); [intros [= <-]; eexists; split; [reflexivity|exact S]|apply filter_same; exact S].
    - unfold filter_since. destruct (d =? 0); [intros [= <-]; eexists; split; [reflexivity|exact S]|apply filter_same; exact S].
    - intros [= <-]. eexists. split; [reflexivity|]. unfold split_by, map_transaction. apply compact_same. split; cbn; [now rewrite H1|exact H2].
    - intros [= <-]. eexists. split; [reflexivity|]. unfold depreciate. apply compact_same. split; cbn; [now rewrite H1|exact H2].
  Qed.
  Lemma call_total today re a b : well_grouped (bk_trans b) -> exists c, run_op srt (call today re a) b = Ok c.
  Proof.
    intros G. destruct a; cbn [call run_op]; try (eexists; reflexivity).
    - unfold filter_asof. destruct (d =? 0); [eexists; reflexivity|]. rewrite filter_transaction_eq by exact G. eexists. reflexivity.
    - unfold filter_since. destruct (d =? 0); [eexists; reflexivity|]. rewrite filter_transaction_eq by exact G. eexists. reflexivity.
  Qed.
  Lemma call_no_other today re a : other_book (call today re a) = None.
  Proof. destruct a; reflexivity. Qed.

  Variable compile : str -> option regexp.
  Variable parse_float : str -> option Qc.
  Variable today : Z.
  Variable ploop : (pair -> pair) -> pbook -> pbook.
  Definition sound (b : book) : Prop := exists b0, reachable srt b0 /\ same_trans b b0.

  Lemma perform_sound a b : sound b -> (forall s, pattern_of a = Some s -> compile s <> None) ->
    exists c, perform srt compile today ploop a b = Ok c /\ sound c.
  Proof.
    intros (b0 & R & S) C. pose proof (reachable_ok srt Hsrt b0 R) as Hok.
    assert (forall re, exists c, run_op srt (call today re a) b = Ok c /\ sound c) as H.
    { intros re. destruct (call_total today re a b) as [c Hc]; [destruct S as [_ S2]; rewrite S2; apply Hok|].
      exists c. split; [exact Hc|]. destruct (call_same _ _ _ _ _ _ S Hc) as (c' & Hc' & Sc). exists c'. split; [|exact Sc].
      eapply reach_op; [exact R| |exact Hc']. intros ob Ho. rewrite call_no_other in Ho. discriminate Ho. }
    unfold perform. destruct (pattern_of a) as [s|] eqn:P; [|apply H].
    destruct (compile s) as [re|] eqn:E; [|exfalso; now apply (C s)].
    destruct (H re) as (c & -> & b1 & R1 & S1). cbn [obind]. eexists. split; [reflexivity|]. exists b1. split; [exact R1|].
    destruct a; try exact S1.
  Qed.

  Lemma each_sound l : (forall op a s, In op l -> means parse_float today op a -> pattern_of a = Some s -> compile s <> None) ->
    forall b, sound b -> exists c e, each (plain_op srt compile parse_float today ploop) l b = Ok (c, e) /\ sound c.
  Proof.
    induction l as [|op l IH]; intros C b S; [exists b, None; now split|]. cbn [each].
    destruct (plain_op srt compile parse_float today ploop b op) as [[b1 e]| | |] eqn:E.
    - destruct e as [x|].
      + apply plain_err in E as [_ <-]. exists b, (Some x). now split.
      + cbn [obind].
        destruct (plain_cases srt compile parse_float today ploop op b) as [[a Ha]|Hm]; [|rewrite E in Hm; discriminate Hm].
        rewrite (means_plain _ _ _ _ _ op a b Ha) in E.
        destruct (perform_sound a b S) as (c & Hc & Sc); [intros s; apply (C op a); [now left|exact Ha]|].
        rewrite Hc in E. cbn in E. injection E as <-. apply IH; [|exact Sc]. intros; eapply C; eauto. now right.
    - exfalso. destruct (plain_cases srt compile parse_float today ploop op b) as [[a Ha]|Hm]; [|rewrite E in Hm; discriminate Hm].
      rewrite (means_plain _ _ _ _ _ op a b Ha) in E.
      destruct (perform_sound a b S) as (c & Hc & Sc); [intros s; apply (C op a); [now left|exact Ha]|]. rewrite Hc in E. discriminate E.
    - exfalso. destruct (plain_cases srt compile parse_float today ploop op b) as [[a Ha]|Hm]; [|rewrite E in Hm; discriminate Hm].
      rewrite (means_plain _ _ _ _ _ op a b Ha) in E.
      destruct (perform_sound a b S) as (c & Hc & Sc); [intros s; apply (C op a); [now left|exact Ha]|]. rewrite Hc in E. discriminate E.
    - exfalso. destruct (plain_cases srt compile parse_float today ploop op b) as [[a Ha]|Hm]; [|rewrite E in Hm; discriminate Hm].
      rewrite (means_plain _ _ _ _ _ op a b Ha) in E.
      destruct (perform_sound a b S) as (c & Hc & Sc); [intros s; apply (C op a); [now left|exact Ha]|]. rewrite Hc in E. discriminate E.
  Qed.
End Prices.

(** ** The loop over the prices *)
Section Del.
  Context {K V : Type} (eqb : K -> K -> bool).
  Hypothesis eqb_ok : forall a b, eqb a b = true <-> a = b.
  Lemma akeys_adel_in k x (m : list (K * V)) : In x (akeys (adel eqb k m)) -> In x (akeys m).
  Proof.
    unfold akeys. induction m as [|[k' v] m IH]; [auto|]. cbn. destruct (eqb k' k); [now right|]. intros [<-|H]; [now left|right; now apply IH].
  Qed.
  Lemma adel_NoDup k (m : list (K * V)) : NoDup (akeys m) -> NoDup (akeys (adel eqb k m)).
  Proof.
    induction m as [|[k' v] m IH]; intros H; [constructor|]. cbn in H. apply NoDup_cons_iff in H as [H1 H2]. cbn.
    destruct (eqb k' k); [exact H2|]. cbn. constructor; [|now apply IH]. intros I. apply H1. now apply akeys_adel_in in I.
  Qed.
  Lemma aget_adel_eq k (m : list (K * V)) : NoDup (akeys m) -> aget eqb k (adel eqb k m) = None.
  Proof.
    induction m as [|[k' v] m IH]; intros H; [reflexivity|]. cbn in H. apply NoDup_cons_iff in H as [H1 H2]. cbn.
    destruct (eqb k' k) eqn:E.
    - apply eqb_ok in E as ->. now apply (aget_None eqb eqb_ok).
    - cbn. rewrite E. now apply IH.
  Qed.
  Lemma aget_adel_neq k x (m : list (K * V)) : x <> k -> aget eqb x (adel eqb k m) = aget eqb x m.
  Proof.
    intros N. induction m as [|[k' v] m IH]; [reflexivity|]. cbn. destruct (eqb k' k) eqn:E.
    - apply eqb_ok in E as ->. destruct (eqb k x) eqn:E2; [apply eqb_ok in E2; congruence|reflexivity].
    - cbn. destruct (eqb k' x); [reflexivity|exact IH].
  Qed.
  Lemma in_keys_get k (m : list (K * V)) : In k (map fst m) <-> aget eqb k m <> None.
  Proof.
    destruct (aget eqb k m) as [v|] eqn:E.
    - split; [discriminate|]. intros _. apply (aget_In eqb eqb_ok) in E. apply (in_map fst) in E. exact E.
    - apply (aget_None eqb eqb_ok) in E. split; [contradiction|congruence].
  Qed.
End Del.
Lemma pair_eqb_refl k : pair_eqb k k = true.
Proof. now apply pair_eqb_eq. Qed.
Lemma in_without x k l : In x (without k l) <-> In x l /\ x <> k.
Proof.
  unfold without. rewrite filter_In, negb_true_iff. split; intros [H N]; split; try assumption.
  - intros ->. rewrite pair_eqb_refl in *. discriminate.
  - destruct (pair_eqb k x) eqn:E; [|reflexivity]. apply pair_eqb_eq in E. congruence.
Qed.

Section Loop.
  Variable f : pair -> pair.
  Hypothesis idem : forall k, f (f k) = f k.
  Variable m0 : pbook.

  (** Invariant: entries hold lists of keys that go there or of themselves; every original key is either still there
      and to be produced, or its image is there. *)
  Definition from (k : pair) (pl : pricelist) : Prop := exists k0, (k0 = k \/ f k0 = k) /\ aget pair_eqb k0 m0 = Some pl.
  Definition inv (must seen : list pair) (m : pbook) : Prop :=
    NoDup (akeys m)
    /\ (forall k pl, aget pair_eqb k m = Some pl -> from k pl)
    /\ (forall k, f k <> k -> (In k must <-> aget pair_eqb k m <> None))
    /\ (forall k, aget pair_eqb k m0 <> None -> In k must \/ aget pair_eqb (f k) m <> None).

  Lemma loop_inv must seen m m' : price_loop f must seen m m' -> inv must seen m -> exists seen', inv [] seen' m'.
  Proof.
    induction 1 as [seen m|must seen m m' k pl Hk Hs Hf _ IH|must seen m m' k pl Hk Hs Hf _ IH]; intros (I0 & I1 & I2 & I4).
    - exists seen. exact (conj I0 (conj I1 (conj I2 I4))).
    - apply IH. split; [exact I0|]. split; [exact I1|]. split.
      + intros x Hx. rewrite in_without. rewrite (I2 x Hx). split; [tauto|]. intros H. split; [exact H|congruence].
      + intros x Hx. destruct (I4 x Hx) as [H|H]; [|now right].
        destruct (pair_eqb x k) eqn:E.
        * apply pair_eqb_eq in E as ->. right. rewrite Hf, Hk. discriminate.
        * left. apply in_without. split; [exact H|]. intros ->. rewrite pair_eqb_refl in E. discriminate.
    - assert (get : forall x, aget pair_eqb x (adel pair_eqb k (aset pair_eqb (f k) pl m)) =
                    if pair_eqb x k then None else if pair_eqb x (f k) then Some pl else aget pair_eqb x m).
      { intros x. destruct (pair_eqb x k) eqn:E.
        - apply pair_eqb_eq in E as ->. apply (aget_adel_eq _ pair_eqb_eq). now apply (aset_NoDup _ pair_eqb_eq).
        - rewrite (aget_adel_neq _ pair_eqb_eq) by (intros ->; rewrite pair_eqb_refl in E; discriminate).
          destruct (pair_eqb x (f k)) eqn:E2.
          + apply pair_eqb_eq in E2 as ->. apply (aget_aset_eq _ pair_eqb_eq).
          + apply (aget_aset_neq _ pair_eqb_eq). intros ->. rewrite pair_eqb_refl in E2. discriminate. }
      apply IH. split; [apply adel_NoDup, (aset_NoDup _ pair_eqb_eq); exact I0|]. split; [|split].
      + intros x pl' Hx. rewrite get in Hx. destruct (pair_eqb x k) eqn:E; [discriminate|]. destruct (pair_eqb x (f k)) eqn:E2; [|now apply I1].
        injection Hx as <-. apply pair_eqb_eq in E2 as ->. destruct (I1 k pl Hk) as (k0 & [->|Hk0] & G).
        * exists k. split; [now right|exact G].
        * exfalso. apply Hf. rewrite <- Hk0. apply idem.
      + intros x Hx. rewrite get, in_without. destruct (pair_eqb x k) eqn:E.
        * apply pair_eqb_eq in E as ->. split; [tauto|congruence].
        * destruct (pair_eqb x (f k)) eqn:E2; [apply pair_eqb_eq in E2 as ->; rewrite idem in Hx; congruence|].
          rewrite (I2 x Hx). split; [tauto|]. intros H. split; [exact H|]. intros ->. rewrite pair_eqb_refl in E. discriminate.
      + intros x Hx. rewrite get. destruct (pair_eqb (f x) k) eqn:E.
        { apply pair_eqb_eq in E. exfalso. apply Hf. rewrite <- E. apply idem. }
        destruct (pair_eqb (f x) (f k)) eqn:E2; [right; discriminate|].
        destruct (I4 x Hx) as [H|H]; [|now right]. left. apply in_without. split; [exact H|]. intros ->.
        rewrite pair_eqb_refl in E2. discriminate.
  Qed.

  (** with a renaming that does not rename its own results: every entry ends up under its new name, one of those that
      go there survives, nothing else is there *)
  Lemma loop_result m' : NoDup (map fst m0) -> loop_prices f m0 m' ->
    (forall k pl, aget pair_eqb k m' = Some pl -> exists k0, f k0 = k /\ aget pair_eqb k0 m0 = Some pl)
    /\ (forall k0, aget pair_eqb k0 m0 <> None -> aget pair_eqb (f k0) m' <> None).
  Proof.
    intros ND H. destruct (loop_inv _ _ _ _ H) as (seen & I0 & I1 & I2 & I4).
    { split; [exact ND|]. split; [|split].
      - intros k pl G. exists k. split; [now left|exact G].
      - intros k _. apply (in_keys_get _ pair_eqb_eq).
      - intros k Hk. left. apply (in_keys_get _ pair_eqb_eq). exact Hk. }
    split.
    - intros k pl G. destruct (I1 k pl G) as (k0 & [->|E] & G0); [|exists k0; now split].
      exists k. split; [|exact G0]. destruct (pair_eqb (f k) k) eqn:E; [now apply pair_eqb_eq in E|].
      assert (N : f k <> k) by (intros N; apply pair_eqb_eq in N; congruence). apply I2 in N. exfalso. apply N. congruence.
    - intros k0 Hk. destruct (I4 k0 Hk) as [[]|Hk']. exact Hk'.
  Qed.
End Loop.
(** some run exists: produce the entries of the start in any order and none of the created ones *)
Lemma without_notin k l : ~ In k l -> without k l = l.
Proof.
  intros H. unfold without. apply filter_all. rewrite Forall_forall. intros x Hx. apply negb_true_iff. destruct (pair_eqb k x) eqn:E; [|reflexivity].
  apply pair_eqb_eq in E as ->. contradiction.
Qed.
Lemma loop_exists f : forall must seen m, NoDup must -> NoDup (akeys m) -> (forall k, In k must -> aget pair_eqb k m <> None /\ ~ In k seen) ->
  exists m', price_loop f must seen m m'.
Proof.
  induction must as [|k must IH]; intros seen m ND NM H; [exists m; constructor|].
  apply NoDup_cons_iff in ND as [N1 N2]. destruct (H k (or_introl eq_refl)) as [Hk Hs].
  destruct (aget pair_eqb k m) as [pl|] eqn:G; [|congruence].
  assert (W : without k (k :: must) = must).
  { unfold without. cbn [filter]. rewrite pair_eqb_refl. cbn [negb]. now apply without_notin. }
  destruct (pair_eqb (f k) k) eqn:E.
  - apply pair_eqb_eq in E. destruct (IH (k :: seen) m N2 NM) as [m' R].
    { intros x Hx. destruct (H x (or_intror Hx)) as [A B]. split; [exact A|]. intros [->|I]; contradiction. }
    exists m'. eapply pl_keep; [exact G|exact Hs|exact E|]. now rewrite W.
  - assert (Nf : f k <> k) by (intros Q; apply pair_eqb_eq in Q; congruence).
    destruct (IH seen (adel pair_eqb k (aset pair_eqb (f k) pl m)) N2) as [m' R].
    { apply adel_NoDup, (aset_NoDup _ pair_eqb_eq); exact NM. }
    { intros x Hx. destruct (H x (or_intror Hx)) as [A B]. split; [|exact B].
      rewrite (aget_adel_neq _ pair_eqb_eq) by (intros ->; contradiction).
      destruct (pair_eqb x (f k)) eqn:E2.
      - apply pair_eqb_eq in E2 as ->. rewrite (aget_aset_eq _ pair_eqb_eq). discriminate.
      - rewrite (aget_aset_neq _ pair_eqb_eq); [exact A|]. intros ->. rewrite pair_eqb_refl in E2. discriminate. }
    exists m'. eapply pl_move; [exact G|exact Hs|exact Nf|]. now rewrite W.
Qed.
Lemma loop_prices_exists f m : NoDup (map fst m) -> exists m', loop_prices f m m'.
Proof.
  intros ND. apply loop_exists; [exact ND|exact ND|]. intros k Hk. split; [|auto]. now apply (in_keys_get _ pair_eqb_eq).
Qed.
