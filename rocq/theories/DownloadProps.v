(** * DownloadProps: C57 (synchronising), C58 (throttling), C79 (paging ends), C80 (tokens). *)
From Verif Require Import Base DownloadModel DownloadSpec.

(** ** Throttler *)
Lemma throttle_spec min last now : 0 <= min ->
  (last + min <= now /\ throttle min last now = (None, now)) \/
  (now < last + min /\ throttle min last now = (Some (last + min - now), last + min)).
Proof.
  intros Hm. unfold throttle. destruct (Z.ltb_spec 0 (last + min - now)) as [H|H].
  - right. split; [lia|]. f_equal. lia.
  - left. split; [lia|reflexivity].
Qed.

Lemma schedule_from min last l : 0 <= min -> schedule min last l ->
  forall k r, nth_error l k = Some r -> last + min * (Z.of_nat k + 1) <= rq_out r.
Proof.
  intros Hm H. induction H as [|last last' r l wait Ht Ho Hl Hw Hn H IH]; intros k r0 Hk; [destruct k; discriminate|].
  destruct (throttle_spec min last (rq_now r) Hm) as [(Hc & E)|(Hc & E)]; rewrite E in Ht; injection Ht as <- <-.
  - destruct k as [|k]; [cbn in Hk; injection Hk as <-; lia|]. apply IH in Hk. nia.
  - destruct k as [|k]; [cbn in Hk; injection Hk as <-; lia|]. apply IH in Hk. nia.
Qed.

(** C58: the k-th request after a request leaves the throttler at least [k * min] later, less what the first overslept. *)
Theorem C58_spacing_partial : forall min last l i k r r',
  0 <= min -> schedule min last l -> nth_error l i = Some r -> nth_error l (i + k) = Some r' ->
  rq_out r' >= rq_out r + min * Z.of_nat k - rq_late r.
Proof.
  intros min last l i k r r' Hm H. revert i. induction H as [|last last' r0 l wait Ht Ho Hl Hw Hn H IH]; intros i Hi Hk; [destruct i; discriminate|].
  destruct i as [|i]; [|apply (IH i); assumption]. cbn in Hi. injection Hi as ->.
  destruct k as [|k]; [cbn in Hk; injection Hk as <-; lia|]. cbn in Hk.
  pose proof (schedule_from min last' l Hm H k r' Hk).
  destruct (throttle_spec min last (rq_now r) Hm) as [(Hc & E)|(Hc & E)]; rewrite E in Ht; injection Ht as <- <-; lia.
Qed.

(** C58: with punctual sleeps successive requests are at least [min] apart. *)
Theorem C58_punctual : forall min last l i r r',
  0 <= min -> schedule min last l -> (forall q, In q l -> rq_late q = 0) ->
  nth_error l i = Some r -> nth_error l (S i) = Some r' -> rq_out r' >= rq_out r + min.
Proof.
  intros min last l i r r' Hm H Hp Hi Hi'. pose proof (C58_spacing_partial min last l i 1 r r' Hm H Hi) as S.
  rewrite Nat.add_comm in S. specialize (S Hi'). rewrite (Hp r) in S by (eapply nth_error_In; exact Hi). lia.
Qed.

(** C58: a request is not delayed when the previous one left the throttler at least [min] before, and no request is
    made to sleep for longer than [min]. *)
Theorem C58_not_delayed : forall min last l r r' l',
  0 <= min -> schedule min last (l ++ r :: r' :: l') ->
  (rq_out r + min <= rq_now r' -> rq_out r' = rq_now r') /\
  rq_out r' - rq_now r' <= min + rq_late r'.
Proof.
  intros min last l r r' l' Hm H. revert last H. induction l as [|x l IH]; intros last H.
  - cbn in H. inversion H as [|? last1 ? ? wait Ht Ho Hl Hw Hn H1]; subst.
    assert (Hle : last1 <= rq_out r).
    { destruct (throttle_spec min last (rq_now r) Hm) as [(Hc & E)|(Hc & E)]; rewrite E in Ht; injection Ht as <- <-; lia. }
    inversion H1 as [|? last2 ? ? wait' Ht' Ho' Hl' Hw' Hn' H2]; subst.
    destruct (throttle_spec min last1 (rq_now r') Hm) as [(Hc & E)|(Hc & E)]; rewrite E in Ht'; injection Ht' as <- <-.
    + specialize (Hw' eq_refl). lia.
    + lia.
  - cbn in H. inversion H as [|? last1 ? ? wait Ht Ho Hl Hw Hn H1]; subst. apply (IH _ H1).
Qed.

(** C58 refuted: a sleep that lasts too long makes the next distance too short. *)
Theorem C58_spacing_refuted : exists r r',
  schedule 100 0 [mkRq 1000 1000 0; r; r'] /\ rq_out r' - rq_out r = 50.
Proof.
  exists (mkRq 1010 1150 50), (mkRq 1150 1200 0). split; [|reflexivity].
  eapply sch_cons; [reflexivity|reflexivity|cbn; lia|reflexivity|cbn; lia|].
  eapply sch_cons; [reflexivity|reflexivity|cbn; lia|discriminate|cbn; lia|].
  eapply sch_cons; [reflexivity|reflexivity|cbn; lia|discriminate|exact I|]. apply sch_nil.
Qed.

(** ** Monzo *)
Lemma aset_keeps {V} k v (m : list (str * V)) id : In id (akeys m) -> In id (akeys (aset str_eqb k v m)).
Proof. intros H. rewrite akeys_aset. destruct (existsb _ _); [exact H|]. apply in_or_app. left. exact H. Qed.

Section Monzo.
  Variable parse : str -> option Z.
  Variable limit : nat.
  Variable days_ago : Z.
  Notation store := (store parse).
  Notation get_all := (get_all parse limit days_ago).
  Notation time := (time parse).
  Notation not_older := (not_older parse).

  Lemma store_keeps l : forall m c m' r, store m c l = (m', r) ->
    (forall id, In id (akeys m) -> In id (akeys m')) /\
    (forall id t, aget str_eqb id m' = Some t -> aget str_eqb id m = Some t \/ (In t l /\ tx_id t = id)).
  Proof.
    induction l as [|t l IH]; intros m c m' r H; cbn in H.
    - injection H as <- <-. auto.
    - assert (G : forall id x, aget str_eqb id (aset str_eqb (tx_id t) t m) = Some x -> aget str_eqb id m = Some x \/ (In x (t :: l) /\ tx_id x = id)).
      { intros id x. destruct (str_eq_dec id (tx_id t)) as [->|E].
        - rewrite (aget_aset_eq _ str_eqb_eq). intros H0. injection H0 as <-. right. split; [left; reflexivity|reflexivity].
        - rewrite (aget_aset_neq _ str_eqb_eq) by exact E. auto. }
      destruct (parse (tx_created t)) as [tm|].
      + apply IH in H as [H1 H2]. split; [intros id Hi; apply H1; apply aset_keeps; exact Hi|].
        intros id x Hx. apply H2 in Hx as [Hx|[Hx Hy]]; [apply G; exact Hx|right; split; [right; exact Hx|exact Hy]].
      + injection H as <- <-. split; [intros id Hi; apply aset_keeps; exact Hi|exact G].
  Qed.

  Lemma get_all_keeps fuel : forall server n since m m' r, get_all fuel server n since m = (m', r) ->
    (forall id, In id (akeys m) -> In id (akeys m')) /\
    (forall id t, aget str_eqb id m' = Some t ->
       aget str_eqb id m = Some t \/ exists k s l, server k s = Page l /\ In t l /\ tx_id t = id).
  Proof.
    induction fuel as [|fuel IH]; intros server n since m m' r H.
    - cbn in H. injection H as <- <-. auto.
    - cbn [DownloadModel.get_all] in H.
      assert (Hx : exists k s n1, ask days_ago server n since = (server k s, n1)).
      { unfold ask. destruct since as [s|]; [repeat eexists|]. destruct (server n None) eqn:E; [repeat eexists| |]; exists n, None, (S n); rewrite E; reflexivity. }
      destruct Hx as (k & s & n1 & Hx). rewrite Hx in H.
      destruct (server k s) as [| |l] eqn:E; [injection H as <- <-; auto..|].
      destruct l as [|t l]; [injection H as <- <-; auto|]. destruct (store m zero_time (t :: l)) as [m1 r1] eqn:Es.
      pose proof (store_keeps _ _ _ _ _ Es) as [K1 K2].
      assert (G : forall id u, aget str_eqb id m1 = Some u ->
        aget str_eqb id m = Some u \/ exists k s l, server k s = Page l /\ In u l /\ tx_id u = id).
      { intros id u Hu. apply K2 in Hu as [Hu|Hu]; [auto|]. right. exists k, s, (t :: l). auto. }
      destruct r1 as [c|]; [|injection H as <- <-; auto].
      destruct (Nat.ltb _ _); [injection H as <- <-; auto|].
      apply IH in H as [H1 H2]. split; [auto|]. intros id u Hu. apply H2 in Hu as [Hu|Hu]; [apply G; exact Hu|auto].
  Qed.

  Lemma all_accounts_keeps fuel servers accts : forall m m' r, all_accounts parse limit days_ago fuel servers accts m = (m', r) ->
    (forall id, In id (akeys m) -> In id (akeys m')) /\
    (forall id t, aget str_eqb id m' = Some t ->
       aget str_eqb id m = Some t \/ exists a k s l, In a accts /\ servers a k s = Page l /\ In t l /\ tx_id t = id).
  Proof.
    induction accts as [|a accts IH]; intros m m' r H; cbn in H.
    - injection H as <- <-. auto.
    - destruct (get_all fuel (servers a) 0%nat None m) as [m1 r1] eqn:E. apply get_all_keeps in E as [K1 K2].
      assert (G : forall id t, aget str_eqb id m1 = Some t ->
        aget str_eqb id m = Some t \/ exists a0 k s l, In a0 (a :: accts) /\ servers a0 k s = Page l /\ In t l /\ tx_id t = id).
      { intros id t Ht. apply K2 in Ht as [Ht|(k & s & l & Ht)]; [auto|]. right. exists a, k, s, l. split; [left; reflexivity|exact Ht]. }
      destruct r1 as [[]| | |]; try (injection H as <- <-; auto).
      apply IH in H as [H1 H2]. split; [auto|]. intros id t Ht.
      apply H2 in Ht as [Ht|(a0 & k & s & l & Ha & Ht)]; [apply G; exact Ht|]. right. exists a0, k, s, l. split; [right; exact Ha|exact Ht].
  Qed.

  (** Completeness of paging. *)
  Lemma store_all l : forall m c m' r, store m c l = (m', r) ->
    (forall x, In x l -> exists t, created_at parse x t) -> NoDup (map tx_id l) ->
    exists c', r = Some c' /\ c <= c' /\ (forall x, In x l -> time x <= c') /\
      (c' = c \/ exists x, In x l /\ time x = c') /\
      (forall x, In x l -> aget str_eqb (tx_id x) m' = Some x) /\
      (forall id, ~ In id (map tx_id l) -> aget str_eqb id m' = aget str_eqb id m).
  Proof.
    induction l as [|x l IH]; intros m c m' r H Ht Hnd; cbn in H.
    - injection H as <- <-. exists c. repeat split; auto; try lia; intros ? [].
    - destruct (Ht x) as (t & Hx); [left; reflexivity|]. unfold created_at in Hx. rewrite Hx in H.
      inversion Hnd as [|? ? Hn1 Hn2]; subst.
      apply IH in H as (c' & -> & H1 & H2 & H3 & H4 & H5); [|intros y Hy; apply Ht; right; exact Hy|exact Hn2].
      assert (Ex : time x = t) by (unfold DownloadSpec.time; rewrite Hx; reflexivity).
      exists c'. split; [reflexivity|]. destruct (Z.ltb_spec c t) as [Hc|Hc].
      + split; [lia|]. split; [intros y [<-|Hy]; [lia|auto]|]. split.
        * right. destruct H3 as [->|(y & Hy & E)]; [exists x; split; [left; reflexivity|exact Ex]|exists y; split; [right; exact Hy|exact E]].
        * split; [intros y [<-|Hy]; [rewrite H5 by exact Hn1; apply (aget_aset_eq _ str_eqb_eq)|auto]|].
          intros id Hid. rewrite H5 by (intros C; apply Hid; right; exact C). apply (aget_aset_neq _ str_eqb_eq). intros C. apply Hid. left. auto.
      + split; [lia|]. split; [intros y [<-|Hy]; [lia|auto]|]. split.
        * destruct H3 as [->|(y & Hy & E)]; [left; reflexivity|right; exists y; split; [right; exact Hy|exact E]].
        * split; [intros y [<-|Hy]; [rewrite H5 by exact Hn1; apply (aget_aset_eq _ str_eqb_eq)|auto]|].
          intros id Hid. rewrite H5 by (intros C; apply Hid; right; exact C). apply (aget_aset_neq _ str_eqb_eq). intros C. apply Hid. left. auto.
  Qed.

  Lemma in_firstn_l {A} n (l : list A) x : In x (firstn n l) -> In x l.
  Proof. intros H. rewrite <- (firstn_skipn n l). apply in_or_app. left. exact H. Qed.
  Lemma NoDup_firstn {A} n (l : list A) : NoDup l -> NoDup (firstn n l).
  Proof. revert n. induction l as [|x l IH]; intros [|n] H; cbn; try constructor; inversion H; subst; [intros C; apply in_firstn_l in C; contradiction|auto]. Qed.
  Lemma NoDup_map_filter {A B} (f : A -> B) g l : NoDup (map f l) -> NoDup (map f (filter g l)).
  Proof.
    induction l as [|x l IH]; cbn; intros H; [constructor|]. inversion H as [|? ? H1 H2]; subst.
    destruct (g x); cbn; [constructor|]; auto. intros C. apply H1. apply in_map_iff in C as (y & <- & C). apply in_map. apply filter_In in C as [C _]. exact C.
  Qed.

  Section Run.
    Variable h : list tx.
    Hypothesis Hh : history parse h.
    Variable server : nat -> option Z -> answer.
    Hypothesis Hs : forall n s, server n (Some s) = Page (firstn limit (filter (not_older (Some s)) h)).

    Lemma page_facts since l : l = firstn limit (filter (not_older since) h) ->
      (forall x, In x l -> In x h /\ not_older since x = true) /\
      NoDup (map tx_id l) /\ (forall x, In x l -> exists t, created_at parse x t) /\
      (forall x, In x h -> not_older since x = true -> In x l \/ (length l = limit /\ forall y, In y l -> time y <= time x)).
    Proof.
      intros ->. destruct Hh as [H1 H2 H3]. split; [|split; [|split]].
      - intros x H. apply in_firstn_l, filter_In in H. exact H.
      - rewrite <- firstn_map. apply NoDup_firstn. apply NoDup_map_filter. exact H1.
      - intros x H. apply in_firstn_l, filter_In in H as [H _]. destruct (H2 x H) as (t & Ht & _). eauto.
      - intros x Hx Hn. assert (Hin : In x (filter (not_older since) h)) by (apply filter_In; auto).
        rewrite <- (firstn_skipn limit (filter (not_older since) h)) in Hin. apply in_app_or in Hin as [Hin|Hin]; [left; exact Hin|].
        right. split.
        + apply firstn_length_le. destruct (Nat.le_gt_cases limit (length (filter (not_older since) h))) as [C|C]; [exact C|].
          rewrite skipn_all2 in Hin by lia. destruct Hin.
        + intros y Hy. pose proof (StronglySorted_filter _ (not_older since) _ H3) as Hsort.
          rewrite <- (firstn_skipn limit (filter (not_older since) h)) in Hsort. apply StronglySorted_app in Hsort as (_ & _ & Hsort). auto.
    Qed.

    (** [scope]: the transactions asked for. *)
    Lemma same_id x y : In x h -> In y h -> tx_id x = tx_id y -> x = y.
    Proof.
      intros Hx Hy E. destruct Hh as [H1 _ _]. clear Hs. induction h as [|z l IH]; [destruct Hx|].
      cbn in H1. inversion H1 as [|? ? N1 N2]; subst.
      destruct Hx as [->|Hx], Hy as [->|Hy]; [reflexivity| | |].
      - exfalso. apply N1. rewrite E. apply in_map. exact Hy.
      - exfalso. apply N1. rewrite <- E. apply in_map. exact Hx.
      - destruct Hh as [_ A B]. apply IH; try assumption.
        split; [exact N2|intros w Hw; apply A; right; exact Hw|inversion B; assumption].
    Qed.

    Definition done_upto (lo since : option Z) (m : list (str * tx)) : Prop :=
      forall x, In x h -> not_older lo x = true -> not_older since x = false -> aget str_eqb (tx_id x) m = Some x.

    Lemma to_second_le t : to_second t <= t < to_second t + second.
    Proof. unfold to_second, second. pose proof (Z.mod_pos_bound t 1000000000). pose proof (Z.div_mod t 1000000000). lia. Qed.

    (** One page of a run that did not see 403. *)
    Lemma page_step lo since m l m' r c : done_upto lo since m ->
      l = firstn limit (filter (not_older since) h) -> store m zero_time l = (m', r) -> r = Some c ->
      (Nat.ltb (length l) limit = true -> done_upto lo since m' /\ forall x, In x h -> not_older since x = true -> aget str_eqb (tx_id x) m' = Some x) /\
      done_upto lo (Some (to_second (c - 60 * second))) m'.
    Proof.
      intros Hd El Es Er. destruct (page_facts since l El) as (P1 & P2 & P3 & P4).
      destruct (store_all _ _ _ _ _ Es P3 P2) as (c' & Er' & S1 & S2 & S3 & S4 & S5). rewrite Er in Er'. injection Er' as <-.
      assert (Hold : done_upto lo since m').
      { intros x Hx Hlo Hn. destruct (in_dec str_eq_dec (tx_id x) (map tx_id l)) as [Hi|Hi].
        - apply in_map_iff in Hi as (y & Ey & Hy). destruct (P1 y Hy) as [Hyh _]. rewrite <- (same_id y x Hyh Hx Ey). apply S4. exact Hy.
        - rewrite S5 by exact Hi. apply Hd; assumption. }
      split.
      - intros Hlt. apply Nat.ltb_lt in Hlt. split; [exact Hold|]. intros x Hx Hn. apply S4.
        destruct (P4 x Hx Hn) as [H|[H _]]; [exact H|lia].
      - intros x Hx Hlo Hn. destruct (not_older since x) eqn:E; [|apply Hold; assumption].
        apply S4. destruct (P4 x Hx E) as [H|[Hlen H]]; [exact H|]. exfalso.
        unfold DownloadSpec.not_older in Hn. apply Z.leb_gt in Hn. pose proof (to_second_le (c - 60 * second)).
        assert (Hc : c <= time x); [|unfold second in *; lia].
        destruct S3 as [->|(y & Hy & <-)]; [|auto]. destruct Hh as [_ A _]. destruct (A x Hx) as (t & Ht & Hz).
        unfold DownloadSpec.time. unfold created_at in Ht. rewrite Ht. exact Hz.
    Qed.

    Hypothesis Hlimit : (0 < limit)%nat.

    Lemma page_nil since x : firstn limit (filter (not_older since) h) = [] -> In x h -> not_older since x = true -> False.
    Proof.
      intros E Hx Hn. destruct (page_facts since _ eq_refl) as (_ & _ & _ & P4). rewrite E in P4.
      destruct (P4 x Hx Hn) as [[]|[C _]]. cbn in C. lia.
    Qed.

    Lemma get_all_complete fuel : forall n s lo m m', done_upto lo (Some s) m ->
      get_all fuel server n (Some s) m = (m', Ok tt) ->
      forall x, In x h -> not_older lo x = true -> aget str_eqb (tx_id x) m' = Some x.
    Proof.
      induction fuel as [|fuel IH]; intros n s lo m m' Hd H; [discriminate|].
      cbn [DownloadModel.get_all ask] in H. rewrite Hs in H.
      destruct (firstn limit (filter (not_older (Some s)) h)) as [|t0 l0] eqn:El.
      - injection H as <-. intros x Hx Hlo. destruct (not_older (Some s) x) eqn:E; [|apply Hd; assumption].
        exfalso. eapply page_nil; eassumption.
      - destruct (store m zero_time (t0 :: l0)) as [m1 r1] eqn:Es. destruct r1 as [c|]; [|discriminate].
        destruct (page_step lo (Some s) m (t0 :: l0) m1 (Some c) c Hd (eq_sym El) Es eq_refl) as [A B].
        destruct (Nat.ltb (length (t0 :: l0)) limit) eqn:Elt.
        + injection H as <-. destruct (A eq_refl) as [A1 A2]. intros x Hx Hlo. destruct (not_older (Some s) x) eqn:E; auto.
        + apply (IH _ _ lo _ _ B H).
    Qed.

    (** Every page drops at least one transaction from what is still asked for. *)
    Definition pending (since : option Z) : nat := length (filter (not_older since) h).

    Lemma filter_le {A} (f g : A -> bool) (l : list A) : (forall x, In x l -> f x = true -> g x = true) ->
      (length (filter f l) <= length (filter g l))%nat /\
      (forall x, In x l -> g x = true -> f x = false -> (length (filter f l) < length (filter g l))%nat).
    Proof.
      induction l as [|y l IH]; intros H; [split; [auto|intros x []]|].
      destruct IH as [I1 I2]; [intros x Hx; apply H; right; exact Hx|]. cbn.
      pose proof (H y (or_introl eq_refl)) as Hy.
      destruct (f y) eqn:Ef, (g y) eqn:Eg; cbn; try (specialize (Hy eq_refl); discriminate).
      - split; [lia|]. intros x [<-|Hx] Hg Hf; [congruence|]. specialize (I2 x Hx Hg Hf). lia.
      - split; [lia|]. intros x [<-|Hx] Hg Hf; lia.
      - split; [lia|]. intros x [<-|Hx] Hg Hf; [congruence|]. specialize (I2 x Hx Hg Hf). lia.
    Qed.

    Hypothesis Hsparse : sparse parse limit h.
    Lemma pending_drops since m l m' c : l = firstn limit (filter (not_older since) h) ->
      store m zero_time l = (m', Some c) -> Nat.ltb (length l) limit = false ->
      (pending (Some (to_second (c - 60 * second))) < pending since)%nat.
    Proof.
      intros El Es Hlt. apply Nat.ltb_ge in Hlt. destruct (page_facts since l El) as (P1 & P2 & P3 & P4).
      destruct (store_all _ _ _ _ _ Es P3 P2) as (c' & Er' & S1 & S2 & S3 & S4 & S5). injection Er' as <-.
      set (s' := to_second (c - 60 * second)). pose proof (to_second_le (c - 60 * second)) as Hs'. fold s' in Hs'. clearbody s'.
      assert (Hx : exists x, In x l /\ time x < s').
      { destruct (Exists_dec (fun x => time x < s') l) as [E|E].
        - intros x. apply Z_lt_dec.
        - apply Exists_exists in E. exact E.
        - exfalso. specialize (Hsparse s'). apply (Nat.lt_irrefl limit). eapply Nat.le_lt_trans; [|exact Hsparse].
          etransitivity; [exact Hlt|]. assert (Hnd : NoDup l) by (eapply NoDup_map_inv; exact P2).
          apply NoDup_incl_length; [exact Hnd|]. intros x Hx. apply filter_In. split; [apply P1; exact Hx|].
          apply andb_true_iff. split.
          + apply Z.leb_le. destruct (Z_lt_dec (time x) s') as [C|C]; [|lia]. exfalso. apply E. apply Exists_exists. eauto.
          + apply Z.ltb_lt. specialize (S2 x Hx). unfold second in *. lia. }
      destruct Hx as (x & Hx & Hxs). destruct (P1 x Hx) as [Hxh Hxn].
      unfold pending. assert (Hmono : forall y, In y h -> not_older (Some s') y = true -> not_older since y = true).
      { intros y Hy Hn. cbn in Hn. apply Z.leb_le in Hn. destruct since as [s|]; [|reflexivity]. cbn in *. apply Z.leb_le in Hxn. apply Z.leb_le. lia. }
      apply (filter_le _ _ h Hmono) with (x := x); auto. cbn. apply Z.leb_gt. lia.
    Qed.

    Lemma get_all_ends fuel : forall n s m, (pending (Some s) < fuel)%nat ->
      exists m', get_all fuel server n (Some s) m = (m', Ok tt).
    Proof.
      induction fuel as [|fuel IH]; intros n s m Hf; [lia|]. cbn [DownloadModel.get_all ask]. rewrite Hs.
      destruct (firstn limit (filter (not_older (Some s)) h)) as [|t0 l0] eqn:El; [eauto|].
      destruct (store m zero_time (t0 :: l0)) as [m1 r1] eqn:Es.
      destruct (page_facts (Some s) _ (eq_sym El)) as (P1 & P2 & P3 & P4).
      destruct (store_all _ _ _ _ _ Es P3 P2) as (c & -> & _).
      destruct (Nat.ltb (length (t0 :: l0)) limit) eqn:Elt; [eauto|].
      apply IH. pose proof (pending_drops (Some s) m _ m1 c (eq_sym El) Es Elt). lia.
    Qed.
  End Run.

  (** C57, Monzo: a completed run has stored every transaction of the account, as the server has it. *)
  Theorem C57_monzo_complete : forall h server fuel m m',
    (0 < limit)%nat -> history parse h ->
    (serves parse limit h server -> get_all fuel server 0%nat None m = (m', Ok tt) ->
       forall x, In x h -> aget str_eqb (tx_id x) m' = Some x) /\
    (serves_recent parse limit h server -> get_all fuel server 0%nat None m = (m', Ok tt) ->
       forall x, In x h -> days_ago <= time x -> aget str_eqb (tx_id x) m' = Some x).
  Proof.
    intros h server fuel m m' Hl Hh. split.
    - intros Hserve H x Hx. destruct fuel as [|fuel]; [discriminate|]. cbn [DownloadModel.get_all ask] in H. rewrite Hserve in H.
      destruct (firstn limit (filter (not_older None) h)) as [|t0 l0] eqn:El.
      + exfalso. eapply (page_nil h Hh Hl None x El Hx). reflexivity.
      + destruct (store m zero_time (t0 :: l0)) as [m1 r1] eqn:Es. destruct r1 as [c|]; [|discriminate].
        assert (Hd : done_upto h None None m) by (intros y _ _ C; discriminate).
        destruct (page_step h Hh None None m (t0 :: l0) m1 (Some c) c Hd (eq_sym El) Es eq_refl) as [A B].
        destruct (Nat.ltb (length (t0 :: l0)) limit) eqn:Elt.
        * injection H as <-. destruct (A eq_refl) as [_ A2]. auto.
        * eapply (get_all_complete h Hh server); [intros n s; apply Hserve|exact Hl|exact B|exact H|exact Hx|reflexivity].
    - intros [Hf Hserve] H x Hx Hd. destruct fuel as [|fuel]; [discriminate|]. cbn [DownloadModel.get_all ask] in H. rewrite Hf, Hserve in H.
      set (lo := to_second days_ago) in *. assert (Hlo : not_older (Some lo) x = true).
      { unfold DownloadSpec.not_older. apply Z.leb_le. pose proof (to_second_le days_ago) as Hsec. fold lo in Hsec. clearbody lo. lia. }
      destruct (firstn limit (filter (not_older (Some lo)) h)) as [|t0 l0] eqn:El.
      + exfalso. eapply (page_nil h Hh Hl (Some lo) x El Hx Hlo).
      + destruct (store m zero_time (t0 :: l0)) as [m1 r1] eqn:Es. destruct r1 as [c|]; [|discriminate].
        assert (Hdone : done_upto h (Some lo) (Some lo) m) by (intros y _ C1 C2; congruence).
        destruct (page_step h Hh (Some lo) (Some lo) m (t0 :: l0) m1 (Some c) c Hdone (eq_sym El) Es eq_refl) as [A B].
        destruct (Nat.ltb (length (t0 :: l0)) limit) eqn:Elt.
        * injection H as <-. destruct (A eq_refl) as [_ A2]. auto.
        * eapply (get_all_complete h Hh server); [exact Hserve|exact Hl|exact B|exact H|exact Hx|exact Hlo].
  Qed.

  (** C79: paging ends, after at most one request more than there are transactions, when fewer than a page of
      transactions happens in any 61 seconds. *)
  Theorem C79_paging_ends_partial : forall h server m,
    (0 < limit)%nat -> history parse h -> serves parse limit h server -> sparse parse limit h ->
    exists m', get_all (S (length h)) server 0%nat None m = (m', Ok tt).
  Proof.
    intros h server m Hl Hh Hserve Hsp. cbn [DownloadModel.get_all ask]. rewrite Hserve.
    destruct (firstn limit (filter (not_older None) h)) as [|t0 l0] eqn:El; [eauto|].
    destruct (store m zero_time (t0 :: l0)) as [m1 r1] eqn:Es.
    destruct (page_facts h Hh None _ (eq_sym El)) as (P1 & P2 & P3 & P4).
    destruct (store_all _ _ _ _ _ Es P3 P2) as (c & -> & _).
    destruct (Nat.ltb (length (t0 :: l0)) limit) eqn:Elt; [eauto|].
    eapply (get_all_ends h Hh server); try assumption; try (intros n s; apply Hserve).
    eapply Nat.lt_le_trans; [eapply (pending_drops h Hh) with (since := None) (m := m) (m' := m1) (c := c); [.. |exact (eq_sym El)|exact Es|exact Elt]; assumption|]. apply filter_length_le.
  Qed.

  (** C79 EXPECTED, refuted: a page of transactions at the same time is fetched again and again. *)
  Theorem C79_paging_ends_refuted : forall h server t m,
    (0 < limit <= length h)%nat -> history parse h -> serves parse limit h server -> (forall x, In x h -> created_at parse x t) ->
    forall fuel, snd (get_all fuel server 0%nat None m) = Diverge.
  Proof.
    intros h server t m Hl Hh Hserve Ht.
    assert (Hall : forall since, match since with None => True | Some s => s <= t end -> filter (not_older since) h = h).
    { intros since Hsince. apply filter_all. apply Forall_forall. intros x Hx. destruct since as [s|]; [|reflexivity].
      cbn. unfold DownloadSpec.time. specialize (Ht x Hx). unfold created_at in Ht. rewrite Ht. apply Z.leb_le. exact Hsince. }
    assert (G : forall fuel n since m, match since with None => True | Some s => s <= t end -> snd (get_all fuel server n since m) = Diverge).
    { induction fuel as [|fuel IH]; intros n since m0 Hsince; [reflexivity|]. cbn [DownloadModel.get_all].
      pose proof (Hall since Hsince) as Hf.
      assert (E : ask days_ago server n since = (Page (firstn limit h), S n)).
      { unfold ask. destruct since as [z|]; rewrite Hserve, Hf; reflexivity. }
      rewrite E. destruct (page_facts h Hh since (firstn limit h)) as (P1 & P2 & P3 & P4); [rewrite Hf; reflexivity|].
      assert (Hlen : length (firstn limit h) = limit) by (apply firstn_length_le; lia).
      destruct (firstn limit h) as [|t0 l0] eqn:El; [cbn in Hlen; lia|].
      destruct (store m0 zero_time (t0 :: l0)) as [m1 r1] eqn:Es.
      destruct (store_all _ _ _ _ _ Es P3 P2) as (c & -> & _ & _ & S3 & _).
      rewrite Hlen, Nat.ltb_irrefl. apply IH. pose proof (to_second_le (c - 60 * second)).
      assert (Hc : c <= t); [|unfold second in *; lia].
      assert (Htime : forall x, In x h -> time x = t) by (intros x Hx; unfold DownloadSpec.time; specialize (Ht x Hx); unfold created_at in Ht; rewrite Ht; reflexivity).
      destruct S3 as [->|(y & Hy & <-)].
      - destruct Hh as [_ A _]. assert (Hin : In t0 h) by (apply P1; left; reflexivity). destruct (A t0 Hin) as (t' & Ht' & Hz).
        specialize (Ht t0 Hin). unfold created_at in *. rewrite Ht in Ht'. injection Ht' as <-. exact Hz.
      - apply P1 in Hy as [Hy _]. rewrite (Htime y Hy). lia. }
    intros fuel. apply G. exact I.
  Qed.
End Monzo.

(** C57, Monzo: whatever the servers answer, for every account list, also when the synchronisation ends with an error:
    no transaction is forgotten and what is stored is what was stored before or what a server answered. *)
Theorem C57_monzo_keeps : forall parse limit days_ago fuel servers accts m m' r,
  all_accounts parse limit days_ago fuel servers accts m = (m', r) ->
  (forall id t, aget str_eqb id m = Some t -> exists t', aget str_eqb id m' = Some t') /\
  (forall id t, aget str_eqb id m' = Some t ->
     aget str_eqb id m = Some t \/ exists a k s l, In a accts /\ servers a k s = Page l /\ In t l /\ tx_id t = id).
Proof.
  intros parse limit days_ago fuel servers accts m m' r H. apply all_accounts_keeps in H as [H1 H2]. split; [|exact H2].
  intros id t Ht. destruct (aget str_eqb id m') as [t'|] eqn:E; [eauto|]. apply (aget_None _ str_eqb_eq) in E. exfalso. apply E. apply H1.
  apply (aget_In _ str_eqb_eq) in Ht. apply (in_map fst) in Ht. exact Ht.
Qed.

(** ** Starling *)
Lemma store_items_spec l : forall feed,
  (forall uid, In uid (akeys feed) -> In uid (akeys (store_items feed l))) /\
  (NoDup (map it_uid l) -> forall i, In i l -> aget str_eqb (it_uid i) (store_items feed l) = Some i) /\
  (forall uid, ~ In uid (map it_uid l) -> aget str_eqb uid (store_items feed l) = aget str_eqb uid feed).
Proof.
  induction l as [|i l IH]; intros feed; [repeat split; auto; intros _ ? []|].
  change (store_items feed (i :: l)) with (store_items (aset str_eqb (it_uid i) i feed) l).
  destruct (IH (aset str_eqb (it_uid i) i feed)) as (H1 & H2 & H3). split; [|split].
  - intros uid Hu. apply H1. apply aset_keeps. exact Hu.
  - intros Hnd j Hj. inversion Hnd as [|? ? N1 N2]; subst. destruct Hj as [<-|Hj]; [|auto].
    rewrite H3 by exact N1. apply (aget_aset_eq _ str_eqb_eq).
  - intros uid Hu. rewrite H3 by (intros C; apply Hu; right; exact C). apply (aget_aset_neq _ str_eqb_eq). intros C. apply Hu. left. auto.
Qed.

Lemma recent_in feed : feed <> [] -> exists kv, In kv feed /\ recent feed = it_updated (snd kv).
Proof.
  unfold recent. intros Hn.
  assert (G : forall l r, r = [] \/ (exists kv, In kv feed /\ r = it_updated (snd kv)) -> (forall kv, In kv l -> In kv feed) -> (l <> [] \/ exists kv, In kv feed /\ r = it_updated (snd kv)) ->
    exists kv, In kv feed /\ fold_left (fun r kv => if str_eqb r [] || str_ltb r (it_updated (snd kv)) then it_updated (snd kv) else r) l r = it_updated (snd kv)).
  { induction l as [|kv l IH]; intros r Hr Hi He; cbn.
    - destruct He as [He|He]; [contradiction|exact He].
    - assert (Hkv : In kv feed) by (apply Hi; left; reflexivity).
      assert (Hnew : exists kv0, In kv0 feed /\ (if str_eqb r [] || str_ltb r (it_updated (snd kv)) then it_updated (snd kv) else r) = it_updated (snd kv0)).
      { destruct (str_eqb r [] || str_ltb r (it_updated (snd kv))) eqn:E; [exists kv; auto|]. destruct Hr as [->|Hr]; [discriminate|exact Hr]. }
      apply IH; [right; exact Hnew|intros x Hx; apply Hi; right; exact Hx|right; exact Hnew]. }
  apply G; [left; reflexivity|auto|left; exact Hn].
Qed.

(** C57, Starling: nothing is forgotten; and if everything that changed on the server changed at [t] or later, while
    what is stored was current at [t], then after the synchronisation everything on the server is stored. *)
Theorem C57_starling : forall parse format all created server feed feed',
  sync_feed parse format all created server feed = Ok feed' ->
  (forall uid i, aget str_eqb uid feed = Some i -> exists i', aget str_eqb uid feed' = Some i') /\
  (forall t tc (now : list item),
     NoDup (map it_uid now) ->
     (* the server answers with the items updated since then; times are in UTC *)
     parse created = Some tc ->
     (forall x, parse (format x) = Some (to_second x)) ->
     (forall s ts, parse s = Some ts -> exists l, server s = Some l /\ NoDup (map it_uid l) /\
        forall i, In i l <-> In i now /\ exists u, parse (it_updated i) = Some u /\ ts <= u) ->
     (* all that is on the server was updated after the account was created *)
     (forall i, In i now -> exists u, parse (it_updated i) = Some u /\ tc <= u) ->
     (* what is stored was updated before t; what is on the server is stored, or was updated at t or later *)
     (forall uid i, aget str_eqb uid feed = Some i -> exists u, parse (it_updated i) = Some u /\ u <= t) ->
     NoDup (akeys feed) ->
     (forall i, In i now -> aget str_eqb (it_uid i) feed = Some i \/ exists u, parse (it_updated i) = Some u /\ t <= u) ->
     forall i, In i now -> aget str_eqb (it_uid i) feed' = Some i).
Proof.
  intros parse format all created server feed feed' H. unfold sync_feed in H.
  destruct (since_time parse format all created feed) as [since|] eqn:Es; [|discriminate].
  destruct (server since) as [l|] eqn:Ea; [|discriminate]. injection H as <-.
  destruct (store_items_spec l feed) as (K1 & K2 & K3). split.
  - intros uid i Hi. destruct (aget str_eqb uid (store_items feed l)) as [i'|] eqn:E; [eauto|].
    apply (aget_None _ str_eqb_eq) in E. exfalso. apply E. apply K1. apply (aget_In _ str_eqb_eq) in Hi. apply (in_map fst) in Hi. exact Hi.
  - intros t tc now Hnd Hc Hfmt Hserve Hafter Hstored Hnk Hcur i Hi.
    assert (Hts : exists ts, parse since = Some ts /\ (ts = tc \/ ts <= t)).
    { unfold since_time in Es. assert (Hf : feed = [] \/ feed <> []) by (destruct feed; [left; reflexivity|right; discriminate]).
      destruct Hf as [Ef|Ef].
      - rewrite Ef in Es. rewrite andb_false_r in Es. injection Es as <-. eauto.
      - destruct (negb all && negb (match feed with [] => true | _ => false end)).
        + destruct (parse (recent feed)) as [t0|] eqn:Ep; [|discriminate]. injection Es as <-.
          destruct (recent_in feed) as ([k j] & Hj & Er); [exact Ef|]. cbn in Er.
          assert (Hg : aget str_eqb k feed = Some j) by (apply (aget_Some_iff _ str_eqb_eq); assumption).
          destruct (Hstored k j Hg) as (u & Hu & Hle). rewrite Er, Hu in Ep. injection Ep as <-.
          destruct (str_ltb created (format (u - days20))); [|eauto]. rewrite Hfmt. eexists. split; [reflexivity|]. right.
          pose proof (to_second_le (u - days20)). unfold days20, second in *. lia.
        + injection Es as <-. eauto. }
    destruct Hts as (ts & Hp & Hts). destruct (Hserve since ts Hp) as (l' & E' & Hnl & Hl). rewrite Ea in E'. injection E' as <-.
    destruct (Hafter i Hi) as (u & Hu & Htc).
    destruct (Z_le_dec ts u) as [Hle|Hle].
    + apply K2; [exact Hnl|]. apply Hl. split; [exact Hi|]. eauto.
    + destruct Hts as [->|Hts]; [lia|]. destruct (Hcur i Hi) as [Hs|(u' & Hu' & Ht)]; [|rewrite Hu in Hu'; injection Hu' as <-; lia].
      rewrite K3; [exact Hs|]. intros C. apply in_map_iff in C as (j & Ej & Hj). apply Hl in Hj as (Hjn & uj & Huj & Hjle).
      assert (j = i); [|subst j; rewrite Hu in Huj; injection Huj as <-; lia].
      clear - Hnd Hjn Hi Ej. induction now as [|z now IH]; [destruct Hi|]. cbn in Hnd. inversion Hnd as [|? ? N1 N2]; subst.
      destruct Hjn as [->|Hjn], Hi as [->|Hi]; [reflexivity| | |auto].
      * exfalso. apply N1. rewrite Ej. apply in_map. exact Hi.
      * exfalso. apply N1. rewrite <- Ej. apply in_map. exact Hjn.
Qed.

(** ** Nordigen *)
Lemma store_booked_spec l : forall m u n m' u' n', store_booked m l u n = (m', u', n') ->
  (forall id, In id (akeys m) -> In id (akeys m')) /\
  (NoDup (map fst l) -> forall id d, In (id, d) l -> aget str_eqb id m' = Some d) /\
  (forall id, ~ In id (map fst l) -> aget str_eqb id m' = aget str_eqb id m) /\
  u' + n' = u + n + Z.of_nat (length l) /\ Z.of_nat (length m') = Z.of_nat (length m) + n' - n.
Proof.
  induction l as [|[id d] l IH]; intros m u n m' u' n' H; cbn [store_booked] in H.
  - injection H as <- <- <-. repeat split; auto; try (cbn; lia).
  - assert (Hlen : Z.of_nat (length (aset str_eqb id d m)) = Z.of_nat (length m) + match aget str_eqb id m with Some _ => 0 | None => 1 end).
    { clear. induction m as [|[k v] m IH]; cbn [aset aget length]; [reflexivity|]. destruct (str_eqb k id) eqn:E; cbn [length]; lia. }
    assert (G : exists u1 n1, store_booked (aset str_eqb id d m) l u1 n1 = (m', u', n') /\ u1 + n1 = u + n + 1 /\
      Z.of_nat (length (aset str_eqb id d m)) - n1 = Z.of_nat (length m) - n).
    { destruct (aget str_eqb id m); do 2 eexists; (split; [exact H|]); rewrite Hlen; lia. }
    destruct G as (u1 & n1 & H' & Hsum & Hl2). apply IH in H' as (A & B & C & D & E). split; [|split; [|split; [|split]]].
    + intros id0 H0. apply A. apply aset_keeps. exact H0.
    + intros Hnd id0 d0 [H0|H0]; inversion Hnd as [|? ? N1 N2]; subst; [|auto].
      injection H0 as <- <-. rewrite C by exact N1. apply (aget_aset_eq _ str_eqb_eq).
    + intros id0 H0. rewrite C by (intros X; apply H0; right; exact X). apply (aget_aset_neq _ str_eqb_eq). intros X. apply H0. left. auto.
    + cbn [length]. lia.
    + lia.
Qed.

Definition booked (d : list (str * list (str * str))) (acct id : str) : option str :=
  match aget str_eqb acct d with Some m => aget str_eqb id m | None => None end.

(** C57, Nordigen: nothing is forgotten, also when a request fails; after success all booked transactions of all
    accounts of the requisition are stored, everything else is as it was. *)
Theorem C57_nordigen : forall fetch accts d d' ok, refresh_accounts fetch accts d = (d', ok) ->
  (forall a id x, booked d a id = Some x -> exists y, booked d' a id = Some y) /\
  (forall a, ~ In a accts -> aget str_eqb a d' = aget str_eqb a d) /\
  (ok = true -> (forall a l, fetch a = Some l -> NoDup (map fst l)) -> forall a l id x,
     In a accts -> fetch a = Some l -> In (id, x) l -> booked d' a id = Some x).
Proof.
  intros fetch accts. induction accts as [|a accts IH]; intros d d' ok H; cbn [refresh_accounts] in H.
  - injection H as <- <-. split; [eauto|]. split; [auto|]. intros _ _ a l id x [].
  - set (m := match aget str_eqb a d with Some m => m | None => [] end) in H.
    assert (Hm : forall id, booked d a id = aget str_eqb id m) by (intros id; unfold booked, m; destruct (aget str_eqb a d); reflexivity).
    assert (Hother : forall m1 b id, b <> a -> booked (aset str_eqb a m1 d) b id = booked d b id) by
      (intros m1 b id E; unfold booked; rewrite (aget_aset_neq _ str_eqb_eq) by exact E; reflexivity).
    assert (Hself : forall m1 id, booked (aset str_eqb a m1 d) a id = aget str_eqb id m1) by
      (intros m1 id; unfold booked; rewrite (aget_aset_eq _ str_eqb_eq); reflexivity).
    destruct (fetch a) as [l|] eqn:Ef.
    + destruct (store_booked m l 0 0) as [[m1 u1] n1] eqn:Es. apply store_booked_spec in Es as (A & B & C & _ & _).
      apply IH in H as (I1 & I2 & I3). split; [|split].
      * intros b id x Hx. destruct (str_eq_dec b a) as [->|E].
        -- apply (I1 a id (match aget str_eqb id m1 with Some y => y | None => [] end)). rewrite Hself.
           destruct (aget str_eqb id m1) as [y|] eqn:Ey; [reflexivity|]. apply (aget_None _ str_eqb_eq) in Ey. exfalso. apply Ey. apply A.
           rewrite Hm in Hx. apply (aget_In _ str_eqb_eq) in Hx. apply (in_map fst) in Hx. exact Hx.
        -- apply (I1 b id x). rewrite Hother by exact E. exact Hx.
      * intros b Hb. rewrite I2 by (intros X; apply Hb; right; exact X). apply (aget_aset_neq _ str_eqb_eq). intros X. apply Hb. left. auto.
      * intros Hok Hnd b l0 id x Hb Hf Hx. destruct (in_dec str_eq_dec b accts) as [Hin|Hin].
        -- apply (I3 Hok Hnd b l0 id x Hin Hf Hx).
        -- destruct Hb as [<-|Hb]; [|contradiction]. rewrite Ef in Hf. injection Hf as <-.
           unfold booked. rewrite I2 by exact Hin. rewrite (aget_aset_eq _ str_eqb_eq). apply B; [apply (Hnd a l Ef)|exact Hx].
    + injection H as <- <-. split; [|split; [|discriminate]].
      * intros b id x Hx. exists x. destruct (str_eq_dec b a) as [->|E]; [rewrite Hself, <- Hm; exact Hx|rewrite Hother by exact E; exact Hx].
      * intros b Hb. apply (aget_aset_neq _ str_eqb_eq). intros X. apply Hb. left. auto.
Qed.

(** C80: the access token handed out has not expired, provided the lifetimes the server grants are not negative. *)
Theorem C80_token_valid_partial : forall answer_of tok now t,
  (forall q a, answer_of q = Some a -> 0 <= ta_access_exp a) ->
  get_token answer_of tok now = Ok t -> now <= tk_access_exp t.
Proof.
  intros answer_of tok now t Hpos H. unfold get_token in H.
  assert (G : forall a, answer_of NewToken = Some a ->
    now <= tk_access_exp (mkTok (ta_access a) (now + second * ta_access_exp a) (ta_refresh a) (now + second * ta_refresh_exp a))).
  { intros a Ea. apply Hpos in Ea. cbn [tk_access_exp]. change second with 1000000000. lia. }
  assert (Inj : forall x y : token, Ok x = Ok y -> x = y) by (intros x y E; injection E; auto).
  destruct tok as [t0|]; cbn [token_request] in H.
  - destruct (Z.ltb_spec (tk_access_exp t0) now) as [E|E].
    + destruct (answer_of NewToken) as [a|] eqn:Ea; [|discriminate]. apply Inj in H. subst t. apply G. reflexivity.
    + destruct (tk_refresh_exp t0 <? now).
      * destruct (answer_of (RefreshToken (tk_refresh t0))) as [a|]; [|discriminate]. apply Inj in H. subst t. exact E.
      * apply Inj in H. subst t. exact E.
  - destruct (answer_of NewToken) as [a|] eqn:Ea; [|discriminate]. apply Inj in H. subst t. apply G. reflexivity.
Qed.
(** C80: no request is made while both tokens are valid. *)
Theorem C80_no_needless_request : forall answer_of t now,
  now <= tk_access_exp t -> now <= tk_refresh_exp t ->
  token_request (Some t) now = NoRequest /\ get_token answer_of (Some t) now = Ok t.
Proof.
  intros answer_of t now H1 H2. unfold get_token, token_request.
  destruct (Z.ltb_spec (tk_access_exp t) now); [lia|]. destruct (Z.ltb_spec (tk_refresh_exp t) now); [lia|]. auto.
Qed.
(** C80 EXPECTED, refuted in every case: a refresh token is only ever sent after it has expired, and while the access
    token is still valid; when the server rejects it, no token is handed out at all. *)
Theorem C80_refresh_refuted :
  (forall t now r, token_request (Some t) now = RefreshToken r -> tk_refresh_exp t < now /\ now <= tk_access_exp t) /\
  (forall t now, tk_refresh_exp t < now -> now <= tk_access_exp t -> get_token (fun _ => None) (Some t) now = Error).
Proof.
  split.
  - intros t now r. unfold token_request. destruct (Z.ltb_spec (tk_access_exp t) now); [discriminate|].
    destruct (Z.ltb_spec (tk_refresh_exp t) now); [|discriminate]. auto.
  - intros t now H1 H2. unfold get_token, token_request. destruct (Z.ltb_spec (tk_access_exp t) now); [lia|].
    destruct (Z.ltb_spec (tk_refresh_exp t) now); [|lia]. reflexivity.
Qed.

Print Assumptions C57_monzo_keeps.
Print Assumptions C57_monzo_complete.
Print Assumptions C57_starling.
Print Assumptions C57_nordigen.
Print Assumptions C58_spacing_partial.
Print Assumptions C58_punctual.
Print Assumptions C58_not_delayed.
Print Assumptions C58_spacing_refuted.
Print Assumptions C79_paging_ends_partial.
Print Assumptions C79_paging_ends_refuted.
Print Assumptions C80_token_valid_partial.
Print Assumptions C80_refresh_refuted.

(** The hypotheses are met: a server with three transactions and pages of two. *)
Definition x_parse (s : str) : option Z := match s with [d] => Some (1600000000 * second + d * 100 * second) | _ => None end.
Definition x_tx (n : Z) : tx := mkTx [n] [n] (bs "{}").
Definition x_hist : list tx := [x_tx 1; x_tx 2; x_tx 3].
Definition x_server (n : nat) (since : option Z) : answer := Page (firstn 2 (filter (not_older x_parse since) x_hist)).
Lemma x_history : history x_parse x_hist.
Proof.
  split.
  - repeat constructor; cbn; intuition discriminate.
  - intros x [<-|[<-|[<-|[]]]]; eexists; (split; [reflexivity|vm_compute; discriminate]).
  - repeat constructor; vm_compute; discriminate.
Qed.
Lemma x_sparse : sparse x_parse 2 x_hist.
Proof.
  intros a. unfold x_hist, x_tx. cbn [filter]. unfold time, x_parse. cbn [tx_created]. unfold second.
  repeat match goal with |- context [Z.leb ?p ?q] => destruct (Z.leb_spec p q) end;
  repeat match goal with |- context [Z.ltb ?p ?q] => destruct (Z.ltb_spec p q) end; cbn; lia.
Qed.
Example ex79 : exists m', get_all x_parse 2 0 4 x_server 0 None [] = (m', Ok tt) /\ map fst m' = [[1]; [2]; [3]].
Proof.
  destruct (C79_paging_ends_partial x_parse 2 0 x_hist x_server []) as (m' & H);
    [lia|exact x_history|intros n s; reflexivity|exact x_sparse|].
  exists m'. split; [exact H|]. vm_compute in H. injection H as <-. reflexivity.
Qed.
Example ex57 : forall m', get_all x_parse 2 0 4 x_server 0 None [] = (m', Ok tt) -> aget str_eqb [3] m' = Some (x_tx 3).
Proof.
  intros m' H. apply (proj1 (C57_monzo_complete x_parse 2 0 x_hist x_server 4 [] m' ltac:(lia) x_history)) with (x := x_tx 3);
    [intros n s; reflexivity|exact H|right; right; left; reflexivity].
Qed.
Example ex79b : forall fuel, snd (get_all (fun _ => Some 5) 2 0 fuel (fun n s => Page (firstn 2 (filter (not_older (fun _ => Some 5) s) x_hist))) 0 None []) = Diverge.
Proof.
  intros fuel. apply (C79_paging_ends_refuted (fun _ => Some 5) 2 0 x_hist _ 5 []).
  - cbn. lia.
  - split; [repeat constructor; cbn; intuition discriminate| |repeat constructor; vm_compute; discriminate].
    intros x _. exists 5. split; [reflexivity|vm_compute; discriminate].
  - intros n s. reflexivity.
  - intros x _. reflexivity.
Qed.
Example ex58 : schedule 100 0 [mkRq 1000 1000 0; mkRq 1010 1103 3; mkRq 1104 1200 0].
Proof.
  eapply sch_cons; [reflexivity|reflexivity|cbn; lia|reflexivity|cbn; lia|].
  eapply sch_cons; [reflexivity|reflexivity|cbn; lia|discriminate|cbn; lia|].
  eapply sch_cons; [reflexivity|reflexivity|cbn; lia|discriminate|exact I|]. apply sch_nil.
Qed.
(** Starling: a feed with one stored item, which is updated on the server, and a new one. *)
Definition s_parse (s : str) : option Z := match s with [d] => Some (second * d) | _ => None end.
Definition s_format (z : Z) : str := [z / second].
Definition day (d : Z) : str := [d * 86400].
Definition s_now : list item := [mkItem [1] (day 100) (bs "new"); mkItem [2] (day 101) (bs "b"); mkItem [3] (day 20) (bs "c")].
Definition s_old : list (str * item) := [([1], mkItem [1] (day 90) (bs "old")); ([3], mkItem [3] (day 20) (bs "c"))].
Definition newer (t : Z) (i : item) : bool := match s_parse (it_updated i) with Some u => t <=? u | None => false end.
Definition s_server (s : str) : option (list item) :=
  match s_parse s with None => None | Some t => Some (filter (newer t) s_now) end.
Example ex57s : exists feed', sync_feed s_parse s_format false (day 10) s_server s_old = Ok feed' /\
  forall i, In i s_now -> aget str_eqb (it_uid i) feed' = Some i.
Proof.
  destruct (sync_feed s_parse s_format false (day 10) s_server s_old) as [feed'| | |] eqn:E; try (vm_compute in E; discriminate).
  exists feed'. split; [reflexivity|]. destruct (C57_starling _ _ _ _ _ _ _ E) as [_ H].
  apply (H (second * (95 * 86400)) (second * (10 * 86400)) s_now).
  - repeat constructor; cbn; intuition discriminate.
  - reflexivity.
  - intros x. reflexivity.
  - intros s ts Hs. unfold s_server. rewrite Hs. eexists. split; [reflexivity|]. split.
    + apply NoDup_map_filter. repeat constructor; cbn; intuition discriminate.
    + intros i. rewrite filter_In. unfold newer. destruct (s_parse (it_updated i)) as [u|].
      * rewrite Z.leb_le. split; [intros [A B]; split; [exact A|exists u; auto]|intros [A (v & Ev & B)]; injection Ev as <-; auto].
      * split; [intros [_ C]; discriminate|intros [_ (v & C & _)]; discriminate].
  - intros i [<-|[<-|[<-|[]]]]; eexists; (split; [reflexivity|vm_compute; discriminate]).
  - intros uid i Hi. apply (aget_In _ str_eqb_eq) in Hi. destruct Hi as [Hi|[Hi|[]]]; injection Hi as <- <-; eexists; (split; [reflexivity|vm_compute; discriminate]).
  - repeat constructor; cbn; intuition discriminate.
  - intros i [<-|[<-|[<-|[]]]]; [right|right|left; vm_compute; reflexivity]; eexists; (split; [reflexivity|vm_compute; discriminate]).
Qed.
