(** * RegisterProofs *)
From Verif Require Import Base Dec DateModel DateSpec PriceModel PriceSpec PriceProofs BookModel BookSpec BookProofs BuilderProofs OpsModel OpsProofs OpsProofs2 OpsProofs3 RegisterModel RegisterSpec.

(** ** Signs *)
Ltac qcontra := exfalso; match goal with
  | H : (?a < ?b)%Qc, K : (?b < ?a)%Qc |- _ => exact (Qclt_not_eq _ _ (Qclt_trans _ _ _ H K) eq_refl)
  | H : (?a < ?a)%Qc |- _ => exact (Qclt_not_eq _ _ H eq_refl) end.
Lemma sgn_cases q : (q = 0%Qc /\ sgn q = 0) \/ ((0 < q)%Qc /\ sgn q = 1) \/ ((q < 0)%Qc /\ sgn q = -1).
Proof.
  unfold sgn, Qclt, Qlt. change (this 0%Qc) with (0#1)%Q. cbn [Qnum Qden].
  destruct (Z.compare_spec (Qnum (this q)) 0) as [E|E|E].
  - left. split; [|rewrite E; reflexivity]. apply Qc_is_canon. unfold Qeq. rewrite E. reflexivity.
  - right. right. split; [lia|]. apply Z.sgn_neg. exact E.
  - right. left. split; [lia|]. apply Z.sgn_pos. exact E.
Qed.
Lemma sgn_pos q : sgn q = 1 <-> (0 < q)%Qc.
Proof. destruct (sgn_cases q) as [[-> E]|[[H E]|[H E]]]; rewrite E; split; intros; try lia; try assumption; try discriminate; qcontra. Qed.
Lemma sgn_neg q : sgn q = -1 <-> (q < 0)%Qc.
Proof. destruct (sgn_cases q) as [[-> E]|[[H E]|[H E]]]; rewrite E; split; intros; try lia; try assumption; try discriminate; qcontra. Qed.
Lemma sgn_zero q : sgn q = 0 <-> q = 0%Qc.
Proof. destruct (sgn_cases q) as [[-> E]|[[H E]|[H E]]]; rewrite E; split; intros; try lia; try reflexivity; subst; qcontra. Qed.
Lemma opposite_signs a b : a <> 0%Qc -> b <> 0%Qc ->
  (sgn a <> sgn b <-> ((0 < b /\ a < 0) \/ (b < 0 /\ 0 < a))%Qc).
Proof.
  intros Ha Hb. rewrite <- !sgn_pos, <- !sgn_neg.
  destruct (sgn_cases a) as [[? E]|[[_ E]|[_ E]]], (sgn_cases b) as [[? E']|[[_ E']|[_ E']]]; try contradiction; rewrite E, E'; lia.
Qed.
Lemma opposite_sum a b : a <> 0%Qc -> b <> 0%Qc ->
  (sgn a + sgn b = 0 <-> ((0 < b /\ a < 0) \/ (b < 0 /\ 0 < a))%Qc).
Proof.
  intros Ha Hb. rewrite <- !sgn_pos, <- !sgn_neg.
  destruct (sgn_cases a) as [[? E]|[[_ E]|[_ E]]], (sgn_cases b) as [[? E']|[[_ E']|[_ E']]]; try contradiction; rewrite E, E'; lia.
Qed.

(** ** Sums of one sign *)
Lemma qsum_pos l : Forall (fun q => 0 < q)%Qc l -> l <> [] -> (0 < qsum l)%Qc.
Proof.
  intros H. induction H as [|x l Hx Hl IH]; [congruence|]. intros _. rewrite qsum_cons.
  destruct l as [|y l]; [change (qsum []) with 0%Qc; rewrite Qcplus_0_r; exact Hx|].
  specialize (IH ltac:(discriminate)). apply Qclt_le_trans with x; [exact Hx|].
  rewrite <- (Qcplus_0_r x) at 1. apply Qcplus_le_compat; [apply Qcle_refl|apply Qclt_le_weak; exact IH].
Qed.
Lemma qsum_opp l : qsum (map Qcopp l) = (- qsum l)%Qc.
Proof. induction l as [|x l IH]; [reflexivity|]. cbn [map]. rewrite !qsum_cons, IH. ring. Qed.
Lemma Qc_neg_pos q : (q < 0)%Qc <-> (0 < - q)%Qc.
Proof. rewrite (Qclt_minus_iff q 0). replace (0 + - q)%Qc with (- q)%Qc by ring. tauto. Qed.
Lemma qsum_neg l : Forall (fun q => q < 0)%Qc l -> l <> [] -> (qsum l < 0)%Qc.
Proof.
  intros H Hn. apply Qc_neg_pos. rewrite <- qsum_opp. apply qsum_pos.
  - rewrite Forall_map. eapply Forall_impl; [|exact H]. intros q Hq. apply Qc_neg_pos. exact Hq.
  - destruct l; [congruence|discriminate].
Qed.

(** ** Counter-postings *)
Lemma counters_opposites p t : p_val p <> 0%Qc -> Forall (fun q => p_val q <> 0%Qc) t -> opposites p t (counters t p).
Proof.
  intros Hp H. unfold counters. induction H as [|q t Hq Ht IH]; cbn [filter]; [constructor|].
  destruct (negb (str_eqb (p_acct q) (p_acct p)) && negb (sgn (p_val q) =? sgn (p_val p)) && str_eqb (p_ccy q) (p_ccy p)) eqn:E.
  - constructor; [|exact IH]. rewrite !andb_true_iff, !negb_true_iff in E. destruct E as [[E1 E2] E3].
    apply str_eqb_neq in E1. apply Z.eqb_neq in E2. apply str_eqb_eq in E3.
    split; [exact E1|]. split; [exact E3|]. apply opposite_signs in E2; assumption.
  - constructor; [|exact IH]. intros (O1 & O2 & O3). apply not_true_iff_false in E. apply E.
    rewrite !andb_true_iff, !negb_true_iff. split; [split|].
    + apply str_eqb_neq. exact O1.
    + apply Z.eqb_neq. apply opposite_signs; assumption.
    + apply str_eqb_eq. exact O2.
Qed.
Lemma opposites_fun p t l : opposites p t l -> forall l', opposites p t l' -> l = l'.
Proof. induction 1; intros l' H'; inversion H'; subst; try contradiction; try reflexivity; try (f_equal; auto); auto. Qed.
Lemma opposites_In p t l q : opposites p t l -> (In q l <-> In q t /\ opposite p q).
Proof.
  induction 1 as [|x t l Hx H IH|x t l Hx H IH]; cbn [In].
  - tauto.
  - rewrite IH. split; [intros [<-|[? ?]]; auto|]. intros [[<-|?] ?]; auto.
  - rewrite IH. split; [intros [? ?]; auto|]. intros [[<-|?] ?]; [contradiction|auto].
Qed.
(** What a transaction of a compacted book looks like. *)
Definition tidy (t : trans) : Prop :=
  t <> [] /\ (forall p q, In p t -> In q t -> dp p = dp q) /\ StronglySorted klt t /\
  Forall (fun p => p_val p <> 0%Qc) t /\ balanced t.
Lemma trans_ccy_sum t p c : (forall p q, In p t -> In q t -> dp p = dp q) -> In p t ->
  total (in_trans (p_date p) (p_payee p) c) t = qsum (map p_val (filter (fun q => str_eqb (p_ccy q) c) t)).
Proof.
  intros Hu Hp. unfold total. f_equal. f_equal. apply filter_ext_in. intros q Hq. specialize (Hu q p Hq Hp).
  unfold dp in Hu. injection Hu as E1 E2. unfold on, in_trans. rewrite E1, E2, Z.eqb_refl, str_eqb_refl. reflexivity.
Qed.
Lemma tidy_acct t p q : tidy t -> In p t -> In q t -> p_acct p = p_acct q -> p_ccy p = p_ccy q -> p = q.
Proof.
  intros (_ & Hu & Hs & _) Hp Hq Ea Ec.
  assert (Ek : pkey p = pkey q). { specialize (Hu p q Hp Hq). unfold dp in Hu. injection Hu as E1 E2. unfold pkey. rewrite Ea, Ec, E1, E2. reflexivity. }
  clear Hu Ea Ec. induction Hs as [|x l Hs IH Hall]; [contradiction|].
  rewrite Forall_forall in Hall. unfold klt in Hall.
  destruct Hp as [<-|Hp], Hq as [<-|Hq].
  - reflexivity.
  - specialize (Hall q Hq). rewrite Ek in Hall. exfalso. revert Hall. apply (lc_lt_irrefl _ kcmp_lin).
  - specialize (Hall p Hp). rewrite Ek in Hall. exfalso. revert Hall. apply (lc_lt_irrefl _ kcmp_lin).
  - apply IH; assumption.
Qed.
Lemma opposites_sum t p l : tidy t -> In p t -> opposites p t l -> l <> [] /\ qsum (map p_val l) <> 0%Qc.
Proof.
  intros Ht Hp Ho. pose proof Ht as (Hne & Hu & Hs & Hz & Hb).
  assert (Hpz : p_val p <> 0%Qc) by (rewrite Forall_forall in Hz; apply Hz; exact Hp).
  assert (Hl : l <> []).
  { intros ->. specialize (Hb (p_date p) (p_payee p) (p_ccy p)). rewrite trans_ccy_sum in Hb by assumption.
    assert (Hsame : Forall (fun q => sgn q = sgn (p_val p)) (map p_val (filter (fun q => str_eqb (p_ccy q) (p_ccy p)) t))).
    { rewrite Forall_map, Forall_forall. intros q Hq. apply filter_In in Hq as [Hq Hc]. apply str_eqb_eq in Hc.
      destruct (str_eq_dec (p_acct q) (p_acct p)) as [Ea|Na]; [rewrite (tidy_acct t q p Ht Hq Hp Ea Hc); reflexivity|].
      destruct (Z.eq_dec (sgn (p_val q)) (sgn (p_val p))) as [E|N]; [exact E|exfalso].
      apply opposite_signs in N; [|rewrite Forall_forall in Hz; apply Hz; exact Hq|exact Hpz].
      assert (In q []); [|contradiction]. apply (opposites_In p t [] q Ho). split; [exact Hq|]. repeat split; assumption. }
    assert (Hnil : map p_val (filter (fun q => str_eqb (p_ccy q) (p_ccy p)) t) <> []).
    { intros E. apply map_eq_nil in E. assert (In p []); [|contradiction]. rewrite <- E. apply filter_In. split; [exact Hp|apply str_eqb_refl]. }
    destruct (sgn_cases (p_val p)) as [[E _]|[[_ E]|[_ E]]]; [contradiction| |]; rewrite E in Hsame.
    - assert (H0 : (0 < qsum (map p_val (filter (fun q => str_eqb (p_ccy q) (p_ccy p)) t)))%Qc).
      { apply qsum_pos; [|exact Hnil]. eapply Forall_impl; [|exact Hsame]. intros q. apply sgn_pos. }
      rewrite Hb in H0. exact (Qclt_not_eq _ _ H0 eq_refl).
    - assert (H0 : (qsum (map p_val (filter (fun q => str_eqb (p_ccy q) (p_ccy p)) t)) < 0)%Qc).
      { apply qsum_neg; [|exact Hnil]. eapply Forall_impl; [|exact Hsame]. intros q. apply sgn_neg. }
      rewrite Hb in H0. exact (Qclt_not_eq _ _ H0 eq_refl). }
  split; [exact Hl|].
  assert (Hop : forall q, In q l -> opposite p q) by (intros q Hq; apply (opposites_In p t l q Ho); exact Hq).
  assert (Hnil : map p_val l <> []) by (destruct l; [congruence|discriminate]).
  intros E. destruct (sgn_cases (p_val p)) as [[E0 _]|[[H0 _]|[H0 _]]]; [contradiction| |].
  - assert (Hlt : (qsum (map p_val l) < 0)%Qc).
    { apply qsum_neg; [|exact Hnil]. rewrite Forall_map, Forall_forall. intros q Hq. destruct (Hop q Hq) as (_ & _ & [[_ H]|[H _]]); [exact H|].
      exfalso. exact (Qclt_not_eq _ _ (Qclt_trans _ _ _ H H0) eq_refl). }
    rewrite E in Hlt. exact (Qclt_not_eq _ _ Hlt eq_refl).
  - assert (Hlt : (0 < qsum (map p_val l))%Qc).
    { apply qsum_pos; [|exact Hnil]. rewrite Forall_map, Forall_forall. intros q Hq. destruct (Hop q Hq) as (_ & _ & [[H _]|[_ H]]); [|exact H].
      exfalso. exact (Qclt_not_eq _ _ (Qclt_trans _ _ _ H H0) eq_refl). }
    rewrite E in Hlt. exact (Qclt_not_eq _ _ Hlt eq_refl).
Qed.

(** ** InferRate *)
Lemma index_Ok {A} (l : list A) i x : index l i = Ok x <-> nth_error l i = Some x.
Proof. unfold index. destruct (nth_error l i); split; congruence. Qed.
Lemma index_lt {A} (l : list A) i : (i < length l)%nat -> exists x, index l i = Ok x /\ nth_error l i = Some x.
Proof. intros H. unfold index. destruct (nth_error l i) eqn:E; [eauto|]. apply nth_error_None in E. lia. Qed.
(** [l] is the start of the run of equal accounts that contains position [i - 1]. *)
Definition block_start (t : trans) (last : option nat) (i : nat) : Prop :=
  match last with
  | None => i = 0%nat
  | Some l => (l < i)%nat /\
      (forall j x y, (l <= j < i)%nat -> nth_error t l = Some x -> nth_error t j = Some y -> p_acct x = p_acct y) /\
      (forall x y, (0 < l)%nat -> nth_error t (l - 1) = Some x -> nth_error t l = Some y -> p_acct x <> p_acct y)
  end.
(** The first two postings of a run of one account, at position [k]. *)
Definition pair_at (t : trans) (k : nat) (p q : posting) : Prop :=
  nth_error t k = Some p /\ nth_error t (S k) = Some q /\ p_acct p = p_acct q /\
  (forall x, (0 < k)%nat -> nth_error t (k - 1) = Some x -> p_acct x <> p_acct p).
Definition is_trade (base unit : str) (p q : posting) : Prop :=
  ((p_ccy q = base /\ p_ccy p = unit) \/ (p_ccy q = unit /\ p_ccy p = base)) /\
  ((0 < p_val p /\ p_val q < 0) \/ (p_val p < 0 /\ 0 < p_val q))%Qc.
Lemma pair_split (t : trans) k p q : nth_error t k = Some p -> nth_error t (S k) = Some q ->
  exists pre post, t = pre ++ p :: q :: post.
Proof.
  intros Hp Hq. apply nth_error_split in Hp as (pre & rest & -> & Hlen).
  rewrite nth_error_app2 in Hq by lia. replace (S k - length pre)%nat with 1%nat in Hq by lia. cbn in Hq.
  destruct rest as [|y post]; [discriminate|]. injection Hq as ->. eauto.
Qed.
Lemma infer_hit_spec base unit t last i : block_start t last i -> (i <= length t)%nat -> Forall (fun p => p_val p <> 0%Qc) t ->
  (exists r, infer_hit base unit t last i = Ok (Some r) /\ traded base unit t r) \/
  (infer_hit base unit t last i = Ok None /\ forall k p q, (i = k + 2)%nat -> pair_at t k p q -> ~ is_trade base unit p q).
Proof.
  intros Hb Hi Hz. unfold infer_hit. destruct last as [l|]; cbn [two_apart block_start] in *.
  2:{ subst i. right. split; [reflexivity|]. intros; lia. }
  destruct Hb as (Hl & Hsame & Hstart).
  destruct (Nat.eqb_spec i (l + 2)) as [->|Hne].
  2:{ right. split; [reflexivity|]. intros k p q -> (P1 & P2 & P3 & P4) _. apply Hne.
      destruct (index_lt t l ltac:(lia)) as (x & _ & Ex).
      assert (l <= k \/ l = k + 1)%nat as [Hlk|E] by lia.
      - destruct (Nat.eq_dec l k) as [->|Hn]; [reflexivity|exfalso].
        (* the run starts at l < k, so k-1 has the same account as k *)
        destruct (index_lt t (k - 1) ltac:(lia)) as (y & _ & Ey).
        apply (P4 y ltac:(lia) Ey). rewrite <- (Hsame (k - 1)%nat x y ltac:(lia) Ex Ey). apply (Hsame k x p ltac:(lia) Ex P1).
      - exfalso. subst l. apply (Hstart p q ltac:(lia)); [replace (k + 1 - 1)%nat with k by lia; exact P1|replace (k + 1)%nat with (S k) by lia; exact P2|exact P3]. }
  destruct (index_lt t (l + 2 - 1) ltac:(lia)) as (y & -> & Ey). destruct (index_lt t (l + 2 - 2) ltac:(lia)) as (x & -> & Ex). cbn [obind].
  replace (l + 2 - 1)%nat with (S l) in Ey by lia. replace (l + 2 - 2)%nat with l in Ex by lia.
  assert (Hx : p_val x <> 0%Qc) by (rewrite Forall_forall in Hz; apply Hz; eapply nth_error_In; exact Ex).
  assert (Hy : p_val y <> 0%Qc) by (rewrite Forall_forall in Hz; apply Hz; eapply nth_error_In; exact Ey).
  assert (Hacct : p_acct x = p_acct y) by (apply (Hsame (S l) x y ltac:(lia) Ex Ey)).
  assert (Huniq : forall k p q, (l + 2 = k + 2)%nat -> pair_at t k p q -> p = x /\ q = y).
  { intros k p q E (P1 & P2 & _). replace k with l in * by lia. split; congruence. }
  destruct (pair_split t l x y Ex Ey) as (pre & post & Et).
  destruct (Z.eqb_spec (sgn (p_val y) + sgn (p_val x)) 0) as [Hs|Hs].
  - apply opposite_sum in Hs; [|assumption|assumption].
    destruct (str_eqb_spec (p_ccy y) base) as [E1|N1], (str_eqb_spec (p_ccy x) unit) as [E2|N2]; cbn [andb].
    1:{ left. unfold rat_quo. rewrite (proj2 (qc_is0_neq _) Hx). cbn [obind]. eexists. split; [reflexivity|].
        exists pre, x, y, post. split; [exact Et|]. split; [exact Hacct|]. exists y, x. split; [auto|]. split; [exact E1|]. split; [exact E2|].
        split; [tauto|]. field. exact Hx. }
    all: destruct (str_eqb_spec (p_ccy y) unit) as [E3|N3], (str_eqb_spec (p_ccy x) base) as [E4|N4]; cbn [andb].
    1,5,9: left; unfold rat_quo; rewrite (proj2 (qc_is0_neq _) Hy); cbn [obind]; eexists; split; [reflexivity|];
        exists pre, x, y, post; split; [exact Et|]; split; [exact Hacct|]; exists x, y; split; [auto|]; split; [exact E4|]; split; [exact E3|];
        split; [tauto|]; field; exact Hy.
    all: right; split; [reflexivity|]; intros k p q E Hp [Hc _]; destruct (Huniq k p q E Hp) as [-> ->]; tauto.
  - right. split; [reflexivity|]. intros k p q E Hp [_ Ho]. destruct (Huniq k p q E Hp) as [-> ->]. apply Hs. apply opposite_sum; try assumption; tauto.
Qed.
Lemma infer_loop_spec base unit t : Forall (fun p => p_val p <> 0%Qc) t -> forall fuel last i,
  block_start t last i -> (i <= length t)%nat -> (length t - i < fuel)%nat ->
  (exists r, infer_loop fuel base unit t last i = Ok (Some r) /\ traded base unit t r) \/
  (infer_loop fuel base unit t last i = Ok None /\ forall k p q, (i <= k + 2)%nat -> pair_at t k p q -> ~ is_trade base unit p q).
Proof.
  intros Hz. induction fuel as [|fuel IH]; intros last i Hb Hi Hf; [lia|]. cbn [infer_loop].
  destruct (infer_hit_spec base unit t last i Hb Hi Hz) as [(r & -> & Hr)|[-> Hno]]; cbn [obind]; [left; eauto|].
  destruct (Nat.eqb_spec i (length t)) as [E|Hne].
  - right. split; [reflexivity|]. intros k p q Hk Hp. destruct (Nat.eq_dec i (k + 2)) as [E2|N2]; [exact (Hno k p q E2 Hp)|].
    destruct Hp as (_ & P2 & _). assert (S k < length t)%nat by (apply nth_error_Some; congruence). lia.
  - assert (Hlast : exists l', (match last with None => Ok i | Some l => do x <- index t l; do y <- index t i; Ok (if str_eqb (p_acct x) (p_acct y) then l else i) end) = Ok l'
        /\ block_start t (Some l') (S i)).
    { destruct last as [l|]; cbn [block_start] in Hb.
      - destruct Hb as (Hl & Hsame & Hstart).
        destruct (index_lt t l ltac:(lia)) as (x & -> & Ex). destruct (index_lt t i ltac:(lia)) as (y & -> & Ey). cbn [obind].
        destruct (str_eqb_spec (p_acct x) (p_acct y)) as [E|N]; eexists; (split; [reflexivity|]); cbn [block_start].
        + split; [lia|]. split; [|exact Hstart]. intros j a b Hj Ha Hb. destruct (Nat.eq_dec j i) as [->|Nj]; [congruence|]. apply (Hsame j); try assumption; lia.
        + split; [lia|]. split; [intros j a b Hj Ha Hb; replace j with i in Hb by lia; congruence|].
          intros a b _ Ha Hb E. apply N. rewrite (Hsame (i - 1)%nat x a ltac:(lia) Ex Ha). rewrite E. congruence.
      - subst i. exists 0%nat. split; [reflexivity|]. cbn [block_start]. split; [lia|]. split; [|lia]. intros j a b Hj Ha Hb. replace j with 0%nat in Hb by lia. congruence. }
    destruct Hlast as (l' & -> & Hb'). cbn [obind].
    destruct (IH (Some l') (S i) Hb' ltac:(lia) ltac:(lia)) as [H|[E H]]; [left; exact H|right]. split; [exact E|].
    intros k p q Hk Hp. destruct (Nat.eq_dec i (k + 2)) as [E2|N2]; [exact (Hno k p q E2 Hp)|]. apply (H k p q); [lia|exact Hp].
Qed.
Lemma infer_rate_spec base unit t : Forall (fun p => p_val p <> 0%Qc) t ->
  (exists r, infer_rate base unit t = Ok (Some r) /\ traded base unit t r) \/
  (infer_rate base unit t = Ok None /\ forall k p q, pair_at t k p q -> ~ is_trade base unit p q).
Proof.
  intros Hz. destruct (infer_loop_spec base unit t Hz (S (length t)) None 0) as [H|[E H]]; cbn; try lia; [left; exact H|right].
  split; [exact E|]. intros k p q. apply H. lia.
Qed.
Lemma traded_pos base unit t r : traded base unit t r -> (0 < r)%Qc.
Proof.
  intros (pre & p & q & post & _ & _ & pb & pu & _ & _ & _ & Hs & E).
  assert (Hpu : p_val pu <> 0%Qc) by (intros E0; rewrite E0 in Hs; destruct Hs as [[_ H]|[_ H]]; qcontra).
  destruct (Qclt_le_dec 0 r) as [H|H]; [exact H|exfalso].
  assert (Hneg : forall a b, (a <= 0 -> 0 < b -> a * b <= 0)%Qc).
  { intros a b Ha Hb. replace 0%Qc with (0 * b)%Qc by ring. apply Qcmult_le_compat_r; [exact Ha|apply Qclt_le_weak; exact Hb]. }
  destruct Hs as [[H1 H2]|[H1 H2]].
  - apply Qc_neg_pos in H2. pose proof (Hneg r (- p_val pu)%Qc H H2) as H3.
    replace (r * - p_val pu)%Qc with (p_val pb) in H3; [exact (Qclt_not_le _ _ H1 H3)|]. replace (r * - p_val pu)%Qc with (- (r * p_val pu))%Qc by ring. rewrite E. ring.
  - pose proof (Hneg r (p_val pu) H H2) as H3. rewrite E in H3. apply Qc_neg_pos in H1. exact (Qclt_not_le _ _ H1 H3).
Qed.

(** ** InferRates never returns *)
Lemma infer_rates_never base t : forall fuel last i rates r, infer_rates_loop fuel base t last i rates <> Ok r.
Proof.
  induction fuel as [|fuel IH]; intros last i rates r; cbn [infer_rates_loop]; [discriminate|].
  intros H. apply obind_Ok in H as (same & _ & H). destruct same; [exact (IH _ _ _ _ H)|].
  apply obind_Ok in H as (rates' & _ & H). exact (IH _ _ _ _ H).
Qed.

(** ** Allocation *)
Lemma allocate_spec split t p : tidy t -> In p t ->
  exists al, allocate split t p = Ok al /\ qsum (map snd al) = p_val p /\ al <> [] /\
    (split = false -> al = [(join (bs ";") (map p_acct (counters t p)), p_val p)]) /\
    (split = true -> Forall2 (fun q a => fst a = p_acct q /\ (snd a * qsum (map p_val (counters t p)) = p_val p * p_val q)%Qc) (counters t p) al).
Proof.
  intros Ht Hp. pose proof Ht as (_ & _ & _ & Hz & _).
  assert (Hpz : p_val p <> 0%Qc) by (rewrite Forall_forall in Hz; apply Hz; exact Hp).
  pose proof (counters_opposites p t Hpz Hz) as Ho. destruct (opposites_sum t p _ Ht Hp Ho) as [Hn Hs].
  unfold allocate. set (cs := counters t p) in *. clearbody cs. clear Ho.
  assert (Hscale : qsum (map snd (map (fun c => (p_acct c, p_val c * p_val p * / qsum (map p_val cs))%Qc) cs)) = p_val p).
  { rewrite map_map. cbn [snd].
    replace (map (fun x => p_val x * p_val p * / qsum (map p_val cs))%Qc cs) with (map (fun x => (p_val p * / qsum (map p_val cs)) * x)%Qc (map p_val cs))
      by (rewrite map_map; apply map_ext; intros; ring).
    rewrite qsum_scale. field. exact Hs. }
  unfold rat_inv. rewrite (proj2 (qc_is0_neq _) Hs). destruct split; cbn [negb andb]; rewrite ?andb_false_r, ?andb_true_r.
  - eexists. split; [reflexivity|]. split; [exact Hscale|]. split; [destruct cs; [congruence|discriminate]|]. split; [discriminate|]. intros _.
    assert (HF : forall l, Forall2 (fun q a => fst a = p_acct q /\ (snd a * qsum (map p_val cs) = p_val p * p_val q)%Qc) l (map (fun c => (p_acct c, p_val c * p_val p * / qsum (map p_val cs))%Qc) l)).
    { induction l as [|c l IH]; cbn [map]; constructor; [|exact IH]. cbn [fst snd]. split; [reflexivity|]. field. exact Hs. }
    apply HF.
  - destruct (Nat.ltb_spec 1 (length cs)) as [Hl|Hl].
    + eexists. split; [reflexivity|]. split; [cbn [map snd]; rewrite qsum_cons; change (qsum []) with 0%Qc; ring|]. split; [discriminate|]. split; [reflexivity|discriminate].
    + destruct cs as [|c [|c' cs]]; [congruence| |cbn [length] in Hl; lia]. cbn [obind].
      eexists. split; [reflexivity|]. split; [exact Hscale|]. split; [discriminate|]. split; [|discriminate]. intros _. cbn [map join]. f_equal. f_equal.
      cbn [map] in Hscale. rewrite qsum_cons in Hscale. change (qsum []) with 0%Qc in Hscale. cbn [snd] in Hscale. rewrite Qcplus_0_r in Hscale. exact Hscale.
Qed.

(** ** Balances *)
Fixpoint bal_rec (B : str -> Qc) (bb : Qc) (es : list entry) : Prop :=
  match es with
  | [] => True
  | e :: es' => e_bal e = (B (e_ccy e) + e_amt e)%Qc /\ e_basebal e = (bb + e_base e)%Qc /\
      bal_rec (fun c => B c + ccy_sum c [e])%Qc (bb + e_base e)%Qc es'
  end.
Definition base_sum (es : list entry) : Qc := qsum (map e_base es).
Lemma ccy_sum_cons c e es : ccy_sum c (e :: es) = (ccy_sum c [e] + ccy_sum c es)%Qc.
Proof. unfold ccy_sum. cbn [filter]. destruct (str_eqb (e_ccy e) c); cbn [map]; rewrite ?qsum_cons; change (qsum []) with 0%Qc; ring. Qed.
Lemma ccy_sum_app c a b : ccy_sum c (a ++ b) = (ccy_sum c a + ccy_sum c b)%Qc.
Proof. unfold ccy_sum. rewrite filter_app, map_app, qsum_app. reflexivity. Qed.
Lemma ccy_sum_one e : ccy_sum (e_ccy e) [e] = e_amt e.
Proof. unfold ccy_sum. cbn [filter]. rewrite str_eqb_refl. cbn [map]. rewrite qsum_cons. change (qsum []) with 0%Qc. ring. Qed.
Lemma bal_rec_ext es : forall B B' bb bb', (forall c, B c = B' c) -> bb = bb' -> bal_rec B bb es -> bal_rec B' bb' es.
Proof.
  induction es as [|e es IH]; intros B B' bb bb' HB Hb H; [exact I|]. subst bb'. destruct H as (H1 & H2 & H3). cbn [bal_rec].
  split; [rewrite <- HB; exact H1|]. split; [exact H2|]. eapply IH; [|reflexivity|exact H3]. intros c. cbn. rewrite HB. reflexivity.
Qed.
Lemma bal_rec_app es : forall es' B bb, bal_rec B bb es -> bal_rec (fun c => B c + ccy_sum c es)%Qc (bb + base_sum es)%Qc es' -> bal_rec B bb (es ++ es').
Proof.
  induction es as [|e es IH]; intros es' B bb H H'; cbn [app].
  - eapply bal_rec_ext; [| |exact H']; intros; cbn; [unfold ccy_sum; cbn [filter map]|unfold base_sum; cbn [map]]; change (qsum []) with 0%Qc; ring.
  - destruct H as (H1 & H2 & H3). cbn [bal_rec]. split; [exact H1|]. split; [exact H2|]. apply IH; [exact H3|].
    eapply bal_rec_ext; [| |exact H']; intros; cbn beta.
    + rewrite ccy_sum_cons. ring.
    + unfold base_sum. cbn [map]. rewrite qsum_cons. ring.
Qed.
Lemma bal_rec_spec es : forall B bb, bal_rec B bb es -> forall l1 e l2, es = l1 ++ e :: l2 ->
  e_bal e = (B (e_ccy e) + ccy_sum (e_ccy e) (l1 ++ [e]))%Qc /\ e_basebal e = (bb + base_sum (l1 ++ [e]))%Qc.
Proof.
  induction es as [|x es IH]; intros B bb H l1 e l2 E; [destruct l1; discriminate|]. destruct H as (H1 & H2 & H3).
  destruct l1 as [|y l1]; cbn [app] in E; injection E as <- E.
  - cbn [app]. rewrite ccy_sum_one. split; [exact H1|]. rewrite H2. unfold base_sum. cbn [map]. rewrite qsum_cons. change (qsum []) with 0%Qc. ring.
  - destruct (IH _ _ H3 _ _ _ E) as [I1 I2]. cbn [app]. rewrite ccy_sum_cons. split; [rewrite I1; ring|].
    rewrite I2. unfold base_sum. cbn [map]. rewrite qsum_cons. ring.
Qed.

(** ** Entries of one posting *)
Definition entry_for (pb : pbook) (base : str) (t : trans) (p : posting) (va : str * Qc) (e : entry) : Prop :=
  names p e /\ e_counter e = fst va /\ e_amt e = snd va /\ base_amount pb base t p (e_amt e) = Ok (e_base e, e_src e).
Lemma alloc_loop_spec pb base t p : tidy t -> In p t -> forall al bal bb es bal' bb',
  alloc_loop pb base t p bal bb al = Ok (es, bal', bb') ->
  Forall2 (entry_for pb base t p) al es /\
  (forall B : str -> Qc, B (p_ccy p) = bal -> bal_rec B bb es) /\
  bal' = (bal + qsum (map e_amt es))%Qc /\ bb' = (bb + base_sum es)%Qc.
Proof.
  intros Ht Hp. destruct Ht as (Hne & Hu & _). destruct t as [|h t]; [congruence|].
  specialize (Hu h p (or_introl eq_refl) Hp). unfold dp in Hu. injection Hu as Ed Ep.
  induction al as [|[v a] al IH]; intros bal bb es bal' bb' E; cbn [alloc_loop] in E.
  - injection E as <- <- <-. split; [constructor|]. split; [intros; exact I|]. unfold base_sum. cbn [map]. change (qsum []) with 0%Qc. split; ring.
  - apply obind_Ok in E as ([ba src] & Eb & E). change (index (h :: t) 0) with (Ok h) in E. cbn [obind] in E.
    apply obind_Ok in E as ([[es1 bal1] bb1] & El & E). injection E as <- <- <-.
    apply IH in El as (H1 & H2 & H3 & H4). split; [|split; [|split]].
    + constructor; [|exact H1]. unfold entry_for, names. cbn [e_date e_payee e_acct e_ccy e_note e_tnote e_counter e_amt e_base e_src fst snd]. auto 12.
    + intros B HB. cbn [bal_rec e_bal e_ccy e_amt e_basebal e_base]. split; [rewrite HB; reflexivity|]. split; [reflexivity|].
      apply H2. rewrite HB. unfold ccy_sum. cbn [filter e_ccy]. rewrite str_eqb_refl. cbn [map e_amt]. rewrite qsum_cons. change (qsum []) with 0%Qc. ring.
    + rewrite H3. cbn [map e_amt]. rewrite qsum_cons. ring.
    + rewrite H4. unfold base_sum. cbn [map e_base]. rewrite qsum_cons. ring.
Qed.
Definition block_for (pb : pbook) (base : str) (split : bool) (tp : trans * posting) (es : list entry) : Prop :=
  exists al, allocate split (fst tp) (snd tp) = Ok al /\ Forall2 (entry_for pb base (fst tp) (snd tp)) al es.
Lemma entry_sum pb base t p al es : Forall2 (entry_for pb base t p) al es -> map e_amt es = map snd al.
Proof. induction 1 as [|va e al es H _ IH]; [reflexivity|]. cbn [map]. destruct H as (_ & _ & -> & _). rewrite IH. reflexivity. Qed.
Lemma entry_ccy pb base t p al es : Forall2 (entry_for pb base t p) al es -> Forall (fun e => e_ccy e = p_ccy p) es.
Proof. induction 1 as [|va e al es H _ IH]; constructor; [|exact IH]. apply H. Qed.
Lemma ccy_sum_same c es : Forall (fun e => e_ccy e = c) es -> ccy_sum c es = qsum (map e_amt es).
Proof. intros H. unfold ccy_sum. rewrite filter_all; [reflexivity|]. eapply Forall_impl; [|exact H]. intros e ->. apply str_eqb_refl. Qed.
Lemma ccy_sum_other c c' es : Forall (fun e => e_ccy e = c') es -> c <> c' -> ccy_sum c es = 0%Qc.
Proof. intros H Hn. unfold ccy_sum. rewrite filter_none; [reflexivity|]. eapply Forall_impl; [|exact H]. intros e ->. apply str_eqb_neq. congruence. Qed.

Lemma rbal_aset_eq c v m : rbal c (aset str_eqb c v m) = v.
Proof. unfold rbal. rewrite (aget_aset_eq _ str_eqb_eq). reflexivity. Qed.
Lemma rbal_aset_neq c c' v m : c' <> c -> rbal c' (aset str_eqb c v m) = rbal c' m.
Proof. intros H. unfold rbal. rewrite (aget_aset_neq _ str_eqb_eq) by exact H. reflexivity. Qed.

Lemma post_loop_spec m split pb base t : tidy t -> forall l bals bb es bals' bb', (forall p, In p l -> In p t) ->
  post_loop m split pb base t bals bb l = Ok (es, bals', bb') ->
  (exists blocks, concat blocks = es /\ Forall2 (block_for pb base split) (map (fun p => (t, p)) (filter (fun p => m (p_acct p)) l)) blocks) /\
  bal_rec (fun c => rbal c bals) bb es /\ (forall c, rbal c bals' = (rbal c bals + ccy_sum c es)%Qc) /\ bb' = (bb + base_sum es)%Qc.
Proof.
  intros Ht. induction l as [|p l IH]; intros bals bb es bals' bb' Hin E; cbn [post_loop] in E.
  - injection E as <- <- <-. split; [exists []; split; [reflexivity|constructor]|]. split; [exact I|].
    unfold ccy_sum, base_sum. cbn [filter map]. change (qsum []) with 0%Qc. split; [intros; ring|ring].
  - cbn [filter]. destruct (m (p_acct p)) eqn:Em.
    + apply obind_Ok in E as (al & Ea & E). apply obind_Ok in E as ([[es1 bal1] bb1] & E1 & E). apply obind_Ok in E as ([[es2 bals2] bb2] & E2 & E).
      injection E as <- <- <-. apply (alloc_loop_spec pb base t p Ht (Hin p (or_introl eq_refl))) in E1 as (A1 & A2 & A3 & A4).
      apply IH in E2 as ((blocks & B0 & B1) & B2 & B3 & B4); [|intros q Hq; apply Hin; right; exact Hq].
      pose proof (entry_ccy _ _ _ _ _ _ A1) as Hc.
      assert (Hbal : forall c, rbal c (aset str_eqb (p_ccy p) bal1 bals) = (rbal c bals + ccy_sum c es1)%Qc).
      { intros c. destruct (str_eq_dec c (p_ccy p)) as [->|Hn].
        - rewrite rbal_aset_eq, A3, ccy_sum_same by exact Hc. reflexivity.
        - rewrite rbal_aset_neq by exact Hn. rewrite (ccy_sum_other c (p_ccy p)) by assumption. ring. }
      split; [|split; [|split]].
      * exists (es1 :: blocks). cbn [concat map]. split; [rewrite B0; reflexivity|]. constructor; [|exact B1]. exists al. cbn [fst snd]. auto.
      * apply bal_rec_app; [apply A2; reflexivity|]. eapply bal_rec_ext; [exact Hbal|exact A4|exact B2].
      * intros c. rewrite B3, Hbal, ccy_sum_app. ring.
      * rewrite B4, A4. unfold base_sum. rewrite map_app, qsum_app. ring.
    + apply IH in E; [|intros q Hq; apply Hin; right; exact Hq]. exact E.
Qed.
Lemma trans_loop_spec m split pb base : forall ts bals bb es, Forall tidy ts ->
  trans_loop m split pb base bals bb ts = Ok es ->
  (exists blocks, concat blocks = es /\ Forall2 (block_for pb base split) (matching m ts) blocks) /\ bal_rec (fun c => rbal c bals) bb es.
Proof.
  induction ts as [|t ts IH]; intros bals bb es Ht E; cbn [trans_loop] in E.
  - injection E as <-. split; [exists []; split; [reflexivity|constructor]|exact I].
  - apply obind_Ok in E as ([[es1 bals1] bb1] & E1 & E). apply obind_Ok in E as (es2 & E2 & E). injection E as <-.
    pose proof (Forall_inv Ht) as Ht0. apply Forall_inv_tail in Ht.
    apply (post_loop_spec m split pb base t Ht0) in E1 as ((bl1 & C1 & F1) & B1 & R1 & S1); [|auto].
    apply IH in E2 as ((bl2 & C2 & F2) & B2); [|exact Ht]. split.
    + exists (bl1 ++ bl2). rewrite concat_app, C1, C2. split; [reflexivity|]. unfold matching. cbn [flat_map]. apply Forall2_app; assumption.
    + apply bal_rec_app; [exact B1|]. eapply bal_rec_ext; [exact R1|exact S1|exact B2].
Qed.

(** ** Success *)
Definition priced (pb : pbook) (base : str) (t : trans) : Prop :=
  forall p, In p t -> p_ccy p <> base -> exists r src, get_price pb (p_date p) base (p_ccy p) = Ok (r, src).
Lemma base_amount_ok pb base t p a : tidy t -> In p t -> priced pb base t -> exists r, base_amount pb base t p a = Ok r.
Proof.
  intros (Hne & Hu & _ & Hz & _) Hp Hpr. unfold base_amount. destruct (str_eqb_spec (p_ccy p) base) as [E|N]; [eauto|].
  destruct (infer_rate_spec base (p_ccy p) t Hz) as [(r & -> & _)|[-> _]]; cbn [obind]; [eauto|].
  destruct t as [|h t]; [congruence|]. change (index (h :: t) 0) with (Ok h). cbn [obind].
  destruct (Hpr p Hp N) as (r & src & E). specialize (Hu h p (or_introl eq_refl) Hp). unfold dp in Hu. injection Hu as -> _.
  rewrite E. cbn [obind]. eauto.
Qed.
Lemma alloc_loop_ok pb base t p : tidy t -> In p t -> priced pb base t -> forall al bal bb, exists r, alloc_loop pb base t p bal bb al = Ok r.
Proof.
  intros Ht Hp Hpr. induction al as [|[v a] al IH]; intros bal bb; cbn [alloc_loop]; [eauto|].
  destruct (base_amount_ok pb base t p a Ht Hp Hpr) as ([ba src] & ->). cbn [obind].
  destruct t as [|h t]; [contradiction|]. change (index (h :: t) 0) with (Ok h). cbn [obind].
  destruct (IH (bal + a)%Qc (bb + ba)%Qc) as ([[es b'] bb'] & ->). cbn [obind]. eauto.
Qed.
Lemma post_loop_ok m split pb base t : tidy t -> priced pb base t -> forall l bals bb, (forall p, In p l -> In p t) ->
  exists r, post_loop m split pb base t bals bb l = Ok r.
Proof.
  intros Ht Hpr. induction l as [|p l IH]; intros bals bb Hin; cbn [post_loop]; [eauto|].
  assert (Hin' : forall q, In q l -> In q t) by (intros q Hq; apply Hin; right; exact Hq).
  destruct (m (p_acct p)); [|apply IH; exact Hin'].
  destruct (allocate_spec split t p Ht (Hin p (or_introl eq_refl))) as (al & -> & _). cbn [obind].
  destruct (alloc_loop_ok pb base t p Ht (Hin p (or_introl eq_refl)) Hpr al (rbal (p_ccy p) bals) bb) as ([[es b'] bb'] & ->). cbn [obind].
  destruct (IH (aset str_eqb (p_ccy p) b' bals) bb' Hin') as ([[es2 b2] bb2] & ->). cbn [obind]. eauto.
Qed.
Lemma trans_loop_ok m split pb base : forall ts bals bb, Forall tidy ts -> Forall (priced pb base) ts ->
  exists r, trans_loop m split pb base bals bb ts = Ok r.
Proof.
  induction ts as [|t ts IH]; intros bals bb Ht Hp; cbn [trans_loop]; [eauto|].
  destruct (post_loop_ok m split pb base t (Forall_inv Ht) (Forall_inv Hp) t bals bb (fun p H => H)) as ([[es b'] bb'] & ->). cbn [obind].
  destruct (IH b' bb' (Forall_inv_tail Ht) (Forall_inv_tail Hp)) as (r & ->). cbn [obind]. eauto.
Qed.

(** Transactions of a compacted book are tidy. *)
Lemma sorted_concat_each {A} (R : A -> A -> Prop) ts : StronglySorted R (concat ts) -> Forall (StronglySorted R) ts.
Proof.
  induction ts as [|t ts IH]; intros H; constructor; cbn [concat] in H; apply StronglySorted_app in H as (H1 & H2 & _); [exact H1|]. apply IH. exact H2.
Qed.
Lemma compact_tidy srt b : sort_ok is_less srt -> book_ok b -> Forall tidy (bk_trans (compact srt b)).
Proof.
  intros Hs Hb. pose proof (compact_book_ok srt Hs b Hb) as (_ & Hc & Hg & Hbal).
  assert (Hcan : canonical (bk_post (compact srt b))).
  { apply (compact_canonical srt Hs b). apply Hb. }
  rewrite <- Hc in Hcan, Hbal. destruct Hcan as [Hss Hnz]. pose proof (sorted_concat_each _ _ Hss) as Hse.
  pose proof (balanced_each _ Hg Hbal) as Hbe. destruct Hg as [G1 _]. rewrite Forall_forall in *. intros t Ht.
  destruct (G1 t Ht) as [Hn Hu]. split; [exact Hn|]. split; [exact Hu|]. split; [apply Hse; exact Ht|]. split; [|apply Hbe; exact Ht].
  rewrite Forall_forall. intros p Hp. apply Hnz. apply in_concat. eauto.
Qed.

(** ** Date window *)
Definition by_date (es : list entry) : Prop := StronglySorted (fun a b => e_date a <= e_date b) es.
Definition in_window (mn mx : Z) (e : entry) : bool :=
  ((mn =? 0) || (mn <=? e_date e)) && ((mx =? 0) || (e_date e <? mx)).
Lemma window_started mn mx : forall l i s n, (length l + i = n)%nat -> by_date l ->
  exists e, window_loop mn mx l i (Some s) n = (Some s, e) /\ (i <= e <= n)%nat /\
    firstn (e - i) l = filter (fun r => (mx =? 0) || (e_date r <? mx)) l.
Proof.
  induction l as [|r l IH]; intros i s n Hn Hs; cbn [window_loop].
  - exists n. cbn [length] in Hn. split; [reflexivity|]. split; [lia|]. rewrite firstn_nil. reflexivity.
  - apply StronglySorted_inv in Hs as [Hs Hall]. cbn [filter].
    destruct (Z.eqb_spec mx 0) as [->|Hmx]; cbn [negb andb orb].
    + destruct (IH (S i) s n ltac:(cbn [length] in Hn; lia) Hs) as (e & -> & He & Hf). exists e. split; [reflexivity|]. split; [lia|].
      replace (e - i)%nat with (S (e - S i)) by lia. cbn [firstn]. rewrite Hf. reflexivity.
    + destruct (Z.leb_spec mx (e_date r)) as [Hle|Hgt].
      * exists i. split; [reflexivity|]. split; [cbn [length] in Hn; lia|]. rewrite Nat.sub_diag. cbn [firstn].
        rewrite (proj2 (Z.ltb_ge _ _) Hle). symmetry. apply filter_none. rewrite Forall_forall in *. intros x Hx. specialize (Hall x Hx). apply Z.ltb_ge. lia.
      * destruct (IH (S i) s n ltac:(cbn [length] in Hn; lia) Hs) as (e & -> & He & Hf). exists e. split; [reflexivity|]. split; [lia|].
        rewrite (proj2 (Z.ltb_lt _ _) Hgt). replace (e - i)%nat with (S (e - S i)) by lia. cbn [firstn]. rewrite Hf. cbn. reflexivity.
Qed.
Lemma window_spec mn mx : forall l i n, (length l + i = n)%nat -> by_date l ->
  match window_loop mn mx l i None n with
  | (None, _) => filter (in_window mn mx) l = []
  | (Some s, e) => (i <= s <= e)%nat /\ (e <= n)%nat /\ firstn (e - s) (skipn (s - i) l) = filter (in_window mn mx) l
  end.
Proof.
  induction l as [|r l IH]; intros i n Hn Hs; cbn [window_loop].
  - reflexivity.
  - pose proof Hs as Hs0. apply StronglySorted_inv in Hs as [Hs Hall]. rewrite Forall_forall in Hall.
    destruct ((mn =? 0) || (mn <=? e_date r)) eqn:Emn.
    + assert (Hf : filter (in_window mn mx) (r :: l) = filter (fun r => (mx =? 0) || (e_date r <? mx)) (r :: l)).
      { apply filter_ext_in. intros x Hx. unfold in_window. replace ((mn =? 0) || (mn <=? e_date x)) with true; [reflexivity|].
        symmetry. destruct Hx as [<-|Hx]; [exact Emn|]. specialize (Hall x Hx). destruct (mn =? 0); [reflexivity|]. cbn [orb] in *. apply Z.leb_le. apply Z.leb_le in Emn. lia. }
      rewrite Hf. clear Hf.
      destruct (window_started mn mx (r :: l) i i n Hn Hs0) as (e & E & He & Hf). cbn [window_loop] in E.
      destruct (negb (mx =? 0) && (mx <=? e_date r)).
      * injection E as <-. split; [lia|]. split; [lia|]. rewrite Nat.sub_diag in *. cbn [skipn]. exact Hf.
      * rewrite E. split; [lia|]. split; [lia|]. rewrite (Nat.sub_diag i). cbn [skipn]. exact Hf.
    + assert (Hr : in_window mn mx r = false) by (unfold in_window; rewrite Emn; reflexivity).
      cbn [filter]. rewrite Hr.
      destruct (negb (mx =? 0) && (mx <=? e_date r)) eqn:Emx.
      * apply filter_none. rewrite Forall_forall. intros x Hx. specialize (Hall x Hx). unfold in_window.
        apply andb_true_iff in Emx as [E1 E2]. apply negb_true_iff in E1. rewrite E1. apply Z.leb_le in E2. cbn [orb].
        replace (e_date x <? mx) with false by (symmetry; apply Z.ltb_ge; lia). apply andb_false_r.
      * specialize (IH (S i) n ltac:(cbn [length] in Hn; lia) Hs). destruct (window_loop mn mx l (S i) None n) as [[s|] e]; [|exact IH].
        destruct IH as (H1 & H2 & H3). split; [lia|]. split; [exact H2|]. replace (s - i)%nat with (S (s - S i)) by lia. cbn [skipn]. exact H3.
Qed.
Lemma filter_by_date_spec mn mx es : by_date es -> filter_by_date mn mx es = Ok (filter (in_window mn mx) es).
Proof.
  intros Hs. unfold filter_by_date. destruct ((mn =? 0) && (mx =? 0)) eqn:E0.
  - f_equal. symmetry. apply andb_true_iff in E0 as [E1 E2]. apply filter_all. rewrite Forall_forall. intros x _. unfold in_window. rewrite E1, E2. reflexivity.
  - pose proof (window_spec mn mx es 0 (length es) ltac:(lia) Hs) as H. destruct (window_loop mn mx es 0 None (length es)) as [[s|] e].
    + destruct H as (H1 & H2 & H3). unfold slice. rewrite (proj2 (Nat.leb_le s e)), (proj2 (Nat.leb_le e (length es))) by lia. cbn [andb].
      rewrite Nat.sub_0_r in H3. rewrite H3. reflexivity.
    + rewrite H. reflexivity.
Qed.

(** ** Date order of the register *)
Lemma sorted_blocks {A} (R : A -> A -> Prop) (bl : list (list A)) :
  Forall (StronglySorted R) bl -> StronglySorted (fun a b => forall x y, In x a -> In y b -> R x y) bl -> StronglySorted R (concat bl).
Proof.
  induction bl as [|b bl IH]; intros H1 H2; cbn [concat]; [constructor|]. apply StronglySorted_inv in H2 as [H2 H3].
  apply StronglySorted_app. split; [exact (Forall_inv H1)|]. split; [apply IH; [exact (Forall_inv_tail H1)|exact H2]|].
  rewrite Forall_forall in H3. intros x y Hx Hy. apply in_concat in Hy as (b' & Hb' & Hy). exact (H3 b' Hb' x y Hx Hy).
Qed.
Lemma matching_dates m ts : well_grouped ts -> StronglySorted (fun a b : trans * posting => p_date (snd a) <= p_date (snd b)) (matching m ts).
Proof.
  intros [H1 H2]. unfold matching. rewrite flat_map_concat_map. apply sorted_blocks.
  - rewrite Forall_forall in *. intros l Hl. apply in_map_iff in Hl as (t & <- & Ht). destruct (H1 t Ht) as [_ Hu].
    assert (Hsub : forall q, In q (filter (fun p => m (p_acct p)) t) -> In q t) by (intros q Hq; apply filter_In in Hq; apply Hq).
    revert Hsub. generalize (filter (fun p => m (p_acct p)) t). intros l Hsub. induction l as [|p l IH]; cbn [map]; constructor.
    + apply IH. intros q Hq. apply Hsub. right. exact Hq.
    + rewrite Forall_map, Forall_forall. intros q Hq. cbn [snd]. specialize (Hu p q (Hsub p (or_introl eq_refl)) (Hsub q (or_intror Hq))). unfold dp in Hu. injection Hu as -> _. lia.
  - apply StronglySorted_map. eapply StronglySorted_impl; [|exact H2]. intros t u _ _ H x y Hx Hy.
    apply in_map_iff in Hx as (p & <- & Hp). apply in_map_iff in Hy as (q & <- & Hq). apply filter_In in Hp as [Hp _]. apply filter_In in Hq as [Hq _]. cbn [snd].
    specialize (H p q Hp Hq). unfold dplt, dpcmp, lex, dp in H. cbn [fst snd] in H. destruct (Z.compare_spec (p_date p) (p_date q)); [lia|lia|discriminate].
Qed.
Lemma blocks_dates pb base split : forall tps blocks, Forall2 (block_for pb base split) tps blocks ->
  StronglySorted (fun a b : trans * posting => p_date (snd a) <= p_date (snd b)) tps -> by_date (concat blocks).
Proof.
  assert (Hdate : forall tp b, block_for pb base split tp b -> forall e, In e b -> e_date e = p_date (snd tp)).
  { intros tp b (al & _ & F) e He. induction F as [|va x al b' Hx F IH]; [contradiction|]. destruct He as [<-|He]; [apply Hx|apply IH; exact He]. }
  intros tps blocks F. induction F as [|tp b tps blocks Hb F IH]; intros Hs; cbn [concat]; [constructor|].
  apply StronglySorted_inv in Hs as [Hs Hall]. apply StronglySorted_app. split; [|split; [apply IH; exact Hs|]].
  - pose proof (Hdate tp b Hb) as Hd. clear - Hd. induction b as [|e b IH]; constructor.
    + apply IH. intros x Hx. apply Hd. right. exact Hx.
    + rewrite Forall_forall. intros x Hx. rewrite (Hd e (or_introl eq_refl)), (Hd x (or_intror Hx)). lia.
  - intros x y Hx Hy. rewrite (Hdate _ _ Hb x Hx). rewrite Forall_forall in Hall. apply in_concat in Hy as (b' & Hb' & Hy).
    clear IH Hs. induction F as [|tp' b'' tps blocks Hb2 F IH]; [contradiction|]. destruct Hb' as [->|Hb'].
    + rewrite (Hdate _ _ Hb2 y Hy). apply Hall. left. reflexivity.
    + apply IH; [|exact Hb']. intros z Hz. apply Hall. right. exact Hz.
Qed.

(** ** Count and order *)
Lemma nth_error_set_nth {A} (x : A) : forall i l j, (i < length l)%nat -> nth_error (set_nth i x l) j = if Nat.eqb j i then Some x else nth_error l j.
Proof.
  unfold set_nth. induction i as [|i IH]; intros l j H; destruct l as [|a l]; cbn [length] in H; try lia.
  - destruct j; reflexivity.
  - destruct j as [|j]; cbn [firstn skipn app nth_error Nat.eqb]; [reflexivity|]. apply IH. lia.
Qed.
Lemma length_set_nth {A} (x : A) i l : (i < length l)%nat -> length (set_nth i x l) = length l.
Proof. intros H. unfold set_nth. rewrite app_length, firstn_length. cbn [length]. rewrite skipn_length. lia. Qed.
Lemma reverse_loop_spec rep : forall n i nd, (i + n <= length rep)%nat -> length nd = length rep ->
  length (reverse_loop rep nd i n) = length rep /\
  forall j, (j < length rep)%nat -> nth_error (reverse_loop rep nd i n) j =
    if Nat.leb (length rep - i - n) j && Nat.ltb j (length rep - i) then Some (nth_error rep (length rep - 1 - j)) else nth_error nd j.
Proof.
  induction n as [|n IH]; intros i nd Hi Hl; cbn [reverse_loop].
  - split; [exact Hl|]. intros j Hj. rewrite Nat.sub_0_r.
    destruct (Nat.leb_spec (length rep - i) j), (Nat.ltb_spec j (length rep - i)); cbn [andb]; try reflexivity; lia.
  - destruct (nth_error rep i) as [e|] eqn:Ee; [|apply nth_error_None in Ee; lia].
    assert (Hset : (length rep - i - 1 < length nd)%nat) by lia.
    destruct (IH (S i) (set_nth (length rep - i - 1) (Some e) nd) ltac:(lia)) as [H1 H2]; [rewrite length_set_nth; assumption|].
    split; [exact H1|]. intros j Hj. rewrite H2 by exact Hj. rewrite nth_error_set_nth by exact Hset.
    destruct (Nat.leb_spec (length rep - S i - n) j), (Nat.ltb_spec j (length rep - S i)), (Nat.leb_spec (length rep - i - S n) j), (Nat.ltb_spec j (length rep - i)), (Nat.eqb_spec j (length rep - i - 1));
      cbn [andb]; try lia; try reflexivity.
    subst j. replace (length rep - 1 - (length rep - i - 1))%nat with i by lia. rewrite Ee. reflexivity.
Qed.
Lemma show_desc rep : forall j, (j < length rep)%nat -> nth_error (show_rows 0 false rep) j =
  Some (if Nat.ltb j (length rep - length rep / 2) then None else nth_error rep (length rep - 1 - j)).
Proof.
  intros j Hj. unfold show_rows. change (cut_count 0 rep) with rep.
  pose proof (Nat.div_le_upper_bound (length rep) 2 (length rep) ltac:(lia) ltac:(lia)) as Hd.
  destruct (reverse_loop_spec rep (length rep / 2) 0 (repeat None (length rep)) ltac:(lia) (repeat_length _ _)) as [_ H].
  rewrite H by exact Hj. rewrite !Nat.sub_0_r.
  destruct (Nat.leb_spec (length rep - length rep / 2) j), (Nat.ltb_spec j (length rep)), (Nat.ltb_spec j (length rep - length rep / 2)); cbn [andb]; try lia; try reflexivity.
  rewrite nth_error_repeat by lia. reflexivity.
Qed.
Lemma show_desc_panics rep : rep <> [] -> print_rows (show_rows 0 false rep) = Panic.
Proof.
  intros Hn. assert (Hl : (0 < length rep)%nat) by (destruct rep; [congruence|cbn; lia]).
  pose proof (show_desc rep 0 Hl) as H. pose proof (Nat.div_lt (length rep) 2 Hl ltac:(lia)).
  rewrite (proj2 (Nat.ltb_lt 0 _)) in H by lia. destruct (show_rows 0 false rep) as [|[e|] l]; cbn in H; try discriminate. reflexivity.
Qed.
Lemma cut_count_spec count rep :
  (0 < count -> cut_count count rep = firstn (Z.to_nat count) rep) /\
  (count < 0 -> cut_count count rep = skipn (length rep - Z.to_nat (- count)) rep) /\
  (count = 0 -> cut_count count rep = rep).
Proof.
  unfold cut_count. split; [|split]; intros H.
  - rewrite (proj2 (Z.ltb_lt 0 count) H), (proj2 (Z.ltb_ge count 0)) by lia. cbn [andb].
    destruct (Z.ltb_spec count (Z.of_nat (length rep))); [reflexivity|]. rewrite firstn_all2 by lia. reflexivity.
  - rewrite (proj2 (Z.ltb_ge 0 count)), (proj2 (Z.ltb_lt count 0) H) by lia. cbn [andb].
    destruct (Z.ltb_spec (- count) (Z.of_nat (length rep))).
    + f_equal. lia.
    + replace (length rep - Z.to_nat (- count))%nat with 0%nat by lia. reflexivity.
  - subst count. reflexivity.
Qed.
Lemma print_rows_some l : print_rows (map Some l) = Ok l.
Proof. induction l as [|e l IH]; [reflexivity|]. cbn [map print_rows]. rewrite IH. reflexivity. Qed.
