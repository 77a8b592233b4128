(** * ExportProofs: printed numbers, dates and lines are in the grammar of the loader. *)
From Coq Require Import Qround Qabs Lqa.
From Verif Require Import Base Dec DateModel DateSpec DateProofs DateProofs2 PriceModel PriceProofs BookModel BookSpec Utf8 LoaderModel LoaderSpec LoaderProofs ExportModel ExportSpec.
From Coq Require Import ZifyBool ZifyNat Zify.
Ltac Zify.zify_post_hook ::= idtac.

(** ** From Qc to Q *)
Lemma this_qz z : (this (qz z) == inject_Z z)%Q.
Proof. unfold qz. cbn [this Q2Qc]. apply Qred_correct. Qed.
Lemma this_plus a b : (this (a + b)%Qc == this a + this b)%Q. Proof. apply Qred_correct. Qed.
Lemma this_mult a b : (this (a * b)%Qc == this a * this b)%Q. Proof. apply Qred_correct. Qed.
Lemma this_opp a : (this (- a)%Qc == - this a)%Q. Proof. apply Qred_correct. Qed.
Lemma this_minus a b : (this (a - b)%Qc == this a - this b)%Q.
Proof. unfold Qcminus. rewrite this_plus, this_opp. reflexivity. Qed.

Lemma round_even_near x n : (Qabs (this x - inject_Z n) < 1 # 2)%Q -> round_even x = n.
Proof.
  intros H. apply Qabs_Qlt_condition in H as [H1 H2]. unfold round_even.
  pose proof (Qfloor_le (this x)) as F1. pose proof (Qlt_floor (this x)) as F2. set (f := Qfloor (this x)) in *.
  assert (Hd : (this (x - qz f)%Qc == this x - inject_Z f)%Q) by (rewrite this_minus, this_qz; reflexivity).
  rewrite inject_Z_plus in F2. change (inject_Z 1) with 1%Q in F2.
  assert (Hf : f = n \/ f = n - 1).
  { assert (A : (inject_Z f < inject_Z (n + 1))%Q) by (rewrite inject_Z_plus; change (inject_Z 1) with 1%Q; lra).
    assert (B : (inject_Z (n - 1) < inject_Z (f + 1))%Q).
    { change (n - 1) with (n + -1). rewrite !inject_Z_plus. change (inject_Z 1) with 1%Q. change (inject_Z (-1)) with (-1#1)%Q. lra. }
    rewrite <- Zlt_Qlt in A, B. lia. }
  destruct Hf as [E|E].
  - assert (C : (this (x - qz f)%Qc < this (Q2Qc (1 # 2)))%Q) by (rewrite Hd, E; cbn [this Q2Qc]; change (Qred (1 # 2)) with (1 # 2)%Q; lra).
    assert (G : (x - qz f ?= Q2Qc (1 # 2))%Qc = Lt) by (apply Qlt_alt; exact C). rewrite G. exact E.
  - assert (C : (this (Q2Qc (1 # 2)) < this (x - qz f)%Qc)%Q).
    { rewrite Hd, E. cbn [this Q2Qc]. change (Qred (1 # 2)) with (1 # 2)%Q. change (n - 1) with (n + -1). rewrite inject_Z_plus. change (inject_Z (-1)) with (-1#1)%Q. lra. }
    assert (G : (x - qz f ?= Q2Qc (1 # 2))%Qc = Gt) by (apply Qgt_alt; exact C). rewrite G. lia.
Qed.

Lemma qc_lt_dec_cases (f : Qc) : ((f ?= 0)%Qc = Lt /\ (this f < 0)%Q) \/ ((f ?= 0)%Qc <> Lt /\ (0 <= this f)%Q).
Proof.
  unfold Qccompare. change (this 0%Qc) with 0%Q. destruct (this f ?= 0)%Q eqn:E.
  - right. split; [discriminate|]. apply Qeq_alt in E. rewrite E. apply Qle_refl.
  - left. split; [reflexivity|]. apply Qlt_alt. exact E.
  - right. split; [discriminate|]. apply Qlt_le_weak. apply Qgt_alt. exact E.
Qed.
Lemma this_qabs q : (this (qabs q) == Qabs (this q))%Q.
Proof.
  unfold qabs. destruct (qc_lt_dec_cases q) as [[-> H]|[E H]].
  - rewrite this_opp, Qabs_neg by (apply Qlt_le_weak; exact H). reflexivity.
  - rewrite Qabs_pos by exact H. destruct (q ?= 0)%Qc; try reflexivity. congruence.
Qed.

(** The float is rounded back to the amount it came from. *)
Lemma pow_inj_pos k : 0 <= k -> (0 < inject_Z (10 ^ k))%Q.
Proof. intros H. change 0%Q with (inject_Z 0). rewrite <- Zlt_Qlt. apply Z.pow_pos_nonneg; lia. Qed.

Lemma round_exact f64 k q n : float64_ok f64 -> 0 <= k <= 17 -> (q * qz (10 ^ k))%Qc = qz n -> Z.abs n <= 10 ^ 15 ->
  exists neg : bool, match (f64 q ?= 0)%Qc with Lt => true | _ => false end = neg /\ neg = (n <? 0) /\
     round_even ((if neg then - f64 q else f64 q) * qz (10 ^ k))%Qc = Z.abs n.
Proof.
  intros [F0 F] Hk Hq Hn. pose proof (pow_inj_pos k ltac:(lia)) as HT.
  assert (HQ : (this q * inject_Z (10 ^ k) == inject_Z n)%Q).
  { rewrite <- (this_qz (10 ^ k)), <- this_mult, Hq. apply this_qz. }
  assert (Hmain : exists neg : bool, match (f64 q ?= 0)%Qc with Lt => true | _ => false end = neg /\ neg = (n <? 0) /\
     round_even ((if neg then - f64 q else f64 q) * qz (10 ^ k))%Qc = Z.abs n).
  { destruct (Z.eq_dec n 0) as [->|Hnz].
    - assert (q = 0%Qc).
      { apply Qc_is_canon. change (this 0%Qc) with 0%Q. change (inject_Z 0) with 0%Q in HQ.
        apply Qmult_integral in HQ as [HQ|HQ]; [exact HQ|]. rewrite HQ in HT. exfalso. apply (Qlt_irrefl 0). exact HT. }
      subst q. rewrite F0. exists false. split; [reflexivity|]. split; [reflexivity|]. apply round_even_near.
      rewrite this_mult. change (this 0%Qc) with 0%Q. rewrite Qmult_0_l. reflexivity.
    - set (T := inject_Z (10 ^ k)) in *. set (N := inject_Z n) in *.
      assert (HT1 : (1 <= T)%Q).
      { unfold T. change 1%Q with (inject_Z 1). rewrite <- Zle_Qle. pose proof (Z.pow_pos_nonneg 10 k). lia. }
      assert (HT2 : (T <= inject_Z (10 ^ 17))%Q) by (unfold T; rewrite <- Zle_Qle; apply Z.pow_le_mono_r; lia).
      assert (HNa : (Qabs N == inject_Z (Z.abs n))%Q).
      { apply (Qabs_case (inject_Z n) (fun y => y == inject_Z (Z.abs n))%Q).
        - intros H. change 0%Q with (inject_Z 0) in H. rewrite <- Zle_Qle in H. rewrite Z.abs_eq by lia. reflexivity.
        - intros H. change 0%Q with (inject_Z 0) in H. rewrite <- Zle_Qle in H. rewrite Z.abs_neq by lia. rewrite inject_Z_opp. reflexivity. }
      assert (HN1 : (1 <= Qabs N)%Q) by (rewrite HNa; change 1%Q with (inject_Z 1); rewrite <- Zle_Qle; lia).
      assert (HN2 : (Qabs N <= inject_Z (10 ^ 15))%Q) by (rewrite HNa, <- Zle_Qle; exact Hn).
      assert (HA : (Qabs (this q) * T == Qabs N)%Q).
      { rewrite <- HQ, Qabs_Qmult, (Qabs_pos T) by (apply Qlt_le_weak; exact HT). reflexivity. }
      set (A := Qabs (this q)) in *.
      assert (A1 : (/ inject_Z (10 ^ 17) <= A)%Q).
      { assert (E : (1 <= A * inject_Z (10 ^ 17))%Q).
        { apply Qle_trans with (A * T)%Q; [rewrite HA; exact HN1|]. rewrite (Qmult_comm A T), (Qmult_comm A _). apply Qmult_le_compat_r; [exact HT2|apply Qabs_nonneg]. }
        setoid_replace (/ inject_Z (10 ^ 17))%Q with (1 / inject_Z (10 ^ 17))%Q by (unfold Qdiv; ring).
        apply Qle_shift_div_r; [reflexivity|exact E]. }
      assert (A2 : (A <= inject_Z (10 ^ 15))%Q).
      { apply Qle_trans with (A * T)%Q; [|rewrite HA; exact HN2]. setoid_replace A with (A * 1)%Q at 1 by ring.
        rewrite (Qmult_comm A 1), (Qmult_comm A T). apply Qmult_le_compat_r; [exact HT1|apply Qabs_nonneg]. }
      specialize (F q). assert (HF : (Qabs (this (f64 q) - this q) * inject_Z (2 ^ 53) <= A)%Q).
      { assert (R : (qabs (f64 q - q) * qz (2 ^ 53) <= qabs q)%Qc).
        { apply F.
          - unfold Qcle. rewrite this_qabs. fold A. apply Qle_trans with (/ inject_Z (10 ^ 17))%Q; [|exact A1]. vm_compute. discriminate.
          - unfold Qcle. rewrite this_qabs, this_qz. fold A. apply Qle_trans with (inject_Z (10 ^ 15)); [exact A2|]. vm_compute. discriminate. }
        unfold Qcle in R. rewrite this_mult, !this_qabs, this_qz, this_minus in R. exact R. }
      set (x := this (f64 q)) in *. set (y := this q) in *.
      assert (HF2 : (Qabs (x * T - N) * inject_Z (2 ^ 53) <= Qabs N)%Q).
      { rewrite <- HQ at 1. setoid_replace (x * T - y * T)%Q with ((x - y) * T)%Q by ring.
        rewrite Qabs_Qmult, (Qabs_pos T) by (apply Qlt_le_weak; exact HT).
        setoid_replace (Qabs (x - y) * T * inject_Z (2 ^ 53))%Q with (Qabs (x - y) * inject_Z (2 ^ 53) * T)%Q by ring.
        rewrite <- HA. apply Qmult_le_compat_r; [exact HF|apply Qlt_le_weak; exact HT]. }
      assert (HD : (Qabs (x * T - N) < 1 # 2)%Q).
      { change (inject_Z (2 ^ 53)) with (9007199254740992 # 1)%Q in HF2. change (inject_Z (10 ^ 15)) with (1000000000000000 # 1)%Q in HN2. lra. }
      apply Qabs_Qlt_condition in HD as [D1 D2].
      destruct (Z.ltb_spec n 0) as [Hneg|Hpos].
      + assert (HNn : (N <= -1 # 1)%Q) by (unfold N; change (-1 # 1)%Q with (inject_Z (-1)); rewrite <- Zle_Qle; lia).
        assert (Hx : (x * T < 0)%Q) by lra.
        assert (Hx0 : (x < 0)%Q).
        { destruct (Qlt_le_dec x 0) as [h|h]; [exact h|exfalso]. pose proof (Qmult_le_0_compat x T h (Qlt_le_weak _ _ HT)). lra. }
        exists true. destruct (qc_lt_dec_cases (f64 q)) as [[-> _]|[_ h]]; [|fold x in h; lra]. split; [reflexivity|]. split; [reflexivity|].
        apply round_even_near. rewrite this_mult, this_opp, this_qz. fold T x. rewrite Z.abs_neq by lia. rewrite inject_Z_opp. fold N.
        apply Qabs_Qlt_condition. split; lra.
      + assert (HNn : (1 <= N)%Q) by (unfold N; change 1%Q with (inject_Z 1); rewrite <- Zle_Qle; lia).
        assert (Hx : (0 < x * T)%Q) by lra.
        assert (Hx0 : (0 <= x)%Q).
        { destruct (Qlt_le_dec x 0) as [h|h]; [exfalso|exact h]. assert (h' : (0 <= - x)%Q) by lra.
          pose proof (Qmult_le_0_compat (- x) T h' (Qlt_le_weak _ _ HT)). lra. }
        exists false. destruct (qc_lt_dec_cases (f64 q)) as [[_ h]|[E _]]; [fold x in h; lra|].
        split; [destruct (f64 q ?= 0)%Qc; congruence|]. split; [reflexivity|].
        apply round_even_near. rewrite this_mult, this_qz. fold T x. rewrite Z.abs_eq by lia. fold N.
        apply Qabs_Qlt_condition. split; lra. }
  exact Hmain.
Qed.
Lemma fmt_exact f64 k q n : float64_ok f64 -> 0 <= k <= 17 -> (q * qz (10 ^ k))%Qc = qz n -> Z.abs n <= 10 ^ 15 ->
  fmt_float k (f64 q) = (if n <? 0 then [45] else []) ++ grouped (dec (Z.abs n / 10 ^ k)) ++
    (if k =? 0 then [] else [46] ++ zpad (Z.to_nat k) (dec (Z.abs n mod 10 ^ k))).
Proof.
  intros Hf Hk Hq Hn. destruct (round_exact f64 k q n Hf Hk Hq Hn) as (neg & E1 & E2 & E3). unfold fmt_float. rewrite E1, E3, E2. reflexivity.
Qed.

(** ** Grouping *)
Lemma filter_all {A} (f : A -> bool) l : Forall (fun x => f x = true) l -> filter f l = l.
Proof. induction 1 as [|x l Hx _ IH]; [reflexivity|]. cbn [filter]. rewrite Hx, IH. reflexivity. Qed.
Lemma group3_spec : forall n l, (length l <= n)%nat -> digits l ->
  grouped_digits (group3 l) /\ no_commas (group3 l) = l /\ (l <> [] -> last (group3 l) 0 <> 44) /\ (l <> [] -> group3 l <> []).
Proof.
  induction n as [|n IH]; intros l Hn Hd.
  - destruct l; [|cbn in Hn; lia]. repeat split; auto. constructor. all: congruence.
  - assert (Hsmall : forall l, digits l -> group3 l = l ->
      grouped_digits (group3 l) /\ no_commas (group3 l) = l /\ (l <> [] -> last (group3 l) 0 <> 44) /\ (l <> [] -> group3 l <> [])).
    { clear. intros l Hd E. rewrite E. split; [eapply Forall_impl; [|exact Hd]; cbn; lia|]. split.
      - unfold no_commas. apply filter_all. eapply Forall_impl; [|exact Hd]. cbn. lia.
      - split; [|auto]. intros Hne. destruct (exists_last Hne) as (l' & x & ->). rewrite last_last. unfold digits in Hd. apply Forall_app in Hd as [_ Hd]. inversion Hd; subst. lia. }
    destruct l as [|a [|b [|c [|d r]]]]; try (apply Hsmall; [exact Hd|reflexivity]).
    inversion Hd as [|? ? Ha Hd1]; subst. inversion Hd1 as [|? ? Hb Hd2]; subst. inversion Hd2 as [|? ? Hc Hd3]; subst.
    destruct (IH (d :: r)) as (I1 & I2 & I3 & I4); [cbn [length] in *; lia|exact Hd3|].
    change (group3 (a :: b :: c :: d :: r)) with (a :: b :: c :: 44 :: group3 (d :: r)).
    split; [|split; [|split]].
    + repeat (constructor; [lia|]). exact I1.
    + unfold no_commas in *. cbn [filter]. rewrite I2. replace (a =? 44) with false by lia. replace (b =? 44) with false by lia. replace (c =? 44) with false by lia. reflexivity.
    + intros _. change (a :: b :: c :: 44 :: group3 (d :: r)) with ([a; b; c; 44] ++ group3 (d :: r)).
      destruct (exists_last (I4 ltac:(discriminate))) as (l' & x & E). specialize (I3 ltac:(discriminate)). rewrite E in *. rewrite app_assoc, last_last. rewrite last_last in I3. exact I3.
    + discriminate.
Qed.
Lemma no_commas_app a b : no_commas (a ++ b) = no_commas a ++ no_commas b.
Proof. apply filter_app. Qed.
Lemma no_commas_rev l : no_commas (rev l) = rev (no_commas l).
Proof. induction l as [|c l IH]; [reflexivity|]. cbn [rev]. rewrite no_commas_app, IH. cbn [no_commas filter]. destruct (negb (c =? 44)); [reflexivity|]. rewrite app_nil_r. reflexivity. Qed.
Lemma grouped_spec s : digits s -> s <> [] -> grouped_digits (grouped s) /\ no_commas (grouped s) = s /\ hd 0 (grouped s) <> 44 /\ grouped s <> [].
Proof.
  intros Hd Hne. assert (Hr : digits (rev s)) by (apply Forall_rev; exact Hd). assert (Hrne : rev s <> []) by (intros E; apply Hne; rewrite <- (rev_involutive s), E; reflexivity).
  destruct (group3_spec (length (rev s)) (rev s) (le_n _) Hr) as (G1 & G2 & G3 & G4). unfold grouped.
  split; [apply Forall_rev; exact G1|]. split; [rewrite no_commas_rev, G2; apply rev_involutive|]. specialize (G3 Hrne). specialize (G4 Hrne).
  destruct (exists_last G4) as (l' & x & E). rewrite E in *. rewrite last_last in G3. rewrite rev_app_distr. split; [exact G3|discriminate].
Qed.
Lemma num_digval s : num_of s = digval s.
Proof. unfold num_of, digval. generalize 0. induction s as [|c s IH]; intros v; [reflexivity|]. cbn [fold_left]. rewrite IH. f_equal. lia. Qed.
Lemma dig_digits s : Forall (fun c => is_dig c = true) s -> digits s.
Proof. intros H. eapply Forall_impl; [|exact H]. unfold is_dig. intros c Hc. cbn in Hc. lia. Qed.
Lemma no_commas_id s : digits s -> no_commas s = s.
Proof. intros H. apply filter_all. eapply Forall_impl; [|exact H]. cbn. lia. Qed.

Lemma fmt_amount_text f64 k q : float64_ok f64 -> short_amount k q -> amount_text (fmt_float k (f64 q)) q.
Proof.
  intros Hf (Hk & n & Hq & Hn). rewrite (fmt_exact f64 k q n Hf Hk Hq Hn).
  pose proof (Z.pow_pos_nonneg 10 k ltac:(lia) ltac:(lia)) as HP.
  pose proof (Z.div_mod (Z.abs n) (10 ^ k) ltac:(lia)) as Hdm. pose proof (Z.mod_pos_bound (Z.abs n) (10 ^ k) HP) as Hmb.
  assert (Ha : 0 <= Z.abs n / 10 ^ k) by (apply Z.div_pos; lia). set (a := Z.abs n / 10 ^ k) in *. set (b := Z.abs n mod 10 ^ k) in *.
  pose proof (dig_digits _ (dec_digits a Ha)) as Hda. destruct (grouped_spec (dec a) Hda (dec_nonempty a Ha)) as (G1 & G2 & G3 & G4).
  assert (Hsign : forall v, v = Z.abs n -> (if n <? 0 then - qz v else qz v)%Qc = qz n).
  { intros v ->. destruct (Z.ltb_spec n 0); [rewrite <- qz_opp; f_equal; lia|f_equal; lia]. }
  destruct (Z.eqb_spec k 0) as [->|Hk0].
  - rewrite app_nil_r. change (10 ^ 0) with 1 in *. assert (Eb : b = 0) by lia. assert (Ea : a = Z.abs n) by lia.
    assert (q = qz n). { rewrite <- Hq. rewrite qz_1. ring. } subst q. rewrite <- (Hsign a Ea).
    apply (amt_int (n <? 0) (grouped (dec a)) a); [exact G1| | |exact G4|exact G3].
    + rewrite G2. rewrite <- (dec_val a Ha) at 2. rewrite <- num_digval. apply digits_value_ex.
    + rewrite G2. apply Nat.le_trans with 16%nat; [|lia]. apply dec_length_le; [exact Ha|lia|]. rewrite Ea. change (10 ^ Z.of_nat 16) with (10 * 10 ^ 15). lia.
  - assert (Hb : 0 <= b) by lia. pose proof (dig_digits _ (zpad_digits (Z.to_nat k) b Hb)) as Hdb.
    assert (Hlb : length (zpad (Z.to_nat k) (dec b)) = Z.to_nat k) by (apply zpad_length; [lia|lia|rewrite Z2Nat.id by lia; lia]).
    apply (amt_dec (n <? 0) (grouped (dec a)) (zpad (Z.to_nat k) (dec b)) (Z.abs n)).
    + exact G1.
    + eapply Forall_impl; [|exact Hdb]. cbn. lia.
    + rewrite G2, (no_commas_id _ Hdb). replace (Z.abs n) with (num_of (dec a ++ zpad (Z.to_nat k) (dec b))); [apply digits_value_ex|].
      rewrite num_digval, digval_app, Hlb, (dec_val a Ha), (zpad_val _ b Hb), Z2Nat.id by lia. lia.
    + rewrite G2, (no_commas_id _ Hdb), app_length, Hlb.
      assert (Hla : (length (dec a) <= Z.to_nat (Z.max 1 (16 - k)))%nat).
      { apply dec_length_le; [exact Ha|lia|]. rewrite Z2Nat.id by lia. apply Z.div_lt_upper_bound; [lia|].
        rewrite <- Z.pow_add_r by lia. apply Z.le_lt_trans with (10 ^ 15); [exact Hn|]. apply Z.pow_lt_mono_r; lia. }
      lia.
    + exact G3.
    + rewrite (no_commas_id _ Hdb), Hlb, Z2Nat.id by lia. rewrite Hq. symmetry. apply Hsign. reflexivity.
Qed.

(** ** Dates *)
Lemma date_text_string d : date_ok d -> date_text (date_string d) d.
Proof.
  intros [H1 H2]. assert (E : d = ymd (d / 10000) (d / 100 mod 100) (d mod 100)).
  { unfold ymd. pose proof (Z.div_mod d 100 ltac:(lia)). pose proof (Z.div_mod (d / 100) 100 ltac:(lia)) as H0. rewrite Z.div_div in H0 by lia. change (100 * 100) with 10000 in H0. lia. }
  assert (By : 0 <= d / 10000 < 10000). { split; [apply Z.div_pos; lia|]. apply Z.div_lt_upper_bound; lia. }
  assert (Bm : 0 <= d / 100 mod 100 < 100) by (apply Z.mod_pos_bound; lia). assert (Bd : 0 <= d mod 100 < 100) by (apply Z.mod_pos_bound; lia).
  set (y := d / 10000) in *. set (m := d / 100 mod 100) in *. set (dd := d mod 100) in *.
  assert (F : forall w x, 0 <= x < 10 ^ Z.of_nat w -> (0 < w)%nat -> digits (fmt_0d w x) /\ length (fmt_0d w x) = w /\ digits_value (fmt_0d w x) x).
  { intros w x Hx Hw. unfold fmt_0d. replace (x <? 0) with false by lia. split; [apply dig_digits, zpad_digits; lia|]. split; [apply zpad_length; lia|].
    replace x with (num_of (zpad w (dec x))) at 2; [apply digits_value_ex|]. rewrite num_digval. apply zpad_val. lia. }
  destruct (F 4%nat y) as (Y1 & Y2 & Y3); [cbn; lia|lia|]. destruct (F 2%nat m) as (M1 & M2 & M3); [cbn; lia|lia|]. destruct (F 2%nat dd) as (D1 & D2 & D3); [cbn; lia|lia|].
  rewrite E at 2. rewrite E. rewrite date_string_ymd; try lia. unfold ymd. apply date_ymd; try assumption; lia.
Qed.
