(** * SortProofs: hexadecimal keys of fixed width, and float64 rounding. *)
From Coq Require Import Qround Qabs Lqa.
From Verif Require Import Base Dec PriceModel BookModel BookSpec BookProofs RegisterModel ExportModel ExportSpec ExportProofs F64Model F64Spec F64Proofs
  AccumModel AccumSpec AccumProofs AccumProofs2 AccumProofs3 AccumProps SortModel SortSpec.

(** ** "%015x" *)
Fixpoint hexw (w : nat) (n : Z) : str := match w with O => [] | S w' => hexw w' (n / 16) ++ [hex_digit (n mod 16)] end.
Lemma hexw_len w : forall n, length (hexw w n) = w.
Proof. induction w as [|w IH]; intros n; [reflexivity|]. cbn [hexw]. rewrite app_length, IH. cbn [length]. lia. Qed.
Lemma str_cmp_app_same p a b : str_cmp (p ++ a) (p ++ b) = str_cmp a b.
Proof. induction p as [|c p IH]; [reflexivity|]. cbn [app str_cmp]. rewrite Z.compare_refl. exact IH. Qed.
Lemma str_cmp_app_len a b x y : length a = length b -> str_cmp (a ++ x) (b ++ y) = match str_cmp a b with Eq => str_cmp x y | c => c end.
Proof.
  revert b. induction a as [|c a IH]; intros [|e b] H; try discriminate; [reflexivity|]. cbn [app str_cmp]. destruct (c ?= e); [apply IH; injection H as ->; reflexivity|reflexivity..].
Qed.
Lemma hex_digit_lt a b : 0 <= a < 16 -> 0 <= b < 16 -> a < b -> hex_digit a < hex_digit b.
Proof. intros Ha Hb H. unfold hex_digit. destruct (Z.ltb_spec a 10), (Z.ltb_spec b 10); lia. Qed.
Lemma hexw_lt w : forall a b, 0 <= a -> a < b -> b < 16 ^ Z.of_nat w -> str_cmp (hexw w a) (hexw w b) = Lt.
Proof.
  induction w as [|w IH]; intros a b Ha Hab Hb; [change (16 ^ Z.of_nat 0) with 1 in Hb; lia|]. cbn [hexw]. rewrite str_cmp_app_len by (rewrite !hexw_len; reflexivity).
  assert (Hp : 16 ^ Z.of_nat (S w) = 16 * 16 ^ Z.of_nat w) by (rewrite Nat2Z.inj_succ, Z.pow_succ_r by lia; reflexivity).
  destruct (Z.eq_dec (a / 16) (b / 16)) as [E|N].
  - rewrite E, (lc_refl _ str_cmp_lin). cbn [str_cmp]. pose proof (Z.div_mod a 16 ltac:(lia)). pose proof (Z.div_mod b 16 ltac:(lia)).
    pose proof (hex_digit_lt (a mod 16) (b mod 16) (Z.mod_pos_bound a 16 ltac:(lia)) (Z.mod_pos_bound b 16 ltac:(lia)) ltac:(lia)) as H1. apply Z.compare_lt_iff in H1. rewrite H1. reflexivity.
  - rewrite IH; [reflexivity|apply Z.div_pos; lia| |apply Z.div_lt_upper_bound; lia]. pose proof (Z.div_le_mono a b 16 ltac:(lia) ltac:(lia)). lia.
Qed.
Lemma hexw_zero w : hexw w 0 = repeat 48 w.
Proof. induction w as [|w IH]; [reflexivity|]. cbn [hexw]. change (0 / 16) with 0. rewrite IH. change [hex_digit (0 mod 16)] with (repeat 48 1). rewrite <- repeat_app. f_equal. lia. Qed.
Lemma hex_aux_w : forall w fuel n acc, 0 <= n < 16 ^ Z.of_nat w -> n < 2 ^ Z.of_nat fuel -> (0 < n \/ (0 < w /\ 0 < fuel)%nat) ->
  exists k, (k <= w)%nat /\ hex_aux fuel n acc = hexw k n ++ acc /\ hexw w n = repeat 48 (w - k) ++ hexw k n.
Proof.
  induction w as [|w IH]; intros fuel n acc Hn Hf Hw; [change (16 ^ Z.of_nat 0) with 1 in Hn; lia|].
  destruct fuel as [|f]; [change (2 ^ Z.of_nat 0) with 1 in Hf; lia|]. cbn [hex_aux].
  assert (Hp : 16 ^ Z.of_nat (S w) = 16 * 16 ^ Z.of_nat w) by (rewrite Nat2Z.inj_succ, Z.pow_succ_r by lia; reflexivity).
  assert (Hq : 2 ^ Z.of_nat (S f) = 2 * 2 ^ Z.of_nat f) by (rewrite Nat2Z.inj_succ, Z.pow_succ_r by lia; reflexivity).
  destruct (Z.eqb_spec (n / 16) 0) as [E|N].
  - exists 1%nat. split; [lia|]. cbn [hexw app]. split; [reflexivity|]. rewrite E, hexw_zero. replace (S w - 1)%nat with w by lia. reflexivity.
  - assert (H16 : 0 <= n / 16) by (apply Z.div_pos; lia). assert (Hlt : n / 16 < 2 ^ Z.of_nat f) by (apply Z.div_lt_upper_bound; lia).
    destruct (IH f (n / 16) (hex_digit (n mod 16) :: acc)) as (k & Hk & E1 & E2); [split; [exact H16|apply Z.div_lt_upper_bound; lia]|exact Hlt|left; lia|].
    exists (S k). split; [lia|]. cbn [hexw]. split; [rewrite E1, <- app_assoc; reflexivity|]. rewrite E2. replace (S w - S k)%nat with (w - k)%nat by lia. rewrite <- app_assoc. reflexivity.
Qed.
Lemma fmt_0x_w w n : (0 < w)%nat -> 0 <= n < 16 ^ Z.of_nat w -> fmt_0x w n = hexw w n.
Proof.
  intros Hw Hn. unfold fmt_0x. destruct (Z.ltb_spec n 0); [lia|]. unfold hex, zpad.
  destruct (hex_aux_w w (S (Z.to_nat (Z.log2 n))) n [] Hn) as (k & Hk & E1 & E2); [|right; lia|].
  - rewrite Nat2Z.inj_succ, Z2Nat.id by apply Z.log2_nonneg. destruct (Z.eq_dec n 0) as [->|]; [reflexivity|]. apply Z.log2_spec. lia.
  - rewrite E1, app_nil_r, hexw_len, E2. reflexivity.
Qed.
Definition in_key_range (m : Z) : Prop := 10 ^ 15 - 16 ^ 15 < m <= 10 ^ 15.
Lemma sort_order_w micro v : in_key_range (micro v) -> get_sort_order micro v = hexw 15 (10 ^ 15 - micro v).
Proof.
  intros H. unfold in_key_range in H. unfold get_sort_order. change (1000000000 * 1000000) with (10 ^ 15).
  assert (E : wrap64 (10 ^ 15 - micro v) = 10 ^ 15 - micro v). { unfold wrap64. rewrite Z.mod_small; [lia|]. change (2 ^ 63) with 9223372036854775808. change (2 ^ 64) with 18446744073709551616. change (10 ^ 15) with 1000000000000000 in *. change (16 ^ 15) with 1152921504606846976 in *. lia. }
  rewrite E. apply fmt_0x_w; [lia|]. change (Z.of_nat 15) with 15. lia.
Qed.
Lemma sort_order_lt micro v w : in_key_range (micro v) -> in_key_range (micro w) -> micro w < micro v ->
  str_cmp (get_sort_order micro v) (get_sort_order micro w) = Lt /\ length (get_sort_order micro v) = 15%nat /\ length (get_sort_order micro w) = 15%nat.
Proof.
  intros Hv Hw H. rewrite !sort_order_w by assumption. rewrite !hexw_len. split; [|auto]. apply hexw_lt; unfold in_key_range in *; change (Z.of_nat 15) with 15; lia.
Qed.

(** ** the keys above an account *)
Definition ord_of (micro : Qc -> Z) (vals : list (str * Qc)) (k : str) : str := match aget str_eqb k vals with Some v => get_sort_order micro v | None => [] end.
Lemma aget_mem {V} k (m : list (str * V)) : mem_str k (map fst m) = match aget str_eqb k m with Some _ => true | None => false end.
Proof.
  unfold mem_str. induction m as [|[x v] m IH]; [reflexivity|]. cbn [map fst existsb aget]. rewrite (str_eqb_sym x k). destruct (str_eqb k x); [reflexivity|exact IH].
Qed.
Lemma has_prefix_hd c r d : has_prefix (c :: r) [d] = (d =? c).
Proof. cbn [has_prefix]. destruct (d =? c); [destruct r|]; reflexivity. Qed.
Lemma sort_parts_hits micro vals d : forall rest done,
  sort_parts micro vals [d] done rest = map (ord_of micro vals) (hits (map fst vals) d done rest) ++ match aget str_eqb (done ++ rest) vals with Some v => [get_sort_order micro v] | None => [] end.
Proof.
  induction rest as [|c rest IH]; intros done.
  - cbn [sort_parts nonempty andb hits map app]. rewrite app_nil_r. reflexivity.
  - cbn [sort_parts hits nonempty andb]. rewrite has_prefix_hd, IH, map_app, <- !app_assoc. cbn [app]. f_equal.
    rewrite aget_mem. unfold ord_of. destruct (d =? c); cbn [negb andb]; [|reflexivity]. destruct (aget str_eqb done vals) eqn:E; cbn [map]; [rewrite E|]; reflexivity.
Qed.
Lemma sorted_same_members (l : list str) : forall m, StronglySorted (fun a b : str => (length a < length b)%nat) l -> StronglySorted (fun a b : str => (length a < length b)%nat) m ->
  (forall x, In x l <-> In x m) -> l = m.
Proof.
  induction l as [|a l IH]; intros m Hl Hm H.
  - destruct m as [|b m]; [reflexivity|]. destruct (proj2 (H b) (or_introl eq_refl)).
  - destruct m as [|b m]; [destruct (proj1 (H a) (or_introl eq_refl))|].
    apply StronglySorted_inv in Hl as [Hl Ha]. apply StronglySorted_inv in Hm as [Hm Hb]. rewrite Forall_forall in Ha, Hb.
    assert (a = b). { destruct (proj1 (H a) (or_introl eq_refl)) as [|Hin]; [congruence|]. destruct (proj2 (H b) (or_introl eq_refl)) as [|Hin']; [congruence|]. pose proof (Hb _ Hin). pose proof (Ha _ Hin'). lia. }
    subst b. f_equal. apply IH; [exact Hl|exact Hm|]. intros x. specialize (H x). cbn [In] in H. split; intros Hx.
    + destruct (proj1 H (or_intror Hx)) as [<-|]; [pose proof (Ha _ Hx); lia|assumption].
    + destruct (proj2 H (or_intror Hx)) as [<-|]; [pose proof (Hb _ Hx); lia|assumption].
Qed.
(** the chain of keys strictly above a (non-empty) account *)
Definition chain (vals : list (str * Qc)) (d : Z) (a : str) : list str := match a with [] => [] | c :: r => hits (map fst vals) d [c] r end.
Lemma chain_In vals d a k : In k (chain vals d a) <-> In k (map fst vals) /\ k <> [] /\ below d k a.
Proof.
  destruct a as [|c r]; cbn [chain].
  - split; [intros []|]. intros (_ & _ & (y & E)). destruct k; discriminate.
  - rewrite hits_In. split.
    + intros (H & x & y & -> & ->). split; [exact H|]. split; [discriminate|]. exists y. reflexivity.
    + intros (H & Hn & (y & E)). split; [exact H|]. destruct k as [|c' k]; [congruence|]. injection E as <- E. exists k, y. split; [exact E|reflexivity].
Qed.
Lemma chain_eq vals d a b : (forall k, In k (map fst vals) -> (below d k a <-> below d k b)) -> chain vals d a = chain vals d b.
Proof.
  intros H. apply sorted_same_members.
  - destruct a; [constructor|apply hits_sorted].
  - destruct b; [constructor|apply hits_sorted].
  - intros k. rewrite !chain_In. split; intros (H1 & H2 & H3); (split; [exact H1|split; [exact H2|apply H; assumption]]).
Qed.
Lemma order_at micro vals d a v : a <> [] -> aget str_eqb a vals = Some v ->
  get_sort_order_string micro vals a [d] = join [d] (map (ord_of micro vals) (chain vals d a) ++ [get_sort_order micro v]).
Proof.
  intros Hn Hv. destruct a as [|c r]; [congruence|]. cbn [get_sort_order_string chain]. rewrite sort_parts_hits. cbn [app]. rewrite Hv. reflexivity.
Qed.
Lemma join_snoc s l : exists p, forall x, join s (l ++ [x]) = p ++ x.
Proof.
  induction l as [|y l (p & IH)]; [exists []; reflexivity|]. exists (y ++ s ++ p). intros x. specialize (IH x). cbn [app]. destruct (l ++ [x]) as [|z m] eqn:E; [destruct l; discriminate|].
  cbn [join]. cbn [join] in IH. rewrite IH, <- !app_assoc. reflexivity.
Qed.
Lemma order_below micro vals d k a : at_or_below d k a -> exists z, get_sort_order_string micro vals a [d] = get_sort_order_string micro vals k [d] ++ z.
Proof. intros [->|(y & ->)]; [exists []; rewrite app_nil_r; reflexivity|apply sort_below]. Qed.
Lemma siblings_order micro vals d r s x y v w : r <> [] -> s <> [] -> aget str_eqb r vals = Some v -> aget str_eqb s vals = Some w ->
  (forall k, In k (map fst vals) -> (below d k r <-> below d k s)) ->
  in_key_range (micro v) -> in_key_range (micro w) -> micro w < micro v -> at_or_below d r x -> at_or_below d s y ->
  str_cmp (get_sort_order_string micro vals x [d]) (get_sort_order_string micro vals y [d]) = Lt.
Proof.
  intros Hr Hs Hv Hw Hc R1 R2 Hlt Hx Hy. destruct (order_below micro vals d r x Hx) as (z1 & ->). destruct (order_below micro vals d s y Hy) as (z2 & ->).
  rewrite (order_at _ _ _ _ _ Hr Hv), (order_at _ _ _ _ _ Hs Hw), (chain_eq vals d r s Hc). destruct (join_snoc [d] (map (ord_of micro vals) (chain vals d s))) as (p & Ep). rewrite !Ep, <- !app_assoc, str_cmp_app_same.
  destruct (sort_order_lt micro v w R1 R2 Hlt) as (E & L1 & L2). rewrite str_cmp_app_len by congruence. rewrite E. reflexivity.
Qed.

(** ** float64 *)
Lemma err_bound q B : (0 <= B)%Q -> (B <= inject_Z (10 ^ 300))%Q -> (Qabs (this q) <= B)%Q -> (Qabs (this (to_f64 q) - this q) <= / inject_Z (10 ^ 300) + B / inject_Z (2 ^ 53))%Q.
Proof.
  intros B0 B1 Hq. assert (D : (0 <= B / inject_Z (2 ^ 53))%Q) by (apply Qle_shift_div_l; [reflexivity|lra]). assert (I : (0 <= / inject_Z (10 ^ 300))%Q) by (vm_compute; congruence).
  destruct (Qlt_le_dec (Qabs (this q)) (/ inject_Z (10 ^ 300))) as [S|L].
  - pose proof (err_abs q). set (e := (/ inject_Z (10 ^ 300))%Q) in *. lra.
  - pose proof (err_rel q L ltac:(eapply Qle_trans; eassumption)) as E. assert (E' : (Qabs (this (to_f64 q) - this q) <= B / inject_Z (2 ^ 53))%Q) by (apply Qle_shift_div_l; [reflexivity|eapply Qle_trans; eassumption]).
    set (e := (/ inject_Z (10 ^ 300))%Q) in *. lra.
Qed.
Definition scaled_f (v : Qc) : Qc := to_f64 (to_f64 v * qz 1000000)%Qc.
Lemma scaled_near v : (Qabs (this v) <= inject_Z (10 ^ 9))%Q -> (Qabs (this (scaled_f v) - this v * inject_Z 1000000) <= 1 # 4)%Q.
Proof.
  intros Hv. pose proof (err_bound v (inject_Z (10 ^ 9)) ltac:(vm_compute; congruence) ltac:(vm_compute; congruence) Hv) as E1.
  assert (E1' : (Qabs (this (to_f64 v) - this v) <= 112 # 1000000000)%Q) by (eapply Qle_trans; [exact E1|vm_compute; congruence]). clear E1.
  assert (Et : (this (to_f64 v * qz 1000000)%Qc == this (to_f64 v) * inject_Z 1000000)%Q) by (rewrite this_mult, this_qz; reflexivity).
  apply Qabs_Qle_condition in Hv. apply Qabs_Qle_condition in E1'. change (inject_Z (10 ^ 9)) with (1000000000 # 1)%Q in Hv.
  assert (Hb : (Qabs (this (to_f64 v * qz 1000000)%Qc) <= inject_Z (10 ^ 15 + 1))%Q). { rewrite Et. apply Qabs_Qle_condition. change (inject_Z 1000000) with (1000000 # 1)%Q. change (inject_Z (10 ^ 15 + 1)) with (1000000000000001 # 1)%Q. lra. }
  pose proof (err_bound _ (inject_Z (10 ^ 15 + 1)) ltac:(vm_compute; congruence) ltac:(vm_compute; congruence) Hb) as E2.
  assert (E2' : (Qabs (this (scaled_f v) - this (to_f64 v * qz 1000000)%Qc) <= 1 # 8)%Q) by (eapply Qle_trans; [exact E2|vm_compute; congruence]). clear E2. rewrite Et in E2'.
  apply Qabs_Qle_condition in E2'. apply Qabs_Qle_condition. change (inject_Z 1000000) with (1000000 # 1)%Q in *. lra.
Qed.
Lemma trunc_facts (x : Q) : let T := Z.quot (Qnum x) (Zpos (Qden x)) in (x - 1 < inject_Z T)%Q /\ (inject_Z T < x + 1)%Q /\ (Qabs (inject_Z T) <= Qabs x)%Q.
Proof.
  destruct x as [n d]. cbn [Qnum Qden]. cbv zeta. pose proof (Z.quot_rem n (Zpos d) ltac:(lia)) as E. pose proof (Z.rem_bound_abs n (Zpos d) ltac:(lia)) as B. pose proof (Z.rem_sign_nz n (Zpos d) ltac:(lia)) as Sg.
  set (T := Z.quot n (Zpos d)) in *. set (R := Z.rem n (Zpos d)) in *. unfold Qlt, Qle, Qabs, Qminus, Qplus, Qopp, inject_Z. cbn [Qnum Qden].
  assert (HS : R = 0 \/ (0 < R /\ 0 < n) \/ (R < 0 /\ n < 0)). { destruct (Z.eq_dec R 0); [auto|]. specialize (Sg n0). destruct (Z.sgn_spec R) as [[? ?]|[[? ?]|[? ?]]], (Z.sgn_spec n) as [[? ?]|[[? ?]|[? ?]]]; lia. }
  assert (HT : Z.abs T * Z.pos d <= Z.abs n).
  { assert (Z.abs (Zpos d * T) = Zpos d * Z.abs T) by (rewrite Z.abs_mul; reflexivity). destruct HS as [H0|[[H1 H2]|[H1 H2]]]; [lia| |].
    - assert (0 <= T) by (apply Z.quot_pos; lia). lia.
    - assert (T <= 0) by (unfold T; rewrite <- (Z.opp_involutive n), Z.quot_opp_l by lia; pose proof (Z.quot_pos (- n) (Zpos d)); lia). lia. }
  repeat split; lia.
Qed.
Lemma micro64_facts v : moderate v -> in_key_range (micro64 v) /\ (this v * inject_Z 1000000 - (5 # 4) < inject_Z (micro64 v))%Q /\ (inject_Z (micro64 v) < this v * inject_Z 1000000 + (5 # 4))%Q.
Proof.
  intros [H1 H2]. unfold Qcle in H1, H2. rewrite this_opp in H1. rewrite this_qz in H1, H2.
  assert (Hv : (Qabs (this v) <= inject_Z (10 ^ 9))%Q) by (apply Qabs_Qle_condition; split; assumption).
  pose proof (scaled_near v Hv) as N. apply Qabs_Qle_condition in N. apply Qabs_Qle_condition in Hv. unfold micro64. fold (scaled_f v). cbv zeta. destruct (trunc_facts (this (scaled_f v))) as (T1 & T2 & T3). cbv zeta in T1, T2, T3.
  set (T := Z.quot (Qnum (this (scaled_f v))) (Zpos (Qden (this (scaled_f v))))) in *. change (inject_Z (10 ^ 9)) with (1000000000 # 1)%Q in Hv. change (inject_Z 1000000) with (1000000 # 1)%Q in *.
  assert (A : (Qabs (this (scaled_f v)) <= 1000000000000000 + (1 # 4))%Q) by (apply Qabs_Qle_condition; lra).
  pose proof (Qle_trans _ _ _ T3 A) as A'. apply Qabs_Qle_condition in A' as [A1 A2]. split; [|split; lra].
  assert (B1 : (- (1000000000000000 + (1 # 4)) <= inject_Z T)%Q) by exact A1. unfold Qle, inject_Z in B1, A2. cbn [Qnum Qden Qplus Qopp] in B1, A2. unfold in_key_range. change (10 ^ 15) with 1000000000000000. change (16 ^ 15) with 1152921504606846976. lia.
Qed.
Lemma micro64_lt v w : moderate v -> moderate w -> clearly_more v w -> micro64 w < micro64 v.
Proof.
  intros Hv Hw H. destruct (micro64_facts v Hv) as (_ & V1 & V2). destruct (micro64_facts w Hw) as (_ & W1 & W2). unfold clearly_more, Qcle in H. rewrite this_plus, this_div, !this_qz in H.
  change (inject_Z 3 / inject_Z (10 ^ 6))%Q with (3 # 1000000)%Q in H. change (inject_Z 1000000) with (1000000 # 1)%Q in *. rewrite Zlt_Qlt. lra.
Qed.

(** ** beyond a thousand million the key is "-" and 14 digits *)
Lemma zpad_hex w n : (0 < w)%nat -> 0 <= n < 16 ^ Z.of_nat w -> zpad w (hex n) = hexw w n.
Proof. intros Hw Hn. pose proof (fmt_0x_w w n Hw Hn) as E. unfold fmt_0x in E. destruct (Z.ltb_spec n 0); [lia|exact E]. Qed.
Definition in_high_range (m : Z) : Prop := 10 ^ 15 < m < 10 ^ 15 + 16 ^ 14.
Lemma sort_order_high micro v : in_high_range (micro v) -> get_sort_order micro v = 45 :: hexw 14 (micro v - 10 ^ 15).
Proof.
  intros H. unfold in_high_range in H. unfold get_sort_order. change (1000000000 * 1000000) with (10 ^ 15).
  assert (E : wrap64 (10 ^ 15 - micro v) = 10 ^ 15 - micro v).
  { unfold wrap64. rewrite Z.mod_small; [lia|]. change (2 ^ 63) with 9223372036854775808. change (2 ^ 64) with 18446744073709551616. change (10 ^ 15) with 1000000000000000 in *. change (16 ^ 14) with 72057594037927936 in *. lia. }
  rewrite E. unfold fmt_0x. destruct (Z.ltb_spec (10 ^ 15 - micro v) 0); [|lia]. replace (- (10 ^ 15 - micro v)) with (micro v - 10 ^ 15) by lia. f_equal.
  change (15 - 1)%nat with 14%nat. apply zpad_hex; [lia|]. change (Z.of_nat 14) with 14. lia.
Qed.
Lemma hexw_hd w n : (0 < w)%nat -> exists c r, hexw w n = c :: r /\ 48 <= c.
Proof.
  revert n. induction w as [|w IH]; intros n H; [lia|]. cbn [hexw]. destruct w as [|w].
  - cbn [hexw app]. eexists _, _. split; [reflexivity|]. unfold hex_digit. pose proof (Z.mod_pos_bound n 16 ltac:(lia)). destruct (n mod 16 <? 10); lia.
  - destruct (IH (n / 16) ltac:(lia)) as (c & r & -> & Hc). eexists _, _. split; [reflexivity|exact Hc].
Qed.
Lemma sort_order_high_lt micro v w : in_high_range (micro v) -> (in_key_range (micro w) \/ (in_high_range (micro w) /\ micro v < micro w)) ->
  str_cmp (get_sort_order micro v) (get_sort_order micro w) = Lt /\ length (get_sort_order micro v) = 15%nat /\ length (get_sort_order micro w) = 15%nat.
Proof.
  intros Hv [Hw|[Hw H]]; rewrite (sort_order_high micro v Hv).
  - rewrite (sort_order_w micro w Hw), hexw_len. cbn [length]. rewrite hexw_len. split; [|auto]. destruct (hexw_hd 15 (10 ^ 15 - micro w) ltac:(lia)) as (c & r & -> & Hc). cbn [str_cmp].
    replace (45 ?= c) with Lt by (symmetry; apply Z.compare_lt_iff; lia). reflexivity.
  - rewrite (sort_order_high micro w Hw). cbn [length str_cmp]. rewrite !hexw_len, Z.compare_refl. split; [|auto]. unfold in_high_range in *. apply hexw_lt; change (Z.of_nat 14) with 14; lia.
Qed.
Lemma siblings_order_gen micro vals d r s x y v w : r <> [] -> s <> [] -> aget str_eqb r vals = Some v -> aget str_eqb s vals = Some w ->
  (forall k, In k (map fst vals) -> (below d k r <-> below d k s)) ->
  str_cmp (get_sort_order micro v) (get_sort_order micro w) = Lt /\ length (get_sort_order micro v) = 15%nat /\ length (get_sort_order micro w) = 15%nat ->
  at_or_below d r x -> at_or_below d s y ->
  str_cmp (get_sort_order_string micro vals x [d]) (get_sort_order_string micro vals y [d]) = Lt.
Proof.
  intros Hr Hs Hv Hw Hc (E & L1 & L2) Hx Hy. destruct (order_below micro vals d r x Hx) as (z1 & ->). destruct (order_below micro vals d s y Hy) as (z2 & ->).
  rewrite (order_at _ _ _ _ _ Hr Hv), (order_at _ _ _ _ _ Hs Hw), (chain_eq vals d r s Hc). destruct (join_snoc [d] (map (ord_of micro vals) (chain vals d s))) as (p & Ep). rewrite !Ep, <- !app_assoc, str_cmp_app_same.
  rewrite str_cmp_app_len by congruence. rewrite E. reflexivity.
Qed.
Lemma scaled_near_high v : (Qabs (this v) <= inject_Z (7 * 10 ^ 10))%Q -> (Qabs (this (scaled_f v) - this v * inject_Z 1000000) <= 16 # 1)%Q.
Proof.
  intros Hv. pose proof (err_bound v (inject_Z (7 * 10 ^ 10)) ltac:(vm_compute; congruence) ltac:(vm_compute; congruence) Hv) as E1.
  assert (E1' : (Qabs (this (to_f64 v) - this v) <= 78 # 10000000)%Q) by (eapply Qle_trans; [exact E1|vm_compute; congruence]). clear E1.
  assert (Et : (this (to_f64 v * qz 1000000)%Qc == this (to_f64 v) * inject_Z 1000000)%Q) by (rewrite this_mult, this_qz; reflexivity).
  apply Qabs_Qle_condition in Hv. apply Qabs_Qle_condition in E1'. change (inject_Z (7 * 10 ^ 10)) with (70000000000 # 1)%Q in Hv.
  assert (Hb : (Qabs (this (to_f64 v * qz 1000000)%Qc) <= inject_Z (7 * 10 ^ 16 + 8))%Q). { rewrite Et. apply Qabs_Qle_condition. change (inject_Z 1000000) with (1000000 # 1)%Q. change (inject_Z (7 * 10 ^ 16 + 8)) with (70000000000000008 # 1)%Q. lra. }
  pose proof (err_bound _ (inject_Z (7 * 10 ^ 16 + 8)) ltac:(vm_compute; congruence) ltac:(vm_compute; congruence) Hb) as E2.
  assert (E2' : (Qabs (this (scaled_f v) - this (to_f64 v * qz 1000000)%Qc) <= 8 # 1)%Q) by (eapply Qle_trans; [exact E2|vm_compute; congruence]). clear E2. rewrite Et in E2'.
  apply Qabs_Qle_condition in E2'. apply Qabs_Qle_condition. change (inject_Z 1000000) with (1000000 # 1)%Q in *. lra.
Qed.
Lemma micro64_high v : huge v -> in_high_range (micro64 v) /\ (this v * inject_Z 1000000 - (17 # 1) < inject_Z (micro64 v))%Q /\ (inject_Z (micro64 v) < this v * inject_Z 1000000 + (17 # 1))%Q.
Proof.
  intros [H1 H2]. unfold Qcle in H1, H2. rewrite this_qz in H1, H2. change (inject_Z (10 ^ 9 + 1)) with (1000000001 # 1)%Q in H1.
  assert (Hv : (Qabs (this v) <= inject_Z (7 * 10 ^ 10))%Q). { apply Qabs_Qle_condition. change (inject_Z (7 * 10 ^ 10)) with (70000000000 # 1)%Q in *. lra. }
  pose proof (scaled_near_high v Hv) as N. apply Qabs_Qle_condition in N. apply Qabs_Qle_condition in Hv. unfold micro64. fold (scaled_f v). cbv zeta. destruct (trunc_facts (this (scaled_f v))) as (T1 & T2 & _). cbv zeta in T1, T2.
  set (T := Z.quot (Qnum (this (scaled_f v))) (Zpos (Qden (this (scaled_f v))))) in *. change (inject_Z (7 * 10 ^ 10)) with (70000000000 # 1)%Q in *. change (inject_Z 1000000) with (1000000 # 1)%Q in *.
  split; [|split; lra].
  assert (B1 : (inject_Z 1000000000000000 < inject_Z T)%Q) by (change (inject_Z 1000000000000000) with (1000000000000000 # 1)%Q; lra).
  assert (B2 : (inject_Z T < inject_Z 70000000000000018)%Q) by (change (inject_Z 70000000000000018) with (70000000000000018 # 1)%Q; lra).
  rewrite <- Zlt_Qlt in B1, B2. unfold in_high_range. change (10 ^ 15) with 1000000000000000. change (16 ^ 14) with 72057594037927936. lia.
Qed.
Lemma micro64_high_lt v w : huge v -> huge w -> (w + qz 4 / qz (10 ^ 5) <= v)%Qc -> micro64 w < micro64 v.
Proof.
  intros Hv Hw H. destruct (micro64_high v Hv) as (_ & V1 & V2). destruct (micro64_high w Hw) as (_ & W1 & W2). unfold Qcle in H. rewrite this_plus, this_div, !this_qz in H.
  change (inject_Z 4 / inject_Z (10 ^ 5))%Q with (4 # 100000)%Q in H. change (inject_Z 1000000) with (1000000 # 1)%Q in *. rewrite Zlt_Qlt. lra.
Qed.
