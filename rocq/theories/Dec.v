(** * Dec: decimal rendering and reading of integers (Go's fmt %d, %0wd, and digit strings).

    Models the parts of Go's [fmt]/[strconv] that the code relies on; used by builder.go:90,100-101,
    date.go:15,43,58,258, parser.go and the printers. *)
From Verif Require Import Base.

(** Digits of a non-negative integer, most significant first, without leading zeros ("0" for 0). *)
Fixpoint dec_aux (fuel : nat) (n : Z) (acc : str) : str :=
  match fuel with
  | O => acc
  | S f => let acc' := (48 + n mod 10) :: acc in
           if n / 10 =? 0 then acc' else dec_aux f (n / 10) acc'
  end.
Definition dec (n : Z) : str := dec_aux (S (Z.to_nat (Z.log2 n))) n [].

(** fmt "%d" *)
Definition fmt_d (z : Z) : str := if z <? 0 then 45 :: dec (- z) else dec z.

(** fmt "%0wd": zero padding to width w, the sign counts. *)
Definition zpad (w : nat) (s : str) : str := repeat 48 (w - length s) ++ s.
Definition fmt_0d (w : nat) (z : Z) : str :=
  if z <? 0 then 45 :: zpad (w - 1) (dec (- z)) else zpad w (dec z).

Definition is_dig (c : Z) : bool := (48 <=? c) && (c <=? 57).

(** Value of a digit string read left to right. *)
Definition digval (s : str) : Z := fold_left (fun v c => 10 * v + (c - 48)) s 0.

(** ** Facts *)
Lemma digval_app a b : digval (a ++ b) = digval a * 10 ^ Z.of_nat (length b) + digval b.
Proof.
  unfold digval. rewrite fold_left_app. generalize (fold_left (fun v c => 10 * v + (c - 48)) a 0) as x.
  induction b as [|c b IH] using rev_ind; intros x.
  - cbn. lia.
  - rewrite !fold_left_app, app_length. cbn [fold_left length]. rewrite IH.
    rewrite Nat2Z.inj_add, Z.pow_add_r by lia. change (10 ^ Z.of_nat 1) with 10. ring.
Qed.
Lemma digval_cons c s : digval (c :: s) = (c - 48) * 10 ^ Z.of_nat (length s) + digval s.
Proof. change (c :: s) with ([c] ++ s). rewrite digval_app. unfold digval at 1. cbn [fold_left]. ring. Qed.
Lemma digval_nonneg s : Forall (fun c => is_dig c = true) s -> 0 <= digval s < 10 ^ Z.of_nat (length s).
Proof.
  induction 1 as [|c s Hc Hs IH]; [cbn; lia|].
  rewrite digval_cons. cbn [length]. rewrite Nat2Z.inj_succ, Z.pow_succ_r by lia.
  unfold is_dig in Hc. apply andb_true_iff in Hc as [H1 H2].
  apply Z.leb_le in H1. apply Z.leb_le in H2. nia.
Qed.

Lemma dec_aux_spec fuel : forall n acc, 0 <= n -> n < 2 ^ Z.of_nat fuel ->
  (exists p, dec_aux fuel n acc = p ++ acc /\ digval p = n /\ Forall (fun c => is_dig c = true) p
             /\ (n <> 0 -> exists c p', p = c :: p' /\ c <> 48)
             /\ (fuel <> O -> n = 0 -> p = [48])).
Proof.
  induction fuel as [|f IH]; intros n acc Hn Hf.
  - cbn in Hf. assert (n = 0) by lia. subst. exists []. cbn. repeat split; try lia; try constructor; congruence.
  - cbn [dec_aux].
    assert (Hm : 0 <= n mod 10 < 10) by (apply Z.mod_pos_bound; lia).
    pose proof (Z.div_mod n 10 ltac:(lia)) as Hdm.
    assert (Hdig : is_dig (48 + n mod 10) = true).
    { unfold is_dig. apply andb_true_iff. split; apply Z.leb_le; lia. }
    destruct (n / 10 =? 0) eqn:E.
    + apply Z.eqb_eq in E. exists [48 + n mod 10]. repeat split.
      * unfold digval. cbn [fold_left]. lia.
      * constructor; [exact Hdig|constructor].
      * intros Hnz. eexists _, _. split; [reflexivity|]. lia.
      * intros _ ->. reflexivity.
    + apply Z.eqb_neq in E.
      assert (Hq : 0 <= n / 10) by (apply Z.div_pos; lia).
      destruct (IH (n / 10) ((48 + n mod 10) :: acc) Hq) as (p & Hp & Hv & Hd & Hlead & _).
      { rewrite Nat2Z.inj_succ, Z.pow_succ_r in Hf by lia.
        apply Z.div_lt_upper_bound; lia. }
      exists (p ++ [48 + n mod 10]). repeat split.
      * rewrite Hp, <- app_assoc. reflexivity.
      * rewrite digval_app, Hv. unfold digval. cbn [fold_left length]. change (10 ^ Z.of_nat 1) with 10. lia.
      * apply Forall_app. split; [exact Hd|]. constructor; [exact Hdig|constructor].
      * intros _. destruct (Hlead E) as (c & p' & -> & Hc). exists c, (p' ++ [48 + n mod 10]).
        split; [reflexivity|exact Hc].
      * intros _ ->. cbn in E. lia.
Qed.

Lemma dec_spec n : 0 <= n ->
  digval (dec n) = n /\ Forall (fun c => is_dig c = true) (dec n) /\ dec n <> []
  /\ (n <> 0 -> exists c p', dec n = c :: p' /\ c <> 48) /\ (n = 0 -> dec n = [48]).
Proof.
  intros Hn. unfold dec.
  destruct (dec_aux_spec (S (Z.to_nat (Z.log2 n))) n []) as (p & Hp & Hv & Hd & Hl & H0).
  - exact Hn.
  - rewrite Nat2Z.inj_succ, Z2Nat.id by apply Z.log2_nonneg.
    destruct (Z.eq_dec n 0) as [->|Hz]; [cbn; lia|]. apply Z.log2_spec. lia.
  - rewrite app_nil_r in Hp. rewrite Hp. repeat split; auto.
    destruct (Z.eq_dec n 0) as [->|Hz].
    + rewrite H0; congruence.
    + destruct (Hl Hz) as (c & p' & -> & _). discriminate.
Qed.
Lemma dec_val n : 0 <= n -> digval (dec n) = n.
Proof. intros H. apply dec_spec; exact H. Qed.
Lemma dec_digits n : 0 <= n -> Forall (fun c => is_dig c = true) (dec n).
Proof. intros H. apply (dec_spec n H). Qed.
Lemma dec_nonempty n : 0 <= n -> dec n <> [].
Proof. intros H. apply (dec_spec n H). Qed.
Lemma dec_inj a b : 0 <= a -> 0 <= b -> dec a = dec b -> a = b.
Proof. intros Ha Hb H. rewrite <- (dec_val a Ha), <- (dec_val b Hb), H. reflexivity. Qed.

Lemma dec_lower n : 0 < n -> 10 ^ (Z.of_nat (length (dec n)) - 1) <= n.
Proof.
  intros Hn. destruct (dec_spec n) as (Hv & Hd & _ & Hl & _); [lia|].
  destruct (Hl ltac:(lia)) as (c & p & Hp & Hc). rewrite Hp in *.
  rewrite <- Hv. rewrite digval_cons. cbn [length]. rewrite Nat2Z.inj_succ.
  replace (Z.succ (Z.of_nat (length p)) - 1) with (Z.of_nat (length p)) by lia.
  inversion Hd as [|? ? Hc1 Hp1]; subst. pose proof (digval_nonneg p Hp1) as Hb.
  unfold is_dig in Hc1. apply andb_true_iff in Hc1 as [H1 H2]. apply Z.leb_le in H1.
  assert (0 < 10 ^ Z.of_nat (length p)) by (apply Z.pow_pos_nonneg; lia). nia.
Qed.
(** Number of digits. *)
Lemma dec_length_le n (k : nat) : 0 <= n -> (0 < k)%nat -> n < 10 ^ Z.of_nat k -> (length (dec n) <= k)%nat.
Proof.
  intros Hn Hk Hlt. destruct (Z.eq_dec n 0) as [->|Hz].
  - cbn. lia.
  - pose proof (dec_lower n ltac:(lia)) as Hl.
    assert (10 ^ (Z.of_nat (length (dec n)) - 1) < 10 ^ Z.of_nat k) as H by lia.
    apply Z.pow_lt_mono_r_iff in H; lia.
Qed.

Lemma fmt_d_inj a b : fmt_d a = fmt_d b -> a = b.
Proof.
  unfold fmt_d. destruct (Z.ltb_spec a 0), (Z.ltb_spec b 0); intros E.
  - injection E as E. apply dec_inj in E; lia.
  - exfalso. destruct (dec_spec b) as (_ & Hd & _); [lia|]. rewrite <- E in Hd.
    inversion Hd as [|? ? H1 _]. cbn in H1. discriminate.
  - exfalso. destruct (dec_spec a) as (_ & Hd & _); [lia|]. rewrite E in Hd.
    inversion Hd as [|? ? H1 _]. cbn in H1. discriminate.
  - apply dec_inj; auto.
Qed.

Lemma digval_zeros k s : digval (repeat 48 k ++ s) = digval s.
Proof.
  rewrite digval_app. replace (digval (repeat 48 k)) with 0; [ring|].
  induction k as [|k IH]; [reflexivity|]. cbn [repeat]. rewrite digval_cons, <- IH. ring.
Qed.
Lemma zpad_val w n : 0 <= n -> digval (zpad w (dec n)) = n.
Proof. intros H. unfold zpad. rewrite digval_zeros. apply dec_val; exact H. Qed.
Lemma zpad_digits w n : 0 <= n -> Forall (fun c => is_dig c = true) (zpad w (dec n)).
Proof.
  intros H. unfold zpad. apply Forall_app. split; [|apply dec_digits; exact H].
  rewrite Forall_forall. intros c Hc. apply repeat_spec in Hc. subst. reflexivity.
Qed.
Lemma zpad_length w n : 0 <= n -> (0 < w)%nat -> n < 10 ^ Z.of_nat w -> length (zpad w (dec n)) = w.
Proof.
  intros Hn Hw H. unfold zpad. rewrite app_length, repeat_length.
  pose proof (dec_length_le n w Hn Hw H). lia.
Qed.

(** Digits never are a blank: used to split "%d %s" keys. *)
Lemma fmt_d_no_space z : Forall (fun c => c <> 32) (fmt_d z).
Proof.
  unfold fmt_d.
  assert (Hx : forall n, 0 <= n -> Forall (fun c => c <> 32) (dec n)).
  { intros n Hn. eapply Forall_impl; [|apply dec_digits; exact Hn].
    intros c Hc ->. cbn in Hc. discriminate. }
  destruct (Z.ltb_spec z 0).
  - constructor; [lia|apply Hx; lia].
  - apply Hx; lia.
Qed.
Lemma split_first_space a b s t :
  Forall (fun c => c <> 32) a -> Forall (fun c => c <> 32) b ->
  a ++ 32 :: s = b ++ 32 :: t -> a = b /\ s = t.
Proof.
  revert b. induction a as [|x a IH]; intros [|y b] Ha Hb H; cbn in H.
  - injection H as ->. auto.
  - injection H as <- _. inversion Hb; congruence.
  - injection H as -> _. inversion Ha; congruence.
  - injection H as -> H. inversion Ha; inversion Hb; subst.
    destruct (IH b) as [-> ->]; auto.
Qed.
