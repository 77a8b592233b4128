(** * JsonWrite: the text written for a number, a string and a value (C98). *)
From Coq Require Import Qround Qabs Qpower Lqa ZifyBool.
From Verif Require Import Base Dec Utf8 LoaderModel LoaderSpec LoaderProofs ExportModel ExportSpec ExportProofs ConvertModel ConvertSpec F64Model F64Spec F64Proofs JsonModel JsonSpec JsonNum.

(** ** Numbers *)
Lemma digval_snoc s c : digval (s ++ [c]) = 10 * digval s + (c - 48).
Proof. unfold digval. rewrite fold_left_app. reflexivity. Qed.
Lemma dv s : digits_value s (digval s).
Proof. induction s as [|c s IH] using rev_ind; [constructor|]. rewrite digval_snoc. constructor. exact IH. Qed.
Lemma dv_eq s n : digits_value s n -> n = digval s.
Proof. induction 1 as [|s v c _ ->]; [reflexivity|]. symmetry. apply digval_snoc. Qed.
Lemma dig_digits s : Forall (fun c => is_dig c = true) s -> digits s.
Proof. apply Forall_impl. intros c H. unfold is_dig in H. lia. Qed.
Lemma digits_zeros k : digits (repeat 48 k).
Proof. apply Forall_forall. intros c H. apply repeat_spec in H. subst c. lia. Qed.
Lemma digval_zeros_r s k : digval (s ++ repeat 48 k) = digval s * 10 ^ Z.of_nat k.
Proof.
  rewrite digval_app, repeat_length. replace (digval (repeat 48 k)) with 0; [lia|]. rewrite <- (app_nil_r (repeat 48 k)), digval_zeros. reflexivity.
Qed.
Lemma digits_split n s : digits s -> digits (firstn n s) /\ digits (skipn n s).
Proof. intros H. rewrite <- (firstn_skipn n s) in H. apply Forall_app in H. exact H. Qed.
Lemma exponent_text e : exponent ([101] ++ (if e <? 0 then [45] ++ dec (- e) else [43] ++ zpad 2 (dec e))) e.
Proof.
  destruct (Z.ltb_spec e 0) as [H|H].
  - apply (an_exponent 101 [45] (dec (- e)) (- e) e); [left; reflexivity|apply dec_nonempty; lia|apply dig_digits, dec_digits; lia| |right; split; [reflexivity|lia]].
    rewrite <- (dec_val (- e)) at 2 by lia. apply dv.
  - apply (an_exponent 101 [43] (zpad 2 (dec e)) e e); [left; reflexivity| |apply dig_digits, zpad_digits; lia| |left; split; [right|]; reflexivity].
    + unfold zpad. intros E. apply app_eq_nil in E as [_ E]. revert E. apply dec_nonempty. lia.
    + rewrite <- (zpad_val 2 e) at 2 by lia. apply dv.
Qed.
Lemma number_of s i ft f et x : i = [48] \/ (hd 0 i <> 48 /\ i <> [] /\ digits i) -> fraction ft f -> exponent et x -> forall m y, (qz (digval (i ++ f)) * pow10 (x - Z.of_nat (length f)))%Qc = (qz m * pow10 y)%Qc ->
  (s = [] -> number (s ++ i ++ ft ++ et) (dval (m, y))) /\ (s = [45] -> number (s ++ i ++ ft ++ et) (- dval (m, y))%Qc).
Proof.
  intros Hi Hf He m y E. unfold dval. cbn [fst snd]. rewrite <- E. split; intros ->; econstructor; try eassumption; try apply dv; [left|right]; split; reflexivity.
Qed.
Lemma shift_back n x k : 0 <= k -> (qz (n * 10 ^ k) * pow10 x)%Qc = (qz n * pow10 (x + k))%Qc.
Proof. intros H. apply Qc_is_canon. rewrite !this_mult, !this_qz, !this_pow10, pt_add, inject_Z_mult, inject_pow10 by exact H. ring. Qed.
Lemma fmt_number m x (q : bool) : 0 < m -> forall neg : bool,
  number ((if neg then [45] else []) ++ (let ds := dec m in let dp := x + Z.of_nat (length ds) in match q with true => fmt_E ds dp | false => fmt_F ds dp end)) (if neg then - dval (m, x) else dval (m, x))%Qc.
Proof.
  intros Hm neg. cbv zeta. destruct (dec_spec m) as (V & D & Ne & H0 & _); [lia|]. destruct (H0 ltac:(lia)) as (c & r & Ed & Hc). clear H0. set (n := Z.of_nat (length (dec m))).
  assert (Hn : n = 1 + Z.of_nat (length r)) by (unfold n; rewrite Ed; cbn [length]; lia).
  assert (Dd := dig_digits _ D). rewrite Ed in Dd. inversion Dd as [|? ? Dc Dr]; subst.
  assert (Bld : forall t, (exists i ft f et z, t = i ++ ft ++ et /\ (i = [48] \/ (hd 0 i <> 48 /\ i <> [] /\ digits i)) /\ fraction ft f /\ exponent et z /\ (qz (digval (i ++ f)) * pow10 (z - Z.of_nat (length f)))%Qc = (qz m * pow10 x)%Qc) ->
    number ((if neg then [45] else []) ++ t) (if neg then - dval (m, x) else dval (m, x))%Qc).
  { intros t (i & ft & f & et & z & -> & Hi & Hf & He & E). destruct neg; eapply number_of; eauto. }
  apply Bld. destruct q.
  - unfold fmt_E. rewrite Ed. exists [c]. destruct r as [|d r].
    + exists [], [], ([101] ++ (let e := x + n - 1 in if e <? 0 then [45] ++ dec (- e) else [43] ++ zpad 2 (dec e))), (x + n - 1). cbv zeta. split; [reflexivity|]. split; [right; split; [exact Hc|split; [discriminate|constructor; [exact Dc|constructor]]]|].
      split; [constructor|]. split; [apply exponent_text|]. cbn [app length] in *. rewrite <- V, Ed. f_equal. f_equal. lia.
    + exists ([46] ++ d :: r), (d :: r), ([101] ++ (let e := x + n - 1 in if e <? 0 then [45] ++ dec (- e) else [43] ++ zpad 2 (dec e))), (x + n - 1). cbv zeta. split; [reflexivity|]. split; [right; split; [exact Hc|split; [discriminate|constructor; [exact Dc|constructor]]]|].
      split; [constructor; [discriminate|exact Dr]|]. split; [apply exponent_text|]. cbn [app]. rewrite <- V, Ed. f_equal. f_equal. lia.
  - unfold fmt_F. fold n. destruct (Z.ltb_spec 0 (x + n)) as [H|H].
    + destruct (Z.ltb_spec 0 (n - (x + n))) as [G|G].
      * (* the point is inside *)
        exists (firstn (Z.to_nat (x + n)) (dec m)), ([46] ++ skipn (Z.to_nat (x + n)) (dec m)), (skipn (Z.to_nat (x + n)) (dec m)), [], 0.
        assert (Lf : (Z.to_nat (x + n) < length (dec m))%nat) by (unfold n in *; lia).
        split. { replace (Z.to_nat (x + n - n)) with O by lia. replace (Z.to_nat (- (x + n))) with O by lia. cbn [repeat]. rewrite app_nil_r. cbn [app]. rewrite app_nil_r. reflexivity. }
        split. { right. split; [destruct (Z.to_nat (x + n)) eqn:Z; [lia|rewrite Ed; exact Hc]|]. split; [intros C; apply (f_equal (@length Z)) in C; rewrite firstn_length in C; cbn [length] in C; lia|]. rewrite Ed. apply digits_split. exact Dd. }
        split. { constructor; [intros C; apply (f_equal (@length Z)) in C; rewrite skipn_length in C; cbn [length] in C; lia|]. rewrite Ed. apply digits_split. exact Dd. }
        split; [constructor|]. rewrite firstn_skipn, V, skipn_length. f_equal. f_equal. unfold n in *. lia.
      * (* behind the digits *)
        exists (dec m ++ repeat 48 (Z.to_nat x)), [], [], [], 0.
        split. { rewrite firstn_all2 by (unfold n in *; lia). rewrite !app_nil_r. replace (Z.to_nat (x + n - n)) with (Z.to_nat x) by lia. reflexivity. }
        split. { right. split; [rewrite Ed; exact Hc|]. split; [rewrite Ed; discriminate|]. apply Forall_app. split; [rewrite Ed; exact Dd|apply digits_zeros]. }
        split; [constructor|]. split; [constructor|]. rewrite app_nil_r, digval_zeros_r, V. cbn [length]. rewrite shift_back by lia. f_equal. f_equal. lia.
    + (* before the digits *)
      exists [48], ([46] ++ repeat 48 (Z.to_nat (- (x + n))) ++ dec m), (repeat 48 (Z.to_nat (- (x + n))) ++ dec m), [], 0.
      destruct (Z.ltb_spec 0 (n - (x + n))) as [G|G]; [|lia].
      split. { rewrite app_nil_r. replace (Z.to_nat (x + n)) with O by lia. reflexivity. }
      split; [left; reflexivity|].
      split. { constructor; [intros C; apply app_eq_nil in C as [_ C]; contradiction|]. apply Forall_app. split; [apply digits_zeros|rewrite Ed; exact Dd]. }
      split; [constructor|]. change ([48] ++ repeat 48 (Z.to_nat (- (x + n))) ++ dec m) with (repeat 48 (S (Z.to_nat (- (x + n)))) ++ dec m). rewrite digval_zeros, V, app_length, repeat_length. f_equal. f_equal. unfold n in *. lia.
Qed.
(** what is written for a float64, and the number it is *)
Definition written (q : Qc) : Qc := match (q ?= 0)%Qc with Eq => 0%Qc | Gt => dval (shortest q) | Lt => (- dval (shortest (- q)))%Qc end.
Lemma num_pos_number q (neg : bool) : (0 < this q)%Q -> float64 q -> number ((if neg then [45] else []) ++ num_pos q) (if neg then - dval (shortest q) else dval (shortest q))%Qc.
Proof.
  intros H F. destruct (shortest_ok q H F) as [_ P]. unfold num_pos. destruct (shortest q) as [m x]. cbn [fst] in P. 
  destruct (q ?= to_f64 (/ qz (10 ^ 6)))%Qc, (q ?= qz (10 ^ 21))%Qc; try exact (fmt_number m x true P neg); exact (fmt_number m x false P neg).
Qed.
Lemma num_text_number q : float64 q -> number (num_text q) (written q) /\ to_f64 (written q) = q.
Proof.
  intros F. unfold num_text, written. destruct (q ?= 0)%Qc eqn:E; unfold Qccompare in E.
  - apply Qceq_alt in E. subst q. split; [|reflexivity]. apply (a_number [] [48] [] [] [] 0 0); [left; reflexivity|constructor|constructor|apply dv|left; split; [reflexivity|]]. apply Qc_is_canon. reflexivity.
  - apply Qlt_alt in E. change (this 0%Qc) with 0%Q in E. assert (H : (0 < this (- q)%Qc)%Q) by (rewrite this_opp; lra). split; [exact (num_pos_number (- q)%Qc true H (float64_opp q F))|].
    destruct (shortest_ok (- q)%Qc H (float64_opp q F)) as [K _]. rewrite to_f64_opp, K. ring.
  - apply Qgt_alt in E. change (this 0%Qc) with 0%Q in E. split; [exact (num_pos_number q false E F)|]. apply (shortest_ok q E F).
Qed.
Lemma short_written k q : short_amount k q -> written (to_f64 q) = q.
Proof.
  intros (Hk & n & E & Hn). assert (HP : 0 < 10 ^ k) by (apply Z.pow_pos_nonneg; lia).
  assert (C : forall a b, 0 < b <= 10 ^ 15 -> (a * qz (10 ^ k))%Qc = qz b -> written (to_f64 a) = a).
  { intros a b Hb Eb. destruct (short_exact a k b Hk Eb Hb) as [P S]. unfold written. destruct (to_f64 a ?= 0)%Qc eqn:D; unfold Qccompare in D; [apply Qeq_alt in D|apply Qlt_alt in D|exact S]; change (this 0%Qc) with 0%Q in D; lra. }
  destruct (Z.lt_trichotomy n 0) as [L|[->|L]].
  - assert (C' : written (to_f64 (- q)) = (- q)%Qc). { apply (C (- q)%Qc (- n)); [lia|]. replace (- q * qz (10 ^ k))%Qc with (- (q * qz (10 ^ k)))%Qc by ring. rewrite E. apply Qc_is_canon. rewrite this_opp, !this_qz, inject_Z_opp. reflexivity. }
    rewrite to_f64_opp in C'. revert C'. unfold written. destruct (to_f64 q ?= 0)%Qc eqn:D; unfold Qccompare in D.
    + apply Qceq_alt in D. rewrite D. change (- 0 ?= 0)%Qc with Eq. intros C'. rewrite <- (Qcopp_involutive q), <- C'. reflexivity.
    + apply Qlt_alt in D. change (this 0%Qc) with 0%Q in D. destruct (- to_f64 q ?= 0)%Qc eqn:D2; unfold Qccompare in D2; [apply Qeq_alt in D2|apply Qlt_alt in D2|]; try (rewrite this_opp in D2; change (this 0%Qc) with 0%Q in D2; lra). intros ->. apply Qcopp_involutive.
    + apply Qgt_alt in D. change (this 0%Qc) with 0%Q in D. destruct (- to_f64 q ?= 0)%Qc eqn:D2; unfold Qccompare in D2; [apply Qeq_alt in D2| |apply Qgt_alt in D2]; try (rewrite this_opp in D2; change (this 0%Qc) with 0%Q in D2; lra). rewrite Qcopp_involutive. intros C'. apply (f_equal Qcopp) in C'. rewrite !Qcopp_involutive in C'. exact C'.
  - assert (q = 0%Qc). { apply (f_equal this) in E. apply Qc_is_canon. assert (E' : (this q * inject_Z (10 ^ k) == 0)%Q) by (rewrite <- this_qz, <- this_mult, E; reflexivity). apply Qmult_integral in E' as [E'|E']; [exact E'|]. exfalso. assert (K : (0 < inject_Z (10 ^ k))%Q) by (change 0%Q with (inject_Z 0); rewrite <- Zlt_Qlt; exact HP). lra. }
    subst q. reflexivity.
  - apply (C q n); [lia|exact E].
Qed.
