(** * F64Props: C95, numbers that go through a float64 (scripts, JSON, printing, the factor of move). *)
From Verif Require Import Base Dec DateModel PriceModel BookModel BookSpec OpsModel BookProps ExportModel ExportSpec ExportProofs ScriptModel ScriptSpec ScriptProps ConvertModel F64Model F64Spec F64Proofs.

(** ** The conversion gives the nearest float64, and the nearest float64 is unique. A float64 is kept. *)
Theorem C95_nearest : forall q, nearest_f64 q (to_f64 q) /\ (forall v, nearest_f64 q v -> v = to_f64 q) /\ (float64 q -> to_f64 q = q).
Proof. intros q. split; [apply to_f64_nearest|]. split; [|apply to_f64_id]. intros v H. apply (nearest_unique q); [exact H|apply to_f64_nearest]. Qed.
Print Assumptions C95_nearest.
(** The other theorems about printing assume [float64_ok]; the conversion has it. *)
Theorem C95_float64_ok : float64_ok to_f64.
Proof. exact to_f64_ok. Qed.
Print Assumptions C95_float64_ok.

(** ** A script that posts, one after another, numbers it got from JSON or from the postings it reads. *)
Section Copy.
  Variable def : defaults.
  Variables acct ccy : str.
  (** the call posts the number [q], as the script sees it, on the account *)
  Definition posts (a : args) (q : Qc) : Prop :=
    a_amt a = VFloat (Some (to_f64 q)) /\ divisor (a_denom a) = 1 /\ single a /\
    choose (a_account a) (d_account def) = acct /\ choose (a_ccy a) (d_ccy def) = ccy /\ counter def a <> acct.
End Copy.
Lemma entry_leg ss def acct ccy a q e : posts def acct ccy a q -> entry ss def a e ->
  legs_total (fun x c => str_eqb x acct && str_eqb c ccy) e = to_f64 q.
Proof.
  intros (H1 & H2 & H3 & H4 & H5 & H6) He. inversion He as [a0 v Hv Hd Hs E1 E2|a0 v w Hv Hd Hs Hw Hd2 E1 E2]; subst a0; [|contradiction]. rewrite H1 in Hv. inversion Hv as [q0 E|z E|s q0 E]. subst q0. rewrite H4, H5, H2.
  unfold legs_total, pair_of. cbn [filter map snd fst]. rewrite !str_eqb_refl. cbn [andb]. destruct (str_eqb (counter def a) acct) eqn:Ec; [apply str_eqb_eq in Ec; contradiction|]. cbn [andb filter map snd]. rewrite qsum_cons. change (qsum []) with 0%Qc. change (qz 1) with 1%Qc. unfold Qcdiv. change (/ 1)%Qc with 1%Qc. ring.
Qed.
Lemma legs_app g e es : legs_total g (e ++ es) = (legs_total g e + legs_total g es)%Qc.
Proof. unfold legs_total. rewrite filter_app, map_app, qsum_app. reflexivity. Qed.
Lemma entries_total ss def acct ccy cs qs es : Forall2 (posts def acct ccy) cs qs -> Forall2 (entry ss def) cs es ->
  legs_total (fun x c => str_eqb x acct && str_eqb c ccy) (concat es) = qsum (map to_f64 qs).
Proof.
  intros H. revert es. induction H as [|a q cs qs Ha Hs IH]; intros es He; inversion He as [|a0 e cs0 es0 H1 H2]; subst; [reflexivity|].
  cbn [concat map]. rewrite legs_app, qsum_cons, (entry_leg ss def acct ccy a q e Ha H1), (IH es0 H2). reflexivity.
Qed.
(** The numbers have at most 17 decimals, and without their signs they add up to at most 10^15 units of the last decimal:
    the balance of the account is printed as the exact sum of the numbers; an exact sum of zero may be printed with a minus sign. *)
Theorem C95_script_sums_partial : forall today set_string def srt acct ccy decs cs qs ns b, sort_ok is_less srt ->
  run_adds today set_string def new_builder cs = Ok (b, false) -> Forall2 (posts def acct ccy) cs qs ->
  0 <= decs_for decs ccy <= 17 -> Forall2 (fun q n => (q * qz (10 ^ decs_for decs ccy))%Qc = qz n) qs ns -> zsum_abs ns <= 10 ^ 15 ->
  exists bk, build srt b = Ok bk /\
    (let shown := format_number to_f64 decs ccy (total (in_acct acct ccy) (bk_post bk)) in
     let right := format_number to_f64 decs ccy (qsum qs) in
     shown = right \/ (qsum qs = 0%Qc /\ shown = bs "-" ++ right)).
Proof.
  intros today ss def srt acct ccy decs cs qs ns b Hs E Hp Hk Hn Hb. destruct (C54_add_balanced today ss def srt cs b false Hs E) as (bk & Eb & _ & Ht).
  exists bk. split; [exact Eb|]. cbv zeta. assert (Hf : Forall finite cs). { clear -Hp. induction Hp as [|a q cs qs (H1 & _ & (H3 & _) & _) _ IH]; constructor; [|exact IH]. unfold finite. rewrite H1, H3. split; discriminate. }
  destruct (Ht eq_refl Hf) as (es & He & Htot). rewrite Htot, (entries_total ss def acct ccy cs qs es Hp He). unfold format_number. apply (sum_prints _ qs ns Hk Hn Hb).
Qed.
Print Assumptions C95_script_sums_partial.

(** One number, from a JSON file or from a posting of the book, posted by a script and printed. *)
Theorem C95_script_copy_partial : forall today set_string def srt acct ccy decs a q b, sort_ok is_less srt ->
  run_adds today set_string def new_builder [a] = Ok (b, false) -> posts def acct ccy a q -> short_amount (decs_for decs ccy) q ->
  exists bk, build srt b = Ok bk /\
    format_number to_f64 decs ccy (total (in_acct acct ccy) (bk_post bk)) = format_number to_f64 decs ccy q.
Proof.
  intros today ss def srt acct ccy decs a q b Hs E Hp (Hk & n & Hq & Hn). destruct (C54_add_balanced today ss def srt [a] b false Hs E) as (bk & Eb & _ & Ht).
  exists bk. split; [exact Eb|]. assert (Hf : Forall finite [a]) by (destruct Hp as (H1 & _ & (H3 & _) & _); constructor; [unfold finite; rewrite H1, H3; split; discriminate|constructor]).
  destruct (Ht eq_refl Hf) as (es & He & Htot). rewrite Htot, (entries_total ss def acct ccy [a] [q] es); [|constructor; [exact Hp|constructor]|exact He]. cbn [map].
  assert (S1 : qsum [to_f64 q] = to_f64 q) by (rewrite qsum_cons; change (qsum []) with 0%Qc; ring). rewrite S1. unfold format_number. rewrite to_f64_idem. reflexivity.
Qed.
Print Assumptions C95_script_copy_partial.

(** ** move=/from/to/factor/: the factor is a float64. If the amount that results with the exact factor has at most 17 decimals and
    is not too long, and neither is the amount moved, the amount that results is printed like it. *)
Theorem C95_move_partial : forall srt m r f b d pay a c k n, sort_ok is_less srt -> reachable srt b ->
  let exact := total (at_key d pay a c) (bk_post (adjust_post srt m r f b)) in
  let moved := (exact - total (at_key d pay a c) (bk_post b))%Qc in
  (/ qz (10 ^ 300) <= qabs f)%Qc -> (qabs f <= qz (10 ^ 300))%Qc ->
  0 <= k <= 17 -> (exact * qz (10 ^ k))%Qc = qz n -> Z.abs n <= 10 ^ 15 -> (qabs (moved * qz (10 ^ k)) <= qz (10 ^ 15))%Qc ->
  let got := total (at_key d pay a c) (bk_post (adjust_post srt m r (to_f64 f) b)) in
  fmt_float k (to_f64 got) = fmt_float k (to_f64 exact) \/ (exact = 0%Qc /\ fmt_float k (to_f64 got) = bs "-" ++ fmt_float k (to_f64 exact)).
Proof.
  intros srt m r f b d pay a c k n Hs Hr exact moved F1 F2 Hk Hn Hb Hm got. apply (near_prints k got exact n Hk Hn Hb).
  pose proof (C11_move_portion srt m r f b d pay a c Hs Hr) as Ee. pose proof (C11_move_portion srt m r (to_f64 f) b d pay a c Hs Hr) as Eg. fold exact in Ee. fold got in Eg.
  set (t0 := total (at_key d pay a c) (bk_post b)) in *. set (A := total (fun d' pay' a' c' => m a' && at_key d pay a c d' pay' a' c') (bk_post b)) in *. set (B := total (fun d' pay' a' c' => m a' && at_key d pay a c d' pay' (r a') c') (bk_post b)) in *.
  assert (D1 : got = (exact + (to_f64 f - f) * (B - A))%Qc) by (rewrite Ee, Eg; ring). assert (D2 : moved = (f * (B - A))%Qc) by (unfold moved; rewrite Ee; ring).
  apply (f_equal this) in D1. destruct to_f64_ok as [_ F]. specialize (F f F1 F2). clearbody got exact. clear Ee Eg. rewrite D2 in Hm. clear D2 moved. set (W := (B - A)%Qc) in *. clearbody W. clear A B.
  unfold Qcle in F, Hm. rewrite this_mult, !this_qabs, this_qz, this_minus in F. rewrite this_qabs, !this_mult, !this_qz in Hm. apply units_of in Hn.
  assert (G : (this got * inject_Z (10 ^ k) - inject_Z n == (this (to_f64 f) - this f) * (this W * inject_Z (10 ^ k)))%Q). { rewrite D1, this_plus, this_mult, this_minus, <- Hn. ring. }
  rewrite G. apply Qmult_lt_0_le_reg_r with (inject_Z (2 ^ 53)); [reflexivity|]. rewrite Qabs.Qabs_Qmult. set (X := Qabs.Qabs (this W * inject_Z (10 ^ k))) in *. set (Y := Qabs.Qabs (this (to_f64 f) - this f)) in *.
  apply Qle_trans with (Qabs.Qabs (this f) * X)%Q.
  - setoid_replace (Y * X * inject_Z (2 ^ 53))%Q with (Y * inject_Z (2 ^ 53) * X)%Q by ring. apply Qmult_le_compat_r; [exact F|apply Qabs.Qabs_nonneg].
  - unfold X. rewrite <- Qabs.Qabs_Qmult. rewrite Qmult_assoc. apply Qle_trans with (1 := Hm). vm_compute. congruence.
Qed.
Print Assumptions C95_move_partial.

(** ** Expected: a script that copies amounts copies them exactly. 0.10, 0.20 and -0.30 GBP read from JSON do not cancel: the
    book keeps a balance that is not zero and prints as 0.00; 90,071,992,547,409.93 GBP becomes .94, read by a script or only
    printed; and move=/Cash/Savings/0.1/ does not move a tenth. *)
Definition x_cents (n : Z) : Qc := (qz n / qz 100)%Qc.
Definition x_posts (n : Z) : args :=
  mkArgs (bs "2024-01-05") (bs "Shop") (VFloat (Some (to_f64 (x_cents n)))) None None None VNone None None [] None [] [].
Definition x_copied (ns : list Z) : Qc :=
  match run_adds 20240105 x_ss x_def new_builder (map x_posts ns) with
  | Ok (b, _) => match build xsort b with Ok bk => total (in_acct (bs "Assets:Bank") (bs "GBP")) (bk_post bk) | _ => 0%Qc end
  | _ => 0%Qc
  end.
Theorem C95_script_exact_refuted :
  json_to_starlark to_f64 (fun m => m) (JArr [JNum (x_cents 10); JNum (x_cents 20); JNum (x_cents (-30))])
    = SList [SFloat (to_f64 (x_cents 10)); SFloat (to_f64 (x_cents 20)); SFloat (to_f64 (x_cents (-30)))] /\
  qc_is0 (qsum (map x_cents [10; 20; -30])) = true /\ x_copied [10; 20; -30] <> 0%Qc /\ format_number to_f64 [] (bs "GBP") (x_copied [10; 20; -30]) = bs "0.00" /\
  x_copied [-10; -20; 30] <> 0%Qc /\ format_number to_f64 [] (bs "GBP") (x_copied [-10; -20; 30]) = bs "-0.00" /\
  format_number to_f64 [] (bs "GBP") (x_copied [9007199254740993]) = bs "90,071,992,547,409.94" /\
  format_number to_f64 [] (bs "GBP") (x_cents 9007199254740993) = bs "90,071,992,547,409.94".
Proof. split; [reflexivity|]. split; [vm_compute; reflexivity|]. split; [apply qc_is0_neq; vm_compute; reflexivity|]. split; [vm_compute; reflexivity|]. split; [apply qc_is0_neq; vm_compute; reflexivity|]. repeat split; vm_compute; reflexivity. Qed.
Print Assumptions C95_script_exact_refuted.
Theorem C95_move_exact_refuted :
  let moved f := total (at_key 20240105 (bs "Shop") (bs "Bank") (bs "GBP")) (bk_post (adjust_post xsort (fun a => str_eqb a (bs "Assets:Cash")) (fun _ => bs "Bank") f ex_book)) in
  qc_eqb (moved (qz 1 / qz 10)%Qc) (qz (-15) / qz 10)%Qc = true /\ moved (to_f64 (qz 1 / qz 10)%Qc) <> (qz (-15) / qz 10)%Qc /\
  format_number to_f64 [] (bs "GBP") (moved (to_f64 (qz 1 / qz 10)%Qc)) = bs "-1.50".
Proof.
  cbv zeta. split; [vm_compute; reflexivity|]. split; [|vm_compute; reflexivity]. intros E. apply qc_eqb_eq in E. revert E. vm_compute. discriminate.
Qed.
Print Assumptions C95_move_exact_refuted.

Example C95_nonvacuous :
  float64 (to_f64 (x_cents 10)) /\ this (to_f64 (x_cents 10)) = (3602879701896397 # 36028797018963968)%Q /\
  this (to_f64 (qz (2 ^ 53 + 1))) = (9007199254740992 # 1)%Q /\ this (to_f64 (qz (2 ^ 53 + 3))) = (9007199254740996 # 1)%Q /\
  (exists b, run_adds 20240105 x_ss x_def new_builder (map x_posts [10; 20; 12345]) = Ok (b, false)) /\
  Forall2 (posts x_def (bs "Assets:Bank") (bs "GBP")) (map x_posts [10; 20; 12345]) (map x_cents [10; 20; 12345]) /\
  Forall2 (fun q n => (q * qz (10 ^ 2))%Qc = qz n) (map x_cents [10; 20; 12345]) [10; 20; 12345] /\ zsum_abs [10; 20; 12345] <= 10 ^ 15 /\
  format_number to_f64 [] (bs "GBP") (x_copied [10; 20; 12345]) = bs "123.75".
Proof.
  split; [apply to_f64_float|]. split; [vm_compute; reflexivity|]. split; [vm_compute; reflexivity|]. split; [vm_compute; reflexivity|].
  split. { destruct (run_adds 20240105 x_ss x_def new_builder (map x_posts [10; 20; 12345])) as [[b e]| | |] eqn:E; try (vm_compute in E; discriminate E). assert (He : match run_adds 20240105 x_ss x_def new_builder (map x_posts [10; 20; 12345]) with Ok (_, e) => e | _ => true end = false) by (vm_compute; reflexivity). rewrite E in He. subst e. exists b. reflexivity. }
  split. { repeat constructor; cbn [x_posts a_amt a_amt2 a_account2 a_denom a_account a_ccy a_caccount map]; discriminate. }
  split; [repeat constructor; apply qc_eqb_eq; vm_compute; reflexivity|]. split; [vm_compute; discriminate|]. vm_compute. reflexivity.
Qed.
