(** * DateProps2: C73, the other ways to write a date. *)
From Verif Require Import Base Dec Regex DateModel DateSpec DateProofs DateProofs2.

(** a month or day written with two digits or, below ten, with one *)
Definition short_or_long (n : Z) (s : str) : Prop := s = fmt_0d 2 n \/ (n < 10 /\ s = fmt_d n).
Definition sep_text (s : str) : Prop := s = [45] \/ s = [46] \/ s = [47].
Definition opt_sep (s : str) : Prop := s = [] \/ sep_text s.
Inductive shift := This | Last | Next.
Definition shift_word (w : shift) : str := match w with This => bs "this" | Last => bs "last" | Next => bs "next" end.
Definition shift_by (w : shift) : Z := match w with This => 0 | Last => -1 | Next => 1 end.
Definition unit_word (p : period) : str := match p with Yearly => bs "year" | Quarterly => bs "quarter" | Monthly => bs "month" end.
(** blanks between the words: dots, underscores, spaces, tabs *)
Definition gap (s : str) : Prop := s <> [] /\ Forall (fun c => c = 46 \/ c = 95 \/ c = 32 \/ c = 9) s.

(** ** Digits *)
Definition digs (s : str) : Prop := Forall (fun c => is_dig c = true) s.
Lemma atoi0_digs s : digs s -> s <> [] -> (length s <= 18)%nat -> atoi0 s = digval s.
Proof. intros H N L. unfold atoi0. now rewrite atoi_digits. Qed.
Lemma pad_text (k : nat) n : 0 <= n < 10 ^ Z.of_nat k -> (1 <= k <= 4)%nat ->
  digs (fmt_0d k n) /\ length (fmt_0d k n) = k /\ atoi0 (fmt_0d k n) = n.
Proof.
  intros Hn Hk. unfold fmt_0d. destruct (Z.ltb_spec n 0); [lia|].
  pose proof (zpad_digits k n ltac:(lia)) as D. pose proof (zpad_length k n ltac:(lia) ltac:(lia) ltac:(lia)) as L.
  pose proof (zpad_val k n ltac:(lia)) as V. split; [exact D|]. split; [exact L|].
  rewrite atoi0_digs; [exact V|exact D| |lia]. intros E. rewrite E in L. cbn in L. lia.
Qed.
Lemma four y : 0 <= y < 10000 -> exists a b c d, fmt_0d 4 y = [a; b; c; d] /\ is_dig a = true /\ is_dig b = true /\ is_dig c = true
  /\ is_dig d = true /\ atoi0 [a; b; c; d] = y.
Proof.
  intros H. destruct (pad_text 4 y) as (D & L & V); [lia|lia|].
  destruct (fmt_0d 4 y) as [|a [|b [|c [|d [|]]]]]; try discriminate L.
  apply Forall_cons_iff in D as [Da D]. apply Forall_cons_iff in D as [Db D]. apply Forall_cons_iff in D as [Dc D]. apply Forall_cons_iff in D as [Dd _].
  exists a, b, c, d. repeat split; assumption.
Qed.
Lemma one_two n s : 0 <= n < 100 -> short_or_long n s ->
  (exists a, s = [a] /\ is_dig a = true /\ atoi0 [a] = n) \/ (exists a b, s = [a; b] /\ is_dig a = true /\ is_dig b = true /\ atoi0 [a; b] = n).
Proof.
  intros Hn [->|[Hs ->]].
  - right. destruct (pad_text 2 n) as (D & L & V); [lia|lia|].
    destruct (fmt_0d 2 n) as [|a [|b [|]]]; try discriminate L. apply Forall_cons_iff in D as [Da D]. apply Forall_cons_iff in D as [Db _].
    exists a, b. repeat split; assumption.
  - left. assert (n = 0 \/ n = 1 \/ n = 2 \/ n = 3 \/ n = 4 \/ n = 5 \/ n = 6 \/ n = 7 \/ n = 8 \/ n = 9) as C by lia.
    repeat (destruct C as [->|C]; [eexists; split; [vm_compute; reflexivity|split; reflexivity]|]).
    subst n. eexists; split; [vm_compute; reflexivity|split; reflexivity].
Qed.
Lemma is_sep_of s : sep_text s -> exists c, s = [c] /\ is_sep c = true.
Proof. intros [->|[->| ->]]; eexists; split; reflexivity. Qed.

Opaque is_dig.
Ltac seps := repeat match goal with |- context [(?s =? 45) || (?s =? 47) || (?s =? 46)] => change ((s =? 45) || (s =? 47) || (s =? 46)) with (is_sep s) end.
Ltac tests := repeat match goal with H : is_dig ?a = _ |- context [is_dig ?a] => rewrite H | H : is_sep ?a = _ |- context [is_sep ?a] => rewrite H end.
Ltac run_re := unfold full_match, dateYYYYMMDD, dateDDMMYYYY, r_d4, r_sep, r_d12, r_digit; cbn [rmatch]; seps; tests; try reflexivity.

Lemma dig_not_sep c : is_dig c = true -> is_sep c = false.
Proof. intros H. destruct (is_sep c) eqn:E; [apply is_sep_not_dig in E; congruence|reflexivity]. Qed.

(** ** Year, year and month, year month day *)
Lemma match_y a b c d : is_dig a = true -> is_dig b = true -> is_dig c = true -> is_dig d = true ->
  full_match dateYYYYMMDD [a; b; c; d] = Some [(1%nat, [a; b; c; d])].
Proof. intros. run_re. Qed.
Lemma year_only today y : 1 <= y < 10000 -> date_from_string today (fmt_0d 4 y) = ymd y 1 1.
Proof.
  intros H. destruct (four y) as (a & b & c & d & -> & Ha & Hb & Hc & Hd & V); [lia|]. unfold date_from_string. rewrite match_y by assumption.
  cbn [group Nat.eqb]. rewrite V. reflexivity.
Qed.
Lemma year_month today y m s t : 1 <= y < 10000 -> 1 <= m < 100 -> opt_sep s -> short_or_long m t ->
  date_from_string today (fmt_0d 4 y ++ s ++ t) = ymd y m 1.
Proof.
  intros Hy Hm Hs Ht. destruct (four y) as (a & b & c & d & -> & Ha & Hb & Hc & Hd & V); [lia|].
  assert (exists g, full_match dateYYYYMMDD ([a; b; c; d] ++ s ++ t) = Some ((2%nat, t) :: g) /\ g = [(1%nat, [a; b; c; d])]) as (g & E & Eg).
  { destruct (one_two m t) as [(e & -> & He & Vm)|(e & f & -> & He & Hf & Vm)]; [lia|exact Ht| |];
      (destruct Hs as [->|Hs]; [|destruct (is_sep_of s Hs) as (x & -> & Hx); pose proof (is_sep_not_dig x Hx)]);
      pose proof (dig_not_sep _ He); try pose proof (dig_not_sep _ Hf); eexists; (split; [cbn [app]; run_re|reflexivity]). }
  unfold date_from_string. rewrite E, Eg. cbn [group Nat.eqb]. rewrite V.
  assert (Vm : atoi0 t = m).
  { destruct (one_two m t) as [(e & -> & He & Vm)|(e & f & -> & He & Hf & Vm)]; [lia|exact Ht|exact Vm|exact Vm]. }
  rewrite Vm. destruct (Z.eqb_spec m 0); [lia|]. reflexivity.
Qed.
Lemma compact_date today y m d : 1 <= y < 10000 -> 1 <= m < 100 -> 1 <= d < 100 ->
  date_from_string today (fmt_0d 4 y ++ fmt_0d 2 m ++ fmt_0d 2 d) = ymd y m d.
Proof.
  intros Hy Hm Hd. destruct (four y) as (a & b & c & e & -> & Ha & Hb & Hc & He & V); [lia|].
  destruct (pad_text 2 m) as (Dm & Lm & Vm); [lia|lia|]. destruct (pad_text 2 d) as (Dd & Ld & Vd); [lia|lia|].
  destruct (fmt_0d 2 m) as [|m1 [|m2 [|]]]; try discriminate Lm. destruct (fmt_0d 2 d) as [|d1 [|d2 [|]]]; try discriminate Ld.
  apply Forall_cons_iff in Dm as [M1 Dm]. apply Forall_cons_iff in Dm as [M2 _]. apply Forall_cons_iff in Dd as [D1 Dd]. apply Forall_cons_iff in Dd as [D2 _].
  assert (E : full_match dateYYYYMMDD ([a; b; c; e] ++ [m1; m2] ++ [d1; d2]) = Some [(3%nat, [d1; d2]); (2%nat, [m1; m2]); (1%nat, [a; b; c; e])]).
  { pose proof (dig_not_sep _ M1). pose proof (dig_not_sep _ D1). cbn [app]. run_re. }
  unfold date_from_string. rewrite E. cbn [group Nat.eqb]. rewrite V, Vm, Vd.
  destruct (Z.eqb_spec m 0); [lia|]. destruct (Z.eqb_spec d 0); [lia|]. reflexivity.
Qed.

(** ** Day first *)
Lemma day_first today y m d s t u v : 1 <= y < 10000 -> 1 <= m < 100 -> 1 <= d < 100 -> sep_text s -> sep_text u ->
  short_or_long d t -> short_or_long m v -> date_from_string today (t ++ s ++ v ++ u ++ fmt_0d 4 y) = ymd y m d.
Proof.
  intros Hy Hm Hd Hs Hu Ht Hv. destruct (four y) as (a & b & c & e & -> & Ha & Hb & Hc & He & V); [lia|].
  destruct (is_sep_of s Hs) as (x & -> & Hx). destruct (is_sep_of u Hu) as (z & -> & Hz).
  pose proof (is_sep_not_dig x Hx) as Nx. pose proof (is_sep_not_dig z Hz) as Nz.
  assert (E : full_match dateYYYYMMDD (t ++ [x] ++ v ++ [z] ++ [a; b; c; e]) = None
    /\ full_match dateDDMMYYYY (t ++ [x] ++ v ++ [z] ++ [a; b; c; e]) = Some [(3%nat, [a; b; c; e]); (2%nat, v); (1%nat, t)]
    /\ atoi0 t = d /\ atoi0 v = m).
  { destruct (one_two d t) as [(d1 & -> & D1 & Vd)|(d1 & d2 & -> & D1 & D2 & Vd)]; [lia|exact Ht| |];
      (destruct (one_two m v) as [(m1 & -> & M1 & Vm)|(m1 & m2 & -> & M1 & M2 & Vm)]; [lia|exact Hv| |]);
      repeat match goal with H : is_dig ?k = true |- _ => lazymatch goal with _ : is_sep k = false |- _ => fail | _ => pose proof (dig_not_sep k H) end end;
      (split; [cbn [app]; run_re|split; [cbn [app]; run_re|split; assumption]]). }
  destruct E as (E1 & E2 & Vd & Vm). unfold date_from_string. rewrite E1, E2. cbn [group Nat.eqb]. now rewrite V, Vd, Vm.
Qed.
Transparent is_dig.

(** ** Relative dates *)
Definition gap_cls (c : Z) : bool := (c =? 46) || (c =? 95) || (c =? 32) || (c =? 9).
Lemma star_gap s r k : Forall (fun c => gap_cls c = true) s -> (forall x y, r = x :: y -> gap_cls x = false) -> k r <> None ->
  star_cls gap_cls (s ++ r) k = k r.
Proof.
  intros Hs Hr Hk. induction Hs as [|c s Hc Hs IH]; cbn [app star_cls].
  - destruct r as [|x y]; [reflexivity|]. cbn [star_cls]. now rewrite (Hr x y eq_refl).
  - rewrite Hc, IH. destruct (k r); [reflexivity|congruence].
Qed.
Lemma strip_own a r : strip_prefix a (a ++ r) = Some r.
Proof. induction a as [|x a IH]; [reflexivity|]. cbn. now rewrite Z.eqb_refl. Qed.
Lemma firstn_own (a r : str) : firstn (length (a ++ r) - length r) (a ++ r) = a.
Proof. rewrite app_length, Nat.add_sub. now rewrite firstn_app, Nat.sub_diag, firstn_all, app_nil_r. Qed.
Lemma word3 n l1 l2 l3 w r cs k : k r ((n, w) :: cs) <> None ->
  (w = l1 \/ (w = l2 /\ strip_prefix l1 (w ++ r) = None) \/ (w = l3 /\ strip_prefix l1 (w ++ r) = None /\ strip_prefix l2 (w ++ r) = None)) ->
  rmatch (RCap n (RAlt (RLit l1) (RAlt (RLit l2) (RLit l3)))) (w ++ r) cs k = k r ((n, w) :: cs).
Proof.
  intros Hk H. cbn [rmatch]. destruct (k r ((n, w) :: cs)) as [v|] eqn:E; [|congruence].
  destruct H as [<-|[[<- ->]|(<- & -> & ->)]]; rewrite ?strip_own; rewrite ?firstn_own;
    match goal with |- context [k r ?x] => change (k r x) with (k r ((n, w) :: cs)) end; rewrite E; reflexivity.
Qed.
Lemma gap_step c s r R cs k : gap_cls c = true -> Forall (fun c => gap_cls c = true) s -> (forall x y, r = x :: y -> gap_cls x = false) ->
  rmatch R r cs k <> None -> rmatch (RSeq (RPlus gap_cls) R) ((c :: s) ++ r) cs k = rmatch R r cs k.
Proof. intros Hc Hs Hr Hk. cbn [rmatch app]. rewrite Hc. apply (star_gap s r (fun s'' => rmatch R s'' cs k)); assumption. Qed.
Lemma match_desc w s p : gap s -> full_match date_desc_re (shift_word w ++ s ++ unit_word p) = Some [(2%nat, unit_word p); (1%nat, shift_word w)].
Proof.
  intros [Ns Hs]. destruct s as [|c s]; [congruence|]. apply Forall_cons_iff in Hs as [Hc Hs].
  assert (Gc : gap_cls c = true) by (unfold gap_cls; lia).
  assert (Gs : Forall (fun c => gap_cls c = true) s) by (eapply Forall_impl; [|exact Hs]; unfold gap_cls; cbn beta; intros; lia).
  unfold full_match, date_desc_re.
  change (fun c0 : Z => (c0 =? 46) || (c0 =? 95) || (c0 =? 32) || (c0 =? 9)) with gap_cls.
  set (U := RCap 2 _). set (fin := fun (s' : str) (cs : caps) => match s' with [] => Some cs | _ => None end).
  set (G := RSeq (RPlus gap_cls) U).
  assert (HU : rmatch U (unit_word p) [(1%nat, shift_word w)] fin = Some [(2%nat, unit_word p); (1%nat, shift_word w)]).
  { unfold U. rewrite <- (app_nil_r (unit_word p)) at 1. rewrite word3; [reflexivity|discriminate|].
    destruct p; [right; left; split; reflexivity|right; right; repeat split; reflexivity|left; reflexivity]. }
  assert (HG : rmatch G ((c :: s) ++ unit_word p) [(1%nat, shift_word w)] fin = Some [(2%nat, unit_word p); (1%nat, shift_word w)]).
  { unfold G. rewrite gap_step; [exact HU|exact Gc|exact Gs| |rewrite HU; discriminate].
    destruct p; intros x y E; injection E as <- _; reflexivity. }
  change (rmatch (RSeq ?a G) ?t ?cs fin) with (rmatch a t cs (fun s' cs' => rmatch G s' cs' fin)).
  rewrite word3; [exact HG|rewrite HG; discriminate|].
  destruct w; [left; reflexivity|right; left; split; reflexivity|right; right; repeat split; reflexivity].
Qed.
Lemma relative_date today w s p y m d : gap s -> valid_ymd y m d -> today = ymd y m d ->
  date_from_string today (shift_word w ++ s ++ unit_word p) = period_start p (period_index p y m + shift_by w).
Proof.
  intros Hg V ->. unfold date_from_string.
  assert (E1 : full_match dateYYYYMMDD (shift_word w ++ s ++ unit_word p) = None) by (destruct w; reflexivity).
  assert (E2 : full_match dateDDMMYYYY (shift_word w ++ s ++ unit_word p) = None) by (destruct w; reflexivity).
  rewrite E1, E2, match_desc by exact Hg. cbn [group Nat.eqb].
  apply valid_bounds in V as B. pose proof V as (Hy & Hm & Hd).
  pose proof (floor_diff_spec (ymd y m d) p y m d (shift_by w)) as F. rewrite <- F by lia.
  destruct w, p; reflexivity.
Qed.

(** ** C73 *)
Theorem C73_other_dates : forall today y m d, valid_ymd y m d -> y < 10000 ->
  (* a year, or a year and a month, is its first day *)
  date_from_string today (fmt_0d 4 y) = ymd y 1 1 /\
  (forall s t, opt_sep s -> short_or_long m t -> date_from_string today (fmt_0d 4 y ++ s ++ t) = ymd y m 1) /\
  (* YYYYMMDD *)
  date_from_string today (fmt_0d 4 y ++ fmt_0d 2 m ++ fmt_0d 2 d) = ymd y m d /\
  (* day first, with separators *)
  (forall s u t v, sep_text s -> sep_text u -> short_or_long d t -> short_or_long m v ->
     date_from_string today (t ++ s ++ v ++ u ++ fmt_0d 4 y) = ymd y m d) /\
  (* relative to the day (y, m, d): the first day of this, the last or the next period *)
  (forall w s p, gap s -> date_from_string (ymd y m d) (shift_word w ++ s ++ unit_word p) = period_start p (period_index p y m + shift_by w)).
Proof.
  intros today y m d V Hy. apply valid_bounds in V as B. pose proof V as (H1 & Hm & Hd).
  split; [apply year_only; lia|]. split; [intros; apply year_month; (assumption || lia)|].
  split; [apply compact_date; lia|]. split; [intros; apply day_first; (assumption || lia)|].
  intros w s p Hs. now apply (relative_date (ymd y m d) w s p y m d).
Qed.
Print Assumptions C73_other_dates.
Example C73_nonvacuous : valid_ymd 2024 2 29 /\ short_or_long 2 (bs "2") /\ gap (bs " _") /\ opt_sep [] /\  date_from_string 20240229 (bs "29.2.2024") = 20240229 /\ date_from_string 20240229 (bs "last _quarter") = 20231001 /\  date_from_string 20240229 (bs "2024/2") = 20240201.
Proof.
  split; [cbv; intuition congruence|]. split; [right; split; [lia|reflexivity]|].
  split; [split; [discriminate|repeat (apply Forall_cons; [cbv; intuition congruence|]); apply Forall_nil]|].
  split; [left; reflexivity|]. repeat split.
Qed.
