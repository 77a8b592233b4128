(** * JsonRead: numbers and strings read (C99). *)
From Coq Require Import ZifyBool Lqa.
From Verif Require Import Base Dec Utf8 LoaderModel LoaderSpec ExportModel ExportSpec ExportProofs ConvertModel ConvertSpec ConvertProps F64Model F64Spec F64Proofs JsonModel JsonSpec JsonNum JsonWrite.

(** ** White space *)
Lemma json_space_iff c : json_space c = true <-> c = 32 \/ c = 9 \/ c = 10 \/ c = 13.
Proof. unfold json_space. lia. Qed.
Lemma skip_ws_split l : exists w, l = w ++ skip_ws l /\ ws w /\ match skip_ws l with c :: _ => json_space c = false | [] => True end.
Proof.
  induction l as [|c l (w & E & Hw & Hs)]; [exists []; repeat split; constructor|]. cbn [skip_ws]. destruct (json_space c) eqn:Ec.
  - exists (c :: w). split; [cbn [app]; rewrite <- E; reflexivity|]. split; [|exact Hs]. constructor; [apply json_space_iff; exact Ec|exact Hw].
  - exists []. split; [reflexivity|]. split; [constructor|exact Ec].
Qed.
Lemma skip_ws_app w l : ws w -> skip_ws (w ++ l) = skip_ws l.
Proof. induction 1 as [|c w Hc _ IH]; [reflexivity|]. cbn [app skip_ws]. apply json_space_iff in Hc. rewrite Hc. exact IH. Qed.
Lemma skip_ws_here c l : json_space c = false -> skip_ws (c :: l) = c :: l.
Proof. intros H. cbn [skip_ws]. rewrite H. reflexivity. Qed.
Lemma skip_ws_len l : (length (skip_ws l) <= length l)%nat.
Proof. destruct (skip_ws_split l) as (w & E & _). rewrite E at 2. rewrite app_length. lia. Qed.
(** What may follow a value. *)
Definition stops (r : runes) : Prop := match r with [] => True | c :: _ => json_space c = true \/ c = 44 \/ c = 93 \/ c = 125 end.
Lemma stops_ws w r : ws w -> stops r -> stops (w ++ r).
Proof. intros Hw Hr. destruct Hw as [|c w Hc _]; [exact Hr|]. left. apply json_space_iff. exact Hc. Qed.

(** ** Numbers *)
Lemma span_dig_split l : exists a b, span_dig l = (a, b) /\ l = a ++ b /\ digits a /\ match b with c :: _ => is_dig c = false | [] => True end.
Proof.
  induction l as [|c l (a & b & E & El & Ha & Hb)]; [exists [], []; repeat split; constructor|]. cbn [span_dig]. destruct (is_dig c) eqn:Ec.
  - rewrite E. exists (c :: a), b. split; [reflexivity|]. split; [rewrite El; reflexivity|]. split; [constructor; [unfold is_dig in Ec; lia|exact Ha]|exact Hb].
  - exists [], (c :: l). repeat split; [constructor|exact Ec].
Qed.
Lemma span_dig_app a b : digits a -> match b with c :: _ => is_dig c = false | [] => True end -> span_dig (a ++ b) = (a, b).
Proof.
  intros Ha Hb. induction Ha as [|c a Hc _ IH]; cbn [app span_dig].
  - destruct b as [|c b]; [reflexivity|]. cbn [span_dig]. rewrite Hb. reflexivity.
  - replace (is_dig c) with true by (unfold is_dig; lia). rewrite IH. reflexivity.
Qed.
(** The three parts. *)
Definition signed (neg : bool) (q : Qc) : Qc := if neg then (- q)%Qc else q.
Lemma p_exp_sound neg i f l q r : p_exp neg i f l = Some (q, r) -> exists et x, l = et ++ r /\ exponent et x /\ q = num_value neg i f x.
Proof.
  unfold p_exp. destruct l as [|c l]; [intros E; injection E as <- <-; exists [], 0; repeat split; constructor|].
  destruct ((c =? 101) || (c =? 69)) eqn:Ec; [|intros E; injection E as <- <-; exists [], 0; repeat split; constructor].
  assert (Hc : c = 101 \/ c = 69) by lia. clear Ec.
  set (sg := match l with s :: r1 => if s =? 43 then (false, r1) else if s =? 45 then (true, r1) else (false, l) | [] => (false, l) end).
  assert (Sg : exists s, l = s ++ snd sg /\ (fst sg = false /\ (s = [] \/ s = [43]) \/ fst sg = true /\ s = [45])).
  { unfold sg. destruct l as [|s l]; [exists []; cbn; tauto|]. destruct (Z.eqb_spec s 43) as [->|]; [exists [43]; cbn; tauto|]. destruct (Z.eqb_spec s 45) as [->|]; [exists [45]; cbn; tauto|]. exists []. cbn. tauto. }
  destruct sg as [xneg r1]. cbn [fst snd] in Sg. destruct Sg as (s & -> & Hs). destruct (span_dig_split r1) as (ds & r2 & -> & -> & Hd & _). destruct ds as [|d ds]; [discriminate|].
  intros E. injection E as <- <-. exists ([c] ++ s ++ (d :: ds)), (if xneg then - digval (d :: ds) else digval (d :: ds)). split; [rewrite <- !app_assoc; reflexivity|]. split; [|reflexivity].
  apply an_exponent with (n := digval (d :: ds)); [exact Hc|discriminate|exact Hd|apply dv|]. destruct Hs as [[-> Hs]|[-> Hs]]; [left|right]; tauto.
Qed.
Lemma p_frac_sound neg i l q r : p_frac neg i l = Some (q, r) -> exists ft f et x, l = ft ++ et ++ r /\ fraction ft f /\ exponent et x /\ q = num_value neg i f x.
Proof.
  unfold p_frac. assert (N : p_exp neg i [] l = Some (q, r) -> exists ft f et x, l = ft ++ et ++ r /\ fraction ft f /\ exponent et x /\ q = num_value neg i f x).
  { intros E. apply p_exp_sound in E as (et & x & -> & He & ->). exists [], [], et, x. repeat split; [constructor|exact He]. }
  destruct l as [|c l]; [exact N|]. destruct (Z.eqb_spec c 46) as [->|]; [|exact N]. destruct (span_dig_split l) as (ds & r2 & -> & -> & Hd & _). destruct ds as [|d ds]; [discriminate|].
  intros E. apply p_exp_sound in E as (et & x & -> & He & ->). exists ([46] ++ (d :: ds)), (d :: ds), et, x. split; [reflexivity|]. split; [apply a_fraction; [discriminate|exact Hd]|]. split; [exact He|reflexivity].
Qed.
Lemma p_int_sound neg l q r : p_int neg l = Some (q, r) -> exists i ft f et x, l = i ++ ft ++ et ++ r /\ (i = [48] \/ (hd 0 i <> 48 /\ i <> [] /\ digits i)) /\ fraction ft f /\ exponent et x /\ q = num_value neg i f x.
Proof.
  unfold p_int. destruct l as [|c l]; [discriminate|]. destruct (Z.eqb_spec c 48) as [->|Hc].
  - intros E. apply p_frac_sound in E as (ft & f & et & x & -> & H). exists [48], ft, f, et, x. split; [reflexivity|]. split; [left; reflexivity|exact H].
  - destruct (is_dig c) eqn:Ed; [|discriminate]. destruct (span_dig_split (c :: l)) as (ds & r2 & -> & El & Hd & Hr). intros E. apply p_frac_sound in E as (ft & f & et & x & -> & H).
    exists ds, ft, f, et, x. split; [exact El|]. split; [right|exact H]. destruct ds as [|d ds]; [cbn [app] in El; rewrite <- El in Hr; congruence|]. cbn [app] in El. injection El as <- _. repeat split; [exact Hc|discriminate|exact Hd].
Qed.
Lemma p_number_sound l q r : p_number l = Some (q, r) -> exists t, l = t ++ r /\ number t q.
Proof.
  assert (G : forall neg l, p_int neg l = Some (q, r) -> exists t, l = t ++ r /\ number ((if neg then [45] else []) ++ t) q).
  { intros neg l0 E. apply p_int_sound in E as (i & ft & f & et & x & -> & Hi & Hf & He & ->). exists (i ++ ft ++ et). split; [rewrite <- !app_assoc; reflexivity|].
    apply a_number with (f := f) (x := x) (n := digval (i ++ f)); [exact Hi|exact Hf|exact He|apply dv|]. unfold num_value. destruct neg; [right|left]; split; reflexivity. }
  unfold p_number. destruct l as [|c l]; [discriminate|]. destruct (Z.eqb_spec c 45) as [->|]; intros E; apply G in E as (t & -> & Ht); [exists (45 :: t)|exists t]; (split; [reflexivity|exact Ht]).
Qed.
Definition no_digit (r : runes) : Prop := match r with c :: _ => is_dig c = false | [] => True end.
Lemma stops_no r : stops r -> no_digit r /\ match r with c :: _ => (c =? 101) || (c =? 69) = false /\ c <> 46 | [] => True end.
Proof. destruct r as [|c r]; [intros _; split; exact I|]. unfold stops, no_digit, json_space, is_dig. intros H. lia. Qed.
Lemma p_exp_complete neg i f et x r : exponent et x -> stops r -> p_exp neg i f (et ++ r) = Some (num_value neg i f x, r).
Proof.
  intros [|e s ds n x' He Hn Hd Hv Hs] Hr.
  - cbn [app]. unfold p_exp. destruct r as [|c r]; [reflexivity|]. destruct (stops_no _ Hr) as [_ [-> _]]. reflexivity.
  - pose proof (dv_eq ds n Hv) as ->. change (([e] ++ s ++ ds) ++ r) with (e :: (s ++ ds) ++ r). unfold p_exp. replace ((e =? 101) || (e =? 69)) with true by lia. destruct (stops_no r Hr) as [Nr _].
    assert (Sp : span_dig (ds ++ r) = (ds, r)) by (apply span_dig_app; assumption). destruct ds as [|d ds]; [congruence|]. assert (D : 48 <= d <= 57) by (inversion Hd; assumption).
    destruct Hs as [[[-> | ->] ->]|[-> ->]]; cbn [app].
    + replace (d =? 43) with false by lia. replace (d =? 45) with false by lia. cbn [app] in Sp. rewrite Sp. reflexivity.
    + cbn [app] in Sp. change (43 =? 43) with true. cbn iota. rewrite Sp. reflexivity.
    + cbn [app] in Sp. change (45 =? 43) with false. change (45 =? 45) with true. cbn iota. rewrite Sp. reflexivity.
Qed.
Lemma exponent_first et x r : exponent et x -> stops r -> no_digit (et ++ r) /\ match et ++ r with c :: _ => c <> 46 | [] => True end.
Proof. intros [|e s ds n x' He _ _ _ _] Hr; [destruct r; [split; exact I|]; destruct (stops_no _ Hr) as [H1 [_ H2]]; split; [exact H1|exact H2]|]. cbn [app no_digit]. unfold is_dig. lia. Qed.
Lemma p_frac_complete neg i ft f et x r : fraction ft f -> exponent et x -> stops r -> p_frac neg i (ft ++ et ++ r) = Some (num_value neg i f x, r).
Proof.
  intros Hf He Hr. destruct (exponent_first et x r He Hr) as [N1 N2]. pose proof (p_exp_complete neg i f et x r He Hr) as E. destruct Hf as [|f Hn Hd].
  - cbn [app]. unfold p_frac. destruct (et ++ r) as [|c l]; [exact E|]. replace (c =? 46) with false by lia. exact E.
  - change (([46] ++ f) ++ et ++ r) with (46 :: f ++ et ++ r). unfold p_frac. change (46 =? 46) with true. cbn iota. rewrite span_dig_app by assumption. destruct f as [|c f]; [congruence|exact E].
Qed.
Lemma p_number_complete t q r : number t q -> stops r -> p_number (t ++ r) = Some (q, r).
Proof.
  intros [s i ft f et x n v Hi Hf He Hv Hs] Hr. pose proof (dv_eq _ _ Hv) as ->.
  assert (G : forall neg, p_int neg (i ++ ft ++ et ++ r) = Some (num_value neg i f x, r)).
  { intros neg. pose proof (p_frac_complete neg i ft f et x r Hf He Hr) as E. unfold p_int. destruct Hi as [->|(H1 & H2 & H3)]; [cbn [app]; change (48 =? 48) with true; exact E|].
    assert (N : no_digit (ft ++ et ++ r)) by (destruct Hf as [|f _ _]; [apply (exponent_first et x r He Hr)|reflexivity]).
    pose proof (span_dig_app i _ H3 N) as Sp. destruct i as [|c i]; [congruence|]. cbn [app] in *. cbn [hd] in H1. replace (c =? 48) with false by lia. replace (is_dig c) with true by (inversion H3; subst; unfold is_dig; lia). rewrite Sp. exact E. }
  rewrite <- !app_assoc. destruct Hs as [[-> ->]|[-> ->]].
  - cbn [app]. unfold p_number. specialize (G false). destruct i as [|c i]; [destruct Hi as [Hi|(_ & Hi & _)]; congruence|]. cbn [app] in *.
    assert (D : 48 <= c <= 57) by (destruct Hi as [Hi|(_ & _ & Hi)]; [injection Hi as -> ->; lia|inversion Hi; assumption]). replace (c =? 45) with false by lia. exact G.
  - cbn [app]. unfold p_number. change (45 =? 45) with true. cbn iota. exact (G true).
Qed.
Lemma number_first t q : number t q -> exists c t', t = c :: t' /\ (c = 45 \/ 48 <= c <= 57).
Proof.
  intros [s i ft f et x n v Hi _ _ _ Hs]. destruct Hs as [[-> _]|[-> _]]; [|cbn [app]; eauto]. destruct Hi as [->|(_ & Hi & Hd)]; [cbn [app]; eexists; eexists; split; [reflexivity|right; lia]|].
  destruct i as [|c i]; [congruence|]. inversion Hd; subst. cbn [app]. eauto.
Qed.

(** ** Strings *)
Lemma hex_val_iff c v : hex_val c = Some v <-> hex c v.
Proof.
  unfold hex_val, hex. destruct ((48 <=? c) && (c <=? 57)) eqn:E1; [split; [intros E; injection E as <-; lia|intros; f_equal; lia]|].
  destruct ((97 <=? c) && (c <=? 102)) eqn:E2; [split; [intros E; injection E as <-; lia|intros; f_equal; lia]|].
  destruct ((65 <=? c) && (c <=? 70)) eqn:E3; [split; [intros E; injection E as <-; lia|intros; f_equal; lia]|]. split; [discriminate|lia].
Qed.
Lemma hex4_iff a b c d u : hex4 a b c d = Some u <-> unit16 [92; 117; a; b; c; d] u.
Proof.
  unfold hex4. split.
  - destruct (hex_val a) as [va|] eqn:Ea; [|discriminate]. destruct (hex_val b) as [vb|] eqn:Eb; [|discriminate]. destruct (hex_val c) as [vc|] eqn:Ec; [|discriminate]. destruct (hex_val d) as [vd|] eqn:Ed; [|discriminate].
    apply hex_val_iff in Ea, Eb, Ec, Ed. intros E. injection E as <-. replace (va * 4096 + vb * 256 + vc * 16 + vd) with (4096 * va + 256 * vb + 16 * vc + vd) by lia. constructor; assumption.
  - intros H. inversion H as [? ? ? ? va vb vc vd Ha Hb Hc Hd]; subst. apply hex_val_iff in Ha, Hb, Hc, Hd. rewrite Ha, Hb, Hc, Hd. f_equal. lia.
Qed.
Lemma unit16_form x u : unit16 x u -> exists a b c d, x = [92; 117; a; b; c; d] /\ hex4 a b c d = Some u.
Proof. intros H. inversion H as [a b c d va vb vc vd]; subst. exists a, b, c, d. split; [reflexivity|]. apply hex4_iff. exact H. Qed.
Lemma short_esc_iff e c : short_esc e = Some c <-> In (e, c) letters.
Proof.
  unfold letters. cbn [In]. split.
  - unfold short_esc. repeat match goal with |- context [if (e =? ?k) then _ else _] => destruct (Z.eqb_spec e k) as [->|]; [intros E; injection E as <-; tauto|] end.
    destruct ((e =? 92) || (e =? 47) || (e =? 34)) eqn:E1; [|discriminate]. intros E. injection E as <-. assert (e = 92 \/ e = 47 \/ e = 34) as [->|[->| ->]] by lia; tauto.
  - intros H. repeat (destruct H as [H|H]; [injection H as <- <-; reflexivity|]). contradiction.
Qed.
Lemma hex_ascii c v : hex c v -> 48 <= c <= 102 /\ c <> 92 /\ 0 <= v < 16.
Proof. unfold hex. lia. Qed.
Lemma hex4_range a b c d u : hex4 a b c d = Some u -> 0 <= u < 65536 /\ Forall (fun x => 48 <= x <= 102 /\ x <> 92) [a; b; c; d].
Proof.
  intros H. apply hex4_iff in H. inversion H as [? ? ? ? va vb vc vd Ha Hb Hc Hd]; subst. apply hex_ascii in Ha, Hb, Hc, Hd. split; [lia|]. repeat constructor; lia.
Qed.
(** Raw text of a string: what scan_string accepts. *)
Inductive raw : runes -> Prop :=
| raw_nil : raw []
| raw_char c t : 32 <= c -> c <> 34 -> c <> 92 -> raw t -> raw (c :: t)
| raw_letter e x t : short_esc e = Some x -> raw t -> raw (92 :: e :: t)
| raw_unit a b c d u t : hex4 a b c d = Some u -> raw t -> raw (92 :: 117 :: a :: b :: c :: d :: t).
Lemma scan_sound n : forall l t r, (length l <= n)%nat -> scan_string l = Some (t, r) -> l = t ++ 34 :: r /\ raw t.
Proof.
  induction n as [|n IH]; intros l t r Hn; (destruct l as [|c l]; [discriminate|]); cbn [length] in Hn; [lia|]. cbn [scan_string].
  destruct (Z.eqb_spec c 34) as [->|H34]; [intros E; injection E as <- <-; split; [reflexivity|constructor]|].
  destruct (Z.eqb_spec c 92) as [->|H92].
  - destruct l as [|e l]; [discriminate|]. destruct (Z.eqb_spec e 117) as [->|He].
    + destruct l as [|h1 [|h2 [|h3 [|h4 l]]]]; try discriminate. destruct (hex4 h1 h2 h3 h4) eqn:E4; [|discriminate]. destruct (scan_string l) as [[b z']|] eqn:Es; [|discriminate]. intros E. injection E as <- <-.
      apply IH in Es as [-> Hr]; [|cbn [length] in Hn; lia]. split; [reflexivity|]. econstructor; eassumption.
    + destruct (short_esc e) eqn:E4; [|discriminate]. destruct (scan_string l) as [[b z']|] eqn:Es; [|discriminate]. intros E. injection E as <- <-. apply IH in Es as [-> Hr]; [|cbn [length] in Hn; lia]. split; [reflexivity|]. econstructor; eassumption.
  - destruct (Z.ltb_spec c 32); [discriminate|]. destruct (scan_string l) as [[b z']|] eqn:Es; [|discriminate]. intros E. injection E as <- <-. apply IH in Es as [-> Hr]; [|lia]. split; [reflexivity|]. constructor; assumption.
Qed.
Lemma short_not_u e x : short_esc e = Some x -> e <> 117.
Proof. intros H ->. discriminate. Qed.
Lemma scan_complete t r : raw t -> scan_string (t ++ 34 :: r) = Some (t, r).
Proof.
  induction 1 as [|c t H1 H2 H3 _ IH|e x t He _ IH|a b c d u t Hu _ IH]; cbn [app scan_string].
  - reflexivity.
  - replace (c =? 34) with false by lia. replace (c =? 92) with false by lia. replace (c <? 32) with false by lia. rewrite IH. reflexivity.
  - change (92 =? 34) with false. change (92 =? 92) with true. cbn iota. pose proof (short_not_u _ _ He). replace (e =? 117) with false by lia. rewrite He, IH. reflexivity.
  - change (92 =? 34) with false. change (92 =? 92) with true. change (117 =? 117) with true. cbn iota. rewrite Hu, IH. reflexivity.
Qed.
Lemma inside_raw t v : inside t v -> raw t.
Proof.
  assert (U : forall x u t, unit16 x u -> raw t -> raw (x ++ t)) by (intros x u t0 Hx Ht; apply unit16_form in Hx as (a & b & c & d & -> & Hx); cbn [app]; econstructor; eassumption).
  induction 1 as [|c t v H1 H2 H3 _ IH|e c t v He _ IH|x u t v Hx _ _ _ IH|x y h l t v Hx _ Hy _ _ IH|x u t v Hx _ _ _ IH]; eauto.
  - constructor.
  - constructor; assumption.
  - apply short_esc_iff in He. cbn [app]. econstructor; eassumption.
Qed.
Lemma getu4_unit x u t : unit16 x u -> getu4 (x ++ t) = Some (u, t).
Proof. intros H. apply unit16_form in H as (a & b & c & d & -> & H). cbn [app getu4]. change ((92 =? 92) && (117 =? 117)) with true. cbn iota. rewrite H. reflexivity. Qed.
Lemma getu4_some l u r : getu4 l = Some (u, r) -> exists x, l = x ++ r /\ unit16 x u.
Proof.
  unfold getu4. destruct l as [|b [|e [|h1 [|h2 [|h3 [|h4 l]]]]]]; try discriminate. destruct ((b =? 92) && (e =? 117)) eqn:E; [|discriminate]. destruct (hex4 h1 h2 h3 h4) eqn:E4; [|discriminate]. intros H. injection H as <- <-.
  assert (b = 92) as -> by lia. assert (e = 117) as -> by lia. exists [92; 117; h1; h2; h3; h4]. split; [reflexivity|apply hex4_iff; exact E4].
Qed.
Lemma unit16_len x u : unit16 x u -> length x = 6%nat. Proof. intros H. apply unit16_form in H as (a & b & c & d & -> & _). reflexivity. Qed.
Lemma unit16_head x u : unit16 x u -> exists x', x = 92 :: x'. Proof. intros H. apply unit16_form in H as (a & b & c & d & -> & _). eauto. Qed.
Lemma unit16_fun x u w : unit16 x u -> unit16 x w -> u = w.
Proof. intros H1 H2. pose proof (getu4_unit x u [] H1) as E1. pose proof (getu4_unit x w [] H2) as E2. congruence. Qed.
Lemma surrogate_iff u : surrogate u = true <-> high u \/ low u. Proof. unfold surrogate, high, low. lia. Qed.
Lemma pair_some u w x : utf16_pair u w = Some x <-> high u /\ low w /\ x = 65536 + 1024 * (u - 55296) + (w - 56320).
Proof.
  unfold utf16_pair, high, low. destruct (_ && _ && _ && _) eqn:E; [|split; [discriminate|lia]]. split; [intros H; injection H as <-; lia|intros (_ & _ & ->); f_equal; lia].
Qed.
Lemma raw_tail x u t : unit16 x u -> raw (x ++ t) -> raw t.
Proof.
  intros Hx. apply unit16_form in Hx as (a & b & c & d & -> & Hx). cbn [app]. intros H. inversion H as [|? ? ? ? ? ?|? ? ? He Ht|? ? ? ? ? ? ? Ht]; subst; try congruence; discriminate.
Qed.
Lemma raw_not_u l : raw (92 :: l) -> getu4 (92 :: l) = None -> exists e x t, l = e :: t /\ short_esc e = Some x /\ raw t.
Proof.
  intros H E. inversion H as [|? ? ? ? ? ?|e x t He Ht|a b c d u t Hu Ht]; subst; try congruence; [eauto 6|]. exfalso. cbn [getu4] in E. change ((92 =? 92) && (117 =? 117)) with true in E. cbn iota in E. rewrite Hu in E. discriminate.
Qed.
Lemma unquote_inside n : forall t, (length t <= n)%nat -> raw t -> inside t (unquote n t).
Proof.
  induction n as [|n IH]; intros t Hn Ht; (destruct t as [|c t]; [constructor|]); cbn [length] in Hn; [lia|]. cbn [unquote].
  destruct (Z.eqb_spec c 92) as [->|Hc]; [|inversion Ht as [|? ? G1 G2 G3 G4|e0 x0 t0 G1 G2|a0 b0 c0 d0 u0 t0 G1 G2]; subst; try congruence; apply in_char; try assumption; apply IH; [lia|assumption]].
  destruct (getu4 (92 :: t)) as [[u r1]|] eqn:Eu.
  - apply getu4_some in Eu as (x & Ex & Hx). pose proof (unit16_len _ _ Hx) as Lx. assert (Lt : length (92 :: t) = length (x ++ r1)) by congruence. rewrite app_length in Lt. cbn [length] in Lt. rewrite Ex in Ht |- *. pose proof (raw_tail _ _ _ Hx Ht) as Hr.
    destruct (surrogate u) eqn:Es.
    + apply surrogate_iff in Es. destruct (getu4 r1) as [[w r2]|] eqn:Ew.
      * pose proof (getu4_some _ _ _ Ew) as (y & Ey & Hy). pose proof (unit16_len _ _ Hy) as Ly. assert (Lr : length r1 = length (y ++ r2)) by congruence. rewrite app_length in Lr. destruct (utf16_pair u w) as [p|] eqn:Ep.
        -- apply pair_some in Ep as (P1 & P2 & ->). rewrite Ey in Hr |- *. apply in_pair; try assumption. apply IH; [lia|apply (raw_tail y w); assumption].
        -- apply in_half with u; [exact Hx|exact Es| |apply IH; [lia|exact Hr]]. intros Hh (y' & l' & t' & E' & Hy' & Hl'). rewrite E' in Ew. rewrite (getu4_unit y' l' t' Hy') in Ew. injection Ew as -> ->.
           assert (utf16_pair u w = Some (65536 + 1024 * (u - 55296) + (w - 56320))) by (apply pair_some; tauto). congruence.
      * apply in_half with u; [exact Hx|exact Es| |apply IH; [lia|exact Hr]]. intros Hh (y' & l' & t' & E' & Hy' & Hl'). rewrite E' in Ew. rewrite (getu4_unit y' l' t' Hy') in Ew. discriminate.
    + apply in_unit; [exact Hx| | |apply IH; [lia|exact Hr]]; intros Hu; assert (surrogate u = true) by (apply surrogate_iff; tauto); congruence.
  - destruct (raw_not_u t Ht Eu) as (e & x & t' & -> & He & Ht'). rewrite He. apply (in_letter e x); [apply short_esc_iff; exact He|]. apply IH; [cbn [length] in Hn; lia|exact Ht'].
Qed.
Lemma unquote_complete t v : inside t v -> forall n, (length t <= n)%nat -> unquote n t = v.
Proof.
  induction 1 as [|c t v H1 H2 H3 _ IH|e c t v He _ IH|x u t v Hx N1 N2 _ IH|x y h l t v Hx Hh Hy Hl _ IH|x u t v Hx Hs Hp Ht IH]; intros n Hn.
  - destruct n; reflexivity.
  - cbn [app length] in *. destruct n as [|n]; [lia|]. cbn [unquote]. replace (c =? 92) with false by lia. rewrite IH by lia. reflexivity.
  - cbn [app length] in *. destruct n as [|n]; [lia|]. cbn [unquote]. change (92 =? 92) with true. cbn iota. apply short_esc_iff in He. pose proof (short_not_u _ _ He).
    assert (G : getu4 (92 :: e :: t) = None). { unfold getu4. destruct t as [|h1 [|h2 [|h3 [|h4 l]]]]; try reflexivity. replace ((92 =? 92) && (e =? 117)) with false by lia. reflexivity. }
    rewrite G, He, IH by lia. reflexivity.
  - pose proof (unit16_len _ _ Hx) as Lx. rewrite app_length in Hn. destruct n as [|n]; [lia|]. destruct (unit16_head _ _ Hx) as (x' & Ex). pose proof (getu4_unit x u t Hx) as G. rewrite Ex in G |- *. cbn [app] in *. cbn [unquote]. change (92 =? 92) with true. cbn iota. rewrite G.
    replace (surrogate u) with false. 2: { symmetry. apply not_true_iff_false. rewrite surrogate_iff. tauto. } rewrite IH by lia. reflexivity.
  - pose proof (unit16_len _ _ Hx) as Lx. pose proof (unit16_len _ _ Hy) as Ly. rewrite !app_length in Hn. destruct n as [|n]; [lia|]. destruct (unit16_head _ _ Hx) as (x' & Ex). pose proof (getu4_unit x h (y ++ t) Hx) as G. rewrite Ex in G |- *. cbn [app] in *. cbn [unquote]. change (92 =? 92) with true. cbn iota. rewrite G.
    replace (surrogate h) with true by (symmetry; apply surrogate_iff; tauto). rewrite (getu4_unit y l t Hy). replace (utf16_pair h l) with (Some (65536 + 1024 * (h - 55296) + (l - 56320))) by (symmetry; apply pair_some; tauto). rewrite IH by lia. reflexivity.
  - pose proof (unit16_len _ _ Hx) as Lx. rewrite app_length in Hn. destruct n as [|n]; [lia|]. destruct (unit16_head _ _ Hx) as (x' & Ex). pose proof (getu4_unit x u t Hx) as G. rewrite Ex in G |- *. cbn [app] in *. cbn [unquote]. change (92 =? 92) with true. cbn iota. rewrite G.
    replace (surrogate u) with true by (symmetry; apply surrogate_iff; exact Hs). rewrite IH by lia. destruct (getu4 t) as [[w r2]|] eqn:Ew; [|reflexivity].
    destruct (utf16_pair u w) as [p|] eqn:Ep; [|reflexivity]. exfalso. apply pair_some in Ep as (P1 & P2 & _). apply getu4_some in Ew as (y & Ey & Hy). apply (Hp P1). eauto 6.
Qed.
Lemma p_string_sound l s r : p_string l = Some (s, r) -> exists t v, l = t ++ 34 :: r /\ inside t v /\ s = encode v.
Proof.
  unfold p_string. destruct (scan_string l) as [[b z]|] eqn:E; [|discriminate]. intros H. injection H as <- <-. apply (scan_sound (length l)) in E as [-> Hb]; [|lia].
  exists b, (unquote (length b) b). split; [reflexivity|]. split; [apply unquote_inside; [lia|exact Hb]|reflexivity].
Qed.
Lemma p_string_complete t v r : inside t v -> p_string (t ++ 34 :: r) = Some (encode v, r).
Proof. intros H. unfold p_string. rewrite (scan_complete t r (inside_raw _ _ H)). rewrite (unquote_complete t v H) by lia. reflexivity. Qed.
