(** * StateCut: a cut-off object is not JSON (C100). *)
From Coq Require Import ZifyBool Lqa.
From Verif Require Import Base Utf8 LoaderModel LoaderSpec ExportSpec ConvertModel ConvertSpec F64Model F64Spec F64Proofs JsonModel JsonSpec JsonWrite2 JsonProps JsonRead JsonRead2 JsonReadProps StateModel StateSpec StateProofs StateProofs2 StateProofs3.

(** ** Cutting UTF-8 *)
Lemma cut_char r p q : scalar r -> enc r = p ++ q -> p <> [] -> q <> [] -> exists k, decode p = repeat rune_error (S k).
Proof.
  intros H E Hp Hq. assert (Q : forall x : str, [] = x ++ q -> False) by (intros x Ex; symmetry in Ex; apply app_eq_nil in Ex; apply Hq, Ex).
  destruct (enc_cases r H) as [[Hr E']|[[Hr E']|[[Hr E']|[Hr E']]]]; rewrite E' in E; clear E'.
  - destruct p as [|a p]; [contradiction|]. injection E as _ E. destruct (Q p E).
  - remember (192 + r / 64) as b0 eqn:E0. remember (128 + r mod 64) as b1 eqn:E1. destruct p as [|a [|b p]]; [contradiction| |].
    + injection E as <- _. exists O. cbn [decode]. destruct (Z.ltb_spec b0 128); [lia|reflexivity].
    + injection E as _ _ E. destruct (Q p E).
  - remember (224 + r / 4096) as b0 eqn:E0. remember (128 + r / 64 mod 64) as b1 eqn:E1. remember (128 + r mod 64) as b2 eqn:E2. destruct p as [|a [|b [|c p]]]; [contradiction| | |].
    + injection E as <- _. exists O. cbn [decode]. destruct (Z.ltb_spec b0 128); [lia|reflexivity].
    + injection E as <- <- _. exists 1%nat. cbn [decode]. destruct (Z.ltb_spec b0 128); [lia|]. replace (ok2 b0 b1) with false by (unfold ok2, between; lia). destruct (Z.ltb_spec b1 128); [lia|reflexivity].
    + injection E as _ _ _ E. destruct (Q p E).
  - remember (240 + r / 262144) as b0 eqn:E0. remember (128 + r / 4096 mod 64) as b1 eqn:E1. remember (128 + r / 64 mod 64) as b2 eqn:E2. remember (128 + r mod 64) as b3 eqn:E3. destruct p as [|a [|b [|c [|d p]]]]; [contradiction| | | |].
    + injection E as <- _. exists O. cbn [decode]. destruct (Z.ltb_spec b0 128); [lia|reflexivity].
    + injection E as <- <- _. exists 1%nat. cbn [decode]. destruct (Z.ltb_spec b0 128); [lia|]. replace (ok2 b0 b1) with false by (unfold ok2, between; lia). destruct (Z.ltb_spec b1 128); [lia|reflexivity].
    + injection E as <- <- <- _. exists 2%nat. cbn [decode]. destruct (Z.ltb_spec b0 128); [lia|]. replace (ok2 b0 b1) with false by (unfold ok2, between; lia). replace (ok3 b0 b1 b2) with false by (unfold ok3, between; lia). destruct (Z.ltb_spec b1 128); [lia|].
      replace (ok2 b1 b2) with false by (unfold ok2, between; lia). destruct (Z.ltb_spec b2 128); [lia|reflexivity].
    + injection E as _ _ _ _ E. destruct (Q p E).
Qed.
Lemma app_split {A} (a b c d : list A) : a ++ b = c ++ d -> (exists x, c = a ++ x /\ b = x ++ d) \/ (exists x, x <> [] /\ a = c ++ x /\ d = x ++ b).
Proof.
  revert c. induction a as [|y a IH]; intros c E; [left; exists c; auto|]. destruct c as [|z c]; [right; exists (y :: a); split; [discriminate|auto]|].
  injection E as -> E. destruct (IH c E) as [(x & -> & ->)|(x & Hx & -> & ->)]; [left; exists x; auto|right; exists x; auto].
Qed.
Lemma cut_text t : Forall scalar t -> forall p q, encode t = p ++ q -> exists t1 t2 k, t = t1 ++ t2 /\ decode p = t1 ++ repeat rune_error k /\ (k = O -> p = encode t1 /\ q = encode t2) /\ (k <> O -> t2 <> []).
Proof.
  induction 1 as [|r t Hr Ht IH]; intros p q E.
  - destruct p; [|discriminate]. exists [], [], O. split; [reflexivity|]. split; [reflexivity|]. split; [|intros X; contradiction]. intros _. cbn in E. subst q. split; reflexivity.
  - destruct p as [|b p]; [exists [], (r :: t), O; split; [reflexivity|]; split; [reflexivity|]; split; [|intros X; contradiction]; intros _; split; [reflexivity|]; symmetry; exact E|].
    change (encode (r :: t)) with (enc r ++ encode t) in E. destruct (app_split _ _ _ _ E) as [(x & Ex & Eq)|(x & Hx & Ex & Eq)].
    + destruct (IH x q Eq) as (t1 & t2 & k & -> & Ed & K & K2). exists (r :: t1), t2, k. split; [reflexivity|]. split; [rewrite Ex, decode_enc by exact Hr; rewrite Ed; reflexivity|]. split; [|exact K2]. intros H. destruct (K H) as [-> ->]. split; [exact Ex|reflexivity].
    + destruct (cut_char r (b :: p) x Hr Ex) as [k Hk]; [discriminate|exact Hx|]. exists [], (r :: t), (S k). split; [reflexivity|]. split; [exact Hk|]. split; discriminate.
Qed.

(** ** The end of a value *)
Definition ascii_end (t : runes) : Prop := exists t' c, t = t' ++ [c] /\ 0 <= c < 128.
Lemma number_ascii t q : number t q -> Forall (fun c => 0 <= c < 128) t.
Proof.
  assert (Dg : forall l, digits l -> Forall (fun c => 0 <= c < 128) l) by (intros l; apply Forall_impl; intros; lia).
  intros [sg i ft f et x n v Hi Hf He _ Hs]. rewrite !Forall_app. repeat split.
  - destruct Hs as [[-> _]|[-> _]]; repeat constructor; lia.
  - destruct Hi as [->|(_ & _ & Hd)]; [repeat constructor; lia|apply Dg, Hd].
  - destruct Hf as [|f0 _ Hd]; [constructor|]. constructor; [lia|apply Dg, Hd].
  - destruct He as [|e s1 ds n' x' H1 _ Hd _ H2]; [constructor|]. constructor; [lia|]. apply Forall_app. split; [|apply Dg, Hd]. destruct H2 as [[[-> | ->] _]|[-> _]]; repeat constructor; lia.
Qed.
Lemma value_end num d t v : value num d t v -> ascii_end t.
Proof.
  assert (X : forall c t0 t1, 0 <= c < 128 -> ascii_end (t0 ++ t1 ++ [c])) by (intros c t0 t1 Hc; exists (t0 ++ t1), c; rewrite <- app_assoc; auto).
  intros H. destruct H; try (apply X; lia); try (eexists (removelast _), _; split; [cbn; reflexivity|cbn; lia]).
  - exists (bs "nul"), 108. split; [reflexivity|lia].
  - exists (bs "tru"), 101. split; [reflexivity|lia].
  - exists (bs "fals"), 101. split; [reflexivity|lia].
  - destruct (number_first _ _ H) as (c & t' & -> & _). apply number_ascii in H. destruct (exists_last (l := c :: t')) as (t2 & c2 & E); [discriminate|]. rewrite E in *. apply Forall_app in H as [_ H]. inversion H; subst. exists t2, c2. auto.
Qed.
Lemma ws_ascii w : ws w -> Forall (fun c => 0 <= c < 128) w. Proof. apply Forall_impl. intros c H. lia. Qed.
Lemma repeat_end {A} (e c : A) k l y : repeat e k = l ++ [c] ++ y -> c = e.
Proof. intros E. apply (repeat_spec k e). rewrite E. apply in_or_app. right. left. reflexivity. Qed.
(** ** Objects are read whatever follows *)
Lemma object_read d t m : value as_float d t (JObj m) -> forall n d' w r, (d <= d')%nat -> (2 * length t + 1 <= n)%nat -> ws w -> exists v', p_value n d' (w ++ t ++ r) = Ok (v', r).
Proof.
  intros H n d' w r Hd Hn Hw. destruct n as [|n]; [lia|]. inversion H as [| | | | | | |d0 w0 Hw0|d0 t0 ms m0 Hm Hl]; subst; (destruct d' as [|d']; [lia|]); cbn [p_value]; rewrite skip_ws_app by exact Hw; cbn [app]; rewrite skip_ws_here by reflexivity; change (123 =? 34) with false; change (123 =? 91) with false; change (123 =? 123) with true; cbn iota.
  - rewrite <- app_assoc, skip_ws_app by exact Hw0. exists (JObj []). reflexivity.
  - rewrite !app_length in Hn. cbn [length] in Hn. rewrite <- app_assoc. destruct (members_first _ _ _ _ ([125] ++ r) Hm) as (l' & Es). rewrite Es. change (34 =? 125) with false. cbn iota.
    destruct (proj2 (proj2 p_complete) _ _ _ Hm n d' [] r) as (ms' & E & _); [lia|lia|]. rewrite E. eexists. reflexivity.
Qed.
Lemma object_first num d t m : value num d t (JObj m) -> exists t', t = 123 :: t'. Proof. intros H. inversion H; eexists; reflexivity. Qed.
Lemma first_object num d t v t' : value num d t v -> t = 123 :: t' -> exists m, v = JObj m.
Proof. intros H E. inversion H; subst; try discriminate; eauto. destruct (number_first _ _ H0) as (c & x & E & Hc). injection E as E _. lia. Qed.
(** No part of an object, from its beginning, is a value, or begins with one. *)
Lemma cut_object d s t m p q : is_text s t -> value as_float d t (JObj m) -> s = p ++ q -> q <> [] -> forall d' w x r v, decode p = w ++ x ++ r -> ws w -> ~ value as_float d' x v.
Proof.
  intros [Es Ht] V E Hq d' w x r v H Hw Hx. rewrite Es in E. destruct (cut_text t Ht p q E) as (t1 & t2 & k & -> & Ed & K & K2). rewrite Ed in H.
  assert (N2 : t2 <> []) by (destruct k; [intros ->; apply Hq; apply (K eq_refl)|apply K2; discriminate]).
  assert (exists y, t1 = w ++ x ++ y) as [y ->].
  { destruct (value_end _ _ _ _ Hx) as (x' & c & -> & Hc). replace (w ++ (x' ++ [c]) ++ r) with ((w ++ x' ++ [c]) ++ r) in H by (rewrite !app_assoc; reflexivity). destruct (app_split _ _ _ _ (eq_sym H)) as [(z & Ez & _)|(z & Hz & Ez & Er)].
    - exists z. rewrite Ez, !app_assoc. reflexivity.
    - exfalso. destruct z as [|a z] using rev_ind; [contradiction|]. clear IHz. rewrite !app_assoc in Ez. apply app_inj_tail in Ez as [_ <-]. rewrite <- app_assoc in Er. apply repeat_end in Er. unfold rune_error in Er. lia. }
  assert (w = [] /\ exists y, x = 123 :: y) as [-> [y' Ey]].
  { destruct (object_first _ _ _ _ V) as [t' Et]. destruct w as [|c w].
    - split; [reflexivity|]. destruct (value_first _ _ _ _ Hx) as (c & x' & -> & _). injection Et as -> _. eauto.
    - exfalso. injection Et as -> _. inversion Hw; subst. lia. }
  destruct (first_object _ _ _ _ _ Hx Ey) as [m' ->]. set (n := (2 * length (([] ++ x ++ y) ++ t2) + 1)%nat). set (D := Nat.max d d').
  destruct (object_read _ _ _ V n D [] []) as (v1 & E1); [unfold D; lia|unfold n; lia|constructor|]. destruct (object_read _ _ _ Hx n D [] (y ++ t2)) as (v2 & E2); [unfold D; lia|unfold n; rewrite !app_length; lia|constructor|].
  cbn [app] in E1, E2. rewrite <- !app_assoc, app_nil_r in E1. cbn [app] in E1. rewrite E2 in E1. injection E1 as _ E1. apply app_eq_nil in E1 as [_ E1]. contradiction.
Qed.
