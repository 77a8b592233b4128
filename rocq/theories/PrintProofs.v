(** * PrintProofs: lemmas for C52 and C53. *)
From Verif Require Import Base Dec DateModel PriceModel BookModel RegisterModel Utf8 LoaderModel ExportModel PrintModel PrintSpec.

Section P.
  Variable is_print : Z -> bool.
  Notation vis := (visible is_print).
  Notation ctt := (cut is_print).

  Lemma text_cons p ps : text (p :: ps) = piece_text p ++ text ps.
  Proof. reflexivity. Qed.
  Lemma text_app a b : text (a ++ b) = text a ++ text b.
  Proof. unfold text. rewrite map_app, concat_app. reflexivity. Qed.
  Lemma visible_app a b : vis (a ++ b) = vis a ++ vis b.
  Proof. induction a as [|[r|c] a IH]; cbn [app visible]; [reflexivity| |exact IH]. destruct (shown is_print r); cbn [app]; rewrite IH; reflexivity. Qed.
  Lemma colours_app a b : colours (a ++ b) = colours a ++ colours b.
  Proof. induction a as [|[r|c] a IH]; cbn [app colours]; [reflexivity|exact IH|]. rewrite IH. reflexivity. Qed.

  Lemma len_esc body rest : ~ In 109 body -> len_loop is_print true (body ++ 109 :: rest) = len_loop is_print false rest.
  Proof.
    induction body as [|c body IH]; intros H; cbn [app len_loop]; [reflexivity|].
    unfold ansi_end. destruct (Z.eqb_spec c 109) as [->|N]; [destruct H; left; reflexivity|]. cbn [negb]. apply IH. intros F. apply H. right. exact F.
  Qed.
  Lemma len_text ps rest : Forall piece_ok ps -> len_loop is_print false (text ps ++ rest) = Z.of_nat (length (vis ps)) + len_loop is_print false rest.
  Proof.
    induction 1 as [|p ps Hp _ IH]; [reflexivity|]. rewrite text_cons, <- app_assoc. destruct p as [r|b]; cbn [piece_text piece_ok app] in *.
    - cbn [len_loop visible]. unfold ansi_start. destruct (Z.eqb_spec r 27) as [E|_]; [contradiction|]. change (placed is_print r) with (shown is_print r).
      destruct (shown is_print r); rewrite IH; cbn [length]; lia.
    - cbn [len_loop visible]. unfold ansi_start. rewrite Z.eqb_refl, <- app_assoc. cbn [app]. rewrite len_esc by exact Hp. exact IH.
  Qed.
  Lemma text_length_ok s ps : decode s = text ps -> Forall piece_ok ps -> text_length is_print s = Z.of_nat (length (vis ps)).
  Proof. intros E H. unfold text_length. rewrite E, <- (app_nil_r (text ps)), len_text by exact H. cbn [len_loop]. lia. Qed.

  Lemma pad_esc body count max rest : ~ In 109 body ->
    pad_loop is_print true count max (body ++ 109 :: rest) = (let '(o, c) := pad_loop is_print false count max rest in (body ++ 109 :: o, c)).
  Proof.
    induction body as [|x body IH]; intros H; cbn [app pad_loop].
    - change (negb (109 =? ansi_end)) with false. destruct (pad_loop is_print false count max rest). reflexivity.
    - unfold ansi_end. destruct (Z.eqb_spec x 109) as [->|N]; [destruct H; left; reflexivity|]. cbn [negb]. rewrite IH by (intros F; apply H; right; exact F).
      destruct (pad_loop is_print false count max rest). reflexivity.
  Qed.
  Lemma pad_text ps : Forall piece_ok ps -> forall count max rest,
    pad_loop is_print false count max (text ps ++ rest) =
    (let '(o, c) := pad_loop is_print false (count + Z.of_nat (length (vis ps))) max rest in (text (ctt (Z.to_nat (max - count)) ps) ++ o, c)).
  Proof.
    induction 1 as [|p ps Hp _ IH]; intros count max rest.
    - change (text [] ++ rest) with rest. cbn [visible length cut]. rewrite Z.add_0_r. destruct (pad_loop is_print false count max rest). reflexivity.
    - rewrite text_cons, <- app_assoc. destruct p as [r|b]; cbn [piece_text piece_ok app] in *.
      + cbn [pad_loop visible cut]. unfold ansi_start. destruct (Z.eqb_spec r 27) as [E|_]; [contradiction|]. change (placed is_print r) with (shown is_print r).
        destruct (shown is_print r) eqn:Es.
        * rewrite IH. cbn [length]. rewrite Nat2Z.inj_succ. replace (count + 1 + Z.of_nat (length (vis ps))) with (count + Z.succ (Z.of_nat (length (vis ps)))) by lia.
          destruct (pad_loop is_print false (count + Z.succ (Z.of_nat (length (vis ps)))) max rest) as [o c]. f_equal.
          destruct (Z.leb_spec (count + 1) max).
          -- replace (Z.to_nat (max - count)) with (S (Z.to_nat (max - (count + 1)))) by lia. rewrite text_cons. reflexivity.
          -- replace (Z.to_nat (max - count)) with O by lia. replace (Z.to_nat (max - (count + 1))) with O by lia. reflexivity.
        * apply IH.
      + cbn [pad_loop visible cut]. unfold ansi_start. rewrite Z.eqb_refl, <- app_assoc. cbn [app]. rewrite pad_esc by exact Hp. rewrite IH.
        destruct (pad_loop is_print false (count + Z.of_nat (length (vis ps))) max rest) as [o c]. rewrite text_cons. cbn [piece_text app]. rewrite <- !app_assoc. reflexivity.
  Qed.

  Lemma encode_spaces n : encode (repeat 32 n) = repeat 32 n.
  Proof. induction n as [|n IH]; [reflexivity|]. cbn [repeat]. unfold encode in *. cbn [map concat]. rewrite IH. reflexivity. Qed.
  Lemma text_spaces n : text (repeat (Char 32) n) = repeat 32 n.
  Proof. induction n as [|n IH]; [reflexivity|]. cbn [repeat]. rewrite text_cons, IH. reflexivity. Qed.

  Lemma pad_string_ok s ps w left : decode s = text ps -> Forall piece_ok ps ->
    pad_string is_print s w left = encode (text (padded is_print (Z.to_nat w) left ps)).
  Proof.
    intros E H. unfold pad_string. rewrite E, <- (app_nil_r (text ps)), pad_text by exact H. cbn [pad_loop]. rewrite app_nil_r, Z.add_0_l, Z.sub_0_r.
    unfold padded, blanks_for. destruct (Z.leb_spec w (Z.of_nat (length (vis ps)))).
    - replace (Z.to_nat w - length (vis ps))%nat with O by lia. cbn [repeat]. destruct left; [rewrite app_nil_r|]; reflexivity.
    - replace (Z.to_nat (w - Z.of_nat (length (vis ps)))) with (Z.to_nat w - length (vis ps))%nat by lia.
      destruct left; rewrite text_app, encode_app, text_spaces, encode_spaces; reflexivity.
  Qed.

  (** Properties of the cut text *)
  Lemma shown_untab r : shown is_print r = true -> is_print 32 = true -> shown is_print (untab r) = true.
  Proof. intros H H32. unfold untab. destruct (r =? 9); [unfold shown; rewrite H32; reflexivity|exact H]. Qed.
  Lemma untab_idem r : untab (untab r) = untab r.
  Proof. unfold untab. destruct (r =? 9) eqn:E; [reflexivity|]. rewrite E. reflexivity. Qed.
  Lemma cut_visible w ps : is_print 32 = true -> vis (ctt w ps) = firstn w (vis ps).
  Proof.
    intros H32. revert w. induction ps as [|[r|b] ps IH]; intros w; cbn [cut visible]; [destruct w; reflexivity| |apply IH].
    destruct (shown is_print r) eqn:E; [|apply IH]. destruct w as [|w]; [rewrite IH; destruct (vis ps); reflexivity|]. cbn [visible firstn]. rewrite shown_untab by assumption. rewrite untab_idem, IH. reflexivity.
  Qed.
  Lemma cut_colours w ps : colours (ctt w ps) = colours ps.
  Proof.
    revert w. induction ps as [|[r|b] ps IH]; intros w; cbn [cut colours]; [reflexivity| |f_equal; apply IH].
    destruct (shown is_print r); [|apply IH]. destruct w as [|w]; [apply IH|]. cbn [colours]. apply IH.
  Qed.
  Lemma cut_ok w ps : Forall piece_ok ps -> Forall piece_ok (ctt w ps).
  Proof.
    intros H. revert w. induction H as [|p ps Hp _ IH]; intros w; [constructor|]. destruct p as [r|b]; cbn [cut piece_ok] in *; [|constructor; [exact Hp|apply IH]].
    destruct (shown is_print r); [|apply IH]. destruct w as [|w]; [apply IH|]. constructor; [|apply IH]. unfold piece_ok, untab. destruct (r =? 9); [discriminate|exact Hp].
  Qed.
  Lemma blanks_ok w ps : Forall piece_ok (blanks_for is_print w ps).
  Proof. unfold blanks_for. apply Forall_forall. intros x H. apply repeat_spec in H. subst x. cbn. discriminate. Qed.
  Lemma padded_ok w left ps : Forall piece_ok ps -> Forall piece_ok (padded is_print w left ps).
  Proof. intros H. pose proof (cut_ok w ps H). pose proof (blanks_ok w ps). unfold padded. destruct left; apply Forall_app; split; assumption. Qed.
  Lemma visible_spaces n : is_print 32 = true -> vis (repeat (Char 32) n) = repeat 32 n.
  Proof. intros H. induction n as [|n IH]; [reflexivity|]. cbn [repeat visible]. unfold shown. rewrite H. cbn [orb]. rewrite IH. reflexivity. Qed.
  Lemma padded_visible w left ps : is_print 32 = true ->
    vis (padded is_print w left ps) =
    (if left then firstn w (vis ps) ++ repeat 32 (w - length (vis ps)) else repeat 32 (w - length (vis ps)) ++ firstn w (vis ps)).
  Proof. intros H. unfold padded, blanks_for. destruct left; rewrite visible_app, cut_visible, visible_spaces by exact H; reflexivity. Qed.
  Lemma padded_length w left ps : is_print 32 = true -> length (vis (padded is_print w left ps)) = w.
  Proof. intros H. rewrite padded_visible by exact H. destruct left; rewrite app_length, firstn_length, repeat_length; lia. Qed.
  Lemma padded_colours w left ps : colours (padded is_print w left ps) = colours ps.
  Proof.
    assert (E : colours (blanks_for is_print w ps) = []) by (unfold blanks_for; induction (w - length (vis ps))%nat; [reflexivity|assumption]).
    unfold padded. destruct left; rewrite colours_app, E, cut_colours; [apply app_nil_r|reflexivity].
  Qed.

  (** Scalars *)
  Lemma text_scalar_cut w ps : Forall scalar (text ps) -> Forall scalar (text (ctt w ps)).
  Proof.
    revert w. induction ps as [|[r|b] ps IH]; intros w H; cbn [cut]; [constructor| |].
    - rewrite text_cons in H. apply Forall_app in H as [H1 H2]. destruct (shown is_print r); [|apply IH; exact H2].
      destruct w as [|w]; [apply IH; exact H2|]. rewrite text_cons. apply Forall_app. split; [|apply IH; exact H2]. cbn [piece_text] in *. constructor; [|constructor].
      inversion H1; subst. unfold untab. destruct (r =? 9); [unfold scalar; lia|assumption].
    - rewrite text_cons in *. apply Forall_app in H as [H1 H2]. apply Forall_app. split; [exact H1|apply IH; exact H2].
  Qed.
  Lemma scalar_spaces n : Forall scalar (repeat 32 n).
  Proof. apply Forall_forall. intros x H. apply repeat_spec in H. subst x. unfold scalar. lia. Qed.
  Lemma text_scalar_padded w left ps : Forall scalar (text ps) -> Forall scalar (text (padded is_print w left ps)).
  Proof.
    intros H. pose proof (text_scalar_cut w ps H). unfold padded, blanks_for. destruct left; rewrite text_app, text_spaces; apply Forall_app; split; try assumption; apply scalar_spaces.
  Qed.

  (** Every text is pieces, except for an unterminated colour sequence at the end. *)
  Lemma pieces_of rs : exists ps tail, Forall piece_ok ps /\ rs = text ps ++ tail /\ (tail = [] \/ exists body, tail = 27 :: body /\ ~ In 109 body).
  Proof.
    assert (H : forall n rs, (length rs <= n)%nat -> exists ps tail, Forall piece_ok ps /\ rs = text ps ++ tail /\ (tail = [] \/ exists body, tail = 27 :: body /\ ~ In 109 body)).
    2: { exact (H (length rs) rs (Nat.le_refl _)). }
    induction n as [|n IH]; intros [|r l] Hn; try (exists [], []; split; [constructor|split; [reflexivity|left; reflexivity]]); cbn [length] in Hn; [lia|].
    destruct (Z.eq_dec r 27) as [->|N].
    - destruct (in_dec Z.eq_dec 109 l) as [Hin|Hno]; [|exists [], (27 :: l); split; [constructor|split; [reflexivity|right; exists l; split; [reflexivity|exact Hno]]]].
      assert (E : exists b l', l = b ++ 109 :: l' /\ ~ In 109 b).
      { clear - Hin. induction l as [|x l IH]; [destruct Hin|]. destruct (Z.eq_dec x 109) as [->|Nx]; [exists [], l; split; [reflexivity|intros []]|].
        destruct IH as (b & l' & -> & Hb); [destruct Hin as [E|H]; [congruence|exact H]|]. exists (x :: b), l'. split; [reflexivity|]. intros [E|F]; [congruence|contradiction]. }
      destruct E as (b & l' & -> & Hb). destruct (IH l') as (ps & tail & H1 & -> & H2); [rewrite app_length in Hn; cbn [length] in Hn; lia|].
      exists (Colour b :: ps), tail. split; [constructor; assumption|]. split; [|exact H2]. rewrite text_cons. cbn [piece_text app]. rewrite <- !app_assoc. reflexivity.
    - destruct (IH l) as (ps & tail & H1 & -> & H2); [lia|]. exists (Char r :: ps), tail. split; [constructor; assumption|]. split; [reflexivity|exact H2].
  Qed.
  Lemma cut_same w ps : (length (vis ps) <= w)%nat -> Forall (fun p => match p with Char r => shown is_print r = true /\ r <> 9 | _ => True end) ps -> ctt w ps = ps.
  Proof.
    revert w. induction ps as [|[r|b] ps IH]; intros w Hw H; cbn [cut visible] in *; [reflexivity| |].
    - apply Forall_cons_iff in H as [[H1 H2] Ht]. rewrite H1 in *. cbn [length] in Hw. destruct w as [|w]; [lia|]. rewrite IH by (try assumption; lia). unfold untab. destruct (Z.eqb_spec r 9); [contradiction|reflexivity].
    - inversion H; subst. rewrite IH by assumption. reflexivity.
  Qed.
  Lemma cut_clean w ps : is_print 32 = true -> Forall (fun p => match p with Char r => shown is_print r = true /\ r <> 9 | _ => True end) (ctt w ps).
  Proof.
    intros H32. revert w. induction ps as [|[r|b] ps IH]; intros w; cbn [cut]; [constructor| |constructor; [exact I|apply IH]].
    destruct (shown is_print r) eqn:E; [|apply IH]. destruct w as [|w]; [apply IH|]. constructor; [|apply IH]. split; [apply shown_untab; assumption|].
    unfold untab. destruct (Z.eqb_spec r 9); [discriminate|assumption].
  Qed.
  Lemma padded_clean w left ps : is_print 32 = true -> Forall (fun p => match p with Char r => shown is_print r = true /\ r <> 9 | _ => True end) (padded is_print w left ps).
  Proof.
    intros H32. pose proof (cut_clean w ps H32) as H.
    assert (Hb : Forall (fun p => match p with Char r => shown is_print r = true /\ r <> 9 | _ => True end) (blanks_for is_print w ps)).
    { unfold blanks_for. apply Forall_forall. intros x Hx. apply repeat_spec in Hx. subst x. unfold shown. rewrite H32. split; [reflexivity|discriminate]. }
    unfold padded. destruct left; apply Forall_app; split; assumption.
  Qed.
  Lemma padded_idem w l l' ps : is_print 32 = true -> padded is_print w l' (padded is_print w l ps) = padded is_print w l ps.
  Proof.
    intros H32. unfold padded at 1, blanks_for at 1 2. rewrite padded_length, Nat.sub_diag by exact H32. cbn [repeat].
    assert (E : ctt w (padded is_print w l ps) = padded is_print w l ps) by (apply cut_same; [rewrite padded_length by exact H32; lia|apply padded_clean; exact H32]).
    destruct l'; rewrite ?app_nil_r; exact E.
  Qed.
End P.

(** ** Shrinking *)
From Coq Require Import ZifyBool ZifyNat Zify.
Lemma totals_ok ws : forall fl, (length ws <= length fl)%nat ->
  exists n, totals ws fl = Ok (zsum ws, n, zsum_where fl ws) /\ 0 <= n /\ (0 < n <-> last_shrinkable fl ws <> None).
Proof.
  induction ws as [|w ws IH]; intros [|f fl] H; cbn [length] in H; try lia.
  - exists 0. split; [reflexivity|]. split; [lia|]. cbn. split; [lia|congruence].
  - exists 0. split; [destruct f; reflexivity|]. split; [lia|]. cbn. split; [lia|congruence].
  - destruct (IH fl) as (n & E & H0 & Hn); [lia|]. cbn [totals]. rewrite E. cbn [obind]. exists (if f then n + 1 else n). cbn [zsum zsum_where last_shrinkable].
    split; [destruct f; reflexivity|]. split; [destruct f; lia|]. destruct (last_shrinkable fl ws); destruct f; split; intros; try congruence; try lia; try (apply Hn; congruence).
Qed.

Lemma where_nonneg ws : forall fl, Forall (fun w => 0 <= w) ws -> 0 <= zsum_where fl ws.
Proof.
  induction ws as [|w ws IH]; intros [|[|] fl] H; cbn [zsum_where]; try lia.
  - inversion H; subst. specialize (IH fl H3). lia.
  - inversion H; subst. apply IH. assumption.
Qed.
Lemma where_pos ws : forall fl, Forall (fun w => 0 <= w) ws -> (exists x, last_shrinkable fl ws = Some x /\ 0 < x) -> 0 < zsum_where fl ws.
Proof.
  induction ws as [|w ws IH]; intros [|f fl] H (x & E & Hx); cbn [zsum_where last_shrinkable] in *; try discriminate.
  inversion H; subst. pose proof (where_nonneg ws fl H3). destruct (last_shrinkable fl ws) as [y|] eqn:El.
  - injection E as ->. assert (0 < zsum_where fl ws) by (apply IH; eauto). destruct f; lia.
  - destruct f; [|discriminate]. injection E as ->. lia.
Qed.
Lemma where_none ws : forall fl, last_shrinkable fl ws = None -> zsum_where fl ws = 0.
Proof.
  induction ws as [|w ws IH]; intros [|f fl] H; cbn [zsum_where last_shrinkable] in *; try reflexivity; try (destruct f; reflexivity).
  destruct (last_shrinkable fl ws) eqn:E; [discriminate|]. destruct f; [discriminate|]. apply IH. exact E.
Qed.
Lemma shrink_step w sh S : 0 <= w -> w <= S -> 0 <= sh <= S -> 0 < S -> 0 <= Z.quot (w * sh) S <= w /\ 0 <= sh - Z.quot (w * sh) S <= S - w.
Proof.
  intros H1 H2 H3 H4. rewrite Z.quot_div_nonneg by nia. pose proof (Z.div_mod (w * sh) S ltac:(lia)) as E. pose proof (Z.mod_pos_bound (w * sh) S H4) as B.
  set (q := w * sh / S) in *. set (r := (w * sh) mod S) in *. repeat split.
  - apply Z.div_pos; nia.
  - assert (S * q <= S * w) by nia. nia.
  - assert (S * q <= S * sh) by nia. nia.
  - assert (S * (q + 1) > w * sh) by nia. assert ((S - w) * (S - sh) >= 0) by nia.
    (* q + 1 > sh - (S - w), i.e. q >= sh - (S - w) *)
    assert (S * (q + 1) > S * (sh - (S - w))) by nia. nia.
Qed.
Lemma shrink_ok ws : forall fl sh, (length ws <= length fl)%nat -> Forall (fun w => 0 <= w) ws ->
  0 <= sh <= zsum_where fl ws -> (forall x, last_shrinkable fl ws = Some x -> 0 < x) ->
  exists ws', shrink_loop ws fl sh (zsum_where fl ws) = Ok ws' /\ zsum ws' = zsum ws - sh /\ length ws' = length ws /\
    (forall j, (j < length ws)%nat -> shrunk (nth j fl false) (nth j ws 0) (nth j ws' 0)).
Proof.
  induction ws as [|w ws IH]; intros [|f fl] sh Hl Hw Hs Hp; cbn [length] in Hl; try lia.
  - exists []. cbn [zsum_where zsum] in *. split; [reflexivity|]. split; [lia|]. split; [reflexivity|]. cbn [length]. intros. lia.
  - exists []. assert (E : zsum_where (f :: fl) [] = 0) by (destruct f; reflexivity). rewrite E in Hs. split; [destruct f; reflexivity|]. cbn [zsum]. split; [lia|]. split; [reflexivity|]. cbn [length]. intros. lia.
  - apply Forall_cons_iff in Hw as [Hw0 Hw]. pose proof (where_nonneg ws fl Hw) as Hnn.
    assert (Hp' : forall x, last_shrinkable fl ws = Some x -> 0 < x) by (intros x E; apply Hp; cbn [last_shrinkable]; rewrite E; reflexivity).
    destruct f; cbn [zsum_where shrink_loop] in *.
    + assert (Hpos : 0 < w + zsum_where fl ws).
      { destruct (last_shrinkable fl ws) as [x|] eqn:E; [pose proof (where_pos ws fl Hw (ex_intro _ x (conj E (Hp' x eq_refl)))); lia|].
        specialize (Hp w). cbn [last_shrinkable] in Hp. rewrite E in Hp. specialize (Hp eq_refl). lia. }
      destruct (Z.eqb_spec (w + zsum_where fl ws) 0); [lia|].
      destruct (shrink_step w sh (w + zsum_where fl ws)) as [[B1 B2] [B3 B4]]; [lia|lia|lia|lia|].
      set (t := Z.quot (w * sh) (w + zsum_where fl ws)) in *. replace (w + zsum_where fl ws - w) with (zsum_where fl ws) by lia.
      destruct (IH fl (sh - t)) as (ws' & E & Z1 & L & F); [lia|exact Hw|lia|exact Hp'|]. rewrite E. cbn [obind]. exists (w - t :: ws'). split; [reflexivity|]. cbn [zsum length].
      split; [lia|]. split; [lia|]. intros [|j] Hj; cbn [nth]; [unfold shrunk; lia|]. apply F. lia.
    + destruct (IH fl sh) as (ws' & E & Z1 & L & F); [lia|exact Hw|lia|exact Hp'|]. rewrite E. cbn [obind]. exists (w :: ws'). split; [reflexivity|]. cbn [zsum length].
      split; [lia|]. split; [lia|]. intros [|j] Hj; cbn [nth]; [reflexivity|]. apply F. lia.
Qed.

Lemma shrink_total ws : forall fl sh, (length ws <= length fl)%nat -> Forall (fun w => 0 <= w) ws -> (forall x, last_shrinkable fl ws = Some x -> 0 < x) ->
  exists ws', shrink_loop ws fl sh (zsum_where fl ws) = Ok ws' /\ length ws' = length ws.
Proof.
  induction ws as [|w ws IH]; intros [|f fl] sh Hl Hw Hp; cbn [length] in Hl; try lia.
  - exists []. split; reflexivity.
  - exists []. split; [destruct f; reflexivity|reflexivity].
  - apply Forall_cons_iff in Hw as [Hw0 Hw]. pose proof (where_nonneg ws fl Hw) as Hnn.
    assert (Hp' : forall x, last_shrinkable fl ws = Some x -> 0 < x) by (intros x E; apply Hp; cbn [last_shrinkable]; rewrite E; reflexivity).
    destruct f; cbn [zsum_where shrink_loop] in *.
    + assert (Hpos : 0 < w + zsum_where fl ws).
      { destruct (last_shrinkable fl ws) as [x|] eqn:E; [pose proof (where_pos ws fl Hw (ex_intro _ x (conj E (Hp' x eq_refl)))); lia|].
        specialize (Hp w). cbn [last_shrinkable] in Hp. rewrite E in Hp. specialize (Hp eq_refl). lia. }
      destruct (Z.eqb_spec (w + zsum_where fl ws) 0); [lia|]. replace (w + zsum_where fl ws - w) with (zsum_where fl ws) by lia.
      destruct (IH fl (sh - Z.quot (w * sh) (w + zsum_where fl ws))) as (ws' & E & L); [lia|exact Hw|exact Hp'|]. rewrite E. cbn [obind]. eexists. split; [reflexivity|]. cbn [length]. lia.
    + destruct (IH fl sh) as (ws' & E & L); [lia|exact Hw|exact Hp'|]. rewrite E. cbn [obind]. eexists. split; [reflexivity|]. cbn [length]. lia.
Qed.
