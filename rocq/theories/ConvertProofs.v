(** * ConvertProofs: reading and writing CSV. *)
From Verif Require Import Base Utf8 AccumModel LoaderModel ConvertModel ConvertSpec.
From Coq Require Import ZifyBool ZifyNat Zify.
Ltac Zify.zify_post_hook ::= idtac.

Lemma norm_cons c r : c <> 13 -> csv_norm (c :: r) = c :: csv_norm r.
Proof.
  intros H. cbn [csv_norm]. destruct c as [|p|p]; try reflexivity.
  destruct p as [p|p|]; try reflexivity. destruct p as [p|p|]; try reflexivity. destruct p as [p|p|]; try reflexivity. destruct p as [p|p|]; try reflexivity. congruence.
Qed.
Lemma norm_cr d r : d <> 10 -> csv_norm (13 :: d :: r) = 13 :: csv_norm (d :: r).
Proof.
  intros H. change (csv_norm (13 :: d :: r)) with (match d with 10 => csv_norm (d :: r) | _ => 13 :: csv_norm (d :: r) end). destruct d as [|p|p]; try reflexivity.
  destruct p as [p|p|]; try reflexivity. destruct p as [p|p|]; try reflexivity. destruct p as [p|p|]; try reflexivity. destruct p as [p|p|]; try reflexivity. congruence.
Qed.
Lemma unix_ok t u : unix t u <-> csv_norm t = u.
Proof.
  split.
  - induction 1 as [| |t u _ IH|c t u Hc _ IH]; [reflexivity|reflexivity|cbn [csv_norm] in *; rewrite IH; reflexivity|].
    destruct (Z.eq_dec c 13) as [->|N]; [|rewrite norm_cons, IH by exact N; reflexivity]. destruct Hc as [Hc|[Hn Hc]]; [congruence|]. destruct t as [|d t]; [congruence|]. rewrite norm_cr, IH by exact Hc. reflexivity.
  - revert u. induction t as [t IH] using (induction_ltof1 _ (@length Z)). unfold ltof in IH. intros u <-. destruct t as [|c t]; [constructor|].
    destruct (Z.eq_dec c 13) as [->|N]; [|rewrite norm_cons by exact N; constructor; [left; exact N|apply IH; [cbn; lia|reflexivity]]].
    destruct t as [|d t]; [apply unix_cr|]. destruct (Z.eq_dec d 10) as [->|N].
    + change (csv_norm (13 :: 10 :: t)) with (10 :: csv_norm t). apply unix_crlf. apply IH; [cbn; lia|reflexivity].
    + rewrite norm_cr by exact N. apply unix_char; [right; split; [discriminate|exact N]|apply IH; [cbn; lia|reflexivity]].
Qed.
Lemma norm_id s : Forall (fun c => c <> 13) s -> csv_norm s = s.
Proof. induction 1 as [|c s Hc _ IH]; [reflexivity|]. rewrite norm_cons, IH by exact Hc. reflexivity. Qed.
Lemma escape_cons c s : csv_escape (c :: s) = (if c =? 34 then [34; 34] else [c]) ++ csv_escape s. Proof. reflexivity. Qed.

Section Comma.
  Variable comma : Z.
  Hypothesis Hv : valid_delim comma = true.
  Hypothesis Hsp : is_space comma = false.
  Lemma comma_ne : comma <> 0 /\ comma <> 34 /\ comma <> 13 /\ comma <> 10. Proof. revert Hv. unfold valid_delim. lia. Qed.

  Inductive after : runes -> ending -> Prop :=
  | after_comma r : after (comma :: r) (More r)
  | after_nl r : after (10 :: r) (Eol r)
  | after_end : after [] (Eol []).

  Lemma quoted_read t s r e : escaped t s -> after r e -> csv_quoted comma (t ++ 34 :: r) = (s, e).
  Proof.
    intros He Ha. destruct comma_ne as (N0 & N1 & N2 & N3). induction He as [|c t s Hc _ IH|t s _ IH].
    - cbn [app csv_quoted]. change (34 =? 34) with true. cbv iota. destruct Ha.
      + destruct (Z.eqb_spec comma 34); [contradiction|]. rewrite Z.eqb_refl. reflexivity.
      + change (10 =? 34) with false. cbv iota. destruct (Z.eqb_spec 10 comma); [congruence|]. reflexivity.
      + reflexivity.
    - cbn [app csv_quoted]. destruct (Z.eqb_spec c 34); [contradiction|]. rewrite IH. reflexivity.
    - cbn [app csv_quoted]. change (34 =? 34) with true. cbv iota. rewrite IH. reflexivity.
  Qed.
  Lemma quoted_sound l : forall s e, csv_quoted comma l = (s, e) -> e <> Bad -> exists t r, l = t ++ 34 :: r /\ escaped t s /\ after r e.
  Proof.
    induction l as [l IH] using (induction_ltof1 _ (@length Z)). unfold ltof in IH. intros s e E Ne. destruct l as [|c l]; [injection E as <- <-; congruence|]. cbn [csv_quoted] in E. destruct (Z.eqb_spec c 34) as [->|N].
    - destruct l as [|d l]; [injection E as <- <-; exists [], []; repeat constructor|]. destruct (Z.eqb_spec d 34) as [->|N34].
      + destruct (csv_quoted comma l) as [s' e'] eqn:E'. injection E as <- <-. destruct (IH l ltac:(cbn; lia) _ _ E' Ne) as (t & r & -> & He & Ha). exists (34 :: 34 :: t), r. split; [reflexivity|]. split; [apply esc_quote; exact He|exact Ha].
      + destruct (Z.eqb_spec d comma) as [->|_]; [injection E as <- <-; exists [], (comma :: l); repeat constructor|].
        destruct (Z.eqb_spec d 10) as [->|_]; injection E as <- <-; [exists [], (10 :: l); repeat constructor|congruence].
    - destruct (csv_quoted comma l) as [s' e'] eqn:E'. injection E as <- <-. destruct (IH l ltac:(cbn; lia) _ _ E' Ne) as (t & r & -> & He & Ha). exists (c :: t), r. split; [reflexivity|]. split; [apply esc_char; assumption|exact Ha].
  Qed.
  Lemma plain_read s r e : Forall (fun c => c <> comma /\ c <> 34 /\ c <> 10) s -> after r e -> csv_plain comma (s ++ r) = (s, e).
  Proof.
    intros Hs Ha. destruct comma_ne as (N0 & N1 & N2 & N3). induction Hs as [|c s (H1 & H2 & H3) _ IH].
    - cbn [app]. destruct Ha; cbn [csv_plain]; [rewrite Z.eqb_refl; reflexivity| |reflexivity]. destruct (Z.eqb_spec 10 comma); [congruence|]. reflexivity.
    - cbn [app csv_plain]. destruct (Z.eqb_spec c comma); [contradiction|]. destruct (Z.eqb_spec c 10); [contradiction|]. destruct (Z.eqb_spec c 34); [contradiction|]. rewrite IH. reflexivity.
  Qed.
  Lemma plain_sound l : forall s e, csv_plain comma l = (s, e) -> e <> Bad -> exists r, l = s ++ r /\ Forall (fun c => c <> comma /\ c <> 34 /\ c <> 10) s /\ after r e.
  Proof.
    induction l as [|c l IH]; intros s e E Ne; [injection E as <- <-; exists []; repeat constructor|]. cbn [csv_plain] in E.
    destruct (Z.eqb_spec c comma) as [->|N1]; [injection E as <- <-; exists (comma :: l); repeat constructor|].
    destruct (Z.eqb_spec c 10) as [->|N2]; [injection E as <- <-; exists (10 :: l); repeat constructor|]. destruct (Z.eqb_spec c 34) as [->|N3]; [injection E as <- <-; congruence|].
    destruct (csv_plain comma l) as [s' e'] eqn:E'. injection E as <- <-. destruct (IH _ _ eq_refl Ne) as (r & -> & Hs & Ha). exists r. split; [reflexivity|]. split; [constructor; auto|exact Ha].
  Qed.
  Lemma trim_pad w r : pad w -> csv_trim (w ++ r) = csv_trim r.
  Proof. induction 1 as [|c w (H1 & H2) _ IH]; [reflexivity|]. cbn [app csv_trim]. destruct (Z.eqb_spec c 10); [contradiction|]. rewrite H1. exact IH. Qed.
  Lemma trim_here c r : is_space c = false -> csv_trim (c :: r) = (c :: r, false).
  Proof. intros H. cbn [csv_trim]. destruct (Z.eqb_spec c 10) as [->|_]; [discriminate|]. rewrite H. reflexivity. Qed.
  Lemma trim_sound l : forall r b, csv_trim l = (r, b) -> exists w, pad w /\ if b then l = w ++ [10] ++ r \/ (l = w /\ r = []) else l = w ++ r /\ r <> [] /\ is_space (hd 0 r) = false.
  Proof.
    induction l as [|c l IH]; intros r b E; [injection E as <- <-; exists []; split; [constructor|right; auto]|]. cbn [csv_trim] in E. destruct (Z.eqb_spec c 10) as [->|N].
    - injection E as <- <-. exists []. split; [constructor|left; reflexivity].
    - destruct (is_space c) eqn:Es.
      + destruct (IH r b E) as (w & Hw & H). exists (c :: w). split; [constructor; auto|]. destruct b; [destruct H as [-> | [-> ->]]; [left; reflexivity|right; auto]|]. destruct H as (-> & H). split; [reflexivity|exact H].
      + injection E as <- <-. exists []. split; [constructor|]. split; [reflexivity|]. split; [discriminate|exact Es].
  Qed.
  Lemma cell_read t s r e : cell comma t s -> after r e -> csv_field comma (t ++ r) = (s, e).
  Proof.
    destruct comma_ne as (N0 & N1 & N2 & N3). intros Hc Ha. unfold csv_field. destruct Hc as [w s Hw Hs Hh|w t s Hw He].
    - rewrite <- app_assoc, trim_pad by exact Hw. destruct s as [|c s].
      + cbn [app]. destruct Ha; [|reflexivity..]. rewrite trim_here by exact Hsp. cbv iota. destruct (Z.eqb_spec comma 34); [contradiction|]. cbn [csv_plain]. rewrite Z.eqb_refl. reflexivity.
      + cbn [hd] in Hh. cbn [app]. rewrite trim_here by exact Hh. cbv iota. assert (Hc : c <> 34) by (inversion Hs; tauto). destruct (Z.eqb_spec c 34); [contradiction|]. apply (plain_read (c :: s)); assumption.
    - rewrite <- !app_assoc, trim_pad by exact Hw. cbn [app]. rewrite trim_here by reflexivity. cbv iota. change (34 =? 34) with true. cbv iota. apply quoted_read; assumption.
  Qed.
  Lemma cell_sound l s e : csv_field comma l = (s, e) -> e <> Bad -> exists t r, l = t ++ r /\ cell comma t s /\ after r e.
  Proof.
    unfold csv_field. intros E Ne. destruct (csv_trim l) as [l' b] eqn:Et. destruct (trim_sound l l' b Et) as (w & Hw & H). clear Et.
    assert (Hempty : cell comma w []). { rewrite <- (app_nil_r w). apply cell_plain; [exact Hw|constructor|reflexivity]. }
    destruct b.
    - injection E as <- <-. destruct H as [-> | [-> ->]]; [exists w, (10 :: l')|exists w, []; rewrite app_nil_r]; repeat split; try assumption; constructor.
    - destruct H as (-> & Hne & Hs). destruct l' as [|c l']; [congruence|]. cbn [hd] in Hs. destruct (Z.eqb_spec c 34) as [->|N].
      + destruct (quoted_sound l' s e E Ne) as (t & r & -> & He & Ha). exists (w ++ [34] ++ t ++ [34]), r. split; [rewrite <- !app_assoc; reflexivity|]. split; [apply cell_quoted; assumption|exact Ha].
      + destruct (plain_sound (c :: l') s e E Ne) as (r & El & Hp & Ha). rewrite El. exists (w ++ s), r. split; [rewrite <- app_assoc; reflexivity|]. split; [|exact Ha]. apply cell_plain; [exact Hw|exact Hp|].
        destruct s as [|x s]; [reflexivity|]. injection El as -> _. exact Hs.
  Qed.
  Lemma cell_head t s : cell comma t s -> t <> [] -> ch t <> 10.
  Proof.
    destruct 1 as [w s Hw Hs Hh|w t s Hw He]; intros Hn.
    - destruct w as [|c w]; [destruct s as [|c s]; [exfalso; apply Hn; reflexivity|]; inversion Hs; cbn; tauto|]. inversion Hw as [|? ? (? & ?)]. cbn. assumption.
    - destruct w as [|c w]; [cbn; discriminate|]. inversion Hw as [|? ? (? & ?)]. cbn. assumption.
  Qed.
  Lemma row_head t ss : row comma t ss -> t <> [] -> ch t <> 10.
  Proof.
    destruct comma_ne as (N0 & N1 & N2 & N3). destruct 1 as [t s Hc|t s u ss Hc Hr]; intros Hn; [eapply cell_head; eassumption|]. destruct t as [|c t]; [exact N3|]. apply (cell_head (c :: t) s Hc). discriminate.
  Qed.
  Lemma row_len t ss : row comma t ss -> (length ss <= S (length t))%nat.
  Proof. induction 1 as [t s Hc|t s u ss Hc Hr IH]; cbn [length]; [lia|]. rewrite !app_length. cbn [length]. lia. Qed.
  Lemma row_read t ss : row comma t ss -> forall r r', after r (Eol r') -> forall fuel, (length ss <= fuel)%nat -> csv_record fuel comma (t ++ r) = Ok (ss, r').
  Proof.
    induction 1 as [t s Hc|t s u ss Hc Hr IH]; intros r r' Ha fuel Hf; cbn [length] in Hf; (destruct fuel as [|fuel]; [lia|]); cbn [csv_record].
    - rewrite (cell_read t s r _ Hc Ha). reflexivity.
    - rewrite <- !app_assoc. cbn [app]. rewrite (cell_read t s _ _ Hc (after_comma (u ++ r))). rewrite (IH r r' Ha fuel) by lia. reflexivity.
  Qed.
  Lemma row_sound fuel : forall l ss r', csv_record fuel comma l = Ok (ss, r') -> exists t r, l = t ++ r /\ row comma t ss /\ after r (Eol r').
  Proof.
    induction fuel as [|fuel IH]; intros l ss r' E; [discriminate|]. cbn [csv_record] in E. destruct (csv_field comma l) as [s e] eqn:Ec. destruct e as [r|r|]; [| |discriminate].
    - apply obind_Ok in E as ((fs & r1) & E & E2). injection E2 as <- <-. destruct (IH _ _ _ E) as (u & r2 & -> & Hr & Ha). destruct (cell_sound l s _ Ec ltac:(discriminate)) as (t & r0 & -> & Hc & Ha0).
      inversion Ha0; subst. exists (t ++ [comma] ++ u), r2. split; [rewrite <- !app_assoc; reflexivity|]. split; [apply row_more; assumption|exact Ha].
    - injection E as <- <-. destruct (cell_sound l s _ Ec ltac:(discriminate)) as (t & r0 & -> & Hc & Ha0). exists t, r0. split; [reflexivity|]. split; [apply row_one; exact Hc|exact Ha0].
  Qed.
  Lemma table_read t rs : table comma t rs -> forall fuel, (length t < fuel)%nat -> csv_records fuel comma t = Ok rs.
  Proof.
    induction 1 as [|t rs _ IH|r ss t rs Hr Hne _ IH|r ss Hr Hne]; intros fuel Hf; (destruct fuel as [|fuel]; [lia|]).
    - reflexivity.
    - cbn [app length] in Hf. cbn [app csv_records]. change (10 =? 10) with true. cbv iota. apply IH. lia.
    - pose proof (row_head r ss Hr Hne) as Hh. pose proof (row_len r ss Hr) as Hl. pose proof (row_read r ss Hr (10 :: t) t (after_nl _)) as H6. rewrite !app_length in Hf. cbn [length] in Hf. cbn [app].
      set (l := r ++ 10 :: t) in *. assert (El : length l = S (length r + length t)) by (unfold l; rewrite app_length; cbn [length]; lia). assert (Ec : ch l <> 10) by (unfold l; destruct r; [congruence|exact Hh]). clearbody l.
      destruct l as [|c l]; [discriminate|]. cbn [csv_records]. cbn [ch] in Ec. destruct (Z.eqb_spec c 10); [contradiction|]. rewrite H6 by lia. cbn [obind]. rewrite IH by lia. reflexivity.
    - pose proof (row_head r ss Hr Hne) as Hh. pose proof (row_len r ss Hr) as Hl. pose proof (row_read r ss Hr [] [] after_end) as H6. rewrite app_nil_r in H6. destruct r as [|c r]; [congruence|]. cbn [csv_records]. cbn [ch] in Hh.
      destruct (Z.eqb_spec c 10); [contradiction|]. rewrite H6 by (cbn [length] in *; lia). cbn [obind]. destruct fuel; [cbn [length] in Hf; lia|]. reflexivity.
  Qed.
  Lemma table_sound fuel : forall t rs, csv_records fuel comma t = Ok rs -> table comma t rs.
  Proof.
    induction fuel as [|fuel IH]; intros t rs E; [discriminate|]. cbn [csv_records] in E. destruct t as [|c t]; [injection E as <-; constructor|]. destruct (Z.eqb_spec c 10) as [->|N].
    - apply (table_blank comma t). apply IH. exact E.
    - apply obind_Ok in E as ((ss & r') & E1 & E). apply obind_Ok in E as (rs' & E2 & E). injection E as <-. apply IH in E2. destruct (row_sound _ _ _ _ E1) as (u & r & El & Hr & Ha). rewrite El.
      assert (Hne : u <> []). { intros ->. cbn [app] in El. subst r. inversion Ha; congruence. }
      inversion Ha; subst; [apply (table_row comma u ss r' rs' Hr Hne E2)|]. rewrite app_nil_r.
      assert (Hnil : rs' = []). { clear - E2. remember [] as x eqn:Ex in E2. destruct E2 as [|t rs _|r ss t rs _ Hne _|r ss _ Hne]; [reflexivity|discriminate|destruct r; [congruence|discriminate]|congruence]. }
      subst rs'. apply table_last; assumption.
  Qed.
  (** The reader always comes to an end. *)
  Lemma after_len r e : after r e -> match e with More r' | Eol r' => (length r' <= length r)%nat /\ (r' = [] \/ length r' < length r)%nat | Bad => False end.
  Proof. destruct 1; cbn [length]; split; try lia; try (right; lia). left. reflexivity. Qed.
  Lemma record_ends fuel : forall l, (length l < fuel)%nat -> csv_record fuel comma l = Error \/ exists ss r, csv_record fuel comma l = Ok (ss, r) /\ (r = [] \/ length r < length l)%nat.
  Proof.
    induction fuel as [|fuel IH]; intros l Hf; [lia|]. cbn [csv_record]. destruct (csv_field comma l) as [s e] eqn:Ec. destruct e as [r|r|]; [| |left; reflexivity].
    - destruct (cell_sound l s _ Ec ltac:(discriminate)) as (t & r0 & -> & _ & Ha). inversion Ha; subst. rewrite app_length in *. cbn [length] in *.
      destruct (IH r ltac:(lia)) as [-> | (ss & r' & -> & Hr)]; [left; reflexivity|right]. exists (s :: ss), r'. split; [reflexivity|]. destruct Hr as [Hr|Hr]; [left; exact Hr|right; lia].
    - destruct (cell_sound l s _ Ec ltac:(discriminate)) as (t & r0 & -> & _ & Ha). right. exists [s], r. split; [reflexivity|]. apply after_len in Ha as [_ [Ha|Ha]]; [left; exact Ha|right; rewrite app_length; lia].
  Qed.
  Lemma records_end fuel : forall l, (length l < fuel)%nat -> csv_records fuel comma l = Error \/ exists rs, csv_records fuel comma l = Ok rs.
  Proof.
    induction fuel as [|fuel IH]; intros l Hf; [lia|]. cbn [csv_records]. destruct l as [|c l]; [right; eexists; reflexivity|]. cbn [length] in Hf.
    destruct (c =? 10); [apply IH; lia|]. destruct (record_ends (S (length (c :: l))) (c :: l) ltac:(lia)) as [-> | (ss & r & -> & Hr)]; [left; reflexivity|]. cbn [obind].
    assert (Hl : (length r < fuel)%nat) by (destruct Hr as [-> | Hr]; cbn [length] in *; lia). destruct (IH r Hl) as [-> | (rs & ->)]; [left; reflexivity|right; eexists; reflexivity].
  Qed.
End Comma.

Lemma even_rows_ok {A} (rs : list (list A)) : even_rows rs = true <-> rectangular rs.
Proof.
  unfold even_rows, rectangular. destruct rs as [|r rs]; [split; [intros _ ? ? []|reflexivity]|]. rewrite forallb_forall. split.
  - intros H. assert (Hx : forall x, In x (r :: rs) -> length x = length r) by (intros x [->|Hx]; [reflexivity|apply Nat.eqb_eq, H, Hx]). intros x y Hxi Hyi. rewrite (Hx x Hxi), (Hx y Hyi). reflexivity.
  - intros H x Hx. apply Nat.eqb_eq. apply H; [right; exact Hx|left; reflexivity].
Qed.

(** ** What the writer writes is a table. *)
Lemma escape_escaped s : escaped (csv_escape s) s.
Proof.
  induction s as [|c s IH]; [constructor|]. rewrite escape_cons. destruct (Z.eqb_spec c 34) as [->|N]; cbn [app]; constructor; assumption.
Qed.
Lemma write_cell comma s : cell comma (csv_write_field comma s) s.
Proof.
  unfold csv_write_field. destruct (needs_quotes comma s) eqn:E.
  - apply (cell_quoted comma []); [constructor|]. apply escape_escaped.
  - apply (cell_plain comma []); [constructor| |].
    + destruct s as [|c s]; [constructor|]. unfold needs_quotes in E. apply orb_false_iff in E as [E _]. apply orb_false_iff in E as [_ E].
      apply Forall_forall. intros x Hx. assert (Ex : ((x =? comma) || (x =? 34) || (x =? 13) || (x =? 10)) = false).
      { destruct (_ || _) eqn:Q; [|reflexivity]. rewrite <- E. symmetry. apply existsb_exists. exists x. split; [exact Hx|exact Q]. }
      lia.
    + destruct s as [|c s]; [reflexivity|]. unfold needs_quotes in E. apply orb_false_iff in E as [_ E]. exact E.
Qed.
Lemma write_row comma r : r <> [] -> exists t, csv_write_record comma r = t ++ [10] /\ row comma t r /\ (r <> [[]] -> t <> []).
Proof.
  intros Hne. induction r as [|f r IH]; [congruence|]. destruct r as [|g r].
  - exists (csv_write_field comma f). split; [reflexivity|]. split; [apply row_one, write_cell|]. intros N. unfold csv_write_field. destruct (needs_quotes comma f); [discriminate|]. intros ->. apply N. reflexivity.
  - destruct IH as (t & E & Ht & _); [discriminate|]. exists (csv_write_field comma f ++ [comma] ++ t). split; [|split].
    + change (csv_write_record comma (f :: g :: r)) with (csv_write_field comma f ++ [comma] ++ csv_write_record comma (g :: r)). rewrite E, <- !app_assoc. reflexivity.
    + apply row_more; [apply write_cell|exact Ht].
    + intros _. destruct (csv_write_field comma f); discriminate.
Qed.
Lemma write_table comma rs : Forall (fun r => r <> [] /\ r <> [[]]) rs -> table comma (csv_write comma rs) rs.
Proof.
  induction 1 as [|r rs (H1 & H2) _ IH]; [constructor|]. unfold csv_write. cbn [flat_map]. destruct (write_row comma r H1) as (t & -> & Ht & Hn). rewrite <- app_assoc.
  apply table_row; [exact Ht|apply Hn, H2|exact IH].
Qed.
