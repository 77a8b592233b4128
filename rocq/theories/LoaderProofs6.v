(** * LoaderProofs6: what follows a complete line does not matter to it; text appended to a file. *)
From Verif Require Import Base Utf8 Dec DateProofs2 PriceModel BookModel BookSpec BookProofs BuilderProofs AccumModel LoaderModel LoaderSpec LoaderProofs LoaderProofs2 LoaderProofs3 LoaderProofs4 LoaderProofs5.
From Coq Require Import ZifyBool ZifyNat Zify.
Ltac Zify.zify_post_hook ::= idtac.

(** A text that ends with a newline. *)
Definition ends (l : runes) : Prop := exists m, l = m ++ [10].
Lemma ends_nil : ~ ends []. Proof. intros ([|] & E); discriminate E. Qed.
Lemma ends_ch l x : ends l -> ch (l ++ x) = ch l.
Proof. intros ([|c m] & ->); reflexivity. Qed.
Lemma ends_next_app l x : ends l -> next (l ++ x) = next l ++ x.
Proof. intros ([|c m] & ->); reflexivity. Qed.
Lemma ends_next l : ends l -> ch l <> 10 -> ends (next l).
Proof. intros ([|c m] & ->) H; [exfalso; apply H; reflexivity|]. exists m. reflexivity. Qed.
Lemma ends_cons c l : ends l -> ends (c :: l). Proof. intros (m & ->). exists (c :: m). reflexivity. Qed.
Lemma ends_tail c l : ends (c :: l) -> c <> 10 -> ends l.
Proof. intros H Hc. apply (ends_next (c :: l) H). exact Hc. Qed.

Definition localp {A} (f : runes -> A * runes) : Prop :=
  forall l, ends l -> ends (snd (f l)) /\ forall x, f (l ++ x) = (fst (f l), snd (f l) ++ x).
Definition local1 (f : runes -> outcome runes) : Prop :=
  forall l r, ends l -> f l = Ok r -> ends r /\ forall x, f (l ++ x) = Ok (r ++ x).
Definition local {A} (f : runes -> outcome (A * runes)) : Prop :=
  forall l v r, ends l -> f l = Ok (v, r) -> ends r /\ forall x, f (l ++ x) = Ok (v, r ++ x).

Lemma span_local f : f 10 = false -> localp (span f).
Proof.
  intros H10 l. induction l as [|c l IH]; intros H; [destruct (ends_nil H)|]. cbn [span app]. destruct (f c) eqn:E.
  - assert (Hc : c <> 10) by (intros ->; congruence). destruct (IH (ends_tail c l H Hc)) as [I1 I2]. destruct (span f l) as [a r]. cbn [fst snd] in *. split; [exact I1|].
    intros x. rewrite I2. reflexivity.
  - cbn [fst snd]. split; [exact H|reflexivity].
Qed.
Lemma ws_local l : ends l -> ends (consume_ws l) /\ forall x, consume_ws (l ++ x) = consume_ws l ++ x.
Proof. intros H. destruct (span_local ws_rune eq_refl l H) as [H1 H2]. unfold consume_ws. split; [exact H1|]. intros x. rewrite H2. reflexivity. Qed.
Lemma consume_local e : e <> 10 -> local1 (consume e).
Proof.
  intros He l r H. unfold consume. destruct (Z.eqb_spec (ch l) e) as [E|]; [|discriminate]. intros X. injection X as <-. split; [apply ends_next; [exact H|congruence]|].
  intros x. rewrite ends_ch by exact H. rewrite E, Z.eqb_refl. rewrite ends_next_app by exact H. reflexivity.
Qed.
Lemma number_local mn mx : local (parse_number mn mx).
Proof.
  intros l v r H. unfold parse_number. destruct (span_local digit eq_refl l H) as [H1 H2]. destruct (span digit l) as [ds r0]. cbn [fst snd] in *.
  destruct (_ || _) eqn:B; [discriminate|]. intros X. injection X as <- <-. split; [exact H1|]. intros x. rewrite H2, B. reflexivity.
Qed.
Lemma date_local : local parse_date.
Proof.
  intros l v r H E. unfold parse_date in *. apply obind_Ok in E as ((y & l1) & E1 & E). apply obind_Ok in E as (l2 & E2 & E). apply obind_Ok in E as ((m & l3) & E3 & E).
  apply obind_Ok in E as (l4 & E4 & E). apply obind_Ok in E as ((dd & l5) & E5 & E). injection E as <- <-.
  apply number_local in E1 as [H1 X1]; [|exact H]. apply consume_local in E2 as [H2 X2]; [|discriminate|exact H1]. apply number_local in E3 as [H3 X3]; [|exact H2].
  apply consume_local in E4 as [H4 X4]; [|discriminate|exact H3]. apply number_local in E5 as [H5 X5]; [|exact H4].
  split; [exact H5|]. intros x. rewrite X1. cbn [obind]. rewrite X2. cbn [obind]. rewrite X3. cbn [obind]. rewrite X4. cbn [obind]. rewrite X5. reflexivity.
Qed.
Lemma time_local : local1 parse_time.
Proof.
  intros l r H E. unfold parse_time in *. apply obind_Ok in E as ((y & l1) & E1 & E). apply obind_Ok in E as (l2 & E2 & E). apply obind_Ok in E as ((m & l3) & E3 & E).
  apply obind_Ok in E as (l4 & E4 & E). apply obind_Ok in E as ((dd & l5) & E5 & E). injection E as <-.
  apply number_local in E1 as [H1 X1]; [|exact H]. apply consume_local in E2 as [H2 X2]; [|discriminate|exact H1]. apply number_local in E3 as [H3 X3]; [|exact H2].
  apply consume_local in E4 as [H4 X4]; [|discriminate|exact H3]. apply number_local in E5 as [H5 X5]; [|exact H4].
  split; [exact H5|]. intros x. rewrite X1. cbn [obind]. rewrite X2. cbn [obind]. rewrite X3. cbn [obind]. rewrite X4. cbn [obind]. rewrite X5. reflexivity.
Qed.
Lemma quoted_local : local parse_quoted.
Proof.
  intros l v r H E. unfold parse_quoted in *. apply obind_Ok in E as (l1 & E1 & E). apply consume_local in E1 as [H1 X1]; [|discriminate|exact H].
  destruct (span_local (fun c => negb (c =? eof) && negb (c =? eol) && negb (c =? 34)) eq_refl l1 H1) as [H2 X2]. destruct (span _ l1) as [s l2]. cbn [fst snd] in *.
  apply obind_Ok in E as (l3 & E3 & E). injection E as <- <-. apply consume_local in E3 as [H3 X3]; [|discriminate|exact H2].
  split; [exact H3|]. intros x. rewrite X1. cbn [obind]. rewrite X2. cbn beta iota. rewrite X3. reflexivity.
Qed.
Lemma amt_loop_local l : forall d n m, ends l -> ends (snd (amt_loop d n m l)) /\ forall x, amt_loop d n m (l ++ x) = (fst (amt_loop d n m l), snd (amt_loop d n m l) ++ x).
Proof.
  induction l as [|c l IH]; intros d n m H; [destruct (ends_nil H)|]. cbn [amt_loop app].
  destruct (digit c) eqn:E1; [apply IH; apply (ends_tail c l H); intros ->; discriminate E1|].
  destruct (negb d && (c =? 46)) eqn:E2; [apply IH; apply (ends_tail c l H); lia|].
  destruct (c =? 44) eqn:E3; [apply IH; apply (ends_tail c l H); lia|]. cbn [fst snd]. split; [exact H|reflexivity].
Qed.
Lemma amt_local : local parse_amt.
Proof.
  intros l v r H. unfold parse_amt. destruct (ws_local l H) as [H1 X1].
  assert (HH : forall x, (if ch (consume_ws (l ++ x)) =? 45 then (true, next (consume_ws (l ++ x))) else (false, consume_ws (l ++ x)))
              = (fst (if ch (consume_ws l) =? 45 then (true, next (consume_ws l)) else (false, consume_ws l)), snd (if ch (consume_ws l) =? 45 then (true, next (consume_ws l)) else (false, consume_ws l)) ++ x)).
  { intros x. rewrite X1, ends_ch, ends_next_app by exact H1. destruct (_ =? _); reflexivity. }
  assert (HE : ends (snd (if ch (consume_ws l) =? 45 then (true, next (consume_ws l)) else (false, consume_ws l)))).
  { destruct (Z.eqb_spec (ch (consume_ws l)) 45) as [E|]; cbn [snd]; [apply ends_next; [exact H1|congruence]|exact H1]. }
  destruct (if ch (consume_ws l) =? 45 then (true, next (consume_ws l)) else (false, consume_ws l)) as [ng l1]. cbn [fst snd] in *.
  destruct (amt_loop_local l1 false 0 1 HE) as [H2 X2]. destruct (amt_loop false 0 1 l1) as [[n m] l2]. cbn [fst snd] in *.
  intros E. apply obind_Ok in E as (q & E1 & E). injection E as <- <-. split; [exact H2|]. intros x. rewrite HH. cbn beta iota. rewrite X2. cbn beta iota. rewrite E1. reflexivity.
Qed.
Lemma payee_local : local parse_payee.
Proof.
  intros l v r H. unfold parse_payee. destruct (ws_local l H) as [H1 X1]. destruct (ch (consume_ws l) =? 34) eqn:E.
  - intros X. apply obind_Ok in X as ((s & l1) & E1 & X). injection X as <- <-. apply quoted_local in E1 as [H2 X2]; [|exact H1]. split; [exact H2|]. intros x.
    rewrite X1, ends_ch, E by exact H1. rewrite X2. reflexivity.
  - destruct (span_local payee_rune eq_refl _ H1) as [H2 X2]. destruct (span payee_rune (consume_ws l)) as [s l1]. cbn [fst snd] in *. intros X. injection X as <- <-. split; [exact H2|].
    intros x. rewrite X1, ends_ch, E by exact H1. rewrite X2. reflexivity.
Qed.
Lemma to_eol_local : localp parse_to_eol.
Proof.
  intros l H. unfold parse_to_eol. destruct (ws_local l H) as [H1 X1]. destruct (span_local line_rune eq_refl _ H1) as [H2 X2]. split; [exact H2|]. intros x. rewrite X1, X2. reflexivity.
Qed.
Lemma note_local : localp parse_note.
Proof.
  intros l H. unfold parse_note. destruct (ws_local l H) as [H1 X1]. destruct (Z.eqb_spec (ch (consume_ws l)) 59) as [E|N]; cbn [negb].
  - assert (H2 : ends (next (consume_ws l))) by (apply ends_next; [exact H1|congruence]). destruct (to_eol_local _ H2) as [H3 X3].
    assert (Ex : forall x, consume_ws (l ++ x) = consume_ws l ++ x) by exact X1.
    destruct (parse_to_eol (next (consume_ws l))) as [s l1]. cbn [fst snd] in *. split; [exact H3|]. intros x. rewrite Ex, ends_ch, E by exact H1. cbn [negb Z.eqb Pos.eqb].
    rewrite ends_next_app by exact H1. rewrite X3. reflexivity.
  - cbn [fst snd]. split; [exact H1|]. intros x. rewrite X1, ends_ch by exact H1. destruct (Z.eqb_spec (ch (consume_ws l)) 59); [contradiction|]. reflexivity.
Qed.
(** What may be left after a line: nothing, or whole lines. *)
Definition lines (l : runes) : Prop := l = [] \/ ends l.
Lemma skip_eol_local l : ends l -> lines (skip_eol l) /\ forall x, skip_eol (l ++ x) = skip_eol l ++ x.
Proof.
  intros H. unfold skip_eol. split.
  - destruct (Z.eqb_spec (ch l) eol) as [E|]; [|right; exact H]. destruct H as ([|c m] & ->); [left; reflexivity|]. right. exists m. reflexivity.
  - intros x. rewrite ends_ch by exact H. destruct (_ =? _); [apply ends_next_app; exact H|reflexivity].
Qed.
Lemma skip_line_local l : ends l -> lines (skip_line l) /\ forall x, skip_line (l ++ x) = skip_line l ++ x.
Proof.
  intros H. unfold skip_line. destruct (span_local line_rune eq_refl l H) as [H1 X1]. destruct (skip_eol_local _ H1) as [H2 X2]. split; [exact H2|]. intros x. rewrite X1. cbn [snd]. apply X2.
Qed.
Definition locall {A} (f : runes -> outcome (A * runes)) : Prop :=
  forall l v r, ends l -> f l = Ok (v, r) -> lines r /\ forall x, f (l ++ x) = Ok (v, r ++ x).
Lemma transaction_local : locall parse_transaction.
Proof.
  intros l v r H E. unfold parse_transaction in *. apply obind_Ok in E as ((d & l1) & E1 & E). apply date_local in E1 as [H1 X1]; [|exact H].
  destruct (ws_local l1 H1) as [H2 X2].
  assert (HE : ends (if ch (consume_ws l1) =? 42 then consume_ws (next (consume_ws l1)) else consume_ws l1)).
  { destruct (Z.eqb_spec (ch (consume_ws l1)) 42) as [Ec|]; [|exact H2]. apply ws_local. apply ends_next; [exact H2|congruence]. }
  assert (HX : forall x, (if ch (consume_ws (l1 ++ x)) =? 42 then consume_ws (next (consume_ws (l1 ++ x))) else consume_ws (l1 ++ x))
    = (if ch (consume_ws l1) =? 42 then consume_ws (next (consume_ws l1)) else consume_ws l1) ++ x).
  { intros x. rewrite X2, ends_ch, ends_next_app by exact H2. destruct (Z.eqb_spec (ch (consume_ws l1)) 42) as [Ec|]; [|reflexivity]. apply ws_local. apply ends_next; [exact H2|congruence]. }
  set (l2 := if ch (consume_ws l1) =? 42 then _ else _) in *. clearbody l2.
  apply obind_Ok in E as ((p & l3) & E3 & E). apply payee_local in E3 as [H3 X3]; [|exact HE].
  destruct (note_local l3 H3) as [H4 X4]. destruct (parse_note l3) as [n l4]. cbn [fst snd] in *. injection E as <- <-.
  destruct (skip_eol_local l4 H4) as [H5 X5]. split; [exact H5|]. intros x. rewrite X1. cbn [obind]. cbv zeta. rewrite HX, X3. cbn [obind]. rewrite X4. cbn beta iota. rewrite X5. reflexivity.
Qed.
Lemma account_local : localp parse_account.
Proof.
  intros l H. unfold parse_account. destruct (ws_local l H) as [H1 X1].
  assert (HE : ends (if (ch (consume_ws l) =? 33) || (ch (consume_ws l) =? 91) then next (consume_ws l) else consume_ws l)).
  { destruct (_ || _) eqn:E; [|exact H1]. apply ends_next; [exact H1|lia]. }
  assert (HX : forall x, (if (ch (consume_ws (l ++ x)) =? 33) || (ch (consume_ws (l ++ x)) =? 91) then next (consume_ws (l ++ x)) else consume_ws (l ++ x))
    = (if (ch (consume_ws l) =? 33) || (ch (consume_ws l) =? 91) then next (consume_ws l) else consume_ws l) ++ x).
  { intros x. rewrite X1, ends_ch, ends_next_app by exact H1. destruct (_ || _); reflexivity. }
  set (l1 := if _ || _ then _ else _) in *. clearbody l1.
  destruct (span_local acct_rune eq_refl l1 HE) as [H2 X2]. destruct (span acct_rune l1) as [a1 l2]. cbn [fst snd] in *.
  destruct (span_local acct_rune2 eq_refl l2 H2) as [H3 X3]. destruct (span acct_rune2 l2) as [a2 l3]. cbn [fst snd] in *.
  split; [destruct (Z.eqb_spec (ch l3) 93) as [E|]; [apply ends_next; [exact H3|congruence]|exact H3]|].
  intros x. cbv zeta. rewrite HX, X2. cbn beta iota. rewrite X3. cbn beta iota. rewrite ends_ch, ends_next_app by exact H3. destruct (_ =? _); reflexivity.
Qed.
Lemma ccy_local : local parse_ccy.
Proof.
  intros l v r H. unfold parse_ccy. destruct (ws_local l H) as [H1 X1]. destruct (ch (consume_ws l) =? 34) eqn:E.
  - intros X. apply obind_Ok in X as ((s & l1) & E1 & X). injection X as <- <-. apply quoted_local in E1 as [H2 X2]; [|exact H1]. split; [exact H2|]. intros x.
    rewrite X1, ends_ch, E by exact H1. rewrite X2. reflexivity.
  - destruct (span_local is_ccy_rune eq_refl _ H1) as [H2 X2]. destruct (span is_ccy_rune (consume_ws l)) as [s l1]. cbn [fst snd] in *. intros X. injection X as <- <-. split; [exact H2|].
    intros x. rewrite X1, ends_ch, E by exact H1. rewrite X2. reflexivity.
Qed.
Lemma ccy_amt_local : local parse_ccy_amt.
Proof.
  intros l v r H. unfold parse_ccy_amt. destruct ((ch l =? 34) || is_ccy_rune (ch l)) eqn:B; intros E.
  - apply obind_Ok in E as ((c & l1) & E1 & E). apply obind_Ok in E as ((a & l2) & E2 & E). injection E as <- <-.
    apply ccy_local in E1 as [H1 X1]; [|exact H]. apply amt_local in E2 as [H2 X2]; [|exact H1]. split; [exact H2|]. intros x. rewrite ends_ch, B by exact H. rewrite X1. cbn [obind]. rewrite X2. reflexivity.
  - apply obind_Ok in E as ((a & l1) & E1 & E). apply obind_Ok in E as ((c & l2) & E2 & E). injection E as <- <-.
    apply amt_local in E1 as [H1 X1]; [|exact H]. apply ccy_local in E2 as [H2 X2]; [|exact H1]. split; [exact H2|]. intros x. rewrite ends_ch, B by exact H. rewrite X1. cbn [obind]. rewrite X2. reflexivity.
Qed.
Lemma price_local b : locall (parse_price b).
Proof.
  intros l v r H. unfold parse_price. destruct (Z.eqb_spec (ch l) 80) as [E|]; cbn [negb]; [|discriminate]. intros X.
  assert (H0 : ends (next l)) by (apply ends_next; [exact H|congruence]). destruct (ws_local _ H0) as [H1 X1].
  apply obind_Ok in X as ((d & l2) & E2 & X). apply date_local in E2 as [H2 X2]; [|exact H1]. destruct (ws_local _ H2) as [H3 X3].
  apply obind_Ok in X as (l4 & E4 & X). apply time_local in E4 as [H4 X4]; [|exact H3].
  apply obind_Ok in X as ((u & l5) & E5 & X). apply ccy_local in E5 as [H5 X5]; [|exact H4]. destruct (ws_local _ H5) as [H6 X6].
  apply obind_Ok in X as ((ca & l7) & E7 & X). apply ccy_amt_local in E7 as [H7 X7]; [|exact H6]. injection X as <- <-. destruct (skip_eol_local _ H7) as [H8 X8].
  split; [exact H8|]. intros x. rewrite ends_ch, E by exact H. cbn [negb Z.eqb Pos.eqb]. cbv zeta. rewrite ends_next_app by exact H. rewrite X1, X2. cbn [obind]. rewrite X3, X4. cbn [obind]. rewrite X5. cbn [obind].
  rewrite X6, X7. cbn [obind]. rewrite X8. reflexivity.
Qed.

Section Local.
  Variables (is_letter is_udigit : Z -> bool) (to_upper : Z -> Z).
  Hypothesis Huni : unicode_ok is_letter is_udigit to_upper.
  Variable ord : list (str * Qc) -> list str.
  Variable fs : str -> option str.
  Variable resolve : str -> str -> str.
  Notation step := (step is_letter is_udigit to_upper ord).
  Notation parse_file := (parse_file is_letter is_udigit to_upper ord fs resolve).
  Notation file_loop := (file_loop is_letter is_udigit to_upper ord resolve).
  Notation parse_identifier := (parse_identifier is_letter is_udigit to_upper).
  Notation parse_posting := (parse_posting ord).

  Lemma posting_local nm b : locall (parse_posting nm b).
  Proof.
    intros l v r H. unfold LoaderModel.parse_posting. destruct (ws_local l H) as [H1 X1]. destruct (account_local _ H1) as [H2 X2].
    destruct (parse_account (consume_ws l)) as [a l2]. cbn [fst snd] in *. destruct (ws_local _ H2) as [H3 X3]. cbv zeta.
    assert (HE : ends (snd (if ch (consume_ws l2) =? 45 then (true, next (consume_ws l2)) else (false, consume_ws l2)))).
    { destruct (Z.eqb_spec (ch (consume_ws l2)) 45) as [E|]; cbn [snd]; [apply ends_next; [exact H3|congruence]|exact H3]. }
    assert (HX : forall x, (if ch (consume_ws (l2 ++ x)) =? 45 then (true, next (consume_ws (l2 ++ x))) else (false, consume_ws (l2 ++ x)))
       = (fst (if ch (consume_ws l2) =? 45 then (true, next (consume_ws l2)) else (false, consume_ws l2)), snd (if ch (consume_ws l2) =? 45 then (true, next (consume_ws l2)) else (false, consume_ws l2)) ++ x)).
    { intros x. rewrite X3, ends_ch, ends_next_app by exact H3. destruct (_ =? _); reflexivity. }
    destruct (if ch (consume_ws l2) =? 45 then (true, next (consume_ws l2)) else (false, consume_ws l2)) as [ng l4]. cbn [fst snd] in *.
    intros E. apply obind_Ok in E as ((ca & l5) & E5 & E). apply ccy_amt_local in E5 as [H5 X5]; [|exact HE]. destruct ca as [ccy amt]. destruct (ws_local _ H5) as [H6 X6].
    apply obind_Ok in E as (l7 & E7 & E).
    assert (HK : ends l7 /\ forall x, (if ch (consume_ws (l5 ++ x)) =? 64 then do (_, l) <- parse_ccy_amt (consume_ws (next (consume_ws (l5 ++ x)))); Ok l else Ok (consume_ws (l5 ++ x))) = Ok (l7 ++ x)).
    { destruct (Z.eqb_spec (ch (consume_ws l5)) 64) as [Ec|Nc].
      - apply obind_Ok in E7 as ((ca' & l8) & E8 & E7). injection E7 as <-. assert (Hn : ends (next (consume_ws l5))) by (apply ends_next; [exact H6|congruence]).
        destruct (ws_local _ Hn) as [H7 X7]. apply ccy_amt_local in E8 as [H8 X8]; [|exact H7]. split; [exact H8|]. intros x. rewrite X6, ends_ch, Ec, ends_next_app by exact H6. cbn [Z.eqb Pos.eqb].
        rewrite X7, X8. reflexivity.
      - injection E7 as <-. split; [exact H6|]. intros x. rewrite X6, ends_ch by exact H6. destruct (Z.eqb_spec (ch (consume_ws l5)) 64); [contradiction|]. reflexivity. }
    destruct HK as [H7 X7]. destruct (note_local _ H7) as [H8 X8]. destruct (parse_note l7) as [n l9]. cbn [fst snd] in *. destruct (skip_eol_local _ H8) as [H9 X9].
    assert (Hr : r = skip_eol l9) by (destruct ccy; injection E as _ <-; reflexivity). subst r. split; [exact H9|]. intros x. rewrite X1, X2. cbn beta iota. rewrite HX. cbn beta iota. rewrite X5. cbn [obind].
    rewrite X7. cbn [obind]. rewrite X8. cbn beta iota. rewrite X9. destruct ccy; injection E as <-; reflexivity.
  Qed.
  Lemma identifier_local : localp parse_identifier.
  Proof.
    intros l H. unfold LoaderModel.parse_identifier. destruct (ws_local l H) as [H1 X1].
    assert (Hf : is_udigit 10 || is_letter 10 || (10 =? 95) = false) by (destruct Huni as [_ Hs]; destruct (Hs 10 eq_refl) as [-> ->]; reflexivity).
    destruct (span_local (fun c => is_udigit c || is_letter c || (c =? 95)) Hf _ H1) as [H2 X2]. destruct (span _ (consume_ws l)) as [s l2]. cbn [fst snd] in *. destruct (ws_local _ H2) as [H3 X3].
    split; [exact H3|]. intros x. rewrite X1, X2. cbn beta iota. rewrite X3. reflexivity.
  Qed.

  (** A word followed by a blank: the account named short in an alias line. *)
  Definition alias_word (l : runes) (a : str) : Prop :=
    exists l1 l2, suf l1 l /\ parse_identifier l1 = (bs "ALIAS", l2) /\ fst (parse_account l2) = a.

  Definition app_todo (t : todo) (x : runes) : todo :=
    match t with Go b nm l => Go b nm (l ++ x) | Include n b nm l => Include n b nm (l ++ x) end.
  Definition rest_of (t : todo) : runes := match t with Go _ _ l => l | Include _ _ _ l => l end.
  Definition alias_of (t : todo) : alias := match t with Go _ nm _ => nm | Include _ _ nm _ => nm end.
  Lemma step_local b nm l t : ends l -> step b nm l = Ok t ->
    lines (rest_of t) /\ (forall x, step b nm (l ++ x) = Ok (app_todo t x)) /\
    (alias_of t = nm \/ exists a n, alias_word l a /\ alias_of t = aset str_eqb a n nm).
  Proof.
    intros H. unfold LoaderModel.step. destruct (ws_local l H) as [H1 X1].
    assert (Hh : forall x, has_ws (l ++ x) = has_ws l) by (intros x; unfold has_ws; rewrite ends_ch by exact H; reflexivity).
    assert (Hc : forall x, ch (consume_ws (l ++ x)) = ch (consume_ws l)) by (intros x; rewrite X1; apply ends_ch; exact H1).
    destruct ((ch (consume_ws l) =? 59) || (ch (consume_ws l) =? eol) || (ch (consume_ws l) =? eof)) eqn:B1.
    { intros E. injection E as <-. cbn [rest_of alias_of app_todo]. destruct (skip_line_local _ H1) as [H2 X2]. split; [exact H2|]. split; [|left; reflexivity]. intros x. rewrite Hc, B1, X1, X2. reflexivity. }
    destruct (has_ws l) eqn:B2; cbn [negb].
    { intros E. apply obind_Ok in E as ((b' & r) & E1 & E). injection E as <-. destruct (posting_local nm b _ _ _ H1 E1) as [H2 X2]. cbn [rest_of alias_of app_todo]. split; [exact H2|]. split; [|left; reflexivity].
      intros x. rewrite Hc, B1, Hh, X1. cbn [negb]. rewrite X2. reflexivity. }
    destruct ((ch (consume_ws l) =? 61) || (ch (consume_ws l) =? 68)) eqn:B3.
    { intros E. injection E as <-. cbn [rest_of alias_of app_todo]. destruct (skip_line_local _ H1) as [H2 X2]. split; [exact H2|]. split; [|left; reflexivity]. intros x. rewrite Hc, B1, Hh, B3, X1, X2. reflexivity. }
    destruct (ch (consume_ws l) =? 80) eqn:B4.
    { intros E. apply obind_Ok in E as ((b' & r) & E1 & E). injection E as <-. destruct (price_local b _ _ _ H1 E1) as [H2 X2]. cbn [rest_of alias_of app_todo]. split; [exact H2|]. split; [|left; reflexivity].
      intros x. rewrite Hc, B1, Hh, B3, B4, X1. cbn [negb]. rewrite X2. reflexivity. }
    destruct (digit (ch (consume_ws l))) eqn:B5.
    { intros E. apply obind_Ok in E as ((v & r) & E1 & E). destruct v as [[d p] n]. apply obind_Ok in E as (b' & E2 & E). injection E as <-. destruct (transaction_local _ _ _ H1 E1) as [H2 X2].
      cbn [rest_of alias_of app_todo]. split; [exact H2|]. split; [|left; reflexivity]. intros x. rewrite Hc, B1, Hh, B3, B4, B5, X1. cbn [negb]. rewrite X2. cbn [obind]. rewrite E2. reflexivity. }
    destruct (identifier_local _ H1) as [H2 X2]. destruct (parse_identifier (consume_ws l)) as [cmd l2] eqn:Eid. cbn [fst snd] in *.
    assert (XX : forall x, parse_identifier (consume_ws (l ++ x)) = (cmd, l2 ++ x)) by (intros x; rewrite X1; apply X2). 
    destruct (str_eqb cmd (bs "INCLUDE")) eqn:B6.
    { destruct (to_eol_local _ H2) as [H3 X3]. destruct (parse_to_eol l2) as [s l3]. cbn [fst snd] in *. intros E. apply obind_Ok in E as (name & E1 & E). injection E as <-. cbn [rest_of alias_of app_todo].
      split; [right; exact H3|]. split; [|left; reflexivity]. intros x. rewrite Hc, B1, Hh, B3, B4, B5. cbn [negb]. rewrite XX. cbn beta iota. rewrite B6, X3. cbn beta iota. rewrite E1. reflexivity. }
    destruct (str_eqb cmd (bs "ALIAS")) eqn:B7; [|discriminate].
    assert (EA : cmd = bs "ALIAS") by (apply str_eqb_eq; exact B7).
    destruct (account_local _ H2) as [H3 X3]. destruct (parse_account l2) as [short l3] eqn:Eac. cbn [fst snd] in *. destruct (ws_local _ H3) as [H4 X4].
    destruct (Z.eqb_spec (ch (consume_ws l3)) 61) as [E61|]; cbn [negb]; [|discriminate].
    assert (H5 : ends (next (consume_ws l3))) by (apply ends_next; [exact H4|congruence]). destruct (ws_local _ H5) as [H6 X6].
    destruct (account_local _ H6) as [H7 X7]. destruct (parse_account (consume_ws (next (consume_ws l3)))) as [long l7]. cbn [fst snd] in *. destruct (ws_local _ H7) as [H8 X8].
    destruct (to_eol_local _ H8) as [H9 X9]. destruct (parse_to_eol (consume_ws l7)) as [s9 l9]. cbn [fst snd] in *.
    destruct long as [|z long]; [discriminate|]. intros E. injection E as <-. cbn [rest_of alias_of app_todo]. split; [right; exact H9|]. split.
    - intros x. rewrite Hc, B1, Hh, B3, B4, B5. cbn [negb]. rewrite XX. cbn beta iota. rewrite B6, B7, X3. cbn beta iota. cbv zeta. rewrite X4, ends_ch, E61, ends_next_app by exact H4. cbn [negb Z.eqb Pos.eqb].
      rewrite X6, X7. cbn beta iota. rewrite X8, X9. reflexivity.
    - right. exists short, (z :: long). split; [|reflexivity]. exists (consume_ws l), l2. split; [apply consume_ws_suf|]. split; [rewrite Eid, EA; reflexivity|]. rewrite Eac. reflexivity.
  Qed.

  Lemma aset_keys (a k v : str) : forall nm : alias, In a (map fst (aset str_eqb k v nm)) -> a = k \/ In a (map fst nm).
  Proof.
    induction nm as [|[k0 v0] nm IHn]; cbn [aset map fst In].
    - intros [E|[]]. left. symmetry. exact E.
    - destruct (str_eqb k0 k) eqn:Ek; cbn [map fst In].
      + intros [E|Ha]; [right; left; exact E|right; right; exact Ha].
      + intros [E|Ha]; [right; left; exact E|]. destruct (IHn Ha) as [E|H]; [left; exact E|right; right; exact H].
  Qed.

End Local.
