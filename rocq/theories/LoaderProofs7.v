(** * LoaderProofs7: a ledger that loads has no include cycle; loading it again after one file has grown. *)
From Verif Require Import Base Utf8 Dec DateProofs2 PriceModel BookModel BookSpec BookProofs BuilderProofs AccumModel LoaderModel LoaderSpec LoaderProofs LoaderProofs2 LoaderProofs3 LoaderProofs4 LoaderProofs5 LoaderProofs6 AppendSpec.
From Coq Require Import ZifyBool ZifyNat Zify.
Ltac Zify.zify_post_hook ::= idtac.

(** ** Decoding stops at a newline *)
Lemma ok2_small b0 b1 : b1 < 128 -> ok2 b0 b1 = false.
Proof. unfold ok2, between. lia. Qed.
Lemma ok3_small b0 b1 b2 : b1 < 128 \/ b2 < 128 -> ok3 b0 b1 b2 = false.
Proof. unfold ok3, between. destruct (b0 =? 224), (b0 =? 237); lia. Qed.
Lemma ok4_small b0 b1 b2 b3 : b1 < 128 \/ b2 < 128 \/ b3 < 128 -> ok4 b0 b1 b2 b3 = false.
Proof. unfold ok4, between. destruct (b0 =? 240), (b0 =? 244); lia. Qed.
Lemma decode_line n : forall s, (length s <= n)%nat -> exists m, (forall x, decode (s ++ 10 :: x) = m ++ 10 :: decode x) /\ (Forall (fun c => c <> 0) s -> Forall (fun c => c <> 0) m).
Proof.
  induction n as [|n IH]; intros s Hn.
  - destruct s; [|cbn [length] in Hn; lia]. exists []. split; [reflexivity|auto].
  - destruct s as [|b0 s1]; [exists []; split; [reflexivity|auto]|]. cbn [length] in Hn. destruct (IH s1 ltac:(lia)) as (m1 & I1 & Z1).
    destruct (Z.ltb_spec b0 128) as [L|L].
    { exists (b0 :: m1). split; [intros x; cbn [app decode]; destruct (Z.ltb_spec b0 128); [rewrite I1; reflexivity|lia]|]. intros H. inversion H; subst. constructor; auto. }
    assert (Lb : (b0 <? 128) = false) by lia.
    (* the first byte does not start a sequence *)
    assert (Hbad : (forall x, decode ((b0 :: s1) ++ 10 :: x) = rune_error :: decode (s1 ++ 10 :: x)) -> exists m, (forall x, decode ((b0 :: s1) ++ 10 :: x) = m ++ 10 :: decode x) /\ (Forall (fun c => c <> 0) (b0 :: s1) -> Forall (fun c => c <> 0) m)).
    { intros H. exists (rune_error :: m1). split; [intros x; rewrite H, I1; reflexivity|]. intros Hz. inversion Hz; subst. constructor; [discriminate|auto]. }
    destruct s1 as [|b1 s2].
    { apply Hbad. intros x. cbn [app decode]. rewrite Lb. rewrite ok2_small by lia. destruct x as [|b2 x]; [reflexivity|]. rewrite ok3_small by lia. destruct x as [|b3 x]; [reflexivity|]. rewrite ok4_small by lia. reflexivity. }
    cbn [length] in Hn. destruct (ok2 b0 b1) eqn:E2.
    { destruct (IH s2 ltac:(lia)) as (m2 & I2 & Z2). eexists (_ :: m2). split; [intros x; cbn [app decode]; rewrite Lb, E2, I2; reflexivity|]. intros H. inversion H as [|? ? _ H']; inversion H'; subst. constructor; [unfold ok2, between in E2; lia|auto]. }
    destruct s2 as [|b2 s3].
    { apply Hbad. intros x. cbn [app decode]. rewrite Lb, E2. rewrite ok3_small by lia. destruct x as [|b3 x]; [reflexivity|]. rewrite ok4_small by lia. reflexivity. }
    cbn [length] in Hn. destruct (ok3 b0 b1 b2) eqn:E3.
    { destruct (IH s3 ltac:(lia)) as (m3 & I3 & Z3). eexists (_ :: m3). split; [intros x; cbn [app decode]; rewrite Lb, E2, E3, I3; reflexivity|]. intros H. inversion H as [|? ? _ H']; inversion H' as [|? ? _ H'']; inversion H''; subst.
      constructor; [|auto]. unfold ok3, between in E3. destruct (b0 =? 224) eqn:?, (b0 =? 237) eqn:?; lia. }
    destruct s3 as [|b3 s4].
    { apply Hbad. intros x. cbn [app decode]. rewrite Lb, E2, E3. rewrite ok4_small by lia. reflexivity. }
    cbn [length] in Hn. destruct (ok4 b0 b1 b2 b3) eqn:E4.
    { destruct (IH s4 ltac:(lia)) as (m4 & I4 & Z4). eexists (_ :: m4). split; [intros x; cbn [app decode]; rewrite Lb, E2, E3, E4, I4; reflexivity|].
      intros H. inversion H as [|? ? _ H']; inversion H' as [|? ? _ H'']; inversion H'' as [|? ? _ H3']; inversion H3'; subst.
      constructor; [|auto]. unfold ok4, between in E4. destruct (b0 =? 240) eqn:?, (b0 =? 244) eqn:?; lia. }
    apply Hbad. intros x. cbn [app decode]. rewrite Lb, E2, E3, E4. reflexivity.
Qed.
Lemma complete_decode s : complete s -> lines (decode s) /\ Forall (fun c => c <> 0) (decode s) /\ forall x, decode (s ++ x) = decode s ++ decode x.
Proof.
  intros [[->|(s' & ->)] Hz]; [split; [left; reflexivity|]; split; [constructor|reflexivity]|].
  destruct (decode_line _ s' (Nat.le_refl _)) as (m & Hm & Hmz).
  assert (E : decode (s' ++ [10]) = m ++ [10]) by (rewrite Hm; reflexivity). rewrite E. split; [right; exists m; reflexivity|]. split.
  - apply Forall_app. split; [|constructor; [discriminate|constructor]]. apply Hmz. rewrite Forall_forall. intros c Hc ->. apply Hz. apply in_or_app. left. exact Hc.
  - intros x. rewrite <- !app_assoc. apply Hm.
Qed.

Section Again.
  Variables (is_letter is_udigit : Z -> bool) (to_upper : Z -> Z).
  Variable ord : list (str * Qc) -> list str.
  Variable resolve : str -> str -> str.
  Notation step := (step is_letter is_udigit to_upper ord).
  Notation parse_posting := (parse_posting ord).
  Notation file_loop := (file_loop is_letter is_udigit to_upper ord resolve).
  Notation parse_file := (parse_file is_letter is_udigit to_upper ord).

  (** What a round reads does not depend on the builder and the aliases. *)
  Lemma posting_rest nm b l b1 r1 nm' b' b2 r2 : parse_posting nm b l = Ok (b1, r1) -> parse_posting nm' b' l = Ok (b2, r2) -> r1 = r2.
  Proof.
    unfold LoaderModel.parse_posting. destruct (parse_account (consume_ws l)) as [acct l1].
    destruct (if ch (consume_ws l1) =? 45 then (true, next (consume_ws l1)) else (false, consume_ws l1)) as [ng l3].
    destruct (parse_ccy_amt l3) as [[[ccy amt] l4]| | |]; cbn [obind]; try discriminate.
    destruct (if ch (consume_ws l4) =? 64 then _ else _) as [l5| | |]; cbn [obind]; try discriminate.
    destruct (parse_note l5) as [note l6]. destruct ccy; intros H1 H2; injection H1 as _ <-; injection H2 as _ <-; reflexivity.
  Qed.
  Lemma price_rest b l b1 r1 b' b2 r2 : parse_price b l = Ok (b1, r1) -> parse_price b' l = Ok (b2, r2) -> r1 = r2.
  Proof.
    unfold LoaderModel.parse_price. destruct (negb _); [discriminate|]. destruct (parse_date _) as [[d l1]| | |]; cbn [obind]; try discriminate.
    destruct (parse_time _) as [l2| | |]; cbn [obind]; try discriminate. destruct (parse_ccy l2) as [[u l3]| | |]; cbn [obind]; try discriminate.
    destruct (parse_ccy_amt _) as [[ca l4]| | |]; cbn [obind]; try discriminate. intros H1 H2; injection H1 as _ <-; injection H2 as _ <-; reflexivity.
  Qed.
  Definition include_of (t : todo) : option str := match t with Include n _ _ _ => Some n | _ => None end.
  Lemma step_rest b nm l t b' nm' t' : step b nm l = Ok t -> step b' nm' l = Ok t' -> rest_of t = rest_of t' /\ include_of t = include_of t'.
  Proof.
    unfold LoaderModel.step. destruct (_ || _ || _); [intros H1 H2; injection H1 as <-; injection H2 as <-; split; reflexivity|].
    destruct (negb (has_ws l)).
    2:{ intros H1 H2. apply obind_Ok in H1 as ((b1 & r1) & E1 & H1). apply obind_Ok in H2 as ((b2 & r2) & E2 & H2). injection H1 as <-. injection H2 as <-. cbn. split; [exact (posting_rest _ _ _ _ _ _ _ _ _ E1 E2)|reflexivity]. }
    destruct (_ || _); [intros H1 H2; injection H1 as <-; injection H2 as <-; split; reflexivity|].
    destruct (ch (consume_ws l) =? 80).
    { intros H1 H2. apply obind_Ok in H1 as ((b1 & r1) & E1 & H1). apply obind_Ok in H2 as ((b2 & r2) & E2 & H2). injection H1 as <-. injection H2 as <-. cbn. split; [exact (price_rest _ _ _ _ _ _ _ E1 E2)|reflexivity]. }
    destruct (digit _).
    { destruct (parse_transaction (consume_ws l)) as [[[[d p] n] r]| | |]; cbn [obind]; try discriminate. intros H1 H2. apply obind_Ok in H1 as (b1 & E1 & H1). apply obind_Ok in H2 as (b2 & E2 & H2).
      injection H1 as <-. injection H2 as <-. split; reflexivity. }
    destruct (LoaderModel.parse_identifier _ _ _ _) as [cmd l2]. destruct (str_eqb cmd (bs "INCLUDE")).
    { destruct (parse_to_eol l2) as [s l3]. destruct (include_name s) as [name| | |]; cbn [obind]; try discriminate. intros H1 H2. injection H1 as <-. injection H2 as <-. split; reflexivity. }
    destruct (str_eqb cmd (bs "ALIAS")); [|discriminate]. destruct (parse_account l2) as [short l3]. destruct (negb _); [discriminate|]. destruct (parse_account _) as [long l4].
    destruct long; [discriminate|]. destruct (parse_to_eol _) as [s l5]. intros H1 H2. injection H1 as <-. injection H2 as <-. split; reflexivity.
  Qed.

  (** The include lines a load of this text comes to. *)
  Inductive comes_to : runes -> str -> Prop :=
  | come_here b nm l t n : ch l <> eof -> step b nm l = Ok t -> include_of t = Some n -> comes_to l n
  | come_next b nm l t n : ch l <> eof -> step b nm l = Ok t -> comes_to (rest_of t) n -> comes_to l n.

  Lemma loop_comes rec f : forall fuel b nm l b1, file_loop rec f fuel b nm l = FOk b1 -> forall n, comes_to l n -> exists b2 nm2 b3, rec b2 (resolve f n) nm2 = FOk b3.
  Proof.
    induction fuel as [|fuel IH]; intros b nm l b1 E n Hn; [discriminate|]. cbn [LoaderModel.file_loop] in E.
    destruct (Z.eqb_spec (ch l) eof) as [Z|_]; [destruct Hn; contradiction|]. destruct (step b nm l) as [t| | |] eqn:Es; try discriminate.
    assert (Hcase : include_of t = Some n \/ comes_to (rest_of t) n).
    { destruct Hn as [b' nm' l t' n _ Hs Hi|b' nm' l t' n _ Hs Hi]; destruct (step_rest _ _ _ _ _ _ _ Es Hs) as [Hr Hc]; [left; congruence|right; rewrite Hr; exact Hi]. }
    destruct t as [b2 nm2 l2|name b2 nm2 l2]; cbn [include_of rest_of] in Hcase.
    - destruct Hcase as [H|H]; [discriminate|]. eapply IH; eassumption.
    - destruct (rec b2 (resolve f name) nm2) as [b3| | |] eqn:Er; try discriminate. destruct Hcase as [H|H]; [injection H as <-; eauto|]. eapply IH; eassumption.
  Qed.

  Hypothesis Huni : unicode_ok is_letter is_udigit to_upper.
  Notation alias_word := (alias_word is_letter is_udigit to_upper).
  (** Text appended to a file that loads: loading goes on with it. *)
  Lemma file_loop_append rec f : forall fuel b nm l b1, lines l -> Forall (fun c => c <> 0) l ->
    file_loop rec f fuel b nm l = FOk b1 ->
    exists k nm1, (k <= length l)%nat /\ (forall rec', (forall b n nm b', comes_to l n -> rec b (resolve f n) nm = FOk b' -> rec' b (resolve f n) nm = FOk b') -> forall x fuel', file_loop rec' f (k + fuel') b nm (l ++ x) = file_loop rec' f fuel' b1 nm1 x) /\
      (forall a, In a (map fst nm1) -> In a (map fst nm) \/ alias_word l a).
  Proof.
    induction fuel as [|fuel IH]; intros b nm l b1 Hl Hz E; [discriminate|]. cbn [LoaderModel.file_loop] in E.
    destruct Hl as [->|Hl].
    { cbn [ch] in E. change (0 =? eof) with true in E. injection E as <-. exists O, nm. split; [apply le_n|]. split; [intros rec' _ x fuel'; reflexivity|]. auto. }
    assert (Hch : ch l <> eof).
    { destruct l as [|c l]; [destruct (ends_nil Hl)|]. apply Forall_inv in Hz. exact Hz. }
    destruct (Z.eqb_spec (ch l) eof) as [|_]; [contradiction|]. destruct (step b nm l) as [t| | |] eqn:Es; try discriminate.
    destruct (step_local is_letter is_udigit to_upper Huni ord b nm l t Hl Es) as (HL & HX & HA). pose proof (step_progress is_letter is_udigit to_upper ord b nm l t Hch Es) as HP.
    assert (Hps : psuf (rest_of t) l) by (destruct t; apply HP). pose proof (psuf_len _ _ Hps) as Hlen.
    assert (Hz' : Forall (fun c => c <> 0) (rest_of t)) by (destruct Hps as (p & _ & Ep); rewrite Ep in Hz; apply Forall_app in Hz; apply Hz).
    assert (Hkeys : forall a k nm', In a (map fst (aset str_eqb k nm' nm)) -> a = k \/ In a (map fst nm)).
    { intros a k v Ha. exact (aset_keys _ _ _ _ Ha). }
    assert (Hsuf : forall a, alias_word (rest_of t) a -> alias_word l a).
    { intros a (l1 & l2 & S1 & S2 & S3). exists l1, l2. split; [eapply suf_trans; [exact S1|apply psuf_suf; exact Hps]|auto]. }
    assert (HK : forall (nm1 : alias) a, In a (map fst nm1) -> (forall a, In a (map fst nm1) -> In a (map fst (alias_of t)) \/ alias_word (rest_of t) a) -> In a (map fst nm) \/ alias_word l a).
    { intros nm1 a Ha H. destruct (H a Ha) as [H1|H1]; [|right; apply Hsuf; exact H1]. destruct HA as [HA|(s & n & Hw & HA)]; rewrite HA in H1; [left; exact H1|].
      destruct (Hkeys _ _ _ H1) as [->|H2]; [right; exact Hw|left; exact H2]. }
    destruct t as [b2 nm2 l2|name b2 nm2 l2]; cbn [rest_of alias_of app_todo] in *.
    - destruct (IH b2 nm2 l2 b1 HL Hz' E) as (k & nm1 & Hk & Hrun & Hal). exists (S k), nm1. split; [lia|]. split; [|intros a Ha; exact (HK nm1 a Ha Hal)].
      intros rec' Hrec x fuel'.
      assert (Hrec' : forall b n nm b', comes_to l2 n -> rec b (resolve f n) nm = FOk b' -> rec' b (resolve f n) nm = FOk b') by (intros b0 n nm0 b' Hn; apply Hrec; eapply come_next; eassumption).
      cbn [Nat.add LoaderModel.file_loop]. rewrite ends_ch by exact Hl. destruct (Z.eqb_spec (ch l) eof) as [|_]; [contradiction|]. rewrite HX. apply Hrun. exact Hrec'.
    - destruct (rec b2 (resolve f name) nm2) as [b3| | |] eqn:Er; try discriminate.
      destruct (IH b3 nm2 l2 b1 HL Hz' E) as (k & nm1 & Hk & Hrun & Hal). exists (S k), nm1. split; [lia|]. split; [|intros a Ha; exact (HK nm1 a Ha Hal)].
      intros rec' Hrec x fuel'.
      assert (Hrec' : forall b n nm b', comes_to l2 n -> rec b (resolve f n) nm = FOk b' -> rec' b (resolve f n) nm = FOk b') by (intros b0 n nm0 b' Hn; apply Hrec; eapply come_next; eassumption).
      cbn [Nat.add LoaderModel.file_loop]. rewrite ends_ch by exact Hl. destruct (Z.eqb_spec (ch l) eof) as [|_]; [contradiction|]. rewrite HX. cbn [app_todo]. apply Hrec in Er; [|eapply come_here; [exact Hch|exact Es|reflexivity]]. rewrite Er. apply Hrun. exact Hrec'.
  Qed.

  Section OneFs.
    Variable fs : str -> option str.
    (** [opens g h]: loading file [g] loads file [h]; [loads g h]: directly or indirectly, or h = g. *)
    Definition opens (g h : str) : Prop := exists s n, fs g = Some s /\ comes_to (decode s) n /\ h = resolve g n.
    Inductive loads (g : str) : str -> Prop := loads_self : loads g g | loads_step h k : opens g h -> loads h k -> loads g k.
    Lemma opens_loaded d b g nm b1 h : parse_file fs resolve d b g nm = FOk b1 -> opens g h -> exists d' b2 nm2 b3, d = S d' /\ parse_file fs resolve d' b2 h nm2 = FOk b3.
    Proof.
      destruct d as [|d]; [discriminate|]. cbn [LoaderModel.parse_file]. intros E (s & n & Es & Hn & ->). rewrite Es in E.
      destruct (loop_comes _ _ _ _ _ _ _ E n Hn) as (b2 & nm2 & b3 & H). exists d, b2, nm2, b3. auto.
    Qed.
    Lemma loads_loaded d : forall b g nm b1 h, parse_file fs resolve d b g nm = FOk b1 -> loads g h -> exists d' b2 nm2 b3, (d' <= d)%nat /\ parse_file fs resolve d' b2 h nm2 = FOk b3.
    Proof.
      intros b g nm b1 h E H. revert d b nm b1 E. induction H as [|g h k Ho _ IH]; intros d b nm b1 E; [exists d, b, nm, b1; auto|].
      destruct (opens_loaded _ _ _ _ _ _ E Ho) as (d' & b2 & nm2 & b3 & -> & E'). destruct (IH _ _ _ _ E') as (d2 & b4 & nm4 & b5 & L & E2). exists d2, b4, nm4, b5. split; [lia|exact E2].
    Qed.
    Lemma no_cycle d : forall b g nm b1 h, parse_file fs resolve d b g nm = FOk b1 -> opens g h -> loads h g -> False.
    Proof.
      induction d as [d IH] using lt_wf_ind. intros b g nm b1 h E Ho Hl. destruct (opens_loaded _ _ _ _ _ _ E Ho) as (d' & b2 & nm2 & b3 & -> & E').
      destruct (loads_loaded _ _ _ _ _ _ E' Hl) as (d2 & b4 & nm4 & b5 & L & E2). apply (IH d2 ltac:(lia) _ _ _ _ _ E2 Ho Hl).
    Qed.
  End OneFs.

  (** Files that do not load [f] load as before when only [f] has changed. *)
  Section TwoFs.
    Variables (fs fs' : str -> option str) (f : str).
    Hypothesis Hsame : forall g, g <> f -> fs' g = fs g.
    Lemma loop_same rec rec' g s : fs g = Some s -> (forall b h nm b1, opens fs g h -> rec b h nm = FOk b1 -> rec' b h nm = FOk b1) ->
      forall fuel b nm l b1, (forall n, comes_to l n -> comes_to (decode s) n) -> file_loop rec g fuel b nm l = FOk b1 ->
      file_loop rec' g fuel b nm l = FOk b1.
    Proof.
      intros Es Hrec. induction fuel as [|fuel IH]; intros b nm l b1 Hl E; [discriminate|]. cbn [LoaderModel.file_loop] in *.
      destruct (Z.eqb_spec (ch l) eof) as [_|Hc]; [exact E|]. destruct (step b nm l) as [t| | |] eqn:St; try discriminate.
      assert (Hl' : forall n, comes_to (rest_of t) n -> comes_to (decode s) n) by (intros n Hn; apply Hl; eapply come_next; eassumption).
      destruct t as [b2 nm2 l2|name b2 nm2 l2]; cbn [rest_of] in Hl'; [apply IH; assumption|].
      destruct (rec b2 (resolve g name) nm2) as [b3| | |] eqn:Er; try discriminate. apply Hrec in Er.
      - rewrite Er. apply IH; assumption.
      - exists s, name. split; [exact Es|]. split; [|reflexivity]. apply Hl. eapply come_here; [exact Hc|exact St|reflexivity].
    Qed.
    Lemma file_same d : forall d' b g nm b1, (d <= d')%nat -> ~ loads fs g f -> parse_file fs resolve d b g nm = FOk b1 -> parse_file fs' resolve d' b g nm = FOk b1.
    Proof.
      induction d as [|d IH]; intros d' b g nm b1 L Hn E; [discriminate|]. destruct d' as [|d']; [lia|]. cbn [LoaderModel.parse_file] in *.
      assert (Hg : g <> f) by (intros ->; apply Hn; constructor). rewrite (Hsame g Hg). destruct (fs g) as [s|] eqn:Es; [|discriminate]. cbv zeta in *.
      eapply loop_same; [exact Es| |auto|exact E]. intros b2 h nm2 b3 Ho E2. apply (IH d'); [lia| |exact E2].
      intros Hl. apply Hn. eapply loads_step; eassumption.
    Qed.
  End TwoFs.

  Hypothesis Hord : forall m, NoDup (akeys m) -> Permutation (ord m) (akeys m).
  (** Text added at the end of a file that loads is read with the aliases in force there, after everything before it. *)
  Lemma append_run fs f s d b : complete s -> fs f = Some s -> parse_file fs resolve d new_builder f [] = FOk b ->
    exists al, (forall a, In a (map fst al) -> alias_word (decode s) a) /\
      forall fs' x es cs, (forall g, g <> f -> fs' g = fs g) -> fs' f = Some (s ++ encode x) -> Forall scalar x ->
        ledger_text fs' resolve f al x es -> bsteps new_builder cs = Ok b ->
        exists ds D, means cs es ds /\ forall depth, (D <= depth)%nat -> parse_file fs' resolve depth new_builder f [] = result_of (bsteps b ds).
  Proof.
    intros Hc Hf E. destruct (complete_decode s Hc) as (Hl & Hz & Hd). pose proof E as E0. destruct d as [|d]; [discriminate|]. cbn [LoaderModel.parse_file] in E. rewrite Hf in E. cbv zeta in E.
    destruct (file_loop_append _ f _ _ _ _ _ Hl Hz E) as (k & al & Hk & Hrun & Hal). exists al. split; [intros a Ha; destruct (Hal a Ha) as [[]|H]; exact H|].
    intros fs' x es cs Hs' Hf' Hx Ht Hb. destruct (ledger_run is_letter is_udigit to_upper Huni ord fs' resolve Hord f al x es Ht cs b Hb) as (ds & D & Hm & Hrun').
    exists ds, (S (Nat.max d D)). split; [exact Hm|]. intros depth Hdp. destruct depth as [|depth]; [lia|]. cbn [LoaderModel.parse_file]. rewrite Hf'. cbv zeta. rewrite Hd, decode_encode by exact Hx.
    replace (S (length (decode s ++ x))) with (k + (S (length (decode s ++ x)) - k))%nat by (rewrite app_length; lia).
    rewrite Hrun.
    - apply Hrun'; [lia|]. rewrite app_length. lia.
    - intros b0 n nm0 b' Hn Er. eapply (file_same fs fs' f Hs'); [|intros Hl0; eapply (no_cycle fs (S d)); [exact E0| |exact Hl0]; exists s, n; auto|exact Er]. lia.
  Qed.
End Again.
