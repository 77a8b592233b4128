(** * PosProofs4: files: where an error is, what it depends on, and what an unbalanced transaction looks like. *)
From Verif Require Import Base Utf8 Dec PriceModel BookModel BookSpec BookProofs BuilderProofs AccumModel LoaderModel LoaderSpec LoaderProofs LoaderProofs3 LoaderProofs4 LoaderProofs5 PosModel PosSpec PosProofs PosProofs2 PosProofs3.
From Coq Require Import ZifyBool ZifyNat Zify.
Ltac Zify.zify_post_hook ::= idtac.

(** ** Positions as places *)
Lemma joined_snoc ls l : joined (ls ++ [l]) = joined ls ++ l ++ [10].
Proof. unfold joined. rewrite map_app, concat_app. cbn [map concat]. rewrite app_nil_r. reflexivity. Qed.
Lemma tpos_place d : exists ls cur, d = joined ls ++ cur /\ Forall no_nl ls /\ no_nl cur /\ tpos d = (1 + Z.of_nat (length ls), 1 + Z.of_nat (length cur)).
Proof.
  induction d as [|c d IH] using rev_ind; [exists [], []; repeat split; constructor|]. destruct IH as (ls & cur & -> & Hls & Hcur & Et). rewrite tpos_snoc, Et. unfold tstep. cbn [fst snd].
  destruct (Z.eqb_spec c 10) as [->|N].
  - exists (ls ++ [cur]), []. rewrite joined_snoc, app_nil_r, <- app_assoc. split; [reflexivity|]. split; [apply Forall_app; auto|]. split; [constructor|]. rewrite app_length. cbn [length]. f_equal; lia.
  - exists ls, (cur ++ [c]). rewrite app_assoc. split; [reflexivity|]. split; [exact Hls|]. split; [apply Forall_app; split; [exact Hcur|constructor; [exact N|constructor]]|]. rewrite app_length. cbn [length]. f_equal; lia.
Qed.
(** The position grows with every character, so it determines how much was read. *)
Definition before_pos (a b : Z * Z) : Prop := fst a < fst b \/ (fst a = fst b /\ snd a < snd b).
Definition rep (d l : runes) : Z * Z := if ch l =? eol then (fst (tpos d) + 1, 0) else tpos d.
Lemma tpos_pos d : 1 <= snd (tpos d).
Proof. destruct (tpos_place d) as (ls & cur & _ & _ & _ & ->). cbn [snd]. lia. Qed.
Lemma rep_step d x l : before_pos (rep d (x :: l)) (rep (d ++ [x]) l).
Proof.
  unfold rep, before_pos. rewrite tpos_snoc. cbn [ch]. unfold tstep, eol. pose proof (tpos_pos d).
  destruct (Z.eqb_spec x 10) as [->|N]; destruct (ch l =? 10); cbn [fst snd]; lia.
Qed.
Lemma rep_mono e : forall d l, e <> [] -> before_pos (rep d (e ++ l)) (rep (d ++ e) l).
Proof.
  induction e as [|x e IH]; intros d l H; [congruence|]. cbn [app]. pose proof (rep_step d x (e ++ l)) as H1. destruct e as [|y e]; [exact H1|].
  specialize (IH (d ++ [x]) l ltac:(discriminate)). rewrite <- app_assoc in IH. cbn [app] in IH, H1. unfold before_pos in *. cbn [app]. lia.
Qed.
Lemma inv_rep d s : inv d s -> (row s, col s) = rep d (rest s).
Proof. unfold inv, rep. destruct (ch (rest s) =? eol); intros [-> ->]; [reflexivity|]. destruct (tpos d). reflexivity. Qed.
Lemma same_pos d e1 s1 e2 s2 : e1 ++ rest s1 = e2 ++ rest s2 -> inv (d ++ e1) s1 -> inv (d ++ e2) s2 -> row s1 = row s2 -> col s1 = col s2 -> e1 = e2.
Proof.
  intros E I1 I2 R C. apply inv_rep in I1, I2. rewrite R, C, I2 in I1. clear R C I2.
  destruct (app_eq_app _ _ _ _ E) as (m & [[E1 E2]|[E1 E2]]).
  - destruct m as [|x m]; [rewrite app_nil_r in E1; exact E1|]. exfalso. pose proof (rep_mono (x :: m) (d ++ e2) (rest s1) ltac:(discriminate)) as H. rewrite <- E2, <- app_assoc, <- E1, I1 in H. unfold before_pos in H. lia.
  - destruct m as [|x m]; [rewrite app_nil_r in E1; congruence|]. exfalso. pose proof (rep_mono (x :: m) (d ++ e1) (rest s2) ltac:(discriminate)) as H. rewrite <- E2, <- app_assoc, <- E1, I1 in H. unfold before_pos in H. lia.
Qed.
Lemma says_true m e l : says m e (ch l) -> message_true (e ++ l) (length e) m.
Proof.
  assert (Hc : char_at (e ++ l) (length e) = ch l) by (unfold char_at; rewrite app_nth2 by lia; rewrite Nat.sub_diag; destruct l; reflexivity).
  destruct m; cbn [says message_true]; rewrite ?Hc; auto. intros (d0 & ds & -> & <- & Hd & Hn & Hl). rewrite firstn_app, Nat.sub_diag, firstn_all, firstn_O, app_nil_r.
  rewrite app_length in *. split; [lia|]. split; [|auto]. replace (length d0 + length ds - length ds)%nat with (length d0) by lia. rewrite skipn_app, skipn_all, Nat.sub_diag. exact Hd.
Qed.
Lemma says_at_ok text e s m : text = e ++ rest s -> inv e s -> says m e (ch (rest s)) ->
  exists ln cn before cur, e = before ++ cur /\ (before = [] \/ exists x, before = x ++ [10]) /\ no_nl cur /\ says_at text (length e) ln cn before (row s) (col s) m.
Proof.
  intros -> Hi Hm. destruct (tpos_place e) as (ls & cur & E & Hls & Hcur & Et). exists (1 + Z.of_nat (length ls)), (1 + Z.of_nat (length cur)), (joined ls), cur.
  split; [exact E|]. split; [destruct ls as [|l ls] using rev_ind; [left; reflexivity|right; exists (joined ls ++ l); rewrite joined_snoc, app_assoc; reflexivity]|]. split; [exact Hcur|]. split; [rewrite app_length; lia|]. split.
  - exists ls, cur. rewrite firstn_app, Nat.sub_diag, firstn_all, firstn_O, app_nil_r. auto 8.
  - split; [apply says_true; exact Hm|].
    assert (Hc : char_at (e ++ rest s) (length e) = ch (rest s)) by (unfold char_at; rewrite app_nth2 by lia; rewrite Nat.sub_diag; destruct (rest s); reflexivity). rewrite Hc.
    unfold inv in Hi. unfold eol in Hi. rewrite Et in Hi. cbn [fst snd] in Hi. split; intros Hx; destruct (Z.eqb_spec (ch (rest s)) 10) as [H10|H10]; try congruence; destruct Hi as [-> ->]; auto.
Qed.

Section F.
  Variables (is_letter is_udigit : Z -> bool) (to_upper : Z -> Z).
  Variable ord : list (str * Qc) -> list str.
  Variable resolve : str -> str -> str.
  Notation pos_loop := (pos_loop is_letter is_udigit to_upper ord resolve).
  Notation pos_file fs := (pos_file is_letter is_udigit to_upper ord fs resolve).
  Notation names fs := (names to_upper fs resolve).
  Notation reaches fs := (reaches to_upper fs resolve).

  Lemma file_at fs depth : forall b f nm g rw cl m bx, pos_file fs depth b f nm = PFErr (At g rw cl m) bx ->
    reaches fs f g /\ exists bytes n ln cn before, fs g = Some bytes /\ says_at (decode bytes) n ln cn before rw cl m.
  Proof.
    induction depth as [|dp IH]; intros b f nm g rw cl m bx H; [discriminate|]. cbn [PosModel.pos_file] in H. destruct (fs f) as [bytes|] eqn:Ef; [|discriminate].
    apply (loop_at is_letter is_udigit to_upper ord resolve _ f _ _ _ _ [] _ _ _ _ _ (inv_new (decode bytes))) in H.
    destruct H as [(e & s & E & Hi & Hm & -> & -> & ->)|(b' & nm' & l1 & name & Hl & Hia & Hr)].
    - split; [apply reach_self|]. rewrite rest_new_reader in E. destruct (says_at_ok _ _ _ _ E Hi Hm) as (ln & cn & before & cur & _ & _ & _ & Hs). exists bytes, (length e), ln, cn, before. auto.
    - rewrite rest_new_reader in Hl. destruct (IH _ _ _ _ _ _ _ _ Hr) as [Hre Hx]. split; [|exact Hx]. eapply reaches_first; [|exact Hre]. exists bytes, l1, name. auto.
  Qed.
  (** Files of a smaller rank do not depend on [f]. *)
  Lemma pos_loop_same fs f bytes rec rec' : fs f = Some bytes -> (forall b g nm, names fs f g -> rec b g nm = rec' b g nm) ->
    forall fuel b nm r, suf (rest r) (decode bytes) -> pos_loop rec f fuel b nm r = pos_loop rec' f fuel b nm r.
  Proof.
    intros Ef Hr. induction fuel as [|fuel IH]; intros b nm r Hs; [reflexivity|]. cbn [PosModel.pos_loop]. destruct (Z.eqb_spec (ch (rest r)) eof) as [_|Hc]; [reflexivity|].
    destruct (p_step is_letter is_udigit to_upper ord b nm r) as [[[[b' nm'] i] s]| | |] eqn:E; try reflexivity.
    destruct (p_step_progress _ _ _ _ _ _ _ _ _ _ _ Hc E) as [(e & Ne & Er) Hn]. assert (Hs' : suf (rest s) (decode bytes)) by (eapply suf_trans; [|exact Hs]; exists e; exact Er).
    destruct i as [name|]; [|apply IH; exact Hs']. destruct (Hn name eq_refl) as (l1 & Hl & Hia). rewrite <- Hr; [|exists bytes, l1, name; repeat split; [exact Ef|eapply suf_trans; [exact Hl|exact Hs]|exact Hia]].
    destruct (rec b' (resolve f name) nm'); try reflexivity. apply IH. exact Hs'.
  Qed.
  Variable fs : str -> option str.
  Variable rank : str -> nat.
  Hypothesis Hrank : forall f g, names fs f g -> (rank g < rank f)%nat.
  Lemma reaches_rank f g : reaches fs f g -> (rank g <= rank f)%nat.
  Proof. induction 1 as [|g h H IH Hn]; [lia|]. apply Hrank in Hn. lia. Qed.
  Lemma pos_file_other fs' f : (forall g, g <> f -> fs' g = fs g) -> forall depth b g nm, (rank g < rank f)%nat -> pos_file fs depth b g nm = pos_file fs' depth b g nm.
  Proof.
    intros Ho. induction depth as [|dp IH]; intros b g nm Hg; [reflexivity|]. cbn [PosModel.pos_file]. assert (g <> f) by (intros ->; lia). rewrite Ho by assumption. destruct (fs g) as [bytes|] eqn:Eg; [|reflexivity].
    apply (pos_loop_same fs g bytes _ _ Eg); [|rewrite rest_new_reader; apply suf_refl]. intros b' h nm' Hn. apply Hrank in Hn. apply IH. lia.
  Qed.
  Hypothesis Huni : unicode_ok is_letter is_udigit to_upper.
  (** The loop of [f] itself never returns an error of an included file that names [f]. *)
  Definition guard (f : str) (dp : nat) (b : builder) (g : str) (nm : alias) : pfres := if Nat.ltb (rank g) (rank f) then pos_file fs dp b g nm else PFExit.
  Lemma guard_no f dp b g nm rw cl m bx : guard f dp b g nm <> PFErr (At f rw cl m) bx.
  Proof.
    unfold guard. destruct (Nat.ltb_spec (rank g) (rank f)) as [H|]; [|discriminate]. intros E. apply file_at in E as [Hr _]. apply reaches_rank in Hr. lia.
  Qed.
  (** A loop that calls files of smaller rank only, with the files of [fs] or of [fs']. *)
  Lemma guard_loop fs' f dp : (forall g, g <> f -> fs' g = fs g) -> forall fuel b nm r x, pos_loop (guard f dp) f fuel b nm r = x -> x <> PFExit -> pos_loop (pos_file fs' dp) f fuel b nm r = x.
  Proof.
    intros Ho. induction fuel as [|fuel IH]; intros b nm r x H Hx; [exact H|]. cbn [PosModel.pos_loop] in *. destruct (ch (rest r) =? eof); [exact H|].
    destruct (p_step is_letter is_udigit to_upper ord b nm r) as [[[[b' nm'] i] s]| | |]; try exact H. destruct i as [name|]; [|apply IH; assumption].
    unfold guard at 1 in H. destruct (Nat.ltb_spec (rank (resolve f name)) (rank f)) as [Hl|_]; [|congruence].
    rewrite <- (pos_file_other fs' f Ho dp _ _ _ Hl). destruct (pos_file fs dp b' (resolve f name) nm'); try exact H. apply IH; assumption.
  Qed.
  Lemma file_error depth b f nm rw cl m bx : pos_file fs depth b f nm = PFErr (At f rw cl m) bx ->
    exists bytes n ln cn before, fs f = Some bytes /\ says_at (decode bytes) n ln cn before rw cl m /\
      (forall fs' bytes', (forall g, g <> f -> fs' g = fs g) -> fs' f = Some bytes' -> (n < length (decode bytes))%nat ->
         firstn (n + 1) (decode bytes') = firstn (n + 1) (decode bytes) -> pos_file fs' depth b f nm = PFErr (At f rw cl m) bx) /\
      (forall fs' bytes', (forall g, g <> f -> fs' g = fs g) -> fs' f = Some bytes' -> decode bytes' = before -> exists b', pos_file fs' depth b f nm = PFOk b').
  Proof.
    intros H. destruct depth as [|dp]; [discriminate|]. cbn [PosModel.pos_file] in H. destruct (fs f) as [bytes|] eqn:Ef; [|discriminate].
    rewrite (pos_loop_same fs f bytes _ (guard f dp) Ef) in H; [|intros b0 g nm0 Hn; unfold guard; destruct (Nat.ltb_spec (rank g) (rank f)) as [|Hge]; [reflexivity|apply Hrank in Hn; lia]|rewrite rest_new_reader; apply suf_refl].
    pose proof (inv_new (decode bytes)) as Hi0.
    destruct (loop_before is_letter is_udigit to_upper ord resolve Huni (guard f dp) f (guard_no f dp) _ _ _ _ _ _ _ _ _ Hi0 H) as (e & s & E & Hi & Hm & -> & -> & Hb). rewrite rest_new_reader in E. cbn [app] in Hi, Hm.
    destruct (says_at_ok _ _ _ _ E Hi Hm) as (ln & cn & before & cur & Ee & Hbf & Hcur & Hs). exists bytes, (length e), ln, cn, before. split; [reflexivity|]. split; [exact Hs|]. split.
    - intros fs' bytes' Ho Ef' Hn Hfirst. cbn [PosModel.pos_file]. rewrite Ef'.
      destruct (rest s) as [|c v] eqn:Er; [rewrite E, app_nil_r in Hn; lia|].
      assert (Ed : firstn (length e + 1) (decode bytes) = e ++ [c]). { rewrite E. change (c :: v) with ([c] ++ v). rewrite app_assoc, firstn_app, app_length. cbn [length]. replace (length e + 1 - (length e + 1))%nat with 0%nat by lia. rewrite firstn_O, app_nil_r. apply firstn_all2. rewrite app_length. cbn [length]. lia. }
      assert (Ed' : decode bytes' = e ++ c :: skipn (length e + 1) (decode bytes')). { rewrite <- (firstn_skipn (length e + 1) (decode bytes')) at 1. rewrite Hfirst, Ed, <- app_assoc. reflexivity. }
      set (v' := skipn (length e + 1) (decode bytes')) in *.
      assert (Hnr : exists rw0 cl0, new_reader (decode bytes) = mkR (e ++ c :: v) rw0 cl0 /\ new_reader (decode bytes') = mkR (e ++ c :: v') rw0 cl0).
      { rewrite E, Ed'. unfold new_reader. pose proof (rnext_same c v v' 0 e 1 0) as [R1 R2]. set (k := rnext (mkR (0 :: e ++ c :: v) 1 0)) in *. exists (row k), (col k). rewrite R2. split; [|reflexivity]. destruct k. cbn in *. rewrite R1. reflexivity. }
      destruct Hnr as (rw0 & cl0 & N1 & N2). rewrite N1 in H, Hi0.
      destruct (loop_local is_letter is_udigit to_upper ord resolve (guard f dp) f (guard_no f dp) _ _ _ _ _ _ _ _ _ _ _ _ _ H Hi0) as (e2 & s2 & E2 & Hi2 & _ & R2 & C2 & Floc).
      assert (e = e2). { apply (same_pos [] e s e2 s2); try assumption. rewrite Er. exact E2. } subst e2. apply app_inv_head in E2.
      rewrite N2, Ed'. apply (guard_loop fs' f dp Ho); [|discriminate]. apply Floc; [exists []; symmetry; exact E2|lia].
    - intros fs' bytes' Ho Ef' Ed. cbn [PosModel.pos_file]. rewrite Ef', Ed. destruct Hbf as [->|(x & ->)].
      + exists b. reflexivity.
      + specialize (Hb x cur). rewrite <- app_assoc in Ee. specialize (Hb Ee (S (length (x ++ [10]))) ltac:(lia)). destruct Hb as (b' & Hb). exists b'.
        assert (Hnr : new_reader (x ++ [10]) = mkR (x ++ [10]) (row (new_reader (decode bytes))) (col (new_reader (decode bytes)))).
        { rewrite E, Ee. rewrite <- !app_assoc. unfold new_reader. change ([10] ++ cur ++ rest s) with (10 :: (cur ++ rest s)). pose proof (rnext_same 10 (cur ++ rest s) [] 0 x 1 0) as [R1 R2]. exact R2. }
        rewrite Hnr. apply (guard_loop fs' f dp Ho); [exact Hb|discriminate].
  Qed.
End F.

(** ** Panics without a position *)
Definition raws {A} (P : raw -> Prop) (p : parser A) : Prop := forall r, match p r with PRaw w => P w | _ => True end.
Lemma raws_bind {A B} P (p : parser A) (f : A -> parser B) : raws P p -> (forall a, raws P (f a)) -> raws P (bind p f).
Proof. intros Hp Hf r. unfold bind. specialize (Hp r). destruct (p r) as [[a s]| | |]; try exact Hp; try exact I. apply Hf. Qed.
Lemma raws_panic {A} (P : raw -> Prop) w (o : outcome A) : ((o = Panic \/ o = Error) -> P w) -> raws P (panic_of w o).
Proof. intros H r. unfold panic_of. destruct o; try exact I; apply H; auto. Qed.
Ltac raws_go := repeat match goal with
  | |- raws _ (if ?b then _ else _) => destruct b
  | |- raws _ (match ?x with _ => _ end) => destruct x
  | |- raws _ (let x := _ in _) => cbv zeta
  | |- raws _ (ret _) => intros ?; exact I
  | |- raws _ (stop _) => intros ?; exact I
  | |- raws _ peek => intros ?; exact I
  | |- raws _ (accept _) => let r := fresh in intros r; unfold accept; destruct (ch (rest r) =? _); exact I
  | |- raws _ (spanp _) => intros ?; exact I
  | |- raws _ p_digits => let r := fresh in intros r; unfold p_digits; destruct (amtp_loop _ _ _ _ _ _) as [[? ?] ?]; exact I
  | |- raws _ (panic_of ZeroDenominator _) => apply raws_panic; intros _; exact I
  | |- raws _ (panic_of NoIncludeName _) => apply raws_panic; intros _; exact I
  | |- raws _ (bind _ _) => apply raws_bind; [|intros ?]
  end.
Lemma step_raw il ud tu ord b nm : raws (fun w => match w with Unbalanced d p => d = bu_date b /\ p = bu_payee b /\ exists dt pay nt, forall b', new_transaction b dt pay nt <> Ok b' | _ => True end) (p_step il ud tu ord b nm).
Proof.
  assert (Hccy : forall P : raw -> Prop, P ZeroDenominator -> raws P p_ccy_amt /\ raws P p_date /\ raws P p_time /\ raws P p_ccy /\ raws P p_ws /\ raws P p_note /\ raws P p_account /\ raws P p_payee).
  { intros P HP. assert (Hc : forall e, raws P (p_consume e)) by (intros e; unfold p_consume; raws_go). assert (Hn : forall x y, raws P (p_number x y)) by (intros x y; unfold p_number; raws_go).
    assert (Hw : raws P p_ws) by (unfold p_ws; raws_go). assert (Hq : raws P p_quoted) by (unfold p_quoted; raws_go; auto).
    assert (Hccy : raws P p_ccy) by (unfold p_ccy; raws_go; auto). assert (Ha : raws P p_amt) by (unfold p_amt; raws_go; auto; apply raws_panic; auto).
    repeat split; auto.
    - unfold p_ccy_amt. raws_go; auto.
    - unfold p_date. raws_go; auto.
    - unfold p_time. raws_go; auto.
    - unfold p_note, p_to_eol. raws_go; auto.
    - unfold p_account. raws_go; auto.
    - unfold p_payee. raws_go; auto. }
  set (P := fun w => _). destruct (Hccy P I) as (H1 & H2 & H3 & H4 & H5 & H6 & H7 & H8).
  assert (Hround : raws P (p_round il ud tu ord b nm)).
  { unfold p_round, p_price, p_posting, p_command, p_identifier, p_to_eol, p_transaction. raws_go; auto; try (apply raws_panic; intros _; exact I).
    apply raws_panic. intros Hx. cbn [P]. split; [reflexivity|]. split; [reflexivity|]. do 3 eexists. intros b' E. rewrite E in Hx. destruct Hx; discriminate. }
  unfold p_step. apply raws_bind; [exact Hround|]. intros [x e]. raws_go.
Qed.
Section U.
  Variables (is_letter is_udigit : Z -> bool) (to_upper : Z -> Z).
  Variable ord : list (str * Qc) -> list str.
  Variable resolve : str -> str -> str.
  Variable fs : str -> option str.
  Notation pos_loop := (pos_loop is_letter is_udigit to_upper ord resolve).
  Notation pos_file := (pos_file is_letter is_udigit to_upper ord fs resolve).
  (** calls made so far *)
  Definition made (b : builder) : Prop := exists cs, bsteps new_builder cs = Ok b.
  Lemma made_step b nm r b' nm' i s : made b -> ch (rest r) <> 0 -> p_step is_letter is_udigit to_upper ord b nm r = POk ((b', nm', i), s) -> made b'.
  Proof.
    intros (cs & Hcs) Hc E. pose proof (er_step is_letter is_udigit to_upper ord b nm r) as H. rewrite E in H. destruct H as (t & Ht & Et).
    pose proof (step_progress is_letter is_udigit to_upper ord b nm (rest r) t Hc Ht) as P. destruct t as [b1 nm1 l1|nm0 b1 nm1 l1]; cbn [of_todo] in Et; injection Et as -> -> <- ->.
    - destruct P as [_ (cs' & E')]. exists (cs ++ cs'). rewrite bsteps_app, Hcs. exact E'.
    - destruct P as (_ & -> & _). exists cs. exact Hcs.
  Qed.
  Definition open_unbalanced (d : Z) (p : str) (b : builder) : Prop := made b /\ exists c, total (in_trans d p c) (bu_post b) <> 0%Qc.
  Lemma unb b dt pay nt : made b -> (forall b', new_transaction b dt pay nt <> Ok b') -> open_unbalanced (bu_date b) (bu_payee b) b.
  Proof.
    intros Hm Hn. split; [exact Hm|]. destruct Hm as (cs & Hcs). destruct (after_ok cs b Hcs) as (used & Hok). pose proof Hok as Hok0. destruct Hok as (Hnd & H2 & H3 & _).
    destruct (new_transaction_cases b used _ dt pay nt Hok0) as [(_ & b' & E & _)|[Hnz _]]; [exfalso; eapply Hn; exact E|].
    assert (Hex : exists c, getq c (bu_amts b) <> 0%Qc).
    { assert (Hd : forall c, getq c (bu_amts b) = seg_sum c (last (segments cs) [])) by exact H2.
      destruct (forallb (fun '(_, v) => qc_is0 v) (bu_amts b)) eqn:Ef.
      - exfalso. apply Hnz. intros c. rewrite <- Hd. unfold getq. destruct (aget str_eqb c (bu_amts b)) as [v|] eqn:Ea; [|reflexivity].
        rewrite forallb_forall in Ef. apply (aget_In _ str_eqb_eq) in Ea. specialize (Ef _ Ea). cbn in Ef. apply qc_is0_eq in Ef. exact Ef.
      - assert (Hf : exists cv, In cv (bu_amts b) /\ qc_is0 (snd cv) = false).
        { clear - Ef. induction (bu_amts b) as [|[c v] l IH]; [discriminate|]. cbn [forallb] in Ef. destruct (qc_is0 v) eqn:Ev; [|exists (c, v); split; [left; reflexivity|exact Ev]]. destruct (IH Ef) as (cv & Hin & Hv). exists cv. split; [right; exact Hin|exact Hv]. }
        destruct Hf as ([c v] & Hin & Hv). exists c. unfold getq. apply (aget_Some_iff _ str_eqb_eq) in Hin; [|exact Hnd]. rewrite Hin. apply qc_is0_neq in Hv. exact Hv. }
    destruct Hex as (c & Hc). exists c. rewrite H3, Z.eqb_refl, str_eqb_refl. exact Hc.
  Qed.
  Lemma loop_unbalanced rec f : (forall b g nm b', made b -> rec b g nm = PFOk b' -> made b') ->
    (forall b g nm h d p bx, made b -> rec b g nm = PFErr (NoPos h (Unbalanced d p)) bx -> open_unbalanced d p bx) ->
    forall fuel b nm r, made b ->
    match pos_loop rec f fuel b nm r with PFOk b' => made b' | PFErr (NoPos h (Unbalanced d p)) bx => open_unbalanced d p bx | _ => True end.
  Proof.
    intros Hok Her. induction fuel as [|fuel IH]; intros b nm r Hb; [exact I|]. cbn [PosModel.pos_loop]. destruct (Z.eqb_spec (ch (rest r)) eof) as [_|Hc]; [exact Hb|].
    pose proof (step_raw is_letter is_udigit to_upper ord b nm r) as W. destruct (p_step is_letter is_udigit to_upper ord b nm r) as [[[[b' nm'] i] s]|s m|w|] eqn:E; try exact I.
    - pose proof (made_step _ _ _ _ _ _ _ Hb Hc E) as Hb'. destruct i as [name|]; [|apply IH; exact Hb'].
      destruct (rec b' (resolve f name) nm') as [b2|er bz| |] eqn:Er; try exact I; [apply IH; eapply Hok; eassumption|]. destruct er as [|h [d p| |]]; try exact I. eapply Her; eassumption.
    - destruct w as [d p| |]; try exact I. destruct W as (-> & -> & dt & pay & nt & Hn). eapply unb; eassumption.
  Qed.
  Lemma file_unbalanced depth : forall b f nm, made b -> match pos_file depth b f nm with PFOk b' => made b' | PFErr (NoPos h (Unbalanced d p)) bx => open_unbalanced d p bx | _ => True end.
  Proof.
    induction depth as [|dp IH]; intros b f nm Hb; [exact I|]. cbn [PosModel.pos_file]. destruct (fs f) as [bytes|]; [|exact I]. apply loop_unbalanced; [| |exact Hb].
    - intros b0 g nm0 b' H0 E. specialize (IH b0 g nm0 H0). rewrite E in IH. exact IH.
    - intros b0 g nm0 h d p bx H0 E. specialize (IH b0 g nm0 H0). rewrite E in IH. exact IH.
  Qed.
End U.
