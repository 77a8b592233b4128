(** * PosProofs: the parser with positions is the parser of LoaderModel. *)
From Verif Require Import Base Utf8 Dec PriceModel BookModel AccumModel LoaderModel PosModel.

(** [p] behaves as [q] does on the runes alone. *)
Definition er {A} (p : parser A) (q : runes -> outcome (A * runes)) : Prop :=
  forall r, match p r with
            | POk (a, s) => q (rest r) = Ok (a, rest s)
            | PStop _ _ | PRaw _ => q (rest r) = Panic
            | PDiv => q (rest r) = Diverge
            end.
Lemma rest_rnext r : rest (rnext r) = next (rest r).
Proof. unfold rnext. destruct (_ =? _); reflexivity. Qed.
Lemma span_loop_span f l : forall rw cl, (fst (span_loop f l rw cl), rest (snd (span_loop f l rw cl))) = span f l.
Proof.
  induction l as [|c l IH]; intros rw cl; [reflexivity|]. cbn [span_loop span]. destruct (f c); [|reflexivity].
  set (n := rnext _). specialize (IH (row n) (col n)). destruct (span_loop f l (row n) (col n)) as [a r]. cbn [fst snd] in *. rewrite <- IH. reflexivity.
Qed.
Lemma er_ret {A} (a : A) : er (ret a) (fun l => Ok (a, l)). Proof. intros r. reflexivity. Qed.
Lemma er_bind {A B} (p : parser A) q (f : A -> parser B) g : er p q -> (forall a, er (f a) (g a)) ->
  er (bind p f) (fun l => do (a, l') <- q l; g a l').
Proof.
  intros Hp Hf r. unfold bind. specialize (Hp r). destruct (p r) as [[a s]| | |]; rewrite Hp; cbn [obind]; try reflexivity. apply Hf.
Qed.
Lemma er_peek : er peek (fun l => Ok (ch l, l)). Proof. intros r. reflexivity. Qed.
Lemma er_stop {A} m : er (@stop A m) (fun _ => Panic). Proof. intros r. reflexivity. Qed.
Lemma er_accept e : er (accept e) (fun l => Ok (ch l =? e, if ch l =? e then next l else l)).
Proof. intros r. unfold accept. destruct (ch (rest r) =? e); [rewrite rest_rnext|]; reflexivity. Qed.
Lemma er_span f : er (spanp f) (fun l => Ok (span f l)).
Proof. intros r. unfold spanp. rewrite <- (span_loop_span f (rest r) (row r) (col r)). destruct (span_loop _ _ _ _). reflexivity. Qed.
Definition not_error {A} (o : outcome A) : Prop := match o with Error => False | _ => True end.
Lemma er_panic {A} w (o : outcome A) : not_error o -> er (panic_of w o) (fun l => do a <- o; Ok (a, l)).
Proof. intros H r. unfold panic_of. destruct o; try reflexivity. destruct H. Qed.
Lemma er_ext {A} (p : parser A) q q' : er p q -> (forall l, q l = q' l) -> er p q'.
Proof. intros H E r. specialize (H r). destruct (p r) as [[]| | |]; rewrite <- E; exact H. Qed.
Lemma er_if {A} (b : bool) (p p' : parser A) q q' : er p q -> er p' q' -> er (if b then p else p') (fun l => if b then q l else q' l).
Proof. destruct b; auto. Qed.
Lemma er_ret' {A} (a : A) : er (fun r => POk (a, r)) (fun l => Ok (a, l)). Proof. intros r. reflexivity. Qed.

Ltac er_go := repeat match goal with
  | |- er (if _ then _ else _) _ => apply er_if
  | |- er (ret _) _ => apply er_ret
  | |- er peek _ => apply er_peek
  | |- er (stop _) _ => apply er_stop
  | |- er (accept _) _ => apply er_accept
  | |- er (spanp _) _ => apply er_span
  | |- er (bind _ _) _ => apply er_bind; [|intros ?]
  | |- er _ _ => solve [eauto 1 with er]
  end.

Lemma er_ws : er p_ws (fun l => Ok (has_ws l, consume_ws l)).
Proof.
  eapply er_ext; [unfold p_ws; er_go|]. intros l. cbn beta. unfold consume_ws, has_ws. destruct l as [|c l]; [reflexivity|]. cbn [span ch]. destruct (ws_rune c); [|reflexivity].
  destruct (span ws_rune l). reflexivity.
Qed.
#[local] Hint Resolve er_ws : er.
Definition unitp {A} (o : outcome A) : outcome (unit * A) := do l <- o; Ok (tt, l).
Lemma er_consume e : er (p_consume e) (fun l => unitp (consume e l)).
Proof. eapply er_ext; [unfold p_consume; er_go|]. intros l. cbn [obind]. unfold consume, unitp. destruct (ch l =? e); reflexivity. Qed.
#[local] Hint Resolve er_consume : er.
Lemma er_number mn mx : er (p_number mn mx) (parse_number mn mx).
Proof. eapply er_ext; [unfold p_number; er_go|]. intros l. cbn [obind]. unfold parse_number. destruct (span digit l) as [ds l']. reflexivity. Qed.
#[local] Hint Resolve er_number : er.
Ltac od := repeat match goal with |- context [obind ?o _] => lazymatch o with Ok _ => cbn [obind] | Panic => cbn [obind] | Error => cbn [obind] | Diverge => cbn [obind] | obind _ _ => fail | _ => destruct o as [[]| | |] eqn:?; cbn [obind] end end.
Lemma unitp_bind {A B} (o : outcome A) (f : unit -> A -> outcome B) : obind (unitp o) (fun '(u, l) => f u l) = obind o (fun l => f tt l).
Proof. destruct o; reflexivity. Qed.
Lemma er_date : er p_date parse_date.
Proof.
  eapply er_ext; [unfold p_date; er_go|]. intros l. cbn beta. unfold parse_date.
  destruct (parse_number 1 4 l) as [[y l1]| | |]; cbn [obind]; try reflexivity. rewrite unitp_bind. destruct (consume 47 l1) as [l2| | |]; cbn [obind]; try reflexivity.
  destruct (parse_number 1 2 l2) as [[m l3]| | |]; cbn [obind]; try reflexivity. rewrite unitp_bind. destruct (consume 47 l3) as [l4| | |]; cbn [obind]; reflexivity.
Qed.
Lemma er_time : er p_time (fun l => unitp (parse_time l)).
Proof.
  eapply er_ext; [unfold p_time; er_go|]. intros l. cbn beta. unfold parse_time, unitp at 3.
  destruct (parse_number 1 2 l) as [[y l1]| | |]; cbn [obind]; try reflexivity. rewrite unitp_bind. destruct (consume 58 l1) as [l2| | |]; cbn [obind]; try reflexivity.
  destruct (parse_number 1 2 l2) as [[m l3]| | |]; cbn [obind]; try reflexivity. rewrite unitp_bind. destruct (consume 58 l3) as [l4| | |]; cbn [obind]; try reflexivity.
  destruct (parse_number 1 2 l4) as [[d l5]| | |]; reflexivity.
Qed.
Lemma er_quoted : er p_quoted parse_quoted.
Proof.
  eapply er_ext; [unfold p_quoted; er_go|]. intros l. cbn beta. unfold parse_quoted. rewrite unitp_bind. destruct (consume 34 l) as [l1| | |]; cbn [obind]; try reflexivity.
  destruct (span _ l1) as [s l2]. cbn [obind]. rewrite unitp_bind. reflexivity.
Qed.
#[local] Hint Resolve er_date er_time er_quoted : er.
Lemma amtp_amt l : forall d n m rw cl, let '(a, b, r) := amtp_loop d n m l rw cl in (a, b, rest r) = amt_loop d n m l.
Proof.
  induction l as [|c l IH]; intros d n m rw cl; [reflexivity|]. cbn [amtp_loop amt_loop].
  destruct (digit c); [apply IH|]. destruct (negb d && (c =? 46)); [apply IH|]. destruct (c =? 44); [apply IH|]. reflexivity.
Qed.
Lemma er_digits : er p_digits (fun l => let '(n, m, l') := amt_loop false 0 1 l in Ok ((n, m), l')).
Proof. intros r. unfold p_digits. pose proof (amtp_amt (rest r) false 0 1 (row r) (col r)) as H. destruct (amtp_loop _ _ _ _ _ _) as [[a b] s]. rewrite <- H. reflexivity. Qed.
Lemma new_rat_ne a b : not_error (new_rat a b). Proof. unfold new_rat. destruct (b =? 0); exact I. Qed.
#[local] Hint Resolve er_digits : er.
#[local] Hint Extern 1 (er (panic_of _ (new_rat _ _)) _) => (apply er_panic, new_rat_ne) : er.
Lemma er_amt : er p_amt parse_amt.
Proof.
  eapply er_ext; [unfold p_amt; er_go|]. intros l. cbn beta. unfold parse_amt. cbn [obind].
  destruct (ch (consume_ws l) =? 45); destruct (amt_loop _ _ _ _) as [[n m] l']; reflexivity.
Qed.
#[local] Hint Resolve er_amt : er.
Lemma er_payee : er p_payee parse_payee.
Proof.
  eapply er_ext; [unfold p_payee; er_go|]. intros l. cbn beta. unfold parse_payee. cbn [obind]. destruct (ch (consume_ws l) =? 34); [reflexivity|]. cbn [obind]. destruct (span _ _). reflexivity.
Qed.
Lemma er_to_eol : er p_to_eol (fun l => Ok (parse_to_eol l)).
Proof. eapply er_ext; [unfold p_to_eol; er_go|]. reflexivity. Qed.
#[local] Hint Resolve er_payee er_to_eol : er.
Lemma er_note : er p_note (fun l => Ok (parse_note l)).
Proof.
  eapply er_ext; [unfold p_note; er_go|]. intros l. cbn beta. unfold parse_note. cbn [obind]. destruct (ch (consume_ws l) =? 59); [|reflexivity]. cbn [negb obind]. destruct (parse_to_eol _). reflexivity.
Qed.
#[local] Hint Resolve er_note : er.
Lemma er_transaction r : match p_transaction r with
  | POk (a, s) => parse_transaction (rest r) = Ok (a, skip_eol (rest s))
  | PStop _ _ | PRaw _ => parse_transaction (rest r) = Panic
  | PDiv => parse_transaction (rest r) = Diverge end.
Proof.
  assert (E : er p_transaction (fun l => do (date, l) <- parse_date l;
    let l := consume_ws l in let l := if ch l =? 42 then consume_ws (next l) else l in
    do (payee, l) <- parse_payee l; let '(note, l) := parse_note l in Ok (date, payee, note, l))).
  { eapply er_ext; [unfold p_transaction; er_go|]. intros l. cbn beta. destruct (parse_date l) as [[d l1]| | |]; cbn [obind]; try reflexivity.
    destruct (ch (consume_ws l1) =? 42); cbn [obind]; destruct (parse_payee _) as [[p l2]| | |]; cbn [obind]; try reflexivity; destruct (parse_note l2); reflexivity. }
  specialize (E r). cbn beta in E. unfold parse_transaction. destruct (parse_date (rest r)) as [[d l1]| | |]; cbn [obind] in *; [|destruct (p_transaction r) as [[]| | |]; try discriminate; reflexivity..].
  cbv zeta in *. destruct (parse_payee _) as [[p l2]| | |]; cbn [obind] in *; [|destruct (p_transaction r) as [[]| | |]; try discriminate; reflexivity..].
  destruct (parse_note l2) as [nt l3]. destruct (p_transaction r) as [[a s]| | |]; try discriminate. injection E as <- <-. reflexivity.
Qed.
Lemma er_account : er p_account (fun l => Ok (parse_account l)).
Proof.
  eapply er_ext; [unfold p_account; er_go|]. intros l. cbn beta. unfold parse_account. cbn [obind].
  destruct (Z.eqb_spec (ch (consume_ws l)) 33) as [->|N]; cbn [orb Z.eqb Pos.eqb obind].
  - destruct (span acct_rune _) as [a1 l1]. cbn [obind]. destruct (span acct_rune2 l1) as [a2 l2]. cbn [obind]. reflexivity.
  - destruct (ch (consume_ws l) =? 91); destruct (span acct_rune _) as [a1 l1]; cbn [obind]; destruct (span acct_rune2 l1) as [a2 l2]; reflexivity.
Qed.
Lemma er_ccy : er p_ccy parse_ccy.
Proof.
  eapply er_ext; [unfold p_ccy; er_go|]. intros l. cbn beta. unfold parse_ccy. cbn [obind]. destruct (ch (consume_ws l) =? 34); [reflexivity|]. cbn [obind]. destruct (span _ _). reflexivity.
Qed.
#[local] Hint Resolve er_account er_ccy : er.
Lemma er_ccy_amt : er p_ccy_amt parse_ccy_amt.
Proof. eapply er_ext; [unfold p_ccy_amt; er_go|]. intros l. cbn beta. unfold parse_ccy_amt. cbn [obind]. destruct (_ || _); reflexivity. Qed.
#[local] Hint Resolve er_ccy_amt : er.
Definition eolp {A} (o : outcome (A * runes)) : outcome (A * runes) := do (a, l) <- o; Ok (a, skip_eol l).
(** as [er], for a parser followed by `if rr.ch == eol { rr.next() }` *)
Definition er_eol {A} (p : parser A) (q : runes -> outcome (A * runes)) : Prop := exists q', er p q' /\ forall l, q l = eolp (q' l).
Lemma er_price b : er_eol (p_price b) (parse_price b).
Proof.
  eexists. split; [unfold p_price; er_go|]. intros l. cbn beta. unfold parse_price, eolp. cbn [obind].
  destruct (Z.eqb_spec (ch l) 80) as [E|N]; cbn [negb obind]; [|reflexivity].
  destruct (parse_date _) as [[d l1]| | |]; cbn [obind]; try reflexivity. rewrite unitp_bind. destruct (parse_time _) as [l2| | |]; cbn [obind]; try reflexivity.
  destruct (parse_ccy l2) as [[u l3]| | |]; cbn [obind]; try reflexivity. destruct (parse_ccy_amt _) as [[ca l4]| | |]; reflexivity.
Qed.
Section S.
  Variables (is_letter is_udigit : Z -> bool) (to_upper : Z -> Z).
  Variable ord : list (str * Qc) -> list str.
  Variable fs : str -> option str.
  Variable resolve : str -> str -> str.
  Notation step := (step is_letter is_udigit to_upper ord).
  Notation p_step := (p_step is_letter is_udigit to_upper ord).
  Notation p_round := (p_round is_letter is_udigit to_upper ord).
  Lemma er_posting nm b : er_eol (p_posting ord nm b) (parse_posting ord nm b).
  Proof.
    eexists. split; [unfold p_posting; er_go|]. intros l. cbn beta. unfold parse_posting, eolp. cbn [obind].
    destruct (parse_account _) as [a l1]. cbn [obind]. destruct (ch (consume_ws l1) =? 45); cbn [obind];
      (destruct (parse_ccy_amt _) as [[[c v] l2]| | |]; cbn [obind fst snd]; try reflexivity);
      (destruct (ch (consume_ws l2) =? 64); cbn [obind]; [destruct (parse_ccy_amt _) as [[ca l3]| | |]; cbn [obind]; try reflexivity|]);
      destruct (parse_note _) as [nt l4]; destruct c; reflexivity.
  Qed.
  Lemma er_identifier : er (p_identifier is_letter is_udigit to_upper) (fun l => Ok (parse_identifier is_letter is_udigit to_upper l)).
  Proof. eapply er_ext; [unfold p_identifier; er_go|]. intros l. cbn beta. unfold parse_identifier. cbn [obind]. destruct (span _ _). reflexivity. Qed.
  #[local] Hint Resolve er_identifier : er.
  Definition of_todo (t : todo) : builder * alias * option str * runes :=
    match t with Go b nm l => (b, nm, None, l) | Include n b nm l => (b, nm, Some n, l) end.
  (** One round of the loop: the same todo, or a panic in both. *)
  Lemma er_step b nm r : match p_step b nm r with
    | POk (x, s) => exists t, step b nm (rest r) = Ok t /\ of_todo t = (x, rest s)
    | PStop _ _ | PRaw _ => step b nm (rest r) = Panic
    | PDiv => step b nm (rest r) = Diverge
    end.
  Proof.
    unfold PosModel.p_step, PosModel.p_round, LoaderModel.step.
    assert (Hsk : forall b nm, er (let! _ := spanp line_rune in ret (b, nm, None, true)) (fun l => Ok ((b, nm, None, true) : builder * alias * option str * bool, snd (span line_rune l)))).
    { intros b0 nm0. eapply er_ext; [er_go|]. intros l. cbn [obind]. destruct (span _ _). reflexivity. }
    unfold bind at 1 2. pose proof (er_ws r) as W. destruct (p_ws r) as [[ws r1]| | |]; try discriminate W. injection W as Ew El. unfold bind at 1. cbn [peek]. unfold peek.
    rewrite <- Ew, El. clear Ew El.
    destruct ((ch (rest r1) =? 59) || (ch (rest r1) =? eol) || (ch (rest r1) =? eof)).
    { pose proof (Hsk b nm r1) as H. destruct (bind _ _ r1) as [[[x e] s]| | |]; try discriminate H. injection H as <- <- H. unfold bind. pose proof (er_accept eol s) as A. destruct (accept eol s) as [[ok s']| | |]; try discriminate A. injection A as _ A.
      cbn [ret]. unfold ret. eexists. split; [reflexivity|]. cbn [of_todo]. unfold skip_line, skip_eol, next in *. rewrite H, A. reflexivity. }
    destruct (has_ws (rest r)) eqn:Eh; cbn [negb].
    { destruct (er_posting nm b) as (q & Hq & Eq). specialize (Hq r1). specialize (Eq (rest r1)). unfold bind at 1. destruct (p_posting ord nm b r1) as [[b' s]| | |]; rewrite Eq, Hq; cbn [eolp obind]; try reflexivity.
      unfold ret, bind. pose proof (er_accept eol s) as A. destruct (accept eol s) as [[ok s']| | |]; try discriminate A. injection A as _ A.
      eexists. split; [reflexivity|]. cbn [of_todo]. unfold skip_eol, next in *. rewrite A. reflexivity. }
    destruct ((ch (rest r1) =? 61) || (ch (rest r1) =? 68)).
    { pose proof (Hsk b nm r1) as H. destruct (bind _ _ r1) as [[[x e] s]| | |]; try discriminate H. injection H as <- <- H. unfold bind. pose proof (er_accept eol s) as A. destruct (accept eol s) as [[ok s']| | |]; try discriminate A. injection A as _ A.
      cbn [ret]. unfold ret. eexists. split; [reflexivity|]. cbn [of_todo]. unfold skip_line, skip_eol, next in *. rewrite H, A. reflexivity. }
    destruct (ch (rest r1) =? 80).
    { destruct (er_price b) as (q & Hq & Eq). specialize (Hq r1). specialize (Eq (rest r1)). unfold bind at 1. destruct (p_price b r1) as [[b' s]| | |]; rewrite Eq, Hq; cbn [eolp obind]; try reflexivity.
      unfold ret, bind. pose proof (er_accept eol s) as A. destruct (accept eol s) as [[ok s']| | |]; try discriminate A. injection A as _ A.
      eexists. split; [reflexivity|]. cbn [of_todo]. unfold skip_eol, next in *. rewrite A. reflexivity. }
    destruct (digit (ch (rest r1))).
    { pose proof (er_transaction r1) as H. unfold bind at 1. destruct (p_transaction r1) as [[[[d p] n] s]| | |]; rewrite H; cbn [obind]; try reflexivity.
      unfold bind at 1, panic_of. destruct (new_transaction b d p n) as [b'| | |] eqn:En; cbn [obind]; try reflexivity.
      - unfold ret, bind. pose proof (er_accept eol s) as A. destruct (accept eol s) as [[ok s']| | |]; try discriminate A. injection A as _ A.
        eexists. split; [reflexivity|]. cbn [of_todo]. unfold skip_eol, next in *. rewrite A. reflexivity.
      - exfalso. revert En. unfold new_transaction, check_and_clear. destruct (forallb _ _); [|discriminate]. cbn [obind].
        assert (R : forall k pr q x y i, rename_loop k pr q x y i <> Error). { clear. induction k as [|k IH]; intros; cbn [rename_loop]; [discriminate|]. match goal with |- context [if ?b then _ else _] => destruct b end; first [apply IH | discriminate]. }
        destruct (rename_loop _ _ _ _ _ _) eqn:Er; cbn [obind]; try discriminate. apply R in Er. destruct Er. }
    unfold bind at 1. unfold p_command. unfold bind at 1. pose proof (er_identifier r1) as H. destruct (p_identifier _ _ _ r1) as [[cmd r2]| | |]; try discriminate H. injection H as H. rewrite H. clear H.
    destruct (str_eqb cmd (bs "INCLUDE")).
    { unfold bind at 1. pose proof (er_to_eol r2) as H. destruct (p_to_eol r2) as [[s r3]| | |]; try discriminate H. injection H as H. rewrite H.
      unfold bind at 1, panic_of. destruct (include_name s) as [name| | |] eqn:Ei; cbn [obind]; try reflexivity.
      - unfold ret. eexists. split; reflexivity.
      - exfalso. unfold include_name in Ei. destruct s as [|c s']; [discriminate|]. destruct (_ && _); [destruct s'|]; discriminate. }
    destruct (str_eqb cmd (bs "ALIAS")); [|reflexivity].
    unfold bind at 1. pose proof (er_account r2) as H. destruct (p_account r2) as [[short r3]| | |]; try discriminate H. injection H as H. rewrite H. clear H.
    unfold bind at 1. pose proof (er_ws r3) as H. destruct (p_ws r3) as [[w3 r4]| | |]; try discriminate H. injection H as _ H. rewrite H. clear H.
    unfold bind at 1, peek. unfold bind at 1. pose proof (er_accept 61 r4) as A. destruct (accept 61 r4) as [[ok r5]| | |]; try discriminate A. injection A as Ao A. rewrite Ao in A. rewrite Ao.
    destruct ok; cbn [negb]; [|reflexivity].
    unfold bind at 1. pose proof (er_ws r5) as H. destruct (p_ws r5) as [[w5 r6]| | |]; try discriminate H. injection H as _ H. rewrite A, H. clear H A Ao.
    unfold bind at 1. pose proof (er_account r6) as H. destruct (p_account r6) as [[long r7]| | |]; try discriminate H. injection H as H. rewrite H. clear H.
    unfold bind at 1. pose proof (er_ws r7) as H. destruct (p_ws r7) as [[w7 r8]| | |]; try discriminate H. injection H as _ H. rewrite H. clear H.
    destruct long as [|x long]; [reflexivity|]. unfold bind at 1. pose proof (er_to_eol r8) as H. destruct (p_to_eol r8) as [[s r9]| | |]; try discriminate H. injection H as H. rewrite H.
    unfold ret. eexists. split; reflexivity.
  Qed.
  Definition erase (x : pfres) : fres := match x with PFOk b => FOk b | PFErr _ _ => FErr | PFExit => FExit | PFDiverge => FDiverge end.
  Lemma erase_loop rec rec' f : (forall b g nm, erase (rec b g nm) = rec' b g nm) -> forall fuel b nm r,
    erase (pos_loop is_letter is_udigit to_upper ord resolve rec f fuel b nm r) = file_loop is_letter is_udigit to_upper ord resolve rec' f fuel b nm (rest r).
  Proof.
    intros Hr. induction fuel as [|fuel IH]; intros b nm r; [reflexivity|]. cbn [pos_loop file_loop]. destruct (ch (rest r) =? eof); [reflexivity|].
    pose proof (er_step b nm r) as H. destruct (p_step b nm r) as [[[[b' nm'] i] s]| | |]; [|rewrite H; reflexivity..].
    destruct H as (t & -> & Et). destruct t as [b1 nm1 l1|name b1 nm1 l1]; cbn [of_todo] in Et; injection Et as -> -> <- ->; [apply IH|].
    rewrite <- Hr. destruct (rec b' (resolve f name) nm'); cbn [erase]; try reflexivity. apply IH.
  Qed.
  Lemma rest_new_reader l : rest (new_reader l) = l. Proof. unfold new_reader. rewrite rest_rnext. reflexivity. Qed.
  Lemma erase_file depth : forall b f nm, erase (pos_file is_letter is_udigit to_upper ord fs resolve depth b f nm) = parse_file is_letter is_udigit to_upper ord fs resolve depth b f nm.
  Proof.
    induction depth as [|dp IH]; intros b f nm; [reflexivity|]. cbn [pos_file parse_file]. destruct (fs f) as [bytes|]; [|reflexivity].
    rewrite (erase_loop _ (parse_file is_letter is_udigit to_upper ord fs resolve dp) f IH), rest_new_reader. reflexivity.
  Qed.
End S.
