(** * PosProofs2: what the parser with positions reads: positions are true, it looks at one character ahead, and it passes
    a newline only at the end of a round. *)
From Verif Require Import Base Utf8 Dec PriceModel BookModel AccumModel LoaderModel LoaderSpec LoaderProofs5 PosModel PosSpec PosProofs.
From Coq Require Import ZifyBool ZifyNat Zify.
Ltac Zify.zify_post_hook ::= idtac.

(** ** Positions *)
(** line and column of the character after [d] *)
Definition tstep (p : Z * Z) (c : Z) : Z * Z := if c =? 10 then (fst p + 1, 1) else (fst p, snd p + 1).
Definition tpos (d : runes) : Z * Z := fold_left tstep d (1, 1).
Definition inv (d : runes) (r : rdr) : Prop :=
  if ch (rest r) =? eol then row r = fst (tpos d) + 1 /\ col r = 0 else row r = fst (tpos d) /\ col r = snd (tpos d).
Lemma tpos_snoc d c : tpos (d ++ [c]) = tstep (tpos d) c.
Proof. unfold tpos. rewrite fold_left_app. reflexivity. Qed.
Lemma inv_new l : inv [] (new_reader l).
Proof. unfold inv. rewrite rest_new_reader. unfold new_reader, rnext. cbn [rest tl row col]. destruct (ch l =? eol); cbn; auto. Qed.
Lemma inv_rnext d r c l : inv d r -> rest r = c :: l -> inv (d ++ [c]) (rnext r).
Proof.
  intros H E. unfold inv in *. rewrite rest_rnext, tpos_snoc, E. unfold rnext. rewrite E. cbn [next tl ch] in *. rewrite E in H. cbn [ch] in H. unfold tstep, eol in *.
  destruct (Z.eqb_spec c 10) as [->|N]; destruct H as [-> ->]; destruct (ch l =? 10); cbn [row col fst snd]; split; try reflexivity; try lia.
Qed.
Definition says (m : emsg) (d : runes) (c : Z) : Prop :=
  match m with
  | MExpected want got => got = c /\ got <> want
  | MAliasEq got => got = c /\ got <> 61
  | MDigits mn mx k => exists d0 ds, d = d0 ++ ds /\ length ds = k /\ Forall (fun c => 48 <= c <= 57) ds /\ ~ 48 <= c <= 57 /\ ((k < mn)%nat \/ (mx < k)%nat)
  | MAliasEmpty | MCommand => True
  end.
Definition tr {A} (p : parser A) : Prop :=
  forall d r, inv d r -> match p r with
    | POk (_, s) => exists e, rest r = e ++ rest s /\ inv (d ++ e) s
    | PStop s m => exists e, rest r = e ++ rest s /\ inv (d ++ e) s /\ says m (d ++ e) (ch (rest s))
    | _ => True
    end.
Ltac stay := exists []; cbn [app]; rewrite ?app_nil_r; split; [reflexivity | first [assumption | split; [assumption | solve [exact I | auto]]]].
Lemma tr_ret {A} (a : A) : tr (ret a). Proof. intros d r H. stay. Qed.
Lemma tr_peek : tr peek. Proof. intros d r H. stay. Qed.
Lemma tr_bind {A B} (p : parser A) (f : A -> parser B) : tr p -> (forall a, tr (f a)) -> tr (bind p f).
Proof.
  intros Hp Hf d r H. unfold bind. specialize (Hp d r H). destruct (p r) as [[a s]| | |]; try exact Hp. destruct Hp as (e & E & Hi).
  specialize (Hf a (d ++ e) s Hi). destruct (f a s) as [[b t]|t m| |]; try exact I.
  - destruct Hf as (e' & E' & Hi'). exists (e ++ e'). rewrite <- app_assoc, <- E'. rewrite <- app_assoc in Hi'. auto.
  - destruct Hf as (e' & E' & Hi' & Hm). exists (e ++ e'). rewrite <- app_assoc, <- E'. rewrite <- app_assoc in Hi', Hm. auto.
Qed.
Lemma tr_accept e : e <> 0 -> tr (accept e).
Proof.
  intros N d r H. unfold accept. destruct (Z.eqb_spec (ch (rest r)) e) as [E|_].
  - destruct (rest r) as [|c l] eqn:El; [cbn in E; congruence|]. exists [c]. rewrite rest_rnext, El. split; [reflexivity|]. eapply inv_rnext; eassumption.
  - stay.
Qed.
Lemma tr_span f : tr (spanp f).
Proof.
  intros d [l rw cl] H. unfold spanp. cbn [rest row col]. revert d rw cl H. induction l as [|c l IH]; intros d rw cl H; cbn [span_loop]; [stay|].
  destruct (f c); [|stay]. pose proof (inv_rnext d _ c l H eq_refl) as Hn. set (n := rnext _) in *.
  assert (En : mkR l (row n) (col n) = n). { pose proof (rest_rnext (mkR (c :: l) rw cl)) as E. fold n in E. destruct n. cbn in *. rewrite E. reflexivity. }
  rewrite <- En in Hn. specialize (IH _ _ _ Hn). destruct (span_loop f l (row n) (col n)) as [a s]. destruct IH as (e & E & Hi). exists (c :: e). cbn [rest app] in *. rewrite <- E. split; [reflexivity|]. rewrite <- app_assoc in Hi. exact Hi.
Qed.
Lemma tr_digits : tr p_digits.
Proof.
  intros d [l rw cl] H. unfold p_digits. cbn [rest row col]. revert d rw cl H. generalize false 0 1. induction l as [|c l IH]; intros dc nu mg d rw cl H; cbn [amtp_loop]; [stay|].
  pose proof (inv_rnext d _ c l H eq_refl) as Hn. set (n := rnext _) in *.
  assert (En : mkR l (row n) (col n) = n). { pose proof (rest_rnext (mkR (c :: l) rw cl)) as E. fold n in E. destruct n. cbn in *. rewrite E. reflexivity. }
  rewrite <- En in Hn.
  assert (K : forall dc nu mg, let '(x, y, s) := amtp_loop dc nu mg l (row n) (col n) in exists e, c :: l = e ++ rest s /\ inv (d ++ e) s).
  { intros dc' nu' mg'. specialize (IH dc' nu' mg' _ _ _ Hn). destruct (amtp_loop dc' nu' mg' l (row n) (col n)) as [[x y] s]. destruct IH as (e & E & Hi). exists (c :: e). cbn [rest app] in *. rewrite <- E. split; [reflexivity|]. rewrite <- app_assoc in Hi. exact Hi. }
  destruct (digit c). { specialize (K dc (wrap64 (wrap64 (nu * 10) + (c - 48))) (if dc then wrap64 (mg * 10) else mg)). destruct (amtp_loop _ _ _ _ _ _) as [[x y] s]. exact K. }
  destruct (negb dc && (c =? 46)). { specialize (K true nu mg). destruct (amtp_loop _ _ _ _ _ _) as [[x y] s]. exact K. }
  destruct (c =? 44). { specialize (K dc nu mg). destruct (amtp_loop _ _ _ _ _ _) as [[x y] s]. exact K. }
  stay.
Qed.
Lemma tr_panic {A} w (o : outcome A) : tr (panic_of w o).
Proof. intros d r H. unfold panic_of. destruct o; try exact I. stay. Qed.
Lemma tr_expect {A} e (M : Z -> emsg) (k : parser A) : e <> 0 -> (forall d c, c <> e -> says (M c) d c) -> tr k ->
  tr (let! c := peek in let! ok := accept e in if negb ok then stop (M c) else k).
Proof.
  intros Ne HM Hk d r H. unfold bind at 1, peek. pose proof (tr_accept e Ne d r H) as Ha. unfold bind, accept in *. destruct (Z.eqb_spec (ch (rest r)) e) as [E|N]; cbn [negb].
  - destruct Ha as (x & Ex & Hx). specialize (Hk _ _ Hx). destruct (k (rnext r)) as [[b t]|t m| |]; try exact I.
    + destruct Hk as (e' & E' & Hi'). exists (x ++ e'). rewrite <- app_assoc, <- E'. rewrite <- app_assoc in Hi'. auto.
    + destruct Hk as (e' & E' & Hi' & Hm). exists (x ++ e'). rewrite <- app_assoc, <- E'. rewrite <- app_assoc in Hi', Hm. auto.
  - unfold stop. exists []. rewrite app_nil_r. repeat split; auto.
Qed.
Lemma tr_consume e : e <> 0 -> tr (p_consume e).
Proof.
  intros Ne d r H. pose proof (tr_expect e (MExpected e) (ret tt) Ne) as T. specialize (T (fun _ c N => conj eq_refl N) (tr_ret tt) d r H).
  unfold p_consume. unfold bind, peek, accept in *. destruct (ch (rest r) =? e); exact T.
Qed.
Lemma tr_number mn mx : tr (p_number mn mx).
Proof.
  intros d r H. pose proof (tr_span digit d r H) as T. pose proof (er_span digit r) as S. unfold p_number, bind. destruct (spanp digit r) as [[ds s]| | |]; try discriminate S. injection S as S.
  pose proof (span_eq digit (rest r)) as E1. pose proof (span_all digit (rest r)) as E2. pose proof (span_stop digit (rest r) eq_refl) as E3. rewrite S in E1, E2, E3. cbn [fst snd] in *.
  destruct T as (e & E & Hi). assert (e = ds) by (rewrite E in E1; apply app_inv_tail in E1; exact E1). subst e.
  destruct (Nat.ltb (length ds) mn || Nat.ltb mx (length ds)) eqn:El.
  - unfold stop. exists ds. repeat split; try assumption. exists d, ds. repeat split.
    + eapply Forall_impl; [|exact E2]. cbn. unfold digit, between. intros c. lia.
    + revert E3. unfold digit, between. lia.
    + lia.
  - exists ds. auto.
Qed.
Ltac tr_go db := repeat match goal with
  | |- tr (if _ then _ else _) => match goal with |- tr (if ?b then _ else _) => destruct b end
  | |- tr (match ?x with _ => _ end) => destruct x
  | |- tr (let x := _ in _) => cbv zeta
  | |- tr (ret _) => apply tr_ret
  | |- tr (panic_of _ _) => apply tr_panic
  | |- tr (accept _) => apply tr_accept; discriminate
  | |- tr (p_consume _) => apply tr_consume; discriminate
  | |- tr (p_number _ _) => apply tr_number
  | |- tr (spanp _) => apply tr_span
  | |- tr p_digits => apply tr_digits
  | |- tr peek => apply tr_peek
  | |- tr (stop MCommand) => intros ? ? ?; exists []; rewrite app_nil_r; repeat split; auto; fail
  | |- tr (stop MAliasEmpty) => intros ? ? ?; exists []; rewrite app_nil_r; repeat split; auto; fail
  | |- tr (bind peek (fun c => bind (accept ?e) (fun ok => if negb ok then stop (@?M c) else ?k))) => apply (tr_expect e M k); [discriminate|intros ? ? ?; repeat split; auto; fail|]
  | |- tr (bind _ _) => apply tr_bind; [|intros ?]
  | |- tr _ => solve [auto 1 with tr]
  end.
Ltac tr_it x := unfold x; tr_go tt.
Lemma tr_ws : tr p_ws. Proof. tr_it p_ws. Qed.
#[export] Hint Resolve tr_ws : tr.
Lemma tr_date : tr p_date. Proof. tr_it p_date. Qed.
Lemma tr_time : tr p_time. Proof. tr_it p_time. Qed.
Lemma tr_quoted : tr p_quoted. Proof. tr_it p_quoted. Qed.
#[export] Hint Resolve tr_date tr_time tr_quoted : tr.
Lemma tr_amt : tr p_amt. Proof. tr_it p_amt. Qed.
Lemma tr_payee : tr p_payee. Proof. tr_it p_payee. Qed.
Lemma tr_to_eol : tr p_to_eol. Proof. tr_it p_to_eol. Qed.
#[export] Hint Resolve tr_amt tr_payee tr_to_eol : tr.
Lemma tr_note : tr p_note. Proof. tr_it p_note. Qed.
#[export] Hint Resolve tr_note : tr.
Lemma tr_transaction : tr p_transaction. Proof. tr_it p_transaction. Qed.
Lemma tr_account : tr p_account. Proof. tr_it p_account. Qed.
Lemma tr_ccy : tr p_ccy. Proof. tr_it p_ccy. Qed.
#[export] Hint Resolve tr_transaction tr_account tr_ccy : tr.
Lemma tr_ccy_amt : tr p_ccy_amt. Proof. tr_it p_ccy_amt. Qed.
#[export] Hint Resolve tr_ccy_amt : tr.
Lemma tr_price b : tr (p_price b). Proof. tr_it p_price. Qed.
#[export] Hint Resolve tr_price : tr.
Lemma tr_posting ord nm b : tr (p_posting ord nm b). Proof. tr_it p_posting. Qed.
Lemma tr_identifier a b c : tr (p_identifier a b c). Proof. tr_it p_identifier. Qed.
#[export] Hint Resolve tr_posting tr_identifier : tr.
Lemma tr_command i u t b nm : tr (p_command i u t b nm). Proof. tr_it p_command. Qed.
#[export] Hint Resolve tr_command : tr.
Lemma tr_round i u t o b nm : tr (p_round i u t o b nm). Proof. tr_it p_round. Qed.
#[export] Hint Resolve tr_round : tr.
Lemma tr_step i u t o b nm : tr (p_step i u t o b nm).
Proof. unfold p_step. apply tr_bind; [apply tr_round|]. intros [x e]. destruct e; [|apply tr_ret]. apply tr_bind; [apply tr_accept; discriminate|intros; apply tr_ret]. Qed.

(** ** One character ahead *)
Definition loc {A} (p : parser A) : Prop :=
  (forall r, match p r with POk (_, s) | PStop s _ => exists e, rest r = e ++ rest s | _ => True end) /\
  forall c v v' u rw cl, match p (mkR (u ++ c :: v) rw cl) with
    | POk (a, s) => (exists u', rest s = u' ++ c :: v /\ p (mkR (u ++ c :: v') rw cl) = POk (a, mkR (u' ++ c :: v') (row s) (col s))) \/ (length (rest s) <= length v)%nat
    | PStop s m => (exists u', rest s = u' ++ c :: v /\ p (mkR (u ++ c :: v') rw cl) = PStop (mkR (u' ++ c :: v') (row s) (col s)) m) \/ (length (rest s) <= length v)%nat
    | _ => True
    end.
Lemma loc_ret {A} (a : A) : loc (ret a).
Proof. split; [intros r; exists []; reflexivity|]. intros. left. exists u. auto. Qed.
Lemma loc_stop {A} m : loc (@stop A m).
Proof. split; [intros r; exists []; reflexivity|]. intros. left. exists u. auto. Qed.
Lemma loc_peek : loc peek.
Proof. split; [intros r; exists []; reflexivity|]. intros. left. exists u. split; [reflexivity|]. unfold peek. cbn [rest row col]. destruct u; reflexivity. Qed.
Lemma loc_bind {A B} (p : parser A) (f : A -> parser B) : loc p -> (forall a, loc (f a)) -> loc (bind p f).
Proof.
  intros [Sp Lp] Hf. split.
  - intros r. unfold bind. specialize (Sp r). destruct (p r) as [[a s]| | |]; try exact Sp. destruct Sp as (e & E). destruct (Hf a) as [Sf _]. specialize (Sf s).
    destruct (f a s) as [[b t]|t m| |]; try exact I; destruct Sf as (e' & E'); exists (e ++ e'); rewrite <- app_assoc, <- E'; exact E.
  - intros. unfold bind. specialize (Lp c v v' u rw cl). destruct (p (mkR (u ++ c :: v) rw cl)) as [[a s]|s m| |]; try exact I.
    + destruct (Hf a) as [Sf Lf]. destruct Lp as [(u' & E & E')|G].
      * rewrite E'. specialize (Lf c v v' u' (row s) (col s)). rewrite <- E in Lf. destruct s as [ls rs cs]. cbn [rest row col] in *. exact Lf.
      * specialize (Sf s). destruct (f a s) as [[b t]|t m| |]; try exact I; destruct Sf as (e' & E'); right; rewrite E' in G; rewrite app_length in G; lia.
    + destruct Lp as [(u' & E & E')|G]; [left; exists u'; rewrite E'; auto|right; exact G].
Qed.
Lemma rnext_same c v v' x u rw cl : rest (rnext (mkR (x :: u ++ c :: v) rw cl)) = u ++ c :: v /\
  rnext (mkR (x :: u ++ c :: v') rw cl) = mkR (u ++ c :: v') (row (rnext (mkR (x :: u ++ c :: v) rw cl))) (col (rnext (mkR (x :: u ++ c :: v) rw cl))).
Proof.
  unfold rnext. cbn [rest tl row col]. assert (E : ch (u ++ c :: v) = ch (u ++ c :: v')) by (destruct u; reflexivity). rewrite E.
  destruct (ch (u ++ c :: v') =? eol); cbn [rest row col]; auto.
Qed.
Lemma loc_accept e : loc (accept e).
Proof.
  split.
  - intros r. unfold accept. destruct (_ =? _); [|exists []; reflexivity]. rewrite rest_rnext. destruct (rest r) as [|c l]; [exists []; reflexivity|exists [c]; reflexivity].
  - intros. unfold accept. cbn [rest]. destruct u as [|x u]; cbn [app ch].
    + destruct (c =? e) eqn:E; [right; rewrite rest_rnext; cbn; lia|]. left. exists []. auto.
    + destruct (x =? e) eqn:E.
      * left. exists u. pose proof (rnext_same c v v' x u rw cl) as [H1 H2]. split; [exact H1|]. rewrite H2. reflexivity.
      * left. exists (x :: u). auto.
Qed.
Lemma loc_span f : loc (spanp f).
Proof.
  split.
  - intros r. pose proof (er_span f r) as S. destruct (spanp f r) as [[a s]| | |]; try exact I; try discriminate S. injection S as S. exists a. pose proof (span_eq f (rest r)) as E. rewrite S in E. exact E.
  - intros c v v' u. unfold spanp. cbn [rest row col].
    assert (L : forall l rw cl, (length (rest (snd (span_loop f l rw cl))) <= length l)%nat).
    { intros l rw cl. pose proof (span_loop_span f l rw cl) as E. pose proof (span_eq f l) as E2. rewrite <- E in E2. cbn [fst snd] in E2. rewrite E2 at 2. rewrite app_length. lia. }
    induction u as [|x u IH]; intros rw cl; cbn [app span_loop].
    + destruct (f c).
      * set (n := rnext _). specialize (L v (row n) (col n)). destruct (span_loop f v (row n) (col n)) as [a s]. right. exact L.
      * left. exists []. auto.
    + destruct (f x); [|left; exists (x :: u); auto].
      pose proof (rnext_same c v v' x u rw cl) as [H1 H2]. set (n := rnext (mkR (x :: u ++ c :: v) rw cl)) in *. rewrite H2. cbn [row col].
      specialize (IH (row n) (col n)). destruct (span_loop f (u ++ c :: v) (row n) (col n)) as [a s]. destruct IH as [(u' & E & E')|G]; [|right; exact G].
      left. exists u'. split; [exact E|]. destruct (span_loop f (u ++ c :: v') (row n) (col n)) as [a' s']. injection E' as -> ->. reflexivity.
Qed.
Lemma loc_digits : loc p_digits.
Proof.
  assert (L : forall l d n m rw cl, let '(_, _, s) := amtp_loop d n m l rw cl in exists e, l = e ++ rest s).
  { induction l as [|c l IH]; intros d n m rw cl; cbn [amtp_loop]; [exists []; reflexivity|]. set (k := rnext _).
    assert (K : forall d n m, let '(_, _, s) := amtp_loop d n m l (row k) (col k) in exists e, c :: l = e ++ rest s).
    { intros d' n' m'. specialize (IH d' n' m' (row k) (col k)). destruct (amtp_loop d' n' m' l (row k) (col k)) as [[x y] s]. destruct IH as (e & E). exists (c :: e). cbn [app]. rewrite <- E. reflexivity. }
    destruct (digit c); [apply K|]. destruct (negb d && (c =? 46)); [apply K|]. destruct (c =? 44); [apply K|]. exists []. reflexivity. }
  split.
  - intros r. unfold p_digits. specialize (L (rest r) false 0 1 (row r) (col r)). destruct (amtp_loop _ _ _ _ _ _) as [[x y] s]. exact L.
  - intros c v v' u. unfold p_digits. cbn [rest row col]. generalize false 0 1. induction u as [|x u IH]; intros d n m rw cl; cbn [app amtp_loop].
    + set (k := rnext _).
      destruct (digit c). { specialize (L v d (wrap64 (wrap64 (n * 10) + (c - 48))) (if d then wrap64 (m * 10) else m) (row k) (col k)). destruct (amtp_loop _ _ _ v _ _) as [[a b] s]. destruct L as (e & E). right. rewrite E. rewrite app_length. lia. }
      destruct (negb d && (c =? 46)). { specialize (L v true n m (row k) (col k)). destruct (amtp_loop _ _ _ v _ _) as [[a b] s]. destruct L as (e & E). right. rewrite E. rewrite app_length. lia. }
      destruct (c =? 44). { specialize (L v d n m (row k) (col k)). destruct (amtp_loop _ _ _ v _ _) as [[a b] s]. destruct L as (e & E). right. rewrite E. rewrite app_length. lia. }
      left. exists []. auto.
    + pose proof (rnext_same c v v' x u rw cl) as [H1 H2]. set (k := rnext (mkR (x :: u ++ c :: v) rw cl)) in *. rewrite H2. cbn [row col].
      destruct (digit x); [apply IH|]. destruct (negb d && (x =? 46)); [apply IH|]. destruct (x =? 44); [apply IH|]. left. exists (x :: u). auto.
Qed.
Lemma loc_panic {A} w (o : outcome A) : loc (panic_of w o).
Proof. unfold panic_of. split; [intros r; destruct o; try exact I; exists []; reflexivity|]. intros. destruct o; try exact I. left. exists u. auto. Qed.
Ltac loc_go := repeat match goal with
  | |- loc (if ?b then _ else _) => destruct b
  | |- loc (match ?x with _ => _ end) => destruct x
  | |- loc (let x := _ in _) => cbv zeta
  | |- loc (ret _) => apply loc_ret
  | |- loc (stop _) => apply loc_stop
  | |- loc (panic_of _ _) => apply loc_panic
  | |- loc (accept _) => apply loc_accept
  | |- loc (spanp _) => apply loc_span
  | |- loc p_digits => apply loc_digits
  | |- loc peek => apply loc_peek
  | |- loc (bind _ _) => apply loc_bind; [|intros ?]
  | |- loc _ => solve [auto 1 with loc]
  end.
Ltac loc_it x := unfold x; loc_go.
Lemma loc_ws : loc p_ws. Proof. loc_it p_ws. Qed.
Lemma loc_consume e : loc (p_consume e). Proof. loc_it p_consume. Qed.
Lemma loc_number a b : loc (p_number a b). Proof. loc_it p_number. Qed.
#[export] Hint Resolve loc_ws loc_consume loc_number : loc.
Lemma loc_date : loc p_date. Proof. loc_it p_date. Qed.
Lemma loc_time : loc p_time. Proof. loc_it p_time. Qed.
Lemma loc_quoted : loc p_quoted. Proof. loc_it p_quoted. Qed.
#[export] Hint Resolve loc_date loc_time loc_quoted : loc.
Lemma loc_amt : loc p_amt. Proof. loc_it p_amt. Qed.
Lemma loc_payee : loc p_payee. Proof. loc_it p_payee. Qed.
Lemma loc_to_eol : loc p_to_eol. Proof. loc_it p_to_eol. Qed.
#[export] Hint Resolve loc_amt loc_payee loc_to_eol : loc.
Lemma loc_note : loc p_note. Proof. loc_it p_note. Qed.
#[export] Hint Resolve loc_note : loc.
Lemma loc_transaction : loc p_transaction. Proof. loc_it p_transaction. Qed.
Lemma loc_account : loc p_account. Proof. loc_it p_account. Qed.
Lemma loc_ccy : loc p_ccy. Proof. loc_it p_ccy. Qed.
#[export] Hint Resolve loc_transaction loc_account loc_ccy : loc.
Lemma loc_ccy_amt : loc p_ccy_amt. Proof. loc_it p_ccy_amt. Qed.
#[export] Hint Resolve loc_ccy_amt : loc.
Lemma loc_price b : loc (p_price b). Proof. loc_it p_price. Qed.
Lemma loc_posting ord nm b : loc (p_posting ord nm b). Proof. loc_it p_posting. Qed.
Lemma loc_identifier a b c : loc (p_identifier a b c). Proof. loc_it p_identifier. Qed.
#[export] Hint Resolve loc_price loc_posting loc_identifier : loc.
Lemma loc_command i u t b nm : loc (p_command i u t b nm). Proof. loc_it p_command. Qed.
#[export] Hint Resolve loc_command : loc.
Lemma loc_round i u t o b nm : loc (p_round i u t o b nm). Proof. loc_it p_round. Qed.
#[export] Hint Resolve loc_round : loc.
Lemma loc_step i u t o b nm : loc (p_step i u t o b nm). Proof. loc_it p_step. Qed.

(** ** Within a line *)
Definition lin {A} (p : parser A) : Prop :=
  forall u v rw cl, match p (mkR (u ++ 10 :: v) rw cl) with
    | POk (a, s) => exists u', rest s = u' ++ 10 :: v /\ forall v', p (mkR (u ++ 10 :: v') rw cl) = POk (a, mkR (u' ++ 10 :: v') (row s) (col s))
    | PStop s m => exists u', rest s = u' ++ 10 :: v
    | _ => True
    end.
Lemma lin_ret {A} (a : A) : lin (ret a). Proof. intros u v rw cl. exists u. auto. Qed.
Lemma lin_stop {A} m : lin (@stop A m). Proof. intros u v rw cl. exists u. auto. Qed.
Lemma lin_peek : lin peek. Proof. intros u v rw cl. exists u. split; [reflexivity|]. intros v'. unfold peek. cbn [rest row col]. destruct u; reflexivity. Qed.
Lemma lin_bind {A B} (p : parser A) (f : A -> parser B) : lin p -> (forall a, lin (f a)) -> lin (bind p f).
Proof.
  intros Lp Hf u v rw cl. unfold bind. specialize (Lp u v rw cl). destruct (p (mkR (u ++ 10 :: v) rw cl)) as [[a s]|s m| |]; try exact I; [|exact Lp].
  destruct Lp as (u' & E & E'). specialize (Hf a u' v (row s) (col s)). rewrite <- E in Hf. destruct s as [ls rs cs]. cbn [rest row col] in *.
  destruct (f a (mkR ls rs cs)) as [[b t]|t m| |]; try exact I; [|exact Hf].
  destruct Hf as (u2 & E2 & E2'). exists u2. split; [exact E2|]. intros v'. rewrite (E' v'). apply E2'.
Qed.
Lemma lin_accept e : e <> 10 -> lin (accept e).
Proof.
  intros N u v rw cl. unfold accept. cbn [rest]. destruct u as [|x u]; cbn [app ch].
  - assert (E : (10 =? e) = false) by lia. rewrite E. exists []. auto.
  - destruct (x =? e); [|exists (x :: u); auto]. exists u. split; [apply (rnext_same 10 v v)|]. intros v'. pose proof (rnext_same 10 v v' x u rw cl) as [H1 H2]. rewrite H2. reflexivity.
Qed.
Lemma lin_span f : f 10 = false -> lin (spanp f).
Proof.
  intros F u v. unfold spanp. cbn [rest row col]. induction u as [|x u IH]; intros rw cl; cbn [app span_loop].
  - rewrite F. exists []. auto.
  - destruct (f x); [|exists (x :: u); auto]. specialize (IH (row (rnext (mkR (x :: u ++ 10 :: v) rw cl))) (col (rnext (mkR (x :: u ++ 10 :: v) rw cl)))).
    destruct (span_loop f (u ++ 10 :: v) _ _) as [a s]. destruct IH as (u' & E & E'). exists u'. split; [exact E|].
    intros v'. pose proof (rnext_same 10 v v' x u rw cl) as [H1 H2]. rewrite H2. cbn [row col]. specialize (E' v'). destruct (span_loop f (u ++ 10 :: v') _ _) as [a' s']. injection E' as -> ->. reflexivity.
Qed.
Lemma lin_digits : lin p_digits.
Proof.
  intros u v. unfold p_digits. cbn [rest row col]. generalize false 0 1. induction u as [|x u IH]; intros d n m rw cl; cbn [app amtp_loop].
  - change (digit 10) with false. change (10 =? 46) with false. change (10 =? 44) with false. rewrite andb_false_r. cbv iota. exists []. auto.
  - assert (K : forall d n m, match (let '(a, b, r') := amtp_loop d n m (u ++ 10 :: v) (row (rnext (mkR (x :: u ++ 10 :: v) rw cl))) (col (rnext (mkR (x :: u ++ 10 :: v) rw cl))) in POk (a, b, r')) with
      | POk (a, s) => exists u', rest s = u' ++ 10 :: v /\ forall v', (let '(a, b, r') := amtp_loop d n m (u ++ 10 :: v') (row (rnext (mkR (x :: u ++ 10 :: v') rw cl))) (col (rnext (mkR (x :: u ++ 10 :: v') rw cl))) in POk (a, b, r')) = POk (a, mkR (u' ++ 10 :: v') (row s) (col s))
      | PStop s m => exists u', rest s = u' ++ 10 :: v | _ => True end).
    { intros d' n' m'. specialize (IH d' n' m' (row (rnext (mkR (x :: u ++ 10 :: v) rw cl))) (col (rnext (mkR (x :: u ++ 10 :: v) rw cl)))).
      destruct (amtp_loop d' n' m' (u ++ 10 :: v) _ _) as [[a b] s]. destruct IH as (u' & E & E'). exists u'. split; [exact E|].
      intros v'. pose proof (rnext_same 10 v v' x u rw cl) as [H1 H2]. rewrite H2. cbn [row col]. apply E'. }
    destruct (digit x); [apply K|]. destruct (negb d && (x =? 46)); [apply K|]. destruct (x =? 44); [apply K|]. exists (x :: u). auto.
Qed.
Lemma lin_panic {A} w (o : outcome A) : lin (panic_of w o).
Proof. intros u v rw cl. unfold panic_of. destruct o; try exact I. exists u. auto. Qed.
Ltac lin_go := repeat match goal with
  | |- lin (if ?b then _ else _) => destruct b
  | |- lin (match ?x with _ => _ end) => destruct x
  | |- lin (let x := _ in _) => cbv zeta
  | |- lin (ret _) => apply lin_ret
  | |- lin (stop _) => apply lin_stop
  | |- lin (panic_of _ _) => apply lin_panic
  | |- lin (accept _) => apply lin_accept; discriminate
  | |- lin (spanp _) => apply lin_span; reflexivity
  | |- lin p_digits => apply lin_digits
  | |- lin peek => apply lin_peek
  | |- lin (bind _ _) => apply lin_bind; [|intros ?]
  | |- lin _ => solve [auto 1 with lin]
  end.
Ltac lin_it x := unfold x; lin_go.
Lemma lin_ws : lin p_ws. Proof. lin_it p_ws. Qed.
Lemma lin_consume e : e <> 10 -> lin (p_consume e).
Proof. intros N. unfold p_consume. apply lin_bind; [apply lin_peek|intros c]. apply lin_bind; [apply lin_accept; exact N|]. intros []; [apply lin_ret|apply lin_stop]. Qed.
#[export] Hint Extern 1 (lin (p_consume _)) => (apply lin_consume; discriminate) : lin.
Lemma lin_number a b : lin (p_number a b). Proof. lin_it p_number. Qed.
#[export] Hint Resolve lin_ws lin_number : lin.
Lemma lin_date : lin p_date. Proof. lin_it p_date. Qed.
Lemma lin_time : lin p_time. Proof. lin_it p_time. Qed.
Lemma lin_quoted : lin p_quoted. Proof. lin_it p_quoted. Qed.
#[export] Hint Resolve lin_date lin_time lin_quoted : lin.
Lemma lin_amt : lin p_amt. Proof. lin_it p_amt. Qed.
Lemma lin_payee : lin p_payee. Proof. lin_it p_payee. Qed.
Lemma lin_to_eol : lin p_to_eol. Proof. lin_it p_to_eol. Qed.
#[export] Hint Resolve lin_amt lin_payee lin_to_eol : lin.
Lemma lin_note : lin p_note. Proof. lin_it p_note. Qed.
#[export] Hint Resolve lin_note : lin.
Lemma lin_transaction : lin p_transaction. Proof. lin_it p_transaction. Qed.
Lemma lin_account : lin p_account. Proof. lin_it p_account. Qed.
Lemma lin_ccy : lin p_ccy. Proof. lin_it p_ccy. Qed.
#[export] Hint Resolve lin_transaction lin_account lin_ccy : lin.
Lemma lin_ccy_amt : lin p_ccy_amt. Proof. lin_it p_ccy_amt. Qed.
#[export] Hint Resolve lin_ccy_amt : lin.
Lemma lin_price b : lin (p_price b). Proof. lin_it p_price. Qed.
Lemma lin_posting ord nm b : lin (p_posting ord nm b). Proof. lin_it p_posting. Qed.
#[export] Hint Resolve lin_price lin_posting : lin.
Lemma lin_identifier a b c : a 10 = false -> b 10 = false -> lin (p_identifier a b c).
Proof. intros Ha Hb. unfold p_identifier. lin_go. apply lin_span. rewrite Ha, Hb. reflexivity. Qed.
Lemma lin_command i u t b nm : i 10 = false -> u 10 = false -> lin (p_command i u t b nm).
Proof. intros Ha Hb. unfold p_command. apply lin_bind; [apply lin_identifier; assumption|intros c]. lin_go. Qed.
Lemma lin_round i u t o b nm : i 10 = false -> u 10 = false -> lin (p_round i u t o b nm).
Proof. intros Ha Hb. unfold p_round. apply lin_bind; [apply lin_ws|intros ws]. apply lin_bind; [apply lin_peek|intros c]. pose proof (lin_command i u t b nm Ha Hb). lin_go. Qed.
