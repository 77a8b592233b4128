(** * CmdProofs: lemmas for the commands (C90, C93). *)
From Verif Require Import Base Regex Dec DateModel DateSpec DateProofs DateProofs2 PriceModel PriceSpec PriceProofs BookModel BookSpec BookProofs BuilderProofs
  OpsModel OpsProofs OpsProofs2 OpsProofs3 BookOpModel BookProps RegisterModel AccumModel CmdModel CmdSpec.

(** ** The operations leave a book in order. *)
Section Ops.
  Variable srt : list posting -> list posting.
  Hypothesis Hsrt : sort_ok is_less srt.
  Variable compile : str -> option regexp.
  Variable parse_float : str -> option Qc.
  Variable today : Z.
  Variable ploop : (pair -> pair) -> pbook -> pbook.
  Lemma fine_ok o b' e : (forall c, o = Ok c -> book_ok c) -> fine o = Ok (b', e) -> book_ok b'.
  Proof. intros H E. unfold fine in E. apply obind_Ok in E as (c & -> & E). injection E as <- _. apply H. reflexivity. Qed.
  Lemma must_ok s f c : (forall re c, f re = Ok c -> book_ok c) -> must_compile compile s f = Ok c -> book_ok c.
  Proof. intros H E. unfold must_compile in E. destruct (compile s); [eapply H; exact E|discriminate]. Qed.
  Lemma plain_op_ok b op b' e : book_ok b -> plain_op srt compile parse_float today ploop b op = Ok (b', e) -> book_ok b'.
  Proof.
    intros Hb. unfold plain_op.
    assert (Hop : forall o c, other_book o = None -> run_op srt o b = Ok c -> book_ok c) by (intros o c Ho E; eapply (run_op_ok srt Hsrt); [exact Hb| |exact E]; rewrite Ho; discriminate).
    assert (Hcc : forall re t c, Ok (regex_ccy ploop re t b) = Ok c -> book_ok c).
    { intros re t c E. injection E as <-. pose proof (map_amount_ok (fun _ x => (1%Qc, new_ccy re t x)) b Hb) as (H1 & H2 & H3 & H4). split; [exact H1|]. split; [exact H2|]. split; [exact H3|exact H4]. }
    repeat match goal with
    | |- context [match ?x with _ => _ end] => lazymatch x with
        | full_match _ _ => destruct x | op_split _ => destruct x as [[? ?]|] | atoi _ => destruct x | parse_float _ => destruct x | find_floor _ _ => destruct x
        | (if _ then _ else _) => fail | str_eqb _ _ => destruct x | _ =? _ => destruct x end
    end; intros E; try (injection E as <- _; exact Hb);
    revert E; apply fine_ok; intros cc; try (apply must_ok; intros re cc'); first [apply Hcc | apply Hop; reflexivity].
  Qed.
  Lemma each_ok one : (forall b op b' e, book_ok b -> one b op = Ok (b', e) -> book_ok b') -> forall ops b b' e, book_ok b -> each one ops b = Ok (b', e) -> book_ok b'.
  Proof.
    intros H. induction ops as [|op ops IH]; intros b b' e Hb E; [injection E as <- _; exact Hb|]. cbn [each] in E. apply obind_Ok in E as ((c & x) & E1 & E). pose proof (H _ _ _ _ Hb E1) as Hc.
    destruct x; [injection E as <- _; exact Hc|]. eapply IH; eassumption.
  Qed.
  Lemma book_op_ok macros fuel : forall b op b' e, book_ok b -> book_op srt compile parse_float today ploop macros fuel b op = Ok (b', e) -> book_ok b'.
  Proof.
    induction fuel as [|fuel IH]; intros b op b' e Hb E; [discriminate|]. cbn [book_op] in E. destruct (macros op) as [body|]; [|eapply plain_op_ok; eassumption]. eapply each_ok; [exact IH|exact Hb|exact E].
  Qed.
  Lemma ops_of_ok macros fuel args b b1 : book_ok b -> ops_of srt compile parse_float today ploop macros fuel args b = Ok b1 -> book_ok b1.
  Proof.
    intros Hb E. unfold ops_of in E. apply obind_Ok in E as ((c & x) & E1 & E). destruct x; [discriminate|]. injection E as <-. eapply each_ok; [apply book_op_ok|exact Hb|exact E1].
  Qed.
End Ops.

(** ** Weighted sums depend on the totals only. *)
Definition key4 (p : posting) := (p_date p, p_payee p, p_acct p, p_ccy p).
Lemma at_key_self p q : on (at_key (p_date p) (p_payee p) (p_acct p) (p_ccy p)) q = true <-> key4 q = key4 p.
Proof.
  unfold on, at_key, key4. rewrite !andb_true_iff, Z.eqb_eq, !str_eqb_eq. split; [intros [[[-> ->] ->] ->]; reflexivity|intros E; injection E as -> -> -> ->; auto].
Qed.
Definition wnull (l : list posting) : Prop := forall d pay a c, total (at_key d pay a c) l = 0%Qc.
Lemma wtotal_app w l l' : wtotal w (l ++ l') = (wtotal w l + wtotal w l')%Qc.
Proof. unfold wtotal. rewrite map_app, qsum_app. reflexivity. Qed.
Lemma wtotal_filter w f l : wtotal w l = (wtotal w (filter f l) + wtotal w (filter (fun p => negb (f p)) l))%Qc.
Proof. unfold wtotal. induction l as [|p l IH]; [cbn; ring|]. cbn [filter map]. rewrite qsum_cons, IH. destruct (f p); cbn [negb map]; rewrite qsum_cons; ring. Qed.
Lemma total_filter g f l : total g (filter f l) = qsum (map p_val (filter (fun p => on g p && f p) l)).
Proof.
  unfold total. induction l as [|p l IH]; [reflexivity|]. cbn [filter]. destruct (f p) eqn:E; cbn [filter]; [|rewrite andb_false_r; exact IH]. rewrite andb_true_r. destruct (on g p); [cbn [map]; rewrite !qsum_cons, IH; reflexivity|exact IH].
Qed.
Lemma wnull_wtotal w : forall n l, (length l <= n)%nat -> wnull l -> wtotal w l = 0%Qc.
Proof.
  induction n as [|n IH]; intros l Hl Hz; [destruct l; [reflexivity|cbn in Hl; lia]|]. destruct l as [|p l]; [reflexivity|].
  set (g := at_key (p_date p) (p_payee p) (p_acct p) (p_ccy p)). rewrite (wtotal_filter w (on g)). 
  assert (E1 : wtotal w (filter (on g) (p :: l)) = (w (p_date p) (p_payee p) (p_acct p) (p_ccy p) * total g (p :: l))%Qc).
  { unfold total, wtotal. set (L := filter (on g) (p :: l)). assert (H : Forall (fun q => key4 q = key4 p) L) by (unfold L; apply Forall_forall; intros q Hq; apply filter_In in Hq as [_ Hq]; apply at_key_self; exact Hq). clearbody L.
    induction H as [|q L Hq _ IHL]; [cbn; ring|]. cbn [map]. rewrite !qsum_cons, IHL. unfold key4 in Hq. injection Hq as -> -> -> ->. ring. }
  rewrite E1, (Hz _ _ _ _ : total g (p :: l) = 0%Qc), (IH (filter (fun q => negb (on g q)) (p :: l))).
  - ring.
  - cbn [filter]. assert (Hp : on g p = true) by (apply at_key_self; reflexivity). rewrite Hp. cbn [negb]. cbn [length] in Hl. pose proof (filter_length_le (fun q => negb (on g q)) l). lia.
  - intros d pay a c. rewrite total_filter. destruct (on (at_key d pay a c) p) eqn:E.
    + assert (Hg : forall q, on (at_key d pay a c) q && negb (on g q) = false).
      { intros q. assert (Hk : on (at_key d pay a c) q = on g q). { unfold on, at_key in E. rewrite !andb_true_iff, Z.eqb_eq, !str_eqb_eq in E. destruct E as [[[<- <-] <-] <-]. reflexivity. } rewrite Hk. apply andb_negb_r. }
      rewrite (filter_ext _ (fun _ => false)) by exact Hg. clear. generalize (p :: l). intros L. induction L as [|q L IHL]; [reflexivity|exact IHL].
    + assert (Hg : forall q, on (at_key d pay a c) q && negb (on g q) = on (at_key d pay a c) q).
      { intros q. destruct (on (at_key d pay a c) q) eqn:Eq; [|reflexivity]. cbn [andb]. destruct (on g q) eqn:Egq; [|reflexivity]. exfalso. apply at_key_self in Egq. unfold key4 in Egq. injection Egq as E1' E2' E3' E4'. unfold on in Eq, E. rewrite E1', E2', E3', E4' in Eq. congruence. }
      rewrite (filter_ext _ (on (at_key d pay a c))) by exact Hg. apply Hz.
Qed.
Definition negp (p : posting) : posting := set_val p (- p_val p)%Qc.
Lemma total_neg g l : total g (map negp l) = (- total g l)%Qc.
Proof. induction l as [|p l IH]; [reflexivity|]. cbn [map]. rewrite !total_cons, IH. change (on g (negp p)) with (on g p). change (p_val (negp p)) with (- p_val p)%Qc. destruct (on g p); ring. Qed.
Lemma wtotal_neg w l : wtotal w (map negp l) = (- wtotal w l)%Qc.
Proof. unfold wtotal. induction l as [|p l IH]; [reflexivity|]. cbn [map]. rewrite !qsum_cons, IH. cbn [negp set_val p_date p_payee p_acct p_ccy p_val]. ring. Qed.
Lemma wtotal_totals w l l' : (forall g, total g l = total g l') -> wtotal w l = wtotal w l'.
Proof.
  intros H. assert (E : wtotal w (l ++ map negp l') = 0%Qc). { eapply wnull_wtotal; [apply le_n|]. intros d pay a c. rewrite total_app, total_neg, H. ring. }
  rewrite wtotal_app, wtotal_neg in E. rewrite <- (Qcplus_0_l (wtotal w l')), <- E. ring.
Qed.
Lemma wtotal_ext w w' l : (forall p, In p l -> w (p_date p) (p_payee p) (p_acct p) (p_ccy p) = w' (p_date p) (p_payee p) (p_acct p) (p_ccy p)) -> wtotal w l = wtotal w' l.
Proof. intros H. unfold wtotal. f_equal. apply map_ext_in. intros p Hp. rewrite (H p Hp). reflexivity. Qed.
Lemma compact_wtotal srt w b : sort_ok is_less srt -> wtotal w (bk_post (compact srt b)) = wtotal w (bk_post b).
Proof. intros Hs. apply wtotal_totals. intros g. apply compact_total. exact Hs. Qed.
Lemma map_transaction_wtotal srt f w b : sort_ok is_less srt ->
  wtotal w (bk_post (map_transaction srt (fun _ => f) b)) = wtotal (fun d p a c => w (fst (f d p)) (snd (f d p)) a c) (bk_post b).
Proof.
  intros Hs. unfold map_transaction. rewrite map_trans_loop_eq. rewrite (compact_wtotal srt w _ Hs). cbn [with_post bk_post]. unfold wtotal. rewrite map_map. reflexivity.
Qed.

(** ** Prices *)
Lemma rate_worth pb base d c : pb_ok pb -> pb_pos pb -> valid_date d -> worth pb d c base (rate pb base d c).
Proof.
  intros Hok Hpos Vd. unfold rate, get_price. destruct (str_eqb_spec c base) as [->|N]; [apply w_same; reflexivity|].
  assert (Hin : forall k l, aget pair_eqb k pb = Some l <-> In (k, l) pb) by (intros k l; symmetry; split; [intros H; apply (aget_Some_iff _ pair_eqb_eq); [apply Hok|exact H]|intros H; apply (aget_Some_iff _ pair_eqb_eq) in H; [exact H|apply Hok]]).
  destruct (aget pair_eqb (c, base) pb) as [l|] eqn:E1.
  - destruct (pl_get_spec l d (pl_ok_get pb _ l Hok E1) Vd) as (v & t & -> & Hq). eapply w_direct; [exact N|apply Hin; exact E1|exact Hq].
  - assert (N1 : forall l', ~ In ((c, base), l') pb) by (intros l' H; apply Hin in H; congruence).
    destruct (aget pair_eqb (base, c) pb) as [l|] eqn:E2.
    + destruct (pl_get_spec l d (pl_ok_get pb _ l Hok E2) Vd) as (v & t & E & Hq). rewrite E. cbn [obind]. unfold rat_inv. destruct (qc_is0 v) eqn:E0; cbn [obind].
      * exfalso. apply qc_is0_eq in E0. subst v. assert (Hv : (0 < 0)%Qc); [|discriminate Hv]. eapply quote_pos; [|exact Hq]. unfold pb_pos in Hpos. rewrite Forall_forall in Hpos. apply (Hpos ((base, c), l)). apply Hin. exact E2.
      * eapply w_inverse; [exact N|exact N1|apply Hin; exact E2|exact Hq].
    + apply w_unknown; [exact N|exact N1|]. intros l H. apply Hin in H. congruence.
Qed.
Lemma convert_ok base b : pb_ok (bk_prices b) -> pb_pos (bk_prices b) -> (forall p, In p (bk_post b) -> valid_date (p_date p)) ->
  convert_book base b = Ok (map_amount (fun d c => (rate (bk_prices b) base d c, base)) b).
Proof.
  intros Hok Hpos Hv. unfold convert_book. rewrite (proj2 (forallb_forall _ _)); [reflexivity|]. intros p Hp. unfold price_found.
  destruct (get_price_total (bk_prices b) (p_date p) (p_ccy p) base Hok Hpos (Hv p Hp)) as (v & t & -> & _). reflexivity.
Qed.
