(** * RegFileProofs: the register of a book built from the calls of a file. *)
From Verif Require Import Base Utf8 Regex Dec DateModel DateSpec DateProofs DateProofs2 PriceModel PriceSpec PriceProofs BookModel BookSpec BookProofs BuilderProofs
  OpsModel OpsProofs OpsProofs2 OpsProofs3 BookOpModel BookProps RegisterModel RegisterSpec RegisterProofs AccumModel AccumSpec AccumProofs AccumProofs2 AccumProofs3 AccumProps
  LoaderModel LoaderSpec CmdModel CmdSpec CmdProofs CmdProps CmdProps2 AppendProofs BalanceSpec BalanceProofs BalanceProps RegFileSpec.

Lemma matching_filter m ts : map snd (matching m ts) = filter (fun p => m (p_acct p)) (concat ts).
Proof.
  unfold matching. induction ts as [|t ts IH]; [reflexivity|]. cbn [flat_map concat]. rewrite map_app. etransitivity; [apply f_equal; exact IH|]. rewrite filter_app. f_equal. rewrite map_map. apply map_id.
Qed.
Lemma sorted_filter {A} (R : A -> A -> Prop) f l : StronglySorted R l -> StronglySorted R (filter f l).
Proof. induction 1 as [|x l _ IH H]; [constructor|]. cbn [filter]. destruct (f x); [|exact IH]. constructor; [exact IH|]. apply Forall_forall. intros y Hy. apply filter_In in Hy as [Hy _]. rewrite Forall_forall in H. auto. Qed.
Lemma sorted_app_inv {A} (R : A -> A -> Prop) l1 l2 : StronglySorted R (l1 ++ l2) -> forall x y, In x l1 -> In y l2 -> R x y.
Proof.
  induction l1 as [|z l1 IH]; intros H x y Hx Hy; [contradiction|]. cbn [app] in H. apply StronglySorted_inv in H as [H1 H2]. destruct Hx as [->|Hx]; [|exact (IH H1 x y Hx Hy)].
  rewrite Forall_forall in H2. apply H2, in_app_iff. right. exact Hy.
Qed.
Lemma sorted_app {A} (R : A -> A -> Prop) l1 l2 : StronglySorted R l1 -> StronglySorted R l2 -> (forall x y, In x l1 -> In y l2 -> R x y) -> StronglySorted R (l1 ++ l2).
Proof.
  intros H1 H2 H. induction H1 as [|x l1 _ IH Hx]; [exact H2|]. cbn [app]. constructor; [apply IH; intros a b Ha Hb; apply H; [right; exact Ha|exact Hb]|].
  apply Forall_app. split; [exact Hx|]. apply Forall_forall. intros y Hy. apply H; [left; reflexivity|exact Hy].
Qed.
(** Blocks of lines that name postings. *)
Definition block_of (p : posting) (block : list RegisterModel.entry) : Prop := Forall (RegisterSpec.names p) block /\ qsum (map e_amt block) = p_val p.
Lemma Forall2_in_r {A B} (R : A -> B -> Prop) l m : Forall2 R l m -> forall y, In y m -> exists x, In x l /\ R x y.
Proof. induction 1 as [|x y l m Hxy _ IH]; intros z Hz; [contradiction|]. destruct Hz as [<-|H]; [exists x; split; [left; reflexivity|exact Hxy]|]. destruct (IH z H) as (w & Hw & Hr). exists w. split; [right; exact Hw|exact Hr]. Qed.
Lemma blocks_sorted ps blocks : Forall2 block_of ps blocks -> StronglySorted (fun p q => p_date p <= p_date q) ps -> StronglySorted (fun e e' => e_date e <= e_date e') (concat blocks).
Proof.
  induction 1 as [|p block ps blocks [Hb _] H IH]; intros Hs; [constructor|]. apply StronglySorted_inv in Hs as [Hs Hp]. cbn [concat]. rewrite Forall_forall in Hb, Hp. apply sorted_app; [|exact (IH Hs)|].
  - clear - Hb. induction block as [|e block IH]; [constructor|]. constructor; [apply IH; intros x Hx; apply Hb; right; exact Hx|]. apply Forall_forall. intros x Hx.
    destruct (Hb e (or_introl eq_refl)) as (-> & _). destruct (Hb x (or_intror Hx)) as (-> & _). lia.
  - intros e e' He He'. destruct (Hb e He) as (-> & _). apply in_concat in He' as (bl & Hbl & He'). destruct (Forall2_in_r _ _ _ H bl Hbl) as (q & Hq & [Hn _]). rewrite Forall_forall in Hn. destruct (Hn e' He') as (-> & _). apply Hp. exact Hq.
Qed.
Lemma blocks_sum (pd : Z -> str -> bool) ps blocks : Forall2 block_of ps blocks ->
  qsum (map e_amt (filter (fun e => pd (e_date e) (e_ccy e)) (concat blocks))) = qsum (map p_val (filter (fun p => pd (p_date p) (p_ccy p)) ps)).
Proof.
  induction 1 as [|p block ps blocks [Hb Hq] H IH]; [reflexivity|]. cbn [concat filter]. rewrite filter_app, map_app, qsum_app, IH. rewrite Forall_forall in Hb.
  assert (E : filter (fun e => pd (e_date e) (e_ccy e)) block = if pd (p_date p) (p_ccy p) then block else []).
  { clear - Hb. induction block as [|e block IH]; [destruct (pd _ _); reflexivity|]. cbn [filter]. rewrite IH by (intros x Hx; apply Hb; right; exact Hx). destruct (Hb e (or_introl eq_refl)) as (-> & _ & _ & -> & _). destruct (pd _ _); reflexivity. }
  rewrite E. destruct (pd _ _); cbn [map]; [rewrite qsum_cons, Hq; reflexivity|]. cbn. ring.
Qed.

Section Lines.
  Variable srt : list posting -> list posting.
  Hypothesis Hs : sort_ok is_less srt.
  Variable d : Z.
  Variable cs : list bcall.
  Variable bk : book.
  Hypothesis Eb : build_calls srt cs = Ok bk.

  Lemma reg_cat : concat (snd (transactions srt bk)) = bk_post (compact srt bk) /\ canonical (bk_post (compact srt bk)).
  Proof.
    destruct (bal_facts srt Hs cs bk Eb) as (Hok & _). pose proof (compact_book_ok srt Hs bk Hok) as (_ & Hcat & _). split; [exact Hcat|]. exact (proj1 (compact_canonical srt Hs bk (proj1 Hok))).
  Qed.
  (** Sums over the postings of the book are sums over the file. *)
  Lemma reg_sum (h : Z -> str -> str -> bool) : qsum (map p_val (filter (fun p => h (p_date p) (p_acct p) (p_ccy p)) (bk_post (compact srt bk)))) =
    qsum (map am_val (filter (fun x => h (am_date x) (am_acct x) (am_ccy x)) (amounts (-1) cs))).
  Proof.
    destruct (bal_facts srt Hs cs bk Eb) as (_ & _ & _ & Ht). rewrite <- (Ht h), <- (compact_total srt Hs). reflexivity.
  Qed.
  Lemma reg_lines a split full : register_of (fun x => str_eqb x a) split (snd (transactions srt bk)) full -> register_lines cs a full.
  Proof.
    intros ((blocks & <- & F) & Hbal & _). destruct reg_cat as [Hcat [Hsort _]].
    set (ps := filter (fun p => str_eqb (p_acct p) a) (bk_post (compact srt bk))).
    assert (F' : Forall2 block_of ps blocks).
    { unfold ps. rewrite <- Hcat, <- (matching_filter (fun x => str_eqb x a)). clear - F. induction F as [|tp block l blocks (H1 & H2 & _) _ IH]; [constructor|]. cbn [map]. constructor; [split; assumption|exact IH]. }
    assert (Hd : StronglySorted (fun p q => p_date p <= p_date q) ps).
    { apply sorted_filter. clear - Hsort. induction Hsort as [|p l _ IH H]; constructor; [exact IH|]. rewrite Forall_forall in *. intros q Hq. specialize (H q Hq). unfold klt, kcmp, lex, pkey in H. cbn [fst snd] in H.
      destruct (Z.compare_spec (p_date p) (p_date q)); [lia|lia|discriminate]. }
    assert (Hsum : forall pd : Z -> str -> bool, qsum (map e_amt (filter (fun e => pd (e_date e) (e_ccy e)) (concat blocks))) =
      qsum (map am_val (filter (fun x => pd (am_date x) (am_ccy x) && str_eqb (am_acct x) a) (amounts (-1) cs)))).
    { intros pd. rewrite (blocks_sum pd _ _ F'), <- (reg_sum (fun D a' c => pd D c && str_eqb a' a)). unfold ps. f_equal. f_equal. clear. induction (bk_post (compact srt bk)) as [|p l IH]; [reflexivity|]. cbn [filter].
      destruct (str_eqb (p_acct p) a); cbn [filter]; [rewrite andb_true_r; destruct (pd _ _); rewrite IH; reflexivity|rewrite andb_false_r; exact IH]. }
    pose proof (blocks_sorted _ _ F' Hd) as Hsorted. split; [exact Hsorted|]. split; [|split; [|split]].
    - apply Forall_forall. intros e He. apply in_concat in He as (bl & Hbl & He). destruct (Forall2_in_r _ _ _ F' bl Hbl) as (p & Hp & [Hn _]). rewrite Forall_forall in Hn. destruct (Hn e He) as (_ & _ & -> & _).
      unfold ps in Hp. apply filter_In in Hp as [_ Hp]. apply str_eqb_eq in Hp. exact Hp.
    - intros D c v Hv. apply (sum_over_in _ (fun e => (e_date e =? D) && str_eqb (e_ccy e) c)); [intros x _; rewrite andb_true_iff, Z.eqb_eq, str_eqb_eq; reflexivity|].
      rewrite (Hsum (fun D' c' => (D' =? D) && str_eqb c' c)). apply (sum_over_in _ (fun x => (am_date x =? D) && str_eqb (am_ccy x) c && str_eqb (am_acct x) a)) in Hv; [exact Hv|].
      intros x _. rewrite !andb_true_iff, Z.eqb_eq, !str_eqb_eq. tauto.
    - intros l1 e l2 E. apply (sum_over_in _ (fun x => str_eqb (e_ccy x) (e_ccy e))); [intros x _; apply str_eqb_eq|]. apply (Hbal l1 e l2 E).
    - intros l1 e l2 E Hlast. apply (sum_over_in _ (fun x => (am_date x <=? e_date e) && str_eqb (am_ccy x) (e_ccy e) && str_eqb (am_acct x) a)); [intros x _; rewrite !andb_true_iff, Z.leb_le, !str_eqb_eq; tauto|].
      rewrite <- (Hsum (fun D c => (D <=? e_date e) && str_eqb c (e_ccy e))). destruct (Hbal l1 e l2 E) as [-> _]. unfold ccy_sum. rewrite E. replace (l1 ++ e :: l2) with ((l1 ++ [e]) ++ l2) by (rewrite <- app_assoc; reflexivity).
      rewrite (filter_app _ (l1 ++ [e]) l2). f_equal. f_equal.
      assert (E2 : filter (fun x => (e_date x <=? e_date e) && str_eqb (e_ccy x) (e_ccy e)) l2 = []).
      { clear - Hlast. induction l2 as [|x l2 IH]; [reflexivity|]. cbn [filter]. rewrite IH by (intros y Hy; apply Hlast; right; exact Hy). destruct (str_eqb_spec (e_ccy x) (e_ccy e)) as [Ec|Ec]; [|rewrite andb_false_r; reflexivity].
        pose proof (Hlast x (or_introl eq_refl) Ec). rewrite (proj2 (Z.leb_gt _ _)) by lia. reflexivity. }
      rewrite E2, app_nil_r. apply filter_ext_in. intros x Hx. assert (Hle : e_date x <= e_date e).
      { apply in_app_iff in Hx as [Hx|[<-|[]]]; [|lia]. rewrite E in Hsorted. apply (sorted_app_inv _ l1 (e :: l2) Hsorted x e Hx). left. reflexivity. }
      rewrite (proj2 (Z.leb_le _ _) Hle). reflexivity.
  Qed.

  (** The accounts. *)
  Lemma post_amount p : In p (bk_post bk) -> exists x, In x (amounts (-1) cs) /\ am_date x = p_date p /\ am_acct x = p_acct p /\ am_ccy x = p_ccy p.
  Proof.
    intros Hp. destruct (build_calls_cases srt Hs cs) as [(_ & bk' & E & _ & Hcan & _ & Ht' & b & Est & _)|[_ E]]; rewrite Eb in E; [|discriminate]. injection E as <-.
    assert (Hv : p_val p <> 0%Qc) by (destruct Hcan as [_ Hz]; rewrite Forall_forall in Hz; exact (Hz p Hp)).
    destruct (existsb (on (at_key (p_date p) (p_payee p) (p_acct p) (p_ccy p))) (posted (-1, []) [] (identities new_builder cs) cs)) eqn:Ex.
    - apply existsb_exists in Ex as (q & Hq & Eq). apply at_key_on in Eq. apply pkey_eq in Eq as (E1 & _ & E3 & E4). pose proof (posted_amounts cs _ _ (-1, []) [] Est) as Ea. cbn [fst] in Ea.
      exists (mkAmt (p_date q) (p_acct q) (p_ccy q) (p_val q)). split; [|auto]. rewrite <- Ea. apply in_map_iff. eauto.
    - exfalso. apply Hv. rewrite <- (total_key (bk_post bk) (canonical_nodup _ Hcan) p Hp), Ht'. apply total_absent. intros q Hq. destruct (on _ q) eqn:E; [|reflexivity].
      assert (existsb (on (at_key (p_date p) (p_payee p) (p_acct p) (p_ccy p))) (posted (-1, []) [] (identities new_builder cs) cs) = true) by (apply existsb_exists; eauto). congruence.
  Qed.
  Lemma reg_accounts all m : registered cs all m (accounts m (negb all) bk).
  Proof.
    destruct (build_calls_cases srt Hs cs) as [(_ & bk' & E & _ & Hcan & Hrun & _)|[_ E]]; rewrite Eb in E; [|discriminate]. injection E as <-. destruct (bal_facts srt Hs cs bk Eb) as (_ & _ & _ & Ht).
    split; [apply accounts_strict|]. split.
    - intros -> a. cbn [negb]. rewrite accounts_all. split.
      + intros (Hm & p & Hp & <-). split; [exact Hm|]. destruct (post_amount p Hp) as (x & Hx & _ & Ea & _). eauto.
      + intros (D & c & v & Hv & Hz) Hm. split; [exact Hm|]. apply (sum_over_in _ (fun x => (am_date x =? D) && str_eqb (am_acct x) a && str_eqb (am_ccy x) c)) in Hv; [|intros x _; rewrite !andb_true_iff, Z.eqb_eq, !str_eqb_eq; tauto].
        pose proof (Ht (fun D' a' c' => (D' =? D) && str_eqb a' a && str_eqb c' c)) as E2. cbv beta in E2. rewrite <- Hv in E2.
        destruct (existsb (fun p => str_eqb (p_acct p) a) (bk_post bk)) eqn:Ex; [apply existsb_exists in Ex as (p & Hp & Ea); apply str_eqb_eq in Ea; eauto|].
        exfalso. apply Hz. rewrite <- E2. apply total_absent. intros p Hp. unfold on. destruct (str_eqb (p_acct p) a) eqn:Ea; [|rewrite andb_false_r; reflexivity].
        assert (existsb (fun p => str_eqb (p_acct p) a) (bk_post bk) = true) by (apply existsb_exists; eauto). congruence.
    - intros -> Hone a. cbn [negb]. rewrite (accounts_balance m bk Hrun).
      + assert (Eq : forall c, total (in_acct a c) (bk_post bk) = qsum (map am_val (filter (fun x => str_eqb (am_acct x) a && str_eqb (am_ccy x) c) (amounts (-1) cs)))) by (intros c; exact (Ht (fun _ a' c' => str_eqb a' a && str_eqb c' c))).
        split; intros [Hm H]; (split; [exact Hm|]).
        * destruct H as (c & Hz). exists c, (total (in_acct a c) (bk_post bk)). split; [|exact Hz]. rewrite Eq. apply (sum_over_in _ (fun x => str_eqb (am_acct x) a && str_eqb (am_ccy x) c)); [intros x _; rewrite andb_true_iff, !str_eqb_eq; reflexivity|reflexivity].
        * destruct H as (c & v & Hv & Hz). exists c. rewrite Eq. apply (sum_over_in _ (fun x => str_eqb (am_acct x) a && str_eqb (am_ccy x) c)) in Hv; [|intros x _; rewrite andb_true_iff, !str_eqb_eq; reflexivity]. rewrite <- Hv. exact Hz.
      + intros p q Hp Hq Ea. destruct (post_amount p Hp) as (x & Hx & _ & X1 & X2). destruct (post_amount q Hq) as (y & Hy & _ & Y1 & Y2). rewrite <- X2, <- Y2. apply (Hone x y Hx Hy). congruence.
  Qed.
End Lines.
