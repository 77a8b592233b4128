(** * DetProofs2: from builders to books (C108). *)
From Verif Require Import Base Utf8 Dec PriceModel BookModel BookSpec BookProofs BuilderProofs AccumModel LoaderModel LoaderSpec LoaderProofs LoaderProofs2 LoaderProofs3 LoaderProofs5 DetSpec DetProofs.
From Coq Require Import ZifyBool ZifyNat Zify.
Ltac Zify.zify_post_hook ::= idtac.

(** ** Every transaction has one note *)
Definition bare (p : posting) : Prop := p_level p = 0 /\ p_sort p = [] /\ p_term p = [] /\ p_bal p = 0%Qc.
Record one_note (b : builder) : Prop := mkON {
  n_cur : (0 <= bu_date b /\ In (tkey (bu_date b) (bu_payee b)) (bu_prev b)) \/ (bu_date b = -1 /\ bu_payee b = []);
  n_in : forall p, In p (bu_post b) -> (0 <= p_date p /\ In (tkey (p_date p) (p_payee p)) (bu_prev b)) \/ p_date p = -1;
  n_now : forall p, In p (bu_post b) -> dp p = (bu_date b, bu_payee b) -> p_tnote p = bu_note b;
  n_same : forall p q, In p (bu_post b) -> In q (bu_post b) -> dp p = dp q -> p_tnote p = p_tnote q;
  n_bare : Forall bare (bu_post b) }.
Lemma on_new : one_note new_builder.
Proof. constructor; cbn; try (intros; contradiction); [right; split; reflexivity|constructor]. Qed.
Lemma on_add b a c v n : one_note b -> one_note (add_posting b a c v n).
Proof.
  intros [H1 H2 H3 H4 H5]. unfold add_posting. constructor; cbn [bu_post bu_prev bu_date bu_payee bu_note].
  - exact H1.
  - intros p Hp. apply in_app_iff in Hp as [Hp|[<-|[]]]; [apply H2; exact Hp|]. cbn [p_date p_payee]. destruct H1 as [H1|[H1 _]]; [left|right]; exact H1.
  - intros p Hp E. apply in_app_iff in Hp as [Hp|[<-|[]]]; [apply H3; assumption|reflexivity].
  - intros p q Hp Hq E. apply in_app_iff in Hp as [Hp|[<-|[]]]; apply in_app_iff in Hq as [Hq|[<-|[]]]; cbn [p_tnote].
    + apply H4; assumption.
    + apply H3; [exact Hp|exact E].
    + symmetry. apply H3; [exact Hq|symmetry; exact E].
    + reflexivity.
  - apply Forall_app. split; [exact H5|]. constructor; [|constructor]. repeat split.
Qed.
Lemma on_elide a n : forall keys b, one_note b -> one_note (elide a n keys b).
Proof. induction keys as [|k keys IH]; intros b H; [exact H|]. cbn [elide]. apply IH. destruct (aget str_eqb k (bu_amts b)); [|exact H]. destruct (qc_is0 q); [exact H|]. apply on_add. exact H. Qed.
Lemma rename_free : forall fuel prev d pay cur i r, rename_loop fuel prev d pay cur i = Ok r -> ~ In (tkey d r) prev.
Proof.
  induction fuel as [|fuel IH]; intros prev d pay cur i r; cbn [rename_loop]; [discriminate|]. destruct (mem_str (tkey d cur) prev) eqn:E; [apply IH|].
  intros H Hin. injection H as <-. apply not_true_iff_false in E. apply E. unfold mem_str. apply existsb_exists. exists (tkey d cur). split; [exact Hin|apply str_eqb_refl].
Qed.
Lemma on_trans b d p n b' : 0 <= d -> one_note b -> new_transaction b d p n = Ok b' -> one_note b'.
Proof.
  intros Hd H E. unfold new_transaction in E. apply obind_Ok in E as (c & Ec & E). apply obind_Ok in E as (cur & Er & E). injection E as <-.
  apply rename_free in Er. unfold check_and_clear in Ec. destruct (forallb _ _); [|discriminate]. injection Ec as <-. cbn [bu_post bu_prev bu_date bu_payee bu_note bu_amts] in *.
  destruct H as [H1 H2 H3 H4 H5]. constructor; cbn [bu_post bu_prev bu_date bu_payee bu_note].
  - left. split; [exact Hd|left; reflexivity].
  - intros q Hq. destruct (H2 q Hq) as [[K1 K2]|K]; [left; split; [exact K1|right; exact K2]|right; exact K].
  - intros q Hq Eq. exfalso. unfold dp in Eq. injection Eq as E1 E2. destruct (H2 q Hq) as [[_ K2]|K]; [|lia]. apply Er. rewrite <- E1, <- E2. exact K2.
  - exact H4.
  - exact H5.
Qed.
Lemma span_all f : forall l a r, span f l = (a, r) -> Forall (fun c => f c = true) a.
Proof.
  induction l as [|c l IH]; intros a r; cbn [span]; [intros E; injection E as <- <-; constructor|]. destruct (f c) eqn:Ef; [|intros E; injection E as <- <-; constructor].
  destruct (span f l) as [a' r'] eqn:Es. intros E. injection E as <- <-. constructor; [exact Ef|]. eapply IH. reflexivity.
Qed.
Lemma num_nonneg ds : Forall (fun c => digit c = true) ds -> 0 <= num_of ds.
Proof.
  unfold num_of. intros H. assert (G : forall v, 0 <= v -> 0 <= fold_left (fun v c => v * 10 + (c - 48)) ds v); [|apply G; lia].
  induction H as [|c ds Hc _ IH]; intros v Hv; [exact Hv|]. cbn [fold_left]. apply IH. unfold digit, between in Hc. lia.
Qed.
Lemma parse_number_nonneg mn mx l n r : parse_number mn mx l = Ok (n, r) -> 0 <= n.
Proof.
  unfold parse_number. destruct (span digit l) as [ds r'] eqn:Es. destruct (_ || _); [discriminate|]. intros E. injection E as <- <-. apply num_nonneg. eapply span_all. exact Es.
Qed.
Lemma parse_date_nonneg l d r : parse_date l = Ok (d, r) -> 0 <= d.
Proof.
  unfold parse_date. intros E. apply obind_Ok in E as ((y & l1) & E1 & E). apply obind_Ok in E as (l2 & E2 & E). apply obind_Ok in E as ((m & l3) & E3 & E). apply obind_Ok in E as (l4 & E4 & E).
  apply obind_Ok in E as ((x & l5) & E5 & E). injection E as <- <-. apply parse_number_nonneg in E1, E3, E5. lia.
Qed.

Section ON.
  Variables (is_letter is_udigit : Z -> bool) (to_upper : Z -> Z).
  Variable ord : list (str * Qc) -> list str.
  Variable fs : str -> option str.
  Variable resolve : str -> str -> str.
  Lemma on_step b nm l t : one_note b -> step is_letter is_udigit to_upper ord b nm l = Ok t -> match t with Go b' _ _ | Include _ b' _ _ => one_note b' end.
  Proof.
    intros H. unfold step. set (l' := consume_ws l).
    destruct ((ch l' =? 59) || (ch l' =? eol) || (ch l' =? eof)); [intros E; injection E as <-; exact H|].
    destruct (negb (has_ws l)).
    - destruct ((ch l' =? 61) || (ch l' =? 68)); [intros E; injection E as <-; exact H|].
      destruct (ch l' =? 80).
      { intros E. apply obind_Ok in E as ((x & r) & Ep & E). injection E as <-. unfold parse_price in Ep. destruct (negb _); [discriminate|].
        apply obind_Ok in Ep as ((d & l1) & _ & Ep). apply obind_Ok in Ep as (l2 & _ & Ep). apply obind_Ok in Ep as ((u & l3) & _ & Ep). apply obind_Ok in Ep as ((ca & l4) & _ & Ep). injection Ep as <- _.
        destruct H as [H1 H2 H3 H4 H5]. constructor; assumption. }
      destruct (digit (ch l')).
      { intros E. apply obind_Ok in E as ([[[d p] n] r] & Et & E). apply obind_Ok in E as (b' & En & E). injection E as <-.
        unfold parse_transaction in Et. apply obind_Ok in Et as ((d0 & l1) & Ed & Et). apply obind_Ok in Et as ((py & l2) & _ & Et). destruct (parse_note l2) as [nt l3]. injection Et as <- <- <- _.
        apply parse_date_nonneg in Ed. eapply on_trans; eauto. }
      destruct (parse_identifier is_letter is_udigit to_upper l') as [cmd r].
      destruct (str_eqb cmd (bs "INCLUDE")).
      { destruct (parse_to_eol r) as [s r']. intros E. apply obind_Ok in E as (nme & _ & E). injection E as <-. exact H. }
      destruct (str_eqb cmd (bs "ALIAS")); [|discriminate]. destruct (parse_account r) as [short r1]. destruct (negb (ch (consume_ws r1) =? 61)); [discriminate|].
      destruct (parse_account _) as [long r2]. destruct long; [discriminate|]. destruct (parse_to_eol _) as [x r3]. intros E. injection E as <-. exact H.
    - intros E. apply obind_Ok in E as ((x & r) & Ep & E). injection E as <-. unfold parse_posting in Ep.
      destruct (parse_account _) as [acct l1]. destruct (if ch (consume_ws l1) =? 45 then _ else _) as [ng l2]. apply obind_Ok in Ep as ([[c v] l3] & _ & Ep). apply obind_Ok in Ep as (l4 & _ & Ep).
      destruct (parse_note l4) as [note l5]. destruct c as [|x0 c]; injection Ep as <- _; [apply on_elide|apply on_add]; exact H.
  Qed.
  Lemma on_loop rec file : (forall b f nm b', one_note b -> rec b f nm = FOk b' -> one_note b') ->
    forall fuel b nm l b', one_note b -> file_loop is_letter is_udigit to_upper ord resolve rec file fuel b nm l = FOk b' -> one_note b'.
  Proof.
    intros Hrec. induction fuel as [|fuel IH]; intros b nm l b' H; cbn [file_loop]; [discriminate|]. destruct (ch l =? eof); [intros E; injection E as <-; exact H|].
    destruct (step is_letter is_udigit to_upper ord b nm l) as [[x n r|i x n r]| | |] eqn:Es; try discriminate; apply (on_step _ _ _ _ H) in Es.
    - apply IH. exact Es.
    - destruct (rec x (resolve file i) n) as [y| | |] eqn:Er; try discriminate. apply IH. exact (Hrec _ _ _ _ Es Er).
  Qed.
  Lemma on_file : forall depth b file nm b', one_note b -> parse_file is_letter is_udigit to_upper ord fs resolve depth b file nm = FOk b' -> one_note b'.
  Proof.
    induction depth as [|depth IH]; intros b file nm b' H; cbn [parse_file]; [discriminate|]. destruct (fs file) as [bytes|]; [|discriminate].
    apply on_loop; [|exact H]. intros. eapply IH; eauto.
  Qed.
End ON.

(** ** Decimals *)
Definition dstep (c : str) (o : option Z) (p : posting) : option Z :=
  if str_eqb (p_ccy p) c then match o with Some e => Some (Z.max e (denom (p_val p))) | None => Some (denom (p_val p)) end else o.
Lemma max_denoms_get c : forall l m, aget str_eqb c (max_denoms m l) = fold_left (dstep c) l (aget str_eqb c m).
Proof.
  induction l as [|p l IH]; intros m; [reflexivity|]. cbn [max_denoms fold_left]. rewrite IH. f_equal. unfold dstep. destruct (str_eqb (p_ccy p) c) eqn:Ec.
  - apply str_eqb_eq in Ec. subst c. destruct (aget str_eqb (p_ccy p) m) as [e|] eqn:Eg.
    + destruct (e <? denom (p_val p)) eqn:El; [rewrite (aget_aset_eq _ str_eqb_eq)|rewrite Eg]; f_equal; lia.
    + apply (aget_aset_eq _ str_eqb_eq).
  - assert (Hn : c <> p_ccy p) by (intros ->; rewrite str_eqb_refl in Ec; discriminate).
    destruct (aget str_eqb (p_ccy p) m) as [e|]; [destruct (e <? denom (p_val p))|]; try reflexivity; apply (aget_aset_neq _ str_eqb_eq); exact Hn.
Qed.
Lemma dstep_swap c o p q : dstep c (dstep c o p) q = dstep c (dstep c o q) p.
Proof. unfold dstep. destruct (str_eqb (p_ccy p) c), (str_eqb (p_ccy q) c), o; try reflexivity; f_equal; lia. Qed.
Lemma dfold_perm c l l' : Permutation l l' -> forall o, fold_left (dstep c) l o = fold_left (dstep c) l' o.
Proof.
  induction 1 as [|x l l' _ IH|x y l|l l' l'' _ IH1 _ IH2]; intros o; cbn [fold_left].
  - reflexivity.
  - apply IH.
  - rewrite dstep_swap. reflexivity.
  - rewrite IH1. apply IH2.
Qed.
Lemma aget_map_snd {A B} (f : A -> B) c (m : list (str * A)) : aget str_eqb c (map (fun '(k, v) => (k, f v)) m) = match aget str_eqb c m with Some v => Some (f v) | None => None end.
Proof. induction m as [|[k v] m IH]; [reflexivity|]. cbn [map aget]. destruct (str_eqb k c); [reflexivity|exact IH]. Qed.

(** ** Postings *)
Definition strip (p : posting) : posting := no_bal (but_note p).
Lemma but_note_run : forall l m, map but_note (run_bal m l) = run_bal m (map but_note l).
Proof. induction l as [|p l IH]; intros m; [reflexivity|]. cbn [run_bal map]. rewrite IH. reflexivity. Qed.
Lemma group_runs_map (f : posting -> posting) : (forall p, p_date (f p) = p_date p) -> (forall p, p_payee (f p) = p_payee p) ->
  forall l first acc, group_runs (f first) (map f acc) (map f l) = map (map f) (group_runs first acc l).
Proof.
  intros H1 H2. induction l as [|x l IH]; intros first acc; cbn [group_runs map]; [rewrite map_rev; reflexivity|].
  rewrite !H1, !H2. destruct (_ || _); [cbn [map]; rewrite map_rev; f_equal; apply (IH x [x])|apply (IH first (x :: acc))].
Qed.
Lemma group_all_map (f : posting -> posting) l : (forall p, p_date (f p) = p_date p) -> (forall p, p_payee (f p) = p_payee p) -> group_all (map f l) = map (map f) (group_all l).
Proof. intros H1 H2. destruct l as [|x l]; [reflexivity|]. apply (group_runs_map f H1 H2 l x [x]). Qed.

Section Posts.
  Variables srt1 srt2 : list posting -> list posting.
  Hypothesis S1 : sort_ok is_less srt1.
  Hypothesis S2 : sort_ok is_less srt2.
  Variables l1 l2 : list posting.
  Hypothesis Hp : Permutation l1 l2.
  Hypothesis Hb : Forall bare l1.
  Hypothesis Ht : forall p q, In p l1 -> In q l1 -> dp p = dp q -> p_tnote p = p_tnote q.
  Lemma bare_plain l : Forall bare l -> Forall plain l.
  Proof. apply Forall_impl. intros p (H1 & H2 & _). split; assumption. Qed.
  Lemma Hb2 : Forall bare l2.
  Proof. rewrite Forall_forall in *. intros p Hin. apply Hb. eapply Permutation_in; [symmetry; exact Hp|exact Hin]. Qed.

  Lemma keyed_equal : map (fun p => (pkey p, p_val p)) (cposts srt1 l1) = map (fun p => (pkey p, p_val p)) (cposts srt2 l2).
  Proof.
    apply canonical_unique.
    - apply cposts_canonical; [exact S1|]. apply bare_plain. exact Hb.
    - apply cposts_canonical; [exact S2|]. apply bare_plain. exact Hb2.
    - intros d pay a c. rewrite (cposts_total srt1 S1), (cposts_total srt2 S2). apply total_perm. exact Hp.
  Qed.
  Lemma pointwise (f : posting -> posting) :
    (forall p q, pkey p = pkey q -> p_val p = p_val q -> p_tnote p = p_tnote q -> p_level p = p_level q -> p_sort p = p_sort q -> p_term p = p_term q ->
       In p (cposts srt1 l1) -> In q (cposts srt2 l2) -> f p = f q) ->
    map f (cposts srt1 l1) = map f (cposts srt2 l2).
  Proof.
    intros Hf. pose proof keyed_equal as E.
    assert (M : forall p q, In p (cposts srt1 l1) -> In q (cposts srt2 l2) -> pkey p = pkey q -> p_val p = p_val q -> f p = f q).
    { intros p q Ip Iq K V. destruct (cposts_origin srt1 S1 l1 p Ip) as (p0 & Ip0 & Kp & Mp). destruct (cposts_origin srt2 S2 l2 q Iq) as (q0 & Iq0 & Kq & Mq).
      assert (Iq0' : In q0 l1) by (eapply Permutation_in; [symmetry; exact Hp|exact Iq0]).
      pose proof (proj1 (Forall_forall _ _) Hb p0 Ip0) as (B1 & B2 & B3 & _). pose proof (proj1 (Forall_forall _ _) Hb q0 Iq0') as (C1 & C2 & C3 & _).
      unfold meta in Mp, Mq. injection Mp as T1 _ M1 M2 M3. injection Mq as T2 _ N1 N2 N3.
      apply Hf; try assumption; try congruence. rewrite <- T1, <- T2. apply Ht; [exact Ip0|exact Iq0'|].
      rewrite <- Kp, <- Kq in K. unfold pkey in K. unfold dp. congruence. }
    clear Hf. revert M E. generalize (cposts srt1 l1) as a, (cposts srt2 l2) as b. induction a as [|p a IH]; intros [|q b] M E; try discriminate; [reflexivity|].
    cbn [map] in E |- *. injection E as K1 K2 K3 K4 V E. assert (K' : pkey p = pkey q) by (unfold pkey; congruence).
    rewrite (M p q) by (try (left; reflexivity); assumption). f_equal. apply IH; [|exact E]. intros x y Hx Hy. apply M; right; assumption.
  Qed.
  Lemma posts_but_notes : map but_note (cposts srt1 l1) = map but_note (cposts srt2 l2).
  Proof.
    assert (E : map strip (cposts srt1 l1) = map strip (cposts srt2 l2)).
    { apply pointwise. intros p q K V T L S0 T' _ _. apply pkey_eq in K as (K1 & K2 & K3 & K4). unfold strip, no_bal, but_note, set_bal. cbn [p_date p_payee p_tnote p_acct p_ccy p_val p_note p_level p_term p_sort]. congruence. }
    rewrite <- (running_fixed (cposts srt1 l1)) by (apply cposts_running; exact S1). rewrite <- (running_fixed (cposts srt2 l2)) by (apply cposts_running; exact S2).
    rewrite !but_note_run. apply run_bal_nobal_eq. rewrite !map_map. exact E.
  Qed.
  Lemma posts_same : (forall p q, In p l1 -> In q l1 -> pkey p = pkey q -> p_note p = p_note q) -> cposts srt1 l1 = cposts srt2 l2.
  Proof.
    intros Hn. assert (E : map no_bal (cposts srt1 l1) = map no_bal (cposts srt2 l2)).
    { apply pointwise. intros p q K V T L S0 T' Ip Iq.
      assert (N : p_note p = p_note q).
      { destruct (cposts_origin srt1 S1 l1 p Ip) as (p0 & Ip0 & Kp & Mp). destruct (cposts_origin srt2 S2 l2 q Iq) as (q0 & Iq0 & Kq & Mq).
        unfold meta in Mp, Mq. injection Mp as _ N1 _ _ _. injection Mq as _ N2 _ _ _. rewrite <- N1, <- N2. apply Hn; [exact Ip0| |congruence].
        eapply Permutation_in; [symmetry; exact Hp|exact Iq0]. }
      apply pkey_eq in K as (K1 & K2 & K3 & K4). unfold no_bal, set_bal. congruence. }
    rewrite <- (running_fixed (cposts srt1 l1)) by (apply cposts_running; exact S1). rewrite <- (running_fixed (cposts srt2 l2)) by (apply cposts_running; exact S2).
    apply run_bal_nobal_eq. exact E.
  Qed.

  (** Stable sorts *)
  Lemma sorted_samekeys : forall a b, StronglySorted kle a -> StronglySorted kle b -> samekeys a b -> a = b.
  Proof.
    assert (N : forall x y b, StronglySorted kle (y :: b) -> klt x y -> filter (same_key x) (y :: b) = []).
    { intros x y b Hs Hlt. assert (G : forall z, In z (y :: b) -> same_key x z = false).
      { intros z Hz. apply not_true_iff_false. rewrite same_key_eq. intros E. assert (Hyz : klt x z).
        { destruct Hz as [<-|Hz]; [exact Hlt|]. inversion Hs as [|? ? _ Hall]; subst. rewrite Forall_forall in Hall. specialize (Hall z Hz).
          unfold klt, kle in *. destruct (kcmp (pkey y) (pkey z)) eqn:Ey; [apply (lc_eq _ kcmp_lin) in Ey; rewrite <- Ey; exact Hlt|eapply (lc_trans _ kcmp_lin); eauto|congruence]. }
        unfold klt in Hyz. rewrite E, (lc_refl _ kcmp_lin) in Hyz. discriminate. }
      revert G. generalize (y :: b). intros l. induction l as [|z l IH]; intros G; [reflexivity|]. cbn [filter]. rewrite (G z) by (left; reflexivity). apply IH. intros w Hw. apply G. right. exact Hw. }
    induction a as [|x a IH]; intros [|y b] Ha Hb0 Hk.
    - reflexivity.
    - exfalso. specialize (Hk y). cbn [filter] in Hk. rewrite (proj2 (same_key_eq y y) eq_refl) in Hk. discriminate.
    - exfalso. specialize (Hk x). cbn [filter] in Hk. rewrite (proj2 (same_key_eq x x) eq_refl) in Hk. discriminate.
    - assert (Ek : pkey x = pkey y).
      { destruct (kcmp (pkey x) (pkey y)) eqn:E; [apply (lc_eq _ kcmp_lin); exact E| |].
        - exfalso. specialize (Hk x). rewrite (N x y b Hb0 E) in Hk. cbn [filter] in Hk. rewrite (proj2 (same_key_eq x x) eq_refl) in Hk. discriminate.
        - exfalso. apply (lc_gt_lt _ kcmp_lin) in E. specialize (Hk y). rewrite (N y x a Ha E) in Hk. cbn [filter] in Hk. rewrite (proj2 (same_key_eq y y) eq_refl) in Hk. discriminate. }
      assert (x = y). { specialize (Hk x). cbn [filter] in Hk. rewrite (proj2 (same_key_eq x x) eq_refl), (proj2 (same_key_eq x y) Ek) in Hk. injection Hk as Hk _. exact Hk. }
      subst y. f_equal. inversion Ha; subst. inversion Hb0; subst. apply IH; try assumption.
      intros q. specialize (Hk q). cbn [filter] in Hk. destruct (same_key q x); [injection Hk as Hk|]; exact Hk.
  Qed.
  Definition plain_key (q : posting) : posting := mkP (p_date q) (p_payee q) [] (p_acct q) (p_ccy q) 0%Qc [] 0%Qc 0 [] [].
  Lemma stable_keys srt l : sort_ok is_less srt -> stable srt -> Forall plain l -> samekeys (srt l) l.
  Proof.
    intros Hs Hst Hpl q. specialize (Hst l (plain_key q)).
    assert (E : forall p, plain p -> negb (is_less p (plain_key q)) && negb (is_less (plain_key q) p) = same_key q p).
    { intros p Pp. apply eq_true_iff_eq. rewrite same_key_eq, andb_true_iff, !negb_true_iff, !is_less_fcmp.
      rewrite !plain_fcmp by (assumption || (split; reflexivity)). change (pkey (plain_key q)) with (pkey q).
      rewrite (lc_anti _ kcmp_lin (pkey p) (pkey q)). destruct (kcmp (pkey p) (pkey q)) eqn:Ec; cbn [CompOpp].
      - apply (lc_eq _ kcmp_lin) in Ec. split; [intros _; symmetry; exact Ec|intros _; split; reflexivity].
      - split; [intros [H _]; discriminate|]. intros Eq. rewrite Eq, (lc_refl _ kcmp_lin) in Ec. discriminate.
      - split; [intros [_ H]; discriminate|]. intros Eq. rewrite Eq, (lc_refl _ kcmp_lin) in Ec. discriminate. }
    rewrite <- !(filter_ext_in _ _ _ (fun p Hin => E p (proj1 (Forall_forall _ _) Hpl p Hin))).
    rewrite <- (filter_ext_in _ _ (srt l) (fun p Hin => E p (proj1 (Forall_forall _ _) (srt_plain srt Hs l Hpl) p Hin))). exact Hst.
  Qed.
  Lemma posts_stable : samekeys l1 l2 -> stable srt1 -> stable srt2 -> cposts srt1 l1 = cposts srt2 l2.
  Proof.
    intros Hk T1 T2. unfold cposts. f_equal. f_equal. f_equal. apply sorted_samekeys.
    - apply sorted_plain; [apply srt_plain; [exact S1|apply bare_plain; exact Hb]|apply S1].
    - apply sorted_plain; [apply srt_plain; [exact S2|apply bare_plain; exact Hb2]|apply S2].
    - intros q. rewrite (stable_keys srt1 l1 S1 T1 (bare_plain _ Hb)), (stable_keys srt2 l2 S2 T2 (bare_plain _ Hb2)). apply Hk.
  Qed.
End Posts.

(** ** Build *)
Section Build.
  Variables srt1 srt2 : list posting -> list posting.
  Hypothesis S1 : sort_ok is_less srt1.
  Hypothesis S2 : sort_ok is_less srt2.
  Lemma build_rel (R : book -> book -> Prop) b1 b2 : sim b1 b2 -> one_note b1 ->
    (forall k1 k2, bk_prices k1 = bk_prices k2 -> (forall c, aget str_eqb c (bk_ccy k1) = aget str_eqb c (bk_ccy k2)) ->
       (bk_post k1 = cposts srt1 (bu_post b1) /\ bk_post k2 = cposts srt2 (bu_post b2) /\ bk_trans k1 = group_all (bk_post k1) /\ bk_trans k2 = group_all (bk_post k2)
        \/ bk_post k1 = bk_post k2 /\ bk_trans k1 = bk_trans k2) -> R k1 k2) ->
    both R (build srt1 b1) (build srt2 b2).
  Proof.
    intros H Hon HR. unfold build. pose proof (sim_clear b1 b2 H) as Hc.
    assert (P1 : forall c, check_and_clear b1 = Ok c -> bu_post c = bu_post b1) by (intros c E; unfold check_and_clear in E; destruct (forallb _ _); [injection E as <-; reflexivity|discriminate]).
    assert (P2 : forall c, check_and_clear b2 = Ok c -> bu_post c = bu_post b2) by (intros c E; unfold check_and_clear in E; destruct (forallb _ _); [injection E as <-; reflexivity|discriminate]).
    destruct (check_and_clear b1) as [c1| | |], (check_and_clear b2) as [c2| | |]; try contradiction; cbn [obind both]; auto.
    cbn [both] in Hc. specialize (P1 c1 eq_refl). specialize (P2 c2 eq_refl). rewrite P1, P2.
    assert (Ec : forall c, aget str_eqb c (map (fun '(k, v) => (k, decimals_of v)) (max_denoms [] (bu_post b1))) = aget str_eqb c (map (fun '(k, v) => (k, decimals_of v)) (max_denoms [] (bu_post b2)))).
    { intros c. rewrite !aget_map_snd, !max_denoms_get, (dfold_perm c _ _ (s_perm _ _ H)). reflexivity. }
    rewrite (s_prices _ _ Hc). pose proof (s_perm _ _ H) as Pm. destruct (bu_post b1) as [|x l] eqn:E1.
    - apply Permutation_nil in Pm. rewrite Pm. rewrite !compact_nil by reflexivity. apply HR; cbn [bk_prices bk_ccy bk_post bk_trans]; auto.
    - assert (N1 : bu_post b1 <> []) by (rewrite E1; discriminate). rewrite <- E1 in *.
      assert (N2 : bu_post b2 <> []) by (intros E; rewrite E in Pm; symmetry in Pm; apply Permutation_nil in Pm; contradiction).
      rewrite !compact_eq by assumption. apply HR; cbn [bk_prices bk_ccy bk_post bk_trans]; auto. 
  Qed.
  Lemma build_but_notes b1 b2 : sim b1 b2 -> one_note b1 -> both same_but_notes (build srt1 b1) (build srt2 b2).
  Proof.
    intros H Hon. apply build_rel; try assumption. intros k1 k2 Hp Hc [(E1 & E2 & T1 & T2)|[E T]].
    - assert (E : map but_note (bk_post k1) = map but_note (bk_post k2)) by (rewrite E1, E2; apply posts_but_notes; [exact S1|exact S2|exact (s_perm _ _ H)|exact (n_bare _ Hon)|exact (n_same _ Hon)]).
      repeat split; try assumption. rewrite T1, T2, <- !group_all_map by reflexivity. rewrite E. reflexivity.
    - repeat split; try assumption; congruence.
  Qed.
  Lemma build_same b1 b2 : sim b1 b2 -> one_note b1 ->
    (stable srt1 /\ stable srt2 \/ forall p q, In p (bu_post b1) -> In q (bu_post b1) -> pkey p = pkey q -> p_note p = p_note q) ->
    both same_book (build srt1 b1) (build srt2 b2).
  Proof.
    intros H Hon Hn. apply build_rel; try assumption. intros k1 k2 Hp Hc [(E1 & E2 & T1 & T2)|[E T]]; [|repeat split; assumption].
    assert (E : bk_post k1 = bk_post k2).
    { rewrite E1, E2. destruct Hn as [[A B]|Hn].
      - apply posts_stable; try assumption; [exact (s_perm _ _ H)|exact (n_bare _ Hon)|exact (s_keys _ _ H)].
      - apply posts_same; try assumption; [exact (s_perm _ _ H)|exact (n_bare _ Hon)|exact (n_same _ Hon)]. }
    repeat split; try assumption. rewrite T1, T2, E. reflexivity.
  Qed.
End Build.
