(** * BookProofs: order, compaction, grouping, balances. *)
From Verif Require Import Base Dec DateModel PriceModel BookModel BookSpec.

(** ** Totals *)
Lemma total_nil g : total g [] = 0%Qc.
Proof. reflexivity. Qed.
Lemma total_cons g p l : total g (p :: l) = ((if on g p then p_val p else 0) + total g l)%Qc.
Proof. unfold total. cbn [filter]. destruct (on g p); cbn [map]; rewrite ?qsum_cons; ring. Qed.
Lemma total_app g a b : total g (a ++ b) = (total g a + total g b)%Qc.
Proof. unfold total. rewrite filter_app, map_app, qsum_app. reflexivity. Qed.
Lemma total_perm g a b : Permutation a b -> total g a = total g b.
Proof. intros H. unfold total. apply qsum_perm. apply Permutation_map. apply filter_perm. exact H. Qed.
Lemma total_concat g ls : total g (concat ls) = qsum (map (total g) ls).
Proof. induction ls as [|l ls IH]; [reflexivity|]. cbn [concat map]. rewrite total_app, IH. reflexivity. Qed.
(** A per-posting change of key only re-indexes; a change of value scales. *)
Lemma total_map (h : posting -> posting) g g' l :
  (forall p, In p l -> p_val (h p) = p_val p /\ on g (h p) = on g' p) -> total g (map h l) = total g' l.
Proof.
  induction l as [|p l IH]; intros H; [reflexivity|]. cbn [map]. rewrite !total_cons.
  destruct (H p (or_introl eq_refl)) as [-> ->]. rewrite IH; [reflexivity|]. intros q Hq. apply H. right; exact Hq.
Qed.
Lemma total_ext g g' l : (forall p, In p l -> on g p = on g' p) -> total g l = total g' l.
Proof.
  induction l as [|p l IH]; intros H; [reflexivity|]. rewrite !total_cons, (H p (or_introl eq_refl)), IH; [reflexivity|].
  intros q Hq. apply H. right; exact Hq.
Qed.
Lemma total_zero g l : (forall p, In p l -> on g p = true -> p_val p = 0%Qc) -> total g l = 0%Qc.
Proof.
  induction l as [|p l IH]; intros H; [reflexivity|]. rewrite total_cons, IH.
  - destruct (on g p) eqn:E; [rewrite (H p (or_introl eq_refl) E)|]; ring.
  - intros q Hq. apply H. right; exact Hq.
Qed.
Lemma total_none g l : (forall p, In p l -> on g p = false) -> total g l = 0%Qc.
Proof. intros H. apply total_zero. intros p Hp E. rewrite (H p Hp) in E. discriminate. Qed.
Lemma total_scale (k : Qc) (h : posting -> posting) g g' l :
  (forall p, In p l -> p_val (h p) = (p_val p * k)%Qc /\ on g (h p) = on g' p) ->
  total g (map h l) = (total g' l * k)%Qc.
Proof.
  induction l as [|p l IH]; intros H; [cbn [map]; rewrite !total_nil; ring|]. cbn [map]. rewrite !total_cons.
  destruct (H p (or_introl eq_refl)) as [-> ->]. rewrite IH by (intros q Hq; apply H; right; exact Hq).
  destruct (on g' p); ring.
Qed.

(** ** The order of isLess *)
Definition fkey (p : posting) := (p_date p, (p_payee p, (p_sort p, (p_acct p, (p_level p, p_ccy p))))).
Definition fcmp := lex Z.compare (lex str_cmp (lex str_cmp (lex str_cmp (lex Z.compare str_cmp)))).
Lemma fcmp_lin : lincmp fcmp.
Proof. repeat apply lex_lin; try apply Zcmp_lin; apply str_cmp_lin. Qed.
Lemma kcmp_lin : lincmp kcmp.
Proof. repeat apply lex_lin; try apply Zcmp_lin; apply str_cmp_lin. Qed.
Lemma dpcmp_lin : lincmp dpcmp.
Proof. apply lex_lin; [apply Zcmp_lin|apply str_cmp_lin]. Qed.

Lemma zltb_cmp {A} a b (x y z : A) :
  (if a <? b then x else if b <? a then y else z) = match a ?= b with Lt => x | Gt => y | Eq => z end.
Proof.
  destruct (Z.compare_spec a b) as [->|H|H].
  - rewrite Z.ltb_irrefl. reflexivity.
  - rewrite (proj2 (Z.ltb_lt a b) H). reflexivity.
  - rewrite (proj2 (Z.ltb_ge a b)) by lia. rewrite (proj2 (Z.ltb_lt b a) H). reflexivity.
Qed.
Lemma sltb_cmp {A} a b (x y z : A) :
  (if str_ltb a b then x else if str_ltb b a then y else z) = match str_cmp a b with Lt => x | Gt => y | Eq => z end.
Proof.
  unfold str_ltb. rewrite (str_cmp_anti a b). destruct (str_cmp a b); reflexivity.
Qed.
Lemma is_less_fcmp p r : is_less p r = match fcmp (fkey p) (fkey r) with Lt => true | _ => false end.
Proof.
  unfold is_less, fcmp, fkey, lex. cbn [fst snd]. rewrite zltb_cmp.
  destruct (p_date p ?= p_date r); try reflexivity. rewrite sltb_cmp.
  destruct (str_cmp (p_payee p) (p_payee r)); try reflexivity. rewrite sltb_cmp.
  destruct (str_cmp (p_sort p) (p_sort r)); try reflexivity. rewrite sltb_cmp.
  destruct (str_cmp (p_acct p) (p_acct r)); try reflexivity. rewrite zltb_cmp.
  destruct (p_level p ?= p_level r); try reflexivity.
Qed.
Lemma swo_ext {A} (f g : A -> A -> bool) : (forall a b, f a b = g a b) -> swo g -> swo f.
Proof. intros H [H1 H2]. split; intros *; rewrite !H; eauto. Qed.
Lemma is_less_swo : swo is_less.
Proof.
  eapply swo_ext; [exact is_less_fcmp|]. apply (swo_of_key fcmp fkey fcmp_lin).
Qed.
Lemma sort_exists : sort_ok is_less (isort is_less).
Proof. apply isort_ok. exact is_less_swo. Qed.

Definition kle (p q : posting) : Prop := kcmp (pkey p) (pkey q) <> Gt.
Lemma plain_fcmp p q : plain p -> plain q -> fcmp (fkey p) (fkey q) = kcmp (pkey p) (pkey q).
Proof.
  intros [H1 H2] [H3 H4]. unfold fcmp, kcmp, fkey, pkey, lex. cbn [fst snd].
  rewrite H1, H2, H3, H4. cbn [str_cmp]. rewrite Z.compare_refl. reflexivity.
Qed.
Lemma sorted_plain l : Forall plain l -> sorted_by is_less l -> StronglySorted kle l.
Proof.
  intros Hp. apply StronglySorted_impl. intros a b Ha Hb H. unfold kle.
  rewrite Forall_forall in Hp. rewrite is_less_fcmp, plain_fcmp in H by auto.
  rewrite (lc_anti _ kcmp_lin (pkey a) (pkey b)) in H. destruct (kcmp (pkey a) (pkey b)); cbn in H; congruence.
Qed.

Lemma pkey_eq a b : pkey a = pkey b <->
  p_date a = p_date b /\ p_payee a = p_payee b /\ p_acct a = p_acct b /\ p_ccy a = p_ccy b.
Proof.
  unfold pkey. split; [intros H; injection H; auto|]. intros (H1 & H2 & H3 & H4). congruence.
Qed.
Lemma same_key_eq a b : same_key a b = true <-> pkey a = pkey b.
Proof.
  unfold same_key. rewrite !andb_true_iff, Z.eqb_eq, !str_eqb_eq, pkey_eq. tauto.
Qed.
Lemma on_pkey g a b : pkey a = pkey b -> on g a = on g b.
Proof. intros H. apply pkey_eq in H as (H1 & H2 & H3 & H4). unfold on. congruence. Qed.

Lemma klt_trans a b c : klt a b -> klt b c -> klt a c.
Proof. apply (lc_trans _ kcmp_lin). Qed.
Lemma kle_lt_trans a b c : kle a b -> klt b c -> klt a c.
Proof.
  unfold kle, klt. intros H1 H2. destruct (kcmp (pkey a) (pkey b)) eqn:E; [|eapply (lc_trans _ kcmp_lin); eauto|congruence].
  apply (lc_eq _ kcmp_lin) in E. rewrite E. exact H2.
Qed.
Lemma kle_neq_lt a b : kle a b -> pkey a <> pkey b -> klt a b.
Proof.
  unfold kle, klt. intros H1 H2. destruct (kcmp (pkey a) (pkey b)) eqn:E; [|reflexivity|congruence].
  apply (lc_eq _ kcmp_lin) in E. congruence.
Qed.
Lemma klt_irrefl a : ~ klt a a.
Proof. unfold klt. rewrite (lc_refl _ kcmp_lin). discriminate. Qed.
Lemma klt_not a b : klt a b -> ~ klt b a.
Proof. intros H1 H2. apply (klt_irrefl a). eapply klt_trans; eauto. Qed.

(** ** Merging *)
Definition meta (p : posting) := (p_tnote p, p_note p, p_term p, p_level p, p_sort p).
Lemma set_val_pkey p v : pkey (set_val p v) = pkey p.
Proof. reflexivity. Qed.
Lemma merge_runs_total g : forall l cur, total g (merge_runs cur l) = total g (cur :: l).
Proof.
  induction l as [|x l IH]; intros cur; [reflexivity|]. cbn [merge_runs].
  destruct (same_key x cur) eqn:E.
  - apply same_key_eq in E. rewrite IH, !total_cons.
    rewrite (on_pkey g (set_val cur _) cur (set_val_pkey _ _)), (on_pkey g x cur E).
    cbn [set_val p_val]. destruct (on g cur); ring.
  - rewrite !total_cons, IH, total_cons. reflexivity.
Qed.
Lemma merge_all_total g l : total g (merge_all l) = total g l.
Proof. destruct l as [|x l]; [reflexivity|]. apply merge_runs_total. Qed.

Lemma merge_runs_sorted : forall l cur, StronglySorted kle (cur :: l) ->
  StronglySorted klt (merge_runs cur l) /\
  (forall z, klt z cur -> Forall (klt z) (merge_runs cur l)).
Proof.
  induction l as [|x l IH]; intros cur Hs.
  - cbn. split; [repeat constructor|]. intros z Hz. repeat constructor. exact Hz.
  - cbn [merge_runs]. inversion Hs as [|? ? Hs' Hall]; subst. inversion Hs' as [|? ? Hs'' Hall']; subst.
    inversion Hall as [|? ? Hcx Hcl]; subst.
    destruct (same_key x cur) eqn:E.
    + apply same_key_eq in E.
      destruct (IH (set_val cur (p_val cur + p_val x)%Qc)) as [H1 H2].
      { constructor; [exact Hs''|]. eapply Forall_impl; [|exact Hcl]. intros q Hq. exact Hq. }
      split; [exact H1|]. intros z Hz. apply H2. exact Hz.
    + assert (Hlt : klt cur x).
      { apply kle_neq_lt; [exact Hcx|]. intros Ek. symmetry in Ek. apply same_key_eq in Ek. congruence. }
      destruct (IH x Hs') as [H1 H2]. split.
      * constructor; [exact H1|]. apply H2. exact Hlt.
      * intros z Hz. constructor; [exact Hz|]. apply H2. eapply klt_trans; eauto.
Qed.
Lemma merge_all_sorted l : StronglySorted kle l -> StronglySorted klt (merge_all l).
Proof. destruct l as [|x l]; intros H; [constructor|]. apply merge_runs_sorted. exact H. Qed.

(** Where the output postings come from: key, notes and flags of some input posting. *)
Lemma merge_runs_origin : forall l cur p, In p (merge_runs cur l) ->
  exists q, In q (cur :: l) /\ pkey q = pkey p /\ meta q = meta p.
Proof.
  induction l as [|x l IH]; intros cur p Hin; cbn [merge_runs] in Hin.
  - destruct Hin as [<-|[]]. exists cur. split; [left; reflexivity|auto].
  - destruct (same_key x cur).
    + apply IH in Hin as (q & [<-|Hq] & H1 & H2).
      * exists cur. split; [left; reflexivity|]. auto.
      * exists q. split; [right; right; exact Hq|auto].
    + destruct Hin as [<-|Hin]; [exists cur; split; [left; reflexivity|auto]|].
      apply IH in Hin as (q & Hq & H1 & H2). exists q. split; [right; exact Hq|auto].
Qed.
Lemma merge_all_origin l p : In p (merge_all l) -> exists q, In q l /\ pkey q = pkey p /\ meta q = meta p.
Proof. destruct l as [|x l]; [contradiction|]. apply merge_runs_origin. Qed.

Lemma merge_runs_id : forall l cur, StronglySorted klt (cur :: l) -> merge_runs cur l = cur :: l.
Proof.
  induction l as [|x l IH]; intros cur Hs; [reflexivity|]. cbn [merge_runs].
  inversion Hs as [|? ? Hs' Hall]; subst. inversion Hall as [|? ? Hcx _]; subst.
  destruct (same_key x cur) eqn:E.
  - exfalso. apply same_key_eq in E. unfold klt in Hcx. rewrite E, (lc_refl _ kcmp_lin) in Hcx. discriminate.
  - f_equal. apply IH. exact Hs'.
Qed.
Lemma merge_all_id l : StronglySorted klt l -> merge_all l = l.
Proof. destruct l as [|x l]; [reflexivity|]. apply merge_runs_id. Qed.

(** ** Zero amounts *)
Lemma drop_zero_total g l : total g (drop_zero l) = total g l.
Proof.
  unfold drop_zero. induction l as [|p l IH]; [reflexivity|]. cbn [filter].
  destruct (qc_is0 (p_val p)) eqn:E; cbn [negb]; rewrite ?total_cons, IH; [|reflexivity].
  apply qc_is0_eq in E. rewrite E. destruct (on g p); ring.
Qed.
Lemma drop_zero_nz l : Forall (fun p => p_val p <> 0%Qc) (drop_zero l).
Proof.
  rewrite Forall_forall. intros p Hp. apply filter_In in Hp as [_ H].
  apply negb_true_iff in H. apply qc_is0_neq. exact H.
Qed.
Lemma drop_zero_id l : Forall (fun p => p_val p <> 0%Qc) l -> drop_zero l = l.
Proof.
  intros H. apply filter_all. eapply Forall_impl; [|exact H]. intros p Hp.
  apply negb_true_iff. apply qc_is0_neq. exact Hp.
Qed.

(** ** Running balances *)
Lemma set_bal_pkey p v : pkey (set_bal p v) = pkey p.
Proof. reflexivity. Qed.
Lemma run_bal_total g : forall l m, total g (run_bal m l) = total g l.
Proof.
  induction l as [|p l IH]; intros m; [reflexivity|]. cbn [run_bal]. rewrite !total_cons, IH. reflexivity.
Qed.
(** Postings without their balance. *)
Definition no_bal (p : posting) : posting := set_bal p 0%Qc.
Lemma run_bal_nobal : forall l m, map no_bal (run_bal m l) = map no_bal l.
Proof. induction l as [|p l IH]; intros m; [reflexivity|]. cbn [run_bal map]. rewrite IH. reflexivity. Qed.
Lemma run_bal_map {B} (f : posting -> B) : (forall p v, f (set_bal p v) = f p) ->
  forall l m, map f (run_bal m l) = map f l.
Proof. intros H. induction l as [|p l IH]; intros m; [reflexivity|]. cbn [run_bal map]. rewrite IH, H. reflexivity. Qed.
Lemma on_in_acct a c p : on (in_acct a c) p = str_eqb (p_acct p) a && str_eqb (p_ccy p) c.
Proof. reflexivity. Qed.
Lemma run_bal_spec : forall l m pre,
  (forall a c, match aget pair_eqb (a, c) m with Some v => v | None => 0%Qc end = total (in_acct a c) pre) ->
  forall l1 p l2, run_bal m l = l1 ++ p :: l2 ->
    p_bal p = total (in_acct (p_acct p) (p_ccy p)) (pre ++ l1 ++ [p]).
Proof.
  induction l as [|x l IH]; intros m pre Hm l1 p l2 E.
  - destruct l1; discriminate.
  - cbn [run_bal] in E. set (key := (p_acct x, p_ccy x)) in *.
    set (v := match aget pair_eqb key m with None => p_val x | Some v => (v + p_val x)%Qc end) in *.
    assert (Hv : v = (total (in_acct (p_acct x) (p_ccy x)) pre + p_val x)%Qc).
    { subst v key. specialize (Hm (p_acct x) (p_ccy x)).
      destruct (aget pair_eqb (p_acct x, p_ccy x) m); rewrite <- Hm; ring. }
    destruct l1 as [|y l1]; cbn [app] in E.
    + injection E as <- _. cbn [set_bal p_bal p_acct p_ccy app]. rewrite total_app, total_cons.
      rewrite on_in_acct. cbn [set_bal p_acct p_ccy p_val]. rewrite !str_eqb_refl. cbn [andb].
      rewrite total_nil, Hv. ring.
    + injection E as <- E. rewrite (IH (aset pair_eqb key v m) (pre ++ [set_bal x v])) with (l1 := l1) (l2 := l2); [|  | exact E].
      * rewrite <- app_assoc. reflexivity.
      * intros a c. rewrite total_app, total_cons, total_nil.
        destruct (pair_eqb (p_acct x, p_ccy x) (a, c)) eqn:Ek.
        -- apply pair_eqb_eq in Ek. injection Ek as <- <-. subst key. rewrite (aget_aset_eq _ pair_eqb_eq).
           rewrite on_in_acct. cbn [set_bal p_acct p_ccy p_val]. rewrite !str_eqb_refl. cbn [andb].
           rewrite Hv. ring.
        -- assert (Hn : (a, c) <> key) by (intros E2; rewrite <- E2 in *; subst key; rewrite E2 in Ek; rewrite (proj2 (pair_eqb_eq _ _) eq_refl) in Ek; discriminate).
           rewrite (aget_aset_neq _ pair_eqb_eq) by exact Hn. rewrite Hm.
           rewrite on_in_acct. cbn [set_bal p_acct p_ccy p_val].
           unfold pair_eqb in Ek. cbn [fst snd] in Ek. rewrite Ek. ring.
Qed.
Lemma run_bal_running l : running (run_bal [] l).
Proof.
  intros l1 p l2 E. rewrite (run_bal_spec l [] []) with (l1 := l1) (l2 := l2); [reflexivity| |exact E].
  intros a c. reflexivity.
Qed.
(** Balances are a function of the rest. *)
Lemma run_bal_nobal_eq : forall l l' m, map no_bal l = map no_bal l' -> run_bal m l = run_bal m l'.
Proof.
  induction l as [|p l IH]; intros [|q l'] m H; try discriminate; [reflexivity|].
  cbn [map] in H. injection H as H1 H2 H3 H4 H5 H6 H7 H8 H9 H10 H11.
  cbn [run_bal]. rewrite H4, H5, H6. f_equal.
  - unfold set_bal. congruence.
  - apply IH. exact H11.
Qed.
Lemma run_bal_idem l m : run_bal m (run_bal m l) = run_bal m l.
Proof. apply run_bal_nobal_eq. apply run_bal_nobal. Qed.

(** Sums and order do not see balances. *)
Lemma sorted_pkey_iff l : StronglySorted klt l <-> StronglySorted (fun a b => kcmp a b = Lt) (map pkey l).
Proof. apply (StronglySorted_map pkey (fun a b => kcmp a b = Lt)). Qed.
Lemma run_bal_pkeys l m : map pkey (run_bal m l) = map pkey l.
Proof. apply run_bal_map. reflexivity. Qed.

(** ** Grouping *)
Definition dple (p q : posting) : Prop := dpcmp (dp p) (dp q) <> Gt.
Lemma same_dp_test x f :
  negb (p_date x =? p_date f) || negb (str_eqb (p_payee x) (p_payee f)) = false <-> dp x = dp f.
Proof.
  rewrite orb_false_iff, !negb_false_iff, Z.eqb_eq, str_eqb_eq. unfold dp.
  split; [intros [-> ->]; reflexivity|intros H; injection H; auto].
Qed.
Lemma dple_neq_lt a b : dple a b -> dp a <> dp b -> dplt a b.
Proof.
  unfold dple, dplt. intros H1 H2. destruct (dpcmp (dp a) (dp b)) eqn:E; [|reflexivity|congruence].
  apply (lc_eq _ dpcmp_lin) in E. congruence.
Qed.
Lemma dp_lt_le a b c : dplt a b -> dple b c -> dplt a c.
Proof.
  unfold dple, dplt. intros H1 H2. destruct (dpcmp (dp b) (dp c)) eqn:E; [|eapply (lc_trans _ dpcmp_lin); eauto|congruence].
  apply (lc_eq _ dpcmp_lin) in E. rewrite <- E. exact H1.
Qed.
Lemma group_runs_concat : forall l first acc, concat (group_runs first acc l) = rev acc ++ l.
Proof.
  induction l as [|x l IH]; intros first acc; cbn [group_runs].
  - cbn. rewrite !app_nil_r. reflexivity.
  - destruct (negb _ || negb _).
    + cbn [concat]. rewrite IH. reflexivity.
    + rewrite IH. cbn [rev]. rewrite <- app_assoc. reflexivity.
Qed.
Lemma group_all_concat l : concat (group_all l) = l.
Proof. destruct l as [|x l]; [reflexivity|]. cbn [group_all]. rewrite group_runs_concat. reflexivity. Qed.

Lemma group_runs_spec : forall l first acc,
  acc <> [] -> (forall p, In p acc -> dp p = dp first) ->
  StronglySorted dple (first :: l) ->
  well_grouped (group_runs first acc l) /\
  (forall z, dplt z first -> Forall (fun t => forall q, In q t -> dplt z q) (group_runs first acc l)).
Proof.
  induction l as [|x l IH]; intros first acc Hne Hacc Hs.
  - cbn [group_runs]. split; [split|].
    + constructor; [|constructor]. split.
      * intros E. apply Hne. rewrite <- (rev_involutive acc), E. reflexivity.
      * intros p q Hp Hq. rewrite <- in_rev in Hp, Hq. rewrite (Hacc p Hp), (Hacc q Hq). reflexivity.
    + repeat constructor.
    + intros z Hz. constructor; [|constructor]. intros q Hq. rewrite <- in_rev in Hq.
      unfold dplt in *. rewrite (Hacc q Hq). exact Hz.
  - cbn [group_runs]. inversion Hs as [|? ? Hs' Hall]; subst. inversion Hs' as [|? ? Hs'' Hall']; subst.
    inversion Hall as [|? ? Hfx Hfl]; subst.
    destruct (negb _ || negb _) eqn:E.
    + assert (Hlt : dplt first x).
      { apply dple_neq_lt; [exact Hfx|]. intros Ed. symmetry in Ed. apply same_dp_test in Ed. congruence. }
      destruct (IH x [x]) as [[W1 W2] W3]; [discriminate| |exact Hs'|].
      { intros p [<-|[]]. reflexivity. }
      split; [split|].
      * constructor; [|exact W1]. split.
        -- intros E0. apply Hne. rewrite <- (rev_involutive acc), E0. reflexivity.
        -- intros p q Hp Hq. rewrite <- in_rev in Hp, Hq. rewrite (Hacc p Hp), (Hacc q Hq). reflexivity.
      * constructor; [exact W2|]. rewrite Forall_forall. intros t Ht p q Hp Hq. rewrite <- in_rev in Hp.
        specialize (W3 first Hlt). rewrite Forall_forall in W3. specialize (W3 t Ht q Hq).
        unfold dplt in *. rewrite (Hacc p Hp). exact W3.
      * intros z Hz. constructor.
        -- intros q Hq. rewrite <- in_rev in Hq. unfold dplt in *. rewrite (Hacc q Hq). exact Hz.
        -- apply W3. eapply dp_lt_le; [exact Hz|exact Hfx].
    + apply same_dp_test in E. apply IH.
      * discriminate.
      * intros p [<-|Hp]; [exact E|apply Hacc; exact Hp].
      * constructor; [exact Hs''|exact Hfl].
Qed.
Lemma group_all_spec l : StronglySorted dple l -> well_grouped (group_all l).
Proof.
  destruct l as [|x l]; intros Hs; [split; constructor|].
  cbn [group_all]. apply group_runs_spec; [discriminate| |exact Hs]. intros p [<-|[]]. reflexivity.
Qed.
Lemma klt_dple p q : klt p q -> dple p q.
Proof.
  unfold klt, dple, kcmp, dpcmp, pkey, dp, lex. cbn [fst snd].
  destruct (p_date p ?= p_date q); try congruence. destruct (str_cmp (p_payee p) (p_payee q)); congruence.
Qed.
(** Grouping is determined by the concatenation. *)
Lemma well_grouped_group_all ts : well_grouped ts -> group_all (concat ts) = ts.
Proof.
  intros [H1 H2].
  assert (Haux : forall ts', Forall (fun t => t <> [] /\ (forall p q, In p t -> In q t -> dp p = dp q)) ts' ->
            StronglySorted (fun t u => forall p q, In p t -> In q u -> dplt p q) ts' ->
            forall first acc more, acc <> [] -> (forall p, In p (acc ++ more) -> dp p = dp first) ->
              Forall (fun t => forall q, In q t -> dplt first q) ts' ->
              group_runs first acc (more ++ concat ts') = (rev acc ++ more) :: ts').
  { induction ts' as [|t ts' IH]; intros G1 G2 first acc more Hne Hacc Hlt.
    - cbn [concat]. rewrite app_nil_r. revert acc Hne Hacc.
      induction more as [|x more IHm]; intros acc Hne Hacc; cbn [group_runs].
      + rewrite app_nil_r. reflexivity.
      + assert (E : dp x = dp first) by (apply Hacc; apply in_app_iff; right; left; reflexivity).
        apply same_dp_test in E. rewrite E. rewrite IHm.
        * cbn [rev]. rewrite <- app_assoc. reflexivity.
        * discriminate.
        * intros p Hp. apply Hacc. cbn in Hp. rewrite in_app_iff in *. cbn. tauto.
    - revert acc Hne Hacc. induction more as [|x more IHm]; intros acc Hne Hacc.
      + cbn [app concat]. inversion G1 as [|? ? [Gne Gu] G1']; subst. inversion G2 as [|? ? G2' Gall]; subst.
        destruct t as [|y t]; [congruence|]. cbn [app group_runs].
        assert (E : negb (p_date y =? p_date first) || negb (str_eqb (p_payee y) (p_payee first)) = true).
        { apply not_false_iff_true. intros E. apply same_dp_test in E. rewrite Forall_forall in Hlt.
          specialize (Hlt (y :: t) (or_introl eq_refl) y (or_introl eq_refl)). unfold dplt in Hlt.
          rewrite E, (lc_refl _ dpcmp_lin) in Hlt. discriminate. }
        rewrite E, app_nil_r. f_equal. rewrite (IH G1' G2' y [y] t).
        * reflexivity.
        * discriminate.
        * intros p Hp. apply Gu; [exact Hp|left; reflexivity].
        * rewrite Forall_forall in *. intros u Hu q Hq. apply (Gall u Hu y q); [left; reflexivity|exact Hq].
      + cbn [app group_runs].
        assert (E : dp x = dp first) by (apply Hacc; apply in_app_iff; right; left; reflexivity).
        apply same_dp_test in E. rewrite E. rewrite IHm.
        * cbn [rev]. rewrite <- app_assoc. reflexivity.
        * discriminate.
        * intros p Hp. apply Hacc. cbn in Hp. rewrite in_app_iff in *. cbn. tauto. }
  destruct ts as [|t ts]; [reflexivity|].
  inversion H1 as [|? ? [Gne Gu] G1']; subst. inversion H2 as [|? ? G2' Gall]; subst.
  destruct t as [|y t]; [congruence|]. cbn [concat app group_all].
  rewrite (Haux ts G1' G2' y [y] t); [reflexivity|discriminate| |].
  - intros p Hp. apply Gu; [exact Hp|left; reflexivity].
  - rewrite Forall_forall in *. intros u Hu q Hq. apply (Gall u Hu y q); [left; reflexivity|exact Hq].
Qed.

(** ** compact *)
Section Compact.
  Variable srt : list posting -> list posting.
  Hypothesis Hsrt : sort_ok is_less srt.

  Definition cposts (l : list posting) : list posting := run_bal [] (drop_zero (merge_all (srt l))).

  Lemma compact_eq b : bk_post b <> [] ->
    compact srt b = mkBook (cposts (bk_post b)) (group_all (cposts (bk_post b))) (bk_prices b) (bk_ccy b).
  Proof. unfold compact, cposts. destruct (bk_post b); [congruence|reflexivity]. Qed.
  Lemma compact_nil b : bk_post b = [] -> compact srt b = b.
  Proof. unfold compact. intros ->. reflexivity. Qed.

  Lemma cposts_total g l : total g (cposts l) = total g l.
  Proof.
    unfold cposts. rewrite run_bal_total, drop_zero_total, merge_all_total.
    symmetry. apply total_perm. apply Hsrt.
  Qed.
  Lemma srt_plain l : Forall plain l -> Forall plain (srt l).
  Proof.
    rewrite !Forall_forall. intros H p Hp. apply H. eapply Permutation_in; [symmetry; apply Hsrt|exact Hp].
  Qed.
  Lemma cposts_canonical l : Forall plain l -> canonical (cposts l).
  Proof.
    intros Hp. unfold cposts. split.
    - apply sorted_pkey_iff. rewrite run_bal_pkeys. apply sorted_pkey_iff.
      apply StronglySorted_filter. apply merge_all_sorted. apply sorted_plain; [apply srt_plain; exact Hp|apply Hsrt].
    - pose proof (drop_zero_nz (merge_all (srt l))) as H.
      rewrite <- (Forall_map p_val (fun v => v <> 0%Qc)) in *. rewrite run_bal_map by reflexivity. exact H.
  Qed.
  Lemma run_bal_in m l p : In p (run_bal m l) -> exists q, In q l /\ p = set_bal q (p_bal p).
  Proof.
    revert m. induction l as [|x l IH]; intros m; cbn [run_bal]; [contradiction|].
    intros [<-|Hin]; [exists x; split; [left|]; reflexivity|].
    destruct (IH _ Hin) as (q & Hq & E). exists q. split; [right; exact Hq|exact E].
  Qed.
  Lemma cposts_origin l p : In p (cposts l) -> exists q, In q l /\ pkey q = pkey p /\ meta q = meta p.
  Proof.
    intros Hin. apply run_bal_in in Hin as (q & Hq & E). apply filter_In in Hq as [Hq _].
    apply merge_all_origin in Hq as (r & Hr & Hk & Hm). exists r. split.
    - eapply Permutation_in; [symmetry; apply Hsrt|exact Hr].
    - rewrite E. split; [exact Hk|exact Hm].
  Qed.
  Lemma meta_plain p q : meta p = meta q -> plain p -> plain q.
  Proof. unfold meta, plain. intros H [H1 H2]. injection H as _ _ _ H3 H4. split; congruence. Qed.
  Lemma cposts_plain l : Forall plain l -> Forall plain (cposts l).
  Proof.
    rewrite !Forall_forall. intros H p Hp. apply cposts_origin in Hp as (q & Hq & _ & Hm).
    eapply meta_plain; [exact Hm|]. apply H. exact Hq.
  Qed.
  Lemma cposts_running l : running (cposts l).
  Proof. apply run_bal_running. Qed.
  Lemma canonical_dple l : canonical l -> StronglySorted dple l.
  Proof. intros [H _]. eapply StronglySorted_impl; [|exact H]. intros a b _ _ Hk. apply klt_dple. exact Hk. Qed.
  Lemma cposts_grouped l : Forall plain l -> well_grouped (group_all (cposts l)).
  Proof. intros H. apply group_all_spec. apply canonical_dple. apply cposts_canonical. exact H. Qed.

  (** Canonical lists with equal totals are equal up to notes: the result does not depend on the sort. *)
  Lemma at_key_on p q : on (at_key (p_date p) (p_payee p) (p_acct p) (p_ccy p)) q = true <-> pkey q = pkey p.
  Proof.
    unfold on, at_key. rewrite !andb_true_iff, Z.eqb_eq, !str_eqb_eq, pkey_eq. tauto.
  Qed.
  Lemma total_above p l : Forall (klt p) l -> total (at_key (p_date p) (p_payee p) (p_acct p) (p_ccy p)) l = 0%Qc.
  Proof.
    intros H. apply total_none. intros q Hq. apply not_true_iff_false. rewrite at_key_on. intros E.
    rewrite Forall_forall in H. specialize (H q Hq). unfold klt in H. rewrite E, (lc_refl _ kcmp_lin) in H. discriminate.
  Qed.
  Lemma canonical_unique : forall l l', canonical l -> canonical l' ->
    (forall d pay a c, total (at_key d pay a c) l = total (at_key d pay a c) l') ->
    map (fun p => (pkey p, p_val p)) l = map (fun p => (pkey p, p_val p)) l'.
  Proof.
    assert (Hhd : forall p l q l', canonical (p :: l) -> canonical (q :: l') ->
              (forall d pay a c, total (at_key d pay a c) (p :: l) = total (at_key d pay a c) (q :: l')) ->
              ~ klt p q).
    { intros p l q l' [Hs Hn] [Hs' Hn'] Ht Hlt.
      specialize (Ht (p_date p) (p_payee p) (p_acct p) (p_ccy p)).
      inversion Hs as [|? ? _ Hall]; subst. inversion Hs' as [|? ? _ Hall']; subst.
      rewrite total_cons, (total_above p l Hall) in Ht.
      rewrite (proj2 (at_key_on p p) eq_refl) in Ht.
      rewrite (total_above p (q :: l')) in Ht.
      - inversion Hn as [|? ? H1 _]; subst. apply H1. rewrite <- Ht. ring.
      - constructor; [exact Hlt|]. eapply Forall_impl; [|exact Hall']. intros r Hr. eapply klt_trans; eauto. }
    induction l as [|p l IH]; intros [|q l'] Hc Hc' Ht.
    - reflexivity.
    - exfalso. destruct Hc' as [Hs Hn]. inversion Hs as [|? ? _ Hall]; subst. inversion Hn as [|? ? H1 _]; subst.
      specialize (Ht (p_date q) (p_payee q) (p_acct q) (p_ccy q)).
      rewrite total_cons, (total_above q l' Hall), (proj2 (at_key_on q q) eq_refl), total_nil in Ht.
      apply H1. rewrite Ht. ring.
    - exfalso. destruct Hc as [Hs Hn]. inversion Hs as [|? ? _ Hall]; subst. inversion Hn as [|? ? H1 _]; subst.
      specialize (Ht (p_date p) (p_payee p) (p_acct p) (p_ccy p)).
      rewrite total_cons, (total_above p l Hall), (proj2 (at_key_on p p) eq_refl), total_nil in Ht.
      apply H1. rewrite <- Ht. ring.
    - assert (Ek : pkey p = pkey q).
      { pose proof (Hhd _ _ _ _ Hc Hc' Ht) as H1.
        pose proof (Hhd _ _ _ _ Hc' Hc (fun d pay a c => eq_sym (Ht d pay a c))) as H2.
        unfold klt in *. destruct (kcmp (pkey p) (pkey q)) eqn:E; [apply (lc_eq _ kcmp_lin); exact E|congruence|].
        apply (lc_gt_lt _ kcmp_lin) in E. congruence. }
      destruct Hc as [Hs Hn], Hc' as [Hs' Hn'].
      inversion Hs as [|? ? Hs1 Hall]; subst. inversion Hs' as [|? ? Hs1' Hall']; subst.
      inversion Hn as [|? ? Hn1 Hn2]; subst. inversion Hn' as [|? ? Hn1' Hn2']; subst.
      assert (Ev : p_val p = p_val q).
      { specialize (Ht (p_date p) (p_payee p) (p_acct p) (p_ccy p)).
        rewrite !total_cons, (total_above p l Hall), (proj2 (at_key_on p p) eq_refl) in Ht.
        rewrite (proj2 (at_key_on p q) (eq_sym Ek)) in Ht.
        rewrite (total_above p l') in Ht.
        - replace (p_val p) with (p_val p + 0)%Qc by ring. rewrite Ht. ring.
        - eapply Forall_impl; [|exact Hall']. intros r Hr. unfold klt in *. rewrite Ek. exact Hr. }
      cbn [map]. rewrite Ek, Ev. f_equal. apply IH.
      + split; assumption.
      + split; assumption.
      + intros d pay a c. specialize (Ht d pay a c). rewrite !total_cons in Ht.
        rewrite (on_pkey _ p q Ek), Ev in Ht.
        set (x := if on (at_key d pay a c) q then p_val q else 0%Qc) in *.
        replace (total (at_key d pay a c) l) with (- x + (x + total (at_key d pay a c) l))%Qc by ring.
        rewrite Ht. ring.
  Qed.

  (** Idempotence *)
  Lemma srt_canonical_id l : Forall plain l -> StronglySorted klt l -> srt l = l.
  Proof.
    intros Hp Hs. destruct (Hsrt l) as [Hperm Hsorted].
    pose proof (sorted_plain _ (srt_plain l Hp) Hsorted) as Hs2.
    clear Hsorted Hp. revert Hperm Hs2. generalize (srt l). intros m. revert l Hs.
    induction m as [|y m IH]; intros l Hs Hperm Hs2.
    - symmetry in Hperm. apply Permutation_nil in Hperm. symmetry. exact Hperm.
    - destruct l as [|x l]; [apply Permutation_nil in Hperm; discriminate|].
      inversion Hs as [|? ? Hs' Hall]; subst. inversion Hs2 as [|? ? Hs2' Hall2]; subst.
      rewrite Forall_forall in Hall, Hall2.
      assert (x = y).
      { assert (Hy : In y (x :: l)) by (eapply Permutation_in; [symmetry; exact Hperm|left; reflexivity]).
        destruct Hy as [->|Hy]; [reflexivity|].
        assert (Hx : In x (y :: m)) by (eapply Permutation_in; [exact Hperm|left; reflexivity]).
        destruct Hx as [->|Hx]; [reflexivity|].
        exfalso. apply (Hall2 x Hx). apply (lc_gt_lt _ kcmp_lin). apply (Hall y Hy). }
      subst y. f_equal. apply IH; [exact Hs'| |exact Hs2'].
      apply Permutation_cons_inv in Hperm. exact Hperm.
  Qed.
  Lemma cposts_idem l : Forall plain l -> cposts (cposts l) = cposts l.
  Proof.
    intros Hp. pose proof (cposts_canonical l Hp) as [Hs Hn].
    unfold cposts at 1. rewrite srt_canonical_id by (try apply cposts_plain; assumption).
    rewrite merge_all_id by exact Hs. rewrite drop_zero_id by exact Hn. apply run_bal_idem.
  Qed.
  Lemma compact_idem b : Forall plain (bk_post b) -> compact srt (compact srt b) = compact srt b.
  Proof.
    intros Hp. destruct (bk_post b) as [|x l] eqn:E.
    - rewrite !(compact_nil b) by exact E. reflexivity.
    - rewrite (compact_eq b) by (rewrite E; discriminate).
      destruct (cposts (bk_post b)) as [|y m] eqn:E2; [reflexivity|].
      rewrite compact_eq by discriminate. cbn [bk_post bk_prices bk_ccy]. rewrite <- E2.
      rewrite cposts_idem; [reflexivity|]. rewrite E. exact Hp.
  Qed.

  Lemma compact_total g b : total g (bk_post (compact srt b)) = total g (bk_post b).
  Proof.
    destruct (bk_post b) as [|x l] eqn:E.
    - rewrite compact_nil by exact E. rewrite E. reflexivity.
    - rewrite compact_eq by (rewrite E; discriminate). cbn [bk_post]. rewrite E. apply cposts_total.
  Qed.
  Lemma compact_ok b : Forall plain (bk_post b) -> balanced (bk_post b) ->
    (bk_post b = [] -> bk_trans b = []) -> book_ok (compact srt b).
  Proof.
    intros Hp Hb Hnil. destruct (bk_post b) as [|x l] eqn:E.
    - rewrite compact_nil by exact E. unfold book_ok. rewrite E, (Hnil eq_refl). repeat split; auto; constructor.
    - assert (Hne : bk_post b <> []) by (rewrite E; discriminate). rewrite compact_eq by exact Hne. rewrite <- E in *.
      unfold book_ok. cbn [bk_post bk_trans]. split; [apply cposts_plain; exact Hp|].
      split; [apply group_all_concat|]. split; [apply cposts_grouped; exact Hp|].
      intros d pay c. rewrite cposts_total. apply Hb.
  Qed.
  Lemma compact_canonical b : Forall plain (bk_post b) ->
    canonical (bk_post (compact srt b)) /\ (bk_post b <> [] -> running (bk_post (compact srt b))).
  Proof.
    intros Hp. destruct (bk_post b) as [|x l] eqn:E.
    - rewrite compact_nil by exact E. rewrite E. split; [split; constructor|congruence].
    - assert (Hne : bk_post b <> []) by (rewrite E; discriminate). rewrite compact_eq by exact Hne. cbn [bk_post].
      split; [apply cposts_canonical; rewrite E; exact Hp|]. intros _. apply cposts_running.
  Qed.
  Lemma book_ok_nil b : book_ok b -> bk_post b = [] -> bk_trans b = [].
  Proof.
    intros (_ & Hc & [Hg _] & _) E. rewrite E in Hc. destruct (bk_trans b) as [|t ts]; [reflexivity|].
    inversion Hg as [|? ? [Hne _] _]; subst. destruct t; [congruence|discriminate].
  Qed.
End Compact.
(** A list that already carries its running balances is not changed by recomputing them. *)
Lemma run_bal_fixed : forall l m pre,
  (forall a c, match aget pair_eqb (a, c) m with Some v => v | None => 0%Qc end = total (in_acct a c) pre) ->
  (forall l1 p l2, l = l1 ++ p :: l2 -> p_bal p = total (in_acct (p_acct p) (p_ccy p)) (pre ++ l1 ++ [p])) ->
  run_bal m l = l.
Proof.
  induction l as [|x l IH]; intros m pre Hm Hr; [reflexivity|]. cbn [run_bal].
  set (v := match aget pair_eqb (p_acct x, p_ccy x) m with None => p_val x | Some v => (v + p_val x)%Qc end).
  assert (Hv : v = (total (in_acct (p_acct x) (p_ccy x)) pre + p_val x)%Qc).
  { subst v. specialize (Hm (p_acct x) (p_ccy x)). destruct (aget pair_eqb (p_acct x, p_ccy x) m); rewrite <- Hm; ring. }
  assert (Hx : p_bal x = v).
  { rewrite (Hr [] x l eq_refl). cbn [app]. rewrite total_app, total_cons, total_nil, on_in_acct, !str_eqb_refl. cbn [andb]. rewrite Hv. ring. }
  f_equal.
  - rewrite <- Hx. destruct x; reflexivity.
  - apply (IH _ (pre ++ [x])).
    + intros a c. rewrite total_app, total_cons, total_nil, on_in_acct.
      destruct (pair_eqb (p_acct x, p_ccy x) (a, c)) eqn:Ek.
      * apply pair_eqb_eq in Ek. injection Ek as <- <-. rewrite (aget_aset_eq _ pair_eqb_eq), !str_eqb_refl. cbn [andb]. rewrite Hv. ring.
      * assert (Hn : (a, c) <> (p_acct x, p_ccy x)) by (intros E2; rewrite E2, (proj2 (pair_eqb_eq _ _) eq_refl) in Ek; discriminate).
        rewrite (aget_aset_neq _ pair_eqb_eq) by exact Hn. rewrite Hm. unfold pair_eqb in Ek. cbn [fst snd] in Ek. rewrite Ek. ring.
    + intros l1 p l2 E. rewrite (Hr (x :: l1) p l2) by (rewrite E; reflexivity). rewrite <- app_assoc. reflexivity.
Qed.
Lemma running_fixed l : running l -> run_bal [] l = l.
Proof. intros H. apply (run_bal_fixed l [] []); [reflexivity|]. intros l1 p l2 E. apply (H l1 p l2 E). Qed.
