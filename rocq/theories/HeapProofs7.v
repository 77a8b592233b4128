(** * HeapProofs7: careful programs; the values of a program are books built and manipulated by calls. *)
From Verif Require Import Base Dec DateModel PriceModel BookModel BookSpec BookProofs BuilderProofs OpsModel OpsProofs OpsProofs2 RegisterModel RegisterSpec RegisterProofs
  AccumModel AccumSpec AccumProofs AccumProofs2 AccumProofs3 HeapModel HeapSpec HeapProofs HeapProofs2 HeapProofs3 HeapProofs4 HeapProofs5 HeapProofs6.
Local Open Scope nat_scope.

Lemma adds_eq srt b : sort_ok is_less srt -> book_ok b ->
  adds (compact srt b) = Ok (concat (map (fill_of (acct_list (bk_post (compact srt b)))) (bk_trans (compact srt b)))).
Proof.
  intros Hsrt Hok. pose proof (compact_book_ok srt Hsrt b Hok) as (Hpl & HT & Hg & _). pose proof (proj1 (compact_canonical srt Hsrt b (proj1 Hok))) as [Hs _].
  unfold adds. destruct (bk_post (compact srt b)) as [|p l] eqn:Ep.
  - apply concat_nil_grouped in HT; [|exact Hg]. rewrite HT. reflexivity.
  - destruct (acct_list_spec (p :: l)) as (Ha1 & Ha2 & Ha3). set (acl := acct_list (p :: l)) in *. set (T := bk_trans (compact srt b)) in *. rewrite <- HT at 2. apply fill_all_spec; [exact Ha1|exact Hg| | | |].
    + rewrite <- HT in Hs. apply sorted_concat_each in Hs. destruct Hg as (Hf & _). rewrite Forall_forall in *. intros t Ht. specialize (Hs t Ht). destruct (Hf t Ht) as [_ Hu].
      clear - Hs Hu. induction t as [|q t IH]; cbn [map]; constructor; apply StronglySorted_inv in Hs as [Hs Hp].
      * apply IH; [exact Hs|]. intros x y Hx Hy. apply Hu; right; assumption.
      * rewrite Forall_forall in *. intros k Hk. apply in_map_iff in Hk as (r & <- & Hr). specialize (Hp r Hr). specialize (Hu q r (or_introl eq_refl) (or_intror Hr)).
        unfold klt, kcmp, pkey in Hp. unfold dp in Hu. injection Hu as E1 E2. unfold lex in Hp. cbn [fst snd] in Hp. rewrite E1, E2 in Hp.
        rewrite Z.compare_refl, (lc_refl _ str_cmp_lin) in Hp. exact Hp.
    + intros t k Ht Hk. apply Ha3. rewrite <- HT. apply in_map_iff in Hk as (q & <- & Hq). apply in_map. apply in_concat. eauto.
    + apply Nat.lt_succ_r. rewrite <- HT. clear - Hg. destruct Hg as (Hf & _). induction Hf as [|t T [Hn _] _ IH]; [cbn; lia|]. cbn [concat length]. rewrite app_length. destruct t; [congruence|]. cbn [length]. lia.
    + rewrite HT. reflexivity.
Qed.
Lemma filter_len_same {A} (f g : A -> bool) a b : Permutation a b -> (forall x, f x = g x) -> length (filter f a) = length (filter g b).
Proof.
  intros Hp He. rewrite (filter_ext f g He). clear f He. induction Hp as [|x l l' _ IH|x y l|l l' l'' _ IH1 _ IH2]; [reflexivity| | |congruence].
  - cbn. destruct (g x); cbn; rewrite IH; reflexivity.
  - cbn. destruct (g x), (g y); reflexivity.
Qed.
Lemma adds_length srt b : sort_ok is_less srt -> book_ok b ->
  length (concat (map (fill_of (acct_list (bk_post (compact srt b)))) (bk_trans (compact srt b)))) = added (bk_trans (compact srt b)).
Proof.
  intros Hsrt Hok. pose proof (compact_book_ok srt Hsrt b Hok) as (_ & HT & (Hf & _) & _). unfold added. destruct (acct_list_spec (bk_post (compact srt b))) as (_ & Hn & Hin). rewrite HT.
  set (acl := acct_list _) in *. set (keys := nodup pair_dec (pairs_of (bk_post (compact srt b)))).
  assert (Hp : Permutation acl keys).
  { apply NoDup_Permutation; [exact Hn|apply NoDup_nodup|]. intros k. rewrite Hin. unfold keys. rewrite nodup_In. reflexivity. }
  clearbody acl keys. clear - Hf Hp. revert Hf. generalize (bk_trans (compact srt b)). intros T Hf. induction Hf as [|t T [Ht _] _ IH]; [reflexivity|].
  cbn [map concat flat_map]. rewrite !app_length, IH. f_equal. destruct t as [|p t]; [congruence|]. cbn [fill_of]. rewrite map_length. unfold missing. apply filter_len_same; [exact Hp|].
  intros k. destruct (in_dec pair_dec k (pairs_of (p :: t))) as [Hi|Hi].
  - change (pairs_of (p :: t)) with (map ac (p :: t)) in Hi. apply mem_pair_In in Hi. rewrite Hi. reflexivity.
  - change (pairs_of (p :: t)) with (map ac (p :: t)) in Hi. destruct (mem_pair k (map ac (p :: t))) eqn:E; [apply mem_pair_In in E; contradiction|reflexivity].
Qed.
Lemma sorted_nodup l : StronglySorted klt l -> NoDup l.
Proof.
  induction 1 as [|p l _ IH Hp]; constructor; [|exact IH]. intros Hi. rewrite Forall_forall in Hp. exact (klt_irrefl _ (Hp p Hi)).
Qed.

Section Careful.
  Variable ord : list posting -> list nat.
  Variable grow : nat -> nat.
  Variable it : list posting -> list str -> list str.
  Variable micro : Qc -> Z.
  Hypothesis Hord : order_ok ord.
  Hypothesis Hsrt : sort_ok is_less (srt_of ord).
  Notation srt := (srt_of ord).

  Lemma spared_acc m hb vb m1 hb1 : RB m hb vb -> book_ok vb -> hcompact ord m hb = (m1, hb1) -> spared ord m hb -> acc_spared ord m1 hb1 (compact srt vb).
  Proof.
    intros HR Hok Ec Hsp. destruct (compact_RB ord Hord m hb vb HR) as (m1' & hb1' & Ec' & HR1 & _). rewrite Ec in Ec'. injection Ec' as <- <-.
    unfold spared in Hsp. rewrite Ec in Hsp.
    assert (Et : map (look_slice m1) (hb_trans hb1) = bk_trans (compact srt vb)) by (rewrite <- (RB_read _ _ _ HR1); reflexivity). rewrite Et in Hsp.
    intros add Hadd. rewrite (adds_eq srt vb Hsrt Hok) in Hadd. injection Hadd as Hadd. pose proof (adds_length srt vb Hsrt Hok) as Hlen. rewrite Hadd in Hlen. rewrite <- Hlen in Hsp.
    destruct Hsp as [H0|Hlt]; [left|right; exact Hlt]. split; [apply length_zero_iff_nil; exact H0|].
    pose proof (proj1 (compact_canonical srt Hsrt vb (proj1 Hok))) as [Hs _]. split; [apply sorted_nodup; exact Hs|]. apply (srt_canonical_id srt Hsrt); [|exact Hs].
    apply (compact_book_ok srt Hsrt vb Hok).
  Qed.

  (** *** Values are reachable *)
  Definition good (dead : list nat) (vs : list vobj) : Prop :=
    forall k, match nth_error vs k with
              | Some (ValB b) => reachable srt b
              | Some (ValU u) => ~ In k dead -> exists cs, bsteps new_builder cs = Ok u
              | None => True
              end.
  Lemma good_upd dead vs k v : good dead vs -> match v with ValB b => reachable srt b | ValU u => ~ In k dead -> exists cs, bsteps new_builder cs = Ok u end -> good dead (upd k v vs).
  Proof.
    intros Hg Hv j. destruct (nth_error (upd k v vs) j) as [w|] eqn:E; [|exact I]. apply nth_error_upd_inv in E as [[-> ->]|[Hne E]]; [exact Hv|]. specialize (Hg j). rewrite E in Hg. exact Hg.
  Qed.
  Lemma good_snoc dead vs v : good dead vs -> match v with ValB b => reachable srt b | ValU u => exists cs, bsteps new_builder cs = Ok u end -> good dead (vs ++ [v]).
  Proof.
    intros Hg Hv j. destruct (nth_error (vs ++ [v]) j) as [w|] eqn:E; [|exact I]. apply nth_error_snoc_inv in E as [[-> ->]|[Hl E]]; [destruct v; [intros _|]; exact Hv|]. specialize (Hg j). rewrite E in Hg. exact Hg.
  Qed.
  Lemma good_dead dead vs k : good dead vs -> good (k :: dead) vs.
  Proof. intros Hg j. specialize (Hg j). destruct (nth_error vs j) as [[u|b]|]; [|exact Hg|exact I]. intros Hn. apply Hg. intros Hi. apply Hn. right. exact Hi. Qed.
  Lemma good_book dead vs k b : good dead vs -> val_book vs k = Ok b -> reachable srt b.
  Proof. intros Hg E. specialize (Hg k). unfold val_book in E. destruct (nth_error vs k) as [[u|b']|]; try discriminate. injection E as <-. exact Hg. Qed.
  Lemma good_builder dead vs k u : good dead vs -> ~ In k dead -> val_builder vs k = Ok u -> exists cs, bsteps new_builder cs = Ok u.
  Proof. intros Hg Hk E. specialize (Hg k). unfold val_builder in E. destruct (nth_error vs k) as [[u'|b']|]; try discriminate. injection E as <-. exact (Hg Hk). Qed.
  Lemma bsteps_app cs : forall u c, bsteps u (cs ++ [c]) = obind (bsteps u cs) (fun u' => bstep u' c).
  Proof.
    induction cs as [|c0 cs IH]; intros u c; cbn [app bsteps obind]; [destruct (bstep u c); reflexivity|]. destruct (bstep u c0); cbn [obind]; [apply IH| | |]; reflexivity.
  Qed.
  Lemma compact_reach b : reachable srt b -> reachable srt (compact srt b).
  Proof. intros H. apply (reach_op srt OTransactions b); [exact H|cbn; discriminate|reflexivity]. Qed.
  Lemma vstep_good c dead vs vs' : good dead vs -> match c with KCall k _ | KBuild k => ~ In k dead | _ => True end ->
    vstep srt it micro c vs = Ok vs' -> good (dead_after c dead) vs'.
  Proof.
    intros Hg Ht E. destruct c as [|k c|k|k o|k j|k j ord1 ord2 dist refacct|k|k to dv cr hid]; cbn [vstep dead_after] in *.
    - injection E as <-. apply good_snoc; [exact Hg|]. exists []. reflexivity.
    - apply obind_Ok in E as (u & Eu & E). apply obind_Ok in E as (u' & Es & E). injection E as <-. apply good_upd; [exact Hg|]. intros _. destruct (good_builder _ _ _ _ Hg Ht Eu) as [cs Hcs].
      exists (cs ++ [c]). rewrite bsteps_app, Hcs. exact Es.
    - apply obind_Ok in E as (u & Eu & E). apply obind_Ok in E as (u' & Ec & E). apply obind_Ok in E as (b & Eb & E). injection E as <-. destruct (good_builder _ _ _ _ Hg Ht Eu) as [cs Hcs].
      apply good_snoc; [apply good_upd; [apply good_dead; exact Hg|intros Hn; destruct Hn; left; reflexivity]|]. apply (reach_build srt cs). unfold build_calls. rewrite Hcs. exact Eb.
    - apply obind_Ok in E as (b & Eb & E). destruct (other_book o) eqn:Eo; [discriminate|]. apply obind_Ok in E as (b' & Er & E). injection E as <-.
      apply good_upd; [exact Hg|]. apply (reach_op srt o b); [exact (good_book _ _ _ _ Hg Eb)|intros ob H; congruence|exact Er].
    - apply obind_Ok in E as (mb & Em & E). apply obind_Ok in E as (b & Eb & E). apply obind_Ok in E as (x & Ex & E). injection E as <-.
      pose proof (good_book _ _ _ _ Hg Em) as Hmb. assert (Hg1 : good dead (upd j (ValB (compact srt mb)) vs)) by (apply good_upd; [exact Hg|apply compact_reach; exact Hmb]).
      apply good_upd; [exact Hg1|]. apply (reach_op srt (ORemoveDup mb) b); [exact (good_book _ _ _ _ Hg1 Eb)|intros ob H; injection H as <-; exact Hmb|]. cbn [run_op]. rewrite Ex. reflexivity.
    - apply obind_Ok in E as (mb & Em & E). apply obind_Ok in E as (b & Eb & E). injection E as <-.
      pose proof (good_book _ _ _ _ Hg Em) as Hmb. assert (Hg1 : good dead (upd j (ValB (compact srt mb)) vs)) by (apply good_upd; [exact Hg|apply compact_reach; exact Hmb]).
      apply good_upd; [exact Hg1|]. apply (reach_op srt (OReclassify ord1 ord2 dist mb refacct) b); [exact (good_book _ _ _ _ Hg1 Eb)|intros ob H; injection H as <-; exact Hmb|reflexivity].
    - apply obind_Ok in E as (b & Eb & E). injection E as <-. apply good_snoc; [exact Hg|exact (good_book _ _ _ _ Hg Eb)].
    - apply obind_Ok in E as (b & Eb & E). apply obind_Ok in E as (x & Ex & E). injection E as <-. apply good_upd; [exact Hg|]. pose proof (compact_reach _ (good_book _ _ _ _ Hg Eb)) as Hc.
      destruct (bk_post (compact srt b)) as [|p l] eqn:Ep.
      + unfold accumulate in Ex. cbv zeta in Ex. rewrite Ep in Ex. injection Ex as <-. cbn [transactions fst]. apply compact_reach. exact Hc.
      + rewrite accumulate_eq in Ex by (rewrite Ep; discriminate). apply obind_Ok in Ex as (add & _ & Ex). apply obind_Ok in Ex as (ts & _ & Ex). injection Ex as <-. exact Hc.
  Qed.
  Lemma good_nil : good [] [].
  Proof. intros [|k]; exact I. Qed.

  (** *** Careful programs *)
  Lemma acc_step dead m os vs k to dv cr hid : Sim dead m os vs -> good dead vs -> (forall b, nth_error os k = Some (ObjB b) -> spared ord m b) ->
    simstep dead (hstep ord grow it micro (KAccumulate k to dv cr hid) m os) (vstep srt it micro (KAccumulate k to dv cr hid) vs).
  Proof.
    intros HS Hg Hsp. cbn [hstep vstep]. destruct (Sim_book _ _ _ _ k HS) as [(hb & vb & E1 & E2 & N1 & N2 & Hk & HR)|[E1 E2]]; rewrite E1, E2; cbn [obind]; [|reflexivity].
    destruct (hcompact ord m hb) as [m1 hb1] eqn:Ec. pose proof (reachable_ok srt Hsrt _ (good_book _ _ _ _ Hg E2)) as Hok.
    pose proof (accumulate_RB ord grow it micro Hord to dv cr hid m hb vb m1 hb1 HR Ec) as H. destruct (accumulate srt it micro to dv cr hid vb) as [[b' ts]| | |]; cbn [obind]; try (rewrite H; reflexivity).
    destruct H as (m' & hb' & E & Hm & (HRB & _)). rewrite E. cbn [obind simstep fst]. do 2 eexists. split; [reflexivity|].
    exact (Sim_step _ _ _ _ _ _ _ (ObjB hb') (ValB b') HS N1 Hk Hm (HRB (spared_acc _ _ _ _ _ HR Hok Ec (Hsp _ N1)))).
  Qed.
  Lemma careful_sim : forall cs dead m os vs, Sim dead m os vs -> good dead vs -> careful ord grow it micro dead cs m os ->
    exists dead', simstep dead' (hrun ord grow it micro cs m os) (vrun srt it micro cs vs) /\ (forall vs', vrun srt it micro cs vs = Ok vs' -> good dead' vs').
  Proof.
    induction cs as [|c cs IH]; intros dead m os vs HS Hg Hc; [exists dead; cbn; split; [eauto|intros vs' E; injection E as <-; exact Hg]|]. cbn [careful] in Hc. destruct Hc as [Hc1 Hc]. cbn [hrun vrun].
    assert (H : simstep (dead_after c dead) (hstep ord grow it micro c m os) (vstep srt it micro c vs)).
    { destruct c; try (apply (step_sim ord grow it micro Hord); [exact HS|exact Hc1]). apply acc_step; assumption. }
    assert (Hg' : forall vs1, vstep srt it micro c vs = Ok vs1 -> good (dead_after c dead) vs1) by (intros vs1; apply vstep_good; [exact Hg|destruct c; auto]).
    unfold simstep in H. destruct (vstep srt it micro c vs) as [vs1| | |]; cbn [obind]; try (rewrite H; exists []; split; [reflexivity|discriminate]).
    destruct H as (m1 & os1 & E & HS'). rewrite E in Hc |- *. cbn [obind]. apply (IH (dead_after c dead) m1 os1 vs1 HS' (Hg' _ eq_refl)). destruct c; exact Hc.
  Qed.
End Careful.
