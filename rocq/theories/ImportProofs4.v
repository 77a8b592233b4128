(** * ImportProofs4: the transactions an import prints can be entered (C85). *)
From Verif Require Import Base DateModel PriceModel BookModel BookSpec BookProofs BuilderProofs OpsModel OpsProofs OpsProofs2 OpsProofs3
  ScriptModel ScriptSpec ScriptProps ExportModel ExportSpec ExportProofs2 ExportProofs3 ExportProps ImportModel ImportSpec ImportProofs1 ImportProofs2 ImportProofs3 LoaderProofs LoaderProofs2 LoaderProofs3 LoaderProofs4 ImportProps AppendProofs AppendProofs2.

(** ** One note per transaction *)
Definition noted (l : list posting) : Prop := forall p q, In p l -> In q l -> dp p = dp q -> p_tnote p = p_tnote q.
Lemma add_calls today ss def b a b' err : add today ss def b a = Ok (b', err) ->
  exists ds, bsteps b ds = Ok b' /\ (ds = [] \/ exists d p n ds', ds = CTrans d p n :: ds').
Proof.
  unfold add. cbv zeta. destruct (date_from_string today (a_date a) =? 0); [intros E; injection E as <- _; exists []; split; [reflexivity|left; reflexivity]|].
  destruct (get_big_rat ss (a_amt a)) as [amt| | |]; try discriminate; [|intros E; injection E as <- _; exists []; split; [reflexivity|left; reflexivity]].
  destruct (scale amt (dflt 1 (a_denom a))) as [v| | |]; try discriminate. cbn [obind].
  destruct (new_transaction b (date_from_string today (a_date a)) (a_desc a) (a_note a)) as [b1| | |] eqn:E1; try discriminate. cbn [obind].
  set (c1 := CTrans (date_from_string today (a_date a)) (a_desc a) (a_note a)).
  set (c2 := CPost (dflt (d_account def) (a_account a)) (dflt (d_ccy def) (a_ccy a)) v (a_lnote a)).
  set (c3 := CPost (dflt (d_counter def) (a_caccount a)) (dflt (d_ccy def) (a_ccy a)) (- v)%Qc []).
  assert (H3 : forall more, bsteps b (c1 :: c2 :: c3 :: more) = bsteps (add_posting (add_posting b1 (dflt (d_account def) (a_account a)) (dflt (d_ccy def) (a_ccy a)) v (a_lnote a)) (dflt (d_counter def) (a_caccount a)) (dflt (d_ccy def) (a_ccy a)) (- v)%Qc []) more).
  { intros more. cbn [bsteps bstep c1]. rewrite E1. reflexivity. }
  set (b3 := add_posting _ _ _ (- v)%Qc _) in *.
  assert (Hend : forall more bb, bsteps b3 more = Ok bb -> exists ds, bsteps b ds = Ok bb /\ (ds = [] \/ exists d p n ds', ds = CTrans d p n :: ds')).
  { intros more bb Hm. exists (c1 :: c2 :: c3 :: more). split; [rewrite H3; exact Hm|]. right. unfold c1. eauto. }
  assert (Hx : forall o2, (match get_big_rat ss o2 with
    | Ok amt2 => do w <- scale amt2 (dflt 1 (a_denom2 a)); let b4 := add_posting b3 (a_account2 a) (dflt (d_ccy def) (a_ccy2 a)) w [] in Ok (add_posting b4 (dflt (d_counter def) (a_caccount a)) (dflt (d_ccy def) (a_ccy2 a)) (- w)%Qc [], false)
    | Error => Ok (b3, true) | Panic => Panic | Diverge => Diverge end) = Ok (b', err) -> exists ds, bsteps b ds = Ok b' /\ (ds = [] \/ exists d p n ds', ds = CTrans d p n :: ds')).
  { intros o2 E. destruct (get_big_rat ss o2) as [amt2| | |]; try discriminate.
    - apply obind_Ok in E as (w & _ & E). cbv zeta in E. injection E as <- _.
      apply (Hend [CPost (a_account2 a) (dflt (d_ccy def) (a_ccy2 a)) w []; CPost (dflt (d_counter def) (a_caccount a)) (dflt (d_ccy def) (a_ccy2 a)) (- w)%Qc []]). reflexivity.
    - injection E as <- _. apply (Hend []). reflexivity. }
  destruct (a_amt2 a) eqn:E2; [destruct (a_account2 a) eqn:E3|..]; intros E; try first [exact (Hx VNone E)|exact (Hx (VFloat _) E)|exact (Hx (VInt _) E)|exact (Hx (VStr _) E)|exact (Hx VOther E)].
  injection E as <- _. apply (Hend []). reflexivity.
Qed.
Lemma run_adds_calls today ss def cs : forall b b' err, run_adds today ss def b cs = Ok (b', err) ->
  exists ds, bsteps b ds = Ok b' /\ (ds = [] \/ exists d p n ds', ds = CTrans d p n :: ds').
Proof.
  induction cs as [|a cs IH]; intros b b' err E; cbn [run_adds] in E; [injection E as <- _; exists []; split; [reflexivity|left; reflexivity]|].
  apply obind_Ok in E as ([b1 e1] & E1 & E). destruct (add_calls _ _ _ _ _ _ _ E1) as (ds1 & R1 & S1). destruct e1.
  - injection E as <- _. exists ds1. auto.
  - destruct (IH _ _ _ E) as (ds2 & R2 & S2). exists (ds1 ++ ds2). split; [rewrite bsteps_app, R1; exact R2|]. destruct S1 as [->|(d & p & n & ds' & ->)]; [exact S2|]. right. do 4 eexists. reflexivity.
Qed.
Lemma process_noted srt today ss def s b : sort_ok is_less srt -> process_data srt today ss def s = Ok b -> noted (bk_post b).
Proof.
  intros Hs E. unfold process_data in E. apply obind_Ok in E as ([bu err] & E1 & E). destruct (err || snd s); [discriminate E|].
  destruct (run_adds_calls _ _ _ _ _ _ _ E1) as (ds & R & Hd).
  destruct (bsteps_cases ds new_builder [] [] new_builder_ok) as [(_ & b0 & E0 & Hok & Hp)|[_ E0]]; rewrite R in E0; [injection E0 as <-|discriminate E0]. cbn [app bu_post new_builder] in Hp, Hok.
  destruct (build_ok_state srt bu _ _ b Hs Hok E) as (Ep & _). intros p q Hpi Hqi Epq.
  rewrite Ep in Hpi, Hqi. destruct (cposts_origin srt Hs _ p Hpi) as (p' & Hp' & Kp & Mp). destruct (cposts_origin srt Hs _ q Hqi) as (q' & Hq' & Kq & Mq).
  assert (Edp : forall a c, pkey a = pkey c -> dp a = dp c) by (intros a c Ek; apply pkey_eq in Ek as (k1 & k2 & _); unfold dp; congruence).
  assert (Et : forall a c, meta a = meta c -> p_tnote a = p_tnote c) by (intros a c Em; unfold meta in Em; injection Em; auto).
  rewrite <- (Et _ _ Mp), <- (Et _ _ Mq). rewrite Hp in Hp', Hq'.
  destruct Hd as [->|(d & pay & n & ds' & ->)]; [destruct Hp'|]. destruct Hok as (_ & _ & _ & _ & _ & Hnd).
  destruct (identities new_builder (CTrans d pay n :: ds')) as [|i ids]; cbn [posted] in Hp', Hq'; [destruct Hp'|].
  destruct (posted_note ds' i n ids p' q' Hp' Hq' Hnd) as (_ & _ & H3). apply H3. rewrite (Edp _ _ Kp), (Edp _ _ Kq). exact Epq.
Qed.

(** ** What is printed *)
Lemma import_files_print srt f64 isl today ss jw o1 o2 i def : sort_ok is_less srt -> (forall k x l, Permutation l (o1 k x l)) -> (forall k n l, Permutation l (o2 k n l)) ->
  forall files k main prevs out r, book_ok main -> Forall book_ok prevs ->
  import_files srt f64 isl today ss jw o1 o2 k i def main prevs files = (out, r) ->
  Forall (fun o => well_grouped (fst o) /\ balanced (concat (fst o)) /\ canonical (concat (fst o))) out.
Proof.
  intros Hs H1 H2. induction files as [|s files IH]; intros k main prevs out r Hm Hp E; cbn [import_files] in E; [injection E as <- _; constructor|].
  destruct (process_data srt today ss def s) as [b| | |] eqn:Ep; cbn [obind] in E; try (injection E as <- _; constructor).
  destruct (process_data_ok srt Hs today ss def s b Ep) as (Hb & Hcan & Hbc).
  destruct (import_file_spec srt Hs f64 isl jw o1 o2 H1 H2 k i main prevs b Hm Hp Hb Hcan) as (main' & b' & Hm' & Hb' & Hbc' & _ & Ef).
  rewrite Ef in E. destruct (show_all f64 isl (bk_ccy main) (bk_trans b')) as [text| | |]; cbn [obind] in E; try (injection E as <- _; constructor).
  destruct (import_files srt f64 isl today ss jw o1 o2 (S k) i def main' (map (compact srt) prevs ++ [b']) files) as [out' r'] eqn:Er. injection E as <- _.
  constructor.
  - cbn [fst]. destruct Hb' as (Hpl & Hc & Hg & Hbal). split; [exact Hg|]. rewrite Hc. split; [exact Hbal|]. rewrite <- Hbc'. apply (compact_canonical srt Hs). exact Hpl.
  - eapply IH; [| |exact Er].
    + destruct Hm' as [-> | ->]; [exact Hm|apply compact_book_ok; assumption].
    + apply Forall_app. split; [|constructor; [exact Hb'|constructor]]. clear - Hp Hs. induction Hp; cbn [map]; constructor; auto. apply compact_book_ok; assumption.
Qed.
Lemma shown_back {A} (R : A -> A -> Prop) (Q : A -> Prop) l s : shown_of R Q l s -> forall u, In u s -> exists t, In t l /\ Q t /\ R t u.
Proof.
  induction 1 as [|t l s Hq _ IH|t u l s Hq Hr _ IH]; intros x Hx; [destruct Hx| |].
  - destruct (IH x Hx) as (t' & H1 & H2). exists t'. split; [right; exact H1|exact H2].
  - destruct Hx as [<-|Hx]; [exists t; split; [left; reflexivity|auto]|]. destruct (IH x Hx) as (t' & H1 & H2). exists t'. split; [right; exact H1|exact H2].
Qed.
Lemma printed_notes dist i old t u : printed_as dist i old t u -> forall p, In p u -> exists q, In q t /\ p_tnote q = p_tnote p.
Proof.
  assert (Hvis : forall l l' p, (forall v, In v (map vis l) -> In v (map vis l')) -> In p l -> exists q, In q l' /\ p_tnote q = p_tnote p).
  { clear. intros l l' p H Hp. specialize (H (vis p) (in_map vis l p Hp)). apply in_map_iff in H as (q & E & Hq). exists q. split; [exact Hq|]. unfold vis in E. congruence. }
  unfold printed_as. intros H p Hp. destruct (im_reclass i).
  - destruct H as (t0 & u0 & E & Hr & Hperm). destruct (Hvis u u0 p (fun v Hv => Permutation_in v (Permutation_sym Hperm) Hv) Hp) as (p0 & Hp0 & E0).
    assert (H1 : exists q, In q t0 /\ p_tnote q = p_tnote p0).
    { destruct Hr as [[-> _]|(pay & x & c & _ & _ & _ & _ & Hrec)]; [exists p0; auto|]. inversion Hrec as [a b Ha|a b Ha Hb]; subst; destruct Hp0 as [<-|[<-|[]]].
      all: first [exists a; split; [left; reflexivity|reflexivity]|exists b; split; [right; left; reflexivity|reflexivity]]. }
    destruct H1 as (q & Hq & E1). destruct (Hvis t0 t q) as (q' & Hq' & E2); [intros v Hv; unfold same_trans in E; rewrite <- E; exact Hv|exact Hq|]. exists q'. split; [exact Hq'|congruence].
  - apply (Hvis u t p); [|exact Hp]. intros v Hv. unfold same_trans in H. rewrite <- H. exact Hv.
Qed.

Lemma nodup_app {A} (l l' : list A) : NoDup l -> NoDup l' -> (forall k, In k l -> ~ In k l') -> NoDup (l ++ l').
Proof.
  intros N1 N2 H. induction l as [|x l IH]; [exact N2|]. cbn [app]. apply NoDup_cons_iff in N1 as [N1 N3]. constructor.
  - rewrite in_app_iff. intros [X|X]; [contradiction|]. exact (H x (or_introl eq_refl) X).
  - apply IH; [exact N3|]. intros k Hk. apply H. right. exact Hk.
Qed.
Section Printed.
  Variables (srt : list posting -> list posting) (f64 : Qc -> Qc) (isl : Z -> bool) (today : Z) (ss : str -> option Qc) (jw dist : str -> str -> Qc)
    (o1 : nat -> str -> list (str * Z) -> list (str * Z)) (o2 : nat -> nat -> list (str * str) -> list (str * str)) (i : import) (base : str) (main : book) (files : list script)
    (out : list (list trans * str)) (r : outcome unit).
  Hypothesis Hs : sort_ok is_less srt.
  Hypothesis Hd : similarity jw dist.
  Hypothesis H1 : forall k x l, Permutation l (o1 k x l).
  Hypothesis H2 : forall k n l, Permutation l (o2 k n l).
  Hypothesis Hm : reachable srt main.
  Hypothesis E : run_import srt f64 isl today ss jw o1 o2 i base main files = (out, r).
  Let printed := concat (map fst out).
  Let old := snd (transactions srt main).

  Lemma out_groups : Forall (fun o => well_grouped (fst o) /\ balanced (concat (fst o)) /\ canonical (concat (fst o))) out.
  Proof. unfold run_import in E. eapply (import_files_print srt f64 isl today ss jw o1 o2 i _ Hs H1 H2); [apply (reachable_ok srt Hs); exact Hm|constructor|exact E]. Qed.
  Lemma out_text : Forall (fun o => show_all f64 isl (bk_ccy main) (fst o) = Ok (snd o)) out.
  Proof.
    destruct (C83_import_prints srt f64 isl today ss jw dist o1 o2 i base main files out r Hs Hd H1 H2 Hm E) as (books & L & _ & Hp & _). cbv zeta in *.
    rewrite Forall_forall. intros o Ho. apply In_nth_error in Ho as (j & Ho). assert (Hj : (j < length out)%nat) by (apply nth_error_Some; congruence). rewrite <- L in Hj.
    apply nth_error_Some in Hj. destruct (nth_error books j) as [b|] eqn:Eb; [|congruence]. apply (Hp j b o Eb Ho).
  Qed.
  Lemma wg_keys ts : well_grouped ts -> NoDup (tkeys ts).
  Proof.
    intros [G1 G2]. induction G2 as [|t ts G2 IH Hall]; [constructor|]. inversion G1 as [|? ? [Hne _] G1']; subst. unfold tkeys in *. cbn [map]. constructor; [|apply IH; exact G1'].
    intros Hin. apply in_map_iff in Hin as (u & Eu & Hu). rewrite Forall_forall in Hall, G1'. destruct t as [|p t]; [congruence|]. destruct u as [|q u]; [destruct (G1' _ Hu); congruence|].
    specialize (Hall _ Hu p q (or_introl eq_refl) (or_introl eq_refl)). unfold dplt in Hall. rewrite Eu in Hall. exact (lc_lt_irrefl _ dpcmp_lin _ Hall).
  Qed.
  Lemma out_notes : Forall one_note printed.
  Proof.
    destruct (C83_import_prints srt f64 isl today ss jw dist o1 o2 i base main files out r Hs Hd H1 H2 Hm E) as (books & L & F & Hp & _). cbv zeta in *. fold old in Hp.
    rewrite Forall_forall. intros u Hu. unfold printed in Hu. apply in_concat in Hu as (ts & Hts & Hu). apply in_map_iff in Hts as (o & <- & Ho).
    apply In_nth_error in Ho as (j & Ho). assert (Hj : (j < length out)%nat) by (apply nth_error_Some; congruence). pose proof Hj as Hj'. rewrite <- L in Hj.
    apply nth_error_Some in Hj. destruct (nth_error books j) as [b|] eqn:Eb; [|congruence]. destruct (Hp j b o Eb Ho) as [Hsh _].
    destruct (shown_back _ _ _ _ Hsh u Hu) as (t & Ht & _ & Hpr).
    assert (Hb : exists s, process_data srt today ss (mkDef (im_account i) (if str_eqb (im_ccy i) [] then base else im_ccy i) (im_counter i)) s = Ok b).
    { clear - F Eb. revert j Eb. induction F as [|s x l l' [H _] _ IH]; intros [|j] Eb; cbn [nth_error] in Eb; try discriminate Eb; [injection Eb as <-; eauto|eauto]. }
    destruct Hb as (s & Hb). pose proof (process_noted _ _ _ _ _ _ Hs Hb) as Hn. destruct (process_data_ok srt Hs today ss _ s b Hb) as ((_ & Hc & [Hg _] & _) & _ & _).
    rewrite Forall_forall in Hg. destruct (Hg t Ht) as [_ Hdp]. intros p q Hpi Hqi.
    destruct (printed_notes _ _ _ _ _ Hpr p Hpi) as (p' & Hp' & <-). destruct (printed_notes _ _ _ _ _ Hpr q Hqi) as (q' & Hq' & <-).
    apply Hn; [rewrite <- Hc; apply in_concat; exists t; auto|rewrite <- Hc; apply in_concat; exists t; auto|apply Hdp; assumption].
  Qed.
  Lemma out_has j b o : forall books, nth_error books j = Some b -> nth_error out j = Some o ->
    prints f64 isl dist i old (bk_ccy main) (firstn j books) b o -> forall k, has (fst o) k ->
    has (bk_trans b) k /\ (im_dedup i = true -> ~ has old k) /\ (forall b', In b' (firstn j books) -> ~ has (bk_trans b') k).
  Proof.
    intros books _ _ [Hsh _] k (u & p & Hu & Hpu & Ek). destruct (shown_back _ _ _ _ Hsh u Hu) as (t & Ht & [Q1 Q2] & Hpr).
    assert (Hk : has [t] k) by (apply (printed_keys _ _ _ _ _ Hpr); exists u, p; split; [left; reflexivity|auto]). destruct Hk as (t' & q & [<-|[]] & Hq & Eq).
    split; [exists t, q; auto|]. split.
    - intros Hi Ho. apply (Q1 Hi). exists q. split; [exact Hq|]. rewrite Eq. exact Ho.
    - intros b' Hb' Ho. apply (Q2 b' Hb'). exists q. split; [exact Hq|]. rewrite Eq. exact Ho.
  Qed.
  Lemma nodup_keys : forall outs : list (list trans * str), Forall (fun o => well_grouped (fst o)) outs ->
    (forall j j' o o' k, (j < j')%nat -> nth_error outs j = Some o -> nth_error outs j' = Some o' -> has (fst o) k -> has (fst o') k -> False) ->
    NoDup (tkeys (concat (map fst outs))).
  Proof.
    induction outs as [|o outs IH]; intros Hg Hdis; [constructor|]. apply Forall_cons_iff in Hg as [G1 G2]. cbn [map concat]. unfold tkeys in *. rewrite map_app. fold (tkeys (fst o)).
    assert (IHn : NoDup (map (fun t : trans => match t with [] => (0, []) | p :: _ => dp p end) (concat (map fst outs)))).
    { apply IH; [exact G2|]. intros j j' a b k Hj Ha Hb. apply (Hdis (S j) (S j') a b k); [lia|exact Ha|exact Hb]. }
    assert (Hd2 : forall k, In k (tkeys (fst o)) -> ~ In k (map (fun t : trans => match t with [] => (0, []) | p :: _ => dp p end) (concat (map fst outs)))).
    { intros k Hk Hin. apply (tkeys_In _ k G1) in Hk as (t & p & Ht & Hp & Ek). apply in_map_iff in Hin as (u & Eu & Hu). apply in_concat in Hu as (ts & Hts & Hu). apply in_map_iff in Hts as (o' & <- & Ho').
      pose proof G2 as G2'. rewrite Forall_forall in G2'. specialize (G2' o' Ho'). apply In_nth_error in Ho' as (j & Hj).
      apply (Hdis O (S j) o o' k); [lia|reflexivity|exact Hj|exists t, p; auto|]. destruct G2' as [G3 _]. rewrite Forall_forall in G3. destruct (G3 u Hu) as [Hne _]. destruct u as [|q u]; [congruence|]. exists (q :: u), q. split; [exact Hu|]. split; [left; reflexivity|exact Eu]. }
    exact (nodup_app _ _ (wg_keys _ G1) IHn Hd2).
  Qed.
  Lemma out_keys : NoDup (tkeys printed) /\ (im_dedup i = true -> forall k, In k (tkeys printed) -> ~ has old k).
  Proof.
    destruct (C83_import_prints srt f64 isl today ss jw dist o1 o2 i base main files out r Hs Hd H1 H2 Hm E) as (books & L & F & Hp & _). cbv zeta in *. fold old in Hp.
    assert (Hbk : forall j o, nth_error out j = Some o -> exists b, nth_error books j = Some b).
    { intros j o Ho. assert (Hj : (j < length out)%nat) by (apply nth_error_Some; congruence). rewrite <- L in Hj. apply nth_error_Some in Hj. destruct (nth_error books j) as [b|]; [eauto|congruence]. }
    split.
    - apply nodup_keys; [eapply Forall_impl; [|exact out_groups]; intros o [H _]; exact H|]. intros j j' o o' k Hjj Ho Ho' Hk Hk'.
      destruct (Hbk j o Ho) as (b & Hb). destruct (Hbk j' o' Ho') as (b' & Hb').
      destruct (out_has j b o books Hb Ho (Hp _ _ _ Hb Ho) k Hk) as (A & _ & _). destruct (out_has j' b' o' books Hb' Ho' (Hp _ _ _ Hb' Ho') k Hk') as (_ & _ & C). apply (C b); [|exact A].
      apply nth_error_In with j. rewrite nth_error_firstn_lt by exact Hjj. exact Hb.
    - intros Hi k Hk. unfold tkeys in Hk. apply in_map_iff in Hk as (u & Eu & Hu). apply in_concat in Hu as (ts & Hts & Hu). apply in_map_iff in Hts as (o & <- & Ho).
      pose proof out_groups as G. rewrite Forall_forall in G. destruct (G o Ho) as ([G1 _] & _). rewrite Forall_forall in G1. destruct (G1 u Hu) as [Hne _]. apply In_nth_error in Ho as (j & Ho).
      destruct (Hbk j o Ho) as (b & Hb). destruct u as [|q u]; [congruence|].
      destruct (out_has j b o books Hb Ho (Hp _ _ _ Hb Ho) k) as (_ & A & _); [exists (q :: u), q; split; [exact Hu|split; [left; reflexivity|exact Eu]]|]. exact (A Hi).
  Qed.
  Lemma out_sane : Forall sane printed /\ Forall (fun t => Forall (fun p => p_val p <> 0%Qc) t /\ NoDup (map pkey t)) printed.
  Proof.
    assert (H : forall u, In u printed -> u <> [] /\ (forall p q, In p u -> In q u -> dp p = dp q) /\ balanced u /\ Forall (fun p => p_val p <> 0%Qc) u /\ NoDup (map pkey u)).
    { intros u Hu. unfold printed in Hu. apply in_concat in Hu as (ts & Hts & Hu). apply in_map_iff in Hts as (o & <- & Ho). pose proof out_groups as G. rewrite Forall_forall in G. destruct (G o Ho) as (Hg & Hb & Hc).
      pose proof (balanced_each _ Hg Hb) as Hbe. rewrite Forall_forall in Hbe. destruct Hg as [G1 _]. rewrite Forall_forall in G1. destruct (G1 u Hu) as [A B]. split; [exact A|]. split; [exact B|]. split; [apply Hbe; exact Hu|].
      apply in_split in Hu as (l1 & l2 & El). pose proof (canonical_nodup _ Hc) as Hn. rewrite El, concat_app in Hn, Hc. cbn [concat] in Hn, Hc. split.
      - destruct Hc as [_ Hc]. apply Forall_app in Hc as [_ Hc]. apply Forall_app in Hc as [Hc _]. exact Hc.
      - rewrite !map_app in Hn. clear - Hn. induction (map pkey (concat l1)) as [|x l IH]; [|cbn [app] in Hn; apply NoDup_cons_iff in Hn as [_ Hn]; exact (IH Hn)].
        cbn [app] in Hn. induction (map pkey u) as [|x l IH]; [constructor|]. cbn [app] in Hn. apply NoDup_cons_iff in Hn as [N1 N2]. constructor; [intros X; apply N1; apply in_app_iff; auto|exact (IH N2)]. }
    pose proof out_notes as Hn. rewrite Forall_forall in Hn. split; rewrite Forall_forall; intros u Hu; destruct (H u Hu) as (A & B & C & D & F).
    - split; [exact A|]. split; [exact B|]. split; [apply Hn; exact Hu|exact C].
    - auto.
  Qed.
End Printed.
