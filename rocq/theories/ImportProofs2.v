(** * ImportProofs2: one file of an import. *)
From Verif Require Import Base DateModel PriceModel BookModel BookSpec BookProofs BuilderProofs OpsModel OpsProofs OpsProofs2 OpsProofs3
  ScriptModel ExportModel ImportModel ImportSpec ImportProofs1.

Lemma filter_filter {A} (f g : A -> bool) l : filter f (filter g l) = filter (fun x => g x && f x) l.
Proof. induction l as [|x l IH]; [reflexivity|]. cbn [filter]. destruct (g x); cbn [filter andb]; [destruct (f x)|]; rewrite IH; reflexivity. Qed.
Lemma filter_true {A} (l : list A) : filter (fun _ => true) l = l.
Proof. induction l as [|x l IH]; [reflexivity|]. cbn [filter]. rewrite IH. reflexivity. Qed.
Lemma book_eta b : book_ok b -> b = mkBook (concat (bk_trans b)) (bk_trans b) (bk_prices b) (bk_ccy b).
Proof. intros (_ & Hc & _). rewrite Hc. destruct b; reflexivity. Qed.

(** The counter-account of a transaction of a compacted book is never the account itself. *)
Lemma counter_other a ts x c : well_grouped ts -> balanced (concat ts) -> canonical (concat ts) -> seen a ts x c -> c <> a.
Proof.
  intros Hg Hb Hc (t & Ht & Hcnt & _) ->. pose proof (balanced_each _ Hg Hb) as He. rewrite Forall_forall in He. specialize (He t Ht).
  assert (Hcan : canonical t).
  { destruct Hc as [H1 H2]. apply in_split in Ht as (t1 & t2 & ->). rewrite concat_app in H1, H2. cbn [concat] in H1, H2. split.
    - apply StronglySorted_app in H1. destruct H1 as (_ & H1 & _). apply StronglySorted_app in H1. apply H1.
    - apply Forall_app in H2 as [_ H2]. apply Forall_app in H2. apply H2. }
  inversion Hcnt as [p q Hp Et Eq|p q Hp Hq Et Eq]; subst t; [|congruence]. clear Hcnt.
  destruct Hg as [Hg _]. rewrite Forall_forall in Hg. destruct (Hg _ Ht) as [_ Hu].
  assert (Edp : dp p = dp q) by (apply Hu; [left|right; left]; reflexivity). unfold dp in Edp. injection Edp as Ed Ep.
  destruct (str_eq_dec (p_ccy q) (p_ccy p)) as [Ec|Nc].
  - destruct Hcan as [Hs _]. apply StronglySorted_inv in Hs as [_ Hs]. apply Forall_inv in Hs. unfold klt in Hs.
    assert (E : pkey p = pkey q) by (unfold pkey; congruence). rewrite E, (lc_refl _ kcmp_lin) in Hs. discriminate.
  - destruct Hcan as [_ Hz]. apply Forall_inv in Hz. apply Hz. specialize (He (p_date p) (p_payee p) (p_ccy p)).
    rewrite !total_cons, total_nil in He. unfold on, in_trans in He. rewrite Z.eqb_refl, !str_eqb_refl in He. cbn [andb] in He.
    destruct (str_eqb_spec (p_ccy q) (p_ccy p)) as [E|_]; [contradiction|]. rewrite andb_false_r in He. rewrite <- He. ring.
Qed.

Lemma grouped_distinct ts : well_grouped ts -> Forall (fun t => NoDup (map pkey t)) ts -> NoDup (map pkey (concat ts)).
Proof.
  induction ts as [|t ts IH]; intros Hg Hn; [constructor|]. apply Forall_cons_iff in Hn as [Hn1 Hn2]. cbn [concat]. rewrite map_app.
  assert (Hr : NoDup (map pkey (concat ts))).
  { apply IH; [|exact Hn2]. destruct Hg as [G1 G2]. split; [apply (Forall_inv_tail G1)|apply StronglySorted_inv with (1 := G2)]. }
  assert (Hd : forall p q, In p t -> In q (concat ts) -> pkey p <> pkey q).
  { intros p q Hp Hq E. apply (dplt_neq p q (grouped_head t ts p q Hg Hp Hq)). unfold pkey in E. unfold dp. congruence. }
  clear Hg Hn2 IH. revert Hn1 Hd. induction t as [|x t IHt]; intros Hn1 Hd; [exact Hr|]. cbn [map app] in *. apply NoDup_cons_iff in Hn1 as [H1 H2].
  constructor; [|apply IHt; [exact H2|intros p q Hp; apply Hd; right; exact Hp]]. rewrite in_app_iff. intros [H|H]; [contradiction|].
  apply in_map_iff in H as (q & E & Hq). apply (Hd x q (or_introl eq_refl) Hq). auto.
Qed.

Section Import.
  Variable srt : list posting -> list posting.
  Hypothesis Hsrt : sort_ok is_less srt.
  Variable f64 : Qc -> Qc.
  Variable is_letter : Z -> bool.
  Variable jw : str -> str -> Qc.
  Variable ord1 : nat -> str -> list (str * Z) -> list (str * Z).
  Variable ord2 : nat -> nat -> list (str * str) -> list (str * str).
  Hypothesis Hord1 : forall k x l, Permutation l (ord1 k x l).
  Hypothesis Hord2 : forall k i l, Permutation l (ord2 k i l).

  Definition unknown (P : book) (t : trans) : bool := negb (known (bk_trans (compact srt P)) t).
  Definition rest (b : book) (f : trans -> bool) : book :=
    mkBook (concat (filter f (bk_trans b))) (filter f (bk_trans b)) (bk_prices b) (bk_ccy b).

  Lemma against_spec : forall prevs b, Forall book_ok prevs -> book_ok b ->
    against srt prevs b = Ok (map (compact srt) prevs, rest b (fun t => forallb (fun P => unknown P t) prevs)).
  Proof.
    induction prevs as [|P prevs IH]; intros b Hp Hb.
    - cbn [against map]. unfold rest. cbn [forallb]. rewrite filter_true, <- book_eta by exact Hb. reflexivity.
    - apply Forall_cons_iff in Hp as [HP Hp]. cbn [against map]. rewrite (remove_duplicates_eq srt Hsrt P b HP Hb). cbn [obind]. cbv zeta.
      rewrite IH; [|exact Hp|apply keep_ok; exact Hb]. cbn [obind]. unfold rest. cbn [bk_trans bk_prices bk_ccy]. rewrite filter_filter. reflexivity.
  Qed.

  (** The transactions kept: not known to the main book (with deduplication) nor to an earlier file. *)
  Definition kept (i : import) (main : book) (prevs : list book) (t : trans) : bool :=
    (negb (im_dedup i) || unknown main t) && forallb (fun P => unknown P t) prevs.
  Definition changed (i : import) (main : book) (t u : trans) : Prop :=
    if im_reclass i then reclassed (sim jw) (im_account i) (bk_trans (compact srt main)) t u else same_trans t u.

  Lemma rest_canonical b f : book_ok b -> canonical (bk_post b) -> canonical (bk_post (rest b f)).
  Proof. intros (_ & Hc & _) Hcan. cbn [rest bk_post]. apply concat_filter_canonical. rewrite Hc. exact Hcan. Qed.

  Lemma compact_ccy b : bk_ccy (compact srt b) = bk_ccy b.
  Proof. unfold compact. destruct (bk_post b); reflexivity. Qed.

  Lemma changed_vis i main t u : changed i main t u -> forall k, has [t] k <-> has [u] k.
  Proof.
    assert (HP : forall t u, Permutation (map dp t) (map dp u) -> forall k, has [t] k <-> has [u] k).
    { clear. intros t u HP k. split; intros (x & p & [<-|[]] & Hp & E).
      - assert (Hi : In (dp p) (map dp u)) by (eapply Permutation_in; [exact HP|apply in_map; exact Hp]). apply in_map_iff in Hi as (q & Eq & Hq).
        exists u, q. split; [left; reflexivity|]. split; [exact Hq|]. unfold dp in Eq. congruence.
      - assert (Hi : In (dp p) (map dp t)) by (eapply Permutation_in; [symmetry; exact HP|apply in_map; exact Hp]). apply in_map_iff in Hi as (q & Eq & Hq).
        exists t, q. split; [left; reflexivity|]. split; [exact Hq|]. unfold dp in Eq. congruence. }
    assert (Hv : forall l, map dp l = map vkey (map vis l)) by (intros l; rewrite map_map; reflexivity).
    intros H. apply HP. unfold changed in H. destruct (im_reclass i).
    - destruct H as (t0 & u0 & E & Hr & Hp). rewrite !Hv. rewrite <- Hp. rewrite <- E. rewrite <- !Hv.
      destruct Hr as [[-> _]|(pay & x & c & _ & _ & _ & _ & Hrec)]; [reflexivity|]. inversion Hrec; subst; reflexivity.
    - rewrite !Hv, H. reflexivity.
  Qed.

  Lemma import_file_spec k i main prevs b : book_ok main -> Forall book_ok prevs -> book_ok b -> canonical (bk_post b) ->
    exists main' b', (main' = main \/ main' = compact srt main) /\ book_ok b' /\ compact srt b' = b' /\
      Forall2 (changed i main) (filter (kept i main prevs) (bk_trans b)) (bk_trans b') /\
      import_file srt f64 is_letter jw ord1 ord2 k i main prevs b
      = (do text <- show_all f64 is_letter (bk_ccy main) (bk_trans b'); Ok (main', map (compact srt) prevs, b', bk_trans b', text)).
  Proof.
    intros Hm Hp Hb Hcan. unfold import_file.
    set (b1 := rest b (fun t => negb (im_dedup i) || unknown main t)).
    assert (E1 : (if im_dedup i then remove_duplicates_of srt main b else Ok (main, b)) = Ok (if im_dedup i then compact srt main else main, b1)).
    { unfold b1. destruct (im_dedup i); cbn [negb orb].
      - rewrite (remove_duplicates_eq srt Hsrt main b Hm Hb). reflexivity.
      - unfold rest. rewrite filter_true, <- book_eta by exact Hb. reflexivity. }
    rewrite E1. cbn [obind]. clear E1. set (m1 := if im_dedup i then compact srt main else main).
    assert (Hm1 : m1 = main \/ m1 = compact srt main) by (unfold m1; destruct (im_dedup i); auto). clearbody m1.
    assert (Hb1 : book_ok b1) by (apply keep_ok; exact Hb).
    rewrite (against_spec prevs b1 Hp Hb1). cbn [obind]. set (b2 := rest b1 _).
    assert (Hb2 : book_ok b2) by (apply keep_ok; exact Hb1).
    assert (Hc2 : canonical (bk_post b2)) by (apply rest_canonical; [exact Hb1|apply rest_canonical; assumption]).
    assert (Et : bk_trans b2 = filter (kept i main prevs) (bk_trans b)).
    { unfold b2, b1, rest. cbn [bk_trans]. rewrite filter_filter. reflexivity. }
    pose proof (compact_book_ok srt Hsrt main Hm) as Hcm. assert (Hidem : compact srt (compact srt main) = compact srt main) by (apply (compact_idem srt Hsrt); apply Hm).
    assert (Hm1c : compact srt m1 = compact srt main) by (destruct Hm1 as [-> | ->]; [reflexivity|exact Hidem]).
    assert (Hm1o : book_ok m1) by (destruct Hm1 as [-> | ->]; assumption).
    assert (Hcc : bk_ccy m1 = bk_ccy main) by (destruct Hm1 as [-> | ->]; [reflexivity|apply compact_ccy]).
    rewrite <- Et. unfold changed. destruct (im_reclass i).
    - pose proof (reclassify_spec (ord1 k) (ord2 k) (Hord1 k) (Hord2 k) (sim jw) srt Hsrt m1 b2 (im_account i) Hm1o Hb2) as HR. cbn zeta in HR.
      pose proof (reclassify_ok srt Hsrt (ord1 k) (ord2 k) (sim jw) m1 b2 (im_account i) Hb2) as Hb3.
      assert (E3 : fst (reclassify srt (ord1 k) (ord2 k) (sim jw) m1 b2 (im_account i)) = compact srt main) by (unfold reclassify, transactions; cbn [fst]; exact Hm1c).
      destruct (reclassify srt (ord1 k) (ord2 k) (sim jw) m1 b2 (im_account i)) as [m3 b3]. cbn [fst snd] in *. subst m3. rewrite Hm1c in HR.
      destruct HR as (HR & Hpost & _ & _). unfold transactions. cbn [fst snd].
      exists (compact srt main), (compact srt b3). split; [right; reflexivity|]. split; [apply compact_book_ok; assumption|].
      split; [apply (compact_idem srt Hsrt); apply Hb3|]. split.
      + pose proof (compact_canonical srt Hsrt main (proj1 Hm)) as [Hcanm _]. destruct Hcm as (_ & Hcc' & Hgm & Hbm). rewrite <- Hcc' in Hbm, Hcanm.
        assert (Hother : forall x c, seen (im_account i) (bk_trans (compact srt main)) x c -> c <> im_account i) by (intros x c; apply counter_other; assumption).
        pose proof (compact_canonical srt Hsrt b2 (proj1 Hb2)) as [Hcan2 _]. pose proof (compact_book_ok srt Hsrt b2 Hb2) as (_ & Hc2' & _ & _).
        assert (HP : Forall2 (fun t u => Permutation (map vis t) (map vis u)) (bk_trans b3) (bk_trans (compact srt b3))).
        { apply (regroup srt Hsrt); [exact Hb3| |].
          - rewrite Hpost. apply grouped_distinct; [apply Hb3|]. rewrite <- Hc2' in Hcan2.
            assert (Hcan2' : Forall (fun t => NoDup (map pkey t)) (bk_trans (compact srt b2))).
            { rewrite Forall_forall. intros t Ht. apply canonical_distinct. destruct Hcan2 as [H1 H2]. apply in_split in Ht as (t1 & t2 & E). rewrite E in H1, H2. rewrite concat_app in H1, H2. cbn [concat] in H1, H2. split.
              - apply StronglySorted_app in H1. destruct H1 as (_ & H1 & _). apply StronglySorted_app in H1. apply H1.
              - apply Forall_app in H2 as [_ H2]. apply Forall_app in H2. apply H2. }
            clear - HR Hcan2' Hother. induction HR as [|t u ts us Ht _ IH]; [constructor|]. apply Forall_cons_iff in Hcan2' as [H1 H2]. constructor; [|apply IH; exact H2].
            destruct Ht as [[-> _]|(pay & x & c & _ & Hseen & _ & _ & Hrec)]; [exact H1|]. specialize (Hother x c Hseen).
            inversion Hrec as [p q Hpa|p q Hpa Hqa]; subst; cbn [map]; (constructor; [|constructor; [intros []|constructor]]); intros [E|[]];
              unfold pkey in E; cbn [with_acct p_acct p_date p_payee p_ccy] in E; congruence.
          - rewrite Hpost. rewrite <- Hc2' in Hcan2. destruct Hcan2 as [_ Hz]. revert Hz. clear - HR. induction HR as [|t u ts us Ht _ IH]; intros Hz; [constructor|].
            cbn [concat] in *. apply Forall_app in Hz as [H1 H2]. apply Forall_app. split; [|apply IH; exact H2].
            destruct Ht as [[-> _]|(pay & x & c & _ & _ & _ & _ & Hrec)]; [exact H1|].
            inversion Hrec as [p q Hpa|p q Hpa Hqa]; subst; inversion H1 as [|? ? Ha Hb]; subst; inversion Hb; subst; repeat constructor; assumption. }
        pose proof (regroup_sorted srt Hsrt b2 Hb2 Hc2) as HS.
        clear - HS HR HP. revert HS HR HP. generalize (bk_trans b2) (bk_trans (compact srt b2)) (bk_trans b3) (bk_trans (compact srt b3)) (bk_trans (compact srt main)).
        intros l1 l2 l3 l4 M HS. revert l3 l4. induction HS as [|t t0 l1 l2 H1 _ IH]; intros l3 l4 HR HP.
        * inversion HR; subst. inversion HP; subst. constructor.
        * inversion HR as [|? u0 ? ? H2 HR']; subst. inversion HP as [|? u ? ? H3 HP']; subst. constructor; [exists t0, u0; auto|]. eapply IH; eassumption.
      + rewrite compact_ccy. reflexivity.
    - unfold transactions. cbn [fst snd]. exists m1, (compact srt b2). split; [exact Hm1|]. split; [apply compact_book_ok; assumption|].
      split; [apply (compact_idem srt Hsrt); apply Hb2|]. split; [apply (regroup_sorted srt Hsrt); assumption|]. rewrite Hcc. reflexivity.
  Qed.
End Import.
