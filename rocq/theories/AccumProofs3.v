(** * AccumProofs3: from the rows to the summary. *)
From Verif Require Import Base Dec DateModel PriceModel PriceSpec PriceProofs BookModel BookSpec BookProofs OpsModel OpsProofs OpsProofs3
  RegisterModel RegisterSpec RegisterProofs AccumModel AccumSpec AccumProofs AccumProofs2.

Lemma grouped_group_ok ts us : well_grouped ts -> Forall2 same_trans ts us -> group_all (concat us) = us.
Proof. intros Hg F. apply well_grouped_group_all. exact (grouped_F2 ts us Hg F). Qed.
Lemma hide_concat cr h ts : hide cr h (concat ts) = concat (map (hide cr h) ts).
Proof. unfold hide. induction ts as [|t ts IH]; [reflexivity|]. cbn [concat map]. rewrite filter_app, map_app, IH. reflexivity. Qed.
Lemma neg_if_dp cr p : dp (neg_if cr p) = dp p.
Proof. unfold neg_if. destruct cr as [m|]; [destruct (m (p_acct p))|]; reflexivity. Qed.
Lemma hide_none t : hide None [] t = t.
Proof. unfold hide. cbn [is_hidden nonempty andb negb]. rewrite (filter_all _ t) by (rewrite Forall_forall; reflexivity). rewrite (map_ext _ (fun p => p)) by reflexivity. apply map_id. Qed.
Lemma Forall2_In_r {A B} (R : A -> B -> Prop) l m y : Forall2 R l m -> In y m -> exists x, In x l /\ R x y.
Proof. induction 1 as [|a b l m H F IH]; intros Hy; [contradiction|]. destruct Hy as [->|Hy]; [exists a; split; [left; reflexivity|exact H]|]. destruct (IH Hy) as (x & H1 & H2). exists x. split; [right; exact H1|exact H2]. Qed.
Lemma Forall2_In_l {A B} (R : A -> B -> Prop) l m x : Forall2 R l m -> In x l -> exists y, In y m /\ R x y.
Proof. induction 1 as [|a b l m H F IH]; intros Hx; [contradiction|]. destruct Hx as [->|Hx]; [exists b; split; [left; reflexivity|exact H]|]. destruct (IH Hx) as (y & H1 & H2). exists y. split; [right; exact H1|exact H2]. Qed.
Lemma Forall2_same_l {A B} (P : A -> Prop) (R : A -> B -> Prop) l m : Forall P l -> Forall2 R l m -> Forall2 (fun x y => P x /\ R x y) l m.
Proof. intros Hf F. induction F; constructor; [split; [exact (Forall_inv Hf)|assumption]|apply IHF; exact (Forall_inv_tail Hf)]. Qed.
Lemma Forall2_compose {A B C} (R : A -> B -> Prop) (S : B -> C -> Prop) l m n : Forall2 R l m -> Forall2 S m n -> Forall2 (fun x z => exists y, R x y /\ S y z) l n.
Proof. intros F. revert n. induction F; intros n G; inversion G; subst; constructor; eauto. Qed.
Lemma Forall2_imp {A B} (R S : A -> B -> Prop) l m : (forall x y, R x y -> S x y) -> Forall2 R l m -> Forall2 S l m.
Proof. intros H F. induction F; constructor; auto. Qed.
Lemma NoDup_app2 {A} (a b : list A) : NoDup a -> NoDup b -> (forall x, In x a -> In x b -> False) -> NoDup (a ++ b).
Proof.
  intros Ha Hb H. induction Ha as [|x a Hx Ha IH]; [exact Hb|]. cbn [app]. constructor.
  - rewrite in_app_iff. intros [Hin|Hin]; [contradiction|]. exact (H x (or_introl eq_refl) Hin).
  - apply IH. intros y Hy. apply H. right. exact Hy.
Qed.
Lemma Forall2_swap {A B} (R : A -> B -> Prop) l m : Forall2 R l m -> Forall2 (fun y x => R x y) m l.
Proof. induction 1; constructor; assumption. Qed.

Section Main.
  Variables (srt : list posting -> list posting) (it : list posting -> list str -> list str) (micro : Qc -> Z).
  Hypothesis Hsrt : sort_ok is_less srt.
  Hypothesis Hit : forall g l, Permutation (it g l) l.
  Variables (to : str) (d : Z) (b : book).
  Hypothesis Hok : book_ok b.
  Hypothesis Hne : bk_post (compact srt b) <> [].
  Hypothesis Hpr : forall p c, In p (bk_post (compact srt b)) -> exists r pt, get_price (bk_prices b) (p_date p) c to = Ok (r, pt).

  Let P := bk_post (compact srt b).
  Let T := bk_trans (compact srt b).
  Lemma prices_compact : bk_prices (compact srt b) = bk_prices b.
  Proof. unfold compact. destruct (bk_post b); reflexivity. Qed.

  (** Everything that is proved about the rows of a summary. *)
  Definition summary (K : list str) (acl : list (str * str)) (t t' : list posting) : Prop :=
    exists blk, block it micro (bk_prices b) to d K acl t blk /\ Permutation t' blk.
  Lemma accum_main : exists K acl ts,
    accumulate srt it micro to [d] None [] b = Ok (compact srt b, ts) /\
    (forall credit hidden, accumulate srt it micro to [d] credit hidden b = Ok (compact srt b, map (hide credit hidden) ts)) /\
    (forall hidden, Forall (fun t => exists r, In r t /\ is_hidden hidden r = false) ts) /\
    NoDup K /\ (forall p, In p P -> p_ccy p <> to -> In (p_acct p) K) /\ (forall k, In k K -> exists p, In p P /\ at_or_below d k (p_acct p)) /\
    NoDup acl /\ (forall k, In k acl <-> In k (map ac P)) /\
    Forall2 (summary K acl) T ts /\ Forall (sorted_by is_less) ts /\ well_grouped ts /\ adjacent_keys d P K.
  Proof.
    pose proof (compact_book_ok srt Hsrt b Hok) as (Hpl & HT & Hg & Hbal). fold P in Hpl, HT, Hbal. fold T in HT, Hg.
    pose proof (compact_tidy srt b Hsrt Hok) as Htidy. fold T in Htidy.
    assert (Hs : StronglySorted klt P).
    { unfold P. destruct (bk_post b) as [|x l] eqn:Eb.
      - unfold compact. rewrite Eb, Eb. constructor.
      - apply (compact_canonical srt Hsrt b). apply Hok. }
    destruct (accum_rows_spec srt it micro Hsrt Hit (bk_prices b) to d P T Hne HT Hg Hpl Hs Hpr) as (K & acl & rows & blocks & Er & K1 & K2 & K3 & A1 & A2 & So & Pm & Hbg & FB & Hadj).
    exists K, acl, (group_all rows).
    pose proof (group_all_spec rows (sorted_dple rows So)) as Hgr.
    assert (FG : Forall2 (@Permutation posting) (group_all rows) blocks) by (apply grouped_perm; [exact Hgr|exact Hbg|rewrite group_all_concat; exact Pm]).
    assert (FS : Forall2 (summary K acl) T (group_all rows)).
    { apply Forall2_swap in FG. pose proof (Forall2_compose _ _ _ _ _ FB FG) as H. eapply Forall2_imp; [|exact H]. intros t t' (blk & H1 & H2). exists blk. split; assumption. }
    assert (Hvis : forall hidden, Forall (fun t => exists r, In r t /\ is_hidden hidden r = false) (group_all rows)).
    { intros hidden. rewrite Forall_forall. intros t' Ht'. destruct (Forall2_In_r _ _ _ _ FS Ht') as (t & Ht & (blk & (g & leaves & subs & Pg & F1 & F2 & _ & ->) & Pt')).
      rewrite Forall_forall in Htidy. pose proof (Htidy t Ht) as Htd. destruct Hg as (Hgf & _). rewrite Forall_forall in Hgf. destruct (Hgf t Ht) as [Htn _]. destruct t as [|p t]; [congruence|].
      assert (exists q, In q (p :: t) /\ p_acct q <> p_acct p) as (q & Hq & Nq).
      { pose proof Htd as (_ & _ & _ & Hz & _). assert (Hop : opposites p (p :: t) (counters (p :: t) p)) by (apply counters_opposites; [exact (Forall_inv Hz)|exact Hz]).
        destruct (opposites_sum _ _ _ Htd (or_introl eq_refl) Hop) as [Hno _]. destruct (counters (p :: t) p) as [|q l] eqn:Ec; [congruence|].
        assert (Hin : In q (q :: l)) by (left; reflexivity). apply (opposites_In _ _ _ _ Hop) in Hin as [H1 H2]. exists q. split; [exact H1|]. destruct H2 as [H2 _]. congruence. }
      assert (Hleaf : forall x, In x (p :: t) -> exists r, In r t' /\ p_acct r = p_acct x).
      { intros x Hx. assert (Hxg : In x g) by (apply (Permutation_in _ (Permutation_sym Pg)); apply in_app_iff; left; exact Hx). destruct (Forall2_In_l _ _ _ _ F1 Hxg) as (r & Hr & (sr & E)).
        exists r. split; [apply (Permutation_in _ (Permutation_sym Pt')); apply in_app_iff; left; exact Hr|rewrite E; reflexivity]. }
      destruct (Hleaf p (or_introl eq_refl)) as (r1 & Hr1 & E1). destruct (Hleaf q Hq) as (r2 & Hr2 & E2).
      destruct (is_hidden hidden r1) eqn:Eh; [|exists r1; auto]. exists r2. split; [exact Hr2|]. unfold is_hidden in *. apply andb_true_iff in Eh as [-> Eh]. apply str_eqb_eq in Eh. cbn [andb].
      apply str_eqb_neq. congruence. }
    assert (Hacc : forall credit hidden, accumulate srt it micro to [d] credit hidden b = Ok (compact srt b, map (hide credit hidden) (group_all rows))).
    { intros credit hidden. unfold accumulate. cbv zeta. rewrite prices_compact. fold P. rewrite Er.
      assert (Hsame : Forall2 same_trans (group_all rows) (map (hide credit hidden) (group_all rows))).
      { pose proof (Hvis hidden) as Hv. clear - Hv. induction Hv as [|t ts (r & Hr & Eh) _ IH]; cbn [map]; constructor; [|exact IH]. split.
        - assert (Hin : In (neg_if credit r) (hide credit hidden t)) by (apply in_map; apply filter_In; split; [exact Hr|rewrite Eh; reflexivity]). intros E. rewrite E in Hin. contradiction.
        - intros p Hp. unfold hide in Hp. apply in_map_iff in Hp as (q & <- & Hq). apply filter_In in Hq as [Hq _]. exists q. split; [exact Hq|apply neg_if_dp]. }
      pose proof (grouped_group_ok _ _ Hgr Hsame) as E. rewrite <- hide_concat, group_all_concat in E.
      destruct P as [|p0 P0] eqn:EP; [destruct (Hne EP)|]. cbn [obind]. destruct (hide credit hidden rows) as [|x l] eqn:Eh; [|rewrite E; reflexivity].
      exfalso. cbn in E. destruct (group_all rows) as [|t ts] eqn:Eg; [|discriminate E]. inversion FS as [E0|]. subst T. rewrite <- E0 in HT. cbn in HT. congruence. }
    split. { rewrite Hacc. f_equal. f_equal. rewrite <- (map_id (group_all rows)) at 2. apply map_ext. apply hide_none. }
    split; [exact Hacc|]. split; [exact Hvis|]. split; [exact K1|]. split; [exact K2|]. split; [exact K3|]. split; [exact A1|]. split; [exact A2|]. split; [exact FS|]. split; [|split; [exact Hgr|exact Hadj]].
    apply sorted_concat_each. rewrite group_all_concat. exact So.
  Qed.
End Main.

(** ** consequences for one transaction *)
Lemma filled_pairs acl t : t <> [] -> NoDup acl -> NoDup (map ac t) -> (forall k, In k (map ac t) -> In k acl) -> Permutation (map ac (filled acl t)) acl.
Proof.
  intros Hn Ha Ht Hi. unfold filled. rewrite map_app. destruct t as [|p t]; [congruence|]. cbn [fill_of]. rewrite map_map.
  rewrite (map_ext (fun x => ac (zero_post p x)) (fun x => x)) by (intros [a c]; reflexivity). rewrite map_id. set (t0 := p :: t) in *.
  assert (Hm : forall k, In k (missing acl t0) <-> In k acl /\ ~ In k (map ac t0)).
  { intros k. unfold missing. rewrite filter_In. destruct (mem_pair k (map ac t0)) eqn:E; cbn [negb]; [apply mem_pair_In in E; split; [intros [_ H]; discriminate|tauto]|].
    assert (~ In k (map ac t0)) by (intros H; apply mem_pair_In in H; congruence). tauto. }
  apply NoDup_Permutation; [|exact Ha|].
  - apply NoDup_app2; [exact Ht|apply NoDup_filter; exact Ha|]. intros k H1 H2. apply Hm in H2. tauto.
  - intros k. rewrite in_app_iff, Hm. split; [intros [H|H]; [auto|tauto]|]. intros H. destruct (mem_pair k (map ac t0)) eqn:E; [apply mem_pair_In in E; auto|]. right. split; [exact H|]. intros H2. apply mem_pair_In in H2. congruence.
Qed.

Lemma sum_over_filter {A} (P : A -> Prop) (pd : A -> bool) f l : (forall x, pd x = true <-> P x) -> sum_over P f l (qsum (map f (filter pd l))).
Proof.
  intros H. induction l as [|x l IH]; [constructor|]. cbn [filter]. destruct (pd x) eqn:E.
  - cbn [map]. rewrite qsum_cons. constructor; [apply H; exact E|exact IH].
  - constructor; [intros Hx; apply H in Hx; congruence|exact IH].
Qed.
Lemma sum_over_fun {A} (P : A -> Prop) f l s : sum_over P f l s -> forall s', sum_over P f l s' -> s = s'.
Proof. induction 1; intros s' H'; inversion H'; subst; try contradiction; [reflexivity|f_equal; auto|auto]. Qed.
Lemma conv_zero pb to p : p_val p = 0%Qc -> conv pb to p = 0%Qc.
Proof. intros H. unfold conv. rewrite H. destruct (str_eqb (p_ccy p) to); [reflexivity|]. destruct (get_price pb (p_date p) (p_ccy p) to) as [[r pt]| | |]; try reflexivity. ring. Qed.
Lemma tree_sum_perm pb to d k g g' : Permutation g g' -> tree_sum pb to d k g = tree_sum pb to d k g'.
Proof. intros H. apply qsum_perm. apply Permutation_map. apply filter_perm. exact H. Qed.
Lemma qsum_conv_zero pb to (h : posting -> bool) l : Forall (fun p => p_val p = 0%Qc) l -> qsum (map (conv pb to) (filter h l)) = 0%Qc.
Proof.
  induction 1 as [|p l H _ IH]; [reflexivity|]. cbn [filter]. destruct (h p); [|exact IH]. cbn [map]. rewrite qsum_cons, IH, (conv_zero _ _ _ H). ring.
Qed.
Lemma fill_zero acl t : Forall (fun p => p_val p = 0%Qc) (fill_of acl t).
Proof. destruct t as [|p t]; [constructor|]. cbn [fill_of]. rewrite Forall_forall. intros x Hx. apply in_map_iff in Hx as (k & <- & _). reflexivity. Qed.
Lemma tree_sum_filled pb to d k acl t : tree_sum pb to d k (filled acl t) = tree_sum pb to d k t.
Proof. unfold tree_sum, filled. rewrite filter_app, map_app, qsum_app, (qsum_conv_zero pb to _ (fill_of acl t) (fill_zero acl t)). ring. Qed.
Lemma conv_sum_filled pb to acl t g : Permutation g (filled acl t) -> qsum (map (conv pb to) g) = qsum (map (conv pb to) t).
Proof.
  intros H. rewrite (qsum_perm _ _ (Permutation_map (conv pb to) H)). unfold filled. rewrite map_app, qsum_app.
  pose proof (qsum_conv_zero pb to (fun _ => true) (fill_of acl t) (fill_zero acl t)) as E. rewrite (filter_all _ (fill_of acl t)) in E by (rewrite Forall_forall; reflexivity). rewrite E. ring.
Qed.

(** ** the topmost subtotal above an account *)
Definition top (K : list str) (d : Z) : list str := filter (fun k => level_of K d false k =? 0) K.
Lemma level0_false K d k : level_of K d false k = 0 <-> forall k', In k' K -> ~ below d k' k.
Proof.
  unfold level_of. cbn [andb]. split.
  - intros H k' Hk Hb. assert (Hin : In k' (filter (fun k0 => belowb d k0 k || false) K)) by (apply filter_In; split; [exact Hk|apply belowb_spec in Hb; rewrite Hb; reflexivity]).
    destruct (filter (fun k0 => belowb d k0 k || false) K); [contradiction|cbn in H; lia].
  - intros H. rewrite filter_none; [reflexivity|]. rewrite Forall_forall. intros k' Hk. rewrite orb_false_r. destruct (belowb d k' k) eqn:E; [apply belowb_spec in E; destruct (H k' Hk E)|reflexivity].
Qed.
Lemma level0_true K d a : level_of K d true a = 0 <-> forall k, In k K -> ~ at_or_below d k a.
Proof.
  unfold level_of. cbn [andb]. split.
  - intros H k Hk Hb. assert (Hin : In k (filter (fun k0 => belowb d k0 a || str_eqb a k0) K)).
    { apply filter_In. split; [exact Hk|]. apply at_belowb_spec in Hb. unfold at_belowb in Hb. unfold belowb. rewrite orb_comm. exact Hb. }
    destruct (filter (fun k0 => belowb d k0 a || str_eqb a k0) K); [contradiction|cbn in H; lia].
  - intros H. rewrite filter_none; [reflexivity|]. rewrite Forall_forall. intros k Hk. destruct (belowb d k a || str_eqb a k) eqn:E; [|reflexivity]. destruct (H k Hk). apply at_belowb_spec. unfold at_belowb. rewrite orb_comm. exact E.
Qed.
Lemma shortest (Q : str -> bool) (K : list str) : (exists k, In k K /\ Q k = true) -> exists k, In k K /\ Q k = true /\ forall k', In k' K -> Q k' = true -> (length k <= length k')%nat.
Proof.
  induction K as [|x K IH]; intros (k & Hk & E); [contradiction|]. destruct (existsb Q K) eqn:Ex.
  - apply existsb_exists in Ex as (y & Hy & Ey). destruct (IH (ex_intro _ y (conj Hy Ey))) as (m & Hm & Em & Hmin). destruct (Q x) eqn:Qx.
    + destruct (Nat.leb_spec (length x) (length m)).
      * exists x. split; [left; reflexivity|]. split; [exact Qx|]. intros k' [<-|Hk'] E'; [lia|]. specialize (Hmin k' Hk' E'). lia.
      * exists m. split; [right; exact Hm|]. split; [exact Em|]. intros k' [<-|Hk'] E'; [lia|]. exact (Hmin k' Hk' E').
    + exists m. split; [right; exact Hm|]. split; [exact Em|]. intros k' [<-|Hk'] E'; [congruence|]. exact (Hmin k' Hk' E').
  - assert (Hno : forall y, In y K -> Q y = true -> False) by (intros y Hy Ey; assert (existsb Q K = true) by (apply existsb_exists; eauto); congruence).
    destruct Hk as [<-|Hk]; [|destruct (Hno k Hk E)]. exists x. split; [left; reflexivity|]. split; [exact E|]. intros k' [<-|Hk'] E'; [lia|destruct (Hno k' Hk' E')].
Qed.
Lemma one_top K d a : NoDup K ->
  (level_of K d true a = 0 /\ filter (fun k => at_belowb d k a) (top K d) = []) \/
  (level_of K d true a <> 0 /\ exists k, filter (fun k => at_belowb d k a) (top K d) = [k]).
Proof.
  intros Hn. destruct (Z.eq_dec (level_of K d true a) 0) as [E|N]; [left|right]; (split; [assumption|]).
  - apply filter_none. rewrite Forall_forall. intros k Hk. apply filter_In in Hk as [Hk _]. destruct (at_belowb d k a) eqn:Eb; [|reflexivity]. apply at_belowb_spec in Eb.
    pose proof (proj1 (level0_true K d a) E) as E'. destruct (E' k Hk Eb).
  - assert (Hex : exists k, In k K /\ at_belowb d k a = true).
    { destruct (existsb (fun k => at_belowb d k a) K) eqn:Ex; [apply existsb_exists in Ex; exact Ex|]. exfalso. apply N. apply level0_true. intros k Hk Hb. apply at_belowb_spec in Hb.
      assert (existsb (fun k => at_belowb d k a) K = true) by (apply existsb_exists; eauto). congruence. }
    destruct (shortest (fun k => at_belowb d k a) K Hex) as (k & Hk & Ek & Hmin). pose proof (proj1 (at_belowb_spec _ _ _) Ek) as Hka.
    exists k.
    assert (Hset : forall x, In x (filter (fun k0 => at_belowb d k0 a) (top K d)) <-> In x [k]).
    { intros x. unfold top. rewrite !filter_In, Z.eqb_eq, level0_false. split.
      - intros ((Hx & Hlv) & Ex). left. pose proof (proj1 (at_belowb_spec _ _ _) Ex) as Hxa. destruct (at_below_chain d a k x Hka Hxa (Hmin x Hx Ex)) as [->|Hb]; [reflexivity|destruct (Hlv k Hk Hb)].
      - intros [<-|[]]. split; [split; [exact Hk|]|exact Ek]. intros k' Hk' Hb. assert (Ek' : at_belowb d k' a = true).
        { apply at_belowb_spec. right. destruct Hka as [->|Hka]; [exact Hb|exact (below_trans _ _ _ _ Hb Hka)]. }
        specialize (Hmin k' Hk' Ek'). apply below_length in Hb. lia. }
    apply Permutation_length_1_inv. apply NoDup_Permutation; [repeat constructor; intros []|apply NoDup_filter; apply NoDup_filter; exact Hn|]. intros x. symmetry. apply Hset.
Qed.
(** the subtotals of level 0 together with the ordinary rows of level 0 count every posting once *)
Lemma top_sum pb to d K g : NoDup K ->
  (qsum (map (fun k => tree_sum pb to d k g) (top K d)) + qsum (map (conv pb to) (filter (fun p => level_of K d true (p_acct p) =? 0) g)))%Qc = qsum (map (conv pb to) g).
Proof.
  intros Hn. induction g as [|p g IH].
  - assert (E : forall l, qsum (map (fun k => tree_sum pb to d k []) l) = 0%Qc) by (induction l as [|k l IHl]; [reflexivity|cbn [map]; rewrite qsum_cons, IHl; change (tree_sum pb to d k []) with 0%Qc; ring]).
    rewrite E. cbn [filter map]. change (qsum []) with 0%Qc. ring.
  - assert (E : forall l, qsum (map (fun k => tree_sum pb to d k (p :: g)) l) = (qsum (map (fun _ => conv pb to p) (filter (fun k => at_belowb d k (p_acct p)) l)) + qsum (map (fun k => tree_sum pb to d k g) l))%Qc).
    { induction l as [|k l IHl]; [cbn [map filter]; change (qsum []) with 0%Qc; ring|]. cbn [map filter]. rewrite qsum_cons, IHl. unfold tree_sum at 1. cbn [filter].
      destruct (at_belowb d k (p_acct p)); cbn [map]; rewrite ?qsum_cons; fold (tree_sum pb to d k g); ring. }
    rewrite E. cbn [filter map]. rewrite qsum_cons, <- IH. destruct (one_top K d (p_acct p) Hn) as [[E0 ->]|[N0 (k & ->)]].
    + rewrite E0, Z.eqb_refl. cbn [map]. rewrite qsum_cons. change (qsum []) with 0%Qc. ring.
    + destruct (Z.eqb_spec (level_of K d true (p_acct p)) 0); [contradiction|]. cbn [map]. rewrite qsum_cons. change (qsum []) with 0%Qc. ring.
Qed.

(** ** the rows of a block *)
Lemma leaves_ac d K g leaves : Forall2 (leaf_rel d K) g leaves -> map ac leaves = map ac g.
Proof. induction 1 as [|p r g l (sr & ->) _ IH]; [reflexivity|]. cbn [map]. rewrite IH. reflexivity. Qed.
Lemma leaves_ids d K g leaves : Forall2 (leaf_rel d K) g leaves -> map row_id leaves = map (fun k => (fst k, level_of K d true (fst k), term_of d K true (fst k), snd k)) (map ac g).
Proof. induction 1 as [|p r g l (sr & ->) _ IH]; [reflexivity|]. cbn [map]. rewrite IH. reflexivity. Qed.
Lemma subs_ids pb to d K g ks subs : Forall2 (sub_rel pb to d K g) ks subs -> map row_id subs = map (fun k => (k, level_of K d false k, term_of d K false k, to)) ks.
Proof. induction 1 as [|k r ks l (q & sr & _ & ->) _ IH]; [reflexivity|]. cbn [map]. rewrite IH. reflexivity. Qed.
Lemma subs_accts pb to d K g ks subs : Forall2 (sub_rel pb to d K g) ks subs -> map p_acct subs = ks.
Proof. induction 1 as [|k r ks l (q & sr & _ & ->) _ IH]; [reflexivity|]. cbn [map]. rewrite IH. reflexivity. Qed.
Lemma subs_level0 pb to d K g ks subs : Forall2 (sub_rel pb to d K g) ks subs ->
  map p_val (filter (fun r => p_level r =? 0) subs) = map (fun k => tree_sum pb to d k g) (filter (fun k => level_of K d false k =? 0) ks).
Proof.
  induction 1 as [|k r ks l (q & sr & _ & ->) _ IH]; [reflexivity|]. cbn [filter p_level]. destruct (level_of K d false k =? 0); [|exact IH]. cbn [map]. rewrite IH. reflexivity.
Qed.
Lemma leaves_level0 pb to d K g leaves : Forall2 (leaf_rel d K) g leaves -> (forall p, In p g -> p_ccy p <> to -> In (p_acct p) K) ->
  map p_val (filter (fun r => p_level r =? 0) leaves) = map (conv pb to) (filter (fun p => level_of K d true (p_acct p) =? 0) g).
Proof.
  induction 1 as [|p r g l (sr & ->) _ IH]; intros Hk; [reflexivity|]. cbn [filter set_level p_level]. specialize (IH (fun q Hq => Hk q (or_intror Hq))).
  destruct (Z.eqb_spec (level_of K d true (p_acct p)) 0) as [E|_]; [|exact IH]. cbn [map]. rewrite IH. f_equal. cbn [set_level p_val]. unfold conv.
  destruct (str_eqb_spec (p_ccy p) to) as [_|N]; [reflexivity|]. exfalso. pose proof (proj1 (level0_true K d (p_acct p)) E) as E'. apply (E' (p_acct p) (Hk p (or_introl eq_refl) N)). left. reflexivity.
Qed.
