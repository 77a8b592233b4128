(** * AccumProofs2: the rows of a summary. *)
From Verif Require Import Base Dec DateModel PriceModel PriceSpec PriceProofs BookModel BookSpec BookProofs OpsProofs OpsProofs3
  RegisterModel RegisterProofs AccumModel AccumSpec AccumProofs.

(** ** regrouping *)
Lemma concat_nil_grouped ts : well_grouped ts -> concat ts = [] -> ts = [].
Proof. intros (H & _) E. destruct ts as [|t ts]; [reflexivity|]. destruct (Forall_inv H) as [Hn _]. destruct t; [congruence|discriminate]. Qed.
Lemma grouped_head_filter t ts k : well_grouped (t :: ts) -> (exists p, In p t /\ dp p = k) ->
  filter (fun p => dpeqb (dp p) k) (concat (t :: ts)) = t /\ filter (fun p => negb (dpeqb (dp p) k)) (concat (t :: ts)) = concat ts.
Proof.
  intros Hg (p & Hp & <-). pose proof Hg as (Hf & _). destruct (Forall_inv Hf) as [_ Hu]. cbn [concat]. rewrite !filter_app.
  assert (H1 : Forall (fun q => dpeqb (dp q) (dp p) = true) t) by (rewrite Forall_forall; intros q Hq; apply dpeqb_eq; apply Hu; assumption).
  assert (H2 : Forall (fun q => dpeqb (dp q) (dp p) = false) (concat ts)).
  { rewrite Forall_forall. intros q Hq. destruct (dpeqb (dp q) (dp p)) eqn:E; [|reflexivity]. apply dpeqb_eq in E. destruct (grouped_disjoint t ts Hg p q Hp Hq). congruence. }
  split.
  - rewrite (filter_all _ t H1), (filter_none _ (concat ts) H2). apply app_nil_r.
  - rewrite (filter_none _ t), (filter_all _ (concat ts)); [reflexivity|eapply Forall_impl; [|exact H2]; cbn; intros a ->; reflexivity|eapply Forall_impl; [|exact H1]; cbn; intros a ->; reflexivity].
Qed.
Lemma grouped_perm : forall Ls gs, well_grouped gs -> well_grouped Ls -> Permutation (concat gs) (concat Ls) -> Forall2 (@Permutation posting) gs Ls.
Proof.
  induction Ls as [|L Ls IH]; intros gs Hg HL P.
  - cbn in P. apply Permutation_sym, Permutation_nil in P. apply concat_nil_grouped in P; [|exact Hg]. subst. constructor.
  - destruct gs as [|g gs]. { assert (E : concat (L :: Ls) = []) by (apply Permutation_nil; exact P). apply (concat_nil_grouped _ HL) in E. discriminate E. }
    pose proof Hg as (Hf & Hs). pose proof HL as (HfL & HsL). destruct (Forall_inv Hf) as [Hgn Hgu]. destruct (Forall_inv HfL) as [HLn HLu].
    destruct g as [|p g]; [congruence|]. destruct L as [|q L]; [congruence|].
    apply StronglySorted_inv in Hs as [Hs Hs1]. apply StronglySorted_inv in HsL as [HsL HsL1]. rewrite Forall_forall in Hs1, HsL1.
    assert (Ek : dp p = dp q).
    { assert (Hp : In p (concat ((q :: L) :: Ls))) by (apply (Permutation_in _ P); left; reflexivity).
      assert (Hq : In q (concat ((p :: g) :: gs))) by (apply (Permutation_in _ (Permutation_sym P)); left; reflexivity).
      cbn [concat] in Hp, Hq. apply in_app_iff in Hp as [Hp|Hp]; [apply HLu; [exact Hp|left; reflexivity]|]. apply in_app_iff in Hq as [Hq|Hq]; [apply Hgu; [left; reflexivity|exact Hq]|].
      apply in_concat in Hp as (l1 & Hl1 & Hp). apply in_concat in Hq as (l2 & Hl2 & Hq).
      specialize (HsL1 l1 Hl1 q p (or_introl eq_refl) Hp). specialize (Hs1 l2 Hl2 p q (or_introl eq_refl) Hq). unfold dplt in *.
      destruct (lc_lt_irrefl _ dpcmp_lin (dp p)). exact (lc_trans _ dpcmp_lin _ _ _ Hs1 HsL1). }
    destruct (grouped_head_filter (p :: g) gs (dp p) Hg) as [A1 A2]; [exists p; split; [left|]; reflexivity|].
    destruct (grouped_head_filter (q :: L) Ls (dp p) HL) as [B1 B2]; [exists q; split; [left; reflexivity|congruence]|].
    constructor.
    + rewrite <- A1, <- B1. apply filter_perm. exact P.
    + apply IH; [exact (grouped_cons _ _ Hg)|exact (grouped_cons _ _ HL)|]. rewrite <- A2, <- B2. apply filter_perm. exact P.
Qed.
Definition same_trans (t u : list posting) : Prop := u <> [] /\ forall p, In p u -> exists q, In q t /\ dp p = dp q.
Lemma grouped_F2 ts : forall us, well_grouped ts -> Forall2 same_trans ts us -> well_grouped us.
Proof.
  induction ts as [|t ts IH]; intros us Hg F; inversion F as [|? u ? us' [Hn Hu] F']; subst; [split; constructor|].
  destruct (IH us' (grouped_cons _ _ Hg) F') as [H1 H2]. pose proof Hg as (Hf & Hs). destruct (Forall_inv Hf) as [_ Hun]. apply StronglySorted_inv in Hs as [_ Hs]. split; constructor; [|exact H1|exact H2|].
  - split; [exact Hn|]. intros p q Hp Hq. destruct (Hu p Hp) as (p' & Hp' & ->). destruct (Hu q Hq) as (q' & Hq' & ->). apply Hun; assumption.
  - rewrite Forall_forall in *. intros v Hv p q Hp Hq. assert (exists t', In t' ts /\ same_trans t' v) as (t' & Ht' & _ & Hv').
    { clear - F' Hv. induction F' as [|a b l m H F IH]; [contradiction|]. destruct Hv as [->|Hv]; [exists a; split; [left; reflexivity|exact H]|]. destruct (IH Hv) as (t' & H1 & H2). exists t'. split; [right; exact H1|exact H2]. }
    destruct (Hu p Hp) as (p' & Hp' & E1). destruct (Hv' q Hq) as (q' & Hq' & E2). unfold dplt. rewrite E1, E2. exact (Hs t' Ht' p' q' Hp' Hq').
Qed.
Lemma sorted_dple l : sorted_by is_less l -> StronglySorted dple l.
Proof.
  apply StronglySorted_impl. intros a b _ _ H. rewrite is_less_fcmp in H. unfold dple. intros E. apply (lc_gt_lt _ dpcmp_lin) in E. unfold dpcmp, dp, lex, fcmp, fkey in *. cbn [fst snd] in *.
  unfold lex in H. cbn [fst snd] in H. destruct (p_date b ?= p_date a); [|discriminate H|discriminate]. destruct (str_cmp (p_payee b) (p_payee a)); [discriminate|discriminate H|discriminate].
Qed.

(** ** outcome lists *)
Lemma map_o_spec {A B} (f : A -> outcome B) (R : A -> B -> Prop) l : (forall x, In x l -> exists y, f x = Ok y /\ R x y) ->
  exists ys, map_o f l = Ok ys /\ Forall2 R l ys.
Proof.
  induction l as [|x l IH]; intros H; [exists []; split; [reflexivity|constructor]|].
  destruct (H x (or_introl eq_refl)) as (y & E & Hr). destruct IH as (ys & E2 & F); [intros z Hz; apply H; right; exact Hz|].
  exists (y :: ys). cbn [map_o]. rewrite E. cbn [obind]. rewrite E2. split; [reflexivity|constructor; assumption].
Qed.
Lemma convert_spec pb to g : (forall p, In p g -> exists r pt, get_price pb (p_date p) (p_ccy p) to = Ok (r, pt)) ->
  convert pb to g = Ok (map (fun p => (p_acct p, conv pb to p)) g).
Proof.
  induction g as [|p g IH]; intros H; [reflexivity|]. cbn [convert map]. rewrite IH by (intros q Hq; apply H; right; exact Hq).
  assert (G : forall v, v = conv pb to p -> (do rest <- Ok (map (fun p => (p_acct p, conv pb to p)) g); Ok ((p_acct p, v) :: rest)) = Ok ((p_acct p, conv pb to p) :: map (fun p => (p_acct p, conv pb to p)) g)) by (intros v ->; reflexivity).
  destruct (H p (or_introl eq_refl)) as (r & pt & E). destruct (str_eqb (p_ccy p) to) eqn:Ec; [|rewrite E]; cbn [obind]; apply G; unfold conv; rewrite Ec, ?E; reflexivity.
Qed.
Lemma fold_aset_get {V} (f : str -> V) k : forall K m, In k K \/ aget str_eqb k m = Some (f k) ->
  aget str_eqb k (fold_left (fun m k => aset str_eqb k (f k) m) K m) = Some (f k).
Proof.
  induction K as [|x K IH]; intros m H; cbn [fold_left]; [destruct H as [[]|H]; exact H|]. apply IH. destruct H as [[->|H]|H]; [right; apply (aget_aset_eq _ str_eqb_eq)|left; exact H|].
  destruct (str_eqb_spec k x) as [->|N]; [right; apply (aget_aset_eq _ str_eqb_eq)|]. right. rewrite (aget_aset_neq _ str_eqb_eq); [exact H|congruence].
Qed.
Lemma acct_val_get d K cp k : In k K -> aget str_eqb k (acct_val [d] K cp) = Some (subtotal [d] k cp).
Proof. intros H. unfold acct_val. apply (fold_aset_get (fun k => subtotal [d] k cp)). left. exact H. Qed.

(** ** rows *)
Section Rows.
  Variables (srt : list posting -> list posting) (it : list posting -> list str -> list str) (micro : Qc -> Z).
  Hypothesis Hsrt : sort_ok is_less srt.
  Hypothesis Hit : forall g l, Permutation (it g l) l.
  Variables (pb : pbook) (to : str) (d : Z).

  Definition term_of (K : list str) (self : bool) (a : str) : str := match split_by_strings K a self [d] with Ok (_, tm) => tm | _ => [] end.
  Lemma term_of_ok K self a : NoDup K -> split_by_strings K a self [d] = Ok (level_of K d self a, term_of K self a) /\ term_ok K d self a (term_of K self a).
  Proof. intros Hn. unfold term_of. destruct (split_by_strings_spec K a self d Hn) as (tm & -> & Ht). auto. Qed.
  Definition leaf_rel (K : list str) (p r : posting) : Prop :=
    exists sr, r = set_level p (level_of K d true (p_acct p)) (term_of K true (p_acct p)) sr.
  Definition tree_sum (k : str) (t : list posting) : Qc := qsum (map (conv pb to) (filter (fun p => at_belowb d k (p_acct p)) t)).
  Definition sub_rel (K : list str) (g : list posting) (k : str) (r : posting) : Prop :=
    exists q sr, In q g /\ r = mkP (p_date q) (p_payee q) (p_tnote q) k to (tree_sum k g) [] 0%Qc (level_of K d false k) (term_of K false k) sr.

  (** the sort keys of the rows *)
  Definition vals_of (K : list str) (g : list posting) : list (str * Qc) := acct_val [d] K (map (fun p => (p_acct p, conv pb to p)) g).
  Definition sorts (K : list str) (g rows : list posting) : Prop :=
    Forall (fun r => p_sort r = get_sort_order_string micro (vals_of K g) (p_acct r) [d]) rows.

  Lemma subtotal_tree k g : subtotal [d] k (map (fun p => (p_acct p, conv pb to p)) g) = tree_sum k g.
  Proof.
    unfold subtotal, tree_sum. f_equal. induction g as [|p g IH]; [reflexivity|]. cbn [map filter fst]. unfold at_belowb at 1.
    destruct (str_eqb (p_acct p) k || has_prefix (p_acct p) (k ++ [d])); cbn [map snd]; [f_equal|]; exact IH.
  Qed.
  Lemma accum_trans_spec K g : NoDup K -> g <> [] -> (forall p, In p g -> exists r pt, get_price pb (p_date p) (p_ccy p) to = Ok (r, pt)) ->
    exists leaves subs, accum_trans it micro pb K to [d] g = Ok (leaves, subs) /\ Forall2 (leaf_rel K) g leaves /\ Forall2 (sub_rel K g) (it g K) subs /\ sorts K g leaves /\ sorts K g subs.
  Proof.
    intros Hn Hg Hp. unfold accum_trans. destruct g as [|first g]; [congruence|]. rewrite convert_spec by exact Hp. cbn [obind].
    set (G := first :: g) in *. set (vals := acct_val [d] K (map (fun p => (p_acct p, conv pb to p)) G)).
    destruct (map_o_spec (leaf_row micro K [d] vals) (fun p r => leaf_rel K p r /\ p_sort r = get_sort_order_string micro vals (p_acct r) [d]) G) as (leaves & E1 & F1).
    { intros p _. unfold leaf_row. destruct (term_of_ok K true (p_acct p) Hn) as [-> _]. cbn [obind]. eexists. split; [reflexivity|]. split; [exists (get_sort_order_string micro vals (p_acct p) [d]); reflexivity|reflexivity]. }
    destruct (map_o_spec (sub_row micro K to [d] vals first) (fun k r => sub_rel K G k r /\ p_sort r = get_sort_order_string micro vals (p_acct r) [d]) (it G K)) as (subs & E2 & F2).
    { intros k Hk. apply (Permutation_in _ (Hit G K)) in Hk. unfold sub_row. destruct (term_of_ok K false k Hn) as [-> _]. cbn [obind].
      assert (Hv : aget str_eqb k vals = Some (tree_sum k G)) by (unfold vals; rewrite acct_val_get by exact Hk; rewrite subtotal_tree; reflexivity).
      rewrite Hv. eexists. split; [reflexivity|]. split; [exists first; eexists; split; [left; reflexivity|reflexivity]|reflexivity]. }
    exists leaves, subs. rewrite E1. cbn [obind]. rewrite E2. split; [reflexivity|].
    assert (Hsplit : forall (A : Type) (R : A -> posting -> Prop) l m, Forall2 (fun x r => R x r /\ p_sort r = get_sort_order_string micro vals (p_acct r) [d]) l m -> Forall2 R l m /\ sorts K G m).
    { intros A R l m F. induction F as [|x r l m [H1 H2] _ [IH1 IH2]]; split; constructor; assumption. }
    destruct (Hsplit _ _ _ _ F1). destruct (Hsplit _ _ _ _ F2). auto.
  Qed.

  Definition filled (acl : list (str * str)) (t : trans) : list posting := t ++ fill_of acl t.
  (** one transaction of the summary, up to the order of its rows *)
  Definition block (K : list str) (acl : list (str * str)) (t blk : list posting) : Prop :=
    exists g leaves subs, Permutation g (filled acl t) /\ Forall2 (leaf_rel K) g leaves /\ Forall2 (sub_rel K g) (it g K) subs /\ sorts K g (leaves ++ subs) /\ blk = leaves ++ subs.

  Lemma filled_same acl t : t <> [] -> same_trans t (filled acl t).
  Proof.
    intros Hn. destruct t as [|p t]; [congruence|]. split; [discriminate|]. intros q Hq. unfold filled in Hq. apply in_app_iff in Hq as [Hq|Hq]; [exists q; auto|].
    cbn [fill_of] in Hq. apply in_map_iff in Hq as (k & <- & _). exists p. split; [left; reflexivity|reflexivity].
  Qed.
  Lemma concat_app_perm {A B} (f g : A -> list B) l : Permutation (concat (map f l) ++ concat (map g l)) (concat (map (fun x => f x ++ g x) l)).
  Proof.
    induction l as [|x l IH]; cbn [map concat app]; [constructor|]. rewrite <- !app_assoc. apply Permutation_app_head. rewrite app_assoc.
    etransitivity; [apply Permutation_app_tail; apply Permutation_app_comm|]. rewrite <- app_assoc. apply Permutation_app_head. exact IH.
  Qed.
  Lemma block_same K acl t blk : t <> [] -> block K acl t blk -> same_trans t blk.
  Proof.
    intros Hn (g & leaves & subs & Pg & F1 & F2 & _ & ->). destruct (filled_same acl t Hn) as [Hfn Hf].
    assert (Hg : forall q, In q g -> exists q', In q' t /\ dp q = dp q') by (intros q Hq; apply Hf; apply (Permutation_in _ Pg Hq)).
    split.
    - destruct g as [|x g]; [apply Permutation_nil in Pg; congruence|]. inversion F1. discriminate.
    - intros r Hr. apply in_app_iff in Hr as [Hr|Hr].
      + clear - F1 Hr Hg. induction F1 as [|x y l m H F IH]; [contradiction|]. destruct Hr as [->|Hr]; [|apply IH; [intros q Hq; apply Hg; right; exact Hq|exact Hr]].
        destruct H as (sr & ->). destruct (Hg x (or_introl eq_refl)) as (q' & H1 & H2). exists q'. auto.
      + clear - F2 Hr Hg. induction F2 as [|x y l m H F IH]; [contradiction|]. destruct Hr as [->|Hr]; [|apply IH; exact Hr].
        destruct H as (q & sr & Hq & ->). destruct (Hg q Hq) as (q' & H1 & H2). exists q'. auto.
  Qed.
  Lemma Forall2_concat_In {A} (R : A -> A -> Prop) ls ms : Forall2 (Forall2 R) ls ms -> Forall2 R (concat ls) (concat ms).
  Proof. induction 1; cbn; [constructor|]. apply Forall2_app; assumption. Qed.

  Lemma F2_source {A B} (f : A -> list B) gs T : Forall2 (@Permutation B) gs (map f T) -> forall g, In g gs -> exists t, In t T /\ Permutation g (f t).
  Proof.
    revert T. induction gs as [|a gs IH]; intros T F g Hg; [contradiction|]. destruct T as [|t T]; [inversion F|]. cbn [map] in F. inversion F as [|? ? ? ? Pm F']; subst.
    destruct Hg as [->|Hg]; [exists t; split; [left; reflexivity|exact Pm]|]. destruct (IH T F' g Hg) as (t' & H1 & H2). exists t'. split; [right; exact H1|exact H2].
  Qed.
  Lemma F2_blocks K acl gs rows : Forall2 (fun g (ls : list posting * list posting) => Forall2 (leaf_rel K) g (fst ls) /\ Forall2 (sub_rel K g) (it g K) (snd ls) /\ sorts K g (fst ls) /\ sorts K g (snd ls)) gs rows ->
    forall T, Forall2 (@Permutation posting) gs (map (filled acl) T) -> Forall2 (block K acl) T (map (fun ls => fst ls ++ snd ls) rows).
  Proof.
    intros Fr. induction Fr as [|g ls gs rows (H1 & H2 & H3 & H4) F IH]; intros T FG.
    - destruct T as [|t T]; [constructor|inversion FG].
    - destruct T as [|t T]; [inversion FG|]. cbn [map] in FG. inversion FG as [|? ? ? ? Pm FG']; subst. cbn [map]. constructor; [|apply IH; exact FG'].
      exists g, (fst ls), (snd ls). repeat (split; [assumption|]). split; [apply Forall_app; auto|reflexivity].
  Qed.

  Lemma blocks_same K acl T bl : well_grouped T -> Forall2 (block K acl) T bl -> Forall2 same_trans T bl.
  Proof.
    intros (Hf & _) F. induction F as [|t blk T bl H F IH]; constructor; [apply (block_same K acl); [apply (Forall_inv Hf)|exact H]|apply IH; exact (Forall_inv_tail Hf)].
  Qed.
  (** The sorted accounts of one transaction are compared pairwise. *)
  Definition adjacent_keys (P : list posting) (K : list str) : Prop :=
    exists A, StronglySorted (fun a b => str_cmp a b <> Gt) A /\ (forall a, In a A <-> In a (map p_acct P)) /\
      forall l1 x y l2, A = l1 ++ x :: y :: l2 -> find_max_common_prefix x y [d] <> [] -> In (find_max_common_prefix x y [d]) K.
  Lemma adjacent_ok P T posts acl : P <> [] -> concat T = P -> Forall plain P -> (forall k, In k acl <-> In k (map ac P)) ->
    Forall2 (@Permutation posting) (group_all posts) (map (filled acl) T) -> well_grouped (group_all posts) -> sorted_by is_less posts ->
    adjacent_keys P (find_accum to [d] None [] posts).
  Proof.
    intros HP HT Hpl Hacl FG [Hgf _] Hso. assert (Ec := group_all_concat posts). destruct (group_all posts) as [|g gs] eqn:Eg.
    { destruct T as [|t T]; [cbn in HT; congruence|inversion FG]. }
    destruct T as [|t T]; [cbn in HT; congruence|]. cbn [map] in FG. assert (Pm : Permutation g (filled acl t)) by (inversion FG; assumption). cbn [concat] in *.
    subst P. set (P := t ++ concat T) in *.
    assert (Hpg : Forall plain g).
    { rewrite Forall_forall in *. intros p Hp. apply (Permutation_in _ Pm) in Hp. unfold filled in Hp. apply in_app_iff in Hp as [Hp|Hp]; [apply Hpl; apply in_app_iff; left; exact Hp|].
      destruct t as [|q t]; [contradiction|]. cbn [fill_of] in Hp. apply in_map_iff in Hp as (k & <- & _). split; reflexivity. }
    exists (map p_acct g). split; [|split].
    - rewrite <- Ec in Hso. apply StronglySorted_app in Hso as (Hso & _ & _). apply (sorted_plain g Hpg) in Hso. destruct (Forall_inv Hgf) as [_ Hu]. clear - Hso Hu.
      induction Hso as [|p g Hs IH Hp]; cbn [map]; constructor; [apply IH; intros x y Hx Hy; apply Hu; right; assumption|]. rewrite Forall_forall in *. intros a Ha. apply in_map_iff in Ha as (q & <- & Hq).
      specialize (Hp q Hq). specialize (Hu p q (or_introl eq_refl) (or_intror Hq)). unfold kle, kcmp, pkey, lex in Hp. unfold dp in Hu. injection Hu as E1 E2. cbn [fst snd] in Hp.
      rewrite E1, E2, Z.compare_refl, (lc_refl _ str_cmp_lin) in Hp. intros E. rewrite E in Hp. congruence.
    - assert (Hft : forall k, In k (map ac (filled acl t)) <-> In k (map ac P)).
      { intros k. unfold filled. rewrite map_app, in_app_iff. split.
        - intros [Hk|Hk]; [unfold P; rewrite map_app, in_app_iff; left; exact Hk|]. destruct t as [|q t]; [contradiction|]. cbn [fill_of] in Hk. apply in_map_iff in Hk as (p & <- & Hp).
          apply in_map_iff in Hp as ([a c] & <- & Hk). unfold missing in Hk. apply filter_In in Hk as [Hk _]. apply Hacl in Hk. exact Hk.
        - intros Hk. apply Hacl in Hk. destruct t as [|q t]; [exfalso|].
          + unfold filled in Pm. cbn in Pm. apply Permutation_sym, Permutation_nil in Pm. subst g. destruct (Forall_inv Hgf) as [Hn _]. congruence.
          + destruct (mem_pair k (map ac (q :: t))) eqn:Em; [left; apply mem_pair_In; exact Em|]. right. cbn [fill_of]. apply in_map_iff. exists (zero_post q k). split; [destruct k; reflexivity|]. apply in_map.
            unfold missing. apply filter_In. split; [exact Hk|]. rewrite Em. reflexivity. }
      intros a. assert (Hmap : forall l : list posting, In a (map p_acct l) <-> exists c, In (a, c) (map ac l)).
      { intros l. split; [intros H; apply in_map_iff in H as (p & <- & Hp); exists (p_ccy p); apply in_map_iff; exists p; auto|intros (c & H); apply in_map_iff in H as (p & E & Hp); unfold ac in E; injection E as <- _; apply in_map; exact Hp]. }
      rewrite !Hmap. assert (Hpm : forall k, In k (map ac g) <-> In k (map ac (filled acl t))) by (intros k; split; apply Permutation_in; [apply Permutation_map; exact Pm|apply Permutation_sym, Permutation_map; exact Pm]).
      split; intros (c & Hc); exists c; [apply Hft, Hpm|apply Hpm, Hft]; exact Hc.
    - intros l1 x y l2 E Hk. apply map_eq_app in E as (g1 & g2 & Eg' & _ & E). destruct g2 as [|p [|q g2]]; try discriminate E. cbn [map] in E. injection E as <- <- _.
      apply (find_accum_adj to d posts None [] g1 p q (g2 ++ concat gs) (NoDup_nil _)); [left|exact Hk]. rewrite <- Ec, Eg', <- app_assoc. reflexivity.
  Qed.
  (** The sorted rows are those of one block per transaction. *)
  Lemma accum_rows_spec P T : P <> [] -> concat T = P -> well_grouped T -> Forall plain P ->
    StronglySorted klt P -> (forall p c, In p P -> exists r pt, get_price pb (p_date p) c to = Ok (r, pt)) ->
    exists K acl rows blocks, accum_rows srt it micro pb P to [d] = Ok rows /\
      NoDup K /\ (forall p, In p P -> p_ccy p <> to -> In (p_acct p) K) /\ (forall k, In k K -> exists p, In p P /\ at_or_below d k (p_acct p)) /\
      NoDup acl /\ (forall k, In k acl <-> In k (map ac P)) /\
      sorted_by is_less rows /\ Permutation rows (concat blocks) /\ well_grouped blocks /\ Forall2 (block K acl) T blocks /\ adjacent_keys P K.
  Proof.
    intros HP HT Hg Hpl Hs Hpr. set (acl := acct_list P). destruct (acct_list_spec P) as (Ha1 & Ha2 & Ha3). fold acl in Ha1, Ha2, Ha3.
    assert (HTs : Forall (fun t => StronglySorted plt (map ac t)) T).
    { pose proof Hs as Hs'. rewrite <- HT in Hs'. apply sorted_concat_each in Hs'. destruct Hg as (Hf & _). rewrite Forall_forall in *. intros t Ht. specialize (Hs' t Ht). destruct (Hf t Ht) as [_ Hu].
      clear - Hs' Hu. induction t as [|p t IH]; cbn [map]; constructor; apply StronglySorted_inv in Hs' as [Hs Hp].
      - apply IH; [exact Hs|]. intros x y Hx Hy. apply Hu; right; assumption.
      - rewrite Forall_forall in *. intros k Hk. apply in_map_iff in Hk as (q & <- & Hq). specialize (Hp q Hq). specialize (Hu p q (or_introl eq_refl) (or_intror Hq)).
        unfold klt, kcmp, pkey in Hp. unfold dp in Hu. injection Hu as E1 E2. unfold lex in Hp. cbn [fst snd] in Hp. rewrite E1, E2 in Hp.
        rewrite Z.compare_refl, (lc_refl _ str_cmp_lin) in Hp. exact Hp. }
    assert (Hfill : fill_all (S (length P)) acl (hd (mkP 0 [] [] [] [] 0%Qc [] 0%Qc 0 [] []) P) P = Ok (concat (map (fill_of acl) T))).
    { rewrite <- HT at 3. apply fill_all_spec; [exact Ha1|exact Hg|exact HTs| | |].
      - intros t k Ht Hk. apply Ha3. rewrite <- HT. apply in_map_iff in Hk as (p & <- & Hp). apply in_map. apply in_concat. eauto.
      - apply Nat.lt_succ_r. rewrite <- HT. clear - Hg. destruct Hg as (Hf & _). induction Hf as [|t T [Hn _] _ IH]; [cbn; lia|]. cbn [concat length]. rewrite app_length. destruct t; [congruence|]. cbn [length]. lia.
      - rewrite HT. destruct P; [congruence|reflexivity]. }
    set (posts := srt (P ++ concat (map (fill_of acl) T))).
    assert (Ep : add_empty_accounts srt P = Ok posts).
    { unfold add_empty_accounts. destruct P as [|p P']; [congruence|]. cbn [hd] in Hfill. fold acl. rewrite Hfill. reflexivity. }
    assert (Pp : Permutation posts (concat (map (filled acl) T))).
    { unfold posts. destruct (Hsrt (P ++ concat (map (fill_of acl) T))) as [Hpm _]. etransitivity; [apply Permutation_sym; exact Hpm|]. rewrite <- HT.
      rewrite <- (map_id T) at 1. exact (concat_app_perm (fun t : trans => t) (fill_of acl) T). }
    assert (Hfg : well_grouped (map (filled acl) T)).
    { apply (grouped_F2 T); [exact Hg|]. destruct Hg as (Hf & _). clear - Hf. induction Hf as [|t T [Hn _] _ IH]; cbn [map]; constructor; [apply filled_same; exact Hn|exact IH]. }
    assert (Hso : StronglySorted dple posts) by (apply sorted_dple; apply (Hsrt (P ++ concat (map (fill_of acl) T)))).
    pose proof (group_all_spec posts Hso) as Hgg.
    assert (FG : Forall2 (@Permutation posting) (group_all posts) (map (filled acl) T)).
    { apply grouped_perm; [exact Hgg|exact Hfg|]. rewrite group_all_concat. exact Pp. }
    set (K := find_accum to [d] None [] posts). destruct (find_accum_spec to d posts None [] (NoDup_nil _)) as (K1 & _ & K3 & K4). fold K in K1, K3, K4.
    assert (HinP : forall t p, In t T -> In p t -> In p P) by (intros t p Ht Hp; rewrite <- HT; apply in_concat; eauto).
    assert (Hfilled : forall t p, In t T -> In p (filled acl t) -> (exists q, In q P /\ p_date p = p_date q) /\ In (ac p) (map ac P)).
    { intros t p Ht Hp. unfold filled in Hp. apply in_app_iff in Hp as [Hp|Hp]; [split; [exists p; eauto|apply in_map; eauto]|]. destruct t as [|q t]; [contradiction|]. cbn [fill_of] in Hp.
      apply in_map_iff in Hp as (k & <- & Hk). unfold missing in Hk. apply filter_In in Hk as [Hk _]. split; [exists q; split; [apply (HinP _ _ Ht); left; reflexivity|reflexivity]|].
      apply Ha3 in Hk. unfold zero_post, ac. cbn [p_acct p_ccy]. destruct k. exact Hk. }
    assert (Hgin : forall g p, In g (group_all posts) -> In p g -> (exists q, In q P /\ p_date p = p_date q) /\ In (ac p) (map ac P)).
    { intros g p Hgn Hp.
      assert (exists t, In t T /\ Permutation g (filled acl t)) as (t & Ht & Pm).
      { exact (F2_source _ _ _ FG g Hgn). }
      apply (Hfilled t p Ht). exact (Permutation_in _ Pm Hp). }
    destruct (map_o_spec (accum_trans it micro pb K to [d]) (fun g (ls : list posting * list posting) => Forall2 (leaf_rel K) g (fst ls) /\ Forall2 (sub_rel K g) (it g K) (snd ls) /\ sorts K g (fst ls) /\ sorts K g (snd ls)) (group_all posts)) as (rows & Er & Fr).
    { intros g Hgin'. destruct (accum_trans_spec K g K1) as (leaves & subs & E & H1 & H2 & H3 & H4).
      - destruct Hgg as (Hgf & _). rewrite Forall_forall in Hgf. apply (Hgf g Hgin').
      - intros p Hp. destruct (Hgin g p Hgin' Hp) as ((q & Hq & ->) & _). apply Hpr. exact Hq.
      - exists (leaves, subs). auto. }
    exists K, acl, (srt (concat (map fst rows) ++ concat (map snd rows))), (map (fun ls => fst ls ++ snd ls) rows).
    assert (FB : Forall2 (block K acl) T (map (fun ls => fst ls ++ snd ls) rows)).
    { exact (F2_blocks K acl _ _ Fr T FG). }
    split. { unfold accum_rows. rewrite Ep. cbn [obind]. fold K. rewrite Er. reflexivity. }
    split; [exact K1|]. split.
    { intros p Hp Hc. apply K3; [|exact Hc]. apply (Permutation_in _ (Permutation_sym Pp)). rewrite <- HT in Hp. apply in_concat in Hp as (t & Ht & Hp). apply in_concat. exists (filled acl t). split; [apply in_map; exact Ht|apply in_app_iff; left; exact Hp]. }
    split.
    { intros k Hk. apply K4 in Hk as [[]|(p & [Hp|Hp] & Hb)]; [|discriminate]. apply (Permutation_in _ Pp) in Hp. apply in_concat in Hp as (f & Hf & Hp). apply in_map_iff in Hf as (t & <- & Ht).
      destruct (Hfilled t p Ht Hp) as [_ Hin]. apply in_map_iff in Hin as (q & Eq & Hq). exists q. split; [exact Hq|]. unfold ac in Eq. injection Eq as -> _. exact Hb. }
    split; [exact Ha2|]. split; [exact Ha3|]. split; [apply Hsrt|]. split.
    { destruct (Hsrt (concat (map fst rows) ++ concat (map snd rows))) as [Hpm _]. etransitivity; [apply Permutation_sym; exact Hpm|]. apply concat_app_perm. }
    split; [|split; [exact FB|]].
    2: { exact (adjacent_ok P T posts acl HP HT Hpl Ha3 FG Hgg (proj2 (Hsrt (P ++ concat (map (fill_of acl) T))))). }
    apply (grouped_F2 T); [exact Hg|]. exact (blocks_same K acl T _ Hg FB).
  Qed.
End Rows.
