(** * ImportProofs1: compacting a book with distinct, nonzero postings only reorders postings inside transactions. *)
From Verif Require Import Base DateModel PriceModel BookModel BookSpec BookProofs OpsModel OpsProofs ImportSpec.

Definition vkey (v : Z * str * str * str * str * Qc * str) : Z * str := let '(d, p, _, _, _, _, _) := v in (d, p).
Lemma vkey_vis p : vkey (vis p) = dp p. Proof. reflexivity. Qed.
Lemma filter_perm {A} (f : A -> bool) l l' : Permutation l l' -> Permutation (filter f l) (filter f l').
Proof.
  induction 1 as [|x l l' _ IH|x y l|l l' l'' _ IH1 _ IH2]; cbn [filter].
  - constructor.
  - destruct (f x); [constructor|]; exact IH.
  - destruct (f x), (f y); try reflexivity. apply perm_swap.
  - etransitivity; eassumption.
Qed.

Lemma app_inj_len {A} (a b c d : list A) : length a = length b -> a ++ c = b ++ d -> a = b /\ c = d.
Proof.
  revert b. induction a as [|x a IH]; intros [|y b] L E; try discriminate L; [split; [reflexivity|exact E]|].
  cbn [app] in E. injection E as -> E. destruct (IH b ltac:(cbn in L; lia) E) as [-> ->]. split; reflexivity.
Qed.

Lemma grouped_head t ts p q : well_grouped (t :: ts) -> In p t -> In q (concat ts) -> dplt p q.
Proof.
  intros [_ H] Hp Hq. apply StronglySorted_inv in H as [_ H]. apply in_concat in Hq as (u & Hu & Hq).
  rewrite Forall_forall in H. apply (H u Hu p q Hp Hq).
Qed.
Lemma dplt_neq p q : dplt p q -> dp p <> dp q.
Proof. unfold dplt. intros H E. rewrite E, (lc_refl _ dpcmp_lin) in H. discriminate. Qed.

(** The first group is the part of the list with the smallest identity. *)
Lemma head_filter t ts p : well_grouped (t :: ts) -> In p t ->
  filter (fun v => dpeqb (vkey v) (dp p)) (map vis (concat (t :: ts))) = map vis t /\
  filter (fun v => negb (dpeqb (vkey v) (dp p))) (map vis (concat (t :: ts))) = map vis (concat ts).
Proof.
  intros Hg Hp. assert (Hu : forall q, In q t -> dp q = dp p).
  { intros q Hq. destruct Hg as [Hg _]. apply Forall_inv in Hg as [_ Hu]. apply Hu; assumption. }
  assert (Hr : forall q, In q (concat ts) -> dp q <> dp p).
  { intros q Hq E. apply (dplt_neq p q (grouped_head t ts p q Hg Hp Hq)). auto. }
  cbn [concat]. rewrite map_app, !filter_app.
  assert (F : forall l, (forall q, In q l -> dp q = dp p) -> filter (fun v => dpeqb (vkey v) (dp p)) (map vis l) = map vis l /\ filter (fun v => negb (dpeqb (vkey v) (dp p))) (map vis l) = []).
  { induction l as [|x l IH]; intros H; [split; reflexivity|]. cbn [map filter]. rewrite vkey_vis.
    assert (E : dpeqb (dp x) (dp p) = true) by (apply dpeqb_eq, H; left; reflexivity). rewrite E. cbn [negb].
    destruct IH as [I1 I2]; [intros q Hq; apply H; right; exact Hq|]. rewrite I1, I2. split; reflexivity. }
  assert (G : forall l, (forall q, In q l -> dp q <> dp p) -> filter (fun v => dpeqb (vkey v) (dp p)) (map vis l) = [] /\ filter (fun v => negb (dpeqb (vkey v) (dp p))) (map vis l) = map vis l).
  { induction l as [|x l IH]; intros H; [split; reflexivity|]. cbn [map filter]. rewrite vkey_vis.
    assert (E : dpeqb (dp x) (dp p) = false) by (apply not_true_iff_false; intros E; apply dpeqb_eq in E; exact (H x (or_introl eq_refl) E)). rewrite E. cbn [negb].
    destruct IH as [I1 I2]; [intros q Hq; apply H; right; exact Hq|]. rewrite I1, I2. split; reflexivity. }
  destruct (F t Hu) as [F1 F2]. destruct (G (concat ts) Hr) as [G1 G2]. rewrite F1, F2, G1, G2, app_nil_r. split; reflexivity.
Qed.

Lemma groups_perm : forall ts us, well_grouped ts -> well_grouped us -> Permutation (map vis (concat ts)) (map vis (concat us)) ->
  Forall2 (fun t u => Permutation (map vis t) (map vis u)) ts us.
Proof.
  induction ts as [|t ts IH]; intros us Hg Hh Hp.
  - cbn [concat map] in Hp. apply Permutation_nil in Hp. apply map_eq_nil in Hp. destruct us as [|u us]; [constructor|]. exfalso.
    destruct Hh as [Hh _]. apply Forall_inv in Hh as [Hne _]. destruct u; [congruence|discriminate Hp].
  - destruct us as [|u us].
    { exfalso. symmetry in Hp. apply Permutation_nil in Hp. apply map_eq_nil in Hp. destruct Hg as [Hg _]. apply Forall_inv in Hg as [Hne _].
      destruct t; [congruence|discriminate Hp]. }
    assert (Ht : exists p, In p t) by (destruct Hg as [Hg' _]; apply Forall_inv in Hg' as [Hne _]; destruct t as [|p t]; [congruence|exists p; left; reflexivity]).
    assert (Hu : exists q, In q u) by (destruct Hh as [Hh' _]; apply Forall_inv in Hh' as [Hne _]; destruct u as [|q u]; [congruence|exists q; left; reflexivity]).
    destruct Ht as [p Ht]. destruct Hu as [q Hu].
    assert (Ek : dp p = dp q).
    { assert (Hle : forall (xs : list trans) x (ys : list trans) y a b, well_grouped (x :: xs) -> well_grouped (y :: ys) -> In a x -> In b y ->
        Permutation (map vis (concat (x :: xs))) (map vis (concat (y :: ys))) -> dpcmp (dp b) (dp a) <> Lt).
      { clear. intros xs x ys y a b Hx Hy Ha Hb Hp Hlt.
        assert (Hin : In (vis b) (map vis (concat (x :: xs)))).
        { eapply Permutation_in; [symmetry; exact Hp|]. apply in_map. cbn [concat]. apply in_app_iff. left. exact Hb. }
        apply in_map_iff in Hin as (b' & Eb & Hb'). assert (Eb' : dp b' = dp b) by (rewrite <- !vkey_vis, Eb; reflexivity).
        cbn [concat] in Hb'. apply in_app_iff in Hb' as [Hb'|Hb'].
        - destruct Hx as [Hx _]. apply Forall_inv in Hx as [_ Hx]. rewrite <- Eb', (Hx b' a Hb' Ha), (lc_refl _ dpcmp_lin) in Hlt. discriminate.
        - pose proof (grouped_head _ _ _ _ Hx Ha Hb') as H. unfold dplt in H. rewrite Eb' in H.
          pose proof (lc_trans _ dpcmp_lin _ _ _ H Hlt) as F. rewrite (lc_refl _ dpcmp_lin) in F. discriminate. }
      pose proof (Hle ts t us u p q Hg Hh Ht Hu Hp) as H1. pose proof (Hle us u ts t q p Hh Hg Hu Ht (Permutation_sym Hp)) as H2.
      destruct (dpcmp (dp p) (dp q)) eqn:E; [apply (lc_eq _ dpcmp_lin); exact E|congruence|].
      exfalso. apply H1. apply (lc_gt_lt _ dpcmp_lin). exact E. }
    destruct (head_filter t ts p Hg Ht) as [A1 A2]. destruct (head_filter u us q Hh Hu) as [B1 B2]. rewrite <- Ek in B1, B2.
    constructor.
    + rewrite <- A1, <- B1. apply filter_perm. exact Hp.
    + apply IH; [split; [apply (Forall_inv_tail (proj1 Hg))|apply StronglySorted_inv with (1 := proj2 Hg)]
                |split; [apply (Forall_inv_tail (proj1 Hh))|apply StronglySorted_inv with (1 := proj2 Hh)]|].
      rewrite <- A2, <- B2. apply filter_perm. exact Hp.
Qed.
Lemma groups_same ts us : well_grouped ts -> well_grouped us -> map vis (concat us) = map vis (concat ts) -> Forall2 same_trans ts us.
Proof.
  intros Hg Hh E. assert (HP : Permutation (map vis (concat ts)) (map vis (concat us))) by (rewrite E; reflexivity).
  pose proof (groups_perm ts us Hg Hh HP) as F. clear HP Hg Hh. induction F as [|t u ts us Hp _ IH]; [constructor|].
  cbn [concat] in E. rewrite !map_app in E. apply Permutation_length in Hp. rewrite !map_length in Hp.
  assert (E2 : map vis u = map vis t /\ map vis (concat us) = map vis (concat ts)).
  { apply (app_inj_len (map vis u) (map vis t)); [rewrite !map_length; symmetry; exact Hp|exact E]. }
  destruct E2 as [E1 E2]. constructor; [exact E1|apply IH; exact E2].
Qed.

Lemma concat_filter_sorted {A} (R : A -> A -> Prop) (f : list A -> bool) ts : StronglySorted R (concat ts) -> StronglySorted R (concat (filter f ts)).
Proof.
  induction ts as [|t ts IH]; intros H; [constructor|]. cbn [concat] in H. cbn [filter].
  assert (Hs : StronglySorted R t /\ StronglySorted R (concat ts) /\ Forall (fun x => Forall (R x) (concat ts)) t).
  { clear IH. induction t as [|x t IHt]; [split; [constructor|]; split; [exact H|constructor]|]. cbn [app] in H. apply StronglySorted_inv in H as [H1 H2].
    destruct (IHt H1) as (H3 & H4 & H5). apply Forall_app in H2 as [H6 H7]. split; [constructor; assumption|]. split; [exact H4|]. constructor; assumption. }
  destruct Hs as (H1 & H2 & H3). destruct (f t); [|apply IH; exact H2]. cbn [concat].
  assert (H4 : Forall (fun x => Forall (R x) (concat (filter f ts))) t).
  { eapply Forall_impl; [|exact H3]. intros x Hx. rewrite Forall_forall in *. intros y Hy. apply Hx. apply in_concat in Hy as (u & Hu & Hy).
    apply filter_In in Hu as [Hu _]. apply in_concat. eauto. }
  specialize (IH H2). clear H H2 H3. induction t as [|x t IHt]; [exact IH|]. cbn [app]. apply StronglySorted_inv in H1 as [H1 H1'].
  apply Forall_cons_iff in H4 as [H4 H4']. constructor; [apply IHt; assumption|]. apply Forall_app. split; assumption.
Qed.
Lemma concat_filter_canonical f ts : canonical (concat ts) -> canonical (concat (filter f ts)).
Proof.
  intros [H1 H2]. split; [apply concat_filter_sorted; exact H1|]. rewrite Forall_forall in *. intros p Hp. apply H2.
  apply in_concat in Hp as (u & Hu & Hp). apply filter_In in Hu as [Hu _]. apply in_concat. eauto.
Qed.

Section Regroup.
  Variable srt : list posting -> list posting.
  Hypothesis Hsrt : sort_ok is_less srt.

  Lemma distinct_strict l : NoDup (map pkey l) -> StronglySorted kle l -> StronglySorted klt l.
  Proof.
    induction l as [|x l IH]; intros Hn Hs; [constructor|]. cbn [map] in Hn. apply NoDup_cons_iff in Hn as [Hx Hn].
    apply StronglySorted_inv in Hs as [Hs Hall]. constructor; [apply IH; assumption|]. rewrite Forall_forall in *. intros y Hy.
    specialize (Hall y Hy). unfold kle, klt in *. destruct (kcmp (pkey x) (pkey y)) eqn:E; [|reflexivity|congruence].
    exfalso. apply (lc_eq _ kcmp_lin) in E. apply Hx. rewrite E. apply in_map. exact Hy.
  Qed.
  Lemma regroup b : book_ok b -> NoDup (map pkey (bk_post b)) -> Forall (fun p => p_val p <> 0%Qc) (bk_post b) ->
    Forall2 (fun t u => Permutation (map vis t) (map vis u)) (bk_trans b) (bk_trans (compact srt b)).
  Proof.
    intros Hok Hn Hz. pose proof (compact_book_ok srt Hsrt b Hok) as (_ & Hc' & Hg' & _). destruct Hok as (Hp & Hc & Hg & _).
    apply groups_perm; [exact Hg|exact Hg'|]. rewrite Hc, Hc'. destruct (bk_post b) as [|x l] eqn:E.
    - rewrite compact_nil by exact E. rewrite E. reflexivity.
    - rewrite compact_eq by (rewrite E; discriminate). cbn [bk_post]. rewrite <- E in *. clear x l E. unfold cposts.
      destruct (Hsrt (bk_post b)) as [Hperm Hsorted].
      rewrite merge_all_id.
      2: { apply distinct_strict; [|apply sorted_plain; [apply srt_plain; assumption|exact Hsorted]].
           eapply Permutation_NoDup; [apply Permutation_map; exact Hperm|exact Hn]. }
      rewrite drop_zero_id by (eapply Permutation_Forall; [exact Hperm|exact Hz]).
      rewrite (run_bal_map vis) by reflexivity. apply Permutation_map. exact Hperm.
  Qed.
  Lemma canonical_distinct l : canonical l -> NoDup (map pkey l).
  Proof.
    intros [Hs _]. induction l as [|x l IH]; [constructor|]. apply StronglySorted_inv in Hs as [Hs Hall]. cbn [map]. constructor; [|apply IH; exact Hs].
    intros Hi. apply in_map_iff in Hi as (y & E & Hy). rewrite Forall_forall in Hall. specialize (Hall y Hy). unfold klt in Hall.
    rewrite E, (lc_refl _ kcmp_lin) in Hall. discriminate.
  Qed.
  Lemma regroup_sorted b : book_ok b -> canonical (bk_post b) -> Forall2 same_trans (bk_trans b) (bk_trans (compact srt b)).
  Proof.
    intros Hok [Hs Hz]. pose proof (compact_book_ok srt Hsrt b Hok) as (_ & Hc' & Hg' & _). destruct Hok as (Hp & Hc & Hg & _).
    apply groups_same; [exact Hg|exact Hg'|]. rewrite Hc, Hc'. destruct (bk_post b) as [|x l] eqn:E.
    - rewrite compact_nil by exact E. rewrite E. reflexivity.
    - rewrite compact_eq by (rewrite E; discriminate). cbn [bk_post]. rewrite <- E in *. clear x l E. unfold cposts.
      rewrite (srt_canonical_id srt Hsrt) by assumption. rewrite merge_all_id by exact Hs. rewrite drop_zero_id by exact Hz. apply run_bal_map. reflexivity.
  Qed.
End Regroup.

(** Identities *)
Lemma has_known ref t : well_grouped ref -> t <> [] -> (forall p q, In p t -> In q t -> dp p = dp q) -> (known ref t = true <-> known_to ref t).
Proof.
  intros Hg Hne Hu. destruct t as [|x t]; [congruence|]. unfold known, known_to, has. rewrite existsb_exists. split.
  - intros (k & Hk & E). apply dpeqb_eq in E. subst k. apply tkeys_In in Hk; [|exact Hg]. destruct Hk as (u & q & Hu2 & Hq & E).
    exists x. split; [left; reflexivity|]. exists u, q. auto.
  - intros (p & Hp & u & q & Hu2 & Hq & E). exists (dp p). split; [|apply dpeqb_eq; apply Hu; [left; reflexivity|exact Hp]].
    apply tkeys_In; [exact Hg|]. exists u, q. auto.
Qed.
Lemma has_vis ts us : Forall2 (fun t u => Permutation (map vis t) (map vis u)) ts us -> forall k, has ts k <-> has us k.
Proof.
  intros F k. assert (H : forall ts us, Forall2 (fun t u => Permutation (map vis t) (map vis u)) ts us -> has ts k -> has us k).
  { clear. intros ts us F (t & p & Ht & Hp & E). induction F as [|t0 u ts us Hpm _ IH]; [contradiction|]. destruct Ht as [->|Ht].
    - assert (Hi : In (vis p) (map vis u)) by (eapply Permutation_in; [exact Hpm|apply in_map; exact Hp]).
      apply in_map_iff in Hi as (q & Eq & Hq). exists u, q. split; [left; reflexivity|]. split; [exact Hq|].
      change (dp q = k). rewrite <- vkey_vis, Eq, vkey_vis. exact E.
    - destruct (IH Ht) as (u' & q & H1 & H2 & H3). exists u', q. split; [right; exact H1|]. auto. }
  split; [apply H; exact F|]. apply H. clear -F. induction F; constructor; [symmetry|]; assumption.
Qed.
Lemma same_perm ts us : Forall2 same_trans ts us -> Forall2 (fun t u => Permutation (map vis t) (map vis u)) ts us.
Proof. induction 1 as [|t u ts us H _ IH]; constructor; [rewrite H; reflexivity|exact IH]. Qed.
