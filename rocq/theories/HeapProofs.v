(** * HeapProofs: lists, slices, and the loops of compact on the heap. *)
From Verif Require Import Base Dec DateModel PriceModel BookModel BookSpec BookProofs OpsModel OpsProofs AccumModel HeapModel HeapSpec.
Local Open Scope nat_scope.

(** ** Updates *)
Lemma upd_length {A} n (x : A) l : length (upd n x l) = length l.
Proof. revert n; induction l as [|y l IH]; intros [|n]; cbn; auto. Qed.
Lemma nth_upd_eq {A} n (x d : A) l : n < length l -> nth n (upd n x l) d = x.
Proof. revert n; induction l as [|y l IH]; intros [|n] H; cbn in *; try lia; [reflexivity|apply IH; lia]. Qed.
Lemma nth_upd_neq {A} n k (x d : A) l : k <> n -> nth k (upd n x l) d = nth k l d.
Proof. revert n k; induction l as [|y l IH]; intros [|n] [|k] H; cbn; try reflexivity; try congruence. apply IH. congruence. Qed.
Lemma upd_app_mid {A} (a : list A) x y b : upd (length a) x (a ++ y :: b) = a ++ x :: b.
Proof. induction a as [|z a IH]; cbn; [reflexivity|rewrite IH; reflexivity]. Qed.
Lemma nth_error_upd_eq {A} n (x : A) l : n < length l -> nth_error (upd n x l) n = Some x.
Proof. revert n; induction l as [|y l IH]; intros [|n] H; cbn in *; try lia; [reflexivity|apply IH; lia]. Qed.
Lemma nth_error_upd_neq {A} n k (x : A) l : k <> n -> nth_error (upd n x l) k = nth_error l k.
Proof. revert n k; induction l as [|y l IH]; intros [|n] [|k] H; cbn; try reflexivity; try congruence. apply IH. congruence. Qed.
Lemma rat_upd_eq x v rs : x < length rs -> rat (upd x v rs) x = v.
Proof. apply nth_upd_eq. Qed.
Lemma rat_upd_neq x y v rs : y <> x -> rat (upd x v rs) y = rat rs y.
Proof. apply nth_upd_neq. Qed.
Lemma rat_app rs l x : x < length rs -> rat (rs ++ l) x = rat rs x.
Proof. intros H. apply app_nth1. exact H. Qed.
Lemma nth_mid {A} (a : list A) x b d : nth (length a) (a ++ x :: b) d = x.
Proof. rewrite app_nth2 by lia. rewrite Nat.sub_diag. reflexivity. Qed.

(** ** Pointers *)
Definition ptrs (c : list hpost) : list nat := flat_map (fun p => [h_val p; h_bal p]) c.
Lemma ptrs_app a b : ptrs (a ++ b) = ptrs a ++ ptrs b.
Proof. apply flat_map_app. Qed.
Lemma ptrs_cons p c : ptrs (p :: c) = h_val p :: h_bal p :: ptrs c.
Proof. reflexivity. Qed.
Lemma ptrs_In x c : In x (ptrs c) <-> exists p, In p c /\ (x = h_val p \/ x = h_bal p).
Proof.
  unfold ptrs. rewrite in_flat_map. split; intros (p & Hp & H); exists p; (split; [exact Hp|]); cbn in *;
    [destruct H as [H|[H|[]]]; auto|destruct H as [->| ->]; auto].
Qed.
Lemma look_ext rs rs' p : rat rs' (h_val p) = rat rs (h_val p) -> rat rs' (h_bal p) = rat rs (h_bal p) -> look rs' p = look rs p.
Proof. intros H1 H2. unfold look. rewrite H1, H2. reflexivity. Qed.
Lemma map_look_ext rs rs' c : (forall x, In x (ptrs c) -> rat rs' x = rat rs x) -> map (look rs') c = map (look rs) c.
Proof.
  intros H. apply map_ext_in. intros p Hp. apply look_ext; apply H; apply ptrs_In; eauto.
Qed.
(** Sub-sequences *)
Inductive sub {A} : list A -> list A -> Prop :=
| sub_nil : sub [] []
| sub_skip x a b : sub a b -> sub a (x :: b)
| sub_keep x a b : sub a b -> sub (x :: a) (x :: b).
Lemma sub_refl {A} (l : list A) : sub l l.
Proof. induction l; constructor; assumption. Qed.
Lemma sub_none {A} (l : list A) : sub [] l.
Proof. induction l; constructor; assumption. Qed.
Lemma sub_app {A} (a b c d : list A) : sub a b -> sub c d -> sub (a ++ c) (b ++ d).
Proof. intros H H2. induction H; cbn; [exact H2|constructor; exact IHsub|constructor; exact IHsub]. Qed.
Lemma sub_In {A} (a b : list A) x : sub a b -> In x a -> In x b.
Proof. intros H; induction H; cbn; intuition. Qed.
Lemma sub_trans {A} (a b c : list A) : sub a b -> sub b c -> sub a c.
Proof.
  intros H1 H2. revert a H1. induction H2; intros a0 H1; [exact H1|constructor; auto|].
  inversion H1; subst; [apply sub_skip|apply sub_keep]; auto.
Qed.
Lemma sub_NoDup {A} (a b : list A) : sub a b -> NoDup b -> NoDup a.
Proof.
  intros H; induction H; intros Hn; [constructor| |]; inversion Hn; subst; [auto|].
  constructor; [|auto]. intros Hi. apply (sub_In _ _ _ H) in Hi. contradiction.
Qed.
Lemma sub_ptrs a b : sub a b -> sub (ptrs a) (ptrs b).
Proof. intros H; induction H; cbn; repeat constructor; assumption. Qed.
Lemma sub_filter {A} (f : A -> bool) l : sub (filter f l) l.
Proof. induction l as [|x l IH]; cbn; [constructor|destruct (f x); constructor; exact IH]. Qed.

Lemma NoDup_app_iff {A} (a b : list A) : NoDup (a ++ b) <-> NoDup a /\ NoDup b /\ forall x, In x a -> ~ In x b.
Proof.
  induction a as [|x a IH]; cbn.
  - split; [intros H; repeat split; [constructor|exact H|tauto]|tauto].
  - rewrite !NoDup_cons_iff, IH, in_app_iff. split.
    + intros (H1 & H2 & H3 & H4). repeat split; try tauto. intros y [<-|Hy]; [tauto|auto].
    + intros ((H1 & H2) & H3 & H4). repeat split; try tauto; [intros [H|H]; [tauto|exact (H4 x (or_introl eq_refl) H)]|]. intros y Hy. apply H4. auto.
Qed.
Definition below (n : nat) (l : list nat) : Prop := forall x, In x l -> x < n.
Lemma below_sub n a b : sub a b -> below n b -> below n a.
Proof. intros H Hb x Hx. apply Hb. exact (sub_In _ _ _ H Hx). Qed.

Ltac len := repeat (rewrite app_length || (progress cbn [length app])); lia.
(** ** Merging *)
Lemma hsame_key_look rs rs' a b : hsame_key a b = same_key (look rs a) (look rs' b).
Proof. reflexivity. Qed.
Lemma hmerge_spec : forall rest done cur junk rs,
  NoDup (ptrs (done ++ cur :: rest)) -> below (length rs) (ptrs (done ++ cur :: rest)) ->
  exists c' rs' t', hmerge (length rest) (length done + 1 + length junk) (length done) (done ++ cur :: junk ++ rest) rs = (c', rs', t') /\
    length c' = length (done ++ cur :: junk ++ rest) /\ length rs' = length rs /\ t' < length c' /\
    map (look rs') (firstn (S t') c') = map (look rs) done ++ merge_runs (look rs cur) (map (look rs) rest) /\
    sub (firstn (S t') c') (done ++ cur :: rest) /\
    (forall x, ~ In x (ptrs (done ++ cur :: rest)) -> rat rs' x = rat rs x).
Proof.
  induction rest as [|x rest IH]; intros done cur junk rs Hn Hb.
  - cbn [length hmerge]. do 3 eexists. split; [reflexivity|]. rewrite app_nil_r.
    assert (E : firstn (S (length done)) (done ++ cur :: junk) = done ++ [cur]).
    { replace (S (length done)) with (length (done ++ [cur]) + 0) by (rewrite app_length; cbn; lia).
      replace (done ++ cur :: junk) with ((done ++ [cur]) ++ junk) by (rewrite <- app_assoc; reflexivity).
      rewrite firstn_app_2. cbn. rewrite app_nil_r. reflexivity. }
    split; [reflexivity|]. split; [reflexivity|]. split; [rewrite app_length; cbn; lia|]. rewrite E, map_app. split; [reflexivity|].
    split; [apply sub_refl|]. reflexivity.
  - cbn [length hmerge].
    assert (Ei : nth (length done + 1 + length junk) (done ++ cur :: junk ++ x :: rest) hzero = x).
    { replace (done ++ cur :: junk ++ x :: rest) with ((done ++ cur :: junk) ++ x :: rest) by (rewrite <- app_assoc; reflexivity).
      replace (length done + 1 + length junk) with (length (done ++ cur :: junk)) by (rewrite app_length; cbn; lia). apply nth_mid. }
    rewrite Ei, nth_mid. rewrite (hsame_key_look rs rs). cbn [map merge_runs].
    destruct (same_key (look rs x) (look rs cur)) eqn:Ek.
    + set (v := (rat rs (h_val cur) + rat rs (h_val x))%Qc). set (rs1 := upd (h_val cur) v rs).
      assert (Hsub : sub (done ++ cur :: rest) (done ++ cur :: x :: rest)) by (apply sub_app; [apply sub_refl|repeat constructor; apply sub_refl]).
      assert (Hn1 : NoDup (ptrs (done ++ cur :: rest))) by exact (sub_NoDup _ _ (sub_ptrs _ _ Hsub) Hn).
      assert (Hb1 : below (length rs1) (ptrs (done ++ cur :: rest))) by (unfold rs1; rewrite upd_length; exact (below_sub _ _ _ (sub_ptrs _ _ Hsub) Hb)).
      destruct (IH done cur (junk ++ [x]) rs1 Hn1 Hb1) as (c' & rs' & t' & E & L1 & L2 & L3 & V & SB & F).
      exists c', rs', t'. rewrite !app_length in *. cbn [length] in *. rewrite <- !app_assoc in *. cbn [app] in *.
      replace (length done + 1 + (length junk + 1)) with (S (length done + 1 + length junk)) in E by lia.
      split; [exact E|]. split; [rewrite L1; len|].
      split; [rewrite L2; unfold rs1; apply upd_length|]. split; [exact L3|].
      rewrite ptrs_app, ptrs_cons in Hn1. apply NoDup_app_iff in Hn1 as (_ & Hn2 & Hn3).
      assert (Hcb : h_val cur < length rs) by (apply Hb; apply ptrs_In; exists cur; split; [apply in_app_iff; right; left; reflexivity|auto]).
      assert (Hout : forall y, y <> h_val cur -> rat rs1 y = rat rs y) by (intros y Hy; unfold rs1; apply rat_upd_neq; exact Hy).
      inversion Hn2 as [|? ? Hv Hn4]; subst.
      split; [|split; [exact (sub_trans _ _ _ SB Hsub)|]].
      * rewrite V. f_equal; [apply map_look_ext; intros y Hy; apply Hout; intros ->; apply (Hn3 _ Hy); left; reflexivity|].
        f_equal; [|apply map_look_ext; intros y Hy; apply Hout; intros ->; apply Hv; right; exact Hy].
        unfold look, set_val, rs1. cbn. rewrite rat_upd_eq by exact Hcb. rewrite rat_upd_neq by (intros Hbv; apply Hv; left; exact Hbv). reflexivity.
      * intros y Hy. rewrite F by (intros Hi; apply Hy; exact (sub_In _ _ _ (sub_ptrs _ _ Hsub) Hi)). apply Hout. intros ->. apply Hy.
        apply ptrs_In. exists cur. split; [apply in_app_iff; right; left; reflexivity|auto].
    + assert (Ec : (if (S (length done) <? length done + 1 + length junk) then upd (S (length done)) x (done ++ cur :: junk ++ x :: rest) else done ++ cur :: junk ++ x :: rest)
                   = (done ++ [cur]) ++ x :: (match junk with [] => [] | _ :: j => j ++ [x] end) ++ rest).
      { destruct junk as [|j junk]; cbn [length app].
        - replace (S (length done) <? length done + 1 + 0) with false by (symmetry; apply Nat.ltb_ge; lia). rewrite <- app_assoc. reflexivity.
        - replace (S (length done) <? length done + 1 + S (length junk)) with true by (symmetry; apply Nat.ltb_lt; lia).
          replace (done ++ cur :: j :: junk ++ x :: rest) with ((done ++ [cur]) ++ j :: junk ++ x :: rest) by (rewrite <- app_assoc; reflexivity).
          replace (S (length done)) with (length (done ++ [cur])) by (rewrite app_length; cbn; lia).
          rewrite upd_app_mid, <- !app_assoc. reflexivity. }
      rewrite Ec. set (junk' := match junk with [] => [] | _ :: j => j ++ [x] end).
      assert (Hj : length junk' = length junk) by (unfold junk'; destruct junk; cbn; [reflexivity|rewrite app_length; cbn; lia]).
      assert (Hn1 : NoDup (ptrs ((done ++ [cur]) ++ x :: rest))) by (rewrite <- app_assoc; exact Hn).
      assert (Hb1 : below (length rs) (ptrs ((done ++ [cur]) ++ x :: rest))) by (rewrite <- app_assoc; exact Hb).
      destruct (IH (done ++ [cur]) x junk' rs Hn1 Hb1) as (c' & rs' & t' & E & L1 & L2 & L3 & V & SB & F).
      exists c', rs', t'. replace (length (done ++ [cur])) with (S (length done)) in E by (rewrite app_length; cbn; lia).
      replace (S (length done) + 1 + length junk') with (S (length done + 1 + length junk)) in E by lia.
      split; [exact E|]. split; [rewrite L1; len|]. split; [exact L2|]. split; [exact L3|].
      split; [rewrite V, map_app, <- app_assoc; reflexivity|]. rewrite <- app_assoc in SB. split; [exact SB|]. rewrite <- app_assoc in F. exact F.
Qed.

(** ** Dropping zeros *)
Lemma hdrop_spec rs : forall rest done junk tail,
  exists c' t', hdrop (length rest) (length done + length junk) (length done) (done ++ junk ++ rest ++ tail) rs = (c', t') /\
    length c' = length (done ++ junk ++ rest ++ tail) /\ t' <= length c' /\
    firstn t' c' = done ++ filter (fun p => negb (qc_is0 (rat rs (h_val p)))) rest.
Proof.
  induction rest as [|x rest IH]; intros done junk tail.
  - cbn [length hdrop filter app]. do 2 eexists. split; [reflexivity|]. split; [reflexivity|]. split; [rewrite app_length; lia|].
    rewrite app_nil_r. replace (length done) with (length done + 0) by lia. rewrite firstn_app_2. cbn. rewrite app_nil_r. reflexivity.
  - cbn [length hdrop filter].
    assert (Ei : nth (length done + length junk) (done ++ junk ++ (x :: rest) ++ tail) hzero = x).
    { rewrite app_assoc. rewrite <- app_length. apply nth_mid. }
    rewrite Ei. destruct (qc_is0 (rat rs (h_val x))) eqn:Ez; cbn [negb].
    + destruct (IH done (junk ++ [x]) tail) as (c' & t' & E & L1 & L2 & V). exists c', t'. rewrite !app_length in *. cbn [length] in *. rewrite <- !app_assoc in *. cbn [app] in *.
      replace (length done + (length junk + 1)) with (S (length done + length junk)) in E by lia. split; [exact E|]. split; [rewrite L1; len|]. split; [exact L2|exact V].
    + assert (Ec : (if (length done <? length done + length junk) then upd (length done) x (done ++ junk ++ (x :: rest) ++ tail) else done ++ junk ++ (x :: rest) ++ tail)
                   = (done ++ [x]) ++ (match junk with [] => [] | _ :: j => j ++ [x] end) ++ rest ++ tail).
      { destruct junk as [|j junk]; cbn [length app].
        - replace (length done <? length done + 0) with false by (symmetry; apply Nat.ltb_ge; lia). rewrite <- app_assoc. reflexivity.
        - replace (length done <? length done + S (length junk)) with true by (symmetry; apply Nat.ltb_lt; lia).
          rewrite upd_app_mid, <- !app_assoc. reflexivity. }
      rewrite Ec. set (junk' := match junk with [] => [] | _ :: j => j ++ [x] end).
      assert (Hj : length junk' = length junk) by (unfold junk'; destruct junk; cbn; [reflexivity|rewrite app_length; cbn; lia]).
      destruct (IH (done ++ [x]) junk' tail) as (c' & t' & E & L1 & L2 & V). exists c', t'.
      replace (length (done ++ [x])) with (S (length done)) in E by (rewrite app_length; cbn; lia).
      replace (S (length done) + length junk') with (S (length done + length junk)) in E by lia.
      split; [exact E|]. split; [rewrite L1; len|]. split; [exact L2|]. rewrite V, <- app_assoc. reflexivity.
Qed.

(** ** Balances *)
Lemma hbal_spec : forall c amts rs, NoDup (ptrs c) -> below (length rs) (ptrs c) ->
  length (hbal amts c rs) = length rs /\
  map (look (hbal amts c rs)) c = run_bal amts (map (look rs) c) /\
  (forall x, ~ In x (ptrs c) -> rat (hbal amts c rs) x = rat rs x).
Proof.
  induction c as [|p c IH]; intros amts rs Hn Hb; [cbn; auto|].
  cbn [hbal map run_bal]. set (v := match aget pair_eqb (h_acct p, h_ccy p) amts with None => rat rs (h_val p) | Some v => (v + rat rs (h_val p))%Qc end).
  change (match aget pair_eqb (p_acct (look rs p), p_ccy (look rs p)) amts with None => p_val (look rs p) | Some v0 => (v0 + p_val (look rs p))%Qc end) with v.
  change (p_acct (look rs p), p_ccy (look rs p)) with (h_acct p, h_ccy p).
  rewrite ptrs_cons in Hn. inversion Hn as [|? ? H1 Hn1]; subst. inversion Hn1 as [|? ? H2 Hn2]; subst.
  set (rs1 := upd (h_bal p) v rs).
  assert (Hb1 : below (length rs1) (ptrs c)) by (unfold rs1; rewrite upd_length; intros x Hx; apply Hb; right; right; exact Hx).
  destruct (IH (aset pair_eqb (h_acct p, h_ccy p) v amts) rs1 Hn2 Hb1) as (L & V & F).
  assert (Hbb : h_bal p < length rs) by (apply Hb; right; left; reflexivity).
  assert (Hvb : h_val p <> h_bal p) by (intros E; apply H1; left; symmetry; exact E).
  split; [rewrite L; unfold rs1; apply upd_length|]. split.
  - f_equal.
    + unfold look, set_bal. cbn. rewrite !F by (try exact H2; intros Hi; apply H1; right; exact Hi). unfold rs1. rewrite rat_upd_eq by exact Hbb. rewrite rat_upd_neq by exact Hvb. reflexivity.
    + rewrite V. f_equal. apply map_look_ext. intros x Hx. unfold rs1. apply rat_upd_neq. intros ->. contradiction.
  - intros x Hx. rewrite F by (intros Hi; apply Hx; right; right; exact Hi). unfold rs1. apply rat_upd_neq. intros ->. apply Hx. right. left. reflexivity.
Qed.

(** ** Transactions as consecutive slices *)
Fixpoint tiles (a off : nat) (ns : list nat) : list slice :=
  match ns with [] => [] | n :: ns' => mkS a off n :: tiles a (off + n) ns' end.
Lemma hgroup_spec rs a off : forall rest pre first acc tail,
  hgroup a off (pre ++ (first :: acc) ++ rest ++ tail) (length rest) (length pre + length (first :: acc)) (length pre)
  = tiles a (off + length pre) (map (@length posting) (group_runs (look rs first) (rev (map (look rs) (first :: acc))) (map (look rs) rest))).
Proof.
  induction rest as [|x rest IH]; intros pre first acc tail.
  - cbn [length hgroup map group_runs tiles]. f_equal. f_equal; rewrite ?rev_length; cbn; rewrite ?app_length, ?rev_length, ?map_length; cbn; lia.
  - cbn [length hgroup map group_runs].
    assert (Ei : nth (length pre + S (length acc)) (pre ++ (first :: acc) ++ (x :: rest) ++ tail) hzero = x).
    { rewrite app_assoc. replace (length pre + S (length acc)) with (length (pre ++ first :: acc)) by (rewrite app_length; reflexivity). apply nth_mid. }
    assert (El : nth (length pre) (pre ++ (first :: acc) ++ (x :: rest) ++ tail) hzero = first) by apply nth_mid.
    rewrite Ei, El. change (p_date (look rs x)) with (h_date x). change (p_date (look rs first)) with (h_date first).
    change (p_payee (look rs x)) with (h_payee x). change (p_payee (look rs first)) with (h_payee first).
    destruct (negb (h_date x =? h_date first)%Z || negb (str_eqb (h_payee x) (h_payee first))) eqn:Ed.
    + cbn [map tiles]. f_equal; [f_equal; rewrite ?rev_length; cbn; rewrite ?app_length, ?rev_length, ?map_length; cbn; lia|].
      specialize (IH (pre ++ first :: acc) x [] tail). rewrite <- app_assoc in IH. cbn [app length map rev] in IH.
      replace (length (pre ++ first :: acc)) with (length pre + S (length acc)) in IH by (rewrite app_length; reflexivity).
      replace (S (length pre + S (length acc))) with (length pre + S (length acc) + 1) by lia. cbn [app]. rewrite IH. f_equal.
      rewrite ?rev_length; cbn; rewrite ?app_length, ?rev_length, ?map_length; cbn; lia.
    + specialize (IH pre first (acc ++ [x]) tail). cbn [app length] in IH. rewrite <- app_assoc in IH. cbn [app] in IH.
      replace (length pre + S (length (acc ++ [x]))) with (S (length pre + S (length acc))) in IH by (rewrite app_length; cbn; lia).
      cbn [app]. rewrite IH. f_equal. f_equal. rewrite map_cons, map_app. cbn. rewrite rev_app_distr. reflexivity.
Qed.
Lemma group_runs_lengths {f : posting -> posting} : (forall p, p_date (f p) = p_date p /\ p_payee (f p) = p_payee p) -> forall l first acc,
  map (@length posting) (group_runs (f first) (map f acc) (map f l)) = map (@length posting) (group_runs first acc l).
Proof.
  intros Hf. induction l as [|x l IH]; intros first acc; cbn [map group_runs]; [cbn; rewrite !rev_length, map_length; reflexivity|].
  destruct (Hf x) as [-> ->]. destruct (Hf first) as [-> ->]. destruct (negb _ || negb _).
  - cbn [map]. rewrite !rev_length, map_length. f_equal. apply (IH x [x]).
  - apply (IH first (x :: acc)).
Qed.
Lemma run_bal_group : forall l l' first first' acc acc', dp first = dp first' -> map dp acc = map dp acc' -> map dp l = map dp l' ->
  map (@length posting) (group_runs first acc l) = map (@length posting) (group_runs first' acc' l').
Proof.
  induction l as [|x l IH]; intros [|x' l'] first first' acc acc' H1 H2 H3; try discriminate.
  - cbn. rewrite !rev_length. f_equal. rewrite <- (map_length dp acc), <- (map_length dp acc'), H2. reflexivity.
  - cbn [map] in H3. injection H3 as Ex Ey El. assert (Hx : dp x = dp x') by (unfold dp; congruence). cbn [group_runs].
    unfold dp in H1. injection H1 as Ea Eb. rewrite Ex, Ey, Ea, Eb. destruct (negb _ || negb _).
    + cbn [map]. rewrite !rev_length. f_equal; [rewrite <- (map_length dp acc), <- (map_length dp acc'), H2; reflexivity|].
      apply IH; [exact Hx|cbn; rewrite Hx; reflexivity|exact El].
    + apply IH; [unfold dp; congruence|cbn [map]; rewrite Hx, H2; reflexivity|exact El].
Qed.
