(** * AccumProofs: lemmas for C38-C42, C69, C70. *)
From Verif Require Import Base Dec DateModel PriceModel PriceSpec PriceProofs BookModel BookSpec BookProofs OpsProofs OpsProofs3
  RegisterModel RegisterProofs AccumModel AccumSpec.

(** ** strings *)
Lemma has_prefix_spec p : forall s, has_prefix s p = true <-> exists r, s = p ++ r.
Proof.
  induction p as [|c p IH]; intros s; cbn [has_prefix app].
  - split; [intros _; exists s; reflexivity|reflexivity].
  - destruct s as [|x s]; [split; [discriminate|intros (r & H); discriminate]|]. rewrite andb_true_iff, Z.eqb_eq, IH. split.
    + intros [-> (r & ->)]. exists r. reflexivity.
    + intros (r & H). injection H as -> ->. eauto.
Qed.
Lemma has_prefix1 x s d : has_prefix (x :: s) [d] = (d =? x).
Proof. cbn [has_prefix]. apply andb_true_r. Qed.
Definition belowb (d : Z) (k a : str) : bool := has_prefix a (k ++ [d]).
Lemma belowb_spec d k a : belowb d k a = true <-> below d k a.
Proof. unfold belowb, below. rewrite has_prefix_spec. split; intros (r & ->); exists r; rewrite <- ?app_assoc; reflexivity. Qed.
Lemma below_trans d a b c : below d a b -> below d b c -> below d a c.
Proof. intros (r & ->) (s & ->). exists (r ++ d :: s). rewrite <- app_assoc. reflexivity. Qed.
Lemma below_length d k a : below d k a -> (length k < length a)%nat.
Proof. intros (r & ->). rewrite app_length. cbn [length]. lia. Qed.
Lemma app_prefix {A} (a b : list A) : forall x y, a ++ x = b ++ y -> (length a <= length b)%nat -> exists z, b = a ++ z.
Proof.
  revert b. induction a as [|h a IH]; intros b x y E Hl; [exists b; reflexivity|]. destruct b as [|g b]; [cbn in Hl; lia|].
  cbn in E. injection E as -> E. destruct (IH b x y E) as (z & ->); [cbn in Hl; lia|]. exists z. reflexivity.
Qed.
Lemma at_below_split d k a : at_or_below d k a -> exists x, a = k ++ x.
Proof. intros [->|(r & ->)]; [exists []; rewrite app_nil_r; reflexivity|eauto]. Qed.
(** Two ancestors-or-self of one account are comparable. *)
Lemma at_below_chain d a k1 k2 : at_or_below d k1 a -> at_or_below d k2 a -> (length k1 <= length k2)%nat -> k1 = k2 \/ below d k1 k2.
Proof.
  intros H1 H2 Hl. destruct (at_below_split _ _ _ H2) as (y & Ey). destruct H1 as [->|(r & E1)].
  - left. subst k1. rewrite app_length in Hl. destruct y as [|c y]; [apply app_nil_r|cbn [length] in Hl; lia].
  - rewrite Ey in E1. destruct (app_prefix k1 k2 (d :: r) y) as (z & Ez); [symmetry; exact E1|exact Hl|]. subst k2. rewrite <- app_assoc in E1. apply app_inv_head in E1.
    destruct z as [|c z]; [left; rewrite app_nil_r; reflexivity|]. cbn in E1. injection E1 as -> _. right. exists z. reflexivity.
Qed.
Definition at_belowb (d : Z) (k a : str) : bool := str_eqb a k || has_prefix a (k ++ [d]).
Lemma at_belowb_spec d k a : at_belowb d k a = true <-> at_or_below d k a.
Proof. unfold at_belowb, at_or_below. rewrite orb_true_iff, str_eqb_eq. change (has_prefix a (k ++ [d])) with (belowb d k a). rewrite belowb_spec. tauto. Qed.

(** ** splitByStrings *)
Fixpoint hits (K : list str) (d : Z) (pre rest : str) : list str :=
  match rest with
  | [] => []
  | c :: rest' => (if (d =? c) && mem_str pre K then [pre] else []) ++ hits K d (pre ++ [c]) rest'
  end.
Lemma mem_str_In k l : mem_str k l = true <-> In k l.
Proof. unfold mem_str. rewrite existsb_exists. split; [intros (x & H & E); apply str_eqb_eq in E; subst; exact H|intros H; exists k; split; [exact H|apply str_eqb_refl]]. Qed.
Lemma hits_In K d : forall rest pre k, In k (hits K d pre rest) <-> In k K /\ exists x y, rest = x ++ d :: y /\ k = pre ++ x.
Proof.
  induction rest as [|c rest IH]; intros pre k; cbn [hits].
  - split; [intros []|]. intros (_ & x & y & E & _). destruct x; discriminate.
  - rewrite in_app_iff, IH. split.
    + intros [H|(H & x & y & -> & ->)].
      * destruct (d =? c) eqn:Ed; cbn [andb] in H; [|contradiction]. destruct (mem_str pre K) eqn:Em; [|contradiction]. destruct H as [<-|[]]. apply Z.eqb_eq in Ed. subst c.
        apply mem_str_In in Em. split; [exact Em|]. exists [], rest. rewrite app_nil_r. auto.
      * split; [exact H|]. exists (c :: x), y. rewrite <- app_assoc. auto.
    + intros (H & x & y & E & ->). destruct x as [|g x]; cbn in E; injection E as -> E.
      * left. rewrite Z.eqb_refl. rewrite app_nil_r in *. rewrite (proj2 (mem_str_In pre K) H). left. reflexivity.
      * right. split; [exact H|]. exists x, y. rewrite <- app_assoc. auto.
Qed.
Lemma hits_sorted K d : forall rest pre, StronglySorted (fun a b : str => (length a < length b)%nat) (hits K d pre rest) /\ Forall (fun k => (length pre <= length k)%nat) (hits K d pre rest).
Proof.
  induction rest as [|c rest IH]; intros pre; cbn [hits]; [repeat constructor|]. destruct (IH (pre ++ [c])) as [H1 H2]. rewrite app_length in H2. cbn [length] in H2.
  destruct ((d =? c) && mem_str pre K); cbn [app].
  - split; constructor; [exact H1| | |]; [eapply Forall_impl; [|exact H2]; cbn; intros; lia|lia|eapply Forall_impl; [|exact H2]; cbn; intros; lia].
  - split; [exact H1|]. eapply Forall_impl; [|exact H2]; cbn; intros; lia.
Qed.
Lemma hits_NoDup K d pre rest : NoDup (hits K d pre rest).
Proof.
  destruct (hits_sorted K d rest pre) as [H _]. induction (hits K d pre rest) as [|a l IH]; constructor; apply StronglySorted_inv in H as [H1 H2]; [|exact (IH H1)].
  rewrite Forall_forall in H2. intros Hin. specialize (H2 a Hin). lia.
Qed.
Definition last_cut (l : nat) (hs : list str) : nat := fold_left (fun _ k => S (length k)) hs l.
Lemma split_scan_eq K self d acct : forall rest pre n last, acct = pre ++ rest -> (last <= length pre)%nat ->
  exists cut, cut = last_cut last (hits K d pre rest) /\ (cut <= length acct)%nat /\
  split_scan K self [d] acct n last (length pre) rest =
    Ok (if self && mem_str acct K then (S (n + length (hits K d pre rest)), length acct) else (n + length (hits K d pre rest), cut))%nat.
Proof.
  induction rest as [|c rest IH]; intros pre n last E Hl; cbn [split_scan hits].
  - rewrite app_nil_r in E. subst pre. exists last. split; [reflexivity|]. split; [exact Hl|]. cbn [length]. rewrite Nat.add_0_r.
    destruct (self && mem_str acct K); [|reflexivity]. destruct (Nat.leb_spec last (length acct)); [reflexivity|lia].
  - rewrite has_prefix1. assert (Ef : firstn (length pre) acct = pre) by (rewrite E, firstn_app, Nat.sub_diag, firstn_all, firstn_O, app_nil_r; reflexivity). rewrite Ef.
    assert (E' : acct = (pre ++ [c]) ++ rest) by (rewrite <- app_assoc; exact E).
    assert (Hs : S (length pre) = length (pre ++ [c])) by (rewrite app_length; cbn; lia).
    destruct ((d =? c) && mem_str pre K); cbn [app].
    + destruct (Nat.leb_spec last (length pre)); [|lia]. cbn [length]. rewrite Hs, Nat.add_1_r.
      destruct (IH (pre ++ [c]) (S n) (S (length pre)) E') as (cut & Ec & Hc & ->); [lia|]. exists cut. split; [exact Ec|]. split; [exact Hc|].
      rewrite Nat.add_succ_r, Nat.add_succ_l. reflexivity.
    + rewrite Hs. destruct (IH (pre ++ [c]) n last E') as (cut & Ec & Hc & ->); [lia|]. exists cut. auto.
Qed.
(** Number of ancestors (and possibly the account itself) among K *)
Definition level_of (K : list str) (d : Z) (self : bool) (a : str) : Z :=
  Z.of_nat (length (filter (fun k => belowb d k a || (self && str_eqb a k)) K)).
Lemma hits_filter K d a : NoDup K -> Permutation (hits K d [] a) (filter (fun k => belowb d k a) K).
Proof.
  intros Hn. apply NoDup_Permutation; [apply hits_NoDup|apply NoDup_filter; exact Hn|]. intros k. rewrite hits_In, filter_In, belowb_spec. cbn [app]. unfold below. split.
  - intros (H & x & y & -> & ->). eauto.
  - intros (H & r & ->). eauto.
Qed.
Lemma below_irrefl d a : ~ below d a a.
Proof. intros H. apply below_length in H. lia. Qed.
Lemma level_split K d a : NoDup K ->
  level_of K d true a = Z.of_nat (length (filter (fun k => belowb d k a) K)) + (if mem_str a K then 1 else 0).
Proof.
  intros Hn. unfold level_of. cbn [andb].
  assert (H : forall l, NoDup l -> Z.of_nat (length (filter (fun k => belowb d k a || str_eqb a k) l)) = Z.of_nat (length (filter (fun k => belowb d k a) l)) + (if mem_str a l then 1 else 0)).
  { induction l as [|k l IH]; intros Hl; [reflexivity|]. apply NoDup_cons_iff in Hl as [Hk Hl]. cbn [filter]. unfold mem_str in *. cbn [existsb].
    specialize (IH Hl). destruct (str_eqb_spec a k) as [<-|N].
    - assert (belowb d a a = false) as Hf by (destruct (belowb d a a) eqn:E; [apply belowb_spec in E; destruct (below_irrefl _ _ E)|reflexivity]).
      rewrite Hf. cbn [orb]. assert (Hm : existsb (str_eqb a) l = false) by (destruct (existsb (str_eqb a) l) eqn:E; [apply mem_str_In in E; contradiction|reflexivity]).
      rewrite Hm in IH. cbn [length]. lia.
    - cbn [orb]. rewrite orb_false_r. destruct (belowb d k a); cbn [length]; lia. }
  exact (H K Hn).
Qed.
Lemma last_cut_snoc l hs k : last_cut l (hs ++ [k]) = S (length k).
Proof. unfold last_cut. rewrite fold_left_app. reflexivity. Qed.

(** The displayed name: the whole name at level 0, otherwise what follows the nearest of its ancestors in K. *)
Definition term_ok (K : list str) (d : Z) (self : bool) (a tm : str) : Prop :=
  (self = true /\ In a K /\ tm = []) \/
  ((self = false \/ ~ In a K) /\
   (((forall k, In k K -> ~ below d k a) /\ tm = a) \/
    (exists k, In k K /\ a = k ++ d :: tm /\ forall k', In k' K -> below d k' a -> (length k' <= length k)%nat))).
Lemma split_by_strings_spec K a self d : NoDup K ->
  exists tm, split_by_strings K a self [d] = Ok (level_of K d self a, tm) /\ term_ok K d self a tm.
Proof.
  intros Hn. unfold split_by_strings. destruct (split_scan_eq K self d a a [] 0 0 eq_refl (le_n 0)) as (cut & Ec & Hc & E). cbn [length] in E. rewrite E. cbn [obind]. clear E.
  pose proof (Permutation_length (hits_filter K d a Hn)) as Hlen.
  destruct (self && mem_str a K) eqn:Es.
  - apply andb_true_iff in Es as [-> Hm]. rewrite Nat.leb_refl. exists []. rewrite skipn_all. split; [|left; apply mem_str_In in Hm; auto].
    rewrite level_split by exact Hn. rewrite Hm, Hlen. f_equal. f_equal. lia.
  - destruct (Nat.leb_spec cut (length a)); [|lia]. exists (skipn cut a). split.
    + f_equal. f_equal. rewrite Nat.add_0_l, Hlen. destruct self.
      * rewrite level_split by exact Hn. cbn [andb] in Es. rewrite Es. lia.
      * unfold level_of. cbn [andb]. f_equal. f_equal. apply filter_ext. intros k. rewrite orb_false_r. reflexivity.
    + right. split.
      { destruct self; [right|left; reflexivity]. cbn [andb] in Es. intros Hin. apply mem_str_In in Hin. congruence. }
      destruct (hits K d [] a) as [|h hs] eqn:Eh using rev_ind.
      * left. subst cut. split; [|reflexivity]. intros k Hk (r & ->). assert (In k (hits K d [] (k ++ d :: r))) by (apply hits_In; eauto). rewrite Eh in *. contradiction.
      * clear IHhs. right. subst cut. rewrite last_cut_snoc. assert (Hin : In h (hits K d [] a)) by (rewrite Eh; apply in_app_iff; right; left; reflexivity).
        apply hits_In in Hin as (Hk & x & y & Ea & ->). cbn [app] in *. exists x. split; [exact Hk|]. split.
        { rewrite Ea at 1. f_equal. f_equal. rewrite Ea. clear. induction x as [|c x IH]; [reflexivity|exact IH]. }
        intros k' Hk' (r & Er). assert (Hin : In k' (hits K d [] a)) by (apply hits_In; split; [exact Hk'|]; exists k', r; auto).
        destruct (hits_sorted K d a []) as [Hs _]. rewrite Eh in Hs, Hin. apply in_app_iff in Hin as [Hin|[->|[]]]; [|lia].
        apply StronglySorted_app in Hs as (_ & _ & Hs). specialize (Hs k' x Hin (or_introl eq_refl)). lia.
Qed.

(** ** findMaxCommonPrefix: the result is an ancestor-or-self of one of the two accounts. *)
Lemma fcp_scan_spec d : forall l r i prefix pre, length pre = i ->
  (prefix = 0%nat \/ exists x y, pre ++ l = x ++ d :: y /\ length x = prefix) ->
  let '(i', prefix', l', r') := fcp_scan [d] l r i prefix in
  exists c, l = c ++ l' /\ r = c ++ r' /\ i' = length (pre ++ c) /\
    (prefix' = 0%nat \/ exists x y, pre ++ l = x ++ d :: y /\ length x = prefix').
Proof.
  induction l as [|x l IH]; intros r i prefix pre Hi Hp; [destruct r; cbn [fcp_scan]; exists []; (split; [reflexivity|]; split; [reflexivity|]; split; [rewrite app_nil_r; congruence|exact Hp])|].
  destruct r as [|y r]; cbn [fcp_scan]; [exists []; (split; [reflexivity|]; split; [reflexivity|]; split; [rewrite app_nil_r; congruence|exact Hp])|].
  destruct (Z.eqb_spec x y) as [->|N]; [|exists []; (split; [reflexivity|]; split; [reflexivity|]; split; [rewrite app_nil_r; congruence|exact Hp])].
  assert (Hs : length (pre ++ [y]) = S i) by (rewrite app_length; cbn; lia).
  assert (Ep : pre ++ y :: l = (pre ++ [y]) ++ l) by (rewrite <- app_assoc; reflexivity).
  assert (Hp' : (if has_prefix (y :: l) [d] then i else prefix) = 0%nat \/ exists x z : str, (pre ++ [y]) ++ l = x ++ d :: z /\ length x = (if has_prefix (y :: l) [d] then i else prefix)).
  { rewrite has_prefix1, <- Ep. destruct (Z.eqb_spec d y) as [->|_]; [right; exists pre, l; auto|exact Hp]. }
  specialize (IH r (S i) (if has_prefix (y :: l) [d] then i else prefix) (pre ++ [y]) Hs Hp').
  destruct (fcp_scan [d] l r (S i) (if has_prefix (y :: l) [d] then i else prefix)) as [[[i' p'] l'] r'].
  destruct IH as (c & -> & -> & -> & H). exists (y :: c). rewrite <- Ep in H. split; [reflexivity|]. split; [reflexivity|]. split; [rewrite <- app_assoc; reflexivity|exact H].
Qed.
Lemma fcp_spec l r d : let k := find_max_common_prefix l r [d] in k = [] \/ at_or_below d k l \/ at_or_below d k r.
Proof.
  unfold find_max_common_prefix. pose proof (fcp_scan_spec d l r 0 0 [] eq_refl (or_introl eq_refl)) as H.
  destruct (fcp_scan [d] l r 0 0) as [[[i p] l'] r']. destruct H as (c & El & Er & -> & Hp). cbn [app] in *.
  assert (Ef : firstn (length c) l = c) by (rewrite El, firstn_app, Nat.sub_diag, firstn_all, firstn_O, app_nil_r; reflexivity).
  destruct (nonempty l' && has_prefix l' [d]) eqn:E1; cbn [orb].
  { right. left. rewrite Ef. apply andb_true_iff in E1 as [_ E1]. apply has_prefix_spec in E1 as (z & ->). right. exists z. exact El. }
  destruct (nonempty r' && has_prefix r' [d]) eqn:E2; cbn [orb].
  { right. right. rewrite Ef. apply andb_true_iff in E2 as [_ E2]. apply has_prefix_spec in E2 as (z & ->). right. exists z. exact Er. }
  destruct l' as [|x l']; [destruct r' as [|y r']|]; cbn [nonempty negb andb].
  { right. left. rewrite Ef. left. rewrite El, app_nil_r. reflexivity. }
  all: destruct Hp as [->|(u & v & E & Hl)]; [left; reflexivity|right; left; right; exists v; rewrite E; f_equal;
    rewrite <- Hl, firstn_app, Nat.sub_diag, firstn_all, firstn_O, app_nil_r; reflexivity].
Qed.

(** ** the accounts with subtotals *)
Lemma add_key_In k x l : In x (add_key k l) <-> x = k \/ In x l.
Proof.
  unfold add_key. destruct (mem_str k l) eqn:E; [apply mem_str_In in E|rewrite in_app_iff; cbn]; intuition (subst; auto).
Qed.
Lemma add_key_NoDup k l : NoDup l -> NoDup (add_key k l).
Proof.
  intros H. unfold add_key. destruct (mem_str k l) eqn:E; [exact H|]. apply (Permutation_NoDup (Permutation_cons_append l k)). constructor; [|exact H].
  intros Hin. apply mem_str_In in Hin. congruence.
Qed.
Lemma find_accum_spec to d : forall posts prev accum, NoDup accum ->
  NoDup (find_accum to [d] prev accum posts) /\
  (forall k, In k accum -> In k (find_accum to [d] prev accum posts)) /\
  (forall p, In p posts -> p_ccy p <> to -> In (p_acct p) (find_accum to [d] prev accum posts)) /\
  (forall k, In k (find_accum to [d] prev accum posts) -> In k accum \/ exists p, (In p posts \/ prev = Some p) /\ at_or_below d k (p_acct p)).
Proof.
  induction posts as [|p posts IH]; intros prev accum Hn; cbn [find_accum].
  - split; [exact Hn|]. split; [auto|]. split; [intros p []|auto].
  - set (a1 := if str_eqb (p_ccy p) to then accum else add_key (p_acct p) accum).
    assert (N1 : NoDup a1) by (unfold a1; destruct (str_eqb (p_ccy p) to); [exact Hn|apply add_key_NoDup; exact Hn]).
    set (a2 := match prev with None => a1 | Some q => if nonempty (find_max_common_prefix (p_acct q) (p_acct p) [d]) then add_key (find_max_common_prefix (p_acct q) (p_acct p) [d]) a1 else a1 end).
    assert (N2 : NoDup a2) by (unfold a2; destruct prev as [q|]; [|exact N1]; destruct (nonempty _); [apply add_key_NoDup|]; exact N1).
    assert (I12 : forall k, In k a1 -> In k a2) by (intros k Hk; unfold a2; destruct prev as [q|]; [|exact Hk]; destruct (nonempty _); [apply add_key_In; right|]; exact Hk).
    assert (I01 : forall k, In k accum -> In k a1) by (intros k Hk; unfold a1; destruct (str_eqb (p_ccy p) to); [|apply add_key_In; right]; exact Hk).
    destruct (IH (Some p) a2 N2) as (H1 & H2 & H3 & H4). cbn zeta. fold a1. fold a2. split; [exact H1|]. split; [auto|]. split.
    + intros q [->|Hq] Hc; [|apply H3; assumption]. apply H2, I12. unfold a1. destruct (str_eqb_spec (p_ccy q) to); [contradiction|apply add_key_In; auto].
    + intros k Hk. apply H4 in Hk as [Hk|(q & [Hq|Hq] & Hb)].
      * assert (Ha1 : In k a1 -> In k accum \/ exists p0, (In p0 (p :: posts) \/ prev = Some p0) /\ at_or_below d k (p_acct p0)).
        { intros Hk1. unfold a1 in Hk1. destruct (str_eqb (p_ccy p) to); [auto|]. apply add_key_In in Hk1 as [->|Hk1]; [|auto]. right. exists p. split; [left; left; reflexivity|left; reflexivity]. }
        unfold a2 in Hk. destruct prev as [q|]; [|auto]. destruct (nonempty (find_max_common_prefix (p_acct q) (p_acct p) [d])) eqn:En; [|auto].
        apply add_key_In in Hk as [->|Hk]; [|auto]. right. destruct (fcp_spec (p_acct q) (p_acct p) d) as [E|[E|E]]; [rewrite E in En; discriminate|exists q; auto|exists p; split; [left; left; reflexivity|exact E]].
      * right. exists q. split; [left; right; exact Hq|exact Hb].
      * injection Hq as <-. right. exists p. split; [left; left; reflexivity|exact Hb].
Qed.

Lemma find_accum_adj to d : forall posts prev accum l1 p q l2, NoDup accum ->
  (posts = l1 ++ p :: q :: l2 \/ (l1 = [] /\ prev = Some p /\ posts = q :: l2)) ->
  find_max_common_prefix (p_acct p) (p_acct q) [d] <> [] ->
  In (find_max_common_prefix (p_acct p) (p_acct q) [d]) (find_accum to [d] prev accum posts).
Proof.
  induction posts as [|x posts IH]; intros prev accum l1 p q l2 Hn H Hk.
  - destruct H as [H|(_ & _ & H)]; [destruct l1; discriminate|discriminate].
  - cbn [find_accum]. cbn zeta. set (a1 := if str_eqb (p_ccy x) to then accum else add_key (p_acct x) accum).
    assert (N1 : NoDup a1) by (unfold a1; destruct (str_eqb (p_ccy x) to); [exact Hn|apply add_key_NoDup; exact Hn]).
    set (a2 := match prev with None => a1 | Some q => if nonempty (find_max_common_prefix (p_acct q) (p_acct x) [d]) then add_key (find_max_common_prefix (p_acct q) (p_acct x) [d]) a1 else a1 end).
    assert (N2 : NoDup a2) by (unfold a2; destruct prev as [y|]; [|exact N1]; destruct (nonempty _); [apply add_key_NoDup|]; exact N1).
    destruct H as [H|(_ & Hp & H)].
    + destruct l1 as [|z l1].
      * cbn [app] in H. injection H as -> ->. apply (IH (Some p) a2 [] p q l2 N2); [right; auto|exact Hk].
      * cbn [app] in H. injection H as -> ->. apply (IH (Some z) a2 l1 p q l2 N2); [left; reflexivity|exact Hk].
    + injection H as -> ->. subst prev. destruct (find_accum_spec to d l2 (Some q) a2 N2) as (_ & Hin & _). apply Hin. unfold a2.
      destruct (find_max_common_prefix (p_acct p) (p_acct q) [d]) as [|c k] eqn:E; [congruence|]. cbn [nonempty]. apply add_key_In. left. reflexivity.
Qed.

(** ** addEmptyAccounts *)
Definition pcmp := lex str_cmp str_cmp.
Lemma pcmp_lin : lincmp pcmp. Proof. apply lex_lin; apply str_cmp_lin. Qed.
Definition plt (a b : str * str) : Prop := pcmp a b = Lt.
Lemma pair_less_pcmp a b : pair_less a b = match pcmp a b with Lt => true | _ => false end.
Proof. destruct a, b. unfold pair_less, pcmp, lex. cbn [fst snd]. rewrite sltb_cmp. unfold str_ltb. destruct (str_cmp s s1); reflexivity. Qed.
Lemma pair_less_swo : swo pair_less.
Proof. eapply swo_ext; [apply pair_less_pcmp|]. exact (swo_of_key pcmp (fun x => x) pcmp_lin). Qed.
Lemma mem_pair_In k l : mem_pair k l = true <-> In k l.
Proof. unfold mem_pair. rewrite existsb_exists. split; [intros (x & H & E); apply pair_eqb_eq in E; subst; exact H|intros H; exists k; split; [exact H|apply pair_eqb_eq; reflexivity]]. Qed.
Lemma distinct_pairs_spec : forall l seen, NoDup (distinct_pairs seen l) /\
  forall k, In k (distinct_pairs seen l) <-> ~ In k seen /\ In k (map ac l).
Proof.
  induction l as [|p l IH]; intros seen; cbn [distinct_pairs map].
  - split; [constructor|]. intros k. cbn. tauto.
  - destruct (mem_pair (ac p) seen) eqn:E.
    + apply mem_pair_In in E. destruct (IH seen) as [H1 H2]. split; [exact H1|]. intros k. rewrite H2. cbn [In]. split; [tauto|]. intros (Hn & [<-|H]); [contradiction|auto].
    + assert (Hn : ~ In (ac p) seen) by (intros H; apply mem_pair_In in H; congruence). destruct (IH (ac p :: seen)) as [H1 H2]. split.
      * constructor; [rewrite H2; cbn; tauto|exact H1].
      * intros k. cbn [In]. rewrite H2. cbn [In]. destruct (pair_eqb (ac p) k) eqn:Ek; [apply pair_eqb_eq in Ek; subst; tauto|].
        assert (ac p <> k) by (intros H; apply pair_eqb_eq in H; congruence). tauto.
Qed.
Lemma acct_list_spec l : StronglySorted plt (acct_list l) /\ NoDup (acct_list l) /\ forall k, In k (acct_list l) <-> In k (map ac l).
Proof.
  destruct (distinct_pairs_spec l []) as [H1 H2]. pose proof (isort_perm pair_less (distinct_pairs [] l)) as Hp.
  assert (Hn : NoDup (acct_list l)) by (exact (Permutation_NoDup Hp H1)).
  split; [|split; [exact Hn|]].
  - pose proof (isort_sorted pair_less (distinct_pairs [] l) pair_less_swo) as Hs. fold (acct_list l) in Hs. revert Hs Hn. generalize (acct_list l). clear. unfold sorted_by.
    induction l as [|a l IH]; intros Hs Hn; constructor; apply StronglySorted_inv in Hs as [Hs Ha]; apply NoDup_cons_iff in Hn as [Ni Hn]; [exact (IH Hs Hn)|].
    rewrite Forall_forall in *. intros b Hb. specialize (Ha b Hb). rewrite pair_less_pcmp in Ha. unfold plt.
    destruct (pcmp a b) eqn:E; [apply (lc_eq _ pcmp_lin) in E; subst; contradiction|reflexivity|]. apply (lc_gt_lt _ pcmp_lin) in E. rewrite E in Ha. discriminate.
  - intros k. split; intros H.
    + apply (Permutation_in _ (Permutation_sym Hp)) in H. apply H2 in H. tauto.
    + apply (Permutation_in _ Hp). apply H2. cbn. tauto.
Qed.
Definition missing (acl : list (str * str)) (t : list posting) : list (str * str) := filter (fun k => negb (mem_pair k (map ac t))) acl.
Lemma same_dp_spec p q : same_dp p q = true <-> dp p = dp q.
Proof. unfold same_dp, dp. rewrite andb_true_iff, Z.eqb_eq, str_eqb_eq. split; [intros [-> ->]; reflexivity|intros H; injection H; auto]. Qed.
Definition next_ok (cur : posting) (rest : list posting) : Prop := match rest with [] => True | p :: _ => dp p <> dp cur end.
Lemma fill_trans_spec cur rest : next_ok cur rest -> forall scan t, StronglySorted plt scan -> StronglySorted plt (map ac t) ->
  (forall k, In k (map ac t) -> In k scan) -> Forall (fun p => dp p = dp cur) t ->
  fill_trans cur scan (t ++ rest) = Ok (map (zero_post cur) (missing scan t), rest).
Proof.
  intros Hr. induction scan as [|k scan IH]; intros t Hs Ht Hi Hd; cbn [fill_trans missing filter map].
  - destruct t as [|p t]; [|destruct (Hi (ac p)); left; reflexivity]. cbn [app]. destruct rest as [|p rest]; [reflexivity|]. cbn in Hr.
    destruct (same_dp p cur) eqn:E; [apply same_dp_spec in E; contradiction|reflexivity].
  - apply StronglySorted_inv in Hs as [Hs Hk]. rewrite Forall_forall in Hk.
    assert (Hirr : forall k', In k' scan -> k' <> k) by (intros k' H ->; specialize (Hk k H); exact (lc_lt_irrefl _ pcmp_lin _ Hk)).
    destruct t as [|p t].
    + cbn [app map mem_pair existsb negb]. specialize (IH [] Hs (SSorted_nil _) (fun _ H => False_ind _ H) (Forall_nil _)). cbn [app] in IH.
      assert (G : (do (add, rest0) <- fill_trans cur scan rest; Ok (zero_post cur k :: add, rest0)) = Ok (zero_post cur k :: map (zero_post cur) (filter (fun _ => true) scan), rest)).
      { rewrite IH. reflexivity. }
      destruct rest as [|q rest]; [exact G|]. cbn in Hr. destruct (same_dp q cur) eqn:E; [apply same_dp_spec in E; contradiction|]. exact G.
    + cbn [app]. cbn [map] in Ht. apply StronglySorted_inv in Ht as [Ht Hp]. rewrite Forall_forall in Hp.
      pose proof (Forall_inv Hd) as Hdp. apply same_dp_spec in Hdp. rewrite Hdp. cbn [andb].
      destruct (pair_eqb k (ac p)) eqn:E.
      * apply pair_eqb_eq in E. subst k. assert (Hm : mem_pair (ac p) (map ac (p :: t)) = true) by (apply mem_pair_In; left; reflexivity). rewrite Hm. cbn [negb].
        rewrite IH; [|exact Hs|exact Ht| |exact (Forall_inv_tail Hd)].
        -- f_equal. f_equal. f_equal. unfold missing. apply filter_ext_in. intros k Hin. cbn [map]. unfold mem_pair at 2. cbn [existsb]. replace (pair_eqb k (ac p)) with false; [reflexivity|].
           symmetry. destruct (pair_eqb k (ac p)) eqn:E; [apply pair_eqb_eq in E; destruct (Hirr k Hin E)|reflexivity].
        -- intros k' Hk'. specialize (Hp k' Hk'). destruct (Hi k' (or_intror Hk')) as [E|H]; [rewrite E in Hp; destruct (lc_lt_irrefl _ pcmp_lin _ Hp)|exact H].
      * assert (Nk : k <> ac p) by (intros H; apply pair_eqb_eq in H; congruence).
        assert (Hm : mem_pair k (map ac (p :: t)) = false).
        { destruct (mem_pair k (map ac (p :: t))) eqn:Em; [|reflexivity]. apply mem_pair_In in Em as [Em|Em]; [congruence|].
          assert (In (ac p) scan) by (destruct (Hi (ac p) (or_introl eq_refl)); [congruence|assumption]).
          exfalso. specialize (Hp k Em). specialize (Hk _ H). exact (lc_lt_irrefl _ pcmp_lin _ (lc_trans _ pcmp_lin _ _ _ Hk Hp)). }
        rewrite Hm. cbn [negb map]. change (p :: t ++ rest) with ((p :: t) ++ rest). rewrite IH; [reflexivity|exact Hs|constructor; [exact Ht|rewrite Forall_forall; exact Hp]| |exact Hd].
        intros k' Hk'. destruct (Hi k' Hk') as [->|H]; [|exact H]. apply mem_pair_In in Hk'. congruence.
Qed.
Definition fill_of (acl : list (str * str)) (t : trans) : list posting :=
  match t with [] => [] | p :: _ => map (zero_post p) (missing acl t) end.
Lemma fill_all_spec acl : StronglySorted plt acl -> forall ts fuel cur, well_grouped ts -> Forall (fun t => StronglySorted plt (map ac t)) ts ->
  (forall t k, In t ts -> In k (map ac t) -> In k acl) -> (length ts < fuel)%nat ->
  match concat ts with p :: _ => cur = p | [] => False end ->
  fill_all fuel acl cur (concat ts) = Ok (concat (map (fill_of acl) ts)).
Proof.
  intros Ha. induction ts as [|t ts IH]; intros fuel cur Hg Ho Hi Hf Hc; [contradiction|]. destruct fuel as [|fuel]; [cbn in Hf; lia|].
  pose proof Hg as (Hne & _). destruct (Forall_inv Hne) as [Ht Hu]. destruct t as [|p t]; [congruence|]. cbn [concat app] in Hc. subst cur. cbn [fill_all concat].
  assert (Hnext : next_ok p (concat ts)).
  { destruct (concat ts) as [|q l] eqn:Ec; [exact I|]. cbn. intros E. apply (grouped_disjoint (p :: t) ts Hg p q); [left; reflexivity|rewrite Ec; left; reflexivity|congruence]. }
  rewrite (fill_trans_spec p (concat ts) Hnext acl (p :: t) Ha (Forall_inv Ho)).
  - cbn [obind]. destruct (concat ts) as [|q l] eqn:Ec.
    + destruct ts as [|t' ts]; [cbn [map concat]; rewrite app_nil_r; reflexivity|]. destruct (Forall_inv (Forall_inv_tail Hne)) as [Ht' _]. cbn in Ec. destruct t'; [congruence|discriminate].
    + assert (IH' : fill_all fuel acl q (q :: l) = Ok (concat (map (fill_of acl) ts))).
      { apply (IH fuel q (grouped_cons _ _ Hg) (Forall_inv_tail Ho)); [|cbn in Hf; lia|reflexivity]. intros t' k Hin. apply Hi. right. exact Hin. }
      rewrite IH'. reflexivity.
  - intros k. apply Hi. left. reflexivity.
  - rewrite Forall_forall. intros x Hx. apply Hu; [exact Hx|left; reflexivity].
Qed.
