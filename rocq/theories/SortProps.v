(** * SortProps: property C113, the order of the rows of a summary. *)
From Verif Require Import Base Dec DateModel DateSpec DateProofs DateProofs2 PriceModel PriceSpec PriceProofs BookModel BookSpec BookProofs BuilderProofs
  OpsModel OpsProofs OpsProofs2 OpsProofs3 BookProps RegisterModel RegisterSpec RegisterProofs ExportModel F64Model AccumModel AccumSpec AccumProofs AccumProofs2 AccumProofs3 AccumProps SortModel SortSpec SortProofs.

Lemma fold_posts_get k : forall (cp : list (str * Qc)) m,
  (exists v, In (k, v) cp /\ aget str_eqb k (fold_left (fun m c => aset str_eqb (fst c) (snd c) m) cp m) = Some v) \/
  ((forall v, ~ In (k, v) cp) /\ aget str_eqb k (fold_left (fun m c => aset str_eqb (fst c) (snd c) m) cp m) = aget str_eqb k m).
Proof.
  induction cp as [|[a v] cp IH]; intros m; cbn [fold_left]; [right; split; [intros v []|reflexivity]|]. cbn [fst snd].
  destruct (IH (aset str_eqb a v m)) as [(w & Hw & E)|[Hn E]]; [left; exists w; split; [right; exact Hw|exact E]|]. rewrite E. destruct (str_eqb_spec k a) as [->|N].
  - left. exists v. split; [left; reflexivity|]. apply (aget_aset_eq _ str_eqb_eq).
  - right. split; [intros w [H|H]; [congruence|exact (Hn w H)]|]. apply (aget_aset_neq _ str_eqb_eq). congruence.
Qed.
Lemma fold_keys_get {V} (f : str -> V) k : forall K m, ~ In k K -> aget str_eqb k (fold_left (fun m k => aset str_eqb k (f k) m) K m) = aget str_eqb k m.
Proof.
  induction K as [|x K IH]; intros m H; [reflexivity|]. cbn [fold_left]. rewrite IH by (intros Hi; apply H; right; exact Hi). apply (aget_aset_neq _ str_eqb_eq). intros ->. apply H. left. reflexivity.
Qed.
Lemma in_keys {V} k (m : list (str * V)) : In k (map fst m) <-> exists v, aget str_eqb k m = Some v.
Proof. rewrite <- mem_str_In, aget_mem. destruct (aget str_eqb k m) as [v|]; split; try discriminate; eauto. intros (v & H). discriminate. Qed.

Lemma sorted_precedes t x y : sorted_by is_less t -> In x t -> In y t -> is_less x y = true -> precedes t x y.
Proof.
  intros Hs Hx Hy HL. apply in_split in Hx as (l1 & l2 & ->). apply in_app_iff in Hy as [Hy|[->|Hy]].
  - exfalso. apply StronglySorted_app in Hs as (_ & _ & Hs). specialize (Hs y x Hy (or_introl eq_refl)). cbn beta in Hs. congruence.
  - exfalso. unfold is_less in HL. rewrite !Z.ltb_irrefl, !str_ltb_irrefl in HL. discriminate.
  - apply in_split in Hy as (l3 & l4 & ->). exists l1, l3, l4. reflexivity.
Qed.
Lemma less_by_sort x y : dp x = dp y -> str_cmp (p_sort x) (p_sort y) = Lt -> is_less x y = true.
Proof.
  intros Hd Hc. unfold dp in Hd. injection Hd as E1 E2. unfold is_less. rewrite E1, E2, Z.ltb_irrefl, str_ltb_irrefl. unfold str_ltb at 1. rewrite Hc. reflexivity.
Qed.
(** What the rows of one transaction of a summary know of the amounts. *)
Lemma summary_keys srt it micro to d b : sort_ok is_less srt -> any_order it -> summarisable_ok srt b ->
  exists ts, accumulate srt it micro to [d] None [] b = Ok (fst (transactions srt b), ts) /\
    Forall (fun t => sorted_by is_less t /\ uniform t /\ exists vals,
      (forall x, In x t -> p_sort x = get_sort_order_string micro vals (p_acct x) [d]) /\
      (forall k, In k (map fst vals) <-> exists x, In x t /\ p_acct x = k) /\
      (forall r, headline t r -> aget str_eqb (p_acct r) vals = Some (p_val r)) /\
      (forall k, In k (map fst vals) -> exists r, headline t r /\ p_acct r = k)) ts.
Proof.
  intros Hs Hi Hsum. destruct (summarisable_main srt it micro to d b Hs Hi Hsum) as (K & acl & ts & E & _ & _ & K1 & K2 & K3 & A1 & A2 & F & S1 & (S2 & _) & _).
  assert (Hocc : forall p, In p (bk_post (compact srt b)) <-> exists t, In t (snd (transactions srt b)) /\ In p t).
  { destruct Hsum as (Hr & _). pose proof (compact_book_ok srt Hs b Hr) as (_ & HT & _). intros p. unfold transactions. cbn [snd]. rewrite <- HT, in_concat. reflexivity. }
  exists ts. split; [exact E|]. rewrite Forall_forall in *. intros t' Ht'. destruct (Forall2_In_r _ _ _ _ F Ht') as (t & Ht & g & leaves & subs & Pg & Pa & F1 & F2 & Fs & Pt).
  split; [exact (S1 t' Ht')|]. split; [intros p q Hp Hq; apply (S2 t' Ht'); assumption|]. exists (vals_of (bk_prices b) to d K g). set (vals := vals_of (bk_prices b) to d K g).
  assert (HinK : forall k, In k K -> aget str_eqb k vals = Some (tree_sum (bk_prices b) to d k g)) by (intros k Hk; unfold vals, vals_of; rewrite acct_val_get by exact Hk; rewrite subtotal_tree; reflexivity).
  assert (Hout : forall k, ~ In k K -> (exists p, In p g /\ p_acct p = k /\ aget str_eqb k vals = Some (conv (bk_prices b) to p)) \/ ((forall p, In p g -> p_acct p <> k) /\ aget str_eqb k vals = None)).
  { intros k Hk. unfold vals, vals_of, acct_val. rewrite fold_keys_get by exact Hk.
    destruct (fold_posts_get k (map (fun p => (p_acct p, conv (bk_prices b) to p)) g) []) as [(v & Hv & ->)|[Hn ->]].
    - apply in_map_iff in Hv as (p & Ep & Hp). injection Ep as <- <-. left. exists p. auto.
    - right. split; [|reflexivity]. intros p Hp Ek. apply (Hn (conv (bk_prices b) to p)). apply in_map_iff. exists p. split; [rewrite Ek; reflexivity|exact Hp]. }
  assert (Hccy : forall p, In p g -> p_ccy p <> to -> In (p_acct p) K).
  { intros p Hp Hc. assert (Hin : In (ac p) acl) by (apply (Permutation_in _ Pa); apply in_map; exact Hp). apply A2 in Hin as (t0 & q & Ht0 & Hq & Eq). unfold ac in Eq. injection Eq as Ea Ecy. rewrite <- Ea. apply K2; [apply Hocc; eauto|congruence]. }
  assert (Hleaf : forall p, In p g -> exists r, In r t' /\ p_acct r = p_acct p).
  { intros p Hp. destruct (Forall2_In_l _ _ _ _ F1 Hp) as (r & Hr & (sr & ->)). eexists. split; [apply (Permutation_in _ (Permutation_sym Pt)), in_app_iff; left; exact Hr|reflexivity]. }
  assert (Hsub : forall k, In k K -> exists r, In r subs /\ In r t' /\ p_acct r = k /\ p_level r = level_of K d false k).
  { intros k Hk. destruct (Forall2_In_l _ _ _ _ F2 (Permutation_in _ (Permutation_sym (Hi g K)) Hk)) as (r & Hr & Er). exists r. split; [exact Hr|]. split; [apply (Permutation_in _ (Permutation_sym Pt)), in_app_iff; right; exact Hr|]. destruct Er as (q & sr & _ & ->). auto. }
  assert (Hrow : forall r, In r t' -> (exists p, In p g /\ p_acct r = p_acct p /\ p_val r = p_val p /\ p_ccy r = p_ccy p /\ p_level r = level_of K d true (p_acct p)) \/
     (In (p_acct r) K /\ p_val r = tree_sum (bk_prices b) to d (p_acct r) g /\ p_level r = level_of K d false (p_acct r))).
  { intros r Hr. apply (Permutation_in _ Pt) in Hr. apply in_app_iff in Hr as [Hr|Hr].
    - left. destruct (Forall2_In_r _ _ _ _ F1 Hr) as (p & Hp & (sr & ->)). exists p. auto.
    - right. destruct (Forall2_In_r _ _ _ _ F2 Hr) as (k & Hk & (q & sr & _ & ->)). cbn [p_acct p_val p_level]. split; [exact (Permutation_in _ (Hi g K) Hk)|auto]. }
  assert (Hlv : forall k, In k K -> level_of K d true k = level_of K d false k + 1).
  { intros k Hk. rewrite level_split by exact K1. apply mem_str_In in Hk. rewrite Hk. unfold level_of. cbn [andb].
    rewrite (filter_ext (fun k' => belowb d k' k || false) (fun k' => belowb d k' k)) by (intros x; apply orb_false_r). reflexivity. }
  split; [|split; [|split]].
  - intros x Hx. apply (Permutation_in _ Pt) in Hx. unfold sorts in Fs. rewrite Forall_forall in Fs. apply Fs. exact Hx.
  - intros k. rewrite in_keys. split.
    + intros (v & Hv). destruct (in_dec (list_eq_dec Z.eq_dec) k K) as [Hk|Hk].
      * destruct (Hsub k Hk) as (r & _ & Hr & Er & _). eauto.
      * destruct (Hout k Hk) as [(p & Hp & Ep & _)|[_ Hno]]; [|congruence]. destruct (Hleaf p Hp) as (r & Hr & Er). exists r. split; [exact Hr|congruence].
    + intros (x & Hx & <-). destruct (in_dec (list_eq_dec Z.eq_dec) (p_acct x) K) as [Hk|Hk]; [rewrite (HinK _ Hk); eauto|].
      destruct (Hrow x Hx) as [(p & Hp & Ep & _)|[H _]]; [|contradiction]. destruct (Hout (p_acct x) Hk) as [(q & _ & _ & ->)|[Hno _]]; [eauto|]. destruct (Hno p Hp). congruence.
  - intros r [Hr Hmin]. destruct (in_dec (list_eq_dec Z.eq_dec) (p_acct r) K) as [Hk|Hk].
    + rewrite (HinK _ Hk). destruct (Hsub _ Hk) as (s & _ & Hs' & Es & Ls). specialize (Hmin s Hs' Es). rewrite Ls in Hmin.
      destruct (Hrow r Hr) as [(p & Hp & Ep & _ & _ & Lr)|(_ & -> & _)]; [|reflexivity]. rewrite <- Ep in Lr. rewrite (Hlv _ Hk) in Lr. lia.
    + destruct (Hrow r Hr) as [(p & Hp & Ep & Ev & Ec & _)|[H _]]; [|contradiction]. destruct (Hout (p_acct r) Hk) as [(q & Hq & Eq & ->)|[Hno _]]; [|destruct (Hno p Hp); congruence].
      assert (Cq : p_ccy q = to) by (destruct (str_eqb_spec (p_ccy q) to) as [|N]; [assumption|]; destruct Hk; rewrite <- Eq; apply Hccy; assumption).
      assert (Cp : p_ccy p = to) by (destruct (str_eqb_spec (p_ccy p) to) as [|N]; [assumption|]; destruct Hk; rewrite Ep; apply Hccy; assumption).
      assert (q = p) as ->.
      { assert (Hnd : NoDup (map ac g)) by exact (Permutation_NoDup (Permutation_sym Pa) A1). assert (Eac : ac q = ac p) by (unfold ac; congruence). clear - Hnd Hq Hp Eac.
        induction g as [|x g IH]; [contradiction|]. cbn [map] in Hnd. apply NoDup_cons_iff in Hnd as [Hx Hnd]. destruct Hq as [->|Hq], Hp as [->|Hp]; [reflexivity| | |apply IH; assumption].
        - destruct Hx. rewrite Eac. apply in_map. exact Hp.
        - destruct Hx. rewrite <- Eac. apply in_map. exact Hq. }
      unfold conv. rewrite Cp, str_eqb_refl, Ev. reflexivity.
  - intros k Hk. apply in_keys in Hk as (v & Hv). destruct (in_dec (list_eq_dec Z.eq_dec) k K) as [Hk|Hk].
    + destruct (Hsub k Hk) as (r & _ & Hr & Er & Lr). exists r. split; [|exact Er]. split; [exact Hr|]. intros r' Hr' Ea. rewrite Lr. destruct (Hrow r' Hr') as [(p & _ & Ep & _ & _ & ->)|(_ & _ & ->)].
      * rewrite <- Ep, Ea, Er, (Hlv k Hk). lia.
      * rewrite Ea, Er. lia.
    + destruct (Hout k Hk) as [(p & Hp & Ep & _)|[_ Hno]]; [|congruence]. destruct (Hleaf p Hp) as (r & Hr & Er). exists r. split; [|congruence]. split; [exact Hr|]. intros r' Hr' Ea.
      destruct (Hrow r Hr) as [(p1 & _ & E1 & _ & _ & ->)|[H _]]; [|rewrite Er, Ep in H; contradiction]. destruct (Hrow r' Hr') as [(p2 & _ & E2 & _ & _ & ->)|[H _]]; [|rewrite Ea, Er, Ep in H; contradiction].
      rewrite <- E1, <- E2, Ea. lia.
Qed.

(** ** C113. Of two sibling accounts, the one with the larger amount comes first, with everything below it. *)
Theorem C113_larger_first_partial : forall srt it to d b, sort_ok is_less srt -> any_order it -> summarisable srt b ->
  exists ts, accumulate srt it micro64 to [d] None [] b = Ok (fst (transactions srt b), ts) /\
    Forall (fun t => forall r s, headline t r -> headline t s -> p_acct r <> [] -> p_acct s <> [] -> siblings d t r s ->
      moderate (p_val r) -> moderate (p_val s) -> clearly_more (p_val r) (p_val s) ->
      forall x y, In x t -> In y t -> at_or_below d (p_acct r) (p_acct x) -> at_or_below d (p_acct s) (p_acct y) -> precedes t x y) ts.
Proof.
  intros srt it to d b Hs Hi Hsum. destruct (summary_keys srt it micro64 to d b Hs Hi (summarisable_weaken srt b Hs Hsum)) as (ts & E & F). exists ts. split; [exact E|].
  rewrite Forall_forall in *. intros t Ht r s Hr Hs' Nr Ns [Ne Hsib] Mr Ms Hmore x y Hx Hy Bx By. destruct (F t Ht) as (So & Un & vals & Hsort & Hkeys & Hval & _).
  apply sorted_precedes; [exact So|exact Hx|exact Hy|]. apply less_by_sort; [apply Un; assumption|]. rewrite (Hsort x Hx), (Hsort y Hy).
  apply (siblings_order micro64 vals d (p_acct r) (p_acct s) _ _ (p_val r) (p_val s) Nr Ns (Hval r Hr) (Hval s Hs')); [|exact (proj1 (micro64_facts _ Mr))|exact (proj1 (micro64_facts _ Ms))|exact (micro64_lt _ _ Mr Ms Hmore)|exact Bx|exact By].
  intros k Hk. apply Hkeys in Hk as (z & Hz & <-). apply Hsib. exact Hz.
Qed.
Print Assumptions C113_larger_first_partial.

(** ** The subtree of an account is printed in one piece when no two siblings have (nearly) the same amount. This is the
    claim of C42 under the condition that it needs. *)
Definition no_ties (d : Z) (t : trans) : Prop :=
  (forall x, In x t -> p_acct x <> []) /\
  forall r s, headline t r -> headline t s -> siblings d t r s ->
    moderate (p_val r) /\ moderate (p_val s) /\ (clearly_more (p_val r) (p_val s) \/ clearly_more (p_val s) (p_val r)).
Definition in_one_piece (d : Z) (t : trans) (k : str) : Prop :=
  forall l1 x l2 y l3, t = l1 ++ x :: l2 ++ y :: l3 -> at_or_below d k (p_acct x) -> at_or_below d k (p_acct y) ->
    Forall (fun z => at_or_below d k (p_acct z)) l2.
Lemma at_below_trans d a b c : at_or_below d a b -> at_or_below d b c -> at_or_below d a c.
Proof. intros [->|H] [->|H']; [left; reflexivity|right; exact H'|right; exact H|right; exact (below_trans d _ _ _ H H')]. Qed.
Lemma sorted_mid l1 x l2 y l3 z : sorted_by is_less (l1 ++ x :: l2 ++ y :: l3) -> In z l2 -> is_less z x = false /\ is_less y z = false.
Proof.
  intros Hs Hz. apply StronglySorted_app in Hs as (_ & Hs & _). apply StronglySorted_inv in Hs as [Hs Hx]. rewrite Forall_forall in Hx. split; [apply Hx, in_app_iff; left; exact Hz|].
  apply StronglySorted_app in Hs as (_ & _ & Hs). apply (Hs z y Hz (or_introl eq_refl)).
Qed.
Theorem C113_one_piece_partial : forall srt it to d b, sort_ok is_less srt -> any_order it -> summarisable srt b ->
  exists ts, accumulate srt it micro64 to [d] None [] b = Ok (fst (transactions srt b), ts) /\
    Forall (fun t => no_ties d t -> forall h, In h t -> in_one_piece d t (p_acct h)) ts.
Proof.
  intros srt it to d b Hs Hi Hsum. destruct (summary_keys srt it micro64 to d b Hs Hi (summarisable_weaken srt b Hs Hsum)) as (ts & E & F). exists ts. split; [exact E|].
  rewrite Forall_forall in *. intros t Ht [Hne Hties] h Hh l1 x l2 y l3 Et Bx By. destruct (F t Ht) as (So & Un & vals & Hsort & Hkeys & Hval & Hhead).
  rewrite Forall_forall. intros z Hz. destruct (at_belowb d (p_acct h) (p_acct z)) eqn:Eb; [apply at_belowb_spec; exact Eb|exfalso].
  assert (Nz : ~ at_or_below d (p_acct h) (p_acct z)) by (rewrite <- at_belowb_spec, Eb; discriminate). set (k := p_acct h) in *.
  assert (Hxt : In x t) by (rewrite Et, in_app_iff; right; left; reflexivity).
  assert (Hyt : In y t) by (rewrite Et, in_app_iff; right; right; apply in_app_iff; right; left; reflexivity).
  assert (Hzt : In z t) by (rewrite Et, in_app_iff; right; right; apply in_app_iff; left; exact Hz).
  pose proof So as So'. rewrite Et in So'. destruct (sorted_mid _ _ _ _ _ _ So' Hz) as [L1 L2]. clear So'.
  assert (Hzk : ~ at_or_below d (p_acct z) k).
  { intros [H|H]; [apply Nz; left; congruence|]. assert (Hb : below d (p_acct z) (p_acct x)) by (destruct Bx as [->|Bx]; [exact H|exact (below_trans d _ _ _ H Bx)]).
    destruct Hb as (w & Ew). destruct (sort_below micro64 vals d (p_acct z) w) as (s & Es). rewrite (less_by_key z x s) in L1; [discriminate|apply Un; assumption| |left; exists (d :: w); split; [exact Ew|discriminate]].
    rewrite (Hsort x Hxt), (Hsort z Hzt), Ew. exact Es. }
  set (keys := map fst vals).
  destruct (shortest (fun n => at_belowb d n k && negb (at_belowb d n (p_acct z))) keys) as (c & Hc & Qc1 & Cmin).
  { exists k. split; [apply Hkeys; exists h; auto|]. rewrite Eb. assert (R : at_belowb d k k = true) by (apply at_belowb_spec; left; reflexivity). rewrite R. reflexivity. }
  destruct (shortest (fun n => at_belowb d n (p_acct z) && negb (at_belowb d n k)) keys) as (e & He & Qe1 & Emin).
  { exists (p_acct z). split; [apply Hkeys; exists z; auto|]. assert (R : at_belowb d (p_acct z) (p_acct z) = true) by (apply at_belowb_spec; left; reflexivity). rewrite R. cbn [andb].
    destruct (at_belowb d (p_acct z) k) eqn:E2; [destruct Hzk; apply at_belowb_spec; exact E2|reflexivity]. }
  apply andb_true_iff in Qc1 as [C1 C2]. apply andb_true_iff in Qe1 as [E1 E2]. apply negb_true_iff in C2, E2. apply at_belowb_spec in C1, E1.
  assert (C2' : ~ at_or_below d c (p_acct z)) by (rewrite <- at_belowb_spec, C2; discriminate). assert (E2' : ~ at_or_below d e k) by (rewrite <- at_belowb_spec, E2; discriminate). clear C2 E2.
  destruct (Hhead c Hc) as (rc & Rc & Ac). destruct (Hhead e He) as (re & Re & Ae).
  assert (Hsib : forall m, In m keys -> (below d m c <-> below d m e)).
  { intros m Hm. split; intros B.
    - assert (Bk : at_or_below d m k) by (apply (at_below_trans d m c k); [right; exact B|exact C1]).
      assert (Bz : at_or_below d m (p_acct z)). { apply at_belowb_spec. destruct (at_belowb d m (p_acct z)) eqn:Em; [reflexivity|]. exfalso. apply at_belowb_spec in Bk. assert (length c <= length m)%nat by (apply (Cmin m Hm); rewrite Bk, Em; reflexivity). apply below_length in B. lia. }
      destruct (Nat.le_ge_cases (length m) (length e)) as [Hl|Hl].
      + destruct (at_below_chain d (p_acct z) m e Bz E1 Hl) as [<-|H]; [contradiction|exact H].
      + exfalso. apply E2'. apply (at_below_trans d e m k); [|exact Bk]. destruct (at_below_chain d (p_acct z) e m E1 Bz Hl) as [->|H]; [left; reflexivity|right; exact H].
    - assert (Bz : at_or_below d m (p_acct z)) by (apply (at_below_trans d m e); [right; exact B|exact E1]).
      assert (Bk : at_or_below d m k). { apply at_belowb_spec. destruct (at_belowb d m k) eqn:Em; [reflexivity|]. exfalso. apply at_belowb_spec in Bz. assert (length e <= length m)%nat by (apply (Emin m Hm); rewrite Bz, Em; reflexivity). apply below_length in B. lia. }
      destruct (Nat.le_ge_cases (length m) (length c)) as [Hl|Hl].
      + destruct (at_below_chain d k m c Bk C1 Hl) as [<-|H]; [contradiction|exact H].
      + exfalso. apply C2'. apply (at_below_trans d c m); [|exact Bz]. destruct (at_below_chain d k c m C1 Bk Hl) as [->|H]; [left; reflexivity|right; exact H]. }
  assert (S1 : siblings d t rc re).
  { rewrite <- Ac, <- Ae in *. split; [intros Eq; apply C2'; rewrite Eq; exact E1|]. intros w Hw. apply Hsib. apply Hkeys. eauto. }
  destruct (Hties rc re Rc Re S1) as (Mc & Me & Hdiff). assert (Nc : c <> []) by (rewrite <- Ac; apply Hne, Rc). assert (Ne : e <> []) by (rewrite <- Ae; apply Hne, Re).
  pose proof (Hval rc Rc) as Vc. pose proof (Hval re Re) as Ve. rewrite Ac in Vc. rewrite Ae in Ve. destruct Hdiff as [Hm|Hm].
  - rewrite (less_by_sort y z) in L2; [discriminate|apply Un; assumption|]. rewrite (Hsort y Hyt), (Hsort z Hzt).
    exact (siblings_order micro64 vals d c e _ _ _ _ Nc Ne Vc Ve Hsib (proj1 (micro64_facts _ Mc)) (proj1 (micro64_facts _ Me)) (micro64_lt _ _ Mc Me Hm) (at_below_trans d _ _ _ C1 By) E1).
  - rewrite (less_by_sort z x) in L1; [discriminate|apply Un; assumption|]. rewrite (Hsort x Hxt), (Hsort z Hzt).
    exact (siblings_order micro64 vals d e c _ _ _ _ Ne Nc Ve Vc (fun m Hm' => iff_sym (Hsib m Hm')) (proj1 (micro64_facts _ Me)) (proj1 (micro64_facts _ Mc)) (micro64_lt _ _ Me Mc Hm) E1 (at_below_trans d _ _ _ C1 Bx)).
Qed.
Print Assumptions C113_one_piece_partial.

(** ** What happens beyond a thousand million: those accounts come before all others, the smaller first. *)
Theorem C113_huge_ascending_partial : forall srt it to d b, sort_ok is_less srt -> any_order it -> summarisable srt b ->
  exists ts, accumulate srt it micro64 to [d] None [] b = Ok (fst (transactions srt b), ts) /\
    Forall (fun t => forall r s, headline t r -> headline t s -> p_acct r <> [] -> p_acct s <> [] -> siblings d t r s ->
      huge (p_val r) -> moderate (p_val s) \/ (huge (p_val s) /\ (p_val r + qz 4 / qz (10 ^ 5) <= p_val s)%Qc) ->
      forall x y, In x t -> In y t -> at_or_below d (p_acct r) (p_acct x) -> at_or_below d (p_acct s) (p_acct y) -> precedes t x y) ts.
Proof.
  intros srt it to d b Hs Hi Hsum. destruct (summary_keys srt it micro64 to d b Hs Hi (summarisable_weaken srt b Hs Hsum)) as (ts & E & F). exists ts. split; [exact E|].
  rewrite Forall_forall in *. intros t Ht r s Hr Hs' Nr Ns [Ne Hsib] Mr Ms x y Hx Hy Bx By. destruct (F t Ht) as (So & Un & vals & Hsort & Hkeys & Hval & _).
  apply sorted_precedes; [exact So|exact Hx|exact Hy|]. apply less_by_sort; [apply Un; assumption|]. rewrite (Hsort x Hx), (Hsort y Hy).
  apply (siblings_order_gen micro64 vals d (p_acct r) (p_acct s) _ _ (p_val r) (p_val s) Nr Ns (Hval r Hr) (Hval s Hs')); [|apply sort_order_high_lt; [exact (proj1 (micro64_high _ Mr))|]|exact Bx|exact By].
  - intros k Hk. apply Hkeys in Hk as (z & Hz & <-). apply Hsib. exact Hz.
  - destruct Ms as [Ms|[Ms Hle]]; [left; exact (proj1 (micro64_facts _ Ms))|right; split; [exact (proj1 (micro64_high _ Ms))|exact (micro64_high_lt _ _ Ms Mr Hle)]].
Qed.
Print Assumptions C113_huge_ascending_partial.

(** ** Amounts above a thousand million come in ascending order. *)
Definition big_calls : list bcall :=
  [ CTrans 20240105 (bs "Buy") []; CPost (bs "House") (bs "IDR") (qz 2000000000) []; CPost (bs "Land") (bs "IDR") (qz 3000000000) []; CPost (bs "Bank") (bs "IDR") (qz (-5000000000)) [] ].
Theorem C113_larger_first_refuted : exists srt it b ts t l1 l2 l3 r s, sort_ok is_less srt /\ any_order it /\ summarisable srt b /\
  accumulate srt it micro64 (bs "IDR") [58] None [] b = Ok (fst (transactions srt b), ts) /\ In t ts /\
  headline t r /\ headline t s /\ siblings 58 t r s /\ t = l1 ++ s :: l2 ++ r :: l3 /\ (p_val s < p_val r)%Qc /\ Forall (fun p => p_level p = 0) t.
Proof.
  destruct (accum_is xsort x_it micro64 (bs "IDR") [58] (x_built big_calls) arow
    [[(bs "House", 2000000000, 0); (bs "Land", 3000000000, 0); (bs "Bank", -5000000000, 0)]]) as (ts & E & Hv); [vm_compute; reflexivity|discriminate|].
  destruct ts as [|t [|]]; try discriminate Hv. injection Hv as Hv. destruct t as [|s [|r [|x [|]]]]; try discriminate Hv. cbn [map] in Hv. injection Hv as E1 V1 L1 E2 V2 L2 E3 V3 L3.
  assert (Hacc : forall w, In w [s; r; x] -> (p_acct w = bs "House" \/ p_acct w = bs "Land" \/ p_acct w = bs "Bank") /\ p_level w = 0) by (intros w [<-|[<-|[<-|[]]]]; split; auto).
  exists xsort, x_it, (x_built big_calls), [[s; r; x]], [s; r; x], [], [], [x], r, s.
  split; [exact xsort_ok|]. split; [exact x_it_ok|]. split; [apply (x_summarisable [20240101; 20240105; 20240106]); [exact x_dates|vm_compute; reflexivity..]|].
  split; [exact E|]. split; [left; reflexivity|]. split; [split; [right; left; reflexivity|intros w Hw _; destruct (Hacc w Hw) as [_ ->]; lia]|].
  split; [split; [left; reflexivity|intros w Hw _; destruct (Hacc w Hw) as [_ ->]; lia]|]. split.
  { split; [rewrite E1, E2; intros X; discriminate X|]. intros w Hw. destruct (Hacc w Hw) as [Ha _]. rewrite E1, E2. split; intros (q & Eq); destruct Ha as [Ha|[Ha|Ha]]; rewrite Ha in Eq; discriminate Eq. }
  split; [reflexivity|]. split; [|rewrite Forall_forall; intros w Hw; apply (Hacc w Hw)].
  destruct (accum_is xsort x_it micro64 (bs "IDR") [58] (x_built big_calls) (fun p => (p_acct p, Qnum (this (p_val p)), Zpos (Qden (this (p_val p)))))
    [[(bs "House", 2000000000, 1); (bs "Land", 3000000000, 1); (bs "Bank", -5000000000, 1)]]) as (ts' & E' & Hv'); [vm_compute; reflexivity|discriminate|].
  rewrite E in E'. injection E' as <-. injection Hv' as _ _ D1 _ _ D2 _ _ _. unfold Qclt, Qlt. rewrite V1, V2, D1, D2. lia.
Qed.
Print Assumptions C113_larger_first_refuted.

(** Hypotheses of C113: a book with sub-accounts and cents; its summary has no ties. *)
Definition modb (v : Qc) : bool := Qle_bool (this (- qz (10 ^ 9))%Qc) (this v) && Qle_bool (this v) (this (qz (10 ^ 9))).
Definition moreb (v w : Qc) : bool := Qle_bool (this (w + qz 3 / qz (10 ^ 6))%Qc) (this v).
Definition apartb (d : Z) (r s : posting) : bool :=
  str_eqb (p_acct r) (p_acct s) || belowb d (p_acct r) (p_acct s) || belowb d (p_acct s) (p_acct r) ||
  (modb (p_val r) && modb (p_val s) && (moreb (p_val r) (p_val s) || moreb (p_val s) (p_val r))).
Definition no_tiesb (d : Z) (t : trans) : bool := forallb (fun x => nonempty (p_acct x)) t && forallb (fun r => forallb (apartb d r) t) t.
Lemma no_tiesb_ok d t : no_tiesb d t = true -> no_ties d t.
Proof.
  unfold no_tiesb. intros H. apply andb_true_iff in H as [H1 H2]. rewrite forallb_forall in H1, H2. split; [intros x Hx E; specialize (H1 x Hx); rewrite E in H1; discriminate|].
  intros r s [Hr _] [Hs _] [Ne Hsib]. specialize (H2 r Hr). rewrite forallb_forall in H2. specialize (H2 s Hs). unfold apartb in H2. apply str_eqb_neq in Ne. rewrite Ne in H2. cbn [orb] in H2.
  destruct (belowb d (p_acct r) (p_acct s)) eqn:B1; [apply belowb_spec in B1; apply (Hsib r Hr) in B1; destruct (below_irrefl _ _ B1)|].
  destruct (belowb d (p_acct s) (p_acct r)) eqn:B2; [apply belowb_spec in B2; apply (Hsib s Hs) in B2; destruct (below_irrefl _ _ B2)|]. cbn [orb] in H2.
  apply andb_true_iff in H2 as [H2 H3]. apply andb_true_iff in H2 as [M1 M2]. unfold modb in M1, M2. apply andb_true_iff in M1 as [M1 M1']. apply andb_true_iff in M2 as [M2 M2'].
  apply Qle_bool_iff in M1, M1', M2, M2'. split; [split; assumption|]. split; [split; assumption|]. apply orb_true_iff in H3 as [H3|H3]; apply Qle_bool_iff in H3; [left|right]; exact H3.
Qed.
Definition cent_calls : list bcall :=
  [ CTrans 20240105 (bs "Shop") []; CPost (bs "A:x") (bs "GBP") (qz 1999 / qz 100)%Qc []; CPost (bs "A:y") (bs "GBP") (qz 2000 / qz 100)%Qc [];
    CPost (bs "B:x") (bs "GBP") (qz 10) []; CPost (bs "B:y") (bs "GBP") (qz (-30) / qz 7)%Qc []; CPost (bs "C") (bs "GBP") (- (qz 3999 / qz 100 + qz 10 - qz 30 / qz 7))%Qc [] ].
Example C113_nonvacuous : sort_ok is_less xsort /\ any_order x_it /\ summarisable xsort (x_built cent_calls) /\
  exists ts t, accumulate xsort x_it micro64 (bs "GBP") [58] None [] (x_built cent_calls) = Ok (compact xsort (x_built cent_calls), ts) /\ ts = [t] /\ no_ties 58 t /\
    map (fun p => (p_acct p, p_level p)) t = [(bs "A", 0); (bs "A:y", 1); (bs "A:x", 1); (bs "B", 0); (bs "B:x", 1); (bs "B:y", 1); (bs "C", 0)].
Proof.
  split; [exact xsort_ok|]. split; [exact x_it_ok|]. split; [apply (x_summarisable [20240101; 20240105; 20240106]); [exact x_dates|vm_compute; reflexivity..]|].
  assert (H : match accumulate xsort x_it micro64 (bs "GBP") [58] None [] (x_built cent_calls) with Ok (_, ts) => forallb (no_tiesb 58) ts | _ => false end = true) by (vm_compute; reflexivity).
  destruct (accum_is xsort x_it micro64 (bs "GBP") [58] (x_built cent_calls) (fun p => (p_acct p, p_level p, 0))
    [[(bs "A", 0, 0); (bs "A:y", 1, 0); (bs "A:x", 1, 0); (bs "B", 0, 0); (bs "B:x", 1, 0); (bs "B:y", 1, 0); (bs "C", 0, 0)]]) as (ts & E & Hv); [vm_compute; reflexivity|discriminate|].
  rewrite E in H. destruct ts as [|t [|]]; try discriminate Hv. exists [t], t. split; [exact E|]. split; [reflexivity|]. cbn [forallb] in H. apply andb_true_iff in H as [H _]. split; [apply no_tiesb_ok; exact H|].
  injection Hv as Hv. apply (f_equal (map (@fst (str * Z) Z))) in Hv. rewrite map_map in Hv. exact Hv.
Qed.
(** House and Land of [big_calls] (C113_larger_first_refuted) are as C113_huge_ascending_partial requires. *)
Example C113_huge_nonvacuous : summarisable xsort (x_built big_calls) /\ huge (qz 2000000000) /\ huge (qz 3000000000) /\ (qz 2000000000 + qz 4 / qz (10 ^ 5) <= qz 3000000000)%Qc /\
  exists p q, In p (bk_post (x_built big_calls)) /\ In q (bk_post (x_built big_calls)) /\ (p_acct p, this (p_val p)) = (bs "House", 2000000000 # 1)%Q /\ (p_acct q, this (p_val q)) = (bs "Land", 3000000000 # 1)%Q.
Proof.
  split; [apply (x_summarisable [20240101; 20240105; 20240106]); [exact x_dates|vm_compute; reflexivity..]|].
  do 2 (split; [split; vm_compute; congruence|]). split; [vm_compute; congruence|].
  assert (H : map (fun p => (p_acct p, this (p_val p))) (bk_post (x_built big_calls)) = [(bs "Bank", -5000000000 # 1); (bs "House", 2000000000 # 1); (bs "Land", 3000000000 # 1)]%Q) by (vm_compute; reflexivity).
  assert (G : forall e, In e [(bs "Bank", -5000000000 # 1); (bs "House", 2000000000 # 1); (bs "Land", 3000000000 # 1)]%Q -> exists p, In p (bk_post (x_built big_calls)) /\ (p_acct p, this (p_val p)) = e).
  { intros e He. rewrite <- H in He. apply in_map_iff in He as (p & E & Hp). exists p. auto. }
  destruct (G _ (or_intror (or_introl eq_refl))) as (p & Hp & Ep). destruct (G _ (or_intror (or_intror (or_introl eq_refl)))) as (q & Hq & Eq'). exists p, q. auto.
Qed.
