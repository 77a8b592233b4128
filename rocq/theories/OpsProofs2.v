(** * OpsProofs2: what each operation does to the totals and to the transactions. *)
From Coq Require Import ZifyBool ZifyNat Zify.
From Verif Require Import Base Dec DateModel DateSpec DateProofs DateProofs2 PriceModel PriceProofs BookModel BookSpec BookProofs BuilderProofs OpsModel OpsProofs.
Ltac Zify.zify_post_hook ::= Z.to_euclidean_division_equations.

Lemma qz_Zof n : (0 < n)%nat -> qz (Z.of_nat n) <> 0%Qc.
Proof. intros H. apply qz_nz. lia. Qed.

Section Ops2.
  Variable srt : list posting -> list posting.
  Hypothesis Hsrt : sort_ok is_less srt.

  (** ** Account map *)
  Lemma map_account_total f b g :
    total g (bk_post (map_account srt f b)) = total (fun d p a c => g d p (f a) c) (bk_post b).
  Proof.
    unfold map_account. rewrite (compact_total srt Hsrt). cbn [with_post bk_post].
    rewrite map_acct_loop_eq by discriminate. apply total_map. intros p _. split; reflexivity.
  Qed.

  (** ** Date filters *)
  Definition tdate (t : trans) : Z := match t with [] => 0 | p :: _ => p_date p end.
  Definition dated (f : Z -> bool) (t : trans) : bool := forallb (fun p => f (p_date p)) t.
  Definition hd_dated (f : Z -> bool) (t : trans) : bool := match t with [] => false | p :: _ => f (p_date p) end.
  Lemma tdate_all (f : Z -> bool) ts : well_grouped ts -> filter (hd_dated f) ts = filter (dated f) ts.
  Proof.
    intros [H _]. apply filter_ext_in. intros t Ht. rewrite Forall_forall in H. destruct (H t Ht) as [Hne Hu].
    destruct t as [|p t]; [congruence|]. unfold hd_dated, dated. destruct (f (p_date p)) eqn:E; symmetry.
    - apply forallb_forall. intros q Hq. rewrite <- E. f_equal.
      assert (Hd : dp q = dp p) by (apply Hu; [exact Hq|left; reflexivity]). unfold dp in Hd. congruence.
    - cbn [forallb]. rewrite E. reflexivity.
  Qed.
  Lemma filter_since_eq d b : book_ok b -> d <> 0 ->
    filter_since d b = Ok (let k := filter (dated (fun x => d <=? x)) (bk_trans b) in mkBook (concat k) k (bk_prices b) (bk_ccy b)).
  Proof.
    intros (_ & _ & Hg & _) Hd. unfold filter_since. rewrite (proj2 (Z.eqb_neq d 0) Hd).
    rewrite filter_transaction_eq by exact Hg. cbn zeta. rewrite <- (tdate_all (fun x => d <=? x) _ Hg). reflexivity.
  Qed.
  Lemma filter_asof_eq d b : book_ok b -> d <> 0 ->
    filter_asof d b = Ok (let k := filter (dated (fun x => x <? d)) (bk_trans b) in mkBook (concat k) k (bk_prices b) (bk_ccy b)).
  Proof.
    intros (_ & _ & Hg & _) Hd. unfold filter_asof. rewrite (proj2 (Z.eqb_neq d 0) Hd).
    rewrite filter_transaction_eq by exact Hg. cbn zeta. rewrite <- (tdate_all (fun x => x <? d) _ Hg). reflexivity.
  Qed.
  Lemma period_split d ts : well_grouped ts ->
    filter (dated (fun x => x <? d)) ts ++ filter (dated (fun x => d <=? x)) ts = ts.
  Proof.
    intros Hg. rewrite <- !(tdate_all _ ts Hg). revert Hg.
    induction ts as [|t ts IH]; intros Hg; [reflexivity|].
    pose proof (IH (grouped_cons _ _ Hg)) as E. destruct Hg as [H1 H2].
    pose proof (Forall_inv_tail H1) as H1t. apply Forall_inv in H1. destruct H1 as [Hne Hu]. destruct t as [|p t]; [congruence|]. cbn [filter hd_dated].
    destruct (Z.ltb_spec (p_date p) d) as [Hlt|Hge].
    - rewrite (proj2 (Z.leb_gt d (p_date p)) Hlt). cbn [app]. f_equal. exact E.
    - rewrite (proj2 (Z.leb_le d (p_date p)) Hge).
      apply StronglySorted_inv in H2 as [_ H2]. rewrite Forall_forall in H2.
      assert (Hall : forall u, In u ts -> match u with [] => True | q :: _ => d <= p_date q end).
      { intros [|q u] Hin; [exact I|]. specialize (H2 _ Hin p q (or_introl eq_refl) (or_introl eq_refl)).
        unfold dplt, dpcmp, lex, dp in H2. cbn [fst snd] in H2.
        destruct (Z.compare_spec (p_date p) (p_date q)); [lia|lia|discriminate]. }
      rewrite filter_none.
      + cbn [app]. rewrite filter_all; [reflexivity|]. rewrite Forall_forall in *. intros [|q u] Hin.
        * destruct (H1t _ Hin) as [C _]. congruence.
        * apply Z.leb_le. exact (Hall _ Hin).
      + rewrite Forall_forall. intros [|q u] Hin; [reflexivity|]. apply Z.ltb_ge. exact (Hall _ Hin).
  Qed.

  (** ** Date and payee map, combine *)
  Lemma map_transaction_total f b g :
    total g (bk_post (map_transaction srt (fun _ => f) b)) =
    total (fun d p a c => g (fst (f d p)) (snd (f d p)) a c) (bk_post b).
  Proof.
    unfold map_transaction. rewrite (compact_total srt Hsrt). cbn [with_post bk_post].
    rewrite map_trans_loop_eq. apply total_map. intros p _. split; reflexivity.
  Qed.
  Lemma cposts_pkey_in l p : In p (cposts srt l) -> exists q, In q l /\ pkey q = pkey p.
  Proof. intros H. apply (cposts_origin srt Hsrt) in H as (q & Hq & E & _). eauto. Qed.
  Lemma map_transaction_origin f b p : In p (bk_post (map_transaction srt (fun _ => f) b)) ->
    exists q, In q (bk_post b) /\ (p_date p, p_payee p) = f (p_date q) (p_payee q) /\ p_acct p = p_acct q /\ p_ccy p = p_ccy q.
  Proof.
    unfold map_transaction. rewrite map_trans_loop_eq. destruct (bk_post b) as [|x l] eqn:E.
    - rewrite compact_nil by (cbn; reflexivity). cbn [with_post bk_post map]. contradiction.
    - rewrite compact_eq by (cbn; discriminate). cbn [with_post bk_post]. intros Hin. apply cposts_pkey_in in Hin as (q & Hq & Ek).
      apply in_map_iff in Hq as (r & <- & Hr). exists r. split; [exact Hr|]. apply pkey_eq in Ek as (E1 & E2 & E3 & E4).
      cbn [set_date p_date p_payee p_acct p_ccy] in *. rewrite <- E1, <- E2, <- surjective_pairing. auto.
  Qed.

  (** ** Appending operations *)
  Lemma total_flat_map g (f : posting -> list posting) l : total g (flat_map f l) = qsum (map (fun p => total g (f p)) l).
  Proof. induction l as [|p l IH]; [reflexivity|]. cbn [flat_map map]. rewrite total_app, IH, qsum_cons. reflexivity. Qed.
  Lemma append_total b (f : posting -> list posting) g :
    total g (bk_post (compact srt (with_post b (bk_post b ++ flat_map f (bk_post b))))) =
    (total g (bk_post b) + qsum (map (fun p => total g (f p)) (bk_post b)))%Qc.
  Proof. rewrite (compact_total srt Hsrt). cbn [with_post bk_post]. rewrite total_app, total_flat_map. reflexivity. Qed.
  Lemma on_badf g p a d k : on g (by_acct_date_factor p a d k) = g d (p_payee p) a (p_ccy p).
  Proof. reflexivity. Qed.

  Lemma adjust_post_total m r (k : Qc) b g :
    total g (bk_post (adjust_post srt m r k b)) =
    (total g (bk_post b) - k * total (fun d p a c => m a && g d p a c) (bk_post b)
       + k * total (fun d p a c => m a && g d p (r a) c) (bk_post b))%Qc.
  Proof.
    unfold adjust_post. rewrite append_total. generalize (bk_post b) at 2 4 5. intros l.
    replace (qsum (map (fun p => total g (adj_posts m r k p)) l)) with
      (- k * total (fun d p a c => m a && g d p a c) l + k * total (fun d p a c => m a && g d p (r a) c) l)%Qc; [ring|].
    induction l as [|p l IH]; [rewrite !total_nil; cbn [map]; change (qsum []) with 0%Qc; ring|].
    cbn [map]. rewrite qsum_cons, !total_cons, <- IH. unfold adj_posts, on at 1 2.
    destruct (m (p_acct p)); cbn [andb].
    - rewrite !total_cons, total_nil. unfold by_factor, by_acct_factor. rewrite !on_badf. cbn [by_acct_date_factor p_val].
      destruct (g _ _ (p_acct p) _), (g _ _ (r (p_acct p)) _); ring.
    - rewrite total_nil. ring.
  Qed.

  (** Depreciation *)
  Fixpoint iter_n {A} (k : nat) (f : A -> A) (x : A) : A := match k with O => x | S k' => f (iter_n k' f x) end.
  Definition due_of (today : Z) (period : str) (d : Z) (k : nat) : Z := iter_n k (fun x => floor_diff today x period 1) d.
  Lemma iter_shift {A} (f : A -> A) k x : iter_n k f (f x) = f (iter_n k f x).
  Proof. induction k as [|k IH]; [reflexivity|]. cbn [iter_n]. rewrite IH. reflexivity. Qed.
  Lemma depr_loop_total g today p nacct period periods : forall n d, total g (depr_loop today p nacct period periods n d) =
    qsum (map (fun '(d, a, v) => if g d (p_payee p) a (p_ccy p) then v else 0%Qc)
      (flat_map (fun k => [(due_of today period d k, nacct, - (p_val p / qz periods))%Qc; (due_of today period d k, p_acct p, p_val p / qz periods)%Qc]) (seq 0 n))).
  Proof.
    induction n as [|n IH]; intros d; [reflexivity|]. cbn [depr_loop]. rewrite !total_cons, IH, !on_badf.
    cbn [seq]. rewrite <- seq_shift. cbn [flat_map app map]. rewrite !qsum_cons. cbn [by_acct_date_factor p_val due_of iter_n].
    assert (E : forall l, flat_map (fun k => [(due_of today period d k, nacct, - (p_val p / qz periods))%Qc; (due_of today period d k, p_acct p, p_val p / qz periods)%Qc]) (map S l)
      = flat_map (fun k => [(due_of today period (floor_diff today d period 1) k, nacct, - (p_val p / qz periods))%Qc; (due_of today period (floor_diff today d period 1) k, p_acct p, p_val p / qz periods)%Qc]) l).
    { induction l as [|k l IHl]; [reflexivity|]. cbn [map flat_map]. rewrite IHl. unfold due_of. cbn [iter_n].
      pose proof (iter_shift (fun x => floor_diff today x period 1) k d) as Es. cbn beta in Es. rewrite Es. reflexivity. }
    rewrite E. change (due_of today period d 0) with d.
    match goal with |- context [qsum ?x] => generalize (qsum x) end. intros rest. unfold Qcdiv.
    destruct (g d (p_payee p) nacct (p_ccy p)), (g d (p_payee p) (p_acct p) (p_ccy p)); ring.
  Qed.
  Lemma depreciate_total today m r period n b g :
    total g (bk_post (depreciate srt today m r period (Z.of_nat n) b)) =
    (total g (bk_post b) + qsum (map (fun p => moved g p (moves (due_of today period (p_date p)) n p (r (p_acct p)))) (filter (fun p => m (p_acct p)) (bk_post b))))%Qc.
  Proof.
    unfold depreciate. rewrite append_total. f_equal. generalize (bk_post b). intros l.
    induction l as [|p l IH]; [reflexivity|]. cbn [map filter]. rewrite qsum_cons, IH. unfold depr_posts.
    destruct (m (p_acct p)).
    - cbn [map]. rewrite qsum_cons. f_equal. rewrite !total_cons, depr_loop_total, Nat2Z.id. unfold moved, moves. cbn [map]. rewrite !qsum_cons.
      unfold by_factor, by_acct_factor. rewrite !on_badf. cbn [by_acct_date_factor p_val].
      destruct (g _ _ (p_acct p) _), (g _ _ (r (p_acct p)) _); ring.
    - rewrite total_nil. ring.
  Qed.
  Lemma qsum_pairs {A} (f : A -> list Qc) l v : (forall x, In x l -> qsum (f x) = v) -> qsum (flat_map f l) = (qz (Z.of_nat (length l)) * v)%Qc.
  Proof.
    induction l as [|x l IH]; intros H; [cbn; change (qz 0) with 0%Qc; ring|].
    cbn [flat_map length]. rewrite qsum_app, IH, (H x) by (auto with datatypes).
    rewrite Nat2Z.inj_succ. unfold Z.succ. rewrite qz_add, qz_1. ring.
  Qed.
  Lemma moved_acct due n p asset a c : (0 < n)%nat -> moved (in_acct a c) p (moves due n p asset) = 0%Qc.
  Proof.
    intros Hn. unfold moved, moves. cbn [map]. rewrite !qsum_cons, flat_map_concat_map, concat_map, map_map, <- flat_map_concat_map.
    cbn [map]. unfold in_acct.
    rewrite (qsum_pairs _ _ ((if str_eqb asset a && str_eqb (p_ccy p) c then - (p_val p / qz (Z.of_nat n)) else 0) + (if str_eqb (p_acct p) a && str_eqb (p_ccy p) c then p_val p / qz (Z.of_nat n) else 0))%Qc).
    - rewrite seq_length. pose proof (qz_Zof n Hn). destruct (str_eqb asset a && _), (str_eqb (p_acct p) a && _); field; assumption.
    - intros k _. rewrite !qsum_cons. change (qsum []) with 0%Qc. ring.
  Qed.
  Lemma qsum_zero {A} (f : A -> Qc) l : (forall x, In x l -> f x = 0%Qc) -> qsum (map f l) = 0%Qc.
  Proof. induction l as [|x l IH]; intros H; [reflexivity|]. cbn [map]. rewrite qsum_cons, IH, (H x) by (auto with datatypes). ring. Qed.
  Lemma depreciate_all_time today m r period n b a c : (0 < n)%nat ->
    total (in_acct a c) (bk_post (depreciate srt today m r period (Z.of_nat n) b)) = total (in_acct a c) (bk_post b).
  Proof.
    intros Hn. rewrite depreciate_total, qsum_zero; [ring|]. intros p _. apply moved_acct. exact Hn.
  Qed.
  Lemma depreciate_nonpos today m r period periods b : periods <= 0 ->
    depreciate srt today m r period periods b = adjust_post srt m r 1%Qc b.
  Proof.
    intros H. unfold depreciate, adjust_post. do 3 f_equal. apply flat_map_ext. intros p. unfold depr_posts, adj_posts.
    replace (Z.to_nat periods) with 0%nat by lia. reflexivity.
  Qed.
  (** Due dates are period starts. *)
  Lemma due_period today p y mo d k : valid_ymd y mo d ->
    due_of today (period_name p) (ymd y mo d) (S k) = period_start p (period_index p y mo + Z.of_nat (S k)).
  Proof.
    intros V. pose proof (valid_bounds _ _ _ V) as B. induction k as [|k IH].
    - cbn [due_of iter_n]. rewrite floor_diff_spec by (destruct V; lia). reflexivity.
    - change (due_of today (period_name p) (ymd y mo d) (S (S k))) with (floor_diff today (due_of today (period_name p) (ymd y mo d) (S k)) (period_name p) 1).
      rewrite IH. set (j := period_index p y mo + Z.of_nat (S k)).
      assert (Hj : 0 < j) by (subst j; unfold period_index, quarter_index, month_index; destruct V, p; lia).
      replace (period_index p y mo + Z.of_nat (S (S k))) with (j + 1) by (subst j; lia).
      clearbody j. destruct p; cbn [period_start].
      + unfold year_start. rewrite floor_diff_spec by lia. reflexivity.
      + unfold quarter_start at 1. rewrite (floor_diff_spec _ Quarterly) by lia. cbn [period_index period_start]. f_equal. unfold quarter_index. lia.
      + unfold month_start at 1. rewrite (floor_diff_spec _ Monthly) by lia. cbn [period_index period_start]. f_equal. unfold month_index. lia.
  Qed.

  (** ** AdjustBy *)
  Lemma adjust_by_total by_ b b' : adjust_by srt by_ b = Ok b' -> by_ <> bs "none" ->
    exists dd k, days_since (snd (min_max_date (bk_post b))) (fst (min_max_date (bk_post b))) = Ok dd /\ adjust_factor by_ dd = Ok k /\
      (forall g, total g (bk_post b') = (total g (bk_post b) * k)%Qc).
  Proof.
    unfold adjust_by. intros E Hn. destruct (str_eqb_spec by_ (bs "none")); [congruence|].
    destruct (min_max_date (bk_post b)) as [mn mx]. cbn [fst snd]. apply obind_Ok in E as (dd & E1 & E).
    apply obind_Ok in E as (k & E2 & E). injection E as <-. exists dd, k. split; [exact E1|]. split; [exact E2|].
    intros g. rewrite (compact_total srt Hsrt). cbn [with_post bk_post]. apply total_scale. intros p _. split; reflexivity.
  Qed.
  Lemma min_max_spec l : forall mn mx mn' mx', fold_left (fun '(mn, mx) q =>
       (if p_date q <? mn then p_date q else mn, if mx <? p_date q then p_date q else mx)) l (mn, mx) = (mn', mx') ->
    (mn' <= mn /\ mx <= mx') /\ Forall (fun p => mn' <= p_date p <= mx') l /\
    (mn' = mn \/ exists p, In p l /\ p_date p = mn') /\ (mx' = mx \/ exists p, In p l /\ p_date p = mx').
  Proof.
    induction l as [|q l IH]; intros mn mx mn' mx' E.
    - injection E as <- <-. split; [lia|]. split; [constructor|]. auto.
    - cbn [fold_left] in E. apply IH in E as ((H1 & H2) & H3 & H4 & H5). split; [|split; [|split]].
      + destruct (Z.ltb_spec (p_date q) mn), (Z.ltb_spec mx (p_date q)); lia.
      + constructor; [|exact H3]. destruct (Z.ltb_spec (p_date q) mn), (Z.ltb_spec mx (p_date q)); lia.
      + destruct H4 as [->|(p & Hp & E)]; [|right; exists p; split; [right; exact Hp|exact E]].
        destruct (Z.ltb_spec (p_date q) mn); [right; exists q; split; [left; reflexivity|reflexivity]|left; reflexivity].
      + destruct H5 as [->|(p & Hp & E)]; [|right; exists p; split; [right; exact Hp|exact E]].
        destruct (Z.ltb_spec mx (p_date q)); [right; exists q; split; [left; reflexivity|reflexivity]|left; reflexivity].
  Qed.
  (** First and last posting date. *)
  Definition first_last (l : list posting) (mn mx : Z) : Prop :=
    (exists p, In p l /\ p_date p = mn) /\ (exists p, In p l /\ p_date p = mx) /\ forall p, In p l -> mn <= p_date p <= mx.
  Lemma min_max_first_last l : l <> [] -> first_last l (fst (min_max_date l)) (snd (min_max_date l)).
  Proof.
    destruct l as [|q l]; [congruence|]. intros _. unfold min_max_date. destruct (fold_left _ _ _) as [mn mx] eqn:E.
    apply min_max_spec in E as ((H1 & H2) & H3 & H4 & H5). cbn [fst snd]. rewrite Forall_forall in H3. split; [|split].
    - destruct H4 as [->|(p & Hp & E)]; [exists q|exists p]; split; auto with datatypes.
    - destruct H5 as [->|(p & Hp & E)]; [exists q|exists p]; split; auto with datatypes.
    - intros p [<-|Hp]; [lia|apply H3; exact Hp].
  Qed.
  Lemma first_last_unique l a b a' b' : first_last l a b -> first_last l a' b' -> a = a' /\ b = b'.
  Proof.
    intros ((p1 & P1 & E1) & (p2 & P2 & E2) & H) ((q1 & Q1 & F1) & (q2 & Q2 & F2) & K).
    pose proof (H _ Q1). pose proof (H _ Q2). pose proof (K _ P1). pose proof (K _ P2). lia.
  Qed.

  (** ** MapAmount *)
  Lemma map_amount_total f b g :
    total g (bk_post (map_amount f b)) =
    wtotal (fun d p a c => if g d p a (snd (f d c)) then fst (f d c) else 0%Qc) (bk_post b).
  Proof.
    unfold map_amount. cbn [bk_post]. generalize (bk_post b). induction l as [|p l IH]; [reflexivity|].
    cbn [map]. rewrite total_cons, IH. unfold wtotal. cbn [map]. rewrite qsum_cons. f_equal. unfold on, amount_of.
    destruct (f (p_date p) (p_ccy p)) as [v c]. cbn [set_ccyval p_date p_payee p_acct p_ccy p_val fst snd].
    destruct (g _ _ _ _); ring.
  Qed.
End Ops2.
