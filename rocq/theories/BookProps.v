(** * BookProps: properties C01-C18, C50, C62, C68. [srt] is any sort that returns a sorted permutation. *)
From Verif Require Import Base Dec DateModel DateSpec DateProofs DateProofs2 PriceModel PriceProofs BookModel BookSpec BookProofs BuilderProofs
  OpsModel OpsProofs OpsProofs2 OpsProofs3.

(** ** A concrete book used for the examples *)
Definition xsort := isort is_less.
Lemma xsort_ok : sort_ok is_less xsort.
Proof. exact sort_exists. Qed.
Definition ex_calls : list bcall :=
  [ CTrans 20240105 (bs "Shop") (bs "n1");
    CPost (bs "Expense:Food") (bs "GBP") (qz 10) []; CPost (bs "Expense:Food") (bs "GBP") (qz 5) [];
    CPost (bs "Assets:Cash") (bs "GBP") (qz (-15)) [];
    CTrans 20240105 (bs "Shop") [];
    CPost (bs "Expense:Car") (bs "USD") (qz 100) (bs "x"); CPost (bs "Assets:Cash") (bs "USD") (qz (-100)) [];
    CPrice 20240101 (bs "USD") (bs "GBP") (qz 2);
    CTrans 20240310 (bs "Work") [];
    CPost (bs "Income") (bs "GBP") (qz (-50)) []; CPost (bs "Assets:Cash") (bs "GBP") (qz 50) [] ].
Definition ex_book : book := match build_calls xsort ex_calls with Ok b => b | _ => mkBook [] [] [] [] end.
Lemma ex_book_eq : build_calls xsort ex_calls = Ok ex_book.
Proof.
  destruct (build_calls_cases xsort xsort_ok ex_calls) as [(_ & bk & E & _)|[_ E]].
  - unfold ex_book. rewrite E. reflexivity.
  - exfalso. assert (H : match build_calls xsort ex_calls with Ok _ => true | _ => false end = true) by (vm_compute; reflexivity).
    rewrite E in H. discriminate.
Qed.
Lemma ex_reach : reachable xsort ex_book.
Proof. exact (reach_build _ _ _ ex_book_eq). Qed.
(** A view of postings that can be compared by computation. *)
Definition view (p : posting) := (p_date p, p_payee p, p_acct p, p_ccy p, Qnum (this (p_val p)), Qnum (this (p_bal p))).
Example ex_book_view : map (map view) (bk_trans ex_book) =
  [ [ (20240105, bs "Shop", bs "Assets:Cash", bs "GBP", -15, -15); (20240105, bs "Shop", bs "Expense:Food", bs "GBP", 15, 15) ];
    [ (20240105, bs "Shop (2)", bs "Assets:Cash", bs "USD", -100, -100); (20240105, bs "Shop (2)", bs "Expense:Car", bs "USD", 100, 100) ];
    [ (20240310, bs "Work", bs "Assets:Cash", bs "GBP", 50, 35); (20240310, bs "Work", bs "Income", bs "GBP", -50, -50) ] ].
Proof. vm_compute. reflexivity. Qed.

(** ** C01 *)
Theorem C01_balanced_iff_built : forall srt cs, sort_ok is_less srt ->
  (all_balanced cs <-> exists b, build_calls srt cs = Ok b) /\
  (~ all_balanced cs <-> build_calls srt cs = Panic) /\
  (forall b, build_calls srt cs = Ok b -> forall d pay c, total (in_trans d pay c) (bk_post b) = 0%Qc).
Proof.
  intros srt cs Hs. destruct (build_calls_cases srt Hs cs) as [(Hb & bk & E & (_ & _ & _ & Hbal) & _)|[Hb E]].
  - split; [split; [eauto|auto]|]. split; [split; [contradiction|rewrite E; discriminate]|].
    intros b Eb. rewrite E in Eb. injection Eb as <-. exact Hbal.
  - split; [split; [contradiction|intros (b & Eb); congruence]|]. split; [split; auto|]. intros b Eb. congruence.
Qed.
Print Assumptions C01_balanced_iff_built.
Example C01_nonvacuous : (exists b, build_calls xsort ex_calls = Ok b) /\ length (segments ex_calls) = 4%nat /\
  build_calls xsort [CTrans 20240105 (bs "Shop") []; CPost (bs "A") (bs "GBP") (qz 1) []; CPost (bs "B") (bs "USD") (qz (-1)) [];
                     CTrans 20240106 [] []] = Panic.
Proof. split; [exists ex_book; exact ex_book_eq|]. split; vm_compute; reflexivity. Qed.

(** ** C02 *)
Theorem C02_identities_unique :
  (forall cs b, bsteps new_builder cs = Ok b -> NoDup (identities new_builder cs)) /\
  (forall cs b d p n b', bsteps new_builder cs = Ok b -> new_transaction b d p n = Ok b' ->
     bu_date b' = d /\ fresh_identity (identities new_builder cs) d p (bu_payee b')) /\
  (forall cs, bsteps new_builder cs <> Diverge /\ bsteps new_builder cs <> Error) /\
  (forall cs b, bsteps new_builder cs = Ok b -> bu_post b = posted (-1, []) [] (identities new_builder cs) cs).
Proof.
  assert (H : forall cs b, bsteps new_builder cs = Ok b -> state_ok b (identities new_builder cs) (last (segments_from [] cs) []) /\
             bu_post b = posted (-1, []) [] (identities new_builder cs) cs).
  { intros cs b E. destruct (bsteps_cases cs new_builder [] [] new_builder_ok) as [(_ & b' & E' & Hok & Hp)|[_ E']]; rewrite E in E'; [|discriminate].
    injection E' as <-. auto. }
  split; [intros cs b E; apply (H cs b E)|]. split; [|split].
  - intros cs b d p n b' E E'. destruct (H cs b E) as [Hok _].
    destruct (new_transaction_cases b _ _ d p n Hok) as [(_ & b2 & E2 & Hd & _ & _ & _ & Hf & _)|[_ E2]]; rewrite E' in E2; [|discriminate].
    injection E2 as <-. auto.
  - intros cs. destruct (bsteps_cases cs new_builder [] [] new_builder_ok) as [(_ & b' & E' & _)|[_ E']]; rewrite E'; split; discriminate.
  - intros cs b E. apply (H cs b E).
Qed.
Print Assumptions C02_identities_unique.
Example C02_nonvacuous :
  identities new_builder [CTrans 20240105 (bs "A (2)") []; CTrans 20240105 (bs "A") []; CTrans 20240105 (bs "A") []; CTrans 20240105 (bs "A (2)") [];
                          CTrans 20240106 (bs "A") []]
  = [(20240105, bs "A (2)"); (20240105, bs "A"); (20240105, bs "A (3)"); (20240105, bs "A (2) (2)"); (20240106, bs "A")].
Proof. vm_compute. reflexivity. Qed.

(** ** C03 *)
Theorem C03_transactions_canonical : forall srt b, sort_ok is_less srt -> reachable srt b ->
  let '(b', ts) := transactions srt b in
  canonical (concat ts) /\ (forall g, total g (concat ts) = total g (bk_post b)).
Proof.
  intros srt b Hs Hr. apply (reachable_ok srt Hs) in Hr. unfold transactions.
  pose proof (compact_book_ok srt Hs b Hr) as (_ & Hc & _). rewrite Hc. split.
  - apply (compact_canonical srt Hs). apply Hr.
  - intros g. apply (compact_total srt Hs).
Qed.
Print Assumptions C03_transactions_canonical.
(** ... and for a book that was just built the amounts are those posted. *)
Theorem C03_built_book_conserves : forall srt cs b, sort_ok is_less srt -> build_calls srt cs = Ok b ->
  canonical (bk_post b) /\
  forall d pay a c, total (at_key d pay a c) (bk_post b) = total (at_key d pay a c) (posted (-1, []) [] (identities new_builder cs) cs).
Proof.
  intros srt cs b Hs E. destruct (build_calls_cases srt Hs cs) as [(_ & bk & E' & _ & Hc & _ & Ht & _)|[_ E']]; rewrite E in E'; [|discriminate].
  injection E' as <-. split; [exact Hc|]. intros. apply Ht.
Qed.
Print Assumptions C03_built_book_conserves.
(** The canonical form is unique: any other correct sort gives the same keys and amounts. *)
Theorem C03_independent_of_sort : forall srt srt' b, sort_ok is_less srt -> sort_ok is_less srt' -> reachable srt b ->
  map (fun p => (pkey p, p_val p)) (bk_post (compact srt b)) = map (fun p => (pkey p, p_val p)) (bk_post (compact srt' b)).
Proof.
  intros srt srt' b Hs Hs' Hr. apply (reachable_ok srt Hs) in Hr.
  apply canonical_unique.
  - apply (compact_canonical srt Hs). apply Hr.
  - apply (compact_canonical srt' Hs'). apply Hr.
  - intros. rewrite (compact_total srt Hs), (compact_total srt' Hs'). reflexivity.
Qed.
Print Assumptions C03_independent_of_sort.
Example C03_nonvacuous : reachable xsort ex_book /\ length (bk_post ex_book) = 6%nat /\
  length (posted (-1, []) [] (identities new_builder ex_calls) ex_calls) = 7%nat.
Proof. split; [exact ex_reach|]. split; vm_compute; reflexivity. Qed.

(** ** C04 *)
Theorem C04_transactions_partition : forall srt b, sort_ok is_less srt -> reachable srt b ->
  let '(b', ts) := transactions srt b in
  (forall t, In t ts -> t <> [] /\ forall p q, In p t -> In q t -> p_date p = p_date q /\ p_payee p = p_payee q) /\
  StronglySorted (fun t u => forall p q, In p t -> In q u -> dplt p q) ts /\
  concat ts = bk_post b'.
Proof.
  intros srt b Hs Hr. apply (reachable_ok srt Hs) in Hr. unfold transactions.
  pose proof (compact_book_ok srt Hs b Hr) as (_ & Hc & [G1 G2] & _). split; [|split; [exact G2|exact Hc]].
  intros t Ht. rewrite Forall_forall in G1. destruct (G1 t Ht) as [Hn Hu]. split; [exact Hn|]. intros p q Hp Hq.
  specialize (Hu p q Hp Hq). unfold dp in Hu. injection Hu. auto.
Qed.
Print Assumptions C04_transactions_partition.
Example C04_nonvacuous : length (snd (transactions xsort ex_book)) = 3%nat.
Proof. vm_compute. reflexivity. Qed.

(** ** C05 *)
Lemma running_nil : running [].
Proof. intros l1 p l2 E. destruct l1; discriminate. Qed.
Theorem C05_running_balance : forall srt b, sort_ok is_less srt -> reachable srt b ->
  running (concat (snd (transactions srt b))).
Proof.
  intros srt b Hs Hr. apply (reachable_ok srt Hs) in Hr. unfold transactions. cbn [snd].
  pose proof (compact_book_ok srt Hs b Hr) as (_ & Hc & _). rewrite Hc.
  destruct (bk_post b) as [|x l] eqn:E.
  - rewrite compact_nil by exact E. rewrite E. apply running_nil.
  - apply (compact_canonical srt Hs); [apply Hr|rewrite E; discriminate].
Qed.
Print Assumptions C05_running_balance.

(** ** C06 *)
Fixpoint ask (srt : list posting -> list posting) (n : nat) (b : book) : book * list trans :=
  match n with O => transactions srt b | S n' => ask srt n' (fst (transactions srt b)) end.
Theorem C06_asking_changes_nothing : forall srt b n, sort_ok is_less srt -> reachable srt b ->
  ask srt n b = transactions srt b.
Proof.
  intros srt b n Hs Hr. apply (reachable_ok srt Hs) in Hr. destruct Hr as (Hp & _). revert b Hp.
  induction n as [|n IH]; intros b Hp; [reflexivity|]. cbn [ask]. unfold transactions at 1. cbn [fst].
  assert (Hp' : Forall plain (bk_post (compact srt b))).
  { unfold compact. destruct (bk_post b) eqn:E; [rewrite E; exact Hp|]. rewrite <- E in *. apply (cposts_plain srt Hs). exact Hp. }
  rewrite IH by exact Hp'. unfold transactions. rewrite (compact_idem srt Hs) by exact Hp. reflexivity.
Qed.
Print Assumptions C06_asking_changes_nothing.

(** ** C07 *)
Definition trans_sum (c : str) (t : trans) : Qc := qsum (map p_val (filter (fun p => str_eqb (p_ccy p) c) t)).
Lemma trans_sum_total c t d pay : Forall (fun p => dp p = (d, pay)) t -> trans_sum c t = total (in_trans d pay c) t.
Proof.
  intros H. unfold trans_sum, total. f_equal. f_equal. apply filter_ext_in. intros p Hp. rewrite Forall_forall in H. specialize (H p Hp).
  unfold dp in H. injection H as H1 H2. unfold on, in_trans. rewrite H1, H2, Z.eqb_refl, str_eqb_refl. reflexivity.
Qed.
Theorem C07_operations_keep_balance : forall srt b, sort_ok is_less srt -> reachable srt b ->
  (forall t c, In t (bk_trans b) -> trans_sum c t = 0%Qc) /\
  (forall t c, In t (snd (transactions srt b)) -> trans_sum c t = 0%Qc).
Proof.
  intros srt b Hs Hr. apply (reachable_ok srt Hs) in Hr.
  assert (H : forall b, book_ok b -> forall t c, In t (bk_trans b) -> trans_sum c t = 0%Qc).
  { intros bk (_ & Hc & Hg & Hb) t c Ht. rewrite <- Hc in Hb. pose proof (balanced_each _ Hg Hb) as He. rewrite Forall_forall in He.
    destruct Hg as [G1 _]. rewrite Forall_forall in G1. destruct (G1 t Ht) as [Hn Hu]. destruct t as [|p t]; [congruence|].
    rewrite (trans_sum_total c _ (p_date p) (p_payee p)); [apply (He _ Ht)|]. rewrite Forall_forall. intros q Hq.
    apply (Hu q p Hq). left. reflexivity. }
  split; [apply H; exact Hr|]. unfold transactions. cbn [snd]. apply H. apply (compact_book_ok srt Hs). exact Hr.
Qed.
Print Assumptions C07_operations_keep_balance.
(** No operation other than AdjustBy fails on a reachable book (C13 for AdjustBy). *)
Theorem C07_operations_succeed : forall srt o b, sort_ok is_less srt -> reachable srt b ->
  (forall ob, other_book o = Some ob -> reachable srt ob) -> (forall by_, o <> OAdjustBy by_) ->
  exists b', run_op srt o b = Ok b'.
Proof.
  intros srt o b Hs Hr Hob Hn. apply (reachable_ok srt Hs) in Hr. destruct o; cbn [run_op]; eauto.
  - rewrite filter_transaction_eq by apply Hr. cbn zeta. eauto.
  - unfold filter_since. destruct (d =? 0); [eauto|]. rewrite filter_transaction_eq by apply Hr. cbn zeta. eauto.
  - unfold filter_asof. destruct (d =? 0); [eauto|]. rewrite filter_transaction_eq by apply Hr. cbn zeta. eauto.
  - unfold filter_account. rewrite filter_transaction_eq by apply Hr. cbn zeta. eauto.
  - exfalso. exact (Hn _ eq_refl).
  - rewrite (remove_duplicates_eq srt Hs main b); [cbn [obind snd]; eauto| |exact Hr].
    apply (reachable_ok srt Hs). apply Hob. reflexivity.
Qed.
Print Assumptions C07_operations_succeed.
Definition ex_ops : list op :=
  [ OAsof 20240301; OMapAmount (fun _ c => if str_eqb c (bs "USD") then (qz 2, bs "GBP") else (qz 1, c));
    OAdjustPost (fun a => str_eqb a (bs "Expense:Car")) (fun _ => bs "Expense") (qz 3);
    ODepreciate 0 (fun a => str_eqb a (bs "Expense:Food")) (fun _ => bs "Assets:Stock") (bs "monthly") 3;
    OSplitBy 0 (bs "quarterly"); ORemoveDup ex_book; OAdjustBy (bs "none"); OTransactions ].
Example C07_nonvacuous :
  match run_ops xsort ex_ops ex_book with
  | Ok b => map (map view) (bk_trans b)
  | _ => []
  end = [[ (20240101, [], bs "Assets:Cash", bs "GBP", -215, -215); (20240101, [], bs "Expense", bs "GBP", 600, 600);
           (20240101, [], bs "Expense:Car", bs "GBP", -400, -400); (20240101, [], bs "Expense:Food", bs "GBP", 15, 15) ]].
Proof. vm_compute. reflexivity. Qed.
(** The clock must not move during one operation: SplitBy("today") asks for today's date for every posting,
    so at midnight it tears a transaction apart. *)
Example C07_midnight :
  map (map view) (bk_trans (split_by xsort (fun i => if (i <? 3)%nat then 20240401 else 20240402) (bs "today") ex_book)) =
  [ [ (20240401, [], bs "Assets:Cash", bs "GBP", -15, -15); (20240401, [], bs "Assets:Cash", bs "USD", -100, -100); (20240401, [], bs "Expense:Food", bs "GBP", 15, 15) ];
    [ (20240402, [], bs "Assets:Cash", bs "GBP", 50, 35); (20240402, [], bs "Expense:Car", bs "USD", 100, 100); (20240402, [], bs "Income", bs "GBP", -50, -50) ] ].
Proof. vm_compute. reflexivity. Qed.

(** ** C08 *)
Theorem C08_map_account_moves_money : forall srt f b d pay a c, sort_ok is_less srt -> reachable srt b ->
  total (at_key d pay a c) (bk_post (map_account srt f b)) =
  total (fun d' pay' a' c' => (d' =? d) && str_eqb pay' pay && str_eqb (f a') a && str_eqb c' c) (bk_post b).
Proof. intros srt f b d pay a c Hs _. apply (map_account_total srt Hs f b (at_key d pay a c)). Qed.
Print Assumptions C08_map_account_moves_money.
Theorem C08_regex_accounts : forall srt m r has_repl alt b,
  exists f, regex_accounts srt m r has_repl alt b = map_account srt f b /\
    forall a, (alt <> [] /\ m a = false -> f a = alt) /\
              (alt = [] \/ m a = true -> has_repl = true -> f a = r a) /\
              (alt = [] \/ m a = true -> has_repl = false -> f a = a).
Proof.
  intros. exists (regex_account m r has_repl alt). split; [reflexivity|]. intros a. unfold regex_account.
  destruct (str_eqb_spec alt []) as [->|Hne]; cbn [negb andb].
  - split; [intros [H _]; congruence|]. split; intros _ ->; reflexivity.
  - split; [intros [_ ->]; reflexivity|]. split; intros [H| ->] ->; try congruence; reflexivity.
Qed.
Print Assumptions C08_regex_accounts.
Example C08_nonvacuous :
  map (map view) (bk_trans (map_account xsort (fun a => if str_eqb a (bs "Income") then bs "Assets:Cash" else bs "E") ex_book)) =
  [ [] ] \/ length (bk_post (map_account xsort (fun a => if str_eqb a (bs "Income") then bs "Assets:Cash" else bs "E") ex_book)) = 2%nat.
Proof. right. vm_compute. reflexivity. Qed.

(** ** C09 *)
Theorem C09_since_asof : forall srt b d, sort_ok is_less srt -> reachable srt b -> d <> 0 ->
  exists bs_ ba, filter_since d b = Ok bs_ /\ filter_asof d b = Ok ba /\
    bk_trans bs_ = filter (fun t => forallb (fun p => d <=? p_date p) t) (bk_trans b) /\
    bk_trans ba = filter (fun t => forallb (fun p => p_date p <? d) t) (bk_trans b) /\
    bk_trans b = bk_trans ba ++ bk_trans bs_ /\
    bk_post bs_ = concat (bk_trans bs_) /\ bk_post ba = concat (bk_trans ba).
Proof.
  intros srt b d Hs Hr Hd. apply (reachable_ok srt Hs) in Hr.
  eexists. eexists. split; [apply filter_since_eq; assumption|]. split; [apply filter_asof_eq; assumption|].
  cbn zeta. cbn [bk_trans bk_post]. split; [reflexivity|]. split; [reflexivity|]. split; [|split; reflexivity].
  symmetry. apply period_split. apply Hr.
Qed.
Print Assumptions C09_since_asof.
Theorem C09_zero_is_no_filter : forall b, filter_since 0 b = Ok b /\ filter_asof 0 b = Ok b.
Proof. split; reflexivity. Qed.
Print Assumptions C09_zero_is_no_filter.
Example C09_nonvacuous :
  match filter_since 20240310 ex_book, filter_asof 20240310 ex_book with
  | Ok x, Ok y => (length (bk_trans x), length (bk_trans y)) | _, _ => (0, 0)%nat end = (1, 2)%nat.
Proof. vm_compute. reflexivity. Qed.

(** ** C10 *)
Theorem C10_split_by_period : forall srt today by_ b, sort_ok is_less srt -> reachable srt b ->
  let b' := split_by srt (fun _ => today) by_ b in
  (forall d a c, total (at_key d [] a c) (bk_post b') =
     total (fun d' _ a' c' => (floor today d' by_ =? d) && str_eqb a' a && str_eqb c' c) (bk_post b)) /\
  (forall p, In p (bk_post b') -> p_payee p = [] /\ exists q, In q (bk_post b) /\ p_date p = floor today (p_date q) by_) /\
  StronglySorted (fun t u => forall p q, In p t -> In q u -> p_date p < p_date q) (bk_trans b') /\
  (forall t p q, In t (bk_trans b') -> In p t -> In q t -> p_date p = p_date q) /\
  concat (bk_trans b') = bk_post b'.
Proof.
  intros srt today by_ b Hs Hr b'. apply (reachable_ok srt Hs) in Hr.
  assert (Hok : book_ok b') by (apply (map_transaction_ok srt Hs (fun d _ => (floor today d by_, [])) b Hr)).
  assert (Hpay : forall p, In p (bk_post b') -> p_payee p = [] /\ exists q, In q (bk_post b) /\ p_date p = floor today (p_date q) by_).
  { intros p Hp. apply (map_transaction_origin srt Hs (fun d _ => (floor today d by_, [])) b p) in Hp as (q & Hq & E & _).
    injection E as E1 E2. split; [exact E2|]. eauto. }
  split; [|split; [exact Hpay|]].
  - intros d a c. unfold b', split_by. rewrite (map_transaction_total srt Hs (fun d _ => (floor today d by_, []))). apply total_ext. intros p _.
    unfold on, at_key. cbn [fst snd str_eqb]. rewrite andb_true_r. reflexivity.
  - destruct Hok as (_ & Hc & [G1 G2] & _). split; [|split; [|exact Hc]].
    + eapply StronglySorted_impl; [|exact G2]. intros t u Ht Hu H p q Hp Hq. specialize (H p q Hp Hq).
      assert (Ep : p_payee p = []) by (apply Hpay; rewrite <- Hc; apply in_concat; eauto).
      assert (Eq : p_payee q = []) by (apply Hpay; rewrite <- Hc; apply in_concat; eauto).
      unfold dplt, dpcmp, lex, dp in H. cbn [fst snd] in H. rewrite Ep, Eq in H. cbn [str_cmp] in H.
      destruct (Z.compare_spec (p_date p) (p_date q)); [discriminate|assumption|discriminate].
    + intros t p q Ht Hp Hq. rewrite Forall_forall in G1. destruct (G1 t Ht) as [_ Hu]. specialize (Hu p q Hp Hq). unfold dp in Hu. congruence.
Qed.
Print Assumptions C10_split_by_period.
(** With C27: the date of a real period is its first day. *)
Example C10_nonvacuous :
  map (map view) (bk_trans (split_by xsort (fun _ => 0) (bs "yearly") ex_book)) =
  [ [ (20240101, [], bs "Assets:Cash", bs "GBP", 35, 35); (20240101, [], bs "Assets:Cash", bs "USD", -100, -100);
      (20240101, [], bs "Expense:Car", bs "USD", 100, 100); (20240101, [], bs "Expense:Food", bs "GBP", 15, 15); (20240101, [], bs "Income", bs "GBP", -50, -50) ] ].
Proof. vm_compute. reflexivity. Qed.

(** ** C11 *)
Theorem C11_move_portion : forall srt m r (k : Qc) b d pay a c, sort_ok is_less srt -> reachable srt b ->
  total (at_key d pay a c) (bk_post (adjust_post srt m r k b)) =
  (total (at_key d pay a c) (bk_post b)
   - k * total (fun d' pay' a' c' => m a' && at_key d pay a c d' pay' a' c') (bk_post b)
   + k * total (fun d' pay' a' c' => m a' && at_key d pay a c d' pay' (r a') c') (bk_post b))%Qc.
Proof. intros. apply adjust_post_total. assumption. Qed.
Print Assumptions C11_move_portion.
Example C11_nonvacuous :
  map view (bk_post (adjust_post xsort (fun a => str_eqb a (bs "Assets:Cash")) (fun _ => bs "Bank") (1 / qz 5)%Qc ex_book)) =
  [ (20240105, bs "Shop", bs "Assets:Cash", bs "GBP", -12, -12); (20240105, bs "Shop", bs "Bank", bs "GBP", -3, -3); (20240105, bs "Shop", bs "Expense:Food", bs "GBP", 15, 15);
    (20240105, bs "Shop (2)", bs "Assets:Cash", bs "USD", -80, -80); (20240105, bs "Shop (2)", bs "Bank", bs "USD", -20, -20); (20240105, bs "Shop (2)", bs "Expense:Car", bs "USD", 100, 100);
    (20240310, bs "Work", bs "Assets:Cash", bs "GBP", 40, 28); (20240310, bs "Work", bs "Bank", bs "GBP", 10, 7); (20240310, bs "Work", bs "Income", bs "GBP", -50, -50) ].
Proof. vm_compute. reflexivity. Qed.

(** ** C12 *)
Theorem C12_depreciation_schedule : forall srt today m r per n b due, sort_ok is_less srt -> reachable srt b -> (0 < n)%nat ->
  Forall (fun p => valid_date (p_date p)) (bk_post b) ->
  (forall p, In p (bk_post b) -> due p 0%nat = p_date p /\
     forall y mo d k, valid_ymd y mo d -> p_date p = ymd y mo d -> due p (S k) = period_start per (period_index per y mo + Z.of_nat (S k))) ->
  let b' := depreciate srt today m r (period_name per) (Z.of_nat n) b in
  (forall a c, total (in_acct a c) (bk_post b') = total (in_acct a c) (bk_post b)) /\
  (forall g, total g (bk_post b') = (total g (bk_post b) +
     qsum (map (fun p => moved g p (moves (due p) n p (r (p_acct p)))) (filter (fun p => m (p_acct p)) (bk_post b))))%Qc).
Proof.
  intros srt today m r per n b due Hs Hr Hn Hv Hdue b'. split; [intros a c; apply depreciate_all_time; assumption|].
  intros g. unfold b'. rewrite (depreciate_total srt Hs). f_equal. f_equal. apply map_ext_in. intros p Hp. apply filter_In in Hp as [Hp _].
  unfold moves. f_equal. f_equal. f_equal.
  rewrite !flat_map_concat_map. f_equal. apply map_ext. intros k.
  assert (E : due_of today (period_name per) (p_date p) k = due p k).
  { destruct (Hdue p Hp) as [H0 HS]. rewrite Forall_forall in Hv. destruct (Hv p Hp) as (y & mo & d & V & E).
    destruct k as [|k]; [symmetry; exact H0|]. rewrite (HS y mo d k V E), E. apply due_period. exact V. }
  rewrite E. reflexivity.
Qed.
Print Assumptions C12_depreciation_schedule.
Theorem C12_no_periods_stays_in_asset : forall srt today m r per n b g, sort_ok is_less srt -> reachable srt b -> n <= 0 ->
  total g (bk_post (depreciate srt today m r per n b)) =
  (total g (bk_post b) - total (fun d p a c => m a && g d p a c) (bk_post b) + total (fun d p a c => m a && g d p (r a) c) (bk_post b))%Qc.
Proof. intros. rewrite depreciate_nonpos by assumption. rewrite (adjust_post_total srt) by assumption. ring. Qed.
Print Assumptions C12_no_periods_stays_in_asset.
Example C12_nonvacuous :
  map view (bk_post (depreciate xsort 0 (fun a => str_eqb a (bs "Expense:Food")) (fun _ => bs "Stock") (bs "quarterly") 3 ex_book)) =
  [ (20240105, bs "Shop", bs "Assets:Cash", bs "GBP", -15, -15); (20240105, bs "Shop", bs "Expense:Food", bs "GBP", 5, 5); (20240105, bs "Shop", bs "Stock", bs "GBP", 10, 10);
    (20240105, bs "Shop (2)", bs "Assets:Cash", bs "USD", -100, -100); (20240105, bs "Shop (2)", bs "Expense:Car", bs "USD", 100, 100);
    (20240310, bs "Work", bs "Assets:Cash", bs "GBP", 50, 35); (20240310, bs "Work", bs "Income", bs "GBP", -50, -50);
    (20240401, bs "Shop", bs "Expense:Food", bs "GBP", 5, 10); (20240401, bs "Shop", bs "Stock", bs "GBP", -5, 5);
    (20240701, bs "Shop", bs "Expense:Food", bs "GBP", 5, 15); (20240701, bs "Shop", bs "Stock", bs "GBP", -5, 0) ].
Proof. vm_compute. reflexivity. Qed.

(** ** C13 *)
Definition scale_for (by_ : str) (days : Z) (k : Qc) : Prop :=
  (by_ = bs "monthly" /\ k = (qz 365 / qz (12 * days))%Qc) \/ (by_ = bs "quarterly" /\ k = (qz 365 / qz (4 * days))%Qc) \/
  (by_ = bs "yearly" /\ k = (qz 365 / qz days)%Qc) \/ (by_ = bs "daily" /\ k = (1 / qz days)%Qc).
Lemma new_rat_Ok a b k : new_rat a b = Ok k <-> b <> 0 /\ k = (qz a / qz b)%Qc.
Proof.
  unfold new_rat. destruct (Z.eqb_spec b 0).
  - split; [discriminate|intros [H _]; contradiction].
  - split; [intros E; injection E as <-; auto|intros [_ ->]; reflexivity].
Qed.
Lemma adjust_factor_spec by_ days k : adjust_factor by_ days = Ok k <-> days <> 0 /\ scale_for by_ days k.
Proof.
  unfold adjust_factor, scale_for.
  destruct (str_eqb_spec by_ (bs "monthly")) as [->|N1]; [|destruct (str_eqb_spec by_ (bs "daily")) as [->|N2]; [|destruct (str_eqb_spec by_ (bs "quarterly")) as [->|N3]; [|destruct (str_eqb_spec by_ (bs "yearly")) as [->|N4]]]];
    rewrite ?new_rat_Ok, ?qz_1.
  - rewrite (Z.mul_comm days 12). split; [intros [H1 H2]; split; [lia|auto]|]. intros [H [[_ H2]|[[E _]|[[E _]|[E _]]]]]; try discriminate. split; [lia|exact H2].
  - split; [intros [H1 H2]; split; [lia|auto]|]. intros [H [[E _]|[[E _]|[[E _]|[_ H2]]]]]; try discriminate. split; [lia|exact H2].
  - rewrite (Z.mul_comm days 4). split; [intros [H1 H2]; split; [lia|auto]|]. intros [H [[E _]|[[_ H2]|[[E _]|[E _]]]]]; try discriminate. split; [lia|exact H2].
  - split; [intros [H1 H2]; split; [lia|auto]|]. intros [H [[E _]|[[E _]|[[_ H2]|[E _]]]]]; try discriminate. split; [lia|exact H2].
  - split; [discriminate|]. intros [_ [[E _]|[[E _]|[[E _]|[E _]]]]]; congruence.
Qed.
Theorem C13_time_adjustment_partial : forall srt b, sort_ok is_less srt -> reachable srt b ->
  adjust_by srt (bs "none") b = Ok b /\
  (forall by_ b' first last days, by_ <> bs "none" -> adjust_by srt by_ b = Ok b' ->
     first_last (bk_post b) first last -> days_since last first = Ok days ->
     exists k, scale_for by_ days k /\ forall g, total g (bk_post b') = (total g (bk_post b) * k)%Qc) /\
  (forall by_ first last, (by_ = bs "monthly" \/ by_ = bs "quarterly" \/ by_ = bs "yearly" \/ by_ = bs "daily") ->
     first_last (bk_post b) first last -> valid_date first -> valid_date last -> first <> last ->
     exists b', adjust_by srt by_ b = Ok b').
Proof.
  intros srt b Hs Hr. split; [reflexivity|]. split.
  - intros by_ b' first last days Hn E Hfl Hd. destruct (adjust_by_total srt Hs by_ b b' E Hn) as (dd & k & E1 & E2 & E3).
    assert (Hne : bk_post b <> []) by (destruct Hfl as ((p & Hp & _) & _); intros E0; rewrite E0 in Hp; exact Hp).
    destruct (first_last_unique _ _ _ _ _ Hfl (min_max_first_last _ Hne)) as [F1 F2]. rewrite <- F1, <- F2, Hd in E1. injection E1 as <-.
    exists k. split; [apply adjust_factor_spec in E2; apply E2|exact E3].
  - intros by_ first last Hby Hfl Vf Vl Hne.
    assert (Hnil : bk_post b <> []) by (destruct Hfl as ((p & Hp & _) & _); intros E0; rewrite E0 in Hp; exact Hp).
    destruct (first_last_unique _ _ _ _ _ Hfl (min_max_first_last _ Hnil)) as [E1 E2].
    unfold adjust_by. destruct (str_eqb_spec by_ (bs "none")) as [->|_]; [destruct Hby as [H|[H|[H|H]]]; discriminate|].
    destruct (min_max_date (bk_post b)) as [mn mx]. cbn [fst snd] in *. subst mn mx.
    destruct (add_days_since first last Vf Vl) as (days & Ed & Ea). rewrite Ed. cbn [obind].
    assert (Hd : days <> 0).
    { intros ->. apply Hne. assert (Es : add_days first 0 = Ok first); [|congruence].
      destruct (as_days_ok first Vf) as (a & Ha & Hpos). destruct (add_days_since first first Vf Vf) as (z & Ez & Eaz).
      assert (z = 0). { unfold days_since in Ez. rewrite Ha in Ez. cbn [obind] in Ez. injection Ez as <-. lia. }
      subst z. exact Eaz. }
    assert (exists k, adjust_factor by_ days = Ok k) as (k & ->); [|cbn [obind]; eauto].
    assert (exists k, scale_for by_ days k) as (k & Hk).
    { unfold scale_for. destruct Hby as [H|[H|[H|H]]]; eauto 8. }
    exists k. apply adjust_factor_spec. auto.
Qed.
Print Assumptions C13_time_adjustment_partial.
(** "It never fails" is false: all postings on one day (or no posting at all) divide by zero. *)
Theorem C13_adjust_never_fails_refuted : exists b, reachable xsort b /\ Forall (fun p => valid_date (p_date p)) (bk_post b) /\
  adjust_by xsort (bs "monthly") b = Panic.
Proof.
  set (cs := [CTrans 20240105 (bs "S") []; CPost (bs "A") (bs "GBP") (qz 1) []; CPost (bs "B") (bs "GBP") (qz (-1)) []]).
  destruct (build_calls_cases xsort xsort_ok cs) as [(_ & bk & E & _ & _ & _ & _)|[_ E]].
  2:{ exfalso. assert (H : match build_calls xsort cs with Ok _ => true | _ => false end = true) by (vm_compute; reflexivity). rewrite E in H. discriminate. }
  exists bk. split; [exact (reach_build _ _ _ E)|].
  assert (H : match build_calls xsort cs with Ok b => map p_date (bk_post b) = [20240105; 20240105] /\ adjust_by xsort (bs "monthly") b = Panic | _ => False end)
    by (vm_compute; split; reflexivity).
  rewrite E in H. destruct H as [H1 H2]. split; [|exact H2]. rewrite <- (Forall_map p_date), H1.
  assert (V : valid_date 20240105) by (exists 2024, 1, 5; split; [cbv; intuition congruence|reflexivity]). repeat constructor; exact V.
Qed.
Print Assumptions C13_adjust_never_fails_refuted.
(** It always fails when all postings fall on one day, or there are none, whatever the period. *)
Theorem C13_one_day_fails srt b by_ d : by_ <> bs "none" -> valid_date d -> (forall p, In p (bk_post b) -> p_date p = d) -> adjust_by srt by_ b = Panic.
Proof.
  intros Hn Hv Hd. unfold adjust_by. destruct (str_eqb_spec by_ (bs "none")) as [E|_]; [contradiction|].
  assert (Hz : exists z, min_max_date (bk_post b) = (z, z) /\ days_since z z = Ok 0) .
  { destruct (bk_post b) as [|p l] eqn:El; [exists 0; split; vm_compute; reflexivity|]. exists d. split.
    - assert (Hne : p :: l <> []) by discriminate. destruct (min_max_first_last (p :: l) Hne) as ((q1 & Q1 & E1) & (q2 & Q2 & E2) & _).
      rewrite (Hd q1 Q1) in E1. rewrite (Hd q2 Q2) in E2. destruct (min_max_date (p :: l)). cbn [fst snd] in *. congruence.
    - destruct (as_days_ok d Hv) as (a & Ha & _). unfold days_since. rewrite Ha. cbn [obind]. f_equal. lia. }
  destruct Hz as (z & -> & Hz). rewrite Hz. cbn [obind]. unfold adjust_factor.
  destruct (str_eqb by_ (bs "monthly")); [reflexivity|]. destruct (str_eqb by_ (bs "daily")); [reflexivity|]. destruct (str_eqb by_ (bs "quarterly")); [reflexivity|].
  destruct (str_eqb by_ (bs "yearly")); reflexivity.
Qed.
Print Assumptions C13_one_day_fails.
Example C13_nonvacuous : days_since 20240310 20240105 = Ok 65 /\
  match adjust_by xsort (bs "daily") ex_book with Ok b => map (fun p => this (p_val p)) (bk_post b) | _ => [] end
  = [ -3 # 13; 3 # 13; -20 # 13; 20 # 13; 10 # 13; -10 # 13 ]%Q.
Proof. split; vm_compute; reflexivity. Qed.

(** ** C14 *)
Definition remapped (f : Z -> str -> Qc * str) (p p' : posting) : Prop :=
  p_date p' = p_date p /\ p_payee p' = p_payee p /\ p_acct p' = p_acct p /\ p_note p' = p_note p /\ p_tnote p' = p_tnote p /\
  p_ccy p' = snd (f (p_date p) (p_ccy p)) /\ p_val p' = (p_val p * fst (f (p_date p) (p_ccy p)))%Qc.
Theorem C14_amount_map : forall srt f b, sort_ok is_less srt -> reachable srt b ->
  Forall2 (remapped f) (bk_post b) (bk_post (map_amount f b)) /\
  Forall2 (Forall2 (remapped f)) (bk_trans b) (bk_trans (map_amount f b)) /\
  (forall d pay a c, total (at_key d pay a c) (concat (snd (transactions srt (map_amount f b)))) =
     wtotal (fun d' pay' a' c' => if (d' =? d) && str_eqb pay' pay && str_eqb a' a && str_eqb (snd (f d' c')) c then fst (f d' c') else 0%Qc) (bk_post b)).
Proof.
  intros srt f b Hs Hr. apply (reachable_ok srt Hs) in Hr.
  assert (H : forall l, Forall2 (remapped f) l (map (amount_of f) l)).
  { induction l as [|p l IH]; cbn [map]; constructor; [|exact IH]. unfold remapped, amount_of. destruct (f _ _). repeat split; reflexivity. }
  split; [apply H|]. split.
  - cbn [map_amount bk_trans]. induction (bk_trans b) as [|t ts IH]; cbn [map]; constructor; [apply H|exact IH].
  - intros d pay a c. unfold transactions. cbn [snd].
    pose proof (compact_book_ok srt Hs _ (map_amount_ok f b Hr)) as (_ & Hc & _).
    rewrite Hc, (compact_total srt Hs), map_amount_total. reflexivity.
Qed.
Print Assumptions C14_amount_map.
Example C14_nonvacuous : map view (bk_post (map_amount (fun _ c => if str_eqb c (bs "USD") then (qz 2, bs "GBP") else (qz 1, c)) ex_book)) <> map view (bk_post ex_book).
Proof. vm_compute. discriminate. Qed.

(** ** C15 *)
Theorem C15_dedup_exact : forall srt main b, sort_ok is_less srt -> reachable srt main -> reachable srt b ->
  exists keep b', remove_duplicates_of srt main b = Ok (fst (transactions srt main), b') /\
    bk_trans b' = filter keep (bk_trans b) /\ bk_post b' = concat (bk_trans b') /\
    forall t, In t (bk_trans b) ->
      (keep t = true <-> forall p q u, In p t -> In u (snd (transactions srt main)) -> In q u -> (p_date p, p_payee p) <> (p_date q, p_payee q)).
Proof.
  intros srt main b Hs Hm Hb. apply (reachable_ok srt Hs) in Hm. apply (reachable_ok srt Hs) in Hb.
  eexists. eexists. split; [apply remove_duplicates_eq; assumption|]. cbn [bk_trans bk_post]. split; [reflexivity|]. split; [reflexivity|].
  intros t Ht. unfold transactions. cbn [snd]. pose proof (compact_book_ok srt Hs _ Hm) as (_ & _ & Gm & _).
  destruct Hb as (_ & _ & [G1 _] & _). rewrite Forall_forall in G1. destruct (G1 t Ht) as [Hn Hu].
  destruct t as [|x t]; [congruence|]. unfold known. rewrite negb_true_iff. split.
  - intros E p q u Hp Hu2 Hq Eq. apply not_true_iff_false in E. apply E. apply existsb_exists. exists (dp x). split; [|apply dpeqb_eq; reflexivity].
    apply tkeys_In; [exact Gm|]. exists u, q. split; [exact Hu2|]. split; [exact Hq|]. rewrite <- (Hu p x Hp (or_introl eq_refl)). symmetry. exact Eq.
  - intros H. apply not_true_iff_false. intros E. apply existsb_exists in E as (k & Hk & E). apply dpeqb_eq in E. subst k.
    apply tkeys_In in Hk; [|exact Gm]. destruct Hk as (u & q & Hu2 & Hq & E). apply (H x q u (or_introl eq_refl) Hu2 Hq). symmetry. exact E.
Qed.
Print Assumptions C15_dedup_exact.
Example C15_nonvacuous :
  match build_calls xsort [CTrans 20240105 (bs "Shop") []; CPost (bs "A") (bs "X") (qz 1) []; CPost (bs "B") (bs "X") (qz (-1)) [];
                           CTrans 20240106 (bs "Shop") []; CPost (bs "A") (bs "X") (qz 1) []; CPost (bs "B") (bs "X") (qz (-1)) []] with
  | Ok nb => match remove_duplicates_of xsort ex_book nb with Ok (_, r) => map (map view) (bk_trans r) | _ => [] end
  | _ => [] end = [[(20240106, bs "Shop", bs "A", bs "X", 1, 2); (20240106, bs "Shop", bs "B", bs "X", -1, -2)]].
Proof. vm_compute. reflexivity. Qed.

(** ** C16 *)
Theorem C16_reclassify : forall srt ord1 ord2 dist ref b refacct, sort_ok is_less srt ->
  (forall x l, Permutation l (ord1 x l)) -> (forall i l, Permutation l (ord2 i l)) -> reachable srt ref -> reachable srt b ->
  let '(ref', b') := reclassify srt ord1 ord2 dist ref b refacct in
  ref' = fst (transactions srt ref) /\
  Forall2 (reclassified dist refacct (snd (transactions srt ref))) (snd (transactions srt b)) (bk_trans b') /\
  bk_post b' = concat (bk_trans b') /\ bk_prices b' = bk_prices b /\ bk_ccy b' = bk_ccy b.
Proof.
  intros srt ord1 ord2 dist ref b refacct Hs H1 H2 Hr Hb. apply (reachable_ok srt Hs) in Hr. apply (reachable_ok srt Hs) in Hb.
  pose proof (reclassify_spec ord1 ord2 H1 H2 dist srt Hs ref b refacct Hr Hb) as H. cbn zeta in H.
  destruct (reclassify srt ord1 ord2 dist ref b refacct) as [ref' b'] eqn:E. cbn [snd] in H. split; [|exact H].
  unfold reclassify, transactions in E. injection E as <- _. reflexivity.
Qed.
Print Assumptions C16_reclassify.

(** ** C17. The most common counter-account is not what is chosen ("k = max" instead of "max = k"). *)
Definition ex_ref_calls : list bcall :=
  flat_map (fun '(d, a) => [CTrans d (bs "Shop") []; CPost (bs "Cash") (bs "GBP") (qz (-1)) []; CPost a (bs "GBP") (qz 1) []])
    [(20240101, bs "Food"); (20240102, bs "Food"); (20240103, bs "Food"); (20240104, bs "Misc")].
Definition ex_new_calls : list bcall :=
  [CTrans 20240201 (bs "Shop") []; CPost (bs "Cash") (bs "GBP") (qz (-1)) []; CPost (bs "Unknown") (bs "GBP") (qz 1) []].
Definition built (cs : list bcall) : book := match build_calls xsort cs with Ok b => b | _ => mkBook [] [] [] [] end.
Lemma built_eq cs : match build_calls xsort cs with Ok _ => true | _ => false end = true -> build_calls xsort cs = Ok (built cs).
Proof. unfold built. destruct (build_calls xsort cs); try discriminate. reflexivity. Qed.
Lemma built_reach cs : match build_calls xsort cs with Ok _ => true | _ => false end = true -> reachable xsort (built cs).
Proof. intros H. exact (reach_build _ _ _ (built_eq cs H)). Qed.
Definition same_dist (a b : str) : Qc := if str_eqb a b then 1%Qc else 0%Qc.
Theorem C17_most_common_refuted :
  exists ref b ord1 ord2 t', reachable xsort ref /\ reachable xsort b /\
    (forall x l, Permutation l (ord1 x l)) /\ (forall i l, Permutation l (ord2 i l)) /\
    bk_trans (snd (reclassify xsort ord1 ord2 same_dist ref b (bs "Cash"))) = [t'] /\
    map p_acct t' = [bs "Cash"; bs "Misc"] /\
    (times (bs "Cash") (snd (transactions xsort ref)) (bs "Shop") (bs "Misc") < times (bs "Cash") (snd (transactions xsort ref)) (bs "Shop") (bs "Food"))%nat.
Proof.
  exists (built ex_ref_calls), (built ex_new_calls), (fun _ l => l), (fun _ l => l), (hd [] (bk_trans (snd (reclassify xsort (fun _ l => l) (fun _ l => l) same_dist (built ex_ref_calls) (built ex_new_calls) (bs "Cash"))))).
  split; [apply built_reach; vm_compute; reflexivity|]. split; [apply built_reach; vm_compute; reflexivity|].
  split; [reflexivity|]. split; [reflexivity|]. split; [vm_compute; reflexivity|]. split; [vm_compute; reflexivity|].
  vm_compute. lia.
Qed.
Print Assumptions C17_most_common_refuted.
(** What holds: a payee always booked against the same account is reclassified to that account. *)
Theorem C17_unanimous_partial : forall srt ord1 ord2 dist ref b refacct, sort_ok is_less srt ->
  (forall x l, Permutation l (ord1 x l)) -> (forall i l, Permutation l (ord2 i l)) -> reachable srt ref -> reachable srt b ->
  forall n t t' c0 pay x c,
    nth_error (snd (transactions srt b)) n = Some t ->
    nth_error (bk_trans (snd (reclassify srt ord1 ord2 dist ref b refacct))) n = Some t' ->
    counter refacct t c0 -> has_payee t pay ->
    seen refacct (snd (transactions srt ref)) x c -> (0 < dist pay x)%Qc ->
    (forall x' c', seen refacct (snd (transactions srt ref)) x' c' -> x' <> x -> (dist pay x' < dist pay x)%Qc) ->
    (forall c', seen refacct (snd (transactions srt ref)) x c' -> c' = c) ->
    recounted refacct c t t'.
Proof.
  intros srt ord1 ord2 dist ref b refacct Hs H1 H2 Hr Hb n t t' c0 pay x c Hn Hn' Hc Hp Hseen Hpos Hbest Huniq.
  pose proof (C16_reclassify srt ord1 ord2 dist ref b refacct Hs H1 H2 Hr Hb) as H.
  destruct (reclassify srt ord1 ord2 dist ref b refacct) as [ref' b']. cbn [snd] in Hn'. destruct H as (_ & H & _).
  assert (HR : reclassified dist refacct (snd (transactions srt ref)) t t').
  { revert n Hn Hn'. induction H as [|u u' us us' Hu _ IH]; intros [|n] Hn Hn'; cbn in Hn, Hn'; try discriminate.
    - injection Hn as <-. injection Hn' as <-. exact Hu.
    - eapply IH; eassumption. }
  assert (Hpp : forall y, has_payee t y -> y = pay).
  { intros y [_ Hy]. destruct Hp as [Hne Hp]. destruct t as [|p0 t]; [congruence|]. apply Forall_inv in Hy. apply Forall_inv in Hp. congruence. }
  destruct HR as [[_ [Hno|(pay' & Hp' & Hall)]]|(pay' & x' & c' & Hp' & Hs' & Hpos' & Hmax & Hrec)].
  - exfalso. exact (Hno _ Hc).
  - exfalso. rewrite (Hpp _ Hp') in Hall. exact (Qclt_not_le _ _ Hpos (Hall _ _ Hseen)).
  - rewrite (Hpp _ Hp') in *. destruct (str_eq_dec x' x) as [->|Hne].
    + rewrite (Huniq _ Hs') in Hrec. exact Hrec.
    + exfalso. exact (Qclt_not_le _ _ (Hbest _ _ Hs' Hne) (Hmax _ _ Hseen)).
Qed.
Print Assumptions C17_unanimous_partial.
Example C16_nonvacuous :
  seen (bs "Cash") (snd (transactions xsort (built ex_ref_calls))) (bs "Shop") (bs "Food") /\
  map (map view) (bk_trans (snd (reclassify xsort (fun _ l => rev l) (fun _ l => l) same_dist (built ex_ref_calls) (built ex_new_calls) (bs "Cash")))) =
  [ [(20240201, bs "Shop", bs "Cash", bs "GBP", -1, -1); (20240201, bs "Shop", bs "Food", bs "GBP", 1, 1)] ].
Proof.
  split; [|vm_compute; reflexivity].
  assert (Hl : forall (l : list trans), l <> [] -> In (hd [] l) l) by (intros [|t l] H; [congruence|left; reflexivity]).
  exists (hd [] (snd (transactions xsort (built ex_ref_calls)))).
  split; [apply Hl; vm_compute; discriminate|]. split; [apply counter_of_spec; vm_compute; reflexivity|].
  rewrite Forall_forall. intros p Hp.
  assert (E : forallb (fun p => str_eqb (p_payee p) (bs "Shop")) (hd [] (snd (transactions xsort (built ex_ref_calls)))) = true) by (vm_compute; reflexivity).
  rewrite forallb_forall in E. apply str_eqb_eq. apply E. exact Hp.
Qed.

(** ** C18 *)
Theorem C18_account_listing_partial : forall srt m b, sort_ok is_less srt -> reachable srt b ->
  (StronglySorted (fun a a' => str_cmp a a' = Lt) (accounts m false b) /\
   forall a, In a (accounts m false b) <-> m a = true /\ exists p, In p (bk_post b) /\ p_acct p = a) /\
  (let b' := fst (transactions srt b) in
   (forall p q, In p (bk_post b') -> In q (bk_post b') -> p_acct p = p_acct q -> p_ccy p = p_ccy q) ->
   StronglySorted (fun a a' => str_cmp a a' = Lt) (accounts m true b') /\
   forall a, In a (accounts m true b') <-> m a = true /\ exists c, total (in_acct a c) (bk_post b') <> 0%Qc).
Proof.
  intros srt m b Hs Hr. split; [split; [apply accounts_strict|apply accounts_all]|].
  cbn zeta. intros Hc. split; [apply accounts_strict|]. apply accounts_balance; [|exact Hc].
  pose proof (C05_running_balance srt b Hs Hr) as H. apply (reachable_ok srt Hs) in Hr. pose proof (compact_book_ok srt Hs b Hr) as (_ & E & _).
  unfold transactions in *. cbn [fst snd] in *. rewrite E in H. exact H.
Qed.
Print Assumptions C18_account_listing_partial.
Lemma built_compact cs b : build_calls xsort cs = Ok b -> fst (transactions xsort b) = b.
Proof.
  intros E. destruct (build_calls_cases xsort xsort_ok cs) as [(_ & bk & E' & Hok & Hcan & Hrun & _)|[_ E']]; rewrite E in E'; [|discriminate].
  injection E' as <-. unfold transactions. cbn [fst]. clear E.
  destruct b as [post ts pr cc]. destruct post as [|x l]; [reflexivity|].
  rewrite compact_eq by discriminate. cbn [bk_post bk_trans bk_prices bk_ccy] in *.
  destruct Hok as (Hp & Hc & Hg & _). cbn [bk_post bk_trans] in *.
  assert (Ec : cposts xsort (x :: l) = x :: l).
  { unfold cposts. rewrite (srt_canonical_id xsort xsort_ok) by (try apply Hcan; exact Hp). rewrite merge_all_id by apply Hcan. rewrite drop_zero_id by apply Hcan.
    apply running_fixed. exact Hrun. }
  rewrite Ec. f_equal. rewrite <- Hc. apply well_grouped_group_all. exact Hg.
Qed.
(** With several currencies in one account only the last posting counts. *)
Theorem C18_only_with_balance_refuted : exists b a c, reachable xsort b /\ fst (transactions xsort b) = b /\
  total (in_acct a c) (bk_post b) <> 0%Qc /\ ~ In a (accounts (fun _ => true) true b).
Proof.
  set (cs := [CTrans 20240101 (bs "s") []; CPost (bs "Cash") (bs "GBP") (qz 7) []; CPost (bs "Eq") (bs "GBP") (qz (-7)) [];
              CTrans 20240102 (bs "s") []; CPost (bs "Cash") (bs "USD") (qz 7) []; CPost (bs "Eq") (bs "USD") (qz (-7)) [];
              CTrans 20240103 (bs "s") []; CPost (bs "Cash") (bs "USD") (qz (-7)) []; CPost (bs "Eq") (bs "USD") (qz 7) []]).
  exists (built cs), (bs "Cash"), (bs "GBP"). split; [apply built_reach; vm_compute; reflexivity|].
  split; [|split; [intros E; assert (H : qc_eqb (total (in_acct (bs "Cash") (bs "GBP")) (bk_post (built cs))) 0%Qc = false) by (vm_compute; reflexivity);
    apply (proj2 (qc_eqb_eq _ _)) in E; congruence|]].
  - apply (built_compact cs). apply built_eq. vm_compute. reflexivity.
  - vm_compute. intros H. repeat destruct H as [H|H]; try discriminate; contradiction.
Qed.
Print Assumptions C18_only_with_balance_refuted.
Example C18_nonvacuous : accounts (fun a => match a with 65 :: _ => false | _ => true end) false ex_book = [bs "Expense:Car"; bs "Expense:Food"; bs "Income"].
Proof. vm_compute. reflexivity. Qed.

(** ** C50 *)
Theorem C50_decimals_partial : forall srt cs b, sort_ok is_less srt -> build_calls srt cs = Ok b ->
  forall c, let amounts := map p_val (filter (fun p => str_eqb (p_ccy p) c) (posted (-1, []) [] (identities new_builder cs) cs)) in
  match aget str_eqb c (bk_ccy b) with
  | None => amounts = []
  | Some k => 0 <= k /\ (forall q, In q amounts -> denom q <= 10 ^ k) /\
      (forall j, 0 <= j < k -> exists q, In q amounts /\ 10 ^ j < denom q) /\
      (forall q, In q amounts -> (exact_in k q <-> (denom q | 10 ^ k))) /\
      (* enough, when some amount uses all the digits *)
      (forall j, 0 <= j -> (forall q, In q amounts -> exact_in j q) -> (exists q, In q amounts /\ denom q = 10 ^ j) ->
         k = j /\ forall q, In q amounts -> exact_in k q)
  end.
Proof.
  intros srt cs b Hs E c. destruct (build_calls_cases srt Hs cs) as [(_ & bk & E' & _ & _ & _ & _ & bb & _ & _ & Eccy & Epost)|[_ E']]; rewrite E in E'; [|discriminate].
  injection E' as <-. cbn zeta. rewrite Eccy, (aget_map_snd decimals_of), Epost.
  pose proof (max_denoms_spec (posted (-1, []) [] (identities new_builder cs) cs) [] c) as H.
  set (ps := posted _ _ _ _) in *. destruct (aget str_eqb c (max_denoms [] ps)) as [e|]; cbn [option_map].
  - destruct H as ([H|(p & Hp & Hc & Hd)] & Hmax & _); [discriminate|].
    assert (He : 1 <= e) by (rewrite <- Hd; apply denom_pos). destruct (decimals_of_spec e He) as (D1 & D2 & D3).
    set (k := decimals_of e) in *. set (am := map p_val _).
    assert (Hin : forall q, In q am <-> exists p, In p ps /\ p_ccy p = c /\ p_val p = q).
    { intros q. unfold am. rewrite in_map_iff. split.
      - intros (r & Er & Hr). apply filter_In in Hr as [Hr Hcc]. apply str_eqb_eq in Hcc. exists r. auto.
      - intros (r & Hr & Hcc & Er). exists r. split; [exact Er|]. apply filter_In. split; [exact Hr|]. apply str_eqb_eq. exact Hcc. }
    assert (Hle : forall q, In q am -> denom q <= e).
    { intros q Hq. apply Hin in Hq as (r & Hr & Hcc & <-). apply Hmax; assumption. }
    assert (Hem : In (p_val p) am) by (apply Hin; exists p; auto).
    split; [exact D1|]. split; [intros q Hq; specialize (Hle q Hq); lia|]. split; [intros j Hj; exists (p_val p); split; [exact Hem|rewrite Hd; apply D3; exact Hj]|].
    split; [intros q _; apply exact_in_iff; exact D1|].
    intros j Hj Hall (q & Hq & Hdq).
    assert (Hkj : k = j).
    { specialize (Hle q Hq). assert (H10 : 10 ^ j <= 10 ^ k) by lia. apply Z.pow_le_mono_r_iff in H10; try lia.
      destruct (Z.eq_dec k j) as [Ek|Hne]; [exact Ek|exfalso].
      specialize (D3 j ltac:(lia)). specialize (Hall _ Hem). apply exact_in_iff in Hall; [|exact Hj]. rewrite Hd in Hall.
      apply Z.divide_pos_le in Hall; [lia|]. apply Z.pow_pos_nonneg; lia. }
    split; [exact Hkj|]. rewrite Hkj. exact Hall.
  - destruct H as [_ H]. rewrite (filter_none _ ps); [reflexivity|]. rewrite Forall_forall. intros p Hp. apply str_eqb_neq. apply H. exact Hp.
Qed.
Print Assumptions C50_decimals_partial.
(** 0.125 = 1/8 is given one decimal; 0.25 too. *)
Definition ex_eighth : list bcall := [CTrans 20240101 [] []; CPost (bs "A") (bs "GBP") (1 / qz 8)%Qc []; CPost (bs "B") (bs "GBP") (- (1 / qz 8))%Qc []].
Theorem C50_decimals_enough_refuted : exists k, build_calls xsort ex_eighth = Ok (built ex_eighth) /\
  aget str_eqb (bs "GBP") (bk_ccy (built ex_eighth)) = Some k /\ exact_in 3 (1 / qz 8)%Qc /\ ~ exact_in k (1 / qz 8)%Qc.
Proof.
  exists 1. split; [apply built_eq; vm_compute; reflexivity|]. split; [vm_compute; reflexivity|].
  split; rewrite exact_in_iff by lia; change (denom (1 / qz 8)%Qc) with 8.
  - exists 125. reflexivity.
  - intros [z Hz]. lia.
Qed.
Print Assumptions C50_decimals_enough_refuted.

(** ** C62 *)
Theorem C62_terms_refuted : exists p, In p (bk_post ex_book) /\ p_term p <> p_acct p.
Proof. exists (hd (mkP 0 [] [] [] [] 0%Qc [] 0%Qc 0 [] []) (bk_post ex_book)). split; [vm_compute; auto|vm_compute; discriminate]. Qed.
Print Assumptions C62_terms_refuted.
(** After an account map every term is the account. *)
Theorem C62_terms_after_map_partial : forall srt f b p, sort_ok is_less srt -> reachable srt b ->
  In p (bk_post (map_account srt f b)) -> p_term p = p_acct p /\ p_level p = 0.
Proof.
  intros srt f b p Hs Hr. unfold map_account. rewrite map_acct_loop_eq by discriminate.
  destruct (bk_post b) as [|x l] eqn:E.
  - rewrite compact_nil by reflexivity. contradiction.
  - rewrite compact_eq by discriminate. cbn [with_post bk_post]. intros Hin. apply (cposts_origin srt Hs) in Hin as (q & Hq & Hk & Hm).
    apply in_map_iff in Hq as (r & <- & _). apply pkey_eq in Hk as (_ & _ & Ha & _). unfold meta in Hm. injection Hm as _ _ Ht Hl _.
    cbn [set_acct p_acct p_term p_level] in *. split; congruence.
Qed.
Print Assumptions C62_terms_after_map_partial.

(** ** C68 *)
Theorem C68_reverse_filter_partial : forall srt f b, sort_ok is_less srt -> reachable srt b ->
  exists b', filter_reverse f b = Ok b' /\
    let kept := filter (fun t => match t with [] => false | p :: _ => f (p_date p) (p_payee p) t end) (bk_trans b) in
    bk_post b' = concat (rev kept) /\
    (kept <> [] -> let '(_, ts) := transactions srt b' in
       canonical (concat ts) /\ well_grouped ts /\ forall g, total g (concat ts) = total g (concat kept)).
Proof.
  intros srt f b Hs Hr. apply (reachable_ok srt Hs) in Hr. unfold filter_reverse.
  destruct (existsb _ _) eqn:E; [exfalso; destruct Hr as (_ & _ & Hg & _); pose proof (grouped_nonempty _ Hg) as E2; unfold trans in *; congruence|].
  eexists. split; [reflexivity|]. cbn zeta. cbn [with_post bk_post].
  set (keepf := fun t : trans => match t with [] => false | p :: _ => f (p_date p) (p_payee p) t end).
  assert (Erev : filter keepf (rev (bk_trans b)) = rev (filter keepf (bk_trans b))).
  { clear. induction (bk_trans b) as [|t ts IH]; [reflexivity|]. cbn [rev filter]. rewrite filter_app, IH. cbn [filter]. destruct (keepf t); cbn [rev]; [reflexivity|apply app_nil_r]. }
  split; [f_equal; exact Erev|]. intros Hne. unfold transactions.
  set (kept := filter keepf (bk_trans b)) in *.
  assert (Hperm : Permutation (concat (rev kept)) (concat kept)).
  { clear. induction kept as [|t k IH]; [reflexivity|]. cbn [rev concat]. rewrite concat_app. cbn [concat]. rewrite app_nil_r, Permutation_app_comm. apply Permutation_app_head. exact IH. }
  assert (Hconcat : concat kept <> []).
  { assert (Hk : forall t, In t kept -> t <> []) by (intros t Ht; apply filter_In in Ht as [_ Ht]; destruct t; [discriminate|congruence]).
    assert (Hne' : kept <> []) by exact Hne. clearbody kept. destruct kept as [|t k]; [congruence|].
    destruct t; [|discriminate]. exfalso. apply (Hk []); [left; reflexivity|reflexivity]. }
  assert (Hpost : concat (rev kept) <> []) by (intros E0; rewrite E0 in Hperm; apply Permutation_nil in Hperm; congruence).
  assert (Hplain : Forall plain (concat (rev kept))).
  { destruct Hr as (Hp & Hc & _). rewrite Forall_forall in *. intros p Hin. apply Hp. rewrite <- Hc.
    eapply Permutation_in in Hin; [|exact Hperm]. apply in_concat in Hin as (t & Ht & Hin). apply filter_In in Ht as [Ht _]. apply in_concat. eauto. }
  match goal with |- context [compact srt ?bb] => assert (Eb : bk_post bb = concat (rev kept)) by (cbn [with_post bk_post]; f_equal; exact Erev) end.
  rewrite compact_eq by (rewrite Eb; exact Hpost). rewrite Eb. cbn [with_post bk_post bk_trans]. rewrite group_all_concat.
  split; [apply (cposts_canonical srt Hs); exact Hplain|]. split; [apply (cposts_grouped srt Hs); exact Hplain|].
  intros g. rewrite (cposts_total srt Hs). apply total_perm. exact Hperm.
Qed.
Print Assumptions C68_reverse_filter_partial.
(** When nothing is selected all transactions are still there. *)
Theorem C68_reverse_filter_refuted : exists b b', reachable xsort b /\ filter_reverse (fun _ _ _ => false) b = Ok b' /\
  snd (transactions xsort b') = bk_trans b /\ bk_trans b <> [].
Proof.
  exists ex_book, (with_post ex_book []). split; [exact ex_reach|]. split; [vm_compute; reflexivity|]. split; [vm_compute; reflexivity|vm_compute; discriminate].
Qed.
Print Assumptions C68_reverse_filter_refuted.

(** ** C74: selecting transactions keeps whole transactions, in order, and only those asked for *)
Theorem C74_filter_account : forall srt b a, sort_ok is_less srt -> reachable srt b ->
  exists b', filter_account a b = Ok b' /\
    (exists keep : trans -> bool, bk_trans b' = filter keep (bk_trans b) /\
       forall t, In t (bk_trans b) -> (keep t = true <-> exists p, In p t /\ p_acct p = a)) /\
    bk_post b' = concat (bk_trans b') /\ bk_prices b' = bk_prices b /\ bk_ccy b' = bk_ccy b.
Proof.
  intros srt b a Hs Hr. apply (reachable_ok srt Hs) in Hr. unfold filter_account. rewrite filter_transaction_eq by apply Hr. cbn zeta.
  eexists. split; [reflexivity|]. cbn [bk_trans bk_post bk_prices bk_ccy]. split; [|now repeat split].
  eexists. split; [reflexivity|]. intros t Ht. destruct t as [|p t]; [split; [discriminate|intros (q & [] & _)]|].
  rewrite existsb_exists. split; intros (q & Hq & E); exists q; (split; [exact Hq|]); [now apply str_eqb_eq in E|now apply str_eqb_eq].
Qed.
Print Assumptions C74_filter_account.
Theorem C74_filter_transaction : forall srt b f, sort_ok is_less srt -> reachable srt b ->
  exists b', filter_transaction f b = Ok b' /\
    (exists keep : trans -> bool, bk_trans b' = filter keep (bk_trans b) /\
       forall t p, In t (bk_trans b) -> In p t -> keep t = f (p_date p) (p_payee p) t) /\
    bk_post b' = concat (bk_trans b') /\ bk_prices b' = bk_prices b /\ bk_ccy b' = bk_ccy b.
Proof.
  intros srt b f Hs Hr.
  apply (reachable_ok srt Hs) in Hr. rewrite filter_transaction_eq by apply Hr. cbn zeta.
  eexists. split; [reflexivity|]. cbn [bk_trans bk_post bk_prices bk_ccy]. split; [|now repeat split].
  eexists. split; [reflexivity|]. intros t p Ht Hp. destruct t as [|q t]; [destruct Hp|].
  assert (p_date q = p_date p /\ p_payee q = p_payee p) as [-> ->]; [|reflexivity].
  destruct Hr as (_ & _ & [Hg _] & _). rewrite Forall_forall in Hg. destruct (Hg _ Ht) as [_ Hg'].
  pose proof (Hg' q p (or_introl eq_refl) Hp) as E. unfold dp in E. injection E as A B. now split.
Qed.
Print Assumptions C74_filter_transaction.
Example C74_nonvacuous : match filter_account (bs "Income") ex_book with Ok b => map (map view) (bk_trans b) | _ => [] end =
  [ [ (20240310, bs "Work", bs "Assets:Cash", bs "GBP", 50, 35); (20240310, bs "Work", bs "Income", bs "GBP", -50, -50) ] ].
Proof. vm_compute. reflexivity. Qed.
