(** * ViewProps: C94, what a script sees of the book. *)
From Verif Require Import Base Dec DateModel PriceModel BookModel BookSpec BookProofs BuilderProofs OpsModel OpsProofs OpsProofs2 BookProps BookOpModel BookOpProps ConvertModel F64Model F64Spec F64Proofs ViewModel ViewSpec.

Fixpoint each {A B} (f : A -> outcome B) (l : list A) : outcome (list B) :=
  match l with [] => Ok [] | x :: l' => do y <- f x; do r <- each f l'; Ok (y :: r) end.
Lemma for_each {A B} (body : A -> outcome B) : forall fuel l i, (length l < fuel + i)%nat -> (i <= length l)%nat -> for_loop fuel l i body = each body (skipn i l).
Proof.
  induction fuel as [|fuel IH]; intros l i H1 H2; [lia|]. cbn [for_loop]. unfold next. destruct (Nat.eqb_spec i (length l)) as [->|N]; cbn [obind].
  - rewrite skipn_all. reflexivity.
  - destruct (nth_error l i) as [x|] eqn:E; [|apply nth_error_None in E; lia]. cbn [obind].
    assert (Es : skipn i l = x :: skipn (S i) l). { clear -E. revert i E. induction l as [|y l IH]; intros [|i] E; cbn in *; try discriminate; [congruence|]. apply IH. exact E. }
    rewrite Es. cbn [each]. destruct (body x); cbn [obind]; [|reflexivity..]. rewrite IH by lia. reflexivity.
Qed.
Lemma each_Ok {A B} (f : A -> B) l : each (fun x => Ok (f x)) l = Ok (map f l).
Proof. induction l as [|x l IH]; [reflexivity|]. cbn [each map obind]. rewrite IH. reflexivity. Qed.
Lemma each_ext {A B} (f g : A -> outcome B) l : (forall x, In x l -> f x = g x) -> each f l = each g l.
Proof. induction l as [|x l IH]; intros H; [reflexivity|]. cbn [each]. rewrite (H x (or_introl eq_refl)), IH; [reflexivity|]. intros y Hy. apply H. right. exact Hy. Qed.
Lemma concat_len {A} (l : list A) ls : In l ls -> (length l <= length (concat ls))%nat.
Proof. induction ls as [|x ls IH]; [intros []|]. cbn [concat]. rewrite app_length. intros [->|H]; [lia|]. specialize (IH H). lia. Qed.
Lemma ne_len {A} (ls : list (list A)) : Forall (fun l => l <> []) ls -> (length ls <= length (concat ls))%nat.
Proof. induction 1 as [|x ls H Hs IH]; [reflexivity|]. cbn [concat length]. rewrite app_length. destruct x; [contradiction|]. cbn [length]. lia. Qed.

Lemma look_sees t p : exists row, look_at t p = Ok row /\ sees p row.
Proof.
  eexists. split; [reflexivity|]. exists (to_f64 (p_val p)), (to_f64 (p_bal p)). split; [apply to_f64_nearest|]. split; [apply to_f64_nearest|]. reflexivity.
Qed.
Section Walk.
  Variable srt : list posting -> list posting.
  Hypothesis Hs : sort_ok is_less srt.
  Lemma walk_rows fuel b : book_ok b -> (length (bk_post (compact srt b)) < fuel)%nat ->
    exists rows, walk srt fuel b look_at = Ok (compact srt b, rows) /\ Forall2 (Forall2 sees) (bk_trans (compact srt b)) rows.
  Proof.
    intros Hb Hf. pose proof (compact_book_ok srt Hs b Hb) as (_ & Hc & [Hg _] & _). unfold walk, transactions. set (ts := bk_trans (compact srt b)) in *.
    assert (Hn : Forall (fun t : trans => t <> []) ts) by (eapply Forall_impl; [|exact Hg]; intros t H; apply H). pose proof (ne_len ts Hn) as Hl. rewrite Hc in Hl.
    rewrite for_each; [|rewrite Nat.add_0_r; eapply Nat.le_lt_trans; [exact Hl|assumption]|apply Nat.le_0_l]. cbn [skipn]. rewrite (each_ext _ (fun t => Ok (map (fun p => map (post_attr p) post_names) t))).
    - rewrite each_Ok. cbn [obind]. eexists. split; [reflexivity|]. clear. induction ts as [|t ts IH]; cbn [map]; constructor; [|exact IH]. induction t as [|p t IHt]; cbn [map]; constructor; [|exact IHt]. destruct (look_sees [] p) as (row & [= <-] & H). exact H.
    - intros t Ht. pose proof (concat_len t ts Ht) as Hlt. rewrite Hc in Hlt. rewrite for_each; [|rewrite Nat.add_0_r; eapply Nat.le_lt_trans; [exact Hlt|assumption]|apply Nat.le_0_l]. cbn [skipn]. apply each_Ok.
  Qed.
End Walk.

(** ** C94. The loop over data.transactions and over the postings of each transaction ends, without an error, and meets every posting of
    the book exactly once, grouped into its transactions, in the order of date, payee, account and currency; the attributes are the
    values of the posting (amounts as the nearest float64); the balance is the sum of the account's postings so far; no amount is lost. *)
Theorem C94_whole_book : forall srt b, sort_ok is_less srt -> reachable srt b ->
  exists n ts rows, (forall fuel, (n < fuel)%nat -> walk srt fuel b look_at = Ok (fst (transactions srt b), rows)) /\
    Forall2 (Forall2 sees) ts rows /\ well_grouped ts /\ canonical (concat ts) /\ running (concat ts) /\
    (forall g, total g (concat ts) = total g (bk_post b)) /\
    (forall t, In t ts -> exists p, In p t /\ map (fun n => trans_attr t n) trans_names = [Ok (Some (SStr (date_string (p_date p)))); Ok (Some (SStr (p_payee p))); Ok (Some (SStr (p_tnote p)))]).
Proof.
  intros srt b Hs Hr. pose proof (reachable_ok srt Hs b Hr) as Hb. pose proof (compact_book_ok srt Hs b Hb) as (_ & Hc & Hg & _).
  destruct (walk_rows srt Hs (S (length (bk_post (compact srt b)))) b Hb ltac:(lia)) as (rows & E & HF).
  exists (length (bk_post (compact srt b))), (bk_trans (compact srt b)), rows. split.
  { intros fuel Hf. destruct (walk_rows srt Hs fuel b Hb Hf) as (rows' & E' & _). rewrite E'. f_equal. f_equal. revert E E'. unfold walk, transactions. clear -Hs Hb Hf.
    pose proof (compact_book_ok srt Hs b Hb) as (_ & Hc & [Hg _] & _). set (ts := bk_trans (compact srt b)) in *.
    assert (Hn : Forall (fun t : trans => t <> []) ts) by (eapply Forall_impl; [|exact Hg]; intros t H; apply H). pose proof (ne_len ts Hn) as Hl. rewrite Hc in Hl.
    assert (X : forall f, (length (bk_post (compact srt b)) < f)%nat -> for_loop f ts 0 (fun t => for_loop f t 0 (look_at t)) = Ok (map (map (fun p => map (post_attr p) post_names)) ts)).
    { intros f Hf'. rewrite for_each; [|rewrite Nat.add_0_r; eapply Nat.le_lt_trans; [exact Hl|assumption]|apply Nat.le_0_l]. cbn [skipn]. rewrite (each_ext _ (fun t => Ok (map (fun p => map (post_attr p) post_names) t))); [apply each_Ok|].
      intros t Ht. pose proof (concat_len t ts Ht) as Hlt. rewrite Hc in Hlt. rewrite for_each; [|rewrite Nat.add_0_r; eapply Nat.le_lt_trans; [exact Hlt|assumption]|apply Nat.le_0_l]. cbn [skipn]. apply each_Ok. }
    rewrite (X _ (Nat.lt_succ_diag_r _)), (X fuel Hf). cbn [obind]. congruence. }
  split; [exact HF|]. split; [exact Hg|]. pose proof (C05_running_balance srt b Hs Hr) as Hrun. unfold transactions in Hrun. cbn [snd] in Hrun. rewrite Hc in *. split; [apply (compact_canonical srt Hs); apply Hb|]. split; [exact Hrun|].
  split; [intros g; apply (compact_total srt Hs)|]. intros t Ht. destruct Hg as [Hg _]. rewrite Forall_forall in Hg. destruct (Hg t Ht) as [Hn _]. destruct t as [|p t]; [contradiction|]. exists p. split; [left; reflexivity|]. reflexivity.
Qed.
Print Assumptions C94_whole_book.

(** ** The period *)
Lemma concat_dated f ts : well_grouped ts -> concat (filter (dated f) ts) = filter (fun p => f (p_date p)) (concat ts).
Proof.
  intros [Hg _]. induction ts as [|t ts IH]; [reflexivity|]. inversion Hg as [|? ? [Hn Hu] Hr]; subst. cbn [filter concat]. rewrite filter_app. specialize (IH Hr).
  assert (X : if dated f t then filter (fun p => f (p_date p)) t = t else filter (fun p => f (p_date p)) t = []).
  { destruct t as [|q t]; [contradiction|]. assert (Hd : forall p, In p (q :: t) -> p_date p = p_date q). { intros p Hp. specialize (Hu p q Hp (or_introl eq_refl)). unfold dp in Hu. congruence. }
    assert (Hall : forall l, (forall p, In p l -> p_date p = p_date q) -> (if f (p_date q) then filter (fun p => f (p_date p)) l = l else filter (fun p => f (p_date p)) l = [])).
    { clear. intros l H. induction l as [|x l IH]; [destruct (f (p_date q)); reflexivity|]. cbn [filter]. rewrite (H x (or_introl eq_refl)). specialize (IH (fun p Hp => H p (or_intror Hp))). destruct (f (p_date q)); [rewrite IH; reflexivity|exact IH]. }
    specialize (Hall (q :: t) Hd). destruct (f (p_date q)) eqn:Ef; unfold dated.
    - rewrite (proj2 (forallb_forall _ _)); [exact Hall|]. intros p Hp. rewrite (Hd p Hp). exact Ef.
    - cbn [forallb]. rewrite Ef. exact Hall. }
  destruct (dated f t); cbn [concat]; rewrite X, IH; reflexivity.
Qed.
Lemma filter_canonical g l : canonical l -> canonical (filter g l).
Proof.
  intros [H1 H2]. split.
  - clear H2. induction H1 as [|x l H IH Hx]; [constructor|]. cbn [filter]. destruct (g x); [|exact IH]. constructor; [exact IH|]. rewrite Forall_forall in *. intros y Hy. apply filter_In in Hy as [Hy _]. apply Hx. exact Hy.
  - rewrite Forall_forall in *. intros y Hy. apply filter_In in Hy as [Hy _]. apply H2. exact Hy.
Qed.
Section Period.
  Variable srt : list posting -> list posting.
  Hypothesis Hs : sort_ok is_less srt.
  Variable compile : str -> option regexp.
  Variable today : Z.
  Lemma dated_step b c : book_ok b -> date_call c -> ~ bad_date today c -> exists b', data_step srt compile today b c = Ok (b', false) /\ book_ok b' /\ bk_post b' = filter (fun p => lets today c (p_date p)) (bk_post b).
  Proof.
    intros Hb Hd Hn. destruct c as [s|s|f t a]; [| |destruct Hd]; cbn [bad_date] in Hn; unfold data_step; rewrite (proj2 (Z.eqb_neq _ _) Hn).
    - destruct (run_op srt (OSince (date_from_string today s)) b) as [b'| | |] eqn:E; pose proof E as E'; cbn [run_op] in E; rewrite (filter_since_eq _ b Hb Hn) in E; try discriminate. cbn [obind]. exists b'. split; [reflexivity|].
      split; [apply (run_op_ok srt Hs (OSince (date_from_string today s)) b b' Hb); [intros ob C; discriminate C|exact E']|]. injection E as <-. cbn [bk_post]. destruct Hb as (_ & Hc & Hg & _). rewrite (concat_dated _ _ Hg), Hc. reflexivity.
    - destruct (run_op srt (OAsof (date_from_string today s)) b) as [b'| | |] eqn:E; pose proof E as E'; cbn [run_op] in E; rewrite (filter_asof_eq _ b Hb Hn) in E; try discriminate. cbn [obind]. exists b'. split; [reflexivity|].
      split; [apply (run_op_ok srt Hs (OAsof (date_from_string today s)) b b' Hb); [intros ob C; discriminate C|exact E']|]. injection E as <-. cbn [bk_post]. destruct Hb as (_ & Hc & Hg & _). rewrite (concat_dated _ _ Hg), Hc. reflexivity.
  Qed.
  Lemma dated_steps cs : forall b, book_ok b -> Forall date_call cs -> Forall (fun c => ~ bad_date today c) cs ->
    exists b', data_steps srt compile today b cs = Ok (b', false) /\ book_ok b' /\ bk_post b' = filter (fun p => forallb (fun c => lets today c (p_date p)) cs) (bk_post b).
  Proof.
    induction cs as [|c cs IH]; intros b Hb Hd Hn.
    - exists b. split; [reflexivity|]. split; [exact Hb|]. cbn [forallb]. clear. induction (bk_post b) as [|p l IHl]; [reflexivity|]. cbn [filter]. f_equal. exact IHl.
    - inversion Hd; inversion Hn; subst. destruct (dated_step b c Hb) as (b1 & E1 & Hb1 & P1); [assumption..|]. destruct (IH b1 Hb1) as (b2 & E2 & Hb2 & P2); [assumption..|].
      exists b2. cbn [data_steps]. rewrite E1. cbn [obind]. split; [exact E2|]. split; [exact Hb2|]. rewrite P2, P1. clear. induction (bk_post b) as [|p l IHl]; [reflexivity|]. cbn [filter forallb]. destruct (lets today c (p_date p)); cbn [filter andb]; [|exact IHl]. destruct (forallb _ cs); [f_equal|]; exact IHl.
  Qed.
  Lemma bad_steps cs : forall b, book_ok b -> Forall date_call cs -> Exists (bad_date today) cs -> exists b', data_steps srt compile today b cs = Ok (b', true).
  Proof.
    induction cs as [|c cs IH]; intros b Hb Hd He; [inversion He|]. inversion Hd; subst. cbn [data_steps].
    assert (D : bad_date today c \/ ~ bad_date today c) by (destruct c; cbn [bad_date]; try (destruct (Z.eq_dec (date_from_string today date) 0); tauto); tauto). destruct D as [D|D].
    - exists b. destruct c as [s|s|f t a]; [| |destruct D]; cbn [bad_date] in D; unfold data_step; rewrite D; reflexivity.
    - destruct (dated_step b c Hb) as (b1 & E1 & Hb1 & _); [assumption..|]. rewrite E1. cbn [obind]. apply IH; [exact Hb1|assumption|]. inversion He; [contradiction|assumption].
  Qed.
  Lemma compact_canonical_keeps b : book_ok b -> canonical (bk_post b) -> map all_but_balance (bk_post (compact srt b)) = map all_but_balance (bk_post b).
  Proof.
    intros (Hp & _) [Hc Hz]. destruct (bk_post b) as [|x l] eqn:E; [rewrite compact_nil by exact E; rewrite E; reflexivity|]. rewrite compact_eq by (rewrite E; discriminate). cbn [bk_post]. rewrite E. unfold cposts.
    rewrite (srt_canonical_id srt Hs) by assumption. rewrite merge_all_id, drop_zero_id by assumption. apply run_bal_map. reflexivity.
  Qed.
End Period.
(** After data.since(...) and data.asof(...) the script sees exactly the postings of the period (from a date, up to but without a date),
    each once, and its balances count from the start of the period. A date that cannot be read ends the script with an error. *)
Theorem C94_period : forall srt compile today calls cs b, sort_ok is_less srt -> build_calls srt calls = Ok b -> Forall date_call cs ->
  (Exists (bad_date today) cs -> exists b', data_steps srt compile today b cs = Ok (b', true)) /\
  (Forall (fun c => ~ bad_date today c) cs ->
   exists b' n ts rows, data_steps srt compile today b cs = Ok (b', false) /\
     (forall fuel, (n < fuel)%nat -> walk srt fuel b' look_at = Ok (fst (transactions srt b'), rows)) /\
     Forall2 (Forall2 sees) ts rows /\ well_grouped ts /\ running (concat ts) /\
     map all_but_balance (concat ts) = map all_but_balance (filter (fun p => forallb (fun c => lets today c (p_date p)) cs) (bk_post b))).
Proof.
  intros srt compile today calls cs b Hs Eb Hd. destruct (build_calls_cases srt Hs calls) as [(_ & bk & E' & Hok & Hcan & _)|[_ E']]; rewrite Eb in E'; [|discriminate]. injection E' as <-. split; [apply bad_steps; assumption|]. intros Hn.
  destruct (dated_steps srt Hs compile today cs b Hok Hd Hn) as (b' & E & Hb' & P).
  assert (R : reachable srt b').
  { assert (R0 : reachable srt b) by (eapply reach_build; exact Eb). clear -R0 E Hd. revert b R0 E. induction cs as [|c cs IH]; intros b R0 E; [injection E as <-; exact R0|]. inversion Hd; subst. cbn [data_steps] in E. apply obind_Ok in E as ((b1, f) & E1 & E2). destruct f; [discriminate E2|]. apply (IH H2 b1); [|exact E2].
    destruct c as [s|s|f t a]; [| |contradiction]; unfold data_step in E1; destruct (date_from_string today s =? 0); try discriminate E1; apply obind_Ok in E1 as (b2 & E1 & [= <-]); (eapply reach_op; [exact R0| |exact E1]; intros ob C; discriminate C). }
  destruct (C94_whole_book srt b' Hs R) as (n & ts0 & rows & W & _). pose proof (W (S n) (Nat.lt_succ_diag_r n)) as W1.
  destruct (walk_rows srt Hs (S (n + length (bk_post (compact srt b')))) b' Hb' ltac:(lia)) as (rows' & W2 & HF). rewrite (W (S (n + _))) in W2 by lia. injection W2 as <-.
  exists b', n, (bk_trans (compact srt b')), rows. split; [exact E|]. split; [exact W|]. split; [exact HF|]. pose proof (compact_book_ok srt Hs b' Hb') as (_ & Hc & Hg & _). split; [exact Hg|].
  split; [exact (C05_running_balance srt b' Hs R)|]. rewrite Hc, <- P. apply compact_canonical_keeps; [exact Hs|exact Hb'|]. rewrite P. apply filter_canonical. exact Hcan.
Qed.
Print Assumptions C94_period.

Example C94_nonvacuous : exists rows,
  walk xsort 10 ex_book look_at = Ok (ex_book, rows) /\ map (@length _) rows = [2; 2; 2]%nat /\
  (exists b', data_steps xsort (fun _ => None) 20240401 ex_book [DSince (bs "2024-01-06"); DAsof (bs "2024-03-11")] = Ok (b', false) /\ length (bk_post b') = 2%nat /\ map (fun p => (p_date p, p_acct p)) (bk_post b') = [(20240310, bs "Assets:Cash"); (20240310, bs "Income")]) /\
  bad_date 20240401 (DSince (bs "tomorrow?")) /\ nth 3 (nth 1 (nth 0 rows []) []) None = Some (SStr (bs "Expense:Food")).
Proof.
  eexists. split; [vm_compute; reflexivity|]. split; [vm_compute; reflexivity|]. split; [|split; vm_compute; reflexivity].
  eexists. split; [vm_compute; reflexivity|]. split; vm_compute; reflexivity.
Qed.
