(** * OpsProofs: every operation keeps the book well formed and balanced; what each does to the totals. *)
From Verif Require Import Base Dec DateModel PriceModel BookModel BookSpec BookProofs BuilderProofs OpsModel.

(** ** Weighted sums over a balanced list vanish *)
Definition wsum (w : Z -> str -> str -> Qc) (l : list posting) : Qc :=
  qsum (map (fun p => (w (p_date p) (p_payee p) (p_ccy p) * p_val p)%Qc) l).
Lemma wsum_cons w p l : wsum w (p :: l) = (w (p_date p) (p_payee p) (p_ccy p) * p_val p + wsum w l)%Qc.
Proof. reflexivity. Qed.
Lemma wsum_app w a b : wsum w (a ++ b) = (wsum w a + wsum w b)%Qc.
Proof. unfold wsum. rewrite map_app, qsum_app. reflexivity. Qed.
Lemma wsum_split w f l : wsum w l = (wsum w (filter f l) + wsum w (filter (fun p => negb (f p)) l))%Qc.
Proof.
  induction l as [|p l IH]; [cbn; ring|]. rewrite wsum_cons. cbn [filter]. destruct (f p); cbn [negb]; rewrite wsum_cons, IH; ring.
Qed.
Lemma total_filter_split g f l : total g l = (total g (filter f l) + total g (filter (fun p => negb (f p)) l))%Qc.
Proof.
  induction l as [|p l IH]; [cbn; ring|]. rewrite total_cons. cbn [filter]. destruct (f p); cbn [negb]; rewrite total_cons, IH; ring.
Qed.
Lemma on_in_trans d pay c p : on (in_trans d pay c) p = true <-> p_date p = d /\ p_payee p = pay /\ p_ccy p = c.
Proof. unfold on, in_trans. rewrite !andb_true_iff, Z.eqb_eq, !str_eqb_eq. tauto. Qed.
Lemma wsum_same w d pay c l : Forall (fun p => on (in_trans d pay c) p = true) l ->
  wsum w l = (w d pay c * total (in_trans d pay c) l)%Qc.
Proof.
  induction 1 as [|p l Hp Hl IH]; [change (wsum w []) with 0%Qc; rewrite total_nil; ring|].
  rewrite wsum_cons, total_cons, IH, Hp. apply on_in_trans in Hp as (-> & -> & ->). ring.
Qed.
Lemma wsum_balanced w : forall n l, (length l <= n)%nat -> balanced l -> wsum w l = 0%Qc.
Proof.
  induction n as [|n IH]; intros l Hn Hb.
  - destruct l; [reflexivity|cbn in Hn; lia].
  - destruct l as [|p l]; [reflexivity|].
    set (g := in_trans (p_date p) (p_payee p) (p_ccy p)).
    rewrite (wsum_split w (on g)).
    rewrite (wsum_same w (p_date p) (p_payee p) (p_ccy p)).
    2:{ rewrite Forall_forall. intros q Hq. apply filter_In in Hq as [_ Hq]. exact Hq. }
    rewrite (IH (filter (fun q => negb (on g q)) (p :: l))).
    + replace (total (in_trans (p_date p) (p_payee p) (p_ccy p)) (filter (on g) (p :: l))) with 0%Qc; [ring|].
      pose proof (Hb (p_date p) (p_payee p) (p_ccy p)) as H. fold g in H |- *.
      rewrite (total_filter_split g (on g)) in H.
      rewrite (total_none g (filter (fun q => negb (on g q)) _)) in H.
      * rewrite <- H. ring.
      * intros q Hq. apply filter_In in Hq as [_ Hq]. apply negb_true_iff in Hq. exact Hq.
    + cbn [filter]. assert (E : on g p = true) by (apply on_in_trans; auto). rewrite E. cbn [negb].
      pose proof (filter_length_le (fun q => negb (on g q)) l). cbn in Hn. lia.
    + intros d pay c. specialize (Hb d pay c). rewrite (total_filter_split _ (on g)) in Hb.
      destruct (on (in_trans d pay c) p) eqn:E.
      * apply on_in_trans in E as (<- & <- & <-). fold g. apply total_none.
        intros q Hq. apply filter_In in Hq as [_ Hq]. apply negb_true_iff in Hq. exact Hq.
      * rewrite (total_none (in_trans d pay c) (filter (on g) _)) in Hb.
        -- rewrite <- Hb. ring.
        -- intros q Hq. apply filter_In in Hq as [_ Hq]. apply on_in_trans in Hq as (H1 & H2 & H3).
           rewrite <- E. unfold on, in_trans. rewrite H1, H2, H3. reflexivity.
Qed.
Lemma balanced_wsum w l : balanced l -> wsum w l = 0%Qc.
Proof. apply (wsum_balanced w (length l)). lia. Qed.
Lemma total_wsum (G : Z -> str -> str -> bool) l :
  total (fun d pay _ c => G d pay c) l = wsum (fun d pay c => if G d pay c then 1 else 0)%Qc l.
Proof.
  induction l as [|p l IH]; [reflexivity|]. rewrite total_cons, wsum_cons, IH. unfold on.
  destruct (G _ _ _); ring.
Qed.

(** ** Transactions of a well grouped book *)
Lemma grouped_cons t ts : well_grouped (t :: ts) -> well_grouped ts.
Proof. intros [H1 H2]. apply Forall_inv_tail in H1. apply StronglySorted_inv in H2 as [H2 _]. split; assumption. Qed.
Lemma total_other_trans (t : trans) (l : list posting) d pay c :
  (forall p q, In p t -> In q l -> dp p <> dp q) -> (exists p, In p t /\ dp p = (d, pay)) ->
  total (in_trans d pay c) l = 0%Qc.
Proof.
  intros H (p & Hp & E). apply total_none. intros q Hq. apply not_true_iff_false. rewrite on_in_trans.
  intros (H1 & H2 & _). apply (H p q Hp Hq). rewrite E. unfold dp. congruence.
Qed.
Lemma grouped_disjoint t ts : well_grouped (t :: ts) -> forall p q, In p t -> In q (concat ts) -> dp p <> dp q.
Proof.
  intros [_ H2] p q Hp Hq E. apply StronglySorted_inv in H2 as [_ H2]. rewrite Forall_forall in H2.
  apply in_concat in Hq as (u & Hu & Hq). specialize (H2 u Hu p q Hp Hq). unfold dplt in H2.
  rewrite E, (lc_refl _ dpcmp_lin) in H2. discriminate.
Qed.
Lemma balanced_app a b : balanced a -> balanced b -> balanced (a ++ b).
Proof. intros Ha Hb d pay c. rewrite total_app, Ha, Hb. ring. Qed.
Lemma balanced_nil : balanced [].
Proof. intros d pay c. reflexivity. Qed.
Lemma balanced_concat ts : Forall balanced ts -> balanced (concat ts).
Proof. induction 1; [apply balanced_nil|]. cbn [concat]. apply balanced_app; assumption. Qed.
Lemma balanced_each ts : well_grouped ts -> balanced (concat ts) -> Forall balanced ts.
Proof.
  induction ts as [|t ts IH]; intros Hg Hb; [constructor|].
  pose proof (grouped_disjoint _ _ Hg) as Hd.
  assert (Ht : balanced t).
  { intros d pay c. specialize (Hb d pay c). cbn [concat] in Hb. rewrite total_app in Hb.
    destruct (existsb (on (in_trans d pay c)) t) eqn:E.
    - apply existsb_exists in E as (p & Hp & E). apply on_in_trans in E as (E1 & E2 & E3).
      rewrite (total_other_trans t (concat ts) d pay c Hd) in Hb.
      + rewrite <- Hb. ring.
      + exists p. split; [exact Hp|]. unfold dp. congruence.
    - apply total_none. intros p Hp. apply not_true_iff_false. intros E2.
      assert (existsb (on (in_trans d pay c)) t = true) by (apply existsb_exists; eauto). congruence. }
  constructor; [exact Ht|]. apply IH; [eapply grouped_cons; exact Hg|].
  intros d pay c. specialize (Hb d pay c). cbn [concat] in Hb. rewrite total_app, Ht in Hb. rewrite <- Hb. ring.
Qed.
Lemma grouped_filter f ts : well_grouped ts -> well_grouped (filter f ts).
Proof.
  intros [H1 H2]. split; [|apply StronglySorted_filter; exact H2].
  rewrite Forall_forall in *. intros t Ht. apply filter_In in Ht as [Ht _]. auto.
Qed.
Lemma grouped_nonempty ts : well_grouped ts -> existsb (fun t : trans => match t with [] => true | _ => false end) ts = false.
Proof.
  intros [H _]. apply not_true_iff_false. intros E. apply existsb_exists in E as (t & Ht & E).
  rewrite Forall_forall in H. destruct (H t Ht) as [Hne _]. destruct t; [congruence|discriminate].
Qed.

(** Keeping some transactions of a well formed book. *)
Lemma keep_ok b f :
  book_ok b -> book_ok (mkBook (concat (filter f (bk_trans b))) (filter f (bk_trans b)) (bk_prices b) (bk_ccy b)).
Proof.
  intros (Hp & Hc & Hg & Hb). unfold book_ok. cbn [bk_post bk_trans].
  assert (Hin : forall p, In p (concat (filter f (bk_trans b))) -> In p (bk_post b)).
  { intros p Hin. apply in_concat in Hin as (t & Ht & Hin). apply filter_In in Ht as [Ht _].
    rewrite <- Hc. apply in_concat. eauto. }
  split; [rewrite Forall_forall in *; auto|]. split; [reflexivity|]. split; [apply grouped_filter; exact Hg|].
  apply balanced_concat. rewrite <- Hc in Hb. pose proof (balanced_each _ Hg Hb) as He.
  rewrite Forall_forall in *. intros t Ht. apply filter_In in Ht as [Ht _]. auto.
Qed.
Lemma filter_transaction_eq f b : well_grouped (bk_trans b) ->
  filter_transaction f b =
  let keep := filter (fun t => match t with [] => false | p :: _ => f (p_date p) (p_payee p) t end) (bk_trans b) in
  Ok (mkBook (concat keep) keep (bk_prices b) (bk_ccy b)).
Proof. intros H. unfold filter_transaction. destruct (existsb _ _) eqn:E; [|reflexivity]. exfalso. pose proof (grouped_nonempty _ H) as E2. unfold trans in *. congruence. Qed.
Lemma filter_transaction_ok f b b' : book_ok b -> filter_transaction f b = Ok b' -> book_ok b'.
Proof.
  intros Hok. rewrite filter_transaction_eq by apply Hok. cbn zeta. intros E. injection E as <-. apply keep_ok. exact Hok.
Qed.

(** ** De-duplication *)
Definition tkeys (ts : list trans) : list (Z * str) :=
  map (fun t => match t with [] => (0, []) | p :: _ => dp p end) ts.
Definition dpeqb (a b : Z * str) : bool := (fst a =? fst b) && str_eqb (snd a) (snd b).
Lemma dpeqb_eq a b : dpeqb a b = true <-> a = b.
Proof.
  destruct a as [a1 a2], b as [b1 b2]. unfold dpeqb. cbn [fst snd]. rewrite andb_true_iff, Z.eqb_eq, str_eqb_eq.
  split; [intros [-> ->]; reflexivity|intros H; injection H; auto].
Qed.
Definition known (ref : list trans) (t : trans) : bool :=
  match t with [] => false | p :: _ => existsb (dpeqb (dp p)) (tkeys ref) end.
Definition before (rp : Z * str) (p : posting) : bool :=
  match dpcmp rp (dp p) with Lt => true | _ => false end.
Lemma advance_spec ref p : well_grouped ref ->
  exists pre, ref = pre ++ dedup_advance ref (p_date p) (p_payee p) /\
    (forall k, In k (tkeys pre) -> dpcmp k (dp p) = Lt) /\
    match dedup_advance ref (p_date p) (p_payee p) with
    | [] => True
    | t :: _ => forall q, In q t -> dpcmp (dp q) (dp p) <> Lt
    end.
Proof.
  induction ref as [|t ref IH]; intros Hg; [exists []; split; [reflexivity|]; split; [intros k []|exact I]|].
  destruct t as [|q t].
  { destruct Hg as [Hg _]. inversion Hg as [|? ? [Hne _] _]. congruence. }
  cbn [dedup_advance]. specialize (IH (grouped_cons _ _ Hg)). destruct IH as (pre & E & H1 & H2).
  destruct Hg as [Hg _]. apply Forall_inv in Hg. destruct Hg as [_ Hu].
  assert (Hcmp : dpcmp (dp q) (dp p) = match p_date q ?= p_date p with Eq => str_cmp (p_payee q) (p_payee p) | c => c end) by reflexivity.
  destruct (Z.ltb_spec (p_date q) (p_date p)) as [Hlt|Hge].
  - exists ((q :: t) :: pre). split; [cbn [app]; rewrite <- E; reflexivity|]. split; [|exact H2].
    cbn [tkeys map]. intros k [<-|Hk]; [|apply H1; exact Hk]. rewrite Hcmp. apply Z.compare_lt_iff in Hlt. rewrite Hlt. reflexivity.
  - destruct ((p_date q =? p_date p) && str_ltb (p_payee q) (p_payee p)) eqn:E2.
    + apply andb_true_iff in E2 as [Ed Es]. apply Z.eqb_eq in Ed.
      exists ((q :: t) :: pre). split; [cbn [app]; rewrite <- E; reflexivity|]. split; [|exact H2].
      cbn [tkeys map]. intros k [<-|Hk]; [|apply H1; exact Hk]. rewrite Hcmp, Ed, Z.compare_refl.
      unfold str_ltb in Es. destruct (str_cmp _ _); congruence.
    + exists []. split; [reflexivity|]. split; [intros k []|]. intros r Hr.
      rewrite (Hu r q Hr (or_introl eq_refl)), Hcmp.
      destruct (Z.compare_spec (p_date q) (p_date p)) as [Ee|Hl|Hgt]; [|lia|discriminate].
      apply andb_false_iff in E2 as [Ec|Es]; [apply Z.eqb_neq in Ec; congruence|].
      unfold str_ltb in Es. destruct (str_cmp _ _); congruence.
Qed.
Lemma tkeys_app a b : tkeys (a ++ b) = tkeys a ++ tkeys b.
Proof. apply map_app. Qed.
Lemma tkeys_In ref k : well_grouped ref -> (In k (tkeys ref) <-> exists t p, In t ref /\ In p t /\ dp p = k).
Proof.
  intros [Hg _]. unfold tkeys. rewrite in_map_iff. split.
  - intros (t & E & Ht). rewrite Forall_forall in Hg. destruct (Hg t Ht) as [Hne _]. destruct t as [|p t]; [congruence|].
    exists (p :: t), p. split; [exact Ht|]. split; [left; reflexivity|exact E].
  - intros (t & p & Ht & Hp & E). exists t. split; [|exact Ht]. rewrite Forall_forall in Hg. destruct (Hg t Ht) as [Hne Hu].
    destruct t as [|q t]; [congruence|]. rewrite <- E. apply Hu; [left; reflexivity|exact Hp].
Qed.
Lemma grouped_suffix pre ref : well_grouped (pre ++ ref) -> well_grouped ref.
Proof. induction pre as [|t pre IH]; [auto|]. intros H. apply IH. eapply grouped_cons. exact H. Qed.

Lemma dedup_loop_spec ts : forall full done ref, full = done ++ ref -> well_grouped full -> well_grouped ts ->
  (forall k t p, In k (tkeys done) -> In t ts -> In p t -> dpcmp k (dp p) = Lt) ->
  dedup_loop ref ts = Ok (filter (fun t => negb (known full t)) ts).
Proof.
  induction ts as [|t ts IH]; intros full done ref Ef Hf Hg Hdone; [reflexivity|].
  destruct t as [|p t].
  { destruct Hg as [Hg _]. inversion Hg as [|? ? [Hne _] _]. congruence. }
  cbn [dedup_loop]. assert (Hr : well_grouped ref) by (rewrite Ef in Hf; eapply grouped_suffix; exact Hf).
  destruct (advance_spec ref p Hr) as (pre & E & H1 & H2). set (ref' := dedup_advance ref (p_date p) (p_payee p)) in *.
  assert (Hd2 : forall k u q, In k (tkeys (done ++ pre)) -> In u ts -> In q u -> dpcmp k (dp q) = Lt).
  { intros k u q Hk Hu Hq. rewrite tkeys_app in Hk. apply in_app_iff in Hk as [Hk|Hk].
    - apply (Hdone k u q Hk); [right; exact Hu|exact Hq].
    - eapply (lc_trans _ dpcmp_lin); [apply H1; exact Hk|]. destruct Hg as [_ Hs]. apply StronglySorted_inv in Hs as [_ Hs].
      rewrite Forall_forall in Hs. apply (Hs u Hu p q); [left; reflexivity|exact Hq]. }
  assert (Ef' : full = (done ++ pre) ++ ref') by (rewrite <- app_assoc, <- E; exact Ef).
  specialize (IH full (done ++ pre) ref' Ef' Hf (grouped_cons _ _ Hg) Hd2).
  assert (Hpre : forall k, In k (tkeys (done ++ pre)) -> k <> dp p).
  { intros k Hk Ek. subst k. rewrite tkeys_app in Hk.
    assert (dpcmp (dp p) (dp p) = Lt); [|rewrite (lc_refl _ dpcmp_lin) in *; discriminate].
    apply in_app_iff in Hk as [Hk|Hk]; [apply (Hdone _ (p :: t) p Hk); left; reflexivity|apply H1; exact Hk]. }
  cbn [filter]. change (known full (p :: t)) with (existsb (dpeqb (dp p)) (tkeys full)).
  replace (tkeys full) with (tkeys ((done ++ pre) ++ ref')) by (rewrite <- Ef'; reflexivity).
  rewrite tkeys_app, existsb_app.
  assert (E0 : existsb (dpeqb (dp p)) (tkeys (done ++ pre)) = false).
  { apply not_true_iff_false. intros Ex. apply existsb_exists in Ex as (k & Hk & Ek). apply dpeqb_eq in Ek. exact (Hpre k Hk (eq_sym Ek)). }
  rewrite E0. cbn [orb].
  assert (Hr' : well_grouped ref') by (rewrite E in Hr; eapply grouped_suffix; exact Hr).
  clearbody ref'. destruct ref' as [|rt ref'].
  - cbn [tkeys map existsb negb]. rewrite IH. reflexivity.
  - destruct rt as [|q rt].
    { destruct Hr' as [Hr' _]. inversion Hr' as [|? ? [Hne _] _]. congruence. }
    cbn [tkeys map existsb]. unfold dpeqb at 1. cbn [dp fst snd].
    rewrite (Z.eqb_sym (p_date p)), (str_eqb_sym (p_payee p)).
    rewrite (andb_comm (p_date q =? p_date p)).
    destruct (str_eqb (p_payee q) (p_payee p) && (p_date q =? p_date p)) eqn:Eq2; cbn [orb negb]; [exact IH|].
    assert (E3 : existsb (dpeqb (dp p)) (tkeys ref') = false).
    { apply not_true_iff_false. intros Ex. apply existsb_exists in Ex as (k & Hk & Ek). apply dpeqb_eq in Ek. subst k.
      apply (tkeys_In ref' _ (grouped_cons _ _ Hr')) in Hk as (u & r & Hu & Hin & Ek).
      destruct Hr' as [_ Hs]. apply StronglySorted_inv in Hs as [_ Hs]. rewrite Forall_forall in Hs.
      specialize (Hs u Hu q r (or_introl eq_refl) Hin). unfold dplt in Hs. rewrite Ek in Hs.
      apply (H2 q (or_introl eq_refl)). exact Hs. }
    unfold tkeys in E3. rewrite E3. cbn [negb]. rewrite IH. reflexivity.
Qed.

(** ** Cached account map = plain map *)
Lemma map_acct_loop_eq f : forall l amap, (forall a n, aget str_eqb a amap = Some n -> n = f a) ->
  map_acct_loop f amap l = map (fun p => set_acct p (f (p_acct p))) l.
Proof.
  induction l as [|p l IH]; intros amap H; [reflexivity|]. cbn [map_acct_loop map].
  destruct (aget str_eqb (p_acct p) amap) as [n|] eqn:E.
  - rewrite (H _ _ E), IH by exact H. reflexivity.
  - rewrite IH; [reflexivity|]. intros a n Hn. destruct (str_eqb_spec (p_acct p) a) as [<-|Hne].
    + rewrite (aget_aset_eq _ str_eqb_eq) in Hn. congruence.
    + rewrite (aget_aset_neq _ str_eqb_eq) in Hn by congruence. apply H. exact Hn.
Qed.
Lemma map_trans_loop_eq f : forall l i, map_trans_loop (fun _ => f) i l =
  map (fun p => set_date p (fst (f (p_date p) (p_payee p))) (snd (f (p_date p) (p_payee p)))) l.
Proof.
  induction l as [|p l IH]; intros i; [reflexivity|]. cbn [map_trans_loop map].
  destruct (f (p_date p) (p_payee p)) as [d pay]. rewrite IH. reflexivity.
Qed.

Section Ops.
  Variable srt : list posting -> list posting.
  Hypothesis Hsrt : sort_ok is_less srt.

  (** Replacing the postings of a book by another balanced plain list, then compacting. *)
  Lemma with_post_ok b l : book_ok b -> Forall plain l -> balanced l -> (bk_post b = [] -> l = []) -> (l = [] -> bk_post b = []) ->
    book_ok (compact srt (with_post b l)).
  Proof.
    intros Hok Hp Hb H1 H2. apply (compact_ok srt Hsrt); [exact Hp|exact Hb|].
    cbn [with_post bk_post bk_trans]. intros E. apply (book_ok_nil _ Hok). apply H2. exact E.
  Qed.
  Lemma map_nil_iff {A B} (f : A -> B) l : (l = [] -> map f l = []) /\ (map f l = [] -> l = []).
  Proof. destruct l; split; auto; discriminate. Qed.

  Lemma map_account_ok f b : book_ok b -> book_ok (map_account srt f b).
  Proof.
    intros Hok. unfold map_account. rewrite map_acct_loop_eq by discriminate.
    apply with_post_ok; [exact Hok| | |apply map_nil_iff|apply map_nil_iff].
    - destruct Hok as (Hp & _). rewrite Forall_forall in *. intros q Hq. apply in_map_iff in Hq as (p & <- & Hin).
      destruct (Hp p Hin) as [_ H2]. split; [reflexivity|exact H2].
    - destruct Hok as (_ & _ & _ & Hb). intros d pay c.
      rewrite (total_map _ (in_trans d pay c) (in_trans d pay c)); [apply Hb|]. intros p _. split; reflexivity.
  Qed.
  Lemma map_amount_ok f b : book_ok b -> book_ok (map_amount f b).
  Proof.
    intros (Hp & Hc & Hg & Hb). unfold book_ok, map_amount. cbn [bk_post bk_trans].
    assert (Hdp : forall p, dp (amount_of f p) = dp p).
    { intros p. unfold amount_of. destruct (f _ _). reflexivity. }
    split.
    { rewrite Forall_forall in *. intros q Hq. apply in_map_iff in Hq as (p & <- & Hin). destruct (Hp p Hin) as [H1 H2].
      unfold amount_of. destruct (f _ _). split; [exact H1|exact H2]. }
    split; [rewrite <- concat_map, Hc; reflexivity|]. split.
    { destruct Hg as [G1 G2]. split.
      - rewrite Forall_forall in *. intros t Ht. apply in_map_iff in Ht as (u & <- & Hu). destruct (G1 u Hu) as [Hne Hu2]. split.
        + destruct u; [congruence|discriminate].
        + intros p q H1 H2. apply in_map_iff in H1 as (p0 & <- & H1). apply in_map_iff in H2 as (q0 & <- & H2).
          rewrite !Hdp. apply Hu2; assumption.
      - apply (StronglySorted_map (map (amount_of f))). eapply StronglySorted_impl; [|exact G2].
        intros t u _ _ H p q H1 H2. apply in_map_iff in H1 as (p0 & <- & H1). apply in_map_iff in H2 as (q0 & <- & H2).
        unfold dplt. rewrite !Hdp. apply H; assumption. }
    intros d pay c.
    transitivity (wsum (fun d' pay' c' => if (d' =? d) && str_eqb pay' pay && str_eqb (snd (f d' c')) c then fst (f d' c') else 0%Qc) (bk_post b)).
    - generalize (bk_post b). induction l as [|p l IH]; [reflexivity|]. cbn [map]. rewrite total_cons, wsum_cons, IH.
      f_equal. unfold on, in_trans, amount_of. destruct (f (p_date p) (p_ccy p)) as [v c'] eqn:Ef.
      cbn [set_ccyval p_date p_payee p_ccy p_acct p_val fst snd]. destruct (_ && _ && _); ring.
    - apply balanced_wsum. exact Hb.
  Qed.
  Lemma map_transaction_ok f b : book_ok b -> book_ok (map_transaction srt (fun _ => f) b).
  Proof.
    intros Hok. unfold map_transaction. rewrite map_trans_loop_eq.
    apply with_post_ok; [exact Hok| | |apply map_nil_iff|apply map_nil_iff].
    - destruct Hok as (Hp & _). rewrite Forall_forall in *. intros q Hq. apply in_map_iff in Hq as (p & <- & Hin).
      exact (Hp p Hin).
    - destruct Hok as (_ & _ & _ & Hb). intros d pay c.
      rewrite (total_map _ _ (fun d' pay' _ c' =>
         (fst (f d' pay') =? d) && str_eqb (snd (f d' pay')) pay && str_eqb c' c)).
      + rewrite (total_wsum (fun d' pay' c' => (fst (f d' pay') =? d) && str_eqb (snd (f d' pay')) pay && str_eqb c' c)).
        apply balanced_wsum. exact Hb.
      + intros p _. split; reflexivity.
  Qed.
  Lemma adjust_by_ok by_ b b' : book_ok b -> adjust_by srt by_ b = Ok b' -> book_ok b'.
  Proof.
    intros Hok. unfold adjust_by. destruct (str_eqb by_ (bs "none")); [intros E; injection E as <-; exact Hok|].
    destruct (min_max_date (bk_post b)) as [mn mx]. intros E. apply obind_Ok in E as (dd & _ & E).
    apply obind_Ok in E as (fac & _ & E). injection E as <-.
    apply with_post_ok; [exact Hok| | |apply map_nil_iff|apply map_nil_iff].
    - destruct Hok as (Hp & _). rewrite Forall_forall in *. intros q Hq. apply in_map_iff in Hq as (p & <- & Hin).
      destruct (Hp p Hin) as [_ H2]. split; [reflexivity|exact H2].
    - destruct Hok as (_ & _ & _ & Hb). intros d pay c.
      rewrite (total_scale fac _ (in_trans d pay c) (in_trans d pay c)); [rewrite Hb; ring|]. intros p _. split; reflexivity.
  Qed.

  (** Operations that append postings. *)
  Lemma append_ok b (f : posting -> list posting) : book_ok b ->
    (forall p, plain p -> Forall plain (f p)) -> (forall p, balanced (f p)) ->
    book_ok (compact srt (with_post b (bk_post b ++ flat_map f (bk_post b)))).
  Proof.
    intros Hok Hf Hbal. apply with_post_ok; [exact Hok| | | |].
    - destruct Hok as (Hp & _). apply Forall_app. split; [exact Hp|]. rewrite Forall_forall in *.
      intros q Hq. apply in_flat_map in Hq as (p & Hin & Hq). specialize (Hf p (Hp p Hin)). rewrite Forall_forall in Hf. auto.
    - destruct Hok as (_ & _ & _ & Hb). apply balanced_app; [exact Hb|]. rewrite flat_map_concat_map. apply balanced_concat.
      rewrite Forall_forall. intros l Hl. apply in_map_iff in Hl as (p & <- & _). apply Hbal.
    - intros ->. reflexivity.
    - intros E. apply app_eq_nil in E as [E _]. exact E.
  Qed.
  Lemma pair_balanced p a1 a2 d (k : Qc) :
    balanced [by_acct_date_factor p a1 d (- k)%Qc; by_acct_date_factor p a2 d k].
  Proof.
    intros d' pay c. rewrite !total_cons, total_nil.
    change (on (in_trans d' pay c) (by_acct_date_factor p a1 d (- k)%Qc)) with (on (in_trans d' pay c) (by_acct_date_factor p a2 d k)).
    destruct (on _ _); cbn [by_acct_date_factor p_val]; ring.
  Qed.
  Lemma depr_loop_balanced today p nacct period periods : forall n d, balanced (depr_loop today p nacct period periods n d).
  Proof.
    induction n as [|n IH]; intros d; [apply balanced_nil|]. cbn [depr_loop].
    apply (balanced_app [_; _]); [apply pair_balanced|apply IH].
  Qed.
  Lemma depr_loop_plain today p nacct period periods : plain p -> forall n d, Forall plain (depr_loop today p nacct period periods n d).
  Proof.
    intros [_ H]. induction n as [|n IH]; intros d; [constructor|]. cbn [depr_loop].
    constructor; [split; [reflexivity|exact H]|]. constructor; [split; [reflexivity|exact H]|]. apply IH.
  Qed.
  Lemma depreciate_ok today m r period periods b : book_ok b -> book_ok (depreciate srt today m r period periods b).
  Proof.
    intros Hok. apply append_ok; [exact Hok| |].
    - intros p Hp. unfold depr_posts. destruct (m (p_acct p)); [|constructor].
      constructor; [split; [reflexivity|apply Hp]|]. constructor; [split; [reflexivity|apply Hp]|]. apply depr_loop_plain. exact Hp.
    - intros p. unfold depr_posts. destruct (m (p_acct p)); [|apply balanced_nil].
      apply (balanced_app [_; _]); [apply pair_balanced|apply depr_loop_balanced].
  Qed.
  Lemma adjust_post_ok m r factor b : book_ok b -> book_ok (adjust_post srt m r factor b).
  Proof.
    intros Hok. apply append_ok; [exact Hok| |].
    - intros p Hp. unfold adj_posts. destruct (m (p_acct p)); [|constructor].
      constructor; [split; [reflexivity|apply Hp]|]. constructor; [split; [reflexivity|apply Hp]|]. constructor.
    - intros p. unfold adj_posts. destruct (m (p_acct p)); [apply pair_balanced|apply balanced_nil].
  Qed.
  Lemma compact_book_ok b : book_ok b -> book_ok (compact srt b).
  Proof.
    intros Hok. apply (compact_ok srt Hsrt); [apply Hok|apply Hok|apply book_ok_nil; exact Hok].
  Qed.
  Lemma remove_duplicates_eq main b : book_ok main -> book_ok b ->
    let ref := bk_trans (compact srt main) in
    let keep := filter (fun t => negb (known ref t)) (bk_trans b) in
    remove_duplicates_of srt main b = Ok (compact srt main, mkBook (concat keep) keep (bk_prices b) (bk_ccy b)).
  Proof.
    intros Hm Hb ref keep. unfold remove_duplicates_of, transactions. cbn [fst snd].
    pose proof (compact_book_ok main Hm) as Hm'.
    fold ref. rewrite (dedup_loop_spec (bk_trans b) ref [] ref); [reflexivity|reflexivity|apply Hm'|apply Hb|intros k t p []].
  Qed.

  (** ** Reclassification *)
  Lemma reclass_shape ord2 dist refacct pm i t :
    let t' := reclass_trans ord2 dist refacct pm i t in
    map dp t' = map dp t /\ map p_val t' = map p_val t /\ map p_ccy t' = map p_ccy t /\ map p_level t' = map p_level t /\ map p_sort t' = map p_sort t.
  Proof.
    cbn zeta. unfold reclass_trans. destruct t as [|p [|q [|? ?]]]; try (repeat split; reflexivity).
    destruct (str_eqb (p_acct p) refacct); [|destruct (str_eqb (p_acct q) refacct)];
      try (destruct (best _ _ _ _) as [mx c]; destruct (qc_ltb _ mx)); repeat split; reflexivity.
  Qed.
  Lemma reclass_loop_shape ord2 dist refacct pm : forall ts i,
    Forall2 (fun t t' => map dp t' = map dp t /\ map p_val t' = map p_val t /\ map p_ccy t' = map p_ccy t /\ map p_level t' = map p_level t /\ map p_sort t' = map p_sort t)
      ts (reclass_loop ord2 dist refacct pm i ts).
  Proof. induction ts as [|t ts IH]; intros i; cbn [reclass_loop]; constructor; [apply reclass_shape|apply IH]. Qed.

  Lemma total_shape d pay c : forall l l', map dp l' = map dp l -> map p_val l' = map p_val l -> map p_ccy l' = map p_ccy l ->
    total (in_trans d pay c) l' = total (in_trans d pay c) l.
  Proof.
    induction l as [|p l IH]; intros [|q l'] H1 H2 H3; try discriminate; [reflexivity|].
    cbn [map] in *. injection H1 as H1a H1b H1'. injection H2 as H2a H2'. injection H3 as H3a H3'.
    rewrite !total_cons, (IH l') by assumption. unfold on, in_trans. rewrite H1a, H1b, H2a, H3a. reflexivity.
  Qed.
  Lemma in_map_dp (l l' : list posting) q : map dp l' = map dp l -> In q l' -> exists p, In p l /\ dp q = dp p.
  Proof.
    intros E Hq. assert (H : In (dp q) (map dp l)) by (rewrite <- E; apply in_map; exact Hq).
    apply in_map_iff in H as (p & H1 & H2). exists p. auto.
  Qed.
  Lemma reclassify_ok ord1 ord2 dist ref b refacct : book_ok b -> book_ok (snd (reclassify srt ord1 ord2 dist ref b refacct)).
  Proof.
    intros Hok. apply compact_book_ok in Hok. unfold reclassify, transactions. cbn [snd].
    set (pm := payee_mapping _ _ _). destruct Hok as (Hp & Hc & Hg & Hb).
    pose proof (reclass_loop_shape ord2 dist refacct pm (bk_trans (compact srt b)) 0) as HS.
    set (ts := bk_trans (compact srt b)) in *. set (ts' := reclass_loop _ _ _ _ _ _) in *.
    assert (HC : map dp (concat ts') = map dp (concat ts) /\ map p_val (concat ts') = map p_val (concat ts) /\ map p_ccy (concat ts') = map p_ccy (concat ts)
                 /\ map p_level (concat ts') = map p_level (concat ts) /\ map p_sort (concat ts') = map p_sort (concat ts)).
    { clear -HS. induction HS as [|t t' ts ts' (H1 & H2 & H3 & H4 & H5) HS (I1 & I2 & I3 & I4 & I5)]; [repeat split; reflexivity|].
      cbn [concat]. rewrite !map_app. repeat split; congruence. }
    destruct HC as (C1 & C2 & C3 & C4 & C5). unfold book_ok. cbn [bk_post bk_trans].
    split.
    { rewrite <- Hc in Hp. assert (Forall (fun l => l = 0) (map p_level (concat ts')) /\ Forall (fun s => s = []) (map p_sort (concat ts'))).
      { rewrite C4, C5, !Forall_map. split; (eapply Forall_impl; [|exact Hp]); intros p [H1 H2]; assumption. }
      destruct H as [H1 H2]. rewrite Forall_map in H1, H2. rewrite Forall_forall in *. intros p Hin. split; auto. }
    split; [reflexivity|]. split.
    { destruct Hg as [G1 G2]. clear -HS G1 G2. split.
      - clear G2. induction HS as [|t t' ts ts' (H1 & _) HS IH]; [constructor|].
        inversion G1 as [|? ? [Gne Gu] G1']; subst. constructor; [|apply IH; exact G1']. split.
        + destruct t as [|x t]; [congruence|]. destruct t'; discriminate.
        + intros p q Hp Hq. destruct (in_map_dp _ _ _ H1 Hp) as (p0 & Hp0 & ->). destruct (in_map_dp _ _ _ H1 Hq) as (q0 & Hq0 & ->).
          apply Gu; assumption.
      - clear G1. induction HS as [|t t' ts ts' (H1 & _) HS IH]; [constructor|].
        apply StronglySorted_inv in G2 as [G2 Gall]. constructor; [apply IH; exact G2|].
        clear IH G2. induction HS as [|u u' us us' (E1 & _) HS IH2]; [constructor|].
        inversion Gall as [|? ? Gu Gall']; subst. constructor; [|apply IH2; exact Gall'].
        intros p q Hp Hq. destruct (in_map_dp _ _ _ H1 Hp) as (p0 & Hp0 & Ep). destruct (in_map_dp _ _ _ E1 Hq) as (q0 & Hq0 & Eq).
        unfold dplt. rewrite Ep, Eq. apply Gu; assumption. }
    intros d pay c. rewrite (total_shape d pay c (concat ts)) by assumption. rewrite Hc. apply Hb.
  Qed.

  (** ** All operations *)
  Lemma run_op_ok o b b' : book_ok b -> (forall ob, other_book o = Some ob -> book_ok ob) -> run_op srt o b = Ok b' -> book_ok b'.
  Proof.
    intros Hok Hob. destruct o; cbn [run_op]; intros E.
    - injection E as <-. apply map_account_ok. exact Hok.
    - injection E as <-. apply map_account_ok. exact Hok.
    - injection E as <-. apply map_amount_ok. exact Hok.
    - injection E as <-. apply map_transaction_ok. exact Hok.
    - injection E as <-. exact (map_transaction_ok (fun d _ => (floor today d by_, [])) b Hok).
    - eapply filter_transaction_ok; eassumption.
    - unfold filter_since in E. destruct (d =? 0); [congruence|]. eapply filter_transaction_ok; eassumption.
    - unfold filter_asof in E. destruct (d =? 0); [congruence|]. eapply filter_transaction_ok; eassumption.
    - eapply filter_transaction_ok; eassumption.
    - eapply adjust_by_ok; eassumption.
    - injection E as <-. apply depreciate_ok. exact Hok.
    - injection E as <-. apply adjust_post_ok. exact Hok.
    - rewrite (remove_duplicates_eq main b (Hob main eq_refl) Hok) in E. cbn [obind snd] in E. injection E as <-.
      apply keep_ok. exact Hok.
    - injection E as <-. apply reclassify_ok. exact Hok.
    - injection E as <-. apply compact_book_ok. exact Hok.
  Qed.
  Lemma reachable_ok b : reachable srt b -> book_ok b.
  Proof.
    induction 1 as [cs b E|o b b' Hr IH Hob IHob E].
    - destruct (build_calls_cases srt Hsrt cs) as [(_ & bk & E' & Hok & _)|[_ E']]; rewrite E in E'; [injection E' as ->; exact Hok|discriminate].
    - eapply run_op_ok; [exact IH|exact IHob|exact E].
  Qed.
End Ops.
