(** * DetProofs4: printed tables, and the order in which subtotals are visited (C108). *)
From Verif Require Import Base Dec Regex DateModel PriceModel BookModel BookSpec BookProofs OpsModel BookOpModel RegisterModel AccumModel AccumSpec AccumProofs ExportModel DataExportModel PrintModel CmdModel DetSpec DetProofs DetProofs2 DetProofs3.
From Coq Require Import ZifyBool ZifyNat Zify.
Ltac Zify.zify_post_hook ::= idtac.

Section Decs.
  Variables d1 d2 : list (str * Z).
  Hypothesis Hd : forall c, aget str_eqb c d1 = aget str_eqb c d2.
  Variable f64 : Qc -> Qc.
  Variable is_letter : Z -> bool.
  Variable colour : bool.
  Lemma dec_register_rows a w rep : register_rows f64 is_letter d1 colour a w rep = register_rows f64 is_letter d2 colour a w rep.
  Proof.
    induction rep as [|[e|] rep IH]; [reflexivity| |reflexivity]. cbn [register_rows]. rewrite IH. unfold register_row.
    rewrite (dec_money d1 d2 Hd f64 is_letter colour (e_ccy e) (e_amt e)), (dec_money d1 d2 Hd f64 is_letter colour (e_ccy e) (e_bal e)). reflexivity.
  Qed.
  Lemma dec_fill idx j l : forall rows, fill_trans f64 is_letter d1 colour idx j l rows = fill_trans f64 is_letter d2 colour idx j l rows.
  Proof.
    induction l as [|v l IH]; intros rows; [reflexivity|]. cbn [PrintModel.fill_trans]. destruct (aget key_eqb (row_key v) idx) as [pidx|]; [|reflexivity].
    rewrite (dec_money d1 d2 Hd f64 is_letter colour). destruct (column_money _ _ _ _ _ _); cbn [obind]; try reflexivity. destruct (set_cell _ _ _ _); cbn [obind]; try reflexivity. apply IH.
  Qed.
  Lemma dec_fill_all idx ts : forall j rows, fill_all f64 is_letter d1 colour idx j ts rows = fill_all f64 is_letter d2 colour idx j ts rows.
  Proof.
    induction ts as [|t ts IH]; intros j rows; [reflexivity|]. cbn [PrintModel.fill_all]. rewrite dec_fill. destruct (PrintModel.fill_trans _ _ _ _ _ _ _ _); cbn [obind]; try reflexivity. apply IH.
  Qed.
  Lemma dec_table ts : summary_table f64 is_letter d1 colour ts = summary_table f64 is_letter d2 colour ts.
  Proof.
    unfold summary_table. destruct ts as [|t ts]; [reflexivity|]. destruct (header_dates _ _) as [hs| | |]; cbn [obind]; try reflexivity.
    destruct (label_rows _ _ _ _ _ _) as [[rows idx]| | |]; cbn [obind]; try reflexivity. apply dec_fill_all.
  Qed.
  Lemma dec_html_posts l : forall lv, html_posts f64 is_letter d1 lv l = html_posts f64 is_letter d2 lv l.
  Proof. induction l as [|v l IH]; intros lv; [reflexivity|]. cbn [html_posts]. rewrite IH, (dec_number d1 d2 Hd f64). reflexivity. Qed.
  Lemma dec_html ts : html_trans f64 is_letter d1 ts = html_trans f64 is_letter d2 ts.
  Proof. induction ts as [|t ts IH]; [reflexivity|]. cbn [html_trans]. destruct t as [|p t]; [reflexivity|]. rewrite IH, dec_html_posts. reflexivity. Qed.
End Decs.

(** ** The order of the subtotals *)
Definition eqv (q p : posting) : bool := negb (is_less p q) && negb (is_less q p).
Lemma eqv_fkey q p : eqv q p = true <-> fkey q = fkey p.
Proof.
  unfold eqv. rewrite andb_true_iff, !negb_true_iff, !is_less_fcmp, (lc_anti _ fcmp_lin (fkey p) (fkey q)).
  destruct (fcmp (fkey p) (fkey q)) eqn:E; cbn [CompOpp].
  - apply (lc_eq _ fcmp_lin) in E. split; [intros _; symmetry; exact E|intros _; split; reflexivity].
  - split; [intros [H _]; discriminate|]. intros Eq. rewrite Eq, (lc_refl _ fcmp_lin) in E. discriminate.
  - split; [intros [_ H]; discriminate|]. intros Eq. rewrite Eq, (lc_refl _ fcmp_lin) in E. discriminate.
Qed.
Definition sameeqv (a b : list posting) : Prop := forall q, filter (eqv q) a = filter (eqv q) b.
Lemma sameeqv_app a b c d : sameeqv a b -> sameeqv c d -> sameeqv (a ++ c) (b ++ d).
Proof. intros H1 H2 q. rewrite !filter_app, H1, H2. reflexivity. Qed.

Lemma sorted_sameeqv : forall a b, sorted_by is_less a -> sorted_by is_less b -> sameeqv a b -> a = b.
Proof.
  assert (N : forall x y b, sorted_by is_less (y :: b) -> is_less x y = true -> filter (eqv x) (y :: b) = []).
  { intros x y b Hs Hlt. assert (G : forall z, In z (y :: b) -> eqv x z = false).
    { intros z Hz. apply not_true_iff_false. rewrite eqv_fkey. intros E. assert (Hyz : is_less x z = true).
      { destruct Hz as [<-|Hz]; [exact Hlt|]. inversion Hs as [|? ? _ Hall]; subst. rewrite Forall_forall in Hall. specialize (Hall z Hz). cbn beta in Hall.
        rewrite is_less_fcmp in *. rewrite (lc_anti _ fcmp_lin (fkey y) (fkey z)) in Hall. destruct (fcmp (fkey x) (fkey y)) eqn:Exy; try discriminate.
        destruct (fcmp (fkey y) (fkey z)) eqn:Ey; try discriminate.
        - apply (lc_eq _ fcmp_lin) in Ey. rewrite <- Ey, Exy. reflexivity.
        - rewrite (lc_trans _ fcmp_lin _ _ _ Exy Ey). reflexivity. }
      rewrite is_less_fcmp, E, (lc_refl _ fcmp_lin) in Hyz. discriminate. }
    revert G. generalize (y :: b). intros l. induction l as [|z l IH]; intros G; [reflexivity|]. cbn [filter]. rewrite (G z) by (left; reflexivity). apply IH. intros w Hw. apply G. right. exact Hw. }
  assert (R : forall x, eqv x x = true) by (intros x; apply eqv_fkey; reflexivity).
  induction a as [|x a IH]; intros [|y b] Ha Hb0 Hk.
  - reflexivity.
  - exfalso. specialize (Hk y). cbn [filter] in Hk. rewrite R in Hk. discriminate.
  - exfalso. specialize (Hk x). cbn [filter] in Hk. rewrite R in Hk. discriminate.
  - assert (Ek : eqv x y = true).
    { unfold eqv. destruct (is_less y x) eqn:E1; [|destruct (is_less x y) eqn:E2; [|reflexivity]]; exfalso.
      - specialize (Hk y). rewrite (N y x a Ha E1) in Hk. cbn [filter] in Hk. rewrite R in Hk. discriminate.
      - specialize (Hk x). rewrite (N x y b Hb0 E2) in Hk. cbn [filter] in Hk. rewrite R in Hk. discriminate. }
    assert (x = y). { specialize (Hk x). cbn [filter] in Hk. rewrite R, Ek in Hk. injection Hk as Hk _. exact Hk. }
    subst y. f_equal. inversion Ha; subst. inversion Hb0; subst. apply IH; try assumption.
    intros q. specialize (Hk q). cbn [filter] in Hk. destruct (eqv q x); [injection Hk as Hk|]; exact Hk.
Qed.
Lemma stable_eqv srt l : stable srt -> sameeqv (srt l) l.
Proof. intros H q. exact (H l q). Qed.

Definition only_panics {A} (o : outcome A) : Prop := match o with Ok _ | Panic => True | _ => False end.
Lemma map_o_both {A} (f : A -> outcome posting) : (forall x, only_panics (f x)) -> forall l l', Permutation l l' ->
  both (fun a b => Permutation a b) (map_o f l) (map_o f l').
Proof.
  intros Hf. assert (P : forall l, only_panics (map_o f l)).
  { induction l as [|x l IH]; [exact I|]. cbn [map_o]. pose proof (Hf x). destruct (f x); cbn [obind]; try contradiction; try exact I. destruct (map_o f l); cbn [obind]; try contradiction; exact I. }
  induction 1 as [|x l l' _ IH|x y l|l l' l'' _ IH1 _ IH2].
  - constructor.
  - cbn [map_o]. destruct (f x); cbn [obind both]; auto. destruct (map_o f l), (map_o f l'); cbn [both obind] in *; try contradiction; auto.
  - cbn [map_o]. pose proof (Hf x). pose proof (Hf y). pose proof (P l). destruct (f x), (f y); try contradiction; cbn [obind both]; auto; destruct (map_o f l); try contradiction; cbn [obind both]; auto. constructor.
  - destruct (map_o f l), (map_o f l'), (map_o f l''); cbn [both] in *; try contradiction; auto. eapply perm_trans; eauto.
Qed.
Lemma split_panics K a self dv : only_panics (split_by_strings K a self dv).
Proof.
  unfold split_by_strings. assert (H : forall rest n lst i, only_panics (split_scan K self dv a n lst i rest)).
  { induction rest as [|c rest IH]; intros n lst i; cbn [split_scan]; [destruct (_ && _); [destruct (Nat.leb _ _)|]; exact I|].
    destruct (_ && _); [destruct (Nat.leb _ _); [apply IH|exact I]|apply IH]. }
  specialize (H a 0%nat 0%nat 0%nat). destruct (split_scan K self dv a 0 0 0 a) as [[n lst]| | |]; cbn [obind]; try contradiction; try exact I. destruct (Nat.leb _ _); exact I.
Qed.
Lemma sub_row_panics micro K to dv vals first k : only_panics (sub_row micro K to dv vals first k).
Proof. unfold sub_row. pose proof (split_panics K k false dv). destruct (split_by_strings K k false dv) as [[lv tm]| | |]; cbn [obind]; try contradiction; try exact I. destruct (aget _ _ _); exact I. Qed.
Lemma sub_rows_accts micro K to dv vals first : forall l rows, map_o (sub_row micro K to dv vals first) l = Ok rows -> map p_acct rows = l.
Proof.
  induction l as [|k l IH]; intros rows; cbn [map_o]; [intros E; injection E as <-; reflexivity|]. unfold sub_row at 1.
  destruct (split_by_strings K k false dv) as [[lv tm]| | |]; cbn [obind]; try discriminate. destruct (aget str_eqb k vals) as [v|]; cbn [obind]; try discriminate.
  destruct (map_o _ l) as [rs| | |] eqn:E; cbn [obind]; try discriminate. intros H. injection H as <-. cbn [map p_acct]. f_equal. apply IH. reflexivity.
Qed.
Lemma one_per_acct l l' : NoDup (map p_acct l) -> Permutation l l' -> sameeqv l l'.
Proof.
  intros Hn Hp q.
  assert (Hc : filter (eqv q) l = [] \/ exists k, filter (eqv q) l = [k]).
  { clear Hp. induction l as [|x l IH]; [left; reflexivity|]. cbn [map] in Hn. inversion Hn as [|? ? Hx Hn']; subst. cbn [filter]. destruct (eqv q x) eqn:E; [|apply IH; exact Hn'].
    right. exists x. f_equal. destruct (filter (eqv q) l) as [|y r] eqn:Er; [reflexivity|]. exfalso. assert (Hy : In y (filter (eqv q) l)) by (rewrite Er; left; reflexivity).
    apply filter_In in Hy as [Hy Ky]. apply eqv_fkey in E, Ky. rewrite E in Ky. unfold fkey in Ky. injection Ky as _ _ _ Ka _ _. apply Hx. rewrite Ka. apply in_map. exact Hy. }
  assert (Hp' : Permutation (filter (eqv q) l) (filter (eqv q) l')) by (apply perm_filter; exact Hp).
  destruct Hc as [E|[k E]]; rewrite E in *.
  - apply Permutation_nil in Hp'. symmetry. exact Hp'.
  - apply Permutation_length_1_inv in Hp'. symmetry. exact Hp'.
Qed.

Section It.
  Variables it1 it2 : list posting -> list str -> list str.
  Hypothesis I1 : forall g l, Permutation (it1 g l) l.
  Hypothesis I2 : forall g l, Permutation (it2 g l) l.
  Variable srt : list posting -> list posting.
  Variable micro : Qc -> Z.

  Definition close (a b : list posting * list posting) : Prop := fst a = fst b /\ Permutation (snd a) (snd b) /\ sameeqv (snd a) (snd b).
  Lemma it_trans pb K to dv g : NoDup K -> both close (accum_trans it1 micro pb K to dv g) (accum_trans it2 micro pb K to dv g).
  Proof.
    intros HK. unfold accum_trans. destruct g as [|first g]; [exact I|]. destruct (convert pb to _) as [cp| | |]; cbn [obind]; try exact I.
    destruct (map_o (leaf_row _ _ _ _) _) as [leaves| | |]; cbn [obind]; try exact I.
    set (vals := acct_val dv K cp). set (G := first :: g).
    assert (P : Permutation (it1 G K) (it2 G K)) by (rewrite I1, I2; reflexivity).
    pose proof (map_o_both (sub_row micro K to dv vals first) (sub_row_panics micro K to dv vals first) _ _ P) as H.
    destruct (map_o _ (it1 G K)) as [s1| | |] eqn:E1, (map_o _ (it2 G K)) as [s2| | |]; cbn [both obind] in *; try contradiction; auto.
    split; [reflexivity|]. cbn [snd]. split; [exact H|]. apply one_per_acct; [|exact H]. apply sub_rows_accts in E1. rewrite E1.
    eapply Permutation_NoDup; [symmetry; apply I1|exact HK].
  Qed.
  Lemma it_rows_list pb K to dv : NoDup K -> forall gs, both (Forall2 close) (map_o (accum_trans it1 micro pb K to dv) gs) (map_o (accum_trans it2 micro pb K to dv) gs).
  Proof.
    intros HK. induction gs as [|g gs IH]; [constructor|]. cbn [map_o]. pose proof (it_trans pb K to dv g HK) as H.
    destruct (accum_trans it1 micro pb K to dv g) as [x1| | |], (accum_trans it2 micro pb K to dv g) as [x2| | |]; cbn [both obind] in *; try contradiction; auto.
    destruct (map_o (accum_trans it1 micro pb K to dv) gs), (map_o (accum_trans it2 micro pb K to dv) gs); cbn [both obind] in *; try contradiction; auto.
  Qed.
  Lemma close_concat r1 r2 : Forall2 close r1 r2 ->
    concat (map fst r1) = concat (map fst r2) /\ Permutation (concat (map snd r1)) (concat (map snd r2)) /\ sameeqv (concat (map snd r1)) (concat (map snd r2)).
  Proof.
    induction 1 as [|x y r1 r2 (H1 & H2 & H3) _ (E1 & E2 & E3)]; [repeat split; constructor|]. cbn [map concat]. rewrite H1, E1. split; [reflexivity|].
    split; [apply Permutation_app; assumption|apply sameeqv_app; assumption].
  Qed.
  Lemma find_accum_NoDup to dv : forall posts prev accum, NoDup accum -> NoDup (find_accum to dv prev accum posts).
  Proof.
    induction posts as [|p posts IH]; intros prev accum Hn; [exact Hn|]. cbn [find_accum]. apply IH.
    assert (N1 : NoDup (if str_eqb (p_ccy p) to then accum else add_key (p_acct p) accum)) by (destruct (str_eqb (p_ccy p) to); [exact Hn|apply add_key_NoDup; exact Hn]).
    destruct prev as [q|]; [|exact N1]. destruct (nonempty _); [apply add_key_NoDup|]; exact N1.
  Qed.
  (** What is handed to the sort, up to the order of the subtotals. *)
  Lemma it_rows pb posts to dv : both (fun a b => exists x y, a = srt x /\ b = srt y /\ Permutation x y /\ sameeqv x y) (accum_rows srt it1 micro pb posts to dv) (accum_rows srt it2 micro pb posts to dv).
  Proof.
    unfold accum_rows. destruct (add_empty_accounts srt posts) as [ps| | |]; cbn [obind]; try exact I.
    pose proof (it_rows_list pb (find_accum to dv None [] ps) to dv (find_accum_NoDup to dv ps None [] (NoDup_nil _)) (group_all ps)) as H.
    destruct (map_o (accum_trans it1 micro pb _ to dv) _) as [r1| | |], (map_o (accum_trans it2 micro pb _ to dv) _) as [r2| | |]; cbn [both obind] in *; try contradiction; auto.
    apply close_concat in H as (E & P & S0). rewrite E. eexists _, _. split; [reflexivity|]. split; [reflexivity|]. split; [apply Permutation_app_head; exact P|apply sameeqv_app; [intros q; reflexivity|exact S0]].
  Qed.
  Lemma it_stable pb posts to dv : sort_ok is_less srt -> stable srt -> accum_rows srt it1 micro pb posts to dv = accum_rows srt it2 micro pb posts to dv.
  Proof.
    intros Hs Hst. pose proof (it_rows pb posts to dv) as H. destruct (accum_rows srt it1 micro pb posts to dv), (accum_rows srt it2 micro pb posts to dv); cbn [both] in H; try contradiction; try reflexivity.
    destruct H as (x & y & -> & -> & P & E). f_equal. apply sorted_sameeqv; [apply Hs|apply Hs|]. intros q. rewrite (stable_eqv srt x Hst), (stable_eqv srt y Hst). apply E.
  Qed.
  Lemma it_accumulate to dv credit hidden b : sort_ok is_less srt -> stable srt -> accumulate srt it1 micro to dv credit hidden b = accumulate srt it2 micro to dv credit hidden b.
  Proof. intros Hs Hst. unfold accumulate. cbn zeta. destruct (bk_post (compact srt b)); [reflexivity|]. rewrite it_stable by assumption. reflexivity. Qed.
  (** Without ties every sort gives the same rows. *)
  Lemma it_no_ties pb posts to dv r : sort_ok is_less srt -> accum_rows srt it1 micro pb posts to dv = Ok r -> NoDup (map fkey r) -> accum_rows srt it2 micro pb posts to dv = Ok r.
  Proof.
    intros Hs E Hn. pose proof (it_rows pb posts to dv) as H. rewrite E in H. destruct (accum_rows srt it2 micro pb posts to dv) as [r'| | |]; cbn [both] in H; try contradiction.
    destruct H as (x & y & -> & -> & P & _). f_equal. symmetry. apply sorted_sameeqv; [apply Hs|apply Hs|].
    assert (P' : Permutation (srt x) (srt y)) by (rewrite <- (proj1 (Hs x)), <- (proj1 (Hs y)); exact P).
    intros q. assert (Pq : Permutation (filter (eqv q) (srt x)) (filter (eqv q) (srt y))) by (apply perm_filter; exact P').
    assert (Hc : filter (eqv q) (srt x) = [] \/ exists k, filter (eqv q) (srt x) = [k]).
    { clear - Hn. induction (srt x) as [|z l IH]; [left; reflexivity|]. cbn [map] in Hn. inversion Hn as [|? ? Hz Hn']; subst. cbn [filter]. destruct (eqv q z) eqn:Ez; [|apply IH; exact Hn'].
      right. exists z. f_equal. destruct (filter (eqv q) l) as [|w r] eqn:Er; [reflexivity|]. exfalso. assert (Hw : In w (filter (eqv q) l)) by (rewrite Er; left; reflexivity).
      apply filter_In in Hw as [Hw Kw]. apply eqv_fkey in Ez, Kw. apply Hz. rewrite <- Ez, Kw. apply in_map. exact Hw. }
    destruct Hc as [F|[k F]]; rewrite F in *.
    - apply Permutation_nil in Pq. symmetry. exact Pq.
    - apply Permutation_length_1_inv in Pq. symmetry. exact Pq.
  Qed.
End It.

(** The price lists in another order. *)
Lemma show_prices_perm f64 is_letter decs pb l1 l2 : Permutation l1 l2 ->
  both (fun x y => exists ps qs, x = concat ps /\ y = concat qs /\ Permutation ps qs) (show_prices f64 is_letter decs pb l1) (show_prices f64 is_letter decs pb l2).
Proof.
  intros P.
  set (one := fun uc : str * str => show_price_list f64 is_letter decs (fst uc) (snd uc) (match aget pair_eqb uc pb with Some l => l | None => [] end)).
      assert (Pn : forall uc, only_panics (one uc)).
      { intros [u c]. unfold one. cbn [fst snd]. generalize (match aget pair_eqb (u, c) pb with Some l => l | None => [] end). intros pl. induction pl as [|p pl IH]; [exact I|]. cbn [show_price_list].
        unfold show_price, format_symbol. destruct (Utf8.decode c); cbn [obind]; [exact I|]. destruct (show_price_list _ _ _ _ _ _); cbn [obind]; try contradiction; exact I. }
      assert (E : forall l, match show_prices f64 is_letter decs pb l with Ok s => exists ps, map one l = map Ok ps /\ s = concat ps | Panic => In Panic (map one l) | _ => False end).
      { induction l as [|[u c] l IH]; [exists []; split; reflexivity|]. cbn [show_prices map]. change (show_price_list f64 is_letter decs u c (match aget pair_eqb (u, c) pb with Some l => l | None => [] end)) with (one (u, c)).
        pose proof (Pn (u, c)). destruct (one (u, c)) as [t| | |]; try contradiction; cbn [obind]; [|left; reflexivity].
        destruct (show_prices _ _ _ _ l) as [r| | |]; try contradiction; cbn [obind]; [|right; exact IH]. destruct IH as (ps & Em & Er). exists (t :: ps). cbn [map concat]. rewrite Em, Er. split; reflexivity. }
      pose proof (E l1) as E1. pose proof (E l2) as E2. pose proof (Permutation_map one P) as Pm.
      destruct (show_prices _ _ _ _ l1) as [s1| | |], (show_prices _ _ _ _ l2) as [s2| | |]; try contradiction; cbn [both]; try exact I.
      - destruct E1 as (ps & Ep & ->), E2 as (qs & Eq & ->). exists ps, qs. split; [reflexivity|split; [reflexivity|]]. rewrite Ep, Eq in Pm.
        apply (Permutation_map (fun o => match o with Ok s => s | _ => [] end)) in Pm. rewrite !map_map, !map_id in Pm. exact Pm.
      - destruct E1 as (ps & Ep & ->). apply (Permutation_in _ (Permutation_sym Pm)) in E2. rewrite Ep in E2. apply in_map_iff in E2 as (x & Ex & _). discriminate.
      - destruct E2 as (qs & Eq & ->). apply (Permutation_in _ Pm) in E1. rewrite Eq in E1. apply in_map_iff in E1 as (x & Ex & _). discriminate.
Qed.
