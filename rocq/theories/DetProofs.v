(** * DetProofs: loading a ledger does not depend on the order in which Go visits a map (C108). *)
From Verif Require Import Base Utf8 Dec PriceModel BookModel BookSpec BookProofs BuilderProofs AccumModel LoaderModel LoaderSpec LoaderProofs LoaderProofs2 LoaderProofs3 LoaderProofs5 DetSpec.
From Coq Require Import ZifyBool ZifyNat Zify.
Ltac Zify.zify_post_hook ::= idtac.

Definition samekeys (a b : list posting) : Prop := forall q, filter (same_key q) a = filter (same_key q) b.

(** Two builders that differ only in the order of postings with different keys and in the order of the open balances. *)
Record sim (b1 b2 : builder) : Prop := mkSim {
  s_perm : Permutation (bu_post b1) (bu_post b2);
  s_keys : samekeys (bu_post b1) (bu_post b2);
  s_prev : bu_prev b1 = bu_prev b2; s_date : bu_date b1 = bu_date b2; s_payee : bu_payee b1 = bu_payee b2;
  s_note : bu_note b1 = bu_note b2; s_prices : bu_prices b1 = bu_prices b2;
  s_nd1 : NoDup (akeys (bu_amts b1)); s_nd2 : NoDup (akeys (bu_amts b2));
  s_amts : forall c, aget str_eqb c (bu_amts b1) = aget str_eqb c (bu_amts b2) }.

Lemma sim_new : sim new_builder new_builder.
Proof. constructor; try reflexivity; constructor. Qed.

Lemma samekeys_app a b c d : samekeys a b -> samekeys c d -> samekeys (a ++ c) (b ++ d).
Proof. intros H1 H2 q. rewrite !filter_app, H1, H2. reflexivity. Qed.

Lemma aset_same c c' v (m1 m2 : list (str * Qc)) : (forall c, aget str_eqb c m1 = aget str_eqb c m2) ->
  aget str_eqb c' (aset str_eqb c v m1) = aget str_eqb c' (aset str_eqb c v m2).
Proof.
  intros H. destruct (str_eqb c' c) eqn:E.
  - apply str_eqb_eq in E. subst. rewrite !(aget_aset_eq _ str_eqb_eq). reflexivity.
  - assert (c' <> c) by (intros ->; rewrite str_eqb_refl in E; discriminate). rewrite !(aget_aset_neq _ str_eqb_eq) by assumption. apply H.
Qed.
Lemma sim_add b1 b2 a c v n : sim b1 b2 -> sim (add_posting b1 a c v n) (add_posting b2 a c v n).
Proof.
  intros [H1 H2 H3 H4 H5 H6 H7 H8 H9 H10]. unfold add_posting. constructor; cbn [bu_post bu_prev bu_date bu_payee bu_note bu_prices bu_amts]; try assumption.
  - rewrite H4, H5, H6. apply Permutation_app_tail. exact H1.
  - rewrite H4, H5, H6. apply samekeys_app; [exact H2|intros q; reflexivity].
  - apply (aset_NoDup _ str_eqb_eq). exact H8.
  - apply (aset_NoDup _ str_eqb_eq). exact H9.
  - intros c'. rewrite H10. apply aset_same. exact H10.
Qed.
Lemma sim_price b1 b2 d u c v : sim b1 b2 -> sim (b_add_price b1 d u c v) (b_add_price b2 d u c v).
Proof. intros [H1 H2 H3 H4 H5 H6 H7 H8 H9 H10]. constructor; cbn [b_add_price bu_post bu_prev bu_date bu_payee bu_note bu_prices bu_amts]; try assumption. rewrite H7. reflexivity. Qed.

(** ** The amountless posting *)
Definition open_in (b : builder) (k : str) : bool := match aget str_eqb k (bu_amts b) with Some v => negb (qc_is0 v) | None => false end.
Definition closing (b : builder) (a n k : str) : posting :=
  mkP (bu_date b) (bu_payee b) (bu_note b) a k (- match aget str_eqb k (bu_amts b) with Some v => v | None => 0 end)%Qc n 0%Qc 0 [] [].
Lemma elide_spec a n : forall keys b, NoDup keys -> NoDup (akeys (bu_amts b)) ->
  let e := elide a n keys b in
  bu_post e = bu_post b ++ map (closing b a n) (filter (open_in b) keys) /\
  bu_prev e = bu_prev b /\ bu_date e = bu_date b /\ bu_payee e = bu_payee b /\ bu_note e = bu_note b /\ bu_prices e = bu_prices b /\
  NoDup (akeys (bu_amts e)) /\
  forall c, aget str_eqb c (bu_amts e) = if existsb (str_eqb c) keys then match aget str_eqb c (bu_amts b) with Some _ => Some 0%Qc | None => None end else aget str_eqb c (bu_amts b).
Proof.
  induction keys as [|k keys IH]; intros b Hn Hd e; subst e.
  - cbn [elide filter map existsb]. rewrite app_nil_r. repeat split; auto.
  - inversion Hn as [|? ? Hk Hn']; subst. cbn [elide].
    assert (Hnot : forall c, existsb (str_eqb c) keys = true -> c <> k) by (intros c Hc ->; apply existsb_exists in Hc as (x & Hx & Ex); apply str_eqb_eq in Ex; subst x; contradiction).
    destruct (aget str_eqb k (bu_amts b)) as [v|] eqn:Ev; [destruct (qc_is0 v) eqn:Ez|].
    + destruct (IH b Hn' Hd) as (E1 & E2 & E3 & E4 & E5 & E6 & E7 & E8).
      assert (Eo : open_in b k = false) by (unfold open_in; rewrite Ev, Ez; reflexivity).
      cbn [filter]. rewrite Eo. repeat split; auto. intros c. rewrite E8. cbn [existsb]. destruct (str_eqb c k) eqn:Ec; [|reflexivity].
      apply str_eqb_eq in Ec. subst c. apply qc_is0_eq in Ez. subst v. cbn [orb]. rewrite Ev. destruct (existsb _ keys); reflexivity.
    + set (b' := add_posting b a k (- v)%Qc n).
      assert (Hd' : NoDup (akeys (bu_amts b'))) by (apply (aset_NoDup _ str_eqb_eq); exact Hd).
      assert (Hget : forall c, c <> k -> aget str_eqb c (bu_amts b') = aget str_eqb c (bu_amts b)) by (intros c Hc; unfold b', add_posting; cbn [bu_amts]; apply (aget_aset_neq _ str_eqb_eq); exact Hc).
      assert (Hgk : aget str_eqb k (bu_amts b') = Some 0%Qc) by (unfold b', add_posting; cbn [bu_amts]; rewrite (aget_aset_eq _ str_eqb_eq), Ev; f_equal; ring).
      destruct (IH b' Hn' Hd') as (E1 & E2 & E3 & E4 & E5 & E6 & E7 & E8).
      assert (Eo : open_in b k = true) by (unfold open_in; rewrite Ev, Ez; reflexivity).
      cbn [filter]. rewrite Eo. cbn [map].
      assert (Ef : filter (open_in b') keys = filter (open_in b) keys).
      { apply filter_ext_in. intros c Hc. unfold open_in. rewrite Hget; [reflexivity|]. intros ->. contradiction. }
      assert (Em : map (closing b' a n) (filter (open_in b) keys) = map (closing b a n) (filter (open_in b) keys)).
      { apply map_ext_in. intros c Hc. apply filter_In in Hc as [Hc _]. unfold closing. rewrite Hget; [reflexivity|]. intros ->. contradiction. }
      repeat split; auto.
      * rewrite E1, Ef, Em. unfold b', add_posting; cbn [bu_post]. rewrite <- app_assoc. cbn [app]. unfold closing at 2. rewrite Ev. reflexivity.
      * intros c. rewrite E8. cbn [existsb]. destruct (str_eqb c k) eqn:Ec.
        -- apply str_eqb_eq in Ec. subst c. rewrite Hgk, Ev. cbn [orb]. destruct (existsb _ keys); reflexivity.
        -- cbn [orb]. rewrite Hget; [reflexivity|]. intros ->. rewrite str_eqb_refl in Ec. discriminate.
    + destruct (IH b Hn' Hd) as (E1 & E2 & E3 & E4 & E5 & E6 & E7 & E8).
      assert (Eo : open_in b k = false) by (unfold open_in; rewrite Ev; reflexivity).
      cbn [filter]. rewrite Eo. repeat split; auto. intros c. rewrite E8. cbn [existsb]. destruct (str_eqb c k) eqn:Ec; [|reflexivity].
      apply str_eqb_eq in Ec. subst c. cbn [orb]. rewrite Ev. destruct (existsb _ keys); reflexivity.
Qed.

Lemma perm_filter {A} (f : A -> bool) l l' : Permutation l l' -> Permutation (filter f l) (filter f l').
Proof.
  induction 1 as [|x l l' _ IH|x y l|l l' l'' _ IH1 _ IH2].
  - constructor.
  - cbn [filter]. destruct (f x); [constructor|]; exact IH.
  - cbn [filter]. destruct (f x), (f y); try apply Permutation_refl. constructor.
  - eapply perm_trans; eauto.
Qed.
(** At most one posting of each currency, so the order does not matter within one key. *)
Lemma one_per_ccy (f : str -> posting) : (forall k, p_ccy (f k) = k) -> forall l l', NoDup l -> Permutation l l' -> samekeys (map f l) (map f l').
Proof.
  intros Hf l l' Hn Hp q.
  assert (Hc : forall m, NoDup m -> filter (same_key q) (map f m) = [] \/ exists k, filter (same_key q) (map f m) = [f k]).
  { clear -Hf. intros m. induction m as [|x m IH]; intros Hn; [left; reflexivity|]. inversion Hn as [|? ? Hx Hn']; subst. cbn [map filter].
    destruct (same_key q (f x)) eqn:E; [|apply IH; exact Hn']. right. exists x. f_equal.
    destruct (filter (same_key q) (map f m)) as [|y r] eqn:Er; [reflexivity|]. exfalso.
    assert (Hy : In y (filter (same_key q) (map f m))) by (rewrite Er; left; reflexivity). apply filter_In in Hy as [Hy Ky].
    apply in_map_iff in Hy as (k & <- & Hk). apply same_key_eq in E, Ky. rewrite E in Ky. apply pkey_eq in Ky as (_ & _ & _ & Ky).
    apply Hx. rewrite Hf in Ky. rewrite Hf in Ky. subst k. exact Hk. }
  assert (Hp' : Permutation (filter (same_key q) (map f l)) (filter (same_key q) (map f l'))) by (apply perm_filter, Permutation_map; exact Hp).
  destruct (Hc l Hn) as [E|[k E]]; rewrite E in *.
  - apply Permutation_nil in Hp'. symmetry. exact Hp'.
  - apply Permutation_length_1_inv in Hp'. symmetry. exact Hp'.
Qed.


Lemma amts_keys b1 b2 : sim b1 b2 -> Permutation (akeys (bu_amts b1)) (akeys (bu_amts b2)).
Proof.
  intros H. apply NoDup_Permutation; [exact (s_nd1 _ _ H)|exact (s_nd2 _ _ H)|]. intros k.
  pose proof (s_amts _ _ H k) as E. pose proof (aget_None _ str_eqb_eq k (bu_amts b1)) as N1. pose proof (aget_None _ str_eqb_eq k (bu_amts b2)) as N2.
  split; intros Hk; [destruct (aget str_eqb k (bu_amts b2)) eqn:Eg|destruct (aget str_eqb k (bu_amts b1)) eqn:Eg].
  - apply (aget_In _ str_eqb_eq) in Eg. apply in_map_iff. eexists. split; [|exact Eg]. reflexivity.
  - exfalso. apply N1; assumption.
  - apply (aget_In _ str_eqb_eq) in Eg. apply in_map_iff. eexists. split; [|exact Eg]. reflexivity.
  - exfalso. apply N2; [symmetry|]; assumption.
Qed.
Lemma sim_elide ord1 ord2 a n b1 b2 : some_order ord1 -> some_order ord2 -> sim b1 b2 ->
  sim (elide a n (ord1 (bu_amts b1)) b1) (elide a n (ord2 (bu_amts b2)) b2).
Proof.
  intros O1 O2 H. pose proof (amts_keys _ _ H) as Hk. destruct H as [H1 H2 H3 H4 H5 H6 H7 H8 H9 H10].
  pose proof (O1 _ H8) as P1. pose proof (O2 _ H9) as P2.
  assert (N1 : NoDup (ord1 (bu_amts b1))) by (eapply Permutation_NoDup; [symmetry; exact P1|exact H8]).
  assert (N2 : NoDup (ord2 (bu_amts b2))) by (eapply Permutation_NoDup; [symmetry; exact P2|exact H9]).
  assert (P12 : Permutation (ord1 (bu_amts b1)) (ord2 (bu_amts b2))) by (rewrite P1, P2; exact Hk).
  destruct (elide_spec a n _ b1 N1 H8) as (E1 & E2 & E3 & E4 & E5 & E6 & E7 & E8).
  destruct (elide_spec a n _ b2 N2 H9) as (F1 & F2 & F3 & F4 & F5 & F6 & F7 & F8).
  assert (Hc : forall k, closing b1 a n k = closing b2 a n k) by (intros k; unfold closing; rewrite H4, H5, H6, H10; reflexivity).
  assert (Ho : forall k, open_in b1 k = open_in b2 k) by (intros k; unfold open_in; rewrite H10; reflexivity).
  assert (Ef : filter (open_in b1) (ord1 (bu_amts b1)) = filter (open_in b2) (ord1 (bu_amts b1))) by (apply filter_ext; exact Ho).
  assert (Em : forall l, map (closing b1 a n) l = map (closing b2 a n) l) by (intros l; apply map_ext; exact Hc).
  constructor; try congruence.
  - rewrite E1, F1, Ef, Em. apply Permutation_app; [exact H1|]. apply Permutation_map, perm_filter. exact P12.
  - rewrite E1, F1, Ef, Em. apply samekeys_app; [exact H2|]. apply one_per_ccy; [reflexivity|apply NoDup_filter; exact N1|apply perm_filter; exact P12].
  - intros c. rewrite E8, F8, H10.
    assert (Ee : existsb (str_eqb c) (ord1 (bu_amts b1)) = existsb (str_eqb c) (ord2 (bu_amts b2))); [|rewrite Ee; reflexivity].
    apply eq_true_iff_eq. rewrite !existsb_exists. split; intros (x & Hx & E); exists x; (split; [|exact E]).
    + eapply Permutation_in; [exact P12|exact Hx].
    + eapply Permutation_in; [symmetry; exact P12|exact Hx].
Qed.

(** ** Opening and closing transactions *)
Lemma all_zero b : NoDup (akeys (bu_amts b)) ->
  forallb (fun '(_, v) => qc_is0 v) (bu_amts b) = true <-> (forall c v, aget str_eqb c (bu_amts b) = Some v -> qc_is0 v = true).
Proof.
  intros Hn. rewrite forallb_forall. split.
  - intros H c v E. apply (aget_In _ str_eqb_eq) in E. exact (H _ E).
  - intros H [c v] Hin. apply (H c v). apply (aget_Some_iff _ str_eqb_eq); assumption.
Qed.
Lemma aget_zeros (m : list (str * Qc)) c : aget str_eqb c (map (fun '(c, _) => (c, 0%Qc)) m) = match aget str_eqb c m with Some _ => Some 0%Qc | None => None end.
Proof. induction m as [|[k v] m IH]; [reflexivity|]. cbn [map aget]. destruct (str_eqb k c); [reflexivity|exact IH]. Qed.
Lemma akeys_zeros (m : list (str * Qc)) : akeys (map (fun '(c, _) => (c, 0%Qc)) m) = akeys m.
Proof. induction m as [|[k v] m IH]; [reflexivity|]. cbn [map akeys]. f_equal. exact IH. Qed.
Lemma sim_clear b1 b2 : sim b1 b2 -> both sim (check_and_clear b1) (check_and_clear b2).
Proof.
  intros H. unfold check_and_clear.
  assert (Ez : forallb (fun '(_, v) => qc_is0 v) (bu_amts b1) = forallb (fun '(_, v) => qc_is0 v) (bu_amts b2)).
  { apply eq_true_iff_eq. rewrite (all_zero b1 (s_nd1 _ _ H)), (all_zero b2 (s_nd2 _ _ H)).
    split; intros Hz c v E; apply (Hz c v); rewrite <- E; [|symmetry]; apply (s_amts _ _ H). }
  rewrite Ez. destruct (forallb _ (bu_amts b2)); [|exact I]. destruct H as [H1 H2 H3 H4 H5 H6 H7 H8 H9 H10].
  constructor; cbn [bu_post bu_prev bu_date bu_payee bu_note bu_prices bu_amts]; try assumption; rewrite ?akeys_zeros; try assumption.
  intros c. rewrite !aget_zeros, H10. reflexivity.
Qed.
Lemma sim_trans b1 b2 d p n : sim b1 b2 -> both sim (new_transaction b1 d p n) (new_transaction b2 d p n).
Proof.
  intros H. unfold new_transaction. pose proof (sim_clear b1 b2 H) as Hc.
  destruct (check_and_clear b1) as [c1| | |], (check_and_clear b2) as [c2| | |]; try contradiction; cbn [obind both]; auto.
  cbn [both] in Hc. destruct Hc as [H1 H2 H3 H4 H5 H6 H7 H8 H9 H10]. rewrite H3.
  destruct (rename_loop _ _ _ _ _ _) as [cur| | |]; cbn [obind both]; auto.
  constructor; cbn [bu_post bu_prev bu_date bu_payee bu_note bu_prices bu_amts]; try assumption; try reflexivity.
Qed.

Section Sim.
  Variables (is_letter is_udigit : Z -> bool) (to_upper : Z -> Z).
  Variables ord1 ord2 : list (str * Qc) -> list str.
  Hypothesis O1 : some_order ord1.
  Hypothesis O2 : some_order ord2.
  Variable fs : str -> option str.
  Variable resolve : str -> str -> str.

  Definition simrest (x y : builder * runes) : Prop := sim (fst x) (fst y) /\ snd x = snd y.
  Lemma sim_parse_price b1 b2 l : sim b1 b2 -> both simrest (parse_price b1 l) (parse_price b2 l).
  Proof.
    intros H. unfold parse_price. destruct (negb (ch l =? 80)); [exact I|].
    destruct (parse_date _) as [[d l1]| | |]; cbn [obind]; try exact I. destruct (parse_time _) as [l2| | |]; cbn [obind]; try exact I.
    destruct (parse_ccy _) as [[u l3]| | |]; cbn [obind]; try exact I. destruct (parse_ccy_amt _) as [[ca l4]| | |]; cbn [obind]; try exact I.
    split; [apply sim_price; exact H|reflexivity].
  Qed.
  Lemma sim_parse_posting nm b1 b2 l : sim b1 b2 -> both simrest (parse_posting ord1 nm b1 l) (parse_posting ord2 nm b2 l).
  Proof.
    intros H. unfold parse_posting. destruct (parse_account _) as [acct l1]. destruct (if ch (consume_ws l1) =? 45 then _ else _) as [ng l2].
    destruct (parse_ccy_amt l2) as [[[c v] l3]| | |]; cbn [obind]; try exact I.
    destruct (if ch (consume_ws l3) =? 64 then _ else _) as [l4| | |]; cbn [obind]; try exact I. destruct (parse_note l4) as [note l5].
    destruct c as [|x c]; (split; [|reflexivity]); cbn [fst].
    - apply sim_elide; assumption.
    - apply sim_add; exact H.
  Qed.
  Definition todo_rel (x y : todo) : Prop :=
    match x, y with
    | Go b1 nm1 l1, Go b2 nm2 l2 => sim b1 b2 /\ nm1 = nm2 /\ l1 = l2
    | Include n1 b1 nm1 l1, Include n2 b2 nm2 l2 => n1 = n2 /\ sim b1 b2 /\ nm1 = nm2 /\ l1 = l2
    | _, _ => False
    end.
  Lemma sim_step b1 b2 nm l : sim b1 b2 -> both todo_rel (step is_letter is_udigit to_upper ord1 b1 nm l) (step is_letter is_udigit to_upper ord2 b2 nm l).
  Proof.
    intros H. unfold step. set (l' := consume_ws l).
    destruct ((ch l' =? 59) || (ch l' =? eol) || (ch l' =? eof)); [(split; [exact H|split; reflexivity])|].
    destruct (negb (has_ws l)).
    - destruct ((ch l' =? 61) || (ch l' =? 68)); [(split; [exact H|split; reflexivity])|].
      destruct (ch l' =? 80).
      { pose proof (sim_parse_price b1 b2 l' H) as Hp. destruct (parse_price b1 l') as [[x1 r1]| | |], (parse_price b2 l') as [[x2 r2]| | |]; try contradiction; cbn [obind both]; auto.
        destruct Hp as [Hp E]. cbn [fst snd] in *. split; [assumption|split; [reflexivity|assumption]]. }
      destruct (digit (ch l')).
      { destruct (parse_transaction l') as [[[[d p] n] r]| | |]; cbn [obind]; try exact I.
        pose proof (sim_trans b1 b2 d p n H) as Hp. destruct (new_transaction b1 d p n) as [x1| | |], (new_transaction b2 d p n) as [x2| | |]; try contradiction; cbn [obind both]; auto.
        split; [assumption|split; reflexivity]. }
      destruct (parse_identifier is_letter is_udigit to_upper l') as [cmd r].
      destruct (str_eqb cmd (bs "INCLUDE")).
      { destruct (parse_to_eol r) as [s r']. destruct (include_name s) as [nme| | |]; cbn [obind]; try exact I. split; [reflexivity|split; [exact H|split; reflexivity]]. }
      destruct (str_eqb cmd (bs "ALIAS")); [|exact I]. destruct (parse_account r) as [short r1]. destruct (negb (ch (consume_ws r1) =? 61)); [exact I|].
      destruct (parse_account _) as [long r2]. destruct long; [exact I|]. destruct (parse_to_eol _) as [x r3]. (split; [exact H|split; reflexivity]).
    - pose proof (sim_parse_posting nm b1 b2 l' H) as Hp. destruct (parse_posting ord1 nm b1 l') as [[x1 r1]| | |], (parse_posting ord2 nm b2 l') as [[x2 r2]| | |]; try contradiction; cbn [obind both]; auto.
      destruct Hp as [Hp E]. cbn [fst snd] in *. split; [assumption|split; [reflexivity|assumption]].
  Qed.
  Definition fres_rel (x y : fres) : Prop :=
    match x, y with FOk a, FOk b => sim a b | FErr, FErr | FExit, FExit | FDiverge, FDiverge => True | _, _ => False end.
  Lemma sim_loop rec1 rec2 file : (forall b1 b2 f nm, sim b1 b2 -> fres_rel (rec1 b1 f nm) (rec2 b2 f nm)) ->
    forall fuel b1 b2 nm l, sim b1 b2 ->
    fres_rel (file_loop is_letter is_udigit to_upper ord1 resolve rec1 file fuel b1 nm l) (file_loop is_letter is_udigit to_upper ord2 resolve rec2 file fuel b2 nm l).
  Proof.
    intros Hrec. induction fuel as [|fuel IH]; intros b1 b2 nm l H; [exact I|]. cbn [file_loop]. destruct (ch l =? eof); [exact H|].
    pose proof (sim_step b1 b2 nm l H) as Hs.
    destruct (step is_letter is_udigit to_upper ord1 b1 nm l) as [[x1 n1 r1|i1 x1 n1 r1]| | |], (step is_letter is_udigit to_upper ord2 b2 nm l) as [[x2 n2 r2|i2 x2 n2 r2]| | |];
      cbn [both todo_rel] in Hs; try contradiction; try exact I.
    - destruct Hs as (Hs & <- & <-). apply IH. exact Hs.
    - destruct Hs as (<- & Hs & <- & <-). pose proof (Hrec x1 x2 (resolve file i1) n1 Hs) as Hr.
      destruct (rec1 x1 (resolve file i1) n1), (rec2 x2 (resolve file i1) n1); cbn [fres_rel] in Hr |- *; try contradiction; try exact I. apply IH. exact Hr.
  Qed.
  Lemma sim_file : forall depth b1 b2 file nm, sim b1 b2 ->
    fres_rel (parse_file is_letter is_udigit to_upper ord1 fs resolve depth b1 file nm) (parse_file is_letter is_udigit to_upper ord2 fs resolve depth b2 file nm).
  Proof.
    induction depth as [|depth IH]; intros b1 b2 file nm H; [exact I|]. cbn [parse_file]. destruct (fs file) as [bytes|]; [|exact I].
    apply sim_loop; [|exact H]. intros x1 x2 f m Hx. apply IH. exact Hx.
  Qed.
End Sim.
