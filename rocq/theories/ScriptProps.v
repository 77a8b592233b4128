(** * ScriptProps: C54 and C75, the add() function of scripts. *)
From Verif Require Import Base Dec DateModel PriceModel BookModel BookSpec BookProofs BuilderProofs OpsModel BookProps ScriptModel ScriptSpec.

Definition bare (p : posting) : leg := (p_acct p, p_ccy p, p_val p).

Section Add.
  Variable today : Z.
  Variable set_string : str -> option Qc.
  Variable def : defaults.
  Notation add := (add today set_string def).
  Notation run_adds := (run_adds today set_string def).
  Notation entry := (entry set_string def).

  Definition at_rest (b : builder) : Prop := exists used seg, state_ok b used seg /\ forall c, seg_sum c seg = 0%Qc.

  Lemma rest_pair b acct cacct ccy v n : at_rest b ->
    at_rest (add_posting (add_posting b acct ccy v n) cacct ccy (- v)%Qc []).
  Proof.
    intros (used & seg & H & Hz). exists used, ((seg ++ [(ccy, v)]) ++ [(ccy, (- v)%Qc)]). split.
    - apply add_posting_ok. apply add_posting_ok. exact H.
    - intros c. rewrite !seg_sum_app, Hz. unfold seg_sum. cbn [filter]. destruct (str_eqb ccy c); cbn [map snd]; unfold qsum; cbn [fold_right]; ring.
  Qed.
  Lemma rest_new b d p n : at_rest b -> exists b', new_transaction b d p n = Ok b' /\ at_rest b' /\ bu_post b' = bu_post b.
  Proof.
    intros (used & seg & H & Hz). destruct (new_transaction_cases b used seg d p n H) as [(_ & b' & E & _ & _ & Hp & _ & _ & _ & Hok)|[Hn _]]; [|contradiction].
    exists b'. split; [exact E|]. split; [|exact Hp]. exists (used ++ [(d, bu_payee b')]), []. split; [exact Hok|reflexivity].
  Qed.

  Lemma rat_cases v :
    (exists q, get_big_rat set_string v = Ok (Some q) /\ ~ bad_amount set_string v /\ v <> VNone /\ (v <> VFloat None -> amount set_string v q))
    \/ (get_big_rat set_string v = Error /\ bad_amount set_string v)
    \/ (get_big_rat set_string v = Ok None /\ v = VNone).
  Proof.
    assert (Hb : forall v, (v <> VOther) -> (forall s, v = VStr s -> set_string s <> None) -> ~ bad_amount set_string v).
    { intros v0 H1 H2 [H|(s & H & H')]; [contradiction|]. exact (H2 s H H'). }
    destruct v as [|[q|]|z|s|]; cbn [get_big_rat].
    - right. right. auto.
    - left. exists q. split; [reflexivity|]. split; [apply Hb; discriminate|]. split; [discriminate|]. intros _. constructor.
    - left. exists 0%Qc. split; [reflexivity|]. split; [apply Hb; discriminate|]. split; [discriminate|]. intros H. contradiction.
    - left. exists (qz z). split; [reflexivity|]. split; [apply Hb; discriminate|]. split; [discriminate|]. intros _. constructor.
    - destruct (set_string s) as [q|] eqn:E.
      + left. exists q. split; [reflexivity|]. split; [apply Hb; [discriminate|intros s0 [= <-]; congruence]|]. split; [discriminate|]. intros _. now constructor.
      + right. left. split; [reflexivity|]. right. exists s. auto.
    - right. left. split; [reflexivity|]. left. reflexivity.
  Qed.

  Lemma scale_cases (amt : option Qc) d :
    (exists q, amt = Some q /\ d <> 0 /\ scale amt d = Ok (q / qz d)%Qc) \/ ((amt = None \/ d = 0) /\ scale amt d = Panic).
  Proof.
    unfold scale, new_rat. destruct (Z.eqb_spec d 0) as [->|N]; [right; auto|]. cbn [obind].
    destruct amt as [q|]; [|right; auto]. left. exists q. split; [reflexivity|]. split; [exact N|]. f_equal.
    change (qz 1) with 1%Qc. unfold Qcdiv. ring.
  Qed.

  (** One call: the four possible results. *)
  Lemma add_cases b a : at_rest b ->
    (exists b' ps, add b a = Ok (b', false) /\ at_rest b' /\ bu_post b' = bu_post b ++ ps /\
       ~ crashes set_string today a /\ ~ rejected set_string today a /\
       (finite a -> entry a (map bare ps)))
    \/ (exists b' ps, add b a = Ok (b', true) /\ at_rest b' /\ bu_post b' = bu_post b ++ ps /\
       ~ crashes set_string today a /\ rejected set_string today a)
    \/ (add b a = Panic /\ crashes set_string today a /\ ~ rejected set_string today a).
  Proof.
    intros Hb. unfold ScriptModel.add.
    destruct (Z.eqb_spec (date_from_string today (a_date a)) 0) as [Ed|Nd].
    { right. left. exists b, []. split; [reflexivity|]. split; [exact Hb|]. split; [now rewrite app_nil_r|].
      split; [intros (H & _); contradiction|left; exact Ed]. }
    destruct (rat_cases (a_amt a)) as [(q & Eq & Nb & Nn & Hq)|[(Eq & Hbad)|(Eq & En)]]; rewrite Eq.
    2: { right. left. exists b, []. split; [reflexivity|]. split; [exact Hb|]. split; [now rewrite app_nil_r|].
         split; [intros (_ & H & _); contradiction|]. right. left. exact Hbad. }
    2: { right. right. destruct (scale_cases None (dflt 1 (a_denom a))) as [(q & F & _)|(_ & Es)]; [discriminate F|]. rewrite Es. cbn [obind].
         split; [reflexivity|]. split.
         - split; [exact Nd|]. split; [|left; exact En]. rewrite En. intros [H|(s & H & _)]; discriminate H.
         - intros [H|[H|(H & _)]]; [contradiction| |contradiction]. rewrite En in H. destruct H as [H|(s & H & _)]; discriminate H. }
    destruct (scale_cases (Some q) (dflt 1 (a_denom a))) as [(q' & [= <-] & Hd & Es)|([F|Hd] & Es)]; [|discriminate F|].
    2: { rewrite Es. cbn [obind]. right. right. split; [reflexivity|]. split.
         - split; [exact Nd|]. split; [exact Nb|]. right. left. exact Hd.
         - intros [H|[H|(_ & H & _)]]; [contradiction|contradiction|]. apply H. exact Hd. }
    rewrite Es. cbn [obind].
    destruct (rest_new b (date_from_string today (a_date a)) (a_desc a) (a_note a) Hb) as (b1 & E1 & H1 & P1). rewrite E1. cbn [obind]. cbv zeta.
    set (x := (q / qz (dflt 1%Z (a_denom a)))%Qc).
    set (acct := dflt (d_account def) (a_account a)). set (ccy := dflt (d_ccy def) (a_ccy a)).
    set (cacct := dflt (d_counter def) (a_caccount a)).
    pose proof (rest_pair b1 acct cacct ccy x (a_lnote a) H1) as H3.
    set (b3 := add_posting (add_posting b1 acct ccy x (a_lnote a)) cacct ccy (- x)%Qc []) in *.
    assert (P3 : exists ps, bu_post b3 = bu_post b ++ ps /\ map bare ps = pair_of acct cacct ccy x).
    { eexists [_; _]. split; [|]. unfold b3, add_posting; cbn [bu_post]. rewrite P1, <- app_assoc. cbn [app]. reflexivity. reflexivity. }
    destruct P3 as (ps & P3 & M3).
    assert (Hsg : single a \/ ~ single a).
    { unfold single. destruct (a_amt2 a); destruct (a_account2 a); try (right; intros [F G]; discriminate); left; auto. }
    destruct Hsg as [Hs|Hs].
    - destruct Hs as [S1 S2]. rewrite S1, S2. left. exists b3, ps. split; [reflexivity|]. split; [exact H3|]. split; [exact P3|].
      assert (Hs : single a) by (split; assumption).
      split; [intros (_ & _ & [H|[H|(H & _)]]); contradiction|].
      split.
      { intros [H|[H|(_ & _ & H)]]; [contradiction|contradiction|]. rewrite S1 in H. destruct H as [H|(s & H & _)]; discriminate H. }
      intros (F1 & _). rewrite M3. apply en_one; [apply Hq; exact F1|exact Hd|exact Hs].
    - assert (E : (match a_amt2 a, a_account2 a with
                   | VNone, [] => Ok (b3, false)
                   | v2, acct2 => match get_big_rat set_string v2 with
                                  | Error => Ok (b3, true) | Panic => Panic | Diverge => Diverge
                                  | Ok amt2 => do w <- scale amt2 (dflt 1 (a_denom2 a));
                                      Ok (add_posting (add_posting b3 acct2 (dflt (d_ccy def) (a_ccy2 a)) w []) cacct (dflt (d_ccy def) (a_ccy2 a)) (- w)%Qc [], false)
                                  end end)
                  = match get_big_rat set_string (a_amt2 a) with
                                  | Error => Ok (b3, true) | Panic => Panic | Diverge => Diverge
                                  | Ok amt2 => do w <- scale amt2 (dflt 1 (a_denom2 a));
                                      Ok (add_posting (add_posting b3 (a_account2 a) (dflt (d_ccy def) (a_ccy2 a)) w []) cacct (dflt (d_ccy def) (a_ccy2 a)) (- w)%Qc [], false)
                                  end).
      { destruct (a_amt2 a) eqn:E2; destruct (a_account2 a) eqn:E3; try reflexivity. exfalso. apply Hs. split; assumption. }
      rewrite E. clear E.
      set (ccy2 := dflt (d_ccy def) (a_ccy2 a)).
      destruct (rat_cases (a_amt2 a)) as [(r & Er & Nb2 & Nn2 & Hr)|[(Er & Hbad)|(Er & En)]]; rewrite Er.
      + destruct (scale_cases (Some r) (dflt 1 (a_denom2 a))) as [(r' & [= <-] & Hd2 & Es2)|([F|Hd2] & Es2)]; [|discriminate F|]; rewrite Es2; cbn [obind].
        * left. set (y := (r / qz (dflt 1%Z (a_denom2 a)))%Qc).
          eexists. eexists (ps ++ [_; _]). split; [reflexivity|]. split; [apply rest_pair; exact H3|].
          split; [unfold add_posting at 1 2; cbn [bu_post]; rewrite P3, <- !app_assoc; cbn [app]; reflexivity|].
          split; [intros (_ & _ & [H|[H|(_ & _ & [H|H])]]); contradiction|].
          split; [intros [H|[H|(_ & _ & H)]]; contradiction|].
          intros (F1 & F2). rewrite map_app, M3. apply en_two; [apply Hq; exact F1|exact Hd|exact Hs|apply Hr; exact F2|exact Hd2].
        * right. right. split; [reflexivity|]. split.
          -- split; [exact Nd|]. split; [exact Nb|]. right. right. split; [exact Hs|]. split; [exact Nb2|]. right. exact Hd2.
          -- intros [H|[H|(_ & _ & H)]]; contradiction.
      + right. left. exists b3, ps. split; [reflexivity|]. split; [exact H3|]. split; [exact P3|]. split.
        * intros (_ & _ & [H|[H|(_ & H & _)]]); contradiction.
        * right. right. split; [exact Nn|]. split; [exact Hd|exact Hbad].
      + destruct (scale_cases None (dflt 1 (a_denom2 a))) as [(r & F & _)|(_ & Es2)]; [discriminate F|]. rewrite Es2. cbn [obind].
        assert (Nb2 : ~ bad_amount set_string (a_amt2 a)) by (rewrite En; intros [H|(s & H & _)]; discriminate H).
        right. right. split; [reflexivity|]. split.
        * split; [exact Nd|]. split; [exact Nb|]. right. right. split; [exact Hs|]. split; [exact Nb2|]. left. exact En.
        * intros [H|[H|(_ & _ & H)]]; contradiction.
  Qed.

  (** A whole script. *)
  Lemma run_cases cs : forall b, at_rest b ->
    (exists b' ps, run_adds b cs = Ok (b', false) /\ at_rest b' /\ bu_post b' = bu_post b ++ ps /\
       Forall (fun a => ~ crashes set_string today a /\ ~ rejected set_string today a) cs /\
       (Forall finite cs -> exists es, Forall2 entry cs es /\ map bare ps = concat es))
    \/ (exists b' ps cs1 a cs2, run_adds b cs = Ok (b', true) /\ at_rest b' /\ bu_post b' = bu_post b ++ ps /\ cs = cs1 ++ a :: cs2 /\
       Forall (fun a => ~ crashes set_string today a /\ ~ rejected set_string today a) cs1 /\
       ~ crashes set_string today a /\ rejected set_string today a)
    \/ (exists cs1 a cs2, run_adds b cs = Panic /\ cs = cs1 ++ a :: cs2 /\
       Forall (fun a => ~ crashes set_string today a /\ ~ rejected set_string today a) cs1 /\
       crashes set_string today a /\ ~ rejected set_string today a).
  Proof.
    induction cs as [|a cs IH]; intros b Hb; cbn [ScriptModel.run_adds].
    { left. exists b, []. split; [reflexivity|]. split; [exact Hb|]. split; [now rewrite app_nil_r|]. split; [constructor|].
      intros _. exists []. split; constructor. }
    destruct (add_cases b a Hb) as [(b' & ps & E & R & P & N1 & N2 & En)|[(b' & ps & E & R & P & N1 & N2)|(E & N1 & N2)]]; rewrite E; cbn [obind].
    - destruct (IH b' R) as [(b2 & qs & E' & R' & P' & F' & En')|[(b2 & qs & cs1 & x & cs2 & E' & R' & P' & Ec & F' & N1' & N2')|(cs1 & x & cs2 & E' & Ec & F' & N1' & N2')]].
      + left. exists b2, (ps ++ qs). split; [exact E'|]. split; [exact R'|]. split; [rewrite P', P, <- app_assoc; reflexivity|].
        split; [constructor; auto|]. intros Hf. apply Forall_cons_iff in Hf as [Hf1 Hf2]. destruct (En' Hf2) as (es & H1 & H2).
        exists (map bare ps :: es). split; [constructor; [apply En; exact Hf1|exact H1]|]. cbn [concat]. rewrite map_app, H2. reflexivity.
      + right. left. exists b2, (ps ++ qs), (a :: cs1), x, cs2. split; [exact E'|]. split; [exact R'|]. split; [rewrite P', P, <- app_assoc; reflexivity|].
        split; [rewrite Ec; reflexivity|]. split; [constructor; auto|]. auto.
      + right. right. exists (a :: cs1), x, cs2. split; [exact E'|]. split; [rewrite Ec; reflexivity|]. split; [constructor; auto|]. auto.
    - right. left. exists b', ps, [], a, cs. split; [reflexivity|]. split; [exact R|]. split; [exact P|]. split; [reflexivity|]. split; [constructor|]. auto.
    - right. right. exists [], a, cs. split; [reflexivity|]. split; [reflexivity|]. split; [constructor|]. auto.
  Qed.

  Lemma rest_builds srt b : sort_ok is_less srt -> at_rest b ->
    exists bk, build srt b = Ok bk /\ book_ok bk /\ forall g, total g (bk_post bk) = total g (bu_post b).
  Proof.
    intros Hs (used & seg & (H1 & H2 & H3 & H4 & H5 & H6) & Hz). unfold build.
    destruct (check_cases b H1) as [(Hc & b' & Ec & (S1 & S2 & S3 & S4 & S5 & S6) & Hn' & Hz')|[Hc Ec]].
    2: { exfalso. apply Hc. intros c. rewrite H2. apply Hz. }
    rewrite Ec. cbn [obind]. eexists. split; [reflexivity|].
    set (bk := mkBook _ _ _ _). assert (Epost : bk_post bk = bu_post b) by exact S1. split.
    - apply (compact_ok srt Hs); [rewrite Epost; exact H4| |].
      + intros d pay c. rewrite Epost, H3, Hc. destruct (_ && _); reflexivity.
      + cbn [bk bk_post bk_trans]. intros ->. reflexivity.
    - intros g. rewrite (compact_total srt Hs), Epost. reflexivity.
  Qed.
  Lemma total_bare g ps : total (fun _ _ a c => g a c) ps = legs_total g (map bare ps).
  Proof.
    unfold total, legs_total. induction ps as [|p ps IH]; [reflexivity|]. cbn [filter map].
    unfold on at 1. unfold bare at 1. destruct (g (p_acct p) (p_ccy p)); cbn [map]; rewrite ?qsum_cons, IH; reflexivity.
  Qed.
End Add.

Lemma new_at_rest : at_rest new_builder.
Proof. exists [], []. split; [apply new_builder_ok|reflexivity]. Qed.

(** ** C54. Whatever calls a script makes, and whether or not it ends in an error, the builder it leaves behind can be
    built and every transaction of the book balances in every currency. A script that ends without an error posted
    exactly the entries of its calls: the totals per account and currency are those of the entries. *)
Theorem C54_add_balanced : forall today set_string def srt cs b err, sort_ok is_less srt ->
  run_adds today set_string def new_builder cs = Ok (b, err) ->
  exists bk, build srt b = Ok bk /\
    (forall d pay c, total (in_trans d pay c) (bk_post bk) = 0%Qc) /\
    (err = false -> Forall finite cs -> exists es, Forall2 (entry set_string def) cs es /\
       forall acct ccy, total (in_acct acct ccy) (bk_post bk)
                        = legs_total (fun a c => str_eqb a acct && str_eqb c ccy) (concat es)).
Proof.
  intros today ss def srt cs b err Hs E.
  assert (X : at_rest b /\ (err = false -> Forall finite cs -> exists es, Forall2 (entry ss def) cs es /\ map bare (bu_post b) = concat es)).
  { destruct (run_cases today ss def cs new_builder new_at_rest) as [(b' & ps & E' & R & P & _ & En)|[(b' & ps & cs1 & a & cs2 & E' & R & _)|(cs1 & a & cs2 & E' & _)]].
    - rewrite E in E'. injection E' as <- ->. split; [exact R|]. intros _ Hf. destruct (En Hf) as (es & H1 & H2). exists es. split; [exact H1|].
      rewrite P. exact H2.
    - rewrite E in E'. injection E' as <- ->. split; [exact R|]. intros F. discriminate F.
    - rewrite E in E'. discriminate E'. }
  destruct X as [R X]. destruct (rest_builds srt b Hs R) as (bk & Eb & Hok & Ht). exists bk. split; [exact Eb|].
  split; [apply Hok|]. intros He Hf. destruct (X He Hf) as (es & H1 & H2). exists es. split; [exact H1|].
  intros acct ccy. rewrite Ht, <- H2. apply (total_bare (fun a c => str_eqb a acct && str_eqb c ccy)).
Qed.
Print Assumptions C54_add_balanced.

(** ** C75. Expected: a call with unusable arguments is reported as an error. The exact condition under which the
    program crashes instead, and under which it reports an error. *)
Theorem C75_bad_arguments_partial : forall today set_string def cs,
  (run_adds today set_string def new_builder cs = Panic <->
     exists cs1 a cs2, cs = cs1 ++ a :: cs2 /\ Forall (fun x => ~ crashes set_string today x /\ ~ rejected set_string today x) cs1 /\
       crashes set_string today a) /\
  ((exists b, run_adds today set_string def new_builder cs = Ok (b, true)) <->
     exists cs1 a cs2, cs = cs1 ++ a :: cs2 /\ Forall (fun x => ~ crashes set_string today x /\ ~ rejected set_string today x) cs1 /\
       rejected set_string today a) /\
  ((exists b, run_adds today set_string def new_builder cs = Ok (b, false)) <->
     Forall (fun x => ~ crashes set_string today x /\ ~ rejected set_string today x) cs).
Proof.
  intros today ss def cs.
  (* the first offending call is determined *)
  assert (Hd : forall (Q : args -> Prop) c1 a c2 d1 x d2, c1 ++ a :: c2 = d1 ++ x :: d2 -> Forall Q c1 -> Forall Q d1 -> ~ Q a -> ~ Q x -> a = x).
  { intros Q. induction c1 as [|y c1 IH]; intros a c2 [|z d1] x d2 E F1 F2 Na Nx; cbn [app] in E.
    - congruence.
    - injection E as -> _. apply Forall_cons_iff in F2. tauto.
    - injection E as -> _. apply Forall_cons_iff in F1. tauto.
    - injection E as -> E. apply Forall_cons_iff in F1. apply Forall_cons_iff in F2. eapply IH; eauto; tauto. }
  assert (Hall : forall (Q : args -> Prop) c1 a c2, Forall Q (c1 ++ a :: c2) -> Q a).
  { intros Q c1 a c2 F. apply Forall_app in F as [_ F]. now apply Forall_cons_iff in F. }
  destruct (run_cases today ss def cs new_builder new_at_rest) as [(b' & ps & E' & R & P & F & _)|[(b' & ps & cs1 & a & cs2 & E' & R & P & Ec & F & N1 & N2)|(cs1 & a & cs2 & E' & Ec & F & N1 & N2)]];
    rewrite E'.
  - split; [|split].
    + split; [discriminate|]. intros (c1 & x & c2 & -> & _ & Hx). apply Hall in F. tauto.
    + split; [intros (b & H); discriminate H|]. intros (c1 & x & c2 & -> & _ & Hx). apply Hall in F. tauto.
    + split; [intros _; exact F|]. eauto.
  - split; [|split].
    + split; [discriminate|]. intros (c1 & x & c2 & E & F2 & Hx). exfalso. rewrite Ec in E.
      assert (a = x) by (eapply Hd; eauto; tauto). subst x. contradiction.
    + split; [|eauto]. intros _. exists cs1, a, cs2. auto.
    + split; [intros (b & H); discriminate H|]. intros F2. exfalso. rewrite Ec in F2. apply Hall in F2. tauto.
  - split; [|split].
    + split; [|reflexivity]. intros _. exists cs1, a, cs2. auto.
    + split; [intros (b & H); discriminate H|]. intros (c1 & x & c2 & E & F2 & Hx). exfalso. rewrite Ec in E.
      assert (a = x) by (eapply Hd; eauto; tauto). subst x. contradiction.
    + split; [intros (b & H); discriminate H|]. intros F2. exfalso. rewrite Ec in F2. apply Hall in F2. tauto.
Qed.
Print Assumptions C75_bad_arguments_partial.

Definition x_def : defaults := mkDef (bs "Assets:Bank") (bs "GBP") (bs "Imbalance").
Definition x_ss (s : str) : option Qc := if str_eqb s (bs "1.5") then Some (qz 3 / qz 2)%Qc else None.
Definition x_call (amt : value) (denom : option Z) (amt2 : value) (acct2 : str) : args :=
  mkArgs (bs "2024-01-05") (bs "Shop") amt None denom None amt2 (Some (bs "USD")) None acct2 None [] (bs "card").

(** Three ways a script that is accepted by the interpreter ends the program: no amount, denominator 0, a second
    account without a second amount. *)
Theorem C75_bad_arguments_refuted :
  run_adds 20240105 x_ss x_def new_builder [x_call VNone None VNone []] = Panic /\
  run_adds 20240105 x_ss x_def new_builder [x_call (VInt 5) (Some 0) VNone []] = Panic /\
  run_adds 20240105 x_ss x_def new_builder [x_call (VInt 5) None VNone (bs "Assets:FX")] = Panic /\
  crashes x_ss 20240105 (x_call (VInt 5) (Some 0) VNone []).
Proof.
  assert (E : date_from_string 20240105 (bs "2024-01-05") <> 0) by (vm_compute; discriminate).
  split; [vm_compute; reflexivity|]. split; [vm_compute; reflexivity|]. split; [vm_compute; reflexivity|].
  split; [exact E|]. split; [intros [H|(s & H & _)]; discriminate H|]. right. left. reflexivity.
Qed.
Print Assumptions C75_bad_arguments_refuted.

Example C54_nonvacuous : exists b,
  run_adds 20240105 x_ss x_def new_builder
    [x_call (VStr (bs "1.5")) (Some 2) VNone []; x_call (VInt 7) None (VFloat (Some (qz (-9)))) (bs "Assets:FX")] = Ok (b, false) /\
  map (fun p => (p_payee p, p_acct p, p_ccy p, this (p_val p), p_note p)) (bu_post b) =
   [ (bs "Shop", bs "Assets:Bank", bs "GBP", (3 # 4)%Q, bs "card"); (bs "Shop", bs "Imbalance", bs "GBP", (-3 # 4)%Q, []);
     (bs "Shop (2)", bs "Assets:Bank", bs "GBP", (7 # 1)%Q, bs "card"); (bs "Shop (2)", bs "Imbalance", bs "GBP", (-7 # 1)%Q, []);
     (bs "Shop (2)", bs "Assets:FX", bs "USD", (-9 # 1)%Q, []); (bs "Shop (2)", bs "Imbalance", bs "USD", (9 # 1)%Q, []) ].
Proof.
  destruct (run_adds 20240105 x_ss x_def new_builder
    [x_call (VStr (bs "1.5")) (Some 2) VNone []; x_call (VInt 7) None (VFloat (Some (qz (-9)))) (bs "Assets:FX")]) as [[b []]| | |] eqn:E;
    [vm_compute in E; discriminate E| |vm_compute in E; discriminate E..].
  exists b. split; [reflexivity|]. 
  assert (H : match run_adds 20240105 x_ss x_def new_builder
    [x_call (VStr (bs "1.5")) (Some 2) VNone []; x_call (VInt 7) None (VFloat (Some (qz (-9)))) (bs "Assets:FX")] with
    | Ok (b, _) => map (fun p => (p_payee p, p_acct p, p_ccy p, this (p_val p), p_note p)) (bu_post b) | _ => [] end =
   [ (bs "Shop", bs "Assets:Bank", bs "GBP", (3 # 4)%Q, bs "card"); (bs "Shop", bs "Imbalance", bs "GBP", (-3 # 4)%Q, []);
     (bs "Shop (2)", bs "Assets:Bank", bs "GBP", (7 # 1)%Q, bs "card"); (bs "Shop (2)", bs "Imbalance", bs "GBP", (-7 # 1)%Q, []);
     (bs "Shop (2)", bs "Assets:FX", bs "USD", (-9 # 1)%Q, []); (bs "Shop (2)", bs "Imbalance", bs "USD", (9 # 1)%Q, []) ]) by (vm_compute; reflexivity).
  rewrite E in H. exact H.
Qed.
