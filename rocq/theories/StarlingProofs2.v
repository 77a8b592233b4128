(** * StarlingProofs2: accounts and whole runs of download starling (C105). *)
From Coq Require Import ZifyBool Lqa.
From Verif Require Import Base Utf8 LoaderModel LoaderSpec ExportSpec ConvertModel ConvertSpec ConvertProps F64Model F64Spec F64Proofs JsonModel JsonSpec JsonWrite2 JsonProps JsonRead JsonRead2 JsonReadProps StateModel StateSpec StateProofs StateProofs2 StateProofs3 ShapeModel StarlingModel StarlingSpec ShapeProofs StarlingProofs.

(** The server answers with [s]: whatever it is asked for. *)
Definition answered (num : Qc -> Qc -> Prop) (rfc : str -> bool) (an : session) (s : sent) : Prop :=
  (text num depth (an_accounts an) (JObj [(bs "accounts", JArr (map snd (accounts s)))]) /\ all_are is_account (accounts s)) /\
  text num depth (an_payees an) (JObj [(bs "payees", JArr (payees s))]) /\
  forall id,
    text num depth (an_ident an id) (identifiers s id) /\
    text num depth (an_spaces an id) (JObj [(bs "savingsGoals", JArr (map snd (goals s id))); (bs "spendingSpaces", JArr (map snd (spaces s id)))]) /\
    all_are is_goal (goals s id) /\ all_are is_space (spaces s id) /\
    forall cat, text num depth (an_feed an id cat) (JObj [(bs "feedItems", JArr (map snd (items s id cat)))]) /\ all_are (is_item rfc) (items s id cat).

Lemma fits_path fs n s j : fits (SStruct fs) j -> map_like j -> In (n, s) fs -> at_path j [n] = Some (get n j).
Proof. intros H M Hn. apply fits_struct in H as (m & -> & _ & F). inversion M; subst. rewrite Forall_forall in F. destruct (F _ Hn) as (v & Hv1 & _). cbn [fst snd] in *. rewrite (get_in m n v) by assumption. cbn [at_path]. rewrite (in_aget _ _ _ ltac:(eassumption) Hv1). reflexivity. Qed.
Lemma depth_deep : (depth <= deep)%nat. Proof. rewrite deep_eq, deep2_eq. lia. Qed.
Lemma same_null_b v v' : same v v' -> is_null v' = is_null v. Proof. intros S. inversion S; reflexivity. Qed.

Section Entry.
  Context (rfc : str -> bool) (an : session) (s : sent) (A : answered as_float rfc an s).
  Lemma strs_ok (P : json -> str -> Prop) key l l' d : (forall v i, P v i -> has v key i) -> all_are P l -> Forall2 same (map snd l) l' -> Forall (good d) l' -> map (fun g => str_of g key) l' = map fst l.
  Proof.
    intros HP F. revert l'. induction F as [|kv l Hk _ IH]; intros l' S G; cbn [map] in S; inversion S; subst; [reflexivity|]. inversion G; subst. cbn [map]. rewrite IH by assumption. f_equal. apply has_str; [match goal with H : good _ y |- _ => apply H end|]. apply (has_same (snd kv)); [assumption|apply HP, Hk].
  Qed.
  Lemma entry_run id e : entry_ok rfc id e -> exists e' cats, sync_entry rfc an id e = Ok e' /\ entry_ok rfc id e' /\ get (bs "account") e' = get (bs "account") e /\ same (identifiers s id) (get (bs "identifiers") e') /\
    (exists sp, at_path e' [bs "spaces"] = Some sp /\ (exists g, at_path sp [bs "savingsGoals"] = Some g /\ same (JArr (map snd (goals s id))) g) /\ exists g, at_path sp [bs "spendingSpaces"] = Some g /\ same (JArr (map snd (spaces s id))) g) /\
    upd (items s id) cats e e' /\ forall cat, In cat cats <-> has (get (bs "account") e) (bs "defaultCategory") cat \/ In cat (map fst (goals s id)) \/ In cat (map fst (spaces s id)).
  Proof.
    intros E. destruct A as (_ & _ & A0). destruct (A0 id) as (Ti & Ts & Fg & Fs & Af). pose proof E as (Hf & G & Ha & Hi).
    assert (Ndp : NoDup (map fst [(bs "account", s_account); (bs "spaces", SPtr s_spaces); (bs "identifiers", SAny); (bs "feeditems", SMap (SMap s_item))])) by (apply nodup_s_ok; vm_compute; reflexivity).
    (* identifiers *)
    destruct (fetch_shape SAny depth (get (bs "identifiers") e) _ _ I I depth_deep Ti I) as (ji & Ei & Si & Gi & _). set (e1 := set (bs "identifiers") ji e).
    assert (Ok1 : entry_ok rfc id e1).
    { split; [|split; [|split]].
      - apply (fits_set _ _ SAny); [exact Ndp|exact Hf|cbn [In]; tauto|exact I].
      - unfold e1. rewrite deep2_eq in *. apply good_set; [exact G|apply ascii_utf8; repeat constructor; lia|exact Gi].
      - unfold e1. rewrite get_set_neq by (intros X; discriminate X). exact Ha.
      - intros cat uid v. unfold e1. rewrite path_set_neq by (intros X; discriminate X). apply Hi. }
    (* default category *)
    assert (A1 : get (bs "account") e1 = get (bs "account") e) by (unfold e1; apply get_set_neq; intros X; discriminate X). set (acc := get (bs "account") e) in *.
    assert (Gacc : good depth acc) by (unfold acc; apply good_get; rewrite <- deep2_eq; exact G).
    assert (exists c, has acc (bs "defaultCategory") c) as [c Hc].
    { assert (Fa : fits s_account acc) by (apply (fits_get _ (bs "account") _ _ Hf); [apply G|cbn [In]; tauto]). destruct Fa as (m & Em & F). inversion F as [|? ? _ F1]; subst. inversion F1 as [|? ? (x & Hx) _]; subst. exists x, m. auto. }
    destruct (feed_ok rfc an id e1 c (items s id c) Ok1 (has_utf8 _ _ _ _ Gacc Hc)) as (e2 & E2 & Ok2 & X2 & D2); [apply Af|apply Af|].
    (* spaces *)
    destruct Ok2 as (F2 & G2 & Ha2 & Hi2).
    assert (Fo : fits (SPtr s_spaces) (get (bs "spaces") e2)) by (apply (fits_get _ (bs "spaces") _ _ F2); [apply G2|cbn [In]; tauto]).
    assert (Fr : fresh (SPtr s_spaces) (get (bs "spaces") e2)).
    { cbn [fresh]. pose proof (good_get _ (bs "spaces") e2 ltac:(rewrite <- deep2_eq; exact G2)) as Gs. destruct Fo as [->|Fo]; [apply (fresh_zero s_spaces n_spaces)|]. destruct (get (bs "spaces") e2) as [|b|q|x|l|m] eqn:Eo; try (cbn [is_null]; apply fits_struct in Fo as (m0 & X & _); discriminate X). cbn [is_null]. apply fits_struct in Fo as (m0 & X & K & _). injection X as <-.
      apply fresh_struct. cbn [members]. split; [|split; [exact K|]; repeat constructor]. rewrite depth_eq in Gs. apply good_obj in Gs. apply Gs. }
    assert (Fl : forall (P : json -> str -> Prop) sh l, (forall v i, P v i -> fits sh v) -> all_are P l -> fits (SList sh) (JArr (map snd l))).
    { intros P sh l HP F. right. exists (map snd l). split; [reflexivity|]. apply Forall_forall. intros v Hv. apply in_map_iff in Hv as (kv & <- & Hk). unfold all_are in F. rewrite Forall_forall in F. apply (HP _ _ (F _ Hk)). }
    destruct (fetch_shape (SPtr s_spaces) depth (get (bs "spaces") e2) _ _ n_spaces Fr depth_deep Ts) as (sp & Es & Ss & Gs & Fsp).
    { right. apply fits_struct. eexists. split; [reflexivity|]. split; [intros k Hk; exact Hk|]. constructor; [|constructor; [|constructor]]; cbn [fst snd]; eexists; (split; [cbn [In]; eauto|]); [apply (Fl is_goal); [apply goal_fits|exact Fg]|apply (Fl is_space); [apply space_fits|exact Fs]]. }
    set (e3 := set (bs "spaces") sp e2).
    assert (Gsp : forall n l, In (n, JArr l) [(bs "savingsGoals", JArr (map snd (goals s id))); (bs "spendingSpaces", JArr (map snd (spaces s id)))] -> exists l', at_path sp [n] = Some (JArr l') /\ get n sp = JArr l' /\ Forall2 same l l' /\ Forall (good deep5) l').
    { intros n l Hn. destruct (obj_same _ _ Ss) as (ms & ->). destruct (in_same _ _ _ _ Ss Hn) as (v & Hv & Sv). destruct (arr_same _ _ Sv) as (l' & -> & F'). exists l'. rewrite depth_eq in Gs. apply good_obj in Gs as [Ns Gs]. split; [cbn [at_path]; rewrite (in_aget _ _ _ Ns Hv); reflexivity|]. split; [apply get_in; assumption|]. split; [exact F'|].
      rewrite Forall_forall in Gs. destruct (Gs _ Hv) as [_ Gv]. cbn [snd] in Gv. apply good_arr in Gv. exact Gv. }
    destruct (Gsp (bs "savingsGoals") (map snd (goals s id))) as (lg & Pg & Eg & Sg & Gg); [left; reflexivity|]. destruct (Gsp (bs "spendingSpaces") (map snd (spaces s id))) as (lp & Pp & Ep & Sp & Gp); [right; left; reflexivity|].
    assert (Ok3 : entry_ok rfc id e3).
    { split; [|split; [|split]].
      - apply (fits_set _ _ (SPtr s_spaces)); [exact Ndp|exact F2|cbn [In]; tauto|exact Fsp].
      - unfold e3. rewrite deep2_eq in *. apply good_set; [exact G2|apply ascii_utf8; repeat constructor; lia|exact Gs].
      - unfold e3. rewrite get_set_neq by (intros X; discriminate X). exact Ha2.
      - intros cat uid v. unfold e3. rewrite path_set_neq by (intros X; discriminate X). apply Hi2. }
    assert (Ug : forall (P : json -> str -> Prop) key l l', (forall v i, P v i -> has v key i) -> all_are P l -> Forall2 same (map snd l) l' -> Forall (good deep5) l' -> forall c, In c (map fst l) -> is_utf8 c).
    { intros P key l l' HP F S0 G0 x Hx. revert l' S0 G0. induction F as [|kv l Hk _ IH]; intros l' S0 G0; [destruct Hx|]. cbn [map] in S0. inversion S0; subst. inversion G0; subst. destruct Hx as [<-|Hx]; [|eapply IH; eassumption]. apply (has_utf8 deep5 y key); [assumption|]. apply (has_same (snd kv)); [assumption|apply HP, Hk]. }
    destruct (feeds_ok rfc an id (items s id) (map fst (goals s id))) with (e := e3) as (e4 & E4 & Ok4 & X4 & D4); [|exact Ok3|].
    { intros cat Hcat. split; [|apply Af]. apply (Ug is_goal (bs "savingsGoalUid") (goals s id) lg (fun v i H => proj1 H) Fg Sg Gg _ Hcat). }
    destruct (feeds_ok rfc an id (items s id) (map fst (spaces s id))) with (e := e4) as (e5 & E5 & Ok5 & X5 & D5); [|exact Ok4|].
    { intros cat Hcat. split; [|apply Af]. apply (Ug is_space (bs "spaceUid") (spaces s id) lp (fun v i H => proj1 H) Fs Sp Gp _ Hcat). }
    exists e5, ([c] ++ map fst (goals s id) ++ map fst (spaces s id)).
    assert (Y : forall k, k <> bs "feeditems" -> get k e5 = get k e3) by (intros k Hk; rewrite X5, X4 by exact Hk; reflexivity).
    split; [|split; [exact Ok5|split; [|split; [|split; [|split]]]]].
    - unfold sync_entry. replace (is_null e) with false by (symmetry; apply fits_struct in Hf as (m & -> & _); reflexivity). rewrite Ei. cbn [obind]. fold e1. rewrite A1, (has_null _ _ _ Ha). rewrite (has_str acc _ c); [|apply Gacc|exact Hc]. rewrite E2. cbn [obind]. rewrite Es. cbn [obind]. rewrite (same_null_b _ _ Ss). cbn [is_null]. fold e3.
      rewrite Eg, Ep. cbn [elements]. rewrite (strs_ok is_goal (bs "savingsGoalUid") (goals s id) lg deep5 (fun v i H => proj1 H) Fg Sg Gg). rewrite E4. cbn [obind]. rewrite (strs_ok is_space (bs "spaceUid") (spaces s id) lp deep5 (fun v i H => proj1 H) Fs Sp Gp). exact E5.
    - rewrite Y by (intros X; discriminate X). unfold e3. rewrite get_set_neq by (intros X; discriminate X). rewrite X2 by (intros X; discriminate X). exact A1.
    - rewrite Y by (intros X; discriminate X). unfold e3. rewrite get_set_neq by (intros X; discriminate X). rewrite X2 by (intros X; discriminate X). unfold e1. rewrite get_set_eq. exact Si.
    - exists sp. split; [|split].
      + destruct Ok5 as (F5 & G5 & _). rewrite (fits_path _ (bs "spaces") (SPtr s_spaces) _ F5); [|apply G5|cbn [In]; tauto]. rewrite Y by (intros X; discriminate X). unfold e3. rewrite get_set_eq. reflexivity.
      + exists (JArr lg). split; [exact Pg|constructor; exact Sg].
      + exists (JArr lp). split; [exact Pp|constructor; exact Sp].
    - apply (upd_app _ [c] _ e e2); [|apply (upd_app _ _ _ e2 e4); [|exact D5]].
      + intros cat uid. destruct (D2 cat uid) as [B1 B2]. unfold e1 in B2. rewrite path_set_neq in B2 by (intros X; discriminate X). split.
        * intros [<-|[]]. apply B1. left. reflexivity.
        * intros [Hn|Hn]; apply B2; [left; exact Hn|]. destruct (str_dec cat c) as [->|Hcc]; [right; exact Hn|left; intros [X|[]]; congruence].
      + intros cat uid. destruct (D4 cat uid) as [B1 B2]. unfold e3 in B2. rewrite path_set_neq in B2 by (intros X; discriminate X). auto.
    - intros cat. rewrite !in_app_iff. cbn [In]. split; [intros [[<-|[]]|H]; auto|]. intros [H|H]; [|auto]. left. left. apply (has_one acc (bs "defaultCategory")); [apply Gacc|exact Hc|exact H].
  Qed.
End Entry.

(** ** The list of accounts *)
Lemma zero_entry_get k : get k (zero s_entry) = JNull.
Proof. unfold get. change (zero s_entry) with (JObj [(bs "account", JNull); (bs "spaces", JNull); (bs "identifiers", JNull); (bs "feeditems", JNull)]). cbn [members aget]. destruct (str_eqb (bs "account") k), (str_eqb (bs "spaces") k), (str_eqb (bs "identifiers") k), (str_eqb (bs "feeditems") k); reflexivity. Qed.
Definition entries_ok (rfc : str -> bool) (m : list (str * json)) : Prop := NoDup (map fst m) /\ forall id e, In (id, e) m -> is_utf8 id /\ entry_ok rfc id e.
(** The entry of an account that was listed. *)
Definition listed (old : option json) (a : json) (e : json) : Prop := get (bs "account") e = a /\ forall k, k <> bs "account" -> get k e = get k (match old with Some e0 => e0 | None => JNull end).
Lemma path_of k p e e' : get k e = get k e' -> p <> [] -> at_path e (k :: p) = at_path e' (k :: p).
Proof. intros H Hp. destruct p as [|x p]; [contradiction|]. rewrite <- !path_of_get, H. reflexivity. Qed.
Lemma accounts_run rfc l : forall m, entries_ok rfc m -> Forall (fun v => good depth v /\ exists id, is_account v id) l ->
  exists m', store_accounts m l = Ok m' /\ entries_ok rfc m' /\ forall id, match aget str_eqb id (rev (map (fun v => (str_of v (bs "accountUid"), v)) l)) with
    | Some a => exists e, aget str_eqb id m' = Some e /\ listed (aget str_eqb id m) a e
    | None => aget str_eqb id m' = aget str_eqb id m end.
Proof.
  induction l as [|v l IH]; intros m E F; [exists m; split; [reflexivity|]; split; [exact E|]; intros id; reflexivity|]. inversion F as [|? ? (Gv & uid & Hv) F']; subst.
  assert (Eu : str_of v (bs "accountUid") = uid) by (apply has_str; [apply Gv|apply Hv]). assert (Uu : is_utf8 uid) by (apply (has_utf8 _ _ _ _ Gv (proj1 Hv))).
  assert (Ndp : NoDup (map fst [(bs "account", s_account); (bs "spaces", SPtr s_spaces); (bs "identifiers", SAny); (bs "feeditems", SMap (SMap s_item))])) by (apply nodup_s_ok; vm_compute; reflexivity).
  assert (exists e1, match aget str_eqb uid m with Some JNull => Panic | Some e => store_accounts (aset str_eqb uid (set (bs "account") v e) m) l | None => store_accounts (aset str_eqb uid (set (bs "account") v (zero s_entry)) m) l end = store_accounts (aset str_eqb uid e1 m) l /\ entry_ok rfc uid e1 /\ listed (aget str_eqb uid m) v e1) as (e1 & E1 & Ok1 & L1).
  { destruct (aget str_eqb uid m) as [e|] eqn:Eg.
    - destruct E as [N E]. destruct (E _ _ (aget_in _ _ _ Eg)) as [_ (Hf & G & Ha & Hi)]. exists (set (bs "account") v e). split; [pose proof Hf as Hf'; apply fits_struct in Hf' as (m0 & -> & _); reflexivity|]. split; [split; [|split; [|split]]|split].
      + apply (fits_set _ _ s_account); [exact Ndp|exact Hf|cbn [In]; tauto|]. apply (account_fits _ _ Hv).
      + rewrite deep2_eq in *. apply good_set; [exact G|apply ascii_utf8; repeat constructor; lia|exact Gv].
      + rewrite get_set_eq. apply Hv.
      + intros cat x y. rewrite path_set_neq by (intros X; discriminate X). apply Hi.
      + apply get_set_eq.
      + intros k Hk. apply get_set_neq, Hk.
    - exists (set (bs "account") v (zero s_entry)). split; [reflexivity|]. split; [split; [|split; [|split]]|split].
      + apply fits_struct. eexists. split; [reflexivity|]. split; [intros k Hk; exact Hk|]. constructor; [exists v; split; [left; reflexivity|apply (account_fits _ _ Hv)]|]. constructor; [exists JNull; split; [right; left; reflexivity|left; reflexivity]|]. constructor; [exists JNull; split; [do 2 right; left; reflexivity|exact I]|]. constructor; [exists JNull; split; [do 3 right; left; reflexivity|left; reflexivity]|]. constructor.
      + rewrite deep2_eq. apply good_set; [|apply ascii_utf8; repeat constructor; lia|exact Gv]. apply good_obj. split; [exact Ndp|]. repeat (constructor; [split; [apply ascii_utf8; repeat constructor; lia|apply good_null]|]). constructor.
      + rewrite get_set_eq. apply Hv.
      + intros cat x y. rewrite path_set_neq by (intros X; discriminate X). discriminate.
      + apply get_set_eq.
      + intros k Hk. rewrite get_set_neq by exact Hk. rewrite zero_entry_get. reflexivity. }
  destruct (IH (aset str_eqb uid e1 m)) as (m' & E' & Ok' & H'); [|exact F'|].
  { destruct E as [N E]. split; [apply (aset_NoDup str_eqb str_eqb_eq), N|]. intros id e Hx. apply aset_in in Hx as [Hx|Hx]; [injection Hx as -> ->; auto|apply E, Hx]. }
  exists m'. split; [cbn [store_accounts]; rewrite Eu; destruct Hv as ((mv & -> & _) & _); rewrite E1; exact E'|]. split; [exact Ok'|]. intros id. specialize (H' id). cbn [map rev]. rewrite aget_app. rewrite Eu.
  destruct (aget str_eqb id (rev (map (fun v => (str_of v (bs "accountUid"), v)) l))) as [a|] eqn:Ea.
  - destruct H' as (e & H1 & H2). exists e. split; [exact H1|]. destruct (str_dec id uid) as [->|Hn].
    + rewrite (aget_aset_eq str_eqb str_eqb_eq) in H2. destruct H2 as [H2 H3]. split; [exact H2|]. intros k Hk. rewrite H3 by exact Hk. apply (proj2 L1 k Hk).
    + rewrite (aget_aset_neq str_eqb str_eqb_eq) in H2 by congruence. exact H2.
  - cbn [aget]. destruct (str_eqb uid id) eqn:Eq.
    + apply str_eqb_eq in Eq as <-. rewrite (aget_aset_eq str_eqb str_eqb_eq) in H'. exists e1. auto.
    + rewrite (aget_aset_neq str_eqb str_eqb_eq) in H'; [exact H'|]. intros ->. rewrite (proj2 (str_eqb_eq uid uid) eq_refl) in Eq. discriminate.
Qed.

(** ** All accounts *)
Section Entries.
  Context (rfc : str -> bool) (an : session) (s : sent) (A : answered as_float rfc an s).
  (** How a run changes an entry. *)
  Definition fetched (id : str) (e e' : json) : Prop :=
    get (bs "account") e' = get (bs "account") e /\ same (identifiers s id) (get (bs "identifiers") e') /\
    (exists sp, at_path e' [bs "spaces"] = Some sp /\ (exists g, at_path sp [bs "savingsGoals"] = Some g /\ same (JArr (map snd (goals s id))) g) /\ exists g, at_path sp [bs "spendingSpaces"] = Some g /\ same (JArr (map snd (spaces s id))) g) /\
    exists cats, upd (items s id) cats e e' /\ forall cat, In cat cats <-> has (get (bs "account") e) (bs "defaultCategory") cat \/ In cat (map fst (goals s id)) \/ In cat (map fst (spaces s id)).
  Lemma entries_run ids : forall m, NoDup ids -> (forall id, In id ids -> In id (map fst m)) -> entries_ok rfc m ->
    exists m', sync_entries rfc an m ids = Ok m' /\ entries_ok rfc m' /\ forall id, match aget str_eqb id m with None => aget str_eqb id m' = None | Some e => if in_dec str_dec id ids then exists e', aget str_eqb id m' = Some e' /\ fetched id e e' else aget str_eqb id m' = Some e end.
  Proof.
    induction ids as [|i ids IH]; intros m Nd K E; [exists m; split; [reflexivity|]; split; [exact E|]; intros id; destruct (aget str_eqb id m); reflexivity|]. inversion Nd as [|? ? Ni Nd']; subst.
    assert (exists e, aget str_eqb i m = Some e) as [e Ee]. { specialize (K i (or_introl eq_refl)). apply in_keys in K. destruct (aget str_eqb i m) as [e|]; [eauto|contradiction]. }
    destruct E as [N E]. destruct (E _ _ (aget_in _ _ _ Ee)) as [Ui Oe]. destruct (entry_run rfc an s A i e Oe) as (e' & cats & E1 & O1 & B1 & B2 & B3 & B4 & B5).
    assert (O2 : entries_ok rfc (aset str_eqb i e' m)) by (split; [apply (aset_NoDup str_eqb str_eqb_eq), N|]; intros id x Hx; apply aset_in in Hx as [Hx|Hx]; [injection Hx as -> ->; auto|apply E, Hx]).
    destruct (IH (aset str_eqb i e' m) Nd') as (m' & E2 & O3 & H).
    { intros id Hid. apply in_keys. destruct (str_dec id i) as [->|Hn]; [rewrite (aget_aset_eq str_eqb str_eqb_eq); discriminate|]. rewrite (aget_aset_neq str_eqb str_eqb_eq) by congruence. apply in_keys, K. right. exact Hid. }
    { exact O2. }
    exists m'. cbn [sync_entries]. replace (get i (JObj m)) with e by (unfold get; cbn [members]; rewrite Ee; reflexivity). rewrite E1. cbn [obind]. split; [exact E2|]. split; [exact O3|]. intros id. specialize (H id). destruct (str_dec id i) as [->|Hn].
    - rewrite (aget_aset_eq str_eqb str_eqb_eq) in H. rewrite Ee. destruct (in_dec str_dec i ids); [contradiction|]. destruct (in_dec str_dec i (i :: ids)) as [_|X]; [|exfalso; apply X; left; reflexivity]. exists e'. split; [exact H|]. split; [exact B1|]. split; [exact B2|]. split; [exact B3|]. exists cats. auto.
    - rewrite (aget_aset_neq str_eqb str_eqb_eq) in H by congruence. destruct (aget str_eqb id m); [|exact H]. destruct (in_dec str_dec id ids), (in_dec str_dec id (i :: ids)) as [X|X]; try exact H; exfalso; [apply X; right; assumption|]. destruct X as [X|X]; [congruence|contradiction].
  Qed.
End Entries.

(** ** The whole state *)
Definition entry_at (d : json) (id : str) : option json := aget str_eqb id (members (get (bs "accounts") d)).
Lemma path_entry d id p : at_path d (bs "accounts" :: id :: p) = match entry_at d id with Some e => at_path e p | None => None end.
Proof. rewrite <- path_of_get, path_get. reflexivity. Qed.
(** What the program knows after the runs [h]. *)
Definition state_ok (rfc : str -> bool) (d : json) (h : list sent) : Prop :=
  fits p_data d /\ good deep d /\ entries_ok rfc (members (get (bs "accounts") d)) /\
  (forall id, found d [bs "accounts"; id; bs "account"] (fun a => account h id = Some a)) /\ (forall id cat uid, found d [bs "accounts"; id; bs "feeditems"; cat; uid] (item h id cat uid)).
Lemma aget_keys (l : list (str * json)) k : In k (map fst l) <-> aget str_eqb k (rev l) <> None.
Proof. rewrite <- in_keys. rewrite map_rev, <- in_rev. reflexivity. Qed.
Lemma found_at v p P x : at_path v p = Some x -> found v p P -> exists x0, P x0 /\ same x0 x. Proof. unfold found. intros ->. auto. Qed.
Lemma found_no v p P : at_path v p = None -> found v p P -> forall x0, ~ P x0. Proof. unfold found. intros ->. auto. Qed.
Lemma state_zero rfc : state_ok rfc (zero s_data) [].
Proof.
  split; [|split; [|split; [|split]]].
  - apply fits_struct. eexists. split; [reflexivity|]. split; [intros k Hk; exact Hk|]. constructor; [exists JNull; split; [left; reflexivity|left; reflexivity]|]. constructor; [exists JNull; split; [right; left; reflexivity|left; reflexivity]|]. constructor.
  - rewrite deep_eq. apply good_obj. split; [apply nodup_s_ok; vm_compute; reflexivity|]. repeat (constructor; [split; [apply ascii_utf8; repeat constructor; lia|apply good_null]|]). constructor.
  - split; [constructor|intros id e []].
  - intros id. unfold found. cbn. intros x0 H. discriminate H.
  - intros id cat uid. unfold found. cbn. intros x0 H. inversion H.
Qed.
Section Sync.
  Context (rfc : str -> bool) (an : session) (s : sent) (A : answered as_float rfc an s) (Po : forall l, Permutation l (se_ord an l)).
  Lemma account_cons h id : account (s :: h) id = match aget str_eqb id (rev (accounts s)) with Some a => Some a | None => account h id end.
  Proof. unfold account. cbn [map concat]. apply aget_app. Qed.
  Lemma sync_ok d h : state_ok rfc d h -> exists d', sync rfc an d = Ok d' /\ state_ok rfc d' (s :: h) /\ holds_all d' (s :: h).
  Proof.
    intros (Fd & Gd & Ed & Hacc & Hit). pose proof A as ((Ta & Fa) & Tp & _). pose proof Gd as Gd'. rewrite deep_eq in Gd'.
    assert (Ndp : NoDup (map fst [(bs "accounts", SMap p_entry); (bs "Payees", SList SAny)])) by (apply nodup_s_ok; vm_compute; reflexivity).
    assert (D5 : (S (S deep5) <= deep)%nat) by (rewrite <- depth_eq; apply depth_deep).
    (* the accounts *)
    destruct (single_ok (SPtr s_account) (bs "Accounts") (bs "accounts") deep5 (an_accounts an) (map snd (accounts s))) as (ja & la & Ea & _ & _ & Ela & Sa & Ga); [exact I|apply ascii_utf8; repeat constructor; lia|reflexivity|exact D5|rewrite <- depth_eq; exact Ta| |].
    { apply Forall_forall. intros v Hv. apply in_map_iff in Hv as (kv & <- & Hk). right. unfold all_are in Fa. rewrite Forall_forall in Fa. apply (account_fits _ _ (Fa _ Hk)). }
    assert (Il : Forall2 (fun kv v => same (snd kv) v /\ is_account v (fst kv)) (accounts s) la).
    { clear - Fa Sa. revert la Sa. induction Fa as [|kv l Hk _ IH]; intros la S2; inversion S2; subst; constructor; [|auto]. split; [assumption|]. apply (account_same (snd kv)); assumption. }
    set (new := map (fun v => (str_of v (bs "accountUid"), v)) la).
    assert (Nw : Forall2 same_kv (accounts s) new).
    { clear - Il Ga. unfold new. induction Il as [|kv v its l [Sv Iv] _ IH]; [constructor|]. inversion Ga as [|? ? G1 G2]; subst. cbn [map]. constructor; [|apply IH, G2]. split; cbn [fst snd]; [symmetry; apply has_str; [apply G1|apply Iv]|exact Sv]. }
    destruct (accounts_run rfc la (members (get (bs "accounts") d)) Ed) as (m1 & E1 & O1 & H1).
    { clear - Il Ga. induction Il as [|kv v its l [Sv Iv] _ IH]; [constructor|]. inversion Ga as [|? ? G1 G2]; subst. constructor; [|apply IH, G2]. split; [|eauto]. apply (good_le deep5); [rewrite depth_eq; lia|exact G1]. }
    fold new in H1.
    (* every account *)
    assert (Nk : NoDup (map fst m1)) by apply O1.
    destruct (entries_run rfc an s A (se_ord an (map fst m1)) m1) as (m2 & E2 & O2 & H2); [apply (Permutation_NoDup (Po _)), Nk|intros id Hid; apply (Permutation_in _ (Permutation_sym (Po _)) Hid)|exact O1|].
    (* the payees *)
    destruct (single_ok SAny (bs "Payees") (bs "payees") deep5 (an_payees an) (payees s)) as (jp & lp & Ep & _ & _ & Elp & Sp & Gp); [exact I|apply ascii_utf8; repeat constructor; lia|reflexivity|exact D5|rewrite <- depth_eq; exact Tp|apply Forall_forall; intros x _; exact I|].
    set (d' := set (bs "Payees") (JArr lp) (set (bs "accounts") (JObj m2) d)). exists d'.
    assert (Ga2 : get (bs "accounts") d' = JObj m2) by (unfold d'; rewrite get_set_neq by (intros X; discriminate X); apply get_set_eq).
    assert (En : forall id, entry_at d' id = aget str_eqb id m2) by (intros id; unfold entry_at; rewrite Ga2; reflexivity).
    assert (F2 : forall id e, In (id, e) m2 -> is_utf8 id /\ fits p_entry e /\ good deep2 e) by (intros id e He; destruct O2 as [_ O2]; destruct (O2 _ _ He) as (U & F & G & _); auto).
    assert (Ok : state_ok rfc d' (s :: h) /\ forall id, found d' [bs "accounts"; id; bs "identifiers"] (fun j => account (s :: h) id <> None /\ j = identifiers s id) /\ found d' [bs "accounts"; id; bs "spaces"; bs "savingsGoals"] (fun j => account (s :: h) id <> None /\ j = JArr (map snd (goals s id))) /\ found d' [bs "accounts"; id; bs "spaces"; bs "spendingSpaces"] (fun j => account (s :: h) id <> None /\ j = JArr (map snd (spaces s id)))).
    { assert (Each : forall id, (aget str_eqb id m2 = None /\ account (s :: h) id = None /\ entry_at d id = None) \/
         exists e1 e2 a0, aget str_eqb id m2 = Some e2 /\ fetched s id e1 e2 /\ account (s :: h) id = Some a0 /\ same a0 (get (bs "account") e1) /\ forall cat uid, at_path e1 [bs "feeditems"; cat; uid] = at_path d [bs "accounts"; id; bs "feeditems"; cat; uid]).
      { intros id. specialize (H1 id). specialize (H2 id). pose proof (aget_same_kv _ _ id (Forall2_rev _ _ _ Nw)) as Sr. rewrite account_cons. change (aget str_eqb id (members (get (bs "accounts") d))) with (entry_at d id) in H1.
        assert (In2 : forall e, aget str_eqb id m1 = Some e -> exists e', aget str_eqb id m2 = Some e' /\ fetched s id e e').
        { intros e Ee. rewrite Ee in H2. destruct (in_dec str_dec id (se_ord an (map fst m1))) as [_|X]; [exact H2|]. exfalso. apply X. apply (Permutation_in _ (Po _)). apply in_keys. congruence. }
        destruct (aget str_eqb id (rev (accounts s))) as [a0|] eqn:E0; destruct (aget str_eqb id (rev new)) as [a|] eqn:En0; cbn [same_at] in Sr; try contradiction.
        - destruct H1 as (e1 & X1 & X2 & X3). destruct (In2 _ X1) as (e2 & Y1 & Y2). right. exists e1, e2, a0. split; [exact Y1|]. split; [exact Y2|]. split; [reflexivity|]. split; [rewrite X2; exact Sr|]. intros cat uid. rewrite path_entry, <- path_of_get, X3 by (intros X; discriminate X). destruct (entry_at d id) as [e0|]; [apply path_of_get|reflexivity].
        - destruct (entry_at d id) as [e|] eqn:Ee.
          + destruct (In2 _ H1) as (e2 & Y1 & Y2). right. pose proof (Hacc id) as Ha. destruct Ed as [_ Ed]. destruct (Ed id e (aget_in _ _ _ Ee)) as [_ (Fe & Ge & _)]. assert (Pa : at_path d [bs "accounts"; id; bs "account"] = Some (get (bs "account") e)) by (rewrite path_entry, Ee; apply (fits_path _ _ s_account _ Fe); [apply Ge|cbn [In]; tauto]).
            destruct (found_at _ _ _ _ Pa Ha) as (a0 & Q1 & Q2). exists e, e2, a0. split; [exact Y1|]. split; [exact Y2|]. split; [exact Q1|]. split; [exact Q2|]. intros cat uid. rewrite path_entry, Ee. reflexivity.
          + left. rewrite H1 in H2. split; [exact H2|]. split; [|reflexivity]. destruct (account h id) as [a|] eqn:Eh; [|reflexivity]. exfalso. apply (found_no _ _ _ ltac:(rewrite path_entry, Ee; reflexivity) (Hacc id) a). exact Eh. }
      split; [split; [|split; [|split; [|split]]]|].
      - unfold d'. apply (fits_set _ _ (SList SAny)); [exact Ndp| |right; left; reflexivity|right; exists lp; split; [reflexivity|apply Forall_forall; intros x _; exact I]]. apply (fits_set _ _ (SMap p_entry)); [exact Ndp|exact Fd|left; reflexivity|]. right. exists m2. split; [reflexivity|]. apply Forall_forall. intros [id e] He. apply (F2 _ _ He).
      - unfold d'. rewrite deep_eq. apply good_set; [apply good_set; [exact Gd'|apply ascii_utf8; repeat constructor; lia|]|apply ascii_utf8; repeat constructor; lia|].
        + apply good_obj. split; [apply O2|]. apply Forall_forall. intros [id e] He. split; apply (F2 _ _ He).
        + apply (good_le (S deep5)); [rewrite deep2_eq, depth_eq; lia|]. apply good_arr. exact Gp.
      - rewrite Ga2. exact O2.
      - intros id. unfold found. rewrite path_entry, En. destruct (Each id) as [(X1 & X2 & _)|(e1 & e2 & a0 & X1 & (Q1 & _) & X3 & X4 & _)]; rewrite X1.
        + intros x0 Hx. congruence.
        + destruct (F2 id e2 (aget_in _ _ _ X1)) as (_ & Fe & Ge). rewrite (fits_path _ _ s_account _ Fe); [|apply Ge|cbn [In]; tauto]. exists a0. split; [exact X3|]. rewrite Q1. exact X4.
      - intros id cat uid. unfold found. rewrite path_entry, En. pose proof (Hit id cat uid) as Hi. unfold found in Hi. destruct (Each id) as [(X1 & X2 & X3)|(e1 & e2 & a0 & X1 & (_ & _ & _ & cats & U & Hc) & X3 & X4 & X5)]; rewrite X1.
        + rewrite path_entry, X3 in Hi. intros x0 Hx. inversion Hx as [? ? ? ? ? ? Has ?|? ? ? ? ? ? Ho ?]; subst; [destruct Has as (a & Has & _); congruence|apply (Hi _ Ho)].
        + assert (Q : In cat cats <-> asked (s :: h) id cat).
          { rewrite Hc. cbn [asked]. split; [intros X; exists a0; split; [exact X3|]; destruct X as [X|X]; [left; apply (has_same _ _ _ _ (same_sym _ _ X4) X)|right; exact X]|]. intros (a & Y1 & Y2). assert (a = a0) as -> by congruence. destruct Y2 as [Y2|Y2]; [left; apply (has_same _ _ _ _ X4 Y2)|right; exact Y2]. }
          destruct (U cat uid) as [U1 U2]. rewrite X5 in U2. destruct (in_dec str_dec cat cats) as [Hin|Hin]; [destruct (aget str_eqb uid (rev (items s id cat))) as [v|] eqn:Ev|].
          * destruct (U1 Hin v eq_refl) as (x & Z1 & Z2). rewrite Z1. exists v. split; [apply i_new; [apply Q, Hin|exact Ev]|exact Z2].
          * rewrite U2 by (right; reflexivity). destruct (at_path d [bs "accounts"; id; bs "feeditems"; cat; uid]) as [x|].
            -- destruct Hi as (x0 & Z1 & Z2). exists x0. split; [apply i_old; [exact Z1|]; intros [_ Z3]; apply aget_keys in Z3; congruence|exact Z2].
            -- intros x0 Hx. inversion Hx; subst; [congruence|]. eapply Hi. eassumption.
          * rewrite U2 by (left; exact Hin). assert (Nas : ~ asked (s :: h) id cat) by (intros X; apply Hin, Q, X). destruct (at_path d [bs "accounts"; id; bs "feeditems"; cat; uid]) as [x|].
            -- destruct Hi as (x0 & Z1 & Z2). exists x0. split; [apply i_old; [exact Z1|]; intros [Z3 _]; contradiction|exact Z2].
            -- intros x0 Hx. inversion Hx; subst; [contradiction|]. eapply Hi. eassumption.
      - intros id. unfold found. rewrite !path_entry, En. destruct (Each id) as [(X1 & X2 & _)|(e1 & e2 & a0 & X1 & (_ & Q2 & (sp & S1 & (g & S2 & S3) & (g' & S4 & S5)) & _) & X3 & _)]; rewrite X1; [split; [|split]; intros x0 [Hx _]; congruence|].
        destruct (F2 id e2 (aget_in _ _ _ X1)) as (_ & Fe & Ge). split; [|split].
        + rewrite (fits_path _ _ SAny _ Fe); [|apply Ge|cbn [In]; tauto]. eexists. split; [split; [congruence|reflexivity]|exact Q2].
        + assert (Ps : forall k, at_path e2 [bs "spaces"; k] = at_path sp [k]) by (intros k; rewrite path_get in S1; rewrite path_get; destruct (aget str_eqb (bs "spaces") (members e2)); [injection S1 as ->; reflexivity|discriminate]). rewrite Ps, S2. eexists. split; [split; [congruence|reflexivity]|exact S3].
        + assert (Ps : forall k, at_path e2 [bs "spaces"; k] = at_path sp [k]) by (intros k; rewrite path_get in S1; rewrite path_get; destruct (aget str_eqb (bs "spaces") (members e2)); [injection S1 as ->; reflexivity|discriminate]). rewrite Ps, S4. eexists. split; [split; [congruence|reflexivity]|exact S5]. }
    destruct Ok as [Ok1 Ok2]. split; [|split; [exact Ok1|]].
    - unfold sync. unfold s_accounts. rewrite Ea. cbn [obind]. rewrite Ela. cbn [elements]. rewrite E1. cbn [obind]. rewrite E2. cbn [obind]. unfold s_payees. rewrite Ep. cbn [obind]. rewrite Elp. reflexivity.
    - cbn [holds_all]. split; [apply Ok1|]. split; [intros id; apply Ok2|]. split; [intros id; apply Ok2|]. split; [intros id; apply Ok2|]. split; [apply Ok1|]. unfold found. replace (at_path d' [bs "Payees"]) with (Some (JArr lp)) by (unfold d'; rewrite path_set_eq; reflexivity). eexists. split; [reflexivity|constructor; exact Sp].
  Qed.
End Sync.

(** ** Files *)
Lemma relax j : fits p_data j -> fits s_data j.
Proof.
  intros H. apply fits_struct in H as (m & -> & K & F). apply fits_struct. exists m. split; [reflexivity|]. split; [exact K|]. inversion F as [|? ? (v & H1 & H2) F']; subst. constructor; [|exact F']. exists v. split; [exact H1|]. cbn [snd] in *. destruct H2 as [->|(me & -> & Fe)]; [left; reflexivity|right; exists me; split; [reflexivity|]].
  apply Forall_impl with (2 := Fe). intros kv X. right. apply fits_struct in X as (n & -> & Kn & Fn). apply fits_struct. exists n. split; [reflexivity|]. split; [exact Kn|]. inversion Fn as [|? ? (a & A1 & A2) Fn1]; subst. constructor; [exists a; split; [exact A1|right; exact A2]|]. inversion Fn1 as [|? ? B Fn2]; subst. constructor; [exact B|]. inversion Fn2 as [|? ? C Fn3]; subst. constructor; [exact C|]. inversion Fn3 as [|? ? (f & D1 & D2) _]; subst. constructor; [|constructor].
  exists f. split; [exact D1|]. cbn [snd] in *. destruct D2 as [->|(mf & -> & Ff)]; [left; reflexivity|right; exists mf; split; [reflexivity|]]. apply Forall_impl with (2 := Ff). intros x [->|(mi & -> & Fi)]; [left; reflexivity|right]. exists mi. split; [reflexivity|]. apply Forall_impl with (2 := Fi). intros y Y. right. exact Y.
Qed.
Lemma state_same rfc d d' h : same d d' -> good deep d' -> state_ok rfc d h -> state_ok rfc d' h.
Proof.
  intros S G (F & _ & [N E] & H1 & H2). pose proof (fits_same _ _ _ S F) as F'. split; [exact F'|]. split; [exact G|]. split; [|split; [intros id; apply (found_same _ _ _ _ S (H1 id))|intros id cat uid; apply (found_same _ _ _ _ S (H2 id cat uid))]].
  rewrite deep_eq in G. pose proof (good_get _ (bs "accounts") _ G) as Ga. pose proof (get_same (bs "accounts") _ _ S) as Sa. pose proof (fits_get _ (bs "accounts") (SMap p_entry) _ F' ltac:(rewrite <- deep_eq in G; apply G) ltac:(left; reflexivity)) as Fa.
  destruct Fa as [Ea|(m' & Ea & Fm)]; rewrite Ea in *; [split; [constructor|intros id e []]|]. cbn [members]. apply good_obj in Ga as [N' Ga]. split; [exact N'|]. intros id e' He. rewrite Forall_forall in Ga, Fm. destruct (Ga _ He) as [U Ge]. cbn [fst snd] in *. split; [exact U|].
  pose proof (same_sym _ _ Sa) as Sa'. destruct (obj_same _ _ Sa') as (m & Em). rewrite Em in *. destruct (in_same _ _ _ _ Sa' He) as (e & He0 & Se). cbn [members] in E. destruct (E id e He0) as [_ (_ & _ & Ha & Hi)]. split; [apply (Fm _ He)|]. split; [exact Ge|]. split; [apply (has_same (get (bs "account") e)); [apply get_same, same_sym, Se|exact Ha]|].
  intros cat uid v Hv. pose proof (at_path_same [bs "feeditems"; cat; uid] _ _ Se) as P. rewrite Hv in P. destruct (at_path e [bs "feeditems"; cat; uid]) as [v0|] eqn:E0; cbn [same_at] in P; [|contradiction]. apply (item_same _ v0); [apply same_sym, P|apply (Hi _ _ _ E0)].
Qed.
