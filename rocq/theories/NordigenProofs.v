(** * NordigenProofs: one run of download nordigen (C107). *)
From Coq Require Import ZifyBool Lqa.
From Verif Require Import Base Utf8 LoaderModel LoaderSpec ExportSpec ConvertModel ConvertSpec ConvertProps F64Model F64Spec F64Proofs JsonModel JsonSpec JsonWrite2 JsonProps JsonRead JsonRead2 JsonReadProps StateModel StateSpec StateProofs StateProofs2 StateProofs3 ShapeModel StarlingModel StarlingSpec ShapeProofs StarlingProofs StarlingProofs2 NordigenModel NordigenSpec.

(** Without nil pointers. *)
Definition p_acct : shape := SStruct [(bs "Basic", SAny); (bs "Details", SAny); (bs "Transactions", SMap n_tx)].
Definition p_state : shape := SStruct [(bs "Token", SAny); (bs "Accounts", SMap p_acct); (bs "Institution", n_inst); (bs "Requisition", n_req)].
Lemma n_named : named n_data. Proof. apply named_b_ok. vm_compute. reflexivity. Qed.
Lemma resp_named : named n_resp. Proof. apply named_b_ok. vm_compute. reflexivity. Qed.
Lemma acct_nodup : NoDup (map fst [(bs "Basic", SAny); (bs "Details", SAny); (bs "Transactions", SMap n_tx)]). Proof. apply nodup_s_ok. vm_compute. reflexivity. Qed.
Lemma state_nodup : NoDup (map fst [(bs "Token", SAny); (bs "Accounts", SMap p_acct); (bs "Institution", n_inst); (bs "Requisition", n_req)]). Proof. apply nodup_s_ok. vm_compute. reflexivity. Qed.
Lemma n_relax j : fits p_state j -> fits n_data j.
Proof.
  intros H. apply fits_struct in H as (m & -> & K & F). apply fits_struct. exists m. split; [reflexivity|]. split; [exact K|].
  inversion F as [|? ? F1 F']; subst. inversion F' as [|? ? (v & H1 & H2) F'']; subst. inversion F'' as [|? ? (v3 & H3 & H4) F3]; subst. inversion F3 as [|? ? (v5 & H5 & H6) _]; subst. cbn [fst snd] in *.
  constructor; [exact F1|]. constructor; [|constructor; [|constructor; [|constructor]]]; cbn [fst snd].
  - exists v. split; [exact H1|]. destruct H2 as [->|(me & -> & Fe)]; [left; reflexivity|]. right. exists me. split; [reflexivity|]. apply Forall_impl with (2 := Fe). intros kv Hk. right. apply fits_struct in Hk as (mk & Ek & Kk & Fk). apply fits_struct. exists mk. split; [exact Ek|]. split; [exact Kk|].
    inversion Fk as [|? ? A1 Fk1]; subst. inversion Fk1 as [|? ? A2 Fk2]; subst. inversion Fk2 as [|? ? (w & A3 & A4) _]; subst. constructor; [exact A1|]. constructor; [exact A2|]. constructor; [|constructor]. cbn [fst snd] in *. exists w. split; [exact A3|]. destruct A4 as [->|(mt & -> & Ft)]; [left; reflexivity|]. right. exists mt. split; [reflexivity|]. apply Forall_impl with (2 := Ft). intros kv' Hk'. right. exact Hk'.
  - exists v3. split; [exact H3|right; exact H4].
  - exists v5. split; [exact H5|right; exact H6].
Qed.
Lemma depth_le : (depth <= deep)%nat. Proof. apply depth_deep. Qed.
Ltac name_ok := apply ascii_utf8; repeat constructor; lia.
Ltac other := let X := fresh in intros X; discriminate X.

(** ** Requisitions *)
Lemma strings_ok l : strings (map JStr l) = Ok l. Proof. induction l as [|s l IH]; [reflexivity|]. cbn [map strings]. rewrite IH. reflexivity. Qed.
Lemma strs_same l v : same (JArr (map JStr l)) v -> v = JArr (map JStr l).
Proof. intros S. destruct (arr_same _ _ S) as (l' & -> & F). f_equal. clear S. revert l' F. induction l as [|s l IH]; intros l' F; inversion F as [|? y ? ? S1 F1]; subst; [reflexivity|]. apply str_same in S1 as ->. cbn [map]. f_equal. apply IH, F1. Qed.
Lemma req_same v v' id l : same v v' -> is_req v id l -> is_req v' id l.
Proof. intros S (H1 & (k & H2) & m & -> & H3). split; [apply (has_same _ _ _ _ S H1)|]. split; [exists k; apply (has_same _ _ _ _ S H2)|]. destruct (obj_same _ _ S) as (m' & ->). destruct (in_same _ _ _ _ S H3) as (x & H4 & H5). apply strs_same in H5 as ->. exists m'. auto. Qed.
Lemma req_fits v id l : is_req v id l -> fits n_req v. Proof. intros (H1 & H2 & _). apply raw_fits. repeat constructor; eauto. Qed.
Lemma listed_ok v id l : map_like v -> is_req v id l -> listed v = Ok l.
Proof. intros M (_ & _ & m & -> & H). inversion M; subst. cbn [listed]. rewrite (in_aget _ _ _ ltac:(eassumption) H). apply strings_ok. Qed.
Lemma inst_fits v id : is_inst v id -> fits n_inst v. Proof. intros (H1 & H2). apply raw_fits. repeat constructor; eauto. Qed.
Lemma ntx_fits v id : is_ntx v id -> fits n_tx v. Proof. intros H. apply raw_fits. repeat constructor; eauto. Qed.

(** ** An account *)
(** The answers for an account. *)
Definition acct_answers (num : Qc -> Qc -> Prop) (an : nsession) (s : nsent) (id : str) : Prop :=
  text num depth (n_basic an id) (basic s id) /\ text num depth (n_details an id) (details s id) /\
  text num depth (n_trans an id) (JObj [(bs "transactions", JObj [(bs "booked", JArr (map snd (booked s id))); (bs "pending", JArr (map snd (pending s id)))])]) /\ all_are is_ntx (booked s id) /\ all_are is_ntx (pending s id).
(** An entry [e] for the account [id] after the runs [h]. *)
Definition kept (h : list nsent) (id : str) (e : option json) : Prop :=
  match e with
  | None => latest h id = None
  | Some e => exists s, latest h id = Some s /\ same (basic s id) (get (bs "Basic") e) /\ same (details s id) (get (bs "Details") e) /\ forall tx, same_at (aget str_eqb tx (sent_tx h id)) (aget str_eqb tx (members (get (bs "Transactions") e)))
  end.
Lemma resp_fits l1 l2 : all_are is_ntx l1 -> all_are is_ntx l2 -> fits (SPtr n_resp) (JObj [(bs "transactions", JObj [(bs "booked", JArr (map snd l1)); (bs "pending", JArr (map snd l2))])]).
Proof.
  intros F1 F2. assert (Fl : forall l, all_are is_ntx l -> fits (SList n_tx) (JArr (map snd l))).
  { intros l F. right. exists (map snd l). split; [reflexivity|]. apply Forall_forall. intros v Hv. apply in_map_iff in Hv as (kv & <- & Hk). unfold all_are in F. rewrite Forall_forall in F. apply (ntx_fits _ _ (F _ Hk)). }
  right. apply fits_struct. eexists. split; [reflexivity|]. split; [intros k Hk; exact Hk|]. constructor; [|constructor]. cbn [fst snd]. eexists. split; [left; reflexivity|]. apply fits_struct. eexists. split; [reflexivity|]. split; [intros k Hk; exact Hk|]. constructor; [|constructor; [|constructor]]; cbn [fst snd]; eexists; (split; [cbn [In]; eauto|]); auto.
Qed.
Lemma deep5_eq : exists d, deep5 = S d. Proof. Transparent deep5. exists (Z.to_nat 9994). apply Nat2Z.inj. rewrite !Nat2Z.inj_succ. unfold deep5. rewrite !Z2Nat.id by lia. reflexivity. Opaque deep5. Qed.
Lemma latest_cons s h id : latest (s :: h) id = if lists s id then Some s else latest h id. Proof. reflexivity. Qed.
Lemma sent_cons s h id : sent_tx (s :: h) id = (if lists s id then rev (booked s id) else []) ++ sent_tx h id. Proof. reflexivity. Qed.
Lemma zero_acct : zero n_acct = JObj [(bs "Basic", JNull); (bs "Details", JNull); (bs "Transactions", JNull)]. Proof. reflexivity. Qed.

Section Account.
  Context (an : nsession) (s : nsent) (h : list nsent).
  (** An entry as it is before, or after, this run went through it. *)
  Lemma account_ok m id : NoDup (map fst m) -> Forall (fun kv => is_utf8 (fst kv) /\ fits p_acct (snd kv) /\ good deep2 (snd kv)) m -> is_utf8 id -> lists s id = true -> acct_answers as_float an s id -> kept h id (aget str_eqb id m) \/ kept (s :: h) id (aget str_eqb id m) ->
    exists e, sync_account an m id = Ok (aset str_eqb id e m) /\ fits p_acct e /\ good deep2 e /\ kept (s :: h) id (Some e).
  Proof.
    intros N F U Hl (Tb & Td & Tt & Fb & Fp) K. set (acct := match aget str_eqb id m with Some a => a | None => zero n_acct end).
    assert (Ha : fits p_acct acct /\ good deep2 acct).
    { unfold acct. destruct (aget str_eqb id m) as [e|] eqn:E; [apply aget_in in E; rewrite Forall_forall in F; destruct (F _ E) as (_ & X); exact X|]. rewrite zero_acct. split.
      - apply fits_struct. eexists. split; [reflexivity|]. split; [intros k Hk; exact Hk|]. constructor; [|constructor; [|constructor; [|constructor]]]; cbn [fst snd]; eexists; (split; [cbn [In]; eauto|]); try exact I. left. reflexivity.
      - rewrite deep2_eq. apply good_obj. split; [apply acct_nodup|]. repeat constructor; cbn [fst snd]; try name_ok; apply good_null. }
    destruct Ha as [Fa Ga]. pose proof Ga as Ga'. rewrite deep2_eq in Ga'.
    assert (Hn : is_null acct = false) by (apply fits_struct in Fa as (x & -> & _); reflexivity).
    destruct (fetch_shape SAny depth (get (bs "Basic") acct) _ _ I I depth_le Tb I) as (jb & Eb & Sb & Gb & _). destruct (fetch_shape SAny depth (get (bs "Details") acct) _ _ I I depth_le Td I) as (jd & Ed & Sd & Gd & _).
    destruct (fetch_shape (SPtr n_resp) depth (zero n_resp) _ _ resp_named (fresh_zero _ resp_named) depth_le Tt (resp_fits _ _ Fb Fp)) as (jr & Er & Sr & Gr & _).
    assert (Hr : is_null jr = false) by (destruct (obj_same _ _ Sr) as (x & ->); reflexivity).
    assert (exists l d5, elements (get (bs "booked") (get (bs "transactions") jr)) = l /\ Forall2 same (map snd (booked s id)) l /\ Forall (good d5) l /\ deep5 = S d5) as (l & d5 & El & Sl & Gl & E5).
    { destruct deep5_eq as [d5 E5]. pose proof (get_same (bs "transactions") _ _ Sr) as S1. pose proof (get_same (bs "booked") _ _ S1) as S2.
      assert (B : get (bs "booked") (get (bs "transactions") (JObj [(bs "transactions", JObj [(bs "booked", JArr (map snd (booked s id))); (bs "pending", JArr (map snd (pending s id)))])])) = JArr (map snd (booked s id))) by reflexivity. rewrite B in S2. destruct (arr_same _ _ S2) as (l & El & Fl). exists l, d5. rewrite El. split; [reflexivity|]. split; [exact Fl|]. split; [|exact E5].
      rewrite depth_eq in Gr. apply (good_get _ (bs "transactions")) in Gr. apply (good_get _ (bs "booked")) in Gr. rewrite El, E5 in Gr. apply good_arr in Gr. exact Gr. }
    set (old := members (get (bs "Transactions") acct)). set (new := map (fun v => (str_of v (bs "transactionId"), v)) l).
    assert (Efold : fold_left (fun t v => aset str_eqb (str_of v (bs "transactionId")) v t) l old = fold_left put new old) by (unfold new; generalize old; clear; induction l as [|v l IH]; intros old; [reflexivity|]; cbn [map fold_left]; rewrite IH; reflexivity).
    assert (Il : Forall2 (fun kv v => same (snd kv) v /\ is_ntx v (fst kv)) (booked s id) l).
    { clear - Fb Sl. revert l Sl. induction Fb as [|kv its Hk _ IH]; intros l S2; cbn [map] in S2; inversion S2; subst; constructor; [|auto]. split; [assumption|]. apply (has_same (snd kv)); assumption. }
    assert (Nw : Forall2 same_kv (booked s id) new).
    { clear - Il Gl. unfold new. induction Il as [|kv v its l [Sv Iv] _ IH]; [constructor|]. inversion Gl as [|? ? G1 G2]; subst. cbn [map]. constructor; [|apply IH, G2]. split; cbn [fst snd]; [symmetry; apply has_str; [apply G1|apply Iv]|exact Sv]. }
    assert (Wn : Forall (fun kv => is_utf8 (fst kv) /\ good deep5 (snd kv) /\ fits n_tx (snd kv)) new).
    { clear - Il Gl E5. unfold new. induction Il as [|kv v its l [Sv Iv] _ IH]; [constructor|]. inversion Gl as [|? ? G1 G2]; subst. cbn [map]. constructor; [|apply IH, G2]. cbn [fst snd]. rewrite (has_str v _ (fst kv)); [|apply G1|apply Iv]. split; [apply (has_utf8 _ _ _ _ G1 Iv)|]. split; [rewrite E5; apply (good_le d5); [lia|exact G1]|apply (ntx_fits _ _ Iv)]. }
    assert (Gt : good depth (get (bs "Transactions") acct)) by (apply good_get; exact Ga').
    assert (Ft : fits (SMap n_tx) (get (bs "Transactions") acct)) by (apply (fits_get _ _ _ _ Fa); [apply Ga'|cbn [In]; tauto]).
    assert (Wo : NoDup (map fst old) /\ Forall (fun kv => is_utf8 (fst kv) /\ good (S deep5) (snd kv) /\ fits n_tx (snd kv)) old).
    { unfold old. destruct Ft as [->|(mt & Em & Ft)]; [split; constructor|]. rewrite Em in *. cbn [members]. rewrite depth_eq in Gt. apply good_obj in Gt as [Nt Gt]. split; [exact Nt|]. rewrite Forall_forall in *. intros x Hx. destruct (Gt x Hx). split; [assumption|]. split; [assumption|apply Ft, Hx]. }
    destruct Wo as [No Wo]. set (tr := fold_left put new old). set (e := set (bs "Transactions") (JObj tr) (set (bs "Details") jd (set (bs "Basic") jb acct))). exists e. split; [|split; [|split]].
    - unfold sync_account. fold acct. rewrite Hn, Eb. cbn [obind]. rewrite Ed. cbn [obind]. rewrite Er. cbn [obind]. rewrite Hr, El. cbv zeta. fold old. rewrite Efold. reflexivity.
    - unfold e. apply (fits_set _ _ (SMap n_tx)); [exact acct_nodup| |cbn [In]; tauto|].
      + apply (fits_set _ _ SAny); [exact acct_nodup| |cbn [In]; tauto|exact I]. apply (fits_set _ _ SAny); [exact acct_nodup|exact Fa|cbn [In]; tauto|exact I].
      + right. exists tr. split; [reflexivity|]. apply Forall_forall. intros x Hx. apply put_in in Hx as [Hx|Hx]; [rewrite Forall_forall in Wn; apply (Wn _ Hx)|rewrite Forall_forall in Wo; apply (Wo _ Hx)].
    - unfold e. rewrite deep2_eq. apply good_set; [|name_ok|]; [apply good_set; [apply good_set; [exact Ga'|name_ok|exact Gb]|name_ok|exact Gd]|]. rewrite depth_eq. apply good_obj. split; [apply put_nodup, No|]. apply Forall_forall. intros x Hx. apply put_in in Hx as [Hx|Hx]; [rewrite Forall_forall in Wn; destruct (Wn _ Hx) as (X1 & X2 & _); split; [exact X1|apply (good_le deep5); [lia|exact X2]]|rewrite Forall_forall in Wo; destruct (Wo _ Hx) as (X1 & X2 & _); split; assumption].
    - exists s. rewrite latest_cons, Hl. split; [reflexivity|]. unfold e. split; [rewrite !get_set_neq, get_set_eq by other; exact Sb|]. split; [rewrite get_set_neq, get_set_eq by other; exact Sd|]. intros tx. rewrite get_set_eq. cbn [members]. unfold tr. rewrite put_aget. rewrite sent_cons, Hl, aget_app.
      pose proof (aget_same_kv _ _ tx (Forall2_rev _ _ _ Nw)) as Sx. destruct (aget str_eqb tx (rev (booked s id))) as [v|] eqn:Ev.
      + destruct (aget str_eqb tx (rev new)); cbn [same_at] in Sx |- *; [exact Sx|contradiction].
      + destruct (aget str_eqb tx (rev new)); cbn [same_at] in Sx; [contradiction|]. unfold old, acct. destruct K as [K|K].
        * destruct (aget str_eqb id m) as [e0|]; cbn [kept] in K; [destruct K as (s0 & _ & _ & _ & K); apply K|]. replace (sent_tx h id) with (@nil (str * json)); [exact I|]. symmetry. clear - K. unfold latest in K. unfold sent_tx. induction h as [|s0 h0 IH]; [reflexivity|]. cbn [find] in K. cbn [map concat]. destruct (lists s0 id); [discriminate|]. apply IH, K.
        * destruct (aget str_eqb id m) as [e0|]; cbn [kept] in K; [|rewrite latest_cons, Hl in K; discriminate]. destruct K as (s0 & _ & _ & _ & K). specialize (K tx). rewrite sent_cons, Hl, aget_app, Ev in K. exact K.
  Qed.
  Lemma accounts_ok ids : forall m, NoDup (map fst m) -> Forall (fun kv => is_utf8 (fst kv) /\ fits p_acct (snd kv) /\ good deep2 (snd kv)) m -> Forall is_utf8 ids -> (forall id, In id ids -> lists s id = true /\ acct_answers as_float an s id) ->
    (forall id, kept h id (aget str_eqb id m) \/ kept (s :: h) id (aget str_eqb id m)) ->
    exists m', sync_accounts an m ids = Ok m' /\ NoDup (map fst m') /\ Forall (fun kv => is_utf8 (fst kv) /\ fits p_acct (snd kv) /\ good deep2 (snd kv)) m' /\ forall id, if in_dec str_dec id ids then kept (s :: h) id (aget str_eqb id m') else aget str_eqb id m' = aget str_eqb id m.
  Proof.
    induction ids as [|i ids IH]; intros m N F U A K; [exists m; split; [reflexivity|]; split; [exact N|]; split; [exact F|]; intros id; destruct (in_dec str_dec id []) as [[]|]; reflexivity|]. inversion U as [|? ? Ui Us]; subst. destruct (A i) as [Li Ai]; [left; reflexivity|].
    destruct (account_ok m i N F Ui Li Ai (K i)) as (e & E & Fe & Ge & Ke). cbn [sync_accounts]. rewrite E. cbn [obind].
    assert (F' : Forall (fun kv => is_utf8 (fst kv) /\ fits p_acct (snd kv) /\ good deep2 (snd kv)) (aset str_eqb i e m)) by (apply Forall_forall; intros x Hx; apply aset_in in Hx as [->|Hx]; [split; [exact Ui|split; [exact Fe|exact Ge]]|rewrite Forall_forall in F; apply F, Hx]).
    destruct (IH (aset str_eqb i e m)) as (m' & E' & N' & Fm & Km); [apply (aset_NoDup str_eqb str_eqb_eq), N|exact F'|exact Us|intros id Hid; apply A; right; exact Hid| |].
    { intros id. destruct (str_dec id i) as [->|Hn]; [right; rewrite (aget_aset_eq str_eqb str_eqb_eq); exact Ke|rewrite (aget_aset_neq str_eqb str_eqb_eq) by congruence; apply K]. }
    exists m'. split; [exact E'|]. split; [exact N'|]. split; [exact Fm|]. intros id. specialize (Km id). destruct (in_dec str_dec id ids) as [H|H]; destruct (in_dec str_dec id (i :: ids)) as [H2|H2].
    - exact Km.
    - exfalso. apply H2. right. exact H.
    - destruct H2 as [<-|H2]; [|contradiction]. rewrite Km, (aget_aset_eq str_eqb str_eqb_eq). exact Ke.
    - rewrite Km. apply (aget_aset_neq str_eqb str_eqb_eq). intros <-. apply H2. left. reflexivity.
  Qed.
End Account.

(** ** The state *)
Definition state_n (tok inst req : json) (rid : str) (h : list nsent) (d : json) : Prop :=
  fits p_state d /\ good deep d /\ same tok (get (bs "Token") d) /\ same inst (get (bs "Institution") d) /\ same req (get (bs "Requisition") d) /\ (exists l, is_req req rid l) /\ forall id, kept h id (aget str_eqb id (members (get (bs "Accounts") d))).
Lemma members_same a b k : same a b -> same_at (aget str_eqb k (members a)) (aget str_eqb k (members b)).
Proof. intros S. destruct a as [| | | | |ma]; try (inversion S; subst; exact I). destruct (obj_same _ _ S) as (mb & ->). cbn [members]. destruct (obj_same_elim _ _ S) as (_ & _ & X). apply X. Qed.
Lemma kept_same h id e e' : match e, e' with Some a, Some b => same a b | None, None => True | _, _ => False end -> kept h id e -> kept h id e'.
Proof.
  destruct e as [a|], e' as [b|]; try contradiction; intros S K; cbn [kept] in *; [|exact K]. destruct K as (s & L & K1 & K2 & K3). exists s. split; [exact L|]. split; [apply (same_trans _ _ _ K1), get_same, S|]. split; [apply (same_trans _ _ _ K2), get_same, S|]. intros tx. specialize (K3 tx). apply (same_at_trans _ _ _ K3), members_same, get_same, S.
Qed.
Lemma state_n_same tok inst req rid h d d' : same d d' -> good deep d' -> state_n tok inst req rid h d -> state_n tok inst req rid h d'.
Proof.
  intros S G (F & _ & S1 & S2 & S3 & R & K). split; [apply (fits_same _ _ _ S F)|]. split; [exact G|]. split; [apply (same_trans _ _ _ S1), get_same, S|]. split; [apply (same_trans _ _ _ S2), get_same, S|]. split; [apply (same_trans _ _ _ S3), get_same, S|]. split; [exact R|]. intros id. apply (kept_same _ _ (aget str_eqb id (members (get (bs "Accounts") d)))); [|apply K].
  apply (members_same _ _ id), get_same, S.
Qed.
Lemma state_holds tok inst req rid h d : state_n tok inst req rid h d -> holds_n d tok inst req h.
Proof.
  intros (F & G & S1 & S2 & S3 & _ & K). pose proof G as (_ & _ & M & _).
  assert (P1 : forall n sh, In (n, sh) [(bs "Token", SAny); (bs "Accounts", SMap p_acct); (bs "Institution", n_inst); (bs "Requisition", n_req)] -> at_path d [n] = Some (get n d)) by (intros n sh Hn; apply (fits_path _ _ _ _ F M Hn)).
  assert (Fa : fits (SMap p_acct) (get (bs "Accounts") d)) by (apply (fits_get _ _ _ _ F M); cbn [In]; tauto).
  assert (Pa : forall id p, at_path d (bs "Accounts" :: id :: p) = match aget str_eqb id (members (get (bs "Accounts") d)) with Some e => at_path e p | None => None end) by (intros id p; rewrite <- path_of_get; apply path_get).
  assert (Ge : forall id e, aget str_eqb id (members (get (bs "Accounts") d)) = Some e -> fits p_acct e /\ map_like e).
  { intros id e E. split; [apply (fits_at _ _ _ _ Fa E)|]. rewrite deep_eq in G. apply (good_get _ (bs "Accounts")) in G. apply (good_at _ _ _ _ G E). }
  split; [unfold found; rewrite (P1 (bs "Token") SAny) by (cbn [In]; tauto); eauto|]. split; [unfold found; rewrite (P1 (bs "Institution") n_inst) by (cbn [In]; tauto); eauto|]. split; [unfold found; rewrite (P1 (bs "Requisition") n_req) by (cbn [In]; tauto); eauto|].
  split; [|split].
  - intros id. unfold found. rewrite Pa. specialize (K id). destruct (aget str_eqb id (members (get (bs "Accounts") d))) as [e|] eqn:E; cbn [kept] in K; [|intros x (s & Hs & _); congruence]. destruct K as (s & L & K1 & _). destruct (Ge _ _ E) as [Fe Me]. rewrite (fits_path _ (bs "Basic") SAny _ Fe Me) by (cbn [In]; tauto). exists (basic s id). eauto.
  - intros id. unfold found. rewrite Pa. specialize (K id). destruct (aget str_eqb id (members (get (bs "Accounts") d))) as [e|] eqn:E; cbn [kept] in K; [|intros x (s & Hs & _); congruence]. destruct K as (s & L & _ & K2 & _). destruct (Ge _ _ E) as [Fe Me]. rewrite (fits_path _ (bs "Details") SAny _ Fe Me) by (cbn [In]; tauto). exists (details s id). eauto.
  - intros id tx. unfold found. rewrite Pa. specialize (K id). destruct (aget str_eqb id (members (get (bs "Accounts") d))) as [e|] eqn:E; cbn [kept] in K.
    + destruct K as (s & _ & _ & _ & K3). specialize (K3 tx). rewrite <- path_of_get, path_get. destruct (aget str_eqb tx (members (get (bs "Transactions") e))) as [x|]; cbn [at_path]; destruct (aget str_eqb tx (sent_tx h id)) as [y|]; cbn [same_at] in K3; try contradiction; [exists y; auto|discriminate].
    + intros x Hx. assert (X : sent_tx h id = []); [|rewrite X in Hx; discriminate]. clear - K. unfold latest in K. unfold sent_tx. induction h as [|s0 h0 IH]; [reflexivity|]. cbn [find] in K. cbn [map concat]. destruct (lists s0 id); [discriminate|]. apply IH, K.
Qed.
