(** * StarlingProps: the state file of download starling holds the newest version of everything the server sent (C105). *)
From Coq Require Import ZifyBool Lqa.
From Verif Require Import Base Utf8 LoaderModel LoaderSpec ExportSpec ConvertModel ConvertSpec ConvertProps F64Model F64Spec F64Proofs JsonModel JsonSpec JsonWrite2 JsonProps JsonRead JsonRead2 JsonReadProps StateModel StateSpec StateProofs StateProofs2 StateProofs3 StateCut ShapeModel StarlingModel StarlingSpec ShapeProofs StarlingProofs StarlingProofs2.

(** A run: the server answers with [s], and the map of accounts is gone through in some order. *)
Definition run_with (num : Qc -> Qc -> Prop) (rfc : str -> bool) (an : session) (s : sent) : Prop := answered num rfc an s /\ forall l, Permutation l (se_ord an l).

Lemma run_ok rfc short an s file d h : load s_data file = Ok d -> state_ok rfc d h -> run_with as_float rfc an s ->
  exists bytes v d2, run rfc an short file = Ok bytes /\ text as_float deep bytes v /\ written_obj bytes /\ holds_all v (s :: h) /\ load s_data (Some bytes) = Ok d2 /\ state_ok rfc d2 (s :: h).
Proof.
  intros E St [A Po]. destruct (sync_ok rfc an s A Po d h St) as (d' & E' & St' & H'). pose proof St' as (F' & G' & _). destruct (save_shape short s_data d' n_data (relax _ F') G') as (bytes & t & Es & T & V & Tx & S).
  destruct (load_shape s_data bytes _ n_data Tx (fits_same _ _ _ S (relax _ F'))) as (d2 & E2 & S2 & G2). exists bytes, (out s_data d'), d2. split; [unfold run; rewrite E; cbn [obind]; rewrite E'; exact Es|]. split; [exact Tx|]. split; [exists t; eexists; split; [exact T|exact V]|].
  split; [|split; [exact E2|apply (state_same rfc d'); [apply (same_trans _ _ _ S S2)|exact G2|exact St']]].
  destruct H' as (H1 & H2 & H3 & H4 & H5 & H6). split; [intros id; apply (found_same _ _ _ _ S (H1 id))|]. split; [intros id; apply (found_same _ _ _ _ S (H2 id))|]. split; [intros id; apply (found_same _ _ _ _ S (H3 id))|]. split; [intros id; apply (found_same _ _ _ _ S (H4 id))|]. split; [intros id cat uid; apply (found_same _ _ _ _ S (H5 id cat uid))|apply (found_same _ _ _ _ S H6)].
Qed.
Lemma runs_app rfc short a : forall file b, runs rfc short file (a ++ b) = (do f <- runs rfc short file a; runs rfc short f b).
Proof. induction a as [|e a IH]; intros file b; [reflexivity|]. cbn [runs app]. destruct (run rfc e short file); cbn [obind]; auto. Qed.
Lemma history_ok rfc short ans : forall ss, Forall2 (run_with as_float rfc) ans ss ->
  exists file d, runs rfc short None ans = Ok file /\ load s_data file = Ok d /\ state_ok rfc d (rev ss) /\ (ans <> [] -> exists bytes v, file = Some bytes /\ text as_float deep bytes v /\ written_obj bytes /\ holds_all v (rev ss)).
Proof.
  induction ans as [|an ans IH] using rev_ind; intros ss F.
  - inversion F; subst. exists None, (zero s_data). split; [reflexivity|]. split; [reflexivity|]. split; [apply state_zero|]. intros X. contradiction.
  - apply Forall2_app_inv_l in F as (ss1 & ss2 & F1 & F2 & ->). inversion F2 as [|? s ? ? R F3]; subst. inversion F3; subst. destruct (IH ss1 F1) as (file & d & E & El & St & _). destruct (run_ok rfc short an s file d (rev ss1) El St R) as (bytes & v & d2 & Er & T & W & H & E2 & St2).
    exists (Some bytes), d2. rewrite runs_app, E. cbn [obind runs]. rewrite Er. cbn [obind]. rewrite rev_app_distr. cbn [rev app]. split; [reflexivity|]. split; [exact E2|]. split; [exact St2|]. intros _. exists bytes, v. auto.
Qed.
(** After any runs the file holds of every account the newest version, its identifiers and spaces as last sent, and of every item of every feed that was asked for the newest version; and no other items or accounts. No run fails. *)
Theorem C105_history_partial rfc short ans ss : Forall2 (run_with as_float rfc) ans ss -> ans <> [] ->
  exists bytes v, runs rfc short None ans = Ok (Some bytes) /\ text as_float deep bytes v /\ holds_all v (rev ss).
Proof. intros F Hn. destruct (history_ok rfc short ans ss F) as (file & d & E & _ & _ & H). destruct (H Hn) as (bytes & v & -> & T & _ & Ha). exists bytes, v. auto. Qed.
Print Assumptions C105_history_partial.
(** What a crash can leave of a file when it is written is not taken for a state. *)
Theorem C105_cut rfc short ans ss bytes p q : Forall2 (run_with as_float rfc) ans ss -> runs rfc short None ans = Ok (Some bytes) -> bytes = p ++ q -> q <> [] -> forall an, run rfc an short (Some p) = Error.
Proof.
  intros F E Ep Hq an. assert (L : load s_data (Some p) = Error).
  { destruct ans as [|a ans]; [discriminate|]. destruct (history_ok rfc short _ ss F) as (file & d & E1 & _ & _ & H). destruct H as (b & v & -> & _ & (t & m & Wt & Wv) & _); [discriminate|]. rewrite E in E1. injection E1 as <-. cbn [load].
    replace (unmarshal_json p) with (@Error json); [reflexivity|]. symmetry. apply (proj2 (proj2 (C99_whole_text p))). intros [w0 (w & x & w' & Ed & Hw & Hv & _)]. apply (cut_object _ _ _ _ _ _ Wt Wv Ep Hq _ _ _ _ _ Ed Hw Hv). }
  unfold run. rewrite L. reflexivity.
Qed.
Print Assumptions C105_cut.

(** ** Bad answers *)
Definition begins (bytes : str) : Prop := exists w t r v, decode bytes = w ++ t ++ r /\ ws w /\ value as_float deep t v.
Lemma fetch_begins s old bytes j : fetch s old bytes = Ok j -> begins bytes.
Proof. unfold fetch. destruct (decode_json bytes) as [v| | |] eqn:E; try discriminate. intros _. apply C99_first_value in E as (w & t & r & E & Hw & V). rewrite <- deep_levels in V. exists w, t, r, v. auto. Qed.
Lemma store_accounts_keys l : forall m m', store_accounts m l = Ok m' -> forall id, In id (map fst m) -> In id (map fst m').
Proof.
  assert (K : forall id uid (e : json) m, In id (map fst m) -> In id (map fst (aset str_eqb uid e m))).
  { intros id uid e m H. apply in_keys. destruct (str_dec id uid) as [->|Hn]; [rewrite (aget_aset_eq str_eqb str_eqb_eq); discriminate|]. rewrite (aget_aset_neq str_eqb str_eqb_eq) by congruence. apply in_keys, H. }
  induction l as [|v l IH]; intros m m' E id H; [injection E as <-; exact H|]. destruct v; try discriminate; cbn [store_accounts] in E;
  (destruct (aget str_eqb _ m) as [e|]; [destruct e; try discriminate|]; apply (IH _ _ E); apply K, H).
Qed.
Lemma entries_each rfc an ids : forall m m', sync_entries rfc an m ids = Ok m' -> forall id, In id ids -> exists e e', sync_entry rfc an id e = Ok e'.
Proof.
  induction ids as [|i ids IH]; intros m m' E id H; [destruct H|]. cbn [sync_entries] in E. destruct (sync_entry rfc an i (get i (JObj m))) as [e'| | |] eqn:Ee; try discriminate. cbn [obind] in E. destruct H as [<-|H]; [eauto|apply (IH _ _ E _ H)].
Qed.
Lemma entry_begins rfc an id e e' : sync_entry rfc an id e = Ok e' -> begins (an_ident an id) /\ begins (an_spaces an id) /\ exists i cat, begins (an_feed an i cat).
Proof.
  unfold sync_entry. destruct (is_null e); [discriminate|]. destruct (fetch SAny _ (an_ident an id)) as [ji| | |] eqn:E1; try discriminate. cbn [obind]. set (e1 := set (bs "identifiers") ji e). destruct (is_null (get (bs "account") e1)); [discriminate|].
  destruct (sync_feed rfc an e1 _) as [e2| | |] eqn:E2; try discriminate. cbn [obind]. destruct (fetch (SPtr s_spaces) _ (an_spaces an id)) as [sp| | |] eqn:E3; try discriminate. intros _. split; [apply (fetch_begins _ _ _ _ E1)|]. split; [apply (fetch_begins _ _ _ _ E3)|].
  unfold sync_feed in E2. destruct (is_null _); [discriminate|]. set (x := if se_all an || _ then Ok tt else _) in E2. destruct x; try discriminate. cbn [obind] in E2. destruct (fetch (SPtr s_feed) _ _) as [f| | |] eqn:E4; try discriminate. eexists _, _. apply (fetch_begins _ _ _ _ E4).
Qed.
(** Whatever the rest of the answers: when the list of accounts, the payees, or the identifiers, spaces or feeds of an account that is known do not begin with a JSON value, the run fails and nothing is written. *)
Theorem C105_bad_answer rfc short ans ss an id p : Forall2 (run_with as_float rfc) ans ss -> (forall l, Permutation l (se_ord an l)) -> ~ begins p ->
  an_accounts an = p \/ an_payees an = p \/ account (rev ss) id <> None /\ (an_ident an id = p \/ an_spaces an id = p \/ forall i cat, an_feed an i cat = p) ->
  forall bytes, runs rfc short None (ans ++ [an]) <> Ok (Some bytes).
Proof.
  intros F Po Hb Hp bytes E. destruct (history_ok rfc short ans ss F) as (file & d & Er & El & St & _). rewrite runs_app, Er in E. cbn [obind runs] in E. unfold run in E. rewrite El in E. cbn [obind] in E. destruct (sync rfc an d) as [d'| | |] eqn:Es; try discriminate. clear E.
  unfold sync in Es. destruct (fetch s_accounts _ (an_accounts an)) as [ja| | |] eqn:E1; try discriminate. cbn [obind] in Es. destruct (store_accounts _ _) as [m| | |] eqn:E2; try discriminate. cbn [obind] in Es. destruct (sync_entries rfc an m _) as [m'| | |] eqn:E3; try discriminate. cbn [obind] in Es. destruct (fetch s_payees _ (an_payees an)) as [jp| | |] eqn:E4; try discriminate.
  apply Hb. destruct Hp as [<-|[<-|[Hk Hp]]]; [apply (fetch_begins _ _ _ _ E1)|apply (fetch_begins _ _ _ _ E4)|]. destruct (account (rev ss) id) as [a|] eqn:Ea; [|contradiction].
  assert (In id (map fst (members (get (bs "accounts") d)))) as Hin. { apply in_keys. intros X. destruct St as (_ & _ & _ & Ha & _). apply (found_no _ _ _ ltac:(rewrite path_entry; unfold entry_at; rewrite X; reflexivity) (Ha id) a Ea). }
  apply (store_accounts_keys _ _ _ E2) in Hin. destruct (entries_each _ _ _ _ _ E3 id) as (e & e' & Ee); [apply (Permutation_in _ (Po _) Hin)|]. destruct (entry_begins _ _ _ _ _ Ee) as (B1 & B2 & i & cat & B3). destruct Hp as [<-|[<-|Hp]]; [exact B1|exact B2|]. rewrite <- (Hp i cat). exact B3.
Qed.
Print Assumptions C105_bad_answer.

(** ** Nulls *)
(** A null in the list of accounts, or instead of the feeds, crashes the program; it should be an error message. *)
Theorem C106_starling_account_refuted rfc short ans ss an l1 l2 : Forall2 (run_with as_float rfc) ans ss -> text as_float depth (an_accounts an) (JObj [(bs "accounts", JArr (map snd l1 ++ JNull :: l2))]) -> all_are is_account l1 -> Forall (fun v => v = JNull \/ exists id, is_account v id) l2 ->
  runs rfc short None (ans ++ [an]) = Panic.
Proof.
  intros F T Fa F2. destruct (history_ok rfc short ans ss F) as (file & d & Er & El & St & _). rewrite runs_app, Er. cbn [obind runs]. unfold run. rewrite El. cbn [obind].
  destruct (single_ok (SPtr s_account) (bs "Accounts") (bs "accounts") deep5 (an_accounts an) (map snd l1 ++ JNull :: l2)) as (ja & la & Ea & _ & _ & Ela & Sa & Ga); [exact I|apply ascii_utf8; repeat constructor; lia|reflexivity|rewrite <- depth_eq; apply depth_deep|rewrite <- depth_eq; exact T| |].
  { apply Forall_app. split; [|constructor; [left; reflexivity|]].
    - apply Forall_forall. intros v Hv. apply in_map_iff in Hv as (kv & <- & Hk). right. unfold all_are in Fa. rewrite Forall_forall in Fa. apply (account_fits _ _ (Fa _ Hk)).
    - apply Forall_impl with (2 := F2). intros v [->|(id & Hv)]; [left; reflexivity|right; apply (account_fits _ _ Hv)]. }
  unfold sync, s_accounts. rewrite Ea. cbn [obind]. rewrite Ela. cbn [elements]. destruct St as (_ & _ & Ed & _). apply Forall2_app_inv_l in Sa as (x1 & x2 & S1 & S2 & ->). inversion S2 as [|? y ? x3 Sy S3]; subst. apply null_same in Sy as ->. apply Forall_app in Ga as [Ga _].
  assert (X : Forall (fun v => good depth v /\ exists id, is_account v id) x1).
  { clear - Fa S1 Ga. revert x1 S1 Ga. induction Fa as [|kv l Hk _ IH]; intros la S2 Ga; cbn [map] in S2; inversion S2; subst; constructor; [|inversion Ga; subst; auto]. inversion Ga; subst. split; [apply (good_le deep5); [rewrite depth_eq; lia|assumption]|]. exists (fst kv). apply (account_same (snd kv)); assumption. }
  destruct (accounts_run rfc x1 (members (get (bs "accounts") d)) Ed X) as (m1 & E1 & _). replace (store_accounts (members (get (bs "accounts") d)) (x1 ++ JNull :: x3)) with (@Panic (list (str * json))); [reflexivity|]. symmetry. clear - E1.
  revert m1 E1. generalize (members (get (bs "accounts") d)) as m. induction x1 as [|v x1 IH]; intros m m1 E1; [reflexivity|]. cbn [app]. destruct v; try discriminate E1; cbn [store_accounts] in *; (destruct (aget str_eqb _ m) as [e|]; [destruct e; try discriminate E1|]; apply (IH _ _ E1)).
Qed.
Print Assumptions C106_starling_account_refuted.
