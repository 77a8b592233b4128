(** * NullProps: what answers can crash download monzo and download starling (C106). *)
From Coq Require Import ZifyBool Lqa.
From Verif Require Import Base Utf8 LoaderModel LoaderSpec ExportSpec ConvertModel ConvertSpec ConvertProps F64Model F64Spec F64Proofs JsonModel JsonSpec JsonWrite2 JsonProps JsonRead JsonRead2 JsonReadProps StateModel StateSpec StateProofs StateProofs2 StateProofs3 StateCut StateProps StateProps2 ShapeModel StarlingModel StarlingSpec ShapeProofs StarlingProofs StarlingProofs2 StarlingProps StarlingProps2.

(** The bytes begin with a JSON text of this value. *)
Definition begins_with (bytes : str) (v : json) : Prop := exists w t r, decode bytes = w ++ t ++ r /\ ws w /\ value as_float deep t v.
(** ... with an object that has a list with a null. *)
Definition null_in_list (bytes : str) : Prop := exists m k l, begins_with bytes (JObj m) /\ In (k, JArr l) m /\ In JNull l.

(** A result: [P] holds of what is returned, and it crashes only if [cause]. *)
Definition safe {A} (cause : Prop) (P : A -> Prop) (o : outcome A) : Prop := match o with Ok a => P a | Error => True | Panic => cause | Diverge => False end.
Lemma safe_bind {A B} cause (P : A -> Prop) (Q : B -> Prop) o f : safe cause P o -> (forall a, P a -> safe cause Q (f a)) -> safe cause Q (obind o f).
Proof. destruct o; cbn; auto. Qed.
Lemma safe_mono {A} (c c' : Prop) (P P' : A -> Prop) o : (c -> c') -> (forall a, P a -> P' a) -> safe c P o -> safe c' P' o.
Proof. destruct o; cbn; auto. Qed.
Lemma decode_safe bytes : safe False (fun v => begins_with bytes v) (decode_json bytes).
Proof. destruct (proj1 (C99_total bytes)) as [E|[v E]]; rewrite E; cbn; [exact I|]. apply C99_first_value in E as (w & t & r & E & Hw & V). rewrite <- deep_levels in V. exists w, t, r. auto. Qed.
Lemma unmarshal_safe bytes : safe False (fun v => json_text_of as_float deep (decode bytes) v) (unmarshal_json bytes).
Proof. destruct (proj2 (C99_total bytes)) as [E|[v E]]; rewrite E; cbn; [exact I|]. rewrite deep_levels. apply (proj1 (C99_whole_text bytes)), E. Qed.
Lemma marshal_safe short j : safe False (fun _ => True) (marshal_indent short (bs "  ") j).
Proof. unfold marshal_indent, marshal. destruct (has_inf j); exact I. Qed.

(** ** monzo *)
Definition total {A B} (f : A -> outcome B) : Prop := forall a, safe False (fun _ => True) (f a).
Lemma get_string_total k : total (fun j => get_string j k). Proof. intros j. unfold get_string. destruct j; try exact I. destruct (aget _ _ _) as [[]|]; exact I. Qed.
Lemma acct_total : total acct_of. Proof. intros j. apply (safe_bind _ _ _ _ _ (get_string_total (bs "id") j)). intros; exact I. Qed.
Lemma tx_total : total tx_of. Proof. intros j. apply (safe_bind _ _ _ _ _ (get_string_total (bs "id") j)). intros i _. apply (safe_bind _ _ _ _ _ (get_string_total (bs "created") j)). intros; exact I. Qed.
Lemma ptr_safe {A} (f : json -> outcome A) j : total f -> safe False (fun a => a = None -> j = JNull) (ptr f j).
Proof. intros T. unfold ptr. destruct j; try (cbn; intros; reflexivity); (apply (safe_bind _ _ _ _ _ (T _)); intros a _; cbn; discriminate). Qed.
Lemma all_ptr_safe {A} (f : json -> outcome A) l : total f -> safe False (fun r => In None r -> In JNull l) (all_ptr f l).
Proof.
  intros T. induction l as [|v l IH]; [cbn; auto|]. cbn [all_ptr]. apply (safe_bind _ _ _ _ _ (ptr_safe f v T)). intros a Ha. apply (safe_bind _ _ _ _ _ IH). intros r Hr. cbn. intros [H|H]; [left; auto|right; auto].
Qed.
Lemma list_fields_safe {A} name (f : json -> outcome A) l : total f -> forall cur, safe False (fun r => In None r -> In None cur \/ exists k vs, In (k, JArr vs) l /\ In JNull vs) (list_fields name f l cur).
Proof.
  intros T. induction l as [|[k v] l IH]; intros cur; [cbn; auto|]. cbn [list_fields]. destruct (field [name] k); [|exact I].
  apply (safe_bind False (fun cur' => In None cur' -> exists vs, v = JArr vs /\ In JNull vs)).
  - destruct v as [|b|q|s0|vs|m]; try exact I; [cbn; intros []|]. apply (safe_mono False False _ _ _ (fun x => x)) with (2 := all_ptr_safe f vs T). intros r Hr H. exists vs. auto.
  - intros cur' Hc. apply (safe_mono False False _ _ _ (fun x => x)) with (2 := IH cur'). intros r Hr H. destruct (Hr H) as [H1|(k' & vs & H1 & H2)]; [destruct (Hc H1) as (vs & -> & Hv); right; exists k, vs; split; [left; reflexivity|exact Hv]|right; exists k', vs; split; [right; exact H1|exact H2]].
Qed.
Lemma fetch_list_safe {A} name (f : json -> outcome A) bytes : total f -> safe False (fun r => In None r -> null_in_list bytes) (fetch_list name f bytes).
Proof.
  intros T. apply (safe_bind _ _ _ _ _ (decode_safe bytes)). intros v Hv. destruct v as [|b|q|s0|vs|m]; try exact I; [cbn; intros []|]. apply (safe_mono False False _ _ _ (fun x => x)) with (2 := list_fields_safe name f m T []). intros r Hr H. destruct (Hr H) as [[]|(k & vs & H1 & H2)]. exists m, k, vs. auto.
Qed.
Definition no_none {A} (m : list (str * option A)) : Prop := forall k, ~ In (k, None) m.
Lemma store_safe {A} (id : A -> str) (c : Prop) l : (In None l -> c) -> forall m, safe c (fun m' => forall k, In (k, None) m' -> In (k, None) m) (store id m l).
Proof.
  induction l as [|[a|] l IH]; intros Hc m; [cbn; auto| |cbn; apply Hc; left; reflexivity]. cbn [store]. apply (safe_mono c c _ _ _ (fun x => x)) with (2 := IH (fun H => Hc (or_intror H)) _). intros m' Hm k Hk. apply Hm in Hk. apply aset_in in Hk as [Hk|Hk]; [discriminate|exact Hk].
Qed.
Lemma store_pages_safe pages : forall m, safe (exists p, In p pages /\ null_in_list p) (fun _ => True) (store_pages m pages).
Proof.
  induction pages as [|p ps IH]; intros m; [exact I|]. cbn [store_pages]. apply (safe_bind _ (fun r => In None r -> null_in_list p)); [apply (safe_mono False _ _ _ _ (fun x => match x with end)) with (2 := fetch_list_safe (bs "transactions") tx_of p tx_total); auto|].
  intros l Hl. apply (safe_bind _ (fun _ => True)).
  - apply (safe_mono (exists q, In q (p :: ps) /\ null_in_list q) _ _ _ _ (fun x => x)) with (2 := store_safe t_id (exists q, In q (p :: ps) /\ null_in_list q) l (fun H => ex_intro _ p (conj (or_introl eq_refl) (Hl H))) m). auto.
  - intros m' _. apply (safe_mono _ _ _ _ _ (fun x => x)) with (2 := safe_mono _ _ _ _ _ (fun x : exists q, In q ps /\ null_in_list q => match x with ex_intro _ q (conj H1 H2) => ex_intro _ q (conj (or_intror H1) H2) end) (fun _ _ => I) (IH m')). auto.
Qed.
Definition null_in_file (file : option str) : Prop := exists bytes m k t id, file = Some bytes /\ json_text_of as_float deep (decode bytes) (JObj m) /\ In (k, JObj t) m /\ In (id, JNull) t.
Lemma put_all_safe {A} (f : json -> outcome A) l : total f -> forall m, safe False (fun m' => forall k, In (k, None) m' -> In (k, None) m \/ In (k, JNull) l) (put_all f m l).
Proof.
  intros T. induction l as [|[k v] l IH]; intros m; [cbn; auto|]. cbn [put_all]. apply (safe_bind _ _ _ _ _ (ptr_safe f v T)). intros a Ha. apply (safe_mono False False _ _ _ (fun x => x)) with (2 := IH (aset str_eqb k a m)). intros m' Hm k' Hk. destruct (Hm k' Hk) as [H|H]; [|right; right; exact H]. apply aset_in in H as [H|H]; [|left; exact H]. injection H as -> H. right. left. rewrite Ha by congruence. reflexivity.
Qed.
Lemma put_map_safe {A} (f : json -> outcome A) old j : total f -> safe False (fun m' => forall m k, m' = Some m -> In (k, None) m -> (exists o, old = Some o /\ In (k, None) o) \/ exists t, j = JObj t /\ In (k, JNull) t) (put_map f old j).
Proof.
  intros T. unfold put_map. destruct j as [|b|q|s0|vs|l]; try exact I; [cbn; discriminate|]. apply (safe_bind _ _ _ _ _ (put_all_safe f l T _)). intros m Hm. cbn. intros m' k H Hk. injection H as <-. destruct (Hm k Hk) as [H|H]; [|right; eauto]. left. destruct old as [o|]; [eauto|destruct H].
Qed.
Lemma put_fields_safe l : forall d, safe False (fun d' => forall m k, d_accts d' = Some m -> In (k, None) m -> (exists o, d_accts d = Some o /\ In (k, None) o) \/ exists n t, In (n, JObj t) l /\ In (k, JNull) t) (put_fields l d).
Proof.
  induction l as [|[k v] l IH]; intros d; [cbn; intros; left; eauto|]. cbn [put_fields].
  apply (safe_bind False (fun d' => forall m id, d_accts d' = Some m -> In (id, None) m -> (exists o, d_accts d = Some o /\ In (id, None) o) \/ exists t, v = JObj t /\ In (id, JNull) t)).
  - destruct (field _ k) as [n|]; [|cbn; intros; left; eauto]. destruct (str_eqb n (bs "token")); [cbn; intros; left; eauto|]. destruct (str_eqb n (bs "transactions")).
    + apply (safe_bind _ _ _ _ _ (put_map_safe tx_of (d_trans d) v tx_total)). intros m Hm. cbn. intros; left; eauto.
    + apply (safe_bind _ _ _ _ _ (put_map_safe acct_of (d_accts d) v acct_total)). intros m Hm. cbn. exact Hm.
  - intros d' Hd. apply (safe_mono False False _ _ _ (fun x => x)) with (2 := IH d'). intros d2 H2 m id Hm Hk. destruct (H2 m id Hm Hk) as [(o & Ho & Hin)|(n & t & Hn & Ht)]; [|right; exists n, t; split; [right; exact Hn|exact Ht]].
    destruct (Hd o id Ho Hin) as [H|(t & -> & Ht)]; [left; exact H|right; exists k, t; split; [left; reflexivity|exact Ht]].
Qed.
Lemma load_data_safe file : safe False (fun d => forall m k, d_accts d = Some m -> In (k, None) m -> null_in_file file) (load_data file).
Proof.
  destruct file as [bytes|]; [|cbn; discriminate]. cbn [load_data]. apply (safe_bind _ _ _ _ _ (unmarshal_safe bytes)). intros v Hv. destruct v as [|b|q|s0|vs|l]; try exact I; [cbn; discriminate|]. apply (safe_mono False False _ _ _ (fun x => x)) with (2 := put_fields_safe l no_data).
  intros d Hd m k Hm Hk. destruct (Hd m k Hm Hk) as [(o & Ho & _)|(n & t & Hn & Ht)]; [discriminate|]. exists bytes, l, n, t, k. auto.
Qed.
Lemma sync_safe d abytes pages (c : Prop) : (null_in_list abytes \/ (exists p, In p pages /\ null_in_list p) -> c) -> (forall m k, d_accts d = Some m -> In (k, None) m -> c) -> safe c (fun _ => True) (StateModel.sync d abytes pages).
Proof.
  intros Hc Hd. unfold StateModel.sync. apply (safe_bind _ (fun r => In None r -> null_in_list abytes)); [apply (safe_mono False _ _ _ _ (fun x => match x with end)) with (2 := fetch_list_safe (bs "Accounts") acct_of abytes acct_total); auto|].
  intros l Hl. apply (safe_bind _ _ _ _ _ (store_safe a_id c l (fun H => Hc (or_introl (Hl H))) _)). intros m Hm. destruct m as [|kv m]; [destruct pages; exact I|]. destruct (existsb _ (kv :: m)) eqn:E.
  - cbn. apply existsb_exists in E as ([k [a|]] & Hin & E); [discriminate|]. apply Hm in Hin. destruct (d_accts d) as [o|] eqn:Eo; [apply (Hd o k eq_refl Hin)|destruct Hin].
  - apply (safe_bind _ (fun _ => True)); [|intros; exact I]. apply (safe_mono _ _ _ _ _ (fun x => Hc (or_intror x)) (fun _ H => H)), store_pages_safe.
Qed.
(** Whatever the answers and the file: a run of download monzo ends with a new file or an error; it crashes only when an answer has a null in a list, or the file has a null instead of an account. *)
Theorem C106_monzo_partial short file abytes pages : let o := sync_file short file abytes pages in
  (exists s, o = Ok s) \/ o = Error \/ o = Panic /\ (null_in_list abytes \/ (exists p, In p pages /\ null_in_list p) \/ null_in_file file).
Proof.
  intros o. assert (S : safe (null_in_list abytes \/ (exists p, In p pages /\ null_in_list p) \/ null_in_file file) (fun _ => True) o).
  { unfold o, sync_file. apply (safe_bind _ (fun d => forall m k, d_accts d = Some m -> In (k, None) m -> null_in_file file)); [apply (safe_mono False _ _ _ _ (fun x => match x with end)) with (2 := load_data_safe file); auto|]. intros d Hd.
    assert (X : safe (null_in_list abytes \/ (exists p, In p pages /\ null_in_list p) \/ null_in_file file) (fun _ => True) (do d' <- StateModel.sync d abytes pages; save_data short d')).
    { apply (safe_bind _ (fun _ => True)); [apply sync_safe; [tauto|]; intros m k Hm Hk; right; right; apply (Hd m k Hm Hk)|]. intros d' _. apply (safe_mono False _ _ _ _ (fun x => match x with end) (fun _ H => H)), marshal_safe. }
    destruct (d_token d); try exact I; exact X. }
  destruct o; cbn in S; eauto. contradiction.
Qed.
Print Assumptions C106_monzo_partial.

(** ** starling *)
Lemma each_safe (f : json -> outcome json) l : total f -> safe False (fun _ => True) (each f l).
Proof. intros T. induction l as [|v l IH]; [exact I|]. cbn [each]. apply (safe_bind _ _ _ _ _ (T v)). intros a _. apply (safe_bind _ _ _ _ _ IH). intros; exact I. Qed.
Lemma put_members_safe (f : json -> outcome json) l : total f -> forall m, safe False (fun _ => True) (put_members f m l).
Proof. intros T. induction l as [|[k v] l IH]; intros m; [exact I|]. cbn [put_members]. apply (safe_bind _ _ _ _ _ (T v)). intros a _. apply IH. Qed.
Lemma put_struct_safe strict fs l : Forall (fun nf : str * (json -> json -> outcome json) => forall old, total (snd nf old)) fs -> forall m, safe False (fun _ => True) (put_struct strict fs m l).
Proof.
  intros F. induction l as [|[k v] l IH]; intros m; [exact I|]. cbn [put_struct]. destruct (field _ k) as [n|]; [|destruct strict; [exact I|apply IH]]. destruct (aget str_eqb n fs) as [f|] eqn:E; [|exact I]. apply (aget_In str_eqb str_eqb_eq) in E. rewrite Forall_forall in F. apply (safe_bind _ _ _ _ _ (F _ E _ v)). intros a _. apply IH.
Qed.
Lemma into_safe strict s : forall old, total (into strict s old).
Proof.
  induction s as [|ks|s IH|s IH|s IH|fs IH] using shape_ind'; intros old j; cbn [into].
  - exact I.
  - destruct (forallb _ ks); exact I.
  - destruct j; try exact I; apply IH.
  - destruct j; try exact I. apply (safe_bind _ _ _ _ _ (each_safe _ l (IH _))). intros; exact I.
  - destruct j; try exact I. apply (safe_bind _ _ _ _ _ (put_members_safe _ m (IH _) _)). intros; exact I.
  - destruct j; try exact I. apply (safe_bind _ (fun _ => True)); [|intros; exact I]. apply put_struct_safe. apply Forall_forall. intros x Hx. apply in_map_iff in Hx as (nf & <- & Hn). rewrite Forall_forall in IH. cbn [snd]. intros o. apply (IH _ Hn).
Qed.
Lemma fetch_safe s old bytes : safe False (fun j => exists v, begins_with bytes v /\ into true s old v = Ok j) (fetch s old bytes).
Proof. apply (safe_bind _ _ _ _ _ (decode_safe bytes)). intros v Hv. pose proof (into_safe true s old v) as T. destruct (into true s old v) eqn:E; cbn in *; try exact T. eauto. Qed.
Lemma raw_ptr keys v r : keys <> [] -> into true (SPtr (SRaw keys)) JNull v = Ok r -> (r = JNull <-> v = JNull).
Proof. intros Hk. cbn [into]. destruct v; [intros H; injection H as <-; tauto|..]; (destruct (forallb _ keys); [|discriminate]; intros H; injection H as <-; split; discriminate). Qed.
Lemma each_null keys vs : keys <> [] -> forall r, each (into true (SPtr (SRaw keys)) JNull) vs = Ok r -> In JNull r -> In JNull vs.
Proof.
  intros Hk. induction vs as [|v vs IH]; intros r E H; cbn [each] in E; [injection E as <-; destruct H|]. destruct (into true (SPtr (SRaw keys)) JNull v) as [a| | |] eqn:Ea; try discriminate. cbn [obind] in E. destruct (each _ vs) as [r'| | |] eqn:Er; try discriminate. injection E as <-. destruct H as [H|H]; [|right; apply (IH r' eq_refl H)]. left. apply (raw_ptr keys v a Hk Ea) in H. exact H.
Qed.
Lemma struct_null keys n l : keys <> [] -> forall m r, put_struct true [(n, into true (SList (SPtr (SRaw keys))))] m l = Ok r -> In JNull (elements (get n (JObj r))) -> In JNull (elements (get n (JObj m))) \/ exists k vs, In (k, JArr vs) l /\ In JNull vs.
Proof.
  intros Hk. induction l as [|[k v] l IH]; intros m r E H; cbn [put_struct] in E; [injection E as <-; left; exact H|]. cbn [map fst] in E. destruct (field [n] k) as [n'|] eqn:En; [|discriminate].
  destruct (aget str_eqb n' [(n, into true (SList (SPtr (SRaw keys))))]) as [f|] eqn:Ef; [|discriminate]. cbn [aget] in Ef. destruct (str_eqb n n') eqn:Enn; [|discriminate]. assert (Ef' : f = into true (SList (SPtr (SRaw keys)))) by (apply f_equal with (f := fun x => match x with Some y => y | None => f end) in Ef; symmetry; exact Ef). subst f. clear Ef. apply str_eqb_eq in Enn as <-. set (o := match aget str_eqb n m with Some o => o | None => JNull end) in E. destruct (into true (SList (SPtr (SRaw keys))) o v) as [a| | |] eqn:Ea; try discriminate. cbn [obind] in E.
  destruct (IH _ _ E H) as [H1|(k' & vs & H1 & H2)]; [|right; exists k', vs; split; [right; exact H1|exact H2]]. unfold get in H1. cbn [members] in H1. rewrite (aget_aset_eq str_eqb str_eqb_eq) in H1. right. exists k.
  cbn [into] in Ea. destruct v as [|b|q|s0|vs|mm]; try discriminate; [injection Ea as <-; destruct H1|]. change (zero (SPtr (SRaw keys))) with JNull in Ea. destruct (each _ vs) as [r'| | |] eqn:Er; try discriminate. injection Ea as <-. exists vs. split; [left; reflexivity|]. apply (each_null keys vs Hk _ Er H1).
Qed.
Definition null_answer (bytes : str) : Prop := begins_with bytes JNull \/ null_in_list bytes.
Lemma accounts_null bytes : safe False (fun j => In JNull (elements (get (bs "Accounts") j)) -> null_answer bytes) (fetch s_accounts (zero s_accounts) bytes).
Proof.
  apply (safe_mono False False _ _ _ (fun x => x)) with (2 := fetch_safe s_accounts (zero s_accounts) bytes). intros j (v & Hv & E) H. destruct v as [|b|q|s0|vs|l]; try discriminate; [left; exact Hv|]. right. cbn [into s_accounts] in E. destruct (put_struct _ _ _ l) as [r| | |] eqn:Er; try discriminate. injection E as <-.
  apply (struct_null [bs "accountUid"; bs "defaultCategory"; bs "createdAt"] (bs "Accounts") l ltac:(discriminate) _ _ Er) in H. destruct H as [[]|(k & vs & H1 & H2)]. exists l, k, vs. auto.
Qed.
Lemma feed_null bytes : safe False (fun j => (j = JNull \/ In JNull (elements (get (bs "FeedItems") j))) -> null_answer bytes) (fetch (SPtr s_feed) (zero s_feed) bytes).
Proof.
  apply (safe_mono False False _ _ _ (fun x => x)) with (2 := fetch_safe (SPtr s_feed) (zero s_feed) bytes). intros j (v & Hv & E) H. destruct v as [|b|q|s0|vs|l]; try discriminate; [left; exact Hv|]. right. cbn [into s_feed zero is_null map] in E. destruct (put_struct _ _ _ l) as [r| | |] eqn:Er; try discriminate. injection E as <-. destruct H as [H|H]; [discriminate|].
  apply (struct_null [bs "feedItemUid"; bs "transactionTime"; bs "updatedAt"] (bs "FeedItems") l ltac:(discriminate) _ _ Er) in H. destruct H as [[]|(k & vs & H1 & H2)]. exists l, k, vs. auto.
Qed.
Lemma spaces_null old bytes : safe False (fun j => j = JNull -> null_answer bytes) (fetch (SPtr s_spaces) old bytes).
Proof.
  apply (safe_mono False False _ _ _ (fun x => x)) with (2 := fetch_safe (SPtr s_spaces) old bytes). intros j (v & Hv & E) ->. destruct v as [|b|q|s0|vs|l]; try discriminate; [left; exact Hv|]. cbn [into s_spaces] in E. destruct (put_struct _ _ _ l); discriminate.
Qed.
(** A state with a null instead of an account, of what is kept of it, or of an item. *)
Definition null_entry (e : json) : Prop := e = JNull \/ at_path e [bs "account"] = None \/ at_path e [bs "account"] = Some JNull \/ exists cat feed uid, at_path e [bs "feeditems"; cat] = Some (JObj feed) /\ In (uid, JNull) feed.
Definition null_state (d : json) : Prop := exists m id e, at_path d [bs "accounts"] = Some (JObj m) /\ In (id, e) m /\ null_entry e.
Definition fine (c : Prop) (e : json) : Prop := null_entry e -> c.
Lemma path_get e k : get k e = JNull -> at_path e [k] = None \/ at_path e [k] = Some JNull.
Proof. unfold get. destruct e; cbn [members at_path aget]; auto. destruct (aget str_eqb k m); [intros ->|]; auto. Qed.
Lemma fine_account c e : fine c e -> get (bs "account") e = JNull -> c.
Proof. intros F H. apply F. right. destruct (path_get _ _ H) as [E|E]; auto. Qed.
Lemma path_set k v e p : at_path (set k v e) (k :: p) = at_path v p.
Proof. unfold set. cbn [at_path]. rewrite (aget_aset_eq str_eqb str_eqb_eq). reflexivity. Qed.
Lemma path_set_neq k k' v e p : k <> k' -> at_path (set k' v e) (k :: p) = at_path (JObj (members e)) (k :: p).
Proof. intros H. unfold set. cbn [at_path]. rewrite (aget_aset_neq str_eqb str_eqb_eq) by congruence. reflexivity. Qed.
Lemma path_members e k p : at_path (JObj (members e)) (k :: p) = at_path e (k :: p). Proof. destruct e; reflexivity. Qed.
Ltac differ := let X := fresh in intros X; discriminate X.
Lemma fine_set c k v e : k <> bs "account" -> k <> bs "feeditems" -> fine c e -> fine c (set k v e).
Proof.
  intros H1 H2 F [H|[H|[H|(cat & feed & uid & H & Hin)]]]; [discriminate H|..]; rewrite path_set_neq, path_members in H by congruence; apply F; unfold null_entry; eauto 8.
Qed.
Lemma fine_obj c e : fine c e -> is_null e = true -> c. Proof. intros F H. destruct e; try discriminate. apply F. left. reflexivity. Qed.
Lemma store_items_safe (c : Prop) l : (In JNull l -> c) -> forall m, safe c (fun m' => forall k, In (k, JNull) m' -> In (k, JNull) m) (store_items m l).
Proof.
  induction l as [|v l IH]; intros Hc m; [cbn; auto|]. assert (Hv : v = JNull \/ v <> JNull) by (destruct v; auto; right; discriminate). destruct Hv as [->|Hv]; [cbn; apply Hc; left; reflexivity|].
  replace (store_items m (v :: l)) with (store_items (aset str_eqb (str_of v (bs "feedItemUid")) v m) l) by (destruct v; try contradiction; reflexivity).
  apply (safe_mono c c _ _ _ (fun x => x)) with (2 := IH (fun H => Hc (or_intror H)) _). intros m' Hm k Hk. apply Hm in Hk. apply aset_in in Hk as [Hk|Hk]; [|exact Hk]. exfalso. apply Hv. congruence.
Qed.
Section Starling.
  Context (rfc : str -> bool) (an : session) (c : Prop).
  Context (Ha : null_answer (an_accounts an) -> c) (Hs : forall id, null_answer (an_spaces an id) -> c) (Hf : forall id cat, null_answer (an_feed an id cat) -> c).
  Lemma sync_feed_safe e cat : fine c e -> safe c (fine c) (sync_feed rfc an e cat).
  Proof.
    intros F. unfold sync_feed. destruct (is_null (get (bs "account") e)) eqn:Ea; [cbn; apply (fine_account c e F); destruct (get (bs "account") e); try discriminate; reflexivity|].
    set (feeds := get (bs "feeditems") e). set (feed := members (get cat feeds)).
    assert (Ff : forall uid, In (uid, JNull) feed -> c).
    { intros uid H. apply F. right. right. right. exists cat. unfold feed in H. destruct (get cat feeds) as [|b|q|s0|vs|mf] eqn:E; try destruct H. exists mf, uid. split; [|exact H]. unfold get in E. unfold feeds, get in E. destruct e as [|b|q|s0|vs|me]; try discriminate. cbn [members at_path] in *. destruct (aget str_eqb (bs "feeditems") me) as [fi|]; [|discriminate]. destruct fi as [|b|q|s0|vs|mi]; try discriminate. cbn [members] in E. destruct (aget str_eqb cat mi); [congruence|discriminate]. }
    apply (safe_bind _ (fun _ => True)).
    - destruct (se_all an || match feed with [] => true | _ => false end); [exact I|]. destruct (existsb (fun kv => is_null (snd kv)) feed) eqn:En; [|destruct (rfc (recent feed)); exact I]. cbn. apply existsb_exists in En as ([k v] & Hin & Hn). cbn [snd] in Hn. destruct v; try discriminate. apply (Ff k Hin).
    - intros _ _. set (bytes := an_feed an _ cat). apply (safe_bind _ (fun j => (j = JNull \/ In JNull (elements (get (bs "FeedItems") j))) -> null_answer bytes)); [apply (safe_mono False _ _ _ _ (fun x => match x with end) (fun _ H => H)), feed_null|].
      intros j Hj. destruct (is_null j) eqn:Ej; [cbn; apply (Hf _ _ (Hj ltac:(left; destruct j; try discriminate; reflexivity)))|]. apply (safe_bind _ _ _ _ _ (store_items_safe c _ (fun H => Hf _ _ (Hj (or_intror H))) feed)). intros feed' Hfeed. cbn.
      intros [H|[H|[H|(cat' & mf & uid & H & Hin)]]]; [discriminate H|..].
      + rewrite path_set_neq, path_members in H by differ. apply F. right. left. exact H.
      + rewrite path_set_neq, path_members in H by differ. apply F. right. right. left. exact H.
      + rewrite path_set in H. destruct (str_dec cat' cat) as [->|Hn]; [rewrite path_set in H; cbn [at_path] in H; injection H as <-; apply (Ff uid), Hfeed, Hin|]. rewrite path_set_neq, path_members in H by congruence. apply F. right. right. right. exists cat', mf, uid. split; [|exact Hin]. unfold feeds, get in H. destruct e as [|b|q|s0|vs|me]; try discriminate. cbn [members at_path] in *. destruct (aget str_eqb (bs "feeditems") me) as [fi|]; [exact H|discriminate].
  Qed.
  Lemma sync_feeds_safe cats : forall e, fine c e -> safe c (fine c) (sync_feeds rfc an e cats).
  Proof. induction cats as [|cat cats IH]; intros e F; [exact F|]. cbn [sync_feeds]. apply (safe_bind _ _ _ _ _ (sync_feed_safe e cat F)). exact IH. Qed.
  Lemma sync_entry_safe id e : fine c e -> safe c (fine c) (sync_entry rfc an id e).
  Proof.
    intros F. unfold sync_entry. destruct (is_null e) eqn:E; [cbn; apply (fine_obj c e F E)|]. apply (safe_bind _ (fun _ => True)); [apply (safe_mono False _ _ _ _ (fun x => match x with end) (fun _ _ => I)) with (1 := fetch_safe SAny _ (an_ident an id))|]. intros ji _. set (e1 := set (bs "identifiers") ji e). assert (F1 : fine c e1) by (apply fine_set; [differ|differ|exact F]).
    destruct (is_null (get (bs "account") e1)) eqn:Ea; [cbn; apply (fine_account c e1 F1); destruct (get (bs "account") e1); try discriminate; reflexivity|]. apply (safe_bind _ _ _ _ _ (sync_feed_safe e1 _ F1)). intros e2 F2.
    apply (safe_bind _ (fun j => j = JNull -> null_answer (an_spaces an id))); [apply (safe_mono False _ _ _ _ (fun x => match x with end) (fun _ H => H)), spaces_null|]. intros sp Hsp. destruct (is_null sp) eqn:Es; [cbn; apply (Hs _ (Hsp ltac:(destruct sp; try discriminate; reflexivity)))|].
    apply (safe_bind _ (fine c)); [apply sync_feeds_safe, fine_set; [differ|differ|exact F2]|]. intros e4 F4. apply sync_feeds_safe, F4.
  Qed.
  Definition fines (m : list (str * json)) : Prop := forall id e, In (id, e) m -> fine c e.
  Lemma fines_set id e m : fines m -> fine c e -> fines (aset str_eqb id e m).
  Proof. intros F H i e' Hin. apply aset_in in Hin as [Hin|Hin]; [injection Hin as -> ->; exact H|apply (F _ _ Hin)]. Qed.
  Lemma sync_entries_safe ids : forall m, (forall id, In id ids -> In id (map fst m)) -> fines m -> safe c (fun _ => True) (sync_entries rfc an m ids).
  Proof.
    induction ids as [|id ids IH]; intros m Hin F; [exact I|]. cbn [sync_entries]. assert (Fe : fine c (get id (JObj m))).
    { unfold get. cbn [members]. destruct (aget str_eqb id m) as [e|] eqn:E; [apply (F id), (aget_In str_eqb str_eqb_eq), E|]. exfalso. apply (aget_None str_eqb str_eqb_eq) in E. apply E, Hin. left. reflexivity. }
    apply (safe_bind _ _ _ _ _ (sync_entry_safe id _ Fe)). intros e' F'. apply IH; [|apply fines_set; assumption]. intros i Hi. apply in_keys. destruct (str_dec i id) as [->|Hn]; [rewrite (aget_aset_eq str_eqb str_eqb_eq); discriminate|]. rewrite (aget_aset_neq str_eqb str_eqb_eq) by congruence. apply in_keys, Hin. right. exact Hi.
  Qed.
  Lemma store_accounts_safe l : (In JNull l -> c) -> forall m, fines m -> safe c fines (store_accounts m l).
  Proof.
    induction l as [|v l IH]; intros Hc m F; [exact F|]. assert (Hv : v = JNull \/ v <> JNull) by (destruct v; auto; right; discriminate). destruct Hv as [->|Hv]; [cbn; apply Hc; left; reflexivity|]. set (uid := str_of v (bs "accountUid")).
    assert (Fz : forall e, fine c e -> fine c (set (bs "account") v e)).
    { intros e Fe [H|[H|[H|(cat & feed & u & H & Hin)]]]; [discriminate H|rewrite path_set in H; discriminate H|rewrite path_set in H; cbn [at_path] in H; injection H as H; contradiction|]. rewrite path_set_neq, path_members in H by differ. apply Fe. right. right. right. eauto. }
    assert (F0 : fine c (set (bs "account") v (zero s_entry))).
    { intros [H|[H|[H|(cat & feed & u & H & Hin)]]]; [discriminate H|rewrite path_set in H; discriminate H|rewrite path_set in H; cbn [at_path] in H; injection H as H; contradiction|]. rewrite path_set_neq, path_members in H by differ. discriminate H. }
    assert (E : store_accounts m (v :: l) = match aget str_eqb uid m with Some JNull => Panic | Some e => store_accounts (aset str_eqb uid (set (bs "account") v e) m) l | None => store_accounts (aset str_eqb uid (set (bs "account") v (zero s_entry)) m) l end) by (destruct v; try contradiction; reflexivity). rewrite E.
    destruct (aget str_eqb uid m) as [e|] eqn:Eu; [|apply IH; [auto using in_cons|apply fines_set; assumption]]. apply (aget_In str_eqb str_eqb_eq) in Eu. pose proof (F _ _ Eu) as Fe.
    destruct e as [|b|q|s0|vs|me]; [cbn; apply Fe; left; reflexivity|..]; (apply IH; [auto using in_cons|apply fines_set; [exact F|apply Fz; exact Fe]]).
  Qed.
  Lemma starling_sync_safe d : (forall l, Permutation l (se_ord an l)) -> (null_state d -> c) -> safe c (fun _ => True) (StarlingModel.sync rfc an d).
  Proof.
    intros Po Hd. unfold StarlingModel.sync. apply (safe_bind _ (fun j => In JNull (elements (get (bs "Accounts") j)) -> null_answer (an_accounts an))); [apply (safe_mono False _ _ _ _ (fun x => match x with end) (fun _ H => H)), accounts_null|]. intros ja Hja.
    assert (Fm : fines (members (get (bs "accounts") d))).
    { intros id e Hin Hn. apply Hd. destruct (get (bs "accounts") d) as [|b|q|s0|vs|m] eqn:E; try destruct Hin. exists m, id, e. split; [|split; assumption]. unfold get in E. destruct d as [|b|q|s0|vs|md]; try discriminate. cbn [members at_path] in *. destruct (aget str_eqb (bs "accounts") md); [congruence|discriminate]. }
    apply (safe_bind _ _ _ _ _ (store_accounts_safe _ (fun H => Ha (Hja H)) _ Fm)). intros m F. apply (safe_bind _ _ _ _ _ (sync_entries_safe _ m ltac:(intros id Hin; apply (Permutation_in _ (Permutation_sym (Po _)) Hin)) F)). intros m' _.
    apply (safe_bind _ (fun _ => True)); [|intros; exact I]. apply (safe_mono False _ _ _ _ (fun x => match x with end) (fun _ _ => I)) with (1 := fetch_safe s_payees _ (an_payees an)).
  Qed.
End Starling.
Lemma starling_load_safe file : safe False (fun d => load s_data file = Ok d) (load s_data file).
Proof.
  destruct (load s_data file) eqn:E; try reflexivity; try exact I; exfalso; (assert (T : safe False (fun _ => True) (load s_data file)); [|rewrite E in T; exact T]); (destruct file as [bytes|]; [|exact I]; cbn [load]; apply (safe_bind _ _ _ _ _ (unmarshal_safe bytes)); intros v _; apply into_safe).
Qed.
(** Whatever the answers and the file: a run of download starling ends with a new file or an error; it crashes only when the answer with the accounts, the spaces or the items is null or has a null in a list, or the state that is read has a null instead of an account or an item. *)
Theorem C106_starling_partial rfc an short file : (forall l, Permutation l (se_ord an l)) -> let o := run rfc an short file in
  (exists s, o = Ok s) \/ o = Error \/ o = Panic /\ (null_answer (an_accounts an) \/ (exists id, null_answer (an_spaces an id)) \/ (exists id cat, null_answer (an_feed an id cat)) \/ exists d, load s_data file = Ok d /\ null_state d).
Proof.
  intros Po o. set (c := null_answer (an_accounts an) \/ (exists id, null_answer (an_spaces an id)) \/ (exists id cat, null_answer (an_feed an id cat)) \/ exists d, load s_data file = Ok d /\ null_state d). assert (S : safe c (fun _ => True) o).
  { unfold o, run. apply (safe_bind _ (fun d => load s_data file = Ok d)); [apply (safe_mono False _ _ _ _ (fun x => match x with end) (fun _ H => H)), starling_load_safe|]. intros d Ed. apply (safe_bind _ (fun _ => True)).
    - apply starling_sync_safe; unfold c; eauto 8.
    - intros d' _. apply (safe_mono False _ _ _ _ (fun x => match x with end) (fun _ H => H)), marshal_safe. }
  destruct o; cbn in S; eauto. contradiction.
Qed.
Print Assumptions C106_starling_partial.

(** ** Concrete cases *)
Lemma lit_deep j : simple 10 j = true -> is_bytes (lit j) /\ json_text_of as_float deep (decode (lit j)) j.
Proof. intros H. destruct (lit_text 10 j H (Nat.le_refl _)) as [H1 H2]. split; [exact H1|]. apply (text_mono _ _ _ _ _ depth_deep H2). Qed.
Definition ex_file : str := lit (JObj [(bs "token", JObj [(bs "access_token", JStr (bs "secret"))]); (bs "transactions", JObj []); (bs "accounts", JObj [(bs "a1", JObj [(bs "id", JStr (bs "a1"))])])]).
Definition ex_nulls : str := lit (JObj [(bs "accounts", JArr [JObj [(bs "id", JStr (bs "a2"))]; JNull])]).
(** The hypotheses of C106_monzo_account_refuted. *)
Example C106_monzo_nonvacuous : (exists tok ts acs, state as_float (Some ex_file) tok ts acs /\ tok <> JNull) /\
  (exists vs, In JNull vs /\ is_bytes ex_nulls /\ json_text_of as_float deep (decode ex_nulls) (JObj [(bs "accounts", JArr vs)]) /\ Forall (fun v => v = JNull \/ exists i, is_acct v i) vs) /\ sync_file true (Some ex_file) ex_nulls [] = Panic.
Proof.
  split; [|split].
  - exists (JObj [(bs "access_token", JStr (bs "secret"))]), [], [(bs "a1", JObj [(bs "id", JStr (bs "a1"))])]. split; [|discriminate]. destruct (lit_deep (JObj [(bs "token", JObj [(bs "access_token", JStr (bs "secret"))]); (bs "transactions", JObj []); (bs "accounts", JObj [(bs "a1", JObj [(bs "id", JStr (bs "a1"))])])]) eq_refl) as [H1 H2]. split; [exact H1|]. eexists _, _. split; [exact H2|]. split; [split; [right; reflexivity|constructor]|split; [right; reflexivity|]]. constructor; [|constructor]. eexists. split; [reflexivity|left; reflexivity].
  - exists [JObj [(bs "id", JStr (bs "a2"))]; JNull]. split; [right; left; reflexivity|]. destruct (lit_deep (JObj [(bs "accounts", JArr [JObj [(bs "id", JStr (bs "a2"))]; JNull])]) eq_refl) as [H1 H2]. split; [exact H1|]. split; [exact H2|]. constructor; [right; exists (bs "a2"); eexists; split; [reflexivity|left; reflexivity]|]. constructor; [left; reflexivity|constructor].
  - vm_compute. reflexivity.
Qed.
(** A page with a null; a null instead of the feed of starling. *)
Example C106_more_crashes : sync_file true (Some ex_file) (lit (JObj [(bs "accounts", JArr [])])) [lit (JObj [(bs "transactions", JArr [JNull])])] = Panic /\
  (let an := ex_answers ex1 in run ex_rfc (mkSession false (fun l => l) (an_accounts an) (an_ident an) (an_spaces an) (fun _ _ => bs "null") (an_payees an)) true None) = Panic.
Proof. split; vm_compute; reflexivity. Qed.
(** C100_no_token, C100_unknown and C100_more have instances. *)
Example C100_more_nonvacuous : state as_float None JNull [] [] /\ ~ alike (bs "transactions") (bs "has_more") /\
  exists bytes tok ts acs, state_more as_float bytes tok ts acs /\ tok <> JNull /\ exists v, unmarshal_json bytes = Ok (JObj v) /\ In (bs "comment", JStr (bs "mine")) v.
Proof.
  split; [repeat split|]. split; [intros H; inversion H; subst; match goal with H : letter _ _ |- _ => destruct H as [H|(i & H1 & H2 & H3)]; [discriminate H|lia] end|].
  set (j := JObj [(bs "comment", JStr (bs "mine")); (bs "token", JObj [(bs "access_token", JStr (bs "secret"))]); (bs "transactions", JNull); (bs "accounts", JObj [(bs "a1", JObj [(bs "id", JStr (bs "a1"))])])]).
  exists (lit j), (JObj [(bs "access_token", JStr (bs "secret"))]), [], [(bs "a1", JObj [(bs "id", JStr (bs "a1"))])]. split; [|split; [discriminate|]].
  - destruct (lit_deep j eq_refl) as [H1 H2]. split; [exact H1|]. eexists _, _, _. split; [exact H2|]. split; [right; left; reflexivity|]. split; [right; right; left; reflexivity|]. split; [right; right; right; left; reflexivity|]. split.
    + constructor; [right|constructor; [left; left; reflexivity|constructor; [left; right; left; reflexivity|constructor; [left; right; right; left; reflexivity|constructor]]]].
      intros n Hn H. cbn [fst] in H. destruct Hn as [<-|[<-|[<-|[]]]]; inversion H as [|? ? ? ? L R]; subst; (destruct L as [L|(i & L1 & L2 & L3)]; [discriminate L|lia]).
    + split; [split; [left; auto|constructor]|]. split; [right; reflexivity|]. constructor; [|constructor]. eexists. split; [reflexivity|left; reflexivity].
  - eexists. split; [vm_compute; reflexivity|]. left. reflexivity.
Qed.
