(** * NordigenProps2: answers download nordigen cannot use (C107, C106), and a history on concrete bytes. *)
From Coq Require Import ZifyBool.
From Verif Require Import Base Utf8 LoaderModel LoaderSpec ExportSpec ConvertModel ConvertSpec ConvertProps F64Model F64Spec F64Proofs JsonModel JsonSpec JsonWrite2 JsonProps JsonRead JsonRead2 JsonReadProps StateModel StateSpec StateProofs StateProofs2 StateProofs3 StateCut StateProps StateProps2 ShapeModel StarlingModel StarlingSpec ShapeProofs StarlingProofs StarlingProofs2 StarlingProps StarlingProps2 NullProps NordigenModel NordigenSpec NordigenProofs NordigenProps.

Lemma account_uses an m id m' : sync_account an m id = Ok m' -> (exists o j, fetch SAny o (n_basic an id) = Ok j) /\ (exists o j, fetch SAny o (n_details an id) = Ok j) /\ exists j, fetch (SPtr n_resp) (zero n_resp) (n_trans an id) = Ok j.
Proof.
  unfold sync_account. set (acct := match aget str_eqb id m with Some a => a | None => _ end). destruct (is_null acct); [discriminate|]. destruct (fetch SAny _ (n_basic an id)) eqn:E1; try discriminate. cbn [obind]. destruct (fetch SAny _ (n_details an id)) eqn:E2; try discriminate. cbn [obind]. destruct (fetch (SPtr n_resp) _ _) eqn:E3; try discriminate. eauto 8.
Qed.
Lemma accounts_use an ids : forall m m', sync_accounts an m ids = Ok m' -> forall id, In id ids -> exists x x', sync_account an x id = Ok x'.
Proof. induction ids as [|i ids IH]; intros m m' E id H; [destruct H|]. cbn [sync_accounts] in E. destruct (sync_account an m i) as [m1| | |] eqn:E1; try discriminate. cbn [obind] in E. destruct H as [<-|H]; [eauto|apply (IH _ _ E _ H)]. Qed.
(** A run after others that ends well has used the answers for the requisition and for each of its accounts. *)
Lemma run_uses short ans tok inst req rid h an bytes : past as_float ans tok inst req rid h -> runs_n short None (ans ++ [an]) = Ok (Some bytes) ->
  exists o jr ids, fetch n_req o (n_requisition an rid) = Ok jr /\ listed jr = Ok ids /\ forall id, In id ids -> exists m m', sync_account an m id = Ok m'.
Proof.
  intros P E. destruct (past_ok short _ _ _ _ _ _ P) as (b & v & d & E0 & _ & _ & _ & L & St). rewrite runs_n_app, E0 in E. cbn [obind runs_n] in E. unfold run_n in E. rewrite L in E. cbn [obind] in E. destruct St as (F & G & _ & _ & S3 & (l0 & R0) & _).
  assert (Hi : is_null (get (bs "Institution") d) = false) by (assert (Fi : fits n_inst (get (bs "Institution") d)) by (apply (fits_get _ _ _ _ F); [apply G|cbn [In]; tauto]); destruct Fi as (x & -> & _); reflexivity). rewrite Hi in E.
  pose proof (req_same _ _ _ _ S3 R0) as R1. pose proof G as G'. rewrite deep_eq in G'. pose proof (good_get _ (bs "Requisition") _ G') as G1. assert (Hid : str_of (get (bs "Requisition") d) (bs "id") = rid) by (apply has_str; [apply G1|apply R1]).
  destruct (sync_n an d) as [d'| | |] eqn:Es; try discriminate. unfold sync_n in Es. cbv zeta in Es. rewrite (obj_not_null _ (req_obj _ _ _ R1)), Hid in Es. destruct (fetch n_req _ (n_requisition an rid)) as [jr| | |] eqn:Er; try discriminate. cbn [obind] in Es. destruct (listed jr) as [ids| | |] eqn:El; try discriminate. cbn [obind] in Es. destruct (sync_accounts an _ ids) as [m'| | |] eqn:Em; try discriminate.
  eexists _, jr, ids. split; [exact Er|]. split; [exact El|]. apply (accounts_use _ _ _ _ Em).
Qed.
(** The same when the answer for the requisition is a text of one. *)
Lemma run_accounts short ans tok inst req rid h an bytes r id0 l id : past as_float ans tok inst req rid h -> text as_float depth (n_requisition an rid) r -> is_req r id0 l -> In id l -> runs_n short None (ans ++ [an]) = Ok (Some bytes) -> exists m m', sync_account an m id = Ok m'.
Proof.
  intros P T R Hin E. destruct (run_uses _ _ _ _ _ _ _ _ _ P E) as (o & jr & ids & Er & El & A). destruct (fetch_shape n_req depth o _ _ I I depth_le T (req_fits _ _ _ R)) as (jr' & Er' & Sr & Gr & _). rewrite Er in Er'. injection Er' as <-.
  rewrite (listed_ok jr id0 l (proj1 (proj2 (proj2 Gr))) (req_same _ _ _ _ Sr R)) in El. injection El as <-. apply A, Hin.
Qed.

(** ** Bad answers *)
(** A number that is not in the list, or no number, is an error, and nothing is written. *)
Theorem C107_choice short an insts : text as_float depth (c_list an) (JArr (map snd insts)) -> all_are is_inst insts -> (forall i, c_choice an = Some i -> ~ (0 <= i < Z.of_nat (length insts))%Z) -> run_n an short None = Error.
Proof.
  intros Tl Fi Hc. destruct (fetch_shape (SList n_inst) depth (JArr []) (c_list an) _ I I depth_le Tl) as (jl & El & Sl & _ & _).
  { right. eexists. split; [reflexivity|]. apply Forall_forall. intros v Hv. apply in_map_iff in Hv as (kv & <- & Hk). unfold all_are in Fi. rewrite Forall_forall in Fi. apply (inst_fits _ _ (Fi _ Hk)). }
  destruct (arr_same _ _ Sl) as (li & -> & F2). assert (L2 : length li = length insts) by (rewrite <- (map_length snd insts); clear - F2; induction F2; cbn [length]; congruence). unfold run_n. change (load_n None) with (Ok (zero n_data)). cbn [obind]. change (is_null (get (bs "Institution") (zero n_data))) with true. cbv iota. unfold init_n. rewrite El. cbn [obind elements].
  destruct (c_choice an) as [i|]; [|reflexivity]. specialize (Hc i eq_refl). match goal with |- context [if ?b then _ else _] => replace b with true by (symmetry; apply orb_true_iff; lia) end. reflexivity.
Qed.
Print Assumptions C107_choice.
(** When the answer for the requisition, or the data or transactions of an account it lists, does not begin with a JSON value, the run fails and nothing is written. *)
Theorem C107_bad_answer short ans tok inst req rid h an p : past as_float ans tok inst req rid h -> ~ begins p ->
  n_requisition an rid = p \/ (exists r id0 l id, text as_float depth (n_requisition an rid) r /\ is_req r id0 l /\ In id l /\ (n_basic an id = p \/ n_details an id = p \/ n_trans an id = p)) ->
  forall bytes, runs_n short None (ans ++ [an]) <> Ok (Some bytes).
Proof.
  intros P Hb Hp bytes E. apply Hb. destruct Hp as [<-|(r & id0 & l & id & T & R & Hin & Hp)].
  - destruct (run_uses _ _ _ _ _ _ _ _ _ P E) as (o & jr & ids & Er & _). apply (fetch_begins _ _ _ _ Er).
  - destruct (run_accounts _ _ _ _ _ _ _ _ _ _ _ _ _ P T R Hin E) as (m & m' & Ea). destruct (account_uses _ _ _ _ Ea) as ((o1 & j1 & E1) & (o2 & j2 & E2) & j3 & E3). destruct Hp as [<-|[<-|<-]]; [apply (fetch_begins _ _ _ _ E1)|apply (fetch_begins _ _ _ _ E2)|apply (fetch_begins _ _ _ _ E3)].
Qed.
Print Assumptions C107_bad_answer.
Lemma into_resp j r : into true (SPtr n_resp) (zero n_resp) (JObj j) = Ok r -> forall k v, In (k, v) j -> field [bs "transactions"] k <> None /\ exists o r', into true (SStruct [(bs "booked", SList n_tx); (bs "pending", SList n_tx)]) o v = Ok r'.
Proof.
  cbn [into is_null]. change (is_null (zero n_resp)) with false. cbv iota. unfold n_resp. cbn [into map fst snd]. destruct (put_struct _ _ _ j) as [m| | |] eqn:E; try discriminate. intros _. match type of E with put_struct _ _ ?x _ = _ => revert m E; generalize x end. induction j as [|[k0 v0] j IH]; intros m0 m E k v H; [destruct H|].
  cbn [put_struct map fst snd] in E. destruct (field [bs "transactions"] k0) as [n|] eqn:Ef; [|discriminate]. destruct (aget str_eqb n _) as [f|] eqn:Eg; [|discriminate]. destruct (f _ v0) as [a| | |] eqn:Ea; try discriminate. cbn [obind] in E. destruct H as [H|H]; [|apply (IH _ _ E _ _ H)].
  injection H as <- <-. split; [congruence|]. cbn [aget] in Eg. destruct (str_eqb _ _) in Eg; [|discriminate]. injection Eg as <-. eauto.
Qed.
Lemma each_all f l r : each f l = Ok r -> Forall (fun v => exists a, f v = Ok a) l.
Proof. revert r. induction l as [|v l IH]; intros r E; [constructor|]. cbn [each] in E. destruct (f v) as [a| | |] eqn:Ef; try discriminate. cbn [obind] in E. destruct (each f l) as [rs| | |] eqn:El; try discriminate. constructor; eauto. Qed.
Lemma into_lists m o r : into true (SStruct [(bs "booked", SList n_tx); (bs "pending", SList n_tx)]) o (JObj m) = Ok r -> forall k l, In (k, JArr l) m -> Forall (fun v => exists id, is_ntx v id) l.
Proof.
  cbn [into map fst snd]. destruct (put_struct _ _ _ m) as [m'| | |] eqn:E; try discriminate. intros _. match type of E with put_struct _ _ ?x _ = _ => revert m' E; generalize x end. induction m as [|[k0 v0] j IH]; intros m0 m' E k l H; [destruct H|].
  cbn [put_struct map fst snd] in E. destruct (field _ k0) as [n|] eqn:Ef; [|discriminate]. destruct (aget str_eqb n _) as [f|] eqn:Eg; [|discriminate]. destruct (f _ v0) as [a| | |] eqn:Ea; try discriminate. cbn [obind] in E. destruct H as [H|H]; [|apply (IH _ _ E _ _ H)].
  injection H as <- ->. assert (X : exists rs, each (into true n_tx (zero n_tx)) l = Ok rs).
  { cbn [aget] in Eg. destruct (str_eqb _ _) in Eg; [|destruct (str_eqb _ _) in Eg; [|discriminate]]; injection Eg as <-; cbn [into] in Ea; destruct (each _ l) as [rs| | |]; try discriminate; eauto. }
  destruct X as [rs X]. apply each_all in X. apply Forall_impl with (2 := X). intros v (b & Hb). cbn [into forallb n_tx] in Hb. destruct (get_string v (bs "transactionId")) as [s| | |] eqn:Es; try discriminate. exists s. unfold get_string in Es. destruct v as [| | | | |mv]; try discriminate. destruct (aget str_eqb (bs "transactionId") mv) as [[]|] eqn:Ev; try discriminate. injection Es as <-. apply has_b, Ev.
Qed.
Lemma trans_text an id x d : text as_float d (n_trans an id) x -> (d <= deep)%nat -> forall m m', sync_account an m id = Ok m' -> exists j r, same x j /\ into true (SPtr n_resp) (zero n_resp) j = Ok r.
Proof.
  intros T D m m' E. destruct (account_uses _ _ _ _ E) as (_ & _ & r & Er). destruct (text_ok _ _ _ D T) as (j & _ & Ed & Sj & _). exists j, r. split; [exact Sj|]. unfold fetch in Er. rewrite Ed in Er. exact Er.
Qed.
(** An answer with a member that is not known is refused. *)
Theorem C107_unknown short ans tok inst req rid h an r id0 l id m k v : past as_float ans tok inst req rid h -> text as_float depth (n_requisition an rid) r -> is_req r id0 l -> In id l ->
  text as_float depth (n_trans an id) (JObj m) -> In (k, v) m -> ~ alike (bs "transactions") k -> forall bytes, runs_n short None (ans ++ [an]) <> Ok (Some bytes).
Proof.
  intros P T R Hin Tt Hk Hn bytes E. destruct (run_accounts _ _ _ _ _ _ _ _ _ _ _ _ _ P T R Hin E) as (x & x' & Ea). destruct (trans_text _ _ _ _ Tt depth_le _ _ Ea) as (j & rr & Sj & Ej). destruct (obj_same _ _ Sj) as (mj & ->). destruct (in_same _ _ _ _ Sj Hk) as (v' & Hv & _).
  apply (into_resp _ _ Ej) in Hv as [Hf _]. apply Hf, (not_field (bs "transactions") k); [repeat constructor; lia|exact Hn].
Qed.
Print Assumptions C107_unknown.
(** Pending transactions are not kept, but one of them without an id, as many banks have them, and the run fails: the booked ones are not stored either. The claim that the booked ones are stored whatever is pending is refuted. *)
Theorem C107_pending_refuted short ans tok inst req rid h an r id0 l id m pend v : past as_float ans tok inst req rid h -> text as_float depth (n_requisition an rid) r -> is_req r id0 l -> In id l ->
  text as_float depth (n_trans an id) (JObj [(bs "transactions", JObj m)]) -> In (bs "pending", JArr pend) m -> In v pend -> (forall x, ~ is_ntx v x) -> forall bytes, runs_n short None (ans ++ [an]) <> Ok (Some bytes).
Proof.
  intros P T R Hin Tt Hk Hv Hn bytes E. destruct (run_accounts _ _ _ _ _ _ _ _ _ _ _ _ _ P T R Hin E) as (x & x' & Ea). destruct (trans_text _ _ _ _ Tt depth_le _ _ Ea) as (j & rr & Sj & Ej). destruct (obj_same _ _ Sj) as (mj & ->). destruct (in_same _ _ _ _ Sj (or_introl eq_refl)) as (y & Hy & Sy). destruct (obj_same _ _ Sy) as (my & ->). destruct (in_same _ _ _ _ Sy Hk) as (z & Hz & Sz). destruct (arr_same _ _ Sz) as (lz & -> & Fz).
  apply (into_resp _ _ Ej) in Hy as [_ (o & r' & Er)]. pose proof (into_lists _ _ _ Er _ _ Hz) as Fn. assert (exists w, In w lz /\ same v w) as (w & Hw & Sw) by (clear - Fz Hv; induction Fz as [|a b la lb Sab _ IH]; [destruct Hv|]; destruct Hv as [<-|Hv]; [exists b; split; [left; reflexivity|exact Sab]|destruct (IH Hv) as (w & H1 & H2); exists w; split; [right; exact H1|exact H2]]).
  rewrite Forall_forall in Fn. destruct (Fn w Hw) as (i & Hi). apply (Hn i). unfold is_ntx in *. apply (has_same w _ _ _ (same_sym _ _ Sw) Hi).
Qed.
Print Assumptions C107_pending_refuted.

(** ** Nulls *)
(** A null instead of the transactions of an account crashes the program; it should be an error message. *)
Theorem C106_nordigen_refuted short ans tok inst req rid h an r id0 id l : past as_float ans tok inst req rid h -> text as_float depth (n_requisition an rid) r -> is_req r id0 (id :: l) ->
  (exists vb, text as_float depth (n_basic an id) vb) -> (exists vd, text as_float depth (n_details an id) vd) -> text as_float depth (n_trans an id) JNull -> runs_n short None (ans ++ [an]) = Panic.
Proof.
  intros P T R [vb Tb] [vd Td] Tt. destruct (past_ok short _ _ _ _ _ _ P) as (b & v & d & E0 & _ & _ & _ & L & St). rewrite runs_n_app, E0. cbn [obind runs_n]. unfold run_n. rewrite L. cbn [obind]. destruct St as (F & G & _ & _ & S3 & (l0 & R0) & _).
  assert (Hi : is_null (get (bs "Institution") d) = false) by (assert (Fi : fits n_inst (get (bs "Institution") d)) by (apply (fits_get _ _ _ _ F); [apply G|cbn [In]; tauto]); destruct Fi as (x & -> & _); reflexivity). rewrite Hi.
  pose proof (req_same _ _ _ _ S3 R0) as R1. pose proof G as G'. rewrite deep_eq in G'. pose proof (good_get _ (bs "Requisition") _ G') as G1. assert (Hid : str_of (get (bs "Requisition") d) (bs "id") = rid) by (apply has_str; [apply G1|apply R1]).
  destruct (fetch_shape n_req depth (get (bs "Requisition") d) _ _ I I depth_le T (req_fits _ _ _ R)) as (jr & Er & Sr & Gr & _).
  unfold sync_n. cbv zeta. rewrite (obj_not_null _ (req_obj _ _ _ R1)), Hid, Er. cbn [obind]. rewrite (listed_ok jr _ _ (proj1 (proj2 (proj2 Gr))) (req_same _ _ _ _ Sr R)). cbn [obind sync_accounts]. unfold sync_account. set (acct := match aget str_eqb id _ with Some a => a | None => _ end).
  destruct (is_null acct); [reflexivity|]. destruct (fetch_shape SAny depth (get (bs "Basic") acct) _ _ I I depth_le Tb I) as (jb & Eb & _). destruct (fetch_shape SAny depth (get (bs "Details") acct) _ _ I I depth_le Td I) as (jd & Ed & _). rewrite Eb. cbn [obind]. rewrite Ed. cbn [obind].
  destruct (fetch_shape (SPtr n_resp) depth (zero n_resp) _ _ resp_named (fresh_zero _ resp_named) depth_le Tt (or_introl eq_refl)) as (jt & Ej & Sj & _). apply null_same in Sj as ->. rewrite Ej. reflexivity.
Qed.
Print Assumptions C106_nordigen_refuted.
(** A state that has an institution but no requisition, or null instead of an account. *)
Definition null_nstate (d : json) : Prop := (at_path d [bs "Requisition"] = None \/ at_path d [bs "Requisition"] = Some JNull) \/ exists m id, at_path d [bs "Accounts"] = Some (JObj m) /\ In (id, JNull) m.
Lemma strings_safe l : safe False (fun _ => True) (strings l).
Proof. induction l as [|v l IH]; [exact I|]. destruct v; try exact I. cbn [strings]. apply (safe_bind _ _ _ _ _ IH). intros; exact I. Qed.
Lemma listed_safe v : safe False (fun _ => True) (listed v).
Proof. destruct v as [| | | | |m]; try exact I. cbn [listed]. destruct (aget _ _ m) as [[]|]; try exact I. apply strings_safe. Qed.
Lemma up {A} (c : Prop) (P Q : A -> Prop) o : safe False P o -> (forall a, P a -> Q a) -> safe c Q o. Proof. intros H X. apply (safe_mono False c P Q o); [intros []|exact X|exact H]. Qed.
Lemma resp_null bytes : safe False (fun j => j = JNull -> begins_with bytes JNull) (fetch (SPtr n_resp) (zero n_resp) bytes).
Proof.
  apply (safe_mono False _ _ _ _ (fun x => x)) with (2 := fetch_safe _ _ bytes). intros j (v & B & E) ->. destruct v as [| | | | |l]; try discriminate E; [exact B|]. exfalso. cbn [into is_null] in E. change (is_null (zero n_resp)) with false in E. cbv iota in E. unfold n_resp in E. cbn [into] in E. destruct (put_struct _ _ _ _); discriminate E.
Qed.
Lemma aset_null k (v : json) m : v <> JNull -> forall i, In (i, JNull) (aset str_eqb k v m) -> In (i, JNull) m.
Proof. intros Hv i H. apply aset_in in H as [H|H]; [|exact H]. injection H as _ H. congruence. Qed.
Section Crash.
  Context (an : nsession) (c : Prop) (Hc : forall id, begins_with (n_trans an id) JNull -> c).
  Lemma sync_account_safe m id : (forall i, In (i, JNull) m -> c) -> safe c (fun m' => forall i, In (i, JNull) m' -> In (i, JNull) m) (sync_account an m id).
  Proof.
    intros Hm. unfold sync_account. set (acct := match aget str_eqb id m with Some a => a | None => _ end). destruct (is_null acct) eqn:En.
    { cbn [safe]. unfold acct in En. destruct (aget str_eqb id m) as [a|] eqn:E; [|discriminate En]. destruct a; try discriminate En. apply (Hm id). apply aget_in, E. }
    apply (safe_bind _ (fun _ => True)); [apply (up _ _ _ _ (fetch_safe _ _ _)); auto|]. intros jb _. apply (safe_bind _ (fun _ => True)); [apply (up _ _ _ _ (fetch_safe _ _ _)); auto|]. intros jd _.
    apply (safe_bind _ (fun j => j = JNull -> begins_with (n_trans an id) JNull)); [apply (up _ _ _ _ (resp_null _)); auto|]. intros r Hr. destruct (is_null r) eqn:E; [destruct r; try discriminate E; apply (Hc id), Hr; reflexivity|]. cbn [safe]. apply aset_null. discriminate.
  Qed.
  Lemma sync_accounts_safe ids : forall m, (forall i, In (i, JNull) m -> c) -> safe c (fun _ => True) (sync_accounts an m ids).
  Proof. induction ids as [|i ids IH]; intros m Hm; [exact I|]. cbn [sync_accounts]. apply (safe_bind _ _ _ _ _ (sync_account_safe m i Hm)). intros m' H'. apply IH. intros j Hj. apply (Hm j), H', Hj. Qed.
End Crash.
(** Whatever the answers and the file: a run of download nordigen ends with a new file or an error; it crashes only when the answer with transactions is null, or the state that is read lacks the requisition or has a null instead of an account. *)
Theorem C106_nordigen_partial an short file : let o := run_n an short file in
  (exists s, o = Ok s) \/ o = Error \/ o = Panic /\ ((exists id, begins_with (n_trans an id) JNull) \/ exists d, load_n file = Ok d /\ null_nstate d).
Proof.
  intros o. set (c := (exists id, begins_with (n_trans an id) JNull) \/ exists d, load_n file = Ok d /\ null_nstate d). assert (H : safe c (fun _ => True) o); [|destruct o; cbn in H; eauto; contradiction].
  assert (L : safe False (fun _ => True) (load_n file)).
  { unfold load_n. apply (safe_bind _ (fun _ => True)); [destruct file as [bytes|]; [|exact I]; cbn [load]; apply (safe_bind _ _ _ _ _ (unmarshal_safe bytes)); intros v _; apply into_safe|]. intros d _. destruct (is_null _); [exact I|]. apply (safe_bind _ _ _ _ _ (listed_safe _)). intros; exact I. }
  unfold o, run_n. destruct (load_n file) as [d| | |] eqn:Ed; try exact I; try contradiction. cbn [obind]. apply (safe_bind _ (fun _ => True)); [|intros d' _; apply (up _ _ _ _ (marshal_safe _ _)); auto].
  destruct (is_null (get (bs "Institution") d)).
  - apply (safe_mono False _ (fun _ => True) _ _ (fun x => match x with end) (fun _ H => H)). unfold init_n. apply (safe_bind _ _ _ _ _ (fetch_safe _ _ _)). intros l _. destruct (c_choice an) as [i|]; [|exact I]. destruct (_ || _); [exact I|]. cbv zeta. apply (safe_bind _ _ _ _ _ (fetch_safe _ _ _)). intros r _. apply (safe_bind _ _ _ _ _ (listed_safe _)). intros; exact I.
  - unfold sync_n. cbv zeta. destruct (is_null (get (bs "Requisition") d)) eqn:Er.
    + right. exists d. split; [reflexivity|]. left. apply path_get. destruct (get (bs "Requisition") d); try discriminate Er. reflexivity.
    + apply (safe_bind _ (fun _ => True)); [apply (up _ _ _ _ (fetch_safe _ _ _)); auto|]. intros r _. apply (safe_bind _ (fun _ => True)); [apply (up _ _ _ _ (listed_safe _)); auto|]. intros ids _. apply (safe_bind _ (fun _ => True)); [|intros; exact I]. apply sync_accounts_safe; [intros id H; left; eauto|]. intros i Hi. right. exists d. split; [reflexivity|]. right. exists (members (get (bs "Accounts") d)), i. split; [|exact Hi].
      unfold get in *. destruct d as [| | | | |md]; try destruct Hi. cbn [members at_path] in *. destruct (aget str_eqb (bs "Accounts") md) as [a|]; [|destruct Hi]. destruct a; try destruct Hi; reflexivity.
Qed.
Print Assumptions C106_nordigen_partial.

(** ** A history *)
Definition ex_inst (id : str) : json := JObj [(bs "id", JStr id); (bs "name", JStr (bs "Bank"))].
Definition ex_req (l : list str) : json := JObj [(bs "id", JStr (bs "r1")); (bs "link", JStr (bs "http://")); (bs "accounts", JArr (map JStr l))].
Definition ex_ntx (id t : str) : json := JObj [(bs "transactionId", JStr id); (bs "amount", JStr t)].
Definition ex_tok (a : str) : json := JObj [(bs "Access", JStr a)].
Definition ex_nsent (l : list str) (txs : list (str * json)) : nsent := mkNSent (ex_req l) (bs "r1") l (fun id => JObj [(bs "iban", JStr id)]) (fun _ => JNull) (fun _ => txs) (fun _ => [(bs "p1", ex_ntx (bs "p1") (bs "9"))]).
Definition ex_resp (s : nsent) (id : str) : json := JObj [(bs "transactions", JObj [(bs "booked", JArr (map snd (booked s id))); (bs "pending", JArr (map snd (pending s id)))])].
Definition ex_first : nsession := mkNSession (Some (ex_tok (bs "t1"))) (lit (JArr [ex_inst (bs "i1"); ex_inst (bs "i2")])) (Some 1) (fun id => if str_eqb id (bs "i2") then lit (ex_req []) else []) (fun _ => []) (fun _ => []) (fun _ => []) (fun _ => []).
Definition ex_next (t : option json) (s : nsent) : nsession := mkNSession t [] None (fun _ => []) (fun _ => lit (requisition s)) (fun id => if str_eqb id (bs "a1") then lit (basic s id) else if str_eqb id (bs "a2") then lit (basic s id) else []) (fun id => lit (details s id)) (fun id => lit (ex_resp s id)).
Definition ex_n1 : nsent := ex_nsent [bs "a1"; bs "a2"] [(bs "x", ex_ntx (bs "x") (bs "1")); (bs "y", ex_ntx (bs "y") (bs "2"))].
Definition ex_n2 : nsent := ex_nsent [bs "a1"] [(bs "x", ex_ntx (bs "x") (bs "3"))].
Lemma ex_tok_ok a : ascii a = true -> is_token (ex_tok a).
Proof. intros H. eexists. split; [reflexivity|]. split; [repeat constructor; intros []|]. constructor; [|constructor]. split; [apply ascii_ok; reflexivity|]. exists a. split; [reflexivity|apply ascii_ok, H]. Qed.
Lemma ex_next_ok t s : s = ex_n1 \/ s = ex_n2 -> t = None \/ t = Some (ex_tok (bs "t2")) -> next_run as_float (ex_next t s) s (bs "r1").
Proof.
  intros Hs Ht. split; [destruct Hs as [-> | ->]; apply (lit_text 10); try reflexivity; lia|]. split; [destruct Hs as [-> | ->]; (split; [apply has_b; reflexivity|]; split; [eexists; apply has_b; reflexivity|]; eexists; split; [reflexivity|right; right; left; reflexivity])|]. split.
  - assert (Hn : forall i t0, is_ntx (ex_ntx i t0) i) by (intros; apply has_b; reflexivity). intros id Hid. assert (Hi : id = bs "a1" \/ id = bs "a2") by (destruct Hs as [-> | ->]; cbn in Hid; intuition auto). split; [|split; [|split; [|split]]].
    + destruct Hs as [-> | ->], Hi as [-> | ->]; apply (lit_text 10); try reflexivity; lia.
    + destruct Hs as [-> | ->]; apply (lit_text 10); try reflexivity; lia.
    + destruct Hs as [-> | ->]; apply (lit_text 10); try reflexivity; lia.
    + destruct Hs as [-> | ->]; repeat (constructor; [apply Hn|]); constructor.
    + destruct Hs as [-> | ->]; repeat (constructor; [apply Hn|]); constructor.
  - intros t0 E. destruct Ht as [-> | ->]; [discriminate|]. assert (X : t0 = ex_tok (bs "t2")) by (cbn [n_token ex_next] in E; congruence). rewrite X. apply ex_tok_ok. reflexivity.
Qed.
(** Three runs meet the hypotheses of C107_history_partial: the transaction x of account a1 is updated, y stays, account a2, no longer listed, stays as it was, and the token is new. *)
Example C107_history_nonvacuous : let ans := [ex_first; ex_next None ex_n1; ex_next (Some (ex_tok (bs "t2"))) ex_n2] in
  past as_float ans (ex_tok (bs "t2")) (ex_inst (bs "i2")) (ex_req [bs "a1"]) (bs "r1") [ex_n2; ex_n1] /\ exists bytes v, runs_n true None ans = Ok (Some bytes) /\ unmarshal_json bytes = Ok v /\
    at_path v [bs "Accounts"; bs "a1"; bs "Transactions"; bs "x"; bs "amount"] = Some (JStr (bs "3")) /\ at_path v [bs "Accounts"; bs "a1"; bs "Transactions"; bs "y"; bs "amount"] = Some (JStr (bs "2")) /\ at_path v [bs "Accounts"; bs "a2"; bs "Transactions"; bs "x"; bs "amount"] = Some (JStr (bs "1")) /\ at_path v [bs "Accounts"; bs "a1"; bs "Transactions"; bs "p1"] = None /\ at_path v [bs "Token"; bs "Access"] = Some (JStr (bs "t2")) /\ at_path v [bs "Institution"; bs "id"] = Some (JStr (bs "i2")).
Proof.
  cbv zeta. split.
  - apply (past_run _ [ex_first; ex_next None ex_n1] (ex_tok (bs "t1")) _ (ex_req [bs "a1"; bs "a2"]) (bs "r1") [ex_n1] (ex_next (Some (ex_tok (bs "t2"))) ex_n2) ex_n2); [|apply ex_next_ok; auto].
    apply (past_run _ [ex_first] (ex_tok (bs "t1")) _ (ex_req []) (bs "r1") [] (ex_next None ex_n1) ex_n1); [|apply ex_next_ok; auto]. constructor. exists [(bs "i1", ex_inst (bs "i1")); (bs "i2", ex_inst (bs "i2"))], 1%nat, (bs "i2"), [].
    split; [apply (lit_text 10); try reflexivity; lia|]. split; [repeat constructor; try (apply has_b; reflexivity); eexists; apply has_b; reflexivity|]. split; [reflexivity|]. split; [reflexivity|]. split; [apply (lit_text 10); try reflexivity; lia|]. split; [split; [apply has_b; reflexivity|]; split; [eexists; apply has_b; reflexivity|]; eexists; split; [reflexivity|right; right; left; reflexivity]|]. split; [reflexivity|apply ex_tok_ok; reflexivity].
  - eexists _, _. split; [vm_compute; reflexivity|]. split; [vm_compute; reflexivity|]. repeat split; vm_compute; reflexivity.
Qed.
(** A pending transaction without an id after the first run: an error; the answer null: a crash. *)
Example C107_pending_nonvacuous : let an r := mkNSession None [] None (fun _ => []) (fun _ => lit (ex_req [bs "a1"])) (fun _ => lit JNull) (fun _ => lit JNull) (fun _ => lit r) in
  let v := JObj [(bs "amount", JStr (bs "9"))] in (forall x, ~ is_ntx v x) /\ runs_n true None [ex_first; an (JObj [(bs "transactions", JObj [(bs "booked", JArr [ex_ntx (bs "x") (bs "1")]); (bs "pending", JArr [v])])])] = Error /\
  runs_n true None [ex_first; an (JObj [(bs "transactions", JObj [(bs "booked", JArr [])]); (bs "last_updated", JNull)])] = Error /\ runs_n true None [ex_first; an JNull] = Panic.
Proof.
  cbv zeta. split; [|repeat split; vm_compute; reflexivity]. intros x (m & E & H). injection E as <-. destruct H as [H|[]]. discriminate H.
Qed.
(** A list of two, and the number 2. *)
Example C107_choice_nonvacuous : run_n (mkNSession None (c_list ex_first) (Some 2) (c_post ex_first) (fun _ => []) (fun _ => []) (fun _ => []) (fun _ => [])) true None = Error /\ exists s, run_n ex_first true None = Ok s.
Proof. split; [vm_compute; reflexivity|]. eexists. vm_compute. reflexivity. Qed.
