(** * NordigenProps: the state file of download nordigen holds the newest version of everything the server sent (C107). *)
From Coq Require Import ZifyBool.
From Verif Require Import Base Utf8 LoaderModel LoaderSpec ExportSpec ConvertModel ConvertSpec ConvertProps F64Model F64Spec F64Proofs JsonModel JsonSpec JsonWrite2 JsonProps JsonRead JsonRead2 JsonReadProps StateModel StateSpec StateProofs StateProofs2 StateProofs3 StateCut StateProps ShapeModel StarlingModel StarlingSpec ShapeProofs StarlingProofs StarlingProofs2 StarlingProps StarlingProps2 NullProps NordigenModel NordigenSpec NordigenProofs.

(** The first run: of the institutions [insts] the user chooses number [i], and for it the server makes the requisition. *)
Definition first_run (num : Qc -> Qc -> Prop) (an : nsession) (tok inst req : json) (rid : str) : Prop :=
  exists insts i iid l, text num depth (c_list an) (JArr (map snd insts)) /\ all_are is_inst insts /\ c_choice an = Some (Z.of_nat i) /\ nth_error insts i = Some (iid, inst) /\ text num depth (c_post an iid) req /\ is_req req rid l /\ n_token an = Some tok /\ is_token tok.
(** Another run: the server answers with [s] when asked for the requisition [rid]. *)
Definition next_run (num : Qc -> Qc -> Prop) (an : nsession) (s : nsent) (rid : str) : Prop :=
  text num depth (n_requisition an rid) (requisition s) /\ is_req (requisition s) (req_id s) (accts s) /\ (forall id, In id (accts s) -> acct_answers num an s id) /\ (forall t, n_token an = Some t -> is_token t).
(** The runs so far: the token, institution, requisition and its id, and what the server sent, the newest first. *)
Inductive past (num : Qc -> Qc -> Prop) : list nsession -> json -> json -> json -> str -> list nsent -> Prop :=
| past_init an tok inst req rid : first_run num an tok inst req rid -> past num [an] tok inst req rid []
| past_run ans tok inst req rid h an s : past num ans tok inst req rid h -> next_run num an s rid -> past num (ans ++ [an]) (match n_token an with Some t => t | None => tok end) inst (requisition s) (req_id s) (s :: h).

Lemma token_depth tok : is_token tok -> good (S deep2) tok. Proof. intros H. apply (token_good _ H). Qed.
Lemma obj_not_null v : (exists m, v = JObj m) -> is_null v = false. Proof. intros [m ->]. reflexivity. Qed.
Lemma req_obj v id l : is_req v id l -> exists m, v = JObj m. Proof. intros (_ & _ & m & -> & _). eauto. Qed.
Lemma has_obj v k s : has v k s -> exists m, v = JObj m. Proof. intros (m & -> & _). eauto. Qed.

Lemma save_n short d tok inst req rid h : state_n tok inst req rid h d -> exists bytes v d2, save short n_data d = Ok bytes /\ text as_float deep bytes v /\ written_obj bytes /\ holds_n v tok inst req h /\ load_n (Some bytes) = Ok d2 /\ state_n tok inst req rid h d2.
Proof.
  intros St. pose proof St as (F & G & _). destruct (save_shape short n_data d n_named (n_relax _ F) G) as (bytes & t & Es & T & V & Tx & Sd).
  destruct (load_shape n_data bytes _ n_named Tx (fits_same _ _ _ Sd (n_relax _ F))) as (d2 & E2 & S2 & G2). pose proof (state_n_same _ _ _ _ _ _ _ (same_trans _ _ _ Sd S2) G2 St) as St2.
  exists bytes, (out n_data d), d2. split; [exact Es|]. split; [exact Tx|]. split; [exists t; eexists; split; [exact T|exact V]|]. split; [|split; [|exact St2]].
  - destruct (state_holds _ _ _ _ _ _ St) as (H1 & H2 & H3 & H4 & H5 & H6). split; [apply (found_same _ _ _ _ Sd H1)|]. split; [apply (found_same _ _ _ _ Sd H2)|]. split; [apply (found_same _ _ _ _ Sd H3)|]. split; [intros id; apply (found_same _ _ _ _ Sd (H4 id))|]. split; [intros id; apply (found_same _ _ _ _ Sd (H5 id))|intros id tx; apply (found_same _ _ _ _ Sd (H6 id tx))].
  - unfold load_n. rewrite E2. cbn [obind]. destruct St2 as (_ & G' & _ & _ & Sr & (l & R) & _). pose proof (req_same _ _ _ _ Sr R) as R'. rewrite (obj_not_null _ (req_obj _ _ _ R')). rewrite (listed_ok _ _ _ ltac:(apply (good_get (S deep2) (bs "Requisition")); rewrite <- deep_eq; exact G') R'). reflexivity.
Qed.
Definition first_state (tok inst req : json) : json := JObj [(bs "Token", tok); (bs "Accounts", JNull); (bs "Institution", inst); (bs "Requisition", req)].
Lemma first_ok tok inst req rid l iid ji jr : is_token tok -> is_inst inst iid -> is_req req rid l -> same inst ji -> same req jr -> good depth ji -> good depth jr -> fits n_inst ji -> fits n_req jr -> state_n tok inst req rid [] (first_state tok ji jr).
Proof.
  intros Ht Hi Hr Si Sr Gi Gr Fi Fr. split; [|split; [|split; [|split; [|split; [|split]]]]].
  - apply fits_struct. eexists. split; [reflexivity|]. split; [intros k Hk; exact Hk|]. constructor; [|constructor; [|constructor; [|constructor; [|constructor]]]]; cbn [fst snd]; eexists; (split; [cbn [In]; eauto|]); try exact I; try assumption. left. reflexivity.
  - rewrite deep_eq. apply good_obj. split; [apply state_nodup|]. constructor; [|constructor; [|constructor; [|constructor; [|constructor]]]]; cbn [fst snd]; (split; [name_ok|]); [apply token_depth, Ht|apply good_null|apply (good_le depth); [rewrite deep2_eq; lia|assumption]|apply (good_le depth); [rewrite deep2_eq; lia|assumption]].
  - change (get (bs "Token") (first_state tok ji jr)) with tok. apply same_refl. apply (token_good _ Ht).
  - exact Si.
  - exact Sr.
  - eauto.
  - intros id. reflexivity.
Qed.
Lemma init_ok short an tok inst req rid : first_run as_float an tok inst req rid -> exists bytes v d2, run_n an short None = Ok bytes /\ text as_float deep bytes v /\ written_obj bytes /\ holds_n v tok inst req [] /\ load_n (Some bytes) = Ok d2 /\ state_n tok inst req rid [] d2.
Proof.
  intros (insts & i & iid & l & Tl & Fi & Ec & En & Tp & Rq & Et & Ht).
  destruct (fetch_shape (SList n_inst) depth (JArr []) (c_list an) _ I I depth_le Tl) as (jl & El & Sl & Gl & Fl).
  { right. eexists. split; [reflexivity|]. apply Forall_forall. intros v Hv. apply in_map_iff in Hv as (kv & <- & Hk). unfold all_are in Fi. rewrite Forall_forall in Fi. apply (inst_fits _ _ (Fi _ Hk)). }
  destruct (arr_same _ _ Sl) as (li & -> & F2). assert (exists ji, nth_error li i = Some ji /\ same inst ji) as (ji & Eji & Sji).
  { pose proof (map_nth_error snd i insts En) as E1. clear - F2 E1. revert i E1. induction F2 as [|x y l l' S _ IH]; intros [|i] E1; try discriminate; cbn [nth_error snd] in *; [injection E1 as <-; eauto|apply IH, E1]. }
  assert (Hi : is_inst inst iid) by (unfold all_are in Fi; rewrite Forall_forall in Fi; apply (Fi _ (nth_error_In _ _ En))). pose proof (nth_error_In _ _ Eji) as Hin.
  rewrite depth_eq in Gl. apply good_arr in Gl. rewrite Forall_forall in Gl. pose proof (Gl _ Hin) as Gi.
  assert (Hid : str_of ji (bs "id") = iid) by (apply has_str; [apply Gi|apply (has_same _ _ _ _ Sji (proj1 Hi))]).
  destruct (fetch_shape n_req depth JNull (c_post an iid) req I I depth_le Tp (req_fits _ _ _ Rq)) as (jr & Er & Sr & Gr & Fr).
  assert (L : (i < length li)%nat) by (apply nth_error_Some; congruence). assert (Gi' : good depth ji) by (apply (good_le (S deep5)); [rewrite depth_eq; lia|exact Gi]).
  pose proof (first_ok tok inst req rid l iid ji jr Ht Hi Rq Sji Sr Gi' Gr (fits_same _ _ _ Sji (inst_fits _ _ Hi)) Fr) as St. destruct (save_n short _ _ _ _ _ _ St) as (bytes & v & d2 & Es & X). exists bytes, v, d2. split; [|exact X].
  unfold run_n. change (load_n None) with (Ok (zero n_data)). cbn [obind]. change (is_null (get (bs "Institution") (zero n_data))) with true. cbv iota. unfold init_n. rewrite El. cbn [obind elements]. rewrite Ec.
  replace ((Z.of_nat i <? 0) || (Z.of_nat (length li) <=? Z.of_nat i)) with false by (symmetry; apply orb_false_iff; split; lia). rewrite Nat2Z.id, (nth_error_nth _ _ JNull Eji). cbv zeta. rewrite Hid, Er. cbn [obind].
  rewrite (listed_ok jr rid l (proj1 (proj2 (proj2 Gr))) (req_same _ _ _ _ Sr Rq)). cbn [obind]. rewrite Et. exact Es.
Qed.
Lemma sync_n_ok an s rid tok inst req h d : state_n tok inst req rid h d -> next_run as_float an s rid -> exists d', sync_n an d = Ok d' /\ state_n tok inst (requisition s) (req_id s) (s :: h) d'.
Proof.
  intros (F & G & S1 & S2 & S3 & (l0 & R0) & K) (Tr & Rq & A & _). pose proof (req_same _ _ _ _ S3 R0) as R1. pose proof G as G'. rewrite deep_eq in G'. pose proof (good_get _ (bs "Requisition") _ G') as G1.
  assert (Hid : str_of (get (bs "Requisition") d) (bs "id") = rid) by (apply has_str; [apply G1|apply R1]).
  destruct (fetch_shape n_req depth (get (bs "Requisition") d) (n_requisition an rid) _ I I depth_le Tr (req_fits _ _ _ Rq)) as (jr & Er & Sr & Gr & Fr).
  assert (Gm : forall x, In x (accts s) -> is_utf8 x).
  { intros x Hx. destruct (req_same _ _ _ _ Sr Rq) as (_ & _ & m & -> & Hm). rewrite depth_eq in Gr. apply good_obj in Gr as [_ Gr]. rewrite Forall_forall in Gr. destruct (Gr _ Hm) as [_ Ga]. cbn [snd] in Ga. apply good_arr in Ga. rewrite Forall_forall in Ga. destruct (Ga (JStr x)) as [U _]; [apply in_map, Hx|]. inversion U; subst; assumption. }
  assert (Fa : fits (SMap p_acct) (get (bs "Accounts") d)) by (apply (fits_get _ _ _ _ F); [apply G|cbn [In]; tauto]).
  set (m := members (get (bs "Accounts") d)) in *.
  assert (Wm : NoDup (map fst m) /\ Forall (fun kv => is_utf8 (fst kv) /\ fits p_acct (snd kv) /\ good deep2 (snd kv)) m).
  { unfold m. destruct Fa as [->|(mt & Em & Ft)]; [split; constructor|]. pose proof (good_get _ (bs "Accounts") _ G') as Ga. rewrite Em in *. cbn [members]. apply good_obj in Ga as [Nt Ga]. split; [exact Nt|]. rewrite Forall_forall in *. intros x Hx. destruct (Ga x Hx). split; [assumption|]. split; [apply Ft, Hx|assumption]. }
  destruct (accounts_ok an s h (accts s) m (proj1 Wm) (proj2 Wm)) as (m' & Em & Nm & Fm & Km); [apply Forall_forall; exact Gm| |intros id; left; apply K|].
  { intros id Hid'. split; [|apply A, Hid']. apply existsb_exists. exists id. split; [exact Hid'|apply str_eqb_eq; reflexivity]. }
  set (d' := set (bs "Accounts") (JObj m') (set (bs "Requisition") jr d)). exists d'. split.
  - unfold sync_n. cbv zeta. rewrite (obj_not_null _ (req_obj _ _ _ R1)), Hid, Er. cbn [obind]. rewrite (listed_ok jr _ _ (proj1 (proj2 (proj2 Gr))) (req_same _ _ _ _ Sr Rq)). cbn [obind]. fold m. rewrite Em. reflexivity.
  - split; [|split; [|split; [|split; [|split; [|split]]]]]; unfold d'.
    + apply (fits_set _ _ (SMap p_acct)); [exact state_nodup| |cbn [In]; tauto|]; [apply (fits_set _ _ n_req); [exact state_nodup|exact F|cbn [In]; tauto|exact Fr]|]. right. exists m'. split; [reflexivity|]. apply Forall_impl with (2 := Fm). tauto.
    + rewrite deep_eq. apply good_set; [apply good_set; [exact G'|name_ok|apply (good_le depth); [rewrite deep2_eq; lia|exact Gr]]|name_ok|]. apply good_obj. split; [exact Nm|]. apply Forall_impl with (2 := Fm). tauto.
    + rewrite !get_set_neq by other. exact S1.
    + rewrite !get_set_neq by other. exact S2.
    + rewrite get_set_neq, get_set_eq by other. exact Sr.
    + eauto.
    + intros id. rewrite get_set_eq. cbn [members]. specialize (Km id). destruct (in_dec str_dec id (accts s)) as [H|H]; [exact Km|]. rewrite Km. specialize (K id). assert (Hl : lists s id = false).
      { destruct (lists s id) eqn:El; [|reflexivity]. apply existsb_exists in El as (x & Hx & Ex). apply str_eqb_eq in Ex as ->. contradiction. }
      destruct (aget str_eqb id m) as [e|]; cbn [kept] in *; [|rewrite latest_cons, Hl; exact K]. destruct K as (s0 & L & K1 & K2 & K3). exists s0. rewrite latest_cons, sent_cons, Hl. auto.
Qed.
Lemma token_ok tok t inst req rid h d : is_token t -> state_n tok inst req rid h d -> state_n t inst req rid h (set (bs "Token") t d).
Proof.
  intros Ht (F & G & S1 & S2 & S3 & R & K). split; [apply (fits_set _ _ SAny); [exact state_nodup|exact F|cbn [In]; tauto|exact I]|]. split; [rewrite deep_eq in *; apply good_set; [exact G|name_ok|apply token_depth, Ht]|].
  split; [rewrite get_set_eq; apply same_refl, (token_good _ Ht)|]. rewrite !get_set_neq by other. auto.
Qed.
Lemma runs_n_app short a : forall file b, runs_n short file (a ++ b) = (do f <- runs_n short file a; runs_n short f b).
Proof. induction a as [|e a IH]; intros file b; [reflexivity|]. cbn [runs_n app]. destruct (run_n e short file); cbn [obind]; auto. Qed.
Lemma past_ok short ans tok inst req rid h : past as_float ans tok inst req rid h ->
  exists bytes v d, runs_n short None ans = Ok (Some bytes) /\ text as_float deep bytes v /\ written_obj bytes /\ holds_n v tok inst req h /\ load_n (Some bytes) = Ok d /\ state_n tok inst req rid h d.
Proof.
  induction 1 as [an tok inst req rid H|ans tok inst req rid h an s _ (b0 & v0 & d0 & E0 & _ & _ & _ & L0 & St0) H].
  - destruct (init_ok short _ _ _ _ _ H) as (bytes & v & d & E & X). exists bytes, v, d. split; [|exact X]. cbn [runs_n]. rewrite E. reflexivity.
  - destruct (sync_n_ok _ _ _ _ _ _ _ _ St0 H) as (d' & Es & St').
    assert (St : state_n (match n_token an with Some t => t | None => tok end) inst (requisition s) (req_id s) (s :: h) (match n_token an with Some t => set (bs "Token") t d' | None => d' end)).
    { destruct (n_token an) as [t|] eqn:Et; [|exact St']. apply (token_ok tok); [|exact St']. destruct H as (_ & _ & _ & Ht). apply Ht, Et. }
    destruct (save_n short _ _ _ _ _ _ St) as (bytes & v & d2 & Ew & X). exists bytes, v, d2. split; [|exact X]. rewrite runs_n_app, E0. cbn [obind runs_n]. unfold run_n. rewrite L0. cbn [obind].
    replace (is_null (get (bs "Institution") d0)) with false. { rewrite Es. cbn [obind]. rewrite Ew. reflexivity. }
    symmetry. destruct St0 as (F & G & _). assert (Fi : fits n_inst (get (bs "Institution") d0)) by (apply (fits_get _ _ _ _ F); [apply G|cbn [In]; tauto]). destruct Fi as (x & -> & _). reflexivity.
Qed.
(** After the first run and any further ones the file holds the newest token, the institution, the newest requisition, the newest data of every account that was ever listed, and the newest version of every booked transaction; and no other accounts or transactions. No run fails. *)
Theorem C107_history_partial short ans tok inst req rid h : past as_float ans tok inst req rid h ->
  exists bytes v, runs_n short None ans = Ok (Some bytes) /\ text as_float deep bytes v /\ holds_n v tok inst req h.
Proof. intros P. destruct (past_ok short _ _ _ _ _ _ P) as (bytes & v & d & E & T & _ & H & _). exists bytes, v. auto. Qed.
Print Assumptions C107_history_partial.
(** What a crash can leave of a file when it is written is not taken for a state. *)
Theorem C107_cut short ans tok inst req rid h bytes p q : past as_float ans tok inst req rid h -> runs_n short None ans = Ok (Some bytes) -> bytes = p ++ q -> q <> [] -> forall an, run_n an short (Some p) = Error.
Proof.
  intros P E Ep Hq an. destruct (past_ok short _ _ _ _ _ _ P) as (b & v & d & E1 & _ & (t & m & Wt & Wv) & _). rewrite E in E1. injection E1 as <-. unfold run_n, load_n. cbn [load].
  replace (unmarshal_json p) with (@Error json); [reflexivity|]. symmetry. apply (proj2 (proj2 (C99_whole_text p))). intros [w0 (w & x & w' & Ed & Hw & Hv & _)]. apply (cut_object _ _ _ _ _ _ Wt Wv Ep Hq _ _ _ _ _ Ed Hw Hv).
Qed.
Print Assumptions C107_cut.
