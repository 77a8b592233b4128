(** * StateProps2: download monzo without a token, with nulls and unknown members in the answers, and with other members in the file (C100). *)
From Coq Require Import ZifyBool Lqa.
From Verif Require Import Base Utf8 LoaderModel LoaderSpec ExportSpec ConvertModel ConvertSpec ConvertProps F64Model F64Spec F64Proofs JsonModel JsonSpec JsonWrite2 JsonProps JsonRead JsonRead2 JsonReadProps StateModel StateSpec StateProofs StateProofs2 StateProofs3 StateCut StateProps.

(** ** Without a token *)
Theorem C100_no_token short file ts acs abytes pages : state as_float file JNull ts acs -> sync_file short file abytes pages = Error.
Proof. intros H. destruct (load_ok _ _ _ _ H) as (d & E & S & _). unfold sync_file. rewrite E. cbn [obind]. inversion S as [E'| | | | |]. reflexivity. Qed.
Print Assumptions C100_no_token.

(** ** Names that differ in letters only *)
(** The same letter, whatever its case; encoding/json takes the Kelvin sign for a k and the long s for an s. *)
Definition letter (a b : Z) : Prop := a = b \/ exists i, 0 <= i < 26 /\ (a = 65 + i \/ a = 97 + i) /\ (b = 65 + i \/ b = 97 + i \/ i = 10 /\ b = 8490 \/ i = 18 /\ b = 383).
Definition alike (name key : str) : Prop := Forall2 letter name (decode key).
Lemma low_letter a b : 0 <= a < 128 -> low a = low b -> letter a b.
Proof.
  unfold low, letter. intros Ha E. destruct (Z.eq_dec a b) as [->|N]; [left; reflexivity|right].
  destruct ((65 <=? a) && (a <=? 90)) eqn:E1.
  - exists (a - 65). split; [lia|]. split; [lia|]. destruct ((65 <=? b) && (b <=? 90)) eqn:E2; [lia|]. destruct (b =? 8490) eqn:E3; [lia|]. destruct (b =? 383) eqn:E4; lia.
  - replace (a =? 8490) with false in E by lia. replace (a =? 383) with false in E by lia. exists (a - 97). destruct ((65 <=? b) && (b <=? 90)) eqn:E2; [lia|]. destruct (b =? 8490) eqn:E3; [lia|]. destruct (b =? 383) eqn:E4; lia.
Qed.
Lemma fold_alike name key : Forall (fun c => 0 <= c < 128) name -> fold_eqb name key = true -> alike name key.
Proof.
  intros F H. unfold fold_eqb in H. apply str_eqb_eq in H. unfold alike. revert H. generalize (decode key). induction F as [|c name Hc F IH]; intros k H; destruct k; try discriminate; constructor; cbn [map] in H; injection H as H1 H2; [apply low_letter; assumption|apply IH, H2].
Qed.
Lemma letter_refl s : Forall2 letter s s. Proof. induction s; constructor; [left; reflexivity|assumption]. Qed.
Lemma decode_id s : Forall (fun c => 0 <= c < 128) s -> decode s = s.
Proof. intros H. apply text_ascii in H as [E1 E2]. rewrite E1 at 1. apply decode_encode, E2. Qed.
Lemma field_alike names key n : Forall (Forall (fun c => 0 <= c < 128)) names -> field names key = Some n -> In n names /\ (key = n \/ alike n key).
Proof.
  intros F. unfold field. destruct (existsb (str_eqb key) names) eqn:E.
  - intros H. injection H as <-. apply existsb_exists in E as (x & Hx & Ex). apply str_eqb_eq in Ex as ->. auto.
  - intros H. apply find_some in H as [H1 H2]. split; [exact H1|]. right. rewrite Forall_forall in F. apply fold_alike; [apply F, H1|exact H2].
Qed.
(** ** Unknown members *)
Lemma list_fields_unknown {A} name (f : json -> outcome A) k v l : field [name] k = None -> In (k, v) l -> forall cur r, list_fields name f l cur <> Ok r.
Proof.
  intros Hf. induction l as [|[k' v'] l IH]; intros H cur r; [destruct H|]. cbn [list_fields]. destruct H as [E|H].
  - injection E as -> ->. rewrite Hf. discriminate.
  - destruct (field [name] k'); [|discriminate]. set (x := match v' with JNull => _ | _ => _ end). destruct x; try discriminate. apply IH, H.
Qed.
Lemma fetch_unknown {A} name (f : json -> outcome A) bytes m k v : is_bytes bytes -> json_text_of as_float deep (decode bytes) (JObj m) -> In (k, v) m -> field [name] k = None -> forall r, fetch_list name f bytes <> Ok r.
Proof.
  intros Hb T Hk Hf r. destruct (text_read bytes _ Hb T) as (v' & _ & E & S & _). unfold fetch_list. rewrite E. cbn [obind]. destruct (obj_same _ _ S) as (m' & ->). destruct (in_same _ _ _ _ S Hk) as (w & Hw & _). apply (list_fields_unknown name f k w); assumption.
Qed.
Lemma not_field name k : Forall (fun c => 0 <= c < 128) name -> ~ alike name k -> field [name] k = None.
Proof.
  intros F H. destruct (field [name] k) as [n|] eqn:E; [|reflexivity]. apply field_alike in E; [|constructor; [exact F|constructor]]. destruct E as [[<-|[]] [->|E]]; [|contradiction]. exfalso. apply H. unfold alike. rewrite decode_id by exact F. apply letter_refl.
Qed.
(** An answer with a member that is not known is refused: the accounts, or a page of transactions. *)
Theorem C100_unknown short file abytes pages p m k v : is_bytes p -> json_text_of as_float deep (decode p) (JObj m) -> In (k, v) m ->
  (abytes = p /\ ~ alike (bs "Accounts") k) \/ (In p pages /\ ~ alike (bs "transactions") k) -> forall s, sync_file short file abytes pages <> Ok s.
Proof.
  intros Hb T Hk Hp s. unfold sync_file. destruct (load_data file) as [d| | |]; try discriminate. cbn [obind]. assert (N : forall d', sync d abytes pages <> Ok d').
  { intros d'. unfold sync. destruct Hp as [[-> Hn]|[Hp Hn]].
    - destruct (fetch_list (bs "Accounts") acct_of p) as [r| | |] eqn:E; try discriminate. exfalso. apply (fetch_unknown _ acct_of _ _ _ _ Hb T Hk (not_field (bs "Accounts") k ltac:(repeat constructor; lia) Hn) _ E).
    - destruct (fetch_list (bs "Accounts") acct_of abytes); try discriminate. cbn [obind]. destruct (store a_id _ a) as [mm| | |]; try discriminate. cbn [obind].
      assert (St : forall ps t r, In p ps -> store_pages t ps <> Ok r).
      { induction ps as [|x ps IH]; intros t r Hx; [destruct Hx|]. cbn [store_pages]. destruct Hx as [->|Hx].
        - destruct (fetch_list (bs "transactions") tx_of p) as [rr| | |] eqn:E; try discriminate. exfalso. apply (fetch_unknown _ tx_of _ _ _ _ Hb T Hk (not_field (bs "transactions") k ltac:(repeat constructor; lia) Hn) _ E).
        - destruct (fetch_list (bs "transactions") tx_of x); try discriminate. cbn [obind]. destruct (store t_id t a0); try discriminate. cbn [obind]. apply IH, Hx. }
      destruct mm as [|kv mm]; [destruct pages; [destruct Hp|discriminate]|]. destruct (existsb _ (kv :: mm)); [discriminate|]. destruct (store_pages _ pages) as [r| | |] eqn:E; try discriminate. exfalso. apply (St _ _ _ Hp E). }
  destruct (d_token d); try discriminate; (destruct (sync d abytes pages) as [d'| | |] eqn:E; try discriminate; destruct (N d' eq_refl)).
Qed.
Print Assumptions C100_unknown.

(** ** Nulls *)
Section Null.
  Context {A : Type} (P : json -> str -> Prop) (f : json -> outcome A) (data : A -> json) (id : A -> str) (K : kind P f data id).
  Lemma all_ptr_null vs vs' : Forall2 same vs vs' -> Forall (good deep2) vs' -> In JNull vs -> Forall (fun v => v = JNull \/ exists i, P v i) vs -> exists r, all_ptr f vs' = Ok r /\ In None r.
  Proof.
    intros S G Hn F. assert (E : exists r, all_ptr f vs' = Ok r /\ (In JNull vs -> In None r)). 2: { destruct E as (r & E & H). eauto. }
    clear Hn. revert G F. induction S as [|v v' vs vs' Sv S IH]; intros G F; [exists []; split; [reflexivity|intros []]|]. inversion G as [|? ? G1 G2]; subst. inversion F as [|? ? F1 F2]; subst. destruct (IH G2 F2) as (r & E & Hr). cbn [all_ptr].
    destruct F1 as [->|[i Hi]].
    - inversion Sv; subst. cbn [ptr obind]. rewrite E. cbn [obind]. eexists. split; [reflexivity|]. intros _. left. reflexivity.
    - pose proof (k_same _ _ _ _ K _ _ _ Sv Hi) as Hi'. destruct (k_ok _ _ _ _ K v' i (proj1 (proj2 (proj2 G1))) Hi') as (a & Ea & _). rewrite (ptr_ok f v' a); [|intros ->; apply (k_null _ _ _ _ K _ Hi')|exact Ea]. cbn [obind]. rewrite E. cbn [obind]. eexists. split; [reflexivity|]. intros [->|H]; [exfalso; apply (k_null _ _ _ _ K _ Hi)|right; apply Hr, H].
  Qed.
  Lemma store_null l : forall m, In None l -> store id m l = Panic.
  Proof. induction l as [|[a|] l IH]; intros m H; [destruct H| |reflexivity]. cbn [store]. apply IH. destruct H as [H|H]; [discriminate|exact H]. Qed.
  Lemma fetch_null name name' bytes vs : field [name'] name = Some name' -> is_bytes bytes -> json_text_of as_float deep (decode bytes) (JObj [(name, JArr vs)]) -> In JNull vs -> Forall (fun v => v = JNull \/ exists i, P v i) vs ->
    forall m, (do l <- fetch_list name' f bytes; store id m l) = Panic.
  Proof.
    intros Hf Hb T Hn F m. destruct (text_read bytes _ Hb T) as (v' & _ & E & S & G). unfold fetch_list. rewrite E. cbn [obind]. destruct (obj_same _ _ S) as (m' & ->). inversion S as [| | | | |? ? _ N Ks V]; subst. assert (exists v, m' = [(name, v)]) as [v ->].
    { destruct m' as [|[k v] [|[k2 v2] m']].
      - exfalso. apply (proj1 (Ks name)). left. reflexivity.
      - destruct (proj2 (Ks k)) as [H|[]]; [left; reflexivity|]. cbn in H. subst k. eauto.
      - exfalso. destruct (proj2 (Ks k)) as [H|[]]; [left; reflexivity|]. destruct (proj2 (Ks k2)) as [H2|[]]; [right; left; reflexivity|]. cbn [map fst] in N. cbn in H, H2. subst k k2. inversion N as [|? ? N1 _]; subst. apply N1. left. reflexivity. }
    assert (S2 : same (JArr vs) v) by (apply (V name); left; reflexivity). inversion S2 as [| | | |? vs' F2|]; subst. rewrite deep_eq in G. apply good_obj in G as [_ G]. inversion G as [|? ? [_ G1] _]; subst. cbn [snd] in G1. apply good_arr in G1.
    destruct (all_ptr_null vs vs' F2 G1 Hn F) as (r & Er & Hr). cbn [list_fields]. rewrite Hf, Er. cbn [obind]. apply store_null, Hr.
  Qed.
End Null.
(** A null among the accounts, or in a page of transactions, crashes the program: it should be an error. *)
Theorem C106_monzo_account_refuted short file tok ts acs abytes vs pages : state as_float file tok ts acs -> tok <> JNull -> In JNull vs -> is_bytes abytes ->
  json_text_of as_float deep (decode abytes) (JObj [(bs "accounts", JArr vs)]) -> Forall (fun v => v = JNull \/ exists i, is_acct v i) vs -> sync_file short file abytes pages = Panic.
Proof.
  intros Hs Ht Hn Hb T F. destruct (load_ok _ _ _ _ Hs) as (d & E & S & _). unfold sync_file. rewrite E. cbn [obind]. pose proof (same_not_null _ _ S Ht) as Hk. assert (X : sync d abytes pages = Panic).
  { unfold sync. pose proof (fetch_null _ _ _ _ acct_kind _ _ abytes vs accounts_field Hb T Hn F (match d_accts d with Some m => m | None => [] end)) as X. destruct (fetch_list (bs "Accounts") acct_of abytes) as [l| | |]; try discriminate; [|reflexivity]. cbn [obind] in *. rewrite X. reflexivity. }
  destruct (d_token d); try contradiction; rewrite X; reflexivity.
Qed.
Print Assumptions C106_monzo_account_refuted.
Theorem C106_monzo_page_refuted short file tok ts acs abytes al pages pls p vs more : state as_float file tok ts acs -> tok <> JNull -> answer as_float (bs "accounts") is_acct abytes al -> al ++ acs <> [] -> Forall2 (answer as_float (bs "transactions") is_tx) pages pls ->
  In JNull vs -> is_bytes p -> json_text_of as_float deep (decode p) (JObj [(bs "transactions", JArr vs)]) -> Forall (fun v => v = JNull \/ exists i, is_tx v i) vs -> sync_file short file abytes (pages ++ p :: more) = Panic.
Proof.
  intros Hs Ht Ha Hne Hp Hn Hb T F. destruct (load_ok _ _ _ _ Hs) as (d & E & S & G1 & H1 & H2). unfold sync_file. rewrite E. cbn [obind]. pose proof (same_not_null _ _ S Ht) as Hk. assert (X : sync d abytes (pages ++ p :: more) = Panic).
  { destruct (holds_opt _ _ _ _ _ H1) as [O1 T1]. destruct (holds_opt _ _ _ _ _ H2) as [O2 T2].
    destruct (fetch_store _ _ _ _ acct_kind _ _ abytes al (opt (d_accts d)) acs accounts_field Ha O2 T2) as (r & m & E1 & E2 & O3 & N3). unfold sync. rewrite E1. cbn [obind]. change (match d_accts d with Some m => m | None => [] end) with (opt (d_accts d)). rewrite E2. cbn [obind].
    assert (m <> []). { intros ->. apply (newest_empty _ _ _ N3 Hne). reflexivity. } destruct m as [|kv m]; [contradiction|]. rewrite (no_nil _ _ _ _ O3). change (match d_trans d with Some t => t | None => [] end) with (opt (d_trans d)).
    destruct (pages_ok pages pls (opt (d_trans d)) ts Hp O1 T1) as (t & E3 & _ & _). assert (Y : forall ps m0 t0, store_pages m0 ps = Ok t0 -> store_pages m0 (ps ++ p :: more) = Panic).
    { induction ps as [|x ps IH]; intros m0 t0 E0; cbn [store_pages app] in *.
      - pose proof (fetch_null _ _ _ _ tx_kind _ _ p vs trans_field Hb T Hn F m0) as X. destruct (fetch_list (bs "transactions") tx_of p) as [l| | |]; try discriminate; [|reflexivity]. cbn [obind] in *. rewrite X. reflexivity.
      - destruct (fetch_list (bs "transactions") tx_of x) as [l| | |]; try discriminate. cbn [obind] in *. destruct (store t_id m0 l) as [m1| | |]; try discriminate. cbn [obind] in *. apply (IH _ _ E0). }
    rewrite (Y _ _ _ E3). reflexivity. }
  destruct (d_token d); try contradiction; rewrite X; reflexivity.
Qed.
Print Assumptions C106_monzo_page_refuted.

(** ** Other members of the state file *)
Definition names3 : list str := [bs "token"; bs "transactions"; bs "accounts"].
(** A state file with other members, in any order. *)
Definition state_more (num : Qc -> Qc -> Prop) (bytes : str) (tok : json) (ts acs : list (str * json)) : Prop :=
  is_bytes bytes /\ exists l jt ja, json_text_of num deep (decode bytes) (JObj l) /\ In (bs "token", tok) l /\ In (bs "transactions", jt) l /\ In (bs "accounts", ja) l /\
    Forall (fun kv => In (fst kv) names3 \/ forall n, In n names3 -> ~ alike n (fst kv)) l /\ table is_tx jt ts /\ table is_acct ja acs.
Definition known (kv : str * json) : bool := match field names3 (fst kv) with Some _ => true | None => false end.
Lemma put_fields_known l : forall d, put_fields l d = put_fields (filter known l) d.
Proof. induction l as [|[k v] l IH]; intros d; [reflexivity|]. cbn [filter]. unfold known at 1. cbn [fst]. unfold names3. destruct (field _ k) as [n|] eqn:E; cbn [put_fields]; rewrite E; [|cbn [obind]; apply IH]. destruct (if str_eqb n (bs "token") then _ else _) as [d'| | |]; cbn [obind]; auto. Qed.
Lemma known_name n v : In n names3 -> known (n, v) = true. Proof. intros [<-|[<-|[<-|[]]]]; reflexivity. Qed.
Lemma load_more bytes tok ts acs : state_more as_float bytes tok ts acs -> exists d, load_data (Some bytes) = Ok d /\ held d tok ts acs.
Proof.
  intros (Hb & l & jt & ja & HT & I1 & I2 & I3 & Fk & Tt & Ta). destruct (text_read bytes _ Hb HT) as (v' & E & _ & S0 & G). cbn [load_data]. rewrite E. cbn [obind]. destruct (obj_same _ _ S0) as (m & ->). rewrite deep_eq in G. apply good_obj in G as [N G]. inversion S0 as [| | | | |? ? _ _ K V]; subst.
  assert (Mem : forall k v, In (k, v) l -> exists v', In (k, v') m /\ same v v' /\ good (S deep2) v').
  { intros k v Hk. destruct (in_same _ _ _ _ S0 Hk) as (v' & H1 & H2). exists v'. split; [exact H1|]. split; [exact H2|]. rewrite Forall_forall in G. apply (G _ H1). }
  destruct (Mem _ _ I1) as (tok' & J1 & S1 & G1). destruct (Mem _ _ I2) as (jt' & J2 & S2 & G2). destruct (Mem _ _ I3) as (ja' & J3 & S3 & G3).
  destruct (load_table _ _ _ _ tx_kind jt jt' ts Tt S2 G2) as (T & E1 & H1). destruct (load_table _ _ _ _ acct_kind ja ja' acs Ta S3 G3) as (A & E2 & H2).
  exists (mkData tok' T A). split; [|split; [exact S1|split; [exact G1|split; assumption]]]. rewrite put_fields_known.
  assert (J : forall k v, In k names3 -> In (k, v) m -> In (k, v) (filter known m)) by (intros k v Hk Hv; apply filter_In; split; [exact Hv|apply known_name, Hk]).
  apply (put_fields_ok _ no_data tok' jt' ja'); try assumption; try (apply J; [unfold names3; cbn [In]; auto|assumption]).
  - clear - N. induction m as [|kv m IH]; [constructor|]. cbn [map] in N. inversion N as [|? ? N1 N2]; subst. cbn [filter]. destruct (known kv); [|apply IH, N2]. cbn [map]. constructor; [|apply IH, N2]. intros H. apply N1. apply in_map_iff in H as (x & Ex & Hx). apply filter_In in Hx as [Hx _]. rewrite <- Ex. apply in_map, Hx.
  - intros k Hk. apply in_map_iff in Hk as ([k' v] & Ek & Hk). cbn [fst] in Ek. subst k'. apply filter_In in Hk as [Hk Hn]. unfold known in Hn. cbn [fst] in Hn. destruct (field names3 k) as [n|] eqn:En; [|discriminate]. apply field_alike in En as [Hn1 Hn2]; [|repeat constructor; lia].
    assert (In k (map fst l)) as Hl by (apply K; apply (in_map fst _ _ Hk)). apply in_map_iff in Hl as (kv & <- & Hl). rewrite Forall_forall in Fk. destruct (Fk _ Hl) as [H|H]; [exact H|]. exfalso. destruct Hn2 as [Hn2|Hn2]; [|apply (H _ Hn1 Hn2)]. apply (H _ Hn1). rewrite Hn2. unfold alike. replace (decode n) with n; [apply letter_refl|]. symmetry. apply decode_id. clear - Hn1. destruct Hn1 as [<-|[<-|[<-|[]]]]; repeat constructor; lia.
Qed.
(** They are ignored: a run does what it does without them, and does not write them back. *)
Theorem C100_more short bytes tok ts acs abytes al pages pls : state_more as_float bytes tok ts acs -> tok <> JNull -> answer as_float (bs "accounts") is_acct abytes al -> Forall2 (answer as_float (bs "transactions") is_tx) pages pls -> al ++ acs <> [] \/ pages = [] ->
  exists s tok' ts' acs', sync_file short (Some bytes) abytes pages = Ok s /\ state_file as_float s tok' ts' acs' /\ same tok tok' /\ newest ts (concat pls) ts' /\ newest acs al acs'.
Proof.
  intros Hs Ht Ha Hp Hn. destruct (load_more _ _ _ _ Hs) as (d & E & H). destruct (sync_run short _ d tok ts acs abytes al pages pls E H Ht Ha Hp Hn) as (d' & ts1 & acs1 & E' & H' & N1 & N2).
  destruct (save_held short d' tok ts1 acs1 H') as (s & ts' & acs' & Es & _ & F & T1 & T2). exists s, (d_token d'), ts', acs'. split; [congruence|]. split; [exact F|]. split; [apply H'|]. split; [apply (table_trans _ _ _ N1 T1)|apply (table_trans _ _ _ N2 T2)].
Qed.
Print Assumptions C100_more.
