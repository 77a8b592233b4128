(** * StateProofs3: the command of download monzo on state files (C100). *)
From Coq Require Import ZifyBool Lqa.
From Verif Require Import Base Utf8 LoaderModel LoaderSpec ExportSpec ConvertModel ConvertSpec ConvertProps F64Model F64Spec F64Proofs JsonModel JsonSpec JsonWrite2 JsonProps JsonRead JsonRead2 JsonReadProps StateModel StateSpec StateProofs StateProofs2.

Definition held (d : mdata) (tok : json) (ts acs : list (str * json)) : Prop :=
  same tok (d_token d) /\ good (S deep2) (d_token d) /\ holds tx_of t_data t_id (d_trans d) ts /\ holds acct_of a_data a_id (d_accts d) acs.

Lemma text_read bytes v : is_bytes bytes -> json_text_of as_float deep (decode bytes) v -> exists v', unmarshal_json bytes = Ok v' /\ decode_json bytes = Ok v' /\ same v v' /\ good deep v'.
Proof.
  rewrite deep_levels. intros Hb H. destruct (proj1 (proj2 (C99_whole_text bytes)) v H) as (v' & E1 & E2 & S). exists v'. rewrite <- deep_levels. repeat split; try assumption; apply (read_good bytes v' Hb); auto.
Qed.
Lemma put_fields_ok m d tok jt ja T A : NoDup (map fst m) -> (forall k, In k (map fst m) -> In k [bs "token"; bs "transactions"; bs "accounts"]) ->
  In (bs "token", tok) m -> In (bs "transactions", jt) m -> In (bs "accounts", ja) m -> put_map tx_of (d_trans d) jt = Ok T -> put_map acct_of (d_accts d) ja = Ok A -> put_fields m d = Ok (mkData tok T A).
Proof.
  intros N Hk I1 I2 I3 E1 E2.
  assert (L : length m = 3%nat).
  { rewrite <- (map_length fst m). apply (@Permutation_length _ (map fst m) [bs "token"; bs "transactions"; bs "accounts"]). apply NoDup_Permutation; [exact N| |].
    - repeat constructor; cbn [In]; intros H; repeat destruct H as [H|H]; try discriminate; contradiction.
    - intros k. split; [apply Hk|]. intros [<-|[<-|[<-|[]]]]; [apply (in_map fst _ _ I1)|apply (in_map fst _ _ I2)|apply (in_map fst _ _ I3)]. }
  assert (S1 : forall v l d, put_fields ((bs "token", v) :: l) d = put_fields l (mkData v (d_trans d) (d_accts d))) by reflexivity.
  assert (S2 : forall v l d, put_fields ((bs "transactions", v) :: l) d = (do m <- put_map tx_of (d_trans d) v; put_fields l (mkData (d_token d) m (d_accts d)))) by (intros; cbn [put_fields]; change (field [bs "token"; bs "transactions"; bs "accounts"] (bs "transactions")) with (Some (bs "transactions")); cbn iota; change (str_eqb (bs "transactions") (bs "token")) with false; change (str_eqb (bs "transactions") (bs "transactions")) with true; cbn iota; destruct (put_map tx_of (d_trans d0) v); reflexivity).
  assert (S3 : forall v l d, put_fields ((bs "accounts", v) :: l) d = (do m <- put_map acct_of (d_accts d) v; put_fields l (mkData (d_token d) (d_trans d) m))) by (intros; cbn [put_fields]; change (field [bs "token"; bs "transactions"; bs "accounts"] (bs "accounts")) with (Some (bs "accounts")); cbn iota; change (str_eqb (bs "accounts") (bs "token")) with false; change (str_eqb (bs "accounts") (bs "transactions")) with false; cbn iota; destruct (put_map acct_of (d_accts d0) v); reflexivity).
  destruct m as [|[k1 v1] [|[k2 v2] [|[k3 v3] [|]]]]; try discriminate. clear L. cbn [map fst] in N.
  inversion N as [|? ? N1 N']; subst. inversion N' as [|? ? N2 N'']; subst. cbn [In] in N1, N2. clear N N' N'' Hk.
  assert (D1 : bs "token" <> bs "transactions") by (intros H; discriminate H). assert (D2 : bs "token" <> bs "accounts") by (intros H; discriminate H). assert (D3 : bs "transactions" <> bs "accounts") by (intros H; discriminate H).
  cbn [In] in I1, I2, I3. remember (bs "token") as kt eqn:Et. remember (bs "transactions") as kx eqn:Ex. remember (bs "accounts") as ka eqn:Ea.
  destruct I1 as [I1|[I1|[I1|[]]]]; destruct I2 as [I2|[I2|[I2|[]]]]; destruct I3 as [I3|[I3|[I3|[]]]]; injection I1 as A1 B1; injection I2 as A2 B2; injection I3 as A3 B3; try (exfalso; congruence); clear Et Ex Ea; subst;
  repeat first [rewrite S1; cbn [d_trans d_accts d_token]|rewrite S2; cbn [d_trans d_accts d_token]; rewrite E1; cbn [obind]|rewrite S3; cbn [d_trans d_accts d_token]; rewrite E2; cbn [obind]]; reflexivity.
Qed.
Lemma load_ok file tok ts acs : state as_float file tok ts acs -> exists d, load_data file = Ok d /\ held d tok ts acs.
Proof.
  destruct file as [bytes|]; cbn [state load_data].
  2: { intros (-> & -> & ->). exists no_data. split; [reflexivity|]. split; [constructor|]. split; [apply good_null|]. split; reflexivity. }
  intros (Hb & jt & ja & HT & Tt & Ta). destruct (text_read bytes _ Hb HT) as (v' & E & _ & S0 & G). rewrite E. cbn [obind]. destruct (obj_same _ _ S0) as (m & ->). rewrite deep_eq in G. apply good_obj in G as [N G]. inversion S0 as [| | | | |? ? _ _ K V]; subst.
  assert (Mem : forall k v, In (k, v) [(bs "token", tok); (bs "transactions", jt); (bs "accounts", ja)] -> exists v', In (k, v') m /\ same v v' /\ good (S deep2) v').
  { intros k v Hk. destruct (in_same _ _ _ _ S0 Hk) as (v' & H1 & H2). exists v'. split; [exact H1|]. split; [exact H2|]. rewrite Forall_forall in G. apply (G _ H1). }
  destruct (Mem (bs "token") tok) as (tok' & I1 & S1 & G1); [left; reflexivity|]. destruct (Mem (bs "transactions") jt) as (jt' & I2 & S2 & G2); [right; left; reflexivity|]. destruct (Mem (bs "accounts") ja) as (ja' & I3 & S3 & G3); [right; right; left; reflexivity|].
  destruct (load_table _ _ _ _ tx_kind jt jt' ts Tt S2 G2) as (T & E1 & H1). destruct (load_table _ _ _ _ acct_kind ja ja' acs Ta S3 G3) as (A & E2 & H2).
  exists (mkData tok' T A). split; [apply (put_fields_ok m no_data tok' jt' ja'); try assumption; intros k Hk; apply K in Hk; exact Hk|]. split; [exact S1|]. split; [exact G1|]. split; assumption.
Qed.
(** The text of an object, without white space around it. *)
Definition written_obj (s : str) : Prop := exists t m, is_text s t /\ value as_float deep t (JObj m).
Lemma held_json d tok ts acs : held d tok ts acs -> good deep (data_json d) /\ exists ts' acs', table is_tx (map_json t_data (d_trans d)) ts' /\ table is_acct (map_json a_data (d_accts d)) acs' /\ same_table ts ts' /\ same_table acs acs'.
Proof.
  intros (S1 & G1 & H1 & H2). destruct (save_table _ _ _ _ tx_kind _ _ H1) as (G2 & ts' & T1 & T2). destruct (save_table _ _ _ _ acct_kind _ _ H2) as (G3 & acs' & T3 & T4).
  assert (Ua : forall s, Forall (fun c => 0 <= c < 128) s -> is_utf8 s) by (intros s Hs; exists s; apply text_ascii; exact Hs). split; [|exists ts', acs'; auto].
  rewrite deep_eq. apply good_obj. split.
  - cbn [map fst]. repeat constructor; cbn [In]; intros H; repeat destruct H as [H|H]; try discriminate; contradiction.
  - do 3 (constructor; [split; cbn [fst snd]; [apply Ua; repeat constructor; lia|assumption]|]). constructor.
Qed.
Lemma save_held short d tok ts acs : held d tok ts acs -> exists s ts' acs', save_data short d = Ok s /\ written_obj s /\ state_file as_float s (d_token d) ts' acs' /\ same_table ts ts' /\ same_table acs acs'.
Proof.
  intros H. destruct (held_json _ _ _ _ H) as (G & ts' & acs' & T1 & T3 & T2 & T4). destruct (save_ok short _ deep G (Nat.le_refl _)) as (s & t & E & T & V). destruct (value_text _ _ _ _ _ T V) as [Hb HT]. exists s, ts', acs'. split; [exact E|]. split; [exists t; eauto|]. split; [|auto]. split; [exact Hb|]. exists (map_json t_data (d_trans d)), (map_json a_data (d_accts d)). auto.
Qed.

(** ** Answers *)
Section Fetch.
  Context {A : Type} (P : json -> str -> Prop) (f : json -> outcome A) (data : A -> json) (id : A -> str) (K : kind P f data id).
  Definition sent_of (l : list A) : list (str * json) := map (fun a => (id a, data a)) l.
  Lemma fetch_ok name name' bytes l : field [name'] name = Some name' -> answer as_float name P bytes l ->
    exists as_, fetch_list name' f bytes = Ok (map Some as_) /\ Forall2 same_kv l (sent_of as_) /\ Forall (fun a => is_utf8 (id a) /\ f (data a) = Ok a /\ good deep2 (data a)) as_.
  Proof.
    intros Hf (Hb & HT & F). destruct (text_read bytes _ Hb HT) as (v' & _ & E & S & G). unfold fetch_list. rewrite E. cbn [obind]. clear E HT.
    destruct (obj_same _ _ S) as (m & ->). inversion S as [| | | | |? ? _ N Ks V]; subst. assert (exists v, m = [(name, v)]) as [v ->].
    { destruct m as [|[k v] [|[k2 v2] m]].
      - exfalso. apply (proj1 (Ks name)). left. reflexivity.
      - destruct (proj2 (Ks k)) as [H|[]]; [left; reflexivity|]. cbn in H. subst k. eauto.
      - exfalso. destruct (proj2 (Ks k)) as [H|[]]; [left; reflexivity|]. destruct (proj2 (Ks k2)) as [H2|[]]; [right; left; reflexivity|]. cbn [map fst] in N. cbn in H, H2. subst k k2. inversion N as [|? ? N1 _]; subst. apply N1. left. reflexivity. }
    assert (S2 : same (JArr (map snd l)) v) by (apply (V name); left; reflexivity). inversion S2 as [| | | |? vs F2|]; subst. rewrite deep_eq in G. apply good_obj in G as [_ G]. inversion G as [|? ? [_ G1] _]; subst. cbn [snd] in G1. apply good_arr in G1.
    assert (X : Forall2 (fun kv v => same (snd kv) v /\ P v (fst kv)) l vs).
    { clear - F F2 K. revert vs F2. induction F as [|kv l Pk _ IH]; intros vs F2; inversion F2; subst; constructor; [|auto]. split; [assumption|]. apply (k_same _ _ _ _ K (snd kv)); assumption. }
    assert (Y : Forall (fun v => v <> JNull /\ exists a, f v = Ok a) vs).
    { clear - X G1 K. induction X as [|kv v l vs [_ Pv] _ IH]; [constructor|]. inversion G1; subst. constructor; [|auto]. split; [intros ->; apply (k_null _ _ _ _ K _ Pv)|]. destruct (k_ok _ _ _ _ K v (fst kv)) as (a & E & _); [match goal with H : good _ v |- _ => apply H end|exact Pv|]. eauto. }
    destruct (all_ptr_ok f vs Y) as (as_ & E & F3). exists as_. cbn [list_fields]. rewrite Hf, E. cbn [obind]. split; [reflexivity|]. clear - X F3 G1 K. revert as_ F3. induction X as [|kv v l vs [Sv Pv] _ IH]; intros as_ F3; inversion F3 as [|? a ? as' Ea F3']; subst; [split; constructor|].
    inversion G1 as [|? ? Gv G1']; subst. destruct (IH G1' as' F3') as [Z1 Z2]. destruct (k_inv _ _ _ _ K _ _ Ea) as [Ed Pa]. destruct (k_ok _ _ _ _ K v (fst kv)) as (a' & Ea' & _ & Ei); [apply Gv|exact Pv|]. assert (a' = a) as -> by congruence. split; constructor; try assumption.
    - split; cbn [fst snd]; [symmetry; exact Ei|rewrite Ed; exact Sv].
    - rewrite Ed. split; [|auto]. apply (k_utf8 _ _ _ _ K v); [apply Gv|exact Pa].
  Qed.
End Fetch.
Lemma accounts_field : field [bs "Accounts"] (bs "accounts") = Some (bs "Accounts"). Proof. reflexivity. Qed.
Lemma trans_field : field [bs "transactions"] (bs "transactions") = Some (bs "transactions"). Proof. reflexivity. Qed.
Definition opt {A} (m : option (list (str * option A))) : list (str * option A) := match m with Some m => m | None => [] end.
Lemma holds_opt {A} (f : json -> outcome A) data id m l : holds f data id m l -> Forall (ok_entry f data id) (opt m) /\ same_table l (view data (opt m)).
Proof. destruct m; cbn; [tauto|]. intros ->. split; [constructor|apply table_nil]. Qed.
Lemma fetch_store {A} P (f : json -> outcome A) data id (K : kind P f data id) name name' bytes l m old : field [name'] name = Some name' -> answer as_float name P bytes l -> Forall (ok_entry f data id) m -> same_table old (view data m) ->
  exists r m', fetch_list name' f bytes = Ok r /\ store id m r = Ok m' /\ Forall (ok_entry f data id) m' /\ newest old l (view data m').
Proof.
  intros Hf Ha O T. destruct (fetch_ok P f data id K name name' bytes l Hf Ha) as (as_ & E & S & F). destruct (store_ok f data id as_ m F O) as (m' & E2 & Ev & O'). exists (map Some as_), m'. split; [exact E|]. split; [exact E2|]. split; [exact O'|].
  apply (newest_put old (view data m) l (sent_of data id as_)); assumption.
Qed.
Lemma newest_refl m : NoDup (map fst m) -> Forall (fun kv => map_like (snd kv)) m -> newest m [] m.
Proof. intros N F. split; [exact N|]. intros k. change (rev [] ++ m) with m. destruct (aget str_eqb k m) as [v|] eqn:E; [|exact I]. apply (aget_In str_eqb str_eqb_eq) in E. rewrite Forall_forall in F. apply same_refl. apply (F _ E). Qed.
Lemma view_like {A} (f : json -> outcome A) data id m : Forall (ok_entry f data id) m -> Forall (fun kv => map_like (snd kv)) (view data m).
Proof. intros O. apply Forall_forall. intros x Hx. apply in_map_iff in Hx as (y & <- & Hy). rewrite Forall_forall in O. destruct (O _ Hy) as (_ & a & E & _ & _ & G). rewrite E. apply G. Qed.
Lemma pages_ok pages : forall pls m old, Forall2 (answer as_float (bs "transactions") is_tx) pages pls -> Forall (ok_entry tx_of t_data t_id) m -> same_table old (view t_data m) ->
  exists m', store_pages m pages = Ok m' /\ Forall (ok_entry tx_of t_data t_id) m' /\ newest old (concat pls) (view t_data m').
Proof.
  induction pages as [|p ps IH]; intros pls m old F O T; inversion F as [|? pl ? pls' Hp F']; subst.
  - exists m. split; [reflexivity|]. split; [exact O|]. exact T.
  - destruct (fetch_store _ _ _ _ tx_kind _ _ p pl m old trans_field Hp O T) as (r & m1 & E1 & E2 & O1 & N1).
    assert (T1 : same_table (view t_data m1) (view t_data m1)) by (apply (newest_refl (view t_data m1)); [apply N1|apply (view_like _ _ _ _ O1)]).
    destruct (IH pls' m1 (view t_data m1) F' O1 T1) as (m2 & E3 & O2 & N2). exists m2. cbn [store_pages concat]. rewrite E1. cbn [obind]. rewrite E2. cbn [obind]. split; [exact E3|]. split; [exact O2|]. apply (newest_app _ _ _ _ _ N1 N2).
Qed.
Lemma no_nil {A} (f : json -> outcome A) data id m : Forall (ok_entry f data id) m -> existsb (fun kv => match snd kv with None => true | _ => false end) m = false.
Proof. induction 1 as [|[k x] m (_ & a & E & _) _ IH]; [reflexivity|]. cbn [existsb fst snd] in *. subst x. exact IH. Qed.
Lemma sync_ok d tok ts acs abytes al pages pls : held d tok ts acs -> answer as_float (bs "accounts") is_acct abytes al -> Forall2 (answer as_float (bs "transactions") is_tx) pages pls -> al ++ acs <> [] \/ pages = [] ->
  exists d' ts' acs', sync d abytes pages = Ok d' /\ held d' tok ts' acs' /\ newest ts (concat pls) ts' /\ newest acs al acs'.
Proof.
  intros (S1 & G1 & H1 & H2) Ha Hp Hne. destruct (holds_opt _ _ _ _ _ H1) as [O1 T1]. destruct (holds_opt _ _ _ _ _ H2) as [O2 T2].
  destruct (fetch_store _ _ _ _ acct_kind _ _ abytes al (opt (d_accts d)) acs accounts_field Ha O2 T2) as (r & m & E1 & E2 & O3 & N3).
  assert (R3 : same_table (view a_data m) (view a_data m)) by (apply (newest_refl (view a_data m)); [apply N3|apply (view_like _ _ _ _ O3)]).
  unfold sync. rewrite E1. cbn [obind]. change (match d_accts d with Some m => m | None => [] end) with (opt (d_accts d)). rewrite E2. cbn [obind]. destruct m as [|kv m].
  - assert (Em : al ++ acs = []).
    { destruct N3 as [_ N3]. destruct al as [|[k v] al].
      - destruct acs as [|[k v] acs]; [reflexivity|]. specialize (N3 k). cbn [rev app aget view map] in N3. rewrite (proj2 (str_eqb_eq k k) eq_refl) in N3. contradiction.
      - specialize (N3 k). cbn [view map aget] in N3. destruct (aget str_eqb k (rev ((k, v) :: al) ++ acs)) eqn:E; [contradiction|]. apply (aget_None str_eqb str_eqb_eq) in E. exfalso. apply E. unfold akeys. apply in_map_iff. exists (k, v). split; [reflexivity|]. apply in_or_app. left. apply -> in_rev. left. reflexivity. }
    destruct Hne as [Hne| ->]; [contradiction|]. inversion Hp; subst. apply app_eq_nil in Em as [-> ->]. exists (mkData (d_token d) (d_trans d) (Some [])), (view t_data (opt (d_trans d))), []. split; [reflexivity|].
    assert (R1 : same_table (view t_data (opt (d_trans d))) (view t_data (opt (d_trans d)))) by (apply (newest_refl (view t_data (opt (d_trans d)))); [apply T1|apply (view_like _ _ _ _ O1)]).
    split; [|split; [exact T1|exact table_nil]]. split; [exact S1|]. split; [exact G1|]. split; [|split; [constructor|apply table_nil]]. cbn [d_trans]. clear - O1 R1. destruct (d_trans d); [split; assumption|reflexivity].
  - rewrite (no_nil _ _ _ _ O3). change (match d_trans d with Some t => t | None => [] end) with (opt (d_trans d)). destruct (pages_ok pages pls (opt (d_trans d)) ts Hp O1 T1) as (t & E3 & O4 & N4). rewrite E3. cbn [obind].
    assert (R4 : same_table (view t_data t) (view t_data t)) by (apply (newest_refl (view t_data t)); [apply N4|apply (view_like _ _ _ _ O4)]).
    exists (mkData (d_token d) (Some t) (Some (kv :: m))), (view t_data t), (view a_data (kv :: m)). split; [reflexivity|]. split; [|split; assumption]. split; [exact S1|]. split; [exact G1|]. split; split; assumption.
Qed.
