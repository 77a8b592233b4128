(** * StateProps: the state file of download monzo holds the newest version of everything the server sent (C100), and the numbers in it (C101). *)
From Coq Require Import ZifyBool Lqa.
From Verif Require Import Base Dec Utf8 LoaderModel LoaderSpec ExportModel ExportSpec ConvertModel ConvertSpec ConvertProps F64Model F64Spec F64Proofs JsonModel JsonSpec JsonNum JsonWrite JsonWrite2 JsonProps JsonRead JsonRead2 JsonReadProps StateModel StateSpec StateProofs StateProofs2 StateProofs3 StateCut StateExact.

(** ** One run *)
Lemma same_not_null a b : same a b -> a <> JNull -> b <> JNull. Proof. intros H N E. apply N. apply (same_none a b H). exact E. Qed.
Lemma sync_run short file d tok ts acs abytes al pages pls : load_data file = Ok d -> held d tok ts acs -> tok <> JNull -> answer as_float (bs "accounts") is_acct abytes al -> Forall2 (answer as_float (bs "transactions") is_tx) pages pls -> al ++ acs <> [] \/ pages = [] ->
  exists d' ts' acs', sync_file short file abytes pages = save_data short d' /\ held d' tok ts' acs' /\ newest ts (concat pls) ts' /\ newest acs al acs'.
Proof.
  intros E H Ht Ha Hp Hn. destruct (sync_ok d tok ts acs abytes al pages pls H Ha Hp Hn) as (d' & ts' & acs' & E' & H' & N1 & N2). exists d', ts', acs'. split; [|auto]. unfold sync_file. rewrite E. cbn [obind]. destruct H as (S1 & _). pose proof (same_not_null _ _ S1 Ht) as Hk. destruct (d_token d); try contradiction; rewrite E'; reflexivity.
Qed.
(** After a run the file holds the newest version of everything, and the token. *)
Theorem C100_sync short file tok ts acs abytes al pages pls : state as_float file tok ts acs -> tok <> JNull -> answer as_float (bs "accounts") is_acct abytes al -> Forall2 (answer as_float (bs "transactions") is_tx) pages pls -> al ++ acs <> [] \/ pages = [] ->
  exists s tok' ts' acs', sync_file short file abytes pages = Ok s /\ state_file as_float s tok' ts' acs' /\ same tok tok' /\ newest ts (concat pls) ts' /\ newest acs al acs'.
Proof.
  intros Hs Ht Ha Hp Hn. destruct (load_ok file tok ts acs Hs) as (d & E & H). destruct (sync_run short file d tok ts acs abytes al pages pls E H Ht Ha Hp Hn) as (d' & ts1 & acs1 & E' & H' & N1 & N2).
  destruct (save_held short d' tok ts1 acs1 H') as (s & ts' & acs' & Es & _ & F & T1 & T2). exists s, (d_token d'), ts', acs'. split; [congruence|]. split; [exact F|]. split; [apply H'|]. split; [apply (table_trans _ _ _ N1 T1)|apply (table_trans _ _ _ N2 T2)].
Qed.
Lemma token_good tok : is_token tok -> good (S deep2) tok /\ tok <> JNull /\ (forall f, renumber f tok = tok) /\ all_numbers is_short tok.
Proof.
  intros (m & -> & N & F).
  assert (G : forall v, (exists s, v = JStr s /\ is_utf8 s) -> good deep2 v /\ (forall f, renumber f v = v) /\ all_numbers is_short v) by (intros v (s & -> & Hs); split; [|split; [reflexivity|constructor]]; split; [constructor; exact Hs|]; split; [constructor|]; split; [constructor|cbn [nesting]; lia]).
  split; [apply good_obj; split; [exact N|]; apply Forall_impl with (2 := F); intros kv [H1 H2]; split; [exact H1|apply G, H2]|]. split; [discriminate|]. split.
  - intros f. cbn [renumber]. f_equal. rewrite <- (map_id m) at 2. apply map_ext_in. intros [k v] Hk. rewrite Forall_forall in F. destruct (F _ Hk) as [_ H]. cbn [fst snd] in *. f_equal. apply G, H.
  - constructor. apply Forall_impl with (2 := F). intros kv [_ H]. apply G, H.
Qed.
Lemma token_run short file d tok0 ts acs tok : load_data file = Ok d -> held d tok0 ts acs -> is_token tok -> exists d', token_file short file tok = save_data short d' /\ held d' tok ts acs /\ d_token d' = tok.
Proof.
  intros E (_ & _ & H1 & H2) Ht. exists (mkData tok (d_trans d) (d_accts d)). unfold token_file. rewrite E. split; [reflexivity|]. split; [|reflexivity]. split; [apply same_refl, (token_good _ Ht)|]. split; [apply (token_good _ Ht)|]. split; assumption.
Qed.
(** A new token does not change the rest. *)
Theorem C100_token short file tok0 ts acs tok : state as_float file tok0 ts acs -> is_token tok ->
  exists s ts' acs', token_file short file tok = Ok s /\ state_file as_float s tok ts' acs' /\ same_table ts ts' /\ same_table acs acs'.
Proof.
  intros Hs Ht. destruct (load_ok _ _ _ _ Hs) as (d & E & H). destruct (token_run short file d tok0 ts acs tok E H Ht) as (d' & E' & H' & Et). destruct (save_held short d' tok ts acs H') as (s & ts' & acs' & Es & _ & F & T1 & T2). rewrite Et in F. exists s, ts', acs'. split; [congruence|]. auto.
Qed.

(** ** Any number of runs. [history num es tok ts acs]: after the runs [es], the token is [tok], and [ts] and [acs] are the transactions and accounts that were sent, in order. *)
Inductive history (num : Qc -> Qc -> Prop) : list event -> json -> list (str * json) -> list (str * json) -> Prop :=
| h_start : history num [] JNull [] []
| h_token es tok0 ts acs tok : history num es tok0 ts acs -> is_token tok -> history num (es ++ [Token tok]) tok ts acs
| h_sync es tok ts acs abytes al pages pls : history num es tok ts acs -> tok <> JNull -> answer num (bs "accounts") is_acct abytes al -> Forall2 (answer num (bs "transactions") is_tx) pages pls -> al ++ acs <> [] \/ pages = [] ->
    history num (es ++ [Sync abytes pages]) tok (ts ++ concat pls) (acs ++ al).
Lemma steps_app short a : forall file b, steps short file (a ++ b) = (do f <- steps short file a; steps short f b).
Proof. induction a as [|e a IH]; intros file b; [reflexivity|]. cbn [steps app]. destruct (step short file e); cbn [obind]; auto. Qed.
Lemma newest_empty old sent m : newest old sent m -> sent ++ old <> [] -> m <> [].
Proof.
  intros [_ N] H ->. assert (exists kv, In kv (rev sent ++ old)) as [[k v] Hk].
  { destruct sent as [|kv sent]; [destruct old as [|kv old]; [contradiction|exists kv; left; reflexivity]|]. exists kv. apply in_or_app. left. apply -> in_rev. left. reflexivity. }
  specialize (N k). cbn [aget] in N. destruct (aget str_eqb k (rev sent ++ old)) eqn:E; [contradiction|]. apply (aget_None str_eqb str_eqb_eq) in E. apply E. unfold akeys. apply in_map_iff. exists (k, v). auto.
Qed.
Lemma held_same d tok tok' ts acs : same tok tok' -> held d tok' ts acs -> held d tok ts acs.
Proof. intros S (H1 & H). split; [apply (same_trans _ _ _ S H1)|exact H]. Qed.
Lemma history_held short es tok ts acs : history as_float es tok ts acs ->
  exists file d ts' acs', steps short None es = Ok file /\ load_data file = Ok d /\ held d tok ts' acs' /\ newest [] ts ts' /\ newest [] acs acs' /\
    (es <> [] -> exists s tok2, file = Some s /\ written_obj s /\ state_file as_float s tok2 ts' acs' /\ same tok tok2).
Proof.
  induction 1 as [|es tok0 ts acs tok H IH Ht|es tok ts acs abytes al pages pls H IH Ht Ha Hp Hn].
  - exists None, no_data, [], []. split; [reflexivity|]. split; [reflexivity|]. split; [split; [constructor|]; split; [apply good_null|]; split; reflexivity|]. split; [exact table_nil|]. split; [exact table_nil|]. intros N. contradiction.
  - destruct IH as (file & d & ts1 & acs1 & E & El & Hd & N1 & N2 & _). destruct (token_run short file d tok0 ts1 acs1 tok El Hd Ht) as (d' & E' & H' & Et). destruct (save_held short d' tok ts1 acs1 H') as (s & ts' & acs' & Es & W & F & T1 & T2).
    pose proof (proj1 H') as St. destruct (load_ok (Some s) _ ts' acs' F) as (d2 & El2 & Hd2). exists (Some s), d2, ts', acs'. split; [rewrite steps_app, E; cbn [obind steps step]; rewrite E', Es; reflexivity|]. split; [exact El2|]. split; [apply (held_same _ _ _ _ _ St Hd2)|].
    split; [apply (table_trans _ _ _ N1 T1)|]. split; [apply (table_trans _ _ _ N2 T2)|]. intros _. exists s, (d_token d'). auto.
  - destruct IH as (file & d & ts1 & acs1 & E & El & Hd & N1 & N2 & _). assert (Hn1 : al ++ acs1 <> [] \/ pages = []).
    { destruct Hn as [Hn|Hn]; [left|right; exact Hn]. destruct al; [|discriminate]. apply (newest_empty _ _ _ N2). rewrite app_nil_r. exact Hn. }
    destruct (sync_run short file d tok ts1 acs1 abytes al pages pls El Hd Ht Ha Hp Hn1) as (d' & ts2 & acs2 & E' & H' & M1 & M2). destruct (save_held short d' tok ts2 acs2 H') as (s & ts' & acs' & Es & W & F & T1 & T2).
    pose proof (proj1 H') as St. destruct (load_ok (Some s) _ ts' acs' F) as (d3 & El2 & Hd2). exists (Some s), d3, ts', acs'. split; [rewrite steps_app, E; cbn [obind steps step]; rewrite E', Es; reflexivity|]. split; [exact El2|]. split; [apply (held_same _ _ _ _ _ St Hd2)|].
    split; [apply (table_trans _ _ _ (newest_app _ _ _ _ _ N1 M1) T1)|]. split; [apply (table_trans _ _ _ (newest_app _ _ _ _ _ N2 M2) T2)|]. intros _. exists s, (d_token d'). auto.
Qed.
(** After any runs the file holds the newest version of everything that was ever sent, and the newest token. *)
Theorem C100_history short es tok ts acs : history as_float es tok ts acs -> es <> [] ->
  exists s tok' ts' acs', steps short None es = Ok (Some s) /\ state_file as_float s tok' ts' acs' /\ same tok tok' /\ newest [] ts ts' /\ newest [] acs acs'.
Proof.
  intros H Ne. destruct (history_held short _ _ _ _ H) as (file & d & ts' & acs' & E & _ & _ & N1 & N2 & G). destruct (G Ne) as (s & tok2 & -> & _ & F & S). exists s, tok2, ts', acs'. auto.
Qed.
(** What a crash can leave of a file when it is written is not taken for a state: every shorter beginning is an error for the next run. *)
Theorem C100_cut short es tok ts acs s p q : history as_float es tok ts acs -> steps short None es = Ok (Some s) -> s = p ++ q -> q <> [] ->
  load_data (Some p) = Error /\ forall abytes pages tok', sync_file short (Some p) abytes pages = Error /\ token_file short (Some p) tok' = Error.
Proof.
  intros H E Ep Hq. assert (L : load_data (Some p) = Error).
  { destruct es as [|e es]; [discriminate|]. destruct (history_held short _ _ _ _ H) as (file & d & ts' & acs' & E1 & _ & _ & _ & _ & G). destruct G as (s' & tok2 & -> & (t & m & Wt & Wv) & _); [discriminate|]. rewrite E in E1. injection E1 as <-. cbn [load_data].
    replace (unmarshal_json p) with (@Error json); [reflexivity|]. symmetry. apply (proj2 (proj2 (C99_whole_text p))). intros [v (w & x & w' & Ed & Hw & Hv & _)]. apply (cut_object _ _ _ _ _ _ Wt Wv Ep Hq _ _ _ _ _ Ed Hw Hv). }
  split; [exact L|]. intros abytes pages tok'. unfold sync_file, token_file. rewrite L. split; reflexivity.
Qed.
(** An answer that does not begin with a JSON value ends the run with an error, and nothing is written. *)
Theorem C100_bad_answer short file abytes pages p : (forall w t r v, decode p = w ++ t ++ r -> ws w -> ~ value as_float deep t v) -> abytes = p \/ In p pages -> forall s, sync_file short file abytes pages <> Ok s.
Proof.
  intros Hv Hp s. assert (D : decode_json p = Error).
  { destruct (proj1 (C99_total p)) as [E|[v E]]; [exact E|]. apply C99_first_value in E as (w & t & r & E & Hw & V). rewrite <- deep_levels in V. destruct (Hv w t r v E Hw V). }
  unfold sync_file. destruct (load_data file) as [d| | |]; try discriminate. cbn [obind]. assert (N : forall d', sync d abytes pages <> Ok d').
  { intros d'. unfold sync. destruct Hp as [->|Hp]; [unfold fetch_list; rewrite D; discriminate|]. destruct (fetch_list (bs "Accounts") acct_of abytes); try discriminate. cbn [obind]. destruct (store a_id _ a) as [m| | |]; try discriminate. cbn [obind].
    assert (St : forall ps t r, In p ps -> store_pages t ps <> Ok r).
    { induction ps as [|x ps IH]; intros t r Hx; [destruct Hx|]. cbn [store_pages]. destruct Hx as [->|Hx]; [unfold fetch_list; rewrite D; discriminate|]. destruct (fetch_list (bs "transactions") tx_of x); try discriminate. cbn [obind]. destruct (store t_id t a0); try discriminate. cbn [obind]. apply IH, Hx. }
    destruct m as [|kv m]; [destruct pages; [destruct Hp|discriminate]|]. destruct (existsb _ (kv :: m)); [discriminate|]. destruct (store_pages _ pages) as [r| | |] eqn:E; try discriminate. exfalso. apply (St _ _ _ Hp E). }
  destruct (d_token d); try discriminate; (destruct (sync d abytes pages) as [d'| | |] eqn:E; try discriminate; destruct (N d' eq_refl)).
Qed.
(** In particular an answer that was cut off on the way. *)
Theorem C100_cut_answer short file abytes pages s t m p q : is_text s t -> value as_float deep t (JObj m) -> s = p ++ q -> q <> [] -> abytes = p \/ In p pages -> forall s, sync_file short file abytes pages <> Ok s.
Proof. intros Ht V E Hq. apply C100_bad_answer. intros w x r v Ed Hw. apply (cut_object _ _ _ _ _ _ Ht V E Hq _ _ _ _ _ Ed Hw). Qed.
Print Assumptions C100_sync.
Print Assumptions C100_token.
Print Assumptions C100_history.
Print Assumptions C100_cut.
Print Assumptions C100_bad_answer.
Print Assumptions C100_cut_answer.

(** ** Numbers (C101) *)
Lemma file_short file tok ts acs : state exact15 file tok ts acs -> all_numbers is_short tok /\ shorts ts /\ shorts acs.
Proof.
  destruct file as [bytes|]; cbn [state]; [|intros (-> & -> & ->); repeat constructor]. intros (_ & jt & ja & T & Tt & Ta). apply text_short in T. inversion T as [| | | | |? F]; subst. inversion F as [|? ? F1 F']; subst. inversion F' as [|? ? F2 F'']; subst. inversion F'' as [|? ? F3 _]; subst. cbn [snd] in *.
  assert (Tb : forall (P : json -> str -> Prop) j m, table P j m -> all_numbers is_short j -> shorts m) by (intros P j m [[[-> ->]| ->] _] N; [constructor|inversion N; assumption]).
  split; [exact F1|]. split; [apply (Tb _ _ _ Tt F2)|apply (Tb _ _ _ Ta F3)].
Qed.
Lemma answer_short name (P : json -> str -> Prop) bytes l : answer exact15 name P bytes l -> shorts l.
Proof. intros (_ & T & _). apply text_short in T. inversion T as [| | | | |? F]; subst. inversion F as [|? ? F1 _]; subst. cbn [snd] in F1. inversion F1 as [| | | |? F2|]; subst. apply Forall_forall. intros x Hx. rewrite Forall_forall in F2. apply F2, in_map, Hx. Qed.
Lemma shorts_newest old sent : shorts old -> shorts sent -> shorts (rev sent ++ old).
Proof. intros H1 H2. apply Forall_app. split; [apply Forall_rev; exact H2|exact H1]. Qed.
(** The file holds the numbers the server sent exactly, as long as all have at most 15 digits. *)
Theorem C101_sync_partial short file tok ts acs abytes al pages pls : state exact15 file tok ts acs -> tok <> JNull -> answer exact15 (bs "accounts") is_acct abytes al -> Forall2 (answer exact15 (bs "transactions") is_tx) pages pls -> al ++ acs <> [] \/ pages = [] ->
  exists s tok' ts' acs', sync_file short file abytes pages = Ok s /\ state_file exact15 s tok' ts' acs' /\ same tok tok' /\ newest ts (concat pls) ts' /\ newest acs al acs'.
Proof.
  intros Hs Ht Ha Hp Hn. destruct (file_short _ _ _ _ Hs) as (X1 & X2 & X3). destruct (load_ok file _ _ _ (state_rn _ _ _ _ Hs)) as (d & E & H).
  assert (Hp' : Forall2 (answer as_float (bs "transactions") is_tx) pages (map (on rn) pls)) by (clear - Hp; induction Hp as [|p l ps ls Hp _ IH]; [constructor|]; cbn [map]; constructor; [apply answer_rn; [intros; apply is_tx_re; assumption|exact Hp]|exact IH]).
  assert (X4 : shorts (concat pls)) by (clear - Hp; induction Hp as [|p l ps ls Hp _ IH]; [constructor|]; cbn [concat]; apply Forall_app; split; [apply (answer_short _ _ _ _ Hp)|exact IH]).
  assert (Ht' : rn tok <> JNull) by (destruct tok; try discriminate; contradiction).
  assert (Hn' : on rn al ++ on rn acs <> [] \/ pages = []) by (destruct Hn as [Hn|Hn]; [left|right; exact Hn]; rewrite <- on_app; destruct (al ++ acs); [contradiction|discriminate]).
  destruct (sync_run short file d (rn tok) (on rn ts) (on rn acs) abytes (on rn al) pages (map (on rn) pls) E H Ht' (answer_rn _ _ _ _ (fun v i K => is_acct_re _ v i K) Ha) Hp' Hn') as (d' & ts1 & acs1 & E' & H' & N1 & N2).
  unfold newest in N1, N2. rewrite <- on_concat, <- on_rev, <- on_app in N1. rewrite <- on_rev, <- on_app in N2.
  assert (H2 : held d' (rn tok) (on rn (rev (concat pls) ++ ts)) (on rn (rev al ++ acs))).
  { destruct H' as (K1 & K2 & K3 & K4). split; [exact K1|]. split; [exact K2|]. split.
    - destruct (d_trans d'); cbn [holds] in *; [split; [apply K3|apply (table_trans _ _ _ N1), K3]|]. subst ts1. destruct (rev (concat pls) ++ ts) as [|[k v] r]; [reflexivity|]. destruct N1 as [_ N1]. specialize (N1 k). cbn [on map aget fst snd] in N1. rewrite (proj2 (str_eqb_eq k k) eq_refl) in N1. contradiction.
    - destruct (d_accts d'); cbn [holds] in *; [split; [apply K4|apply (table_trans _ _ _ N2), K4]|]. subst acs1. destruct (rev al ++ acs) as [|[k v] r]; [reflexivity|]. destruct N2 as [_ N2]. specialize (N2 k). cbn [on map aget fst snd] in N2. rewrite (proj2 (str_eqb_eq k k) eq_refl) in N2. contradiction. }
  destruct (save_exact short d' tok _ _ H2 X1 (shorts_newest _ _ X2 X4) (shorts_newest _ _ X3 (answer_short _ _ _ _ Ha))) as (s & ts' & acs' & Es & F & S & T1 & T2).
  exists s, (renumber written (d_token d')), ts', acs'. split; [congruence|]. auto.
Qed.
Print Assumptions C101_sync_partial.
Lemma token_exact short file tok0 ts acs tok : state exact15 file tok0 ts acs -> is_token tok ->
  exists s tok' ts' acs', token_file short file tok = Ok s /\ state_file exact15 s tok' ts' acs' /\ same tok tok' /\ same_table ts ts' /\ same_table acs acs'.
Proof.
  intros Hs Ht. destruct (file_short _ _ _ _ Hs) as (X1 & X2 & X3). destruct (load_ok file _ _ _ (state_rn _ _ _ _ Hs)) as (d & E & H). destruct (token_run short file d _ _ _ tok E H Ht) as (d' & E' & H' & Et). destruct (token_good _ Ht) as (_ & _ & R & N).
  rewrite <- (R to_f64) in H'. destruct (save_exact short d' tok ts acs H' N X2 X3) as (s & ts' & acs' & Es & F & S & T1 & T2). exists s, (renumber written (d_token d')), ts', acs'. split; [congruence|]. auto.
Qed.
(** The same for any number of runs. *)
Theorem C101_history_partial short es tok ts acs : history exact15 es tok ts acs -> es <> [] ->
  exists s tok' ts' acs', steps short None es = Ok (Some s) /\ state_file exact15 s tok' ts' acs' /\ same tok tok' /\ newest [] ts ts' /\ newest [] acs acs'.
Proof.
  intros H Ne. assert (G : exists file tok' ts' acs', steps short None es = Ok file /\ state exact15 file tok' ts' acs' /\ same tok tok' /\ newest [] ts ts' /\ newest [] acs acs' /\ (es <> [] -> exists s, file = Some s)).
  2: { destruct G as (file & tok' & ts' & acs' & E & F & S & N1 & N2 & Gn). destruct (Gn Ne) as [s ->]. exists s, tok', ts', acs'. auto. }
  clear Ne. induction H as [|es tok0 ts acs tok H IH Ht|es tok ts acs abytes al pages pls H IH Ht Ha Hp Hn].
  - exists None, JNull, [], []. split; [reflexivity|]. split; [repeat split; reflexivity|]. split; [constructor|]. split; [exact table_nil|]. split; [exact table_nil|]. intros N. contradiction.
  - destruct IH as (file & tok1 & ts1 & acs1 & E & F & S & N1 & N2 & _). destruct (token_exact short file tok1 ts1 acs1 tok F Ht) as (s & tok' & ts' & acs' & E' & F' & S' & T1 & T2). exists (Some s), tok', ts', acs'.
    split; [rewrite steps_app, E; cbn [obind steps step]; rewrite E'; reflexivity|]. split; [exact F'|]. split; [exact S'|]. split; [apply (table_trans _ _ _ N1 T1)|]. split; [apply (table_trans _ _ _ N2 T2)|]. eauto.
  - destruct IH as (file & tok1 & ts1 & acs1 & E & F & S & N1 & N2 & _). assert (Hn1 : al ++ acs1 <> [] \/ pages = []).
    { destruct Hn as [Hn|Hn]; [left|right; exact Hn]. destruct al; [|discriminate]. apply (newest_empty _ _ _ N2). rewrite app_nil_r. exact Hn. }
    destruct (C101_sync_partial short file tok1 ts1 acs1 abytes al pages pls F (same_not_null _ _ S Ht) Ha Hp Hn1) as (s & tok' & ts' & acs' & E' & F' & S' & T1 & T2). exists (Some s), tok', ts', acs'.
    split; [rewrite steps_app, E; cbn [obind steps step]; rewrite E'; reflexivity|]. split; [exact F'|]. split; [apply (same_trans _ _ _ S S')|]. split; [apply (newest_app _ _ _ _ _ N1 T1)|]. split; [apply (newest_app _ _ _ _ _ N2 T2)|]. eauto.
Qed.
Print Assumptions C101_history_partial.

(** ** Concrete answers *)
Lemma inside_plain t : forallb (fun c => (32 <=? c) && negb (c =? 34) && negb (c =? 92)) t = true -> inside t t.
Proof. induction t as [|c t IH]; [constructor|]. cbn [forallb]. intros H. apply andb_true_iff in H as [Hc Ht]. apply (in_char c t t); [lia|lia|lia|apply IH, Ht]. Qed.
Lemma text_ascii_b s : forallb (fun c => (0 <=? c) && (c <? 128)) s = true -> is_bytes s /\ decode s = s.
Proof.
  intros H. assert (F : Forall (fun c => 0 <= c < 128) s) by (apply Forall_forall; intros c Hc; rewrite forallb_forall in H; specialize (H c Hc); lia).
  split; [apply Forall_impl with (2 := F); intros; lia|apply decode_ascii, F].
Qed.
Section Literals.
  Variable num : Qc -> Qc -> Prop.
  Definition plain (s : str) : bool := forallb (fun c => (32 <=? c) && (c <? 128) && negb (c =? 34) && negb (c =? 92)) s.
  Lemma plain_inside s : plain s = true -> inside s s /\ encode s = s.
  Proof.
    intros H. split.
    - apply inside_plain. apply forallb_forall. intros c Hc. unfold plain in H. rewrite forallb_forall in H. specialize (H c Hc). lia.
    - apply encode_ascii. apply Forall_forall. intros c Hc. unfold plain in H. rewrite forallb_forall in H. specialize (H c Hc). lia.
  Qed.
  Definition q (s : str) : str := [34] ++ s ++ [34].
  Lemma v_plain d s : plain s = true -> value num d (q s) (JStr s).
  Proof. intros H. apply plain_inside in H as [H E]. rewrite <- E at 2. constructor. exact H. Qed.
  Lemma m_one d k t v : plain k = true -> value num d t v -> members num d (q k ++ [58] ++ t) [(k, v)].
  Proof.
    intros H V. apply plain_inside in H as [H E]. pose proof (m_last num d [] k k [] [] t v [] ltac:(constructor) H ltac:(constructor) ltac:(constructor) V ltac:(constructor)) as X. rewrite E in X. rewrite app_nil_r in X. unfold q. rewrite <- !app_assoc. exact X.
  Qed.
  Lemma m_next d k t v ts ms : plain k = true -> value num d t v -> members num d ts ms -> members num d (q k ++ [58] ++ t ++ [44] ++ ts) ((k, v) :: ms).
  Proof.
    intros H V M. apply plain_inside in H as [H E]. pose proof (m_more num d [] k k [] [] t v [] ts ms ltac:(constructor) H ltac:(constructor) ltac:(constructor) V ltac:(constructor) M) as X. rewrite E in X. unfold q. rewrite <- !app_assoc. exact X.
  Qed.
  Lemma e_one d t v : value num d t v -> elems num d t [v].
  Proof. intros V. pose proof (e_last num d [] t [] v ltac:(constructor) V ltac:(constructor)) as X. rewrite app_nil_r in X. exact X. Qed.
  Lemma v_object d t m : members num d t m -> NoDup (map fst m) -> value num (S d) ([123] ++ t ++ [125]) (JObj m).
  Proof. intros M N. apply v_obj with m; [exact M|]. split; [exact N|]. intros k. apply aget_perm; [apply Permutation_rev|exact N]. Qed.
End Literals.
Lemma number_int i : hd 0 i <> 48 -> i <> [] -> digits i -> number i (qz (digval i)).
Proof.
  intros H1 H2 H3. pose proof (a_number [] i [] [] [] 0 (digval i) (qz (digval i))) as X. rewrite !app_nil_r in X. apply X; [right; auto|constructor|constructor|apply dv|left; split; [reflexivity|]]. change (ten (0 - Z.of_nat (length (@nil Z)))) with 1%Qc. ring.
Qed.
Definition ex_token : json := JObj [(bs "access_token", JStr (bs "secret"))].
Definition ex_accts : str := [123] ++ (q (bs "accounts") ++ [58] ++ ([91] ++ ([123] ++ (q (bs "id") ++ [58] ++ q (bs "acc_1")) ++ [125]) ++ [93])) ++ [125].
Definition ex_acct : json := JObj [(bs "id", JStr (bs "acc_1"))].
Definition ex_page (amt : str) : str :=
  [123] ++ (q (bs "transactions") ++ [58] ++ ([91] ++ ([123] ++ (q (bs "id") ++ [58] ++ q (bs "tx_1") ++ [44] ++ (q (bs "created") ++ [58] ++ q (bs "2021-01-01T00:00:00Z") ++ [44] ++ (q (bs "amount") ++ [58] ++ amt))) ++ [125]) ++ [93])) ++ [125].
Definition ex_tx (v : Qc) : json := JObj [(bs "id", JStr (bs "tx_1")); (bs "created", JStr (bs "2021-01-01T00:00:00Z")); (bs "amount", JNum v)].
Lemma nodup_b (l : list str) : (fix go (l : list str) := match l with [] => true | x :: r => negb (existsb (str_eqb x) r) && go r end) l = true -> NoDup l.
Proof.
  induction l as [|x l IH]; [constructor|]. intros H. apply andb_true_iff in H as [H1 H2]. constructor; [|apply IH, H2]. intros Hx. apply negb_true_iff in H1. rewrite <- not_true_iff_false in H1. apply H1. apply existsb_exists. exists x. split; [exact Hx|apply str_eqb_eq; reflexivity].
Qed.
Lemma ex_is_token : is_token ex_token.
Proof. exists [(bs "access_token", JStr (bs "secret"))]. split; [reflexivity|]. split; [apply nodup_b; reflexivity|]. constructor; [|constructor]. split; [exists (bs "access_token")|exists (bs "secret"); split; [reflexivity|exists (bs "secret")]]; apply text_ascii; repeat constructor; lia. Qed.
Lemma ex_text (num : Qc -> Qc -> Prop) d s v : forallb (fun c => (0 <=? c) && (c <? 128)) s = true -> value num d s v -> (d <= deep)%nat -> is_bytes s /\ json_text_of num deep (decode s) v.
Proof. intros H V D. apply text_ascii_b in H as [H1 H2]. split; [exact H1|]. rewrite H2. exists [], s, []. rewrite app_nil_r. repeat split; try constructor. apply (proj1 (value_mono num) d); assumption. Qed.
Lemma ex_deep d : (d <= 10)%nat -> (d <= deep)%nat.
Proof. intros H. rewrite deep_levels. unfold levels. apply Nat.le_trans with (1 := H). apply Nat2Z.inj_le. rewrite Z2Nat.id by lia. lia. Qed.
Lemma ex_accts_answer num : answer num (bs "accounts") is_acct ex_accts [(bs "acc_1", ex_acct)].
Proof.
  assert (V : value num 3 ex_accts (JObj [(bs "accounts", JArr [ex_acct])])).
  { unfold ex_accts. apply v_object; [|apply nodup_b; reflexivity]. apply m_one; [reflexivity|]. apply v_arr, e_one, v_object; [|apply nodup_b; reflexivity]. apply m_one; [reflexivity|]. apply v_plain. reflexivity. }
  destruct (ex_text num 3 ex_accts _ eq_refl V) as [H1 H2]; [apply ex_deep; lia|]. split; [exact H1|]. split; [exact H2|]. constructor; [|constructor]. eexists. split; [reflexivity|]. left. reflexivity.
Qed.
Lemma ex_page_answer (num : Qc -> Qc -> Prop) amt v : forallb (fun c => (0 <=? c) && (c <? 128)) (ex_page amt) = true -> value num 0 amt (JNum v) -> answer num (bs "transactions") is_tx (ex_page amt) [(bs "tx_1", ex_tx v)].
Proof.
  intros Ha Hv. assert (V : value num 3 (ex_page amt) (JObj [(bs "transactions", JArr [ex_tx v])])).
  { unfold ex_page. apply v_object; [|apply nodup_b; reflexivity]. apply m_one; [reflexivity|]. apply v_arr, e_one, v_object; [|apply nodup_b; reflexivity]. apply m_next; [reflexivity|apply v_plain; reflexivity|]. apply m_next; [reflexivity|apply v_plain; reflexivity|]. apply m_one; [reflexivity|exact Hv]. }
  destruct (ex_text num 3 _ _ Ha V) as [H1 H2]; [apply ex_deep; lia|]. split; [exact H1|]. split; [exact H2|]. constructor; [|constructor]. eexists _, _. split; [reflexivity|]. split; [left; reflexivity|right; left; reflexivity].
Qed.
Lemma ex_number s : match s with c :: _ => negb (c =? 48) | [] => false end = true -> forallb (fun c => (48 <=? c) && (c <=? 57)) s = true -> number s (qz (digval s)).
Proof.
  intros H1 H2. apply number_int; [destruct s; [discriminate|cbn [hd]; lia]|destruct s; discriminate|]. apply Forall_forall. intros c Hc. rewrite forallb_forall in H2. specialize (H2 c Hc). lia.
Qed.
Lemma ex_history (num : Qc -> Qc -> Prop) amt v : forallb (fun c => (0 <=? c) && (c <? 128)) (ex_page amt) = true -> value num 0 amt (JNum v) ->
  history num [Token ex_token; Sync ex_accts [ex_page amt]] ex_token [(bs "tx_1", ex_tx v)] [(bs "acc_1", ex_acct)].
Proof.
  intros Ha Hv. apply (h_sync num [Token ex_token] ex_token [] [] ex_accts [(bs "acc_1", ex_acct)] [ex_page amt] [[(bs "tx_1", ex_tx v)]]).
  - apply (h_token num [] JNull [] [] ex_token); [constructor|apply ex_is_token].
  - discriminate.
  - apply ex_accts_answer.
  - constructor; [apply ex_page_answer; assumption|constructor].
  - left. discriminate.
Qed.
(** Two different amounts give the same file: it cannot hold what was sent. *)
Theorem C101_refuted : exists e1 e2 tok l1 l2 al s, history exactly e1 tok l1 al /\ history exactly e2 tok l2 al /\ ~ newest [] l1 l2 /\ steps false None e1 = Ok (Some s) /\ steps false None e2 = Ok (Some s).
Proof.
  exists [Token ex_token; Sync ex_accts [ex_page (bs "9007199254740993")]], [Token ex_token; Sync ex_accts [ex_page (bs "9007199254740992")]], ex_token,
    [(bs "tx_1", ex_tx (qz (digval (bs "9007199254740993"))))], [(bs "tx_1", ex_tx (qz (digval (bs "9007199254740992"))))], [(bs "acc_1", ex_acct)]. eexists.
  split; [apply ex_history; [reflexivity|]; apply v_num with (qz (digval (bs "9007199254740993"))); [apply ex_number; reflexivity|reflexivity]|].
  split; [apply ex_history; [reflexivity|]; apply v_num with (qz (digval (bs "9007199254740992"))); [apply ex_number; reflexivity|reflexivity]|].
  split; [|split; vm_compute; reflexivity].
  intros [_ H]. specialize (H (bs "tx_1")). cbn [rev app aget] in H. change (str_eqb (bs "tx_1") (bs "tx_1")) with true in H. cbn iota in H. destruct (in_same _ _ (bs "amount") (JNum (qz (digval (bs "9007199254740993")))) H) as (v & Hv & S); [right; right; left; reflexivity|].
  inversion S; subst. destruct Hv as [Hv|[Hv|[Hv|[]]]]; discriminate.
Qed.
Print Assumptions C101_refuted.
(** The hypotheses of the theorems are met. *)
Example C100_nonvacuous : history exact15 [Token ex_token; Sync ex_accts [ex_page (bs "1250")]] ex_token [(bs "tx_1", ex_tx (qz (digval (bs "1250"))))] [(bs "acc_1", ex_acct)] /\
  history as_float [Token ex_token; Sync ex_accts [ex_page (bs "1250")]] ex_token [(bs "tx_1", ex_tx (qz (digval (bs "1250"))))] [(bs "acc_1", ex_acct)].
Proof.
  split; (apply ex_history; [reflexivity|]; apply v_num with (qz (digval (bs "1250"))); [apply ex_number; reflexivity|]).
  - split; [reflexivity|]. exists 0. split; [lia|]. exists 1250. split; [apply Qc_is_canon; reflexivity|lia].
  - split; [|vm_compute; reflexivity]. pose proof (to_f64_nearest (qz (digval (bs "1250")))) as N. replace (to_f64 (qz (digval (bs "1250")))) with (qz (digval (bs "1250"))) in N by (apply Qc_is_canon; vm_compute; reflexivity). exact N.
Qed.
Definition ok_file (o : outcome (option str)) : str := match o with Ok (Some s) => s | _ => [] end.
Example C100_nonvacuous_file : ok_file (steps false None [Token ex_token; Sync ex_accts [ex_page (bs "1250")]; Sync ex_accts [ex_page (bs "-1e2"); ex_page (bs "-0.10")]]) =
  bs "{" ++ [10] ++ bs "  ""token"": {" ++ [10] ++ bs "    ""access_token"": ""secret""" ++ [10] ++ bs "  }," ++ [10] ++ bs "  ""transactions"": {" ++ [10] ++ bs "    ""tx_1"": {" ++ [10] ++ bs "      ""amount"": -0.1," ++ [10] ++ bs "      ""created"": ""2021-01-01T00:00:00Z""," ++ [10]
  ++ bs "      ""id"": ""tx_1""" ++ [10] ++ bs "    }" ++ [10] ++ bs "  }," ++ [10] ++ bs "  ""accounts"": {" ++ [10] ++ bs "    ""acc_1"": {" ++ [10] ++ bs "      ""id"": ""acc_1""" ++ [10] ++ bs "    }" ++ [10] ++ bs "  }" ++ [10] ++ bs "}".
Proof. vm_compute. reflexivity. Qed.
