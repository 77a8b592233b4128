(** * StateExact: numbers of at most 15 digits stay what they are (C101). *)
From Coq Require Import ZifyBool Lqa.
From Verif Require Import Base Utf8 LoaderModel LoaderSpec ExportSpec ConvertModel ConvertSpec ConvertProps F64Model F64Spec F64Proofs JsonModel JsonSpec JsonNum JsonWrite JsonWrite2 JsonProps JsonRead JsonRead2 JsonReadProps StateModel StateSpec StateProofs StateProofs2 StateProofs3.

Notation rn := (renumber to_f64).
Notation wr := (renumber written).
Definition on (f : json -> json) (m : list (str * json)) : list (str * json) := map (fun kv => (fst kv, f (snd kv))) m.
Lemma on_keys f m : map fst (on f m) = map fst m. Proof. unfold on. rewrite map_map. reflexivity. Qed.
Lemma on_aget f m k : aget str_eqb k (on f m) = option_map f (aget str_eqb k m).
Proof. induction m as [|[k' v] m IH]; [reflexivity|]. cbn [on map aget fst snd]. destruct (str_eqb k' k); [reflexivity|exact IH]. Qed.
Lemma on_app f a b : on f (a ++ b) = on f a ++ on f b. Proof. apply map_app. Qed.
Lemma on_rev f a : on f (rev a) = rev (on f a). Proof. apply map_rev. Qed.
Lemma on_concat f ls : on f (concat ls) = concat (map (on f) ls). Proof. apply concat_map. Qed.
Lemma last_wins_on f ms m : last_wins ms m -> last_wins (on f ms) (on f m).
Proof. intros [N A]. split; [rewrite on_keys; exact N|]. intros k. rewrite <- on_rev, !on_aget, A. reflexivity. Qed.
Lemma short_as q : (exists k, short_amount k q) -> as_float q (to_f64 q).
Proof. intros [k Hk]. split; [apply to_f64_nearest|apply (short_finite k), Hk]. Qed.
(** The text as read by the program. *)
Lemma value_rn :
  (forall d t v, value exact15 d t v -> value as_float d t (rn v)) /\ (forall d t vs, elems exact15 d t vs -> elems as_float d t (map rn vs)) /\ (forall d t ms, members exact15 d t ms -> members as_float d t (on rn ms)).
Proof.
  apply (grammar_mut exact15 (fun d t v => value as_float d t (rn v)) (fun d t vs => elems as_float d t (map rn vs)) (fun d t ms => members as_float d t (on rn ms))); intros; cbn [renumber map]; try (constructor; assumption).
  - apply v_num with q; [assumption|]. match goal with X : exact15 _ _ |- _ => destruct X as [-> X]; apply short_as, X end.
  - apply v_obj with (on rn ms); [assumption|]. apply last_wins_on. assumption.
Qed.
Lemma text_rn d t v : json_text_of exact15 d t v -> json_text_of as_float d t (rn v).
Proof. intros (w & t' & w' & E & Hw & V & Hw'). exists w, t', w'. repeat split; try assumption. apply value_rn. exact V. Qed.
Lemma is_tx_re f v id : is_tx v id -> is_tx (renumber f v) id.
Proof. intros (m & c & -> & H1 & H2). exists (on (renumber f) m), c. split; [reflexivity|]. split; [apply (in_map (fun kv => (fst kv, renumber f (snd kv))) _ _ H1)|apply (in_map (fun kv => (fst kv, renumber f (snd kv))) _ _ H2)]. Qed.
Lemma is_acct_re f v id : is_acct v id -> is_acct (renumber f v) id.
Proof. intros (m & -> & H1). exists (on (renumber f) m). split; [reflexivity|]. apply (in_map (fun kv => (fst kv, renumber f (snd kv))) _ _ H1). Qed.
Lemma table_re (P : json -> str -> Prop) f : (forall v i, P v i -> P (renumber f v) i) -> forall j m, table P j m -> table P (renumber f j) (on (renumber f) m).
Proof.
  intros HP j m [[[-> ->]| ->] F]; (split; [auto|]); [constructor|]. apply Forall_forall. intros x Hx. apply in_map_iff in Hx as (y & <- & Hy). rewrite Forall_forall in F. apply HP, (F _ Hy).
Qed.
Lemma state_rn file tok ts acs : state exact15 file tok ts acs -> state as_float file (rn tok) (on rn ts) (on rn acs).
Proof.
  destruct file as [bytes|]; cbn [state]; [|intros (-> & -> & ->); repeat split; reflexivity]. intros (Hb & jt & ja & T & T1 & T2). split; [exact Hb|]. exists (rn jt), (rn ja). split; [apply text_rn in T; exact T|]. split; apply table_re; try assumption; intros; [apply is_tx_re|apply is_acct_re]; assumption.
Qed.
Lemma answer_rn name (P : json -> str -> Prop) bytes l : (forall v i, P v i -> P (rn v) i) -> answer exact15 name P bytes l -> answer as_float name P bytes (on rn l).
Proof.
  intros HP (Hb & T & F). split; [exact Hb|]. split.
  - apply text_rn in T. cbn [renumber map fst snd] in T. unfold on. rewrite map_map. rewrite map_map in T. exact T.
  - apply Forall_forall. intros x Hx. apply in_map_iff in Hx as (y & <- & Hy). rewrite Forall_forall in F. apply HP, (F _ Hy).
Qed.
(** ** Back *)
Definition is_short (q : Qc) : Prop := exists k, short_amount k q.
Definition kept (q : Qc) : Prop := exists q0, is_short q0 /\ q = to_f64 q0.
Lemma same_numbers P a : forall b, same a b -> all_numbers P a -> all_numbers P b.
Proof.
  induction a as [|x|q|s|l IH|m IH] using json_ind'; intros b H N; inversion H as [| | | |? l' F|? m' N1 N2 K V]; subst; try exact N; try constructor.
  - inversion N as [| | | |? Nl|]; subst. clear H N. revert l' F Nl. induction IH as [|x l Hx _ IHl]; intros l' F Nl; inversion F; subst; inversion Nl; subst; constructor; auto.
  - inversion N as [| | | | |? Nl]; subst. apply Forall_forall. intros [k v'] Hk. destruct (in_same _ _ _ _ (same_sym _ _ H) Hk) as (v & Hv & _). rewrite Forall_forall in IH, Nl. apply (IH _ Hv v'); [apply (V k); assumption|apply (Nl _ Hv)].
Qed.
Lemma rn_kept v : all_numbers is_short v -> all_numbers kept (rn v).
Proof.
  induction v as [|x|q|s|l IH|m IH] using json_ind'; intros H; inversion H; subst; cbn [renumber]; constructor.
  - exists q. auto.
  - apply Forall_forall. intros x Hx. apply in_map_iff in Hx as (y & <- & Hy). rewrite Forall_forall in *. auto.
  - apply Forall_forall. intros x Hx. apply in_map_iff in Hx as (y & <- & Hy). rewrite Forall_forall in *. cbn [snd]. auto.
Qed.
Lemma wr_rn v : all_numbers is_short v -> wr (rn v) = v.
Proof.
  induction v as [|x|q|s|l IH|m IH] using json_ind'; intros H; inversion H as [| |? [k Hk]| |? Hl|? Hl]; subst; cbn [renumber]; try reflexivity; f_equal.
  - apply (short_written k), Hk.
  - rewrite map_map. rewrite <- (map_id l) at 2. apply map_ext_in. intros x Hx. rewrite Forall_forall in *. auto.
  - rewrite map_map. rewrite <- (map_id m) at 2. apply map_ext_in. intros [k x] Hx. cbn [fst snd]. rewrite Forall_forall in *. f_equal. apply (IH (k, x) Hx). apply (Hl _ Hx).
Qed.
Lemma same_re f a : forall b, same a b -> same (renumber f a) (renumber f b).
Proof.
  induction a as [|x|q|s|l IH|m IH] using json_ind'; intros b H; inversion H as [| | | |? l' F|? m' N1 N2 K V]; subst; cbn [renumber]; try constructor.
  - clear H. revert l' F. induction IH as [|x l Hx _ IHl]; intros l' F; inversion F; subst; cbn [map]; constructor; auto.
  - change (NoDup (map fst (on (renumber f) m))). rewrite on_keys. exact N1.
  - change (NoDup (map fst (on (renumber f) m'))). rewrite on_keys. exact N2.
  - intros k. change (In k (map fst (on (renumber f) m)) <-> In k (map fst (on (renumber f) m'))). rewrite !on_keys. apply K.
  - intros k v v' H1 H2. apply in_map_iff in H1 as ([k1 v1] & E1 & H1). apply in_map_iff in H2 as ([k2 v2] & E2 & H2). injection E1 as -> <-. injection E2 as -> <-. rewrite Forall_forall in IH. apply (IH _ H1). apply (V k); assumption.
Qed.
Lemma same_back x y : all_numbers is_short x -> same (rn x) y -> same x (wr y).
Proof. intros H S. apply (same_re written) in S. rewrite wr_rn in S by exact H. exact S. Qed.
Definition shorts (m : list (str * json)) : Prop := Forall (fun kv => all_numbers is_short (snd kv)) m.
Lemma table_back l m : shorts l -> same_table (on rn l) m -> same_table l (on wr m) /\ Forall (fun kv => all_numbers kept (snd kv)) m.
Proof.
  intros F [N T]. split.
  - split; [rewrite on_keys; exact N|]. intros k. specialize (T k). rewrite on_aget in T. rewrite on_aget. destruct (aget str_eqb k l) as [v|] eqn:E; cbn [option_map] in *; destruct (aget str_eqb k m); cbn [option_map] in *; try contradiction; [|exact I].
    apply (aget_In str_eqb str_eqb_eq) in E. unfold shorts in F. rewrite Forall_forall in F. apply same_back; [apply (F _ E)|exact T].
  - apply Forall_forall. intros [k v] Hk. specialize (T k). rewrite on_aget in T. rewrite (proj2 (aget_Some_iff str_eqb str_eqb_eq k v m N) Hk) in T. destruct (aget str_eqb k l) as [v0|] eqn:E; cbn [option_map] in T; [|contradiction].
    apply (aget_In str_eqb str_eqb_eq) in E. unfold shorts in F. rewrite Forall_forall in F. cbn [snd]. apply (same_numbers _ (rn v0)); [exact T|]. apply rn_kept, (F _ E).
Qed.
(** Saving what is held, written out exactly. *)
Lemma save_exact short d tok ts acs : held d (rn tok) (on rn ts) (on rn acs) -> all_numbers is_short tok -> shorts ts -> shorts acs ->
  exists s ts' acs', save_data short d = Ok s /\ state_file exact15 s (wr (d_token d)) ts' acs' /\ same tok (wr (d_token d)) /\ same_table ts ts' /\ same_table acs acs'.
Proof.
  intros H N1 N2 N3. destruct (held_json _ _ _ _ H) as (G & t0 & a0 & T1 & T3 & T2 & T4). destruct (table_back _ _ N2 T2) as [B1 K1]. destruct (table_back _ _ N3 T4) as [B2 K2]. destruct H as (S1 & _).
  assert (Kt : all_numbers kept (d_token d)) by (apply (same_numbers _ (rn tok)); [exact S1|apply rn_kept; exact N1]).
  assert (Km : forall (P : json -> str -> Prop) j m, table P j m -> Forall (fun kv => all_numbers kept (snd kv)) m -> all_numbers kept j) by (intros P j m [[[-> _]| ->] _] F; [constructor|constructor; exact F]).
  assert (Ka : all_numbers kept (data_json d)) by (constructor; repeat constructor; cbn [snd]; [exact Kt|apply (Km _ _ _ T1 K1)|apply (Km _ _ _ T3 K2)]).
  destruct (indent_ok short (bs "  ") (data_json d) exact15 written deep two_blanks G) as (s & t & E & T & V).
  { apply all_numbers_impl with (2 := Ka). intros q (q0 & [k Hk] & ->). rewrite (short_written k) by exact Hk. split; [reflexivity|exists k; exact Hk]. }
  destruct (value_text _ _ _ _ _ T V) as [Hb HT]. exists s, (on wr t0), (on wr a0). split; [exact E|]. split; [|split; [apply same_back; assumption|auto]]. split; [exact Hb|].
  exists (wr (map_json t_data (d_trans d))), (wr (map_json a_data (d_accts d))). split; [exact HT|]. split; apply table_re; try assumption; intros; [apply is_tx_re|apply is_acct_re]; assumption.
Qed.
(** What is read exactly is short. *)
Lemma text_short d t v : json_text_of exact15 d t v -> all_numbers is_short v.
Proof. intros (w & t' & w' & _ & _ & V & _). apply (proj1 (value_good exact15 is_short (fun q f H => eq_ind_r is_short (proj2 H) (proj1 H))) _ _ _ V). Qed.
