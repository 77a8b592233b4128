(** * JsonReadProps: a JSON text is read as what it stands for (C99). *)
From Coq Require Import ZifyBool Lqa.
From Verif Require Import Base Dec Utf8 BookModel BookSpec BookProps OpsModel LoaderModel LoaderSpec ExportModel ExportSpec ExportProofs ConvertModel ConvertSpec ConvertProps F64Model F64Spec F64Proofs JsonModel JsonSpec JsonNum JsonWrite JsonWrite2 JsonProps JsonRead JsonRead2.
From Verif Require DataExportModel.

(** ** Facts about values *)
Lemma value_good (num : Qc -> Qc -> Prop) (P : Qc -> Prop) : (forall q f, num q f -> P f) ->
  (forall d t v, value num d t v -> map_like v /\ all_numbers P v) /\
  (forall d t vs, elems num d t vs -> Forall (fun v => map_like v /\ all_numbers P v) vs) /\
  (forall d t ms, members num d t ms -> Forall (fun kv => map_like (snd kv) /\ all_numbers P (snd kv)) ms).
Proof.
  intros HP. apply (grammar_mut num (fun d t v => map_like v /\ all_numbers P v) (fun d t vs => Forall (fun v => map_like v /\ all_numbers P v) vs) (fun d t ms => Forall (fun kv => map_like (snd kv) /\ all_numbers P (snd kv)) ms)); try (intros; split; constructor; eauto; fail).
  - intros d t l _ H. split; constructor; apply Forall_impl with (2 := H); tauto.
  - intros. split; constructor; constructor.
  - intros d t ms m _ H [N A]. assert (I : forall kv, In kv m -> In kv ms). { intros [k v] Hkv. apply (aget_Some_iff str_eqb str_eqb_eq k v m N) in Hkv. rewrite A in Hkv. apply (aget_In str_eqb str_eqb_eq) in Hkv. apply in_rev in Hkv. exact Hkv. }
    rewrite Forall_forall in H. split; constructor; try exact N; apply Forall_forall; intros kv Hkv; apply H, I, Hkv.
  - intros d w t w' v _ _ H _. constructor; [exact H|constructor].
  - intros d w t w' v ts vs _ _ H _ _ IH. constructor; assumption.
  - intros d w kt k w1 w2 t v w3 _ _ _ _ _ H _. constructor; [exact H|constructor].
  - intros d w kt k w1 w2 t v w3 ts ms _ _ _ _ _ H _ _ IH. constructor; assumption.
Qed.
Lemma same_sym a : forall b, same a b -> same b a.
Proof.
  induction a as [|x|q|s|l IH|m IH] using json_ind'; intros b H; inversion H as [| | | |? l' F|? m' N1 N2 K V]; subst; try constructor.
  - clear H. revert l' F. induction IH as [|x l Hx _ IHl]; intros l' F; inversion F; subst; constructor; auto.
  - exact N2.
  - exact N1.
  - intros k. symmetry. apply K.
  - intros k v v' H1 H2. rewrite Forall_forall in IH. apply (IH (k, v') H2). apply (V k); assumption.
Qed.
Lemma same_trans a : forall b c, same a b -> same b c -> same a c.
Proof.
  induction a as [|x|q|s|l IH|m IH] using json_ind'; intros b c H G; inversion H as [| | | |? l' F|? m' N1 N2 K V]; subst; inversion G as [| | | |? l2 F2|? m2 N3 N4 K2 V2]; subst; try constructor; try assumption.
  - clear H G. revert l' F l2 F2. induction IH as [|x l Hx _ IHl]; intros l' F l2 F2; inversion F; subst; inversion F2; subst; constructor; eauto.
  - intros k. rewrite K. apply K2.
  - intros k v v' H1 H2. assert (Hk : In k (map fst m')) by (apply K; apply in_map_iff; exists (k, v); split; [reflexivity|exact H1]). apply in_map_iff in Hk as ([k' x] & E & Hx). cbn [fst] in E. subst k'.
    rewrite Forall_forall in IH. apply (IH (k, v) H1 x v'); [apply (V k)|apply (V2 k)]; assumption.
Qed.
(** Scripts do not see the order of the members. *)
Lemma same_none a b : same a b -> a = JNull <-> b = JNull.
Proof. intros H. inversion H; subst; split; congruence. Qed.
Lemma seen_same v : forall v' sv, same v v' -> all_numbers float64 v' -> seen to_f64 v' sv -> seen (fun q => q) v sv.
Proof.
  induction v as [|x|q|s|l IH|m IH] using json_ind'; intros v' sv H Hn G; inversion H as [| | | |? l' F|? m' N1 N2 K V]; subst; inversion G as [| | | |? vs F2|? d D1 D2 D3]; subst; try constructor.
  - assert (E : to_f64 q = q) by (apply to_f64_id; inversion Hn; assumption). rewrite E. constructor.
  - clear H G. inversion Hn as [| | | |? Hl|]; subst. clear Hn. revert l' F vs F2 Hl. induction IH as [|x l Hx _ IHl]; intros l' F vs F2 Hl; inversion F; subst; inversion F2; subst; inversion Hl; subst; constructor; eauto.
  - exact D1.
  - intros k sv Hk. destruct (D2 k sv Hk) as (Hs & j & Hj & Hj2). split; [exact Hs|]. assert (Hk' : In k (map fst m)) by (apply K; apply in_map_iff; exists (k, j); split; [reflexivity|exact Hj]). apply in_map_iff in Hk' as ([k' x] & E & Hx). cbn [fst] in E. subst k'.
    exists x. split; [exact Hx|]. rewrite Forall_forall in IH. apply (IH (k, x) Hx j); [apply (V k); assumption| |exact Hj2]. inversion Hn as [| | | | |? Hl]; subst. rewrite Forall_forall in Hl. apply (Hl (k, j) Hj).
  - intros k j Hk Hj. assert (Hk' : In k (map fst m')) by (apply K; apply in_map_iff; exists (k, j); split; [reflexivity|exact Hk]). apply in_map_iff in Hk' as ([k' x] & E & Hx). cbn [fst] in E. subst k'. apply (D3 k x Hx). intros ->. apply Hj. apply (same_none j JNull); [apply (V k); assumption|reflexivity].
Qed.
Lemma as_float64 q f : as_float q f -> float64 f.
Proof. intros H. apply as_infinite in H as [_ <-]. apply to_f64_float. Qed.

(** ** The theorems. The text of a file is [decode bytes]: bytes that are not UTF-8 read as U+FFFD. *)
Definition levels : nat := Z.to_nat 10000.
(** The reader always ends, with a value or an error. *)
Theorem C99_total bytes : (decode_json bytes = Error \/ exists v, decode_json bytes = Ok v) /\ (unmarshal_json bytes = Error \/ exists v, unmarshal_json bytes = Ok v).
Proof.
  unfold decode_json, unmarshal_json. destruct (proj1 (p_total (2 * length (decode bytes) + 1)) max_depth (decode bytes) (Nat.le_refl _)) as [->|(v & r & -> & _)]; [split; left; reflexivity|]. cbn [obind].
  split; [right; eauto|]. destruct (skip_ws r); [right; eauto|left; reflexivity].
Qed.
(** What is read is at the beginning of the text; nothing else of the text matters. *)
Theorem C99_first_value bytes v : decode_json bytes = Ok v -> exists w t r, decode bytes = w ++ t ++ r /\ ws w /\ value as_float levels t v.
Proof.
  unfold decode_json. destruct (p_value _ max_depth (decode bytes)) as [[v' r]| | |] eqn:E; try discriminate. cbn [obind]. intros H. injection H as ->. apply (proj1 (p_sound _)) in E as (w & t & E & Hw & Ht). exists w, t, r. split; [exact E|]. split; [exact Hw|exact Ht].
Qed.
(** A value that is followed by nothing, by white space or by a comma or closing bracket is read. *)
Theorem C99_value_read bytes w t r v : decode bytes = w ++ t ++ r -> ws w -> value as_float levels t v -> stops r -> exists v', decode_json bytes = Ok v' /\ same v v'.
Proof.
  intros E Hw Hv Hr. unfold decode_json. destruct (proj1 p_complete levels t v Hv (2 * length (decode bytes) + 1)%nat max_depth w r) as (v' & Ev & Hs); [apply Nat.le_refl|rewrite E, !app_length; lia|exact Hw|exact Hr|].
  rewrite E in *. rewrite Ev. exists v'. split; [reflexivity|exact Hs].
Qed.
(** The whole text: read exactly when it is JSON, as what it stands for. *)
Theorem C99_whole_text bytes :
  (forall v, unmarshal_json bytes = Ok v -> json_text_of as_float levels (decode bytes) v) /\
  (forall v, json_text_of as_float levels (decode bytes) v -> exists v', unmarshal_json bytes = Ok v' /\ decode_json bytes = Ok v' /\ same v v') /\
  (unmarshal_json bytes = Error <-> ~ exists v, json_text_of as_float levels (decode bytes) v).
Proof.
  assert (A : forall v, unmarshal_json bytes = Ok v -> json_text_of as_float levels (decode bytes) v).
  { intros v. unfold unmarshal_json. destruct (p_value _ max_depth (decode bytes)) as [[v' r]| | |] eqn:E; try discriminate. cbn [obind]. destruct (skip_ws_split r) as (w' & Er & Hw' & _). destruct (skip_ws r) as [|c x]; [|discriminate]. rewrite app_nil_r in Er. subst r. intros H. injection H as ->.
    apply (proj1 (p_sound _)) in E as (w & t & E & Hw & Ht). exists w, t, w'. split; [exact E|]. split; [exact Hw|]. split; [exact Ht|exact Hw']. }
  assert (B : forall v, json_text_of as_float levels (decode bytes) v -> exists v', unmarshal_json bytes = Ok v' /\ decode_json bytes = Ok v' /\ same v v').
  { intros v (w & t & w' & E & Hw & Hv & Hw'). unfold decode_json, unmarshal_json. destruct (proj1 p_complete levels t v Hv (2 * length (decode bytes) + 1)%nat max_depth w w') as (v' & Ev & Hs); [apply Nat.le_refl|rewrite E, !app_length; lia|exact Hw|rewrite <- (app_nil_r w'); apply stops_ws; [exact Hw'|exact I]|].
    rewrite E in *. rewrite Ev. cbn [obind]. exists v'. rewrite <- (app_nil_r w') at 1. rewrite skip_ws_app by exact Hw'. cbn [skip_ws]. split; [reflexivity|]. split; [reflexivity|exact Hs]. }
  split; [exact A|]. split; [exact B|]. split.
  - intros H [v Hv]. apply B in Hv as (v' & E & _). congruence.
  - intros H. destruct (proj2 (C99_total bytes)) as [E|[v E]]; [exact E|]. exfalso. apply H. exists v. apply A. exact E.
Qed.
(** A text stands for one value only. *)
Theorem C99_one_value d d' t v v' : json_text_of as_float d t v -> json_text_of as_float d' t v' -> same v v'.
Proof.
  assert (G : forall d v, json_text_of as_float d t v -> forall D n, (d <= D)%nat -> (2 * length t + 1 <= n)%nat -> exists x r, p_value n D t = Ok (x, r) /\ same v x).
  { intros d0 v0 (w & t' & w' & -> & Hw & Hv & Hw') D n Hd Hn. destruct (proj1 p_complete d0 t' v0 Hv n D w w') as (x & Ex & Hs); [exact Hd|rewrite !app_length in Hn; lia|exact Hw|rewrite <- (app_nil_r w'); apply stops_ws; [exact Hw'|exact I]|]. exists x, w'. split; assumption. }
  intros H1 H2. destruct (G d v H1 (Nat.max d d') (2 * length t + 1)%nat) as (x & r & E & S1); [lia|lia|]. destruct (G d' v' H2 (Nat.max d d') (2 * length t + 1)%nat) as (x' & r' & E' & S2); [lia|lia|].
  rewrite E in E'. injection E' as <- <-. apply same_trans with x; [exact S1|apply same_sym; exact S2].
Qed.
(** What a script gets from a file. *)
Theorem C99_script order bytes v : (forall m, Permutation m (order m)) -> json_text_of as_float levels (decode bytes) v ->
  exists sv, read_json_text order bytes = Ok sv /\ seen (fun q => q) v sv.
Proof.
  intros Ho H. destruct (proj1 (proj2 (C99_whole_text bytes)) v H) as (v' & E1 & E2 & Hs). unfold read_json_text. rewrite E2. cbn [obind]. eexists. split; [reflexivity|].
  pose proof (proj1 (C99_whole_text bytes) v' E1) as (w & t & w' & _ & _ & Hv & _). destruct (proj1 (value_good as_float float64 as_float64) _ _ _ Hv) as [M N].
  apply seen_same with v'; [exact Hs|exact N|]. apply C92_json_seen_partial; assumption.
Qed.
Print Assumptions C99_total.
Print Assumptions C99_first_value.
Print Assumptions C99_value_read.
Print Assumptions C99_whole_text.
Print Assumptions C99_one_value.
Print Assumptions C99_script.

(** ** Round trips *)
Lemma file_read (num : Qc -> Qc -> Prop) d bytes v : json_file num d bytes v -> json_text_of num d (decode bytes) v.
Proof. intros (t & [-> Ht] & H). rewrite decode_encode by exact Ht. exact H. Qed.
Lemma value_mono (num : Qc -> Qc -> Prop) :
  (forall d t v, value num d t v -> forall d', (d <= d')%nat -> value num d' t v) /\ (forall d t vs, elems num d t vs -> forall d', (d <= d')%nat -> elems num d' t vs) /\ (forall d t ms, members num d t ms -> forall d', (d <= d')%nat -> members num d' t ms).
Proof.
  apply (grammar_mut num (fun d t v => forall d', (d <= d')%nat -> value num d' t v) (fun d t vs => forall d', (d <= d')%nat -> elems num d' t vs) (fun d t ms => forall d', (d <= d')%nat -> members num d' t ms));
    intros; try match goal with H : (S _ <= ?x)%nat |- _ => destruct x; [lia|] end; try (econstructor; eauto; fail); (econstructor; [|eassumption]) || constructor; auto with arith.
Qed.
Lemma text_mono (num : Qc -> Qc -> Prop) d d' t v : (d <= d')%nat -> json_text_of num d t v -> json_text_of num d' t v.
Proof. intros H (w & t' & w' & E & Hw & Hv & Hw'). exists w, t', w'. split; [exact E|]. split; [exact Hw|]. split; [apply (proj1 (value_mono num) d); assumption|exact Hw']. Qed.
(** Reading what was written gives the value back, up to the order of members. *)
Theorem C99_round_trip short j pretty : all_strings is_utf8 j -> all_numbers finite64 j -> map_like j -> (nesting j <= levels)%nat ->
  exists s j', print_json short j pretty = Ok s /\ unmarshal_json s = Ok j' /\ decode_json s = Ok j' /\ same j j'.
Proof.
  intros Hs Hn Hm Hd. destruct (C98_same_value short j pretty Hs Hn Hm) as (s & E & F). apply file_read in F. apply (text_mono _ _ levels) in F; [|exact Hd].
  destruct (proj1 (proj2 (C99_whole_text s)) j F) as (j' & E1 & E2 & S1). exists s, j'. auto.
Qed.
(** Whatever is read can be written and read again, and is the same value then. *)
Lemma inside_scalar t v : inside t v -> Forall scalar t -> Forall scalar v.
Proof.
  assert (L : forall e c, In (e, c) letters -> scalar c). { intros e c H. cbn in H. repeat (destruct H as [H|H]; [injection H as <- <-; left; lia|]). contradiction. }
  assert (U : forall x u, unit16 x u -> 0 <= u < 65536) by (intros x u H; apply unit16_form in H as (a & b & c & d & _ & H); apply hex4_range in H; apply H).
  induction 1 as [|c t v H1 H2 H3 _ IH|e c t v He _ IH|x u t v Hx N1 N2 _ IH|x y h l t v Hx Hh Hy Hl _ IH|x u t v Hx Hs Hp Ht IH]; intros F; rewrite ?Forall_app in F; constructor; try apply IH; try tauto.
  - destruct F as [F _]. inversion F; assumption.
  - apply (L e). exact He.
  - specialize (U _ _ Hx). unfold high, low, scalar in *. lia.
  - unfold high, low, scalar in *. lia.
  - right. lia.
Qed.
Lemma value_utf8 :
  (forall d t v, value as_float d t v -> Forall scalar t -> all_strings is_utf8 v /\ (nesting v <= d)%nat) /\
  (forall d t vs, elems as_float d t vs -> Forall scalar t -> Forall (fun v => all_strings is_utf8 v /\ (nesting v <= d)%nat) vs) /\
  (forall d t ms, members as_float d t ms -> Forall scalar t -> Forall (fun kv => is_utf8 (fst kv) /\ all_strings is_utf8 (snd kv) /\ (nesting (snd kv) <= d)%nat) ms).
Proof.
  assert (K : forall t k, inside t k -> Forall scalar t -> is_utf8 (encode k)) by (intros t k H F; exists k; split; [reflexivity|apply (inside_scalar t); assumption]).
  apply (grammar_mut as_float (fun d t v => Forall scalar t -> all_strings is_utf8 v /\ (nesting v <= d)%nat) (fun d t vs => Forall scalar t -> Forall (fun v => all_strings is_utf8 v /\ (nesting v <= d)%nat) vs)
    (fun d t ms => Forall scalar t -> Forall (fun kv => is_utf8 (fst kv) /\ all_strings is_utf8 (snd kv) /\ (nesting (snd kv) <= d)%nat) ms)); try (intros; split; [solve [constructor]|cbn [nesting]; lia]).
  - intros d t r H F. rewrite !Forall_app in F. split; [constructor; apply (K t); tauto|cbn [nesting]; lia].
  - intros. split; [constructor; constructor|cbn; lia].
  - intros d t l _ IH F. rewrite !Forall_app in F. specialize (IH (proj1 (proj2 F))). split; [constructor; apply Forall_impl with (2 := IH); tauto|]. cbn [nesting]. apply le_n_S. apply list_max_le. apply Forall_forall. intros k Hk. apply in_map_iff in Hk as (x & <- & Hx). rewrite Forall_forall in IH. apply (IH x Hx).
  - intros. split; [constructor; constructor|cbn; lia].
  - intros d t ms m _ IH [N A] F. rewrite !Forall_app in F. specialize (IH (proj1 (proj2 F))). assert (J : forall kv, In kv m -> In kv ms). { intros [k v] Hkv. apply (aget_Some_iff str_eqb str_eqb_eq k v m N) in Hkv. rewrite A in Hkv. apply (aget_In str_eqb str_eqb_eq) in Hkv. apply in_rev in Hkv. exact Hkv. }
    rewrite Forall_forall in IH. split; [constructor; apply Forall_forall; intros kv Hkv; destruct (IH kv (J kv Hkv)) as (X1 & X2 & _); split; assumption|].
    cbn [nesting]. apply le_n_S. apply list_max_le. apply Forall_forall. intros k Hk. apply in_map_iff in Hk as (x & <- & Hx). apply (IH x (J x Hx)).
  - intros d w t w' v _ _ IH _ F. rewrite !Forall_app in F. constructor; [apply IH; tauto|constructor].
  - intros d w t w' v ts vs _ _ IH _ _ IHe F. rewrite !Forall_app in F. constructor; [apply IH; tauto|apply IHe; tauto].
  - intros d w kt k w1 w2 t v w3 _ Hk _ _ _ IH _ F. rewrite !Forall_app in F. constructor; [|constructor]. cbn [fst snd]. split; [apply (K kt); tauto|apply IH; tauto].
  - intros d w kt k w1 w2 t v w3 ts ms _ Hk _ _ _ IH _ _ IHm F. rewrite !Forall_app in F. constructor; [|apply IHm; tauto]. cbn [fst snd]. split; [apply (K kt); tauto|apply IH; tauto].
Qed.
Theorem C99_read_write_read short bytes v pretty : is_bytes bytes -> unmarshal_json bytes = Ok v \/ decode_json bytes = Ok v -> exists s v', print_json short v pretty = Ok s /\ unmarshal_json s = Ok v' /\ same v v'.
Proof.
  intros Hb H. assert (G : exists w t r, decode bytes = w ++ t ++ r /\ ws w /\ value as_float levels t v).
  { destruct H as [H|H]; [|apply C99_first_value; exact H]. apply (proj1 (C99_whole_text bytes)) in H as (w & t & w' & E & Hw & Hv & _). eauto 6. }
  destruct G as (w & t & r & E & _ & Hv). pose proof (decode_scalar bytes Hb) as F. rewrite E, !Forall_app in F. destruct (proj1 value_utf8 _ _ _ Hv (proj1 (proj2 F))) as [Hs Hd].
  destruct (proj1 (value_good as_float finite64 (fun q f H => conj (as_float64 q f H) (proj2 H))) _ _ _ Hv) as [M N]. destruct (C99_round_trip short v pretty Hs N M Hd) as (s & v' & E1 & E2 & _ & E3). eauto 6.
Qed.
Print Assumptions C99_read_write_read.
(** An export that is read by an import script: it sees the exported transactions. *)
Theorem C99_export_to_script short srt order b pretty : sort_ok is_less srt -> reachable srt b -> (forall m, Permutation m (order m)) ->
  (forall t p, In t (snd (transactions srt b)) -> In p t -> post_utf8 p /\ (qabs (to_f64 (p_val p)) < qz (2 ^ 1024))%Qc) ->
  exists js s sv, DataExportModel.export_json to_f64 srt b = Ok js /\ export_json_text short srt b pretty = Ok s /\ read_json_text order s = Ok sv /\ seen (fun q => q) (JArr (map embed js)) sv.
Proof.
  intros Hs Hr Ho H. destruct (C98_export short srt b pretty Hs Hr H) as (js & s & E1 & E2 & F). apply file_read in F. apply (text_mono _ _ levels) in F; [|apply Nat2Z.inj_le; vm_compute; discriminate].
  destruct (C99_script order s _ Ho F) as (sv & E3 & Hv). exists js, s, sv. auto.
Qed.
Print Assumptions C99_round_trip.
Print Assumptions C99_export_to_script.

Definition res (o : outcome json) : option json := match o with Ok v => Some v | _ => None end.
Definition res_num (o : outcome json) : option Q := match o with Ok (JNum q) => Some (this q) | _ => None end.
(** A text with a pair of surrogates, a lone one, an escape in a name, a repeated name and an exponent. *)
Example C99_nonvacuous :
  res (unmarshal_json (bs " {""a"": [1e-1, -12.50, true], ""\u0062"": ""\ud83d\ude00\/\ud83d"", ""a"": null } ")) = Some (JObj [(bs "a", JNull); (bs "b", JStr [240; 159; 152; 128; 47; 239; 191; 189])]) /\
  res_num (decode_json (bs "12abc")) = Some 12%Q /\ res (unmarshal_json (bs "12abc")) = None /\ res_num (decode_json (bs "01")) = Some 0%Q /\ res (decode_json (bs "1e999")) = None /\ res (decode_json (bs "[1,]")) = None /\ res (decode_json (bs "{'a':1}")) = None.
Proof. repeat split; vm_compute; reflexivity. Qed.
Example C99_nonvacuous_script : exists sv, read_json_text (fun m => m) (ok_str (export_json_text false xsort json_book true)) = Ok sv.
Proof. eexists. vm_compute. reflexivity. Qed.
