(** * JsonProps: the JSON text written stands for the exported values (C98). *)
From Coq Require Import ZifyBool Qround Qabs Lqa.
From Verif Require Import Base Dec Utf8 BookModel BookSpec BookProps OpsModel DateModel LoaderModel LoaderSpec ExportModel ExportSpec ExportProofs ConvertModel ConvertSpec ConvertProps F64Model F64Spec F64Proofs JsonModel JsonSpec JsonNum JsonWrite JsonWrite2 JsonWrite3.
From Verif Require DataExportModel DataExportSpec DataExportProps.

Lemma infinite_iff q : infinite q = false <-> (qabs q < qz (2 ^ 1024))%Qc.
Proof.
  unfold infinite, Qclt. rewrite this_qabs, this_qz. rewrite Qabs_Qlt_condition. assert (O : (this (- qz (2 ^ 1024))%Qc == - inject_Z (2 ^ 1024))%Q) by (rewrite this_opp, this_qz; reflexivity). assert (O' : (this (qz (2 ^ 1024)) == inject_Z (2 ^ 1024))%Q) by apply this_qz.
  destruct (qz (2 ^ 1024) ?= q)%Qc eqn:E1; unfold Qccompare in E1; [apply Qeq_alt in E1|apply Qlt_alt in E1|apply Qgt_alt in E1]; rewrite O' in E1; try (split; [discriminate|intros [_ H]; lra]).
  destruct (q ?= - qz (2 ^ 1024))%Qc eqn:E2; unfold Qccompare in E2; [apply Qeq_alt in E2|apply Qlt_alt in E2|apply Qgt_alt in E2]; rewrite O in E2; split; try discriminate; try reflexivity; intros; lra.
Qed.
Lemma has_inf_iff j : has_inf j = false <-> all_numbers (fun q => (qabs q < qz (2 ^ 1024))%Qc) j.
Proof.
  induction j as [|b|q|s|l IH|m IH] using json_ind'; cbn [has_inf]; try (split; [intros _; constructor|reflexivity]).
  - rewrite infinite_iff. split; [intros; constructor; assumption|intros H; inversion H; assumption].
  - split.
    + intros H. constructor. rewrite <- not_true_iff_false, existsb_exists in H. rewrite Forall_forall in *. intros x Hx. apply (IH x Hx). apply not_true_iff_false. intros E. apply H. eauto.
    + intros H. inversion H as [| | | |? F|]; subst. apply not_true_iff_false. intros E. apply existsb_exists in E as (x & Hx & E). rewrite Forall_forall in *. apply (IH x Hx) in F; [congruence|exact Hx].
  - split.
    + intros H. constructor. rewrite <- not_true_iff_false, existsb_exists in H. rewrite Forall_forall in *. intros x Hx. apply (IH x Hx). apply not_true_iff_false. intros E. apply H. eauto.
    + intros H. inversion H as [| | | | |? F]; subst. apply not_true_iff_false. intros E. apply existsb_exists in E as (x & Hx & E). rewrite Forall_forall in *. apply (IH x Hx) in F; [congruence|exact Hx].
Qed.
Lemma all_numbers_impl (P R : Qc -> Prop) j : (forall q, P q -> R q) -> all_numbers P j -> all_numbers R j.
Proof.
  intros H. induction j as [|b|q|s|l IH|m IH] using json_ind'; intros A; inversion A; subst; constructor; auto; rewrite Forall_forall in *; auto.
Qed.
Lemma all_strings_impl (P R : str -> Prop) j : (forall q, P q -> R q) -> all_strings P j -> all_strings R j.
Proof.
  intros H. induction j as [|b|q|s|l IH|m IH] using json_ind'; intros A; inversion A; subst; constructor; auto; rewrite Forall_forall in *; auto.
  intros kv Hk. split; [apply H|apply (IH kv Hk)]; apply H1; exact Hk.
Qed.
Lemma utf8_bytes s : is_utf8 s -> is_bytes s.
Proof. intros (r & -> & Hr). unfold encode, is_bytes. induction Hr as [|c r Hc _ IH]; [constructor|]. cbn [map concat]. apply Forall_app. split; [apply enc_bytes|exact IH]. Qed.
Lemma utf8_repair s : is_utf8 s -> repair s = s.
Proof. intros (r & -> & Hr). unfold repair. rewrite decode_encode by exact Hr. reflexivity. Qed.
Lemma repaired_id j : all_strings is_utf8 j -> repaired j = j.
Proof.
  induction j as [|b|q|s|l IH|m IH] using json_ind'; intros A; cbn [repaired]; try reflexivity; inversion A; subst; f_equal.
  - apply utf8_repair. assumption.
  - rewrite <- (map_id l) at 2. apply map_ext_in. rewrite Forall_forall in *. auto.
  - rewrite <- (map_id m) at 2. apply map_ext_in. rewrite Forall_forall in *. intros [k v] Hk. cbn [fst snd]. destruct (H0 _ Hk) as [H1 H2]. cbn [fst snd] in *. pose proof (IH _ Hk H2) as E. cbn [snd] in E. rewrite utf8_repair, E by exact H1. reflexivity.
Qed.
Lemma renumber_id j : renumber (fun q => q) j = j.
Proof.
  induction j as [|b|q|s|l IH|m IH] using json_ind'; cbn [renumber]; try reflexivity; f_equal.
  - rewrite <- (map_id l) at 2. apply map_ext_in. rewrite Forall_forall in IH. auto.
  - rewrite <- (map_id m) at 2. apply map_ext_in. rewrite Forall_forall in IH. intros [k v] Hk. pose proof (IH _ Hk) as E. cbn [fst snd] in *. rewrite E. reflexivity.
Qed.
Lemma newline_ws tab n : ws tab -> ws (newline tab n).
Proof. intros H. constructor; [tauto|]. induction n; cbn [repeat concat]; [constructor|apply Forall_app; split; assumption]. Qed.

Section Any.
  Variable short : bool.
  Lemma print_ok j (num : Qc -> Qc -> Prop) g pretty d : all_strings is_bytes j -> all_numbers (fun q => finite64 q /\ num (written q) (g q)) j -> map_like (repaired j) -> (nesting j <= d)%nat ->
    exists s, print_json short j pretty = Ok s /\ json_file num d s (renumber g (repaired j)).
  Proof.
    intros Hs Hn Hm Hd.
    assert (N1 : all_numbers (good num g) j) by (apply all_numbers_impl with (2 := Hn); intros q [[H1 _] H2]; split; assumption).
    assert (N2 : has_inf j = false) by (apply has_inf_iff; apply all_numbers_impl with (2 := Hn); intros q [[_ H1] _]; exact H1).
    assert (N3 : all_numbers float64 j) by (apply all_numbers_impl with (2 := Hn); intros q [[H1 _] _]; exact H1).
    unfold print_json, marshal_indent, marshal. rewrite N2. cbn [obind]. destruct pretty.
    - exists (gtext short (newline (bs "    ")) [32] 0 j). split.
      + f_equal. rewrite <- (app_nil_r (json_text short j)), indent_value by assumption. cbn [indent]. apply app_nil_r.
      + destruct (gtext_ok short (newline (bs "    ")) [32]) with (num := num) (g := g) (j := j) (d := d) (n := O) as (t & T1 & T2); try assumption.
        * intros n. apply newline_ws. repeat constructor; lia.
        * repeat constructor; lia.
        * exists t. split; [exact T1|]. exists [], t, []. rewrite app_nil_r. repeat split; try constructor. exact T2.
    - exists (json_text short j). split; [reflexivity|]. rewrite (compact_text short j 0).
      destruct (gtext_ok short (fun _ => []) []) with (num := num) (g := g) (j := j) (d := d) (n := O) as (t & T1 & T2); try assumption; try (intros; constructor).
      exists t. split; [exact T1|]. exists [], t, []. rewrite app_nil_r. repeat split; try constructor. exact T2.
  Qed.

  (** Any value, written compactly or with indentation, is a JSON text that stands for this value: every string character by character, every number the same float64. *)
  Theorem C98_same_value j pretty : all_strings is_utf8 j -> all_numbers finite64 j -> map_like j ->
    exists s, print_json short j pretty = Ok s /\ json_file as_float (nesting j) s j.
  Proof.
    intros Hs Hn Hm. destruct (print_ok j as_float (fun q => q) pretty (nesting j)) as (s & E & F).
    - apply all_strings_impl with (2 := Hs). apply utf8_bytes.
    - apply all_numbers_impl with (2 := Hn). intros q [H1 H2]. split; [split; assumption|]. split; [|exact H2]. destruct (num_text_number q H1) as [_ W]. pose proof (to_f64_nearest (written q)) as Nr. rewrite W in Nr. exact Nr.
    - rewrite repaired_id by exact Hs. exact Hm.
    - lia.
    - exists s. split; [exact E|]. rewrite renumber_id, repaired_id in F by exact Hs. exact F.
  Qed.
  (** Of strings that are not UTF-8 the bytes that are no characters become U+FFFD, nothing else changes. *)
  Theorem C98_any_bytes j pretty : all_strings is_bytes j -> all_numbers finite64 j -> map_like (repaired j) ->
    exists s, print_json short j pretty = Ok s /\ json_file as_float (nesting j) s (repaired j).
  Proof.
    intros Hs Hn Hm. destruct (print_ok j as_float (fun q => q) pretty (nesting j)) as (s & E & F); [exact Hs| |exact Hm|lia|].
    - apply all_numbers_impl with (2 := Hn). intros q [H1 H2]. split; [split; assumption|]. split; [|exact H2]. destruct (num_text_number q H1) as [_ W]. pose proof (to_f64_nearest (written q)) as Nr. rewrite W in Nr. exact Nr.
    - exists s. split; [exact E|]. rewrite renumber_id in F. exact F.
  Qed.
  (** Only a number beyond the range of float64 is refused. *)
  Theorem C98_refused j pretty : (exists s, print_json short j pretty = Ok s) /\ all_numbers (fun q => (qabs q < qz (2 ^ 1024))%Qc) j \/
    print_json short j pretty = Error /\ ~ all_numbers (fun q => (qabs q < qz (2 ^ 1024))%Qc) j.
  Proof.
    destruct (has_inf j) eqn:E; unfold print_json, marshal_indent, marshal; rewrite E.
    - right. split; [destruct pretty; reflexivity|]. intros H. apply has_inf_iff in H. congruence.
    - left. split; [destruct pretty; cbn [obind]; eauto|]. apply has_inf_iff. exact E.
  Qed.
  (** The names written by accts --json. *)
  Theorem C98_accounts accts : Forall is_utf8 accts -> exists s, accts_json short accts = Ok s /\ json_file exactly 1 s (JArr (map JStr accts)).
  Proof.
    intros H. assert (Hs : all_strings is_utf8 (JArr (map JStr accts))) by (constructor; apply Forall_forall; intros j Hj; apply in_map_iff in Hj as (a & <- & Ha); constructor; rewrite Forall_forall in H; auto).
    destruct (print_ok (JArr (map JStr accts)) exactly (fun q => q) true 1) as (s & E & F).
    - apply all_strings_impl with (2 := Hs). apply utf8_bytes.
    - constructor. apply Forall_forall. intros j Hj. apply in_map_iff in Hj as (a & <- & _). constructor.
    - rewrite repaired_id by exact Hs. constructor. apply Forall_forall. intros j Hj. apply in_map_iff in Hj as (a & <- & _). constructor.
    - cbn [nesting]. rewrite map_map. clear. induction accts; [cbn; lia|]. unfold list_max in *. cbn [map fold_right nesting] in *. lia.
    - exists s. split; [exact E|]. rewrite renumber_id, repaired_id in F by exact Hs. exact F.
  Qed.
End Any.
Print Assumptions C98_same_value.
Print Assumptions C98_any_bytes.
Print Assumptions C98_refused.
Print Assumptions C98_accounts.

(** ** The export *)
Lemma fmt_0d_ascii w z : Forall (fun c => 0 <= c < 128) (fmt_0d w z).
Proof.
  assert (D : forall k n, 0 <= n -> Forall (fun c => 0 <= c < 128) (zpad k (dec n))) by (intros k n Hn; apply Forall_impl with (2 := zpad_digits k n Hn); intros c Hc; unfold is_dig in Hc; lia).
  unfold fmt_0d. destruct (Z.ltb_spec z 0); [constructor; [lia|]|]; apply D; lia.
Qed.
Lemma ascii_utf8 s : Forall (fun c => 0 <= c < 128) s -> is_utf8 s.
Proof. intros H. exists s. apply text_ascii. exact H. Qed.
Lemma rfc_utf8 d : is_utf8 (DataExportModel.rfc3339 d).
Proof.
  apply ascii_utf8. unfold DataExportModel.rfc3339. rewrite !Forall_app. repeat split; try apply fmt_0d_ascii; repeat constructor; lia.
Qed.
(** The texts of an exported posting. *)
Definition post_utf8 (p : posting) : Prop := is_utf8 (p_payee p) /\ is_utf8 (p_tnote p) /\ is_utf8 (p_acct p) /\ is_utf8 (p_ccy p).
Lemma utf8_nil : is_utf8 []. Proof. exists []. apply text_nil. Qed.
Definition good_json (P : Qc -> Prop) (d : nat) (j : json) : Prop := all_strings is_utf8 j /\ all_numbers P j /\ map_like j /\ (nesting j <= d)%nat.
Lemma embed_post (P : Qc -> Prop) f64 p : post_utf8 p -> P (f64 (p_val p)) -> good_json P 1 (embed (DataExportModel.json_post f64 p)).
Proof.
  intros (_ & H2 & H3 & H4) HP. unfold DataExportModel.json_post, DataExportModel.omit.
  assert (K : forall s, is_utf8 s -> all_strings is_utf8 (JStr s)) by (intros; constructor; assumption).
  assert (A : forall s, Forall (fun c => 0 <= c < 128) s -> is_utf8 s) by apply ascii_utf8.
  destruct (p_tnote p) as [|c n]; cbn [embed map app fst snd]; (split; [|split; [|split]]).
  1, 5: constructor; repeat (apply Forall_cons; [cbn [fst snd]; split; [apply A; repeat constructor; lia|first [constructor; fail|apply K; assumption|constructor]]|]); constructor.
  1, 4: constructor; repeat (apply Forall_cons; [cbn [fst snd]; constructor; try exact HP|]); constructor.
  1, 3: constructor; [vm_compute; repeat constructor; cbn [In]; intuition discriminate|]; repeat (apply Forall_cons; [constructor|]); constructor.
  all: cbn; lia.
Qed.
Lemma embed_obj (P : Qc -> Prop) fields : Forall (fun kv => is_utf8 (fst kv) /\ good_json P 2 (snd kv)) (map (fun kv => (fst kv, embed (snd kv))) fields) ->
  NoDup (map fst (map (fun kv => (fst kv, embed (snd kv))) fields)) -> good_json P 3 (embed (DataExportModel.JObj fields)).
Proof.
  intros W Nd. assert (E : embed (DataExportModel.JObj fields) = JObj (map (fun kv => (fst kv, embed (snd kv))) fields)) by reflexivity. rewrite E. clear E.
  generalize dependent (map (fun kv => (fst kv, embed (snd kv))) fields). intros ms W Nd. split; [|split; [|split]].
  - constructor. apply Forall_impl with (2 := W). intros kv (X & X1 & _). split; assumption.
  - constructor. apply Forall_impl with (2 := W). intros kv (X & _ & X2 & _). exact X2.
  - constructor; [exact Nd|]. apply Forall_impl with (2 := W). intros kv (X & _ & _ & X3 & _). exact X3.
  - cbn [nesting]. apply le_n_S. apply list_max_le. apply Forall_forall. intros k Hk. apply in_map_iff in Hk as (kv & <- & Hx). rewrite Forall_forall in W. apply (W kv Hx).
Qed.
Lemma embed_trans (P : Qc -> Prop) f64 t j : Forall post_utf8 t -> Forall (fun p => P (f64 (p_val p))) t -> DataExportModel.json_trans f64 t = Ok j -> good_json P 3 (embed j).
Proof.
  intros Hu HP E. destruct t as [|p t]; [discriminate|]. injection E as <-.
  change (good_json P 3 (embed (DataExportModel.JObj ([(bs "date", DataExportModel.JStr (DataExportModel.rfc3339 (p_date p)))] ++ DataExportModel.omit (bs "payee") (p_payee p) ++ DataExportModel.omit (bs "note") (p_tnote p) ++ [(bs "posts", DataExportModel.JArr (map (DataExportModel.json_post f64) (p :: t)))])))).
  assert (G : Forall (good_json P 1) (map embed (map (DataExportModel.json_post f64) (p :: t)))).
  { apply Forall_forall. intros x Hx. apply in_map_iff in Hx as (y & <- & Hy). apply in_map_iff in Hy as (q & <- & Hq). rewrite Forall_forall in Hu, HP. apply embed_post; auto. }
  set (ps := map (DataExportModel.json_post f64) (p :: t)) in *. clearbody ps. assert (Gp : good_json P 2 (JArr (map embed ps))).
  { split; [|split; [|split]]; try (constructor; apply Forall_impl with (2 := G); intros x (X1 & X2 & X3 & X4); assumption).
    cbn [nesting]. apply le_n_S. apply list_max_le. apply Forall_forall. intros k Hk. apply in_map_iff in Hk as (x & <- & Hx). rewrite Forall_forall in G. apply (G x Hx). }
  apply Forall_cons_iff in Hu as [(U1 & U2 & _) _]. set (fs := DataExportModel.omit (bs "payee") (p_payee p) ++ DataExportModel.omit (bs "note") (p_tnote p)).
  assert (A : forall s, Forall (fun c => 0 <= c < 128) s -> is_utf8 s) by apply ascii_utf8.
  assert (Str : forall s, is_utf8 s -> good_json P 0 (JStr s)). { intros s Hs. split; [constructor; exact Hs|]. split; [constructor|]. split; [constructor|cbn; lia]. }
  assert (W : Forall (fun kv => is_utf8 (fst kv) /\ good_json P 2 (snd kv)) (map (fun kv => (fst kv, embed (snd kv))) ([(bs "date", DataExportModel.JStr (DataExportModel.rfc3339 (p_date p)))] ++ fs ++ [(bs "posts", DataExportModel.JArr ps)]))).
  { assert (Str2 : forall s, is_utf8 s -> good_json P 2 (JStr s)) by (intros s Hs; destruct (Str s Hs) as (X1 & X2 & X3 & X4); repeat split; try assumption; lia).
    assert (Date : is_utf8 (bs "date") /\ good_json P 2 (embed (DataExportModel.JStr (DataExportModel.rfc3339 (p_date p))))) by (split; [apply A; repeat constructor; lia|apply Str2, rfc_utf8]).
    rewrite !map_app, !Forall_app. unfold fs. rewrite map_app, Forall_app. split; [constructor; [exact Date|constructor]|]. split; [split|].
    - destruct (p_payee p); cbn [DataExportModel.omit map fst snd embed]; constructor; [|constructor]. split; [apply A; repeat constructor; lia|apply Str2; exact U1].
    - destruct (p_tnote p); cbn [DataExportModel.omit map fst snd embed]; constructor; [|constructor]. split; [apply A; repeat constructor; lia|apply Str2; exact U2].
    - constructor; [|constructor]. split; [apply A; repeat constructor; lia|exact Gp]. }
  assert (Nd : NoDup (map fst (map (fun kv => (fst kv, embed (snd kv))) ([(bs "date", DataExportModel.JStr (DataExportModel.rfc3339 (p_date p)))] ++ fs ++ [(bs "posts", DataExportModel.JArr ps)])))).
  { rewrite map_map. cbn [fst]. unfold fs. rewrite !map_app. destruct (p_payee p), (p_tnote p); cbn [DataExportModel.omit map fst app]; vm_compute; repeat constructor; cbn [In]; intuition discriminate. }
  unfold fs in *. rewrite <- app_assoc in W, Nd.
  exact (embed_obj P _ W Nd).
Qed.
Lemma json_all_inv f64 ts js : DataExportModel.json_all f64 ts = Ok js -> Forall2 (fun t j => DataExportModel.json_trans f64 t = Ok j) ts js.
Proof.
  revert js. induction ts as [|t ts IH]; intros js; cbn [DataExportModel.json_all]; [intros E; injection E as <-; constructor|].
  destruct (DataExportModel.json_trans f64 t) as [j| | |] eqn:Et; try discriminate. cbn [obind]. destruct (DataExportModel.json_all f64 ts) as [r| | |] eqn:Er; try discriminate. cbn [obind]. intros E. injection E as <-. constructor; [exact Et|apply IH; reflexivity].
Qed.
Lemma export_good (P : Qc -> Prop) f64 srt b js : (forall t p, In t (snd (transactions srt b)) -> In p t -> post_utf8 p /\ P (f64 (p_val p))) -> DataExportModel.export_json f64 srt b = Ok js -> good_json P 4 (JArr (map embed js)).
Proof.
  intros H E. apply json_all_inv in E. set (ts := snd (transactions srt b)) in *. clearbody ts.
  assert (G : Forall (good_json P 3) (map embed js)).
  { induction E as [|t j ts js Et _ IH]; [constructor|]. cbn [map]. constructor.
    - apply embed_trans with f64 t; [| |exact Et]; apply Forall_forall; intros p Hp; apply (H t p); [left; reflexivity|exact Hp|left; reflexivity|exact Hp].
    - apply IH. intros t' p Ht Hp. apply (H t' p); [right; exact Ht|exact Hp]. }
  split; [|split; [|split]]; try (constructor; apply Forall_impl with (2 := G); intros x (X1 & X2 & X3 & X4); assumption).
  cbn [nesting]. apply le_n_S. apply list_max_le. apply Forall_forall. intros k Hk. apply in_map_iff in Hk as (x & <- & Hx). rewrite Forall_forall in G. apply (G x Hx).
Qed.
Lemma export_renumber f64 ts js : Forall2 (fun t j => DataExportModel.json_trans f64 t = Ok j) ts js -> (forall t p, In t ts -> In p t -> written (f64 (p_val p)) = p_val p) ->
  exists js', DataExportModel.json_all (fun q => q) ts = Ok js' /\ map (renumber written) (map embed js) = map embed js'.
Proof.
  intros F. induction F as [|t j ts js Et _ IH]; intros H; [exists []; split; reflexivity|]. destruct IH as (js' & E1 & E2); [intros t' p Ht Hp; apply (H t' p); [right; exact Ht|exact Hp]|].
  destruct t as [|p t]; [discriminate|]. cbn [DataExportModel.json_all DataExportModel.json_trans obind]. rewrite E1. cbn [obind]. eexists. split; [reflexivity|]. cbn [map]. f_equal; [|exact E2].
  injection Et as <-. specialize (fun q => H (p :: t) q (or_introl eq_refl)).
  assert (K : map (fun x => renumber written (embed (DataExportModel.json_post f64 x))) (p :: t) = map (fun x => embed (DataExportModel.json_post (fun q => q) x)) (p :: t)).
  { apply map_ext_in. intros q Hq. unfold DataExportModel.json_post. destruct (p_tnote q); cbn [DataExportModel.omit app embed map renumber fst snd]; rewrite (H q Hq); reflexivity. }
  assert (K' : map (renumber written) (map embed (map (DataExportModel.json_post f64) (p :: t))) = map embed (map (DataExportModel.json_post (fun q => q)) (p :: t))) by (rewrite !map_map; exact K). clear K. rename K' into K.
  change (renumber written (embed (DataExportModel.JObj ([(bs "date", DataExportModel.JStr (DataExportModel.rfc3339 (p_date p)))] ++ DataExportModel.omit (bs "payee") (p_payee p) ++ DataExportModel.omit (bs "note") (p_tnote p) ++ [(bs "posts", DataExportModel.JArr (map (DataExportModel.json_post f64) (p :: t)))]))) =
    embed (DataExportModel.JObj ([(bs "date", DataExportModel.JStr (DataExportModel.rfc3339 (p_date p)))] ++ DataExportModel.omit (bs "payee") (p_payee p) ++ DataExportModel.omit (bs "note") (p_tnote p) ++ [(bs "posts", DataExportModel.JArr (map (DataExportModel.json_post (fun q => q)) (p :: t)))]))).
  generalize dependent (map (DataExportModel.json_post f64) (p :: t)). generalize dependent (map (DataExportModel.json_post (fun q => q)) (p :: t)). intros l1 l2 K.
  destruct (p_payee p), (p_tnote p); cbn [DataExportModel.omit app embed map renumber fst snd]; rewrite K; reflexivity.
Qed.

(** What export --type Json writes stands for the transactions of the book (their fields are C63), every amount the float64 nearest to it. *)
Theorem C98_export short srt b pretty : sort_ok is_less srt -> reachable srt b ->
  (forall t p, In t (snd (transactions srt b)) -> In p t -> post_utf8 p /\ (qabs (to_f64 (p_val p)) < qz (2 ^ 1024))%Qc) ->
  exists js s, DataExportModel.export_json to_f64 srt b = Ok js /\ export_json_text short srt b pretty = Ok s /\ json_file as_float 4 s (JArr (map embed js)).
Proof.
  intros Hs Hr H. destruct (DataExportProps.C63_json_fields_partial to_f64 srt b Hs Hr) as (js & E & _). exists js.
  destruct (export_good finite64 to_f64 srt b js) as (G1 & G2 & G3 & G4); [intros t p Ht Hp; destruct (H t p Ht Hp); split; [assumption|split; [apply to_f64_float|assumption]]|exact E|].
  destruct (print_ok short (JArr (map embed js)) as_float (fun q => q) pretty 4) as (s & Es & F).
  - apply all_strings_impl with (2 := G1). apply utf8_bytes.
  - apply all_numbers_impl with (2 := G2). intros q [H1 H2]. split; [split; assumption|]. split; [|exact H2]. destruct (num_text_number q H1) as [_ W]. pose proof (to_f64_nearest (written q)) as Nr. rewrite W in Nr. exact Nr.
  - rewrite repaired_id by exact G1. exact G3.
  - exact G4.
  - exists s. split; [exact E|]. split; [unfold export_json_text; rewrite E; exact Es|]. rewrite renumber_id, repaired_id in F by exact G1. exact F.
Qed.
Print Assumptions C98_export.

Lemma short_finite k q : short_amount k q -> (qabs (to_f64 q) < qz (2 ^ 1024))%Qc.
Proof.
  intros (Hk & n & E & Hn). pose proof (units_of k q n E) as Q1. pose proof (err_abs q) as A. unfold Qclt. rewrite this_qabs, this_qz. assert (K1 : (1 <= inject_Z (10 ^ k))%Q) by (change 1%Q with (inject_Z 1); rewrite <- Zle_Qle; pose proof (Z.pow_pos_nonneg 10 k); lia).
  assert (B : (Qabs (this q) <= inject_Z (10 ^ 15))%Q).
  { apply Qle_trans with (Qabs (this q * inject_Z (10 ^ k))); [rewrite Qabs_Qmult, (Qabs_pos (inject_Z (10 ^ k))) by lra; pose proof (Qabs_nonneg (this q)); nra|]. rewrite Q1. apply Qabs_Qle_condition. rewrite <- inject_Z_opp, <- !Zle_Qle. lia. }
  apply Qle_lt_trans with (Qabs (this (to_f64 q) - this q) + Qabs (this q))%Q; [setoid_replace (this (to_f64 q)) with (this (to_f64 q) - this q + this q)%Q at 1 by ring; apply Qabs_triangle|].
  apply Qle_lt_trans with (inject_Z (10 ^ 15) + inject_Z (10 ^ 15))%Q; [lra|vm_compute; reflexivity].
Qed.
(** Amounts of up to 15 digits (with up to 17 decimals) are in the file exactly as they are in the book. *)
Theorem C98_export_exact short srt b pretty : sort_ok is_less srt -> reachable srt b ->
  (forall t p, In t (snd (transactions srt b)) -> In p t -> post_utf8 p /\ exists k, short_amount k (p_val p)) ->
  exists js s, DataExportModel.export_json (fun q => q) srt b = Ok js /\ export_json_text short srt b pretty = Ok s /\ json_file exactly 4 s (JArr (map embed js)).
Proof.
  intros Hs Hr H. destruct (DataExportProps.C63_json_fields_partial to_f64 srt b Hs Hr) as (js & E & _).
  destruct (export_good finite64 to_f64 srt b js) as (G1 & G2 & G3 & G4); [intros t p Ht Hp; destruct (H t p Ht Hp) as [H1 [k Hk]]; split; [assumption|split; [apply to_f64_float|apply (short_finite k), Hk]]|exact E|].
  pose proof (json_all_inv _ _ _ E) as F2. destruct (export_renumber _ _ _ F2) as (js' & J1 & J2); [intros t p Ht Hp; destruct (H t p Ht Hp) as [_ [k Hk]]; apply (short_written k), Hk|].
  destruct (print_ok short (JArr (map embed js)) exactly written pretty 4) as (s & Es & F).
  - apply all_strings_impl with (2 := G1). apply utf8_bytes.
  - apply all_numbers_impl with (2 := G2). intros q Hq. split; [exact Hq|reflexivity].
  - rewrite repaired_id by exact G1. exact G3.
  - exact G4.
  - exists js', s. split; [exact J1|]. split; [unfold export_json_text; rewrite E; exact Es|]. rewrite repaired_id in F by exact G1. cbn [renumber] in F. rewrite J2 in F. exact F.
Qed.
Print Assumptions C98_export_exact.

(** A book with a quote, a tab, an angle bracket and a non-ASCII letter in its texts; 33.1 and -33.1 are no float64. *)
Definition json_calls : list bcall :=
  [CTrans 20240105 (bs "Caf" ++ [195; 169] ++ bs " <""A&B"">") ([9] ++ bs "x"); CPost (bs "Food") (bs "EUR") (Q2Qc (331 # 10)) []; CPost (bs "Cash") (bs "EUR") (Q2Qc (-331 # 10)) []].
Definition json_book := built json_calls.
Definition ok_str (o : outcome str) : str := match o with Ok s => s | _ => [] end.
Example C98_nonvacuous_text : ok_str (export_json_text false xsort json_book false) =
  bs "[{""date"":""2024-01-05T00:00:00Z"",""payee"":""Caf" ++ [195; 169] ++ bs " \u003c\""A\u0026B\""\u003e"",""note"":""\tx"",""posts"":[{""account"":""Cash"",""ccy"":""EUR"",""amount"":-33.1,""note"":""\tx""},{""account"":""Food"",""ccy"":""EUR"",""amount"":33.1,""note"":""\tx""}]}]".
Proof. vm_compute. reflexivity. Qed.
Example C98_nonvacuous : reachable xsort json_book /\ forall t p, In t (snd (transactions xsort json_book)) -> In p t -> post_utf8 p /\ exists k, short_amount k (p_val p).
Proof.
  split; [apply built_reach; vm_compute; reflexivity|].
  assert (U : is_utf8 (bs "Caf" ++ [195; 169] ++ bs " <""A&B"">")). { exists (bs "Caf" ++ [233] ++ bs " <""A&B"">"). split; [vm_compute; reflexivity|]. apply Forall_forall. intros c Hc. vm_compute in Hc. unfold scalar. lia. }
  assert (A : forall s, forallb (fun c => (0 <=? c) && (c <? 128)) s = true -> is_utf8 s). { intros s H. apply ascii_utf8. apply Forall_forall. intros c Hc. rewrite forallb_forall in H. specialize (H c Hc). lia. }
  assert (All : forallb (fun p => str_eqb (p_payee p) (bs "Caf" ++ [195; 169] ++ bs " <""A&B"">") && forallb (fun c => (0 <=? c) && (c <? 128)) (p_tnote p) && forallb (fun c => (0 <=? c) && (c <? 128)) (p_acct p) && forallb (fun c => (0 <=? c) && (c <? 128)) (p_ccy p)
    && (qc_eqb (p_val p) (Q2Qc (331 # 10)) || qc_eqb (p_val p) (Q2Qc (-331 # 10)))) (concat (snd (transactions xsort json_book))) = true) by (vm_compute; reflexivity).
  intros t p Ht Hp. rewrite forallb_forall in All. specialize (All p). assert (Hc : In p (concat (snd (transactions xsort json_book)))) by (apply in_concat; exists t; split; assumption). specialize (All Hc).
  rewrite !andb_true_iff in All. destruct All as ((((P1 & P2) & P3) & P4) & P5). apply str_eqb_eq in P1. split; [repeat split; [rewrite P1; exact U|apply A; exact P2|apply A; exact P3|apply A; exact P4]|].
  exists 1. split; [lia|]. apply orb_true_iff in P5 as [P5|P5]; apply qc_eqb_eq in P5; rewrite P5; [exists 331|exists (-331)]; (split; [apply Qc_is_canon; vm_compute; reflexivity|vm_compute; discriminate]).
Qed.
(** The number 1/3 is written with the 16 digits that are needed; a byte that is no character is written as \ufffd. *)
Example C98_digits : num_text (to_f64 (Q2Qc (1 # 3))) = bs "0.3333333333333333" /\ num_text (to_f64 (Q2Qc (1 # 10))) = bs "0.1" /\ quote false [97; 255; 8; 12] = bs """a\ufffd\u0008\u000c""" /\ quote true [8; 12] = bs """\b\f""".
Proof. repeat split; vm_compute; reflexivity. Qed.
