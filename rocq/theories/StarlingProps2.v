(** * StarlingProps2: a history of download starling on concrete bytes, and answers that leave lists out (C105). *)
From Coq Require Import ZifyBool.
From Verif Require Import Base Utf8 LoaderModel LoaderSpec ExportSpec ConvertModel ConvertSpec ConvertProps F64Model F64Spec F64Proofs JsonModel JsonSpec JsonWrite2 JsonProps JsonRead JsonRead2 JsonReadProps StateModel StateSpec StateProofs StateProofs2 StateProofs3 StateCut StateProps ShapeModel StarlingModel StarlingSpec ShapeProofs StarlingProofs StarlingProofs2 StarlingProps.

(** A text of a value without numbers, for examples. *)
Definition lit (j : json) : str := match marshal_indent true (bs "  ") j with Ok s => s | _ => [] end.
Definition ascii (s : str) : bool := forallb (fun c => (0 <=? c) && (c <? 128)) s.
Definition nodup_s (l : list str) : bool := (fix go (l : list str) := match l with [] => true | x :: r => negb (existsb (str_eqb x) r) && go r end) l.
Fixpoint simple (d : nat) (j : json) : bool :=
  match d, j with
  | _, JNull => true
  | _, JStr s => ascii s
  | S d', JArr l => forallb (simple d') l
  | S d', JObj m => nodup_s (map fst m) && forallb (fun kv => ascii (fst kv) && simple d' (snd kv)) m
  | _, _ => false
  end.
Lemma ascii_ok s : ascii s = true -> is_utf8 s.
Proof. intros H. exists s. apply text_ascii. apply Forall_forall. intros c Hc. unfold ascii in H. rewrite forallb_forall in H. specialize (H c Hc). lia. Qed.
Lemma simple_ok d : forall j, simple d j = true -> good d j.
Proof.
  assert (Gs : forall d s, ascii s = true -> good d (JStr s)) by (intros d' s H; split; [constructor; apply ascii_ok, H|]; split; [constructor|]; split; [constructor|cbn [nesting]; lia]).
  induction d as [|d IH]; intros j H.
  - destruct j; try discriminate; [apply good_null|apply Gs, H].
  - destruct j; try discriminate; [apply good_null|apply Gs, H| |]; cbn [simple] in H.
    + apply good_arr. apply Forall_forall. intros x Hx. apply IH. rewrite forallb_forall in H. auto.
    + apply andb_true_iff in H as [H1 H2]. apply good_obj. split; [apply nodup_b, H1|]. apply Forall_forall. intros x Hx. rewrite forallb_forall in H2. specialize (H2 x Hx). apply andb_true_iff in H2 as [H2 H3]. split; [apply ascii_ok, H2|apply IH, H3].
Qed.
Local Transparent depth.
Lemma ten_deep : (10 <= depth)%nat. Proof. unfold depth. apply Nat2Z.inj_le. rewrite Z2Nat.id by lia. lia. Qed.
Local Opaque depth.
Lemma lit_text d j : simple d j = true -> (d <= 10)%nat -> text as_float depth (lit j) j.
Proof.
  intros H D. assert (D2 : (d <= depth)%nat) by (apply Nat.le_trans with (1 := D), ten_deep).
  destruct (indent_ok true (bs "  ") j as_float (fun q => q) d two_blanks (simple_ok d j H)) as (s & t & E & T & V); [apply finite_numbers, (simple_ok d j H)|]. rewrite renumber_id in V. unfold lit. rewrite E. destruct (value_text as_float depth s t j T (proj1 (value_mono as_float) d t j V depth D2)) as [H1 H2]. split; assumption.
Qed.

(** ** A history *)
Definition ex_rfc (s : str) : bool := negb (str_eqb s []).
Definition ex_account : json := JObj [(bs "accountUid", JStr (bs "a1")); (bs "defaultCategory", JStr (bs "c1")); (bs "createdAt", JStr (bs "2020"))].
Definition ex_goal : json := JObj [(bs "savingsGoalUid", JStr (bs "g1")); (bs "name", JStr (bs "Holiday"))].
Definition ex_item (id t : str) : json := JObj [(bs "feedItemUid", JStr id); (bs "transactionTime", JStr (bs "2020")); (bs "updatedAt", JStr t)].
(** A server with one account, these savings goals, and these items in every category. *)
Definition ex_sent (gs : list (str * json)) (its : list (str * json)) : sent := mkSent [(bs "a1", ex_account)] (fun _ => JObj [(bs "iban", JStr (bs "GB00"))]) (fun _ => gs) (fun _ => []) (fun _ _ => its) [JStr (bs "Bob")].
Definition ex_answers (s : sent) : session := mkSession false (fun l => l)
  (lit (JObj [(bs "accounts", JArr (map snd (accounts s)))])) (fun id => lit (identifiers s id)) (fun id => lit (JObj [(bs "savingsGoals", JArr (map snd (goals s id))); (bs "spendingSpaces", JArr (map snd (spaces s id)))]))
  (fun id cat => lit (JObj [(bs "feedItems", JArr (map snd (items s id cat)))])) (lit (JObj [(bs "payees", JArr (payees s))])).
Lemma has_b m k s : aget str_eqb k m = Some (JStr s) -> has (JObj m) k s. Proof. intros H. exists m. split; [reflexivity|]. apply (aget_In str_eqb str_eqb_eq), H. Qed.
Lemma ex_item_ok id t : ex_rfc t = true -> is_item ex_rfc (ex_item id t) id.
Proof. intros H. split; [apply has_b; reflexivity|]. split; [eexists; apply has_b; reflexivity|]. exists t. split; [apply has_b; reflexivity|exact H]. Qed.
Definition ex1 : sent := ex_sent [(bs "g1", ex_goal)] [(bs "i1", ex_item (bs "i1") (bs "2020")); (bs "i2", ex_item (bs "i2") (bs "2020"))].
Definition ex2 : sent := ex_sent [] [(bs "i1", ex_item (bs "i1") (bs "2021"))].
Lemma ex_run s : s = ex1 \/ s = ex2 -> run_with as_float ex_rfc (ex_answers s) s.
Proof.
  intros Hs. split; [|intros l; apply Permutation_refl]. assert (Hi : all_are is_account [(bs "a1", ex_account)]) by (constructor; [|constructor]; split; [apply has_b; reflexivity|split; eexists; apply has_b; reflexivity]).
  assert (Hg : all_are is_goal [(bs "g1", ex_goal)]) by (constructor; [|constructor]; split; [apply has_b; reflexivity|eexists; apply has_b; reflexivity]).
  destruct Hs as [-> | ->]; (split; [split; [apply (lit_text 10); [reflexivity|lia]|exact Hi]|]; split; [apply (lit_text 10); [reflexivity|lia]|]; intros id; split; [apply (lit_text 10); [reflexivity|lia]|]; split; [apply (lit_text 10); [reflexivity|lia]|]; split; [first [exact Hg|constructor]|]; split; [constructor|]; intros cat; split; [apply (lit_text 10); [reflexivity|lia]|]; repeat (constructor; try (apply ex_item_ok; reflexivity))).
Qed.
(** Two runs meet the hypotheses of C105_history_partial; the item i1 is updated, i2 stays, and the goal, which is gone, is gone from the list. *)
Example C105_history_nonvacuous : Forall2 (run_with as_float ex_rfc) [ex_answers ex1; ex_answers ex2] [ex1; ex2] /\ exists bytes, runs ex_rfc true None [ex_answers ex1; ex_answers ex2] = Ok (Some bytes) /\ exists v, unmarshal_json bytes = Ok v /\ at_path v [bs "accounts"; bs "a1"; bs "feeditems"; bs "c1"; bs "i1"; bs "updatedAt"] = Some (JStr (bs "2021")) /\ at_path v [bs "accounts"; bs "a1"; bs "feeditems"; bs "g1"; bs "i1"; bs "updatedAt"] = Some (JStr (bs "2020")) /\ at_path v [bs "accounts"; bs "a1"; bs "feeditems"; bs "c1"; bs "i2"; bs "updatedAt"] = Some (JStr (bs "2020")) /\ at_path v [bs "accounts"; bs "a1"; bs "spaces"; bs "savingsGoals"] = Some (JArr []).
Proof.
  split; [constructor; [apply ex_run; auto|constructor; [apply ex_run; auto|constructor]]|]. eexists. split; [vm_compute; reflexivity|]. eexists. split; [vm_compute; reflexivity|]. repeat split; vm_compute; reflexivity.
Qed.

(** ** Lists that are left out *)
(** An answer that leaves an empty list of spaces out ({} for no savings goals and no spaces) keeps those of the run before, though they are gone. *)
Definition leaves_out (an : session) : session := mkSession (se_all an) (se_ord an) (an_accounts an) (an_ident an) (fun _ => bs "{}") (an_feed an) (an_payees an).
Theorem C105_omitted_refuted : exists rfc an1 an2 s1 s2, run_with as_float rfc an1 s1 /\ run_with as_float rfc an2 s2 /\ (forall id, goals s2 id = [] /\ spaces s2 id = []) /\ exists bytes v, runs rfc true None [an1; leaves_out an2] = Ok (Some bytes) /\ text as_float deep bytes v /\ ~ holds_all v [s2; s1].
Proof.
  exists ex_rfc, (ex_answers ex1), (ex_answers ex2), ex1, ex2. split; [apply ex_run; auto|]. split; [apply ex_run; auto|]. split; [intros id; split; reflexivity|].
  assert (E : exists bytes v, runs ex_rfc true None [ex_answers ex1; leaves_out (ex_answers ex2)] = Ok (Some bytes) /\ unmarshal_json bytes = Ok v /\ ascii bytes = true /\ at_path v [bs "accounts"; bs "a1"; bs "spaces"; bs "savingsGoals"] = Some (JArr [sort_json ex_goal])) by (eexists _, _; split; [vm_compute; reflexivity|]; split; [vm_compute; reflexivity|]; split; vm_compute; reflexivity).
  destruct E as (bytes & v & E & U & A & P). exists bytes, v. split; [exact E|]. split; [split; [apply Forall_forall; intros c Hc; unfold ascii in A; rewrite forallb_forall in A; specialize (A c Hc); lia|]; rewrite deep_levels; apply (proj1 (C99_whole_text bytes)), U|].
  intros (_ & _ & H & _). specialize (H (bs "a1")). unfold found in H. rewrite P in H. destruct H as (x & [_ ->] & S). cbn [ex2 ex_sent goals map] in S. inversion S as [| | | |? ? F|]; subst. inversion F.
Qed.
Print Assumptions C105_omitted_refuted.
