(** * StarlingProofs: one run of download starling (C105). *)
From Coq Require Import ZifyBool Lqa.
From Verif Require Import Base Utf8 LoaderModel LoaderSpec ExportSpec ConvertModel ConvertSpec ConvertProps F64Model F64Spec F64Proofs JsonModel JsonSpec JsonWrite2 JsonProps JsonRead JsonRead2 JsonReadProps StateModel StateSpec StateProofs StateProofs2 StateProofs3 ShapeModel StarlingModel StarlingSpec ShapeProofs.

Definition deep5 : nat := Z.to_nat 9995.
Lemma depth_eq : depth = S (S deep5).
Proof. apply Nat2Z.inj. rewrite !Nat2Z.inj_succ. unfold depth, deep5. rewrite !Z2Nat.id by lia. reflexivity. Qed.
Lemma deep2_eq : deep2 = S depth.
Proof. Transparent deep2. apply Nat2Z.inj. rewrite !Nat2Z.inj_succ. unfold depth, deep2. rewrite !Z2Nat.id by lia. reflexivity. Opaque deep2. Qed.
Global Opaque depth deep5.

(** Without nil pointers, except for the spaces of a new account. *)
Definition p_entry : shape := SStruct [(bs "account", s_account); (bs "spaces", SPtr s_spaces); (bs "identifiers", SAny); (bs "feeditems", SMap (SMap s_item))].
Definition p_data : shape := SStruct [(bs "accounts", SMap p_entry); (bs "Payees", SList SAny)].

Lemma ascii_utf8 s : Forall (fun c => 0 <= c < 128) s -> is_utf8 s. Proof. intros Hs. exists s. apply text_ascii. exact Hs. Qed.
Fixpoint nodup_s (l : list str) : bool := match l with [] => true | x :: r => negb (existsb (str_eqb x) r) && nodup_s r end.
Lemma nodup_s_ok l : nodup_s l = true -> NoDup l.
Proof. induction l as [|x l IH]; intros H; [constructor|]. cbn [nodup_s] in H. apply andb_true_iff in H as [H1 H2]. constructor; [|auto]. intros Hx. apply negb_true_iff in H1. assert (existsb (str_eqb x) l = true) by (apply existsb_exists; exists x; split; [exact Hx|apply str_eqb_eq; reflexivity]). congruence. Qed.
Fixpoint named_b (s : shape) : bool :=
  match s with
  | SAny | SRaw _ => true
  | SPtr s' | SList s' | SMap s' => named_b s'
  | SStruct fs => nodup_s (map fst fs) && forallb (forallb (fun c => (0 <=? c) && (c <? 128))) (map fst fs) && (fix all (l : list (str * shape)) : bool := match l with [] => true | (_, s') :: r => named_b s' && all r end) fs
  end.
Lemma named_b_ok s : named_b s = true -> named s.
Proof.
  induction s as [|ks|s IH|s IH|s IH|fs IH] using shape_ind'; try exact (fun _ => I); try exact IH. cbn [named_b]. intros H. apply andb_true_iff in H as [H H3]. apply andb_true_iff in H as [H1 H2]. apply named_struct. split; [apply nodup_s_ok, H1|]. split.
  - apply Forall_forall. intros n Hn. apply ascii_utf8. apply Forall_forall. intros c Hc. rewrite forallb_forall in H2. specialize (H2 _ Hn). rewrite forallb_forall in H2. specialize (H2 _ Hc). lia.
  - clear H1 H2. induction IH as [|[n s] fs Hs _ IHfs]; [constructor|]. apply andb_true_iff in H3 as [H3 H4]. constructor; [apply Hs, H3|apply IHfs, H4].
Qed.
Lemma n_data : named s_data. Proof. apply named_b_ok. vm_compute. reflexivity. Qed.
Lemma n_entry : named s_entry. Proof. apply named_b_ok. vm_compute. reflexivity. Qed.
Lemma n_spaces : named s_spaces. Proof. apply named_b_ok. vm_compute. reflexivity. Qed.

(** ** Setting and getting *)
Lemma good_get d k j : good (S d) j -> good d (get k j).
Proof.
  intros G. unfold get. destruct j as [|b|q|x|l|m]; try apply good_null. apply good_obj in G as [N G]. cbn [members]. destruct (aget str_eqb k m) as [v|] eqn:E; [|apply good_null]. apply aget_in in E. rewrite Forall_forall in G. apply (G _ E).
Qed.
Lemma good_set d k v j : good (S d) j -> is_utf8 k -> good d v -> good (S d) (set k v j).
Proof.
  intros G U Gv. unfold set. assert (X : NoDup (map fst (members j)) /\ Forall (fun kv => is_utf8 (fst kv) /\ good d (snd kv)) (members j)) by (destruct j as [|b|q|x|l|m]; try (split; constructor); apply good_obj, G). destruct X as [N F]. apply good_obj. split; [apply (aset_NoDup str_eqb str_eqb_eq), N|].
  apply Forall_forall. intros x Hx. apply aset_in in Hx as [->|Hx]; [split; assumption|]. rewrite Forall_forall in F. apply F, Hx.
Qed.
Lemma fits_get fs n s j : fits (SStruct fs) j -> map_like j -> In (n, s) fs -> fits s (get n j).
Proof. intros H M Hn. apply fits_struct in H as (m & -> & _ & F). inversion M; subst. rewrite Forall_forall in F. destruct (F _ Hn) as (v & Hv1 & Hv2). cbn [fst snd] in *. rewrite (get_in m n v) by assumption. exact Hv2. Qed.
Lemma in_aset (k k' : str) (v : json) v' m : In (k, v) m -> k <> k' -> In (k, v) (aset str_eqb k' v' m).
Proof. induction m as [|[a x] m IH]; intros H Hk; [destruct H|]. cbn [aset]. destruct (str_eqb a k') eqn:E. - apply str_eqb_eq in E as ->. destruct H as [H|H]; [injection H as -> ->; contradiction|right; exact H]. - destruct H as [H|H]; [left; exact H|right; apply IH; assumption]. Qed.
Lemma aset_here (k : str) (v : json) m : In (k, v) (aset str_eqb k v m).
Proof. apply aget_in. apply (aget_aset_eq str_eqb str_eqb_eq). Qed.
Lemma fits_set fs n s v j : NoDup (map fst fs) -> fits (SStruct fs) j -> In (n, s) fs -> fits s v -> fits (SStruct fs) (set n v j).
Proof.
  intros N H Hn Hv. apply fits_struct in H as (m & -> & K & F). apply fits_struct. exists (aset str_eqb n v m). split; [reflexivity|]. split.
  - intros k Hk. apply in_map_iff in Hk as (x & <- & Hx). apply aset_in in Hx as [->|Hx]; [apply (in_map fst _ _ Hn)|apply K, in_map, Hx].
  - rewrite Forall_forall in *. intros [n' s'] Hn'. cbn [fst snd]. destruct (str_eqb n' n) eqn:E.
    + apply str_eqb_eq in E as ->. exists v. split; [apply aset_here|]. assert (s' = s) as -> by (pose proof (in_aget _ _ _ N Hn); pose proof (in_aget _ _ _ N Hn'); congruence). exact Hv.
    + destruct (F _ Hn') as (v' & H1 & H2). exists v'. split; [apply in_aset; [exact H1|]; intros ->; rewrite (proj2 (str_eqb_eq n n) eq_refl) in E; discriminate|exact H2].
Qed.
Lemma fits_put s k v j : fits (SMap s) j -> fits s v -> fits (SMap s) (set k v j).
Proof.
  intros H Hv. right. exists (aset str_eqb k v (members j)). split; [reflexivity|]. apply Forall_forall. intros x Hx. apply aset_in in Hx as [->|Hx]; [exact Hv|]. destruct H as [->|(m & -> & F)]; [destruct Hx|]. rewrite Forall_forall in F. apply F, Hx.
Qed.
Lemma fits_at s k v j : fits (SMap s) j -> aget str_eqb k (members j) = Some v -> fits s v.
Proof. intros [->|(m & -> & F)] E; [discriminate|]. apply aget_in in E. rewrite Forall_forall in F. apply (F _ E). Qed.
Lemma good_at d k v j : good (S d) j -> aget str_eqb k (members j) = Some v -> is_utf8 k /\ good d v.
Proof. destruct j as [|b|q|x|l|m]; try discriminate. intros G E. apply good_obj in G as [_ G]. apply aget_in in E. rewrite Forall_forall in G. apply (G _ E). Qed.
Lemma path_get k p v : at_path v (k :: p) = match aget str_eqb k (members v) with Some x => at_path x p | None => None end. Proof. apply get_get. Qed.
Lemma path_set_eq k p v j : at_path (set k v j) (k :: p) = at_path v p. Proof. rewrite path_get. unfold set. cbn [members]. rewrite (aget_aset_eq str_eqb str_eqb_eq). reflexivity. Qed.
Lemma path_set_neq k k' p v j : k <> k' -> at_path (set k' v j) (k :: p) = at_path j (k :: p). Proof. intros H. rewrite !path_get. unfold set. cbn [members]. rewrite (aget_aset_neq str_eqb str_eqb_eq) by congruence. reflexivity. Qed.
Lemma path_of_get k x p v : at_path (get k v) (x :: p) = at_path v (k :: x :: p). Proof. rewrite (path_get k). unfold get. destruct (aget str_eqb k (members v)); reflexivity. Qed.

(** ** Strings of values *)
Lemma has_same v v' k s : same v v' -> has v k s -> has v' k s.
Proof. intros S (m & -> & H). destruct (obj_same _ _ S) as (m' & ->). destruct (in_same _ _ _ _ S H) as (x & H1 & H2). apply str_same in H2 as ->. exists m'. auto. Qed.
Lemma has_str v k s : map_like v -> has v k s -> str_of v k = s.
Proof. intros M (m & -> & H). inversion M; subst. unfold str_of. rewrite (get_string_ok m k s) by assumption. reflexivity. Qed.
Lemma has_one v k s s' : map_like v -> has v k s -> has v k s' -> s = s'.
Proof. intros M H1 H2. apply (has_str _ _ _ M) in H1. apply (has_str _ _ _ M) in H2. congruence. Qed.
Lemma has_utf8 d v k s : good d v -> has v k s -> is_utf8 s.
Proof. intros G (m & -> & H). apply (str_utf8 m k); [apply G|exact H]. Qed.
Lemma has_null v k s : has v k s -> is_null v = false. Proof. intros (m & -> & _). reflexivity. Qed.
Lemma raw_fits v k keys : Forall (fun k => exists x, has v k x) (k :: keys) -> fits (SRaw (k :: keys)) v.
Proof.
  intros F. inversion F as [|? ? (x & m & -> & Hx) F']; subst. exists m. split; [reflexivity|]. apply Forall_impl with (2 := F). intros k0 (x0 & m0 & E & H0). injection E as <-. eauto.
Qed.
Lemma account_fits v id : is_account v id -> fits s_account v.
Proof. intros (H1 & H2 & H3). apply raw_fits. repeat constructor; eauto. Qed.
Lemma goal_fits v id : is_goal v id -> fits s_goal v.
Proof. intros (H1 & H2). apply raw_fits. repeat constructor; eauto. Qed.
Lemma space_fits v id : is_space v id -> fits s_space v.
Proof. intros (H1 & H2). apply raw_fits. repeat constructor; eauto. Qed.
Lemma item_fits ok v id : is_item ok v id -> fits s_item v.
Proof. intros (H1 & H2 & t & H3 & _). apply raw_fits. repeat constructor; eauto. Qed.
Lemma account_same v v' id : same v v' -> is_account v id -> is_account v' id.
Proof. intros S (H1 & (c & H2) & (t & H3)). split; [apply (has_same _ _ _ _ S H1)|]. split; [exists c; apply (has_same _ _ _ _ S H2)|exists t; apply (has_same _ _ _ _ S H3)]. Qed.
Lemma item_same ok v v' id : same v v' -> is_item ok v id -> is_item ok v' id.
Proof. intros S (H1 & (c & H2) & (t & H3 & H4)). split; [apply (has_same _ _ _ _ S H1)|]. split; [exists c; apply (has_same _ _ _ _ S H2)|exists t; split; [apply (has_same _ _ _ _ S H3)|exact H4]]. Qed.

(** ** Answers: an object with one list *)
Lemma single_ok s N n d bytes l : named s -> is_utf8 N -> field [N] n = Some N -> (S (S d) <= deep)%nat -> text as_float (S (S d)) bytes (JObj [(n, JArr l)]) -> Forall (fits s) l ->
  exists j l', fetch (SStruct [(N, SList s)]) (zero (SStruct [(N, SList s)])) bytes = Ok j /\ fetch (SPtr (SStruct [(N, SList s)])) (zero (SStruct [(N, SList s)])) bytes = Ok j /\ is_null j = false /\ get N j = JArr l' /\ Forall2 same l l' /\ Forall (good d) l'.
Proof.
  intros W U Hf Hd T F. destruct (text_ok _ bytes _ Hd T) as (v' & _ & E & S & G). destruct (obj_same _ _ S) as (m & ->). apply good_obj in G as [Nm G]. destruct (obj_same_elim _ _ S) as (_ & _ & H).
  assert (exists v, m = [(n, v)]) as [v ->].
  { inversion S as [| | | | |? ? _ _ Ks _]; subst. destruct m as [|[k v] [|[k2 v2] m]].
    - exfalso. apply (proj1 (Ks n)). left. reflexivity.
    - destruct (proj2 (Ks k)) as [X|[]]; [left; reflexivity|]. cbn in X. subst k. eauto.
    - exfalso. destruct (proj2 (Ks k)) as [X|[]]; [left; reflexivity|]. destruct (proj2 (Ks k2)) as [X2|[]]; [right; left; reflexivity|]. cbn [map fst] in Nm. cbn in X, X2. subst k k2. inversion Nm as [|? ? N1 _]; subst. apply N1. left. reflexivity. }
  specialize (H n). cbn [aget] in H. rewrite (proj2 (str_eqb_eq n n) eq_refl) in H. cbn [same_at] in H. inversion G as [|? ? [_ Gv] _]; subst. cbn [snd] in Gv.
  assert (Fv : fits (SList s) v) by (apply (fits_same (SList s) _ _ H); right; exists l; auto).
  destruct (into_ok true (SList s) W (Datatypes.S d) JNull v I Fv Gv) as (r & Er & Sr & Gr). pose proof (same_trans _ _ _ H Sr) as Sl. destruct (arr_same _ _ Sl) as (l' & -> & F2). apply good_arr in Gr.
  assert (X : into true (SStruct [(N, SList s)]) (zero (SStruct [(N, SList s)])) (JObj [(n, v)]) = Ok (JObj [(N, JArr l')])).
  { cbn [into zero map fst snd members put_struct]. rewrite Hf. cbn [aget]. rewrite (proj2 (str_eqb_eq N N) eq_refl). change ((fix into (strict : bool) (s0 : shape) (old j : json) {struct s0} : outcome json := _) true (SList s)) with (into true (SList s)) in *. cbn [zero] in *. cbn [into] in Er. rewrite Er. cbn [obind aset]. rewrite (proj2 (str_eqb_eq N N) eq_refl). reflexivity. }
  exists (JObj [(N, JArr l')]), l'. unfold fetch. rewrite E. cbn [obind]. split; [exact X|]. split; [cbn [into]; exact X|]. split; [reflexivity|]. split; [unfold get; cbn [members aget]; rewrite (proj2 (str_eqb_eq N N) eq_refl); reflexivity|]. split; [exact F2|exact Gr].
Qed.

(** ** Feeds *)
Definition F_items : list str := [bs "feeditems"].
Section Feeds.
  Context (rfc : str -> bool) (an : session).
  (** An entry of the account [id]. *)
  Definition entry_ok (id : str) (e : json) : Prop :=
    fits p_entry e /\ good deep2 e /\ has (get (bs "account") e) (bs "accountUid") id /\ forall cat uid v, at_path e [bs "feeditems"; cat; uid] = Some v -> is_item rfc v uid.
  Definition upd (its : str -> list (str * json)) (cats : list str) (e e' : json) : Prop :=
    forall cat uid, (In cat cats -> forall v, aget str_eqb uid (rev (its cat)) = Some v -> exists x, at_path e' [bs "feeditems"; cat; uid] = Some x /\ same v x) /\
                    (~ In cat cats \/ aget str_eqb uid (rev (its cat)) = None -> at_path e' [bs "feeditems"; cat; uid] = at_path e [bs "feeditems"; cat; uid]).
  Lemma str_dec (a b : str) : {a = b} + {a <> b}. Proof. apply list_eq_dec, Z.eq_dec. Qed.
  Lemma upd_app its c1 c2 e e1 e2 : upd its c1 e e1 -> upd its c2 e1 e2 -> upd its (c1 ++ c2) e e2.
  Proof.
    intros H1 H2 cat uid. destruct (H1 cat uid) as [A1 B1]. destruct (H2 cat uid) as [A2 B2]. split.
    - intros Hc v Ev. destruct (in_dec str_dec cat c2) as [H|H]; [apply (A2 H v Ev)|]. rewrite B2 by (left; exact H). apply (A1); [|exact Ev]. apply in_app_or in Hc as [Hc|Hc]; [exact Hc|contradiction].
    - intros H. assert (~ In cat c1 \/ aget str_eqb uid (rev (its cat)) = None) by (destruct H as [H|H]; [left; intros X; apply H, in_or_app; auto|auto]). assert (~ In cat c2 \/ aget str_eqb uid (rev (its cat)) = None) by (destruct H as [H|H]; [left; intros X; apply H, in_or_app; auto|auto]). rewrite B2, B1 by assumption. reflexivity.
  Qed.
  Lemma upd_none its e : upd its [] e e. Proof. intros cat uid. split; [intros []|reflexivity]. Qed.
  Definition others (e e' : json) : Prop := forall k, k <> bs "feeditems" -> get k e' = get k e.

  Lemma recent_in : forall (feed : list (str * json)) r, (r = [] -> feed <> []) -> let x := fold_left (fun r kv => let u := str_of (snd kv) (bs "updatedAt") in if str_eqb r [] || str_ltb r u then u else r) feed r in x = r /\ r <> [] \/ exists kv, In kv feed /\ x = str_of (snd kv) (bs "updatedAt").
  Proof.
    induction feed as [|kv feed IH]; intros r Hr; cbv zeta; cbn [fold_left].
    - destruct r; [exfalso; apply Hr; reflexivity|left; split; [reflexivity|discriminate]].
    - set (u := str_of (snd kv) (bs "updatedAt")). destruct (str_eqb r [] || str_ltb r u) eqn:E.
      + destruct feed as [|kv2 feed]; [right; exists kv; split; [left; reflexivity|reflexivity]|]. destruct (IH u) as [[H1 H2]|(kv' & H1 & H2)]; [intros _; discriminate|right; exists kv; split; [left; reflexivity|exact H1]|]. right. exists kv'. split; [right; exact H1|exact H2].
      + assert (Hn : r <> []) by (intros ->; cbn in E; discriminate). destruct (IH r) as [[H1 H2]|(kv' & H1 & H2)]; [intros X; contradiction|left; auto|]. right. exists kv'. split; [right; exact H1|exact H2].
  Qed.
  Lemma store_items_ok l : forall m, Forall (fun v => v <> JNull) l -> store_items m l = Ok (fold_left put (map (fun v => (str_of v (bs "feedItemUid"), v)) l) m).
  Proof. induction l as [|v l IH]; intros m F; [reflexivity|]. inversion F as [|? ? Hv F']; subst. cbn [store_items map fold_left]. destruct v; try (apply IH, F'). contradiction. Qed.

  Lemma feed_ok id e cat its : entry_ok id e -> is_utf8 cat -> text as_float depth (an_feed an id cat) (JObj [(bs "feedItems", JArr (map snd its))]) -> all_are (is_item rfc) its ->
    exists e', sync_feed rfc an e cat = Ok e' /\ entry_ok id e' /\ others e e' /\ upd (fun _ => its) [cat] e e'.
  Proof.
    intros (Hf & G & Ha & Hi) Uc T Fi. set (feeds := get (bs "feeditems") e).
    assert (Ff : fits (SMap (SMap s_item)) feeds) by (apply (fits_get _ (bs "feeditems") _ _ Hf); [apply G|cbn [In]; tauto]).
    pose proof G as G'. rewrite deep2_eq in G'. assert (Gf : good depth feeds) by apply (good_get _ _ _ G'). pose proof Gf as Gf'. rewrite depth_eq in Gf'.
    assert (Gm : good (S deep5) (get cat feeds)) by apply (good_get _ _ _ Gf').
    set (feed := members (get cat feeds)).
    assert (Pf : forall uid, at_path e [bs "feeditems"; cat; uid] = aget str_eqb uid feed).
    { intros uid. rewrite <- (path_of_get (bs "feeditems")), <- (path_of_get cat). fold feeds. rewrite path_get. fold feed. destruct (aget str_eqb uid feed); reflexivity. }
    assert (Nf : NoDup (map fst feed)) by (unfold feed; destruct (get cat feeds); try constructor; apply good_obj in Gm; apply Gm).
    assert (It : forall uid v, In (uid, v) feed -> is_item rfc v uid) by (intros uid v H; apply (Hi cat); rewrite Pf; apply (in_aget _ _ _ Nf H)).
    assert (Gi : Forall (fun kv => is_utf8 (fst kv) /\ good deep5 (snd kv)) feed) by (unfold feed; destruct (get cat feeds); try constructor; apply good_obj in Gm; apply Gm).
    destruct (single_ok (SPtr s_item) (bs "FeedItems") (bs "feedItems") deep5 (an_feed an id cat) (map snd its)) as (j & l & _ & Ej & Hn & El & S2 & Gl).
    { exact I. } { apply ascii_utf8. repeat constructor; lia. } { reflexivity. } { rewrite <- depth_eq, deep_eq, deep2_eq. lia. } { rewrite <- depth_eq. exact T. }
    { apply Forall_forall. intros v Hv. apply in_map_iff in Hv as (kv & <- & Hk). right. unfold all_are in Fi. rewrite Forall_forall in Fi. apply (item_fits _ _ _ (Fi _ Hk)). }
    assert (Il : Forall2 (fun kv v => same (snd kv) v /\ is_item rfc v (fst kv)) its l).
    { clear - Fi S2. revert l S2. induction Fi as [|kv its Hk _ IH]; intros l S2; inversion S2; subst; constructor; [|auto]. split; [assumption|]. apply (item_same _ (snd kv)); assumption. }
    set (new := map (fun v => (str_of v (bs "feedItemUid"), v)) l).
    assert (Nw : Forall2 same_kv its new).
    { clear - Il Gl. unfold new. induction Il as [|kv v its l [Sv Iv] _ IH]; [constructor|]. inversion Gl as [|? ? G1 G2]; subst. cbn [map]. constructor; [|apply IH, G2]. split; cbn [fst snd]; [symmetry; apply has_str; [apply G1|apply Iv]|exact Sv]. }
    assert (Wn : Forall (fun kv => is_utf8 (fst kv) /\ good deep5 (snd kv) /\ is_item rfc (snd kv) (fst kv)) new).
    { clear - Il Gl. unfold new. induction Il as [|kv v its l [Sv Iv] _ IH]; [constructor|]. inversion Gl as [|? ? G1 G2]; subst. cbn [map]. constructor; [|apply IH, G2]. cbn [fst snd]. rewrite (has_str v _ (fst kv)); [|apply G1|apply Iv]. split; [apply (has_utf8 _ _ _ _ G1 (proj1 Iv))|]. auto. }
    set (feed' := fold_left put new feed). set (e' := set (bs "feeditems") (set cat (JObj feed') feeds) e).
    assert (Ag : forall uid, aget str_eqb uid feed' = match aget str_eqb uid (rev new) with Some v => Some v | None => aget str_eqb uid feed end) by (intros uid; apply put_aget).
    assert (W' : Forall (fun kv => is_utf8 (fst kv) /\ good deep5 (snd kv) /\ is_item rfc (snd kv) (fst kv)) feed').
    { apply Forall_forall. intros [uid v] Hx. apply put_in in Hx as [Hx|Hx]; [rewrite Forall_forall in Wn; apply (Wn _ Hx)|]. rewrite Forall_forall in Gi. destruct (Gi _ Hx). split; [assumption|]. split; [assumption|]. apply It, Hx. }
    assert (G5 : good (S deep5) (JObj feed')) by (apply good_obj; split; [apply put_nodup, Nf|]; apply Forall_impl with (2 := W'); intros kv (X1 & X2 & _); auto).
    assert (Pe : forall cat' uid, at_path e' [bs "feeditems"; cat'; uid] = if str_eqb cat' cat then aget str_eqb uid feed' else at_path e [bs "feeditems"; cat'; uid]).
    { intros cat' uid. unfold e'. rewrite path_set_eq. destruct (str_eqb cat' cat) eqn:Ec.
      - apply str_eqb_eq in Ec as ->. rewrite path_set_eq. rewrite path_get. cbn [members]. destruct (aget str_eqb uid feed'); reflexivity.
      - rewrite path_set_neq by (intros ->; rewrite (proj2 (str_eqb_eq cat cat) eq_refl) in Ec; discriminate). unfold feeds. apply path_of_get. }
    exists e'. split; [|split; [|split]].
    - unfold sync_feed. rewrite (has_null _ _ _ Ha). fold feeds. fold feed. rewrite (has_str _ _ id); [|apply (good_get _ _ _ G')|exact Ha].
      replace (if se_all an || match feed with [] => true | _ => false end then Ok tt else if existsb (fun kv => is_null (snd kv)) feed then Panic else if rfc (recent feed) then Ok tt else Error) with (@Ok unit tt).
      + cbn [obind]. unfold s_feed. rewrite Ej. cbn [obind]. rewrite Hn, El. cbn [elements]. rewrite store_items_ok; [reflexivity|]. clear - Il. induction Il as [|kv v its l [_ (H & _)] _ IH]; [constructor|]. constructor; [|exact IH]. intros ->. destruct H as (m & H & _). discriminate.
      + destruct (se_all an); [reflexivity|]. cbn [orb]. destruct feed as [|kv0 feed0] eqn:Ef; [reflexivity|]. rewrite <- Ef in *.
        replace (existsb (fun kv => is_null (snd kv)) feed) with false.
        2: { symmetry. clear - It. induction feed as [|[uid v] r IH]; [reflexivity|]. cbn [existsb snd]. rewrite IH by (intros u x H; apply It; right; exact H). destruct (It uid v) as (H & _); [left; reflexivity|]. rewrite (has_null _ _ _ H). reflexivity. }
        replace (rfc (recent feed)) with true; [reflexivity|]. symmetry. unfold recent. destruct (recent_in feed []) as [[_ X]|([uid v] & H1 & H2)]; [intros _; rewrite Ef; discriminate|contradiction|]. cbv zeta in H2. rewrite H2. cbn [snd].
        destruct (It _ _ H1) as (_ & _ & t & Ht & Hr). rewrite (has_str v _ t); [exact Hr| |exact Ht]. rewrite Forall_forall in Gi. apply (Gi _ H1).
    - split; [|split; [|split]].
      + unfold e'. apply (fits_set _ _ (SMap (SMap s_item))); [apply nodup_s_ok; vm_compute; reflexivity|exact Hf|cbn [In]; tauto|]. apply fits_put; [exact Ff|]. right. exists feed'. split; [reflexivity|]. apply Forall_impl with (2 := W'). intros kv (_ & _ & X). apply (item_fits _ _ _ X).
      + unfold e'. rewrite deep2_eq. apply good_set; [exact G'|apply ascii_utf8; repeat constructor; lia|]. rewrite depth_eq. apply good_set; [exact Gf'|exact Uc|exact G5].
      + unfold e'. rewrite get_set_neq; [exact Ha|intros X; discriminate X].
      + intros cat' uid v. rewrite Pe. destruct (str_eqb cat' cat); [|apply Hi]. intros E. apply aget_in in E. rewrite Forall_forall in W'. apply (W' _ E).
    - intros k Hk. unfold e'. apply get_set_neq, Hk.
    - intros cat' uid. rewrite Pe. pose proof (aget_same_kv _ _ uid (Forall2_rev _ _ _ Nw)) as Sr. split.
      + intros [<-|[]] v Ev. rewrite (proj2 (str_eqb_eq cat cat) eq_refl), Ag. rewrite Ev in Sr. destruct (aget str_eqb uid (rev new)) as [x|]; cbn [same_at] in Sr; [|contradiction]. exists x. auto.
      + intros H. destruct (str_eqb cat' cat) eqn:Ec; [|reflexivity]. apply str_eqb_eq in Ec as ->. destruct H as [H|H]; [exfalso; apply H; left; reflexivity|]. rewrite Ag, Pf. rewrite H in Sr. destruct (aget str_eqb uid (rev new)); cbn [same_at] in Sr; [contradiction|reflexivity].
  Qed.
  Lemma feeds_ok id its cats : (forall cat, In cat cats -> is_utf8 cat /\ text as_float depth (an_feed an id cat) (JObj [(bs "feedItems", JArr (map snd (its cat)))]) /\ all_are (is_item rfc) (its cat)) ->
    forall e, entry_ok id e -> exists e', sync_feeds rfc an e cats = Ok e' /\ entry_ok id e' /\ others e e' /\ upd its cats e e'.
  Proof.
    induction cats as [|c cats IH]; intros H e E; [exists e; split; [reflexivity|]; split; [exact E|]; split; [intros k _; reflexivity|apply upd_none]|].
    destruct (H c) as (U & T & F); [left; reflexivity|]. destruct (feed_ok id e c (its c) E U T F) as (e1 & E1 & O1 & X1 & D1). destruct (IH (fun cat Hc => H cat (or_intror Hc)) e1 O1) as (e2 & E2 & O2 & X2 & D2).
    exists e2. cbn [sync_feeds]. rewrite E1. cbn [obind]. split; [exact E2|]. split; [exact O2|]. split; [intros k Hk; rewrite X2, X1 by exact Hk; reflexivity|]. change (c :: cats) with ([c] ++ cats). apply (upd_app its [c] cats e e1 e2); [|exact D2].
    intros cat uid. destruct (D1 cat uid) as [A B]. split.
    - intros [<-|[]]. apply A. left. reflexivity.
    - intros [Hn|Hn]; apply B; [left; exact Hn|]. destruct (str_dec cat c) as [->|Hc]; [right; exact Hn|left; intros [X|[]]; congruence].
  Qed.
End Feeds.
