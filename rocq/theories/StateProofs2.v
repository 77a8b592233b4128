(** * StateProofs2: loading, storing and saving the state of download monzo (C100). *)
From Coq Require Import ZifyBool Lqa.
From Verif Require Import Base Utf8 LoaderModel LoaderSpec ExportSpec ConvertModel ConvertSpec ConvertProps F64Model F64Spec F64Proofs JsonModel JsonSpec JsonWrite2 JsonProps JsonRead JsonRead2 JsonReadProps StateModel StateSpec StateProofs.

Definition deep2 : nat := Z.to_nat 9998.
Lemma deep_eq : deep = S (S deep2).
Proof. apply Nat2Z.inj. rewrite !Nat2Z.inj_succ. unfold deep, deep2. rewrite !Z2Nat.id by lia. reflexivity. Qed.
Lemma deep_levels : deep = levels. Proof. reflexivity. Qed.
Global Opaque deep deep2.

(** ** Tables *)
Lemma aget_app (a b : list (str * json)) k : aget str_eqb k (a ++ b) = match aget str_eqb k a with Some v => Some v | None => aget str_eqb k b end.
Proof. induction a as [|[k' v] a IH]; [reflexivity|]. cbn [app aget]. destruct (str_eqb k' k); [reflexivity|exact IH]. Qed.
Definition same_at (a b : option json) : Prop := match a, b with Some v, Some v' => same v v' | None, None => True | _, _ => False end.
Lemma same_at_trans a b c : same_at a b -> same_at b c -> same_at a c.
Proof. destruct a, b, c; cbn; try tauto. apply same_trans. Qed.
Lemma same_at_sym a b : same_at a b -> same_at b a.
Proof. destruct a, b; cbn; try tauto. apply same_sym. Qed.
Lemma table_trans a b c : same_table a b -> same_table b c -> same_table a c.
Proof. intros [_ H1] [N H2]. split; [exact N|]. intros k. apply (same_at_trans _ _ _ (H1 k) (H2 k)). Qed.
Lemma table_nil : same_table [] []. Proof. split; [constructor|intros k; exact I]. Qed.
Lemma same_at_in a b k v : same_at (aget str_eqb k a) (aget str_eqb k b) -> aget str_eqb k b = Some v -> exists v0, In (k, v0) a /\ same v0 v.
Proof. intros H E. rewrite E in H. destruct (aget str_eqb k a) as [v0|] eqn:E0; [|contradiction]. exists v0. split; [apply (aget_In str_eqb str_eqb_eq); exact E0|exact H]. Qed.
(** A second batch on top of a first. *)
Lemma newest_app old s1 m1 s2 m2 : newest old s1 m1 -> newest m1 s2 m2 -> newest old (s1 ++ s2) m2.
Proof.
  intros [_ H1] [N H2]. split; [exact N|]. intros k. rewrite rev_app_distr, <- app_assoc, aget_app. specialize (H1 k). specialize (H2 k). rewrite aget_app in H2. change (same_at (match aget str_eqb k (rev s2) with Some v => Some v | None => aget str_eqb k m1 end) (aget str_eqb k m2)) in H2.
  change (same_at (match aget str_eqb k (rev s2) with Some v => Some v | None => aget str_eqb k (rev s1 ++ old) end) (aget str_eqb k m2)). destruct (aget str_eqb k (rev s2)); [exact H2|]. apply (same_at_trans _ _ _ H1 H2).
Qed.
Lemma newest_none old m : same_table old m -> newest old [] m. Proof. intros H. exact H. Qed.
(** Batches of the same values. *)
Lemma aget_same_kv a b k : Forall2 same_kv a b -> same_at (aget str_eqb k a) (aget str_eqb k b).
Proof. apply same_aget. Qed.
Lemma newest_put old m1 sent sent' m2 : same_table old m1 -> Forall2 same_kv sent sent' -> m2 = fold_left put sent' m1 -> newest old sent m2.
Proof.
  intros [N1 H1] F ->. split; [apply put_nodup; exact N1|]. intros k. rewrite put_aget, aget_app. pose proof (aget_same_kv _ _ k (Forall2_rev _ _ _ F)) as G. specialize (H1 k).
  change (same_at (match aget str_eqb k (rev sent) with Some v => Some v | None => aget str_eqb k old end) (match aget str_eqb k (rev sent') with Some v => Some v | None => aget str_eqb k m1 end)).
  destruct (aget str_eqb k (rev sent)), (aget str_eqb k (rev sent')); cbn [same_at] in G; try contradiction; [exact G|exact H1].
Qed.

(** ** Maps of the program and the JSON they stand for *)
Section Map.
  Context {A : Type} (f : json -> outcome A) (data : A -> json) (id : A -> str).
  Definition view (m : list (str * option A)) : list (str * json) := map (fun kv => (fst kv, match snd kv with Some a => data a | None => JNull end)) m.
  Definition ok_entry (kv : str * option A) : Prop := is_utf8 (fst kv) /\ exists a, snd kv = Some a /\ id a = fst kv /\ f (data a) = Ok a /\ good deep2 (data a).
  Lemma view_aset k a m : view (aset str_eqb k (Some a) m) = aset str_eqb k (data a) (view m).
  Proof. induction m as [|[k' v] m IH]; [reflexivity|]. cbn [aset view map fst snd]. fold (view m). destruct (str_eqb k' k); [reflexivity|]. cbn [view map fst snd]. fold (view (aset str_eqb k (Some a) m)). rewrite IH. reflexivity. Qed.
  Lemma aset_in {B} (k : str) (b : B) m x : In x (aset str_eqb k b m) -> x = (k, b) \/ In x m.
  Proof.
    induction m as [|[k' v] m IH]; cbn [aset]; intros H; [destruct H as [H|[]]; auto|]. destruct (str_eqb k' k) eqn:E.
    - apply str_eqb_eq in E as <-. destruct H as [H|H]; [auto|right; right; exact H].
    - destruct H as [H|H]; [right; left; exact H|]. destruct (IH H); [auto|right; right; assumption].
  Qed.
  Lemma aset_ok k a m : is_utf8 k -> id a = k -> f (data a) = Ok a -> good deep2 (data a) -> Forall ok_entry m -> Forall ok_entry (aset str_eqb k (Some a) m).
  Proof. intros H1 H2 H3 H4 F. rewrite Forall_forall in *. intros x Hx. apply aset_in in Hx as [->|Hx]; [|auto]. split; [exact H1|]. exists a. auto. Qed.
  (** reading members *)
  Definition readable (kv : str * json) : Prop := is_utf8 (fst kv) /\ snd kv <> JNull /\ good deep2 (snd kv) /\ exists a, f (snd kv) = Ok a /\ data a = snd kv /\ id a = fst kv.
  Lemma ptr_ok v a : v <> JNull -> f v = Ok a -> ptr f v = Ok (Some a).
  Proof. intros H E. unfold ptr. destruct v; try (rewrite E; reflexivity). contradiction. Qed.
  Lemma put_all_ok l : forall m, Forall readable l -> Forall ok_entry m -> exists m', put_all f m l = Ok m' /\ view m' = fold_left put l (view m) /\ Forall ok_entry m'.
  Proof.
    induction l as [|[k v] l IH]; intros m F O; [exists m; auto|]. inversion F as [|? ? (U & Hv & G & a & E & Hd & Hi) F']; subst. cbn [fst snd] in *. cbn [put_all]. rewrite (ptr_ok v a Hv E). cbn [obind].
    destruct (IH (aset str_eqb k (Some a) m) F') as (m' & E1 & E2 & O'); [apply aset_ok; rewrite ?Hd; auto|]. exists m'. split; [exact E1|]. split; [|exact O']. rewrite E2, view_aset, Hd. reflexivity.
  Qed.
  Lemma all_ptr_ok l : Forall (fun v => v <> JNull /\ exists a, f v = Ok a) l -> exists as_, all_ptr f l = Ok (map Some as_) /\ Forall2 (fun v a => f v = Ok a) l as_.
  Proof.
    induction 1 as [|v l [Hv [a E]] _ (as_ & E1 & F)]; [exists []; split; [reflexivity|constructor]|]. exists (a :: as_). split; [|constructor; assumption]. cbn [all_ptr]. rewrite (ptr_ok v a Hv E). cbn [obind]. rewrite E1. reflexivity.
  Qed.
  (** storing what was sent *)
  Lemma store_ok l : forall m, Forall (fun a => is_utf8 (id a) /\ f (data a) = Ok a /\ good deep2 (data a)) l -> Forall ok_entry m ->
    exists m', store id m (map Some l) = Ok m' /\ view m' = fold_left put (map (fun a => (id a, data a)) l) (view m) /\ Forall ok_entry m'.
  Proof.
    induction l as [|a l IH]; intros m F O; [exists m; auto|]. inversion F as [|? ? (U & E & G) F']; subst. cbn [map store]. destruct (IH (aset str_eqb (id a) (Some a) m) F') as (m' & E1 & E2 & O'); [apply aset_ok; auto|].
    exists m'. split; [exact E1|]. split; [|exact O']. rewrite E2, view_aset. reflexivity.
  Qed.
End Map.

(** ** Transactions and accounts *)
Lemma in_same m m' k v : same (JObj m) (JObj m') -> In (k, v) m -> exists v', In (k, v') m' /\ same v v'.
Proof.
  intros H Hk. inversion H as [| | | | |? ? N1 N2 K V]; subst. assert (Hm : In k (map fst m')) by (apply K; apply in_map_iff; exists (k, v); auto). apply in_map_iff in Hm as ([k' v'] & E & Hm). cbn in E. subst k'. exists v'. split; [exact Hm|]. apply (V k); assumption.
Qed.
Lemma str_same s v : same (JStr s) v -> v = JStr s. Proof. intros H. inversion H. reflexivity. Qed.
Lemma obj_same m v : same (JObj m) v -> exists m', v = JObj m'. Proof. intros H. inversion H; eauto. Qed.
Lemma is_tx_same v v' id : same v v' -> is_tx v id -> is_tx v' id.
Proof.
  intros H (m & c & -> & H1 & H2). destruct (obj_same _ _ H) as (m' & ->). destruct (in_same _ _ _ _ H H1) as (x & X1 & X2). apply str_same in X2 as ->. destruct (in_same _ _ _ _ H H2) as (y & Y1 & Y2). apply str_same in Y2 as ->. exists m', c. auto.
Qed.
Lemma is_acct_same v v' id : same v v' -> is_acct v id -> is_acct v' id.
Proof. intros H (m & -> & H1). destruct (obj_same _ _ H) as (m' & ->). destruct (in_same _ _ _ _ H H1) as (x & X1 & X2). apply str_same in X2 as ->. exists m'. auto. Qed.
Lemma get_string_ok m k s : NoDup (map fst m) -> In (k, JStr s) m -> get_string (JObj m) k = Ok s.
Proof. intros N H. unfold get_string. rewrite (proj2 (aget_Some_iff str_eqb str_eqb_eq k (JStr s) m N) H). reflexivity. Qed.
Lemma get_string_inv v k s : get_string v k = Ok s -> exists m, v = JObj m /\ In (k, JStr s) m.
Proof. unfold get_string. destruct v as [| | | | |m]; try discriminate. destruct (aget str_eqb k m) as [[| | |x| |]|] eqn:E; try discriminate. intros H. injection H as ->. exists m. split; [reflexivity|]. apply (aget_In str_eqb str_eqb_eq). exact E. Qed.
Lemma tx_of_ok v id : map_like v -> is_tx v id -> exists a, tx_of v = Ok a /\ t_data a = v /\ t_id a = id.
Proof. intros M (m & c & -> & H1 & H2). inversion M; subst. exists (mkTx id c (JObj m)). unfold tx_of. rewrite (get_string_ok m (bs "id") id), (get_string_ok m (bs "created") c) by assumption. repeat split; reflexivity. Qed.
Lemma tx_of_inv v a : tx_of v = Ok a -> t_data a = v /\ is_tx v (t_id a).
Proof.
  unfold tx_of. destruct (get_string v (bs "id")) as [id| | |] eqn:E1; try discriminate. cbn [obind]. destruct (get_string v (bs "created")) as [c| | |] eqn:E2; try discriminate. cbn [obind]. intros H. injection H as <-. cbn [t_data t_id]. split; [reflexivity|].
  apply get_string_inv in E1 as (m & -> & I1). apply get_string_inv in E2 as (m' & E & I2). injection E as <-. exists m, c. auto.
Qed.
Lemma acct_of_ok v id : map_like v -> is_acct v id -> exists a, acct_of v = Ok a /\ a_data a = v /\ a_id a = id.
Proof. intros M (m & -> & H1). inversion M; subst. exists (mkAcct id (JObj m)). unfold acct_of. rewrite (get_string_ok m (bs "id") id) by assumption. repeat split; reflexivity. Qed.
Lemma acct_of_inv v a : acct_of v = Ok a -> a_data a = v /\ is_acct v (a_id a).
Proof. unfold acct_of. destruct (get_string v (bs "id")) as [id| | |] eqn:E1; try discriminate. cbn [obind]. intros H. injection H as <-. cbn [a_data a_id]. split; [reflexivity|]. apply get_string_inv in E1 as (m & -> & I1). exists m. auto. Qed.

(** What both kinds have in common. *)
Record kind {A} (P : json -> str -> Prop) (f : json -> outcome A) (data : A -> json) (id : A -> str) : Prop := mkKind {
  k_same : forall v v' i, same v v' -> P v i -> P v' i;
  k_ok : forall v i, map_like v -> P v i -> exists a, f v = Ok a /\ data a = v /\ id a = i;
  k_inv : forall v a, f v = Ok a -> data a = v /\ P v (id a);
  k_null : forall i, ~ P JNull i;
  k_utf8 : forall v i, all_strings is_utf8 v -> P v i -> is_utf8 i }.
Lemma str_utf8 m k s : all_strings is_utf8 (JObj m) -> In (k, JStr s) m -> is_utf8 s.
Proof. intros H I. inversion H as [| | | | |? F]; subst. rewrite Forall_forall in F. destruct (F _ I) as [_ G]. cbn [snd] in G. inversion G. assumption. Qed.
Lemma tx_kind : kind is_tx tx_of t_data t_id.
Proof.
  constructor; [apply is_tx_same|apply tx_of_ok|apply tx_of_inv| |].
  - intros i (m & c & H & _). discriminate.
  - intros v i H (m & c & -> & I & _). apply (str_utf8 m (bs "id")); assumption.
Qed.
Lemma acct_kind : kind is_acct acct_of a_data a_id.
Proof.
  constructor; [apply is_acct_same|apply acct_of_ok|apply acct_of_inv| |].
  - intros i (m & H & _). discriminate.
  - intros v i H (m & -> & I). apply (str_utf8 m (bs "id")); assumption.
Qed.

Section Kind.
  Context {A : Type} (P : json -> str -> Prop) (f : json -> outcome A) (data : A -> json) (id : A -> str) (K : kind P f data id).
  (** The map of the program holds this table. *)
  Definition holds (m : option (list (str * option A))) (l : list (str * json)) : Prop :=
    match m with None => l = [] | Some m => Forall (ok_entry f data id) m /\ same_table l (view data m) end.
  Lemma load_table j j' l : table P j l -> same j j' -> good (S deep2) j' -> exists m, put_map f None j' = Ok m /\ holds m l.
  Proof.
    intros [[[-> ->]| ->] F] S G.
    - inversion S; subst. exists None. split; reflexivity.
    - destruct (obj_same _ _ S) as (l' & ->). apply good_obj in G as [N' G]. inversion S as [| | | | |? ? N _ Ks V]; subst.
      assert (F' : Forall (readable f data id) l').
      { apply Forall_forall. intros [k v'] Hk. rewrite Forall_forall in F, G. destruct (G _ Hk) as [Gu Gv]. cbn [fst snd] in *. destruct (in_same _ _ _ _ (same_sym _ _ S) Hk) as (v & Hv & Sv). specialize (F _ Hv). cbn [fst snd] in F.
        pose proof (k_same _ _ _ _ K _ _ _ (same_sym _ _ Sv) F) as Pv. split; [exact Gu|]. cbn [fst snd]. split; [intros ->; apply (k_null _ _ _ _ K _ Pv)|]. split; [exact Gv|]. apply (k_ok _ _ _ _ K); [apply Gv|exact Pv]. }
      destruct (put_all_ok f data id l' [] F') as (m & E & Ev & O); [constructor|]. exists (Some m). split; [cbn [put_map]; rewrite E; reflexivity|]. split; [exact O|]. rewrite Ev. change (view data []) with (@nil (str * json)). split; [apply put_nodup; constructor|].
      intros k. rewrite put_aget. replace (match aget str_eqb k (rev l') with Some v => Some v | None => aget str_eqb k [] end) with (aget str_eqb k l').
      + change (same_at (aget str_eqb k l) (aget str_eqb k l')). destruct (aget str_eqb k l) as [v|] eqn:E1.
        * apply (aget_In str_eqb str_eqb_eq) in E1. destruct (in_same _ _ _ _ S E1) as (v' & Hv & Sv). rewrite (proj2 (aget_Some_iff str_eqb str_eqb_eq k v' l' N') Hv). exact Sv.
        * destruct (aget str_eqb k l') as [v'|] eqn:E2; [|exact I]. apply (aget_In str_eqb str_eqb_eq) in E2. destruct (in_same _ _ _ _ (same_sym _ _ S) E2) as (v & Hv & Sv). rewrite (proj2 (aget_Some_iff str_eqb str_eqb_eq k v l N) Hv) in E1. discriminate.
      + rewrite <- (aget_perm l' (rev l') k (Permutation_rev l') N'). destruct (aget str_eqb k l'); reflexivity.
  Qed.
  Lemma save_table m l : holds m l -> good (S deep2) (map_json data m) /\ exists l', table P (map_json data m) l' /\ same_table l l'.
  Proof.
    destruct m as [m|]; cbn [holds map_json].
    2: { intros ->. split; [apply good_null|]. exists []. split; [split; [left; auto|constructor]|apply table_nil]. }
    intros [O [N T]]. set (s := map (fun kv : str * option A => (fst kv, match snd kv with Some a => sort_json (data a) | None => JNull end)) m).
    assert (Es : s = vals (view data m)). { unfold s, vals, view. rewrite map_map. apply map_ext. intros [k [a|]]; reflexivity. }
    assert (Ns : NoDup (map fst s)) by (rewrite Es, vals_keys; exact N).
    assert (Gv : Forall (fun kv => is_utf8 (fst kv) /\ good deep2 (snd kv) /\ P (snd kv) (fst kv)) (view data m)).
    { apply Forall_forall. intros x Hx. apply in_map_iff in Hx as (y & <- & Hy). rewrite Forall_forall in O. destruct (O _ Hy) as (U & a & E & Ei & Ef & G). rewrite E. cbn [fst snd]. split; [exact U|]. split; [exact G|]. rewrite <- Ei. apply (k_inv _ _ _ _ K _ _ Ef). }
    split.
    - apply good_obj. split; [apply isort_keys; exact Ns|]. apply Forall_forall. intros x Hx. apply isort_in in Hx. rewrite Es in Hx. apply in_map_iff in Hx as (y & <- & Hy). rewrite Forall_forall in Gv. destruct (Gv _ Hy) as (U & G & _). cbn [fst snd]. split; [exact U|apply sort_json_good; exact G].
    - exists (isort by_name s). split.
      + split; [right; reflexivity|]. apply Forall_forall. intros x Hx. apply isort_in in Hx. rewrite Es in Hx. apply in_map_iff in Hx as (y & <- & Hy). rewrite Forall_forall in Gv. destruct (Gv _ Hy) as (U & G & Py). cbn [fst snd]. apply (k_same _ _ _ _ K (snd y)); [apply sort_json_same, G|exact Py].
      + apply (table_trans _ (view data m)); [split; assumption|]. split; [apply isort_keys; exact Ns|]. intros k. rewrite (aget_perm (isort by_name s) s k); [|apply Permutation_sym, isort_perm|apply isort_keys; exact Ns].
        rewrite Es. clear - Gv. induction Gv as [|[k' v] r (_ & G & _) _ IH]; [exact I|]. cbn [aget vals map fst snd]. destruct (str_eqb k' k); [|exact IH]. apply sort_json_same, G.
  Qed.
End Kind.
