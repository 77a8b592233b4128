(** * ShapeProofs: reading and writing values of Go types (C105, C106). *)
From Coq Require Import ZifyBool Lqa.
From Verif Require Import Base Utf8 LoaderModel LoaderSpec ExportSpec ConvertModel ConvertSpec ConvertProps F64Model F64Spec F64Proofs JsonModel JsonSpec JsonWrite2 JsonProps JsonRead JsonRead2 JsonReadProps StateModel StateSpec StateProofs StateProofs2 StateProofs3 ShapeModel StarlingSpec.

Section Ind.
  Variable P : shape -> Prop.
  Hypotheses (Hany : P SAny) (Hraw : forall ks, P (SRaw ks)) (Hptr : forall s, P s -> P (SPtr s)) (Hlist : forall s, P s -> P (SList s)) (Hmap : forall s, P s -> P (SMap s))
    (Hstruct : forall fs, Forall (fun nf => P (snd nf)) fs -> P (SStruct fs)).
  Fixpoint shape_ind' (s : shape) : P s :=
    match s with
    | SAny => Hany
    | SRaw ks => Hraw ks
    | SPtr s' => Hptr _ (shape_ind' s')
    | SList s' => Hlist _ (shape_ind' s')
    | SMap s' => Hmap _ (shape_ind' s')
    | SStruct fs => Hstruct fs ((fix go (l : list (str * shape)) : Forall (fun nf => P (snd nf)) l := match l with [] => Forall_nil _ | nf :: r => Forall_cons nf (shape_ind' (snd nf)) (go r) end) fs)
    end.
End Ind.

(** JSON of a type: no member is missing, none is too many. *)
Fixpoint fits (s : shape) (j : json) {struct s} : Prop :=
  match s with
  | SAny => True
  | SRaw keys => exists m, j = JObj m /\ Forall (fun k => exists x, In (k, JStr x) m) keys
  | SPtr s' => j = JNull \/ fits s' j
  | SList s' => j = JNull \/ exists l, j = JArr l /\ Forall (fits s') l
  | SMap s' => j = JNull \/ exists m, j = JObj m /\ Forall (fun kv => fits s' (snd kv)) m
  | SStruct fs => exists m, j = JObj m /\ (forall k, In k (map fst m) -> In k (map fst fs)) /\
                  (fix all (l : list (str * shape)) : Prop := match l with [] => True | (n, s') :: r => (exists v, In (n, v) m /\ fits s' v) /\ all r end) fs
  end.
Lemma fits_struct fs j : fits (SStruct fs) j <-> exists m, j = JObj m /\ (forall k, In k (map fst m) -> In k (map fst fs)) /\ Forall (fun nf => exists v, In (fst nf, v) m /\ fits (snd nf) v) fs.
Proof.
  cbn [fits]. split; intros (m & E & K & H); exists m; (split; [exact E|]); (split; [exact K|]); clear K E.
  - induction fs as [|[n s'] fs IH]; [constructor|]. destruct H as [H1 H2]. constructor; [exact H1|apply IH, H2].
  - induction H as [|[n s'] fs H1 _ IH]; [exact I|]. split; [exact H1|exact IH].
Qed.
(** Types whose fields have different names. *)
Fixpoint named (s : shape) : Prop :=
  match s with
  | SAny | SRaw _ => True
  | SPtr s' | SList s' | SMap s' => named s'
  | SStruct fs => NoDup (map fst fs) /\ Forall is_utf8 (map fst fs) /\ (fix all (l : list (str * shape)) : Prop := match l with [] => True | (_, s') :: r => named s' /\ all r end) fs
  end.
Lemma named_struct fs : named (SStruct fs) <-> NoDup (map fst fs) /\ Forall is_utf8 (map fst fs) /\ Forall (fun nf => named (snd nf)) fs.
Proof.
  cbn [named]. split; intros (N & U & H); (split; [exact N|]); (split; [exact U|]); clear N U.
  - induction fs as [|[n s'] fs IH]; [constructor|]. destruct H as [H1 H2]. constructor; [exact H1|apply IH, H2].
  - induction H as [|[n s'] fs H1 _ IH]; [exact I|]. split; [exact H1|exact IH].
Qed.

Lemma arr_same l v : same (JArr l) v -> exists l', v = JArr l' /\ Forall2 same l l'. Proof. intros H. inversion H; eauto. Qed.
Lemma null_same v : same JNull v -> v = JNull. Proof. intros H. inversion H. reflexivity. Qed.
Lemma fits_same s : forall j j', same j j' -> fits s j -> fits s j'.
Proof.
  induction s as [|ks|s IH|s IH|s IH|fs IH] using shape_ind'; intros j j' S H.
  - exact I.
  - destruct H as (m & -> & F). destruct (obj_same _ _ S) as (m' & ->). exists m'. split; [reflexivity|]. apply Forall_impl with (2 := F). intros k (x & Hx). destruct (in_same _ _ _ _ S Hx) as (v & H1 & H2). apply str_same in H2 as ->. eauto.
  - destruct H as [->|H]; [left; apply null_same, S|right; apply (IH j); assumption].
  - destruct H as [->|(l & -> & F)]; [left; apply null_same, S|]. destruct (arr_same _ _ S) as (l' & -> & F2). right. exists l'. split; [reflexivity|]. clear S. induction F2 as [|x y l l' Sx _ IHl]; [constructor|]. inversion F; subst. constructor; [apply (IH x); assumption|auto].
  - destruct H as [->|(m & -> & F)]; [left; apply null_same, S|]. destruct (obj_same _ _ S) as (m' & ->). right. exists m'. split; [reflexivity|]. apply Forall_forall. intros [k v'] Hk. destruct (in_same _ _ _ _ (same_sym _ _ S) Hk) as (v & H1 & H2). rewrite Forall_forall in F. cbn [snd]. apply (IH v); [apply same_sym, H2|apply (F _ H1)].
  - apply fits_struct in H as (m & -> & K & F). destruct (obj_same _ _ S) as (m' & ->). apply fits_struct. exists m'. split; [reflexivity|]. split; [intros k Hk; apply K; inversion S as [| | | | |? ? _ _ Ks _]; subst; apply Ks, Hk|].
    rewrite Forall_forall in *. intros nf Hn. destruct (F _ Hn) as (v & H1 & H2). destruct (in_same _ _ _ _ S H1) as (v' & H3 & H4). exists v'. split; [exact H3|]. apply (IH _ Hn v); assumption.
Qed.

(** ** Objects member by member *)
Lemma obj_same_intro m m' : NoDup (map fst m) -> NoDup (map fst m') -> (forall k, same_at (aget str_eqb k m) (aget str_eqb k m')) -> same (JObj m) (JObj m').
Proof.
  intros N N' H. constructor; try assumption.
  - intros k. rewrite !in_keys. specialize (H k). destruct (aget str_eqb k m), (aget str_eqb k m'); cbn in H; try contradiction; split; congruence.
  - intros k v v' H1 H2. specialize (H k). rewrite (proj2 (aget_Some_iff str_eqb str_eqb_eq k v m N) H1), (proj2 (aget_Some_iff str_eqb str_eqb_eq k v' m' N') H2) in H. exact H.
Qed.
Lemma obj_same_elim m m' : same (JObj m) (JObj m') -> NoDup (map fst m) /\ NoDup (map fst m') /\ forall k, same_at (aget str_eqb k m) (aget str_eqb k m').
Proof.
  intros S. inversion S as [| | | | |? ? N N' _ _]; subst. split; [exact N|]. split; [exact N'|]. intros k. destruct (aget str_eqb k m) as [v|] eqn:E1.
  - apply (aget_In str_eqb str_eqb_eq) in E1. destruct (in_same _ _ _ _ S E1) as (v' & Hv & Sv). rewrite (proj2 (aget_Some_iff str_eqb str_eqb_eq k v' m' N') Hv). exact Sv.
  - destruct (aget str_eqb k m') as [v'|] eqn:E2; [|exact I]. apply (aget_In str_eqb str_eqb_eq) in E2. destruct (in_same _ _ _ _ (same_sym _ _ S) E2) as (v & Hv & Sv). rewrite (proj2 (aget_Some_iff str_eqb str_eqb_eq k v m N) Hv) in E1. discriminate.
Qed.
Lemma get_in m k v : NoDup (map fst m) -> In (k, v) m -> get k (JObj m) = v.
Proof. intros N H. unfold get. cbn [members]. rewrite (proj2 (aget_Some_iff str_eqb str_eqb_eq k v m N) H). reflexivity. Qed.
Lemma aget_map (f : json -> json) m k : aget str_eqb k (map (fun kv => (fst kv, f (snd kv))) m) = match aget str_eqb k m with Some v => Some (f v) | None => None end.
Proof. induction m as [|[k' v] m IH]; [reflexivity|]. cbn [map aget fst snd]. destruct (str_eqb k' k); [reflexivity|exact IH]. Qed.
Lemma aget_fields (f : str -> shape -> json) fs k : aget str_eqb k (map (fun nf => (fst nf, f (fst nf) (snd nf))) fs) = match aget str_eqb k fs with Some s => Some (f k s) | None => None end.
Proof. induction fs as [|[n s] fs IH]; [reflexivity|]. cbn [map aget fst snd]. destruct (str_eqb n k) eqn:E; [apply str_eqb_eq in E as ->; reflexivity|exact IH]. Qed.
Lemma fields_keys {A} (f : str * shape -> A) fs : map fst (map (fun nf => (fst nf, f nf)) fs) = map fst fs. Proof. rewrite map_map. reflexivity. Qed.

(** ** Writing *)
Lemma out_ok s : named s -> forall d j, fits s j -> good d j -> same j (out s j) /\ good d (out s j).
Proof.
  induction s as [|ks|s IH|s IH|s IH|fs IH] using shape_ind'; intros W d j H G.
  - split; [apply sort_json_same, G|apply sort_json_good, G].
  - split; [apply sort_json_same, G|apply sort_json_good, G].
  - cbn [out]. destruct H as [->|H]; [split; [constructor|exact G]|]. destruct (IH W d j H G) as [A B]. destruct j; try (split; [exact A|exact B]). split; [constructor|exact G].
  - destruct H as [->|(l & -> & F)]; [split; [constructor|exact G]|]. cbn [out]. destruct d as [|d]; [destruct G as (_ & _ & _ & G); cbn in G; lia|]. apply good_arr in G. split.
    + constructor. induction F as [|x l Hx _ IHl]; [constructor|]. inversion G; subst. cbn [map]. constructor; [apply (IH W d x); assumption|auto].
    + apply good_arr. apply Forall_forall. intros y Hy. apply in_map_iff in Hy as (x & <- & Hx). rewrite Forall_forall in F, G. apply (IH W d x); auto.
  - destruct H as [->|(m & -> & F)]; [split; [constructor|exact G]|]. cbn [out]. destruct d as [|d]; [destruct G as (_ & _ & _ & G); cbn in G; lia|]. apply good_obj in G as [N G].
    set (m' := map (fun kv => (fst kv, out s (snd kv))) m). assert (N' : NoDup (map fst m')) by (unfold m'; rewrite map_map; exact N). split.
    + apply obj_same_intro; [exact N|apply isort_keys, N'|]. intros k. rewrite (aget_perm (isort by_name m') m' k); [|apply Permutation_sym, isort_perm|apply isort_keys, N']. unfold m'. rewrite aget_map. destruct (aget str_eqb k m) as [v|] eqn:E; [|exact I].
      apply (aget_In str_eqb str_eqb_eq) in E. rewrite Forall_forall in F, G. apply (IH W d v); [apply (F _ E)|apply (G _ E)].
    + apply good_obj. split; [apply isort_keys, N'|]. apply Forall_forall. intros x Hx. apply isort_in in Hx. apply in_map_iff in Hx as (y & <- & Hy). rewrite Forall_forall in F, G. cbn [fst snd]. split; [apply (G _ Hy)|]. apply (IH W d (snd y)); [apply (F _ Hy)|apply (G _ Hy)].
  - apply named_struct in W as (Nf & U & W). apply fits_struct in H as (m & -> & K & F). destruct d as [|d]; [destruct G as (_ & _ & _ & G); cbn in G; lia|]. apply good_obj in G as [N G]. cbn [out]. rewrite Forall_forall in *.
    assert (X : forall n s v, In (n, s) fs -> aget str_eqb n m = Some v -> same v (out s v) /\ good d (out s v)).
    { intros n s v Hn E. destruct (F _ Hn) as (v0 & H1 & H2). cbn [fst snd] in *. rewrite (proj2 (aget_Some_iff str_eqb str_eqb_eq n v0 m N) H1) in E. injection E as <-. apply (IH _ Hn (W _ Hn)); [exact H2|apply (G _ H1)]. }
    assert (Y : forall n s, In (n, s) fs -> exists v, aget str_eqb n m = Some v). { intros n s Hn. destruct (F _ Hn) as (v0 & H1 & H2). cbn [fst snd] in *. exists v0. apply (aget_Some_iff str_eqb str_eqb_eq n v0 m N). exact H1. }
    split.
    + apply obj_same_intro; [exact N|rewrite (fields_keys (fun nf => out (snd nf) (get (fst nf) (JObj m)))); exact Nf|]. intros k. rewrite (aget_fields (fun n s => out s (get n (JObj m)))). destruct (aget str_eqb k fs) as [s|] eqn:E.
      * apply (aget_In str_eqb str_eqb_eq) in E. destruct (Y _ _ E) as (v & Ev). unfold get. cbn [members]. rewrite Ev. apply (X _ _ _ E Ev).
      * destruct (aget str_eqb k m) as [v|] eqn:Ev; [|exact I]. exfalso. apply (aget_None str_eqb str_eqb_eq) in E. apply E. apply K. apply in_keys. congruence.
    + apply good_obj. split; [rewrite (fields_keys (fun nf => out (snd nf) (get (fst nf) (JObj m)))); exact Nf|]. apply Forall_forall. intros x Hx. apply in_map_iff in Hx as ([n s] & <- & Hn). cbn [fst snd]. split; [apply U; apply (in_map fst _ _ Hn)|]. destruct (Y _ _ Hn) as (v & Ev). unfold get. cbn [members]. rewrite Ev. apply (X _ _ _ Hn Ev).
Qed.

(** ** Reading *)
Lemma each_ok f l : Forall (fun v => exists v', f v = Ok v') l -> exists l', each f l = Ok l' /\ Forall2 (fun v v' => f v = Ok v') l l'.
Proof. induction 1 as [|v l (v' & E) _ (l' & E' & F)]; [exists []; split; [reflexivity|constructor]|]. exists (v' :: l'). cbn [each]. rewrite E, E'. split; [reflexivity|constructor; assumption]. Qed.
Lemma put_members_ok f l : forall m, Forall (fun kv => exists v', f (snd kv) = Ok v') l -> exists l', put_members f m l = Ok (fold_left put l' m) /\ Forall2 (fun kv kv' => fst kv' = fst kv /\ f (snd kv) = Ok (snd kv')) l l'.
Proof.
  induction l as [|[k v] l IH]; intros m F; [exists []; split; [reflexivity|constructor]|]. inversion F as [|? ? (v' & E) F']; subst. cbn [snd] in E. cbn [put_members]. rewrite E. cbn [obind]. destruct (IH (aset str_eqb k v' m) F') as (l' & E' & F2). exists ((k, v') :: l'). split; [exact E'|]. constructor; [split; [reflexivity|exact E]|exact F2].
Qed.
Lemma put_once (m l : list (str * json)) k : NoDup (map fst l) -> aget str_eqb k (fold_left put l m) = match aget str_eqb k l with Some v => Some v | None => aget str_eqb k m end.
Proof. intros N. rewrite put_aget, <- (aget_perm l (rev l) k (Permutation_rev l) N). reflexivity. Qed.
Lemma put_in (l : list (str * json)) : forall m x, In x (fold_left put l m) -> In x l \/ In x m.
Proof.
  induction l as [|[k v] l IH]; intros m x H; [right; exact H|]. cbn [fold_left] in H. apply IH in H as [H|H]; [left; right; exact H|]. apply aset_in in H as [->|H]; [left; left; reflexivity|right; exact H].
Qed.
Lemma field_here names k : In k names -> field names k = Some k.
Proof. intros H. unfold field. replace (existsb (str_eqb k) names) with true; [reflexivity|]. symmetry. apply existsb_exists. exists k. split; [exact H|apply str_eqb_eq; reflexivity]. Qed.
Lemma put_struct_ok strict fs : forall l m, NoDup (map fst l) -> (forall k v, In (k, v) l -> exists f v', aget str_eqb k fs = Some f /\ f (get k (JObj m)) v = Ok v') ->
  exists l', put_struct strict fs m l = Ok (fold_left put l' m) /\ Forall2 (fun kv kv' => fst kv' = fst kv /\ exists f, aget str_eqb (fst kv) fs = Some f /\ f (get (fst kv) (JObj m)) (snd kv) = Ok (snd kv')) l l'.
Proof.
  induction l as [|[k v] l IH]; intros m N H; [exists []; split; [reflexivity|constructor]|]. cbn [map fst] in N. inversion N as [|? ? N1 N']; subst. destruct (H k v) as (f & v' & Ef & E); [left; reflexivity|]. cbn [put_struct].
  rewrite field_here, Ef by (apply in_map_iff; exists (k, f); split; [reflexivity|apply (aget_In str_eqb str_eqb_eq), Ef]). change (match aget str_eqb k m with Some o => o | None => JNull end) with (get k (JObj m)). rewrite E. cbn [obind].
  assert (X : forall k0, k0 <> k -> get k0 (JObj (aset str_eqb k v' m)) = get k0 (JObj m)) by (intros k0 Hk; unfold get; cbn [members]; rewrite (aget_aset_neq str_eqb str_eqb_eq) by congruence; reflexivity).
  assert (Y : forall k0 v0, In (k0, v0) l -> k0 <> k) by (intros k0 v0 H0 ->; apply N1; apply (in_map fst _ _ H0)).
  destruct (IH (aset str_eqb k v' m) N') as (l' & E' & F); [intros k0 v0 H0; rewrite (X k0 (Y _ _ H0)); apply H; right; exact H0|]. exists ((k, v') :: l'). split; [exact E'|]. constructor; [split; [reflexivity|exists f; auto]|].
  clear - F X Y. induction F as [|[a x] y l l' [E1 (f & E2 & E3)] _ IH]; [constructor|]. constructor; [|apply IH; intros k0 v0 H0; apply (Y k0 v0); right; exact H0]. split; [exact E1|]. exists f. split; [exact E2|]. cbn [fst] in *. rewrite X in E3; [exact E3|]. apply (Y a x). left. reflexivity.
Qed.
Lemma keys_eq {A} (R : str * json -> str * A -> Prop) l l' : Forall2 (fun kv kv' => fst kv' = fst kv /\ R kv kv') l l' -> map fst l' = map fst l.
Proof. induction 1 as [|x y l l' [E _] _ IH]; [reflexivity|]. cbn [map]. rewrite E, IH. reflexivity. Qed.
Lemma aget_rel (R : json -> json -> Prop) (Q : str -> Prop) l l' k : Forall2 (fun kv kv' => fst kv' = fst kv /\ (Q (fst kv) -> R (snd kv) (snd kv'))) l l' -> Q k -> match aget str_eqb k l, aget str_eqb k l' with Some v, Some v' => R v v' | None, None => True | _, _ => False end.
Proof. intros F HQ. induction F as [|[a v] [b v'] l l' [E H] _ IH]; [exact I|]. cbn [fst snd] in *. subst b. cbn [aget]. destruct (str_eqb a k) eqn:E; [|exact IH]. apply str_eqb_eq in E as ->. apply H, HQ. Qed.
Lemma raw_ok keys m : NoDup (map fst m) -> Forall (fun k => exists x, In (k, JStr x) m) keys -> forallb (fun k => match get_string (JObj m) k with Ok _ => true | _ => false end) keys = true.
Proof. intros N F. apply forallb_forall. intros k Hk. rewrite Forall_forall in F. destruct (F _ Hk) as (x & Hx). rewrite (get_string_ok m k x N Hx). reflexivity. Qed.
(** A variable in which nothing is left of what it held, once all of its members are read. *)
Fixpoint fresh (s : shape) (old : json) {struct s} : Prop :=
  match s with
  | SMap _ => members old = []
  | SPtr s' => fresh s' (if is_null old then zero s' else old)
  | SStruct fs => NoDup (map fst (members old)) /\ (forall k, In k (map fst (members old)) -> In k (map fst fs)) /\
                  (fix all (l : list (str * shape)) : Prop := match l with [] => True | (n, s') :: r => fresh s' (get n old) /\ all r end) fs
  | _ => True
  end.
Lemma fresh_struct fs old : fresh (SStruct fs) old <-> NoDup (map fst (members old)) /\ (forall k, In k (map fst (members old)) -> In k (map fst fs)) /\ Forall (fun nf => fresh (snd nf) (get (fst nf) old)) fs.
Proof.
  cbn [fresh]. split; intros (N & K & H); (split; [exact N|]); (split; [exact K|]); clear N K.
  - induction fs as [|[n s'] fs IH]; [constructor|]; destruct H as [H1 H2]; constructor; [exact H1|apply IH, H2].
  - induction H as [|[n s'] fs H1 _ IH]; [exact I|]; split; [exact H1|exact IH].
Qed.
Lemma fresh_zero s : named s -> fresh s (zero s).
Proof.
  induction s as [|ks|s IH|s IH|s IH|fs IH] using shape_ind'; intros W; try exact I; try reflexivity.
  - cbn [fresh zero is_null]. apply IH, W.
  - apply named_struct in W as (N & _ & W). apply fresh_struct. cbn [zero members]. rewrite (fields_keys (fun nf => zero (snd nf))). split; [exact N|]. split; [auto|]. rewrite Forall_forall in *. intros [n s] Hn. cbn [fst snd]. replace (get n (JObj (map (fun nf => (fst nf, zero (snd nf))) fs))) with (zero s); [apply (IH _ Hn), (W _ Hn)|].
    unfold get. cbn [members]. rewrite (aget_fields (fun _ s => zero s)). rewrite (proj2 (aget_Some_iff str_eqb str_eqb_eq n s fs N) Hn). reflexivity.
Qed.
Lemma in_aget {A} (k : str) (v : A) l : NoDup (map fst l) -> In (k, v) l -> aget str_eqb k l = Some v.
Proof. intros N H. apply (aget_Some_iff str_eqb str_eqb_eq k v l N). exact H. Qed.
Lemma aget_in {A} (k : str) (v : A) l : aget str_eqb k l = Some v -> In (k, v) l.
Proof. apply (aget_In str_eqb str_eqb_eq). Qed.
Lemma rel_in {A} (R : str * json -> str * A -> Prop) l l' x : Forall2 R l l' -> In x l' -> exists y, In y l /\ R y x.
Proof. induction 1 as [|a b l l' H _ IH]; intros Hx; [destruct Hx|]. destruct Hx as [<-|Hx]; [exists a; split; [left; reflexivity|exact H]|]. destruct (IH Hx) as (y & H1 & H2). exists y. split; [right; exact H1|exact H2]. Qed.
(** Reading a value of the type. *)
Lemma into_ok strict s : named s -> forall d old j, fresh s old -> fits s j -> good d j -> exists j', into strict s old j = Ok j' /\ same j j' /\ good d j'.
Proof.
  induction s as [|ks|s IH|s IH|s IH|fs IH] using shape_ind'; intros W d old j Fr H G.
  - exists j. split; [reflexivity|]. split; [apply same_refl, G|exact G].
  - destruct H as (m & -> & F). exists (JObj m). cbn [into]. rewrite raw_ok; [|destruct d as [|d]; [destruct G as (_ & _ & _ & G); cbn in G; lia|apply good_obj in G; apply G]|exact F]. split; [reflexivity|]. split; [apply same_refl, G|exact G].
  - cbn [into]. destruct j as [|b|q|x|l|m]; [exists JNull; split; [reflexivity|split; [constructor|exact G]]|..]; (destruct H as [H|H]; [discriminate|]; apply (IH W d _ _ Fr H G)).
  - destruct H as [->|(l & -> & F)]; [exists JNull; split; [reflexivity|split; [constructor|exact G]]|]. destruct d as [|d]; [destruct G as (_ & _ & _ & G); cbn in G; lia|]. apply good_arr in G.
    assert (X : Forall (fun v => exists v', into strict s (zero s) v = Ok v' /\ same v v' /\ good d v') l) by (rewrite Forall_forall in *; intros v Hv; apply (IH W d); [apply fresh_zero, W|apply F, Hv|apply G, Hv]).
    destruct (each_ok (into strict s (zero s)) l) as (l' & E & F2); [apply Forall_impl with (2 := X); intros v (v' & Hv & _); eauto|]. exists (JArr l'). cbn [into]. rewrite E. split; [reflexivity|]. clear - X F2.
    assert (Y : Forall2 same l l' /\ Forall (good d) l'); [|split; [constructor; apply Y|apply good_arr, Y]]. induction F2 as [|v v' l l' E _ IHl]; [split; constructor|]. inversion X as [|? ? (x & Ex & Sx & Gx) X']; subst. rewrite E in Ex. injection Ex as <-. destruct (IHl X'). split; constructor; assumption.
  - destruct H as [->|(m & -> & F)]; [exists JNull; split; [reflexivity|split; [constructor|exact G]]|]. destruct d as [|d]; [destruct G as (_ & _ & _ & G); cbn in G; lia|]. apply good_obj in G as [N G].
    assert (X : forall k v, In (k, v) m -> exists v', into strict s (zero s) v = Ok v' /\ same v v' /\ good d v') by (rewrite Forall_forall in *; intros k v Hv; apply (IH W d); [apply fresh_zero, W|apply (F _ Hv)|apply (G _ Hv)]).
    destruct (put_members_ok (into strict s (zero s)) m (members old)) as (l' & E & F2); [apply Forall_forall; intros [k v] Hv; destruct (X _ _ Hv) as (v' & Ev & _); eauto|]. exists (JObj (fold_left put l' (members old))). cbn [into fresh] in *. rewrite E. split; [reflexivity|]. rewrite Fr in *.
    pose proof (keys_eq _ _ _ F2) as Ek. assert (N' : NoDup (map fst l')) by (rewrite Ek; exact N). assert (Nr : NoDup (map fst (fold_left put l' []))) by (apply put_nodup; constructor).
    assert (Y : forall k v', In (k, v') l' -> exists v, In (k, v) m /\ same v v' /\ good d v').
    { intros k v' Hv. destruct (rel_in _ _ _ _ F2 Hv) as ([k0 v] & H1 & H2 & H3). cbn [fst snd] in *. subst k0. exists v. split; [exact H1|]. destruct (X _ _ H1) as (x & Ex & Hx). rewrite H3 in Ex. injection Ex as <-. exact Hx. }
    split.
    + apply obj_same_intro; [exact N|exact Nr|]. intros k. rewrite put_once by exact N'. cbn [aget]. destruct (aget str_eqb k l') as [v'|] eqn:E'.
      * destruct (Y _ _ (aget_in _ _ _ E')) as (v & H1 & H2 & _). rewrite (in_aget _ _ _ N H1). exact H2.
      * destruct (aget str_eqb k m) as [v|] eqn:Em; [|exact I]. exfalso. apply (aget_None str_eqb str_eqb_eq) in E'. apply E'. unfold akeys. rewrite Ek. apply in_keys. congruence.
    + apply good_obj. split; [exact Nr|]. apply Forall_forall. intros [k v'] Hx. apply put_in in Hx as [Hx|[]]. destruct (Y _ _ Hx) as (v & H1 & _ & H3). rewrite Forall_forall in G. cbn [fst snd]. split; [apply (G _ H1)|exact H3].
  - apply named_struct in W as (Nf & U & W). apply fits_struct in H as (m & -> & K & F). apply fresh_struct in Fr as (No & Ko & Fr). destruct d as [|d]; [destruct G as (_ & _ & _ & G); cbn in G; lia|]. apply good_obj in G as [N G]. rewrite Forall_forall in *.
    set (ff := map (fun nf => (fst nf, into strict (snd nf))) fs). assert (Ef : forall k, aget str_eqb k ff = match aget str_eqb k fs with Some s => Some (into strict s) | None => None end) by (intros k; unfold ff; clear; induction fs as [|[n s] fs IH]; [reflexivity|]; cbn [map aget fst snd]; destruct (str_eqb n k); [reflexivity|exact IH]).
    assert (X : forall k v, In (k, v) m -> exists s v', aget str_eqb k fs = Some s /\ into strict s (get k old) v = Ok v' /\ same v v' /\ good d v').
    { intros k v Hv. pose proof (K k (in_map fst _ _ Hv)) as Hk. apply in_map_iff in Hk as ([k0 s] & E & Hs). cbn [fst] in E. subst k0. exists s. destruct (F _ Hs) as (v0 & H1 & H2). cbn [fst snd] in *. assert (v0 = v) as -> by (pose proof (in_aget _ _ _ N H1); pose proof (in_aget _ _ _ N Hv); congruence).
      destruct (IH _ Hs (W _ Hs) d (get k old) v (Fr _ Hs) H2) as (v' & Hv'); [apply (G _ Hv)|]. exists v'. split; [apply (in_aget _ _ _ Nf Hs)|exact Hv']. }
    destruct (put_struct_ok strict ff m (members old) N) as (l' & E & F2).
    { intros k v Hv. destruct (X _ _ Hv) as (s & v' & Es & Ev & _). exists (into strict s), v'. rewrite Ef, Es. split; [reflexivity|exact Ev]. }
    exists (JObj (fold_left put l' (members old))). cbn [into]. fold ff. rewrite E. split; [reflexivity|]. pose proof (keys_eq _ _ _ F2) as Ek. assert (N' : NoDup (map fst l')) by (rewrite Ek; exact N). assert (Nr : NoDup (map fst (fold_left put l' (members old)))) by (apply put_nodup; exact No).
    assert (Y : forall k v', In (k, v') l' -> exists v, In (k, v) m /\ same v v' /\ good d v').
    { intros k v' Hv. destruct (rel_in _ _ _ _ F2 Hv) as ([k0 v] & H1 & H2 & f & Ff & H3). cbn [fst snd] in *. subst k0. exists v. split; [exact H1|]. destruct (X _ _ H1) as (s & x & Es & Ex & Hx). rewrite Ef, Es in Ff. injection Ff as <-. change (get k (JObj (members old))) with (get k old) in H3. rewrite H3 in Ex. injection Ex as <-. exact Hx. }
    assert (Z : forall k, In k (map fst (members old)) -> exists v, In (k, v) m). { intros k Hk. apply Ko in Hk. apply in_map_iff in Hk as ([k0 s] & E0 & Hs). cbn [fst] in E0. subst k0. destruct (F _ Hs) as (v & H1 & _). eauto. }
    assert (L : forall k, aget str_eqb k l' = None -> aget str_eqb k m = None). { intros k E'. destruct (aget str_eqb k m) as [v|] eqn:Em; [|reflexivity]. exfalso. apply (aget_None str_eqb str_eqb_eq) in E'. apply E'. unfold akeys. rewrite Ek. apply in_keys. congruence. }
    assert (Q : forall k, aget str_eqb k (fold_left put l' (members old)) = aget str_eqb k l').
    { intros k. rewrite put_once by exact N'. destruct (aget str_eqb k l') eqn:E'; [reflexivity|]. destruct (aget str_eqb k (members old)) eqn:Eo; [|reflexivity]. exfalso. destruct (Z k) as (v & Hv); [apply in_keys; congruence|]. apply L in E'. rewrite (in_aget _ _ _ N Hv) in E'. discriminate. }
    split.
    + apply obj_same_intro; [exact N|exact Nr|]. intros k. rewrite Q. destruct (aget str_eqb k l') as [v'|] eqn:E'; [destruct (Y _ _ (aget_in _ _ _ E')) as (v & H1 & H2 & _); rewrite (in_aget _ _ _ N H1); exact H2|rewrite (L _ E'); exact I].
    + apply good_obj. split; [exact Nr|]. apply Forall_forall. intros [k v'] Hx. apply (in_aget _ _ _ Nr) in Hx. rewrite Q in Hx. apply aget_in in Hx. destruct (Y _ _ Hx) as (v & H1 & _ & H3). cbn [fst snd]. split; [apply (G _ H1)|exact H3].
Qed.

(** ** Files and answers *)
Lemma same_nesting a : forall b, same a b -> (nesting b <= nesting a)%nat.
Proof.
  induction a as [|b|q|s|l IH|m IH] using json_ind'; intros b' H; inversion H as [| | | |? l' F|? m' N N' K V]; subst; cbn [nesting]; try lia; apply le_n_S, list_max_le; apply Forall_forall; intros n Hn; apply in_map_iff in Hn as (x & <- & Hx).
  - clear - IH F Hx. induction F as [|y z l l' S _ IHl]; [destruct Hx|]. inversion IH as [|? ? IH1 IH2]; subst. cbn [map list_max fold_right]. change (fold_right Init.Nat.max 0%nat (map nesting l)) with (list_max (map nesting l)). destruct Hx as [<-|Hx]; [specialize (IH1 _ S); lia|]. specialize (IHl IH2 Hx). lia.
  - destruct x as [k v]. cbn [snd]. destruct (in_same _ _ _ _ (same_sym _ _ H) Hx) as (v0 & H1 & H2). rewrite Forall_forall in IH. pose proof (IH _ H1 _ (same_sym _ _ H2)) as B. cbn [snd] in B. apply Nat.le_trans with (1 := B).
    assert (In (nesting v0) (map (fun kv : str * json => nesting (snd kv)) m)) by (apply in_map_iff; exists (k, v0); auto). pose proof (proj1 (list_max_le (map (fun kv : str * json => nesting (snd kv)) m) _) (Nat.le_refl _)) as Q. rewrite Forall_forall in Q. apply Q. assumption.
Qed.
Lemma text_ok d bytes v : (d <= deep)%nat -> text as_float d bytes v -> exists v', unmarshal_json bytes = Ok v' /\ decode_json bytes = Ok v' /\ same v v' /\ good d v'.
Proof.
  intros Hd [Hb HT]. destruct (text_read bytes v Hb (text_mono _ _ _ _ _ Hd HT)) as (v' & E1 & E2 & S & G). exists v'. split; [exact E1|]. split; [exact E2|]. split; [exact S|].
  assert (Nv : (nesting v <= d)%nat). { destruct HT as (w & t & w' & E & _ & V & _). pose proof (decode_scalar bytes Hb) as F. rewrite E, !Forall_app in F. apply (proj1 value_utf8 _ _ _ V (proj1 (proj2 F))). }
  destruct G as (G1 & G2 & G3 & _). split; [exact G1|]. split; [exact G2|]. split; [exact G3|]. pose proof (same_nesting _ _ S). lia.
Qed.
(** What a member of a good value is. *)
Lemma fetch_shape s d old bytes v : named s -> fresh s old -> (d <= deep)%nat -> text as_float d bytes v -> fits s v -> exists j, fetch s old bytes = Ok j /\ same v j /\ good d j /\ fits s j.
Proof.
  intros W Fr Hd T F. destruct (text_ok d bytes v Hd T) as (v' & _ & E & S & G). destruct (into_ok true s W d old v' Fr (fits_same s _ _ S F) G) as (j & Ej & Sj & Gj). exists j. unfold fetch. rewrite E. split; [exact Ej|]. pose proof (same_trans _ _ _ S Sj) as St. split; [exact St|]. split; [exact Gj|apply (fits_same s _ _ St F)].
Qed.
Lemma load_shape s bytes v : named s -> text as_float deep bytes v -> fits s v -> exists j, load s (Some bytes) = Ok j /\ same v j /\ good deep j.
Proof.
  intros W T F. destruct (text_ok deep bytes v (Nat.le_refl _) T) as (v' & E & _ & S & G). destruct (into_ok false s W deep (zero s) v' (fresh_zero s W) (fits_same s _ _ S F) G) as (j & Ej & Sj & Gj). exists j. cbn [load]. rewrite E. split; [exact Ej|]. split; [apply (same_trans _ _ _ S Sj)|exact Gj].
Qed.
Lemma save_shape short s d : named s -> fits s d -> good deep d -> exists bytes t, save short s d = Ok bytes /\ is_text bytes t /\ value as_float deep t (out s d) /\ text as_float deep bytes (out s d) /\ same d (out s d).
Proof.
  intros W F G. destruct (out_ok s W deep d F G) as [S G']. destruct (save_ok short _ deep G' (Nat.le_refl _)) as (b & t & E & T & V). exists b, t. split; [exact E|]. split; [exact T|]. split; [exact V|]. split; [apply (value_text _ _ _ _ _ T V)|exact S].
Qed.
(** ** Paths *)
Lemma at_path_same p : forall v v', same v v' -> same_at (at_path v p) (at_path v' p).
Proof.
  induction p as [|k p IH]; intros v v' S; [exact S|]. cbn [at_path]. destruct v as [|b|q|x|l|m]; try (inversion S; subst; exact I). destruct (obj_same _ _ S) as (m' & ->). destruct (obj_same_elim _ _ S) as (_ & _ & H). specialize (H k). destruct (aget str_eqb k m), (aget str_eqb k m'); cbn [same_at] in H; try contradiction; [apply IH, H|exact I].
Qed.
Lemma found_same v v' p P : same v v' -> found v p P -> found v' p P.
Proof. intros S H. pose proof (at_path_same p _ _ S) as A. unfold found in *. destruct (at_path v p), (at_path v' p); cbn [same_at] in A; try contradiction; [|exact H]. destruct H as (x0 & H1 & H2). exists x0. split; [exact H1|apply (same_trans _ _ _ H2 A)]. Qed.
Lemma found_iff v p (P Q : json -> Prop) : (forall x, P x <-> Q x) -> found v p P -> found v p Q.
Proof. intros H F. unfold found in *. destruct (at_path v p); [destruct F as (x0 & F1 & F2); exists x0; split; [apply H, F1|exact F2]|intros x0 X; apply (F x0), H, X]. Qed.
Lemma get_get k v p : at_path v (k :: p) = match aget str_eqb k (members v) with Some x => at_path x p | None => None end.
Proof. destruct v; reflexivity. Qed.
Lemma get_set_eq k v j : get k (set k v j) = v. Proof. unfold get, set. cbn [members]. rewrite (aget_aset_eq str_eqb str_eqb_eq). reflexivity. Qed.
Lemma get_set_neq k k' v j : k <> k' -> get k (set k' v j) = get k j. Proof. intros H. unfold get, set. cbn [members]. rewrite (aget_aset_neq str_eqb str_eqb_eq) by congruence. reflexivity. Qed.
Lemma get_same k v v' : same v v' -> same (get k v) (get k v').
Proof. intros S. destruct v as [|b|q|x|l|m]; try (inversion S; subst; constructor). destruct (obj_same _ _ S) as (m' & ->). destruct (obj_same_elim _ _ S) as (_ & _ & H). specialize (H k). unfold get. cbn [members]. destruct (aget str_eqb k m), (aget str_eqb k m'); cbn [same_at] in H; try contradiction; [exact H|constructor]. Qed.
