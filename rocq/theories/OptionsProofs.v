(** * OptionsProofs: lemmas for C116. *)
From Verif Require Import Base RegisterModel BookOpModel CfgModel ConfigModel CfgSpec CfgProps OptionsModel OptionsSpec.

Lemma path_eqb_ok a : forall b, path_eqb a b = true <-> a = b.
Proof.
  induction a as [|x a IH]; intros [|y b]; cbn [path_eqb]; try (split; discriminate); [tauto|]. rewrite Bool.andb_true_iff, str_eqb_eq, IH. split; [intros [-> ->]; reflexivity|intros H; injection H; auto].
Qed.
Lemma path_eqb_refl a : path_eqb a a = true. Proof. apply path_eqb_ok. reflexivity. Qed.
Lemma path_eqb_neq a b : a <> b -> path_eqb a b = false. Proof. intros H. destruct (path_eqb a b) eqn:E; [|reflexivity]. apply path_eqb_ok in E. contradiction. Qed.

(** ** Keys of the file and fields *)
Fixpoint nodupb (l : list str) : bool := match l with [] => true | x :: l' => negb (existsb (str_eqb x) l') && nodupb l' end.
Lemma nodupb_ok l : nodupb l = true -> NoDup l.
Proof.
  induction l as [|x l IH]; [constructor|]. cbn [nodupb]. intros H. apply Bool.andb_true_iff in H as [H1 H2]. constructor; [|apply IH; exact H2].
  intros Hin. apply Bool.negb_true_iff in H1. assert (existsb (str_eqb x) l = true) as E; [|congruence]. apply existsb_exists. exists x. split; [exact Hin|apply str_eqb_eq; reflexivity].
Qed.
Definition folded (fs : list (str * ty)) : list str := map (fun x => map lower (fst x)) fs.
Lemma field_name_In eq k fs n t : field_name eq k fs = Some (n, t) -> In (n, t) fs /\ eq n k = true.
Proof. induction fs as [|[m u] fs IH]; [discriminate|]. cbn [field_name]. destruct (eq m k) eqn:E; [intros H; injection H as <- <-; split; [left; reflexivity|exact E]|]. intros H. apply IH in H as [H1 H2]. split; [right; exact H1|exact H2]. Qed.
Lemma field_name_none eq k fs : field_name eq k fs = None -> forall x, In x fs -> eq (fst x) k = false.
Proof. induction fs as [|[m u] fs IH]; [intros _ x []|]. cbn [field_name]. destruct (eq m k) eqn:E; [discriminate|]. intros H x [<-|Hx]; [exact E|apply IH; assumption]. Qed.
Lemma folded_unique fs n t n' t' : NoDup (folded fs) -> In (n, t) fs -> In (n', t') fs -> map lower n = map lower n' -> n = n' /\ t = t'.
Proof.
  induction fs as [|[m u] fs IH]; [intros _ []|]. intros Hd. inversion Hd as [|? ? Hni Hd']; subst. clear Hd. intros [H1|H1] [H2|H2] E.
  - injection H1 as <- <-. injection H2 as <- <-. auto.
  - injection H1 as <- <-. exfalso. apply Hni. cbn [fst]. rewrite E. apply (in_map (fun x => map lower (fst x)) fs _ H2).
  - injection H2 as <- <-. exfalso. apply Hni. cbn [fst]. rewrite <- E. apply (in_map (fun x => map lower (fst x)) fs _ H1).
  - apply IH; assumption.
Qed.
Lemma lookup_name_ok fs k n t : NoDup (folded fs) -> (lookup_name k fs = Some (n, t) <-> In (n, t) fs /\ map lower n = map lower k).
Proof.
  intros Hd. unfold lookup_name. assert (Hs : forall m u, field_name str_eqb k fs = Some (m, u) -> In (m, u) fs /\ map lower m = map lower k).
  { intros m u H. apply field_name_In in H as [H E]. apply str_eqb_eq in E. subst m. auto. }
  assert (Hf : forall m u, field_name equal_fold k fs = Some (m, u) -> In (m, u) fs /\ map lower m = map lower k).
  { intros m u H. apply field_name_In in H as [H E]. unfold equal_fold in E. apply str_eqb_eq in E. auto. }
  assert (G : forall m u, In (m, u) fs /\ map lower m = map lower k -> (In (n, t) fs /\ map lower n = map lower k) <-> (m, u) = (n, t)).
  { intros m u (H1 & H2). split; [|intros E; injection E as <- <-; auto]. intros (H3 & H4). destruct (folded_unique fs m u n t Hd H1 H3) as [-> ->]; [congruence|reflexivity]. }
  destruct (field_name str_eqb k fs) as [[m u]|] eqn:E1.
  - rewrite (G m u (Hs m u eq_refl)). split; [intros H; injection H as -> ->; reflexivity|intros ->; reflexivity].
  - destruct (field_name equal_fold k fs) as [[m u]|] eqn:E2.
    + rewrite (G m u (Hf m u eq_refl)). split; [intros H; injection H as -> ->; reflexivity|intros ->; reflexivity].
    + split; [discriminate|]. intros [H1 H2]. pose proof (field_name_none _ _ _ E2 _ H1) as H. unfold equal_fold in H. cbn [fst] in H. rewrite H2 in H. rewrite (proj2 (str_eqb_eq _ _) eq_refl) in H. discriminate.
Qed.
Lemma lookup_ty k fs : lookup k fs = option_map snd (lookup_name k fs).
Proof.
  assert (G : forall eq, field eq k fs = option_map snd (field_name eq k fs)) by (intros eq; induction fs as [|[n t] fs IH]; [reflexivity|]; cbn [field field_name]; destruct (eq n k); [reflexivity|exact IH]).
  unfold lookup, lookup_name. rewrite !G. destruct (field_name str_eqb k fs) as [[n t]|]; reflexivity.
Qed.
Fixpoint exact_path (t : ty) (p : list str) : bool :=
  match p with
  | [] => true
  | n :: p' => match t with TStruct fs => nodupb (folded fs) && match field_name str_eqb n fs with Some (_, t') => exact_path t' p' | None => false end | _ => false end
  end.
Lemma field_path_ok p : forall t ks, exact_path t p = true -> (field_path t ks = Some p <-> same_key ks p).
Proof.
  unfold same_key. induction p as [|n p IH]; intros t ks Hp.
  - destruct ks as [|k ks]; cbn [field_path map]; [tauto|]. split; [|discriminate]. destruct t; try discriminate; [destruct (field_path t ks); discriminate|]. destruct (lookup_name k fields) as [[m u]|]; [destruct (field_path u ks)|]; discriminate.
  - cbn [exact_path] in Hp. destruct t as [| | | | | |fs]; try discriminate. apply Bool.andb_true_iff in Hp as [Hd Hp]. apply nodupb_ok in Hd. destruct (field_name str_eqb n fs) as [[m t']|] eqn:En; [|discriminate].
    apply field_name_In in En as [Hin E]. apply str_eqb_eq in E. subst m. destruct ks as [|k ks]; cbn [field_path map]; [split; discriminate|].
    destruct (lookup_name k fs) as [[m u]|] eqn:El.
    + apply (lookup_name_ok fs k m u Hd) in El as [Hm Em]. split.
      * destruct (field_path u ks) as [q|] eqn:Eq; [|discriminate]. cbn [option_map]. intros H. injection H as -> ->. destruct (folded_unique fs n u n t' Hd Hm Hin eq_refl) as [_ ->]. apply IH in Eq; [|exact Hp]. cbn [map]. rewrite Eq, Em. reflexivity.
      * intros H. injection H as H1 H2. destruct (folded_unique fs m u n t' Hd Hm Hin) as [-> ->]; [congruence|]. apply (IH t' ks Hp) in H2. rewrite H2. reflexivity.
    + split; [discriminate|]. intros H. injection H as H1 H2. assert (lookup_name k fs = Some (n, t')) as E; [apply (lookup_name_ok fs k n t' Hd); split; [exact Hin|congruence]|congruence].
Qed.
Lemma same_key_trans a b c : same_key a b -> (same_key b c <-> same_key a c).
Proof. unfold same_key. intros ->. reflexivity. Qed.

(** The values of a file: the last one counts. *)
Lemma set_field_get p v c q : set_field p v c q = if path_eqb p q then v else c q. Proof. reflexivity. Qed.
Lemma stored p es : forall c,
  (exists e1 k v e2, es = e1 ++ (k, v) :: e2 /\ field_path config_ty k = Some p /\ Forall (fun e => field_path config_ty (fst e) <> Some p) e2 /\ fold_left store_value es c p = v) \/
  (Forall (fun e => field_path config_ty (fst e) <> Some p) es /\ fold_left store_value es c p = c p).
Proof.
  induction es as [|[k v] es IH]; intros c; [right; split; [constructor|reflexivity]|]. cbn [fold_left].
  destruct (IH (store_value c (k, v))) as [(e1 & k' & v' & e2 & -> & H1 & H2 & H3)|[H1 H2]].
  - left. exists ((k, v) :: e1), k', v', e2. split; [reflexivity|auto].
  - rewrite H2. unfold store_value. cbn [fst snd]. destruct (field_path config_ty k) as [q|] eqn:Eq.
    + rewrite set_field_get. destruct (path_eqb q p) eqn:E.
      * apply path_eqb_ok in E. subst q. left. exists [], k, v, es. auto.
      * right. split; [constructor; [|exact H1]|reflexivity]. cbn [fst]. rewrite Eq. intros H. injection H as ->. rewrite path_eqb_refl in E. discriminate.
    + right. split; [constructor; [cbn [fst]; rewrite Eq; discriminate|exact H1]|reflexivity].
Qed.

(** ** The command line *)
Section Line.
  Variable fold : str -> str -> bool.
  Variable parse_int : str -> option Z.
  Variable table : list flag.
  Notation by_name := (OptionsModel.by_name table).
  Notation set_flag := (OptionsModel.set_flag fold parse_int).
  Notation parse_value := (OptionsModel.parse_value fold parse_int).
  Fixpoint apply_all (l : list item) (c : conf) : outcome conf :=
    match l with
    | [] => Ok c
    | Word _ :: l' => apply_all l' c
    | Opt n t :: l' => match by_name n with None => Error | Some f => do c <- set_flag f t c; apply_all l' c end
    end.
  Lemma cut_found n v : ~ In 61 n -> cut 61 (n ++ 61 :: v) = Some (n, v).
  Proof. induction n as [|x n IH]; intros H; [reflexivity|]. cbn [app cut]. destruct (Z.eqb_spec x 61) as [->|Hx]; [exfalso; apply H; left; reflexivity|]. rewrite IH; [reflexivity|intros Hi; apply H; right; exact Hi]. Qed.
  Lemma cut_none n : ~ In 61 n -> cut 61 n = None.
  Proof. induction n as [|x n IH]; intros H; [reflexivity|]. cbn [cut]. destruct (Z.eqb_spec x 61) as [->|Hx]; [exfalso; apply H; left; reflexivity|]. rewrite IH; [reflexivity|intros Hi; apply H; right; exact Hi]. Qed.
  Lemma apply_words ws c : apply_all (map Word ws) c = Ok c. Proof. induction ws as [|w ws IH]; [reflexivity|exact IH]. Qed.
  Lemma words_words ws : words (map Word ws) = ws. Proof. induction ws as [|w ws IH]; [reflexivity|]. change (w :: words (map Word ws) = w :: ws). rewrite IH. reflexivity. Qed.
  Lemma parse_written (switch : str -> bool) (letter : Z -> str) l args : (forall n f, by_name n = Some f -> alone f = if switch n then Some (bs "true") else None) ->
    (forall x, by_letter table x = by_name (letter x)) ->
    written switch letter l args -> forall c, parse_args fold parse_int table args c = do c' <- apply_all l c; Ok (c', words l).
  Proof.
    intros Hsw Hlet. assert (Hshort : forall x r, x <> 45 -> arg_of (45 :: x :: r) = AShort (x :: r)).
    { intros x r Hx. cbn [arg_of]. change (45 =? 45) with true. cbv iota. destruct (Z.eqb_spec x 45); [contradiction|reflexivity]. }
    induction 1 as [|n v l args Hn Hi Hh _ IH|n v l args Hn Hi Hh Hs _ IH|n l args Hn Hi Hh Hs _ IH|x v l args Hx Hs _ IH|x v l args Hx Hs Hv Hh _ IH|x v l args Hx Hv _ IH|x l args Hx Hs _ IH|x y r l args Hx Hy Hy2 Hs _ IH|w l args Hw _ IH|ws]; intros c.
    - reflexivity.
    - change (bs "--" ++ n ++ bs "=" ++ v) with (45 :: 45 :: (n ++ 61 :: v)). cbn [parse_args]. destruct n as [|x n]; [contradiction|].
      change (arg_of (45 :: 45 :: ((x :: n) ++ 61 :: v))) with (ALong ((x :: n) ++ 61 :: v)). cbv iota. change (hd 0 ((x :: n) ++ 61 :: v)) with x. cbn [hd] in Hh.
      assert (x <> 61) by (intros ->; apply Hi; left; reflexivity). replace ((x =? 45) || (x =? 61)) with false by lia. rewrite cut_found by exact Hi. cbn [apply_all]. destruct (by_name (x :: n)) as [f|]; [|reflexivity].
      destruct (set_flag f v c) as [c1| | |]; cbn [obind]; [apply IH|reflexivity..].
    - change (bs "--" ++ n) with (45 :: 45 :: n). cbn [parse_args]. destruct n as [|x n]; [contradiction|]. change (arg_of (45 :: 45 :: x :: n)) with (ALong (x :: n)). cbv iota. cbn [hd] in *.
      assert (x <> 61) by (intros ->; apply Hi; left; reflexivity). replace ((x =? 45) || (x =? 61)) with false by lia. rewrite cut_none by exact Hi. cbn [apply_all]. destruct (by_name (x :: n)) as [f|] eqn:Ef; [|reflexivity].
      rewrite (Hsw _ _ Ef), Hs. destruct (set_flag f v c) as [c1| | |]; cbn [obind]; [apply IH|reflexivity..].
    - change (bs "--" ++ n) with (45 :: 45 :: n). cbn [parse_args]. destruct n as [|x n]; [contradiction|]. change (arg_of (45 :: 45 :: x :: n)) with (ALong (x :: n)). cbv iota. cbn [hd] in *.
      assert (x <> 61) by (intros ->; apply Hi; left; reflexivity). replace ((x =? 45) || (x =? 61)) with false by lia. rewrite cut_none by exact Hi. cbn [apply_all]. destruct (by_name (x :: n)) as [f|] eqn:Ef; [|reflexivity].
      rewrite (Hsw _ _ Ef), Hs. destruct (set_flag f (bs "true") c) as [c1| | |]; cbn [obind]; [apply IH|reflexivity..].
    - cbn [parse_args]. rewrite Hshort by exact Hx. cbv iota. cbn [parse_short]. rewrite Hlet. cbn [assigned apply_all]. destruct (by_name (letter x)) as [f|] eqn:Ef; [|reflexivity]. rewrite (Hsw _ _ Ef), Hs.
      destruct (set_flag f v c) as [c1| | |]; cbn [obind]; [apply IH|reflexivity..].
    - cbn [parse_args]. rewrite Hshort by exact Hx. cbv iota. cbn [parse_short]. rewrite Hlet. destruct v as [|y v]; [contradiction|]. cbn [hd] in Hh.
      assert (assigned (y :: v) = None) as ->. { destruct v as [|z v]; [reflexivity|]. cbn [assigned]. destruct (Z.eqb_spec y 61); [contradiction|reflexivity]. }
      cbn [apply_all]. destruct (by_name (letter x)) as [f|] eqn:Ef; [|reflexivity]. rewrite (Hsw _ _ Ef), Hs.
      destruct (set_flag f (y :: v) c) as [c1| | |]; cbn [obind]; [|reflexivity..]. destruct args; exact (IH c1).
    - cbn [parse_args]. rewrite Hshort by exact Hx. cbv iota. cbn [parse_short]. rewrite Hlet. destruct v as [|y v]; [contradiction|].
      assert (assigned (61 :: y :: v) = Some (y :: v)) as -> by reflexivity.
      cbn [apply_all]. destruct (by_name (letter x)) as [f|] eqn:Ef; [|reflexivity].
      destruct (set_flag f (y :: v) c) as [c1| | |]; cbn [obind]; [|reflexivity..]. destruct args; exact (IH c1).
    - cbn [parse_args]. rewrite Hshort by exact Hx. cbv iota. cbn [parse_short]. rewrite Hlet. cbn [assigned apply_all]. destruct (by_name (letter x)) as [f|] eqn:Ef; [|reflexivity]. rewrite (Hsw _ _ Ef), Hs.
      destruct (set_flag f (bs "true") c) as [c1| | |]; cbn [obind]; [|reflexivity..]. destruct args; exact (IH c1).
    - cbn [parse_args] in *. rewrite Hshort by exact Hx. cbv iota. rewrite (Hshort y r Hy) in IH. cbv iota in IH.
      assert (Hstep : parse_short fold parse_int table (x :: y :: r) args c = match by_name (letter x) with Some f => do c <- set_flag f (bs "true") c; parse_short fold parse_int table (y :: r) args c | None => Error end).
      { cbn [parse_short]. rewrite Hlet. assert (assigned (y :: r) = None) as ->. { destruct r as [|z r]; [reflexivity|]. cbn [assigned]. destruct (Z.eqb_spec y 61); [contradiction|reflexivity]. }
        destruct (by_name (letter x)) as [f|] eqn:Ef; [|reflexivity]. rewrite (Hsw _ _ Ef), Hs. reflexivity. }
      rewrite Hstep. cbn [apply_all words flat_map app]. destruct (by_name (letter x)) as [f|]; [|reflexivity]. destruct (set_flag f (bs "true") c) as [c1| | |]; cbn [obind]; [apply IH|reflexivity..].
    - cbn [parse_args]. assert (arg_of w = AWord) as ->. { destruct w as [|x [|y w]]; [reflexivity..|]. cbn [hd] in Hw. cbn [arg_of]. destruct (Z.eqb_spec x 45); [contradiction|reflexivity]. }
      rewrite IH. cbn [apply_all]. destruct (apply_all l c) as [c1| | |]; reflexivity.
    - cbn [parse_args]. change (arg_of (bs "--")) with AEnd. cbv iota. rewrite apply_words. cbn [obind]. rewrite words_words. reflexivity.
  Qed.

  Lemma by_name_ok n f : NoDup (map f_name table) -> (by_name n = Some f <-> In f table /\ f_name f = n).
  Proof.
    intros Hd. unfold OptionsModel.by_name. split.
    - intros H. apply find_some in H as [H E]. apply str_eqb_eq in E. auto.
    - intros [Hin <-]. clear - Hd Hin. induction table as [|g t IH]; [destruct Hin|]. cbn [find]. inversion Hd as [|? ? Hni Hd']; subst. destruct Hin as [->|Hin]; [rewrite (proj2 (str_eqb_eq _ _) eq_refl); reflexivity|].
      destruct (str_eqb (f_name g) (f_name f)) eqn:E; [|apply IH; assumption]. apply str_eqb_eq in E. exfalso. apply Hni. rewrite E. apply in_map. exact Hin.
  Qed.
  (** The value of every flag afterwards. *)
  Lemma applied f : NoDup (map f_name table) -> NoDup (map f_field table) -> In f table -> forall l c c', apply_all l c = Ok c' ->
    (exists l1 t l2 v, l = l1 ++ Opt (f_name f) t :: l2 /\ Forall (fun i => ~ is_opt (f_name f) i) l2 /\ parse_value (f_kind f) t = Some v /\ c' (f_field f) = v) \/
    (Forall (fun i => ~ is_opt (f_name f) i) l /\ c' (f_field f) = c (f_field f)).
  Proof.
    intros Hd Hf Hin. assert (Huniq : forall g, In g table -> f_field g = f_field f -> g = f).
    { clear - Hf Hin. induction table as [|h t IH]; [destruct Hin|]. inversion Hf as [|? ? Hni Hf']; subst. intros g [->|Hg] E; destruct Hin as [->|Hin]; [reflexivity| | |apply IH; assumption].
      - exfalso. apply Hni. rewrite E. apply in_map. exact Hin.
      - exfalso. apply Hni. rewrite <- E. apply in_map. exact Hg. }
    induction l as [|[n t|w] l IH]; intros c c' H; cbn [apply_all] in H.
    - injection H as <-. right. split; [constructor|reflexivity].
    - destruct (by_name n) as [g|] eqn:Eg; [|discriminate]. apply (by_name_ok n g Hd) in Eg as [Hg <-]. unfold OptionsModel.set_flag in H. destruct (parse_value (f_kind g) t) as [v|] eqn:Ev; [|discriminate]. cbn [obind] in H.
      apply IH in H as [(l1 & t' & l2 & v' & -> & H1 & H2 & H3)|[H1 H2]].
      + left. exists (Opt (f_name g) t :: l1), t', l2, v'. auto.
      + rewrite set_field_get in H2. destruct (path_eqb (f_field g) (f_field f)) eqn:E.
        * apply path_eqb_ok in E. apply Huniq in E; [|exact Hg]. subst g. left. exists [], t, l, v. auto.
        * right. split; [|exact H2]. constructor; [|exact H1]. cbn [is_opt]. intros En. assert (g = f) as ->; [|rewrite path_eqb_refl in E; discriminate].
          assert (by_name (f_name f) = Some g) as E1 by (apply by_name_ok; auto). assert (by_name (f_name f) = Some f) as E2 by (apply by_name_ok; auto). congruence.
    - apply IH in H as [(l1 & t' & l2 & v' & -> & H1)|[H1 H2]]; [left; exists (Word w :: l1), t', l2, v'; auto|right; split; [constructor; [intros []|exact H1]|exact H2]].
  Qed.
  (** Fields of no flag keep their values. *)
  Lemma applied_other p : (forall f, In f table -> f_field f <> p) -> forall l c c', apply_all l c = Ok c' -> c' p = c p.
  Proof.
    intros Hp. induction l as [|[n t|w] l IH]; intros c c' H; cbn [apply_all] in H; [injection H as <-; reflexivity| |apply IH; exact H].
    destruct (by_name n) as [g|] eqn:Eg; [|discriminate]. unfold OptionsModel.by_name in Eg. apply find_some in Eg as [Hg _]. unfold OptionsModel.set_flag in H. destruct (parse_value (f_kind g) t) as [v|]; [|discriminate]. cbn [obind] in H. apply IH in H. rewrite H, set_field_get.
    rewrite path_eqb_neq by (apply Hp; exact Hg). reflexivity.
  Qed.
End Line.

(** ** Flags and options *)
Section Linked.
  Variable fold : str -> str -> bool.
  Variable parse_int : str -> option Z.
  (** The configuration before the file is read. *)
  Variable start : conf.
  Definition kind_sort (k : fkind) (s : sort) : Prop := match k, s with FStr, AnyText | FBool, Switch | FInt, Number | FFormat, Format => True | FEnum a, OneOf b => a = b | _, _ => False end.
  Lemma enum_ok vs t v : enum_set fold vs t = Some v <-> exists l1 w l2, vs = l1 ++ w :: l2 /\ fold w t = true /\ Forall (fun x => fold x t = false) l1 /\ v = w.
  Proof.
    induction vs as [|x vs IH]; cbn [enum_set].
    - split; [discriminate|]. intros ([|? ?] & ? & ? & H & _); discriminate.
    - destruct (fold x t) eqn:E.
      + split; [intros H; injection H as <-; exists [], x, vs; auto|]. intros ([|y l1] & w & l2 & H & Hw & Hl & ->); [injection H as -> _; reflexivity|]. injection H as -> _. apply Forall_inv in Hl. congruence.
      + rewrite IH. split; intros (l1 & w & l2 & H & Hw & Hl & ->).
        * exists (x :: l1), w, l2. subst vs. auto.
        * destruct l1 as [|y l1]; [injection H as -> _; congruence|]. injection H as -> ->. exists l1, w, l2. apply Forall_inv_tail in Hl. auto.
  Qed.
  Lemma parse_bool_ok t b : parse_bool t = Some b <-> (In t [bs "1"; bs "t"; bs "T"; bs "TRUE"; bs "true"; bs "True"] /\ b = true) \/ (In t [bs "0"; bs "f"; bs "F"; bs "FALSE"; bs "false"; bs "False"] /\ b = false).
  Proof.
    assert (G : forall l, existsb (str_eqb t) l = true <-> In t l). { intros l. rewrite existsb_exists. split; [intros (x & Hx & E); apply str_eqb_eq in E; subst x; exact Hx|intros H; exists t; split; [exact H|apply str_eqb_eq; reflexivity]]. }
    unfold parse_bool. destruct (existsb (str_eqb t) [bs "1"; _; _; _; _; _]) eqn:E1.
    - apply G in E1. split; [intros H; injection H as <-; auto|]. intros [[_ ->]|[H ->]]; [reflexivity|]. exfalso. cbn [In] in E1, H.
      repeat (destruct E1 as [E1|E1]); try contradiction; subst t; repeat (destruct H as [H|H]; [discriminate H|]); contradiction.
    - destruct (existsb (str_eqb t) [bs "0"; _; _; _; _; _]) eqn:E2.
      + apply G in E2. split; [intros H; injection H as <-; auto|]. intros [[H ->]|[_ ->]]; [|reflexivity]. apply G in H. congruence.
      + split; [discriminate|]. intros [[H _]|[H _]]; apply G in H; congruence.
  Qed.
  Lemma parse_value_ok k s t v : kind_sort k s -> (OptionsModel.parse_value fold parse_int k t = Some v <-> stands_for fold parse_int s t v).
  Proof.
    destruct k as [| | |vs|], s as [| | |vs'|]; cbn [kind_sort]; try contradiction; intros Hk; cbn [OptionsModel.parse_value stands_for].
    - split; [intros H; injection H as <-; reflexivity|intros ->; reflexivity].
    - destruct (parse_bool t) as [b|] eqn:E; cbn [option_map].
      + apply parse_bool_ok in E. split; [intros H; injection H as <-; destruct E as [[E ->]|[E ->]]; auto|]. intros H. apply f_equal. destruct H as [[H ->]|[H ->]].
        * assert (parse_bool t = Some true) as E3 by (apply parse_bool_ok; auto). apply parse_bool_ok in E. congruence.
        * assert (parse_bool t = Some false) as E3 by (apply parse_bool_ok; auto). apply parse_bool_ok in E. congruence.
      + split; [discriminate|]. intros [[H _]|[H _]]; [assert (parse_bool t = Some true) by (apply parse_bool_ok; auto)|assert (parse_bool t = Some false) by (apply parse_bool_ok; auto)]; congruence.
    - destruct (parse_int t) as [z|]; cbn [option_map]; [split; [intros H; injection H as <-; eauto|intros (z' & E & ->); congruence]|split; [discriminate|intros (z' & E & _); discriminate]].
    - subst vs'. destruct (enum_set fold vs t) as [w|] eqn:E; cbn [option_map].
      + apply enum_ok in E. split.
        * intros H. injection H as <-. destruct E as (l1 & w' & l2 & H1 & H2 & H3 & ->). eauto 8.
        * intros (l1 & w' & l2 & H1 & H2 & H3 & ->). assert (enum_set fold vs t = Some w') as E3 by (apply enum_ok; eauto 8). apply enum_ok in E. congruence.
      + split; [discriminate|]. intros (l1 & w' & l2 & H1 & H2 & H3 & _). assert (enum_set fold vs t = Some w') by (apply enum_ok; eauto 8). congruence.
    - assert (G : snd (cfg_set t) = true <-> format_text t).
      { destruct C66_meaning as (M1 & M2 & M3). unfold format_text. destruct (in_dec Z.eq_dec 58 t) as [Hi|Hi].
        - split.
          + intros H. right. destruct (M2 t Hi) as (ty & ps & Ht & Hn & Hf & ->). exists ty, ps. destruct (M3 ty ps Ht Hn Hf) as (c & ok & E & _ & Hok & _). rewrite E in H. cbn [snd] in H. apply Hok in H. auto.
          + intros [H|(ty & ps & -> & Ht & Hn & Hf & H)]; [contradiction|]. destruct (M3 ty ps Ht Hn Hf) as (c & ok & -> & _ & Hok & _). apply Hok. exact H.
        - rewrite (M1 t Hi). split; [auto|reflexivity]. }
      destruct (snd (cfg_set t)); [split; [intros H; injection H as <-; split; [apply G; reflexivity|reflexivity]|intros (_ & ->); reflexivity]|split; [discriminate|intros (H & _); apply G in H; discriminate]].
  Qed.
  (** The field of a flag is the one of the key. *)
  Definition key_field (o : option_doc) (f : flag) : Prop :=
    (o_key o = [] /\ forall k, field_path config_ty k <> Some (f_field f)) \/ (o_key o <> [] /\ exact_path config_ty (f_field f) = true /\ same_key (o_key o) (f_field f)).
  Definition linked (f : flag) (o : option_doc) : Prop := f_name f = o_name o /\ kind_sort (f_kind f) (o_sort o) /\ key_field o f /\ start (f_field f) = o_default o.
  Lemma effect table f o line file first c c1 c' : NoDup (map f_name table) -> NoDup (map f_field table) -> In f table -> linked f o -> decode_config first file start = Ok c ->
    c1 (f_field f) = c (f_field f) -> apply_all fold parse_int table line c1 = Ok c' -> in_effect fold parse_int o line file (c' (f_field f)).
  Proof.
    intros Hn Hf Hin (E1 & Hk & Hkey & Eb) Hc Hc1 Ha. unfold decode_config in Hc. destruct (existsb ill_typed (keys_of file)); [discriminate|]. destruct (negb first && existsb no_field (keys_of file)); [discriminate|]. injection Hc as <-.
    destruct (applied fold parse_int table f Hn Hf Hin line _ c' Ha) as [(l1 & t & l2 & v & -> & H2 & H3 & ->)|[H1 E2]].
    - apply (E_line _ _ _ _ _ l1 t l2); [rewrite E1; reflexivity|rewrite <- E1; exact H2|apply (parse_value_ok _ _ _ _ Hk); exact H3].
    - rewrite E2, Hc1. rewrite E1 in H1. destruct (stored (f_field f) file start) as [(e1 & k & v & e2 & -> & G1 & G2 & ->)|[G1 ->]].
      + destruct Hkey as [[_ Hkey]|(Hne & Hx & Hkey)]; [exfalso; exact (Hkey k G1)|]. apply (E_file _ _ _ _ _ e1 k v e2); [exact H1|reflexivity|exact Hne| |].
        * apply (field_path_ok _ _ _ Hx) in G1. unfold same_key in *. congruence.
        * eapply Forall_impl; [|exact G2]. intros e He Hs. apply He. apply (field_path_ok _ _ _ Hx). unfold same_key in *. congruence.
      + rewrite Eb. apply E_default; [exact H1|]. eapply Forall_impl; [|exact G1]. intros e He. destruct Hkey as [[-> _]|(_ & Hx & Hkey)]; [left; reflexivity|right]. intros Hs. apply He. apply (field_path_ok _ _ _ Hx). unfold same_key in *. congruence.
  Qed.
  Lemma apply_usable table os line : NoDup (map f_name table) -> Forall2 linked table os -> Forall (usable fold parse_int os) line -> forall c, exists c', apply_all fold parse_int table line c = Ok c'.
  Proof.
    intros Hn Hl. induction 1 as [|[n t|w] l Hi _ IH]; intros c; cbn [apply_all]; [eauto| |apply IH]. destruct Hi as (o & v & Ho & <- & Hv).
    assert (exists f, In f table /\ linked f o) as (f & Hf & E1 & Hk & _). { clear - Hl Ho. induction Hl as [|f o' fs os' H _ IH]; [destruct Ho|]. destruct Ho as [->|Ho]; [exists f; split; [left; reflexivity|exact H]|]. destruct (IH Ho) as (g & Hg & Hlg). exists g. split; [right; exact Hg|exact Hlg]. }
    assert (by_name table (o_name o) = Some f) as -> by (apply by_name_ok; auto). unfold set_flag. rewrite (proj2 (parse_value_ok _ _ _ _ Hk) Hv). cbn [obind]. apply IH.
  Qed.
  Lemma apply_unusable table os line : NoDup (map f_name table) -> Forall2 linked table os -> ~ Forall (usable fold parse_int os) line -> forall c, apply_all fold parse_int table line c = Error.
  Proof.
    intros Hn Hl. induction line as [|[n t|w] l IH]; intros H c; [exfalso; apply H; constructor| |].
    - cbn [apply_all]. destruct (by_name table n) as [f|] eqn:Ef; [|reflexivity]. apply by_name_ok in Ef as [Hf <-]; [|exact Hn]. unfold set_flag.
      destruct (OptionsModel.parse_value fold parse_int (f_kind f) t) as [v|] eqn:Ev; [|reflexivity]. cbn [obind]. apply IH. intros Hall. apply H. constructor; [|exact Hall].
      assert (exists o, In o os /\ linked f o) as (o & Ho & E1 & Hk & _). { clear - Hl Hf. induction Hl as [|g o' fs os' H _ IH]; [destruct Hf|]. destruct Hf as [->|Hf]; [exists o'; split; [left; reflexivity|exact H]|]. destruct (IH Hf) as (o & Ho & Hlo). exists o. split; [right; exact Ho|exact Hlo]. }
      exists o, v. split; [exact Ho|]. split; [congruence|]. apply (parse_value_ok _ _ _ _ Hk). exact Ev.
    - cbn [apply_all]. apply IH. intros Hall. apply H. constructor; [exact I|exact Hall].
  Qed.
  Lemma linked_switch table os : NoDup (map f_name table) -> Forall2 linked table os -> forall n f, by_name table n = Some f -> alone f = if is_switch os n then Some (bs "true") else None.
  Proof.
    intros Hn Hl n f H. apply (by_name_ok table n f Hn) in H as [Hf <-]. unfold is_switch. induction Hl as [|g o fs os' (E1 & Hk & _) Hl IH]; [destruct Hf|]. inversion Hn as [|? ? Hni Hn']; subst. cbn [existsb]. destruct Hf as [->|Hf].
    - rewrite <- E1, (proj2 (str_eqb_eq _ _) eq_refl). cbn [andb].
      assert (existsb (fun o0 => str_eqb (o_name o0) (f_name f) && match o_sort o0 with Switch => true | _ => false end) os' = false) as ->.
      { clear - Hl Hni. induction Hl as [|g o' fs os' (E1 & _) _ IH]; [reflexivity|]. cbn [existsb]. rewrite IH by (intros H; apply Hni; right; exact H). destruct (str_eqb (o_name o') (f_name f)) eqn:E; [|reflexivity]. apply str_eqb_eq in E. exfalso. apply Hni. left. congruence. }
      unfold alone. destruct (f_kind f), (o_sort o); cbn [kind_sort] in Hk; try contradiction; reflexivity.
    - destruct (str_eqb (o_name o) (f_name f)) eqn:E; [|exact (IH Hn' Hf)]. apply str_eqb_eq in E. exfalso. apply Hni. rewrite E1, E. apply in_map. exact Hf.
  Qed.
  (** The macros. *)
  Lemma macros_path k name : field_path config_ty k = Some [bs "Macros"; name] <-> exists k', k = [k'; name] /\ same_key [k'] [bs "macros"].
  Proof.
    destruct config_ty as [| | | | | |fs] eqn:Ec; try discriminate Ec. assert (Hd : NoDup (folded fs)) by (apply nodupb_ok; injection Ec as <-; vm_compute; reflexivity).
    assert (Hin : In (bs "Macros", TMap TStrs) fs) by (injection Ec as <-; do 5 right; left; reflexivity).
    split.
    - destruct k as [|k1 ks]; [discriminate|]. cbn [field_path]. destruct (lookup_name k1 fs) as [[n t]|] eqn:El; [|discriminate]. destruct (field_path t ks) as [q|] eqn:Eq; [|discriminate]. cbn [option_map]. intros H. injection H as -> ->.
      apply (lookup_name_ok fs k1 _ t Hd) in El as [H1 H2]. destruct (folded_unique fs _ _ _ _ Hd H1 Hin eq_refl) as [_ ->]. destruct ks as [|k2 ks]; [discriminate|]. cbn [field_path] in Eq. destruct ks as [|k3 ks]; [|discriminate]. cbn in Eq. injection Eq as ->.
      exists k1. split; [reflexivity|]. unfold same_key. cbn [map]. rewrite <- H2. reflexivity.
    - intros (k1 & -> & H). cbn [field_path]. assert (lookup_name k1 fs = Some (bs "Macros", TMap TStrs)) as ->; [|reflexivity]. apply (lookup_name_ok fs k1 _ _ Hd). split; [exact Hin|]. unfold same_key in H. injection H as ->. reflexivity.
  Qed.
  Lemma macros_typed k name v : field_path config_ty k = Some [bs "Macros"; name] -> ill_typed (k, kind_of_value v) = false -> exists ops, v = VL ops.
  Proof.
    intros H. apply macros_path in H as (k1 & -> & Hk). unfold ill_typed. cbn [fst snd].
    assert (ConfigModel.resolve config_ty [k1; name] = Some TStrs) as ->.
    { destruct config_ty as [| | | | | |fs] eqn:Ec; try discriminate Ec. assert (Hd : NoDup (folded fs)) by (apply nodupb_ok; injection Ec as <-; vm_compute; reflexivity).
      cbn [ConfigModel.resolve]. rewrite lookup_ty. assert (lookup_name k1 fs = Some (bs "Macros", TMap TStrs)) as ->; [|reflexivity]. apply (lookup_name_ok fs k1 _ _ Hd). split; [injection Ec as <-; do 5 right; left; reflexivity|]. unfold same_key in Hk. injection Hk as ->. reflexivity. }
    destruct v; cbn; try discriminate. eauto.
  Qed.
  Lemma builtin_macros lang name : builtin lang [bs "Macros"; name] = VT.
  Proof. unfold builtin. replace (path_eqb [bs "Macros"; name] [bs "flag"; bs "help"]) with false by reflexivity. replace (path_eqb [bs "Macros"; name] [bs "flag"; bs "json"]) with false by reflexivity. reflexivity. Qed.
  Lemma effect_macros lang table line file first c c' : (forall f, In f table -> hd [] (f_field f) <> bs "Macros") -> decode_config first file (builtin lang) = Ok c -> apply_all fold parse_int table line c = Ok c' -> macros_in file (macros_of c').
  Proof.
    intros Hh Hc Ha name. unfold decode_config in Hc. destruct (existsb ill_typed (keys_of file)) eqn:Ei; [discriminate|]. destruct (negb first && existsb no_field (keys_of file)); [discriminate|]. injection Hc as <-. unfold macros_of.
    rewrite (applied_other fold parse_int table [bs "Macros"; name] ltac:(intros f Hf E; apply (Hh f Hf); rewrite E; reflexivity) line _ c' Ha).
    destruct (stored [bs "Macros"; name] file (builtin lang)) as [(e1 & k & v & e2 & E & G1 & G2 & ->)|[G1 ->]].
    - left. destruct (macros_typed k name v G1) as (ops & ->).
      { assert (In (k, kind_of_value v) (keys_of file)) as Hk by (subst file; unfold keys_of; rewrite map_app; apply in_or_app; right; left; reflexivity).
        destruct (ill_typed (k, kind_of_value v)) eqn:E2; [|reflexivity]. assert (existsb ill_typed (keys_of file) = true) by (apply existsb_exists; eauto). congruence. }
      apply macros_path in G1 as (k1 & -> & Hk). exists e1, k1, ops, e2. split; [exact E|]. split; [exact Hk|]. split; [|reflexivity]. eapply Forall_impl; [|exact G2]. intros e He Hm. apply He. apply macros_path. exact Hm.
    - right. split; [|rewrite (builtin_macros lang); reflexivity]. eapply Forall_impl; [|exact G1]. intros e He Hm. apply He. apply macros_path. exact Hm.
  Qed.
End Linked.
