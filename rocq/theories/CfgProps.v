(** * CfgProps: C66 (import configurations), C77 (choice of the reader), C78 (enumerated flags). *)
From Verif Require Import Base RegisterModel Utf8 BookOpModel CfgModel CfgSpec.

Lemma cut_app c a b : ~ In c a -> cut c (a ++ c :: b) = Some (a, b).
Proof.
  induction a as [|x a IH]; intros H; cbn.
  - rewrite Z.eqb_refl. reflexivity.
  - destruct (Z.eqb_spec x c) as [->|E]; [exfalso; apply H; left; reflexivity|].
    rewrite IH; [reflexivity|]. intros Hi. apply H. right. exact Hi.
Qed.
Lemma cut_none c s : ~ In c s -> cut c s = None.
Proof.
  induction s as [|x s IH]; intros H; cbn; [reflexivity|].
  destruct (Z.eqb_spec x c) as [->|E]; [exfalso; apply H; left; reflexivity|].
  rewrite IH; [reflexivity|]. intros Hi. apply H. right. exact Hi.
Qed.
Lemma cut_cases c (s : str) : (~ In c s) \/ exists a b, s = a ++ c :: b /\ ~ In c a.
Proof.
  induction s as [|x s IH]; [left; intros []|].
  destruct (Z.eq_dec x c) as [->|E]; [right; exists [], s; split; [reflexivity|intros []]|].
  destruct IH as [H|(a & b & -> & H)].
  - left. intros [Hx|Hx]; [congruence|contradiction].
  - right. exists (x :: a), b. split; [reflexivity|]. intros [Hx|Hx]; [congruence|contradiction].
Qed.
Lemma split_none c s : ~ In c s -> split c s = [s].
Proof.
  induction s as [|x s IH]; intros H; cbn; [reflexivity|].
  destruct (Z.eqb_spec x c) as [->|E]; [exfalso; apply H; left; reflexivity|].
  rewrite IH; [reflexivity|]. intros Hi. apply H. right. exact Hi.
Qed.
Lemma split_app c a b : ~ In c a -> split c (a ++ c :: b) = a :: split c b.
Proof.
  induction a as [|x a IH]; intros H; cbn.
  - rewrite Z.eqb_refl. reflexivity.
  - destruct (Z.eqb_spec x c) as [->|E]; [exfalso; apply H; left; reflexivity|].
    rewrite IH; [reflexivity|]. intros Hi. apply H. right. exact Hi.
Qed.
Lemma split_join c l : l <> [] -> Forall (fun p => ~ In c p) l -> split c (join [c] l) = l.
Proof.
  induction l as [|p l IH]; intros Hn Hf; [contradiction|]. inversion Hf as [|? ? Hp Hl]; subst.
  destruct l as [|q l]; [apply split_none; exact Hp|].
  change (join [c] (p :: q :: l)) with (p ++ c :: join [c] (q :: l)).
  rewrite split_app by exact Hp. rewrite IH; [reflexivity|discriminate|exact Hl].
Qed.
Lemma join_split c (s : str) : exists l, l <> [] /\ Forall (fun p => ~ In c p) l /\ s = join [c] l.
Proof.
  remember (length s) as n eqn:E. assert (Hn : (length s <= n)%nat) by lia. clear E. revert s Hn.
  induction n as [|n IH]; intros s Hn.
  - destruct s; [|cbn in Hn; lia]. exists [[]]. split; [discriminate|]. split; [repeat constructor; intros []|reflexivity].
  - destruct (cut_cases c s) as [H|(a & b & -> & H)].
    + exists [s]. split; [discriminate|]. split; [repeat constructor; exact H|reflexivity].
    + destruct (IH b) as (l & Hl & Hf & ->).
      { rewrite app_length in Hn. cbn in Hn. lia. }
      exists (a :: l). split; [discriminate|]. split; [constructor; assumption|]. destruct l; [contradiction|reflexivity].
Qed.

Lemma item_text_no_comma i : item_ok i -> ~ In 44 (item_text i).
Proof.
  intros (_ & H1 & H2). destruct i as [k|k v]; cbn in *; [exact H1|].
  rewrite in_app_iff. intros [H|H]; [contradiction|]. destruct H as [H|H]; [discriminate|contradiction].
Qed.

(** One step of the loop. *)
Lemma set_item i parts m : item_ok i ->
  set_params m (item_text i :: parts) =
  match i, aget str_eqb (key_of i) m with
  | Setting _ _, Some _ => (m, false)
  | _, _ => set_params (aset str_eqb (key_of i) (value_of i) m) parts
  end.
Proof.
  intros (H & _ & _). destruct i as [k|k v]; cbn [item_text key_of value_of set_params] in *.
  - rewrite cut_none by exact H. reflexivity.
  - change (k ++ bs "=" ++ v) with (k ++ 61 :: v). rewrite cut_app by exact H. reflexivity.
Qed.

Definition given (m : list (str * str)) (k v : str) : Prop := aget str_eqb k m = Some v.

Lemma last_snoc k items i v : last_value k (items ++ [i]) v <->
  (key_of i = k /\ v = value_of i) \/ (key_of i <> k /\ last_value k items v).
Proof.
  split.
  - intros H. inversion H as [l j l' Hk Hl E Ev]. destruct l' as [|j' l'] using rev_ind.
    + apply app_inj_tail in E as [-> ->]. left. auto.
    + clear IHl'. rewrite app_comm_cons, app_assoc in E. apply app_inj_tail in E as [<- ->]. right.
      split; [apply Hl; apply in_or_app; right; left; reflexivity|].
      constructor; [exact Hk|]. intros j0 Hj. apply Hl. apply in_or_app. left. exact Hj.
  - intros [[<- ->]|[Hk H]].
    + constructor; [reflexivity|intros j []].
    + inversion H as [l j l' Hj Hl E Ev]. subst. rewrite <- app_assoc. cbn. constructor; [reflexivity|].
      intros j0 H0. apply in_app_or in H0 as [H0|[<-|[]]]; [auto|congruence].
Qed.
Lemma last_ex k items : (exists v, last_value k items v) <-> exists i, In i items /\ key_of i = k.
Proof.
  split.
  - intros (v & H). inversion H as [l i l' Hk Hl E Ev]. exists i. split; [apply in_elt|exact Hk].
  - induction items as [|i items IH] using rev_ind; [intros (i & [] & _)|].
    intros (j & Hj & Hk). destruct (str_eq_dec (key_of i) k) as [Hi|Hi].
    + exists (value_of i). apply last_snoc. left. auto.
    + destruct IH as (v & Hv).
      * apply in_app_or in Hj as [Hj|[<-|[]]]; [exists j; auto|contradiction].
      * exists v. apply last_snoc. right. auto.
Qed.
Lemma rep_snoc items i : repeated (items ++ [i]) <->
  repeated items \/ (exists k v, i = Setting k v /\ exists j, In j items /\ key_of j = k).
Proof.
  split.
  - intros (l & j & l' & k & v & E & Hj & Hk). destruct l' as [|j' l'] using rev_ind.
    + apply app_inj_tail in E as [-> ->]. right. eauto 6.
    + clear IHl'. rewrite app_comm_cons, app_assoc in E. apply app_inj_tail in E as [-> ->]. left.
      exists l, j, l', k, v. auto.
  - intros [(l & j & l' & k & v & -> & Hj & Hk)|(k & v & -> & j & Hj & Hk)].
    + exists l, j, (l' ++ [i]), k, v. rewrite <- app_assoc. auto.
    + exists items, j, [], k, v. auto.
Qed.

(** The loop, with the items already read. *)
Lemma set_loop items : forall before m,
  Forall item_ok items -> ~ repeated before ->
  (forall k v, given m k v <-> last_value k before v) ->
  exists m' ok, set_params m (map item_text items) = (m', ok) /\
    (ok = true <-> ~ repeated (before ++ items)) /\
    (ok = true -> forall k v, given m' k v <-> last_value k (before ++ items) v).
Proof.
  induction items as [|i items IH]; intros before m Hf Hr Hm.
  - exists m, true. rewrite app_nil_r. cbn. repeat split; auto; try apply Hm.
  - inversion Hf as [|? ? Hi Hf']; subst. cbn [map]. rewrite set_item by exact Hi.
    assert (Hstep : forall k v, given (aset str_eqb (key_of i) (value_of i) m) k v <-> last_value k (before ++ [i]) v).
    { intros k v. rewrite last_snoc. unfold given. destruct (str_eq_dec (key_of i) k) as [<-|E].
      - rewrite (aget_aset_eq _ str_eqb_eq). split; [intros H; injection H as <-; auto|intros [[_ ->]|[C _]]; [reflexivity|contradiction]].
      - rewrite (aget_aset_neq _ str_eqb_eq) by congruence. fold (given m k v). rewrite Hm.
        split; [auto|intros [[C _]|[_ H]]; [contradiction|exact H]]. }
    assert (Hrec : ~ repeated (before ++ [i]) -> exists m' ok,
        set_params (aset str_eqb (key_of i) (value_of i) m) (map item_text items) = (m', ok) /\
        (ok = true <-> ~ repeated (before ++ i :: items)) /\
        (ok = true -> forall k v, given m' k v <-> last_value k (before ++ i :: items) v)).
    { intros Hr'. destruct (IH (before ++ [i]) _ Hf' Hr' Hstep) as (m' & ok & E & H1 & H2).
      rewrite <- app_assoc in H1, H2. exists m', ok. auto. }
    destruct i as [k|k v].
    + apply Hrec. rewrite rep_snoc. intros [H|(k0 & v0 & C & _)]; [contradiction|discriminate].
    + cbn [key_of value_of] in *. destruct (aget str_eqb k m) as [v0|] eqn:E.
      * exists m, false. split; [reflexivity|]. split; [|discriminate]. split; [discriminate|]. intros H. exfalso. apply H.
        assert (H0 : exists v1, last_value k before v1) by (exists v0; apply Hm; exact E).
        apply last_ex in H0 as (j & Hj & Hk). exists before, j, items, k, v. auto.
      * apply Hrec. rewrite rep_snoc. intros [H|(k0 & v0 & C & j & Hj & Hk)]; [contradiction|].
        injection C as -> ->. assert (H0 : exists v1, last_value k0 before v1) by (apply last_ex; eauto).
        destruct H0 as (v1 & H0). apply Hm in H0. unfold given in H0. congruence.
Qed.

Lemma last_nil k v : ~ last_value k [] v.
Proof. intros H. inversion H as [l i l' Hk Hl E Ev]. destruct l; discriminate. Qed.

(** C66: the meaning of every text. A text without ':' is a type alone. Any other text is a type and a non-empty list
    of items; it is rejected exactly when a key=value repeats a key, and otherwise the last item of a key counts. *)
Theorem C66_meaning :
  (forall s : str, ~ In 58 s -> cfg_set s = (mkCfg s [], true)) /\
  (forall s : str, In 58 s -> exists t items, ~ In 58 t /\ items <> [] /\ Forall item_ok items /\ s = config_text t items) /\
  (forall t items, ~ In 58 t -> items <> [] -> Forall item_ok items ->
    exists c ok, cfg_set (config_text t items) = (c, ok) /\ cf_type c = t /\
      (ok = true <-> ~ repeated items) /\
      (ok = true -> forall k v, aget str_eqb k (cf_params c) = Some v <-> last_value k items v)).
Proof.
  split; [|split].
  - intros s H. unfold cfg_set. rewrite cut_none by exact H. reflexivity.
  - intros s H. destruct (cut_cases 58 s) as [C|(t & rest & -> & Ht)]; [contradiction|].
    destruct (join_split 44 rest) as (l & Hl & Hf & ->).
    assert (Hi : forall p, ~ In 44 p -> exists i, item_ok i /\ item_text i = p).
    { intros p Hp. destruct (cut_cases 61 p) as [C|(k & v & -> & Hk)].
      - exists (Bare p). split; [|reflexivity]. repeat split; auto. cbn. intros C'. repeat (destruct C' as [C'|C']; [discriminate|]). contradiction.
      - exists (Setting k v). split; [|reflexivity]. repeat split; cbn; auto; intros C; apply Hp; apply in_or_app; [left|right; right]; exact C. }
    assert (Hm : exists items, Forall item_ok items /\ map item_text items = l).
    { clear Hl H. induction Hf as [|p l Hp Hf IH]; [exists []; split; [constructor|reflexivity]|].
      destruct IH as (items & H1 & H2). destruct (Hi p Hp) as (i & H3 & H4). exists (i :: items). cbn. rewrite H2, H4. split; [constructor; assumption|reflexivity]. }
    destruct Hm as (items & Hok & <-). exists t, items. repeat split; auto. destruct items; [contradiction|discriminate].
  - intros t items Ht Hn Hf. unfold config_text, cfg_set.
    change (t ++ bs ":" ++ join (bs ",") (map item_text items)) with (t ++ 58 :: join [44] (map item_text items)).
    rewrite cut_app by exact Ht. rewrite split_join.
    + destruct (set_loop items [] [] Hf) as (m & ok & E & H1 & H2).
      * intros (l & i & l' & k & v & C & _). destruct l; discriminate.
      * intros k v. split; [discriminate|]. intros C. exfalso. exact (last_nil _ _ C).
      * rewrite E. exists (mkCfg t m), ok. cbn [cf_type cf_params]. unfold given in H2. auto.
    + destruct items; [contradiction|discriminate].
    + rewrite Forall_map. eapply Forall_impl; [|exact Hf]. apply item_text_no_comma.
Qed.

(** C66: what String prints is read back, for every order in which the parameters are printed. *)
Theorem C66_round_trip : forall t params order,
  t <> [] -> ~ In 58 t -> NoDup (map fst params) -> Permutation params order ->
  (forall k v, In (k, v) params -> ~ In 61 k /\ ~ In 44 k /\ ~ In 44 v) ->
  exists c, cfg_set (cfg_string t order) = (c, true) /\ cf_type c = t /\
    forall k v, aget str_eqb k (cf_params c) = Some v <-> In (k, v) params.
Proof.
  intros t params order Ht Hc Hnd Hp Hok. unfold cfg_string. destruct t as [|x t]; [contradiction|].
  destruct order as [|kv order].
  - exists (mkCfg (x :: t) []). rewrite (proj1 C66_meaning _ Hc). repeat split; [discriminate|].
    apply Permutation_sym, Permutation_nil in Hp. subst. intros [].
  - set (items := map (fun kv => Setting (fst kv) (snd kv)) (kv :: order)).
    assert (Hnd' : NoDup (map key_of items)).
    { unfold items. rewrite map_map. cbn [key_of]. apply (Permutation_NoDup (Permutation_map fst Hp)). exact Hnd. }
    assert (Hlast : forall k v, last_value k items v <-> In (k, v) params).
    { intros k v. split.
      - intros H. inversion H as [l i l' Hk Hl E Ev].
        assert (Hi : In i items) by (rewrite <- E; apply in_elt).
        unfold items in Hi. apply in_map_iff in Hi as ([k0 v0] & <- & Hi). cbn in Hk |- *. subst k0.
        apply (Permutation_in _ (Permutation_sym Hp)). exact Hi.
      - intros H. apply (Permutation_in _ Hp) in H.
        assert (Hi : In (Setting k v) items) by (unfold items; apply in_map_iff; exists (k, v); split; [reflexivity|exact H]).
        apply in_split in Hi as (l & l' & E). rewrite E. apply (last_value_intro k l (Setting k v) l'); [reflexivity|].
        intros j Hj C. rewrite E, map_app in Hnd'. cbn [map] in Hnd'.
        apply NoDup_remove_2 in Hnd'. apply Hnd'. cbn [key_of]. apply in_or_app. right. rewrite <- C. apply in_map. exact Hj. }
    destruct C66_meaning as (_ & _ & M). destruct (M (x :: t) items Hc) as (c & ok & E & H1 & H2 & H3).
    + discriminate.
    + unfold items. rewrite Forall_map. apply Forall_forall. intros [k v] H. apply (Permutation_in _ (Permutation_sym Hp)) in H.
      apply Hok in H as (A & B & C). repeat split; assumption.
    + assert (Hok1 : ok = true).
      { apply H2. intros (l & i & l' & k & v & E' & Hi & Hk). rewrite E', map_app in Hnd'. cbn in Hnd'.
        apply NoDup_remove_2 in Hnd'. apply Hnd'. apply in_or_app. left. rewrite <- Hk. apply in_map. exact Hi. }
      exists c. split; [|split; [exact H1|]].
      * etransitivity; [|etransitivity; [exact E|rewrite Hok1; reflexivity]]. f_equal. unfold config_text, items. rewrite map_map. reflexivity.
      * intros k v. rewrite (H3 Hok1). apply Hlast.
Qed.

(** C66: a repeated key=value is rejected, whatever stands before, between and after. *)
Theorem C66_repeated_partial : forall t l k v l' v' l'',
  let items := l ++ Setting k v :: l' ++ Setting k v' :: l'' in
  ~ In 58 t -> Forall item_ok items -> snd (cfg_set (config_text t items)) = false.
Proof.
  intros t l k v l' v' l'' items Ht Hf. destruct C66_meaning as (_ & _ & M).
  destruct (M t items Ht) as (c & ok & E & _ & H & _); [unfold items; destruct l; discriminate|exact Hf|].
  rewrite E. cbn. destruct ok; [|reflexivity]. exfalso. apply (proj1 H eq_refl).
  exists (l ++ Setting k v :: l'), (Setting k v), l'', k, v'. split; [unfold items; rewrite <- app_assoc; reflexivity|].
  split; [apply in_elt|reflexivity].
Qed.

(** C66 EXPECTED, refuted: a parameter given twice may be accepted, the later bare one silently replaces the value. *)
Theorem C66_repeated_refuted :
  cfg_set (bs "csv:header=false,header") = (mkCfg (bs "csv") [(bs "header", bs "true")], true).
Proof. vm_compute. reflexivity. Qed.

(** C77: which reader is chosen for an import configuration. *)
Section Reader.
  Variable upper : Z -> Z.
  (** Lower or upper case spellings of a word in the sense of unicode.ToUpper. *)
  Definition spells (s w : str) : Prop := map upper (decode s) = w.

  Theorem C77_import_reader : forall c,
    (forall d h, import_reader upper c = Ok (RCsv d h) <->
       cf_type c = bs "csv" /\
       (aget str_eqb (bs "delim") (cf_params c) = Some d \/ (aget str_eqb (bs "delim") (cf_params c) = None /\ d = bs ",")) /\
       length (decode d) = 1%nat /\
       ((aget str_eqb (bs "header") (cf_params c) = None /\ h = false) \/
        exists s, aget str_eqb (bs "header") (cf_params c) = Some s /\ spells s (if h then bs "TRUE" else bs "FALSE"))) /\
    (import_reader upper c = Ok RJson <-> cf_type c = bs "json") /\
    (import_reader upper c = Error \/ exists r, import_reader upper c = Ok r).
  Proof.
    intros [t m]. unfold import_reader, get_string, get_bool, spells. cbn [cf_type cf_params].
    destruct (str_eqb_spec t []) as [->|E0].
    { split; [|split]; [| |left; reflexivity]; [intros d h|]; (split; [discriminate|]); [intros (C & _)|intros C]; discriminate. }
    destruct (str_eqb_spec t (bs "csv")) as [->|E1].
    - split; [|split].
      + intros d h. destruct (aget str_eqb (bs "delim") m) as [d0|] eqn:Ed.
        * destruct (Nat.eqb_spec (length (decode d0)) 1) as [Hl|Hl]; cbn [negb].
          -- destruct (aget str_eqb (bs "header") m) as [s|] eqn:Eh; cbn [obind].
             ++ destruct (str_eqb_spec (map upper (decode s)) (bs "TRUE")) as [Et|Et]; cbn [obind].
                ** split; [intros H; injection H as <- <-; repeat split; auto; right; exists s; auto|].
                   intros (_ & [H|[H _]] & _ & [[C _]|(s' & H1 & H2)]); try discriminate. injection H as <-. injection H1 as <-.
                   destruct h; [reflexivity|]. rewrite Et in H2. discriminate.
                ** destruct (str_eqb_spec (map upper (decode s)) (bs "FALSE")) as [Ef|Ef]; cbn [obind].
                   --- split; [intros H; injection H as <- <-; repeat split; auto; right; exists s; auto|].
                       intros (_ & [H|[H _]] & _ & [[C _]|(s' & H1 & H2)]); try discriminate. injection H as <-. injection H1 as <-.
                       destruct h; [contradiction|reflexivity].
                   --- split; [discriminate|]. intros (_ & _ & _ & [[C _]|(s' & H1 & H2)]); [discriminate|]. injection H1 as <-. destruct h; contradiction.
             ++ split; [intros H; injection H as <- <-; repeat split; auto|].
                intros (_ & [H|[H _]] & _ & [[_ ->]|(s' & H1 & H2)]); try discriminate. injection H as <-. reflexivity.
          -- split; [discriminate|]. intros (_ & [H|[H _]] & Hl' & _); [injection H as <-; contradiction|discriminate].
        * change (negb (Nat.eqb (length (decode (bs ","))) 1)) with false. cbv iota.
          destruct (aget str_eqb (bs "header") m) as [s|] eqn:Eh; cbn [obind].
          -- destruct (str_eqb_spec (map upper (decode s)) (bs "TRUE")) as [Et|Et]; cbn [obind].
             ++ split; [intros H; injection H as <- <-; repeat split; auto; right; exists s; auto|].
                intros (_ & [H|[_ ->]] & _ & [[C _]|(s' & H1 & H2)]); try discriminate. injection H1 as <-.
                destruct h; [reflexivity|]. rewrite Et in H2. discriminate.
             ++ destruct (str_eqb_spec (map upper (decode s)) (bs "FALSE")) as [Ef|Ef]; cbn [obind].
                ** split; [intros H; injection H as <- <-; repeat split; auto; right; exists s; auto|].
                   intros (_ & [H|[_ ->]] & _ & [[C _]|(s' & H1 & H2)]); try discriminate. injection H1 as <-.
                   destruct h; [contradiction|reflexivity].
                ** split; [discriminate|]. intros (_ & _ & _ & [[C _]|(s' & H1 & H2)]); [discriminate|]. injection H1 as <-. destruct h; contradiction.
          -- split; [intros H; injection H as <- <-; repeat split; auto|].
             intros (_ & [H|[_ ->]] & _ & [[_ ->]|(s' & H1 & H2)]); try discriminate. reflexivity.
      + split; [|intros C; discriminate].
        destruct (negb _); [discriminate|]. destruct (match aget str_eqb (bs "header") m with Some s => _ | None => _ end); discriminate.
      + destruct (negb _); [auto|]. destruct (aget str_eqb (bs "header") m) as [s|]; cbn [obind]; [|eauto].
        destruct (str_eqb _ _); cbn [obind]; [eauto|]. destruct (str_eqb _ _); cbn [obind]; eauto.
    - destruct (str_eqb_spec t (bs "json")) as [->|E2].
      + split; [|split; [split; [reflexivity|reflexivity]|eauto]]. intros d h. split; [discriminate|]. intros (C & _). discriminate.
      + split; [|split; [|auto]]; [intros d h|]; (split; [discriminate|]); [intros (C & _)|intros C]; contradiction.
  Qed.
End Reader.

(** C78: an enumerated flag takes exactly the valid values, however they are capitalised, and stores the valid
    spelling. *)
Theorem C78_enum : forall fold valid value,
  (forall v, enum_set fold valid value = Some v ->
     In v valid /\ fold v value = true) /\
  (enum_set fold valid value = None <-> forall v, In v valid -> fold v value = false) /\
  ((forall v w, In v valid -> In w valid -> fold v value = true -> fold w value = true -> v = w) ->
     forall v, In v valid -> fold v value = true -> enum_set fold valid value = Some v).
Proof.
  intros fold valid value. induction valid as [|w valid (IH1 & IH2 & IH3)].
  - cbn. repeat split; try discriminate; try contradiction.
  - cbn [enum_set]. destruct (fold w value) eqn:E.
    + split; [intros v H; injection H as <-; split; [left; reflexivity|exact E]|]. split.
      * split; [discriminate|]. intros H. rewrite (H w) in E by (left; reflexivity). discriminate.
      * intros H v Hv Hf. f_equal. apply H; auto. left. reflexivity.
    + split; [intros v H; apply IH1 in H as [H1 H2]; split; [right; exact H1|exact H2]|]. split.
      * rewrite IH2. split; [intros H v [<-|Hv]; auto|intros H v Hv; apply H; right; exact Hv].
      * intros H v [<-|Hv] Hf; [congruence|]. apply IH3; auto. intros v1 w1 H1 H2. apply H; right; assumption.
Qed.
Print Assumptions C66_meaning.
Print Assumptions C66_round_trip.
Print Assumptions C66_repeated_partial.
Print Assumptions C66_repeated_refuted.
Print Assumptions C77_import_reader.
Print Assumptions C78_enum.
(** A flag with several values: each accepted value is added after the earlier ones, and a rejected one changes
    nothing ([Set] returns the error and leaves the list). *)
Theorem C78_slice : forall fold valid vals value,
  (forall v, enum_set fold valid value = Some v -> enum_slice_set fold valid vals value = Some (vals ++ [v])) /\
  ((forall v, In v valid -> fold v value = false) -> enum_slice_set fold valid vals value = None).
Proof.
  intros fold valid vals value. unfold enum_slice_set. split; [intros v ->; reflexivity|].
  intros H. rewrite (proj2 (proj1 (proj2 (C78_enum fold valid value))) H). reflexivity.
Qed.
Print Assumptions C78_slice.

(** The hypotheses are met. *)
Example ex66 : exists c, cfg_set (cfg_string (bs "csv") [(bs "header", bs "true"); (bs "delim", bs ";")]) = (c, true) /\
  aget str_eqb (bs "delim") (cf_params c) = Some (bs ";").
Proof. eexists. split; vm_compute; reflexivity. Qed.
Example ex66b : snd (cfg_set (config_text (bs "csv") ([] ++ Setting (bs "a") (bs "1") :: [Bare (bs "b")] ++ Setting (bs "a") (bs "2") :: []))) = false.
Proof.
  apply C66_repeated_partial.
  - cbn. intuition discriminate.
  - repeat constructor; cbn; intuition discriminate.
Qed.
Example ex77 : import_reader (fun c => if (97 <=? c) && (c <=? 122) then c - 32 else c) (fst (cfg_set (bs "csv:header,delim=;"))) = Ok (RCsv (bs ";") true).
Proof. vm_compute. reflexivity. Qed.
Example ex78 : enum_set equal_fold [bs "Text"; bs "Ledger"; bs "Json"; bs "HTML"; bs "Beancount"] (bs "html") = Some (bs "HTML").
Proof. vm_compute. reflexivity. Qed.
