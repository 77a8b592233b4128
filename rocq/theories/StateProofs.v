(** * StateProofs: lemmas for the state file (C100). *)
From Coq Require Import ZifyBool Lqa.
From Verif Require Import Base Utf8 LoaderModel LoaderSpec ExportModel ExportSpec ExportProofs ConvertModel ConvertSpec ConvertProps F64Model F64Spec F64Proofs JsonModel JsonSpec JsonNum JsonWrite JsonWrite2 JsonWrite3 JsonProps JsonRead JsonRead2 JsonReadProps StateModel StateSpec.

(** ** Sorting members *)
Lemma isort_in {A} (less : A -> A -> bool) l x : In x (isort less l) <-> In x l.
Proof. pose proof (isort_perm less l) as P. split; apply Permutation_in; [apply Permutation_sym|]; exact P. Qed.
Lemma isort_keys (less : str * json -> str * json -> bool) m : NoDup (map fst m) -> NoDup (map fst (isort less m)).
Proof. apply Permutation_NoDup. apply Permutation_map. apply isort_perm. Qed.
Lemma aget_perm (m m' : list (str * json)) k : Permutation m m' -> NoDup (map fst m) -> aget str_eqb k m = aget str_eqb k m'.
Proof.
  intros P N. assert (N' : NoDup (map fst m')) by (apply (Permutation_NoDup (Permutation_map fst P)), N). destruct (aget str_eqb k m) as [v|] eqn:E.
  - symmetry. apply (aget_Some_iff str_eqb str_eqb_eq _ _ _ N'). apply (Permutation_in _ P). apply (aget_In str_eqb str_eqb_eq). exact E.
  - symmetry. apply (aget_None str_eqb str_eqb_eq). apply (aget_None str_eqb str_eqb_eq) in E. unfold akeys in *. intros H. apply E. apply (Permutation_in _ (Permutation_sym (Permutation_map fst P))), H.
Qed.
Lemma same_refl j : map_like j -> same j j.
Proof.
  induction j as [|b|q|s|l IH|m IH] using json_ind'; intros H; try constructor; inversion H; subst; try assumption.
  - clear H. induction IH as [|x l Hx _ IHl]; [constructor|]. match goal with K : Forall map_like _ |- _ => inversion K; subst end. constructor; auto.
  - intros k. reflexivity.
  - intros k v v' H4 H5. rewrite Forall_forall in IH. match goal with K : Forall _ m |- _ => rewrite Forall_forall in K; specialize (K _ H4) end. assert (v = v') as <-.
    { pose proof (proj2 (aget_Some_iff str_eqb str_eqb_eq k v m ltac:(eassumption)) H4) as A1. pose proof (proj2 (aget_Some_iff str_eqb str_eqb_eq k v' m ltac:(eassumption)) H5) as A2. congruence. }
    apply (IH _ H4). assumption.
Qed.
Definition vals (m : list (str * json)) : list (str * json) := map (fun kv => (fst kv, sort_json (snd kv))) m.
Lemma vals_keys m : map fst (vals m) = map fst m.
Proof. unfold vals. rewrite map_map. reflexivity. Qed.
Lemma sort_json_same j : map_like j -> same j (sort_json j).
Proof.
  induction j as [|b|q|s|l IH|m IH] using json_ind'; intros H; cbn [sort_json]; try constructor; inversion H as [| | | |? Hl|? Hn Hl]; subst.
  - clear H. induction IH as [|x l Hx _ IHl]; [constructor|]. inversion Hl; subst. cbn [map]. constructor; auto.
  - exact Hn.
  - apply isort_keys. fold (vals m). rewrite vals_keys. exact Hn.
  - intros k. fold (vals m). pose proof (Permutation_map fst (isort_perm by_name (vals m))) as P. rewrite vals_keys in P. split; apply Permutation_in; [exact P|apply Permutation_sym, P].
  - intros k v v' H1 H2. apply isort_in in H2. apply in_map_iff in H2 as ([k' x] & E & H2). cbn [fst snd] in E. injection E as -> <-.
    pose proof (proj2 (aget_Some_iff str_eqb str_eqb_eq k v m Hn) H1) as A1. pose proof (proj2 (aget_Some_iff str_eqb str_eqb_eq k x m Hn) H2) as A2. assert (v = x) as <- by congruence.
    rewrite Forall_forall in IH, Hl. apply (IH _ H1). apply (Hl _ H1).
Qed.
(** Values that can be written and read. *)
Definition good (d : nat) (j : json) : Prop := good_json finite64 d j.
Lemma list_max_bound l d : Forall (fun k => (k <= d)%nat) l -> (list_max l <= d)%nat. Proof. apply list_max_le. Qed.
Lemma good_arr d l : good (S d) (JArr l) <-> Forall (good d) l.
Proof.
  split.
  - intros (H1 & H2 & H3 & H4). inversion H1; subst. inversion H2; subst. inversion H3; subst. cbn [nesting] in H4. apply le_S_n in H4. apply list_max_le in H4. rewrite Forall_forall in *. intros x Hx. split; [auto|]. split; [auto|]. split; [auto|]. apply H4. apply in_map. exact Hx.
  - intros H. split; [constructor; apply Forall_impl with (2 := H); intros a Ha; apply Ha|]. split; [constructor; apply Forall_impl with (2 := H); intros a Ha; apply Ha|]. split; [constructor; apply Forall_impl with (2 := H); intros a Ha; apply Ha|].
    cbn [nesting]. apply le_n_S. apply list_max_le. apply Forall_forall. intros k Hk. apply in_map_iff in Hk as (x & <- & Hx). rewrite Forall_forall in H. apply (H x Hx).
Qed.
Lemma good_obj d m : good (S d) (JObj m) <-> NoDup (map fst m) /\ Forall (fun kv => is_utf8 (fst kv) /\ good d (snd kv)) m.
Proof.
  split.
  - intros (H1 & H2 & H3 & H4). inversion H1; subst. inversion H2; subst. inversion H3; subst. cbn [nesting] in H4. apply le_S_n in H4. apply list_max_le in H4. split; [assumption|]. rewrite Forall_forall in *. intros x Hx.
    split; [apply H0; exact Hx|]. split; [apply H0; exact Hx|]. split; [auto|]. split; [auto|]. apply H4. apply in_map_iff. exists x. auto.
  - intros [N H]. split; [constructor; apply Forall_impl with (2 := H); intros a Ha; split; apply Ha|]. split; [constructor; apply Forall_impl with (2 := H); intros a Ha; apply Ha|]. split; [constructor; [exact N|]; apply Forall_impl with (2 := H); intros a Ha; apply Ha|].
    cbn [nesting]. apply le_n_S. apply list_max_le. apply Forall_forall. intros k Hk. apply in_map_iff in Hk as (x & <- & Hx). rewrite Forall_forall in H. apply (H x Hx).
Qed.
Lemma good_le d d' j : (d <= d')%nat -> good d j -> good d' j.
Proof. intros H (H1 & H2 & H3 & H4). repeat split; try assumption. lia. Qed.
Lemma good_null d : good d JNull. Proof. split; [constructor|]. split; [constructor|]. split; [constructor|cbn; lia]. Qed.
Lemma sort_json_good j : forall d, good d j -> good d (sort_json j).
Proof.
  induction j as [|b|q|s|l IH|m IH] using json_ind'; intros d H; cbn [sort_json]; try exact H.
  - destruct d as [|d]; [destruct H as (_ & _ & _ & H); cbn in H; lia|]. apply good_arr in H. apply good_arr. apply Forall_forall. intros x Hx. apply in_map_iff in Hx as (y & <- & Hy). rewrite Forall_forall in IH, H. auto.
  - destruct d as [|d]; [destruct H as (_ & _ & _ & H); cbn in H; lia|]. apply good_obj in H as [N H]. apply good_obj. fold (vals m). split; [apply isort_keys; rewrite vals_keys; exact N|].
    apply Forall_forall. intros x Hx. apply isort_in in Hx. apply in_map_iff in Hx as (y & <- & Hy). rewrite Forall_forall in IH, H. cbn [fst snd]. split; [apply (H _ Hy)|]. apply (IH _ Hy). apply (H _ Hy).
Qed.
(** What is read is good. *)
Lemma read_good bytes v : is_bytes bytes -> unmarshal_json bytes = Ok v \/ decode_json bytes = Ok v -> good deep v.
Proof.
  intros Hb H. assert (G : exists w t r, decode bytes = w ++ t ++ r /\ ws w /\ value as_float deep t v).
  { destruct H as [H|H]; [|apply C99_first_value; exact H]. apply (proj1 (C99_whole_text bytes)) in H as (w & t & w' & E & Hw & Hv & _). eauto 6. }
  destruct G as (w & t & r & E & _ & Hv). pose proof (decode_scalar bytes Hb) as F. rewrite E, !Forall_app in F. destruct (proj1 value_utf8 _ _ _ Hv (proj1 (proj2 F))) as [Hs Hd].
  destruct (proj1 (value_good as_float finite64 (fun q f H => conj (as_float64 q f H) (proj2 H))) _ _ _ Hv) as [M N]. split; [exact Hs|]. split; [exact N|]. split; [exact M|exact Hd].
Qed.
(** A good value is written with any indentation. *)
Lemma indent_ok short tab j (num : Qc -> Qc -> Prop) g d : ws tab -> good d j -> all_numbers (fun q => num (written q) (g q)) j ->
  exists s t, marshal_indent short tab j = Ok s /\ is_text s t /\ value num d t (renumber g j).
Proof.
  intros Ht (Hs & Hn & Hm & Hd) Hg.
  assert (N1 : all_numbers (JsonWrite2.good num g) j).
  { clear - Hn Hg. induction j as [|b|q|s|l IH|m IH] using json_ind'; inversion Hn; subst; inversion Hg; subst; constructor; try (split; [|assumption]; match goal with K : finite64 _ |- _ => apply K end); rewrite Forall_forall in *; auto. }
  assert (N2 : has_inf j = false) by (apply has_inf_iff; apply all_numbers_impl with (2 := Hn); intros q [_ H1]; exact H1).
  assert (N3 : all_numbers float64 j) by (apply all_numbers_impl with (2 := Hn); intros q [H1 _]; exact H1).
  assert (B : all_strings is_bytes j) by (apply all_strings_impl with (2 := Hs); apply utf8_bytes).
  unfold marshal_indent, marshal. rewrite N2. cbn [obind]. exists (gtext short (newline tab) [32] 0 j).
  destruct (gtext_ok short (newline tab) [32]) with (num := num) (g := g) (j := j) (d := d) (n := O) as (t & T1 & T2); try assumption.
  - intros n. apply newline_ws. exact Ht.
  - repeat constructor; lia.
  - rewrite repaired_id by exact Hs. exact Hm.
  - exists t. rewrite repaired_id in * by exact Hs. split; [|split; assumption]. f_equal. rewrite <- (app_nil_r (json_text short j)), indent_value by assumption. cbn [indent]. apply app_nil_r.
Qed.
Lemma finite_numbers j : all_numbers finite64 j -> all_numbers (fun q => as_float (written q) q) j.
Proof. apply all_numbers_impl. intros q [H1 H2]. split; [|exact H2]. destruct (num_text_number q H1) as [_ W]. pose proof (to_f64_nearest (written q)) as Nr. rewrite W in Nr. exact Nr. Qed.
Lemma two_blanks : ws (bs "  "). Proof. repeat constructor; lia. Qed.
Lemma save_ok short j d : good d j -> (d <= deep)%nat -> exists s t, marshal_indent short (bs "  ") j = Ok s /\ is_text s t /\ value as_float deep t j.
Proof.
  intros G Hd. destruct (indent_ok short (bs "  ") j as_float (fun q => q) d two_blanks G) as (s & t & E & T & V); [apply finite_numbers, G|]. rewrite renumber_id in V. exists s, t. split; [exact E|]. split; [exact T|]. apply (proj1 (value_mono as_float) d); assumption.
Qed.
Lemma value_text num d s t v : is_text s t -> value num d t v -> is_bytes s /\ json_text_of num d (decode s) v.
Proof. intros [-> Ht] H. split; [apply encode_bytes|]. rewrite decode_encode by exact Ht. exists [], t, []. rewrite app_nil_r. repeat split; try constructor. exact H. Qed.
