(** * HeapProps2: where sharing is visible (C43, C60, C61), and cases that meet the hypotheses of HeapProps.v. *)
From Verif Require Import Base Dec DateModel PriceModel BookModel BookSpec BookProofs BookProps OpsModel OpsProofs OpsProofs2 RegisterModel
  AccumModel AccumProofs AccumProps HeapModel HeapSpec HeapProofs HeapProofs6 HeapProps.
Local Open Scope nat_scope.

(** A sort that is one. *)
Definition iless (a b : posting * nat) : bool := is_less (fst a) (fst b).
Definition x_ord (l : list posting) : list nat := map snd (isort iless (combine l (seq 0 (length l)))).
Lemma combine_nth_fst : forall (l : list posting) k x, In x (combine l (seq k (length l))) -> k <= snd x /\ nth (snd x - k) l p0 = fst x.
Proof.
  induction l as [|p l IH]; intros k x H; [contradiction|]. cbn in H. destruct H as [<-|H].
  - cbn [fst snd]. split; [lia|]. replace (k - k) with 0 by lia. reflexivity.
  - apply IH in H as [H1 H2]. split; [lia|]. replace (snd x - k) with (S (snd x - S k)) by lia. exact H2.
Qed.
Lemma combine_snd : forall (l : list posting) k, map snd (combine l (seq k (length l))) = seq k (length l).
Proof. induction l as [|p l IH]; intros k; [reflexivity|]. cbn. rewrite IH. reflexivity. Qed.
Lemma combine_fst : forall (l : list posting) k, map fst (combine l (seq k (length l))) = l.
Proof. induction l as [|p l IH]; intros k; [reflexivity|]. cbn. rewrite IH. reflexivity. Qed.
Lemma x_ord_ok : order_ok x_ord.
Proof.
  intros l. unfold x_ord. rewrite <- (combine_snd l 0) at 2. apply Permutation_map. apply Permutation_sym, isort_perm.
Qed.
Lemma x_ord_srt l : srt_of x_ord l = map fst (isort iless (combine l (seq 0 (length l)))).
Proof.
  unfold srt_of, arrange, x_ord. rewrite map_map. apply map_ext_in. intros x Hx.
  apply (Permutation_in _ (Permutation_sym (isort_perm iless _))) in Hx. apply combine_nth_fst in Hx as [_ H].
  rewrite Nat.sub_0_r in H. exact H.
Qed.
Lemma x_srt_ok : sort_ok is_less (srt_of x_ord).
Proof.
  intros l. rewrite x_ord_srt. split.
  - rewrite <- (combine_fst l 0) at 1. apply Permutation_map, isort_perm.
  - assert (Hw : swo iless).
    { destruct is_less_swo as [A B]. split; intros; unfold iless in *; [apply A|eapply B]; eassumption. }
    pose proof (isort_sorted iless (combine l (seq 0 (length l))) Hw) as H. unfold sorted_by in *.
    induction H as [|a r Hr IH Ha]; [constructor|]. cbn [map]. constructor; [exact IH|]. rewrite Forall_map. exact Ha.
Qed.

(** ** Programs to run *)
Definition x_grow (n : nat) : nat := n.
Definition x_run (cs : list cmd) : outcome (mem * list obj) := hrun x_ord x_grow x_it x_micro cs (mkM [] []) [].
Definition x_vals (cs : list cmd) : outcome (list vobj) := vrun (srt_of x_ord) x_it x_micro cs [].
Definition look_at (r : outcome (mem * list obj)) (k : nat) :=
  match r with Ok (m, os) => match seen_book m os k with Some b => Some (map view (bk_post b)) | None => None end | _ => None end.
Definition val_at (r : outcome (list vobj)) (k : nat) :=
  match r with Ok vs => match val_seen vs k with Some b => Some (map view (bk_post b)) | None => None end | _ => None end.
Lemma look_at_ok r k l : look_at r k = Some l -> exists m os b, r = Ok (m, os) /\ seen_book m os k = Some b /\ map view (bk_post b) = l.
Proof.
  unfold look_at. destruct r as [[m os]| | |]; try discriminate. destruct (seen_book m os k) as [b|] eqn:E; try discriminate.
  intros H. injection H as <-. exists m, os, b. auto.
Qed.
Lemma agree_at h v k : agree h v -> look_at h k = val_at v k.
Proof. unfold agree, look_at, val_at. destruct h as [[m os]| | |], v as [vs| | |]; try reflexivity; try contradiction. intros H. rewrite H. reflexivity. Qed.
Definition x_day : Z := 20240105%Z.
Definition post (a : str) (n : Z) : bcall := CPost a (bs "GBP") (qz n) [].
Definition row (pay a : str) (v b : Z) := (x_day, pay, a, bs "GBP", v, b).
Definition twice : op := OMapAmount (fun _ c => (qz 2, c)).

(** ** C61: a builder that is used again *)
Definition reuse : list cmd :=
  [KNew; KCall 0 (CTrans x_day (bs "T") []); KCall 0 (post (bs "A") 5); KCall 0 (post (bs "A") 5); KCall 0 (post (bs "B") (-10)); KBuild 0; KBuild 0].
(** Calling Build a second time changes the first book: A 10 and B -20, which do not add up to zero. *)
Theorem C61_builder_reuse_refuted : order_ok x_ord /\ sort_ok is_less (srt_of x_ord) /\
  ~ agree (x_run reuse) (x_vals reuse) /\
  (exists m os b, x_run reuse = Ok (m, os) /\ seen_book m os 1 = Some b /\
     map view (bk_post b) = [row (bs "T") (bs "A") 10 10; row (bs "T") (bs "B") (-20) (-20)]) /\
  (exists m os b, x_run (removelast reuse) = Ok (m, os) /\ seen_book m os 1 = Some b /\
     map view (bk_post b) = [row (bs "T") (bs "A") 10 10; row (bs "T") (bs "B") (-10) (-10)]).
Proof.
  split; [exact x_ord_ok|]. split; [exact x_srt_ok|]. split; [|split; apply look_at_ok; vm_compute; reflexivity].
  intros H. apply (agree_at _ _ 1) in H. vm_compute in H. discriminate.
Qed.
Print Assumptions C61_builder_reuse_refuted.
(** One amount object given to AddPosting twice: MapAmount multiplies it twice. *)
Definition shared_amount : outcome (mem * list obj) :=
  let '(m, u) := hnew_builder (mkM [] []) in
  let '(m, five) := alloc m (qz 5) in
  let '(m, other) := alloc m (qz (-5)) in
  let '(m, other2) := alloc m (qz (-5)) in
  do (m, u) <- hbstep x_grow m u (CTrans x_day (bs "T1") []);
  let '(m, u) := hadd_posting x_grow m u (bs "A") (bs "GBP") five [] in
  let '(m, u) := hadd_posting x_grow m u (bs "B") (bs "GBP") other [] in
  do (m, u) <- hbstep x_grow m u (CTrans x_day (bs "T2") []);
  let '(m, u) := hadd_posting x_grow m u (bs "A") (bs "GBP") five [] in
  let '(m, u) := hadd_posting x_grow m u (bs "B") (bs "GBP") other2 [] in
  do (m, u, b) <- hbuild x_ord m u;
  hrun x_ord x_grow x_it x_micro [KOp 0 twice] m [ObjB b].
Theorem C61_shared_amount_refuted : exists m os b, shared_amount = Ok (m, os) /\ seen_book m os 0 = Some b /\
  map view (bk_post b) = [row (bs "T1") (bs "A") 20 5; row (bs "T1") (bs "B") (-10) (-5); row (bs "T2") (bs "A") 20 10; row (bs "T2") (bs "B") (-10) (-10)].
Proof. apply look_at_ok. vm_compute. reflexivity. Qed.
Print Assumptions C61_shared_amount_refuted.

(** ** C60: a duplicate that is scaled, or whose balances are computed again *)
Definition dup_prefix : list cmd :=
  [KNew; KCall 0 (CTrans x_day (bs "T1") []); KCall 0 (post (bs "A") 5); KCall 0 (post (bs "B") (-5));
   KCall 0 (CTrans x_day (bs "T2") []); KCall 0 (post (bs "A") 7); KCall 0 (post (bs "B") (-7)); KBuild 0; KDuplicate 1].
Definition not_t1 : op := OFilter (fun _ pay _ => negb (str_eqb pay (bs "T1"))).
Theorem C60_duplicate_refuted : order_ok x_ord /\ sort_ok is_less (srt_of x_ord) /\
  (exists m os b, x_run dup_prefix = Ok (m, os) /\ seen_book m os 1 = Some b /\
     map view (bk_post b) = [row (bs "T1") (bs "A") 5 5; row (bs "T1") (bs "B") (-5) (-5); row (bs "T2") (bs "A") 7 12; row (bs "T2") (bs "B") (-7) (-12)]) /\
  (exists m os b, x_run (dup_prefix ++ [KOp 2 twice]) = Ok (m, os) /\ seen_book m os 1 = Some b /\
     map view (bk_post b) = [row (bs "T1") (bs "A") 10 5; row (bs "T1") (bs "B") (-10) (-5); row (bs "T2") (bs "A") 14 12; row (bs "T2") (bs "B") (-14) (-12)]) /\
  (exists m os b, x_run (dup_prefix ++ [KOp 2 not_t1; KOp 2 OTransactions]) = Ok (m, os) /\ seen_book m os 1 = Some b /\
     map view (bk_post b) = [row (bs "T1") (bs "A") 5 5; row (bs "T1") (bs "B") (-5) (-5); row (bs "T2") (bs "A") 7 7; row (bs "T2") (bs "B") (-7) (-7)]) /\
  ~ agree (x_run (dup_prefix ++ [KOp 2 twice])) (x_vals (dup_prefix ++ [KOp 2 twice])) /\
  ~ agree (x_run (dup_prefix ++ [KOp 2 not_t1; KOp 2 OTransactions])) (x_vals (dup_prefix ++ [KOp 2 not_t1; KOp 2 OTransactions])).
Proof.
  split; [exact x_ord_ok|]. split; [exact x_srt_ok|]. split; [apply look_at_ok; vm_compute; reflexivity|]. split; [apply look_at_ok; vm_compute; reflexivity|].
  split; [apply look_at_ok; vm_compute; reflexivity|]. split; intros H; apply (agree_at _ _ 1) in H; vm_compute in H; discriminate.
Qed.
Print Assumptions C60_duplicate_refuted.
(** [C60_select_then_scale_partial] is about programs such as this one: after it, the duplicate may be used freely. *)
Definition dup_days : list cmd :=
  [KNew; KCall 0 (CTrans 20240101 (bs "T1") []); KCall 0 (post (bs "A") 5); KCall 0 (post (bs "B") (-5));
   KCall 0 (CTrans 20240105 (bs "T2") []); KCall 0 (post (bs "A") 7); KCall 0 (post (bs "B") (-7));
   KCall 0 (CTrans 20240107 (bs "T3") []); KCall 0 (post (bs "A") 4); KCall 0 (post (bs "B") (-4)); KBuild 0].
Definition days_prog : list cmd := dup_days ++ KDuplicate 1 :: map (KOp (made dup_days)) [not_t1] ++ KOp (made dup_days) (OAdjustBy (bs "daily")) :: [KOp 2 twice; KOp 1 OTransactions].
Example C60_nonvacuous : tidy [] (dup_days ++ [KOp 2 twice; KOp 1 OTransactions]) /\ bs "daily" <> bs "none" /\
  look_at (x_run days_prog) 1 =
    Some [(20240101%Z, bs "T1", bs "A", bs "GBP", 5%Z, 5%Z); (20240101%Z, bs "T1", bs "B", bs "GBP", (-5)%Z, (-5)%Z);
          (20240105%Z, bs "T2", bs "A", bs "GBP", 7%Z, 12%Z); (20240105%Z, bs "T2", bs "B", bs "GBP", (-7)%Z, (-12)%Z);
          (20240107%Z, bs "T3", bs "A", bs "GBP", 4%Z, 16%Z); (20240107%Z, bs "T3", bs "B", bs "GBP", (-4)%Z, (-16)%Z)] /\
  look_at (x_run days_prog) 2 =
    Some [(20240105%Z, bs "T2", bs "A", bs "GBP", 7%Z, 7%Z); (20240105%Z, bs "T2", bs "B", bs "GBP", (-7)%Z, (-7)%Z);
          (20240107%Z, bs "T3", bs "A", bs "GBP", 4%Z, 11%Z); (20240107%Z, bs "T3", bs "B", bs "GBP", (-4)%Z, (-11)%Z)].
Proof. split; [cbn; intuition lia|]. split; [discriminate|]. split; vm_compute; reflexivity. Qed.

(** ** C43: a summary whose added rows fit behind the postings *)
Definition summed : list cmd :=
  [KNew; KCall 0 (CTrans x_day (bs "T1") []); KCall 0 (post (bs "A") 5); KCall 0 (post (bs "B") (-5));
   KCall 0 (CTrans x_day (bs "T2") []); KCall 0 (post (bs "A") 5); KCall 0 (post (bs "C") (-5)); KBuild 0; KAccumulate 1 (bs "GBP") [58%Z] None []].
(** The second posting of T2 is gone, a row of zero has taken a place. *)
Theorem C43_book_damaged_refuted : order_ok x_ord /\ sort_ok is_less (srt_of x_ord) /\
  (exists m os b, x_run (removelast summed) = Ok (m, os) /\ seen_book m os 1 = Some b /\
     map view (bk_post b) = [row (bs "T1") (bs "A") 5 5; row (bs "T1") (bs "B") (-5) (-5); row (bs "T2") (bs "A") 5 10; row (bs "T2") (bs "C") (-5) (-5)]) /\
  (exists m os b, x_run summed = Ok (m, os) /\ seen_book m os 1 = Some b /\
     map view (bk_post b) = [row (bs "T1") (bs "A") 5 5; row (bs "T1") (bs "B") (-5) (-5); row (bs "T1") (bs "C") 0 0; row (bs "T2") (bs "A") 5 10]) /\
  ~ agree (x_run summed) (x_vals summed).
Proof.
  split; [exact x_ord_ok|]. split; [exact x_srt_ok|]. split; [apply look_at_ok; vm_compute; reflexivity|]. split; [apply look_at_ok; vm_compute; reflexivity|].
  intros H; apply (agree_at _ _ 1) in H; vm_compute in H; discriminate.
Qed.
Print Assumptions C43_book_damaged_refuted.

(** [careful], decided. *)
Definition sparedb (m : mem) (b : hbook) : bool :=
  let '(m1, b1) := hcompact x_ord m b in
  let n := added (map (look_slice m1) (hb_trans b1)) in (n =? 0) || (room m1 b1 <? n).
Fixpoint carefulb (built : list nat) (cs : list cmd) (m : mem) (os : list obj) : bool :=
  match cs with
  | [] => true
  | c :: cs' =>
      match c with
      | KCall k _ | KBuild k => negb (existsb (Nat.eqb k) built)
      | KAccumulate k _ _ _ _ => match nth_error os k with Some (ObjB b) => sparedb m b | _ => true end
      | KDuplicate _ => false
      | _ => true
      end &&
      match hstep x_ord x_grow x_it x_micro c m os with
      | Ok (m', os') => carefulb (match c with KBuild k => k :: built | _ => built end) cs' m' os'
      | _ => true
      end
  end.
Lemma carefulb_ok : forall cs built m os, carefulb built cs m os = true -> careful x_ord x_grow x_it x_micro built cs m os.
Proof.
  induction cs as [|c cs IH]; intros built m os H; [exact I|]. cbn [carefulb] in H. cbn [careful]. apply andb_true_iff in H as [H1 H2]. split.
  - assert (Hin : forall k, negb (existsb (Nat.eqb k) built) = true -> ~ In k built).
    { intros k Hk Hi. apply negb_true_iff in Hk. assert (existsb (Nat.eqb k) built = true) by (apply existsb_exists; exists k; split; [exact Hi|apply Nat.eqb_refl]). congruence. }
    destruct c; auto; try discriminate. intros b Hb. rewrite Hb in H1. unfold sparedb in H1. unfold spared. destruct (hcompact x_ord m b) as [m1 b1].
    apply orb_true_iff in H1 as [H1|H1]; [left; apply Nat.eqb_eq; exact H1|right; apply Nat.ltb_lt; exact H1].
  - destruct (hstep x_ord x_grow x_it x_micro c m os) as [[m' os']| | |]; auto.
Qed.
(** Two transactions on the same accounts need no added rows; and a filtered book has no room behind its postings. *)
Definition spared1 : list cmd :=
  [KNew; KCall 0 (CTrans x_day (bs "T1") []); KCall 0 (post (bs "A") 5); KCall 0 (post (bs "B") (-5));
   KCall 0 (CTrans x_day (bs "T2") []); KCall 0 (post (bs "A") 5); KCall 0 (post (bs "B") (-5)); KBuild 0; KAccumulate 1 (bs "GBP") [58%Z] None []; KOp 1 twice].
Definition spared2 : list cmd := removelast summed ++ [KOp 1 (OFilter (fun _ _ _ => true)); KAccumulate 1 (bs "GBP") [58%Z] None []; KOp 1 OTransactions].
Example C43_nonvacuous : careful x_ord x_grow x_it x_micro [] spared1 (mkM [] []) [] /\ careful x_ord x_grow x_it x_micro [] spared2 (mkM [] []) [] /\
  look_at (x_run spared2) 1 =
    Some [row (bs "T1") (bs "A") 5 5; row (bs "T1") (bs "B") (-5) (-5); row (bs "T2") (bs "A") 5 10; row (bs "T2") (bs "C") (-5) (-5)].
Proof. split; [apply carefulb_ok; vm_compute; reflexivity|]. split; [apply carefulb_ok; vm_compute; reflexivity|]. vm_compute. reflexivity. Qed.
(** A tidy program with two books, one deduplicated against the other, and amounts changed in place. *)
Definition tidy_prog : list cmd :=
  [KNew; KCall 0 (CTrans x_day (bs "T1") []); KCall 0 (post (bs "A") 5); KCall 0 (post (bs "A") 5); KCall 0 (post (bs "B") (-10));
   KNew; KCall 1 (CTrans x_day (bs "T2") []); KCall 0 (CTrans x_day (bs "T2") []); KCall 1 (post (bs "A") 1); KCall 1 (post (bs "B") (-1));
   KCall 0 (post (bs "A") 7); KCall 0 (post (bs "C") (-7)); KBuild 0; KBuild 1; KDedup 2 3; KOp 2 twice; KOp 2 OTransactions].
Example C61_nonvacuous : tidy [] tidy_prog /\
  look_at (x_run tidy_prog) 2 = Some [row (bs "T1") (bs "A") 20 20; row (bs "T1") (bs "B") (-20) (-20)] /\
  look_at (x_run tidy_prog) 3 = Some [row (bs "T2") (bs "A") 1 1; row (bs "T2") (bs "B") (-1) (-1)].
Proof. split; [cbn; intuition lia|]. split; vm_compute; reflexivity. Qed.
