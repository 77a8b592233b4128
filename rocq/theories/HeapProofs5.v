(** * HeapProofs5: whole programs. *)
From Verif Require Import Base Dec DateModel PriceModel BookModel BookSpec BookProofs OpsModel OpsProofs AccumModel HeapModel HeapSpec HeapProofs HeapProofs2 HeapProofs3 HeapProofs4.
Local Open Scope nat_scope.

Lemma nth_error_upd_eq {A} (x : A) : forall l k y, nth_error l k = Some y -> nth_error (upd k x l) k = Some x.
Proof. induction l as [|a l IH]; intros [|k] y E; cbn in *; try discriminate; [reflexivity|eauto]. Qed.
Lemma nth_error_upd_neq {A} (x : A) : forall l k j, j <> k -> nth_error (upd k x l) j = nth_error l j.
Proof. induction l as [|a l IH]; intros [|k] [|j] E; cbn; try reflexivity; try congruence. apply IH. congruence. Qed.
Lemma nth_error_upd_inv {A} (x : A) l k j y : nth_error (upd k x l) j = Some y -> (j = k /\ y = x) \/ (j <> k /\ nth_error l j = Some y).
Proof.
  intros E. destruct (Nat.eq_dec j k) as [->|Hn]; [|right; rewrite nth_error_upd_neq in E by exact Hn; auto].
  left. split; [reflexivity|]. destruct (nth_error l k) as [z|] eqn:Ez.
  - rewrite (nth_error_upd_eq _ _ _ _ Ez) in E. congruence.
  - exfalso. apply nth_error_None in Ez. assert (Hl : nth_error (upd k x l) k = None) by (apply nth_error_None; rewrite upd_length; exact Ez). congruence.
Qed.
Lemma nth_error_snoc_inv {A} (l : list A) x j y : nth_error (l ++ [x]) j = Some y -> (j = length l /\ y = x) \/ (j < length l /\ nth_error l j = Some y).
Proof.
  intros E. destruct (Nat.lt_ge_cases j (length l)) as [H|H]; [right; rewrite nth_error_app1 in E by exact H; auto|].
  left. rewrite nth_error_app2 in E by exact H. destruct (j - length l) as [|n] eqn:En; cbn in E; [split; [lia|congruence]|destruct n; discriminate].
Qed.
Lemma nth_error_same {A B} (l : list A) (l' : list B) k x : length l = length l' -> nth_error l k = Some x -> exists y, nth_error l' k = Some y.
Proof. intros E H. destruct (nth_error l' k) as [y|] eqn:Ey; [eauto|]. apply nth_error_None in Ey. assert (nth_error l k <> None) by congruence. apply nth_error_Some in H0. lia. Qed.

Definition post_of (o : obj) : slice := match o with ObjU u => hbu_post u | ObjB b => hb_post b end.
Definition Rel (m : mem) (o : obj) (v : vobj) : Prop :=
  match o, v with ObjU u, ValU w => RU m u w | ObjB b, ValB w => RB m b w | _, _ => False end.
Definition apart (m : mem) (o o' : obj) : Prop :=
  s_arr (post_of o) <> s_arr (post_of o') /\ (forall x, In x (ptrs (cells m (post_of o))) -> ~ In x (ptrs (cells m (post_of o')))).
Definition Sim (dead : list nat) (m : mem) (os : list obj) (vs : list vobj) : Prop :=
  length os = length vs /\ (forall k, In k dead -> k < length os) /\
  (forall k o v, nth_error os k = Some o -> nth_error vs k = Some v -> (In k dead /\ exists u w, o = ObjU u /\ v = ValU w) \/ (~ In k dead /\ Rel m o v)) /\
  (forall j k o o', j <> k -> ~ In j dead -> ~ In k dead -> nth_error os j = Some o -> nth_error os k = Some o' -> apart m o o').

Lemma Rel_own m o v : Rel m o v -> own m (post_of o).
Proof. destruct o, v; cbn; try tauto; intros H; apply H. Qed.
Lemma Rel_frame m m' o v : Rel m o v -> own m' (post_of o) -> look_slice m' (post_of o) = look_slice m (post_of o) -> Rel m' o v.
Proof.
  destruct o, v; cbn; try tauto.
  - intros (_ & H2 & H3) Ho El. split; [exact Ho|]. split; [congruence|exact H3].
  - intros (_ & H2 & H3) Ho El. split; [exact Ho|]. split; [congruence|exact H3].
Qed.
Lemma apart_sym m o o' : apart m o o' -> apart m o' o.
Proof. intros [H1 H2]. split; [congruence|]. intros x Hx Hy. exact (H2 x Hy Hx). Qed.

(** One live object moves; the others stay. *)
Lemma Sim_step dead m os vs k o m' o' v' : Sim dead m os vs -> nth_error os k = Some o -> ~ In k dead -> mv m (post_of o) m' (post_of o') -> Rel m' o' v' ->
  Sim dead m' (upd k o' os) (upd k v' vs).
Proof.
  intros (Hl & Hd & Hr & Ha) Ek Hk Hmv HR. split; [rewrite !upd_length; exact Hl|]. split; [intros j Hj; rewrite upd_length; auto|].
  assert (Hframe : forall j oj vj, j <> k -> ~ In j dead -> nth_error os j = Some oj -> nth_error vs j = Some vj ->
    Rel m' oj vj /\ apart m' oj o' /\ cells m' (post_of oj) = cells m (post_of oj)).
  { intros j oj vj Hne Hj Ej Ev. destruct (Hr j oj vj Ej Ev) as [[Hi _]|[_ HRj]]; [contradiction|]. destruct (Ha j k oj o Hne Hj Hk Ej Ek) as [A1 A2].
    destruct (own_frame _ _ _ _ (post_of oj) Hmv (Rel_own _ _ _ HRj) A1 A2) as (F1 & F2 & F3 & F4 & F5). split; [exact (Rel_frame _ _ _ _ HRj F1 F3)|]. split; [split; assumption|exact F2]. }
  split.
  - intros j oj vj Ej Ev. apply nth_error_upd_inv in Ej as [[-> ->]|[Hne Ej]].
    + apply nth_error_upd_inv in Ev as [[_ ->]|[Hne _]]; [right; auto|congruence].
    + rewrite nth_error_upd_neq in Ev by exact Hne. destruct (Hr j oj vj Ej Ev) as [H|[Hj _]]; [left; exact H|]. right. split; [exact Hj|]. apply (Hframe j oj vj Hne Hj Ej Ev).
  - intros i j oi oj Hij Hi Hj Ei Ej. apply nth_error_upd_inv in Ei as [[-> ->]|[Hni Ei]]; apply nth_error_upd_inv in Ej as [[-> ->]|[Hnj Ej]]; try congruence.
    + destruct (nth_error_same _ _ _ _ Hl Ej) as [vj Ev]. apply apart_sym. apply (Hframe j oj vj Hnj Hj Ej Ev).
    + destruct (nth_error_same _ _ _ _ Hl Ei) as [vi Ev]. apply (Hframe i oi vi Hni Hi Ei Ev).
    + destruct (nth_error_same _ _ _ _ Hl Ei) as [vi Evi]. destruct (nth_error_same _ _ _ _ Hl Ej) as [vj Evj].
      destruct (Hframe i oi vi Hni Hi Ei Evi) as (_ & _ & C1). destruct (Hframe j oj vj Hnj Hj Ej Evj) as (_ & _ & C2). destruct (Ha i j oi oj Hij Hi Hj Ei Ej) as [A1 A2].
      split; [exact A1|]. rewrite C1, C2. exact A2.
Qed.
(** Nothing any object can see changes. *)
Lemma Sim_ext dead m os vs m' : Sim dead m os vs -> ext m m' -> Sim dead m' os vs.
Proof.
  intros (Hl & Hd & Hr & Ha) Hx.
  assert (Hframe : forall o v, Rel m o v -> Rel m' o v /\ cells m' (post_of o) = cells m (post_of o)).
  { intros o v HR. pose proof (Rel_own _ _ _ HR) as (Hs & Hn & Hb). assert (Ec : cells m' (post_of o) = cells m (post_of o)) by (apply (cells_loc _ _ _ _ _ Hx (proj1 Hs)); tauto).
    split; [|exact Ec]. apply (Rel_frame _ _ _ _ HR).
    - split; [apply (sl_ok_loc _ _ _ _ _ Hx Hs); tauto|]. rewrite Ec. split; [exact Hn|]. intros x Hi. specialize (Hb x Hi). destruct Hx as (_ & L & _). lia.
    - apply (look_slice_loc _ _ _ _ _ Hx (proj1 Hs)); tauto. }
  split; [exact Hl|]. split; [exact Hd|]. split.
  - intros k o v Eo Ev. destruct (Hr k o v Eo Ev) as [H|[Hk HR]]; [left; exact H|right]. split; [exact Hk|]. apply Hframe. exact HR.
  - intros j k o o' Hne Hj Hk Ej Ek. destruct (nth_error_same _ _ _ _ Hl Ej) as [v Ev]. destruct (nth_error_same _ _ _ _ Hl Ek) as [v' Ev'].
    destruct (Hr j o v Ej Ev) as [[Hi _]|[_ HR]]; [contradiction|]. destruct (Hr k o' v' Ek Ev') as [[Hi _]|[_ HR']]; [contradiction|].
    destruct (Ha j k o o' Hne Hj Hk Ej Ek) as [A1 A2]. split; [exact A1|]. rewrite (proj2 (Hframe _ _ HR)), (proj2 (Hframe _ _ HR')). exact A2.
Qed.
(** A new object with memory of its own. *)
Lemma Sim_new dead m os vs m' o v : Sim dead m os vs -> ext m m' -> Rel m' o v -> length (m_arrs m) <= s_arr (post_of o) ->
  (forall x, In x (ptrs (cells m' (post_of o))) -> length (m_rats m) <= x) -> Sim dead m' (os ++ [o]) (vs ++ [v]).
Proof.
  intros HS Hx HR Hfa Hfp. pose proof (Sim_ext _ _ _ _ _ HS Hx) as (Hl & Hd & Hr & Ha). destruct HS as (_ & _ & Hr0 & _).
  split; [rewrite !app_length, Hl; reflexivity|]. split; [intros k Hk; rewrite app_length; specialize (Hd k Hk); lia|].
  assert (Hnew : forall j oj, j < length os -> ~ In j dead -> nth_error os j = Some oj -> apart m' oj o).
  { intros j oj Hj Hnd Ej. destruct (nth_error_same _ _ _ _ Hl Ej) as [vj Ev]. destruct (Hr0 j oj vj Ej Ev) as [[Hi _]|[_ HRj]]; [contradiction|]. pose proof (Rel_own _ _ _ HRj) as (Hs & _ & Hb).
    split; [destruct Hs; lia|]. rewrite (cells_loc _ _ _ _ _ Hx (proj1 Hs)) by tauto. intros x Hi Hi'. specialize (Hb x Hi). specialize (Hfp x Hi'). lia. }
  split.
  - intros k ok vk Ek Ev. apply nth_error_snoc_inv in Ek as [[-> ->]|[Hk Ek]]; apply nth_error_snoc_inv in Ev as [[E ->]|[Hk' Ev]]; try lia; [|apply (Hr k); assumption].
    right. split; [|exact HR]. intros Hi. apply Hd in Hi. lia.
  - intros i j oi oj Hij Hi Hj Ei Ej. apply nth_error_snoc_inv in Ei as [[-> ->]|[Hli Ei]]; apply nth_error_snoc_inv in Ej as [[-> ->]|[Hlj Ej]]; try lia.
    + apply apart_sym. eauto.
    + eauto.
    + exact (Ha i j oi oj Hij Hi Hj Ei Ej).
Qed.
(** An object takes over what object [k] held. *)
Lemma Sim_takeover dead m os vs k o v u w : Sim dead m os vs -> nth_error os k = Some o -> nth_error vs k = Some v -> ~ In k dead ->
  Sim (k :: dead) m (upd k (ObjU u) os ++ [o]) (upd k (ValU w) vs ++ [v]).
Proof.
  intros (Hl & Hd & Hr & Ha) Ek Ev Hk. assert (Hlk : k < length os) by (apply nth_error_Some; congruence).
  split; [rewrite !app_length, !upd_length, Hl; reflexivity|]. split; [intros j [<-|Hj]; rewrite app_length, upd_length; [lia|specialize (Hd j Hj); lia]|]. split.
  - intros j oj vj Ej Evj. apply nth_error_snoc_inv in Ej as [[-> ->]|[Hlj Ej]]; apply nth_error_snoc_inv in Evj as [[E ->]|[Hlj' Evj]]; rewrite ?upd_length in *; try lia.
    + right. split; [intros [E'|Hi]; [lia|specialize (Hd _ Hi); lia]|]. destruct (Hr k o v Ek Ev) as [[Hi _]|[_ HR]]; [contradiction|exact HR].
    + apply nth_error_upd_inv in Ej as [[-> ->]|[Hne Ej]].
      * apply nth_error_upd_inv in Evj as [[_ ->]|[Hne _]]; [|congruence]. left. split; [left; reflexivity|]. eauto.
      * rewrite nth_error_upd_neq in Evj by exact Hne. destruct (Hr j oj vj Ej Evj) as [[Hi H]|[Hi H]]; [left; split; [right; exact Hi|exact H]|right; split; [|exact H]]. intros [E|Hi']; [congruence|contradiction].
  - intros i j oi oj Hij Hi Hj Ei Ej. assert (Hni : i <> k) by (intros ->; apply Hi; left; reflexivity). assert (Hnj : j <> k) by (intros ->; apply Hj; left; reflexivity).
    assert (Hi' : ~ In i dead) by (intros H; apply Hi; right; exact H). assert (Hj' : ~ In j dead) by (intros H; apply Hj; right; exact H).
    apply nth_error_snoc_inv in Ei as [[-> ->]|[Hli Ei]]; apply nth_error_snoc_inv in Ej as [[-> ->]|[Hlj Ej]]; rewrite ?upd_length in *; try lia.
    + rewrite nth_error_upd_neq in Ej by exact Hnj. exact (Ha k j o oj ltac:(congruence) Hk Hj' Ek Ej).
    + rewrite nth_error_upd_neq in Ei by exact Hni. exact (Ha i k oi o Hni Hi' Hk Ei Ek).
    + rewrite nth_error_upd_neq in Ei by exact Hni. rewrite nth_error_upd_neq in Ej by exact Hnj. exact (Ha i j oi oj Hij Hi' Hj' Ei Ej).
Qed.
Lemma Sim_seen dead m os vs k : Sim dead m os vs -> seen_book m os k = val_seen vs k.
Proof.
  intros (Hl & _ & Hr & _). unfold seen_book, val_seen. destruct (nth_error os k) as [o|] eqn:Eo.
  - destruct (nth_error_same _ _ _ _ Hl Eo) as [v Ev]. rewrite Ev. destruct (Hr k o v Eo Ev) as [[_ (u & w & -> & ->)]|[_ HR]]; [reflexivity|].
    destruct o, v; cbn in HR; try contradiction; [reflexivity|]. rewrite (RB_read _ _ _ HR). reflexivity.
  - apply nth_error_None in Eo. assert (Ev : nth_error vs k = None) by (apply nth_error_None; lia). rewrite Ev. reflexivity.
Qed.
(** A slot holds related objects, or neither side has the object asked for. *)
Lemma Sim_book dead m os vs k : Sim dead m os vs ->
  (exists hb vb, the_book os k = Ok hb /\ val_book vs k = Ok vb /\ nth_error os k = Some (ObjB hb) /\ nth_error vs k = Some (ValB vb) /\ ~ In k dead /\ RB m hb vb) \/
  (the_book os k = Panic /\ val_book vs k = Panic).
Proof.
  intros (Hl & _ & Hr & _). unfold the_book, val_book. destruct (nth_error os k) as [o|] eqn:Eo.
  - destruct (nth_error_same _ _ _ _ Hl Eo) as [v Ev]. rewrite Ev. destruct (Hr k o v Eo Ev) as [[_ (u & w & -> & ->)]|[Hk HR]]; [right; auto|].
    destruct o, v; cbn in HR; try contradiction; [right; auto|]. left. do 2 eexists. repeat (split; [reflexivity|]). split; [exact Hk|exact HR].
  - apply nth_error_None in Eo. assert (Ev : nth_error vs k = None) by (apply nth_error_None; lia). rewrite Ev. right. auto.
Qed.
Lemma Sim_builder dead m os vs k : Sim dead m os vs -> ~ In k dead ->
  (exists hu vu, the_builder os k = Ok hu /\ val_builder vs k = Ok vu /\ nth_error os k = Some (ObjU hu) /\ nth_error vs k = Some (ValU vu) /\ RU m hu vu) \/
  (the_builder os k = Panic /\ val_builder vs k = Panic).
Proof.
  intros (Hl & _ & Hr & _) Hk. unfold the_builder, val_builder. destruct (nth_error os k) as [o|] eqn:Eo.
  - destruct (nth_error_same _ _ _ _ Hl Eo) as [v Ev]. rewrite Ev. destruct (Hr k o v Eo Ev) as [[Hi _]|[_ HR]]; [contradiction|].
    destruct o, v; cbn in HR; try contradiction; [|right; auto]. left. do 2 eexists. repeat (split; [reflexivity|]). exact HR.
  - apply nth_error_None in Eo. assert (Ev : nth_error vs k = None) by (apply nth_error_None; lia). rewrite Ev. right. auto.
Qed.

Section Programs.
  Variable ord : list posting -> list nat.
  Variable grow : nat -> nat.
  Variable it : list posting -> list str -> list str.
  Variable micro : Qc -> Z.
  Hypothesis Hord : order_ok ord.
  Notation srt := (srt_of ord).

  (** After one command, what is still live. *)
  Definition dead_after (c : cmd) (dead : list nat) : list nat := match c with KBuild k => k :: dead | _ => dead end.
  Definition tidy1 (dead : list nat) (c : cmd) : Prop :=
    match c with KCall k _ | KBuild k => ~ In k dead | KDuplicate _ | KAccumulate _ _ _ _ _ => False | _ => True end.
  Lemma tidy_cons dead c cs : tidy dead (c :: cs) -> tidy1 dead c /\ tidy (dead_after c dead) cs.
  Proof. destruct c; cbn; tauto. Qed.
  Definition simstep (dead : list nat) (h : outcome (mem * list obj)) (v : outcome (list vobj)) : Prop :=
    match v with
    | Ok vs => exists m os, h = Ok (m, os) /\ Sim dead m os vs
    | Error => h = Error
    | Panic => h = Panic
    | Diverge => h = Diverge
    end.
  Lemma new_RU m m' u : hnew_builder m = (m', u) -> ext m m' /\ RU m' u new_builder /\ length (m_arrs m) <= s_arr (hbu_post u) /\ ptrs (cells m' (hbu_post u)) = [].
  Proof.
    unfold hnew_builder, make_posts. destruct (alloc_arr m (repeat hzero 200)) as [m1 a] eqn:Ea. apply alloc_arr_ext in Ea as (Hx & -> & Hl1 & Harr & _). intros E. injection E as <- <-.
    split; [exact Hx|]. split; [|split; [cbn; lia|reflexivity]]. split; [split; [split; cbn; lia|cbn; split; [constructor|intros x []]]|]. split; reflexivity.
  Qed.
  Lemma step_sim c dead m os vs : Sim dead m os vs -> tidy1 dead c -> simstep (dead_after c dead) (hstep ord grow it micro c m os) (vstep srt it micro c vs).
  Proof.
    intros HS Ht. destruct c as [|k c|k|k o|k j|k j ord1 ord2 dist refacct|k|k x1 x2 x3 x4]; cbn [hstep vstep dead_after tidy1] in *; try contradiction.
    - destruct (hnew_builder m) as [m' u] eqn:E. destruct (new_RU _ _ _ E) as (Hx & HR & Hf & Hp). cbn [simstep]. do 2 eexists. split; [reflexivity|].
      apply (Sim_new _ m _ _ _ (ObjU u) (ValU new_builder) HS Hx HR Hf). cbn [post_of]. rewrite Hp. intros x [].
    - destruct (Sim_builder _ _ _ _ k HS Ht) as [(hu & vu & E1 & E2 & N1 & N2 & HR)|[E1 E2]]; rewrite E1, E2; cbn [obind]; [|reflexivity].
      pose proof (bstep_RU grow c m hu vu HR) as Hb. unfold resu in Hb. destruct (bstep vu c) as [u'| | |]; cbn [obind]; try (rewrite Hb; reflexivity).
      destruct Hb as (m' & hu' & E & HR' & Hm). rewrite E. cbn [obind simstep]. do 2 eexists. split; [reflexivity|]. exact (Sim_step _ _ _ _ _ _ _ (ObjU hu') (ValU u') HS N1 Ht Hm HR').
    - destruct (Sim_builder _ _ _ _ k HS Ht) as [(hu & vu & E1 & E2 & N1 & N2 & HR)|[E1 E2]]; rewrite E1, E2; cbn [obind]; [|reflexivity].
      pose proof (build_RU ord Hord m hu vu HR) as Hb. destruct (check_and_clear vu) as [u'| | |]; cbn [obind]; try (rewrite Hb; reflexivity).
      destruct Hb as (m' & hb & b & E & Eb & HR' & Hm). rewrite E, Eb. cbn [obind simstep]. do 2 eexists. split; [reflexivity|].
      pose proof (Sim_step _ _ _ _ _ _ _ (ObjB hb) (ValB b) HS N1 Ht Hm HR') as HS'.
      pose proof (Sim_takeover _ _ _ _ k _ _ (mkHU (hbu_post hu) (strip u')) u' HS' (nth_error_upd_eq _ _ _ _ N1) (nth_error_upd_eq _ _ _ _ N2) Ht) as H.
      assert (Huu : forall {A} (x y : A) l n, upd n x (upd n y l) = upd n x l) by (clear; induction l as [|a l IH]; intros [|n]; cbn; try reflexivity; rewrite IH; reflexivity).
      rewrite !Huu in H. exact H.
    - destruct (Sim_book _ _ _ _ k HS) as [(hb & vb & E1 & E2 & N1 & N2 & Hk & HR)|[E1 E2]]; rewrite E1, E2; cbn [obind]; [|reflexivity].
      destruct (other_book o) eqn:Eo; [destruct o; try discriminate; reflexivity|].
      pose proof (op_RB ord grow Hord o m hb vb HR Eo) as Hb. unfold res in Hb. destruct (run_op srt o vb) as [b| | |]; cbn [obind]; try (rewrite Hb; reflexivity).
      destruct Hb as (m' & hb' & E & HR' & Hm). rewrite E. cbn [obind simstep]. do 2 eexists. split; [reflexivity|]. exact (Sim_step _ _ _ _ _ _ _ (ObjB hb') (ValB b) HS N1 Hk Hm HR').
    - destruct (Sim_book _ _ _ _ j HS) as [(mb & vmb & E1 & E2 & N1 & N2 & Hj & HR)|[E1 E2]]; rewrite E1, E2; cbn [obind]; [|reflexivity].
      destruct (compact_RB ord Hord m mb vmb HR) as (m1 & mb1 & Ec & HR1 & Hm1). rewrite Ec.
      pose proof (Sim_step _ _ _ _ _ _ _ (ObjB mb1) (ValB (compact srt vmb)) HS N1 Hj Hm1 HR1) as HS1.
      destruct (Sim_book _ _ _ _ k HS1) as [(hb & vb & F1 & F2 & P1 & P2 & Hk & HRk)|[F1 F2]]; rewrite F1, F2; cbn [obind]; [|reflexivity].
      assert (Hts : map (look_slice m1) (hb_trans mb1) = bk_trans (compact srt vmb)) by (rewrite <- (RB_read _ _ _ HR1); reflexivity). rewrite Hts.
      pose proof (filter_res_RB grow dedup_keep (bk_trans (compact srt vmb)) m1 hb vb HRk) as Hf. rewrite vfilter_dedup in Hf.
      unfold remove_duplicates_of. cbn [transactions]. unfold res in Hf.
      destruct (dedup_loop (bk_trans (compact srt vmb)) (bk_trans vb)) as [keep| | |]; cbn [obind] in *; try (rewrite Hf; reflexivity).
      destruct Hf as (m' & hb' & E & HR' & Hm). rewrite E. cbn [obind simstep snd]. do 2 eexists. split; [reflexivity|].
      exact (Sim_step _ _ _ _ _ _ _ (ObjB hb') (ValB _) HS1 P1 Hk Hm HR').
    - destruct (Sim_book _ _ _ _ j HS) as [(mb & vmb & E1 & E2 & N1 & N2 & Hj & HR)|[E1 E2]]; rewrite E1, E2; cbn [obind]; [|reflexivity].
      destruct (compact_RB ord Hord m mb vmb HR) as (m1 & mb1 & Ec & HR1 & Hm1). rewrite Ec.
      pose proof (Sim_step _ _ _ _ _ _ _ (ObjB mb1) (ValB (compact srt vmb)) HS N1 Hj Hm1 HR1) as HS1.
      destruct (Sim_book _ _ _ _ k HS1) as [(hb & vb & F1 & F2 & P1 & P2 & Hk & HRk)|[F1 F2]]; rewrite F1, F2; cbn [obind]; [|reflexivity].
      assert (Hts : map (look_slice m1) (hb_trans mb1) = bk_trans (compact srt vmb)) by (rewrite <- (RB_read _ _ _ HR1); reflexivity). rewrite Hts.
      destruct (compact_RB ord Hord m1 hb vb HRk) as (m2 & hb2 & Ec2 & HR2 & Hm2). rewrite Ec2.
      destruct (reclass_RB dist ord2 refacct (payee_mapping ord1 refacct (bk_trans (compact srt vmb))) m2 hb2 _ HR2) as [HR3 Hm3].
      cbn [simstep]. do 2 eexists. split; [reflexivity|].
      exact (Sim_step _ _ _ _ _ _ _ (ObjB hb2) (ValB _) HS1 P1 Hk (mv_trans _ _ _ _ _ _ Hm2 Hm3) HR3).
  Qed.
  Lemma run_sim : forall cs dead m os vs, Sim dead m os vs -> tidy dead cs ->
    exists dead', simstep dead' (hrun ord grow it micro cs m os) (vrun srt it micro cs vs).
  Proof.
    induction cs as [|c cs IH]; intros dead m os vs HS Ht; [exists dead; cbn; eauto|]. apply tidy_cons in Ht as [Ht1 Ht]. cbn [hrun vrun].
    pose proof (step_sim c dead m os vs HS Ht1) as H. unfold simstep in H. destruct (vstep srt it micro c vs) as [vs'| | |]; cbn [obind]; try (rewrite H; exists []; reflexivity).
    destruct H as (m' & os' & E & HS'). rewrite E. cbn [obind]. exact (IH _ _ _ _ HS' Ht).
  Qed.
  Lemma Sim_init m : Sim [] m [] [].
  Proof. split; [reflexivity|]. split; [intros k []|]. split; [intros [|k] o v E; discriminate|]. intros [|j] k o o' _ _ _ E; discriminate. Qed.
  Lemma simstep_agree dead h v : simstep dead h v -> agree h v.
  Proof. unfold simstep, agree. destruct v as [vs| | |]; intros H; try (rewrite H; exact I). destruct H as (m & os & E & HS). rewrite E. intros k. exact (Sim_seen _ _ _ _ k HS). Qed.
End Programs.
