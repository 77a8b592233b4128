(** * CaptureProps: C89, the code of a login. *)
From Verif Require Import Base CaptureModel CaptureSpec.

Lemma valid_carried qs i q c s : nth_error qs i = Some q -> valid_query q = Some (c, s) -> carried qs c s.
Proof.
  intros H E. apply nth_error_In in H. destruct q as [cs ss]. unfold valid_query in E. cbn [q_codes q_states] in E.
  destruct cs as [[|c' [|]]|]; try discriminate. destruct ss as [[|s' [|]]|]; try discriminate. injection E as -> ->. exact H.
Qed.

(** The invariant of every schedule. *)
Definition from_code (qs : list query) (c : str) : Prop := exists s, carried qs c s.
Definition from_state (qs : list query) (s : str) : Prop := exists c, carried qs c s.
Definition inv (qs : list query) (t : cap) : Prop :=
  (c_closed t = true -> c_err t = true \/ (from_code qs (c_code t) /\ from_state qs (c_state t))) /\
  (forall i q, nth_error qs i = Some q -> (1 <= c_pc t i)%nat -> if valid_query q then from_code qs (c_code t) else c_err t = true) /\
  (forall i q, nth_error qs i = Some q -> (2 <= c_pc t i)%nat -> if valid_query q then from_state qs (c_state t) else c_err t = true) /\
  match c_main t with
  | MServe => True
  | MCode => from_code qs (c_code t) /\ from_state qs (c_state t)
  | MState c => from_code qs c /\ from_state qs (c_state t)
  | MDone (Ok (c, s)) => from_code qs c /\ from_state qs s
  | MDone r => r = Error
  end.
Lemma inv_step qs t w : inv qs t -> inv qs (cap_step qs t w).
Proof.
  intros (H1 & H2 & H3 & H4). destruct w as [i| |]; unfold cap_step.
  - destruct (nth_error qs i) as [q|] eqn:Eq; [|repeat split; assumption]. unfold handler_step.
    destruct (c_pc t i) as [|[|[|n]]] eqn:Ep.
    + destruct (valid_query q) as [[c s]|] eqn:Ev.
      * assert (Hc : from_code qs c) by (exists s; eapply valid_carried; eassumption). repeat split; cbn [c_code c_state c_err c_closed c_pc c_main].
        { intros Hcl. destruct (H1 Hcl) as [|[_ Hs]]; [left; assumption|right; auto]. }
        { intros j q' Hj Hp. destruct (valid_query q') eqn:Ev'; [exact Hc|]. unfold set_pc in Hp. destruct (Nat.eqb_spec j i) as [->|_]; [congruence|]. specialize (H2 j q' Hj Hp). rewrite Ev' in H2. exact H2. }
        { intros j q' Hj Hp. unfold set_pc in Hp. destruct (Nat.eqb_spec j i); [lia|]. exact (H3 j q' Hj Hp). }
        { destruct (c_main t) as [| |c'|[[c' s']| | |]]; tauto. }
      * repeat split; cbn [c_code c_state c_err c_closed c_pc c_main]; [auto|..|exact H4];
          intros j q' Hj Hp; (destruct (valid_query q') eqn:Ev'; [|reflexivity]); unfold set_pc in Hp; (destruct (Nat.eqb_spec j i) as [->|_]; [congruence|]);
          [specialize (H2 j q' Hj Hp)|specialize (H3 j q' Hj Hp)]; rewrite Ev' in *; assumption.
    + destruct (valid_query q) as [[c s]|] eqn:Ev; [|repeat split; assumption].
      assert (Hs : from_state qs s) by (exists c; eapply valid_carried; eassumption). repeat split; cbn [c_code c_state c_err c_closed c_pc c_main].
      * intros Hcl. destruct (H1 Hcl) as [|[Hc _]]; [left; assumption|right; auto].
      * intros j q' Hj Hp. unfold set_pc in Hp. destruct (Nat.eqb_spec j i) as [->|_]; [apply (H2 i q' Hj); lia|exact (H2 j q' Hj Hp)].
      * intros j q' Hj Hp. destruct (valid_query q') eqn:Ev'; [exact Hs|]. unfold set_pc in Hp. destruct (Nat.eqb_spec j i) as [->|_]; [congruence|]. specialize (H3 j q' Hj Hp). rewrite Ev' in H3. exact H3.
      * destruct (c_main t) as [| |c'|[[c' s']| | |]]; tauto.
    + assert (H : inv qs (mkCap (c_code t) (c_state t) (c_err t) true (set_pc (c_pc t) i 3) (c_main t))); [|destruct (valid_query q) as [[? ?]|]; exact H].
      repeat split; cbn [c_code c_state c_err c_closed c_pc c_main]; [| | |exact H4].
      * intros _. specialize (H2 i q Eq ltac:(lia)). specialize (H3 i q Eq ltac:(lia)). destruct (valid_query q); auto.
      * intros j q' Hj Hp. unfold set_pc in Hp. destruct (Nat.eqb_spec j i) as [->|_]; [apply (H2 i q' Hj); lia|exact (H2 j q' Hj Hp)].
      * intros j q' Hj Hp. unfold set_pc in Hp. destruct (Nat.eqb_spec j i) as [->|_]; [apply (H3 i q' Hj); lia|exact (H3 j q' Hj Hp)].
    + destruct (valid_query q) as [[? ?]|]; repeat split; assumption.
  - unfold main_step. destruct (c_main t) as [| |c|r] eqn:Em.
    + destruct (c_closed t) eqn:Ec; [|repeat split; try assumption; rewrite ?Ec, ?Em; auto]. destruct (c_err t) eqn:Ee; repeat split; cbn [c_code c_state c_err c_closed c_pc c_main]; auto;
        destruct (H1 eq_refl) as [|[? ?]]; try discriminate; auto.
    + repeat split; cbn [c_code c_state c_err c_closed c_pc c_main]; tauto || auto.
    + repeat split; cbn [c_code c_state c_err c_closed c_pc c_main]; tauto || auto.
    + repeat split; try assumption. rewrite Em. exact H4.
  - destruct (c_main t) as [| |c|r] eqn:Em; repeat split; cbn [c_code c_state c_err c_closed c_pc c_main]; try assumption; try reflexivity; rewrite Em; exact H4.
Qed.
Lemma inv_capture qs sched : inv qs (capture qs sched).
Proof.
  unfold capture. assert (H : inv qs cap0) by (repeat split; cbn; intros; try discriminate; lia).
  revert H. generalize cap0. induction sched as [|w sched IH]; intros t H; [exact H|]. cbn [fold_left]. apply IH. apply inv_step. exact H.
Qed.

(** ** C89, for every set of requests and every schedule: the result is an error, or a code that was sent and a state that was sent;
    nothing is returned unset, and nothing crashes. *)
Theorem C89_sent_values_partial qs sched r : c_main (capture qs sched) = MDone r ->
  r = Error \/ exists c s c' s', r = Ok (c, s) /\ carried qs c s' /\ carried qs c' s.
Proof.
  intros E. pose proof (inv_capture qs sched) as (_ & _ & _ & H). rewrite E in H. destruct r as [[c s]| | |]; try (left; exact H). right. destruct H as [[s' Hc] [c' Hs]]. exists c, s, c', s'. auto.
Qed.
Print Assumptions C89_sent_values_partial.
(** If at most one code and state were sent, whatever else was asked for, the code exchanged came with our state. *)
Theorem C89_one_redirect_partial qs sched mine c c0 s0 :
  (forall c1 s1, carried qs c1 s1 -> c1 = c0 /\ s1 = s0) -> exchanged mine (capture qs sched) = Some c -> carried qs c mine.
Proof.
  intros H1 E. unfold exchanged in E. destruct (c_main (capture qs sched)) as [| |?|r] eqn:Em; try discriminate.
  destruct (C89_sent_values_partial qs sched r Em) as [->|(c1 & s1 & c' & s' & -> & Hc & Hs)]; [discriminate|]. destruct (str_eqb_spec s1 mine) as [<-|_]; [|discriminate]. injection E as <-.
  destruct (H1 _ _ Hc) as [-> ->]. destruct (H1 _ _ Hs) as [-> ->]. exact Hc.
Qed.
Print Assumptions C89_one_redirect_partial.

(** Requests served one by one: the result is the pair of one request, or an error if one of them carried no pair. *)
Lemma block qs t i q : nth_error qs i = Some q -> c_pc t i = O ->
  let t' := fold_left (cap_step qs) [Handler i; Handler i; Handler i] t in
  c_main t' = c_main t /\ c_closed t' = true /\ (forall j, j <> i -> c_pc t' j = c_pc t j) /\
  match valid_query q with Some (c, s) => c_code t' = c /\ c_state t' = s /\ c_err t' = c_err t | None => c_err t' = true end.
Proof.
  intros Hq Hp. cbv zeta. cbn [fold_left cap_step]. rewrite !Hq.
  assert (Hs : forall pc n, set_pc pc i n i = n) by (intros; unfold set_pc; rewrite Nat.eqb_refl; reflexivity).
  destruct (valid_query q) as [[c s]|] eqn:Ev.
  - assert (E1 : handler_step q i t = mkCap c (c_state t) (c_err t) (c_closed t) (set_pc (c_pc t) i 1) (c_main t)) by (unfold handler_step; rewrite Hp, Ev; reflexivity). rewrite E1. clear E1.
    match goal with |- context [handler_step q i (handler_step q i ?x)] => assert (E2 : handler_step q i x = mkCap c s (c_err t) (c_closed t) (set_pc (set_pc (c_pc t) i 1) i 2) (c_main t)) end.
    { unfold handler_step. cbn [c_pc]. rewrite Hs, Ev. reflexivity. }
    rewrite E2. clear E2. unfold handler_step. cbn [c_pc]. rewrite Hs. cbn [c_main c_closed c_pc c_code c_state c_err].
    split; [reflexivity|]. split; [reflexivity|]. split; [intros j N; unfold set_pc; destruct (Nat.eqb_spec j i); congruence|]. repeat split.
  - assert (E1 : handler_step q i t = mkCap (c_code t) (c_state t) true (c_closed t) (set_pc (c_pc t) i 2) (c_main t)) by (unfold handler_step; rewrite Hp, Ev; reflexivity). rewrite E1. clear E1.
    match goal with |- context [handler_step q i (handler_step q i ?x)] => assert (E2 : handler_step q i x = mkCap (c_code t) (c_state t) true true (set_pc (set_pc (c_pc t) i 2) i 3) (c_main t)) end.
    { unfold handler_step. cbn [c_pc]. rewrite Hs. reflexivity. }
    rewrite E2. clear E2. unfold handler_step. cbn [c_pc]. rewrite Hs. cbn [c_main c_closed c_pc c_code c_state c_err].
    split; [reflexivity|]. split; [reflexivity|]. split; [intros j N; unfold set_pc; destruct (Nat.eqb_spec j i); congruence|]. repeat split.
Qed.
Lemma blocks qs order : NoDup order -> (forall i, In i order -> nth_error qs i <> None) -> forall t, (forall i, In i order -> c_pc t i = O) ->
  let t' := fold_left (cap_step qs) (flat_map (fun i => [Handler i; Handler i; Handler i]) order) t in
  c_main t' = c_main t /\ (order <> [] -> c_closed t' = true) /\ (c_err t' = false -> order <> [] -> carried qs (c_code t') (c_state t')) /\
  ((forall i q, In i order -> nth_error qs i = Some q -> valid_query q <> None) -> c_err t' = c_err t).
Proof.
  induction 1 as [|i order Hi Hn IH]; intros Hq t Hp; [cbn; repeat split; congruence|]. cbv zeta. cbn [flat_map]. rewrite fold_left_app.
  destruct (nth_error qs i) as [q|] eqn:Eq; [|destruct (Hq i (or_introl eq_refl) Eq)].
  destruct (block qs t i q Eq (Hp i (or_introl eq_refl))) as (B1 & B2 & B3 & B4). set (t1 := fold_left (cap_step qs) [Handler i; Handler i; Handler i] t) in *. clearbody t1.
  assert (Hp1 : forall j, In j order -> c_pc t1 j = O) by (intros j Hj; rewrite B3 by (intros ->; contradiction); apply Hp; right; exact Hj).
  destruct (IH (fun j Hj => Hq j (or_intror Hj)) t1 Hp1) as (I1 & I2 & I3 & I4). clear IH. destruct order as [|j order].
  - cbn [flat_map fold_left] in *. split; [congruence|]. split; [intros _; exact B2|]. split.
    + intros He _. destruct (valid_query q) as [[c s]|] eqn:Ev; [|congruence]. destruct B4 as (-> & -> & _). eapply valid_carried; eassumption.
    + intros Hv. specialize (Hv i q (or_introl eq_refl) Eq). destruct (valid_query q) as [[c s]|]; [apply B4|congruence].
  - split; [congruence|]. split; [intros _; apply I2; discriminate|]. split; [intros He _; apply I3; [exact He|discriminate]|].
    intros Hv. rewrite I4 by (intros k q' Hk; apply Hv; right; exact Hk). specialize (Hv i q (or_introl eq_refl) Eq). destruct (valid_query q) as [[c s]|]; [apply B4|congruence].
Qed.
Lemma done_stays qs r after : forall t, c_main t = MDone r -> c_main (fold_left (cap_step qs) after t) = MDone r.
Proof.
  induction after as [|w after IH]; intros t E; [exact E|]. cbn [fold_left]. apply IH. destruct w as [i| |]; unfold cap_step.
  - destruct (nth_error qs i) as [q|]; [|exact E]. unfold handler_step. destruct (c_pc t i) as [|[|[|?]]]; destruct (valid_query q) as [[? ?]|]; exact E.
  - unfold main_step. rewrite E. exact E.
  - rewrite E. exact E.
Qed.
Theorem C89_one_by_one_partial qs order after : NoDup order -> order <> [] -> (forall i, In i order -> nth_error qs i <> None) ->
  (c_main (capture qs (one_by_one order after)) = MDone Error \/ exists c s, c_main (capture qs (one_by_one order after)) = MDone (Ok (c, s)) /\ carried qs c s) /\
  ((forall i q, In i order -> nth_error qs i = Some q -> valid_query q <> None) -> c_main (capture qs (one_by_one order after)) <> MDone Error).
Proof.
  intros Hn Hne Hq. unfold capture, one_by_one. rewrite !fold_left_app. destruct (blocks qs order Hn Hq cap0 (fun _ _ => eq_refl)) as (B1 & B2 & B3 & B4).
  set (t := fold_left (cap_step qs) (flat_map _ order) cap0) in *. clearbody t. specialize (B2 Hne). cbn [fold_left cap_step].
  change (c_main cap0) with MServe in B1. change (c_err cap0) with false in B4.
  assert (E : c_main (main_step (main_step (main_step t))) = MDone (if c_err t then Error else Ok (c_code t, c_state t))).
  { destruct t as [c s er cl pc m]. cbn [c_main c_closed c_err c_code c_state c_pc] in *. subst m cl. destruct er; reflexivity. }
  rewrite (done_stays qs _ after _ E). destruct (c_err t) eqn:Ee.
  - split; [left; reflexivity|]. intros Hv. specialize (B4 Hv). discriminate.
  - split; [right; exists (c_code t), (c_state t); auto|]. intros _ E'. discriminate.
Qed.
Print Assumptions C89_one_by_one_partial.

(** EXPECTED: under every schedule the code exchanged came with our state. REFUTED: a second request at the same time gives its code under the
    state of the first; a request without a code (for an icon) in front of the redirect makes the login fail. *)
Definition ex89_mine : query := mkQ (Some [bs "code1"]) (Some [bs "state1"]).
Definition ex89_other : query := mkQ (Some [bs "code2"]) (Some [bs "state2"]).
Definition ex89_icon : query := mkQ None None.
Theorem C89_state_check_refuted :
  exchanged (bs "state1") (capture [ex89_mine; ex89_other] [Handler 0; Handler 1; Handler 1; Handler 0; Handler 1; Main; Main; Main]) = Some (bs "code2") /\
  ~ carried [ex89_mine; ex89_other] (bs "code2") (bs "state1") /\
  c_main (capture [ex89_icon; ex89_mine] (one_by_one [0; 1]%nat [])) = MDone Error.
Proof.
  split; [vm_compute; reflexivity|]. split; [|vm_compute; reflexivity].
  intros [H|[H|[]]]; discriminate.
Qed.
Print Assumptions C89_state_check_refuted.
Example C89_nonvacuous : exchanged (bs "state1") (capture [ex89_mine] (one_by_one [0]%nat [])) = Some (bs "code1") /\
  exchanged (bs "state1") (capture [ex89_mine; ex89_icon] [Handler 0; Handler 0; Handler 0; Main; Handler 1; Main; Main]) = Some (bs "code1").
Proof. split; vm_compute; reflexivity. Qed.
