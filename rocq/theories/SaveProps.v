(** * SaveProps: C56 (crashes while saving) and C81 (reported success). *)
From Verif Require Import Base SaveModel.

Section Save.
  Variable gz : bool.
  Variable marshal : option str.
  Variable zip : str -> str.
  Variable early : str -> nat.
  Notation run := (run gz marshal zip early).
  Notation step := (step gz marshal zip early).

  (** The complete new contents of the file. *)
  Definition contents (b : str) : str := if gz then zip b else b.
  Definition prefix (p s : str) : Prop := exists r, s = p ++ r.

  Lemma parts b : by_write gz zip early b ++ by_close gz zip early b = contents b.
  Proof. unfold by_write, by_close, contents. destruct gz; [apply firstn_skipn|apply app_nil_r]. Qed.

  (** What the file can hold, at each point of the program. *)
  Definition holds (old : option str) (fl : bool) (s : state) : Prop :=
    match s with
    | (PStart, f) | (PMade, f) => f = old /\ fl = false
    | (POpen, f) => f = Some [] /\ fl = false
    | (PWrite r l, f) => exists b p, marshal = Some b /\ f = Some p /\ p ++ r ++ l = contents b /\ l = by_close gz zip early b /\ fl = false
    | (PClose r true, f) => exists b p, marshal = Some b /\ f = Some p /\ p ++ r = contents b /\ fl = false /\ (gz = false -> r = [])
    | (PClose r false, f) => exists p b, f = Some p /\ prefix p (contents b) /\ (marshal = None -> b = [] /\ (gz = true -> p ++ r = contents b) /\ fl = false /\ (gz = false -> p = [] /\ r = [])) /\ (forall x, marshal = Some x -> b = x /\ fl = true /\ r = [])
    | (PEnd true, f) => exists b p, marshal = Some b /\ f = Some p /\ prefix p (contents b) /\ (fl = false \/ gz = false -> p = contents b)
    | (PEnd false, f) => f = old \/ exists p b, f = Some p /\ prefix p (contents b) /\ (marshal = None -> b = []) /\ (forall x, marshal = Some x -> b = x /\ fl = true)
    end.

  Lemma holds_run old fl s : run fl (PStart, old) s -> holds old fl s.
  Proof.
    remember (PStart, old) as s0 eqn:E0. intros H. revert E0. induction H as [s|fl fl' s s' s'' H IH Hs]; intros ->.
    - cbn. auto.
    - specialize (IH eq_refl). destruct Hs as [f|f|f|f|f b Hm|f Hm|c a r l Ha|f l|f r l|c a r ok Ha|f ok|f r ok]; cbn in IH |- *.
      + destruct IH as [-> ->]. auto.
      + left. apply IH.
      + destruct IH as [_ ->]. auto.
      + left. apply IH.
      + destruct IH as [-> ->]. exists b, []. repeat split; auto. cbn. apply parts.
      + destruct IH as [-> ->]. exists [], []. split; [reflexivity|]. split; [exists (contents []); reflexivity|]. split.
        * intros _. split; [reflexivity|]. split; [intros Eg; unfold contents; rewrite Eg; reflexivity|]. split; [reflexivity|].
          intros Eg. rewrite Eg. auto.
        * intros x C. congruence.
      + destruct IH as (b & p & Hm & Hc & Hp & Hl & ->). injection Hc as ->. exists b, (p ++ a). repeat split; auto. rewrite <- Hp, <- !app_assoc. reflexivity.
      + destruct IH as (b & p & Hm & -> & Hp & Hl & ->). exists b, p. repeat split; auto. intros Eg. rewrite Hl. unfold by_close. rewrite Eg. reflexivity.
      + destruct IH as (b & p & Hm & -> & Hp & Hl & ->). exists p, b. split; [reflexivity|]. split; [exists (r ++ l); auto|]. split; [congruence|].
        intros x Hx. rewrite Hm in Hx. injection Hx as <-. auto.
      + destruct ok.
        * destruct IH as (b & p & Hm & Hc & Hp & -> & Hg). injection Hc as ->. exists b, (p ++ a). repeat split; auto; [rewrite <- Hp, <- app_assoc; reflexivity|].
          intros Eg. apply Hg in Eg. destruct a; [contradiction|discriminate].
        * destruct IH as (p & b & Hc & (r0 & Hp) & Hn & Hs). injection Hc as ->. destruct marshal as [x|] eqn:Em.
          -- destruct (Hs x eq_refl) as (_ & _ & C). destruct a; [contradiction|discriminate].
          -- destruct (Hn eq_refl) as (-> & Hg & -> & Hng). destruct gz eqn:Eg.
             ++ exists (p ++ a), []. split; [reflexivity|]. specialize (Hg eq_refl). split; [exists r; rewrite <- Hg, <- app_assoc; reflexivity|].
                split; [|intros x C; discriminate]. intros _. repeat split; auto; [intros _; rewrite <- app_assoc; exact Hg|discriminate..].
             ++ destruct (Hng eq_refl) as [_ C]. destruct a; [contradiction|discriminate].
      + rewrite orb_false_r. destruct ok.
        * destruct IH as (b & p & Hm & -> & Hp & -> & Hg). rewrite app_nil_r in Hp. exists b, p. repeat split; auto. exists []. rewrite app_nil_r. auto.
        * destruct IH as (p & b & -> & Hp & Hn & Hs). right. exists p, b. split; [reflexivity|]. split; [exact Hp|]. split.
          -- intros C. apply Hn in C. apply C.
          -- intros x Hx. destruct (Hs x Hx) as (A & B & _). auto.
      + rewrite orb_true_r. destruct ok.
        * destruct IH as (b & p & Hm & -> & Hp & -> & Hg). exists b, p. repeat split; auto; [exists r; auto|].
          intros [C|C]; [discriminate|]. rewrite (Hg C), app_nil_r in Hp. exact Hp.
        * destruct IH as (p & b & -> & Hp & Hn & Hs). right. exists p, b. split; [reflexivity|]. split; [exact Hp|]. split.
          -- intros C. apply Hn in C. apply C.
          -- intros x Hx. destruct (Hs x Hx) as (A & _). auto.
  Qed.

  (** C56: at every point at which the program may be stopped, whatever failed before, the file is as it was or holds
      a beginning of the new contents. (When the data cannot be encoded, of the contents for no data.) *)
  Theorem C56_crash_partial : forall old fl p f, run fl (PStart, old) (p, f) ->
    f = old \/ exists c, f = Some c /\ prefix c (contents (match marshal with Some b => b | None => [] end)).
  Proof.
    intros old fl p f H. apply holds_run in H. destruct p as [| | |r l|r [|]|[|]]; cbn in H.
    - left. apply H.
    - left. apply H.
    - right. exists []. split; [apply H|]. eexists. reflexivity.
    - destruct H as (b & c & Hm & -> & Hp & _). right. exists c. split; [reflexivity|]. rewrite Hm. exists (r ++ l). auto.
    - destruct H as (b & c & Hm & -> & Hp & _). right. exists c. split; [reflexivity|]. rewrite Hm. exists r. auto.
    - destruct H as (c & b & -> & Hp & Hn & Hs). right. exists c. split; [reflexivity|]. destruct marshal as [x|].
      + destruct (Hs x eq_refl) as (-> & _). exact Hp.
      + destruct (Hn eq_refl) as (-> & _). exact Hp.
    - destruct H as (b & c & Hm & -> & Hp & _). right. exists c. split; [reflexivity|]. rewrite Hm. exact Hp.
    - destruct H as [->|(c & b & -> & Hp & Hn & Hs)]; [left; reflexivity|]. right. exists c. split; [reflexivity|]. destruct marshal as [x|].
      + destruct (Hs x eq_refl) as (-> & _). exact Hp.
      + rewrite (Hn eq_refl) in Hp. exact Hp.
  Qed.

  (** C56: when nothing failed, a completed save of data that can be encoded reports success, and loading the file
      gives back what was saved. *)
  Theorem C56_completed : forall D unzip unmarshal (d : D) b old ok f,
    (forall x, unzip (zip x) = Some x) -> marshal = Some b -> unmarshal b = Some d ->
    run false (PStart, old) (PEnd ok, f) -> ok = true /\ load gz unzip unmarshal f = Ok (Some d).
  Proof.
    intros D unzip unmarshal d b old ok f Hz Hm Hu H.
    assert (Hf : forall fl s s', run fl s s' -> fl = false -> s = (PStart, old) -> s' = (PEnd false, f) -> False).
    { intros fl s s' Hr. destruct Hr as [s|fl fl' s s1 s2 Hr Hs]; intros Hfl Hs0 Hs2; [rewrite Hs0 in Hs2; discriminate|].
      apply orb_false_iff in Hfl as [-> ->]. subst s s2. apply holds_run in Hr. inversion Hs; subst. cbn in Hr.
      destruct Hr as (c & b0 & _ & _ & _ & Hs'). destruct (Hs' b Hm) as (_ & C & _). discriminate. }
    destruct ok; [|exfalso; eapply Hf; [exact H|reflexivity..]].
    split; [reflexivity|]. apply holds_run in H. destruct H as (b' & p & Hm' & -> & _ & Hp).
    rewrite Hm in Hm'. injection Hm' as <-. rewrite (Hp (or_introl eq_refl)). cbn. unfold contents.
    destruct gz; [rewrite Hz|]; rewrite Hu; reflexivity.
  Qed.

  (** The next start after a crash during the very first save: without a file it begins with no state; otherwise the
      file gives the state it encodes, or an error: never another state. *)
  Theorem C56_next_start : forall D unzip (unmarshal : str -> option D) fl p f,
    run fl (PStart, None) (p, f) ->
    (f = None -> load gz unzip unmarshal f = Ok None) /\
    (forall c, f = Some c -> load gz unzip unmarshal f = Error \/
       exists t d, (gz = true /\ unzip c = Some t \/ gz = false /\ t = c) /\ unmarshal t = Some d /\ load gz unzip unmarshal f = Ok (Some d)) /\
    (p = PStart \/ p = PMade -> f = None).
  Proof.
    intros D unzip unmarshal fl p f H. split; [intros ->; reflexivity|]. split.
    - intros c ->. cbn [load]. destruct gz.
      + destruct (unzip c) as [t|] eqn:Ez; [|left; reflexivity]. destruct (unmarshal t) as [d|] eqn:Eu; [|left; reflexivity].
        right. exists t, d. split; [left; auto|]. split; [exact Eu|reflexivity].
      + destruct (unmarshal c) as [d|] eqn:Eu; [|left; reflexivity]. right. exists c, d. split; [right; auto|]. split; [exact Eu|reflexivity].
    - apply holds_run in H. intros [-> | ->]; apply H.
  Qed.

  (** C81: for a file that is not compressed a reported success means that the file holds everything. *)
  Theorem C81_success_partial : forall old fl b f,
    gz = false -> marshal = Some b -> run fl (PStart, old) (PEnd true, f) -> f = Some b.
  Proof.
    intros old fl b f Hg Hm H. apply holds_run in H. destruct H as (b' & p & Hm' & -> & _ & Hp).
    rewrite Hm in Hm'. injection Hm' as <-. rewrite (Hp (or_intror Hg)). unfold contents. rewrite Hg. reflexivity.
  Qed.

  (** C56 EXPECTED, refuted for every file and all data: stopped after the file was opened, it is empty; the old state
      is lost and the next start fails. *)
  Theorem C56_crash_refuted : forall old,
    run false (PStart, old) (POpen, Some []) /\
    forall D (unmarshal : str -> option D) unzip, unmarshal [] = None -> unzip [] = None -> load gz unzip unmarshal (Some []) = Error.
  Proof.
    intros old. split.
    - change false with (false || false). eapply run_step; [|apply st_open]. change false with (false || false).
      eapply run_step; [apply run_refl|apply st_mkdir].
    - intros D unmarshal unzip Hu Hz. cbn. destruct gz; [rewrite Hz; reflexivity|rewrite Hu; reflexivity].
  Qed.

  Lemma trans fl fl' s s' s'' : run fl s s' -> run fl' s' s'' -> run (fl || fl') s s''.
  Proof.
    intros H H'. induction H' as [s'|f1 f2 s' s1 s2 H' IH Hs]; [rewrite orb_false_r; exact H|].
    rewrite orb_assoc. eapply run_step; [apply IH; exact H|exact Hs].
  Qed.
  Lemma one fl s s' : step fl s s' -> run fl s s'.
  Proof. intros H. replace fl with (false || fl) by reflexivity. eapply run_step; [apply run_refl|exact H]. Qed.
  Lemma write_all r l c : run false (PWrite r l, Some c) (PWrite [] l, Some (c ++ r)).
  Proof.
    destruct r as [|x r]; [rewrite app_nil_r; apply run_refl|]. apply one.
    replace (x :: r) with ((x :: r) ++ []) at 1 by apply app_nil_r. apply st_write. discriminate.
  Qed.

  (** C81 EXPECTED, refuted for every compressed file of which Close writes a part: the disk is full, success is
      reported, and the file holds an incomplete stream. *)
  Theorem C81_success_refuted : forall old b,
    gz = true -> marshal = Some b -> (early b < length (zip b))%nat ->
    exists c, run true (PStart, old) (PEnd true, Some c) /\ c <> contents b /\ prefix c (contents b).
  Proof.
    intros old b Hg Hm He. exists (firstn (early b) (zip b)). split; [|split].
    - change true with (false || true). eapply run_step; [|apply (st_close_fail _ _ _ _ _ (by_close gz zip early b))].
      change false with (false || false). eapply run_step; [|apply st_written].
      replace (firstn (early b) (zip b)) with ([] ++ by_write gz zip early b) by (unfold by_write; rewrite Hg; reflexivity).
      change false with (false || false). eapply trans; [|apply write_all].
      change false with (false || false). eapply run_step; [|apply st_marshal; exact Hm].
      apply C56_crash_refuted.
    - unfold contents. rewrite Hg. intros C. apply (f_equal (@length Z)) in C. rewrite firstn_length in C. lia.
    - unfold contents. rewrite Hg. exists (skipn (early b) (zip b)). symmetry. apply firstn_skipn.
  Qed.
End Save.

Print Assumptions C56_crash_partial.
Print Assumptions C56_completed.
Print Assumptions C56_crash_refuted.
Print Assumptions C56_next_start.
Print Assumptions C81_success_partial.
Print Assumptions C81_success_refuted.

(** The hypotheses are met: a save that completes. *)
Lemma completes gz zip early b old : run gz (Some b) zip early false (PStart, old) (PEnd true, Some (contents gz zip b)).
Proof.
  rewrite <- (parts gz zip early b). apply (trans _ _ _ _ false false) with (s' := (PClose (by_close gz zip early b) true, Some (by_write gz zip early b))).
  - apply (run_step _ _ _ _ false false) with (s' := (PWrite [] (by_close gz zip early b), Some (by_write gz zip early b))); [|apply st_written].
    apply (trans _ _ _ _ false false) with (s' := (PWrite (by_write gz zip early b) (by_close gz zip early b), Some [])); [|apply (write_all _ _ _ _ _ _ [])].
    apply (run_step _ _ _ _ false false) with (s' := (POpen, Some [])); [apply C56_crash_refuted|apply st_marshal; reflexivity].
  - apply (run_step _ _ _ _ false false) with (s' := (PClose [] true, Some (by_write gz zip early b ++ by_close gz zip early b))); [|apply st_closed].
    destruct (by_close gz zip early b) as [|x r]; [rewrite app_nil_r; apply run_refl|]. apply one.
    replace (x :: r) with ((x :: r) ++ []) at 1 by apply app_nil_r. apply st_close. discriminate.
Qed.
Example ex56 : run true (Some (bs "{}")) (fun x => 31 :: x ++ [0]) (fun _ => 1%nat) false (PStart, Some (bs "old")) (PEnd true, Some (31 :: bs "{}" ++ [0])).
Proof. exact (completes true (fun x => 31 :: x ++ [0]) (fun _ => 1%nat) (bs "{}") _). Qed.
(** gzip.NewWriter passes nothing of a short text on before Close. *)
Example ex81 : exists c, run true (Some (bs "{}")) (fun x => 31 :: x ++ [0]) (fun _ => 0%nat) true (PStart, Some (bs "old")) (PEnd true, Some c) /\ c <> contents true (fun x => 31 :: x ++ [0]) (bs "{}") /\ prefix c (contents true (fun x => 31 :: x ++ [0]) (bs "{}")).
Proof. apply C81_success_refuted; [reflexivity|reflexivity|cbn; lia]. Qed.
