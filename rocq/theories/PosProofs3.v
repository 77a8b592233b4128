(** * PosProofs3: loading a file that has an error. *)
From Verif Require Import Base Utf8 Dec PriceModel BookModel AccumModel LoaderModel LoaderSpec LoaderProofs LoaderProofs4 LoaderProofs5 PosModel PosSpec PosProofs PosProofs2.
From Coq Require Import ZifyBool ZifyNat Zify.
Ltac Zify.zify_post_hook ::= idtac.

Section L.
  Variables (is_letter is_udigit : Z -> bool) (to_upper : Z -> Z).
  Variable ord : list (str * Qc) -> list str.
  Variable resolve : str -> str -> str.
  Notation p_step := (p_step is_letter is_udigit to_upper ord).
  Notation p_round := (p_round is_letter is_udigit to_upper ord).
  Notation pos_loop := (pos_loop is_letter is_udigit to_upper ord resolve).
  Notation include_at := (include_at to_upper).

  Lemma p_step_progress b nm r b' nm' i s : ch (rest r) <> 0 -> p_step b nm r = POk ((b', nm', i), s) ->
    (exists e, e <> [] /\ rest r = e ++ rest s) /\ (forall name, i = Some name -> exists l1, suf l1 (rest r) /\ include_at l1 name).
  Proof.
    intros Hc E. pose proof (er_step is_letter is_udigit to_upper ord b nm r) as H. rewrite E in H. destruct H as (t & Ht & Et).
    pose proof (step_progress is_letter is_udigit to_upper ord b nm (rest r) t Hc Ht) as P. destruct t as [b1 nm1 l1|nm0 b1 nm1 l1]; cbn [of_todo] in Et; injection Et as -> -> <- ->.
    - destruct P as [(e & Ne & He) _]. split; [exists e; auto|]. discriminate.
    - destruct P as ((e & Ne & He) & _ & _ & l2 & Hl & Hi). split; [exists e; auto|]. intros name [= <-]. exists l2. auto.
  Qed.

  (** An error at a position is raised at some reader state [s] of this file, or in an included file. *)
  Lemma loop_at rec f : forall fuel b nm r d g rw cl m bx, inv d r -> pos_loop rec f fuel b nm r = PFErr (At g rw cl m) bx ->
    (exists e s, rest r = e ++ rest s /\ inv (d ++ e) s /\ says m (d ++ e) (ch (rest s)) /\ g = f /\ rw = row s /\ cl = col s) \/
    (exists b' nm' l1 name, suf l1 (rest r) /\ include_at l1 name /\ rec b' (resolve f name) nm' = PFErr (At g rw cl m) bx).
  Proof.
    induction fuel as [|fuel IH]; intros b nm r d g rw cl m bx Hi H; [discriminate|]. cbn [PosModel.pos_loop] in H. destruct (Z.eqb_spec (ch (rest r)) eof) as [_|Hc]; [discriminate|].
    pose proof (tr_step is_letter is_udigit to_upper ord b nm d r Hi) as T. destruct (p_step b nm r) as [[[[b' nm'] i] s]|s m'|w|] eqn:E; try discriminate.
    - destruct T as (e & Er & Hs). destruct (p_step_progress _ _ _ _ _ _ _ Hc E) as [_ Hn].
      assert (K : forall b nm, pos_loop rec f fuel b nm s = PFErr (At g rw cl m) bx ->
        (exists e s, rest r = e ++ rest s /\ inv (d ++ e) s /\ says m (d ++ e) (ch (rest s)) /\ g = f /\ rw = row s /\ cl = col s) \/
        (exists b' nm' l1 name, suf l1 (rest r) /\ include_at l1 name /\ rec b' (resolve f name) nm' = PFErr (At g rw cl m) bx)).
      { intros b0 nm0 H0. destruct (IH _ _ _ _ _ _ _ _ _ Hs H0) as [(e' & s' & E' & Hi' & Hm & Hg)|(b1 & nm1 & l1 & name & Hl & Hr)].
        - left. exists (e ++ e'), s'. rewrite <- app_assoc, <- E'. rewrite <- app_assoc in Hi', Hm. auto.
        - right. exists b1, nm1, l1, name. split; [eapply suf_trans; [exact Hl|exists e; exact Er]|exact Hr]. }
      destruct i as [name|]; [|eapply K; exact H]. destruct (Hn name eq_refl) as (l1 & Hl & Hia).
      destruct (rec b' (resolve f name) nm') as [b2|er bz| |] eqn:Erec; try discriminate; [eapply K; exact H|].
      right. exists b', nm', l1, name. rewrite Erec. auto.
    - injection H as <- <- <- <- <-. left. destruct T as (e & Er & Hs & Hm). exists e, s. auto 8.
  Qed.

  (** Nothing after the character at the position matters. *)
  Lemma loop_local rec f : (forall b g nm rw cl m bx, rec b g nm <> PFErr (At f rw cl m) bx) ->
    forall fuel b nm u c v rw0 cl0 rw cl m d bx, pos_loop rec f fuel b nm (mkR (u ++ c :: v) rw0 cl0) = PFErr (At f rw cl m) bx ->
    inv d (mkR (u ++ c :: v) rw0 cl0) ->
    exists e s, u ++ c :: v = e ++ rest s /\ inv (d ++ e) s /\ says m (d ++ e) (ch (rest s)) /\ rw = row s /\ cl = col s /\
      ((exists u', rest s = u' ++ c :: v) -> forall v' fuel', (length (u ++ c :: v') < fuel')%nat -> pos_loop rec f fuel' b nm (mkR (u ++ c :: v') rw0 cl0) = PFErr (At f rw cl m) bx).
  Proof.
    intros Hrec. induction fuel as [|fuel IH]; intros b nm u c v rw0 cl0 rw cl m d bx H Hi; [discriminate|]. cbn [PosModel.pos_loop] in H. cbn [rest] in H.
    assert (Ech : forall v', ch (u ++ c :: v') = ch (u ++ c :: v)) by (intros; destruct u; reflexivity).
    destruct (Z.eqb_spec (ch (u ++ c :: v)) eof) as [_|Hc]; [discriminate|].
    pose proof (tr_step is_letter is_udigit to_upper ord b nm d _ Hi) as T. destruct (loc_step is_letter is_udigit to_upper ord b nm) as [_ L].
    destruct (p_step b nm (mkR (u ++ c :: v) rw0 cl0)) as [[[[b' nm'] i] s]|s m'|w|] eqn:E; try discriminate.
    - destruct T as (e & Er & Hs). cbn [rest] in Er. destruct (p_step_progress _ _ (mkR (u ++ c :: v) rw0 cl0) _ _ _ _ Hc E) as [(e0 & Ne & He0) Hn]. cbn [rest] in He0.
      (* the rest of the run *)
      assert (K : forall b2 nm2, pos_loop rec f fuel b2 nm2 s = PFErr (At f rw cl m) bx ->
        exists e s2, u ++ c :: v = e ++ rest s2 /\ inv (d ++ e) s2 /\ says m (d ++ e) (ch (rest s2)) /\ rw = row s2 /\ cl = col s2 /\
        ((exists u', rest s2 = u' ++ c :: v) -> forall v', exists u1, p_step b nm (mkR (u ++ c :: v') rw0 cl0) = POk ((b', nm', i), mkR (u1 ++ c :: v') (row s) (col s)) /\ (length u1 < length u)%nat /\
           forall fuel', (length (u1 ++ c :: v') < fuel')%nat -> pos_loop rec f fuel' b2 nm2 (mkR (u1 ++ c :: v') (row s) (col s)) = PFErr (At f rw cl m) bx)).
      { intros b2 nm2 H2. destruct (loop_at rec f _ _ _ _ _ _ _ _ _ _ Hs H2) as [(e1 & s1 & E1 & Hi1 & Hm1 & _ & -> & ->)|(b1 & nm1 & l1 & name & _ & _ & Hr)]; [|exfalso; eapply Hrec; exact Hr].
        (* is c still ahead of s? *)
        destruct (Nat.leb_spec (length (rest s)) (length v)) as [G|G].
        - exists (e ++ e1), s1. rewrite <- app_assoc, <- E1. rewrite <- app_assoc in Hi1, Hm1. repeat split; try assumption.
          intros (u' & Eu). exfalso. rewrite E1, Eu in G. rewrite !app_length in G. cbn [length] in G. lia.
        - pose proof (L c v v u rw0 cl0) as L0. rewrite E in L0. destruct L0 as [(u1 & Eu1 & _)|G']; [|lia]. destruct s as [ls rs cs]. cbn [rest row col] in *. clear E1. subst ls.
          destruct (IH b2 nm2 u1 c v rs cs (row s1) (col s1) m (d ++ e) bx H2 Hs) as (e2 & s2 & E2 & Hi2 & Hm2 & Hr2 & Hc2 & F).
          exists (e ++ e2), s2. rewrite <- app_assoc, <- E2. rewrite <- app_assoc in Hi2, Hm2. repeat split; try assumption.
          intros Hx v'. specialize (L c v v' u rw0 cl0). rewrite E in L. destruct L as [(u1' & Eu1' & Ep)|G']; [|cbn [rest] in G'; lia]. cbn [rest row col] in *.
          apply app_inv_tail in Eu1'. subst u1'. exists u1. split; [exact Ep|]. split.
          + destruct e0 as [|x e0]; [congruence|]. apply (f_equal (@length Z)) in He0. rewrite ?app_length in He0. cbn [length] in He0. rewrite ?app_length in He0. cbn [length] in He0. lia.
          + intros fuel' Hf. apply F; [exact Hx|exact Hf]. }
      assert (Hgo : exists b2, pos_loop rec f fuel b2 nm' s = PFErr (At f rw cl m) bx /\ (match i with None => b2 = b' | Some name => rec b' (resolve f name) nm' = PFOk b2 end)).
      { destruct i as [name|]; [|exists b'; auto]. destruct (rec b' (resolve f name) nm') as [b2|er bz| |] eqn:Erec; try discriminate; [exists b2; auto|]. exfalso. injection H as -> ->. eapply Hrec. exact Erec. }
      destruct Hgo as (b2 & H2 & Hb2). destruct (K b2 nm' H2) as (e1 & s2 & P1 & P2 & P3 & P4 & P5 & F). exists e1, s2. repeat split; try assumption.
      intros Hx v' fuel' Hf. destruct (F Hx v') as (u1 & Ep & Hlt & F'). destruct fuel' as [|fuel']; [lia|]. cbn [PosModel.pos_loop rest]. rewrite Ech. destruct (Z.eqb_spec (ch (u ++ c :: v)) eof) as [Z|_]; [contradiction|].
      rewrite Ep. assert (Hf' : (length (u1 ++ c :: v') < fuel')%nat) by (rewrite app_length in *; lia).
      destruct i as [name|]; [rewrite Hb2|subst b2]; apply F'; exact Hf'.
    - injection H as <- <- <- <-. destruct T as (e & Er & Hs & Hm). exists e, s. repeat split; try assumption. intros (u' & Eu) v' fuel' Hf. destruct fuel' as [|fuel']; [lia|].
      cbn [PosModel.pos_loop rest]. rewrite Ech. destruct (Z.eqb_spec (ch (u ++ c :: v)) eof) as [Z|_]; [contradiction|].
      specialize (L c v v' u rw0 cl0). rewrite E in L. destruct L as [(u2 & Eu2 & Ep)|G']; [|exfalso; rewrite Eu, app_length in G'; cbn [length] in G'; lia]. rewrite Ep. reflexivity.
  Qed.

  (** The lines before the position are in order. *)
  Hypothesis Huni : unicode_ok is_letter is_udigit to_upper.
  Lemma loop_before rec f : (forall b g nm rw cl m bx, rec b g nm <> PFErr (At f rw cl m) bx) ->
    forall fuel b nm r d rw cl m bx, inv d r -> pos_loop rec f fuel b nm r = PFErr (At f rw cl m) bx ->
    exists e s, rest r = e ++ rest s /\ inv (d ++ e) s /\ says m (d ++ e) (ch (rest s)) /\ rw = row s /\ cl = col s /\
      forall x cur, e = x ++ [10] ++ cur -> forall fuel', (length (x ++ [10%Z]) < fuel')%nat -> exists b', pos_loop rec f fuel' b nm (mkR (x ++ [10]) (row r) (col r)) = PFOk b'.
  Proof.
    assert (Hi10 : is_letter 10 = false /\ is_udigit 10 = false) by (apply (proj2 Huni); reflexivity). destruct Hi10 as [Hl10 Hd10].
    intros Hrec. induction fuel as [|fuel IH]; intros b nm r d rw cl m bx Hi H; [discriminate|]. cbn [PosModel.pos_loop] in H.
    destruct (Z.eqb_spec (ch (rest r)) eof) as [_|Hc]; [discriminate|].
    pose proof (tr_step is_letter is_udigit to_upper ord b nm d r Hi) as T. pose proof (lin_round is_letter is_udigit to_upper ord b nm Hl10 Hd10) as Ln.
    destruct (p_step b nm r) as [[[[b' nm'] i] s]|s m'|w|] eqn:E; try discriminate.
    - destruct T as (e1 & Er & Hs). destruct (p_step_progress _ _ _ _ _ _ _ Hc E) as [(e0 & Ne & He0) Hn].
      assert (e0 = e1) by (rewrite Er in He0; apply app_inv_tail in He0; congruence). subst e0.
      assert (Hgo : exists b2, pos_loop rec f fuel b2 nm' s = PFErr (At f rw cl m) bx /\ (match i with None => b2 = b' | Some name => rec b' (resolve f name) nm' = PFOk b2 end)).
      { destruct i as [name|]; [|exists b'; auto]. destruct (rec b' (resolve f name) nm') as [b2|er bz| |] eqn:Erec; try discriminate; [exists b2; auto|]. exfalso. injection H as -> ->. eapply Hrec. exact Erec. }
      destruct Hgo as (b2 & H2 & Hb2). destruct (IH _ _ _ _ _ _ _ _ Hs H2) as (e2 & s2 & E2 & P2 & P3 & P4 & P5 & F).
      exists (e1 ++ e2), s2. rewrite <- app_assoc, <- E2. rewrite <- app_assoc in P2, P3. repeat split; try assumption.
      intros x cur Ex fuel' Hf. destruct fuel' as [|fuel']; [lia|]. cbn [PosModel.pos_loop rest].
      destruct r as [lr rwr clr]. cbn [rest row col] in *.
      assert (Elr : lr = x ++ 10 :: (cur ++ rest s2)). { rewrite Er, E2, app_assoc, Ex, <- !app_assoc. reflexivity. }
      assert (Ech : ch (x ++ [10]) = ch lr) by (rewrite Elr; destruct x; reflexivity). rewrite Ech. destruct (Z.eqb_spec (ch lr) eof) as [Z|_]; [contradiction|].
      (* the round on the shortened text *)
      unfold PosModel.p_step, bind in E. specialize (Ln x (cur ++ rest s2) rwr clr). rewrite <- Elr in Ln.
      destruct (p_round b nm (mkR lr rwr clr)) as [[[y nl] s1]| | |] eqn:E1; try discriminate E. destruct Ln as (u1 & Eu1 & Ln). specialize (Ln []).
      assert (Hstep : exists s', p_step b nm (mkR (x ++ [10]) rwr clr) = POk ((b', nm', i), s') /\ (rest s' = [] \/ exists x1, rest s' = x1 ++ [10] /\ row s' = row s /\ col s' = col s /\ rest s = x1 ++ [10] ++ cur ++ rest s2 /\ (length x1 < length x)%nat)).
      { unfold PosModel.p_step, bind. rewrite Ln. destruct nl.
        - unfold accept in E. rewrite Eu1 in E. unfold accept. cbn [rest]. destruct u1 as [|z u1]; cbn [app ch] in E |- *.
          + change (10 =? eol) with true in *. cbv iota in *. unfold ret in *. injection E as -> <-. eexists. split; [reflexivity|]. left. rewrite rest_rnext. reflexivity.
          + destruct (z =? eol) eqn:Ez; unfold ret in *; injection E as -> <-.
            * destruct s1 as [l1 rr1 cc1]. cbn [rest row col] in *. subst l1. cbn [app] in *. pose proof (rnext_same 10 (cur ++ rest s2) [] z u1 rr1 cc1) as [R1 R2]. eexists. split; [rewrite R2; reflexivity|].
              right. exists u1. cbn [rest row col]. rewrite R1. repeat split.
              apply (f_equal (@length Z)) in Er. rewrite R1, Elr in Er. rewrite ?app_length in Er. cbn [length] in Er. destruct e1; [congruence|]. cbn [length] in Er. lia.
            * eexists. split; [reflexivity|]. right. exists (z :: u1). cbn [rest row col app]. repeat split; [exact Eu1|].
              apply (f_equal (@length Z)) in Er. rewrite Eu1, Elr in Er. rewrite ?app_length in Er. cbn [length] in Er. rewrite ?app_length in Er. cbn [length] in Er. destruct e1; [congruence|]. cbn [length] in Er |- *. lia.
        - unfold ret in *. injection E as -> <-. eexists. split; [reflexivity|]. right. exists u1. cbn [rest row col]. repeat split; [exact Eu1|].
          apply (f_equal (@length Z)) in Er. rewrite Eu1, Elr in Er. rewrite ?app_length in Er. cbn [length] in Er. destruct e1; [congruence|]. cbn [length] in Er. rewrite ?app_length in Er. cbn [length] in Er. lia. }
      destruct Hstep as (s' & -> & Hs').
      assert (Hend : exists b3, pos_loop rec f fuel' b2 nm' s' = PFOk b3).
      { destruct Hs' as [Hs'|(x1 & Hx1 & Hrow & Hcol & Hrest & Hlen)].
        - destruct fuel' as [|fuel']; [rewrite app_length in Hf; cbn [length] in Hf; lia|]. cbn [PosModel.pos_loop]. rewrite Hs'. cbn [ch]. change (0 =? eof) with true. cbv iota. exists b2. reflexivity.
        - assert (Ee2 : e2 = x1 ++ [10] ++ cur). { rewrite E2 in Hrest. rewrite !app_assoc in Hrest. apply app_inv_tail in Hrest. rewrite Hrest, <- app_assoc. reflexivity. }
          assert (Hl : (length (x1 ++ [10%Z]) < fuel')%nat) by (rewrite app_length in *; cbn [length] in *; lia).
          destruct (F x1 cur Ee2 fuel' Hl) as (b3 & Hb3). exists b3. destruct s' as [ls' rs' cs']. cbn [rest row col] in *. subst. exact Hb3. }
      destruct Hend as (b3 & Hb3). exists b3. destruct i as [name|]; [rewrite Hb2|subst b2]; exact Hb3.
    - injection H as <- <- <- <-. destruct T as (e & Er & Hs & Hm). exists e, s. repeat split; try assumption. intros x cur Ex. exfalso.
      destruct r as [lr rwr clr]. cbn [rest] in *. assert (Elr : lr = x ++ 10 :: (cur ++ rest s)) by (rewrite Er, Ex, <- !app_assoc; reflexivity).
      unfold PosModel.p_step, bind in E. specialize (Ln x (cur ++ rest s) rwr clr). rewrite <- Elr in Ln.
      destruct (p_round b nm (mkR lr rwr clr)) as [[[y nl] s1]|s1 m1|w|]; try discriminate E.
      + destruct nl; unfold accept in E; [destruct (ch (rest s1) =? eol)|]; discriminate E.
      + injection E as -> ->. destruct Ln as (u1 & Eu1). apply (f_equal (@length Z)) in Eu1. rewrite app_length in Eu1. cbn [length] in Eu1. rewrite app_length in Eu1. lia.
  Qed.
End L.
