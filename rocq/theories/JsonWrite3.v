(** * JsonWrite3: indentation only adds white space (C98). *)
From Coq Require Import ZifyBool.
From Verif Require Import Base Dec Utf8 LoaderModel LoaderSpec ExportModel ExportSpec ConvertModel ConvertSpec ConvertProps F64Model F64Spec F64Proofs JsonModel JsonSpec JsonNum JsonWrite JsonWrite2.

Section Indent.
  Variable short : bool.
  Lemma compact_text j : forall n, json_text short j = gtext short (fun _ => []) [] n j.
  Proof.
    induction j as [|b|q|s|l IH|m IH] using json_ind'; intros n; try reflexivity.
    - destruct l as [|x l]; [reflexivity|]. cbn [json_text gtext app]. f_equal. f_equal. revert x IH. induction l as [|y l IHl]; intros x IH; apply Forall_cons_iff in IH as [I1 I2]; cbn [map commas joined]; [apply I1|].
      rewrite (I1 (S n)). f_equal. f_equal. exact (IHl y I2).
    - destruct m as [|x m]; [reflexivity|]. cbn [json_text gtext app]. f_equal. f_equal. revert x IH. induction m as [|y m IHm]; intros x IH; apply Forall_cons_iff in IH as [I1 I2]; cbn [map commas joined]; [rewrite (I1 (S n)); reflexivity|].
      rewrite (I1 (S n)). f_equal. f_equal. exact (IHm y I2).
  Qed.

  Variable tab : str.
  Definition safe (c : Z) : Prop := c <> 34 /\ c <> 92.
  Lemma in_str need n s r : Forall safe s -> indent tab InStr need n (s ++ r) = s ++ indent tab InStr need n r.
  Proof. induction 1 as [|c s [H1 H2] _ IH]; [reflexivity|]. cbn [app indent]. destruct (Z.eqb_spec c 34); [contradiction|]. destruct (Z.eqb_spec c 92); [contradiction|]. f_equal. exact IH. Qed.
  Lemma in_escape need n c s r : Forall safe s -> indent tab InStr need n ((92 :: c :: s) ++ r) = (92 :: c :: s) ++ indent tab InStr need n r.
  Proof. intros H. cbn [app indent]. rewrite in_str by exact H. reflexivity. Qed.
  Lemma hex_safe d : 0 <= d < 16 -> safe (hex_char d).
  Proof. intros H. unfold hex_char, safe. destruct (Z.ltb_spec d 10); lia. Qed.
  Lemma enc_safe r : scalar r -> 128 <= r -> Forall safe (enc r).
  Proof.
    intros H L. destruct (enc_cases r H) as [[? _]|[[B ->]|[[B ->]|[B ->]]]]; [lia| | |]; repeat constructor; try (intros E); try lia; pose proof (Z.mod_pos_bound r 64); pose proof (Z.mod_pos_bound (r / 64) 64); pose proof (Z.mod_pos_bound (r / 4096) 64); pose proof (Z.div_pos r 64); pose proof (Z.div_pos r 4096); pose proof (Z.div_pos r 262144); lia.
  Qed.
  Lemma in_rune need n o r : match o with Some r => scalar r | None => True end -> indent tab InStr need n (escape short o ++ r) = escape short o ++ indent tab InStr need n r.
  Proof.
    destruct o as [c|]; intros Hc; cbn [escape]. 2: { apply in_escape. repeat constructor; discriminate. }
    destruct (Z.ltb_spec c 128) as [L|L].
    - assert (C0 : 0 <= c) by (unfold scalar in Hc; lia). repeat match goal with |- context [if ?b then _ else _] => let E := fresh "E" in destruct b eqn:E end; try solve [apply in_escape; constructor].
      + apply in_escape. assert (A : 0 <= c / 16 < 16) by (split; [apply Z.div_pos; lia|apply Z.div_lt_upper_bound; lia]). pose proof (Z.mod_pos_bound c 16 ltac:(lia)) as B.
        repeat constructor; try discriminate; apply hex_safe; assumption.
      + apply in_str. constructor; [unfold safe; lia|constructor].
    - destruct (_ || _) eqn:E; [|apply in_str, enc_safe; assumption]. apply in_escape. pose proof (Z.mod_pos_bound c 16 ltac:(lia)) as B. repeat constructor; try discriminate; apply hex_safe; assumption.
  Qed.
  Lemma plain_quote need n s r : is_bytes s -> indent tab Plain need n (quote short s ++ r) = (if need then newline tab (S n) else []) ++ quote short s ++ indent tab Plain false (if need then S n else n) r.
  Proof.
    intros Hs. destruct (decode_opt_ok s) as [_ F]. specialize (F Hs). unfold quote. rewrite <- !app_assoc. cbn [app indent json_space opens closes Z.eqb orb andb negb Pos.eqb].
    assert (G : forall k, indent tab InStr false k (flat_map (escape short) (decode_opt s) ++ 34 :: r) = flat_map (escape short) (decode_opt s) ++ 34 :: indent tab Plain false k r).
    { intros k. induction F as [|o l Ho _ IH]; [reflexivity|]. cbn [flat_map]. rewrite <- !app_assoc, in_rune by exact Ho. rewrite IH. reflexivity. }
    destruct need; cbn [andb negb]; rewrite G; reflexivity.
  Qed.
  Lemma need_first c l n : json_space c = false -> closes c = false -> indent tab Plain true n (c :: l) = newline tab (S n) ++ indent tab Plain false (S n) (c :: l).
  Proof. intros H1 H2. cbn [indent]. rewrite H1, H2. reflexivity. Qed.
  Definition plain_char (c : Z) : Prop := json_space c = false /\ opens c = false /\ closes c = false /\ c <> 44 /\ c <> 58 /\ c <> 34.
  Lemma plain_run n s r : Forall plain_char s -> indent tab Plain false n (s ++ r) = s ++ indent tab Plain false n r.
  Proof.
    induction 1 as [|c s (H1 & H2 & H3 & H4 & H5 & H6) _ IH]; [reflexivity|]. cbn [app indent andb]. rewrite H1, H2, H3. destruct (Z.eqb_spec c 44); [contradiction|]. destruct (Z.eqb_spec c 58); [contradiction|]. destruct (Z.eqb_spec c 34); [contradiction|]. cbn [app]. rewrite IH. reflexivity.
  Qed.
  Lemma number_plain t q : number t q -> Forall plain_char t.
  Proof.
    assert (Pc : forall c, (48 <= c <= 57 \/ c = 43 \/ c = 45 \/ c = 46 \/ c = 101 \/ c = 69) -> plain_char c) by (intros c H; unfold plain_char, json_space, opens, closes; lia).
    assert (Dg : forall l, digits l -> Forall plain_char l) by (intros l; apply Forall_impl; intros; apply Pc; lia).
    intros [sg i ft f et x n v Hi Hf He _ Hs]. rewrite !Forall_app. repeat split.
    - destruct Hs as [[-> _]|[-> _]]; repeat constructor; apply Pc; lia.
    - destruct Hi as [->|(_ & _ & Hd)]; [repeat constructor; apply Pc; lia|apply Dg, Hd].
    - destruct Hf as [|f0 _ Hd]; [constructor|]. constructor; [apply Pc; lia|apply Dg, Hd].
    - destruct He as [|e s1 ds n' x' H1 _ Hd _ H2]; [constructor|]. constructor; [apply Pc; lia|]. apply Forall_app. split; [|apply Dg, Hd].
      destruct H2 as [[[-> | ->] _]|[-> _]]; repeat constructor; apply Pc; lia.
  Qed.
  Lemma number_nonempty t q : number t q -> t <> [].
  Proof. intros [sg i ft f et x n v Hi Hf He _ Hs] E. apply app_eq_nil in E as [_ E]. apply app_eq_nil in E as [E _]. destruct Hi as [->|(_ & H & _)]; [discriminate|contradiction]. Qed.
  (** a value begins with a character that is neither white space nor a closing bracket *)
  Lemma json_first j : all_numbers float64 j -> exists c l, json_text short j = c :: l /\ json_space c = false /\ closes c = false.
  Proof.
    destruct j as [|[|]|q|s|l|m]; intros Hf; try (eexists; eexists; split; [reflexivity|split; reflexivity]).
    cbn [json_text]. inversion Hf as [| |? F1| | |]; subst. destruct (num_text_number q F1) as [N _]. pose proof (number_plain _ _ N) as P. pose proof (number_nonempty _ _ N) as Ne. destruct (num_text q) as [|c l]; [congruence|]. inversion P as [|? ? (H1 & _ & H2 & _)]; subst. eauto 6.
  Qed.
  Lemma indent_value j : all_strings is_bytes j -> all_numbers float64 j -> forall n r, indent tab Plain false n (json_text short j ++ r) = gtext short (newline tab) [32] n j ++ indent tab Plain false n r.
  Proof.
    assert (Pc : forall c, 97 <= c <= 122 -> plain_char c) by (intros c H; unfold plain_char, json_space, opens, closes; lia).
    induction j as [|b|q|s|l IH|m IH] using json_ind'; intros Hs Hf n r.
    - apply plain_run. apply Forall_forall. intros c H. apply Pc. vm_compute in H. lia.
    - destruct b; apply plain_run; apply Forall_forall; intros c H; apply Pc; vm_compute in H; lia.
    - cbn [json_text gtext]. inversion Hf as [| |? F1| | |]; subst. destruct (num_text_number q F1) as [N _]. apply plain_run. exact (number_plain _ _ N).
    - inversion Hs as [| | |? B| |]; subst. exact (plain_quote false n s r B).
    - inversion Hs as [| | | |? Bl|]; subst. inversion Hf as [| | | |? Fl|]; subst. clear Hs Hf. destruct l as [|x l]; [reflexivity|].
      cbn [json_text]. rewrite <- !app_assoc. change (gtext short (newline tab) [32] n (JArr (x :: l))) with ([91] ++ newline tab (S n) ++ joined (newline tab (S n)) (map (gtext short (newline tab) [32] (S n)) (x :: l)) ++ newline tab n ++ [93]).
      assert (G : indent tab Plain false (S n) (commas (map (json_text short) (x :: l)) ++ [93] ++ r) = joined (newline tab (S n)) (map (gtext short (newline tab) [32] (S n)) (x :: l)) ++ newline tab n ++ [93] ++ indent tab Plain false n r).
      { revert x Bl Fl IH. induction l as [|y l IHl]; intros x Bl Fl IH; apply Forall_cons_iff in Bl as [B1 B2]; apply Forall_cons_iff in Fl as [F1 F2]; apply Forall_cons_iff in IH as [I1 I2]; cbn [map].
        - cbn [commas joined]. rewrite (I1 B1 F1). f_equal.
        - change (commas (json_text short x :: json_text short y :: map (json_text short) l)) with (json_text short x ++ [44] ++ commas (json_text short y :: map (json_text short) l)).
          change (joined (newline tab (S n)) (gtext short (newline tab) [32] (S n) x :: gtext short (newline tab) [32] (S n) y :: map (gtext short (newline tab) [32] (S n)) l)) with (gtext short (newline tab) [32] (S n) x ++ [44] ++ newline tab (S n) ++ joined (newline tab (S n)) (gtext short (newline tab) [32] (S n) y :: map (gtext short (newline tab) [32] (S n)) l)).
          rewrite <- !app_assoc, (I1 B1 F1). f_equal. specialize (IHl y B2 F2 I2). cbn [map] in IHl. cbn [app]. cbn [indent json_space opens closes Z.eqb Pos.eqb orb andb negb app]. cbn [app] in IHl. rewrite IHl. reflexivity. }
      cbn [app indent json_space opens closes Z.eqb Pos.eqb orb andb negb]. f_equal.
      apply Forall_cons_iff in Fl as [F1 _]. destruct (json_first x F1) as (c & t & E & C1 & C2).
      assert (Ec : exists t', commas (map (json_text short) (x :: l)) ++ 93 :: r = c :: t') by (cbn [map]; rewrite E; destruct (map (json_text short) l); cbn [commas app]; eauto). destruct Ec as [t' Ec].
      cbn [app] in G. rewrite Ec in *. rewrite need_first by assumption. rewrite G. rewrite <- !app_assoc. reflexivity.
    - inversion Hs as [| | | | |? Bl]; subst. inversion Hf as [| | | | |? Fl]; subst. clear Hs Hf. destruct m as [|x m]; [reflexivity|].
      cbn [json_text]. set (pc := fun kv : str * json => quote short (fst kv) ++ [58] ++ json_text short (snd kv)). set (pr := fun kv : str * json => quote short (fst kv) ++ [58] ++ [32] ++ gtext short (newline tab) [32] (S n) (snd kv)).
      rewrite <- !app_assoc. change (gtext short (newline tab) [32] n (JObj (x :: m))) with ([123] ++ newline tab (S n) ++ joined (newline tab (S n)) (map pr (x :: m)) ++ newline tab n ++ [125]).
      assert (One : forall x r, is_bytes (fst x) -> (forall n r, indent tab Plain false n (json_text short (snd x) ++ r) = gtext short (newline tab) [32] n (snd x) ++ indent tab Plain false n r) -> indent tab Plain false (S n) (pc x ++ r) = pr x ++ indent tab Plain false (S n) r).
      { intros y r' Hb Hy. unfold pc, pr. rewrite <- !app_assoc, plain_quote by exact Hb. cbn [app]. f_equal. cbn [indent json_space opens closes Z.eqb Pos.eqb orb andb negb app]. rewrite Hy. reflexivity. }
      assert (G : indent tab Plain false (S n) (commas (map pc (x :: m)) ++ [125] ++ r) = joined (newline tab (S n)) (map pr (x :: m)) ++ newline tab n ++ [125] ++ indent tab Plain false n r).
      { revert x Bl Fl IH. induction m as [|y m IHm]; intros x Bl Fl IH; apply Forall_cons_iff in Bl as [[B0 B1] B2]; apply Forall_cons_iff in Fl as [F1 F2]; apply Forall_cons_iff in IH as [I1 I2]; cbn [map].
        - cbn [commas joined]. rewrite One; [|exact B0|exact (I1 B1 F1)]. f_equal.
        - change (commas (pc x :: pc y :: map pc m)) with (pc x ++ [44] ++ commas (pc y :: map pc m)).
          change (joined (newline tab (S n)) (pr x :: pr y :: map pr m)) with (pr x ++ [44] ++ newline tab (S n) ++ joined (newline tab (S n)) (pr y :: map pr m)).
          rewrite <- !app_assoc, One; [|exact B0|exact (I1 B1 F1)]. f_equal. specialize (IHm y B2 F2 I2). cbn [map] in IHm. cbn [app]. cbn [indent json_space opens closes Z.eqb Pos.eqb orb andb negb app]. cbn [app] in IHm. rewrite IHm. reflexivity. }
      cbn [app indent json_space opens closes Z.eqb Pos.eqb orb andb negb]. f_equal.
      assert (Ec : exists t', commas (map pc (x :: m)) ++ 125 :: r = 34 :: t') by (cbn [map]; unfold pc at 1; unfold quote; destruct (map pc m); cbn [commas app]; eauto). destruct Ec as [t' Ec].
      cbn [app] in G. rewrite Ec in *. rewrite need_first by reflexivity. rewrite G. rewrite <- !app_assoc. reflexivity.
  Qed.
End Indent.
