(** * JsonWrite2: the text written for strings and values, with and without indentation (C98). *)
From Coq Require Import ZifyBool Lqa.
From Verif Require Import Base Dec Utf8 LoaderModel LoaderSpec ExportModel ExportSpec ExportProofs ConvertModel ConvertSpec ConvertProps F64Model F64Spec F64Proofs JsonModel JsonSpec JsonNum JsonWrite.

(** ** Texts *)
Lemma text_nil : is_text [] []. Proof. split; [reflexivity|constructor]. Qed.
Lemma text_app s t s' t' : is_text s t -> is_text s' t' -> is_text (s ++ s') (t ++ t').
Proof. intros [-> H1] [-> H2]. split; [symmetry; apply encode_app|apply Forall_app; split; assumption]. Qed.
Lemma text_ascii s : Forall (fun c => 0 <= c < 128) s -> is_text s s.
Proof.
  intros H. split; [|apply Forall_impl with (2 := H); intros c Hc; left; lia]. induction H as [|c s Hc _ IH]; [reflexivity|]. unfold encode in *. cbn [map concat]. rewrite <- IH.
  destruct (enc_cases c) as [[_ ->]|[[? _]|[[? _]|[? _]]]]; try lia; [left; lia|reflexivity].
Qed.
Lemma text_digits s q : number s q -> is_text s s.
Proof.
  assert (Dg : forall l, digits l -> Forall (fun c => 0 <= c < 128) l) by (intros l; apply Forall_impl; intros; lia).
  intros [sg i ft f et x n v Hi Hf He _ Hs]. apply text_ascii. rewrite !Forall_app. repeat split.
  - destruct Hs as [[-> _]|[-> _]]; repeat constructor; lia.
  - destruct Hi as [->|(_ & _ & Hd)]; [repeat constructor; lia|apply Dg, Hd].
  - destruct Hf as [|f0 _ Hd]; [constructor|]. constructor; [lia|apply Dg, Hd].
  - destruct He as [|e s1 ds n' x' H1 _ Hd _ H2]; [constructor|]. constructor; [lia|]. apply Forall_app. split; [|apply Dg, Hd].
    destruct H2 as [[[-> | ->] _]|[-> _]]; repeat constructor; lia.
Qed.

(** ** Strings *)
Definition or_error (o : option Z) : Z := match o with Some r => r | None => rune_error end.
Lemma decode_opt_ok : forall s, decode s = map or_error (decode_opt s) /\ (is_bytes s -> Forall (fun o => match o with Some r => scalar r | None => True end) (decode_opt s)).
Proof.
  assert (H : forall n s, (length s <= n)%nat -> decode s = map or_error (decode_opt s) /\ (is_bytes s -> Forall (fun o => match o with Some r => scalar r | None => True end) (decode_opt s))).
  2: { intros s. exact (H (length s) s (Nat.le_refl _)). }
  induction n as [|n IH]; intros [|b0 s1] Hn; try (split; [reflexivity|constructor]); [cbn [length] in Hn; lia|]. cbn [length] in Hn.
  assert (Hd : is_bytes (b0 :: s1) -> Forall scalar (decode (b0 :: s1))) by apply decode_scalar.
  destruct (IH s1 ltac:(lia)) as [I1 J1]. cbn [decode decode_opt] in *.
  assert (T : forall A (x : A), is_bytes (b0 :: s1) -> is_bytes s1) by (intros A x Hb; inversion Hb; assumption).
  destruct (b0 <? 128). { cbn [map or_error]. rewrite I1. split; [reflexivity|]. intros Hb. specialize (Hd Hb). inversion Hd; subst. constructor; [assumption|]. apply J1. inversion Hb; assumption. }
  destruct s1 as [|b1 s2]; [split; [reflexivity|repeat constructor]|]. cbn [length] in Hn. destruct (IH s2 ltac:(lia)) as [I2 J2].
  destruct (ok2 b0 b1). { cbn [map or_error]. rewrite I2. split; [reflexivity|]. intros Hb. specialize (Hd Hb). inversion Hd; subst. constructor; [assumption|]. apply J2. inversion Hb as [|? ? ? Hb']; subst. inversion Hb'; assumption. }
  destruct s2 as [|b2 s3]. { cbn [map or_error]. rewrite I1. split; [reflexivity|]. intros Hb. constructor; [exact I|]. apply J1. inversion Hb; assumption. }
  cbn [length] in Hn. destruct (IH s3 ltac:(lia)) as [I3 J3].
  destruct (ok3 b0 b1 b2). { cbn [map or_error]. rewrite I3. split; [reflexivity|]. intros Hb. specialize (Hd Hb). inversion Hd; subst. constructor; [assumption|]. apply J3. inversion Hb as [|? ? ? Hb']; subst. inversion Hb' as [|? ? ? Hb'']; subst. inversion Hb''; assumption. }
  destruct s3 as [|b3 s4]. { cbn [map or_error]. rewrite I1. split; [reflexivity|]. intros Hb. constructor; [exact I|]. apply J1. inversion Hb; assumption. }
  cbn [length] in Hn. destruct (IH s4 ltac:(lia)) as [I4 J4].
  destruct (ok4 b0 b1 b2 b3). { cbn [map or_error]. rewrite I4. split; [reflexivity|]. intros Hb. specialize (Hd Hb). inversion Hd; subst. constructor; [assumption|]. apply J4. inversion Hb as [|? ? ? Hb']; subst. inversion Hb' as [|? ? ? Hb'']; subst. inversion Hb'' as [|? ? ? H4]; subst. inversion H4; assumption. }
  cbn [map or_error]. rewrite I1. split; [reflexivity|]. intros Hb. constructor; [exact I|]. apply J1. inversion Hb; assumption.
Qed.
Lemma hex_char_ok d : 0 <= d < 16 -> hex (hex_char d) d /\ 0 <= hex_char d < 128.
Proof. intros H. unfold hex_char, hex. destruct (Z.ltb_spec d 10); lia. Qed.
Lemma unit16_of a b : 0 <= a < 16 -> 0 <= b < 16 -> unit16 (bs "\u00" ++ [hex_char a; hex_char b]) (16 * a + b).
Proof.
  intros Ha Hb. replace (16 * a + b) with (4096 * 0 + 256 * 0 + 16 * a + b) by lia. apply (unit16_hex 48 48 (hex_char a) (hex_char b)); try (apply hex_char_ok; assumption); left; lia.
Qed.
Section Write.
  Variable short : bool.
  (** one rune *)
  Lemma escape_ok o : match o with Some r => scalar r | None => True end ->
    exists t, is_text (escape short o) t /\ forall t' v, inside t' v -> inside (t ++ t') (or_error o :: v).
  Proof.
    destruct o as [r|]; intros Hr.
    2: { exists (bs "\ufffd"). split; [apply text_ascii; repeat constructor; lia|]. intros t' v H. cbn [or_error]. change rune_error with (4096 * 15 + 256 * 15 + 16 * 15 + 13). apply in_unit; [apply (unit16_hex 102 102 102 100); right; left; lia|unfold high; lia|unfold low; lia|exact H]. }
    cbn [escape or_error]. destruct (Z.ltb_spec r 128) as [L|L].
    - assert (R0 : 0 <= r) by (unfold scalar in Hr; lia).
      assert (Lt : forall e, In (e, r) letters -> 0 <= e < 128 -> exists t, is_text [92; e] t /\ forall t' v, inside t' v -> inside (t ++ t') (r :: v)).
      { intros e He H128. exists [92; e]. split; [apply text_ascii; repeat constructor; lia|]. intros t' v H. apply in_letter; assumption. }
      destruct ((r =? 92) || (r =? 34)) eqn:E1; [apply Lt; [|lia]; assert (D : r = 92 \/ r = 34) by lia; destruct D as [-> | ->]; cbn; tauto|].
      destruct (Z.eqb_spec r 10) as [->|N10]; [apply (Lt 110); [cbn; tauto|lia]|]. destruct (Z.eqb_spec r 13) as [->|N13]; [apply (Lt 114); [cbn; tauto|lia]|]. destruct (Z.eqb_spec r 9) as [->|N9]; [apply (Lt 116); [cbn; tauto|lia]|].
      destruct (short && (r =? 8)) eqn:E8; [apply (Lt 98); [assert (r = 8) by (destruct short; cbn in E8; lia); subst; cbn; tauto|lia]|].
      destruct (short && (r =? 12)) eqn:E12; [apply (Lt 102); [assert (r = 12) by (destruct short; cbn in E12; lia); subst; cbn; tauto|lia]|].
      destruct ((r <? 32) || (r =? 60) || (r =? 62) || (r =? 38)) eqn:E2.
      + assert (A : 0 <= r / 16 < 16) by (split; [apply Z.div_pos; lia|apply Z.div_lt_upper_bound; lia]). pose proof (Z.mod_pos_bound r 16 ltac:(lia)) as B.
        exists (bs "\u00" ++ [hex_char (r / 16); hex_char (r mod 16)]). split; [apply text_ascii; apply Forall_app; split; [repeat constructor; lia|]; repeat constructor; apply hex_char_ok; assumption|].
        intros t' v H. rewrite (Z.div_mod r 16) at 3 by lia. apply in_unit; [apply unit16_of; assumption|unfold high; lia|unfold low; lia|exact H].
      + exists [r]. split; [apply text_ascii; constructor; [lia|constructor]|]. intros t' v H. apply in_char; [lia|lia|lia|exact H].
    - destruct ((r =? 8232) || (r =? 8233)) eqn:E.
      + pose proof (Z.mod_pos_bound r 16 ltac:(lia)) as B. exists (bs "\u202" ++ [hex_char (r mod 16)]). split; [apply text_ascii; apply Forall_app; split; [repeat constructor; lia|]; repeat constructor; apply hex_char_ok; assumption|].
        intros t' v H. assert (D : r = 8232 \/ r = 8233) by lia. apply (in_unit (bs "\u202" ++ [hex_char (r mod 16)])); [|unfold high; lia|unfold low; lia|exact H].
        replace r with (4096 * 2 + 256 * 0 + 16 * 2 + r mod 16) at 2 by (destruct D as [-> | ->]; reflexivity). apply (unit16_hex 50 48 50 (hex_char (r mod 16))); try (left; lia). apply hex_char_ok. exact B.
      + exists [r]. split; [split; [unfold encode; cbn [map concat]; rewrite app_nil_r; reflexivity|constructor; [exact Hr|constructor]]|]. intros t' v H. apply in_char; [lia|lia|lia|exact H].
  Qed.
  Lemma quote_ok s : is_bytes s -> exists t, is_text (quote short s) ([34] ++ t ++ [34]) /\ inside t (decode s).
  Proof.
    intros Hs. destruct (decode_opt_ok s) as [E F]. specialize (F Hs). rewrite E. clear E.
    assert (G : exists t, is_text (flat_map (escape short) (decode_opt s)) t /\ inside t (map or_error (decode_opt s))).
    { induction F as [|o l Ho _ (t & T1 & T2)]; [exists []; split; [apply text_nil|constructor]|]. destruct (escape_ok o Ho) as (t0 & T3 & T4). exists (t0 ++ t). cbn [flat_map map]. split; [apply text_app; assumption|apply T4, T2]. }
    destruct G as (t & T1 & T2). exists t. split; [|exact T2]. unfold quote. repeat apply text_app; try exact T1; apply text_ascii; repeat constructor; lia.
  Qed.

  (** ** Values, with any white space where the indentation puts some *)
  Variable gap : nat -> str.
  Variable sp : str.
  Fixpoint joined (w : str) (l : list str) : str := match l with [] => [] | [s] => s | s :: l' => s ++ [44] ++ w ++ joined w l' end.
  Fixpoint gtext (n : nat) (j : json) : str :=
    match j with
    | JNull => bs "null"
    | JBool b => if b then bs "true" else bs "false"
    | JNum q => num_text q
    | JStr s => quote short s
    | JArr [] => bs "[]"
    | JArr l => [91] ++ gap (S n) ++ joined (gap (S n)) (map (gtext (S n)) l) ++ gap n ++ [93]
    | JObj [] => bs "{}"
    | JObj m => [123] ++ gap (S n) ++ joined (gap (S n)) (map (fun kv => quote short (fst kv) ++ [58] ++ sp ++ gtext (S n) (snd kv)) m) ++ gap n ++ [125]
    end.
  Hypothesis gap_ws : forall n, ws (gap n).
  Hypothesis sp_ws : ws sp.
  Lemma ws_text w : ws w -> is_text w w.
  Proof. intros H. apply text_ascii. apply Forall_impl with (2 := H). intros c Hc. lia. Qed.
  Lemma ws_nil : ws []. Proof. constructor. Qed.

  Lemma last_wins_self m : NoDup (map fst m) -> last_wins m m.
  Proof.
    intros H. split; [exact H|]. intros k. destruct (aget str_eqb k m) as [v|] eqn:E.
    - assert (Hr : NoDup (map fst (rev m))) by (rewrite map_rev; apply NoDup_rev; exact H). symmetry. apply aget_Some_iff; [apply str_eqb_eq|exact Hr|]. apply in_rev. rewrite rev_involutive. apply aget_Some_iff in E; [exact E|apply str_eqb_eq|exact H].
    - destruct (aget str_eqb k (rev m)) as [v|] eqn:E'; [exfalso|reflexivity]. apply aget_In in E'; [|apply str_eqb_eq]. apply in_rev in E'. apply (aget_Some_iff str_eqb str_eqb_eq) in E'; [congruence|exact H].
  Qed.
  (** numbers are read with [num]; what is read for a float64 is [g] of it *)
  Variable num : Qc -> Qc -> Prop.
  Variable g : Qc -> Qc.
  Definition good (q : Qc) : Prop := float64 q /\ num (written q) (g q).
  Fixpoint renumber (j : json) : json :=
    match j with
    | JNum q => JNum (g q)
    | JArr l => JArr (map renumber l)
    | JObj m => JObj (map (fun kv => (fst kv, renumber (snd kv))) m)
    | _ => j
    end.
  Notation seen j := (renumber (repaired j)).
  Lemma renumber_keys m : map fst (map (fun kv : str * json => (fst kv, renumber (snd kv))) m) = map fst m.
  Proof. rewrite map_map. apply map_ext. reflexivity. Qed.
  Lemma gtext_ok j : all_strings is_bytes j -> all_numbers good j -> map_like (repaired j) -> forall d n, (nesting j <= d)%nat -> exists t, is_text (gtext n j) t /\ value num d t (seen j).
  Proof.
    assert (Asc : forall s, Forall (fun c => 0 <= c < 128) s -> is_text s s) by apply text_ascii.
    induction j as [|b|q|s|l IH|m IH] using json_ind'; intros Hs Hf Hm d n Hd.
    - exists (bs "null"). split; [apply Asc; repeat constructor; lia|constructor].
    - cbn [gtext repaired renumber]. destruct b; eexists; (split; [apply Asc; repeat constructor; lia|constructor]).
    - inversion Hf as [| |? [F1 F2]| | |]; subst. destruct (num_text_number q F1) as [N _]. exists (num_text q). split; [apply (text_digits _ _ N)|]. cbn [repaired renumber]. apply v_num with (written q); assumption.
    - inversion Hs as [| | |? B| |]; subst. destruct (quote_ok s B) as (t & T1 & T2). exists ([34] ++ t ++ [34]). split; [exact T1|]. apply v_str. exact T2.
    - cbn [nesting] in Hd. destruct d as [|d]; [lia|]. inversion Hs as [| | | |? Bl|]; subst. inversion Hf as [| | | |? Fl|]; subst. cbn [repaired renumber] in *. inversion Hm as [| | | |? Ml|]; subst. clear Hs Hf Hm.
      destruct l as [|x l]. { exists (bs "[]"). split; [apply Asc; repeat constructor; lia|]. apply (v_no_elems num d []). constructor. }
      assert (G : forall w' w, ws w -> ws w' -> exists t, is_text (w' ++ joined w (map (gtext (S n)) (x :: l)) ++ gap n) t /\ elems num d t (map renumber (map repaired (x :: l)))).
      { intros w' w Hw. assert (Hd' : (list_max (map nesting (x :: l)) <= d)%nat) by lia. clear Hd. revert w' x Bl Fl Ml IH Hd'. induction l as [|y l IHl]; intros w' x Bl Fl Ml IH Hd Hw'; apply Forall_cons_iff in Bl as [B1 B2]; apply Forall_cons_iff in Fl as [F1 F2]; cbn [map] in Ml; apply Forall_cons_iff in Ml as [M1 M2]; apply Forall_cons_iff in IH as [I1 I2]; cbn [map list_max] in Hd; (destruct (I1 B1 F1 M1 d (S n)) as (t & T1 & T2); [unfold list_max in Hd; cbn [fold_right] in Hd; lia|]).
        - exists (w' ++ t ++ gap n). cbn [map joined]. split; [|apply e_last; auto]. repeat apply text_app; try assumption; apply ws_text; auto.
        - destruct (IHl w y B2 F2 M2 I2) as (t' & T3 & T4); [unfold list_max in *; cbn [fold_right map] in *; lia|exact Hw|]. exists (w' ++ t ++ [] ++ [44] ++ t'). cbn [map] in *. split; [|apply e_more; auto using ws_nil].
          change (joined w (gtext (S n) x :: gtext (S n) y :: map (gtext (S n)) l)) with (gtext (S n) x ++ [44] ++ w ++ joined w (gtext (S n) y :: map (gtext (S n)) l)).
          rewrite <- !app_assoc. apply text_app; [apply ws_text; exact Hw'|]. apply text_app; [exact T1|]. cbn [app]. apply (text_app [44] [44]); [apply Asc; repeat constructor; lia|exact T3]. }
      destruct (G (gap (S n)) (gap (S n)) (gap_ws _) (gap_ws _)) as (t & T1 & T2). exists ([91] ++ t ++ [93]). split; [|apply v_arr; exact T2].
      cbn [gtext]. cbn [map] in *.
      apply text_app; [apply Asc; repeat constructor; lia|].
      replace (gap (S n) ++ joined (gap (S n)) (gtext (S n) x :: map (gtext (S n)) l) ++ gap n ++ [93]) with ((gap (S n) ++ joined (gap (S n)) (gtext (S n) x :: map (gtext (S n)) l) ++ gap n) ++ [93]) by (rewrite <- !app_assoc; reflexivity).
      apply text_app; [exact T1|apply Asc; repeat constructor; lia].
    - cbn [nesting] in Hd. destruct d as [|d]; [lia|]. inversion Hs as [| | | | |? Bl]; subst. inversion Hf as [| | | | |? Fl]; subst. cbn [repaired renumber] in *. inversion Hm as [| | | | |? Nd Ml]; subst. clear Hs Hf Hm.
      destruct m as [|x m]. { exists (bs "{}"). split; [apply Asc; repeat constructor; lia|]. apply (v_no_members num d []). constructor. }
      set (rp := fun kv : str * json => (repair (fst kv), repaired (snd kv))) in *. set (rn := fun kv : str * json => (fst kv, renumber (snd kv))). set (pr := fun kv : str * json => quote short (fst kv) ++ [58] ++ sp ++ gtext (S n) (snd kv)).
      assert (G : forall w' w, ws w -> ws w' -> exists t, is_text (w' ++ joined w (map pr (x :: m)) ++ gap n) t /\ members num d t (map rn (map rp (x :: m)))).
      { intros w' w Hw. assert (Hd' : (list_max (map (fun kv => nesting (snd kv)) (x :: m)) <= d)%nat) by lia. clear Hd Nd. revert w' x Bl Fl Ml IH Hd'. induction m as [|y m IHm]; intros w' x Bl Fl Ml IH Hd Hw'; apply Forall_cons_iff in Bl as [[B0 B1] B2]; apply Forall_cons_iff in Fl as [F1 F2]; cbn [map] in Ml; apply Forall_cons_iff in Ml as [M1 M2]; apply Forall_cons_iff in IH as [I1 I2]; cbn [map list_max] in Hd; (destruct (I1 B1 F1 M1 d (S n)) as (t & T1 & T2); [unfold list_max in Hd; cbn [fold_right] in Hd; lia|]); destruct (quote_ok (fst x) B0) as (kt & K1 & K2).
        - exists (w' ++ [34] ++ kt ++ [34] ++ [] ++ [58] ++ sp ++ t ++ gap n). cbn [map joined]. unfold rn, rp, pr. cbn [fst snd]. split; [|apply m_last; auto using ws_nil].
          apply text_app; [apply ws_text; exact Hw'|]. replace ([34] ++ kt ++ [34] ++ [] ++ [58] ++ sp ++ t ++ gap n) with ((([34] ++ kt ++ [34]) ++ [58] ++ sp ++ t) ++ gap n) by (rewrite <- !app_assoc; reflexivity).
          apply text_app; [|apply ws_text; auto]. apply text_app; [exact K1|]. apply text_app; [apply Asc; repeat constructor; lia|]. apply text_app; [apply ws_text; exact sp_ws|exact T1].
        - destruct (IHm w y B2 F2 M2 I2) as (t' & T3 & T4); [unfold list_max in *; cbn [fold_right map] in *; lia|exact Hw|]. exists (w' ++ [34] ++ kt ++ [34] ++ [] ++ [58] ++ sp ++ t ++ [] ++ [44] ++ t'). cbn [map] in *. split; [|apply m_more; auto using ws_nil].
          change (joined w (pr x :: pr y :: map pr m)) with (pr x ++ [44] ++ w ++ joined w (pr y :: map pr m)). rewrite <- !app_assoc. apply text_app; [apply ws_text; exact Hw'|].
          replace ([34] ++ kt ++ [34] ++ [] ++ [58] ++ sp ++ t ++ [] ++ [44] ++ t') with ((([34] ++ kt ++ [34]) ++ [58] ++ sp ++ t) ++ [44] ++ t') by (rewrite <- !app_assoc; reflexivity).
          apply text_app; [unfold pr; apply text_app; [exact K1|]; apply text_app; [apply Asc; repeat constructor; lia|]; apply text_app; [apply ws_text; exact sp_ws|exact T1]|]. apply text_app; [apply Asc; repeat constructor; lia|exact T3]. }
      destruct (G (gap (S n)) (gap (S n)) (gap_ws _) (gap_ws _)) as (t & T1 & T2). exists ([123] ++ t ++ [125]). split; [|apply v_obj with (map rn (map rp (x :: m))); [exact T2|apply last_wins_self; unfold rn; rewrite renumber_keys; exact Nd]].
      change (gtext n (JObj (x :: m))) with ([123] ++ gap (S n) ++ joined (gap (S n)) (map pr (x :: m)) ++ gap n ++ [125]).
      apply text_app; [apply Asc; repeat constructor; lia|].
      replace (gap (S n) ++ joined (gap (S n)) (map pr (x :: m)) ++ gap n ++ [125]) with ((gap (S n) ++ joined (gap (S n)) (map pr (x :: m)) ++ gap n) ++ [125]) by (rewrite <- !app_assoc; reflexivity).
      apply text_app; [exact T1|apply Asc; repeat constructor; lia].
  Qed.
End Write.
