(** * JsonRead2: values read (C99). *)
From Coq Require Import ZifyBool Lqa.
From Verif Require Import Base Dec Utf8 LoaderModel LoaderSpec ExportModel ExportSpec ExportProofs ConvertModel ConvertSpec ConvertProps F64Model F64Spec F64Proofs JsonModel JsonSpec JsonNum JsonWrite JsonWrite2 JsonProps JsonRead.

Lemma strip_some p l r : strip p l = Some r <-> l = p ++ r.
Proof.
  revert l. induction p as [|a p IH]; intros l; cbn [strip app]; [split; [intros E; injection E as ->; reflexivity|intros ->; reflexivity]|].
  destruct l as [|b l]; [split; [discriminate|discriminate]|]. destruct (Z.eqb_spec a b) as [->|N]; [rewrite IH; split; [intros ->; reflexivity|intros E; injection E as ->; reflexivity]|]. split; [discriminate|intros E; congruence].
Qed.
Lemma infinite_as q : infinite (to_f64 q) = false -> as_float q (to_f64 q).
Proof. intros H. split; [apply to_f64_nearest|apply infinite_iff; exact H]. Qed.
Lemma as_infinite q f : as_float q f -> infinite (to_f64 q) = false /\ to_f64 q = f.
Proof. intros [H1 H2]. assert (E : to_f64 q = f) by (apply (nearest_unique q); [apply to_f64_nearest|exact H1]). rewrite E. split; [apply infinite_iff; exact H2|reflexivity]. Qed.

(** ** Members: the last one counts *)
Definition put (m : list (str * json)) (kv : str * json) : list (str * json) := aset str_eqb (fst kv) (snd kv) m.
Lemma put_nodup ms : forall m, NoDup (map fst m) -> NoDup (map fst (fold_left put ms m)).
Proof. induction ms as [|[k v] ms IH]; intros m H; [exact H|]. cbn [fold_left]. apply IH. apply (aset_NoDup str_eqb str_eqb_eq). exact H. Qed.
Lemma put_aget ms : forall m k, aget str_eqb k (fold_left put ms m) = match aget str_eqb k (rev ms) with Some v => Some v | None => aget str_eqb k m end.
Proof.
  induction ms as [|[k' v] ms IH] using rev_ind; intros m k; [reflexivity|]. rewrite fold_left_app, rev_unit. cbn [fold_left]. unfold put at 1. cbn [fst snd aget]. destruct (str_eqb k' k) eqn:E.
  - apply str_eqb_eq in E as ->. apply (aget_aset_eq str_eqb str_eqb_eq).
  - rewrite (aget_aset_neq str_eqb str_eqb_eq); [apply IH|]. intros ->. rewrite (proj2 (str_eqb_eq _ _) eq_refl) in E. discriminate.
Qed.
Lemma put_last_wins ms : last_wins ms (fold_left put ms []).
Proof. split; [apply put_nodup; constructor|]. intros k. rewrite put_aget. destruct (aget str_eqb k (rev ms)); reflexivity. Qed.

(** ** What is read is there *)
Lemma p_sound n :
  (forall d l v r, p_value n d l = Ok (v, r) -> exists w t, l = w ++ t ++ r /\ ws w /\ value as_float d t v) /\
  (forall d l vs r, p_elems n d l = Ok (vs, r) -> exists t, l = t ++ [93] ++ r /\ elems as_float d t vs) /\
  (forall d m l m' r, p_members n d m l = Ok (m', r) -> exists t ms, l = t ++ [125] ++ r /\ members as_float d t ms /\ m' = fold_left put ms m).
Proof.
  induction n as [|n (IV & IE & IM)]; [repeat split; discriminate|]. split; [|split].
  - intros d l v r. cbn [p_value]. destruct (skip_ws_split l) as (w & El & Hw & _). destruct (skip_ws l) as [|c l'] eqn:Es; [discriminate|].
    assert (G : forall t, (c :: l' = t ++ r /\ value as_float d t v) -> exists w t, l = w ++ t ++ r /\ ws w /\ value as_float d t v) by (intros t [E H]; exists w, t; rewrite <- E; tauto). clear Es.
    destruct (Z.eqb_spec c 34) as [->|H34].
    { destruct (p_string l') as [[s z]|] eqn:Ep; [|discriminate]. intros E. injection E as <- <-. apply p_string_sound in Ep as (t & r0 & -> & Ht & ->). apply (G ([34] ++ t ++ [34])). split; [cbn [app]; rewrite <- app_assoc; reflexivity|constructor; exact Ht]. }
    destruct (Z.eqb_spec c 91) as [->|H91].
    { destruct d as [|d]; [discriminate|]. destruct (skip_ws_split l') as (w' & E' & Hw' & _). destruct (skip_ws l') as [|e l''] eqn:Es; [discriminate|]. destruct (Z.eqb_spec e 93) as [->|].
      - intros E. injection E as <- <-. apply (G ([91] ++ w' ++ [93])). split; [rewrite E'; cbn [app]; rewrite <- app_assoc; reflexivity|constructor; exact Hw'].
      - clear E'. destruct (p_elems n d l') as [[vs z]| | |] eqn:Ee; try discriminate. cbn [obind]. intros E. injection E as <- <-. apply IE in Ee as (t & -> & Ht). apply (G ([91] ++ t ++ [93])). split; [cbn [app]; rewrite <- app_assoc; reflexivity|constructor; exact Ht]. }
    destruct (Z.eqb_spec c 123) as [->|H123].
    { destruct d as [|d]; [discriminate|]. destruct (skip_ws_split l') as (w' & E' & Hw' & _). destruct (skip_ws l') as [|e l''] eqn:Es; [discriminate|]. destruct (Z.eqb_spec e 125) as [->|].
      - intros E. injection E as <- <-. apply (G ([123] ++ w' ++ [125])). split; [rewrite E'; cbn [app]; rewrite <- app_assoc; reflexivity|constructor; exact Hw'].
      - clear E'. destruct (p_members n d [] l') as [[m z]| | |] eqn:Ee; try discriminate. cbn [obind]. intros E. injection E as <- <-. apply IM in Ee as (t & ms & -> & Ht & ->). apply (G ([123] ++ t ++ [125])). split; [cbn [app]; rewrite <- app_assoc; reflexivity|]. apply v_obj with ms; [exact Ht|apply put_last_wins]. }
    destruct (strip (bs "null") (c :: l')) eqn:E1; [intros E; injection E as <- <-; apply strip_some in E1; apply (G (bs "null")); split; [exact E1|constructor]|].
    destruct (strip (bs "true") (c :: l')) eqn:E2; [intros E; injection E as <- <-; apply strip_some in E2; apply (G (bs "true")); split; [exact E2|constructor]|].
    destruct (strip (bs "false") (c :: l')) eqn:E3; [intros E; injection E as <- <-; apply strip_some in E3; apply (G (bs "false")); split; [exact E3|constructor]|].
    destruct (p_number (c :: l')) as [[q z]|] eqn:Ep; [|discriminate]. destruct (infinite (to_f64 q)) eqn:Ei; [discriminate|]. intros E. injection E as <- <-. apply p_number_sound in Ep as (t & Et & Ht). apply (G t). split; [exact Et|]. apply v_num with q; [exact Ht|apply infinite_as; exact Ei].
  - intros d l vs r. cbn [p_elems]. destruct (p_value n d l) as [[v z]| | |] eqn:Ev; try discriminate. cbn [obind]. apply IV in Ev as (w & t & -> & Hw & Ht). destruct (skip_ws_split z) as (w' & Ez & Hw' & _). destruct (skip_ws z) as [|c z'] eqn:Es; [discriminate|]. rewrite Ez. clear Es Ez.
    destruct (Z.eqb_spec c 44) as [->|].
    + destruct (p_elems n d z') as [[vs' z'']| | |] eqn:Ee; try discriminate. cbn [obind]. intros E. injection E as <- <-. apply IE in Ee as (ts & -> & Hts). exists (w ++ t ++ w' ++ [44] ++ ts). split; [rewrite <- !app_assoc; reflexivity|]. apply e_more; assumption.
    + destruct (Z.eqb_spec c 93) as [->|]; [|discriminate]. intros E. injection E as <- <-. exists (w ++ t ++ w'). split; [rewrite <- !app_assoc; reflexivity|]. apply e_last; assumption.
  - intros d m l m' r. cbn [p_members]. destruct (skip_ws_split l) as (w & El & Hw & _). destruct (skip_ws l) as [|c l1] eqn:Es; [discriminate|]. rewrite El. clear Es El. destruct (Z.eqb_spec c 34) as [->|]; [|discriminate].
    destruct (p_string l1) as [[k z]|] eqn:Ep; [|discriminate]. apply p_string_sound in Ep as (kt & kr & -> & Hk & ->). destruct (skip_ws_split z) as (w1 & Ez & Hw1 & _). destruct (skip_ws z) as [|c1 z1] eqn:Es; [discriminate|]. rewrite Ez. clear Es Ez.
    destruct (Z.eqb_spec c1 58) as [->|]; [|discriminate]. destruct (p_value n d z1) as [[v z2]| | |] eqn:Ev; try discriminate. cbn [obind]. apply IV in Ev as (w2 & t & -> & Hw2 & Ht).
    destruct (skip_ws_split z2) as (w3 & Ez & Hw3 & _). destruct (skip_ws z2) as [|c z3] eqn:Es; [discriminate|]. rewrite Ez. clear Es Ez. destruct (Z.eqb_spec c 44) as [->|].
    + intros E. apply IM in E as (ts & ms & -> & Hts & ->). exists (w ++ [34] ++ kt ++ [34] ++ w1 ++ [58] ++ w2 ++ t ++ w3 ++ [44] ++ ts), ((encode kr, v) :: ms). split; [repeat (progress (rewrite <- ?app_assoc; cbn [app])); reflexivity|]. split; [|reflexivity]. apply m_more; assumption.
    + destruct (Z.eqb_spec c 125) as [->|]; [|discriminate]. intros E. injection E as <- <-. exists (w ++ [34] ++ kt ++ [34] ++ w1 ++ [58] ++ w2 ++ t ++ w3), [(encode kr, v)]. split; [repeat (progress (rewrite <- ?app_assoc; cbn [app])); reflexivity|]. split; [|reflexivity]. apply m_last; assumption.
Qed.
Lemma value_first num d t v : value num d t v -> exists c t', t = c :: t' /\ json_space c = false /\ c <> 93.
Proof.
  destruct 1 as [| | |d t q f Hn _|d t r _|d w _|d t l _|d w _|d t ms m _ _]; try (cbn [app]; unfold bs; cbn; eexists; eexists; split; [reflexivity|split; [reflexivity|lia]]).
  apply number_first in Hn as (c & t' & -> & Hc). exists c, t'. split; [reflexivity|]. unfold json_space. lia.
Qed.

(** ** The reader ends *)
Lemma p_total n :
  (forall d l, (2 * length l + 1 <= n)%nat -> p_value n d l = Error \/ exists v r, p_value n d l = Ok (v, r) /\ (length r < length l)%nat) /\
  (forall d l, (2 * length l + 2 <= n)%nat -> p_elems n d l = Error \/ exists v r, p_elems n d l = Ok (v, r) /\ (length r < length l)%nat) /\
  (forall d m l, (2 * length l + 2 <= n)%nat -> p_members n d m l = Error \/ exists v r, p_members n d m l = Ok (v, r) /\ (length r < length l)%nat).
Proof.
  induction n as [|n (IV & IE & IM)]; [split; [|split]; intros; lia|].
  assert (Str : forall l s r, p_string l = Some (s, r) -> (length r < length l)%nat). { intros l s r E. apply p_string_sound in E as (t & v & -> & _). rewrite app_length. cbn [length]. lia. }
  split; [|split].
  - intros d l Hn. cbn [p_value]. pose proof (skip_ws_len l) as L. destruct (skip_ws l) as [|c l'] eqn:Es; [left; reflexivity|]. cbn [length] in L.
    destruct (c =? 34). { destruct (p_string l') as [[s z]|] eqn:Ep; [|left; reflexivity]. right. exists (JStr s), z. split; [reflexivity|]. apply Str in Ep. lia. }
    destruct (c =? 91).
    { destruct d as [|d]; [left; reflexivity|]. pose proof (skip_ws_len l') as L'. destruct (skip_ws l') as [|e l''] eqn:Es'; [left; reflexivity|]. cbn [length] in L'. destruct (e =? 93); [right; exists (JArr []), l''; split; [reflexivity|lia]|].
      destruct (IE d l' ltac:(lia)) as [->|(vs & z & -> & Hz)]; [left; reflexivity|]. right. exists (JArr vs), z. split; [reflexivity|lia]. }
    destruct (c =? 123).
    { destruct d as [|d]; [left; reflexivity|]. pose proof (skip_ws_len l') as L'. destruct (skip_ws l') as [|e l''] eqn:Es'; [left; reflexivity|]. cbn [length] in L'. destruct (e =? 125); [right; exists (JObj []), l''; split; [reflexivity|lia]|].
      destruct (IM d [] l' ltac:(lia)) as [->|(vs & z & -> & Hz)]; [left; reflexivity|]. right. exists (JObj vs), z. split; [reflexivity|lia]. }
    assert (Lit : forall w r, w <> [] -> strip w (c :: l') = Some r -> (length r < length l)%nat). { intros w r Hw E. apply strip_some in E. assert (E2 : length (c :: l') = length (w ++ r)) by congruence. rewrite app_length in E2. cbn [length] in E2. destruct w; [congruence|]. cbn [length] in E2. lia. }
    destruct (strip (bs "null") (c :: l')) eqn:E1; [right; eexists; eexists; split; [reflexivity|apply (Lit (bs "null")); [discriminate|exact E1]]|].
    destruct (strip (bs "true") (c :: l')) eqn:E2; [right; eexists; eexists; split; [reflexivity|apply (Lit (bs "true")); [discriminate|exact E2]]|].
    destruct (strip (bs "false") (c :: l')) eqn:E3; [right; eexists; eexists; split; [reflexivity|apply (Lit (bs "false")); [discriminate|exact E3]]|].
    destruct (p_number (c :: l')) as [[q z]|] eqn:Ep; [|left; reflexivity]. destruct (infinite (to_f64 q)) eqn:Ei; [left; reflexivity|]. right. exists (JNum (to_f64 q)), z. split; [reflexivity|].
    apply p_number_sound in Ep as (t & Et & Ht). apply number_first in Ht as (c' & t' & -> & _). assert (E4 : length (c :: l') = length ((c' :: t') ++ z)) by congruence. rewrite app_length in E4. cbn [length] in E4. lia.
  - intros d l Hn. cbn [p_elems]. destruct (IV d l ltac:(lia)) as [->|(v & z & -> & Hz)]; [left; reflexivity|]. cbn [obind]. pose proof (skip_ws_len z) as L. destruct (skip_ws z) as [|c z'] eqn:Es; [left; reflexivity|]. cbn [length] in L.
    destruct (c =? 44); [|destruct (c =? 93); [right; exists [v], z'; split; [reflexivity|lia]|left; reflexivity]].
    destruct (IE d z' ltac:(lia)) as [->|(vs & z2 & -> & Hz2)]; [left; reflexivity|]. right. exists (v :: vs), z2. split; [reflexivity|lia].
  - intros d m l Hn. cbn [p_members]. pose proof (skip_ws_len l) as L. destruct (skip_ws l) as [|c l1] eqn:Es; [left; reflexivity|]. cbn [length] in L. destruct (c =? 34); [|left; reflexivity].
    destruct (p_string l1) as [[k z]|] eqn:Ep; [|left; reflexivity]. apply Str in Ep. pose proof (skip_ws_len z) as L1. destruct (skip_ws z) as [|c1 z1] eqn:Es1; [left; reflexivity|]. cbn [length] in L1. destruct (c1 =? 58); [|left; reflexivity].
    destruct (IV d z1 ltac:(lia)) as [->|(v & z2 & -> & Hz)]; [left; reflexivity|]. cbn [obind]. pose proof (skip_ws_len z2) as L2. destruct (skip_ws z2) as [|c2 z3] eqn:Es2; [left; reflexivity|]. cbn [length] in L2.
    destruct (c2 =? 44); [|destruct (c2 =? 125); [right; eexists; eexists; split; [reflexivity|lia]|left; reflexivity]].
    destruct (IM d (aset str_eqb k v m) z3 ltac:(lia)) as [->|(vs & z4 & -> & Hz2)]; [left; reflexivity|]. right. exists vs, z4. split; [reflexivity|lia].
Qed.

(** ** What is there is read *)
Definition same_kv (a b : str * json) : Prop := fst a = fst b /\ same (snd a) (snd b).
Lemma same_aget ms ms' k : Forall2 same_kv ms ms' -> match aget str_eqb k ms, aget str_eqb k ms' with Some v, Some v' => same v v' | None, None => True | _, _ => False end.
Proof. induction 1 as [|[k1 v1] [k2 v2] ms ms' [E Hs] _ IH]; [exact I|]. cbn [fst snd aget] in *. subst k2. destruct (str_eqb k1 k); [exact Hs|exact IH]. Qed.
Lemma Forall2_rev {A B} (R : A -> B -> Prop) l l' : Forall2 R l l' -> Forall2 R (rev l) (rev l').
Proof. induction 1 as [|a b l l' H _ IH]; [constructor|]. cbn [rev]. apply Forall2_app; [exact IH|constructor; [exact H|constructor]]. Qed.
Lemma in_keys (m : list (str * json)) k : In k (map fst m) <-> aget str_eqb k m <> None.
Proof. pose proof (aget_None str_eqb str_eqb_eq k m) as H. unfold akeys in H. destruct (in_dec (list_eq_dec Z.eq_dec) k (map fst m)) as [i|i]; tauto. Qed.
Lemma same_members ms ms' m m' : Forall2 same_kv ms ms' -> last_wins ms m -> last_wins ms' m' -> same (JObj m) (JObj m').
Proof.
  intros F [N1 A1] [N2 A2]. apply Forall2_rev in F. constructor; [exact N1|exact N2| |].
  - intros k. rewrite !in_keys, A1, A2. pose proof (same_aget _ _ k F) as H. destruct (aget str_eqb k (rev ms)), (aget str_eqb k (rev ms')); try tauto; split; congruence.
  - intros k v v' H1 H2. apply (aget_Some_iff str_eqb str_eqb_eq k v m N1) in H1. apply (aget_Some_iff str_eqb str_eqb_eq k v' m' N2) in H2. rewrite A1 in H1. rewrite A2 in H2. pose proof (same_aget _ _ k F) as H. rewrite H1, H2 in H. exact H.
Qed.
Scheme value_mut := Minimality for value Sort Prop with elems_mut := Minimality for elems Sort Prop with members_mut := Minimality for members Sort Prop.
Combined Scheme grammar_mut from value_mut, elems_mut, members_mut.
Lemma elems_first num d t vs x : elems num d t vs -> exists c l, skip_ws (t ++ x) = c :: l /\ c <> 93.
Proof.
  intros H. assert (G : forall w t' d v y, ws w -> value num d t' v -> exists c l, skip_ws (w ++ t' ++ y) = c :: l /\ c <> 93).
  { intros w t' d' v y Hw Hv. destruct (value_first _ _ _ _ Hv) as (c & t'' & -> & Hs & Hc). rewrite skip_ws_app by exact Hw. cbn [app]. rewrite skip_ws_here by exact Hs. eauto. }
  destruct H as [d w t w' v Hw Hv _|d w t w' v ts vs Hw Hv _ _]; rewrite <- !app_assoc; apply (G w t d v); assumption.
Qed.
Lemma members_first num d t ms x : members num d t ms -> exists l, skip_ws (t ++ x) = 34 :: l.
Proof. intros H. destruct H as [d w kt k w1 w2 t v w3 Hw _ _ _ _ _|d w kt k w1 w2 t v w3 ts ms Hw _ _ _ _ _ _]; rewrite <- app_assoc, skip_ws_app by exact Hw; cbn [app]; rewrite skip_ws_here by reflexivity; eauto. Qed.
Lemma p_complete :
  (forall d t v, value as_float d t v -> forall n d' w r, (d <= d')%nat -> (2 * length t + 1 <= n)%nat -> ws w -> stops r -> exists v', p_value n d' (w ++ t ++ r) = Ok (v', r) /\ same v v') /\
  (forall d t vs, elems as_float d t vs -> forall n d' r, (d <= d')%nat -> (2 * length t + 2 <= n)%nat -> exists vs', p_elems n d' (t ++ [93] ++ r) = Ok (vs', r) /\ Forall2 same vs vs') /\
  (forall d t ms, members as_float d t ms -> forall n d' m r, (d <= d')%nat -> (2 * length t + 2 <= n)%nat -> exists ms', p_members n d' m (t ++ [125] ++ r) = Ok (fold_left put ms' m, r) /\ Forall2 same_kv ms ms').
Proof.
  assert (Lit : forall n d w t l v r, ws w -> t = bs "null" /\ v = JNull \/ t = bs "true" /\ v = JBool true \/ t = bs "false" /\ v = JBool false -> (1 <= n)%nat -> l = w ++ t ++ r -> p_value n d l = Ok (v, r)).
  { intros n d w t l v r Hw Ht Hn ->. destruct n as [|n]; [lia|]. cbn [p_value]. rewrite skip_ws_app by exact Hw. destruct Ht as [[-> ->]|[[-> ->]|[-> ->]]]; reflexivity. }
  apply (grammar_mut as_float
    (fun d t v => forall n d' w r, (d <= d')%nat -> (2 * length t + 1 <= n)%nat -> ws w -> stops r -> exists v', p_value n d' (w ++ t ++ r) = Ok (v', r) /\ same v v')
    (fun d t vs => forall n d' r, (d <= d')%nat -> (2 * length t + 2 <= n)%nat -> exists vs', p_elems n d' (t ++ [93] ++ r) = Ok (vs', r) /\ Forall2 same vs vs')
    (fun d t ms => forall n d' m r, (d <= d')%nat -> (2 * length t + 2 <= n)%nat -> exists ms', p_members n d' m (t ++ [125] ++ r) = Ok (fold_left put ms' m, r) /\ Forall2 same_kv ms ms')).
  - intros d n d' w r _ Hn Hw _. exists JNull. split; [apply Lit with w (bs "null"); try tauto; lia|constructor].
  - intros d n d' w r _ Hn Hw _. exists (JBool true). split; [apply Lit with w (bs "true"); try tauto; lia|constructor].
  - intros d n d' w r _ Hn Hw _. exists (JBool false). split; [apply Lit with w (bs "false"); try tauto; lia|constructor].
  - intros d t q f Hq Hf n d' w r _ Hn Hw Hr. exists (JNum f). split; [|constructor]. apply as_infinite in Hf as [Hi Hf]. destruct n as [|n]; [lia|]. cbn [p_value]. rewrite skip_ws_app by exact Hw.
    pose proof (p_number_complete t q r Hq Hr) as P. destruct (number_first t q Hq) as (c & t' & -> & Hc). cbn [app] in *. rewrite skip_ws_here by (unfold json_space; lia).
    replace (c =? 34) with false by lia. replace (c =? 91) with false by lia. replace (c =? 123) with false by lia.
    assert (St : forall x s, x = 110 \/ x = 116 \/ x = 102 -> strip (x :: s) (c :: t' ++ r) = None) by (intros x s Hx; cbn [strip]; replace (x =? c) with false by lia; reflexivity).
    change (bs "null") with (110 :: bs "ull"). change (bs "true") with (116 :: bs "rue"). change (bs "false") with (102 :: bs "alse"). rewrite !St by tauto. rewrite P, Hi, Hf. reflexivity.
  - intros d t x Ht n d' w r _ Hn Hw Hr. exists (JStr (encode x)). split; [|constructor]. destruct n as [|n]; [lia|]. cbn [p_value]. rewrite skip_ws_app by exact Hw. cbn [app]. rewrite skip_ws_here by reflexivity. change (34 =? 34) with true. cbn iota.
    rewrite <- app_assoc. cbn [app]. rewrite (p_string_complete t x r Ht). reflexivity.
  - intros d w0 Hw0 n d' w r Hd Hn Hw Hr. exists (JArr []). split; [|repeat constructor]. destruct n as [|n]; [lia|]. cbn [p_value]. rewrite skip_ws_app by exact Hw. cbn [app]. rewrite skip_ws_here by reflexivity. change (91 =? 34) with false. change (91 =? 91) with true. cbn iota.
    destruct d' as [|d']; [lia|]. rewrite <- app_assoc, skip_ws_app by exact Hw0. reflexivity.
  - intros d t l He IH n d' w r Hd Hn Hw Hr. rewrite !app_length in Hn. cbn [length] in Hn. destruct n as [|n]; [lia|]. destruct d' as [|d']; [lia|]. destruct (IH n d' r) as (vs' & E & F); [lia|lia|]. exists (JArr vs'). split; [|constructor; exact F].
    cbn [p_value]. rewrite skip_ws_app by exact Hw. cbn [app]. rewrite skip_ws_here by reflexivity. change (91 =? 34) with false. change (91 =? 91) with true. cbn iota. rewrite <- app_assoc. destruct (elems_first _ _ _ _ ([93] ++ r) He) as (c & l' & Es & Hc). rewrite Es.
    replace (c =? 93) with false by lia. rewrite E. reflexivity.
  - intros d w0 Hw0 n d' w r Hd Hn Hw Hr. exists (JObj []). split; [|constructor; try constructor; intros; contradiction]. destruct n as [|n]; [lia|]. cbn [p_value]. rewrite skip_ws_app by exact Hw. cbn [app]. rewrite skip_ws_here by reflexivity. change (123 =? 34) with false. change (123 =? 91) with false. change (123 =? 123) with true. cbn iota.
    destruct d' as [|d']; [lia|]. rewrite <- app_assoc, skip_ws_app by exact Hw0. reflexivity.
  - intros d t ms m He IH Hl n d' w r Hd Hn Hw Hr. rewrite !app_length in Hn. cbn [length] in Hn. destruct n as [|n]; [lia|]. destruct d' as [|d']; [lia|]. destruct (IH n d' [] r) as (ms' & E & F); [lia|lia|]. exists (JObj (fold_left put ms' [])). split.
    + cbn [p_value]. rewrite skip_ws_app by exact Hw. cbn [app]. rewrite skip_ws_here by reflexivity. change (123 =? 34) with false. change (123 =? 91) with false. change (123 =? 123) with true. cbn iota. rewrite <- app_assoc. destruct (members_first _ _ _ _ ([125] ++ r) He) as (l' & Es). rewrite Es.
      change (34 =? 125) with false. cbn iota. rewrite E. reflexivity.
    + apply same_members with ms ms'; [exact F|exact Hl|apply put_last_wins].
  - intros d w t w' v Hw Hv IH Hw' n d' r Hd Hn. rewrite !app_length in Hn. destruct n as [|n]; [lia|]. destruct (IH n d' w (w' ++ [93] ++ r)) as (v' & E & F); [exact Hd|lia|exact Hw|apply stops_ws; [exact Hw'|right; tauto]|].
    exists [v']. split; [|repeat constructor; exact F]. cbn [p_elems]. rewrite <- !app_assoc, E. cbn [obind]. rewrite skip_ws_app by exact Hw'. reflexivity.
  - intros d w t w' v ts vs Hw Hv IH Hw' He IHe n d' r Hd Hn. rewrite !app_length in Hn. cbn [length] in Hn. destruct n as [|n]; [lia|]. destruct (IH n d' w (w' ++ [44] ++ ts ++ [93] ++ r)) as (v' & E & F); [exact Hd|lia|exact Hw|apply stops_ws; [exact Hw'|right; tauto]|].
    destruct (IHe n d' r) as (vs' & E2 & F2); [exact Hd|lia|]. exists (v' :: vs'). split; [|constructor; assumption]. cbn [p_elems]. rewrite <- !app_assoc, E. cbn [obind]. rewrite skip_ws_app by exact Hw'. cbn [app]. rewrite skip_ws_here by reflexivity. change (44 =? 44) with true. cbn iota. cbn [app] in E2. rewrite E2. reflexivity.
  - intros d w kt k w1 w2 t v w3 Hw Hk Hw1 Hw2 Hv IH Hw3 n d' m r Hd Hn. rewrite !app_length in Hn. cbn [length] in Hn. destruct n as [|n]; [lia|]. destruct (IH n d' w2 (w3 ++ [125] ++ r)) as (v' & E & F); [exact Hd|lia|exact Hw2|apply stops_ws; [exact Hw3|right; tauto]|].
    exists [(encode k, v')]. split; [|repeat constructor; exact F]. cbn [p_members]. rewrite <- !app_assoc. rewrite skip_ws_app by exact Hw. cbn [app]. rewrite skip_ws_here by reflexivity. change (34 =? 34) with true. cbn iota. rewrite (p_string_complete kt k _ Hk). rewrite <- ?app_assoc. rewrite skip_ws_app by exact Hw1. cbn [app]. rewrite skip_ws_here by reflexivity. change (58 =? 58) with true. cbn iota.
    cbn [app] in E. rewrite <- ?app_assoc, E. cbn [obind]. rewrite skip_ws_app by exact Hw3. reflexivity.
  - intros d w kt k w1 w2 t v w3 ts ms Hw Hk Hw1 Hw2 Hv IH Hw3 Hm IHm n d' m r Hd Hn. rewrite !app_length in Hn. cbn [length] in Hn. destruct n as [|n]; [lia|]. destruct (IH n d' w2 (w3 ++ [44] ++ ts ++ [125] ++ r)) as (v' & E & F); [exact Hd|lia|exact Hw2|apply stops_ws; [exact Hw3|right; tauto]|].
    destruct (IHm n d' (aset str_eqb (encode k) v' m) r) as (ms' & E2 & F2); [exact Hd|lia|]. exists ((encode k, v') :: ms'). split; [|constructor; [split; [reflexivity|exact F]|exact F2]].
    cbn [p_members]. rewrite <- !app_assoc. rewrite skip_ws_app by exact Hw. cbn [app]. rewrite skip_ws_here by reflexivity. change (34 =? 34) with true. cbn iota. rewrite (p_string_complete kt k _ Hk). rewrite <- ?app_assoc. rewrite skip_ws_app by exact Hw1. cbn [app]. rewrite skip_ws_here by reflexivity. change (58 =? 58) with true. cbn iota.
    cbn [app] in E, E2. rewrite <- ?app_assoc, E. cbn [obind]. rewrite skip_ws_app by exact Hw3. rewrite skip_ws_here by reflexivity. change (44 =? 44) with true. cbn iota. exact E2.
Qed.
