(** * PrintProofs3: the table of a summary (C71) and the HTML report (C72). *)
From Verif Require Import Base Dec DateModel PriceModel BookModel RegisterModel Utf8 LoaderModel ExportModel PrintModel ReportSpec.

Lemma key_eqb_eq a b : key_eqb a b = true <-> a = b.
Proof.
  destruct a as [a1 [a2 a3]], b as [b1 [b2 b3]]. unfold key_eqb. cbn [fst snd]. rewrite !andb_true_iff, !str_eqb_eq. split; [intros (-> & -> & ->); reflexivity|intros E; injection E; auto].
Qed.
Lemma key_eqb_refl a : key_eqb a a = true.
Proof. apply key_eqb_eq. reflexivity. Qed.
Lemma key_eqb_neq a b : key_eqb a b = false <-> a <> b.
Proof. split; intros H; [intros ->; rewrite key_eqb_refl in H; discriminate|]. destruct (key_eqb a b) eqn:E; [apply key_eqb_eq in E; contradiction|reflexivity]. Qed.

Section S.
  Variables (f64 : Qc -> Qc) (is_letter : Z -> bool) (decs : list (str * Z)) (colour : bool).
  Notation money := (column_money f64 is_letter decs colour).
  Notation lay := layout.

  Definition sep (first : bool) (v : posting) : nat := if negb first && (p_level v =? 0) then 1 else 0.
  Fixpoint pos (first : bool) (l : list posting) (k : str * (str * str)) : nat :=
    match l with
    | [] => O
    | v :: l' => (sep first v + (if key_eqb (row_key v) k then 0 else S (pos false l' k)))%nat
    end.
  Lemma label_ok v : 0 <= p_level v -> row_label colour v = Ok (label colour v).
  Proof. intros H. unfold row_label, label. destruct (Z.ltb_spec (p_level v) 0); [lia|]. reflexivity. Qed.

  Lemma label_rows_ok n l : forall first rows idx, NoDup (map row_key l) -> (forall v, In v l -> 0 <= p_level v) ->
    exists idx', label_rows colour n first l rows idx = Ok (rows ++ lay first l (fun v => Some (ColString (label colour v)) :: repeat None n), idx') /\
      (forall k, In k (map row_key l) -> aget key_eqb k idx' = Some (length rows + pos first l k)%nat) /\
      (forall k, ~ In k (map row_key l) -> aget key_eqb k idx' = aget key_eqb k idx).
  Proof.
    induction l as [|v l IH]; intros first rows idx Hn Hl.
    - exists idx. cbn [label_rows layout map]. rewrite app_nil_r. split; [reflexivity|]. split; [intros k []|reflexivity].
    - cbn [map] in Hn. inversion Hn as [|? ? Hnv Hn']; subst. cbn [label_rows]. rewrite label_ok by (apply Hl; left; reflexivity). cbn [obind].
      set (rows1 := if negb first && (p_level v =? 0) then rows ++ [None] else rows).
      destruct (IH false (rows1 ++ [Some (Some (ColString (label colour v)) :: repeat None n)]) (aset key_eqb (row_key v) (length rows1) idx) Hn') as (idx' & E & H1 & H2); [intros u Hu; apply Hl; right; exact Hu|].
      assert (L1 : length rows1 = (length rows + sep first v)%nat) by (unfold rows1, sep; destruct (negb first && (p_level v =? 0)); [rewrite app_length|]; cbn [length]; lia).
      exists idx'. split; [|split].
      + rewrite E. f_equal. f_equal. cbn [layout]. unfold rows1. destruct (negb first && (p_level v =? 0)); rewrite <- !app_assoc; reflexivity.
      + intros k Hk. cbn [map pos]. destruct (key_eqb (row_key v) k) eqn:Ek.
        * apply key_eqb_eq in Ek. subst k. rewrite H2 by exact Hnv. rewrite (aget_aset_eq _ key_eqb_eq). f_equal. lia.
        * apply key_eqb_neq in Ek. destruct Hk as [Hk|Hk]; [congruence|]. rewrite H1 by exact Hk. rewrite app_length, L1. cbn [length]. f_equal. lia.
      + intros k Hk. cbn [map] in Hk. rewrite H2 by (intros F; apply Hk; right; exact F). apply (aget_aset_neq _ key_eqb_eq). intros F. apply Hk. left. congruence.
  Qed.

  Lemma nth_error_app_eq {A} (l m : list A) j : nth_error (l ++ m) (length l + j) = nth_error m j.
  Proof. induction l as [|x l IH]; [reflexivity|exact IH]. Qed.
  Lemma set_nth_app {A} (l m : list A) j x : (j < length m)%nat -> set_nth (length l + j) x (l ++ m) = l ++ set_nth j x m.
  Proof.
    intros H. unfold set_nth. rewrite firstn_app_2, skipn_app. replace (S (length l + j) - length l)%nat with (S j) by lia.
    rewrite (skipn_all2 l) by lia. cbn [app]. rewrite <- app_assoc. reflexivity.
  Qed.
  Lemma pos_ok l : forall first k f, In k (map row_key l) -> exists v, In v l /\ row_key v = k /\ nth_error (lay first l f) (pos first l k) = Some (Some (f v)).
  Proof.
    induction l as [|v l IH]; intros first k f Hk; [destruct Hk|]. cbn [layout pos map]. set (s := if negb first && (p_level v =? 0) then [None] else @nil row).
    assert (Ls : length s = sep first v) by (unfold s, sep; destruct (negb first && (p_level v =? 0)); reflexivity). rewrite <- Ls, nth_error_app_eq.
    destruct (key_eqb (row_key v) k) eqn:Ek.
    - apply key_eqb_eq in Ek. exists v. split; [left; reflexivity|]. split; [exact Ek|reflexivity].
    - apply key_eqb_neq in Ek. destruct Hk as [Hk|Hk]; [congruence|]. destruct (IH false k f Hk) as (u & Hu & Eu & N). exists u. split; [right; exact Hu|]. split; [exact Eu|exact N].
  Qed.
  Definition upd (k : str * (str * str)) (j : nat) (c : option column) (f : posting -> list (option column)) (u : posting) : list (option column) :=
    if key_eqb (row_key u) k then set_nth j c (f u) else f u.
  Lemma lay_ext l : forall first f g, (forall v, In v l -> f v = g v) -> lay first l f = lay first l g.
  Proof. induction l as [|v l IH]; intros first f g H; [reflexivity|]. cbn [layout]. rewrite (H v) by (left; reflexivity). rewrite (IH false f g) by (intros u Hu; apply H; right; exact Hu). reflexivity. Qed.
  Lemma set_lay l : forall first k j c f, NoDup (map row_key l) -> In k (map row_key l) ->
    set_nth (pos first l k) (Some (set_nth j c (match nth_error (lay first l f) (pos first l k) with Some (Some x) => x | _ => [] end))) (lay first l f) = lay first l (upd k j c f) /\
    (pos first l k < length (lay first l f))%nat.
  Proof.
    induction l as [|v l IH]; intros first k j c f Hn Hk; [destruct Hk|]. cbn [map] in Hn. inversion Hn as [|? ? Hnv Hn']; subst. cbn [layout pos map].
    set (s := if negb first && (p_level v =? 0) then [None] else @nil row). assert (Ls : length s = sep first v) by (unfold s, sep; destruct (negb first && (p_level v =? 0)); reflexivity). rewrite <- Ls, nth_error_app_eq.
    destruct (key_eqb (row_key v) k) eqn:Ek.
    - apply key_eqb_eq in Ek. subst k. rewrite set_nth_app by (cbn [length]; lia). split; [|rewrite app_length; unfold s; destruct (negb first && (p_level v =? 0)); cbn [length]; lia]. f_equal. cbn [nth_error]. unfold set_nth at 1. cbn [firstn skipn app]. f_equal.
      + f_equal. unfold upd. rewrite key_eqb_refl. reflexivity.
      + apply lay_ext. intros u Hu. unfold upd. destruct (key_eqb (row_key u) (row_key v)) eqn:E; [|reflexivity]. apply key_eqb_eq in E. destruct Hnv. rewrite <- E. apply in_map. exact Hu.
    - apply key_eqb_neq in Ek. destruct Hk as [Hk|Hk]; [congruence|]. destruct (IH false k j c f Hn' Hk) as [E L]. cbn [nth_error].
      assert (L' : (pos false l k < @length (option (list (option column))) (lay false l f))%nat) by exact L. rewrite set_nth_app by (cbn [length]; lia). split; [|rewrite app_length; unfold s; destruct (negb first && (p_level v =? 0)); cbn [length]; lia]. f_equal. unfold set_nth at 1. cbn [firstn skipn app]. f_equal.
      + unfold upd. destruct (key_eqb (row_key v) k) eqn:E2; [apply key_eqb_eq in E2; contradiction|reflexivity].
      + exact E.
  Qed.
  Lemma set_cell_ok l h k j c f : NoDup (map row_key l) -> In k (map row_key l) -> (forall v, In v l -> (j < length (f v))%nat) ->
    set_cell (1 + pos true l k) j c (h :: lay true l f) = Ok (h :: lay true l (upd k j (Some c) f)).
  Proof.
    intros Hn Hk Hj. unfold set_cell. cbn [Nat.add nth_error]. destruct (pos_ok l true k f Hk) as (v & Hv & _ & N). pose proof (set_lay l true k j (Some c) f Hn Hk) as [E L]. rewrite N in *.
    pose proof (Hj v Hv) as Hjv. destruct (Nat.ltb_spec j (length (f v))); [|lia]. f_equal. unfold set_nth at 1. cbn [firstn skipn app]. f_equal. exact E.
  Qed.

  (** The money cell of a posting whose currency has a last letter. *)
  Lemma money_ok ccy v : decode ccy <> [] -> exists c, money ccy v = Ok c.
  Proof. intros H. unfold column_money, format_symbol. destruct (decode ccy) as [|r rs]; [congruence|]. cbn [obind]. eexists. reflexivity. Qed.

  Definition fill_cell (j : nat) (t : list posting) (f : posting -> list (option column)) (u : posting) : list (option column) :=
    match find (fun p => key_eqb (row_key p) (row_key u)) t with
    | Some p => match money (p_ccy p) (p_val p) with Ok c => set_nth j (Some c) (f u) | _ => f u end
    | None => f u
    end.
  Lemma set_nth_length {A} j (x : A) l : (j < length l)%nat -> length (set_nth j x l) = length l.
  Proof. intros H. unfold set_nth. rewrite app_length, firstn_length. cbn [length]. rewrite skipn_length. lia. Qed.
  Lemma fill_trans_ok l h idx j t : NoDup (map row_key l) -> (forall k, In k (map row_key l) -> aget key_eqb k idx = Some (1 + pos true l k)%nat) ->
    forall f, NoDup (map row_key t) -> (forall p, In p t -> In (row_key p) (map row_key l)) -> (forall p, In p t -> decode (p_ccy p) <> []) -> (forall v, In v l -> (j < length (f v))%nat) ->
    fill_trans f64 is_letter decs colour idx j t (h :: lay true l f) = Ok (h :: lay true l (fill_cell j t f)).
  Proof.
    intros Hn Hidx. induction t as [|p t IH]; intros f Ht Hin Hc Hj; [reflexivity|]. cbn [fill_trans]. cbn [map] in Ht. inversion Ht as [|? ? Hnp Ht']; subst.
    rewrite Hidx by (apply Hin; left; reflexivity). destruct (money_ok (p_ccy p) (p_val p)) as (c & Ec); [apply Hc; left; reflexivity|]. rewrite Ec. cbn [obind].
    rewrite set_cell_ok by (try assumption; apply Hin; left; reflexivity). cbn [obind].
    rewrite IH; [|exact Ht'|intros q Hq; apply Hin; right; exact Hq|intros q Hq; apply Hc; right; exact Hq|].
    - f_equal. f_equal. apply lay_ext. intros u Hu. unfold fill_cell. cbn [find]. destruct (key_eqb (row_key p) (row_key u)) eqn:E.
      + apply key_eqb_eq in E. assert (Ef : find (fun q => key_eqb (row_key q) (row_key u)) t = None).
        { destruct (find (fun q => key_eqb (row_key q) (row_key u)) t) as [q|] eqn:F; [|reflexivity]. apply find_some in F as [F1 F2]. apply key_eqb_eq in F2. destruct Hnp. rewrite E, <- F2. apply in_map. exact F1. }
        rewrite Ef. unfold upd. rewrite E, key_eqb_refl. rewrite Ec. reflexivity.
      + assert (Eu : upd (row_key p) j (Some c) f u = f u).
        { unfold upd. destruct (key_eqb (row_key u) (row_key p)) eqn:E2; [|reflexivity]. apply key_eqb_eq in E2. apply key_eqb_neq in E. congruence. }
        destruct (find _ t) as [q|]; rewrite Eu; reflexivity.
    - intros v Hv. unfold upd. destruct (key_eqb (row_key v) (row_key p)); [rewrite set_nth_length|]; apply Hj; exact Hv.
  Qed.

  Definition partly (j : nat) (n : nat) (done : list trans) (v : posting) : list (option column) :=
    Some (ColString (label colour v)) :: map (fun t => amount_cell f64 is_letter decs colour t (row_key v)) done ++ repeat None n.
  Lemma set_nth_mid {A} (a : list A) x y b : set_nth (length a) x (a ++ y :: b) = a ++ x :: b.
  Proof. unfold set_nth. rewrite firstn_app, Nat.sub_diag, firstn_all. cbn [firstn]. rewrite app_nil_r. f_equal. f_equal. replace (S (length a)) with (length a + 1)%nat by lia. rewrite skipn_app, skipn_all2 by lia. replace (length a + 1 - length a)%nat with 1%nat by lia. reflexivity. Qed.
  Lemma fill_all_ok l h idx ts : NoDup (map row_key l) -> (forall k, In k (map row_key l) -> aget key_eqb k idx = Some (1 + pos true l k)%nat) ->
    forall done, (forall t, In t ts -> NoDup (map row_key t) /\ (forall p, In p t -> In (row_key p) (map row_key l)) /\ (forall p, In p t -> decode (p_ccy p) <> [])) ->
    fill_all f64 is_letter decs colour idx (S (length done)) ts (h :: lay true l (partly 0 (length ts) done)) = Ok (h :: lay true l (partly 0 0 (done ++ ts))).
  Proof.
    intros Hn Hidx. induction ts as [|t ts IH]; intros done H; [cbn [fill_all length]; rewrite app_nil_r; reflexivity|]. cbn [fill_all].
    destruct (H t (or_introl eq_refl)) as (H1 & H2 & H3). rewrite (fill_trans_ok l h idx (S (length done)) t Hn Hidx) by
      (try assumption; intros v Hv; unfold partly; cbn [length]; rewrite app_length, map_length, repeat_length; cbn [length]; lia).
    cbn [obind]. assert (E : lay true l (fill_cell (S (length done)) t (partly 0 (length (t :: ts)) done)) = lay true l (partly 0 (length ts) (done ++ [t]))).
    { apply lay_ext. intros u Hu. unfold fill_cell, partly. rewrite map_app. cbn [map].
      set (a := map (fun t0 => amount_cell f64 is_letter decs colour t0 (row_key u)) done). assert (La : length a = length done) by (unfold a; apply map_length).
      set (x := Some (ColString (label colour u))). cbn [length repeat]. rewrite <- app_assoc. cbn [app].
      assert (Em : match find (fun p => key_eqb (row_key p) (row_key u)) t with
                   | Some p => match money (p_ccy p) (p_val p) with Ok c => set_nth (S (length done)) (Some c) (x :: a ++ None :: repeat None (length ts)) | _ => x :: a ++ None :: repeat None (length ts) end
                   | None => x :: a ++ None :: repeat None (length ts) end = (x :: a) ++ amount_cell f64 is_letter decs colour t (row_key u) :: repeat None (length ts)); [|exact Em].
      unfold amount_cell. destruct (find (fun p => key_eqb (row_key p) (row_key u)) t) as [p|] eqn:F; [|reflexivity].
      apply find_some in F as [F1 _]. destruct (money_ok (p_ccy p) (p_val p) (H3 p F1)) as (c & Ec). rewrite Ec. rewrite <- La.
      change (x :: a ++ None :: repeat None (length ts)) with ((x :: a) ++ None :: repeat None (length ts)). change (S (length a)) with (length (x :: a)). apply set_nth_mid. }
    rewrite E. specialize (IH (done ++ [t])). rewrite app_length in IH. cbn [length] in IH. rewrite Nat.add_1_r in IH. rewrite IH by (intros t' Ht'; apply H; right; exact Ht').
    rewrite <- app_assoc. reflexivity.
  Qed.
  Lemma header_ok ts : Forall (fun t => t <> []) ts ->
    header_dates colour ts = Ok (map (fun t => match t with p :: _ => Some (ColRight (ansi colour UL (date_string (p_date p)))) | [] => None end) ts).
  Proof. induction 1 as [|t ts Ht _ IH]; [reflexivity|]. cbn [header_dates map]. destruct t as [|p t]; [congruence|]. rewrite IH. reflexivity. Qed.
  Lemma summary_table_ok ts : ts <> [] -> Forall (fun t => t <> []) ts -> (forall t, In t ts -> NoDup (map row_key t) /\ (forall p, In p t -> In (row_key p) (map row_key (last ts []))) /\ (forall p, In p t -> decode (p_ccy p) <> [] /\ 0 <= p_level p)) ->
    summary_table f64 is_letter decs colour ts = Ok (expected_table f64 is_letter decs colour ts).
  Proof.
    intros Hne Hall H. unfold summary_table. destruct ts as [|t0 ts0]; [congruence|]. set (ts := t0 :: ts0) in *. rewrite header_ok by exact Hall. cbn [obind].
    assert (Hlast : In (last ts []) ts). { clear - Hne. induction ts as [|a [|b l] IH]; [congruence|left; reflexivity|]. right. apply IH. discriminate. }
    destruct (H _ Hlast) as (Hn & _ & Hc). set (l := last ts []) in *. match goal with |- context [label_rows _ _ _ _ [?h] []] => set (hd := h) end.
    destruct (label_rows_ok (length ts) l true [hd] [] Hn) as (idx & E & I1 & _); [intros v Hv; apply Hc; exact Hv|]. match goal with |- obind ?e _ = _ => match type of E with ?e' = _ => change e with e' end end. rewrite E. cbn [obind app].
    rewrite (lay_ext l true _ (partly 0 (length ts) [])) by reflexivity.
    pose proof (fill_all_ok l hd idx ts Hn I1 []) as F. cbn [length app] in F. rewrite F.
    - unfold expected_table. fold l. f_equal. f_equal. apply lay_ext. intros v _. unfold partly. cbn [repeat]. rewrite app_nil_r. reflexivity.
    - intros t Ht. destruct (H t Ht) as (A & B & C). split; [exact A|]. split; [exact B|]. intros p Hp. apply C. exact Hp.
  Qed.
End S.
