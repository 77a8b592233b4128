(** * BookOpProofs: the argument patterns, the meaning of an operation, macro expansion. *)
From Verif Require Import Base Dec Regex DateModel PriceModel BookModel BookSpec BookProofs OpsModel OpsProofs BookOpModel BookOpSpec.

(** ** The patterns *)
Fixpoint span (f : Z -> bool) (s : str) : str * str :=
  match s with
  | c :: s' => if f c then let '(p, r) := span f s' in (c :: p, r) else ([], s)
  | [] => ([], [])
  end.
Lemma span_eq f s : s = fst (span f s) ++ snd (span f s).
Proof. induction s as [|c s IH]; [reflexivity|]. cbn. destruct (f c); [|reflexivity]. destruct (span f s). cbn in *. now rewrite IH at 1. Qed.
Lemma span_all f s : Forall (fun c => f c = true) (fst (span f s)).
Proof. induction s as [|c s IH]; [constructor|]. cbn. destruct (f c) eqn:E; [|constructor]. destruct (span f s). now constructor. Qed.
Lemma span_stop f p c t : Forall (fun c => f c = true) p -> f c = false -> span f (p ++ c :: t) = (p, c :: t).
Proof.
  induction 1 as [|x p Hx Hp IH]; intros Hc; cbn.
  - now rewrite Hc.
  - rewrite Hx, IH by assumption. reflexivity.
Qed.

Lemma firstn_prefix (a b : str) : firstn (length (a ++ b) - length b) (a ++ b) = a.
Proof. rewrite app_length, Nat.add_sub. now rewrite firstn_app, Nat.sub_diag, firstn_all, app_nil_r. Qed.
Section Cap.
  Variable f : Z -> bool.
  Hypothesis f47 : f 47 = false.

  Lemma star_slash s k : (forall c t, c <> 47 -> k (c :: t) = None) -> k [] = None ->
    star_cls f s k = match snd (span f s) with c :: t => if c =? 47 then k (47 :: t) else None | [] => None end.
  Proof.
    intros Hk Hn. induction s as [|c s IH]; [exact Hn|]. cbn [star_cls span].
    destruct (f c) eqn:E.
    - rewrite IH. destruct (span f s) as [p r]. cbn [snd].
      assert (c <> 47) by congruence. rewrite (Hk c s) by assumption.
      destruct r as [|y t]; [reflexivity|]. destruct (y =? 47); [|reflexivity]. now destruct (k (47 :: t)).
    - cbn [snd]. destruct (Z.eqb_spec c 47) as [->|N]; [reflexivity|]. now apply Hk.
  Qed.

  Lemma cap_plus n s cs k : (forall c t cs', c <> 47 -> k (c :: t) cs' = None) -> (forall cs', k [] cs' = None) ->
    rmatch (RCap n (RPlus f)) s cs k =
    match fst (span f s), snd (span f s) with
    | _ :: _, c :: t => if c =? 47 then k (47 :: t) ((n, fst (span f s)) :: cs) else None
    | _, _ => None
    end.
  Proof.
    intros Hk Hn. cbn [rmatch]. destruct s as [|c s]; [reflexivity|]. cbn [span].
    destruct (f c) eqn:E; [|reflexivity].
    rewrite star_slash.
    - pose proof (span_eq f s) as S. destruct (span f s) as [p r] eqn:Sp. cbn [fst snd] in *.
      destruct r as [|y t]; [reflexivity|]. destruct (Z.eqb_spec y 47) as [->|N]; [|reflexivity].
      do 3 f_equal. rewrite S. exact (firstn_prefix (c :: p) (47 :: t)).
    - intros c' t N. now apply Hk.
    - apply Hn.
  Qed.
End Cap.

Lemma slash_step s cs k : rmatch r_slash s cs k = match s with c :: t => if c =? 47 then k t cs else None | [] => None end.
Proof. reflexivity. Qed.

(** a piece of class [f] followed by a slash *)
Definition piece (f : Z -> bool) (s : str) : option (str * str) :=
  match fst (span f s), snd (span f s) with
  | _ :: _, c :: t => if c =? 47 then Some (fst (span f s), t) else None
  | _, _ => None
  end.
Lemma piece_step f n s cs k : f 47 = false ->
  rmatch (RCap n (RPlus f)) s cs (fun s' cs' => rmatch r_slash s' cs' k) =
  match piece f s with Some (p, t) => k t ((n, p) :: cs) | None => None end.
Proof.
  intros F. rewrite cap_plus; [|exact F| |].
  - unfold piece. destruct (fst (span f s)) eqn:E; [reflexivity|]. destruct (snd (span f s)) as [|c t]; [reflexivity|].
    destruct (c =? 47); reflexivity.
  - intros c t cs' N. rewrite slash_step. apply Z.eqb_neq in N. now rewrite N.
  - intros cs'. reflexivity.
Qed.
Lemma piece_inv f s p t : piece f s = Some (p, t) -> s = p ++ 47 :: t /\ p <> [] /\ Forall (fun c => f c = true) p.
Proof.
  unfold piece. pose proof (span_eq f s) as S. pose proof (span_all f s) as A.
  destruct (fst (span f s)) as [|x l] eqn:E; [discriminate|]. destruct (snd (span f s)) as [|c t'] eqn:E2; [discriminate|].
  destruct (Z.eqb_spec c 47) as [->|]; [|discriminate]. intros [= <- <-]. repeat split; [exact S|discriminate|exact A].
Qed.
Lemma piece_ok f p t : f 47 = false -> p <> [] -> Forall (fun c => f c = true) p -> piece f (p ++ 47 :: t) = Some (p, t).
Proof. intros F N A. unfold piece. rewrite span_stop by assumption. cbn [fst snd]. destruct p; [congruence|reflexivity]. Qed.
Lemma part_iff p : part p <-> p <> [] /\ Forall (fun c => no_slash c = true) p.
Proof.
  unfold part, no_slash. split; intros [N H]; split; try assumption.
  - apply Forall_forall. intros x Hx. apply negb_true_iff, Z.eqb_neq. intros ->. now apply H.
  - intros I. rewrite Forall_forall in H. specialize (H _ I). discriminate H.
Qed.
Definition num_cls (c : Z) : bool := is_dig c || (c =? 46).
Lemma numeric_iff p : numeric p <-> p <> [] /\ Forall (fun c => num_cls c = true) p.
Proof.
  unfold numeric, num_cls, is_dig. split; intros [N H]; split; try assumption; eapply Forall_impl; try exact H; cbn beta; intros c; lia.
Qed.

Definition end_of (s : str) (cs : caps) : option caps := match s with [] => Some cs | _ => None end.
Lemma mapccy_match s : full_match mapccy_re s =
  match s with
  | c :: s1 => if c =? 47 then
      match piece no_slash s1 with
      | Some (p, s2) => match piece no_slash s2 with Some (q, s3) => end_of s3 [(2%nat, q); (1%nat, p)] | None => None end
      | None => None end else None
  | [] => None
  end.
Proof.
  unfold full_match, mapccy_re.
  change (rmatch (RSeq r_slash ?r) s [] ?k) with (rmatch r_slash s [] (fun s' cs => rmatch r s' cs k)). rewrite slash_step.
  destruct s as [|c s1]; [reflexivity|]. destruct (c =? 47); [|reflexivity].
  change (rmatch (RSeq ?a (RSeq r_slash ?r)) s1 ?cs ?k) with (rmatch a s1 cs (fun s' cs' => rmatch r_slash s' cs' (fun s'' cs'' => rmatch r s'' cs'' k))).
  rewrite piece_step by reflexivity. destruct (piece no_slash s1) as [[p s2]|]; [|reflexivity].
  change (rmatch (RSeq ?a r_slash) s2 ?cs ?k) with (rmatch a s2 cs (fun s' cs' => rmatch r_slash s' cs' k)).
  rewrite piece_step by reflexivity. reflexivity.
Qed.
Lemma map_match s : full_match map_re s =
  match s with
  | c :: s1 => if c =? 47 then
      match piece no_slash s1 with
      | Some (p, s2) =>
          match piece no_slash s2 with
          | Some (q, s3) =>
              match piece no_slash s3 with
              | Some (a, []) => Some [(3%nat, a ++ [47]); (4%nat, a); (2%nat, q); (1%nat, p)]
              | _ => end_of s3 [(2%nat, q); (1%nat, p)]
              end
          | None => None end
      | None => None end else None
  | [] => None
  end.
Proof.
  unfold full_match, map_re.
  change (rmatch (RSeq r_slash ?r) s [] ?k) with (rmatch r_slash s [] (fun s' cs => rmatch r s' cs k)). rewrite slash_step.
  destruct s as [|c s1]; [reflexivity|]. destruct (c =? 47); [|reflexivity].
  change (rmatch (RSeq ?a (RSeq r_slash ?r)) s1 ?cs ?k) with (rmatch a s1 cs (fun s' cs' => rmatch r_slash s' cs' (fun s'' cs'' => rmatch r s'' cs'' k))).
  rewrite piece_step by reflexivity. destruct (piece no_slash s1) as [[p s2]|]; [|reflexivity].
  change (rmatch (RSeq ?a (RSeq r_slash ?r)) s2 ?cs ?k) with (rmatch a s2 cs (fun s' cs' => rmatch r_slash s' cs' (fun s'' cs'' => rmatch r s'' cs'' k))).
  rewrite piece_step by reflexivity. destruct (piece no_slash s2) as [[q s3]|]; [|reflexivity].
  change (rmatch (ROpt ?a) s3 ?cs ?k) with (match rmatch a s3 cs k with Some x => Some x | None => k s3 cs end).
  change (rmatch (RCap 3 (RSeq ?a r_slash)) s3 ?cs ?k) with
    (rmatch a s3 cs (fun s' cs' => rmatch r_slash s' cs' (fun s'' cs'' => k s'' ((3%nat, firstn (length s3 - length s'') s3) :: cs'')))).
  rewrite piece_step by reflexivity. destruct (piece no_slash s3) as [[a s4]|] eqn:E; [|reflexivity].
  destruct s4; [|reflexivity]. apply piece_inv in E as (-> & _ & _).
  cbn [length]. rewrite Nat.sub_0_r, firstn_all. reflexivity.
Qed.
Lemma number_match s : full_match number_re s =
  match s with
  | c :: s1 => if c =? 47 then
      match piece no_slash s1 with
      | Some (p, s2) =>
          match piece no_slash s2 with
          | Some (q, s3) => match piece num_cls s3 with Some (n, s4) => end_of s4 [(3%nat, n); (2%nat, q); (1%nat, p)] | None => None end
          | None => None end
      | None => None end else None
  | [] => None
  end.
Proof.
  unfold full_match, number_re.
  change (rmatch (RSeq r_slash ?r) s [] ?k) with (rmatch r_slash s [] (fun s' cs => rmatch r s' cs k)). rewrite slash_step.
  destruct s as [|c s1]; [reflexivity|]. destruct (c =? 47); [|reflexivity].
  change (rmatch (RSeq ?a (RSeq r_slash ?r)) s1 ?cs ?k) with (rmatch a s1 cs (fun s' cs' => rmatch r_slash s' cs' (fun s'' cs'' => rmatch r s'' cs'' k))).
  rewrite piece_step by reflexivity. destruct (piece no_slash s1) as [[p s2]|]; [|reflexivity].
  change (rmatch (RSeq ?a (RSeq r_slash ?r)) s2 ?cs ?k) with (rmatch a s2 cs (fun s' cs' => rmatch r_slash s' cs' (fun s'' cs'' => rmatch r s'' cs'' k))).
  rewrite piece_step by reflexivity. destruct (piece no_slash s2) as [[q s3]|]; [|reflexivity].
  change (rmatch (RSeq ?a r_slash) s3 ?cs ?k) with (rmatch a s3 cs (fun s' cs' => rmatch r_slash s' cs' k)).
  rewrite piece_step by reflexivity. reflexivity.
Qed.

(** shapes *)
Lemma mapccy_shape s cs : full_match mapccy_re s = Some cs ->
  exists p q, part p /\ part q /\ s = sl ++ p ++ sl ++ q ++ sl /\ group cs 1 = p /\ group cs 2 = q.
Proof.
  rewrite mapccy_match. destruct s as [|c s1]; [discriminate|]. destruct (Z.eqb_spec c 47) as [->|]; [|discriminate].
  destruct (piece no_slash s1) as [[p s2]|] eqn:E1; [|discriminate]. destruct (piece no_slash s2) as [[q s3]|] eqn:E2; [|discriminate].
  destruct s3; [|discriminate]. intros [= <-]. apply piece_inv in E1 as (-> & A1). apply piece_inv in E2 as (-> & A2).
  exists p, q. split; [now apply part_iff|]. split; [now apply part_iff|]. now repeat split.
Qed.
Lemma mapccy_shape' p q : part p -> part q -> exists cs, full_match mapccy_re (sl ++ p ++ sl ++ q ++ sl) = Some cs /\ group cs 1 = p /\ group cs 2 = q.
Proof.
  intros P Q. apply part_iff in P as [P1 P2]. apply part_iff in Q as [Q1 Q2]. rewrite mapccy_match. unfold sl. cbn [app]. cbn [Z.eqb Pos.eqb].
  rewrite (piece_ok no_slash p) by (assumption || reflexivity). rewrite (piece_ok no_slash q) by (assumption || reflexivity).
  eexists. split; [reflexivity|]. split; reflexivity.
Qed.
Lemma map_shape s cs : full_match map_re s = Some cs ->
  exists p q a, part p /\ part q /\ (part a /\ s = sl ++ p ++ sl ++ q ++ sl ++ a ++ sl \/ a = [] /\ s = sl ++ p ++ sl ++ q ++ sl)
    /\ group cs 1 = p /\ group cs 2 = q /\ group cs 4 = a.
Proof.
  rewrite map_match. destruct s as [|c s1]; [discriminate|]. destruct (Z.eqb_spec c 47) as [->|]; [|discriminate].
  destruct (piece no_slash s1) as [[p s2]|] eqn:E1; [|discriminate]. destruct (piece no_slash s2) as [[q s3]|] eqn:E2; [|discriminate].
  apply piece_inv in E1 as (-> & A1). apply piece_inv in E2 as (-> & A2).
  destruct (piece no_slash s3) as [[a s4]|] eqn:E3; [destruct s4|].
  - apply piece_inv in E3 as (-> & A3). intros [= <-]. exists p, q, a. split; [now apply part_iff|]. split; [now apply part_iff|].
    split; [left; split; [now apply part_iff|reflexivity]|]. now repeat split.
  - destruct s3; [discriminate E3|discriminate].
  - destruct s3; [|discriminate]. intros [= <-]. exists p, q, []. split; [now apply part_iff|]. split; [now apply part_iff|].
    split; [right; now split|]. now repeat split.
Qed.
Lemma map_shape2 p q : part p -> part q ->
  exists cs, full_match map_re (sl ++ p ++ sl ++ q ++ sl) = Some cs /\ group cs 1 = p /\ group cs 2 = q /\ group cs 4 = [].
Proof.
  intros P Q. apply part_iff in P as [P1 P2]. apply part_iff in Q as [Q1 Q2]. rewrite map_match. unfold sl. cbn [app]. cbn [Z.eqb Pos.eqb].
  rewrite (piece_ok no_slash p) by (assumption || reflexivity). rewrite (piece_ok no_slash q) by (assumption || reflexivity).
  eexists. split; [reflexivity|]. repeat split; reflexivity.
Qed.
Lemma map_shape3 p q a : part p -> part q -> part a ->
  exists cs, full_match map_re (sl ++ p ++ sl ++ q ++ sl ++ a ++ sl) = Some cs /\ group cs 1 = p /\ group cs 2 = q /\ group cs 4 = a.
Proof.
  intros P Q A. apply part_iff in P as [P1 P2]. apply part_iff in Q as [Q1 Q2]. apply part_iff in A as [A1 A2].
  rewrite map_match. unfold sl. cbn [app]. cbn [Z.eqb Pos.eqb].
  rewrite (piece_ok no_slash p) by (assumption || reflexivity). rewrite (piece_ok no_slash q) by (assumption || reflexivity).
  rewrite (piece_ok no_slash a) by (assumption || reflexivity).
  eexists. split; [reflexivity|]. repeat split; reflexivity.
Qed.
Lemma number_shape s cs : full_match number_re s = Some cs ->
  exists p q n, part p /\ part q /\ numeric n /\ s = sl ++ p ++ sl ++ q ++ sl ++ n ++ sl /\ group cs 1 = p /\ group cs 2 = q /\ group cs 3 = n.
Proof.
  rewrite number_match. destruct s as [|c s1]; [discriminate|]. destruct (Z.eqb_spec c 47) as [->|]; [|discriminate].
  destruct (piece no_slash s1) as [[p s2]|] eqn:E1; [|discriminate]. destruct (piece no_slash s2) as [[q s3]|] eqn:E2; [|discriminate].
  destruct (piece num_cls s3) as [[n s4]|] eqn:E3; [|discriminate].
  destruct s4; [|discriminate]. intros [= <-]. apply piece_inv in E1 as (-> & A1). apply piece_inv in E2 as (-> & A2). apply piece_inv in E3 as (-> & A3).
  exists p, q, n. split; [now apply part_iff|]. split; [now apply part_iff|]. split; [now apply numeric_iff|]. now repeat split.
Qed.
Lemma number_shape' p q n : part p -> part q -> numeric n ->
  exists cs, full_match number_re (sl ++ p ++ sl ++ q ++ sl ++ n ++ sl) = Some cs /\ group cs 1 = p /\ group cs 2 = q /\ group cs 3 = n.
Proof.
  intros P Q A. apply part_iff in P as [P1 P2]. apply part_iff in Q as [Q1 Q2]. apply numeric_iff in A as [A1 A2].
  rewrite number_match. unfold sl. cbn [app]. cbn [Z.eqb Pos.eqb].
  rewrite (piece_ok no_slash p) by (assumption || reflexivity). rewrite (piece_ok no_slash q) by (assumption || reflexivity).
  rewrite (piece_ok num_cls n) by (assumption || reflexivity).
  eexists. split; [reflexivity|]. repeat split; reflexivity.
Qed.

(** ** The operation name *)
Lemma op_name_eq s t a : op_name s = Some (t, a) -> s = t ++ a.
Proof.
  revert t. induction s as [|c s IH]; intros t; [discriminate|]. cbn. destruct (Z.eqb_spec c 61) as [->|].
  - intros [= <- <-]. reflexivity.
  - destruct (op_next c); [|discriminate]. destruct (op_name s) as [[t' a']|]; [|discriminate]. intros [= <- <-]. now rewrite (IH t').
Qed.
Lemma op_split_eq s t a : op_split s = Some (t, a) -> s = t ++ a.
Proof.
  destruct s as [|c s]; [discriminate|]. cbn. destruct (op_first c); [|discriminate].
  destruct (op_name s) as [[t' a']|] eqn:E; [|discriminate]. intros [= <- <-]. now rewrite (op_name_eq _ _ _ E).
Qed.

(** ** EqualFold *)
Lemma lower_floor p : In p floor_types -> map lower p = p.
Proof. intros H. repeat (destruct H as [<-|H]; [reflexivity|]). destruct H. Qed.
Lemma small_floor p : In p floor_types -> Forall (fun y => 97 <= y <= 122) p.
Proof. intros H. repeat (destruct H as [<-|H]; [repeat constructor; cbn; lia|]). destruct H. Qed.
Lemma equal_fold_iff t p : In p floor_types -> equal_fold t p = true <-> same_letters t p.
Proof.
  intros Hp. unfold equal_fold. rewrite str_eqb_eq, (lower_floor p Hp). apply small_floor in Hp. unfold same_letters.
  revert p Hp. induction t as [|x t IH]; intros [|y p] Hp; cbn; split; try discriminate; try (intros H; inversion H; fail); try constructor.
  - apply Forall_cons_iff in Hp as [Hy Hp]. injection H as E E2. unfold lower in E. destruct ((65 <=? x) && (x <=? 90)) eqn:C; [right|left]; lia.
  - apply Forall_cons_iff in Hp as [Hy Hp]. injection H as E E2. now apply IH.
  - intros H. apply Forall_cons_iff in Hp as [Hy Hp]. inversion H as [|? ? ? ? Hh Ht]; subst. f_equal.
    + unfold lower. destruct Hh as [->|[Hh ->]].
      * replace ((65 <=? y) && (y <=? 90)) with false by lia. reflexivity.
      * replace ((65 <=? x) && (x <=? 90)) with true by lia. reflexivity.
    + now apply IH.
Qed.
Lemma find_floor_some t l p : (forall x, In x l -> In x floor_types) -> find_floor t l = Some p -> In p l /\ same_letters t p.
Proof.
  induction l as [|q l IH]; intros Hl; cbn; [discriminate|]. destruct (equal_fold t q) eqn:E.
  - intros [= <-]. split; [now left|]. apply equal_fold_iff; [apply Hl; now left|exact E].
  - intros H. apply IH in H; [|intros x Hx; apply Hl; now right]. destruct H. split; [now right|assumption].
Qed.
Lemma same_letters_fold t p : In p floor_types -> same_letters t p -> map lower t = p.
Proof. intros Hp H. apply equal_fold_iff in H; [|assumption]. unfold equal_fold in H. apply str_eqb_eq in H. now rewrite H, lower_floor. Qed.
Lemma find_floor_ok t p : In p floor_types -> same_letters t p -> find_floor t floor_types = Some p.
Proof.
  intros Hp H. destruct (find_floor t floor_types) as [q|] eqn:E.
  - apply find_floor_some in E as [Hq E]; [|auto]. f_equal. now rewrite <- (same_letters_fold t q), <- (same_letters_fold t p).
  - exfalso. apply equal_fold_iff in H; [|assumption]. revert E Hp. generalize floor_types. induction l as [|x l IH]; [contradiction|].
    cbn. destruct (equal_fold t x) eqn:Ex; [discriminate|]. intros E [->|Hp]; [congruence|now apply IH].
Qed.

(** ** An operation does what it means *)
Section Meaning.
  Variable srt : list posting -> list posting.
  Variable compile : str -> option regexp.
  Variable parse_float : str -> option Qc.
  Variable today : Z.
  Variable ploop : (pair -> pair) -> pbook -> pbook.
  Notation plain_op := (plain_op srt compile parse_float today ploop).
  Notation means := (means parse_float today).
  Notation perform := (perform srt compile today ploop).

  Lemma fine_ok o : fine (do b' <- o; Ok b') = fine o.
  Proof. destruct o; reflexivity. Qed.
  Lemma has_part p : part p -> negb (str_eqb p []) = true.
  Proof. intros [N _]. destruct p; [congruence|reflexivity]. Qed.

  Ltac name_step := unfold BookOpModel.plain_op;
    match goal with |- context [op_split (?l ++ ?r)] => change (op_split (l ++ r)) with (op_split (l ++ r)) end.

  Lemma means_plain op a b : means op a -> plain_op b op = fine (perform a b).
  Proof.
    destruct 1 as [s r Ps Pr|s r Ps Pr|s r al Ps Pr Pa|s r n q Ps Pr Pn Hq|t Ht|t Ht|t p Hp Ht|s r n k Ps Pr Pn Hk];
      unfold BookOpModel.plain_op, BookOpSpec.perform; cbn [pattern_of].
    - destruct (mapccy_shape' s r Ps Pr) as (cs & E & <- & <-).
      change (op_split _) with (Some (bs "mapccy=", sl ++ group cs 1 ++ sl ++ group cs 2 ++ sl)).
      cbv beta iota. change (str_eqb (bs "mapccy=") (bs "mapccy=")) with true. cbv iota. rewrite E.
      unfold must_compile. destruct (compile _); reflexivity.
    - destruct (map_shape2 s r Ps Pr) as (cs & E & <- & G2 & G4). rewrite <- G2 in Pr, E |- *.
      change (op_split _) with (Some (bs "map=", sl ++ group cs 1 ++ sl ++ group cs 2 ++ sl)).
      cbv beta iota. change (str_eqb (bs "map=") (bs "mapccy=")) with false. change (str_eqb (bs "map=") (bs "map=")) with true. cbv iota. rewrite E.
      rewrite G4, (has_part _ Pr). unfold must_compile. destruct (compile _); reflexivity.
    - destruct (map_shape3 s r al Ps Pr Pa) as (cs & E & <- & G2 & G4). rewrite <- G2, <- G4 in E |- *. rewrite <- G2 in Pr.
      change (op_split _) with (Some (bs "map=", sl ++ group cs 1 ++ sl ++ group cs 2 ++ sl ++ group cs 4 ++ sl)).
      cbv beta iota. change (str_eqb (bs "map=") (bs "mapccy=")) with false. change (str_eqb (bs "map=") (bs "map=")) with true. cbv iota. rewrite E.
      rewrite (has_part _ Pr). unfold must_compile. destruct (compile _); reflexivity.
    - destruct (number_shape' s r n Ps Pr Pn) as (cs & E & <- & <- & <-).
      change (op_split _) with (Some (bs "move=", sl ++ group cs 1 ++ sl ++ group cs 2 ++ sl ++ group cs 3 ++ sl)).
      cbv beta iota. change (str_eqb (bs "move=") (bs "mapccy=")) with false. change (str_eqb (bs "move=") (bs "map=")) with false.
      change (str_eqb (bs "move=") (bs "move=")) with true. cbv iota. rewrite E, Hq.
      unfold must_compile. destruct (compile _); reflexivity.
    - change (op_split _) with (Some (bs "asof=", t)). cbv beta iota.
      change (str_eqb (bs "asof=") (bs "mapccy=")) with false. change (str_eqb (bs "asof=") (bs "map=")) with false.
      change (str_eqb (bs "asof=") (bs "move=")) with false. change (str_eqb (bs "asof=") (bs "asof=")) with true. cbv iota zeta.
      apply Z.eqb_neq in Ht. rewrite Ht. reflexivity.
    - change (op_split _) with (Some (bs "since=", t)). cbv beta iota.
      change (str_eqb (bs "since=") (bs "mapccy=")) with false. change (str_eqb (bs "since=") (bs "map=")) with false.
      change (str_eqb (bs "since=") (bs "move=")) with false. change (str_eqb (bs "since=") (bs "asof=")) with false.
      change (str_eqb (bs "since=") (bs "since=")) with true. cbv iota zeta.
      apply Z.eqb_neq in Ht. rewrite Ht. reflexivity.
    - change (op_split _) with (Some (bs "combine=", t)). cbv beta iota.
      change (str_eqb (bs "combine=") (bs "mapccy=")) with false. change (str_eqb (bs "combine=") (bs "map=")) with false.
      change (str_eqb (bs "combine=") (bs "move=")) with false. change (str_eqb (bs "combine=") (bs "asof=")) with false.
      change (str_eqb (bs "combine=") (bs "since=")) with false. change (str_eqb (bs "combine=") (bs "combine=")) with true. cbv iota zeta.
      rewrite (find_floor_ok t p Hp Ht). reflexivity.
    - destruct (number_shape' s r n Ps Pr Pn) as (cs & E & <- & <- & <-).
      change (op_split _) with (Some (bs "depreciate=", sl ++ group cs 1 ++ sl ++ group cs 2 ++ sl ++ group cs 3 ++ sl)).
      cbv beta iota.
      change (str_eqb (bs "depreciate=") (bs "mapccy=")) with false. change (str_eqb (bs "depreciate=") (bs "map=")) with false.
      change (str_eqb (bs "depreciate=") (bs "move=")) with false. change (str_eqb (bs "depreciate=") (bs "asof=")) with false.
      change (str_eqb (bs "depreciate=") (bs "since=")) with false. change (str_eqb (bs "depreciate=") (bs "combine=")) with false.
      change (str_eqb (bs "depreciate=") (bs "depreciate=")) with true. cbv iota zeta. rewrite E, Hk.
      unfold must_compile. destruct (compile _); reflexivity.
  Qed.

  Lemma plain_cases op b : (exists a, means op a) \/ plain_op b op = Ok (b, Some op).
  Proof.
    unfold BookOpModel.plain_op. destruct (op_split op) as [[ty act]|] eqn:E; [|now right]. apply op_split_eq in E.
    destruct (str_eqb ty (bs "mapccy=")) eqn:E1.
    { apply str_eqb_eq in E1. destruct (full_match mapccy_re act) as [cs|] eqn:F; [left|now right].
      apply mapccy_shape in F as (p & q & Pp & Pq & -> & _). exists (AMapCcy p q). rewrite E, E1. now apply (m_mapccy _ _ p q). }
    destruct (str_eqb ty (bs "map=")) eqn:E2.
    { apply str_eqb_eq in E2. destruct (full_match map_re act) as [cs|] eqn:F; [left|now right].
      apply map_shape in F as (p & q & al & Pp & Pq & [[Pa ->]|[-> ->]] & _).
      - exists (AMap p q al). rewrite E, E2. now apply (m_map_alt _ _ p q al).
      - exists (AMap p q []). rewrite E, E2. now apply (m_map _ _ p q). }
    destruct (str_eqb ty (bs "move=")) eqn:E3.
    { apply str_eqb_eq in E3. destruct (full_match number_re act) as [cs|] eqn:F; [|now right].
      apply number_shape in F as (p & q & n & Pp & Pq & Pn & -> & _ & _ & ->).
      destruct (parse_float n) as [v|] eqn:V; [left|now right].
      exists (AMove p q v). rewrite E, E3. now apply (m_move _ _ p q n v). }
    destruct (str_eqb ty (bs "asof=")) eqn:E4.
    { apply str_eqb_eq in E4. cbv zeta. destruct (Z.eqb_spec (date_from_string today act) 0) as [Z0|N]; [now right|left].
      exists (AAsof (date_from_string today act)). rewrite E, E4. now apply m_asof. }
    destruct (str_eqb ty (bs "since=")) eqn:E5.
    { apply str_eqb_eq in E5. cbv zeta. destruct (Z.eqb_spec (date_from_string today act) 0) as [Z0|N]; [now right|left].
      exists (ASince (date_from_string today act)). rewrite E, E5. now apply m_since. }
    destruct (str_eqb ty (bs "combine=")) eqn:E6.
    { apply str_eqb_eq in E6. destruct (find_floor act floor_types) as [p|] eqn:F; [left|now right].
      apply find_floor_some in F as [Hp Hs]; [|auto]. exists (ACombine p). rewrite E, E6. now apply m_combine. }
    destruct (str_eqb ty (bs "depreciate=")) eqn:E7; [|now right].
    apply str_eqb_eq in E7. destruct (full_match number_re act) as [cs|] eqn:F; [|now right].
    apply number_shape in F as (p & q & n & Pp & Pq & Pn & -> & _ & _ & ->).
    destruct (atoi n) as [v|] eqn:V; [left|now right].
    exists (ADepreciate p q v). rewrite E, E7. now apply (m_depreciate _ _ p q n v).
  Qed.

  Lemma malformed_plain op b : (forall a, ~ means op a) -> plain_op b op = Ok (b, Some op).
  Proof. intros H. destruct (plain_cases op b) as [[a Ha]|E]; [now apply H in Ha|exact E]. Qed.

  (** ** Sequencing and macros *)
  Lemma each_app one l1 l2 b :
    each one (l1 ++ l2) b = (do (b', e) <- each one l1 b; match e with None => each one l2 b' | Some x => Ok (b', Some x) end).
  Proof.
    revert b. induction l1 as [|op l1 IH]; intros b; [reflexivity|]. cbn [each app].
    destruct (one b op) as [[b' [x|]]| | |]; try reflexivity. cbn [obind]. apply IH.
  Qed.
  Lemma each_ext one two l : (forall b op, In op l -> one b op = two b op) -> forall b, each one l b = each two l b.
  Proof.
    induction l as [|op l IH]; intros H b; [reflexivity|]. cbn [each]. rewrite (H b op) by now left.
    destruct (two b op) as [[b' [x|]]| | |]; try reflexivity. cbn [obind]. apply IH. intros; apply H; now right.
  Qed.

  Notation book_op := (book_op srt compile parse_float today ploop).
  Notation book_ops := (book_ops srt compile parse_float today ploop).
  Lemma no_macros_plain n l b : book_ops no_macros (S n) l b = each plain_op l b.
  Proof. apply each_ext. reflexivity. Qed.

  Lemma expand_run table ops l : expands table ops l ->
    exists n0, forall n, (n0 <= n)%nat -> forall b, book_ops table n ops b = each plain_op l b.
  Proof.
    induction 1 as [|op ops l Hop _ [n0 IH]|op body ops l l' Hop _ [n1 IH1] _ [n2 IH2]].
    - exists O. reflexivity.
    - exists (S n0). intros n Hn b. unfold BookOpModel.book_ops in *. cbn [each].
      destruct n as [|n]; [lia|]. change (book_op table (S n) b op) with (match table op with Some body => each (book_op table n) body b | None => plain_op b op end).
      rewrite Hop. destruct (plain_op b op) as [[b' [x|]]| | |]; try reflexivity. cbn [obind]. apply IH. lia.
    - exists (S (n1 + n2)). intros n Hn b. unfold BookOpModel.book_ops in *. rewrite each_app. cbn [each].
      destruct n as [|n]; [lia|]. change (book_op table (S n) b op) with (match table op with Some body => each (book_op table n) body b | None => plain_op b op end).
      rewrite Hop, IH1 by lia. destruct (each plain_op l b) as [[b' [x|]]| | |]; try reflexivity. cbn [obind]. apply IH2. lia.
  Qed.

  Lemma acyclic_expands table : acyclic table -> forall ops, exists l, expands table ops l.
  Proof.
    intros [rank R].
    assert (H : forall n ops, (forall x, In x ops -> table x <> None -> (rank x < n)%nat) -> exists l, expands table ops l).
    { induction n as [|n IHn]; intros ops; induction ops as [|op ops IH]; intros Hr.
      - exists []. constructor.
      - destruct IH as [l Hl]; [intros x Hx; apply Hr; now right|]. exists (op :: l).
        apply e_plain; [|exact Hl]. destruct (table op) eqn:E; [|reflexivity]. exfalso.
        assert (table op <> None) as N by congruence. apply Hr in N; [lia|now left].
      - exists []. constructor.
      - destruct IH as [l Hl]; [intros x Hx; apply Hr; now right|].
        destruct (table op) as [body|] eqn:E; [|exists (op :: l); now apply e_plain].
        destruct (IHn body) as [l1 Hl1].
        { intros x Hx Nx. specialize (R op body x E Hx Nx). assert (rank op < S n)%nat; [|lia]. apply Hr; [now left|congruence]. }
        exists (l1 ++ l). now apply (e_macro _ op body). }
    intros ops. apply (H (S (list_max (map rank ops)))). intros x Hx _.
    assert (rank x <= list_max (map rank ops))%nat; [|lia].
    apply (proj1 (list_max_le (map rank ops) (list_max (map rank ops)))) in Hx || (
      pose proof (proj1 (list_max_le (map rank ops) (list_max (map rank ops))) (le_n _)) as F; rewrite Forall_forall in F; apply F; now apply in_map).
  Qed.

  Lemma book_op_mono table : forall n b op, book_op table n b op <> Diverge -> book_op table (S n) b op = book_op table n b op.
  Proof.
    induction n as [|n IH]; intros b op; [cbn; congruence|].
    change (book_op table (S n) b op) with (match table op with Some body => each (book_op table n) body b | None => plain_op b op end).
    change (book_op table (S (S n)) b op) with (match table op with Some body => each (book_op table (S n)) body b | None => plain_op b op end).
    destruct (table op) as [body|]; [|reflexivity]. revert b. induction body as [|x body IHb]; intros b H; [reflexivity|].
    cbn [each] in *. destruct (book_op table n b x) eqn:E; rewrite ?IH, ?E by congruence; try reflexivity.
    - destruct a as [b' [y|]]; [reflexivity|]. cbn [obind] in *. now apply IHb.
    - cbn in H. congruence.
  Qed.
  Lemma book_ops_mono table n m ops b : (n <= m)%nat -> book_ops table n ops b <> Diverge -> book_ops table m ops b = book_ops table n ops b.
  Proof.
    induction 1 as [|m Hm IH]; [reflexivity|]. intros H. rewrite <- IH by exact H. rewrite <- IH in H by exact H. clear IH.
    unfold BookOpModel.book_ops in *. revert b H. induction ops as [|x ops IHb]; intros b H; [reflexivity|].
    cbn [each] in *. destruct (book_op table m b x) eqn:E; rewrite ?book_op_mono, ?E by congruence; try reflexivity.
    - destruct a as [b' [y|]]; [reflexivity|]. cbn [obind] in *. now apply IHb.
    - cbn in H. congruence.
  Qed.

  (** the first error *)
  Lemma fine_none o b x : fine o <> Ok (b, Some x).
  Proof. destruct o; cbn; congruence. Qed.
  Lemma plain_err b op b' x : plain_op b op = Ok (b', Some x) -> op = x /\ b = b'.
  Proof.
    unfold BookOpModel.plain_op. intros E.
    repeat match type of E with context [match ?e with _ => _ end] => destruct e end; cbv zeta in E;
      first [injection E as <- <-; split; reflexivity|exfalso; exact (fine_none _ _ _ E)|idtac].
  Qed.
  Lemma first_error l b b' op : each plain_op l b = Ok (b', Some op) <->
    exists l1 l2, l = l1 ++ op :: l2 /\ each plain_op l1 b = Ok (b', None) /\ plain_op b' op = Ok (b', Some op).
  Proof.
    split.
    - revert b. induction l as [|x l IH]; intros b; [discriminate|]. cbn [each]. destruct (plain_op b x) as [[b1 [y|]]| | |] eqn:E; try discriminate.
      + cbn. intros [= -> ->]. assert (x = op /\ b = b') as [-> ->].
        { now apply plain_err in E. }
        exists [], l. repeat split. exact E.
      + cbn [obind]. intros H. apply IH in H as (l1 & l2 & -> & H1 & H2). exists (x :: l1), l2. repeat split; [|exact H2].
        cbn [each]. rewrite E. exact H1.
    - intros (l1 & l2 & -> & H1 & H2). rewrite each_app, H1. cbn [obind each]. now rewrite H2.
  Qed.
End Meaning.
