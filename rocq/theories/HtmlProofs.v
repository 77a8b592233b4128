(** * HtmlProofs: counting the elements opened and closed by the HTML report (C72). *)
From Verif Require Import Base Dec DateModel PriceModel BookModel RegisterModel Utf8 LoaderModel ExportModel PrintModel ReportSpec.

Definition surplus (s : str) : Z := opened s - closed s.
Definition free (s : str) : Prop := ~ In 60 s.
Fixpoint complete (s : str) : bool := match s with [] => true | c :: s' => (negb (c =? 60) || (5 <=? length s')%nat) && complete s' end.

Lemma starts_app pat : forall a s, (length pat <= length a)%nat -> starts pat (a ++ s) = starts pat a.
Proof. induction pat as [|x pat IH]; intros [|y a] s H; cbn [length app starts] in *; try reflexivity; try lia. rewrite IH by lia. reflexivity. Qed.
Lemma count_app pat a s : (length pat <= 6)%nat -> hd 0 pat = 60 -> complete a = true -> count_sub pat (a ++ s) = count_sub pat a + count_sub pat s.
Proof.
  intros Hl Hh. induction a as [|c a IH]; intros H; [reflexivity|]. cbn [complete] in H. apply andb_true_iff in H as [H1 H2]. cbn [app count_sub]. rewrite (IH H2).
  assert (E : starts pat (c :: a ++ s) = starts pat (c :: a)).
  { destruct (Z.eqb_spec c 60) as [->|N].
    - cbn [negb orb] in H1. apply Nat.leb_le in H1. apply (starts_app pat (60 :: a) s). cbn [length]. lia.
    - destruct pat as [|x pat]; [discriminate|]. cbn [hd] in Hh. subst x. cbn [starts]. destruct (Z.eqb_spec 60 c); [congruence|reflexivity]. }
  rewrite E. lia.
Qed.
Lemma surplus_app a s : complete a = true -> surplus (a ++ s) = surplus a + surplus s.
Proof. intros H. unfold surplus, opened, closed. rewrite !count_app by (assumption || reflexivity || (cbn; lia)). lia. Qed.
Lemma free_complete s : free s -> complete s = true.
Proof. induction s as [|c s IH]; intros H; [reflexivity|]. cbn [complete]. rewrite IH by (intros F; apply H; right; exact F). destruct (Z.eqb_spec c 60) as [->|N]; [destruct H; left; reflexivity|reflexivity]. Qed.
Lemma free_surplus s : free s -> surplus s = 0.
Proof.
  intros H. unfold surplus, opened, closed. assert (C : forall pat, hd 0 pat = 60 -> count_sub pat s = 0).
  { intros pat Hp. induction s as [|c s IH]; [reflexivity|]. cbn [count_sub]. rewrite IH by (intros F; apply H; right; exact F). destruct pat as [|x pat]; [discriminate|]. cbn [hd] in Hp. subst x. cbn [starts].
    destruct (Z.eqb_spec 60 c) as [<-|N]; [destruct H; left; reflexivity|reflexivity]. }
  rewrite !C by reflexivity. reflexivity.
Qed.
Lemma surplus_free a s : free a -> surplus (a ++ s) = surplus s.
Proof. intros H. rewrite surplus_app by (apply free_complete; exact H). rewrite free_surplus by exact H. lia. Qed.

Lemma free_spaces n : free (repeat 32 n).
Proof. intros H. apply repeat_spec in H. discriminate. Qed.
Lemma free_app a b : free a -> free b -> free (a ++ b).
Proof. intros Ha Hb H. apply in_app_iff in H as [H|H]; contradiction. Qed.
Lemma free_lit s : existsb (Z.eqb 60) s = false -> free s.
Proof. intros E F. assert (existsb (Z.eqb 60) s = true) by (apply existsb_exists; exists 60; split; [exact F|reflexivity]). congruence. Qed.

(** ** Numbers and dates consist of digits, ",-./" and blanks. *)
Definition numchars (s : str) : Prop := Forall (fun c => 44 <= c <= 57 \/ c = 32) s.
Lemma num_app a b : numchars a -> numchars b -> numchars (a ++ b).
Proof. intros Ha Hb. apply Forall_app. split; assumption. Qed.
Lemma num_dec n : numchars (dec n).
Proof.
  unfold dec. generalize (S (Z.to_nat (Z.log2 n))). intros fuel. assert (H : numchars []) by constructor. revert H. generalize (@nil Z). revert n.
  induction fuel as [|f IH]; intros n acc H; [exact H|]. cbn [dec_aux]. assert (H' : numchars ((48 + n mod 10) :: acc)) by (constructor; [pose proof (Z.mod_pos_bound n 10); lia|exact H]).
  destruct (n / 10 =? 0); [exact H'|]. apply IH. exact H'.
Qed.
Lemma num_zpad w s : numchars s -> numchars (zpad w s).
Proof. intros H. apply num_app; [|exact H]. apply Forall_forall. intros x Hx. apply repeat_spec in Hx. lia. Qed.
Lemma num_fmt_0d w z : numchars (fmt_0d w z).
Proof. unfold fmt_0d. destruct (z <? 0); [constructor; [lia|]|]; apply num_zpad, num_dec. Qed.
Lemma num_date d : numchars (date_string d).
Proof.
  unfold date_string. destruct (d =? 0); [apply Forall_forall; intros x Hx; apply repeat_spec in Hx; lia|].
  repeat (apply num_app; [first [apply num_fmt_0d | repeat constructor; lia]|]). apply num_fmt_0d.
Qed.
Lemma num_group3 l : numchars l -> numchars (group3 l).
Proof.
  assert (H : forall n l, (length l <= n)%nat -> numchars l -> numchars (group3 l)); [|intros; eapply H; [apply Nat.le_refl|assumption]].
  induction n as [|n IH]; intros [|a [|b [|c [|d m]]]] Hn Hl; cbn [length] in Hn; try lia; try exact Hl.
  change (numchars (a :: b :: c :: 44 :: group3 (d :: m))). inversion Hl as [|? ? A L1]; inversion L1 as [|? ? B L2]; inversion L2 as [|? ? C L3]; subst. repeat (constructor; [first [assumption|lia]|]). apply IH; [cbn [length]; lia|exact L3].
Qed.
Lemma num_grouped s : numchars s -> numchars (grouped s).
Proof. intros H. unfold grouped. apply Forall_rev. apply num_group3. apply Forall_rev. exact H. Qed.
Lemma num_fmt_float k f : numchars (fmt_float k f).
Proof.
  unfold fmt_float. apply num_app; [destruct (f ?= 0)%Qc; repeat constructor; lia|]. apply num_app; [apply num_grouped, num_dec|].
  destruct (k =? 0); [constructor|]. apply num_app; [repeat constructor; lia|]. apply num_zpad, num_dec.
Qed.
Lemma num_free s : numchars s -> free s.
Proof. intros H F. unfold numchars in H. rewrite Forall_forall in H. specialize (H _ F). lia. Qed.
Lemma indented_free c : free (indented c).
Proof. apply free_spaces. Qed.

Ltac lit := rewrite surplus_app by reflexivity.
Lemma open_boxes_surplus n : forall i s, surplus (open_boxes n i ++ s) = Z.of_nat n + surplus s.
Proof.
  induction n as [|n IH]; intros i s; [reflexivity|]. cbn [open_boxes]. rewrite <- !app_assoc. rewrite surplus_free by apply indented_free. lit. lit. rewrite IH.
  change (surplus (bs "  <div class=""indentbox"">")) with 1. change (surplus [10]) with 0. lia.
Qed.
Lemma close_boxes_surplus n : forall i s, surplus (close_boxes n i ++ s) = - Z.of_nat n + surplus s.
Proof.
  induction n as [|n IH]; intros i s; [reflexivity|]. cbn [close_boxes]. rewrite <- !app_assoc. rewrite surplus_free by apply indented_free. lit. lit. rewrite IH.
  change (surplus (bs "  </div>")) with (-1). change (surplus [10]) with 0. lia.
Qed.

Section H.
  Variables (f64 : Qc -> Qc) (is_letter : Z -> bool) (decs : list (str * Z)).
  (** The texts of a posting have no "<"; its currency is not empty. *)
  Definition tame (p : posting) : Prop := free (p_term p) /\ free (p_ccy p) /\ decode (p_ccy p) <> [] /\ free (p_payee p).
  Lemma format_symbol_ok ccy : decode ccy <> [] -> exists sym, format_symbol is_letter ccy = Ok sym /\ (sym = ccy \/ sym = ccy ++ [32]).
  Proof. intros H. unfold format_symbol. destruct (decode ccy) as [|r rs]; [congruence|]. eexists. split; [reflexivity|]. destruct (_ || _); auto. Qed.
  Definition end_level (lv : Z) (l : list posting) : Z := match l with [] => lv | _ => p_level (last l (mkP 0 [] [] [] [] 0%Qc [] 0%Qc 0 [] [])) end.
  Lemma html_posts_surplus l : Forall tame l -> forall lv, exists out, html_posts f64 is_letter decs lv l = Ok out /\ forall s, surplus (out ++ s) = end_level lv l - lv + surplus s.
  Proof.
    induction 1 as [|v l Hv _ IH]; intros lv.
    - exists []. split; [reflexivity|]. intros s. cbn [end_level app]. lia.
    - destruct Hv as (F1 & F2 & F3 & _). cbn [html_posts]. destruct (format_symbol_ok _ F3) as (sym & -> & Hsym). cbn [obind]. destruct (IH (p_level v)) as (r & -> & Hr). cbn [obind]. eexists. split; [reflexivity|].
      intros s. rewrite <- !app_assoc.
      assert (Fs : free sym) by (destruct Hsym as [->| ->]; [exact F2|apply free_app; [exact F2|intros [E|[]]; discriminate]]).
      set (body := indented (p_level v) ++ _).
      assert (Eb : surplus body = end_level (p_level v) l - p_level v + surplus s).
      { unfold body. rewrite surplus_free by apply indented_free.
        assert (X : forall a d x, free a -> free d -> surplus (bs "  <div class=""post indent" ++ a ++ [32] ++ d ++ bs """>" ++ [10] ++ x) = 1 + surplus x).
        { intros a d x Ha Hd. lit. rewrite surplus_free by exact Ha. lit. rewrite surplus_free by exact Hd. lit. lit. change (surplus (bs "  <div class=""post indent")) with 1.
          change (surplus (bs """>")) with 0. change (surplus [10]) with 0. change (surplus [32]) with 0. lia. }
        rewrite X; [|apply num_free, num_dec|destruct (lv <? p_level v); [|destruct (p_level v <? lv)]; apply free_lit; reflexivity]. rewrite surplus_free by apply indented_free.
        lit. rewrite surplus_free by exact F1. lit. lit. rewrite surplus_free by apply indented_free. lit.
        assert (Y : forall z x, surplus ((match z with Lt => bs "neg" | _ => bs "pos" end) ++ x) = surplus x) by (intros z x; apply surplus_free; destruct z; apply free_lit; reflexivity).
        rewrite Y. lit. rewrite surplus_free by exact Fs. rewrite surplus_free by apply num_free, num_fmt_float. lit. lit. rewrite surplus_free by apply indented_free. lit. lit. rewrite Hr.
        change (surplus (bs "    <div class=""account"">")) with 1. change (surplus (bs "</div>")) with (-1). change (surplus (bs "    <div class=""amount ")) with 1. change (surplus (bs """>")) with 0.
        change (surplus (bs "  </div>")) with (-1). change (surplus [10]) with 0. lia. }
      assert (Ee : end_level lv (v :: l) = end_level (p_level v) l) by (unfold end_level; destruct l as [|u l]; reflexivity). rewrite Ee.
      destruct (Z.ltb_spec lv (p_level v)); [rewrite open_boxes_surplus, Eb; lia|]. destruct (Z.ltb_spec (p_level v) lv); [rewrite close_boxes_surplus, Eb; lia|]. cbn [app]. rewrite Eb. lia.
  Qed.
  Definition left_open (ts : list trans) : Z := fold_right (fun t z => end_level 0 t + z) 0 ts.
  Lemma html_trans_surplus ts : Forall (fun t => t <> [] /\ Forall tame t) ts -> exists out, html_trans f64 is_letter decs ts = Ok out /\ forall s, surplus (out ++ s) = left_open ts + surplus s.
  Proof.
    induction 1 as [|t ts [Hne Ht] _ IH]; [exists []; split; [reflexivity|intros s; reflexivity]|]. destruct t as [|p t]; [congruence|]. cbn [html_trans].
    destruct (html_posts_surplus _ Ht 0) as (posts & -> & Hp). cbn [obind]. destruct IH as (r & -> & Hr). cbn [obind]. eexists. split; [reflexivity|]. intros s. rewrite <- !app_assoc.
    lit. lit. lit. lit. lit. rewrite surplus_free by apply num_free, num_date. lit. lit.
    assert (Hpay : forall x, surplus ((match p_payee p with [] => [] | pay => bs "  <div class=""payee"">" ++ pay ++ bs "</div>" ++ [10] end) ++ x) = surplus x).
    { intros x. apply Forall_inv in Ht as (_ & _ & _ & F). destruct (p_payee p) as [|c pay] eqn:E; [reflexivity|]. rewrite <- !app_assoc. lit. rewrite surplus_free by exact F. lit. lit.
      change (surplus (bs "  <div class=""payee"">")) with 1. change (surplus (bs "</div>")) with (-1). change (surplus [10]) with 0. lia. }
    rewrite Hpay. lit. lit. lit. lit. rewrite Hp. lit. lit. lit. lit. rewrite Hr. unfold left_open. cbn [fold_right].
    change (surplus (bs "<div class=""report"">")) with 1. change (surplus (bs "<div class=""header"">")) with 1. change (surplus (bs "  <div class=""date"">")) with 1. change (surplus (bs "<div class=""posts"">")) with 1.
    change (surplus (bs "</div>")) with (-1). change (surplus [10]) with 0. lia.
  Qed.
  Lemma html_report_surplus css ts : free css -> Forall (fun t => t <> [] /\ Forall tame t) ts -> exists out, html_report f64 is_letter decs css ts = Ok out /\ surplus out = left_open ts.
  Proof.
    intros Hc H. destruct (html_trans_surplus ts H) as (r & E & Hr). unfold html_report. rewrite E. cbn [obind]. eexists. split; [reflexivity|].
    lit. lit. rewrite surplus_free by exact Hc. lit. lit. lit. lit. lit. rewrite Hr. lit. lit. lit.
    change (surplus (bs "<html><head><style>")) with 0. change (surplus (bs "</style></head><body>")) with 0. change (surplus (bs "<div class=""reports"">")) with 1.
    change (surplus (bs "</div>")) with (-1). change (surplus (bs "</body></html>")) with 0. change (surplus [10]) with 0. lia.
  Qed.
End H.
