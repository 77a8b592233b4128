(** * ExportProofs2: the export is a ledger text for the postings and prices of the book. *)
From Verif Require Import Base Dec DateModel DateProofs2 PriceModel BookModel BookSpec Utf8 LoaderModel LoaderSpec LoaderProofs ExportModel ExportSpec ExportProofs.
From Coq Require Import ZifyBool ZifyNat Zify.
Ltac Zify.zify_post_hook ::= idtac.

Definition ascii (s : runes) : Prop := Forall (fun c => 0 <= c < 128) s.
Lemma ascii_app a b : ascii a -> ascii b -> ascii (a ++ b). Proof. intros. apply Forall_app. split; assumption. Qed.
Lemma digits_ascii s : digits s -> ascii s. Proof. intros H. eapply Forall_impl; [|exact H]. cbn. lia. Qed.
Lemma gdigits_ascii s : grouped_digits s -> ascii s. Proof. intros H. eapply Forall_impl; [|exact H]. cbn. lia. Qed.
Lemma acct_ascii s : acct_ok s -> ascii s.
Proof. intros H. eapply Forall_impl; [|exact H]. intros c. cbn. unfold acct_rune, between. lia. Qed.
Ltac asc := repeat (apply ascii_app || (constructor; [lia|])); try constructor.
Lemma amount_ascii t q : amount_text t q -> ascii t.
Proof. intros [neg ip v Hg _ _ _ _|neg ip fp v q0 Hg Hf _ _ _ _]; destruct neg; asc; apply gdigits_ascii; assumption. Qed.
Lemma date_ascii t d : date_text t d -> ascii t.
Proof. intros [y m d0 vy vm vd Hy Hm Hd _ _ _ _ _ _]. asc; apply digits_ascii; assumption. Qed.
Lemma enc_ascii s : ascii s -> encode s = s. Proof. apply encode_ascii. Qed.
Ltac splits := repeat match goal with |- Forall _ (_ ++ _) => apply Forall_app; split end.
Lemma encode_nil r : encode r = [] -> r = [].
Proof. destruct r as [|c r]; [reflexivity|]. unfold encode. cbn [map concat]. intros E. apply app_eq_nil in E as [E _]. exfalso. exact (enc_nonempty c E). Qed.

Lemma note_text_of s : note_ok s -> exists n, note_text n s /\ encode n = show_note s /\ Forall scalar n.
Proof.
  intros (r & [-> Hsc] & Hr & Hsp). destruct r as [|c r].
  - exists []. split; [apply note_none; constructor|]. split; [reflexivity|constructor].
  - exists ([32; 32] ++ [59] ++ [32] ++ c :: r). split; [|split].
    + apply note_some; try assumption; repeat (constructor; [split; [reflexivity|discriminate]|]); constructor.
    + rewrite !encode_app. unfold show_note. destruct (encode (c :: r)) eqn:E; [apply encode_nil in E; discriminate|]. reflexivity.
    + repeat (constructor; [unfold scalar; lia|]). exact Hsc.
Qed.

Section Text.
  Variable f64 : Qc -> Qc.
  Variable is_letter : Z -> bool.
  Variable decs : list (str * Z).
  Hypothesis Hf64 : float64_ok f64.

  Lemma symbol_text c s : Forall scalar c -> ccy_text c s -> c <> [] ->
    exists w, blanks w /\ format_symbol is_letter (encode c) = Ok (encode (c ++ w)) /\ Forall scalar (c ++ w).
  Proof.
    intros Hsc Hc Hne. unfold format_symbol. rewrite decode_encode by exact Hsc. destruct c as [|x c]; [congruence|]. cbv zeta.
    destruct (is_letter (last (x :: c) 0) || (last (x :: c) 0 =? 34)).
    - exists [32]. split; [constructor; [split; [reflexivity|discriminate]|constructor]|]. split; [rewrite encode_app; reflexivity|].
      apply Forall_app. split; [exact Hsc|]. constructor; [unfold scalar; lia|constructor].
    - exists []. rewrite app_nil_r. split; [constructor|]. split; [reflexivity|exact Hsc].
  Qed.
  Lemma bare_text s : bare_ccy s -> exists c w, ccy_text c s /\ encode c = s /\ blanks w /\ format_symbol is_letter s = Ok (encode (c ++ w)) /\ Forall scalar (c ++ w) /\
    existsb (fun c => negb (is_ccy_rune c)) (decode s) = false /\ Forall scalar c.
  Proof.
    intros (r & [-> Hsc] & Hne & Hr & Hh). destruct (symbol_text r (encode r) Hsc (ccy_bare r Hr Hne Hh) Hne) as (w & Hw & E & Hs).
    exists r, w. split; [apply ccy_bare; assumption|]. split; [reflexivity|]. split; [exact Hw|]. split; [exact E|]. split; [exact Hs|]. split; [|exact Hsc].
    rewrite decode_encode by exact Hsc. destruct (existsb (fun c => negb (is_ccy_rune c)) r) eqn:Ex; [|reflexivity].
    apply existsb_exists in Ex as (c & Hin & Hc). rewrite Forall_forall in Hr. rewrite (Hr c Hin) in Hc. discriminate.
  Qed.
  Lemma ccy_text_of s : bare_ccy s \/ quotable_ccy s ->
    exists c w, ccy_text c s /\ blanks w /\ format_symbol is_letter (ledger_ccy s) = Ok (encode (c ++ w)) /\ Forall scalar (c ++ w).
  Proof.
    intros [H|(r & [-> Hsc] & Hex & Hr)].
    - destruct (bare_text s H) as (c & w & H1 & _ & H2 & H3 & H4 & H5 & _). exists c, w. split; [exact H1|]. split; [exact H2|]. split; [|exact H4].
      unfold ledger_ccy. rewrite H5. exact H3.
    - assert (Hne : r <> []) by (destruct r; [inversion Hex|discriminate]).
      assert (Hq : Forall scalar ([34] ++ r ++ [34])) by (apply Forall_app; split; [|apply Forall_app; split; [exact Hsc|]]; (constructor; [unfold scalar; lia|constructor])).
      destruct (symbol_text ([34] ++ r ++ [34]) (encode r) Hq (ccy_quoted r Hr Hne) ltac:(discriminate)) as (w & Hw & E & Hs).
      exists ([34] ++ r ++ [34]), w. split; [apply ccy_quoted; assumption|]. split; [exact Hw|]. split; [|exact Hs]. rewrite <- E. f_equal.
      unfold ledger_ccy. rewrite decode_encode by exact Hsc. replace (existsb (fun c => negb (is_ccy_rune c)) r) with true; [rewrite !encode_app; reflexivity|].
      symmetry. apply existsb_exists. apply Exists_exists in Hex as (c & Hin & Hc). exists c. split; [exact Hin|]. rewrite Hc. reflexivity.
  Qed.

  Variable al : alias.
  (** Files: [t] may be put in front of any ledger text read with the aliases [al]. *)
  Definition reads (t : runes) (es : list entry) : Prop :=
    Forall scalar t /\ forall fs resolve f rest ds, ledger_text fs resolve f al rest ds -> ledger_text fs resolve f al (t ++ rest) (es ++ ds).
  Lemma reads_nil : reads [] []. Proof. split; [constructor|]. intros. exact H. Qed.
  Lemma reads_line t es : Forall scalar t -> line_text (rename al) t es -> reads t es.
  Proof. intros Hs H. split; [exact Hs|]. intros. apply ledger_cons; assumption. Qed.
  Lemma reads_app a b x y : reads a x -> reads b y -> reads (a ++ b) (x ++ y).
  Proof. intros [Sa Ra] [Sb Rb]. split; [apply Forall_app; split; assumption|]. intros. rewrite <- !app_assoc. apply Ra, Rb. exact H. Qed.

  Definition post_call (p : posting) : bcall := CPost (p_acct p) (p_ccy p) (p_val p) (p_note p).
  Definition trans_calls (t : trans) : list bcall :=
    match t with [] => [] | p :: _ => CTrans (p_date p) (p_payee p) (p_tnote p) :: map post_call t end.
  Definition price_call (u c : str) (p : price) : bcall := CPrice (pr_date p) u c (pr_val p).

  Lemma money_text_of k c w s q : ccy_text c s -> blanks w -> short_amount k q ->
    money_text (c ++ w ++ fmt_float k (f64 q)) s q /\ ascii (fmt_float k (f64 q)).
  Proof. intros Hc Hw Hq. pose proof (fmt_amount_text f64 k q Hf64 Hq) as Ha. split; [apply money_front; assumption|]. eapply amount_ascii. exact Ha. Qed.

  (** The aliases leave the account alone. *)
  Definition kept (p : posting) : Prop := rename al (p_acct p) = p_acct p.
  Lemma show_post_reads p : kept p -> exportable_post (decs_for decs) p -> exists t, show_post f64 is_letter decs p = Ok (encode t) /\ reads t [Call (post_call p)].
  Proof.
    intros Hk (_ & _ & _ & [Han Ha] & Hc & Hq & Hn). destruct (ccy_text_of _ Hc) as (c & w & C1 & C2 & C3 & C4).
    destruct (note_text_of _ Hn) as (n & N1 & N2 & N3). destruct (money_text_of _ c w _ _ C1 C2 Hq) as [M1 M2].
    exists ([32; 32] ++ p_acct p ++ [32; 32] ++ (c ++ w ++ fmt_float (decs_for decs (p_ccy p)) (f64 (p_val p))) ++ n ++ [10]).
    pose proof (acct_ascii _ Ha) as Hasc. split.
    - unfold show_post. rewrite C3. cbn [obind]. f_equal. rewrite <- N2. unfold format_number. rewrite !encode_app, (enc_ascii _ Hasc), (enc_ascii _ M2), <- !app_assoc. reflexivity.
    - apply reads_line.
      + rewrite (app_assoc c w). splits; try exact N3; try (apply ascii_scalar; assumption); try (repeat (constructor; [unfold scalar; lia|]); constructor); apply Forall_app in C4; tauto.
      + assert (E : post_call p = CPost (rename al (encode (p_acct p))) (p_ccy p) (p_val p) (p_note p)) by (rewrite (enc_ascii _ Hasc); unfold kept in Hk; rewrite Hk; reflexivity). rewrite E.
        apply (line_post (rename al) [32; 32] (p_acct p) [32; 32] false (c ++ w ++ fmt_float (decs_for decs (p_ccy p)) (f64 (p_val p))) (p_ccy p) (p_val p) [] n (p_note p)); try assumption; try discriminate.
        * repeat (constructor; [split; [reflexivity|discriminate]|]); constructor.
        * repeat (constructor; [split; [reflexivity|discriminate]|]); constructor.
        * constructor.
  Qed.
  Lemma show_posts_reads l : Forall kept l -> Forall (exportable_post (decs_for decs)) l ->
    exists t, show_posts f64 is_letter decs l = Ok (encode t) /\ reads t (map Call (map post_call l)).
  Proof.
    intros Hk. induction 1 as [|p l Hp _ IH]; [exists []; split; [reflexivity|apply reads_nil]|]. destruct (IH (Forall_inv_tail Hk)) as (t2 & E2 & R2). destruct (show_post_reads p (Forall_inv Hk) Hp) as (t1 & E1 & R1).
    exists (t1 ++ t2). cbn [show_posts]. rewrite E1, E2. cbn [obind]. rewrite encode_app. split; [reflexivity|]. cbn [map]. apply (reads_app t1 t2 [Call (post_call p)]); assumption.
  Qed.
  Lemma newline_reads : reads [10] [].
  Proof. apply reads_line; [constructor; [unfold scalar; lia|constructor]|]. apply (line_blank (rename al) []). constructor. Qed.
  Lemma show_trans_reads t : Forall kept t -> t <> [] -> Forall (exportable_post (decs_for decs)) t ->
    exists x, show_trans f64 is_letter decs t = Ok (encode x) /\ reads x (map Call (trans_calls t)).
  Proof.
    intros Hk Hne Ht. destruct t as [|p t]; [congruence|]. destruct (show_posts_reads _ Hk Ht) as (y & Ey & Ry).
    inversion Ht as [|? ? (Hd & (r & [Er Hsc] & Hr) & Hn & _) _]; subst. destruct (note_text_of _ Hn) as (n & N1 & N2 & N3).
    pose proof (date_text_string _ Hd) as Hdt. pose proof (date_ascii _ _ Hdt) as Hda.
    exists ((date_string (p_date p) ++ [32] ++ [] ++ r ++ n ++ [10]) ++ y ++ [10]). split.
    - unfold show_trans. rewrite Ey. cbn [obind]. f_equal. rewrite Er, <- N2. rewrite !encode_app, (enc_ascii _ Hda), <- !app_assoc. reflexivity.
    - cbn [trans_calls map]. apply (reads_app _ _ [Call (CTrans (p_date p) (p_payee p) (p_tnote p))]).
      + apply reads_line.
        * splits; try exact N3; try exact Hsc; try (apply ascii_scalar; assumption); try (repeat (constructor; [unfold scalar; lia|]); constructor).
        * rewrite Er. apply (line_trans (rename al) (date_string (p_date p)) (p_date p) [32] [] r (encode r) n (p_tnote p)); try assumption.
          -- repeat (constructor; [split; [reflexivity|discriminate]|]); constructor.
          -- discriminate.
          -- left. reflexivity.
          -- apply payee_bare. assumption.
      + rewrite <- (app_nil_r (Call (post_call p) :: _)). apply reads_app; [exact Ry|exact newline_reads].
  Qed.
  Lemma show_all_reads ts : Forall (Forall kept) ts -> Forall (fun t => t <> [] /\ Forall (exportable_post (decs_for decs)) t) ts ->
    exists x, show_all f64 is_letter decs ts = Ok (encode x) /\ reads x (map Call (flat_map trans_calls ts)).
  Proof.
    intros Hk. induction 1 as [|t ts [Hn Ht] _ IH]; [exists []; split; [reflexivity|apply reads_nil]|]. destruct (IH (Forall_inv_tail Hk)) as (x2 & E2 & R2). destruct (show_trans_reads t (Forall_inv Hk) Hn Ht) as (x1 & E1 & R1).
    exists (x1 ++ x2). cbn [show_all]. rewrite E1, E2. cbn [obind flat_map]. rewrite encode_app, map_app. split; [reflexivity|]. apply reads_app; assumption.
  Qed.

  Lemma show_price_reads u c p : bare_ccy u -> bare_ccy c -> date_ok (pr_date p) -> short_amount (decs_for decs c) (pr_val p) ->
    exists t, show_price f64 is_letter decs u c p = Ok (encode t) /\ reads t [Call (price_call u c p)].
  Proof.
    intros Hu Hc Hd Hq. destruct (bare_text c Hc) as (x & w & C1 & _ & C2 & C3 & C4 & _). destruct (bare_text u Hu) as (y & _ & U1 & U2 & _ & _ & _ & _ & U4).
    destruct (money_text_of _ x w _ _ C1 C2 Hq) as [M1 M2]. pose proof (date_text_string _ Hd) as Hdt. pose proof (date_ascii _ _ Hdt) as Hda.
    exists ([80] ++ [32] ++ date_string (pr_date p) ++ [32] ++ bs "00:00:00" ++ [32] ++ y ++ [32] ++ (x ++ w ++ fmt_float (decs_for decs c) (f64 (pr_val p))) ++ [10]). split.
    - unfold show_price. rewrite C3. cbn [obind]. f_equal. unfold format_number. rewrite !encode_app, (enc_ascii _ Hda), (enc_ascii _ M2), U2, <- !app_assoc. reflexivity.
    - apply reads_line.
      + assert (Hb : Forall scalar (bs "00:00:00")) by (change (bs "00:00:00") with [48; 48; 58; 48; 48; 58; 48; 48]; repeat (constructor; [unfold scalar; lia|]); constructor).
        rewrite (app_assoc x w). splits; try exact Hb; try (apply ascii_scalar; assumption); try (repeat (constructor; [unfold scalar; lia|]); constructor); try exact U4; apply Forall_app in C4; tauto.
      + apply (line_price (rename al) [32] (date_string (pr_date p)) (pr_date p) [32] (bs "00:00:00") [32] y u [32] _ c (pr_val p)); try assumption; try discriminate;
          try (repeat (constructor; [split; [reflexivity|discriminate]|]); constructor).
        apply (time_hms (bs "00") (bs "00") (bs "00")); try (cbn; lia); repeat (constructor; [cbn; lia|]); constructor.
  Qed.
  Lemma show_price_list_reads u c l : bare_ccy u -> bare_ccy c -> Forall (fun p => date_ok (pr_date p) /\ short_amount (decs_for decs c) (pr_val p)) l ->
    exists t, show_price_list f64 is_letter decs u c l = Ok (encode t) /\ reads t (map Call (map (price_call u c) l)).
  Proof.
    intros Hu Hc. induction 1 as [|p l [Hd Hq] _ IH]; [exists []; split; [reflexivity|apply reads_nil]|]. destruct IH as (t2 & E2 & R2).
    destruct (show_price_reads u c p Hu Hc Hd Hq) as (t1 & E1 & R1). exists (t1 ++ t2). cbn [show_price_list]. rewrite E1, E2. cbn [obind]. rewrite encode_app. split; [reflexivity|].
    cbn [map]. apply (reads_app t1 t2 [Call (price_call u c p)]); assumption.
  Qed.
  Definition pair_calls (pb : pbook) (k : str * str) : list bcall :=
    map (price_call (fst k) (snd k)) (match aget pair_eqb k pb with Some l => l | None => [] end).
  Lemma show_prices_reads pb pairs : exportable_prices (decs_for decs) pb -> (forall k, In k pairs -> In k (map fst pb)) ->
    exists t, show_prices f64 is_letter decs pb pairs = Ok (encode t) /\ reads t (map Call (flat_map (pair_calls pb) pairs)).
  Proof.
    intros [Hnd Hpb] Hp. induction pairs as [|[u c] pairs IH]; [exists []; split; [reflexivity|apply reads_nil]|].
    destruct IH as (t2 & E2 & R2). { intros k Hk. apply Hp. right. exact Hk. }
    specialize (Hp (u, c) (or_introl eq_refl)). apply in_map_iff in Hp as ([k l] & Ek & Hin). cbn [fst] in Ek. subst k.
    rewrite Forall_forall in Hpb. pose proof (Hpb _ Hin) as Hl. cbn in Hl. destruct Hl as (Hu & Hc & _ & _ & Hl).
    apply (aget_Some_iff _ pair_eqb_eq) in Hin; [|exact Hnd].
    destruct (show_price_list_reads u c l Hu Hc Hl) as (t1 & E1 & R1). exists (t1 ++ t2). cbn [show_prices flat_map]. unfold pair_calls at 1. rewrite Hin, E1, E2. cbn [obind fst snd].
    rewrite encode_app, map_app. split; [reflexivity|]. apply reads_app; assumption.
  Qed.

  Lemma export_reads srt order b ts : snd (transactions srt b) = ts -> bk_ccy b = decs -> Forall (Forall kept) ts ->
    Forall (fun t => t <> [] /\ Forall (exportable_post (decs_for decs)) t) ts ->
    bk_prices (fst (transactions srt b)) = bk_prices b -> exportable_prices (decs_for decs) (bk_prices b) -> (forall k, In k (order (bk_prices b)) -> In k (map fst (bk_prices b))) ->
    exists t, export_ledger f64 is_letter srt order b = Ok (encode t) /\
      reads t (map Call (flat_map trans_calls ts ++ flat_map (pair_calls (bk_prices b)) (order (bk_prices b)))).
  Proof.
    intros Et Ed Hk Hts Hpr Hp Ho. destruct (show_all_reads ts Hk Hts) as (t1 & E1 & R1). destruct (show_prices_reads (bk_prices b) (order (bk_prices b)) Hp Ho) as (t2 & E2 & R2).
    exists (t1 ++ ([10] ++ bs "; Prices" ++ [10]) ++ t2). unfold export_ledger. destruct (transactions srt b) as [b' ts'] eqn:E. cbn [fst snd] in *. subst ts'. rewrite Ed, Hpr, E1, E2. cbn [obind].
    split; [rewrite !encode_app, <- !app_assoc; reflexivity|]. rewrite map_app. apply reads_app; [exact R1|]. apply (reads_app _ _ []); [|exact R2].
    apply (reads_app [10] _ [] []); [exact newline_reads|]. apply reads_line; [repeat (constructor; [cbn; unfold scalar; lia|]); constructor|].
    apply (line_comment (rename al) [] (bs " Prices")); [constructor|]. repeat (constructor; [split; discriminate|]). constructor.
  Qed.
End Text.
