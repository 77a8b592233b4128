(** * ImportProps: C83 (what import prints), C84 (importing again), C86 (what generate prints). *)
From Verif Require Import Base DateModel PriceModel BookModel BookSpec BookProofs BuilderProofs OpsModel OpsProofs OpsProofs2 OpsProofs3
  ScriptModel ScriptSpec ScriptProps ExportModel ImportModel ImportSpec ImportProofs1 ImportProofs2 ImportProofs3 BookProps LoaderProps ExportProps.

(** What a script that succeeded says: [b] holds the entries of its add() calls (C54) in balanced transactions. *)
Definition book_of (set_string : str -> option Qc) (def : defaults) (s : script) (b : book) : Prop :=
  snd s = false /\ (forall d pay c, total (in_trans d pay c) (bk_post b) = 0%Qc) /\ bk_post b = concat (bk_trans b) /\
  (Forall finite (fst s) -> exists es, Forall2 (entry set_string def) (fst s) es /\
     forall acct ccy, total (in_acct acct ccy) (bk_post b) = legs_total (fun a c => str_eqb a acct && str_eqb c ccy) (concat es)).

Lemma process_book_of srt today ss def s b : sort_ok is_less srt -> process_data srt today ss def s = Ok b -> book_of ss def s b.
Proof.
  intros Hs E. pose proof (process_data_ok srt Hs today ss def s b E) as ((_ & Hc & _) & _).
  unfold process_data in E. apply obind_Ok in E as ([bu err] & E1 & E2). destruct (C54_add_balanced today ss def srt (fst s) bu err Hs E1) as (bk & Eb & Hz & He).
  destruct err; [discriminate E2|]. cbn [orb] in E2. destruct s as [cs f]. cbn [fst snd] in *. destruct f; [discriminate E2|]. rewrite E2 in Eb. injection Eb as <-.
  split; [reflexivity|]. split; [exact Hz|]. split; [symmetry; exact Hc|]. intros Hf. exact (He eq_refl Hf).
Qed.

Lemma sim_dist jw dist : similarity jw dist -> forall a b, dist a b = sim jw a b.
Proof.
  intros H a b. destruct (H a b) as [H1 H2]. unfold sim. cbv zeta.
  assert (Eh : this (Q2Qc (1 # 2)) = (1 # 2)%Q) by reflexivity.
  destruct (qc_ltb (Q2Qc (1 # 2)) (jw a b)) eqn:E.
  - apply H1. apply qc_ltb_spec in E. unfold Qclt in E. rewrite Eh in E. exact E.
  - apply H2. apply Qnot_lt_le. intros F. assert (X : qc_ltb (Q2Qc (1 # 2)) (jw a b) = true) by (apply qc_ltb_spec; unfold Qclt; rewrite Eh; exact F). congruence.
Qed.
Lemma reclassified_ext d1 d2 acct rts t u : (forall a b, d1 a b = d2 a b) -> reclassified d1 acct rts t u -> reclassified d2 acct rts t u.
Proof.
  intros H [[-> [H1|(pay & Hp & H1)]]|(pay & x & c & Hp & Hs & H1 & H2 & H3)].
  - left. split; [reflexivity|left; exact H1].
  - left. split; [reflexivity|]. right. exists pay. split; [exact Hp|]. intros x c Hs. rewrite <- H. exact (H1 x c Hs).
  - right. exists pay, x, c. rewrite <- H. repeat split; try assumption; try (destruct Hp; assumption). intros x' c' Hs'. rewrite <- !H. exact (H2 x' c' Hs').
Qed.
Lemma shown_mono {A} (R1 R2 : A -> A -> Prop) (Q1 Q2 : A -> Prop) l s : (forall t u, R1 t u -> R2 t u) -> (forall t, Q1 t <-> Q2 t) ->
  shown_of R1 Q1 l s -> shown_of R2 Q2 l s.
Proof.
  intros HR HQ H. induction H; [constructor|constructor; [rewrite <- HQ; assumption|assumption]|].
  constructor; [apply HQ; assumption|apply HR; assumption|assumption].
Qed.

(** ** C83 *)
Section Statement.
  Variables (f64 : Qc -> Qc) (is_letter : Z -> bool) (dist : str -> str -> Qc) (i : import) (old : list trans) (dec : list (str * Z)).
  (** What is printed for a file with book [b] after files with books [earlier]: the transactions of [b] that no earlier
      file has and - with deduplication - the ledger does not have, each as it is or - when asked - reclassified
      against the ledger. *)
  Definition to_print (earlier : list book) (t : trans) : Prop :=
    (im_dedup i = true -> ~ known_to old t) /\ (forall b, In b earlier -> ~ known_to (bk_trans b) t).
  Definition printed_as (t u : trans) : Prop := if im_reclass i then reclassed dist (im_account i) old t u else same_trans t u.
  Definition prints (earlier : list book) (b : book) (o : list trans * str) : Prop :=
    shown_of printed_as (to_print earlier) (bk_trans b) (fst o) /\ show_all f64 is_letter dec (fst o) = Ok (snd o).
End Statement.

Theorem C83_import_prints : forall srt f64 is_letter today set_string jw dist ord1 ord2 i base main files out r,
  sort_ok is_less srt -> similarity jw dist ->
  (forall k x l, Permutation l (ord1 k x l)) -> (forall k n l, Permutation l (ord2 k n l)) -> reachable srt main ->
  run_import srt f64 is_letter today set_string jw ord1 ord2 i base main files = (out, r) ->
  let def := mkDef (im_account i) (if str_eqb (im_ccy i) [] then base else im_ccy i) (im_counter i) in
  let old := snd (transactions srt main) in
  exists books,
    length books = length out /\
    Forall2 (fun s b => process_data srt today set_string def s = Ok b /\ book_of set_string def s b) (firstn (length out) files) books /\
    (forall j b o, nth_error books j = Some b -> nth_error out j = Some o ->
       prints f64 is_letter dist i old (bk_ccy main) (firstn j books) b o) /\
    (* either all files were imported, or the first that was not could not be: its script or printing it failed *)
    ((r = Ok tt /\ length out = length files) \/
     exists s, nth_error files (length out) = Some s /\ r <> Ok tt /\
       ((forall b, process_data srt today set_string def s <> Ok b) \/
        exists b ts, process_data srt today set_string def s = Ok b /\
          shown_of (printed_as dist i old) (to_print i old books) (bk_trans b) ts /\
          forall text, show_all f64 is_letter (bk_ccy main) ts <> Ok text)).
Proof.
  intros srt f64 isl today ss jw dist ord1 ord2 i base main files out r Hs Hd H1 H2 Hm E def old.
  apply (reachable_ok srt Hs) in Hm. unfold run_import in E.
  assert (Edef : import_defaults base i = def).
  { unfold import_defaults, def. destruct (im_ccy i); reflexivity. }
  rewrite Edef in E.
  destruct (import_files_spec srt Hs f64 isl today ss jw ord1 ord2 H1 H2 i def main Hm files 0%nat main [] [] out r) as (books & L & F & Hsh & Hr);
    [left; reflexivity|constructor|intros key; reflexivity|exact E|].
  assert (HR : forall t u, changed srt jw i main t u -> printed_as dist i old t u).
  { intros t u H. unfold changed in H. unfold printed_as. destruct (im_reclass i); [|exact H]. destruct H as (t0 & u0 & A1 & A2 & A3). exists t0, u0.
    split; [exact A1|]. split; [|exact A3]. eapply reclassified_ext; [|exact A2]. intros a b. symmetry. apply sim_dist. exact Hd. }
  exists books. split; [exact L|]. split; [|split].
  - clear - F Hs. induction F as [|s b ss' bs' H _ IH]; [constructor|]. constructor; [|exact IH]. split; [exact H|eapply process_book_of; [exact Hs|exact H]].
  - intros j b o Hb Ho. destruct (Hsh j b o Hb Ho) as [S1 S2]. split; [|exact S1]. cbn [app] in S2. eapply shown_mono; [exact HR| |exact S2]. intros t. reflexivity.
  - destruct Hr as [Hr|(s & Hn & Hr)]; [left; exact Hr|]. right. exists s. split; [exact Hn|].
    destruct Hr as [[-> Hp]|[[-> Hp]|(b & ts & Hp & Hx & -> & Hsx)]].
    + split; [discriminate|]. left. intros b Hb. congruence.
    + split; [discriminate|]. left. intros b Hb. congruence.
    + split.
      * destruct (show_all f64 isl (bk_ccy main) ts) as [tx| | |] eqn:Ex; [destruct (Hx tx eq_refl)|discriminate..].
      * right. exists b, ts. split; [exact Hp|]. split; [|exact Hx]. cbn [app] in Hsx. eapply shown_mono; [exact HR| |exact Hsx]. intros t. reflexivity.
Qed.
Print Assumptions C83_import_prints.

(** ** C84 *)
Lemma nth_error_firstn_lt {A} (l : list A) : forall j n, (n < j)%nat -> nth_error (firstn j l) n = nth_error l n.
Proof. induction l as [|x l IH]; intros [|j] [|n] H; cbn; try reflexivity; try lia. apply IH. lia. Qed.
Lemma nth_error_same {A} : forall l l' : list A, (forall n, nth_error l n = nth_error l' n) -> l = l'.
Proof.
  induction l as [|x l IH]; intros [|y l'] H; try reflexivity; try (specialize (H 0%nat); discriminate H).
  f_equal; [specialize (H 0%nat); cbn in H; congruence|]. apply IH. intros n. exact (H (S n)).
Qed.
Lemma shown_split {A} (R : A -> A -> Prop) (Q : A -> Prop) l s : shown_of R Q l s -> forall t, In t l -> ~ Q t \/ Q t /\ exists u, In u s /\ R t u.
Proof.
  induction 1 as [|t l s Hq _ IH|t u l s Hq Hr _ IH]; intros x Hx; [destruct Hx| |].
  - destruct Hx as [<-|Hx]; [left; exact Hq|apply IH; exact Hx].
  - destruct Hx as [<-|Hx]; [right; split; [exact Hq|]; exists u; split; [left; reflexivity|exact Hr]|].
    destruct (IH x Hx) as [H|[H (v & Hv & Hv')]]; [left; exact H|right; split; [exact H|exists v; split; [right; exact Hv|exact Hv']]].
Qed.
Lemma shown_none {A} (R : A -> A -> Prop) (Q : A -> Prop) l s : shown_of R Q l s -> (forall t, In t l -> ~ Q t) -> s = [].
Proof.
  induction 1 as [|t l s Hq _ IH|t u l s Hq Hr _ IH]; intros H; [reflexivity| |].
  - apply IH. intros x Hx. apply H. right. exact Hx.
  - exfalso. exact (H t (or_introl eq_refl) Hq).
Qed.
Lemma printed_keys dist i old t u : printed_as dist i old t u -> forall k, has [t] k <-> has [u] k.
Proof.
  assert (HP : forall t u, Permutation (map dp t) (map dp u) -> forall k, has [t] k <-> has [u] k).
  { clear. intros t u HP k. split; intros (x & p & [<-|[]] & Hp & E).
    - assert (Hi : In (dp p) (map dp u)) by (eapply Permutation_in; [exact HP|apply in_map; exact Hp]). apply in_map_iff in Hi as (q & Eq & Hq).
      exists u, q. split; [left; reflexivity|]. split; [exact Hq|]. unfold dp in Eq. congruence.
    - assert (Hi : In (dp p) (map dp t)) by (eapply Permutation_in; [symmetry; exact HP|apply in_map; exact Hp]). apply in_map_iff in Hi as (q & Eq & Hq).
      exists t, q. split; [left; reflexivity|]. split; [exact Hq|]. unfold dp in Eq. congruence. }
  assert (Hv : forall l, map dp l = map vkey (map vis l)) by (intros l; rewrite map_map; reflexivity).
  intros H. apply HP. unfold printed_as in H. destruct (im_reclass i).
  - destruct H as (t0 & u0 & E & Hr & Hp). rewrite !Hv. rewrite <- Hp. rewrite <- E. rewrite <- !Hv.
    destruct Hr as [[-> _]|(pay & x & c & _ & _ & _ & _ & Hrec)]; [reflexivity|]. inversion Hrec; subst; reflexivity.
  - rewrite !Hv, H. reflexivity.
Qed.

(** [main2] is the ledger after the user has added to it what the first import printed: it has at least the
    transactions (date and payee) of [main] and of everything printed. The second import may reclassify or not. *)
Theorem C84_import_again : forall srt f64 is_letter today set_string jw dist ord1 ord2 ord1' ord2' i i2 base main main2 files out,
  sort_ok is_less srt -> similarity jw dist ->
  (forall k x l, Permutation l (ord1 k x l)) -> (forall k n l, Permutation l (ord2 k n l)) ->
  (forall k x l, Permutation l (ord1' k x l)) -> (forall k n l, Permutation l (ord2' k n l)) ->
  reachable srt main -> reachable srt main2 ->
  im_dedup i2 = true -> im_account i2 = im_account i -> im_counter i2 = im_counter i -> im_ccy i2 = im_ccy i ->
  run_import srt f64 is_letter today set_string jw ord1 ord2 i base main files = (out, Ok tt) ->
  (forall key, has (snd (transactions srt main)) key -> has (snd (transactions srt main2)) key) ->
  (forall ts text key, In (ts, text) out -> has ts key -> has (snd (transactions srt main2)) key) ->
  run_import srt f64 is_letter today set_string jw ord1' ord2' i2 base main2 files = (map (fun _ => ([], [])) files, Ok tt).
Proof.
  intros srt f64 isl today ss jw dist ord1 ord2 ord1' ord2' i i2 base main main2 files out Hs Hd H1 H2 H3 H4 Hm Hm2 Hi Ea Ec Ey E Hold Hnew.
  destruct (C83_import_prints srt f64 isl today ss jw dist ord1 ord2 i base main files out (Ok tt) Hs Hd H1 H2 Hm E) as (books & L & F & Hp & Hr).
  destruct Hr as [[_ Hl]|(s & _ & Hr & _)]; [|congruence]. rewrite Hl, firstn_all in F. rewrite Hl in L.
  set (old := snd (transactions srt main)) in *. set (old2 := snd (transactions srt main2)) in *.
  (* every transaction of every file is known to main2 *)
  assert (Hall : forall j b, nth_error books j = Some b -> forall t, In t (bk_trans b) -> forall p, In p t -> has old2 (p_date p, p_payee p)).
  { intros j. induction j as [j IH] using lt_wf_ind. intros b Hb t Ht p Hpt.
    destruct (nth_error out j) as [o|] eqn:Ho; [|exfalso; apply nth_error_None in Ho; assert (j < length books)%nat by (apply nth_error_Some; congruence); lia].
    destruct (Hp j b o Hb Ho) as [Hsh _]. assert (Hok : book_ok b).
    { clear - F Hb Hs. revert j Hb. induction F as [|s x l l' [H _] _ IHF]; intros [|j] Hb; cbn [nth_error] in Hb; try discriminate Hb.
      - injection Hb as <-. eapply process_data_ok; eassumption.
      - eapply IHF; exact Hb. }
    destruct Hok as (_ & _ & [Hg _] & _). rewrite Forall_forall in Hg. destruct (Hg t Ht) as [_ Hu].
    assert (Huniq : forall q k, In q t -> k = (p_date q, p_payee q) -> k = (p_date p, p_payee p)) by (intros q k Hq ->; exact (Hu q p Hq Hpt)).
    destruct (shown_split _ _ _ _ Hsh t Ht) as [Hnq|[_ (u & Hu' & Hpr)]].
    - (* not printed: the ledger or an earlier file has it *)
      assert (X : ~ ~ has old2 (p_date p, p_payee p)).
      { intros N. apply Hnq. split.
        - intros _ (q & Hq & Hh). apply N. rewrite <- (Huniq q _ Hq eq_refl). apply Hold. exact Hh.
        - intros b' Hb' (q & Hq & (t' & p' & Ht' & Hp' & Ek)). apply N. apply In_nth_error in Hb' as (j' & Hj').
          assert (Hjj : (j' < j)%nat). { assert (X : (j' < length (firstn j books))%nat) by (apply nth_error_Some; congruence). rewrite firstn_length in X. lia. }
          rewrite nth_error_firstn_lt in Hj' by exact Hjj.
          rewrite <- (Huniq q _ Hq eq_refl). rewrite <- Ek. exact (IH j' Hjj b' Hj' t' Ht' p' Hp'). }
      (* decidable *)
      pose proof (has_known old2 [p]) as HK.
      assert (Hg2 : well_grouped old2) by (apply (compact_book_ok srt Hs main2); apply (reachable_ok srt Hs); exact Hm2).
      specialize (HK Hg2). assert (Hd' : known_to old2 [p] <-> has old2 (p_date p, p_payee p)).
      { split; [intros (q & [<-|[]] & H); exact H|intros H; exists p; split; [left; reflexivity|exact H]]. }
      rewrite Hd' in HK. destruct (known old2 [p]) eqn:Ek; [apply HK; [discriminate|intros a b0 [<-|[]] [<-|[]]; reflexivity|reflexivity]|].
      exfalso. apply X. intros N. apply HK in N; [discriminate N|discriminate|intros a b0 [<-|[]] [<-|[]]; reflexivity].
    - destruct o as [ts text]. cbn [fst] in *. apply (Hnew ts text); [eapply nth_error_In; exact Ho|].
      assert (Hh : has [u] (p_date p, p_payee p)) by (apply (printed_keys _ _ _ _ _ Hpr); exists t, p; split; [left; reflexivity|auto]).
      destruct Hh as (x & q & [<-|[]] & Hq & Ek). exists u, q. auto. }
  destruct (run_import srt f64 isl today ss jw ord1' ord2' i2 base main2 files) as [out2 r2] eqn:E2.
  destruct (C83_import_prints srt f64 isl today ss jw dist ord1' ord2' i2 base main2 files out2 r2 Hs Hd H3 H4 Hm2 E2) as (books2 & L2 & F2 & Hp2 & Hr2).
  rewrite Ea, Ec, Ey in F2, Hr2. fold old2 in Hp2, Hr2.
  (* the second import sees the same books *)
  assert (Eb : forall j b, nth_error books2 j = Some b -> nth_error books j = Some b).
  { clear - F F2. revert F F2. generalize books2 books (length out2). intros B2 B n F. revert n B2. induction F as [|s b l l' [H _] _ IH]; intros n B2 F2 j x Hx.
    - rewrite firstn_nil in F2. inversion F2; subst. destruct j; discriminate Hx.
    - destruct n as [|n]; cbn [firstn] in F2; [inversion F2; subst; destruct j; discriminate Hx|]. inversion F2 as [|? b2 ? B2' [H' _] F2']; subst.
      destruct j as [|j]; cbn [nth_error] in *; [congruence|]. eapply IH; eassumption. }
  assert (Hknown : forall j b earlier, nth_error books j = Some b -> forall t, In t (bk_trans b) -> ~ to_print i2 old2 earlier t).
  { intros j b earlier Hb t Ht [Hq _]. apply (Hq Hi). assert (Hne : t <> []).
    { assert (Hok : book_ok b).
      { clear - F Hb Hs. revert j Hb. induction F as [|s x l l' [H _] _ IHF]; intros [|j] Hb; cbn [nth_error] in Hb; try discriminate Hb.
        - injection Hb as <-. eapply process_data_ok; eassumption.
        - eapply IHF; exact Hb. }
      destruct Hok as (_ & _ & [Hg _] & _). rewrite Forall_forall in Hg. apply (Hg t Ht). }
    destruct t as [|p t]; [congruence|]. exists p. split; [left; reflexivity|]. exact (Hall j b Hb _ Ht p (or_introl eq_refl)). }
  assert (Hr : r2 = Ok tt /\ length out2 = length files).
  { destruct Hr2 as [Hr2|(s & Hn & _ & [Hno|(b & ts & Hb & Hsh & Hno)])]; [exact Hr2| |]; exfalso.
    - assert (HX : exists b, process_data srt today ss (mkDef (im_account i) (if str_eqb (im_ccy i) [] then base else im_ccy i) (im_counter i)) s = Ok b).
      { clear - F Hn. revert Hn. generalize (length out2). induction F as [|s' b l l' [H _] _ IH]; intros [|n] Hn; cbn [nth_error] in Hn; try discriminate Hn.
        - injection Hn as <-. eauto.
        - eapply IH; exact Hn. }
      destruct HX as (b & Hb). exact (Hno b Hb).
    - assert (HX : nth_error books (length out2) = Some b).
      { clear - F Hn Hb. revert Hn. generalize (length out2). induction F as [|s' b' l l' [H _] _ IH]; intros [|n] Hn; cbn [nth_error] in *; try discriminate Hn.
        - injection Hn as <-. congruence.
        - apply IH. exact Hn. }
      assert (ts = []) by (eapply shown_none; [exact Hsh|]; apply (Hknown _ _ _ HX)). subst ts. exact (Hno [] eq_refl). }
  destruct Hr as [-> Hl2]. f_equal. apply nth_error_same. intros j. rewrite nth_error_map.
  destruct (nth_error out2 j) as [o|] eqn:Ho.
  - assert (Hj : (j < length out2)%nat) by (apply nth_error_Some; congruence).
    destruct (nth_error files j) as [s|] eqn:Ef; [|exfalso; apply nth_error_None in Ef; lia]. cbn [option_map]. f_equal.
    destruct (nth_error books2 j) as [b|] eqn:Eb2; [|exfalso; apply nth_error_None in Eb2; lia].
    destruct (Hp2 j b o Eb2 Ho) as [Hsh Htx]. assert (Et : fst o = []) by (eapply shown_none; [exact Hsh|]; apply (Hknown j); apply Eb; exact Eb2).
    destruct o as [ts text]. cbn [fst snd] in *. subst ts. cbn [show_all] in Htx. injection Htx as <-. reflexivity.
  - assert (Ef : nth_error files j = None) by (apply nth_error_None; apply nth_error_None in Ho; lia). rewrite Ef. reflexivity.
Qed.
Print Assumptions C84_import_again.

(** ** C86 *)
Lemma generate_spec srt f64 isl today ss dedup main0 main ops s ts text : sort_ok is_less srt -> reachable srt main0 ->
  run_ops srt ops main0 = Ok main -> reachable srt main ->
  run_generate srt f64 isl today ss dedup main0 ops s = Ok (ts, text) ->
  exists b, process_data srt today ss (mkDef (bs "acct") (bs "ccy") (bs "cacct")) s = Ok b /\
    shown_of same_trans (fun t => dedup = true -> ~ known_to (snd (transactions srt main)) t) (bk_trans b) ts /\
    show_all f64 isl (bk_ccy main) ts = Ok text.
Proof.
  intros Hs _ Eo Hm E. apply (reachable_ok srt Hs) in Hm. unfold run_generate in E. rewrite Eo in E. cbn [obind] in E.
  apply obind_Ok in E as (b & Eb & E). exists b. split; [exact Eb|].
  destruct (process_data_ok srt Hs today ss _ s b Eb) as (Hb & Hcan & Hbc).
  set (i := mkImport [] [] [] dedup false).
  assert (Ef : (do x <- import_file srt f64 isl (fun _ _ => 0%Qc) (fun _ _ l => l) (fun _ _ l => l) 0 i main [] b; let '(_, ts, text) := x in Ok (ts, text)) = Ok (ts, text)).
  { revert E. unfold import_file. cbn [im_dedup im_reclass i against]. clear. destruct (if dedup then remove_duplicates_of srt main b else Ok (main, b)) as [[m b1]| | |]; cbn [obind]; try discriminate.
    unfold transactions. cbv zeta. destruct (show_all f64 isl (bk_ccy m) (bk_trans (compact srt b1))); cbn [obind]; try discriminate. intros H. exact H. }
  destruct (import_file_spec srt Hs f64 isl (fun _ _ => 0%Qc) (fun _ _ l => l) (fun _ _ l => l) (fun _ _ l => Permutation_refl l) (fun _ _ l => Permutation_refl l)
              0 i main [] b Hm (Forall_nil _) Hb Hcan) as (main' & b' & Hm' & Hb' & _ & Hch & Ei).
  rewrite Ei in Ef. apply obind_Ok in Ef as ([[[m1 b1] ts1] tx] & E1 & E2). apply obind_Ok in E1 as (tx' & Et & E1). injection E1 as _ _ <- <-.
  cbn beta iota in E2. injection E2 as <- <-. split; [|exact Et].
  eapply shown_filter; [|exact Hch]. intros t Ht. unfold kept. cbn [im_dedup i forallb]. rewrite andb_true_r, orb_true_iff, negb_true_iff.
  destruct Hb as (_ & _ & [Hg _] & _). rewrite Forall_forall in Hg. destruct (Hg t Ht) as [Hne Hu].
  rewrite (unknown_iff srt Hs isl today main t Hm Hne Hu). unfold transactions. cbn [snd]. destruct dedup; split; intros H; try tauto; try discriminate; try (left; reflexivity).
  - destruct H as [H|H]; [discriminate H|auto].
Qed.
Lemma run_ops_reach srt ops : forall main main', reachable srt main -> Forall script_op ops -> run_ops srt ops main = Ok main' -> reachable srt main'.
Proof.
  induction ops as [|o ops IH]; intros main main' Hm Hf E; cbn [run_ops] in E; [injection E as <-; exact Hm|].
  apply Forall_cons_iff in Hf as [Ho Hf]. apply obind_Ok in E as (m & E1 & E2). apply (IH m main'); [|exact Hf|exact E2].
  eapply reach_op; [exact Hm| |exact E1]. intros ob Hob. destruct o; try destruct Ho; discriminate Hob.
Qed.

(** The general shape: deduplication is against the ledger as the script left it. *)
Theorem C86_generate_prints_partial : forall srt f64 is_letter today set_string dedup main ops s ts text,
  sort_ok is_less srt -> reachable srt main -> Forall script_op ops ->
  run_generate srt f64 is_letter today set_string dedup main ops s = Ok (ts, text) ->
  exists main' b, run_ops srt ops main = Ok main' /\
    process_data srt today set_string (mkDef (bs "acct") (bs "ccy") (bs "cacct")) s = Ok b /\
    book_of set_string (mkDef (bs "acct") (bs "ccy") (bs "cacct")) s b /\
    shown_of same_trans (fun t => dedup = true -> ~ known_to (snd (transactions srt main')) t) (bk_trans b) ts /\
    show_all f64 is_letter (bk_ccy main') ts = Ok text /\
    (* a script that only reads data.transactions: the ledger itself *)
    (Forall (fun o => o = OTransactions) ops -> snd (transactions srt main') = snd (transactions srt main) /\ bk_ccy main' = bk_ccy main).
Proof.
  intros srt f64 isl today ss dedup main ops s ts text Hs Hm Hf E.
  pose proof E as E'. unfold run_generate in E'. apply obind_Ok in E' as (main' & Eo & _).
  pose proof (run_ops_reach srt ops main main' Hm Hf Eo) as Hm'.
  destruct (generate_spec srt f64 isl today ss dedup main main' ops s ts text Hs Hm Eo Hm' E) as (b & Hb & H1 & H2).
  exists main', b. split; [exact Eo|]. split; [exact Hb|]. split; [eapply process_book_of; eassumption|]. split; [exact H1|]. split; [exact H2|].
  intros HT. clear - HT Eo Hs Hm. apply (reachable_ok srt Hs) in Hm.
  assert (X : main' = main \/ main' = compact srt main).
  { revert main Hm Eo. induction HT as [|o ops -> _ IH]; intros main Hm Eo; cbn [run_ops] in Eo; [injection Eo as <-; left; reflexivity|].
    apply obind_Ok in Eo as (m & E1 & E2). cbn [run_op] in E1. injection E1 as <-. unfold transactions in E2. cbn [fst] in E2.
    apply IH in E2; [|apply compact_book_ok; assumption]. right. destruct E2 as [-> | ->]; [reflexivity|]. apply (compact_idem srt Hs). apply Hm. }
  unfold transactions. cbn [snd]. destruct X as [-> | ->]; [split; reflexivity|]. split; [|apply compact_ccy]. rewrite (compact_idem srt Hs); [reflexivity|]. apply Hm.
Qed.
Print Assumptions C86_generate_prints_partial.

(** ** Examples *)
(** A script with one add() call per (date, payee, amount). *)
Definition x_add (d p : str) (v : Z) : args := mkArgs d p (VInt v) None None None VNone None None [] None [] [].
Definition x_imp (dedup reclass : bool) : import := mkImport (bs "Cash") (bs "Unknown") [] dedup reclass.
Definition x_jw (a b : str) : Qc := if str_eqb a b then 1%Qc else Q2Qc (1 # 3).
Definition x_files : list script :=
  [ ([x_add (bs "2024-01-04") (bs "Shop") (-1); x_add (bs "2024-02-01") (bs "Shop") (-5)], false);
    ([x_add (bs "2024-02-01") (bs "Shop") (-5); x_add (bs "2024-02-02") (bs "Cinema") (-9)], false) ].
Definition x_main : book := built ex_ref_calls.
Definition x_import (dedup reclass : bool) (main : book) : list (list trans * str) * outcome unit :=
  run_import xsort x_f64 x_letter 20240301 x_ss x_jw (fun _ _ l => rev l) (fun _ _ l => l) (x_imp dedup reclass) (bs "GBP") main x_files.
Example C83_nonvacuous :
  reachable xsort x_main /\ similarity x_jw (sim x_jw) /\
  map snd (fst (x_import true true x_main)) =
    [ bs "2024/02/01 Shop" ++ nl ++ bs "  Cash  GBP -5" ++ nl ++ bs "  Food  GBP 5" ++ nl ++ nl;
      bs "2024/02/02 Cinema" ++ nl ++ bs "  Cash  GBP -9" ++ nl ++ bs "  Unknown  GBP 9" ++ nl ++ nl ] /\
  snd (x_import true true x_main) = Ok tt /\
  map (fun o => length (fst o)) (fst (x_import false false x_main)) = [2%nat; 1%nat].
Proof.
  split; [apply built_reach; vm_compute; reflexivity|]. split.
  { intros a b. unfold sim, x_jw. destruct (str_eqb a b); (split; [intros H|intros H]); try reflexivity; exfalso; vm_compute in H; try discriminate H; apply H; reflexivity. }
  split; [vm_compute; reflexivity|]. split; vm_compute; reflexivity.
Qed.

(** The second ledger: the first with the printed transactions added. *)
Definition x_main2 : book := built (ex_ref_calls ++
  [CTrans 20240201 (bs "Shop") []; CPost (bs "Cash") (bs "GBP") (qz (-5)) []; CPost (bs "Food") (bs "GBP") (qz 5) [];
   CTrans 20240202 (bs "Cinema") []; CPost (bs "Cash") (bs "GBP") (qz (-9)) []; CPost (bs "Fun") (bs "GBP") (qz 9) []]).
Definition keys_of (ts : list trans) : list (Z * str) := flat_map (map (fun p => (p_date p, p_payee p))) ts.
Lemma has_keys ts k : has ts k <-> In k (keys_of ts).
Proof.
  unfold keys_of. rewrite in_flat_map. split.
  - intros (t & p & Ht & Hp & <-). exists t. split; [exact Ht|]. apply in_map_iff. exists p. auto.
  - intros (t & Ht & H). apply in_map_iff in H as (p & <- & Hp). exists t, p. auto.
Qed.
Definition key_inb (l : list (Z * str)) (k : Z * str) : bool := existsb (fun x => (fst x =? fst k) && str_eqb (snd x) (snd k)) l.
Lemma keys_incl l l' : forallb (key_inb l') l = true -> forall k, In k l -> In k l'.
Proof.
  rewrite forallb_forall. intros H k Hk. specialize (H k Hk). apply existsb_exists in H as ([d p] & Hx & E). apply andb_true_iff in E as [E1 E2].
  cbn [fst snd] in *. apply Z.eqb_eq in E1. destruct (str_eqb_spec p (snd k)) as [E|]; [|discriminate E2]. destruct k as [d' p']. cbn [fst snd] in *. subst. exact Hx.
Qed.
Lemma outs_incl (outs : list (list trans * str)) l ts text k : forallb (key_inb l) (flat_map (fun o => keys_of (fst o)) outs) = true ->
  In (ts, text) outs -> In k (keys_of ts) -> In k l.
Proof. intros E H Hk. apply (keys_incl _ _ E). apply in_flat_map. exists (ts, text). auto. Qed.
Example C84_nonvacuous :
  reachable xsort x_main2 /\ im_dedup (x_imp true true) = true /\ snd (x_import true true x_main) = Ok tt /\
  (forall key, has (snd (transactions xsort x_main)) key -> has (snd (transactions xsort x_main2)) key) /\
  (forall ts text key, In (ts, text) (fst (x_import true true x_main)) -> has ts key -> has (snd (transactions xsort x_main2)) key) /\
  x_import true true x_main2 = ([([], []); ([], [])], Ok tt).
Proof.
  split; [apply built_reach; vm_compute; reflexivity|]. split; [reflexivity|]. split; [vm_compute; reflexivity|]. split; [|split].
  - intros key H. apply has_keys. apply has_keys in H. revert key H. apply keys_incl. vm_compute. reflexivity.
  - intros ts text key H Hk. apply has_keys. apply has_keys in Hk.
    exact (outs_incl _ _ ts text key (eq_refl true <: forallb (key_inb (keys_of (snd (transactions xsort x_main2)))) (flat_map (fun o => keys_of (fst o)) (fst (x_import true true x_main))) = true) H Hk).
  - vm_compute. reflexivity.
Qed.

(** generate: a script that first calls data.since(...) is deduplicated only against what is left of the ledger: it
    prints a transaction the ledger has. *)
Theorem C86_generate_refuted :
  let s : script := ([x_add (bs "2024-01-04") (bs "Shop") (-1)], false) in
  reachable xsort x_main /\ Forall script_op [OSince 20240201] /\
  (exists text, run_generate xsort x_f64 x_letter 20240301 x_ss true x_main [] s = Ok ([], text)) /\
  (exists t text, run_generate xsort x_f64 x_letter 20240301 x_ss true x_main [OSince 20240201] s = Ok ([t], text) /\
     known_to (snd (transactions xsort x_main)) t).
Proof.
  intros s. split; [apply built_reach; vm_compute; reflexivity|]. split; [constructor; [exact I|constructor]|]. split; [exists []; vm_compute; reflexivity|].
  set (r := run_generate xsort x_f64 x_letter 20240301 x_ss true x_main [OSince 20240201] s).
  exists (match r with Ok ([t], _) => t | _ => [] end), (match r with Ok (_, x) => x | _ => [] end). split; [vm_compute; reflexivity|].
  assert (H : forall t ts, existsb (fun p => key_inb (keys_of ts) (p_date p, p_payee p)) t = true -> known_to ts t).
  { clear. intros t ts H. apply existsb_exists in H as (p & Hp & H). exists p. split; [exact Hp|]. apply has_keys.
    refine (keys_incl [(p_date p, p_payee p)] (keys_of ts) _ _ (or_introl eq_refl)). cbn [forallb]. rewrite H. reflexivity. }
  apply H. vm_compute. reflexivity.
Qed.
Print Assumptions C86_generate_refuted.
