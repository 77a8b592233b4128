(** * ImportProofs3: all files of an import. *)
From Verif Require Import Base DateModel PriceModel BookModel BookSpec BookProofs BuilderProofs OpsModel OpsProofs OpsProofs2 OpsProofs3
  ScriptModel ScriptSpec ScriptProps ExportModel ImportModel ImportSpec ImportProofs1 ImportProofs2.

Lemma shown_filter {A} (R : A -> A -> Prop) (Q : A -> Prop) f l : (forall t, In t l -> (f t = true <-> Q t)) ->
  forall s, Forall2 R (filter f l) s -> shown_of R Q l s.
Proof.
  induction l as [|t l IH]; intros Hq s H; cbn [filter] in H; [inversion H; constructor|].
  assert (Hl : forall x, In x l -> (f x = true <-> Q x)) by (intros x Hx; apply Hq; right; exact Hx).
  destruct (f t) eqn:E.
  - inversion H as [|? u ? s' Hr H']; subst. constructor; [apply Hq; [left; reflexivity|exact E]|exact Hr|apply IH; assumption].
  - constructor; [intros Ht; apply Hq in Ht; [congruence|left; reflexivity]|apply IH; assumption].
Qed.

Section Files.
  Variable srt : list posting -> list posting.
  Hypothesis Hsrt : sort_ok is_less srt.
  Variable f64 : Qc -> Qc.
  Variable is_letter : Z -> bool.
  Variable today : Z.
  Variable set_string : str -> option Qc.
  Variable jw : str -> str -> Qc.
  Variable ord1 : nat -> str -> list (str * Z) -> list (str * Z).
  Variable ord2 : nat -> nat -> list (str * str) -> list (str * str).
  Hypothesis Hord1 : forall k x l, Permutation l (ord1 k x l).
  Hypothesis Hord2 : forall k i l, Permutation l (ord2 k i l).

  Lemma process_data_ok def s b : process_data srt today set_string def s = Ok b ->
    book_ok b /\ canonical (bk_post b) /\ compact srt b = b.
  Proof.
    unfold process_data. intros E. apply obind_Ok in E as ([bu err] & E1 & E2).
    assert (R : at_rest bu).
    { destruct (run_cases today set_string def (fst s) new_builder new_at_rest) as [(b' & ps & E' & R & _)|[(b' & ps & cs1 & a & cs2 & E' & R & _)|(cs1 & a & cs2 & E' & _)]];
        rewrite E1 in E'; try discriminate E'; injection E' as <- _; exact R. }
    destruct (err || snd s); [discriminate E2|].
    destruct (rest_builds srt bu Hsrt R) as (bk & Eb & Hok & _). rewrite E2 in Eb. injection Eb as <-. split; [exact Hok|].
    unfold build in E2. apply obind_Ok in E2 as (bu' & Ec & E2). injection E2 as <-.
    assert (Hp : Forall plain (bu_post bu')).
    { destruct R as (used & seg & (H1 & H2 & H3 & H4 & H5 & H6) & _).
      destruct (check_cases bu H1) as [(_ & b2 & Ec' & (S1 & _) & _)|[_ Ec']]; rewrite Ec in Ec'; [|discriminate Ec']. injection Ec' as <-. rewrite S1. exact H4. }
    split; [apply (compact_canonical srt Hsrt); exact Hp|]. apply (compact_idem srt Hsrt). exact Hp.
  Qed.

  Section Loop.
    Variable i : import.
    Variable def : defaults.
    Variable main0 : book.
    Hypothesis Hmain : book_ok main0.
    Let M := bk_trans (compact srt main0).
    Definition fixed (P : book) : Prop := book_ok P /\ compact srt P = P.
    Definition dup (key : Z * str) : Prop := im_dedup i = true /\ has M key.
    Definition in_any (bs : list book) (key : Z * str) : Prop := exists b, In b bs /\ has (bk_trans b) key.

    Lemma has_app a b key : has (a ++ b) key <-> has a key \/ has b key.
    Proof.
      split.
      - intros (t & p & Ht & H). apply in_app_iff in Ht as [Ht|Ht]; [left|right]; exists t, p; auto.
      - intros [(t & p & Ht & H)|(t & p & Ht & H)]; exists t, p; split; auto; apply in_app_iff; auto.
    Qed.
    Lemma has_changed main ts us : Forall2 (changed srt jw i main) ts us -> forall key, has ts key <-> has us key.
    Proof.
      intros F key. induction F as [|t u ts us Hc _ IH]; [reflexivity|]. change (t :: ts) with ([t] ++ ts). change (u :: us) with ([u] ++ us).
      rewrite !has_app, IH. rewrite (changed_vis srt jw i main t u Hc). reflexivity.
    Qed.

    Lemma unknown_iff P t : book_ok P -> t <> [] -> (forall p q, In p t -> In q t -> dp p = dp q) ->
      (unknown srt P t = true <-> ~ known_to (bk_trans (compact srt P)) t).
    Proof.
      intros HP Hne Hu. unfold unknown. rewrite negb_true_iff. pose proof (has_known (bk_trans (compact srt P)) t) as H.
      specialize (H (proj1 (proj2 (proj2 (compact_book_ok srt Hsrt P HP)))) Hne Hu). destruct (known _ t); split; intros; try congruence; try tauto.
      intros F. apply H in F. discriminate.
    Qed.
    Lemma in_any_app a b key : in_any (a ++ b) key <-> in_any a key \/ in_any b key.
    Proof.
      split.
      - intros (x & Hx & H). apply in_app_iff in Hx as [Hx|Hx]; [left|right]; exists x; auto.
      - intros [(x & Hx & H)|(x & Hx & H)]; exists x; split; auto; apply in_app_iff; auto.
    Qed.

    (** Which transactions of a file are kept. *)
    Lemma kept_iff main prevs earlier b t : main = main0 \/ main = compact srt main0 -> Forall fixed prevs ->
      (forall key, dup key \/ in_any prevs key <-> dup key \/ in_any earlier key) -> book_ok b -> In t (bk_trans b) ->
      (kept srt i main prevs t = true <->
       (im_dedup i = true -> ~ known_to M t) /\ (forall b', In b' earlier -> ~ known_to (bk_trans b') t)).
    Proof.
      intros Hm Hf Hinv Hb Ht. destruct Hb as (_ & _ & [Hg _] & _). rewrite Forall_forall in Hg. destruct (Hg t Ht) as [Hne Hu].
      assert (Hmo : book_ok main) by (destruct Hm as [-> | ->]; [exact Hmain|apply compact_book_ok; assumption]).
      assert (Hmc : compact srt main = compact srt main0) by (destruct Hm as [-> | ->]; [reflexivity|apply (compact_idem srt Hsrt); apply Hmain]).
      assert (Hk : forall ts, known_to ts t <-> has ts (dp (hd (mkP 0 [] [] [] [] 0%Qc [] 0%Qc 0 [] []) t))).
      { intros ts. destruct t as [|x t]; [congruence|]. cbn [hd]. split.
        - intros (p & Hp & Hh). change (p_date p, p_payee p) with (dp p) in Hh. rewrite (Hu x p (or_introl eq_refl) Hp). exact Hh.
        - intros H. exists x. split; [left; reflexivity|exact H]. }
      set (key := dp (hd (mkP 0 [] [] [] [] 0%Qc [] 0%Qc 0 [] []) t)) in *.
      assert (H1 : kept srt i main prevs t = true <-> ~ (dup key \/ in_any prevs key)).
      { unfold kept. rewrite andb_true_iff, orb_true_iff, negb_true_iff, forallb_forall, (unknown_iff main t Hmo Hne Hu), Hmc. fold M. rewrite Hk. split.
        - intros [H1 H2] [[D1 D2]|(P & HP & HH)].
          + destruct H1 as [H1|H1]; [congruence|contradiction].
          + specialize (H2 P HP). rewrite Forall_forall in Hf. destruct (Hf P HP) as [Ho Hc]. apply (unknown_iff P t Ho Hne Hu) in H2. apply H2, Hk. rewrite Hc. exact HH.
        - intros H. split.
          + destruct (im_dedup i) eqn:Ed; [right|left; reflexivity]. intros F. apply H. left. split; [exact Ed|exact F].
          + intros P HP. rewrite Forall_forall in Hf. destruct (Hf P HP) as [Ho Hc]. apply (unknown_iff P t Ho Hne Hu). intros F. apply H. right. exists P. split; [exact HP|].
            rewrite Hc in F. apply Hk. exact F. }
      rewrite H1, Hinv. split.
      - intros H. split; [intros Hd F; apply H; left; split; [exact Hd|apply Hk; exact F]|]. intros b' Hb' F. apply H. right. exists b'. split; [exact Hb'|apply Hk; exact F].
      - intros [A1 A2] [[D1 D2]|(b' & Hb' & F)]; [apply (A1 D1), Hk; exact D2|apply (A2 b' Hb'), Hk; exact F].
    Qed.

    Definition shows (earlier : list book) (b : book) (o : list trans * str) : Prop :=
      show_all f64 is_letter (bk_ccy main0) (fst o) = Ok (snd o) /\
      shown_of (changed srt jw i main0)
        (fun t => (im_dedup i = true -> ~ known_to M t) /\ (forall b', In b' earlier -> ~ known_to (bk_trans b') t)) (bk_trans b) (fst o).

    Lemma changed_main main : main = main0 \/ main = compact srt main0 -> changed srt jw i main = changed srt jw i main0.
    Proof.
      intros Hm. assert (E : compact srt main = compact srt main0) by (destruct Hm as [-> | ->]; [reflexivity|apply (compact_idem srt Hsrt); apply Hmain]).
      unfold changed. rewrite E. reflexivity.
    Qed.

    Lemma import_files_spec : forall files k main prevs earlier out r,
      main = main0 \/ main = compact srt main0 -> Forall fixed prevs ->
      (forall key, dup key \/ in_any prevs key <-> dup key \/ in_any earlier key) ->
      import_files srt f64 is_letter today set_string jw ord1 ord2 k i def main prevs files = (out, r) ->
      exists books, length books = length out /\
        Forall2 (fun s b => process_data srt today set_string def s = Ok b) (firstn (length out) files) books /\
        (forall j b o, nth_error books j = Some b -> nth_error out j = Some o -> shows (earlier ++ firstn j books) b o) /\
        ((r = Ok tt /\ length out = length files) \/
         exists s, nth_error files (length out) = Some s /\
           (r = Error /\ process_data srt today set_string def s = Error \/
            r = Panic /\ process_data srt today set_string def s = Panic \/
            exists b ts, process_data srt today set_string def s = Ok b /\ (forall text, show_all f64 is_letter (bk_ccy main0) ts <> Ok text) /\
              r = (do _ <- show_all f64 is_letter (bk_ccy main0) ts; Ok tt) /\
              shown_of (changed srt jw i main0)
                (fun t => (im_dedup i = true -> ~ known_to M t) /\ (forall b', In b' (earlier ++ books) -> ~ known_to (bk_trans b') t)) (bk_trans b) ts)).
    Proof.
      induction files as [|s files IH]; intros k main prevs earlier out r Hm Hf Hinv E.
      { cbn [import_files] in E. injection E as <- <-. exists []. split; [reflexivity|]. split; [constructor|]. split; [intros [|j] b o Hb; discriminate Hb|].
        left. split; reflexivity. }
      cbn [import_files] in E.
      assert (Hmo : book_ok main) by (destruct Hm as [-> | ->]; [exact Hmain|apply compact_book_ok; assumption]).
      assert (Hcc : bk_ccy main = bk_ccy main0) by (destruct Hm as [-> | ->]; [reflexivity|apply compact_ccy]).
      assert (Hpo : Forall book_ok prevs) by (eapply Forall_impl; [|exact Hf]; intros P [HP _]; exact HP).
      destruct (process_data srt today set_string def s) as [b| | |] eqn:Ep; cbn [obind] in E.
      - destruct (process_data_ok def s b Ep) as (Hb & Hcan & Hbc).
        destruct (import_file_spec srt Hsrt f64 is_letter jw ord1 ord2 Hord1 Hord2 k i main prevs b Hmo Hpo Hb Hcan) as (main' & b' & Hm' & Hb' & Hbc' & Hch & Ef).
        rewrite Ef, Hcc in E. rewrite (changed_main main Hm) in Hch.
        assert (Hshown : shown_of (changed srt jw i main0)
          (fun t => (im_dedup i = true -> ~ known_to M t) /\ (forall b', In b' earlier -> ~ known_to (bk_trans b') t)) (bk_trans b) (bk_trans b')).
        { eapply shown_filter; [|exact Hch]. intros t Ht. apply (kept_iff main prevs earlier b t); assumption. }
        destruct (show_all f64 is_letter (bk_ccy main0) (bk_trans b')) as [text| | |] eqn:Es; cbn [obind] in E.
        + destruct (import_files srt f64 is_letter today set_string jw ord1 ord2 (S k) i def main' (map (compact srt) prevs ++ [b']) files) as [out' r'] eqn:Er.
          injection E as <- <-.
          assert (Hpc : map (compact srt) prevs = prevs) by (clear - Hf; induction Hf as [|P l [_ H] _ IHl]; [reflexivity|]; cbn [map]; rewrite H, IHl; reflexivity).
          rewrite Hpc in Er.
          assert (Hm2 : main' = main0 \/ main' = compact srt main0).
          { destruct Hm' as [-> | ->]; [exact Hm|]. right. destruct Hm as [-> | ->]; [reflexivity|apply (compact_idem srt Hsrt); apply Hmain]. }
          assert (Hinv' : forall key, dup key \/ in_any (prevs ++ [b']) key <-> dup key \/ in_any (earlier ++ [b]) key).
          { intros key. rewrite !in_any_app.
            assert (E1 : in_any [b'] key <-> has (filter (kept srt i main prevs) (bk_trans b)) key).
            { rewrite (has_changed main0 _ _ Hch). split; [intros (x & [<-|[]] & H); exact H|intros H; exists b'; split; [left; reflexivity|exact H]]. }
            assert (E2 : in_any [b] key <-> has (bk_trans b) key).
            { split; [intros (x & [<-|[]] & H); exact H|intros H; exists b; split; [left; reflexivity|exact H]]. }
            rewrite E1, E2. pose proof (Hinv key) as Hi. split.
            - intros [H|[H|(t & p & Ht & H)]]; [tauto|tauto|]. right. right. apply filter_In in Ht as [Ht _]. exists t, p. auto.
            - intros [H|[H|(t & p & Ht & Hp & Hkey)]]; [tauto|tauto|]. destruct (kept srt i main prevs t) eqn:Ek.
              + right. right. exists t, p. split; [apply filter_In; auto|auto].
              + assert (Hd : dup key \/ in_any earlier key); [|tauto].
                destruct (im_dedup i) eqn:Ed.
                * unfold dup. rewrite Ed. apply not_true_iff_false in Ek. destruct (known M t) eqn:Ekn.
                  { left. split; [reflexivity|]. destruct Hb as (_ & _ & [Hg _] & _). rewrite Forall_forall in Hg. destruct (Hg t Ht) as [Hne Hu].
                    apply (has_known M t) in Ekn; [|apply (compact_book_ok srt Hsrt main0 Hmain)|exact Hne|exact Hu]. destruct Ekn as (q & Hq & Hh).
                    change (p_date q, p_payee q) with (dp q) in Hh. rewrite (Hu q p Hq Hp) in Hh. rewrite <- Hkey. exact Hh. }
                  right. destruct (existsb (fun P => known (bk_trans P) t) prevs) eqn:Ee.
                  { apply existsb_exists in Ee as (P & HP & Ekn'). destruct Hb as (_ & _ & [Hg _] & _). rewrite Forall_forall in Hg. destruct (Hg t Ht) as [Hne Hu].
                    rewrite Forall_forall in Hf. destruct (Hf P HP) as [Ho _].
                    apply (has_known (bk_trans P) t) in Ekn'; [|apply Ho|exact Hne|exact Hu]. destruct Ekn' as (q & Hq & Hh).
                    change (p_date q, p_payee q) with (dp q) in Hh. rewrite (Hu q p Hq Hp) in Hh. unfold dp in Hh. rewrite Hkey in Hh.
                    assert (Hx : dup key \/ in_any earlier key) by (apply Hi; right; exists P; auto). destruct Hx as [[_ Hx]|Hx]; [|exact Hx].
                    exfalso. destruct Hx as (t' & p' & Ht' & Hp' & Ek'). apply not_true_iff_false in Ekn. apply Ekn. apply has_known; [apply (compact_book_ok srt Hsrt main0 Hmain)|exact Hne|exact Hu|].
                    exists p. split; [exact Hp|]. exists t', p'. split; [exact Ht'|]. split; [exact Hp'|]. congruence. }
                  exfalso. apply Ek. unfold kept. rewrite Ed. cbn [negb orb]. apply andb_true_iff. split.
                  -- unfold unknown. assert (Emc : compact srt main = compact srt main0) by (destruct Hm as [-> | ->]; [reflexivity|apply (compact_idem srt Hsrt); apply Hmain]).
                     rewrite Emc. fold M. rewrite Ekn. reflexivity.
                  -- apply forallb_forall. intros P HP. unfold unknown. rewrite Forall_forall in Hf. destruct (Hf P HP) as [_ HcP]. rewrite HcP.
                     destruct (known (bk_trans P) t) eqn:EP; [|reflexivity]. exfalso. apply not_true_iff_false in Ee. apply Ee. apply existsb_exists. exists P. auto.
                * right. apply not_true_iff_false in Ek. destruct (existsb (fun P => known (bk_trans P) t) prevs) eqn:Ee.
                  { apply existsb_exists in Ee as (P & HP & Ekn'). destruct Hb as (_ & _ & [Hg _] & _). rewrite Forall_forall in Hg. destruct (Hg t Ht) as [Hne Hu].
                    rewrite Forall_forall in Hf. destruct (Hf P HP) as [Ho _].
                    apply (has_known (bk_trans P) t) in Ekn'; [|apply Ho|exact Hne|exact Hu]. destruct Ekn' as (q & Hq & Hh).
                    change (p_date q, p_payee q) with (dp q) in Hh. rewrite (Hu q p Hq Hp) in Hh. unfold dp in Hh. rewrite Hkey in Hh.
                    assert (Hx : dup key \/ in_any earlier key) by (apply Hi; right; exists P; auto). destruct Hx as [[Hx _]|Hx]; [congruence|exact Hx]. }
                  exfalso. apply Ek. unfold kept. rewrite Ed. cbn [negb orb andb]. apply forallb_forall. intros P HP. unfold unknown. rewrite Forall_forall in Hf. destruct (Hf P HP) as [_ HcP]. rewrite HcP.
                  destruct (known (bk_trans P) t) eqn:EP; [|reflexivity]. exfalso. apply not_true_iff_false in Ee. apply Ee. apply existsb_exists. exists P. auto. }
          assert (Hf' : Forall fixed (prevs ++ [b'])) by (apply Forall_app; split; [exact Hf|constructor; [split; assumption|constructor]]).
          destruct (IH (S k) main' (prevs ++ [b']) (earlier ++ [b]) out' r' Hm2 Hf' Hinv' Er) as (books & L & F & Hs & Hr).
          exists (b :: books). split; [cbn [length]; rewrite L; reflexivity|]. split; [cbn [length firstn]; constructor; [exact Ep|exact F]|]. split.
          * intros [|j] b0 o Hb0 Ho; cbn [nth_error firstn] in *.
            -- injection Hb0 as <-. injection Ho as <-. rewrite app_nil_r. split; [exact Es|exact Hshown].
            -- specialize (Hs j b0 o Hb0 Ho). rewrite <- app_assoc in Hs. exact Hs.
          * destruct Hr as [[-> Hl]|(s' & Hs' & Hr)]; [left; split; [reflexivity|cbn [length]; rewrite Hl; reflexivity]|]. right. exists s'. split; [exact Hs'|].
            destruct Hr as [Hr|[Hr|(b0 & ts & H1 & H2 & H3 & H4)]]; [left; exact Hr|right; left; exact Hr|]. right. right. exists b0, ts. rewrite <- app_assoc in H4. auto.
        + injection E as <- <-. exists []. split; [reflexivity|]. split; [constructor|]. split; [intros [|j] b0 o Hb0; discriminate Hb0|]. right. exists s. split; [reflexivity|].
          right. right. exists b, (bk_trans b'). split; [exact Ep|]. rewrite Es. split; [discriminate|]. split; [reflexivity|]. rewrite app_nil_r. exact Hshown.
        + injection E as <- <-. exists []. split; [reflexivity|]. split; [constructor|]. split; [intros [|j] b0 o Hb0; discriminate Hb0|]. right. exists s. split; [reflexivity|].
          right. right. exists b, (bk_trans b'). split; [exact Ep|]. rewrite Es. split; [discriminate|]. split; [reflexivity|]. rewrite app_nil_r. exact Hshown.
        + injection E as <- <-. exists []. split; [reflexivity|]. split; [constructor|]. split; [intros [|j] b0 o Hb0; discriminate Hb0|]. right. exists s. split; [reflexivity|].
          right. right. exists b, (bk_trans b'). split; [exact Ep|]. rewrite Es. split; [discriminate|]. split; [reflexivity|]. rewrite app_nil_r. exact Hshown.
      - injection E as <- <-. exists []. split; [reflexivity|]. split; [constructor|]. split; [intros [|j] b0 o Hb0; discriminate Hb0|]. right. exists s. split; [reflexivity|]. left. split; [reflexivity|exact Ep].
      - injection E as <- <-. exists []. split; [reflexivity|]. split; [constructor|]. split; [intros [|j] b0 o Hb0; discriminate Hb0|]. right. exists s. split; [reflexivity|]. right. left. split; [reflexivity|exact Ep].
      - exfalso. clear - Ep Hsrt. unfold process_data in Ep.
        destruct (run_cases today set_string def (fst s) new_builder new_at_rest) as [(b' & ps & E' & R & _)|[(b' & ps & cs1 & a & cs2 & E' & R & _)|(cs1 & a & cs2 & E' & _)]];
          rewrite E' in Ep; cbn [obind] in Ep; [|discriminate Ep|discriminate Ep].
        destruct (rest_builds srt b' Hsrt R) as (bk & Eb & _). rewrite Eb in Ep. destruct (false || snd s); discriminate Ep.
    Qed.
  End Loop.
End Files.
