(** * HeldProps: C96, lists of transactions a script keeps. *)
From Verif Require Import Base Dec DateModel PriceModel BookModel BookSpec BookProofs BuilderProofs OpsModel OpsProofs OpsProofs2 BookProps AccumModel HeapModel HeapSpec HeapProofs HeapProofs2 HeapProofs3 HeapProofs4 HeapProofs5 HeapProps2
  BookOpModel ConvertModel ViewModel ViewSpec ViewProps HeldModel HeldSpec HeldProofs.
Local Open Scope nat_scope.

(** A script runs any calls [cs1], keeps data.transactions, and runs further calls that only look at the book or choose a period. Whatever was
    done, the kept list has, to the end of the script, the transactions and postings it had when it was made - which are those the book
    had (had every list been a copy) - but for the balances. *)
Theorem C96_kept_partial : forall ord grow compile today calls st0 cs1 cs2 st hs, order_ok ord -> sort_ok is_less (srt_of ord) ->
  hload ord grow calls = Ok st0 -> hcalls ord grow compile today st0 [] (cs1 ++ HTake :: cs2) = Ok (st, hs, false) -> Forall (fun c => takes c \/ chooses c) cs2 ->
  exists b vb vs h, build_calls (srt_of ord) calls = Ok b /\ vcalls (srt_of ord) compile today b [] cs1 = Ok (vb, vs, false) /\ nth_error hs (length vs) = Some h /\
    map (map all_but_balance) (show st h) = map (map all_but_balance) (snd (transactions (srt_of ord) vb)).
Proof.
  intros ord grow compile today calls st0 cs1 cs2 st hs Ho Hs E0 E Hc. pose proof (load_good ord grow Ho Hs calls) as H. destruct (build_calls (srt_of ord) calls) as [b| | |] eqn:Eb; try (rewrite H in E0; discriminate). destruct H as (st1 & E1 & HG). rewrite E0 in E1. injection E1 as <-.
  destruct (hcalls_prefix _ _ _ _ _ _ _ _ _ _ E) as (st1 & hs1 & E1). rewrite (hcalls_app _ _ _ _ _ _ _ _ _ _ E1) in E.
  pose proof (hcalls_sim ord grow compile today Ho Hs cs1 st0 b [] [] HG eq_refl) as H. destruct (vcalls (srt_of ord) compile today b [] cs1) as [[[vb vs] f]| | |] eqn:Ev; try (rewrite H in E1; discriminate).
  destruct H as (st2 & hs2 & E2 & HG1 & Hl). rewrite E1 in E2. injection E2 as <- -> <-. cbn [app] in *.
  cbn [hcalls] in E. apply obind_Ok in E as (((st2 & hs3) & f) & E2 & E3). destruct (take_same ord grow compile today Ho Hs _ _ _ _ _ _ HG1 E2) as (m' & Est & -> & -> & HG2 & Hloc & Hcells).
  assert (HF : Fwd (cells (sd_m st2) (hb_post (sd_b st2))) st2 st2) by (split; [apply loc_refl|split; [apply sub_refl|auto]]).
  destruct (Fwd_steps ord grow compile today Ho Hs _ st2 cs2 _ _ _ _ _ HG2 HF Hc E3) as (HF2 & hs3 & ->).
  exists b, vb, vs, (sd_k st1, length (hb_trans (sd_b st1))). split; [reflexivity|]. split; [exact Ev|]. split.
  - rewrite <- Hl, <- app_assoc. rewrite nth_error_app2 by lia. rewrite Nat.sub_diag. reflexivity.
  - pose proof (show_later st2 _ st HG2 HF2) as X. subst st2. exact X.
Qed.
Print Assumptions C96_kept_partial.

(** When the list is only taken again, and then periods are chosen without taking it again, the balances stay, too. *)
Theorem C96_balances_partial : forall ord grow compile today calls st0 cs1 cs2 cs3 st hs, order_ok ord -> sort_ok is_less (srt_of ord) ->
  hload ord grow calls = Ok st0 -> hcalls ord grow compile today st0 [] (cs1 ++ HTake :: cs2 ++ cs3) = Ok (st, hs, false) -> Forall takes cs2 -> Forall chooses cs3 ->
  exists b vb vs h, build_calls (srt_of ord) calls = Ok b /\ vcalls (srt_of ord) compile today b [] cs1 = Ok (vb, vs, false) /\ nth_error hs (length vs) = Some h /\
    show st h = snd (transactions (srt_of ord) vb).
Proof.
  intros ord grow compile today calls st0 cs1 cs2 cs3 st hs Ho Hs E0 E H2 H3. pose proof (load_good ord grow Ho Hs calls) as H. destruct (build_calls (srt_of ord) calls) as [b| | |] eqn:Eb; try (rewrite H in E0; discriminate). destruct H as (st1 & E1 & HG). rewrite E0 in E1. injection E1 as <-.
  destruct (hcalls_prefix _ _ _ _ _ _ _ _ _ _ E) as (st1 & hs1 & E1). rewrite (hcalls_app _ _ _ _ _ _ _ _ _ _ E1) in E.
  pose proof (hcalls_sim ord grow compile today Ho Hs cs1 st0 b [] [] HG eq_refl) as H. destruct (vcalls (srt_of ord) compile today b [] cs1) as [[[vb vs] f]| | |] eqn:Ev; try (rewrite H in E1; discriminate).
  destruct H as (st2 & hs2 & E2 & HG1 & Hl). rewrite E1 in E2. injection E2 as <- -> <-. cbn [app] in *.
  cbn [hcalls] in E. apply obind_Ok in E as (((st2 & hs3) & f) & E2 & E3). destruct (take_same ord grow compile today Ho Hs _ _ _ _ _ _ HG1 E2) as (m' & Est & -> & -> & HG2 & _).
  destruct (hcalls_prefix _ _ _ _ _ _ _ _ _ _ E3) as (st3 & hs3 & E4). rewrite (hcalls_app _ _ _ _ _ _ _ _ _ _ E4) in E3.
  assert (Hi : compact (srt_of ord) (compact (srt_of ord) vb) = compact (srt_of ord) vb) by (apply (compact_idem _ Hs); apply (g_ok _ _ HG1)).
  destruct (takes_exact ord grow compile today Ho Hs cs2 _ _ _ _ _ HG2 Hi H2 E4) as (HG3 & (hs4 & ->) & T1 & T2 & T3).
  destruct (chooses_ext ord grow compile today Ho Hs cs3 _ _ _ _ _ HG3 H3 E3) as (X & -> & K).
  exists b, vb, vs, (sd_k st3, length (hb_trans (sd_b st3))). split; [reflexivity|]. split; [exact Ev|]. split.
  - rewrite <- Hl, <- app_assoc. rewrite nth_error_app2 by lia. rewrite Nat.sub_diag. cbn. rewrite T2, T3. subst st2. reflexivity.
  - unfold transactions. cbn [snd]. destruct HG3 as [HR3 _ _ Hk3 Ht3]. unfold show. cbn [fst snd]. rewrite (K _ Hk3), Ht3. pose proof (RB_read _ _ _ HR3) as Hr. rewrite <- Hr. cbn [read bk_trans].
    apply map_ext_in. intros t Hin. destruct (RB_WB _ _ _ HR3) as (_ & Hb & Hsl & Hcc & _). apply (look_slice_loc _ _ _ _ _ X); [apply Hsl; exact Hin|tauto| |tauto].
    intros x Hx. apply Hb. apply ptrs_In in Hx as (p & Hp & Hx). apply ptrs_In. exists p. split; [|exact Hx]. rewrite <- Hcc. apply in_concat. exists (cells (sd_m st3) t). split; [apply in_map; exact Hin|exact Hp].
Qed.
Print Assumptions C96_balances_partial.

(** ** Expected: a list a script keeps stays as it was. The balances are those of the last data.transactions of any period; and data.map changes
    the kept list itself: the accounts, and where two accounts become one, the amounts. *)
Definition x_any (s : str) : option regexp := Some (mkRe (fun _ => true) (fun _ r => r)).
Definition x_held (cs : list hcall) : list (list (Z * str * str * Q * Q)) :=
  match hload x_ord x_grow ex_calls with
  | Ok st => match hcalls x_ord x_grow x_any 20240401%Z st [] cs with
             | Ok (st, h :: _, false) => map (map (fun p => (p_date p, p_acct p, p_ccy p, this (p_val p), this (p_bal p)))) (show st h)
             | _ => [] end
  | _ => [] end.
Theorem C96_kept_refuted :
  let line d a c (v b : Q) : Z * str * str * Q * Q := (d, a, c, v, b) in
  x_held [HTake] =
    [[line 20240105%Z (bs "Assets:Cash") (bs "GBP") (-15)%Q (-15)%Q; line 20240105%Z (bs "Expense:Food") (bs "GBP") 15%Q 15%Q];
     [line 20240105%Z (bs "Assets:Cash") (bs "USD") (-100)%Q (-100)%Q; line 20240105%Z (bs "Expense:Car") (bs "USD") 100%Q 100%Q];
     [line 20240310%Z (bs "Assets:Cash") (bs "GBP") 50%Q 35%Q; line 20240310%Z (bs "Income") (bs "GBP") (-50)%Q (-50)%Q]] /\
  (* the balance of the cash account was 35 *)
  x_held [HTake; HData (DSince (bs "2024-01-06")); HTake] =
    [[line 20240105%Z (bs "Assets:Cash") (bs "GBP") (-15)%Q (-15)%Q; line 20240105%Z (bs "Expense:Food") (bs "GBP") 15%Q 15%Q];
     [line 20240105%Z (bs "Assets:Cash") (bs "USD") (-100)%Q (-100)%Q; line 20240105%Z (bs "Expense:Car") (bs "USD") 100%Q 100%Q];
     [line 20240310%Z (bs "Assets:Cash") (bs "GBP") 50%Q 50%Q; line 20240310%Z (bs "Income") (bs "GBP") (-50)%Q (-50)%Q]] /\
  (* accounts and amounts are lost, and postings of different days are in one transaction *)
  x_held [HTake; HData (DMap (bs "^.*$") (bs "All") [])] =
    [[line 20240105%Z (bs "All") (bs "GBP") 0%Q (-15)%Q; line 20240105%Z (bs "All") (bs "USD") 0%Q (-100)%Q];
     [line 20240310%Z (bs "All") (bs "GBP") 0%Q 35%Q; line 20240105%Z (bs "All") (bs "USD") 100%Q 100%Q];
     [line 20240310%Z (bs "All") (bs "GBP") 0%Q 35%Q; line 20240310%Z (bs "All") (bs "GBP") (-50)%Q (-50)%Q]].
Proof. repeat split; vm_compute; reflexivity. Qed.
Print Assumptions C96_kept_refuted.

(** The hypotheses are met: a list kept before and a list kept after a mapping, then periods. *)
Example C96_nonvacuous :
  let cs1 := [HTake; HData (DMap (bs "x") (bs "Assets:Cash") (bs "Rest"))] in
  let cs2 := [HTake; HData (DSince (bs "2024-01-06"))] in
  order_ok x_ord /\ sort_ok is_less (srt_of x_ord) /\ Forall (fun c => takes c \/ chooses c) cs2 /\
  exists st0 st h1 h2 h3, hload x_ord x_grow ex_calls = Ok st0 /\ hcalls x_ord x_grow x_any 20240401%Z st0 [] (cs1 ++ HTake :: cs2) = Ok (st, [h1; h2; h3], false).
Proof.
  cbv zeta. split; [exact x_ord_ok|]. split; [exact x_srt_ok|]. split.
  - constructor; [left; reflexivity|]. constructor; [|constructor]. right. exists (DSince (bs "2024-01-06")). split; [reflexivity|exact I].
  - assert (H : match hload x_ord x_grow ex_calls with
                | Ok st0 => match hcalls x_ord x_grow x_any 20240401%Z st0 [] [HTake; HData (DMap (bs "x") (bs "Assets:Cash") (bs "Rest")); HTake; HTake; HData (DSince (bs "2024-01-06"))] with
                            | Ok (_, hs, f) => negb f && (length hs =? 3) | _ => false end
                | _ => false end = true) by (vm_compute; reflexivity).
    destruct (hload x_ord x_grow ex_calls) as [st0| | |]; try discriminate H. cbn [app].
    destruct (hcalls x_ord x_grow x_any 20240401%Z st0 [] [HTake; HData (DMap (bs "x") (bs "Assets:Cash") (bs "Rest")); HTake; HTake; HData (DSince (bs "2024-01-06"))]) as [[[st hs] f]| | |] eqn:E; try discriminate H.
    apply andb_true_iff in H as [Hf Hl]. destruct f; [discriminate Hf|]. destruct hs as [|h1 [|h2 [|h3 [|h4 hs]]]]; try discriminate Hl. exists st0, st, h1, h2, h3. split; [reflexivity|exact E].
Qed.
