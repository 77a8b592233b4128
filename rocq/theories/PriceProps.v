(** * PriceProps: properties C19-C24. *)
From Verif Require Import Base DateModel DateSpec DateProofs DateProofs2 PriceModel PriceSpec PriceProofs.

(** C19. The lookup returns what the independent specification [quote] says, and an interpolated price
    lies between its two neighbours. *)
Theorem C19_price_lookup :
  (forall pl d, pl_ok pl -> valid_date d -> exists v t, pl_get pl d = Ok (v, t) /\ quote pl d v t) /\
  (forall d lo hi v, on_line d lo hi v ->
    (pr_val lo <= pr_val hi -> pr_val lo <= v /\ v <= pr_val hi)%Qc /\
    (pr_val hi <= pr_val lo -> pr_val hi <= v /\ v <= pr_val lo)%Qc) /\
  (forall pl d v t v' t', pl_strict pl -> quote pl d v t -> quote pl d v' t' -> v = v' /\ t = t').
Proof. exact (conj pl_get_spec (conj on_line_between quote_fun)). Qed.
Print Assumptions C19_price_lookup.

Definition ex_pl : pricelist :=
  [mkPrice 20240101 (qz 10); mkPrice 20240111 (qz 20); mkPrice 20240131 (qz 40)].
Lemma ex_valid d : (exists y m dd, valid_ymd y m dd /\ ymd y m dd = d) -> valid_date d.
Proof. intros (y & m & dd & V & <-). exists y, m, dd. auto. Qed.
Example C19_nonvacuous :
  pl_ok ex_pl /\ pl_strict ex_pl /\ valid_date 20240106 /\
  match pl_get ex_pl 20240106 with Ok (v, Inferred) => qc_eqb v (qz 15) | _ => false end = true /\
  match pl_get ex_pl 20240111 with Ok (v, Exact) => qc_eqb v (qz 20) | _ => false end = true /\
  match pl_get ex_pl 20240301 with Ok (v, OutOfRange) => qc_eqb v (qz 40) | _ => false end = true.
Proof.
  assert (V : forall dd, 1 <= dd <= 31 -> valid_date (20240100 + dd)).
  { intros dd H. apply ex_valid. exists 2024, 1, dd. split; [|unfold ymd; lia].
    unfold valid_ymd. change (dim 2024 1) with 31. lia. }
  split; [|split; [|split; [apply (V 6); lia|repeat split; vm_compute; reflexivity]]].
  - split; [discriminate|]. split.
    + repeat constructor; cbn; [apply (V 1)|apply (V 11)|apply (V 31)]; lia.
    + repeat constructor; cbn; lia.
  - repeat constructor; cbn; lia.
Qed.

(** C20. Every price book built from prices with valid dates answers every lookup on a valid date; the only
    failure is the reciprocal of a price that is zero on that date; none with positive prices. *)
Theorem C20_price_lookup_total :
  (forall adds, Forall (fun '(d, _, _) => valid_date d) adds -> pb_ok (build_prices (add_all adds []))) /\
  (forall pb d u c, pb_ok pb -> valid_date d ->
    (exists v t, get_price pb d u c = Ok (v, t)) \/
    (get_price pb d u c = Panic /\ aget pair_eqb (u, c) pb = None /\
     exists l t, aget pair_eqb (c, u) pb = Some l /\ pl_get l d = Ok (0%Qc, t))) /\
  (forall pb d u c, pb_ok pb -> pb_pos pb -> valid_date d ->
    exists v t, get_price pb d u c = Ok (v, t) /\ (0 < v)%Qc).
Proof. exact (conj built_ok (conj get_price_cases get_price_total)). Qed.
Print Assumptions C20_price_lookup_total.
(** The condition on dates is needed: prices with month 14 (accepted by the loader, C29) crash the lookup. *)
Example C20_invalid_date_panics :
  get_price (build_prices (add_all [(20240101, (bs "USD", bs "GBP"), qz 1); (20241401, (bs "USD", bs "GBP"), qz 1)] []))
    20240601 (bs "USD") (bs "GBP") = Panic.
Proof. vm_compute. reflexivity. Qed.

(** C21. *)
Theorem C21_price_directions :
  (forall pb d u, get_price pb d u u = Ok (1%Qc, Exact)) /\
  (forall pb d u c l, u <> c -> aget pair_eqb (u, c) pb = Some l -> get_price pb d u c = pl_get l d) /\
  (forall pb d u c l v t, u <> c -> aget pair_eqb (u, c) pb = Some l -> aget pair_eqb (c, u) pb = None ->
     get_price pb d u c = Ok (v, t) -> v <> 0%Qc -> get_price pb d c u = Ok ((/ v)%Qc, t)) /\
  (forall pb d u c, u <> c -> aget pair_eqb (u, c) pb = None -> aget pair_eqb (c, u) pb = None ->
     get_price pb d u c = Ok (1%Qc, PNone)).
Proof. exact (conj get_price_same (conj get_price_direct (conj get_price_inverse get_price_none))). Qed.
Print Assumptions C21_price_directions.

(** The price list of a pair is the list of prices added for that pair (stably) sorted by date; hence with
    distinct dates the order of the additions does not matter. *)
Theorem C21_prices_are_those_added :
  (forall adds k, aget pair_eqb k (build_prices (add_all adds [])) =
     match adds_for k adds with [] => None | a => Some (isort price_less a) end) /\
  (forall l, Permutation l (isort price_less l) /\ StronglySorted (fun a b => pr_date a <= pr_date b) (isort price_less l)) /\
  (forall adds adds', Permutation adds adds' -> (forall k, NoDup (map pr_date (adds_for k adds))) ->
     forall d u c, get_price (build_prices (add_all adds [])) d u c = get_price (build_prices (add_all adds' [])) d u c).
Proof.
  split; [|exact (conj (fun l => conj (isort_perm price_less l) (isort_price_sorted l)) build_order_indep)].
  intros adds k. rewrite build_prices_get, (proj2 (add_all_spec adds [] (NoDup_nil _)) k).
  destruct (adds_for k adds); reflexivity.
Qed.
Print Assumptions C21_prices_are_those_added.
Definition ex_adds : list addition :=
  [(20240111, (bs "USD", bs "GBP"), qz 20); (20240101, (bs "USD", bs "GBP"), qz 10); (20240101, (bs "EUR", bs "GBP"), qz 3)].
Example C21_nonvacuous :
  match get_price (build_prices (add_all ex_adds [])) 20240106 (bs "GBP") (bs "USD") with
  | Ok (v, Inferred) => qc_eqb v (/ qz 15) | _ => false end = true.
Proof. vm_compute. reflexivity. Qed.

(** C22. An iterator fed a non-decreasing sequence of dates returns what direct lookup returns. *)
Theorem C22_iterator_agrees :
  forall pl ds, pl_ok pl -> pl_strict pl -> Forall valid_date ds -> StronglySorted Z.le ds ->
  it_run pl 0 ds = map_out (pl_get pl) ds.
Proof.
  exact (fun pl ds Hok Hst Hv Hs => it_run_spec pl ds Hok Hst Hv 0 Hs
    (fun d ds' _ => conj (Nat.le_0_l _) (fun i p (H : (i < 0)%nat) _ => False_ind _ (Nat.nlt_0_r _ H)))).
Qed.
Print Assumptions C22_iterator_agrees.
Example C22_nonvacuous :
  match it_run ex_pl 0 [20231201; 20240106; 20240106; 20240131; 20240501] with
  | Ok l => map (fun '(v, t) => (this v, t)) l
  | _ => [] end
  = [(10#1, OutOfRange); (15#1, Inferred); (15#1, Inferred); (40#1, Exact); (40#1, OutOfRange)].
Proof. vm_compute. reflexivity. Qed.

(** C23. Two prices for the same pair and date: which one is found depends on the position in the list. *)
Theorem C23_later_price_wins_refuted :
  exists adds d u c v1 v2,
    (* v1 then v2 are added for the same day *)
    adds = [(20240101, (u, c), qz 5); (d, (u, c), v1); (d, (u, c), v2)] /\ v1 <> v2 /\
    get_price (build_prices (add_all adds [])) d u c = Ok (v1, Exact).
Proof.
  exists [(20240101, (bs "USD", bs "GBP"), qz 5); (20240102, (bs "USD", bs "GBP"), qz 6); (20240102, (bs "USD", bs "GBP"), qz 7)],
    20240102, (bs "USD"), (bs "GBP"), (qz 6), (qz 7).
  split; [reflexivity|]. split; [|reflexivity]. intros E. apply qz_inj in E. lia.
Qed.
Print Assumptions C23_later_price_wins_refuted.
(** What holds: the price found is one of those added for that day. *)
Theorem C23_some_price_of_the_day_partial :
  forall pl d p, pl_ok pl -> valid_date d -> In p pl -> pr_date p = d ->
  exists q, pl_get pl d = Ok (pr_val q, Exact) /\ In q pl /\ pr_date q = d.
Proof.
  intros pl d p Hok Vd Hin Hd. destruct (pl_get_spec pl d Hok Vd) as (v & t & E & Hq).
  destruct Hok as (_ & _ & Hs).
  destruct Hq as [q rest Ep Hlt|q front Ep Hlt|q Hq Hqd|front lo hi rest v Ep _ Hno _].
  - exfalso. rewrite Ep in Hs, Hin. pose proof (sorted_all_ge _ _ Hs p Hin). lia.
  - exfalso. rewrite Ep in Hs, Hin. pose proof (sorted_all_le _ _ Hs p Hin). lia.
  - exists q. auto.
  - exfalso. exact (Hno p Hin Hd).
Qed.
Print Assumptions C23_some_price_of_the_day_partial.

(** C24. *)
Theorem C24_price_type_merge :
  (forall a b, rank (pt_merge a b) = Z.min (rank a) (rank b)) /\
  (forall a b, rank a = rank b -> a = b) /\
  (forall a b c, pt_merge a (pt_merge b c) = pt_merge (pt_merge a b) c) /\
  (forall a b, pt_merge a b = pt_merge b a) /\ (forall a, pt_merge a a = a) /\
  (forall pb d c us us' pt, Permutation us us' ->
     (forall u, exists v t, get_price pb d u c = Ok (v, t)) ->
     value_type pb d us c pt = value_type pb d us' c pt) /\
  (forall pb d c us pt r, value_type pb d us c pt = Ok r ->
     (r = pt \/ exists u v, In u us /\ get_price pb d u c = Ok (v, r)) /\
     rank r <= rank pt /\ forall u v t, In u us -> get_price pb d u c = Ok (v, t) -> rank r <= rank t).
Proof.
  split; [exact pt_merge_rank|]. split; [exact rank_inj|].
  split; [intros [] [] []; reflexivity|]. split; [intros [] []; reflexivity|]. split; [intros []; reflexivity|].
  split; [exact (fun pb d c us us' pt Hp Hok => value_type_perm pb d c us us' Hp Hok pt)|].
  exact value_type_min.
Qed.
Print Assumptions C24_price_type_merge.
Example C24_nonvacuous : rank PNone < rank OutOfRange < rank Inferred /\ rank Inferred < rank Exact < rank Trade.
Proof. cbn. lia. Qed.
