(** * PriceSpec: what a price lookup must return, without reference to how it is computed. *)
From Verif Require Import Base DateModel DateSpec PriceModel.

(** A price list in date order with valid dates; [strict] when no date occurs twice. *)
Definition pl_ok (pl : pricelist) : Prop :=
  pl <> [] /\ Forall (fun p => valid_date (pr_date p)) pl /\
  StronglySorted (fun a b => pr_date a <= pr_date b) pl.
Definition pl_strict (pl : pricelist) : Prop := StronglySorted (fun a b => pr_date a < pr_date b) pl.

(** Linear interpolation by days: v = lo + (hi - lo) * (days from lo to d) / (days from lo to hi). *)
Definition on_line (d : Z) (lo hi : price) (v : Qc) : Prop :=
  exists nd nl nh, as_days d = Ok nd /\ as_days (pr_date lo) = Ok nl /\ as_days (pr_date hi) = Ok nh /\
    nl < nd < nh /\
    ((v - pr_val lo) * qz (nh - nl) = (pr_val hi - pr_val lo) * qz (nd - nl))%Qc.

Inductive quote (pl : pricelist) (d : Z) : Qc -> ptype -> Prop :=
| q_before p rest : pl = p :: rest -> d < pr_date p -> quote pl d (pr_val p) OutOfRange
| q_after p front : pl = front ++ [p] -> pr_date p < d -> quote pl d (pr_val p) OutOfRange
| q_exact p : In p pl -> pr_date p = d -> quote pl d (pr_val p) Exact
| q_between front lo hi rest v :
    pl = front ++ lo :: hi :: rest -> pr_date lo < d < pr_date hi ->
    (forall p, In p pl -> pr_date p <> d) -> on_line d lo hi v -> quote pl d v Inferred.

(** Quality order of price types, weakest first. *)
Definition rank (t : ptype) : Z :=
  match t with PNone => 0 | OutOfRange => 1 | Inferred => 2 | Exact => 3 | Trade => 4 end.

(** A well-formed price book: what Builder.Build produces from prices with valid dates. *)
Definition pb_ok (pb : pbook) : Prop :=
  NoDup (map fst pb) /\ Forall (fun e => pl_ok (snd e)) pb.

(** Prices added for one pair, in the order added. *)
Definition addition := (Z * (str * str) * Qc)%type.
Definition adds_for (k : str * str) (l : list addition) : pricelist :=
  map (fun '(d, _, v) => mkPrice d v) (filter (fun '(_, k', _) => pair_eqb k' k) l).
Definition add_all (l : list addition) (pb : pbook) : pbook :=
  fold_left (fun pb '(d, (u, c), v) => add_price pb d u c v) l pb.
