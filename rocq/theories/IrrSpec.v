(** * IrrSpec: present values, independently of the code.
    A flow is a pair: the years since the first date, and the amount. *)
From Coq Require Import Reals.
From Verif Require Import Base DateSpec.
Local Open Scope R_scope.

(** What the flows are worth at the first date, with a yearly rate of r *)
Fixpoint present (r : R) (l : list (R * R)) : R :=
  match l with [] => 0 | (y, c) :: l' => c / Rpower (1 + r) y + present r l' end.
Definition npv (c0 : R) (l : list (R * R)) (r : R) : R := c0 + present r l.
(** The rate of return *)
Definition return_rate (c0 : R) (l : list (R * R)) (z : R) : Prop := -1 < z /\ npv c0 l z = 0.

(** A month of a year, as a point in time: year + days of the year before the month / days of the year *)
Definition days_before (y m : Z) : Z := fold_right Z.add 0%Z (map (fun k => dim y (Z.of_nat k)) (seq 1 (Z.to_nat (m - 1)))).
Definition point (y m : Z) : R := IZR y + IZR (days_before y m) / IZR (days_before y 13).
(** The time of a date is that of its month *)
Definition time (D : Z) (t : R) : Prop := exists y m d, valid_ymd y m d /\ D = ymd y m d /\ t = point y m.
(** [l] are the amounts [cs] on the dates [ds], counted from [d0] *)
Definition schedule (d0 : Z) (ds : list Z) (cs : list R) (l : list (R * R)) : Prop :=
  map snd l = cs /\ exists t0, time d0 t0 /\ Forall2 (fun d yc => exists t, time d t /\ fst yc = t - t0) ds l.
(** Paid at first, then only received, and not nothing *)
Definition investment (c0 : R) (l : list (R * R)) : Prop := c0 < 0 /\ Forall (fun yc => 0 <= snd yc) l /\ Exists (fun yc => 0 < snd yc) l.
