(** * IrrModel: the internal rate of return.

    Models /repo/book/irr.go. float64 arithmetic is idealised: a number is a real, an infinity or NaN, with the IEEE 754 rules and those of math.Pow for
    the latter two, but without rounding, overflow and underflow. Zero has no sign: every divisor in irr.go that is zero is +0
    (a sum that starts with +0 is never -0; math.Pow of a base that is not negative is not -0). *)
From Coq Require Import Reals.
From Verif Require Import Base DateModel.
Local Open Scope R_scope.

Inductive fl := Fin (r : R) | PInf | MInf | NaN.
Definition f_opp (a : fl) : fl := match a with Fin x => Fin (- x) | PInf => MInf | MInf => PInf | NaN => NaN end.
Definition f_abs (a : fl) : fl := match a with Fin x => Fin (Rabs x) | PInf | MInf => PInf | NaN => NaN end.
Definition f_add (a b : fl) : fl :=
  match a, b with
  | Fin x, Fin y => Fin (x + y)
  | NaN, _ | _, NaN | PInf, MInf | MInf, PInf => NaN
  | PInf, _ | _, PInf => PInf
  | MInf, _ | _, MInf => MInf
  end.
Definition f_sub (a b : fl) : fl := f_add a (f_opp b).
(** infinity of the sign of a number: 0 * Inf and 0 / 0 are NaN *)
Definition signed (x : R) : fl := if Rlt_dec 0 x then PInf else if Rlt_dec x 0 then MInf else NaN.
Definition f_mul (a b : fl) : fl :=
  match a, b with
  | Fin x, Fin y => Fin (x * y)
  | NaN, _ | _, NaN => NaN
  | PInf, PInf | MInf, MInf => PInf
  | PInf, MInf | MInf, PInf => MInf
  | Fin x, PInf | PInf, Fin x => signed x
  | Fin x, MInf | MInf, Fin x => signed (- x)
  end.
(** a zero divisor is +0 *)
Definition f_div (a b : fl) : fl :=
  match a, b with
  | Fin x, Fin y => if Req_EM_T y 0 then signed x else Fin (x / y)
  | NaN, _ | _, NaN => NaN
  | Fin _, _ => Fin 0
  | PInf, Fin y => if Rlt_dec y 0 then MInf else PInf
  | MInf, Fin y => if Rlt_dec y 0 then PInf else MInf
  | _, _ => NaN
  end.
Definition f_lt (a b : fl) : bool :=
  match a, b with
  | Fin x, Fin y => if Rlt_dec x y then true else false
  | NaN, _ | _, NaN => false
  | MInf, MInf | PInf, PInf => false
  | MInf, _ | _, PInf => true
  | _, _ => false
  end.
(** math.Pow(x, y) for a finite y and an x that is not below zero: the rules for y = 0, x = NaN, x = 0, x = +Inf; otherwise the power *)
Definition f_pow (x : fl) (y : R) : fl :=
  if Req_EM_T y 0 then Fin 1 else
  match x with
  | Fin x => if Rlt_dec 0 x then Fin (Rpower x y) else if Req_EM_T x 0 then (if Rlt_dec 0 y then Fin 0 else PInf) else NaN
  | PInf => if Rlt_dec 0 y then PInf else Fin 0
  | _ => NaN
  end.

(** irr.go:23-26: [residual]; the flows after the first, each with its years *)
Fixpoint residual (guess : fl) (acc : fl) (l : list (R * R)) : fl :=
  match l with
  | [] => acc
  | (y, c) :: l' => residual guess (f_add acc (f_div (Fin c) (f_pow (f_add (Fin 1) guess) y))) l'
  end.
(** irr.go:32-35: [residualAdjustment] *)
Fixpoint adjustment (guess : fl) (acc : fl) (l : list (R * R)) : fl :=
  match l with
  | [] => acc
  | (y, c) :: l' => adjustment guess (f_sub acc (f_div (f_mul (Fin y) (Fin c)) (f_pow (f_add (Fin 1) guess) (y + 1)))) l'
  end.
Definition epsilon : fl := Fin (1 / 10000).
(** irr.go:20-49: the loop, [n] rounds of it *)
Fixpoint irr_loop (n : nat) (c0 : R) (l : list (R * R)) (guess : fl) : fl :=
  match n with
  | O => guess
  | S n' =>
      let res := residual guess (Fin c0) l in
      if f_lt (f_abs res) epsilon then guess else
      let newRate := f_sub guess (f_div res (adjustment guess (Fin 0) l)) in
      if f_lt (f_abs (f_sub newRate guess)) epsilon then guess else
      let newRate := if f_lt newRate (Fin (-1)) then Fin (- (999999999 / 1000000000)) else newRate in
      irr_loop n' c0 l newRate
  end.
Definition limit : nat := Z.to_nat 10000.

(** date.go:238-264 [AsYears] without rounding *)
Definition years_of (d : Z) : outcome R := do q <- as_years (fun q => q) d; Ok (Q2R (this q)).
(** irr.go:10-15 *)
Fixpoint years_from (start : R) (ds : list Z) : outcome (list R) :=
  match ds with [] => Ok [] | d :: ds' => do y <- years_of d; do ys <- years_from start ds'; Ok (y - start :: ys) end.
(** a flow without a date is an index out of range (irr.go:25); dates without a flow are not looked at *)
Fixpoint pair_up (ys cs : list R) : outcome (list (R * R)) :=
  match cs, ys with
  | [], _ => Ok []
  | c :: cs', y :: ys' => do l <- pair_up ys' cs'; Ok ((y, c) :: l)
  | _, _ => Panic
  end.
(** irr.go:7-52 [CalculateIRR] *)
Definition calculate_irr (date : list Z) (cashflow : list R) : outcome fl :=
  match date with
  | [] => Panic
  | d0 :: ds =>
      do start <- years_of d0;
      do ys <- years_from start ds;
      match cashflow with
      | [] => Panic
      | c0 :: cs => do l <- pair_up ys cs; Ok (irr_loop limit c0 l (Fin (1 / 10)))
      end
  end.
