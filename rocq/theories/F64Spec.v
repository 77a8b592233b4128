(** * F64Spec: float64 numbers and the nearest one. *)
From Verif Require Import Base ExportSpec.

(** [v] = m 2^x with a mantissa of at most 53 bits and an exponent from -1074 on (no upper bound: infinities are not modelled). *)
Definition scaled (m x : Z) (v : Qc) : Prop := (0 <= x -> v = qz (m * 2 ^ x)) /\ (x < 0 -> (v * qz (2 ^ (- x)))%Qc = qz m).
Definition float64 (v : Qc) : Prop := exists m x, Z.abs m < 2 ^ 53 /\ -1074 <= x /\ scaled m x v.
(** [v] is the float64 for the number [q]: no other is nearer; of two equally near ones, the one with an even last bit. *)
Definition nearest_f64 (q v : Qc) : Prop :=
  float64 v /\ (forall w, float64 w -> qabs (v - q) <= qabs (w - q))%Qc /\
  forall w, float64 w -> w <> v -> qabs (w - q)%Qc = qabs (v - q)%Qc -> exists m x, Z.abs m < 2 ^ 53 /\ -1074 <= x /\ scaled m x v /\ Z.even m = true /\ (2 ^ 52 <= Z.abs m \/ x = -1074).
