(** * SortModel: the number behind the sort key of a summary row (book/book_accum.go:33-36), with float64 arithmetic. *)
From Verif Require Import Base ExportModel F64Model.

(** book_accum.go:34-35: [f, _ := a.Float64(); g := int64(f * 1000_000)]. The product is rounded to float64 and then
    truncated towards zero. Beyond the range of int64 (amounts above 9 x 10^12) the result of the conversion is left to the
    processor by the Go specification; it is not modelled here. *)
Definition micro64 (a : Qc) : Z :=
  let g := to_f64 (to_f64 a * qz 1000000)%Qc in Z.quot (Qnum (this g)) (Zpos (Qden (this g))).
