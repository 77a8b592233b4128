(** * F64Model: conversion of an exact number to float64: big.Rat.Float64 (book/posting.go:108,122; book/registry.go:182-185; cmd/app/print.go:261-268;
    cmd/export/csv.go; script/book.go:22,29), strconv.ParseFloat (cmd/app/book_op.go) and encoding/json's numbers (script/convert.go:22-23). All of them
    give the nearest float64, ties to even. Overflow to an infinity is not modelled: the exponent is unbounded above. *)
From Coq Require Import Qround.
From Verif Require Import Base ExportModel ExportSpec.

Definition pow2 (x : Z) : Qc := if 0 <=? x then qz (2 ^ x) else (/ qz (2 ^ (- x)))%Qc.
(** the exponent of the leading bit of a positive number *)
Definition ilog2 (q : Qc) : Z :=
  let e := Z.log2 (Qnum (this q)) - Z.log2 (Zpos (Qden (this q))) in
  match (pow2 e ?= q)%Qc with Gt => e - 1 | _ => e end.
(** mantissas of 53 bits, exponents from -1074 *)
Definition f64_pos (q : Qc) : Qc :=
  let x := Z.max (ilog2 q - 52) (-1074) in (qz (round_even (q / pow2 x)) * pow2 x)%Qc.
Definition to_f64 (q : Qc) : Qc :=
  match (q ?= 0)%Qc with Eq => 0%Qc | Gt => f64_pos q | Lt => (- f64_pos (- q))%Qc end.
