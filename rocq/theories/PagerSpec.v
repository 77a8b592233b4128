(** * PagerSpec: what a command says, which tables are too tall for the terminal (C111). *)
From Verif Require Import Base PrintModel PagerModel.

(** A table goes to the pager: standard output is a terminal, less can be started, and the table has more rows than the terminal has lines. *)
Definition tall (t : tty) (rows : list row) : Prop := t_width t <> -1 /\ t_less t = true /\ t_height t < Z.of_nat (length rows).
Definition no_tall (t : tty) (acts : list action) : Prop := forall rows shrink, In (ATable rows shrink) acts -> ~ tall t rows.
(** Everything a command prints until it ends, fails or crashes, and how it ends. *)
Inductive says (is_print : Z -> bool) (width : Z) : list action -> str -> status -> Prop :=
| says_end : says is_print width [] [] Done
| says_new acts s st : says is_print width acts s st -> says is_print width (ANew :: acts) s st
| says_text x acts s st : says is_print width acts s st -> says is_print width (APrint x :: acts) (x ++ s) st
| says_table rows shrink x acts s st : print_columns is_print width rows shrink = Ok x -> says is_print width acts s st -> says is_print width (ATable rows shrink :: acts) (x ++ s) st
| says_bad_table rows shrink acts : (forall x, print_columns is_print width rows shrink <> Ok x) -> says is_print width (ATable rows shrink :: acts) [] Crashed
| says_fail acts : says is_print width (AFail :: acts) [] Failed
| says_crash acts : says is_print width (ACrash :: acts) [] Crashed.
(** One printer for the whole command. *)
Definition one_printer (acts : list action) : Prop := exists rest, acts = ANew :: rest /\ ~ In ANew rest.
