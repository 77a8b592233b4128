(** * AcctFileSpec: what the command accts has to show for a ledger file (C115). *)
From Verif Require Import Base Utf8 BookModel LoaderModel LoaderSpec.

(** A name of printable characters. *)
Definition legible (is_print : Z -> bool) (a : str) : Prop := exists r, a = encode r /\ Forall scalar r /\ Forall (fun c => is_print c = true /\ c <> 27 /\ c <> 9) r.
Definition legible_entry (is_print : Z -> bool) (e : entry) : Prop := match e with Call (CPost a _ _ _) | Rest a _ => legible is_print a | _ => True end.
(** A column: the heading in blue and underlined (with colours), one name per line, every line filled up with blanks to the longest. *)
Definition characters (a : str) : nat := length (decode a).
Definition longest (names : list str) : nat := fold_right Nat.max 0%nat (map characters names).
Definition heading_text (colour : bool) (h : str) : str := if colour then [27] ++ bs "[4;34m" ++ h ++ [27] ++ bs "[0m" else h.
Definition name_column (colour : bool) (h : str) (names : list str) : str :=
  let w := longest (h :: names) in
  concat (map (fun l => l ++ [10]) ((heading_text colour h ++ repeat 32 (w - characters h)) :: map (fun a => a ++ repeat 32 (w - characters a)) names)).
