(** * PosSpec: where a character of a text is, and what a message says about it (C97). *)
From Verif Require Import Base LoaderModel PosModel.

Definition no_nl (s : runes) : Prop := Forall (fun c => c <> 10) s.
(** Complete lines, each with its newline. *)
Definition joined (ls : list runes) : runes := concat (map (fun l => l ++ [10]) ls).
(** The character with [n] characters before it is in line [ln], column [cn] (both counted from 1), and the lines before
    its line are [before]. *)
Definition place (text : runes) (n : nat) (ln cn : Z) (before : runes) : Prop :=
  exists ls cur, firstn n text = joined ls ++ cur /\ Forall no_nl ls /\ no_nl cur /\
    ln = 1 + Z.of_nat (length ls) /\ cn = 1 + Z.of_nat (length cur) /\ before = joined ls.
(** The character with [n] characters before it; 0 at the end of the text. *)
Definition char_at (text : runes) (n : nat) : Z := nth n text 0.
(** What the message says is so: the character it got is that one and not the one it wanted; the number it found has
    that many digits and ends there, and is too short or too long. *)
Definition message_true (text : runes) (n : nat) (m : emsg) : Prop :=
  match m with
  | MExpected want got => got = char_at text n /\ got <> want
  | MAliasEq got => got = char_at text n /\ got <> 61
  | MDigits mn mx k => (k <= n)%nat /\ Forall (fun c => 48 <= c <= 57) (skipn (n - k) (firstn n text)) /\
      ~ 48 <= char_at text n <= 57 /\ ((k < mn)%nat \/ (mx < k)%nat)
  | MAliasEmpty | MCommand => True
  end.
(** The report "rw:cl: m" about the character of [text] with [n] characters before it, which is in line [ln], column [cn],
    after the complete lines [before]: the message is true, and the position is that line and column - except for a
    newline, which is reported as column 0 of the next line. *)
Definition says_at (text : runes) (n : nat) (ln cn : Z) (before : runes) (rw cl : Z) (m : emsg) : Prop :=
  (n <= length text)%nat /\ place text n ln cn before /\ message_true text n m /\
  (char_at text n <> 10 -> rw = ln /\ cl = cn) /\ (char_at text n = 10 -> rw = ln + 1 /\ cl = 0).
