(** * Regex: backtracking matcher for the literal regular expressions in the code.

    Go's regexp has leftmost-first semantics: the match a backtracking engine finds first. All patterns
    modelled are anchored at both ends ([^...$]), so matching is matching of the whole text. *)
From Verif Require Import Base.

Inductive re :=
| REps
| RCls (f : Z -> bool)          (* character class *)
| RLit (s : str)                (* literal text *)
| RSeq (a b : re)
| RAlt (a b : re)               (* a preferred *)
| ROpt (a : re)                 (* a?, greedy *)
| RPlus (f : Z -> bool)         (* [class]+, greedy *)
| RStar (f : Z -> bool)         (* [class]*, greedy *)
| RCap (n : nat) (a : re).      (* capture group n *)

Definition caps := list (nat * str).

Fixpoint strip_prefix (p s : str) : option str :=
  match p, s with
  | [], _ => Some s
  | x :: p', y :: s' => if x =? y then strip_prefix p' s' else None
  | _ :: _, [] => None
  end.

Fixpoint star_cls (f : Z -> bool) (s : str) (k : str -> option caps) : option caps :=
  match s with
  | c :: s' => if f c then match star_cls f s' k with Some r => Some r | None => k s end else k s
  | [] => k s
  end.

Fixpoint rmatch (r : re) (s : str) (cs : caps) (k : str -> caps -> option caps) : option caps :=
  match r with
  | REps => k s cs
  | RCls f => match s with c :: s' => if f c then k s' cs else None | [] => None end
  | RLit p => match strip_prefix p s with Some s' => k s' cs | None => None end
  | RSeq a b => rmatch a s cs (fun s' cs' => rmatch b s' cs' k)
  | RAlt a b => match rmatch a s cs k with Some x => Some x | None => rmatch b s cs k end
  | ROpt a => match rmatch a s cs k with Some x => Some x | None => k s cs end
  | RPlus f => match s with c :: s' => if f c then star_cls f s' (fun s'' => k s'' cs) else None | [] => None end
  | RStar f => star_cls f s (fun s'' => k s'' cs)
  | RCap n a => rmatch a s cs (fun s' cs' => k s' ((n, firstn (length s - length s') s) :: cs'))
  end.

(** Match of the whole text; [None] is Go's nil. *)
Definition full_match (r : re) (s : str) : option caps :=
  rmatch r s [] (fun s' cs => match s' with [] => Some cs | _ => None end).

(** FindStringSubmatch: text of group n, "" if the group did not take part. *)
Fixpoint group (cs : caps) (n : nat) : str :=
  match cs with
  | [] => []
  | (m, s) :: cs' => if Nat.eqb m n then s else group cs' n
  end.
