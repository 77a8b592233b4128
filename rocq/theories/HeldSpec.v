(** * HeldSpec: the same script when every list it is given is a value of its own. *)
From Verif Require Import Base BookModel BookSpec OpsModel BookOpModel ConvertModel ViewModel ViewSpec HeldModel.

Section Values.
  Variable srt : list posting -> list posting.
  Variable compile : str -> option regexp.
  Variable today : Z.
  Definition vcall_step (b : book) (vs : list (list trans)) (c : hcall) : outcome (book * list (list trans) * bool) :=
    match c with
    | HTake => let '(b, ts) := transactions srt b in Ok (b, vs ++ [ts], false)
    | HData c => do (b, failed) <- data_step srt compile today b c; Ok (b, vs, failed)
    end.
  Fixpoint vcalls (b : book) (vs : list (list trans)) (cs : list hcall) : outcome (book * list (list trans) * bool) :=
    match cs with
    | [] => Ok (b, vs, false)
    | c :: cs' => do (b, vs, failed) <- vcall_step b vs c; if (failed : bool) then Ok (b, vs, true) else vcalls b vs cs'
    end.
End Values.
(** Calls that only look at the book, calls that only choose a period. *)
Definition takes (c : hcall) : Prop := c = HTake.
Definition chooses (c : hcall) : Prop := exists d, c = HData d /\ date_call d.
