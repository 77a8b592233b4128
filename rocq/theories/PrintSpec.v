(** * PrintSpec: vocabulary for C52, C53, C71, C72. *)
From Verif Require Import Base BookModel Utf8 PrintModel.

(** A text with colour sequences: ESC, anything without 'm', 'm'. *)
Inductive piece := Char (r : Z) | Colour (body : list Z).
Definition piece_ok (p : piece) : Prop := match p with Char r => r <> 27 | Colour b => ~ In 109 b end.
Definition piece_text (p : piece) : list Z := match p with Char r => [r] | Colour b => 27 :: b ++ [109] end.
Definition text (ps : list piece) : list Z := concat (map piece_text ps).

(** What the eye sees: printable characters, tabs as blanks; other characters take no place. *)
Definition shown (is_print : Z -> bool) (r : Z) : bool := is_print r || (r =? 9).
Definition untab (r : Z) : Z := if r =? 9 then 32 else r.
Fixpoint visible (is_print : Z -> bool) (ps : list piece) : list Z :=
  match ps with
  | [] => []
  | Colour _ :: ps' => visible is_print ps'
  | Char r :: ps' => if shown is_print r then untab r :: visible is_print ps' else visible is_print ps'
  end.
Fixpoint colours (ps : list piece) : list (list Z) :=
  match ps with [] => [] | Colour b :: ps' => b :: colours ps' | Char _ :: ps' => colours ps' end.
(** The text cut to [w] visible characters: every colour sequence stays, in its place. *)
Fixpoint cut (is_print : Z -> bool) (w : nat) (ps : list piece) : list piece :=
  match ps with
  | [] => []
  | Colour b :: ps' => Colour b :: cut is_print w ps'
  | Char r :: ps' =>
      if shown is_print r then match w with O => cut is_print O ps' | S w' => Char (untab r) :: cut is_print w' ps' end
      else cut is_print w ps'
  end.
(** Padded to [w] visible characters. *)
Definition blanks_for (is_print : Z -> bool) (w : nat) (ps : list piece) : list piece := repeat (Char 32) (w - length (visible is_print ps)).
Definition padded (is_print : Z -> bool) (w : nat) (left : bool) (ps : list piece) : list piece :=
  if left then cut is_print w ps ++ blanks_for is_print w ps else blanks_for is_print w ps ++ cut is_print w ps.

Fixpoint zsum (l : list Z) : Z := match l with [] => 0 | x :: l' => x + zsum l' end.
(** The total of the columns that may shrink. *)
Fixpoint zsum_where (fl : list bool) (l : list Z) : Z :=
  match fl, l with true :: fl', x :: l' => x + zsum_where fl' l' | false :: fl', _ :: l' => zsum_where fl' l' | _, _ => 0 end.
Definition zmax (l : list Z) : Z := fold_right Z.max 0 l.
(** [shrunk f w w']: a column of width w got width w' *)
Definition shrunk (f : bool) (w w' : Z) : Prop := if f then 0 <= w' <= w else w' = w.
(** The width of the last column that may shrink is not zero. *)
Fixpoint last_shrinkable (fl : list bool) (ws : list Z) : option Z :=
  match fl, ws with
  | f :: fl', w :: ws' => match last_shrinkable fl' ws' with Some x => Some x | None => if f then Some w else None end
  | _, _ => None
  end.

(** ** Tables. [text_length] is the function Length, [col_pad] the method Pad. *)
Section Tables.
  Variable is_print : Z -> bool.
  (** A byte string whose colour sequences are terminated. *)
  Definition terminated (s : str) : Prop := Forall (fun b => 0 <= b < 256) s /\ exists ps, decode s = text ps /\ Forall piece_ok ps.
  (** The same in valid UTF-8. *)
  Definition clean (s : str) (ps : list piece) : Prop := s = encode (text ps) /\ Forall scalar (text ps) /\ Forall piece_ok ps.
  Definition cell_ok (v : column) : Prop :=
    match v with ColString s | ColRight s => terminated s | ColMoney sym amt => (exists ps, clean sym ps) /\ terminated amt end.
  (** The symbol of a money cell is not cut. *)
  Definition sym_width (v : column) : Z := match v with ColMoney sym _ => text_length is_print sym | _ => 0 end.
  (** One line, without the final newline. *)
  Fixpoint line_of (ws : list Z) (cells : list column) : str :=
    match ws, cells with
    | w :: ws', v :: cells' => col_pad is_print v w ++ (match ws' with [] => [] | _ => [32] ++ line_of ws' cells' end)
    | _, _ => []
    end.
  Definition lengths (cells : list column) : list Z := map (col_length is_print) cells.
  Definition rows_of (table : list (option (list column))) : list row := map (option_map (map Some)) table.
  (** The widest cell of column j *)
  Definition widest (table : list (option (list column))) (j : nat) : Z :=
    zmax (map (fun r => match r with Some cells => nth j (lengths cells) 0 | None => 0 end) table).
  Definition well_shaped (n : nat) (table : list (option (list column))) : Prop := Forall (fun r => match r with Some cells => length cells = n | None => True end) table.
  Definition table_text (lines : list str) : str := concat (map (fun l => l ++ [10]) lines).
End Tables.
