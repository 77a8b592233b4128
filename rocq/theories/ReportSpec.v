(** * ReportSpec: the expected text table of a summary (C71) and the nesting of HTML elements (C72). *)
From Verif Require Import Base DateModel BookModel PrintModel.

Section R.
  Variables (f64 : Qc -> Qc) (is_letter : Z -> bool) (decs : list (str * Z)) (colour : bool).
  (** The amount of the row [k] of a transaction, formatted. *)
  Definition amount_cell (t : trans) (k : str * (str * str)) : option column :=
    match find (fun p => key_eqb (row_key p) k) t with
    | Some p => match column_money f64 is_letter decs colour (p_ccy p) (p_val p) with Ok c => Some c | _ => None end
    | None => None
    end.
  Definition label (v : posting) : str :=
    if p_level v =? 0 then ansi colour BlueUL (p_term v) else repeat 32 (2 * Z.to_nat (p_level v))%nat ++ p_term v.
  (** One line per row; a blank line before each further top-level row. *)
  Fixpoint layout (first : bool) (l : list posting) (cells : posting -> list (option column)) : list row :=
    match l with
    | [] => []
    | v :: l' => (if negb first && (p_level v =? 0) then [None] else []) ++ Some (cells v) :: layout false l' cells
    end.
  Definition expected_table (ts : list trans) : list row :=
    Some (Some (ColString (ansi colour UL (bs "Account"))) :: map (fun t => match t with p :: _ => Some (ColRight (ansi colour UL (date_string (p_date p)))) | [] => None end) ts)
    :: layout true (last ts []) (fun v => Some (ColString (label v)) :: map (fun t => amount_cell t (row_key v)) ts).
End R.

(** Number of positions at which [pat] occurs. *)
Fixpoint starts (pat s : str) : bool :=
  match pat, s with [], _ => true | a :: pat', b :: s' => (a =? b) && starts pat' s' | _ :: _, [] => false end.
Fixpoint count_sub (pat s : str) : Z := match s with [] => 0 | _ :: s' => (if starts pat s then 1 else 0) + count_sub pat s' end.
Definition opened (s : str) : Z := count_sub (bs "<div") s.
Definition closed (s : str) : Z := count_sub (bs "</div>") s.
