(** * PrintModel: text columns (/repo/cmd/app/print.go), the register and summary tables
    (/repo/cmd/register/show_register.go, /repo/cmd/reports/text.go) and the HTML report (/repo/cmd/reports/html.go).

    [is_print] is unicode.IsPrint; output is the byte string written. Piping the output through a pager
    (print.go:185-187, shell.go) is not modelled. *)
From Verif Require Import Base Dec DateModel PriceModel BookModel RegisterModel Utf8 LoaderModel ExportModel.

Definition ansi_start : Z := 27.   (* print.go:378 *)
Definition ansi_end : Z := 109.    (* print.go:379 'm' *)

Section Columns.
  Variable is_print : Z -> bool.

  (** print.go:366-369, 407-409: runes that take a place in the output *)
  Definition placed (r : Z) : bool := is_print r || (r =? 9).

  (** print.go:348-376 [Length]: [esc] is "inside the loop 357-360" *)
  Fixpoint len_loop (esc : bool) (rs : list Z) : Z :=
    match rs with
    | [] => 0
    | r :: rs' =>
        if esc then len_loop (negb (r =? ansi_end)) rs'
        else if r =? ansi_start then len_loop true rs'
        else if placed r then 1 + len_loop false rs'
        else len_loop false rs'
    end.
  Definition text_length (s : str) : Z := len_loop false (decode s).

  (** print.go:385-423: the runes written and the final count *)
  Fixpoint pad_loop (esc : bool) (count max : Z) (rs : list Z) : list Z * Z :=
    match rs with
    | [] => ([], count)
    | r :: rs' =>
        if esc then let '(o, c) := pad_loop (negb (r =? ansi_end)) count max rs' in (r :: o, c)
        else if r =? ansi_start then let '(o, c) := pad_loop true count max rs' in (r :: o, c)
        else if placed r then
          let '(o, c) := pad_loop false (count + 1) max rs' in
          ((if count + 1 <=? max then [if r =? 9 then 32 else r] else []) ++ o, c)
        else pad_loop false count max rs'
    end.
  (** print.go:381-435 [PadString] *)
  Definition pad_string (s : str) (max : Z) (left : bool) : str :=
    let '(o, count) := pad_loop false 0 max (decode s) in
    let sb := encode o in
    if max <=? count then sb
    else let padding := repeat 32 (Z.to_nat (max - count)) in
         if left then sb ++ padding else padding ++ sb.

  (** print.go:126-180 the column values *)
  Inductive column := ColString (s : str) | ColRight (s : str) | ColMoney (symbol amount : str).
  Definition col_length (v : column) : Z :=
    match v with ColString s | ColRight s => text_length s | ColMoney sym amt => text_length sym + text_length amt end.
  Definition col_pad (v : column) (width : Z) : str :=
    match v with
    | ColString s => pad_string s width true
    | ColRight s => pad_string s width false
    | ColMoney sym amt => sym ++ pad_string amt (width - text_length sym) false
    end.

  (** A row is nil or a list of cells; a cell may be a nil interface, on which a method call panics. *)
  Definition row := option (list (option column)).

  (** print.go:195-200: one row; index out of range and nil cells panic *)
  Fixpoint widen (ws : list Z) (cells : list (option column)) : outcome (list Z) :=
    match ws with
    | [] => Ok []
    | w :: ws' =>
        match cells with
        | Some v :: cells' =>
            let ls := col_length v in
            do r <- widen ws' cells'; Ok ((if w <? ls then ls else w) :: r)
        | _ => Panic
        end
    end.
  (** print.go:191-201 *)
  Fixpoint col_widths (ws : list Z) (rows : list row) : outcome (list Z) :=
    match rows with
    | [] => Ok ws
    | None :: rows' => col_widths ws rows'
    | Some cells :: rows' => do ws' <- widen ws cells; col_widths ws' rows'
    end.

  (** print.go:204-214: total width, number and width of the shrinkable columns; shrinkToTerm too short panics *)
  Fixpoint totals (ws : list Z) (shrink : list bool) : outcome (Z * Z * Z) :=
    match ws with
    | [] => Ok (0, 0, 0)
    | w :: ws' =>
        match shrink with
        | [] => Panic
        | f :: shrink' =>
            do (t, n, sw) <- totals ws' shrink';
            Ok (w + t, if f then n + 1 else n, if f then w + sw else sw)
        end
    end.
  (** print.go:222-238 *)
  Fixpoint shrink_loop (ws : list Z) (shrink : list bool) (shrinkage scw : Z) : outcome (list Z) :=
    match ws, shrink with
    | w :: ws', false :: shrink' => do r <- shrink_loop ws' shrink' shrinkage scw; Ok (w :: r)
    | w :: ws', true :: shrink' =>
        if scw =? 0 then Panic
        else let t := Z.quot (w * shrinkage) scw in
             do r <- shrink_loop ws' shrink' (shrinkage - t) (scw - w); Ok (w - t :: r)
    | [], _ => Ok []
    | _ :: _, [] => Panic
    end.
  (** print.go:204-240 *)
  Definition fit (termWidth : Z) (ws : list Z) (shrink : list bool) : outcome (list Z) :=
    do (t, n, sw) <- totals ws shrink;
    let total := t + (Z.of_nat (length ws) - 1) in
    if (0 <? termWidth) && (0 <? n) && (termWidth <? total)
    then shrink_loop ws shrink (total - termWidth) sw
    else Ok ws.

  (** print.go:248-255: cells separated by a blank, the last one followed by a newline; without columns nothing is written *)
  Fixpoint print_cells (ws : list Z) (cells : list (option column)) : outcome str :=
    match ws, cells with
    | [], _ => Ok []
    | w :: ws', Some v :: cells' =>
        do r <- print_cells ws' cells';
        Ok (col_pad v w ++ (match ws' with [] => [10] | _ => [32] end) ++ r)
    | _ :: _, _ => Panic
    end.
  (** print.go:243-256 *)
  Fixpoint print_table (ws : list Z) (rows : list row) : outcome str :=
    match rows with
    | [] => Ok []
    | None :: rows' => do r <- print_table ws rows'; Ok ([10] ++ r)
    | Some cells :: rows' => do a <- print_cells ws cells; do r <- print_table ws rows'; Ok (a ++ r)
    end.
  (** print.go:182-257 [PrintColumns]; rows[0] of an empty table panics, a nil first row has no columns *)
  Definition print_columns (termWidth : Z) (rows : list row) (shrink : list bool) : outcome str :=
    match rows with
    | [] => Panic
    | r0 :: _ =>
        do ws <- col_widths (repeat 0 (length (match r0 with Some c => c | None => [] end))) rows;
        do ws' <- fit termWidth ws shrink;
        print_table ws' rows
    end.

  (** ** Formatting with colours *)
  Variable f64 : Qc -> Qc.
  Variable is_letter : Z -> bool.
  Variable decs : list (str * Z).
  Variable colour : bool.
  (** print.go:446-452 *)
  Definition Blue := ansi_start :: bs "[0;34m".
  Definition Red := ansi_start :: bs "[0;31m".
  Definition BlueUL := ansi_start :: bs "[4;34m".
  Definition UL := ansi_start :: bs "[4m".
  Definition Reset := ansi_start :: bs "[0m".
  (** print.go:437-442 [Ansi] *)
  Definition ansi (c i : str) : str := if colour then c ++ i ++ Reset else i.
  (** print.go:136-152 [GetColumnMoney] *)
  Definition column_money (symbol : str) (amount : Qc) : outcome column :=
    do sym <- format_symbol is_letter symbol;
    let num := format_number f64 decs symbol amount in
    Ok (match (amount ?= 0)%Qc with
        | Lt => ColMoney (ansi Blue sym) (ansi Red num)
        | _ => ColMoney (ansi Blue sym) (ansi Blue num)
        end).

  (** ** show_register.go:48-108 [ShowText]; a nil entry panics *)
  Definition register_header (withAcct withBal : bool) : list (option column) :=
    [Some (ColString (ansi UL (bs "Date"))); Some (ColString (ansi UL (bs "Payee")))] ++
    (if withAcct then [Some (ColString (ansi UL (bs "Account")))] else []) ++
    [Some (ColString (ansi UL (bs "Counteraccount"))); Some (ColRight (ansi UL (bs "Amount")))] ++
    (if withBal then [Some (ColRight (ansi UL (bs "Balance")))] else []).
  Definition register_shrink (withAcct withBal : bool) : list bool :=
    [false; true] ++ (if withAcct then [true] else []) ++ [true; false] ++ (if withBal then [false] else []).
  Definition register_row (withAcct withBal : bool) (e : entry) : outcome (list (option column)) :=
    do amt <- column_money (e_ccy e) (e_amt e);
    do bal <- (if withBal then do b <- column_money (e_ccy e) (e_bal e); Ok [Some b] else Ok []);
    Ok ([Some (ColString (date_string (e_date e))); Some (ColString (e_payee e))] ++
        (if withAcct then [Some (ColString (e_acct e))] else []) ++
        [Some (ColString (e_counter e)); Some amt] ++ bal).
  Fixpoint register_rows (withAcct withBal : bool) (rep : list (option entry)) : outcome (list row) :=
    match rep with
    | [] => Ok []
    | None :: _ => Panic
    | Some e :: rep' => do r <- register_row withAcct withBal e; do rs <- register_rows withAcct withBal rep'; Ok (Some r :: rs)
    end.
  Definition register_text (termWidth : Z) (rep : list (option entry)) (withAcct withBal : bool) : outcome str :=
    do rows <- register_rows withAcct withBal rep;
    print_columns termWidth (Some (register_header withAcct withBal) :: rows) (register_shrink withAcct withBal).

  (** ** text.go:10-81 [ShowTransactions] *)
  (** text.go:37-44: the label of a row *)
  Definition row_label (v : posting) : outcome str :=
    if p_level v <? 0 then Panic
    else Ok (if p_level v =? 0 then ansi BlueUL (p_term v)
             else repeat 32 (2 * Z.to_nat (p_level v))%nat ++ p_term v).
  Definition row_key (v : posting) : str * (str * str) := (p_acct v, (p_term v, p_ccy v)).
  Definition key_eqb (a b : str * (str * str)) : bool :=
    str_eqb (fst a) (fst b) && (str_eqb (fst (snd a)) (fst (snd b)) && str_eqb (snd (snd a)) (snd (snd b))).
  (** text.go:34-57: the rows with their first column, and the index of each key. [i] is the loop index. *)
  Fixpoint label_rows (n : nat) (first : bool) (l : list posting) (rows : list row) (idx : list (str * (str * str) * nat))
    : outcome (list row * list (str * (str * str) * nat)) :=
    match l with
    | [] => Ok (rows, idx)
    | v :: l' =>
        do t <- row_label v;
        let rows := if negb first && (p_level v =? 0) then rows ++ [None] else rows in
        label_rows n false l' (rows ++ [Some (Some (ColString t) :: repeat None n)]) (aset key_eqb (row_key v) (length rows) idx)
    end.
  (** text.go:74: rows[pidx][j] = c *)
  Definition set_cell (pidx j : nat) (c : column) (rows : list row) : outcome (list row) :=
    match nth_error rows pidx with
    | Some (Some cells) => if (j <? length cells)%nat then Ok (set_nth pidx (Some (set_nth j (Some c) cells)) rows) else Panic
    | _ => Panic
    end.
  (** text.go:62-75 *)
  Fixpoint fill_trans (idx : list (str * (str * str) * nat)) (j : nat) (l : list posting) (rows : list row) : outcome (list row) :=
    match l with
    | [] => Ok rows
    | v :: l' =>
        match aget key_eqb (row_key v) idx with
        | None => Error
        | Some pidx =>
            do c <- column_money (p_ccy v) (p_val v);
            do rows' <- set_cell pidx j c rows;
            fill_trans idx j l' rows'
        end
    end.
  (** text.go:60-76 *)
  Fixpoint fill_all (idx : list (str * (str * str) * nat)) (j : nat) (ts : list trans) (rows : list row) : outcome (list row) :=
    match ts with
    | [] => Ok rows
    | t :: ts' => do rows' <- fill_trans idx j t rows; fill_all idx (S j) ts' rows'
    end.
  (** text.go:24-26 *)
  Fixpoint header_dates (ts : list trans) : outcome (list (option column)) :=
    match ts with
    | [] => Ok []
    | t :: ts' => match t with
                  | [] => Panic
                  | p :: _ => do r <- header_dates ts'; Ok (Some (ColRight (ansi UL (date_string (p_date p)))) :: r)
                  end
    end.
  (** text.go:10-77: the table *)
  Definition summary_table (ts : list trans) : outcome (list row) :=
    match ts with
    | [] => Panic
    | _ =>
        do hs <- header_dates ts;
        do (rows, idx) <- label_rows (length ts) true (last ts []) [Some (Some (ColString (ansi UL (bs "Account"))) :: hs)] [];
        fill_all idx 1 ts rows
    end.
  Definition summary_text (termWidth : Z) (ts : list trans) : outcome str :=
    do rows <- summary_table ts;
    print_columns termWidth rows (repeat false (S (length ts))).

  (** ** html.go:36-112 [ShowHTMLTransactions]; GetFileOrStr is not modelled: [css] is the style sheet text *)
  (** html.go:26-34 [indentedString] *)
  Definition indented (c : Z) : str := repeat 32 (Z.to_nat (2 * (1 + Z.max 0 (Z.min c 12)))).
  (** html.go:77-79 *)
  Fixpoint open_boxes (n : nat) (i : Z) : str :=
    match n with O => [] | S n' => indented i ++ bs "  <div class=""indentbox"">" ++ [10] ++ open_boxes n' (i + 1) end.
  (** html.go:82-84 *)
  Fixpoint close_boxes (n : nat) (i : Z) : str :=
    match n with O => [] | S n' => indented i ++ bs "  </div>" ++ [10] ++ close_boxes n' (i - 1) end.
  (** html.go:71-100. "%d" of a level of 1000 or more would be grouped; left out. *)
  Fixpoint html_posts (lastLevel : Z) (l : list posting) : outcome str :=
    match l with
    | [] => Ok []
    | v :: l' =>
        let lv := p_level v in
        let diff := if lastLevel <? lv then bs "moreindent" else if lv <? lastLevel then bs "lessindent" else bs "sameindent" in
        let boxes := if lastLevel <? lv then open_boxes (Z.to_nat (lv - lastLevel)) lastLevel
                     else if lv <? lastLevel then close_boxes (Z.to_nat (lastLevel - lv)) (lastLevel - 1) else [] in
        let sign := match (p_val v ?= 0)%Qc with Lt => bs "neg" | _ => bs "pos" end in
        do sym <- format_symbol is_letter (p_ccy v);
        do r <- html_posts lv l';
        Ok (boxes ++
            indented lv ++ bs "  <div class=""post indent" ++ dec lv ++ [32] ++ diff ++ bs """>" ++ [10] ++
            indented lv ++ bs "    <div class=""account"">" ++ p_term v ++ bs "</div>" ++ [10] ++
            indented lv ++ bs "    <div class=""amount " ++ sign ++ bs """>" ++ sym ++ format_number f64 decs (p_ccy v) (p_val v) ++ bs "</div>" ++ [10] ++
            indented lv ++ bs "  </div>" ++ [10] ++ r)
    end.
  (** html.go:51-105 *)
  Fixpoint html_trans (ts : list trans) : outcome str :=
    match ts with
    | [] => Ok []
    | [] :: _ => Panic
    | ((p :: _) as t) :: ts' =>
        do posts <- html_posts 0 t;
        do r <- html_trans ts';
        Ok (bs "<div class=""report"">" ++ [10] ++ bs "<div class=""header"">" ++ [10] ++
            bs "  <div class=""date"">" ++ date_string (p_date p) ++ bs "</div>" ++ [10] ++
            (match p_payee p with [] => [] | pay => bs "  <div class=""payee"">" ++ pay ++ bs "</div>" ++ [10] end) ++
            bs "</div>" ++ [10] ++ bs "<div class=""posts"">" ++ [10] ++ posts ++ bs "</div>" ++ [10] ++ bs "</div>" ++ [10] ++ r)
    end.
  Definition html_report (css : str) (ts : list trans) : outcome str :=
    do r <- html_trans ts;
    Ok (bs "<html><head><style>" ++ [10] ++ css ++ [10] ++ bs "</style></head><body>" ++ [10] ++
        bs "<div class=""reports"">" ++ [10] ++ r ++ bs "</div>" ++ [10] ++ bs "</body></html>" ++ [10]).
End Columns.
