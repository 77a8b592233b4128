(** * PosModel: the reader of /repo/loader/lexer.go with its row and column, the parser of /repo/loader/parser.go on top
    of it, and the error value parseFileLocal returns. LoaderModel is the same parser without positions; that the two
    agree is C97_same_loader.

    Every `if rr.ch == e { rr.next() ... }` is [accept e], every `for cond(rr.ch) { buf.WriteRune(rr.ch); rr.next() }` is
    [spanp cond], as in LoaderModel. *)
From Verif Require Import Base Utf8 Dec PriceModel BookModel AccumModel LoaderModel.

(** lexer.go:14-19 [basicReader]: the runes that are left (the current one first), row, col *)
Record rdr := mkR { rest : runes; row : Z; col : Z }.
(** lexer.go:108-123 [next]: row and col change according to the rune that becomes the current one *)
Definition rnext (r : rdr) : rdr :=
  let l := tl (rest r) in
  if ch l =? eol then mkR l (row r + 1) 0 else mkR l (row r) (col r + 1).
(** lexer.go:24-32 [newRuneReader]: row 1, column 0, then one [next] (the 0 put in front is what it drops) *)
Definition new_reader (text : runes) : rdr := rnext (mkR (0 :: text) 1 0).

(** The messages given to [stop] in lexer.go:66,103 and parser.go:173,277,285,291. *)
Inductive emsg :=
| MDigits (mn mx found : nat)
| MExpected (want got : Z)
| MAliasEq (got : Z)
| MAliasEmpty
| MCommand.
(** Panics that are not raised by [stop]: builder.go:73 (date and payee of the transaction), big.NewRat with a zero
    denominator (lexer.go:178), an index or slice out of range (parser.go:265-267). *)
Inductive raw := Unbalanced (date : Z) (payee : str) | ZeroDenominator | NoIncludeName.

(** What a piece of the parser does: a value, a panic of [stop] (with the reader whose row and col it prints), another
    panic, or no end. *)
Inductive pres (A : Type) := POk (a : A) | PStop (r : rdr) (m : emsg) | PRaw (w : raw) | PDiv.
Arguments POk {A}. Arguments PStop {A}. Arguments PRaw {A}. Arguments PDiv {A}.
Definition parser (A : Type) := rdr -> pres (A * rdr).
Definition ret {A} (a : A) : parser A := fun r => POk (a, r).
Definition bind {A B} (p : parser A) (f : A -> parser B) : parser B :=
  fun r => match p r with
           | POk (a, r') => f a r'
           | PStop r' m => PStop r' m
           | PRaw w => PRaw w
           | PDiv => PDiv
           end.
Notation "'let!' x ':=' p 'in' f" := (bind p (fun x => f)) (at level 200, x pattern, p at level 100, f at level 200).
Definition peek : parser Z := fun r => POk (ch (rest r), r).
(** lexer.go:34-38 [stop] *)
Definition stop {A} (m : emsg) : parser A := fun r => PStop r m.
Definition raw_panic {A} (w : raw) : parser A := fun _ => PRaw w.
(** `if rr.ch == e { rr.next(); ... }` *)
Definition accept (e : Z) : parser bool := fun r => if ch (rest r) =? e then POk (true, rnext r) else POk (false, r).
(** `for cond(rr.ch) { ...; rr.next() }` *)
Fixpoint span_loop (f : Z -> bool) (l : runes) (rw cl : Z) : runes * rdr :=
  match l with
  | [] => ([], mkR [] rw cl)
  | c :: l' => if f c then let n := rnext (mkR l rw cl) in let '(a, r) := span_loop f l' (row n) (col n) in (c :: a, r) else ([], mkR l rw cl)
  end.
Definition spanp (f : Z -> bool) : parser runes := fun r => POk (span_loop f (rest r) (row r) (col r)).
Definition panic_of {A} (w : raw) (o : outcome A) : parser A :=
  fun r => match o with Ok a => POk (a, r) | Diverge => PDiv | _ => PRaw w end.

(** lexer.go:91-99 [consumeWS] *)
Definition p_ws : parser bool := let! s := spanp ws_rune in ret (negb (Nat.eqb (length s) 0)).
(** lexer.go:101-106 [consume] *)
Definition p_consume (e : Z) : parser unit :=
  let! c := peek in let! ok := accept e in if ok then ret tt else stop (MExpected e c).
(** lexer.go:56-69 [parseNumber] *)
Definition p_number (mn mx : nat) : parser Z :=
  let! ds := spanp digit in
  if Nat.ltb (length ds) mn || Nat.ltb mx (length ds) then stop (MDigits mn mx (length ds)) else ret (num_of ds).
(** lexer.go:71-79 [parseDate] *)
Definition p_date : parser Z :=
  let! y := p_number 1 4 in let! _ := p_consume 47 in
  let! m := p_number 1 2 in let! _ := p_consume 47 in
  let! d := p_number 1 2 in ret ((y * 100 + m) * 100 + d).
(** lexer.go:81-89 [parseTime] *)
Definition p_time : parser unit :=
  let! _ := p_number 1 2 in let! _ := p_consume 58 in
  let! _ := p_number 1 2 in let! _ := p_consume 58 in
  let! _ := p_number 1 2 in ret tt.
(** lexer.go:125-137 [parseQuotedString] *)
Definition p_quoted : parser runes :=
  let! _ := p_consume 34 in
  let! s := spanp (fun c => negb (c =? eof) && negb (c =? eol) && negb (c =? 34)) in
  let! _ := p_consume 34 in ret s.
(** lexer.go:148-172 *)
Fixpoint amtp_loop (isDec : bool) (num mag : Z) (l : runes) (rw cl : Z) : Z * Z * rdr :=
  match l with
  | [] => (num, mag, mkR [] rw cl)
  | c :: l' =>
      let n := rnext (mkR l rw cl) in
      if digit c then amtp_loop isDec (wrap64 (wrap64 (num * 10) + (c - 48))) (if isDec then wrap64 (mag * 10) else mag) l' (row n) (col n)
      else if negb isDec && (c =? 46) then amtp_loop true num mag l' (row n) (col n)
      else if c =? 44 then amtp_loop isDec num mag l' (row n) (col n)
      else (num, mag, mkR l rw cl)
  end.
Definition p_digits : parser (Z * Z) := fun r => let '(n, m, r') := amtp_loop false 0 1 (rest r) (row r) (col r) in POk ((n, m), r').
(** lexer.go:139-179 [parseAmt] *)
Definition p_amt : parser Qc :=
  let! _ := p_ws in
  let! isNeg := accept 45 in
  let! nm := p_digits in
  panic_of ZeroDenominator (new_rat (if isNeg : bool then wrap64 (fst nm * -1) else fst nm) (snd nm)).
(** parser.go:33-46 [parsePayee] *)
Definition p_payee : parser str :=
  let! _ := p_ws in
  let! c := peek in
  if c =? 34 then let! s := p_quoted in ret (encode (trim_space s))
  else let! s := spanp payee_rune in ret (encode (trim_space s)).
(** parser.go:80-90 [parseToEOL] *)
Definition p_to_eol : parser runes := let! _ := p_ws in spanp line_rune.
(** parser.go:48-63 [parseNote] *)
Definition p_note : parser str :=
  let! _ := p_ws in
  let! ok := accept 59 in
  if ok : bool then let! s := p_to_eol in ret (encode s) else ret [].
(** parser.go:65-78 [parseTransaction], without the final `if rr.ch == eol { rr.next() }` *)
Definition p_transaction : parser (Z * str * str) :=
  let! date := p_date in
  let! _ := p_ws in
  let! star := accept 42 in
  let! _ := (if star : bool then p_ws else ret false) in
  let! payee := p_payee in
  let! note := p_note in
  ret (date, payee, note).
(** parser.go:92-119 [parseAccount] *)
Definition p_account : parser str :=
  let! _ := p_ws in
  let! c := peek in
  let! _ := (if c =? 33 then accept 33 else accept 91) in
  let! a1 := spanp acct_rune in
  let! a2 := spanp acct_rune2 in
  let! _ := accept 93 in
  ret (encode (a1 ++ a2)).
(** parser.go:144-158 [parseCCY] *)
Definition p_ccy : parser str :=
  let! _ := p_ws in
  let! c := peek in
  if c =? 34 then let! s := p_quoted in ret (encode s)
  else let! s := spanp is_ccy_rune in ret (encode s).
(** parser.go:132-142 [parseCCYAmt] *)
Definition p_ccy_amt : parser (str * Qc) :=
  let! c := peek in
  if (c =? 34) || is_ccy_rune c
  then let! ccy := p_ccy in let! amt := p_amt in ret (ccy, amt)
  else let! amt := p_amt in let! ccy := p_ccy in ret (ccy, amt).
(** parser.go:171-188 [parsePrice], without the final `if rr.ch == eol { rr.next() }` *)
Definition p_price (b : builder) : parser builder :=
  let! c := peek in
  let! ok := accept 80 in
  if negb ok then stop (MExpected 80 c) else
  let! _ := p_ws in
  let! date := p_date in
  let! _ := p_ws in
  let! _ := p_time in
  let! unit := p_ccy in
  let! _ := p_ws in
  let! ca := p_ccy_amt in
  ret (b_add_price b date unit (fst ca) (snd ca)).

Section Pos.
  Variables (is_letter is_udigit : Z -> bool) (to_upper : Z -> Z).
  Variable ord : list (str * Qc) -> list str.
  Variable fs : str -> option str.
  Variable resolve : str -> str -> str.

  (** parser.go:297-341 [parsePosting], without the `if rr.ch == eol { rr.next() }` of 322-324 (nothing after it reads) *)
  Definition p_posting (nm : alias) (b : builder) : parser builder :=
    let! _ := p_ws in
    let! acct := p_account in
    let acct := match aget str_eqb acct nm with Some n => n | None => acct end in
    let! _ := p_ws in
    let! isNeg := accept 45 in
    let! ca := p_ccy_amt in
    let amt := if isNeg : bool then (- snd ca)%Qc else snd ca in
    let! _ := p_ws in
    let! at_ := accept 64 in
    let! _ := (if at_ : bool then let! _ := p_ws in let! _ := p_ccy_amt in ret tt else ret tt) in
    let! note := p_note in
    ret match fst ca with
        | [] => elide acct note (ord (bu_amts b)) b
        | _ => add_posting b acct (fst ca) amt note
        end.
  (** lexer.go:40-54 [parseIdentifier] *)
  Definition p_identifier : parser str :=
    let! _ := p_ws in
    let! s := spanp (fun c => is_udigit c || is_letter c || (c =? 95)) in
    let! _ := p_ws in
    ret (encode (map to_upper s)).
  (** parser.go:257-292: the words include and alias *)
  Definition p_command (b : builder) (nm : alias) : parser (builder * alias * option str) :=
    let! command := p_identifier in
    if str_eqb command (bs "INCLUDE") then
      let! s := p_to_eol in
      let! name := panic_of NoIncludeName (include_name s) in ret (b, nm, Some name)
    else if str_eqb command (bs "ALIAS") then
      let! short := p_account in
      let! _ := p_ws in
      let! c := peek in
      let! eq := accept 61 in
      if negb eq then stop (MAliasEq c) else
      let! _ := p_ws in
      let! long := p_account in
      let! _ := p_ws in
      match long with
      | [] => stop MAliasEmpty
      | _ => let! _ := p_to_eol in ret (b, aset str_eqb short long nm, None)
      end
    else stop MCommand.
  (** parser.go:225-292: one round of the main loop up to the newline that may end it: the new builder, the new aliases,
      the file to include; and whether a newline is skipped then (`if rr.ch == eol { rr.next() }`), which include and alias
      do not do. A header is an error if the previous transaction does not balance (builder.go:67-78). *)
  Definition p_round (b : builder) (nm : alias) : parser (builder * alias * option str * bool) :=
    let! ws := p_ws in
    let! c := peek in
    if (c =? 59) || (c =? eol) || (c =? eof) then let! _ := spanp line_rune in ret (b, nm, None, true)
    else if negb ws then
      if (c =? 61) || (c =? 68) then let! _ := spanp line_rune in ret (b, nm, None, true)
      else if c =? 80 then let! b := p_price b in ret (b, nm, None, true)
      else if digit c then
        let! t := p_transaction in
        let '(date, payee, note) := t in
        let! b := panic_of (Unbalanced (bu_date b) (bu_payee b)) (new_transaction b date payee note) in ret (b, nm, None, true)
      else let! x := p_command b nm in ret (x, false)
    else let! b := p_posting nm b in ret (b, nm, None, true).
  Definition p_step (b : builder) (nm : alias) : parser (builder * alias * option str) :=
    let! xe := p_round b nm in
    let '(x, e) := xe in
    if e : bool then let! _ := accept eol in ret x else ret x.

  (** The error value of parser.go:210-214: the file, and either row, col and message of [stop] or another panic. *)
  Inductive perr := At (file : str) (row col : Z) (m : emsg) | NoPos (file : str) (w : raw).
  (** [PFErr e b]: the error, and the builder as it is left: what was added before stays added. *)
  Inductive pfres := PFOk (b : builder) | PFErr (e : perr) (b : builder) | PFExit | PFDiverge.

  (** parser.go:225-294; an error of an included file is returned unchanged (273-275) *)
  Fixpoint pos_loop (rec : builder -> str -> alias -> pfres) (filename : str) (fuel : nat) (b : builder) (nm : alias) (r : rdr) : pfres :=
    match fuel with
    | O => PFDiverge
    | S f =>
        if ch (rest r) =? eof then PFOk b else
        match p_step b nm r with
        | POk ((b, nm, None), r) => pos_loop rec filename f b nm r
        | POk ((b, nm, Some name), r) =>
            match rec b (resolve filename name) nm with
            | PFOk b => pos_loop rec filename f b nm r
            | x => x
            end
        | PStop r m => PFErr (At filename (row r) (col r) m) b
        | PRaw w => PFErr (NoPos filename w) b
        | PDiv => PFDiverge
        end
    end.
  (** parser.go:201-295 [parseFileLocal] *)
  Fixpoint pos_file (depth : nat) (b : builder) (filename : str) (nm : alias) : pfres :=
    match depth with
    | O => PFDiverge
    | S dp =>
        match fs filename with
        | None => PFExit
        | Some bytes => let l := decode bytes in pos_loop (pos_file dp) filename (S (length l)) b nm (new_reader l)
        end
    end.
End Pos.

(** The text of the error: parser.go:212 "parsing failure: %s: %s", lexer.go:35 "%d:%d: ", and the messages. *)
Definition emsg_text (m : emsg) : str :=
  match m with
  | MDigits mn mx k => bs "expected number digit length of min:max of " ++ fmt_d (Z.of_nat mn) ++ bs ":" ++ fmt_d (Z.of_nat mx)
                       ++ bs ", found " ++ fmt_d (Z.of_nat k) ++ bs " digits"
  | MExpected w g => bs "expected '" ++ encode [w] ++ bs "', got '" ++ encode [g] ++ bs "'"
  | MAliasEq g => bs "expected '=' after alias, got '" ++ encode [g] ++ bs "'"
  | MAliasEmpty => bs "expected account for alias, got empty account"
  | MCommand => bs "expected include or alias"
  end.
Definition at_text (file : str) (rw cl : Z) (m : emsg) : str :=
  bs "parsing failure: " ++ file ++ bs ": " ++ fmt_d rw ++ bs ":" ++ fmt_d cl ++ bs ": " ++ emsg_text m.
