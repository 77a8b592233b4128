(** * LoaderModel: /repo/loader/lexer.go and /repo/loader/parser.go, and LoadBook of /repo/cmd/app/app.go.

    The reader is the list of runes that follow the bytes read so far (Utf8.decode of the file); the current rune
    [rr.ch] is the first one, or 0 (the constant eof) when there is none. Row and column numbers, which only occur in
    error messages, are in PosModel (C97). [rr.stop] and runtime panics are [Panic]; parseFileLocal turns both into an error
    (parser.go:210-214). I/O errors other than a missing file are not modelled (log.Fatal). *)
From Verif Require Import Base Utf8 PriceModel BookModel AccumModel.

Definition runes := list Z.
(** lexer.go:16,21: [rr.ch]; lexer.go:108-123 [next] drops the first rune *)
Definition ch (l : runes) : Z := match l with [] => 0 | c :: _ => c end.
Definition next (l : runes) : runes := tl l.
Definition eof : Z := 0.
Definition eol : Z := 10.

(** A loop `for cond(rr.ch) { buf.WriteRune(rr.ch); rr.next() }`: what was read, and the rest. Every cond is false for eof. *)
Fixpoint span (f : Z -> bool) (l : runes) : runes * runes :=
  match l with
  | [] => ([], [])
  | c :: l' => if f c then let '(a, r) := span f l' in (c :: a, r) else ([], l)
  end.

(** unicode.IsSpace: the Unicode property White_Space *)
Definition is_space (r : Z) : bool :=
  between 9 r 13 || (r =? 32) || (r =? 133) || (r =? 160) || (r =? 5760) || between 8192 r 8202
  || (r =? 8232) || (r =? 8233) || (r =? 8239) || (r =? 8287) || (r =? 12288).
Definition digit (r : Z) : bool := between 48 r 57.

(** lexer.go:91-99 [consumeWS]: (number consumed > 0, rest) *)
Definition ws_rune (r : Z) : bool := is_space r && negb (r =? eol).
Definition consume_ws (l : runes) : runes := snd (span ws_rune l).
Definition has_ws (l : runes) : bool := ws_rune (ch l).

(** lexer.go:101-106 [consume] *)
Definition consume (e : Z) (l : runes) : outcome runes := if ch l =? e then Ok (next l) else Panic.

(** lexer.go:56-69 [parseNumber] *)
Definition num_of (ds : runes) : Z := fold_left (fun v c => v * 10 + (c - 48)) ds 0.
Definition parse_number (mn mx : nat) (l : runes) : outcome (Z * runes) :=
  let '(ds, r) := span digit l in
  if Nat.ltb (length ds) mn || Nat.ltb mx (length ds) then Panic else Ok (num_of ds, r).

(** lexer.go:71-79 [parseDate] *)
Definition parse_date (l : runes) : outcome (Z * runes) :=
  do (y, l) <- parse_number 1 4 l; do l <- consume 47 l;
  do (m, l) <- parse_number 1 2 l; do l <- consume 47 l;
  do (d, l) <- parse_number 1 2 l; Ok ((y * 100 + m) * 100 + d, l).

(** lexer.go:81-89 [parseTime]; the result is not used *)
Definition parse_time (l : runes) : outcome runes :=
  do (_, l) <- parse_number 1 2 l; do l <- consume 58 l;
  do (_, l) <- parse_number 1 2 l; do l <- consume 58 l;
  do (_, l) <- parse_number 1 2 l; Ok l.

(** lexer.go:125-137 [parseQuotedString] *)
Definition parse_quoted (l : runes) : outcome (runes * runes) :=
  do l <- consume 34 l;
  let '(s, l) := span (fun c => negb (c =? eof) && negb (c =? eol) && negb (c =? 34)) l in
  do l <- consume 34 l; Ok (s, l).

(** lexer.go:148-172: int64 arithmetic wraps around *)
Fixpoint amt_loop (isDec : bool) (num mag : Z) (l : runes) : Z * Z * runes :=
  match l with
  | [] => (num, mag, [])
  | c :: l' =>
      if digit c then amt_loop isDec (wrap64 (wrap64 (num * 10) + (c - 48))) (if isDec then wrap64 (mag * 10) else mag) l'
      else if negb isDec && (c =? 46) then amt_loop true num mag l'
      else if c =? 44 then amt_loop isDec num mag l'
      else (num, mag, l)
  end.
(** lexer.go:139-179 [parseAmt] *)
Definition parse_amt (l : runes) : outcome (Qc * runes) :=
  let l := consume_ws l in
  let '(isNeg, l) := if ch l =? 45 then (true, next l) else (false, l) in
  let '(num, mag, l) := amt_loop false 0 1 l in
  do v <- new_rat (if isNeg then wrap64 (num * -1) else num) mag; Ok (v, l).

(** strings.TrimSpace on runes (the buffer holds the encoding of the runes read, see Utf8.decode_encode) *)
Fixpoint drop_space (l : runes) : runes := match l with c :: l' => if is_space c then drop_space l' else l | [] => [] end.
Definition trim_space (l : runes) : runes := rev (drop_space (rev (drop_space l))).

(** parser.go:33-46 [parsePayee] *)
Definition payee_rune (c : Z) : bool := negb (c =? eof) && negb (c =? 59) && negb (c =? eol).
Definition parse_payee (l : runes) : outcome (str * runes) :=
  let l := consume_ws l in
  if ch l =? 34 then do (s, l) <- parse_quoted l; Ok (encode (trim_space s), l)
  else let '(s, l) := span payee_rune l in Ok (encode (trim_space s), l).

(** parser.go:80-90 [parseToEOL] *)
Definition line_rune (c : Z) : bool := negb (c =? eof) && negb (c =? eol).
Definition parse_to_eol (l : runes) : runes * runes := span line_rune (consume_ws l).

(** parser.go:48-63 [parseNote] *)
Definition parse_note (l : runes) : str * runes :=
  let l := consume_ws l in
  if negb (ch l =? 59) then ([], l)
  else let '(s, l) := parse_to_eol (next l) in (encode s, l).
Definition skip_eol (l : runes) : runes := if ch l =? eol then next l else l.

(** parser.go:65-78 [parseTransaction] *)
Definition parse_transaction (l : runes) : outcome (Z * str * str * runes) :=
  do (date, l) <- parse_date l;
  let l := consume_ws l in
  let l := if ch l =? 42 then consume_ws (next l) else l in
  do (payee, l) <- parse_payee l;
  let '(note, l) := parse_note l in
  Ok (date, payee, note, skip_eol l).

(** parser.go:92-119 [parseAccount]. The second loop (108-113) never runs: its runes are all taken by the first. *)
Definition acct_rune (c : Z) : bool :=
  between 97 c 122 || between 65 c 90 || (c =? 38) || (c =? 39) || between 48 c 57 || (c =? 58) || (c =? 95).
Definition acct_rune2 (c : Z) : bool := between 97 c 122 || between 65 c 90 || (c =? 58) || (c =? 95).
Definition parse_account (l : runes) : str * runes :=
  let l := consume_ws l in
  let l := if (ch l =? 33) || (ch l =? 91) then next l else l in
  let '(a1, l) := span acct_rune l in
  let '(a2, l) := span acct_rune2 l in
  let l := if ch l =? 93 then next l else l in
  (encode (a1 ++ a2), l).

(** parser.go:121-130 [IsCCYRune] *)
Definition is_ccy_rune (c : Z) : bool :=
  negb (c =? eof) && negb (c =? 59) && negb (c =? 64) && negb (c =? eol) && negb (is_space c)
  && negb (c =? 45) && negb (c =? 46) && negb (digit c).
(** parser.go:144-158 [parseCCY] *)
Definition parse_ccy (l : runes) : outcome (str * runes) :=
  let l := consume_ws l in
  if ch l =? 34 then do (s, l) <- parse_quoted l; Ok (encode s, l)
  else let '(s, l) := span is_ccy_rune l in Ok (encode s, l).
(** parser.go:132-142 [parseCCYAmt] *)
Definition parse_ccy_amt (l : runes) : outcome (str * Qc * runes) :=
  if (ch l =? 34) || is_ccy_rune (ch l)
  then do (ccy, l) <- parse_ccy l; do (amt, l) <- parse_amt l; Ok (ccy, amt, l)
  else do (amt, l) <- parse_amt l; do (ccy, l) <- parse_ccy l; Ok (ccy, amt, l).

(** parser.go:160-169 [skipLine] *)
Definition skip_line (l : runes) : runes := skip_eol (snd (span line_rune l)).

(** parser.go:171-188 [parsePrice] *)
Definition parse_price (b : builder) (l : runes) : outcome (builder * runes) :=
  if negb (ch l =? 80) then Panic else
  let l := consume_ws (next l) in
  do (date, l) <- parse_date l;
  let l := consume_ws l in
  do l <- parse_time l;
  do (unit, l) <- parse_ccy l;
  let l := consume_ws l in
  do (ca, l) <- parse_ccy_amt l;
  Ok (b_add_price b date unit (fst ca) (snd ca), skip_eol l).

(** parser.go:328-334: the balances are updated in place by AddPosting; [keys] is the order in which range visits the map *)
Fixpoint elide (acct note : str) (keys : list str) (b : builder) : builder :=
  match keys with
  | [] => b
  | k :: keys' =>
      elide acct note keys'
        match aget str_eqb k (bu_amts b) with
        | Some v => if qc_is0 v then b else add_posting b acct k (- v)%Qc note
        | None => b
        end
  end.

Definition alias := list (str * str).

Section Loader.
  (** unicode.IsLetter, unicode.IsDigit, unicode.ToUpper *)
  Variables (is_letter is_udigit : Z -> bool) (to_upper : Z -> Z).
  (** the order in which a range over the open balances visits the currencies *)
  Variable ord : list (str * Qc) -> list str.
  (** file contents; filepath.Join(filepath.Dir(file), name) *)
  Variable fs : str -> option str.
  Variable resolve : str -> str -> str.

  (** parser.go:297-341 [parsePosting] *)
  Definition parse_posting (nm : alias) (b : builder) (l : runes) : outcome (builder * runes) :=
    let '(acct, l) := parse_account (consume_ws l) in
    let acct := match aget str_eqb acct nm with Some n => n | None => acct end in
    let l := consume_ws l in
    let '(isNeg, l) := if ch l =? 45 then (true, next l) else (false, l) in
    do (ca, l) <- parse_ccy_amt l;
    let '(ccy, amt) := ca in
    let amt := if isNeg then (- amt)%Qc else amt in
    let l := consume_ws l in
    do l <- (if ch l =? 64 then do (_, l) <- parse_ccy_amt (consume_ws (next l)); Ok l else Ok l);
    let '(note, l) := parse_note l in
    let l := skip_eol l in
    match ccy with
    | [] => Ok (elide acct note (ord (bu_amts b)) b, l)
    | _ => Ok (add_posting b acct ccy amt note, l)
    end.

  (** lexer.go:40-54 [parseIdentifier] *)
  Definition parse_identifier (l : runes) : str * runes :=
    let '(s, l) := span (fun c => is_udigit c || is_letter c || (c =? 95)) (consume_ws l) in
    (encode (map to_upper s), consume_ws l).

  (** parser.go:260-268: the file named by an include line *)
  Definition include_name (s : runes) : outcome str :=
    match s with
    | [] => Panic
    | c :: s' => if (c =? 34) && (last s 0 =? 34)
                 then match s' with [] => Panic | _ => Ok (encode (removelast s')) end
                 else Ok (encode s)
    end.

  (** What one round of the main loop asks for. *)
  Inductive todo := Go (b : builder) (nm : alias) (l : runes) | Include (name : str) (b : builder) (nm : alias) (l : runes).

  (** parser.go:225-292: one round of the main loop *)
  Definition step (b : builder) (nm : alias) (l0 : runes) : outcome todo :=
    let l := consume_ws l0 in
    if (ch l =? 59) || (ch l =? eol) || (ch l =? eof) then Ok (Go b nm (skip_line l))
    else if negb (has_ws l0) then
      if (ch l =? 61) || (ch l =? 68) then Ok (Go b nm (skip_line l))
      else if ch l =? 80 then do (b, l) <- parse_price b l; Ok (Go b nm l)
      else if digit (ch l) then
        do (t, l) <- parse_transaction l;
        let '(date, payee, note) := t in
        do b <- new_transaction b date payee note; Ok (Go b nm l)
      else
        let '(command, l) := parse_identifier l in
        if str_eqb command (bs "INCLUDE") then
          let '(s, l) := parse_to_eol l in
          do name <- include_name s; Ok (Include name b nm l)
        else if str_eqb command (bs "ALIAS") then
          let '(short, l) := parse_account l in
          let l := consume_ws l in
          if negb (ch l =? 61) then Panic else
          let '(long, l) := parse_account (consume_ws (next l)) in
          let l := consume_ws l in
          match long with
          | [] => Panic
          | _ => let '(_, l) := parse_to_eol l in Ok (Go b (aset str_eqb short long nm) l)
          end
        else Panic
    else do (b, l) <- parse_posting nm b l; Ok (Go b nm l).

  (** Result of loading a file: [FErr] is an error value, [FExit] is log.Fatal. *)
  Inductive fres := FOk (b : builder) | FErr | FExit | FDiverge.

  (** parser.go:225-294; [rec] loads an included file *)
  Fixpoint file_loop (rec : builder -> str -> alias -> fres) (filename : str) (fuel : nat) (b : builder) (nm : alias) (l : runes) : fres :=
    match fuel with
    | O => FDiverge
    | S f =>
        if ch l =? eof then FOk b else
        match step b nm l with
        | Ok (Go b nm l) => file_loop rec filename f b nm l
        | Ok (Include name b nm l) =>
            match rec b (resolve filename name) nm with
            | FOk b => file_loop rec filename f b nm l
            | r => r
            end
        | Panic | Error => FErr
        | Diverge => FDiverge
        end
    end.

  (** parser.go:201-295 [parseFileLocal]; [depth] bounds the nesting of includes *)
  Fixpoint parse_file (depth : nat) (b : builder) (filename : str) (nm : alias) : fres :=
    match depth with
    | O => FDiverge
    | S dp =>
        match fs filename with
        | None => FExit
        | Some bytes => let l := decode bytes in file_loop (parse_file dp) filename (S (length l)) b nm l
        end
    end.

  (** app.go:59-66 [LoadBook]: an error of ParseFile is returned; Build is called outside of any recover. A crash
      (uncaught panic or log.Fatal) is [Panic]. *)
  Definition load_book (srt : list posting -> list posting) (depth : nat) (filename : str) : outcome book :=
    match parse_file depth new_builder filename [] with
    | FOk b => build srt b
    | FErr => Error
    | FExit => Panic
    | FDiverge => Diverge
    end.
End Loader.
