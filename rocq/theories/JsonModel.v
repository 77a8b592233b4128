(** * JsonModel: the JSON text written by export --type Json and accts --json, and the JSON text read by an import script.

    cmd/app/print.go:91-109 [PrintJSON] hands a value to encoding/json; script/convert.go:57-72 [ReadJSON] gets one from it. encoding/json and strconv are
    Go's standard library, not part of /repo: they are modelled here character by character, so that what is claimed is about the bytes of the file.
    A value of kind JNum holds a float64 (as the exact number it is). Not modelled: the negative zero (written "-0"), which only a negative amount of less
    than 2^-1075 gives. *)
From Coq Require Import Qround.
From Verif Require Import Base Dec BookModel Utf8 LoaderModel ExportModel ConvertModel F64Model.
From Verif Require DataExportModel.

(** ** Writing *)
(** utf8.DecodeRuneInString again and again, as [decode], with None for a byte that is not part of a rune (RuneError of size 1). *)
Fixpoint decode_opt (s : str) : list (option Z) :=
  match s with
  | [] => []
  | b0 :: s1 =>
      if b0 <? 128 then Some b0 :: decode_opt s1 else
      match s1 with
      | [] => [None]
      | b1 :: s2 =>
          if ok2 b0 b1 then Some ((b0 - 192) * 64 + (b1 - 128)) :: decode_opt s2 else
          match s2 with
          | [] => None :: decode_opt s1
          | b2 :: s3 =>
              if ok3 b0 b1 b2 then Some ((b0 - 224) * 4096 + (b1 - 128) * 64 + (b2 - 128)) :: decode_opt s3 else
              match s3 with
              | [] => None :: decode_opt s1
              | b3 :: s4 =>
                  if ok4 b0 b1 b2 b3 then Some ((b0 - 240) * 262144 + (b1 - 128) * 4096 + (b2 - 128) * 64 + (b3 - 128)) :: decode_opt s4
                  else None :: decode_opt s1
              end
          end
      end
  end.
(** encoding/json: const hex = "0123456789abcdef" *)
Definition hex_char (d : Z) : Z := if d <? 10 then 48 + d else 87 + d.
Section Write.
  (** Go from 1.22 on writes \b and \f for the characters 8 and 12, older versions \u0008 and \u000c. *)
  Variable short : bool.
  (** encoding/json encodeState.string with escapeHTML: what is written for one rune *)
  Definition escape (o : option Z) : str :=
    match o with
    | None => bs "\ufffd"
    | Some r =>
        if r <? 128 then
          if (r =? 92) || (r =? 34) then [92; r]
          else if r =? 10 then bs "\n"
          else if r =? 13 then bs "\r"
          else if r =? 9 then bs "\t"
          else if short && (r =? 8) then bs "\b"
          else if short && (r =? 12) then bs "\f"
          else if (r <? 32) || (r =? 60) || (r =? 62) || (r =? 38) then bs "\u00" ++ [hex_char (r / 16); hex_char (r mod 16)]
          else [r]
        else if (r =? 8232) || (r =? 8233) then bs "\u202" ++ [hex_char (r mod 16)]
        else enc r
    end.
  Definition quote (s : str) : str := [34] ++ flat_map escape (decode_opt s) ++ [34].

  (** strconv.FormatFloat(f, 'e' or 'f', -1, 64): the decimal with the fewest digits that reads back as f, and of those the nearest to f. *)
  Definition pow10 (x : Z) : Qc := if 0 <=? x then qz (10 ^ x) else (/ qz (10 ^ (- x)))%Qc.
  (** the exponent of the leading digit *)
  Definition ilog10 (q : Qc) : Z :=
    let e := Z.of_nat (length (dec (Qnum (this q)))) - Z.of_nat (length (dec (Zpos (Qden (this q))))) in
    match (pow10 e ?= q)%Qc with Gt => e - 1 | _ => e end.
  (** strconv roundShortest: with k digits, round to nearest; otherwise down or up, if that reads back as f *)
  Definition candidates (q : Qc) (k : Z) : list Z :=
    let y := (q / pow10 (ilog10 q - k + 1))%Qc in
    let n := round_even y in
    let f := Qfloor (this y) in
    [n; if n =? f then f + 1 else f].
  Fixpoint first_digits (q : Qc) (k : Z) (l : list Z) : option (Z * Z) :=
    match l with
    | [] => None
    | m :: l' => let x := ilog10 q - k + 1 in
                 if qc_eqb (to_f64 (qz m * pow10 x)) q then Some (if m =? 10 ^ k then (1, x + k) else (m, x)) else first_digits q k l'
    end.
  Fixpoint search_digits (q : Qc) (k : Z) (n : nat) : Z * Z :=
    match n with
    | O => (0, 0)
    | S n' => match first_digits q k (candidates q k) with Some r => r | None => search_digits q (k + 1) n' end
    end.
  (** 17 digits are always enough *)
  Definition shortest (q : Qc) : Z * Z := search_digits q 1 17.
  (** strconv fmtF: [ds] with the point behind its first [dp] digits *)
  Definition fmt_F (ds : str) (dp : Z) : str :=
    let n := Z.of_nat (length ds) in
    (if 0 <? dp then firstn (Z.to_nat dp) ds ++ repeat 48 (Z.to_nat (dp - n)) else [48]) ++
    (if 0 <? n - dp then [46] ++ repeat 48 (Z.to_nat (- dp)) ++ skipn (Z.to_nat dp) ds else []).
  (** strconv fmtE, and encoding/json's "clean up e-09 to e-9" *)
  Definition fmt_E (ds : str) (dp : Z) : str :=
    (match ds with [] => [] | [d] => [d] | d :: r => d :: 46 :: r end) ++ [101] ++
    (let e := dp - 1 in if e <? 0 then [45] ++ dec (- e) else [43] ++ zpad 2 (dec e)).
  (** encoding/json floatEncoder.encode *)
  Definition num_pos (q : Qc) : str :=
    let '(m, x) := shortest q in
    let ds := dec m in let dp := x + Z.of_nat (length ds) in
    match (q ?= to_f64 (/ qz (10 ^ 6)))%Qc, (q ?= qz (10 ^ 21))%Qc with
    | Lt, _ => fmt_E ds dp
    | _, Lt => fmt_F ds dp
    | _, _ => fmt_E ds dp
    end.
  Definition num_text (q : Qc) : str :=
    match (q ?= 0)%Qc with Eq => [48] | Gt => num_pos q | Lt => 45 :: num_pos (- q)%Qc end.

  Fixpoint commas (l : list str) : str :=
    match l with [] => [] | [s] => s | s :: l' => s ++ [44] ++ commas l' end.
  (** encoding/json Marshal (of values whose members come in the order given) *)
  Fixpoint json_text (j : json) : str :=
    match j with
    | JNull => bs "null"
    | JBool b => if b then bs "true" else bs "false"
    | JNum q => num_text q
    | JStr s => quote s
    | JArr l => [91] ++ commas (map json_text l) ++ [93]
    | JObj m => [123] ++ commas (map (fun kv => quote (fst kv) ++ [58] ++ json_text (snd kv)) m) ++ [125]
    end.
  (** floatEncoder.encode: UnsupportedValueError for an infinity *)
  Definition infinite (q : Qc) : bool :=
    match (qz (2 ^ 1024) ?= q)%Qc, (q ?= - qz (2 ^ 1024))%Qc with Gt, Gt => false | _, _ => true end.
  Fixpoint has_inf (j : json) : bool :=
    match j with
    | JNum q => infinite q
    | JArr l => existsb has_inf l
    | JObj m => existsb (fun kv => has_inf (snd kv)) m
    | _ => false
    end.
  Definition marshal (j : json) : outcome str := if has_inf j then Error else Ok (json_text j).

  (** encoding/json Indent with prefix "". The text is valid JSON, so that the scanner is told by being in a string or not. *)
  Inductive jmode := Plain | InStr | Esc.
  Definition newline (tab : str) (depth : nat) : str := [10] ++ concat (repeat tab depth).
  Definition json_space (c : Z) : bool := (c =? 32) || (c =? 9) || (c =? 13) || (c =? 10).
  Definition closes (c : Z) : bool := (c =? 93) || (c =? 125).
  Definition opens (c : Z) : bool := (c =? 91) || (c =? 123).
  Fixpoint indent (tab : str) (m : jmode) (need : bool) (depth : nat) (l : str) : str :=
    match l with
    | [] => []
    | c :: r =>
        match m with
        | Esc => c :: indent tab InStr need depth r
        | InStr => c :: indent tab (if c =? 34 then Plain else if c =? 92 then Esc else InStr) need depth r
        | Plain =>
            if json_space c then indent tab Plain need depth r
            else let fresh := need && negb (closes c) in
                 let depth := if fresh then S depth else depth in
                 let need := if fresh then false else need in
                 (if fresh then newline tab depth else []) ++
                 (if opens c then c :: indent tab Plain true depth r
                  else if c =? 44 then c :: newline tab depth ++ indent tab Plain need depth r
                  else if c =? 58 then c :: 32 :: indent tab Plain need depth r
                  else if closes c then if need then c :: indent tab Plain false depth r
                                        else newline tab (pred depth) ++ c :: indent tab Plain false (pred depth) r
                  else c :: indent tab (if c =? 34 then InStr else Plain) need depth r)
        end
    end.
  (** encoding/json MarshalIndent(v, "", tab) *)
  Definition marshal_indent (tab : str) (j : json) : outcome str := do s <- marshal j; Ok (indent tab Plain false 0 s).
  (** print.go:91-109 [PrintJSON] *)
  Definition print_json (j : json) (pretty : bool) : outcome str := if pretty then marshal_indent (bs "    ") j else marshal j.

  (** The values of DataExportModel as JSON values *)
  Fixpoint embed (j : DataExportModel.json) : json :=
    match j with
    | DataExportModel.JStr s => JStr s
    | DataExportModel.JNum q => JNum q
    | DataExportModel.JArr l => JArr (map embed l)
    | DataExportModel.JObj m => JObj (map (fun kv => (fst kv, embed (snd kv))) m)
    end.
  (** export.go:62-63: the output of export --type Json [--jsonpretty] *)
  Definition export_json_text (srt : list posting -> list posting) (b : book) (pretty : bool) : outcome str :=
    do js <- DataExportModel.export_json to_f64 srt b; print_json (JArr (map embed js)) pretty.
  (** accounts.go:38-43: the output of accts --json for these accounts (the error of PrintJSON is dropped; it cannot occur) *)
  Definition accts_json (accts : list str) : outcome str := print_json (JArr (map JStr accts)) true.
End Write.

(** ** Reading *)
(** encoding/json works on bytes; the characters that matter to it are ASCII, and inside a string it decodes the bytes as [decode] does, so that the text is
    decoded here first. encoding/json scanner: isSpace *)
Fixpoint skip_ws (l : runes) : runes := match l with c :: r => if json_space c then skip_ws r else l | [] => [] end.
Fixpoint span_dig (l : runes) : runes * runes :=
  match l with
  | c :: r => if is_dig c then let '(a, b) := span_dig r in (c :: a, b) else ([], l)
  | [] => ([], [])
  end.
(** strconv.ParseFloat: the exact number (rounded in [p_value]) *)
Definition num_value (neg : bool) (i f : runes) (x : Z) : Qc :=
  let v := (qz (digval (i ++ f)) * pow10 (x - Z.of_nat (length f)))%Qc in if neg then (- v)%Qc else v.
(** scanner: stateE, stateESign, stateE0 *)
Definition p_exp (neg : bool) (i f l : runes) : option (Qc * runes) :=
  match l with
  | c :: r =>
      if (c =? 101) || (c =? 69) then
        let '(xneg, r1) := match r with
                           | s :: r1 => if s =? 43 then (false, r1) else if s =? 45 then (true, r1) else (false, r)
                           | [] => (false, r)
                           end in
        let '(ds, r2) := span_dig r1 in
        match ds with [] => None | _ => Some (num_value neg i f (if xneg : bool then - digval ds else digval ds), r2) end
      else Some (num_value neg i f 0, l)
  | [] => Some (num_value neg i f 0, l)
  end.
(** scanner: stateDot, stateDot0 *)
Definition p_frac (neg : bool) (i l : runes) : option (Qc * runes) :=
  match l with
  | c :: r => if c =? 46 then let '(ds, r') := span_dig r in match ds with [] => None | _ => p_exp neg i ds r' end
              else p_exp neg i [] l
  | [] => p_exp neg i [] l
  end.
(** scanner: state0, state1 *)
Definition p_int (neg : bool) (l : runes) : option (Qc * runes) :=
  match l with
  | c :: r => if c =? 48 then p_frac neg [48] r
              else if is_dig c then let '(ds, r') := span_dig l in p_frac neg ds r'
              else None
  | [] => None
  end.
(** scanner: stateNeg *)
Definition p_number (l : runes) : option (Qc * runes) :=
  match l with
  | c :: r => if c =? 45 then p_int true r else p_int false l
  | [] => None
  end.
(** scanner: stateInStringEscU *)
Definition hex_val (c : Z) : option Z :=
  if (48 <=? c) && (c <=? 57) then Some (c - 48)
  else if (97 <=? c) && (c <=? 102) then Some (c - 87)
  else if (65 <=? c) && (c <=? 70) then Some (c - 55)
  else None.
Definition hex4 (a b c d : Z) : option Z :=
  match hex_val a, hex_val b, hex_val c, hex_val d with
  | Some a, Some b, Some c, Some d => Some (a * 4096 + b * 256 + c * 16 + d)
  | _, _, _, _ => None
  end.
(** scanner: stateInStringEsc *)
Definition short_esc (c : Z) : option Z :=
  if c =? 98 then Some 8 else if c =? 102 then Some 12 else if c =? 110 then Some 10 else if c =? 114 then Some 13 else if c =? 116 then Some 9
  else if (c =? 92) || (c =? 47) || (c =? 34) then Some c else None.
(** scanner: stateInString: the raw text of a string up to its closing quote, and what follows *)
Fixpoint scan_string (l : runes) : option (runes * runes) :=
  match l with
  | [] => None
  | c :: r =>
      if c =? 34 then Some ([], r)
      else if c =? 92 then
        match r with
        | e :: r1 =>
            if e =? 117 then
              match r1 with
              | h1 :: h2 :: h3 :: h4 :: r2 =>
                  match hex4 h1 h2 h3 h4 with
                  | Some _ => match scan_string r2 with Some (b, z) => Some (c :: e :: h1 :: h2 :: h3 :: h4 :: b, z) | None => None end
                  | None => None
                  end
              | _ => None
              end
            else match short_esc e with
                 | Some _ => match scan_string r1 with Some (b, z) => Some (c :: e :: b, z) | None => None end
                 | None => None
                 end
        | [] => None
        end
      else if c <? 32 then None
      else match scan_string r with Some (b, z) => Some (c :: b, z) | None => None end
  end.
(** utf16.IsSurrogate, utf16.DecodeRune *)
Definition surrogate (u : Z) : bool := (55296 <=? u) && (u <? 57344).
Definition utf16_pair (u w : Z) : option Z :=
  if (55296 <=? u) && (u <? 56320) && (56320 <=? w) && (w <? 57344) then Some ((u - 55296) * 1024 + (w - 56320) + 65536) else None.
(** decode.go: getu4 *)
Definition getu4 (l : runes) : option (Z * runes) :=
  match l with
  | b :: u :: h1 :: h2 :: h3 :: h4 :: r =>
      if (b =? 92) && (u =? 117) then match hex4 h1 h2 h3 h4 with Some x => Some (x, r) | None => None end else None
  | _ => None
  end.
(** decode.go: unquoteBytes. A \u escape of a surrogate that is not the first of a pair is read as U+FFFD. [n] is at least the length of [l]. *)
Fixpoint unquote (n : nat) (l : runes) : runes :=
  match n with
  | O => []
  | S n =>
      match l with
      | [] => []
      | c :: r =>
          if c =? 92 then
            match getu4 l with
            | Some (u, r1) =>
                if surrogate u then
                  match getu4 r1 with
                  | Some (w, r2) => match utf16_pair u w with Some x => x :: unquote n r2 | None => rune_error :: unquote n r1 end
                  | None => rune_error :: unquote n r1
                  end
                else u :: unquote n r1
            | None => match r with
                      | e :: r1 => match short_esc e with Some x => x :: unquote n r1 | None => [] end
                      | [] => []
                      end
            end
          else c :: unquote n r
      end
  end.
Definition p_string (l : runes) : option (str * runes) :=
  match scan_string l with Some (b, r) => Some (encode (unquote (length b) b), r) | None => None end.
(** scanner: maxNestingDepth *)
Definition max_depth : nat := Z.to_nat 10000.
Fixpoint strip (p l : runes) : option runes :=
  match p, l with
  | [], _ => Some l
  | a :: p', b :: l' => if a =? b then strip p' l' else None
  | _, [] => None
  end.
(** scanner stateBeginValue and decode.go valueInterface, arrayInterface, objectInterface, literalInterface, convertNumber: one value and what follows it. [n] counts
    steps, [d] how many more levels may be opened. A name that comes again overwrites. *)
Fixpoint p_value (n d : nat) (l : runes) : outcome (json * runes) :=
  match n with
  | O => Diverge
  | S n =>
      match skip_ws l with
      | [] => Error
      | c :: r =>
          if c =? 34 then match p_string r with Some (s, r) => Ok (JStr s, r) | None => Error end
          else if c =? 91 then
            match d with
            | O => Error
            | S d => match skip_ws r with
                     | e :: r' => if e =? 93 then Ok (JArr [], r') else do (vs, r) <- p_elems n d r; Ok (JArr vs, r)
                     | [] => Error
                     end
            end
          else if c =? 123 then
            match d with
            | O => Error
            | S d => match skip_ws r with
                     | e :: r' => if e =? 125 then Ok (JObj [], r') else do (m, r) <- p_members n d [] r; Ok (JObj m, r)
                     | [] => Error
                     end
            end
          else match strip (bs "null") (c :: r), strip (bs "true") (c :: r), strip (bs "false") (c :: r) with
               | Some r, _, _ => Ok (JNull, r)
               | _, Some r, _ => Ok (JBool true, r)
               | _, _, Some r => Ok (JBool false, r)
               | _, _, _ => match p_number (c :: r) with
                            | Some (q, r) => if infinite (to_f64 q) then Error else Ok (JNum (to_f64 q), r)
                            | None => Error
                            end
               end
      end
  end
with p_elems (n d : nat) (l : runes) : outcome (list json * runes) :=
  match n with
  | O => Diverge
  | S n =>
      do (v, r) <- p_value n d l;
      match skip_ws r with
      | c :: r => if c =? 44 then do (vs, r) <- p_elems n d r; Ok (v :: vs, r) else if c =? 93 then Ok ([v], r) else Error
      | [] => Error
      end
  end
with p_members (n d : nat) (m : list (str * json)) (l : runes) : outcome (list (str * json) * runes) :=
  match n with
  | O => Diverge
  | S n =>
      match skip_ws l with
      | c :: r =>
          if c =? 34 then
            match p_string r with
            | Some (k, r) =>
                match skip_ws r with
                | c :: r =>
                    if c =? 58 then
                      do (v, r) <- p_value n d r;
                      let m := aset str_eqb k v m in
                      match skip_ws r with
                      | c :: r => if c =? 44 then p_members n d m r else if c =? 125 then Ok (m, r) else Error
                      | [] => Error
                      end
                    else Error
                | [] => Error
                end
            | None => Error
            end
          else Error
      | [] => Error
      end
  end.
(** json.Decoder.Decode into an interface{}: the first value of the text, whatever follows *)
Definition decode_json (bytes : str) : outcome json :=
  let l := decode bytes in do (v, _) <- p_value (2 * length l + 1) max_depth l; Ok v.
(** json.Unmarshal into an interface{} (utils/json.go:99, LoadFromFile): nothing but white space may follow *)
Definition unmarshal_json (bytes : str) : outcome json :=
  let l := decode bytes in do (v, r) <- p_value (2 * length l + 1) max_depth l; match skip_ws r with [] => Ok v | _ => Error end.
(** convert.go:57-72 [ReadJSON] *)
Definition read_json_text (order : list (str * sval) -> list (str * sval)) (bytes : str) : outcome sval :=
  do j <- decode_json bytes; Ok (json_to_starlark to_f64 order j).
