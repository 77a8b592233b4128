(** * BookOpModel: the textual book operations of the command line (/repo/cmd/app/book_op.go) and the renaming of
    currencies (/repo/book/book_utils.go [RegexCCY]).

    Not modelled: the texts of the error messages. An error is represented by the operation that caused it. *)
From Verif Require Import Base Dec Regex DateModel PriceModel BookModel OpsModel.

(** A compiled regular expression: regexp.MatchString and regexp.ReplaceAllString (text, template). *)
Record regexp := mkRe { rx_match : str -> bool; rx_repl : str -> str -> str }.

(** book_op.go:79 [re_op_prefix] "^[A-Za-z][0-9A-Za-z_]*=": FindString, then op[len(op_type):] (line 116). The class is
    disjoint from '=', so the match ends at the first '='. [None] is FindString = "" (lines 111-114). *)
Definition op_first (c : Z) : bool := ((65 <=? c) && (c <=? 90)) || ((97 <=? c) && (c <=? 122)).
Definition op_next (c : Z) : bool := op_first c || is_dig c || (c =? 95).
Fixpoint op_name (s : str) : option (str * str) :=
  match s with
  | [] => None
  | c :: s' => if c =? 61 then Some ([61], s')
               else if op_next c then match op_name s' with Some (t, a) => Some (c :: t, a) | None => None end else None
  end.
Definition op_split (s : str) : option (str * str) :=
  match s with
  | c :: s' => if op_first c then match op_name s' with Some (t, a) => Some (c :: t, a) | None => None end else None
  | [] => None
  end.

(** book_op.go:82-85 the argument patterns. [^/] matches every rune, also a newline and the bytes that are not UTF-8. *)
Definition no_slash (c : Z) : bool := negb (c =? 47).
Definition r_slash : re := RCls (fun c => c =? 47).
Definition mapccy_re : re :=
  RSeq r_slash (RSeq (RCap 1 (RPlus no_slash)) (RSeq r_slash (RSeq (RCap 2 (RPlus no_slash)) r_slash))).
Definition map_re : re :=
  RSeq r_slash (RSeq (RCap 1 (RPlus no_slash)) (RSeq r_slash (RSeq (RCap 2 (RPlus no_slash)) (RSeq r_slash
    (ROpt (RCap 3 (RSeq (RCap 4 (RPlus no_slash)) r_slash))))))).
Definition number_re : re :=
  RSeq r_slash (RSeq (RCap 1 (RPlus no_slash)) (RSeq r_slash (RSeq (RCap 2 (RPlus no_slash)) (RSeq r_slash
    (RSeq (RCap 3 (RPlus (fun c => is_dig c || (c =? 46)))) r_slash))))).

(** date.go:19 [FloorTypes] *)
Definition floor_types : list str := [bs "yearly"; bs "quarterly"; bs "monthly"; bs "today"; bs "none"].
(** strings.EqualFold against one of [floor_types]: their letters do not include k and s, the only ASCII letters that
    fold together with a rune outside of ASCII, so it is ASCII case folding byte by byte. *)
Definition lower (c : Z) : Z := if (65 <=? c) && (c <=? 90) then c + 32 else c.
Definition equal_fold (a b : str) : bool := str_eqb (map lower a) (map lower b).
(** book_op.go:159-164 *)
Fixpoint find_floor (s : str) (l : list str) : option str :=
  match l with [] => None | t :: l' => if equal_fold s t then Some t else find_floor s l' end.

(** ** book_utils.go:42-56: the loop over the prices.

    "range" over a Go map that is changed meanwhile: [must] are the entries that existed at the start and have not
    been produced, [seen] those produced and still there; an entry that is neither was created during the loop and may
    be produced or not; the order is arbitrary. [f] maps a price pair to its renamed pair (lines 44-50). *)
Definition pair := (str * str)%type.
Definition without (k : pair) (l : list pair) : list pair := filter (fun x => negb (pair_eqb k x)) l.
Inductive price_loop (f : pair -> pair) : list pair -> list pair -> pbook -> pbook -> Prop :=
| pl_done seen m : price_loop f [] seen m m
| pl_keep must seen m m' k pl :                                  (* lines 51-53: continue *)
    aget pair_eqb k m = Some pl -> ~ In k seen -> f k = k ->
    price_loop f (without k must) (k :: seen) m m' -> price_loop f must seen m m'
| pl_move must seen m m' k pl :                                  (* lines 54-55 *)
    aget pair_eqb k m = Some pl -> ~ In k seen -> f k <> k ->
    price_loop f (without k must) seen (adel pair_eqb k (aset pair_eqb (f k) pl m)) m' -> price_loop f must seen m m'.
Definition loop_prices (f : pair -> pair) (m m' : pbook) : Prop := price_loop f (map fst m) [] m m'.

(** book_utils.go:35-39, 44-50 *)
Definition new_ccy (re : regexp) (tmpl : str) (c : str) : str := if rx_match re c then rx_repl re c tmpl else c.
Definition new_pair (g : str -> str) (k : pair) : pair := (g (fst k), g (snd k)).

Section BookOps.
  Variable srt : list posting -> list posting.
  (** regexp.MustCompile: [None] is its panic *)
  Variable compile : str -> option regexp.
  (** strconv.ParseFloat(_, 64) on texts of digits and dots: [None] is its error; otherwise a finite float64 *)
  Variable parse_float : str -> option Qc.
  (** GetToday(), constant during the operations *)
  Variable today : Z.
  (** the outcome of the loop over the prices *)
  Variable ploop : (pair -> pair) -> pbook -> pbook.
  (** App.Macros (app.go) *)
  Variable macros : str -> option (list str).

  (** book_utils.go:29-57 [RegexCCY] *)
  Definition regex_ccy (re : regexp) (tmpl : str) (b : book) : book :=
    let b1 := map_amount (fun _ c => (1%Qc, new_ccy re tmpl c)) b in
    mkBook (bk_post b1) (bk_trans b1) (ploop (new_pair (new_ccy re tmpl)) (bk_prices b1)) (bk_ccy b1).

  Definition must_compile (s : str) (k : regexp -> outcome book) : outcome book :=
    match compile s with Some re => k re | None => Panic end.
  (** the result of an operation: the book after it, and the operation that failed, if any *)
  Definition result := outcome (book * option str).
  Definition fine (o : outcome book) : result := do b <- o; Ok (b, None).

  (** book_op.go:111-180: an operation that is not a macro *)
  Definition plain_op (b : book) (op : str) : result :=
    match op_split op with
    | None => Ok (b, Some op)
    | Some (op_type, op_act) =>
        if str_eqb op_type (bs "mapccy=") then
          match full_match mapccy_re op_act with
          | None => Ok (b, Some op)
          | Some args => fine (must_compile (group args 1) (fun re => Ok (regex_ccy re (group args 2) b)))
          end
        else if str_eqb op_type (bs "map=") then
          match full_match map_re op_act with
          | None => Ok (b, Some op)
          | Some args => fine (must_compile (group args 1) (fun re =>
              run_op srt (ORegexAccounts (rx_match re) (fun a => rx_repl re a (group args 2))
                            (negb (str_eqb (group args 2) [])) (group args 4)) b))
          end
        else if str_eqb op_type (bs "move=") then
          match full_match number_re op_act with
          | None => Ok (b, Some op)
          | Some args =>
              match parse_float (group args 3) with
              | None => Ok (b, Some op)
              | Some factor => fine (must_compile (group args 1) (fun re =>
                  run_op srt (OAdjustPost (rx_match re) (fun a => rx_repl re a (group args 2)) factor) b))
              end
          end
        else if str_eqb op_type (bs "asof=") then
          let d := date_from_string today op_act in
          if d =? 0 then Ok (b, Some op) else fine (run_op srt (OAsof d) b)
        else if str_eqb op_type (bs "since=") then
          let d := date_from_string today op_act in
          if d =? 0 then Ok (b, Some op) else fine (run_op srt (OSince d) b)
        else if str_eqb op_type (bs "combine=") then
          match find_floor op_act floor_types with
          | None => Ok (b, Some op)
          | Some typ => fine (run_op srt (OSplitBy today typ) b)
          end
        else if str_eqb op_type (bs "depreciate=") then
          match full_match number_re op_act with
          | None => Ok (b, Some op)
          | Some args =>
              match atoi (group args 3) with     (* strconv.ParseInt(_, 10, 64) *)
              | None => Ok (b, Some op)
              | Some months => fine (must_compile (group args 1) (fun re =>
                  run_op srt (ODepreciate today (rx_match re) (fun a => rx_repl re a (group args 2)) (bs "monthly") months) b))
              end
          end
        else Ok (b, Some op)
    end.

  (** book_op.go:102-108 and 88-92: one after the other, stop at the first error *)
  Section Each.
    Variable one : book -> str -> result.
    Fixpoint each (ops : list str) (b : book) : result :=
      match ops with
      | [] => Ok (b, None)
      | op :: ops' => do (b', e) <- one b op; match e with None => each ops' b' | Some x => Ok (b', Some x) end
      end.
  End Each.

  (** book_op.go:97-181 [bookOp]; [fuel] bounds the nesting of macros *)
  Fixpoint book_op (fuel : nat) (b : book) (op : str) : result :=
    match fuel with
    | O => Diverge
    | S n => match macros op with
             | Some body => each (book_op n) body b
             | None => plain_op b op
             end
    end.
  (** book_op.go:87-95 [BookOps] *)
  Definition book_ops (fuel : nat) (ops : list str) (b : book) : result := each (book_op fuel) ops b.
End BookOps.
