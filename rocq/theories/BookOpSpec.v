(** * BookOpSpec: what an operation text means, independent of the pattern matcher, and macro expansion. *)
From Verif Require Import Base Dec DateModel PriceModel BookModel OpsModel BookOpModel.

(** ** The documented syntax (book_op.go:18-75) *)
Inductive action :=
| AMapCcy (search repl : str)              (* rename currencies *)
| AMap (search repl alt : str)             (* rename accounts *)
| AMove (search repl : str) (factor : Qc)
| AAsof (d : Z)
| ASince (d : Z)
| ACombine (period : str)
| ADepreciate (search repl : str) (months : Z).

(** an argument between slashes *)
Definition part (s : str) : Prop := s <> [] /\ ~ In 47 s.
(** digits and dots *)
Definition numeric (s : str) : Prop := s <> [] /\ Forall (fun c => 48 <= c <= 57 \/ c = 46) s.
Definition sl : str := [47].
(** letters differ at most in case *)
Definition same_letters (a b : str) : Prop :=
  Forall2 (fun x y => x = y \/ (65 <= x <= 90 /\ y = x + 32)) a b.

Section Meaning.
  Variable parse_float : str -> option Qc.
  Variable today : Z.
  Inductive means : str -> action -> Prop :=
  | m_mapccy s r : part s -> part r -> means (bs "mapccy=/" ++ s ++ sl ++ r ++ sl) (AMapCcy s r)
  | m_map s r : part s -> part r -> means (bs "map=/" ++ s ++ sl ++ r ++ sl) (AMap s r [])
  | m_map_alt s r a : part s -> part r -> part a -> means (bs "map=/" ++ s ++ sl ++ r ++ sl ++ a ++ sl) (AMap s r a)
  | m_move s r n q : part s -> part r -> numeric n -> parse_float n = Some q ->
      means (bs "move=/" ++ s ++ sl ++ r ++ sl ++ n ++ sl) (AMove s r q)
  | m_asof t : date_from_string today t <> 0 -> means (bs "asof=" ++ t) (AAsof (date_from_string today t))
  | m_since t : date_from_string today t <> 0 -> means (bs "since=" ++ t) (ASince (date_from_string today t))
  | m_combine t p : In p [bs "yearly"; bs "quarterly"; bs "monthly"; bs "today"; bs "none"] -> same_letters t p ->
      means (bs "combine=" ++ t) (ACombine p)
  | m_depreciate s r n k : part s -> part r -> numeric n -> atoi n = Some k ->
      means (bs "depreciate=/" ++ s ++ sl ++ r ++ sl ++ n ++ sl) (ADepreciate s r k).
End Meaning.

(** the regular expression of an action *)
Definition pattern_of (a : action) : option str :=
  match a with
  | AMapCcy s _ | AMap s _ _ | AMove s _ _ | ADepreciate s _ _ => Some s
  | AAsof _ | ASince _ | ACombine _ => None
  end.

(** ** The library call an action stands for, given its compiled regular expression *)
Definition no_re : regexp := mkRe (fun _ => false) (fun s _ => s).
Definition call (today : Z) (re : regexp) (a : action) : op :=
  match a with
  | AMapCcy _ r => OMapAmount (fun _ c => (1%Qc, if rx_match re c then rx_repl re c r else c))
  | AMap _ r alt => OMapAccount (fun x => if negb (str_eqb alt []) && negb (rx_match re x) then alt else rx_repl re x r)
  | AMove _ r q => OAdjustPost (rx_match re) (fun x => rx_repl re x r) q
  | AAsof d => OAsof d
  | ASince d => OSince d
  | ACombine p => OSplitBy today p
  | ADepreciate _ r k => ODepreciate today (rx_match re) (fun x => rx_repl re x r) (bs "monthly") k
  end.

(** ** Macro expansion: [expands table ops l] - replacing the macros in [ops], again and again, gives [l]. *)
Inductive expands (table : str -> option (list str)) : list str -> list str -> Prop :=
| e_nil : expands table [] []
| e_plain op ops l : table op = None -> expands table ops l -> expands table (op :: ops) (op :: l)
| e_macro op body ops l l' : table op = Some body -> expands table body l -> expands table ops l' ->
    expands table (op :: ops) (l ++ l').

(** no macro leads back to itself: every macro has a rank above those of the macros in its body *)
Definition acyclic (table : str -> option (list str)) : Prop :=
  exists rank : str -> nat, forall m body x, table m = Some body -> In x body -> table x <> None -> (rank x < rank m)%nat.

Definition no_macros : str -> option (list str) := fun _ => None.

(** same transactions; prices may differ *)
Definition same_trans (b b' : book) : Prop := bk_post b = bk_post b' /\ bk_trans b = bk_trans b'.

(** ** What an action does to a book, in terms of the library operations of OpsModel; [ploop] is the outcome of the loop
    over the prices *)
Definition with_prices (b : book) (pr : pbook) : book := mkBook (bk_post b) (bk_trans b) pr (bk_ccy b).
Definition perform (srt : list posting -> list posting) (compile : str -> option regexp) (today : Z)
    (ploop : (pair -> pair) -> pbook -> pbook) (a : action) (b : book) : outcome book :=
  match pattern_of a with
  | None => run_op srt (call today no_re a) b
  | Some s =>
      match compile s with
      | None => Panic
      | Some re =>
          do b' <- run_op srt (call today re a) b;
          Ok (match a with
              | AMapCcy _ r =>
                  let g := fun c => if rx_match re c then rx_repl re c r else c in
                  with_prices b' (ploop (fun k => (g (fst k), g (snd k))) (bk_prices b'))
              | _ => b'
              end)
      end
  end.
