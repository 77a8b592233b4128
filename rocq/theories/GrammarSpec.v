(** * GrammarSpec: exactly which texts the loader accepts, and the entries they stand for (C88).
    Every clause relates the text [l] at some point to the rest [r] behind what is read. Character classes are those of
    the loader; the end of the text (or a NUL) counts as the character 0, which belongs to no class. *)
From Verif Require Import Base Utf8 PriceModel BookModel BookSpec AccumModel LoaderModel LoaderSpec.

(** [l] begins with [s], made of characters of the class [f]; what follows does not begin with one. *)
Definition reads (f : Z -> bool) (s l r : runes) : Prop := l = s ++ r /\ Forall (fun c => f c = true) s /\ f (ch r) = false.
(** Blanks are skipped. *)
Definition skips (l r : runes) : Prop := exists w, reads ws_rune w l r.
(** The character [c], if it is there, is skipped. *)
Definition may (c : Z) (l r : runes) : Prop := l = c :: r \/ (l = r /\ ch l <> c).
(** A string in quotes on one line. *)
Definition quoted_at (l : runes) (s r : runes) : Prop := l = 34 :: s ++ 34 :: r /\ Forall (fun c => c <> 0 /\ c <> 10 /\ c <> 34) s.
(** [t] is [s] without the white space around it. *)
Definition trimmed (s t : runes) : Prop :=
  exists u v, s = u ++ t ++ v /\ Forall (fun c => is_space c = true) u /\ Forall (fun c => is_space c = true) v /\
    is_space (hd 0 t) = false /\ is_space (last t 0) = false.

(** A number of at least one and at most [n] digits. *)
Definition number_at (n : nat) (l : runes) (v : Z) (r : runes) : Prop := exists s, reads digit s l r /\ (1 <= length s <= n)%nat /\ digits_value s v.
Definition date_at (l : runes) (d : Z) (r : runes) : Prop :=
  exists y m dd l1 l2, number_at 4 l y (47 :: l1) /\ number_at 2 l1 m (47 :: l2) /\ number_at 2 l2 dd r /\ d = y * 10000 + m * 100 + dd.
Definition time_at (l r : runes) : Prop :=
  exists h m s l1 l2, number_at 2 l h (58 :: l1) /\ number_at 2 l1 m (58 :: l2) /\ number_at 2 l2 s r.
(** An amount: a sign, digits and commas, and a point with more of them; all of it may be missing. Its value is exact as
    long as the digits and the power of ten fit into 64 bits, and is reduced modulo 2^64 otherwise. *)
Definition group_rune (c : Z) : bool := digit c || (c =? 44).
Definition amount_at (l : runes) (q : Qc) (r : runes) : Prop :=
  exists (neg : bool) l1 l2 ip l3 fp v, skips l l1 /\ (if neg then l1 = 45 :: l2 else l1 = l2 /\ ch l1 <> 45) /\ reads group_rune ip l2 l3 /\
    ((l3 = r /\ ch l3 <> 46 /\ fp = []) \/ exists l4, l3 = 46 :: l4 /\ reads group_rune fp l4 r) /\
    digits_value (no_commas ip ++ no_commas fp) v /\
    let k := wrap64 (10 ^ Z.of_nat (length (no_commas fp))) in k <> 0 /\ (q * qz k = qz (wrap64 (if neg then - v else v)))%Qc.
(** A currency; it may be empty. *)
Definition ccy_at (l : runes) (c : str) (r : runes) : Prop :=
  exists l1 s, skips l l1 /\ c = encode s /\ (quoted_at l1 s r \/ (ch l1 <> 34 /\ reads is_ccy_rune s l1 r)).
Definition money_at (l : runes) (c : str) (q : Qc) (r : runes) : Prop :=
  exists l1, (is_ccy_rune (ch l) = true /\ ccy_at l c l1 /\ amount_at l1 q r) \/ (is_ccy_rune (ch l) = false /\ amount_at l q l1 /\ ccy_at l1 c r).
Definition note_at (l : runes) (n : str) (r : runes) : Prop :=
  exists l1, skips l l1 /\ ((l1 = r /\ ch l1 <> 59 /\ n = []) \/ exists l2 l3 s, l1 = 59 :: l2 /\ skips l2 l3 /\ reads line_rune s l3 r /\ n = encode s).
Definition payee_at (l : runes) (p : str) (r : runes) : Prop :=
  exists l1 s t, skips l l1 /\ (quoted_at l1 s r \/ (ch l1 <> 34 /\ reads payee_rune s l1 r)) /\ trimmed s t /\ p = encode t.
(** An account, possibly empty, with an optional ! or [ before and an optional ] behind it. *)
Definition acct_at (l : runes) (a : str) (r : runes) : Prop :=
  exists l1 l2 s l3, skips l l1 /\ (l1 = 33 :: l2 \/ l1 = 91 :: l2 \/ (l1 = l2 /\ ch l1 <> 33 /\ ch l1 <> 91)) /\ reads acct_rune s l2 l3 /\ may 93 l3 r /\ a = encode s.

(** The four kinds of entries. The newline behind an entry is optional. *)
Definition trans_at (l : runes) (d : Z) (p n : str) (r : runes) : Prop :=
  exists l1 l2 l3 l4 l5, date_at l d l1 /\ skips l1 l2 /\ ((exists l', l2 = 42 :: l' /\ skips l' l3) \/ (l2 = l3 /\ ch l2 <> 42)) /\
    payee_at l3 p l4 /\ note_at l4 n l5 /\ may 10 l5 r.
Definition post_at (l : runes) (a c : str) (q : Qc) (n : str) (r : runes) : Prop :=
  exists l1 l2 l3 l4 l5 l6 l7 (neg : bool) q1, acct_at l a l1 /\ skips l1 l2 /\ (if neg then l2 = 45 :: l3 else l2 = l3 /\ ch l2 <> 45) /\
    money_at l3 c q1 l4 /\ q = (if neg then - q1 else q1)%Qc /\ skips l4 l5 /\
    ((exists l8 l9 c' q', l5 = 64 :: l8 /\ skips l8 l9 /\ money_at l9 c' q' l6) \/ (l5 = l6 /\ ch l5 <> 64)) /\
    note_at l6 n l7 /\ may 10 l7 r.
Definition price_at (l : runes) (d : Z) (u c : str) (q : Qc) (r : runes) : Prop :=
  exists l0 l1 l2 l3 l4 l5 l6 l7, l = 80 :: l0 /\ skips l0 l1 /\ date_at l1 d l2 /\ skips l2 l3 /\ time_at l3 l4 /\ ccy_at l4 u l5 /\
    skips l5 l6 /\ money_at l6 c q l7 /\ may 10 l7 r.
(** The rest of a line. *)
Definition line_at (l r : runes) : Prop := exists s l1, reads line_rune s l l1 /\ may 10 l1 r.

Section Texts.
  (** unicode.IsLetter, IsDigit, ToUpper *)
  Variables (is_letter is_udigit : Z -> bool) (to_upper : Z -> Z).
  Definition word_at (l : runes) (w : str) (r : runes) : Prop :=
    exists s l1, reads (fun c => is_udigit c || is_letter c || (c =? 95)) s l l1 /\ skips l1 r /\ w = encode (map to_upper s).

  (** Blanks in front of an entry, and what follows is not a comment. *)
  Definition indented (l l1 : runes) : Prop := ws_rune (ch l) = true /\ skips l l1 /\ ch l1 <> 59 /\ ch l1 <> 10 /\ ch l1 <> 0.
  (** A word at the very beginning of a line. *)
  Definition command (l : runes) (w : str) (r : runes) : Prop :=
    word_at l w r /\ ws_rune (ch l) = false /\ digit (ch l) = false /\ ~ In (ch l) [59; 10; 0; 61; 68; 80].
  (** One entry: the aliases before, the text, what it stands for, the aliases behind, the rest. *)
  Inductive item (al : alias) : runes -> list entry -> alias -> runes -> Prop :=
  | item_skip l l1 r : skips l l1 -> (ch l1 = 59 \/ ch l1 = 10 \/ ch l1 = 0) -> line_at l1 r -> item al l [] al r
  | item_directive l r : (ch l = 61 \/ ch l = 68) -> line_at l r -> item al l [] al r
  | item_price l d u c q r : price_at l d u c q r -> item al l [Call (CPrice d u c q)] al r
  | item_trans l d p n r : trans_at l d p n r -> item al l [Call (CTrans d p n)] al r
  | item_post l l1 a c q n r : indented l l1 -> post_at l1 a c q n r -> c <> [] ->
      item al l [Call (CPost (rename al a) c q n)] al r
  | item_rest l l1 a q n r : indented l l1 -> post_at l1 a [] q n r ->
      item al l [Rest (rename al a) n] al r
  | item_alias l l1 l2 l3 l4 l5 l6 s a b r : command l (bs "ALIAS") l1 -> acct_at l1 a l2 -> skips l2 (61 :: l3) -> skips l3 l4 ->
      acct_at l4 b l5 -> b <> [] -> skips l5 l6 -> reads line_rune s l6 r -> item al l [] (aset str_eqb a b al) r.
  (** An include line and the name on it, without the quotes around it. *)
  Definition include_line (l : runes) (name : str) (r : runes) : Prop :=
    exists l1 l2 s, command l (bs "INCLUDE") l1 /\ skips l1 l2 /\ reads line_rune s l2 r /\
      ((exists s', s = [34] ++ s' ++ [34] /\ name = encode s') \/ (s <> [] /\ (hd 0 s <> 34 \/ last s 0 <> 34) /\ name = encode s)).

  Variable fs : str -> option str.
  Variable resolve : str -> str -> str.
  (** The text [l] of file [f], read with the aliases [al], stands for the entries [es]. *)
  Inductive text_at : str -> alias -> runes -> list entry -> Prop :=
  | text_end f al l : ch l = 0 -> text_at f al l []
  | text_item f al l es al' r ds : ch l <> 0 -> item al l es al' r -> text_at f al' r ds -> text_at f al l (es ++ ds)
  | text_include f al l name r bytes es ds : include_line l name r -> fs (resolve f name) = Some bytes ->
      text_at (resolve f name) al (decode bytes) es -> text_at f al r ds -> text_at f al l (es ++ ds).
End Texts.
