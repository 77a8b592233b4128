(** * LoaderSpec: the ledger texts of C44-C49: which text stands for which date, amount, currency, note and entry.
    Texts are lists of runes. Nothing here mentions the functions of the loader, except the character classes. *)
From Verif Require Import Base Utf8 PriceModel BookModel BookSpec LoaderModel.

(** Blanks: white space without the newline. *)
Definition blanks (w : runes) : Prop := Forall (fun c => is_space c = true /\ c <> 10) w.
(** Decimal digits and their value. *)
Definition digits (s : runes) : Prop := Forall (fun c => 48 <= c <= 57) s.
Inductive digits_value : runes -> Z -> Prop :=
| dv_nil : digits_value [] 0
| dv_snoc s v c : digits_value s v -> digits_value (s ++ [c]) (10 * v + (c - 48)).

(** A date y/m/d with up to 4, 2 and 2 digits. *)
Inductive date_text : runes -> Z -> Prop :=
| date_ymd y m d vy vm vd : digits y -> digits m -> digits d ->
    (1 <= length y <= 4)%nat -> (1 <= length m <= 2)%nat -> (1 <= length d <= 2)%nat ->
    digits_value y vy -> digits_value m vm -> digits_value d vd ->
    date_text (y ++ [47] ++ m ++ [47] ++ d) (vy * 10000 + vm * 100 + vd).

(** Digits with grouping commas, and the digits without them. *)
Definition grouped_digits (s : runes) : Prop := Forall (fun c => 48 <= c <= 57 \/ c = 44) s.
Definition no_commas (s : runes) : runes := filter (fun c => negb (c =? 44)) s.
(** A number: digits with commas, optionally a point and more digits, optionally a minus sign. [q] is its value:
    q * 10^(digits after the point) is the number written by all the digits. *)
Inductive amount_text : runes -> Qc -> Prop :=
| amt_int (neg : bool) ip v : grouped_digits ip -> digits_value (no_commas ip) v ->
    (length (no_commas ip) <= 18)%nat -> ip <> [] -> hd 0 ip <> 44 ->
    amount_text ((if neg then [45] else []) ++ ip) (if neg then - qz v else qz v)%Qc
| amt_dec (neg : bool) ip fp v q : grouped_digits ip -> grouped_digits fp -> digits_value (no_commas ip ++ no_commas fp) v ->
    (length (no_commas ip ++ no_commas fp) <= 18)%nat -> hd 0 ip <> 44 ->
    (q * qz (10 ^ Z.of_nat (length (no_commas fp))) = if neg then - qz v else qz v)%Qc ->
    amount_text ((if neg then [45] else []) ++ ip ++ [46] ++ fp) q.

(** A currency: in quotes, or bare if it has only currency characters and does not start with a quote. *)
Inductive ccy_text : runes -> str -> Prop :=
| ccy_quoted s : Forall (fun c => c <> 0 /\ c <> 10 /\ c <> 34) s -> s <> [] -> ccy_text ([34] ++ s ++ [34]) (encode s)
| ccy_bare s : Forall (fun c => is_ccy_rune c = true) s -> s <> [] -> hd 0 s <> 34 -> ccy_text s (encode s).

(** Money: currency then number, or number then currency. *)
Inductive money_text : runes -> str -> Qc -> Prop :=
| money_front c w a ccy q : ccy_text c ccy -> blanks w -> amount_text a q -> money_text (c ++ w ++ a) ccy q
| money_back c w a ccy q : ccy_text c ccy -> blanks w -> amount_text a q -> (w <> [] \/ hd 0 c <> 44) -> money_text (a ++ w ++ c) ccy q.

(** An optional note at the end of a line. *)
Inductive note_text : runes -> str -> Prop :=
| note_none w : blanks w -> note_text w []
| note_some w1 w2 s : blanks w1 -> blanks w2 -> Forall (fun c => c <> 0 /\ c <> 10) s -> is_space (hd 0 s) = false ->
    note_text (w1 ++ [59] ++ w2 ++ s) (encode s).

(** A payee: no semicolon, trimmed, not starting with a quote or an asterisk. *)
Definition payee_ok (s : runes) : Prop :=
  Forall (fun c => c <> 0 /\ c <> 10 /\ c <> 59) s /\ hd 0 s <> 34 /\ hd 0 s <> 42 /\ is_space (hd 0 s) = false /\ is_space (last s 0) = false.
(** A payee on a line, or one in quotes: the blanks just inside the quotes do not count. *)
Inductive payee_line : runes -> str -> Prop :=
| payee_bare s : payee_ok s -> payee_line s (encode s)
| payee_quoted u s v : blanks u -> blanks v -> Forall (fun c => c <> 0 /\ c <> 10 /\ c <> 34) (u ++ s ++ v) ->
    is_space (hd 0 s) = false -> is_space (last s 0) = false -> payee_line ([34] ++ (u ++ s ++ v) ++ [34]) (encode s).
(** An account: letters, digits, & ' : _ *)
Definition acct_ok (s : runes) : Prop := Forall (fun c => acct_rune c = true) s.

(** A time of day; its value is ignored. *)
Inductive time_text : runes -> Prop :=
| time_hms h m s : digits h -> digits m -> digits s -> (1 <= length h <= 2)%nat -> (1 <= length m <= 2)%nat -> (1 <= length s <= 2)%nat ->
    time_text (h ++ [58] ++ m ++ [58] ++ s).
(** An optional cost "@ 12 GBP", which the loader ignores. *)
Inductive cost_text : runes -> Prop :=
| cost_none : cost_text []
| cost_at w1 w2 m ccy q : blanks w1 -> blanks w2 -> money_text m ccy q -> cost_text (w1 ++ [64] ++ w2 ++ m).

(** ** Entries. A line asks for a call of the builder, or for postings that balance the open transaction. *)
Inductive entry := Call (c : bcall) | Rest (acct note : str).

(** One line of a ledger (with its newline) and the entries it stands for; [nm] renames accounts. *)
Inductive line_text (nm : str -> str) : runes -> list entry -> Prop :=
| line_blank w : blanks w -> line_text nm (w ++ [10]) []
| line_comment w s : blanks w -> Forall (fun c => c <> 0 /\ c <> 10) s -> line_text nm (w ++ [59] ++ s ++ [10]) []
| line_directive c s : (c = 61 \/ c = 68) -> Forall (fun c => c <> 0 /\ c <> 10) s -> line_text nm (c :: s ++ [10]) []
| line_trans dt d w star s p n nt : date_text dt d -> blanks w -> w <> [] -> (star = [] \/ exists w', star = [42] ++ w' /\ blanks w') ->
    payee_line s p -> note_text n nt ->
    line_text nm (dt ++ w ++ star ++ s ++ n ++ [10]) [Call (CTrans d p nt)]
| line_post w1 a w2 (neg : bool) m ccy q k n nt : blanks w1 -> w1 <> [] -> acct_ok a -> a <> [] -> blanks w2 -> w2 <> [] ->
    money_text m ccy q -> cost_text k -> note_text n nt ->
    line_text nm (w1 ++ a ++ w2 ++ (if neg then [45] else []) ++ m ++ k ++ n ++ [10])
      [Call (CPost (nm (encode a)) ccy (if neg then - q else q)%Qc nt)]
| line_rest w1 a n nt : blanks w1 -> w1 <> [] -> acct_ok a -> a <> [] -> note_text n nt ->
    line_text nm (w1 ++ a ++ n ++ [10]) [Rest (nm (encode a)) nt]
| line_price w1 dt d w2 tm w3 u unit w4 m ccy q : blanks w1 -> date_text dt d -> blanks w2 -> w2 <> [] -> time_text tm -> blanks w3 -> w3 <> [] ->
    ccy_text u unit -> blanks w4 -> w4 <> [] -> money_text m ccy q ->
    line_text nm ([80] ++ w1 ++ dt ++ w2 ++ tm ++ w3 ++ u ++ w4 ++ m ++ [10]) [Call (CPrice d unit ccy q)].

(** A directive word, in any case. *)
Definition upc (c : Z) : Z := if between 97 c 122 then c - 32 else c.
Definition ascii_letter (c : Z) : Prop := 97 <= c <= 122 \/ 65 <= c <= 90.
Definition word (s : runes) (up : str) : Prop := Forall ascii_letter s /\ map upc s = up.
Definition rename (al : alias) (a : str) : str := match aget str_eqb a al with Some n => n | None => a end.
(** The file name after include: in quotes, or bare. *)
Inductive name_text : runes -> str -> Prop :=
| name_quoted s : Forall (fun c => c <> 0 /\ c <> 10) s -> name_text ([34] ++ s ++ [34]) (encode s)
| name_bare s : Forall (fun c => c <> 0 /\ c <> 10) s -> s <> [] -> is_space (hd 0 s) = false -> (hd 0 s <> 34 \/ last s 0 <> 34) -> name_text s (encode s).

Section Files.
  Variable fs : str -> option str.
  Variable resolve : str -> str -> str.
  (** The text [t] of file [f], read with the aliases [al], stands for the entries [es]. An alias holds from its line to
      the end of the file and in the files included there; an included file stands for its entries. *)
  Inductive ledger_text : str -> alias -> runes -> list entry -> Prop :=
  | ledger_nil f al : ledger_text f al [] []
  | ledger_cons f al t es l ds : line_text (rename al) t es -> ledger_text f al l ds -> ledger_text f al (t ++ l) (es ++ ds)
  | ledger_alias f al w w1 a w2 w3 b w4 s l es : word w (bs "ALIAS") -> blanks w1 -> w1 <> [] -> acct_ok a -> a <> [] -> blanks w2 -> blanks w3 ->
      acct_ok b -> b <> [] -> blanks w4 -> (w4 <> [] \/ s = []) -> Forall (fun c => c <> 0 /\ c <> 10) s ->
      ledger_text f (aset str_eqb (encode a) (encode b) al) l es ->
      ledger_text f al (w ++ w1 ++ a ++ w2 ++ [61] ++ w3 ++ b ++ w4 ++ s ++ [10] ++ l) es
  | ledger_include f al w w1 n name t l es ds : word w (bs "INCLUDE") -> blanks w1 -> w1 <> [] -> name_text n name ->
      fs (resolve f name) = Some (encode t) -> Forall scalar t -> ledger_text (resolve f name) al t es ->
      ledger_text f al l ds ->
      ledger_text f al (w ++ w1 ++ n ++ [10] ++ l) (es ++ ds).
End Files.

(** ** What the entries ask of the builder. The amount of [c] posted to the open transaction after the calls [before]. *)
Definition open_sum (before : list bcall) (c : str) : Qc := seg_sum c (last (segments before) []).
(** Postings to [acct] that bring every currency of the open transaction to zero, one for each open currency. *)
Definition balancing (before : list bcall) (acct note : str) (ps : list bcall) : Prop :=
  exists cvs : list (str * Qc), ps = map (fun '(c, v) => CPost acct c v note) cvs /\ NoDup (map fst cvs) /\
    forall c v, In (c, v) cvs <-> (v <> 0 /\ v = - open_sum before c)%Qc.
Inductive means : list bcall -> list entry -> list bcall -> Prop :=
| means_nil before : means before [] []
| means_call before c es cs : means (before ++ [c]) es cs -> means before (Call c :: es) (c :: cs)
| means_rest before a n es ps cs : balancing before a n ps -> means (before ++ ps) es cs -> means before (Rest a n :: es) (ps ++ cs).

(** ** Which files a file includes (C46): anywhere in its text, the word include followed by a name up to the end of the line. *)
Definition suf (l' l : runes) : Prop := exists p, l = p ++ l'.
Section Includes.
  Variable to_upper : Z -> Z.
  Variable fs : str -> option str.
  Variable resolve : str -> str -> str.
  Definition include_at (l : runes) (name : str) : Prop :=
    exists w v s post, l = w ++ v ++ s ++ post /\ encode (map to_upper w) = bs "INCLUDE" /\ Forall (fun c => ws_rune c = true) v /\
      Forall (fun c => line_rune c = true) s /\ line_rune (ch post) = false /\
      (name = encode s \/ exists s', s = [34] ++ s' ++ [34] /\ name = encode s').
  Definition names (f g : str) : Prop :=
    exists bytes l name, fs f = Some bytes /\ suf l (decode bytes) /\ include_at l name /\ g = resolve f name.
  (** Files reached from [f] by include lines. *)
  Inductive reaches (f : str) : str -> Prop := reach_self : reaches f f | reach_step g h : reaches f g -> names g h -> reaches f h.
End Includes.
