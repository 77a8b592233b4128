(** * JsonSpec: JSON texts and what they stand for (RFC 8259), C98 and C99. Independent of the model: only the type [json] of values (ConvertModel) is shared. *)
From Verif Require Import Base Utf8 LoaderModel LoaderSpec ExportSpec ConvertModel F64Spec.

Definition ws (t : runes) : Prop := Forall (fun c => c = 32 \/ c = 9 \/ c = 10 \/ c = 13) t.
(** 10^x *)
Definition ten (x : Z) : Qc := if 0 <=? x then qz (10 ^ x) else (/ qz (10 ^ (- x)))%Qc.
(** A number: sign, integer part without superfluous zeros, fraction, exponent; and its exact value. *)
Inductive fraction : runes -> runes -> Prop :=
| no_fraction : fraction [] []
| a_fraction f : f <> [] -> digits f -> fraction ([46] ++ f) f.
Inductive exponent : runes -> Z -> Prop :=
| no_exponent : exponent [] 0
| an_exponent e s ds n x : e = 101 \/ e = 69 -> ds <> [] -> digits ds -> digits_value ds n ->
    ((s = [] \/ s = [43]) /\ x = n \/ s = [45] /\ x = - n) -> exponent ([e] ++ s ++ ds) x.
Inductive number : runes -> Qc -> Prop :=
| a_number s i ft f et x n q : i = [48] \/ (hd 0 i <> 48 /\ i <> [] /\ digits i) -> fraction ft f -> exponent et x -> digits_value (i ++ f) n ->
    (s = [] /\ q = (qz n * ten (x - Z.of_nat (length f)))%Qc \/ s = [45] /\ q = (- (qz n * ten (x - Z.of_nat (length f))))%Qc) ->
    number (s ++ i ++ ft ++ et) q.

(** The inside of a string, and the characters it stands for. *)
Definition hex (c v : Z) : Prop := (48 <= c <= 57 /\ v = c - 48) \/ (97 <= c <= 102 /\ v = c - 97 + 10) \/ (65 <= c <= 70 /\ v = c - 65 + 10).
(** \uXXXX *)
Inductive unit16 : runes -> Z -> Prop :=
| unit16_hex a b c d va vb vc vd : hex a va -> hex b vb -> hex c vc -> hex d vd -> unit16 [92; 117; a; b; c; d] (4096 * va + 256 * vb + 16 * vc + vd).
Definition high (u : Z) : Prop := 55296 <= u < 56320.
Definition low (u : Z) : Prop := 56320 <= u < 57344.
Definition letters : list (Z * Z) := [(34, 34); (92, 92); (47, 47); (98, 8); (102, 12); (110, 10); (114, 13); (116, 9)].
Inductive inside : runes -> runes -> Prop :=
| in_end : inside [] []
| in_char c t v : 32 <= c -> c <> 34 -> c <> 92 -> inside t v -> inside ([c] ++ t) (c :: v)
| in_letter e c t v : In (e, c) letters -> inside t v -> inside ([92; e] ++ t) (c :: v)
| in_unit x u t v : unit16 x u -> ~ high u -> ~ low u -> inside t v -> inside (x ++ t) (u :: v)
| in_pair x y h l t v : unit16 x h -> high h -> unit16 y l -> low l -> inside t v -> inside (x ++ y ++ t) (65536 + 1024 * (h - 55296) + (l - 56320) :: v)
(** half of a pair alone stands for no character: U+FFFD *)
| in_half x u t v : unit16 x u -> high u \/ low u -> (high u -> ~ exists y l t', t = y ++ t' /\ unit16 y l /\ low l) -> inside t v -> inside (x ++ t) (65533 :: v).

(** An object: of several members with the same name the last one counts. *)
Definition last_wins (ms m : list (str * json)) : Prop := NoDup (map fst m) /\ forall k, aget str_eqb k m = aget str_eqb k (rev ms).

Section Grammar.
(** How the exact value of a number is read. *)
Variable num : Qc -> Qc -> Prop.
(** [value d t v]: the text [t] is a JSON value, nested at most [d] levels deep, and stands for [v]. *)
Inductive value : nat -> runes -> json -> Prop :=
| v_null d : value d (bs "null") JNull
| v_true d : value d (bs "true") (JBool true)
| v_false d : value d (bs "false") (JBool false)
| v_num d t q f : number t q -> num q f -> value d t (JNum f)
| v_str d t r : inside t r -> value d ([34] ++ t ++ [34]) (JStr (encode r))
| v_no_elems d w : ws w -> value (S d) ([91] ++ w ++ [93]) (JArr [])
| v_arr d t l : elems d t l -> value (S d) ([91] ++ t ++ [93]) (JArr l)
| v_no_members d w : ws w -> value (S d) ([123] ++ w ++ [125]) (JObj [])
| v_obj d t ms m : members d t ms -> last_wins ms m -> value (S d) ([123] ++ t ++ [125]) (JObj m)
with elems : nat -> runes -> list json -> Prop :=
| e_last d w t w' v : ws w -> value d t v -> ws w' -> elems d (w ++ t ++ w') [v]
| e_more d w t w' v ts vs : ws w -> value d t v -> ws w' -> elems d ts vs -> elems d (w ++ t ++ w' ++ [44] ++ ts) (v :: vs)
with members : nat -> runes -> list (str * json) -> Prop :=
| m_last d w kt k w1 w2 t v w3 : ws w -> inside kt k -> ws w1 -> ws w2 -> value d t v -> ws w3 ->
    members d (w ++ [34] ++ kt ++ [34] ++ w1 ++ [58] ++ w2 ++ t ++ w3) [(encode k, v)]
| m_more d w kt k w1 w2 t v w3 ts ms : ws w -> inside kt k -> ws w1 -> ws w2 -> value d t v -> ws w3 -> members d ts ms ->
    members d (w ++ [34] ++ kt ++ [34] ++ w1 ++ [58] ++ w2 ++ t ++ w3 ++ [44] ++ ts) ((encode k, v) :: ms).

(** A JSON text: one value with white space around it; a file: its UTF-8. *)
Definition json_text_of (d : nat) (t : runes) (v : json) : Prop := exists w t' w', t = w ++ t' ++ w' /\ ws w /\ value d t' v /\ ws w'.
Definition json_file (d : nat) (bytes : str) (v : json) : Prop := exists t, is_text bytes t /\ json_text_of d t v.
End Grammar.
(** Numbers read as they are; as the nearest float64, which is finite. *)
Definition exactly (q f : Qc) : Prop := f = q.
Definition as_float (q f : Qc) : Prop := nearest_f64 q f /\ (qabs f < qz (2 ^ 1024))%Qc.

(** Two values are the same when they differ only in the order of members. *)
Inductive same : json -> json -> Prop :=
| same_null : same JNull JNull
| same_bool b : same (JBool b) (JBool b)
| same_num q : same (JNum q) (JNum q)
| same_str s : same (JStr s) (JStr s)
| same_arr l l' : Forall2 same l l' -> same (JArr l) (JArr l')
| same_obj m m' : NoDup (map fst m) -> NoDup (map fst m') -> (forall k, In k (map fst m) <-> In k (map fst m')) ->
    (forall k v v', In (k, v) m -> In (k, v') m' -> same v v') -> same (JObj m) (JObj m').

(** How deep a value is nested. *)
Fixpoint nesting (j : json) : nat :=
  match j with
  | JArr l => S (list_max (map nesting l))
  | JObj m => S (list_max (map (fun kv => nesting (snd kv)) m))
  | _ => 0
  end.
(** All numbers of a value. *)
Inductive all_numbers (P : Qc -> Prop) : json -> Prop :=
| fl_null : all_numbers P JNull
| fl_bool b : all_numbers P (JBool b)
| fl_num q : P q -> all_numbers P (JNum q)
| fl_str s : all_numbers P (JStr s)
| fl_arr l : Forall (all_numbers P) l -> all_numbers P (JArr l)
| fl_obj m : Forall (fun kv => all_numbers P (snd kv)) m -> all_numbers P (JObj m).
(** All numbers are finite float64. *)
Definition finite64 (q : Qc) : Prop := float64 q /\ (qabs q < qz (2 ^ 1024))%Qc.
(** Every byte that is not part of UTF-8 replaced by U+FFFD; nothing is replaced in UTF-8. *)
Definition repair (s : str) : str := encode (decode s).
Fixpoint repaired (j : json) : json :=
  match j with
  | JStr s => JStr (repair s)
  | JArr l => JArr (map repaired l)
  | JObj m => JObj (map (fun kv => (repair (fst kv), repaired (snd kv))) m)
  | _ => j
  end.
(** All strings of a value are bytes; are UTF-8. *)
Inductive all_strings (P : str -> Prop) : json -> Prop :=
| as_null : all_strings P JNull
| as_bool b : all_strings P (JBool b)
| as_num q : all_strings P (JNum q)
| as_str s : P s -> all_strings P (JStr s)
| as_arr l : Forall (all_strings P) l -> all_strings P (JArr l)
| as_obj m : Forall (fun kv => P (fst kv) /\ all_strings P (snd kv)) m -> all_strings P (JObj m).
Definition is_bytes (s : str) : Prop := Forall (fun b => 0 <= b < 256) s.
Definition is_utf8 (s : str) : Prop := exists r, is_text s r.
