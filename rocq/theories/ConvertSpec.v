(** * ConvertSpec: CSV texts and what they stand for (C91), JSON values and what a script should see (C92). *)
From Verif Require Import Base Utf8 AccumModel LoaderModel ConvertModel.

(** Line ends: [u] is [t] with every CR LF replaced by LF, without a CR at the very end. *)
Inductive unix : runes -> runes -> Prop :=
| unix_nil : unix [] []
| unix_cr : unix [13] []
| unix_crlf t u : unix t u -> unix (13 :: 10 :: t) (10 :: u)
| unix_char c t u : (c <> 13 \/ (t <> [] /\ hd 0 t <> 10)) -> unix t u -> unix (c :: t) (c :: u).
Definition pad (t : runes) : Prop := Forall (fun c => is_space c = true /\ c <> 10) t.
(** Between the quotes a quote is doubled. *)
Inductive escaped : runes -> runes -> Prop :=
| esc_nil : escaped [] []
| esc_char c t s : c <> 34 -> escaped t s -> escaped (c :: t) (c :: s)
| esc_quote t s : escaped t s -> escaped (34 :: 34 :: t) (34 :: s).
(** A cell: blanks, then the text itself or the text in quotes. *)
Inductive cell (comma : Z) : runes -> runes -> Prop :=
| cell_plain w s : pad w -> Forall (fun c => c <> comma /\ c <> 34 /\ c <> 10) s -> is_space (hd 0 s) = false -> cell comma (w ++ s) s
| cell_quoted w t s : pad w -> escaped t s -> cell comma (w ++ [34] ++ t ++ [34]) s.
Inductive row (comma : Z) : runes -> list runes -> Prop :=
| row_one t s : cell comma t s -> row comma t [s]
| row_more t s r ss : cell comma t s -> row comma r ss -> row comma (t ++ [comma] ++ r) (s :: ss).
(** A table: rows and empty lines; the last line may lack its end. *)
Inductive table (comma : Z) : runes -> list (list runes) -> Prop :=
| table_end : table comma [] []
| table_blank t rs : table comma t rs -> table comma ([10] ++ t) rs
| table_row r ss t rs : row comma r ss -> r <> [] -> table comma t rs -> table comma (r ++ [10] ++ t) (ss :: rs)
| table_last r ss : row comma r ss -> r <> [] -> table comma r [ss].
(** All rows have the same number of cells. *)
Definition rectangular {A} (rs : list (list A)) : Prop := forall r r', In r rs -> In r' rs -> length r = length r'.

(** What a script should see of a JSON value, numbers as the float64 nearest to them. *)
Section Seen.
  Variable f64 : Qc -> Qc.
  Inductive seen : json -> sval -> Prop :=
  | seen_null : seen JNull SNone
  | seen_bool b : seen (JBool b) (SBool b)
  | seen_num q : seen (JNum q) (SFloat (f64 q))
  | seen_str s : seen (JStr s) (SStr s)
  | seen_arr l vs : Forall2 seen l vs -> seen (JArr l) (SList vs)
  | seen_obj m d : NoDup (map fst d) -> (forall k v, In (k, v) d -> v <> SNone /\ exists j, In (k, j) m /\ seen j v) ->
      (forall k j, In (k, j) m -> j <> JNull -> exists v, In (k, v) d) -> seen (JObj m) (SDict d).
End Seen.
(** The names in every object are different (a Go map). *)
Inductive map_like : json -> Prop :=
| ml_null : map_like JNull
| ml_bool b : map_like (JBool b)
| ml_num q : map_like (JNum q)
| ml_str s : map_like (JStr s)
| ml_arr l : Forall map_like l -> map_like (JArr l)
| ml_obj m : NoDup (map fst m) -> Forall (fun kv => map_like (snd kv)) m -> map_like (JObj m).
