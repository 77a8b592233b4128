(** * CfgSpec: what the text of an import configuration means. *)
From Verif Require Import Base RegisterModel.

(** A parameter as written: "key" or "key=value". *)
Inductive item := Bare (k : str) | Setting (k v : str).
Definition key_of (i : item) : str := match i with Bare k => k | Setting k _ => k end.
Definition value_of (i : item) : str := match i with Bare _ => bs "true" | Setting _ v => v end.
Definition item_text (i : item) : str := match i with Bare k => k | Setting k v => k ++ bs "=" ++ v end.

(** No key contains '=' or ',', no value contains ','. *)
Definition item_ok (i : item) : Prop :=
  ~ In 61 (key_of i) /\ ~ In 44 (key_of i) /\ ~ In 44 (value_of i).

(** type ":" item "," item ... *)
Definition config_text (t : str) (items : list item) : str := t ++ bs ":" ++ join (bs ",") (map item_text items).

(** A key=value whose key was given before. *)
Definition repeated (items : list item) : Prop :=
  exists l i l' k v, items = l ++ Setting k v :: l' /\ In i l /\ key_of i = k.
(** The value that counts is the last one. *)
Inductive last_value (k : str) : list item -> str -> Prop :=
| last_value_intro l i l' : key_of i = k -> (forall j, In j l' -> key_of j <> k) ->
    last_value k (l ++ i :: l') (value_of i).
