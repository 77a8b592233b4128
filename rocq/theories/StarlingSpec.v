(** * StarlingSpec: what the state file of download starling should hold (C105). Independent of ShapeModel and StarlingModel. *)
From Verif Require Import Base Utf8 LoaderModel LoaderSpec ExportSpec ConvertModel ConvertSpec JsonSpec StateSpec.

(** The bytes are a JSON text of this value. *)
Definition text (num : Qc -> Qc -> Prop) (d : nat) (bytes : str) (v : json) : Prop := is_bytes bytes /\ json_text_of num d (decode bytes) v.
(** What is found in a value by the names of members. *)
Fixpoint at_path (v : json) (p : list str) : option json :=
  match p with
  | [] => Some v
  | k :: p' => match v with JObj m => match aget str_eqb k m with Some x => at_path x p' | None => None end | _ => None end
  end.
(** There is the value that was sent, up to the order of members; or there was none, and nothing is there. *)
Definition found (v : json) (p : list str) (P : json -> Prop) : Prop :=
  match at_path v p with Some x => exists x0, P x0 /\ same x0 x | None => forall x0, ~ P x0 end.

(** A value with a string member. *)
Definition has (v : json) (k s : str) : Prop := exists m, v = JObj m /\ In (k, JStr s) m.
Definition is_account (v : json) (id : str) : Prop := has v (bs "accountUid") id /\ (exists c, has v (bs "defaultCategory") c) /\ exists t, has v (bs "createdAt") t.
Definition is_goal (v : json) (id : str) : Prop := has v (bs "savingsGoalUid") id /\ exists n, has v (bs "name") n.
Definition is_space (v : json) (id : str) : Prop := has v (bs "spaceUid") id /\ exists n, has v (bs "name") n.
(** [ok] are the times that can be read. *)
Definition is_item (ok : str -> bool) (v : json) (id : str) : Prop := has v (bs "feedItemUid") id /\ (exists t, has v (bs "transactionTime") t) /\ exists t, has v (bs "updatedAt") t /\ ok t = true.

(** What the server sent during a run: values with their ids. *)
Record sent := mkSent { accounts : list (str * json); identifiers : str -> json; goals : str -> list (str * json); spaces : str -> list (str * json); items : str -> str -> list (str * json); payees : list json }.
(** The answers may be nested this deep; in the file they are three levels deeper, and encoding/json reads 10000. *)
Definition depth : nat := Z.to_nat 9997.
Definition all_are (P : json -> str -> Prop) (l : list (str * json)) : Prop := Forall (fun kv => P (snd kv) (fst kv)) l.

(** ** After the runs [h], the newest first *)
(** The newest version of an account. *)
Definition account (h : list sent) (id : str) : option json := aget str_eqb id (concat (map (fun s => rev (accounts s)) h)).
(** The last run asks for the category [cat] of the account [id]: the default one, that of a savings goal or of a spending space. *)
Definition asked (h : list sent) (id cat : str) : Prop :=
  match h with
  | [] => False
  | s :: _ => exists a, account h id = Some a /\ (has a (bs "defaultCategory") cat \/ In cat (map fst (goals s id)) \/ In cat (map fst (spaces s id)))
  end.
(** The newest version of an item. *)
Inductive item : list sent -> str -> str -> str -> json -> Prop :=
| i_new s h id cat uid v : asked (s :: h) id cat -> aget str_eqb uid (rev (items s id cat)) = Some v -> item (s :: h) id cat uid v
| i_old s h id cat uid v : item h id cat uid v -> ~ (asked (s :: h) id cat /\ In uid (map fst (items s id cat))) -> item (s :: h) id cat uid v.
(** The state file. *)
Definition holds_all (v : json) (h : list sent) : Prop :=
  match h with
  | [] => True
  | s :: _ =>
    (forall id, found v [bs "accounts"; id; bs "account"] (fun a => account h id = Some a)) /\
    (forall id, found v [bs "accounts"; id; bs "identifiers"] (fun j => account h id <> None /\ j = identifiers s id)) /\
    (forall id, found v [bs "accounts"; id; bs "spaces"; bs "savingsGoals"] (fun j => account h id <> None /\ j = JArr (map snd (goals s id)))) /\
    (forall id, found v [bs "accounts"; id; bs "spaces"; bs "spendingSpaces"] (fun j => account h id <> None /\ j = JArr (map snd (spaces s id)))) /\
    (forall id cat uid, found v [bs "accounts"; id; bs "feeditems"; cat; uid] (item h id cat uid)) /\
    found v [bs "Payees"] (fun j => j = JArr (payees s))
  end.
