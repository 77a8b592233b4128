(** * StateSpec: state files and answers of the server as JSON texts (C100, C101). Independent of StateModel. *)
From Verif Require Import Base Utf8 LoaderModel LoaderSpec ExportSpec ConvertModel ConvertSpec JsonSpec.

(** encoding/json reads up to 10000 levels of nesting. *)
Definition deep : nat := Z.to_nat 10000.
(** A transaction has an id and a time; an account has an id. *)
Definition is_tx (v : json) (id : str) : Prop := exists m created, v = JObj m /\ In (bs "id", JStr id) m /\ In (bs "created", JStr created) m.
Definition is_acct (v : json) (id : str) : Prop := exists m, v = JObj m /\ In (bs "id", JStr id) m.
(** Members named by the ids of their values; a state file that was never synchronised has null. *)
Definition table (P : json -> str -> Prop) (j : json) (m : list (str * json)) : Prop :=
  (j = JNull /\ m = [] \/ j = JObj m) /\ Forall (fun kv => P (snd kv) (fst kv)) m.
(** The state file: the token, the transactions [ts] and the accounts [acs] by id. *)
Definition state_file (num : Qc -> Qc -> Prop) (bytes : str) (tok : json) (ts acs : list (str * json)) : Prop :=
  is_bytes bytes /\ exists jt ja, json_text_of num deep (decode bytes) (JObj [(bs "token", tok); (bs "transactions", jt); (bs "accounts", ja)]) /\ table is_tx jt ts /\ table is_acct ja acs.
Definition state (num : Qc -> Qc -> Prop) (file : option str) (tok : json) (ts acs : list (str * json)) : Prop :=
  match file with None => tok = JNull /\ ts = [] /\ acs = [] | Some bytes => state_file num bytes tok ts acs end.
(** An answer: an object with one list, of the values [l] (with their ids). *)
Definition answer (num : Qc -> Qc -> Prop) (name : str) (P : json -> str -> Prop) (bytes : str) (l : list (str * json)) : Prop :=
  is_bytes bytes /\ json_text_of num deep (decode bytes) (JObj [(name, JArr (map snd l))]) /\ Forall (fun kv => P (snd kv) (fst kv)) l.
(** A token: an object of strings. *)
Definition is_token (tok : json) : Prop := exists m, tok = JObj m /\ NoDup (map fst m) /\ Forall (fun kv => is_utf8 (fst kv) /\ exists s, snd kv = JStr s /\ is_utf8 s) m.
(** The same members, up to the order of members in and of the values. *)
Definition same_table (m m' : list (str * json)) : Prop :=
  NoDup (map fst m') /\ forall k, match aget str_eqb k m, aget str_eqb k m' with Some v, Some v' => same v v' | None, None => True | _, _ => False end.
(** The newest version of everything: what came last counts. *)
Definition newest (old sent m : list (str * json)) : Prop := same_table (rev sent ++ old) m.
(** Numbers of at most 15 digits (and 17 decimals), read exactly. *)
Definition exact15 (q f : Qc) : Prop := f = q /\ exists k, short_amount k q.
