(** * NordigenSpec: what the state file of download nordigen should hold (C107). Independent of ShapeModel and NordigenModel. *)
From Verif Require Import Base Utf8 LoaderModel LoaderSpec ExportSpec ConvertModel ConvertSpec JsonSpec StateSpec StarlingSpec.

Definition is_inst (v : json) (id : str) : Prop := has v (bs "id") id /\ exists n, has v (bs "name") n.
(** A requisition with an id, a link and these accounts. *)
Definition is_req (v : json) (id : str) (accts : list str) : Prop := has v (bs "id") id /\ (exists l, has v (bs "link") l) /\ exists m, v = JObj m /\ In (bs "accounts", JArr (map JStr accts)) m.
Definition is_ntx (v : json) (id : str) : Prop := has v (bs "transactionId") id.

(** What the server sent during a run: the requisition with its accounts, and of each account its data and transactions with their ids. *)
Record nsent := mkNSent { requisition : json; req_id : str; accts : list str; basic : str -> json; details : str -> json; booked : str -> list (str * json); pending : str -> list (str * json) }.
Definition lists (s : nsent) (id : str) : bool := existsb (str_eqb id) (accts s).
(** ** After the runs [h], the newest first *)
(** The last run whose requisition had the account. *)
Definition latest (h : list nsent) (id : str) : option nsent := find (fun s => lists s id) h.
(** The booked transactions of an account that were ever sent, the newest first. *)
Definition sent_tx (h : list nsent) (id : str) : list (str * json) := concat (map (fun s => if lists s id then rev (booked s id) else []) h).
(** The state file. *)
Definition holds_n (v tok inst req : json) (h : list nsent) : Prop :=
  found v [bs "Token"] (fun j => j = tok) /\ found v [bs "Institution"] (fun j => j = inst) /\ found v [bs "Requisition"] (fun j => j = req) /\
  (forall id, found v [bs "Accounts"; id; bs "Basic"] (fun j => exists s, latest h id = Some s /\ j = basic s id)) /\
  (forall id, found v [bs "Accounts"; id; bs "Details"] (fun j => exists s, latest h id = Some s /\ j = details s id)) /\
  (forall id tx, found v [bs "Accounts"; id; bs "Transactions"; tx] (fun j => aget str_eqb tx (sent_tx h id) = Some j)).
