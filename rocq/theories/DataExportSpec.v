(** * DataExportSpec: how the exported files are read. *)
From Verif Require Import Base BookModel DataExportModel.

(** Beancount: the (date, account) of every posting: a posting belongs to the transaction line above it. *)
Fixpoint uses_from (d : Z) (ds : list directive) : list (Z * str) :=
  match ds with
  | [] => []
  | DTrans d' _ _ :: ds' => uses_from d' ds'
  | DPost a _ _ _ :: ds' => (d, a) :: uses_from d ds'
  | _ :: ds' => uses_from d ds'
  end.
Definition uses (ds : list directive) : list (Z * str) := uses_from 0 ds.
Definition opened (ds : list directive) : list str :=
  flat_map (fun d => match d with DOpen _ a => [a] | _ => [] end) ds.
Definition closed (ds : list directive) : list str :=
  flat_map (fun d => match d with DClose _ a => [a] | _ => [] end) ds.

(** A field of a JSON object. *)
Definition field (k : str) (j : json) : option json :=
  match j with JObj fs => aget str_eqb k fs | _ => None end.
(** A text field; absent means empty. *)
Definition text_field (k : str) (j : json) : option str :=
  match field k j with Some (JStr s) => Some s | None => Some [] | _ => None end.
