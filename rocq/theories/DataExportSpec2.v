(** * DataExportSpec2: how the transactions and prices of an exported Beancount file, and the date of a JSON
    transaction, are read (C63, C82). *)
From Verif Require Import Base Dec PriceModel BookModel LoaderSpec ExportSpec DataExportModel.

(** [t] is [s] without its blanks. *)
Inductive unblanked : str -> str -> Prop :=
| ub_nil : unblanked [] []
| ub_blank s t : unblanked s t -> unblanked (32 :: s) t
| ub_keep c s t : c <> 32 -> unblanked s t -> unblanked (c :: s) (c :: t).
(** The currency [u] is printed for [c]: blanks removed, then upper case. *)
Definition ccy_printed (upper : str -> str) (c u : str) : Prop := exists s, unblanked c s /\ u = upper s.

(** A transaction of the file: its header and the postings up to the empty line that ends it. *)
Definition file_post : Type := str * str * str * str.
Definition file_trans : Type := (Z * str * str) * list file_post.
Fixpoint read_posts (ds : list directive) : list file_post :=
  match ds with
  | DPost a n c note :: ds' => (a, n, c, note) :: read_posts ds'
  | _ => []
  end.
Fixpoint read_trans (ds : list directive) : list file_trans :=
  match ds with
  | [] => []
  | DTrans d p n :: ds' => ((d, p, n), read_posts ds') :: read_trans ds'
  | _ :: ds' => read_trans ds'
  end.
Definition read_prices (ds : list directive) : list (Z * str * str * str) :=
  flat_map (fun d => match d with DPrice d u n c => [(d, u, n, c)] | _ => [] end) ds.

(** The prices of a book: unit, currency, price. *)
Definition all_prices (pb : pbook) : list (str * str * price) :=
  flat_map (fun '((u, c), l) => map (fun p => (u, c, p)) l) pb.

(** The text of a date in the JSON file, as RFC 3339 reads it. *)
Definition rfc_date (s : str) (d : Z) : Prop :=
  exists y m dd, s = y ++ [45] ++ m ++ [45] ++ dd ++ bs "T00:00:00Z" /\
    length y = 4%nat /\ length m = 2%nat /\ length dd = 2%nat /\ digits y /\ digits m /\ digits dd /\
    d = digval y * 10000 + digval m * 100 + digval dd.
