(** * ExportSpec: the conditions under which C49 claims that a ledger export can be loaded again. *)
From Verif Require Import Base PriceModel BookModel BookSpec Utf8 LoaderModel LoaderSpec.

Definition qabs (q : Qc) : Qc := match (q ?= 0)%Qc with Lt => (- q)%Qc | _ => q end.
(** Conversion to float64: relative error at most 2^-53 between 10^-300 and 10^300; zero is exact. *)
Definition float64_ok (f64 : Qc -> Qc) : Prop :=
  f64 0%Qc = 0%Qc /\
  forall q, (/ qz (10 ^ 300) <= qabs q)%Qc -> (qabs q <= qz (10 ^ 300))%Qc -> (qabs (f64 q - q) * qz (2 ^ 53) <= qabs q)%Qc.

(** [s] is valid UTF-8 for the characters [r]. *)
Definition is_text (s : str) (r : runes) : Prop := s = encode r /\ Forall scalar r.
Definition note_ok (s : str) : Prop := exists r, is_text s r /\ Forall (fun c => c <> 0 /\ c <> 10) r /\ is_space (hd 0 r) = false.
Definition payee_text (s : str) : Prop := exists r, is_text s r /\ payee_ok r.
Definition acct_text (s : str) : Prop := s <> [] /\ acct_ok s.
(** A currency that can be written without quotes; one that needs quotes and can be quoted. *)
Definition bare_ccy (s : str) : Prop := exists r, is_text s r /\ r <> [] /\ Forall (fun c => is_ccy_rune c = true) r /\ hd 0 r <> 34.
Definition quotable_ccy (s : str) : Prop :=
  exists r, is_text s r /\ Exists (fun c => is_ccy_rune c = false) r /\ Forall (fun c => c <> 0 /\ c <> 10 /\ c <> 34) r.
(** An amount that is exact with [k] decimals and not too long. *)
Definition short_amount (k : Z) (q : Qc) : Prop :=
  0 <= k <= 17 /\ exists n, (q * qz (10 ^ k))%Qc = qz n /\ Z.abs n <= 10 ^ 15.
Definition date_ok (d : Z) : Prop := 0 < d < 100000000.

Definition exportable_post (decimals : str -> Z) (p : posting) : Prop :=
  date_ok (p_date p) /\ payee_text (p_payee p) /\ note_ok (p_tnote p) /\ acct_text (p_acct p) /\
  (bare_ccy (p_ccy p) \/ quotable_ccy (p_ccy p)) /\ short_amount (decimals (p_ccy p)) (p_val p) /\ note_ok (p_note p).
(** The transaction note is printed once per transaction. *)
Definition one_note (t : trans) : Prop := forall p q, In p t -> In q t -> p_tnote p = p_tnote q.
Definition exportable_prices (decimals : str -> Z) (pb : pbook) : Prop :=
  NoDup (map fst pb) /\
  Forall (fun '((u, c), l) => bare_ccy u /\ bare_ccy c /\ l <> [] /\ StronglySorted (fun a b => pr_date a <= pr_date b) l /\
     Forall (fun p => date_ok (pr_date p) /\ short_amount (decimals c) (pr_val p)) l) pb.

(** What the user sees of a posting. *)
Definition facts (p : posting) := (p_date p, p_payee p, p_tnote p, p_acct p, p_ccy p, p_val p, p_note p, p_bal p).
