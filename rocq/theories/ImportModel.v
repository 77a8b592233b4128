(** * ImportModel: the import and generate commands (cmd/importer/import.go, cmd/importer/starlark.go,
    cmd/generate/generate.go, cmd/generate/starlark.go, script/book_op.go).

    Not modelled: reading the input files into Starlark values (C77, C66 cover the choice of the reader) and the Starlark
    interpreter. A script is the list of add() calls it makes and whether it then ends in an error of its own; what it
    calls may depend on the input in any way. The clock is constant during a run. [jw] is matchr.JaroWinkler; its float64
    result is a rational. [ord1 k], [ord2 k] are the map orders of the reclassification of the k-th file. *)
From Verif Require Import Base DateModel PriceModel BookModel OpsModel ScriptModel ExportModel.

(** import.go:14-34 (the fields that matter after the script has run) *)
Record import := mkImport { im_account : str; im_counter : str; im_ccy : str; im_dedup : bool; im_reclass : bool }.
(** A run of a script: its add() calls, and whether it fails after them. *)
Definition script : Type := list args * bool.

Section Import.
  Variable srt : list posting -> list posting.
  Variable f64 : Qc -> Qc.
  Variable is_letter : Z -> bool.
  Variable today : Z.
  Variable set_string : str -> option Qc.
  Variable jw : str -> str -> Qc.
  Variable ord1 : nat -> str -> list (str * Z) -> list (str * Z).
  Variable ord2 : nat -> nat -> list (str * str) -> list (str * str).

  (** starlark.go:9-33 [processData]; generate/starlark.go:9-25 *)
  Definition process_data (def : defaults) (s : script) : outcome book :=
    do (b, err) <- run_adds today set_string def new_builder (fst s);
    if (err : bool) || snd s then Error else build srt b.
  (** import.go:38-41, starlark.go:13 *)
  Definition import_defaults (base : str) (i : import) : defaults :=
    mkDef (im_account i) (match im_ccy i with [] => base | c => c end) (im_counter i).
  (** import.go:94-101 *)
  Definition sim (a b : str) : Qc := let d := jw a b in if qc_ltb (Q2Qc (1 # 2)) d then d else 0%Qc.

  (** import.go:88-90: RemoveDuplicatesOf compacts the other book *)
  Fixpoint against (prevs : list book) (b : book) : outcome (list book * book) :=
    match prevs with
    | [] => Ok ([], b)
    | p :: ps => do (p', b') <- remove_duplicates_of srt p b; do (ps', b'') <- against ps b'; Ok (p' :: ps', b'')
    end.
  (** import.go:82-110, one file: the main book and the earlier books afterwards, the book of this file, the
      transactions shown and their text *)
  Definition import_file (k : nat) (i : import) (main : book) (prevs : list book) (b : book)
    : outcome (book * list book * book * list trans * str) :=
    do (main, b) <- (if im_dedup i then remove_duplicates_of srt main b else Ok (main, b));
    do (prevs, b) <- against prevs b;
    let '(main, b) := if im_reclass i then reclassify srt (ord1 k) (ord2 k) sim main b (im_account i) else (main, b) in
    let '(b, ts) := transactions srt b in
    do text <- show_all f64 is_letter (bk_ccy main) ts;
    Ok (main, prevs, b, ts, text).
  (** import.go:60-117: all files. What was printed for the files before an error stays printed. *)
  Fixpoint import_files (k : nat) (i : import) (def : defaults) (main : book) (prevs : list book) (files : list script)
    : list (list trans * str) * outcome unit :=
    match files with
    | [] => ([], Ok tt)
    | s :: files' =>
        match (do b <- process_data def s; import_file k i main prevs b) with
        | Ok (main', prevs', b', ts, text) =>
            let '(out, r) := import_files (S k) i def main' (prevs' ++ [b']) files' in ((ts, text) :: out, r)
        | Error => ([], Error)
        | Panic => ([], Panic)
        | Diverge => ([], Diverge)
        end
    end.
  (** import.go:36-118 [run], after the main book was loaded *)
  Definition run_import (i : import) (base : str) (main : book) (files : list script) : list (list trans * str) * outcome unit :=
    import_files 0 i (import_defaults base i) main [] files.

  (** generate.go:16-43 [run] after the main book was loaded. The script may call data.since, data.asof and data.map,
      which change the main book itself (book_op.go:9-72): [ops] are those calls. data.transactions also compacts it
      (OTransactions). generate/starlark.go:12: the defaults are the literal texts "acct", "ccy" and "cacct". *)
  Definition script_op (o : op) : Prop :=
    match o with ORegexAccounts _ _ _ _ | OSince _ | OAsof _ | OTransactions => True | _ => False end.
  Definition gen_defaults : defaults := mkDef (bs "acct") (bs "ccy") (bs "cacct").
  Definition run_generate (dedup : bool) (main : book) (ops : list op) (s : script) : outcome (list trans * str) :=
    do main <- run_ops srt ops main;
    do b <- process_data gen_defaults s;
    do (main, b) <- (if dedup then remove_duplicates_of srt main b else Ok (main, b));
    let '(b, ts) := transactions srt b in
    do text <- show_all f64 is_letter (bk_ccy main) ts;
    Ok (ts, text).
End Import.
