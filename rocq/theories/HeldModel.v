(** * HeldModel: the lists of transactions a generate script keeps in variables while it goes on to use the book.

    data.transactions (script/book_op.go:79-84) hands the slice b.trans to the script without copying it: the list of slices lies in
    an array that compact (book_compact.go:68-91) writes again, the slices lie in the arrays of the postings, the amounts and balances
    are pointers. Memory is that of HeapModel; the arrays of transactions ([sd_t]), which HeapModel takes as values, are modelled here. *)
From Verif Require Import Base Dec DateModel PriceModel BookModel OpsModel HeapModel BookOpModel ConvertModel ViewModel.

(** What the script works on: the memory, the book behind data, the arrays of transactions, and the number of the array of b.trans. *)
Record sdata := mkSD { sd_m : mem; sd_b : hbook; sd_t : list (list slice); sd_k : nat }.
(** A value of type starlarkTransactions (script/book.go:113): array and length *)
Definition held : Type := (nat * nat)%type.
(** The same list read now: len, index and attributes (script/book.go:70-126) *)
Definition show (st : sdata) (h : held) : list trans := map (look_slice (sd_m st)) (firstn (snd h) (nth (fst h) (sd_t st) [])).

(** book_compact.go:68-91: b.trans[:0], then append. A longer list goes to a new array (a script cannot reach this: since, asof and map
    make no new transactions). *)
Definition rewrite_trans (ts : list slice) (t : list (list slice)) (k : nat) : list (list slice) * nat :=
  let a := nth k t [] in
  if (length ts <=? length a)%nat then (upd k (ts ++ skipn (length ts) a) t, k) else (t ++ [ts], length t).

Section Held.
  Variable ord : list posting -> list nat.
  Variable grow : nat -> nat.
  Variable compile : str -> option regexp.
  Variable today : Z.

  (** the calls of a script: data.transactions kept in a variable, or a method of data *)
  Inductive hcall := HTake | HData (c : data_call).
  Definition compacted (st : sdata) (m : mem) (b : hbook) : sdata :=
    let '(t, k) := rewrite_trans (hb_trans b) (sd_t st) (sd_k st) in mkSD m b t k.
  (** book.go:241-242 (FilterTransaction): newt is a new array *)
  Definition filtered (st : sdata) (m : mem) (b : hbook) : sdata := mkSD m b (sd_t st ++ [hb_trans b]) (length (sd_t st)).
  (** the state, the values kept so far, and whether the script has failed *)
  Definition hcall_step (st : sdata) (hs : list held) (c : hcall) : outcome (sdata * list held * bool) :=
    match c with
    | HTake => (* book.go:19-22 Transactions *)
        do (m, b) <- hrun_op ord grow OTransactions (sd_m st) (sd_b st);
        let st := compacted st m b in
        Ok (st, hs ++ [(sd_k st, length (hb_trans b))], false)
    | HData (DSince s) =>
        let d := date_from_string today s in
        if d =? 0 then Ok (st, hs, true) else do (m, b) <- hrun_op ord grow (OSince d) (sd_m st) (sd_b st); Ok (filtered st m b, hs, false)
    | HData (DAsof s) =>
        let d := date_from_string today s in
        if d =? 0 then Ok (st, hs, true) else do (m, b) <- hrun_op ord grow (OAsof d) (sd_m st) (sd_b st); Ok (filtered st m b, hs, false)
    | HData (DMap from to alt) =>
        match compile from with
        | None => Panic (* regexp.MustCompile, book_utils.go:17 *)
        | Some re => do (m, b) <- hrun_op ord grow (ORegexAccounts (rx_match re) (fun a => rx_repl re a to) (negb (str_eqb to [])) alt) (sd_m st) (sd_b st);
                     Ok (compacted st m b, hs, false)
        end
    end.
  Fixpoint hcalls (st : sdata) (hs : list held) (cs : list hcall) : outcome (sdata * list held * bool) :=
    match cs with
    | [] => Ok (st, hs, false)
    | c :: cs' => do (st, hs, failed) <- hcall_step st hs c; if (failed : bool) then Ok (st, hs, true) else hcalls st hs cs'
    end.

  (** The book the script gets: NewBookBuilder, the loader's calls, Build (builder.go). *)
  Fixpoint hbsteps (m : mem) (u : hbuilder) (cs : list bcall) : outcome (mem * hbuilder) :=
    match cs with [] => Ok (m, u) | c :: cs' => do (m, u) <- hbstep grow m u c; hbsteps m u cs' end.
  Definition hload (cs : list bcall) : outcome sdata :=
    let '(m, u) := hnew_builder (mkM [] []) in
    do (m, u) <- hbsteps m u cs;
    do (m, _, b) <- hbuild ord m u;
    Ok (mkSD m b [hb_trans b] 0).
End Held.
