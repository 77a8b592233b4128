# Formal model of mescanne/goledger in Coq 8.16.1

## Trusted base

* Coq's kernel (8.16.1), no kernel check switched off. Only the Coq standard library is imported.
* No axioms, but for C102-C104: `Print Assumptions` under every other property theorem says "Closed under the global
  context" (the commands are in the files, so every build prints it). C102, C103 and C104 are about real numbers (roots are
  irrational) and use the standard library's Reals, whose axioms are `ClassicalDedekindReals.sig_not_dec`,
  `ClassicalDedekindReals.sig_forall_dec`, `FunctionalExtensionality.functional_extensionality_dep` and, for logarithms,
  `Classical_Prop.classic`. vcheck's list of library axioms
  (`Coq.ssr.ssrunder.Under_rel.*`) are the fields of a module type of the standard library that a library file
  loads; no theorem here depends on them.
* The reading of the Go source: every definition of a `*Model.v` file cites the file and lines it
  models. The Go code is never executed.
* The behaviour of Go's runtime and library as written into the model (next section).

## Modelling conventions

* **Strings** are byte lists (`str := list Z`); Go's `<` on strings is lexicographic byte order. The
  lexer works on runes obtained by the UTF-8 decoder modelled in `Utf8.v`.
* **Amounts** (`*big.Rat`) are canonical rationals `Qc` (equality is Leibniz equality; the reduced
  denominator is `Qden (this x)`).
* **Dates** (`type Date int64`) and `int` are `Z`; Go's truncating `/`, `%` are `Z.quot`, `Z.rem`.
  Overflow of `int64` is written in only where it is reachable from ordinary input (amount literals).
* **Outcomes**: `Ok a | Error | Panic | Diverge`. `Error` is a returned Go `error`, `Panic` a Go panic
  (explicit, index out of range, nil dereference, division by zero), `Diverge` is the model running
  out of fuel; theorems exclude it or say so.
* **sort.Slice** is not stable and its result on ties is not specified: it is a parameter `srt` with the
  only assumption that it returns a sorted permutation. Theorems quantify over every such `srt`.
  `sort.SliceStable` is a concrete stable insertion sort.
* **Map iteration** order is a parameter (an arbitrary permutation of the keys) wherever a loop over a map
  is observable.
* **User regexes / Starlark functions** are oracles (arbitrary functions). The literal regexes in the code
  (date parsing, book operations) are modelled.
* **Aliasing**: two levels. The value level treats amounts as values; `Heap*.v` models pointers to
  `big.Rat`, slices with capacity and shared backing arrays and shows where the value level is exact
  (C61) and where sharing is visible (C43, C60, C61).
* Properties of the list marked EXPECTED are what a user would expect. Where the code violates them
  the theorem is `..._refuted`, with a concrete witness, and the strongest true statement is proved
  beside it.

## Files

Each area has `XModel.v` (definitions only, cited), `XSpec.v` (independent, small specification),
`XProofs.v`, `XProps.v` (the property theorems, each closed by `exact`, with `Print Assumptions`, and
examples that the hypotheses are met).

## Plan per property

| id | model | proof |
|---|---|---|
| C01 | Builder as a state machine over NewTransaction/AddPosting/Build | invariant: running sums of the open transaction = sum of its postings; induction on the call list, iff |
| C02 | key set, rename loop with fuel | pigeonhole: fuel = number of keys + 1 is enough; least free n |
| C03-C06 | Compact, Transactions (value level, any sort) | sum per key invariant of the merge; sortedness; group partition; idempotence |
| C07 | all book operations as a datatype `op`, `run` | preservation of the balance invariant, induction over the op list |
| C08-C14 | MapAccount, RegexAccounts, filters, SplitBy, AdjustPost, Depreciate, AdjustBy, MapAmount | sums per key as functional equations |
| C15 | RemoveDuplicatesOf two-pointer loop | equals `filter`, by invariant on the two sorted lists |
| C16, C17 | ReclassifyByAccount, similarity as an oracle | relation between input and output; witness for C17 |
| C18 | Accounts | listing = sorted, duplicate-free, exact; witness for the balance part |
| C19-C24 | price list, getPrice binary search, iterator, merge | loop invariant; case analysis; witness for C23 |
| C25-C27 | AsDays, GetDateFromDays, Floor*, AddDays | arithmetic against an independent calendar specification |
| C28, C29 | String, DateFromString with a small regex engine | digit rendering lemmas; witnesses |
| C30-C35 | ExtractRegister, FilterByDate, ShowReport | sums over the entries, running balance invariant; witnesses |
| C36, C37 | InferRate, InferRates | case analysis; InferRates: loop never makes progress |
| C38-C42, C69, C70 | Accumulate | rows per transaction as the closure of the account set; subtotals as sums; witnesses |
| C44-C48, C51 | lexer and parser (LoaderModel), files as a function from names to bytes | LoaderSpec: grammar of ledger texts and the entries they stand for; each parser function reads its texts; what is left is a proper suffix (termination); witnesses |
| C49 | ledger printer (ExportModel) + parser. float64(x) is a parameter `f64` with the assumption `float64_ok` (within 2^-53 relative); x/text's `%.*f` for the English locale is modelled as correctly rounded decimals with comma groups; other locales are not modelled | each printed line is a line of the LoaderSpec grammar; parse (print book) = builder calls of the book, then C01/C03 |
| C50 | decimals | least c characterisation, witness 1/8 |
| C52, C53 | PadString, Length, PrintColumns shrink, ShowText of the register | induction over the text, invariant over the columns |
| C71, C72 | ShowTransactions, ShowHTMLTransactions | table as a function of the rows (ReportSpec.expected_table); count of opened and closed elements; witnesses |
| C54, C75 | script add (ScriptModel) | every call is a pair of opposite postings; builder invariant at rest; case analysis of the arguments |
| C55 | book_op.go (BookOpModel): operation texts, macros | patterns characterised by the slash-separated shapes of BookOpSpec; induction on macro expansion; divergence and panic witnesses |
| C56 | file save as a sequence of file-system steps with crash points | witness; completed save theorem |
| C57, C58 | download merge, paging, throttler | invariants over request histories |
| C59 | config search and defaults | witness; first existing file |
| C43, C60, C61 | heap level (HeapModel: addresses of amounts, slices of shared arrays, append into spare capacity; programs over several builders and books) against HeapSpec (the same programs on values) | simulation: each live object owns its cells and amounts (HeapProofs2-5); frame lemmas; Accumulate moves to a new array or is spared (HeapProofs6-7); witnesses by computation |
| C62-C64 | account terms, JSON, Beancount | witnesses and positive parts |
| C65 | AsYears | monotonicity; witness |
| C66, C77, C78 | CLIConfig.Set/String, import_op.go, Enum.Set | grammar of texts and meaning of each; roundtrip; witness |
| C79 | paging of monzo.go | measure: transactions still asked for; invariant of a page that repeats |
| C80 | NordigenClient.Token | case analysis |
| C81 | steps of SaveToFile with failures | invariant over runs; witness |
| C67 | RegexCCY: range over a map changed meanwhile as a relation over all orders | invariant of the loop for idempotent renamings; witnesses |
| C68 | FilterTransactionReverse | witness; positive part |
| C73 | DateFromString | pattern matching on symbolic digits; floor_diff for relative dates |
| C74 | FilterTransaction, FilterByAccount | from book_ok |
| C82 | Beancount transactions, currencies, prices (DataExportSpec2) | the file read back directive by directive; witness |
| C83, C84 | import command (ImportModel): script as add() calls, RemoveDuplicatesOf main and earlier files, ReclassifyByAccount, printing; the input readers and the Starlark interpreter are not modelled | invariant over the files: identities of ledger and earlier files = identities of ledger and what was kept; C84 by strong induction over the files |
| C87 | the loader on a file with lines added (LoaderProofs7: the run on the longer text is the run on the shorter one, continued) | simulation of lexer, parser and include stack on s and s++x; builder invariants for the totals |
| C85 | import output (ImportModel) printed, appended and loaded again (AppendSpec) | C87 with the export round trip of C49 generalised to transactions appended to a builder; C84 for the second import; witnesses |
| C88 | exact grammar of the loader (GrammarSpec), independent of its control flow | every parser function shown equivalent to its relation, then rounds and files by induction in both directions; witnesses for dropped text |
| C89 | CaptureCode: handlers and the main goroutine as small steps on shared variables, any schedule (CaptureModel) | invariant over all schedules; blocks for requests served one by one; witness schedules |
| C91 | CSV reader and writer of encoding/csv with the settings of the code, GetReadCSV (ConvertModel) | grammar of tables (ConvertSpec); induction on cells, rows, lines; the writer writes a table; composed with C76; witnesses |
| C92 | jsonToStarlark on decoded values (ConvertModel) | relation seen (ConvertSpec), nested induction; witnesses |
| C90 | register command run, accts (CmdModel) over ExtractRegister, FilterByDate, Accounts, BookOps | register_of, in_window, plain_name (CmdSpec); composition of C18, C30, C31, C34 on books left by operations; witnesses |
| C93 | report command run (CmdModel) over BookOps, SplitBy, MapAmount, Accumulate | worth, first_day, placed (CmdSpec); weighted sums depend on the totals only; C39, C40; witnesses |
| C94 | iterators and attributes of script/book.go, data.since/asof/transactions of script/book_op.go (ViewModel) | attributes listed in ViewSpec; loops with fuel, shown independent of the fuel; filter and compact keep a canonical book |
| C95 | conversion of a rational to float64 (F64Model) under ScriptModel, BookOpModel, ExportModel | nearest_f64 (F64Spec) by distance to every float64, uniqueness; error bounds; witnesses |
| C96 | the list data.transactions returns as a window on the array of transactions, on the memory of HeapModel (HeldModel) | same calls on values (HeldSpec); compact on a canonical book changes only balances; witnesses |
| C97 | the reader with row and column, every parse function as a parser over it, the error value with the builder left behind (PosModel) | erasure to LoaderModel; three invariants closed under the combinators: the position is that of the runes read, one rune of lookahead, newlines are passed only at the end of a round; witnesses |
| C98 | the text encoding/json writes: strings, shortest float64 digits, Marshal, Indent (JsonModel) | RFC 8259 grammar with values as an inductive relation (JsonSpec); shortest search from the error bounds of F64Proofs; one general text with arbitrary white space, Indent by nested induction |
| C99 | the reader of encoding/json: numbers, strings, values, Decode and Unmarshal (JsonModel) | sound and complete for the grammar of JsonSpec by mutual induction, measure for the end; round trips with C98, C92 |
| C100 | download monzo from the bytes of the answers and the old file to the bytes of the new file: LoadFromFile, types of the answers, Sync, the token, SaveToFile (StateModel on JsonModel) | state files and answers as JSON texts, newest version by id (StateSpec); maps of the program as JSON members; load/store/save each preserve the relation; induction over runs; cut objects: cut UTF-8, an object is read whatever follows |
| C101 | as C100 | the same text read with exact numbers; shortest digits of C98 give 15-digit numbers back; two amounts, one file |
| C102 | irr.go with real numbers, infinities and NaN instead of float64 (IrrModel) | convexity of the present value from exp x >= 1 + x; Newton's guesses climb towards the rate from below; each round adds 0.0001 or ends; witness |
| C103 | as C102 | reversing signs commutes with each round; which guesses can occur; witnesses |
| C104 | as C102 | addition with infinities and NaN is associative and commutative |
| C105 | download starling from the bytes of the answers and the old file to the bytes of the new file: encoding/json for structs, maps, slices, pointers, interface{} and types with UnmarshalJSON (ShapeModel), Sync and syncFeed (StarlingModel) | what is found in the file by names of members, newest version over the history (StarlingSpec); shapes: reading and writing keep a value up to the order of members; invariant of the state; induction over runs |
| C106 | as C100 and C105, with any bytes for answers | a result is safe: a crash has a cause; composed along the code |
| C107 | ShapeModel with the types of nordigen.go, NordigenModel: the bytes of the answers and of the file; the choice of the user is an input | an invariant on the state that was read, kept by every run (account by account) and by writing and reading the file |
| C108 | two runs of LoaderModel, BookModel, AccumModel, CmdModel, PrintModel, ExportModel with different orders for every range over a map; ccy and export commands in DetModel | a relation between the two builders kept by every line (same multiset of postings, same balances); the sorted, merged postings are then equal; every printer reads the decimals by key only; witnesses |
| C109 | LoaderModel, ops_of, export_run of DetModel, LoaderModel again: two and three generations of files | C49's lemma for any book in order, extended by the decimals of the reloaded book; printing depends only on what is preserved; witness |
| C110 | composition of load_book, report_run and summary_text, no new code model; spec: BalanceSpec (amounts posted per period, period_column) | totals of the built book are the totals of the calls (build_calls_cases); SplitBy moves weights (map_transaction_wtotal); a canonical transaction has one posting per key; C38-C40, C71, C88 |
| C111 | PagerModel: terminal, pager, printers and the actions of report, accts and register (app.go:78-157, print.go:19-35, 182-188) | induction over the actions against the relation says |
| C112 | RegFileSpec says what the file posts (amounts) and what a register has to show; the models are those of loader, book, register, printer and pager | C88, registers_spec, sums over blocks of lines, C111_register, C53 |
| C113 | getSortOrder with float64 arithmetic (micro64), getSortOrderString and the sort of Accumulate | fixed-width hexadecimal is monotone; sibling keys share the chain of ancestors; nearest common ancestors for contiguity |
| C114 | text report of `transactions` with the table of PrintModel, rows by (account, name, currency) | fill_trans by induction over the rows of the last transaction: found (one posting), error or crash; the printing by the column widths of C52 |
| C115 | LoaderModel, BuilderModel, Accounts, PrintModel and JsonModel composed | C88 for the file, registered (of C112) for the list, exact padding of legible names by C52, C98 for the JSON |
| C116 | OptionsModel (flag tables, parse_args, decode_config, execute, the four main functions), OptionsSpec (written, stands_for, usable, in_effect over documentation tables) | induction over the command line: parsing a written line applies its items in order; the effect of a list of stores on a key is the last one stored; each main function composed with CmdModel's run |
| C117 | ImportOptModel: definitions, flags, required flags, GetFileOrStr, the readers on the bytes (read_csv, read_json_text) and the runs of ImportModel. | Options by the lemmas of C116 on a configuration overlaid with the definition's values (run_own); required flags by a case split on what is left open; keys of the file by step_struct/step_map; scripts by the inductive script_for. |
| C118 | `set_to n v`: the option n of the table of C116 has the value v in effect. C116's theorem turns report_main/accts_main into load; run; print; uniqueness of the value in effect (C116_one_value_partial) fixes the arguments, C109/C110/C112/C115 the text. |
| C86 | generate command with the data.* operations of its script as book operations | same file lemma; witness for data.since |
| C76 | CSV export | rows = postings; "%f" is exact up to six decimals; witness |

## What is modelled and what is not

| code | model |
|---|---|
| book/book.go, builder.go, book_compact.go, book_dedup.go, book_reclassify.go, book_utils.go, posting.go | BookModel, OpsModel (values), HeapModel (pointers and slices). Not: `String()` of a posting |
| book/book_accum.go | AccumModel. Not: the warning on stderr |
| book/date.go | DateModel, unbounded integers. Not: `GetTime`, `GetToday` (the clock is a parameter) |
| book/price.go | PriceModel. `getValue` (floats) not |
| book/registry.go, transaction.go | RegisterModel and related files |
| book/irr.go | IrrModel: all of it, in ideal arithmetic: reals, infinities and NaN by the rules of IEEE 754 and math.Pow, without rounding, overflow, underflow |
| loader/*.go | Utf8, LoaderModel, PosModel (rows, columns, messages), whole. Not: the text of runtime panics, I/O errors other than a missing file |
| cmd/reports/report.go, cmd/register/register.go, cmd/accounts/accounts.go: `run` | CmdModel: from the loaded book to what is handed to the printers. Flags and configuration: OptionsModel. Not: LoadBook (LoaderModel), the printers (PrintModel), the dump of all prices when --credit matches nothing |
| cmd/app/print.go, cmd/reports/text.go, html.go, cmd/register/show_register.go | PrintModel. English number format only; terminal size is a parameter. The pager (app.go `initialiseLess`): PagerModel. Not: `FormatMoney`, `ListLength`, `Combine` (unused) |
| cmd/app/book_op.go | BookOpModel |
| cmd/export/*.go, cmd/reports/ledger.go, cmd/currencies | ExportModel, DataExportModel, DetModel (the commands as a whole); the JSON text in JsonModel; quoting of the CSV package in ConvertModel (C91) |
| cmd/importer, cmd/generate, cmd/utils/cli_file_or_str.go | ImportModel, CfgModel, ImportOptModel (definitions, flags, required flags, from the command line to the run); the Starlark interpreter is not modelled: a script is the calls it makes |
| script/starlark.go, book_op.go, book.go | ScriptModel (`add`), ImportModel (`data.*`), ViewModel (iteration, attributes), HeldModel (lists kept in variables). Not: `RunStarlark` |
| big.Rat.Float64, strconv.ParseFloat | F64Model (nearest, ties to even; no overflow to an infinity). Theorems about printing take any conversion with the property float64_ok; C95_float64_ok discharges it |
| script/convert.go | ConvertModel; JSON text to value in JsonModel; `GetBigRat` in ScriptModel |
| cmd/download | DownloadModel, CaptureModel (CaptureCode, schedules of its handlers); JSON decoding and the state file of monzo in StateModel, those of starling in ShapeModel and StarlingModel, of nordigen in NordigenModel (its prompts are inputs); HTTP and the OAuth2 library not |
| cmd/utils | SaveModel, CfgModel. Not: shell.go, docs.go |
| cmd/config.go | ConfigModel; TOML syntax is a parameter |
| cmd/web | not modelled: the command is commented out in cmd/root.go |
| cmd/root.go, cmd/app/app.go, cmd/config.go: `load`, the `Add` functions of report, register, export, accts | OptionsModel: flag tables, command-line parsing, order of sources, dispatch. Not: cobra's suggestions and completion, download/fmt subcommands' flags, the choice of the subcommand, TOML text to keys |
