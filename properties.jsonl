{"id": "C01", "title": "Only balanced transactions get into a book", "statement": "A sequence of Builder calls ending in Build() returns a book if and only if, in every transaction that was opened, the amounts posted sum to exactly zero in every currency; otherwise NewTransaction or Build panics. In a book that was returned, the postings with a given date, payee and currency sum to zero.", "quantifier": "every sequence of NewTransaction / AddPosting / AddPrice calls, any number of transactions, postings and currencies, any rational amounts", "why_tests_cant": "a test can only try some call histories; a missed currency or a balance leaking from one transaction into the next shows only for particular sequences", "anchors": ["book/builder.go: NewTransaction, AddPosting, checkAndClearTransaction, Build"]}
{"id": "C02", "title": "Two transactions never share an identity", "statement": "Every NewTransaction call gets a (date, payee) pair that no earlier call got: the first use of a (date, payee) keeps the payee as given, a later one gets ' (n)' appended with the least n >= 2 that is still free. NewTransaction always terminates.", "quantifier": "every history of NewTransaction calls, including payees that already look like 'X (2)'", "why_tests_cant": "collisions with user-supplied payees of the same shape are adversarial histories", "anchors": ["book/builder.go: NewTransaction"]}
{"id": "C03", "title": "Transactions() is canonical and conserves every amount", "statement": "Transactions() returns at most one posting for each (date, payee, account, currency), none of zero amount, in ascending order of (date, payee, account, currency), and for each such key the amount is the exact sum of the amounts posted under that key.", "quantifier": "every book reachable by building and applying operations, every key", "why_tests_cant": "the in-place sort / merge / delete of the postings array is correct only if it is correct for every multiset of postings and every result an unstable sort may return", "anchors": ["book/book.go: Transactions", "book/book_compact.go: compact", "book/posting.go: isLess"]}
{"id": "C04", "title": "Transactions() partitions the postings", "statement": "The transactions returned are non-empty, all postings of one transaction have the same date and payee, consecutive transactions have strictly increasing (date, payee), and concatenating them gives every posting of the book exactly once.", "quantifier": "every reachable book", "why_tests_cant": "needs the grouping loop to be right at every boundary for every input", "anchors": ["book/book_compact.go: compact", "book/book.go: Transactions"]}
{"id": "C05", "title": "Running balance", "statement": "The balance of a posting returned by Transactions() is the sum of the amounts of all postings of the same account and currency up to and including it, in the order returned.", "quantifier": "every reachable book, every posting", "why_tests_cant": "depends on the whole prefix of postings; holds for all inputs or is worthless for reconciliation", "anchors": ["book/book_compact.go: compact (balance loop)", "book/posting.go: GetBalance"]}
{"id": "C06", "title": "Asking for the transactions does not change them", "statement": "Calling Transactions() again without an operation in between returns the same transactions with the same amounts and balances.", "quantifier": "every reachable book, any number of repeated calls", "why_tests_cant": "idempotence of an in-place mutation over all inputs", "anchors": ["book/book.go: Transactions", "book/book_compact.go: compact"]}
{"id": "C07", "title": "All manipulations maintain transaction balance", "statement": "After any sequence of book operations (account map, currency map, amount map, date/payee map, combine, since/asof/any transaction filter, move, depreciate, time adjustment, de-duplication, reclassification) every transaction of the book still sums to zero in every currency, as docs.go promises.", "quantifier": "every book built from balanced transactions, every finite sequence of operations with any arguments, any pure mapping functions, any regular expressions", "why_tests_cant": "an invariant over unbounded operation histories", "anchors": ["book/docs.go", "book/book.go", "book/book_utils.go", "book/book_reclassify.go", "book/book_dedup.go"]}
{"id": "C08", "title": "Mapping accounts moves money, never creates or loses it", "statement": "After MapAccount(f) the total of account a in currency c on any (date, payee) is the sum of the previous totals of all accounts that f maps to a; RegexAccounts(search, replace, alt) is that map with: alt if alt is given and the account does not match, otherwise the substitution if replace is given, otherwise the account itself.", "quantifier": "every reachable book, every mapping function / regular expression", "why_tests_cant": "conservation over all books and mappings, including mappings that merge accounts", "anchors": ["book/book.go: MapAccount", "book/book_utils.go: RegexAccounts"]}
{"id": "C09", "title": "since / asof select exactly the half-open period", "statement": "FilterByDateAsof(d) keeps exactly the transactions dated before d, FilterByDateSince(d) exactly those dated on or after d, whole and unchanged and in order; the two together split the book; 0 means no filter.", "quantifier": "every reachable book and every date", "why_tests_cant": "boundary behaviour for all dates; losing or duplicating a posting is only visible on some inputs", "anchors": ["book/book_utils.go: FilterByDateSince, FilterByDateAsof", "book/book.go: FilterTransaction"]}
{"id": "C10", "title": "Combining by period keeps period totals", "statement": "SplitBy(period) yields one transaction per period start, with an empty payee, in which each account/currency has the exact total of the original postings whose date floors to that period start.", "quantifier": "every reachable book, every period type", "why_tests_cant": "aggregate equality over all books", "anchors": ["book/book.go: SplitBy, MapTransaction", "book/date.go: Floor"]}
{"id": "C11", "title": "move transfers exactly the requested portion", "statement": "AdjustPost(search, target, f): on each (date, payee, currency), every account loses f times its matching postings and every target account gains f times the postings directed to it; everything else is unchanged.", "quantifier": "every reachable book, every matcher, every target mapping (also when the target itself matches or equals the source), every factor", "why_tests_cant": "self-referential targets and merges are corner cases of a universally quantified equation", "anchors": ["book/book.go: AdjustPost", "book/posting.go: byFactor, byAcctFactor"]}
{"id": "C12", "title": "Depreciation conserves totals and follows the schedule", "statement": "Depreciate(search, asset, period, n) with n >= 1 leaves the all-time total of every account and currency unchanged; each matching posting is moved to the asset account on its date and returned in n equal parts, the first on the posting date and the k-th on the start of the k-1-th following period. With n <= 0 the whole amount stays in the asset account.", "quantifier": "every reachable book, every n, every matcher", "why_tests_cant": "the schedule length and rational parts are unbounded", "anchors": ["book/book.go: Depreciate", "book/posting.go: byAcctDateFactor"]}
{"id": "C13", "title": "Time adjustment scales every amount by one factor", "statement": "AdjustBy(by) multiplies every amount by the same factor, 365/(12 d), 365/(4 d), 365/d or 1/d where d is the number of days between the first and last posting; it leaves everything else unchanged, 'none' is the identity. EXPECTED also: it never fails on a well-formed book.", "quantifier": "every reachable book", "why_tests_cant": "d = 0 and ordering of min/max over all books", "anchors": ["book/book.go: AdjustBy"]}
{"id": "C14", "title": "Amount mapping applies the rate to each posting once", "statement": "MapAmount(f) multiplies each posting by the rate that f gives for its date and currency and relabels the currency, keeping date, payee, account, notes and order; converting with GetPrice therefore makes each (date, payee, account) total the sum of amount times rate.", "quantifier": "every reachable book and every rate function", "why_tests_cant": "must hold through the sharing of postings between the flat list and the per-transaction views", "anchors": ["book/book.go: MapAmount", "cmd/reports/report.go: run"]}
{"id": "C15", "title": "De-duplication removes exactly the known transactions", "statement": "RemoveDuplicatesOf(main) keeps exactly the transactions whose (date, payee) does not occur in main, unchanged and in order.", "quantifier": "every pair of reachable books", "why_tests_cant": "a two-pointer merge is right only if right for all interleavings of keys", "anchors": ["book/book_dedup.go: RemoveDuplicatesOf"]}
{"id": "C16", "title": "Reclassification touches only counter-accounts of two-posting transactions", "statement": "ReclassifyByAccount changes nothing but the account of the counter-posting in two-posting transactions that use the reference account, and only to an account seen as counter-account in the reference book for a payee with maximal positive similarity.", "quantifier": "every pair of books, every similarity function, every map iteration order", "why_tests_cant": "depends on map iteration order and on all payees", "anchors": ["book/book_reclassify.go: ReclassifyByAccount"]}
{"id": "C17", "title": "Reclassification picks the most common counter-account", "statement": "EXPECTED (comment in the code): when a payee was booked against several counter-accounts, the most common one (or one of them) is used.", "quantifier": "every reference book, every map iteration order", "why_tests_cant": "map iteration order is randomised by the runtime", "anchors": ["book/book_reclassify.go: ReclassifyByAccount"]}
{"id": "C18", "title": "Account listing", "statement": "Accounts(reg, false) lists exactly the matching accounts, sorted, without duplicates. EXPECTED of Accounts(reg, true): it lists exactly the matching accounts that have a non-zero balance in some currency.", "quantifier": "every reachable book, every regular expression", "why_tests_cant": "multi-currency histories", "anchors": ["book/book.go: Accounts"]}
{"id": "C19", "title": "Price lookup: out of range, exact, interpolated", "statement": "For a price list in date order, GetPrice(d) is the first price (OutOfRange) before the first date, the last price (OutOfRange) after the last date, a price quoted for d (Exact) if there is one, and otherwise (Inferred) the linear interpolation by days between the two quotes adjacent to d; an interpolated price lies between them.", "quantifier": "every non-empty date-ordered price list of valid dates (duplicates allowed), every valid date", "why_tests_cant": "a hand-written binary search with special breaks: off-by-one at any size", "anchors": ["book/price.go: PriceList.GetPrice"]}
{"id": "C20", "title": "Price lookup never fails", "statement": "For every book and every valid date, GetPrice terminates without index error or division by zero, provided no price used in the inverse direction is zero.", "quantifier": "every list, every date", "why_tests_cant": "termination and absence of panics over all inputs", "anchors": ["book/price.go: GetPrice, getPrice"]}
{"id": "C21", "title": "Price direction rules", "statement": "GetPrice(d, u, u) is 1 (Exact); if only u->c prices are loaded then GetPrice(d, c, u) is the reciprocal of GetPrice(d, u, c) with the same type; with no data it is 1 (None). Prices are the ones added, whatever the order in which the dates were added.", "quantifier": "every price history, date and pair", "why_tests_cant": "all pairs and orders", "anchors": ["book/price.go: getPrice, addPrice, build", "book/builder.go: AddPrice"]}
{"id": "C22", "title": "Price iterator agrees with direct lookup", "statement": "For a non-decreasing sequence of dates the iterator returns the same rates and types as GetPrice, for price lists without repeated dates.", "quantifier": "every list, every non-decreasing date sequence", "why_tests_cant": "stateful cursor over all sequences", "anchors": ["book/price.go: PriceIterator.GetPrice"]}
{"id": "C23", "title": "A later price for the same day replaces the earlier one", "statement": "EXPECTED: if two prices are added for the same pair and date, the lookup on that date returns the one added last.", "quantifier": "every price history", "why_tests_cant": "which duplicate a binary search meets depends on the list length", "anchors": ["book/price.go: addPrice, GetPrice"]}
{"id": "C24", "title": "Price quality of a mixed valuation does not depend on the order", "statement": "Merging price types is associative, commutative and idempotent and yields the weakest type involved (None < OutOfRange < Inferred < Exact < Trade), so the type of a valuation does not depend on map iteration order.", "quantifier": "every multiset of price types and every order", "why_tests_cant": "map iteration order", "anchors": ["book/price.go: merge, getValue"]}
{"id": "C25", "title": "Day numbers and dates are a bijection", "statement": "For every valid calendar date from 0001-01-01 on, GetDateFromDays(d.AsDays()) = d; for every n >= 0, GetDateFromDays(n) terminates with a valid date whose AsDays is n; consecutive days have consecutive numbers and AsDays is strictly increasing in the date.", "quantifier": "every valid date of every year, every day number", "why_tests_cant": "leap rules over unbounded years", "anchors": ["book/date.go: AsDays, GetDateFromDays, YearIsLeapYear"]}
{"id": "C26", "title": "Day arithmetic laws", "statement": "d.AddDays(n).DaysSince(d) = n, d.AddDays(e.DaysSince(d)) = e, AddDays(m) after AddDays(n) is AddDays(m+n), as long as the result is not before 0001-01-01.", "quantifier": "every valid date, every offset", "why_tests_cant": "all dates and offsets", "anchors": ["book/date.go: AddDays, DaysSince"]}
{"id": "C27", "title": "Flooring a date to a period", "statement": "Floor(by) is the first day of the year/quarter/month containing the date, is idempotent and monotone and not after the date; FloorDiff(by, n) is the start of the period n periods later (earlier if negative), and the date lies before FloorDiff(by, 1).", "quantifier": "every valid date, every integer offset", "why_tests_cant": "the normalising loops must be right for every offset", "anchors": ["book/date.go: FloorYear, FloorMonth, FloorQuarter, FloorDiff"]}
{"id": "C28", "title": "Dates survive printing", "statement": "DateFromString(d.String()) = d for every valid date of years 0001-9999, and String is injective on them.", "quantifier": "every valid four-digit-year date", "why_tests_cant": "regular-expression disambiguation over all dates", "anchors": ["book/date.go: DateFromString, String"]}
{"id": "C29", "title": "Unparseable dates are rejected", "statement": "EXPECTED: DateFromString yields either a real calendar date or the invalid date 0.", "quantifier": "every string", "why_tests_cant": "all strings", "anchors": ["book/date.go: DateFromString"]}
{"id": "C30", "title": "Register amounts add up", "statement": "The entries that ExtractRegister produces for one posting sum to exactly the amount of that posting, with split counter-accounts or without.", "quantifier": "every balanced book, every account matcher, split or not", "why_tests_cant": "rational allocation over any number of counter-postings", "anchors": ["book/registry.go: ExtractRegister"]}
{"id": "C31", "title": "Register running balances", "statement": "The Balance of a register entry is the sum of the amounts of the entries of the same currency up to it, and the last one equals the total of all matching postings in that currency; BaseBalance is the running sum of BaseAmount.", "quantifier": "every balanced book, every matcher", "why_tests_cant": "prefix sums over all histories", "anchors": ["book/registry.go: ExtractRegister"]}
{"id": "C32", "title": "Register is complete and never fails", "statement": "On a balanced book every matching posting produces at least one entry, every entry names only counter-accounts of the same transaction and currency in the opposite direction, and ExtractRegister does not panic.", "quantifier": "every balanced book, every matcher", "why_tests_cant": "the division by the counter total is safe only because of an invariant of all reachable books", "anchors": ["book/registry.go: ExtractRegister"]}
{"id": "C33", "title": "Register base-currency amounts", "statement": "EXPECTED: BaseAmount of an entry is its Amount converted into the base currency, i.e. multiplied by GetPrice(date, ccy, base) when no rate can be inferred from the transaction.", "quantifier": "every book, entry and base currency", "why_tests_cant": "direction of conversion over all price books", "anchors": ["book/registry.go: ExtractRegister", "book/price.go: getPrice"]}
{"id": "C34", "title": "Register date window", "statement": "FilterByDate(begin, end) keeps exactly the entries with begin <= date < end (a missing bound does not restrict).", "quantifier": "every date-ordered register, every pair of dates including begin > end", "why_tests_cant": "index arithmetic over all lists and windows", "anchors": ["book/registry.go: FilterByDate"]}
{"id": "C35", "title": "Register count and order", "statement": "A positive count shows the first count entries, a negative one the last |count|, ascending keeps the order. EXPECTED: descending shows the same entries in reverse order.", "quantifier": "every register and count", "why_tests_cant": "all lengths", "anchors": ["cmd/register/show_register.go: ShowReport"]}
{"id": "C36", "title": "Inferred trade rates are real trades", "statement": "InferRate(base, unit) returns a rate only from two postings of one account, in opposite directions, one in base and one in unit, and the rate is minus their quotient (positive); it always terminates and does not panic on transactions without zero amounts.", "quantifier": "every transaction", "why_tests_cant": "index scanning over all transactions", "anchors": ["book/transaction.go: InferRate"]}
{"id": "C37", "title": "InferRates returns", "statement": "EXPECTED: InferRates(base) returns the rates implied by a transaction.", "quantifier": "every transaction", "why_tests_cant": "non-termination cannot be observed by a test", "anchors": ["book/transaction.go: InferRates"]}
{"id": "C38", "title": "All transactions of a summary have the same rows", "statement": "Every transaction returned by Accumulate has the same set of (account, term, currency) rows, in which accounts without movement appear with amount zero; Accumulate does not panic.", "quantifier": "every reachable book, currency, divider character, credit matcher, hidden account", "why_tests_cant": "the fill-in loop must be right for all interleavings of accounts", "anchors": ["book/book_accum.go: addEmptyAccounts, Accumulate"]}
{"id": "C39", "title": "Subtotals are exact", "statement": "Each subtotal row of Accumulate equals the sum, over all postings of its transaction in that account or below it, of the amount converted at the price of the transaction date; each ordinary row keeps its own amount and currency.", "quantifier": "every reachable book", "why_tests_cant": "sum over unbounded trees", "anchors": ["book/book_accum.go: Accumulate"]}
{"id": "C40", "title": "Top-level rows add up to the whole", "statement": "The rows of level 0 of a transaction of Accumulate (no credit, nothing hidden) are all in the report currency and sum to the sum of all converted postings of the transaction.", "quantifier": "every reachable book, every divider character", "why_tests_cant": "requires the level computation to pick exactly one ancestor per posting for every account tree", "anchors": ["book/book_accum.go: splitByStrings, findMaxCommonPrefix, Accumulate"]}
{"id": "C41", "title": "Credit accounts are negated, hidden accounts dropped", "statement": "Accumulate with a credit matcher and hidden account returns exactly the rows of the plain summary without the rows of the hidden account and with the amounts of matching accounts negated.", "quantifier": "every reachable book, matcher and hidden account", "why_tests_cant": "all books", "anchors": ["book/book_accum.go: Accumulate"]}
{"id": "C42", "title": "Rows of a summary are in tree order", "statement": "EXPECTED: in a summary every row is listed below its parent, before any row that is not part of the parent's subtree.", "quantifier": "every reachable book", "why_tests_cant": "ties between sort keys", "anchors": ["book/book_accum.go: getSortOrderString, Accumulate", "book/posting.go: isLess"]}
{"id": "C43", "title": "Summarising does not damage the book", "statement": "EXPECTED: Accumulate leaves the transactions of the book as they were.", "quantifier": "every reachable book and array capacity", "why_tests_cant": "slice aliasing depends on spare capacity", "anchors": ["book/book_accum.go: addEmptyAccounts, Accumulate"]}
{"id": "C44", "title": "An amount left out balances the transaction", "statement": "A posting line without amount adds, for every currency with an open balance, exactly the negated balance; afterwards every currency of the transaction is at zero.", "quantifier": "every state of the open transaction, every map iteration order", "why_tests_cant": "map iteration while the map values are updated", "anchors": ["loader/parser.go: parsePosting", "book/builder.go: GetLastCCYBals"]}
{"id": "C45", "title": "Amounts are read exactly", "statement": "A decimal amount text with optional sign, thousands commas and at most 18 digits is read as exactly that rational number. EXPECTED: the same for any number of digits.", "quantifier": "every digit string", "why_tests_cant": "int64 overflow", "anchors": ["loader/lexer.go: parseAmt"]}
{"id": "C46", "title": "Loading terminates", "statement": "The parser finishes on every input file: each round of the main loop consumes input or stops with an error. EXPECTED: also with include directives.", "quantifier": "every byte sequence", "why_tests_cant": "termination on all inputs", "anchors": ["loader/parser.go: parseFileLocal", "loader/lexer.go"]}
{"id": "C47", "title": "A loaded ledger is a balanced book; errors are errors", "statement": "LoadBook returns a book in which every transaction balances. EXPECTED: a malformed or unbalanced ledger yields an error value, never a crash.", "quantifier": "every ledger file", "why_tests_cant": "all inputs; which transaction is unbalanced matters", "anchors": ["cmd/app/app.go: LoadBook", "loader/parser.go: ParseFile", "book/builder.go: Build"]}
{"id": "C48", "title": "Nothing in the file is silently dropped", "statement": "EXPECTED: if ParseFile reports no error, every transaction and posting line of the file was passed on; an amount without currency is not replaced by something else.", "quantifier": "every ledger file", "why_tests_cant": "all inputs", "anchors": ["loader/lexer.go: next", "loader/parser.go: parsePosting"]}
{"id": "C49", "title": "Export and reload gives the same book", "statement": "Loading the ledger-format export of a book gives back the same transactions, postings, amounts and notes, for accounts, payees, notes and currencies in the syntax of the loader and amounts that are exact in the number of decimals used.", "quantifier": "every book within those conditions", "why_tests_cant": "round trip of printer and parser over all texts", "anchors": ["cmd/export/ledger.go: ShowLedger", "cmd/reports/ledger.go", "loader/parser.go"]}
{"id": "C50", "title": "The number of decimals shown is enough", "statement": "EXPECTED: the number of decimals Build computes for a currency is enough to show every posted amount of that currency exactly whenever that is possible. (It is the least c with 10^c >= every reduced denominator.)", "quantifier": "every book", "why_tests_cant": "depends on reduced denominators", "anchors": ["book/builder.go: Build", "book/book.go: GetCCYDecimals", "cmd/app/print.go: FormatNumber"]}
{"id": "C51", "title": "UTF-8 text is preserved by the loader", "statement": "Decoding a file into runes and re-encoding the parsed text preserves every valid UTF-8 text; string order equals code point order.", "quantifier": "every text", "why_tests_cant": "codec round trip", "anchors": ["loader/lexer.go: next (ReadRune)", "cmd/app/print.go: PadString"]}
{"id": "C52", "title": "Padding gives exactly the column width", "statement": "PadString(s, w, left) has visible length exactly w for every w >= 0 and every text with terminated colour sequences, keeps the colour sequences, and cuts or pads only visible characters.", "quantifier": "every string and width", "why_tests_cant": "all strings with escape sequences", "anchors": ["cmd/app/print.go: PadString, Length"]}
{"id": "C53", "title": "Shrinking columns fits the terminal", "statement": "When the table is wider than the terminal and the shrinkable columns are wide enough, PrintColumns reduces them so that the total is exactly the terminal width, no column gets a negative width, and fixed columns keep theirs.", "quantifier": "every table", "why_tests_cant": "integer division remainders over all widths", "anchors": ["cmd/app/print.go: PrintColumns"]}
{"id": "C54", "title": "Script add() always makes balanced transactions", "statement": "Every successful add(...) call of an import or generate script produces a transaction that balances, so building the imported book never panics.", "quantifier": "every sequence of add calls and amounts", "why_tests_cant": "all scripts", "anchors": ["script/starlark.go: GetBuilderFunction"]}
{"id": "C55", "title": "Operations and macros", "statement": "BookOps applies the operations left to right, a macro is equivalent to its expansion, the first error stops and is returned. EXPECTED: malformed operations yield an error, and macro expansion terminates.", "quantifier": "every macro table and operation list", "why_tests_cant": "recursive macros, all strings", "anchors": ["cmd/app/book_op.go: BookOps, bookOp"]}
{"id": "C56", "title": "Saved state survives a crash", "statement": "EXPECTED: if the program stops at any point while saving a state file, the file holds the old or the new contents.", "quantifier": "every crash point", "why_tests_cant": "crash points are not reachable from unit tests", "anchors": ["cmd/utils/json.go: SaveToFile, LoadFromFile"]}
{"id": "C57", "title": "Synchronising never forgets a transaction", "statement": "A sync only adds or refreshes transactions: every transaction id in the state before is in the state after, and with a server that serves the oldest transactions since a time, a completed paging run has fetched every transaction of the account.", "quantifier": "every server history and page content", "why_tests_cant": "paging over arbitrary histories", "anchors": ["cmd/download/monzo.go: GetAllTransactions, Sync", "cmd/download/starling.go: syncFeed", "cmd/download/nordigen.go: RefreshAccounts"]}
{"id": "C58", "title": "Requests are throttled", "statement": "EXPECTED: successive requests are released at least the minimum delay apart. Over any number of requests the minimum delay holds on average, and a request is not delayed when the previous one is old enough.", "quantifier": "every sequence of call times", "why_tests_cant": "real-time schedules", "anchors": ["cmd/download/net.go: getThrottler"]}
{"id": "C59", "title": "The configuration written on first start is accepted on the next", "statement": "EXPECTED: the default configuration file that goledger writes when it finds none is accepted when it is read back. The first existing file of the search list is the one used.", "quantifier": "every set of existing files", "why_tests_cant": "second start after a first start is a history", "anchors": ["cmd/config.go: load"]}
{"id": "C60", "title": "Duplicate() is an independent copy", "statement": "EXPECTED: operations on a duplicate do not change the original book.", "quantifier": "every reachable book and operation sequence", "why_tests_cant": "pointer aliasing", "anchors": ["book/book.go: Duplicate, MapAmount", "book/book_compact.go"]}
{"id": "C61", "title": "Builder and book sharing", "statement": "As long as each posting is added with its own amount object and the builder is not used after Build, the shared arrays and in-place arithmetic behave exactly as independent values. EXPECTED: a builder may also be used again after Build.", "quantifier": "every history of operations", "why_tests_cant": "aliasing of arrays and big.Rat pointers", "anchors": ["book/builder.go: Build, AddPosting", "book/book_compact.go", "book/book.go"]}
{"id": "C62", "title": "Account terms default to the account", "statement": "EXPECTED (comment in the code): the term of a posting is its account unless the book is a summary.", "quantifier": "every reachable book", "why_tests_cant": "depends on the operation history", "anchors": ["book/posting.go: acctterm", "book/builder.go: AddPosting"]}
{"id": "C63", "title": "JSON export carries the posting note", "statement": "EXPECTED: the note field of an exported posting is the note of that posting.", "quantifier": "every posting", "why_tests_cant": "all postings", "anchors": ["book/posting.go: MarshalJSON"]}
{"id": "C64", "title": "Beancount accounts are open when used", "statement": "In the Beancount export every posting is dated on or after the opening of its account and, if the account is closed, before the closing. EXPECTED: only accounts with zero balance are closed.", "quantifier": "every reachable book", "why_tests_cant": "all histories and currencies", "anchors": ["cmd/export/beancount.go: ShowBeancount"]}
{"id": "C65", "title": "Time in years", "statement": "AsYears is non-decreasing in the date. EXPECTED: it distinguishes different days (the internal rate of return depends on them).", "quantifier": "every valid date", "why_tests_cant": "all pairs of dates", "anchors": ["book/date.go: AsYears", "book/irr.go: CalculateIRR"]}
{"id": "C66", "title": "Import configuration syntax", "statement": "CLIConfig.Set accepts what String prints: every configuration with keys and values free of the separators is read back with the same type and parameters. EXPECTED: a parameter given twice is rejected.", "quantifier": "every configuration and map order", "why_tests_cant": "round trip over all maps", "anchors": ["cmd/utils/cli_config.go: Set, String"]}
{"id": "C67", "title": "Currency mapping of prices", "statement": "EXPECTED: RegexCCY renames the currencies of the loaded prices once, independent of map iteration order and without losing prices.", "quantifier": "every price book, every regular expression, every iteration order", "why_tests_cant": "iteration over a map that is modified meanwhile", "anchors": ["book/book_utils.go: RegexCCY"]}
{"id": "C68", "title": "Reverse filter", "statement": "EXPECTED: FilterTransactionReverse(f) keeps the transactions selected by f.", "quantifier": "every reachable book and filter", "why_tests_cant": "stale index after an in-place update", "anchors": ["book/book.go: FilterTransactionReverse"]}
{"id": "C69", "title": "Level and short name of a summary row", "statement": "The level of a row of Accumulate is the number of subtotal rows (of the same transaction) above it, and the displayed name is what follows the name of the nearest of them and the divider; it is empty for an ordinary row whose own account has a subtotal.", "quantifier": "every reachable book, report currency and one-character divider", "why_tests_cant": "all sets of accounts", "anchors": ["book/book_accum.go: splitByStrings, Accumulate", "book/posting.go: GetAccountLevel, GetAccountTerm"]}
{"id": "C70", "title": "Every shared parent gets a subtotal", "statement": "EXPECTED: when two accounts of a book lie in different children of the same parent account, every transaction of Accumulate has a subtotal row for the parent.", "quantifier": "every reachable book, report currency and one-character divider", "why_tests_cant": "depends on which names are byte prefixes of others", "anchors": ["book/book_accum.go: findMaxCommonPrefix, Accumulate"]}
{"id": "C71", "title": "Text report of a summary", "statement": "The text report has one line per row of the last transaction and one amount column per transaction; each cell shows that row's amount in that transaction, and printing never fails. EXPECTED: also for an empty report and without --sum.", "quantifier": "every reachable book, report currency, hidden account, credit pattern, terminal width", "why_tests_cant": "rows are matched by a composite key across transactions", "anchors": ["cmd/reports/text.go: ShowTransactions", "cmd/app/print.go: PrintColumns"]}
{"id": "C72", "title": "HTML report is well formed", "statement": "EXPECTED: every element the HTML report opens is closed, and texts of the book do not introduce elements.", "quantifier": "every list of transactions", "why_tests_cant": "nesting depends on the levels of all rows", "anchors": ["cmd/reports/html.go: ShowHTMLTransactions"]}
{"id": "C73", "title": "Abbreviated, day-first and relative dates", "statement": "DateFromString reads a year or a year and month as its first day, YYYYMMDD and D/M/YYYY as that date, and 'this|last|next year|quarter|month' as the first day of that period relative to today.", "quantifier": "every valid date, separator, number of digits and today", "why_tests_cant": "patterns are tried in order over all texts", "anchors": ["book/date.go: DateFromString"]}
{"id": "C74", "title": "Selecting transactions keeps them whole", "statement": "FilterTransaction and FilterByAccount keep exactly the transactions asked for (FilterByAccount: with at least one posting to the account), whole, unchanged and in order, and leave prices alone.", "quantifier": "every reachable book, filter and account", "why_tests_cant": "all books", "anchors": ["book/book.go: FilterTransaction", "book/book_utils.go: FilterByAccount"]}
{"id": "C75", "title": "Unusable add() arguments are reported", "statement": "EXPECTED: a call of add() in a script with an amount, date or denominator that cannot be used is reported as an error; the program does not crash.", "quantifier": "every sequence of add calls with arguments of any type and value", "why_tests_cant": "all argument combinations", "anchors": ["script/starlark.go: GetBuilderFunction", "script/convert.go: GetBigRat"]}
{"id": "C76", "title": "CSV export", "statement": "The CSV export has one row per posting, in book order, with the date, payee, notes, account and currency of the posting. EXPECTED: and with its exact amount.", "quantifier": "every reachable book", "why_tests_cant": "all amounts", "anchors": ["cmd/export/csv.go: ShowCSV"]}
{"id": "C77", "title": "Choice of the import reader", "statement": "An import configuration selects the CSV reader exactly when its type is csv, its delimiter (',' unless given) is one character and its header parameter, if given, spells true or false; the JSON reader exactly when its type is json; everything else is an error.", "quantifier": "every configuration", "why_tests_cant": "all types, keys and values", "anchors": ["cmd/importer/import_op.go: NewBookImporterByConfig, NewCSVBookImporter", "cmd/utils/cli_config.go: GetBoolDefault, GetStringDefault"]}
{"id": "C78", "title": "Enumerated flags", "statement": "A flag with a fixed set of values accepts exactly those values up to the case folding used, stores the value in its own spelling, and rejects everything else.", "quantifier": "every value list and argument", "why_tests_cant": "all texts", "anchors": ["cmd/utils/types.go: Enum.Set, EnumSlice.Set"]}
{"id": "C79", "title": "Paging ends", "statement": "EXPECTED: downloading the transactions of an account from a server with a finite history ends.", "quantifier": "every history", "why_tests_cant": "histories of any size and density", "anchors": ["cmd/download/monzo.go: GetAllTransactions"]}
{"id": "C80", "title": "Access tokens", "statement": "The access token used for a request has not expired; no token request is made while the tokens are valid. EXPECTED: the refresh token is sent while it is still valid.", "quantifier": "every stored token, time and answer", "why_tests_cant": "all times", "anchors": ["cmd/download/nordigen.go: Token"]}
{"id": "C81", "title": "A reported success is a success", "statement": "EXPECTED: when saving a state file reports success, the file holds the complete state.", "quantifier": "every failure of the operating system", "why_tests_cant": "failures of close", "anchors": ["cmd/utils/json.go: SaveToFile"]}
{"id": "C82", "title": "Beancount export content", "statement": "The Beancount export lists the transactions of the book in order, each with date, payee, note and every posting with its account, note, currency (upper case, blanks removed) and exact amount (when the decimals shown suffice), and every price of the book once. EXPECTED: different currencies stay different, and prices are written as Beancount price directives.", "quantifier": "every reachable book and every order of the maps", "why_tests_cant": "all books; map iteration order", "anchors": ["cmd/export/beancount.go: ShowBeancount, FormatCurrency"]}
{"id": "C83", "title": "Import prints exactly the new transactions", "statement": "import prints, for each input file in turn, exactly those transactions of its script whose date and payee no earlier file has and - with deduplication - no transaction of the ledger has, in order, each unchanged or - when reclassification is asked for - with the counter account of a most similar payee of the ledger (similarity above one half), with the decimals of the ledger; it stops at the first file whose script or output fails, and what was printed before stays.", "quantifier": "every ledger, import definition, number of files, every script (as the add() calls it makes), every similarity function and map order", "why_tests_cant": "all histories of files and ledgers", "anchors": ["cmd/importer/import.go: run", "cmd/importer/starlark.go: processData", "book/book_dedup.go: RemoveDuplicatesOf", "book/book_reclassify.go: ReclassifyByAccount"]}
{"id": "C84", "title": "Importing again prints nothing", "statement": "Once the ledger has (by date and payee) everything an import printed, the same import with deduplication prints nothing and succeeds, whether or not the first import deduplicated and either of them reclassifies.", "quantifier": "every ledger, later ledger, import definition and list of files", "why_tests_cant": "two runs of the program with any ledgers in between", "anchors": ["cmd/importer/import.go: run", "book/book_dedup.go: RemoveDuplicatesOf"]}
{"id": "C86", "title": "Generate prints only what the ledger does not have", "statement": "generate prints exactly the transactions its script adds, and with deduplication only those whose date and payee the ledger does not have, with the decimals of the ledger. EXPECTED also when the script uses data.since, data.asof or data.map to look at a part of the ledger.", "quantifier": "every ledger and script", "why_tests_cant": "all scripts and ledgers", "anchors": ["cmd/generate/generate.go: run", "cmd/generate/starlark.go: generate", "script/book_op.go"]}
{"id": "C85", "title": "Import output can be added to the ledger", "statement": "EXPECTED: the output of import, added at the end of the ledger file, loads; the ledger then has what it had and exactly the printed transactions, under their payee or a numbered variant (with deduplication: under their payee), account totals grow by the printed amounts, and importing the same files again with deduplication prints nothing.", "quantifier": "every ledger file with includes and aliases, every import and number of files", "why_tests_cant": "composes printer, loader and two runs of the command", "anchors": ["cmd/importer/import.go: run", "cmd/export/ledger.go: ShowLedger", "loader/parser.go", "book/builder.go"]}
{"id": "C87", "title": "Adding lines at the end of a ledger file", "statement": "When lines are added to a ledger file that loads, ends in a newline and has no NUL, the longer file is loaded as the old file followed by the added lines, read with the aliases in force at the end of the old file (all of them declared in it); account totals grow by the added amounts; and when the lines begin with a transaction header, all earlier postings keep their amounts and everything else is in new transactions.", "quantifier": "every ledger file with includes and aliases, and every added text", "why_tests_cant": "all file contents", "anchors": ["loader/parser.go", "loader/lexer.go", "book/builder.go: NewTransaction, AddPosting, Build"]}
{"id": "C88", "title": "Only ledgers load", "statement": "A file loads only if it and the files it includes are made of comments, directives, prices, transaction headers, postings, aliases and includes in the documented form (dates of at most 4, 2 and 2 digits, strings closed on their line, amounts of digits and commas, ...), the book is made of exactly these entries, and every such text is read to its end and refused only if a transaction does not balance. EXPECTED: every line that is no comment is one entry, and nothing on it is dropped.", "quantifier": "every byte string, file and file system", "why_tests_cant": "all file contents: tests give samples of accepted and rejected texts, not the exact set", "anchors": ["loader/parser.go", "loader/lexer.go"]}
{"id": "C89", "title": "The code of a login belongs to our login", "statement": "EXPECTED: the authorization code exchanged for a token arrived in a request that carried the state of this login, whatever requests reach the port and in whatever order their handlers run; and a request without a code does not end the login.", "quantifier": "every list of requests and every interleaving of their handlers with the command", "why_tests_cant": "all schedules of concurrent handlers on shared variables", "anchors": ["cmd/download/net.go: CaptureCode", "cmd/download/monzo.go: NewMonzoClient"]}
{"id": "C91", "title": "CSV data reaches the script cell by cell", "statement": "EXPECTED: for every delimiter the configuration accepts, a script sees every cell of a CSV file as it stands in the table: quotes removed, doubled quotes single, line ends inside quotes kept, empty lines skipped, every cell of a row under the name of its column; rows of unequal length are refused. A file written by export --type csv comes back as one record per posting with its date, payee, notes, account, currency and amount.", "quantifier": "every table of Unicode text, every delimiter, every exported book", "why_tests_cant": "all texts, quoting styles and line ends", "anchors": ["script/convert.go: GetReadCSV", "cmd/importer/import_op.go: NewCSVBookImporter", "cmd/export/csv.go: ShowCSV"]}
{"id": "C92", "title": "JSON data reaches the script", "statement": "EXPECTED: a script sees every value of a JSON file: all values, lists with all their elements, objects with all their members, numbers with their value.", "quantifier": "every JSON value of any depth, every order of map iteration", "why_tests_cant": "recursive values of any depth", "anchors": ["script/convert.go: jsonToStarlark, ReadJSON"]}
{"id": "C90", "title": "The register command shows each account's postings", "statement": "EXPECTED: register [ops] <pattern> prints, for every account that matches the pattern (all of them with --all, otherwise those with a balance), in alphabetical order, under its name, exactly the postings of that account after the operations, with running balances, limited to the days from --begin on and before --asof; --combined prints one register of all of them; --convert shows amounts in the base currency at the price of their day; a pattern, date or name that cannot be read is reported as an error.", "quantifier": "every book, list of operations, pattern, set of options", "why_tests_cant": "all books, names and patterns", "anchors": ["cmd/register/register.go: run", "book/book.go: Accounts", "book/registry.go: ExtractRegister, FilterByDate", "cmd/accounts/accounts.go"]}
{"id": "C93", "title": "A report counts every posting once", "statement": "EXPECTED: the transactions a report prints (after the operations, --splitby, --convert) add up, for every day, payee, account and currency, to exactly the postings of the book, each counted once, on its own day or the first day of its period; every transaction printed sums to zero in every currency; --convert takes every amount at the price of its own day and keeps apart what has no price; with --sum the rows of the top level sum to zero and subtotals are those of the postings.", "quantifier": "every book, list of operations, period, set of options", "why_tests_cant": "all books and options together", "anchors": ["cmd/reports/report.go: run", "book/book.go: SplitBy, MapAmount, Transactions", "book/book_accum.go: Accumulate"]}
{"id": "C94", "title": "A script sees the whole book", "statement": "A generate script that walks through data.transactions and the postings of each of them sees every posting of the book once, in book order, grouped into transactions, with its date, payee, notes, account, currency and the float64 nearest to its amount and running balance. After any sequence of data.since and data.asof it sees exactly the postings in the period, with running balances from its beginning; an unreadable date ends the script with an error.", "quantifier": "every reachable book; every sequence of data.since and data.asof with every date text", "why_tests_cant": "all books and sequences of calls", "anchors": ["script/book.go: Iterate, Next, Index, Attr", "script/book_op.go: since, asof, transactions"]}
{"id": "C95", "title": "Numbers survive scripts and float64", "statement": "A number that becomes a float64 (read by a script from the book or JSON, printed, the factor of move) becomes the nearest float64, ties to even. EXPECTED: a script that copies amounts copies them exactly: amounts that cancel leave no balance, and what is printed is the exact sum.", "quantifier": "every rational number; every list of postings made by a script", "why_tests_cant": "all numbers, any number of postings", "anchors": ["script/book.go: Attr", "script/convert.go: jsonToStarlark, GetBigRat", "script/starlark.go: add", "cmd/app/print.go: FormatNumber", "cmd/app/book_op.go: move"]}
{"id": "C96", "title": "A list a script keeps stays as it was", "statement": "EXPECTED: the list of transactions a generate script got from data.transactions and keeps in a variable has, to the end of the script, the transactions and postings it had when the script got it, whatever the script does with data afterwards (data.since, data.asof, data.map, data.transactions).", "quantifier": "every book and every sequence of calls of a script", "why_tests_cant": "all histories of calls on shared arrays and numbers", "anchors": ["script/book_op.go: transactions, since, asof, map", "script/book.go", "book/book_compact.go: compact", "book/book.go: FilterTransaction, MapAccount, Transactions"]}
{"id": "C97", "title": "The position in a parse error", "statement": "EXPECTED: an error of the loader names the file, line and column of the first character that is wrong: what the message says of that character is true, nothing after it matters, the lines before it load on their own; and every error has such a position.", "quantifier": "every file with includes, every error", "why_tests_cant": "all texts and all places of an error", "anchors": ["loader/lexer.go: next, stop, newRuneReader", "loader/parser.go: parseFileLocal", "book/builder.go: NewTransaction"]}
{"id": "C98", "title": "JSON output is JSON and stands for the exported data", "statement": "What export --type Json and accts --json write, compactly or with --pretty, is a JSON text by the grammar of RFC 8259 that stands for the value exported: every string character by character (quotes, control characters, <, >, &, U+2028 included), every number read back as a float64 the float64 exported, amounts of up to 15 digits exactly the amount in the book, fields and elements in order. Of a string that is not UTF-8 only the bad bytes change, to U+FFFD. Nothing but a number beyond float64 is refused, and then nothing is written.", "quantifier": "every value, every reachable book, every string", "why_tests_cant": "all strings, all numbers and any nesting", "anchors": ["cmd/app/print.go: PrintJSON", "book/transaction.go: MarshalJSON", "book/posting.go: MarshalJSON", "book/date.go: MarshalJSON", "cmd/export/export.go", "cmd/accounts/accounts.go"]}
{"id": "C99", "title": "JSON input is read as what it stands for", "statement": "A JSON file given to an import script, or read by a downloader, is read as what it stands for by RFC 8259: strings with every escape and pair of surrogates, numbers as the nearest float64, of members with the same name the last one, up to 10000 levels of nesting. A text that is no JSON is refused; by the import script (which reads the first value of the file only) a text that does not begin with a JSON value. The reader always ends. Reading what goledger wrote gives the same value back: an exported book is seen by the script as it was exported.", "quantifier": "every sequence of bytes, every value, every reachable book", "why_tests_cant": "all texts, any nesting and every escape", "anchors": ["script/convert.go: ReadJSON, jsonToStarlark", "cmd/utils/json.go: LoadFromFile, SaveToFile", "cmd/app/print.go: PrintJSON"]}
{"id": "C100", "title": "The state file of download monzo holds the newest version of everything sent", "statement": "After any number of runs of download monzo, the state file is a JSON text with the newest token, and by its id every account and every transaction any answer of the server ever had, each as it was sent last (members in any order, numbers as float64), and nothing else. A new token leaves accounts and transactions as they were. Any shorter beginning of a file that was written (a crash while writing) is an error for the next run, never taken for a state; an answer that is cut off, does not begin with JSON or has a member that is not known ends the run with an error and nothing is written; so does a run without a token. Members of the file that are not known are ignored.", "quantifier": "every history of runs, every answer, every crash point in the bytes of the file", "why_tests_cant": "all histories of runs, answers of any size and nesting, every cut", "anchors": ["cmd/download/monzo.go: Sync, GetAllTransactions, NewMonzoClient, MonzoAccount, Transaction", "cmd/download/net.go: fetchFromURL", "cmd/utils/json.go: LoadFromFile, SaveToFile, GetStringValue"]}
{"id": "C101", "title": "The state file has the numbers the server sent", "statement": "EXPECTED: the numbers in the state file of download monzo are exactly those in the answers of the server.", "quantifier": "every history of runs and every answer", "why_tests_cant": "all numbers", "anchors": ["cmd/download/monzo.go: MonzoAccount.UnmarshalJSON, Transaction.UnmarshalJSON, MarshalJSON", "cmd/utils/json.go"]}
{"id": "C102", "title": "CalculateIRR finds the rate of return of an investment", "statement": "EXPECTED: for an amount paid at first and amounts received later CalculateIRR gives the yearly rate at which the present value of what is received equals what was paid, up to its precision of 0.0001.", "quantifier": "every list of dates and amounts of that kind", "why_tests_cant": "all amounts, all dates, any number of flows, every number of rounds of the iteration", "anchors": ["book/irr.go: CalculateIRR", "book/date.go: AsYears"]}
{"id": "C103", "title": "The rate of return depends on the proportion of the flows only", "statement": "EXPECTED: CalculateIRR gives the same rate when all flows are multiplied by the same number: to lend is to borrow with the signs reversed, and the unit of the amounts does not matter.", "quantifier": "every list of dates and amounts", "why_tests_cant": "all amounts, all dates and every number of rounds", "anchors": ["book/irr.go: CalculateIRR"]}
{"id": "C104", "title": "The order of later flows does not matter to the rate of return", "statement": "CalculateIRR gives the same answer for the flows after the first in any order; and (as for AsYears) whatever the days within the months.", "quantifier": "every list of dates and amounts, every permutation", "why_tests_cant": "all lists and permutations", "anchors": ["book/irr.go: CalculateIRR", "book/date.go: AsYears"]}
{"id": "C105", "title": "The state file of download starling holds the newest version of everything sent", "statement": "EXPECTED: after any number of runs of download starling, the state file is a JSON text that has of every account ever sent the newest version, its identifiers, savings goals and spending spaces as last sent, by category and id every item of every feed that was asked for, each as it was sent last, and the payees as last sent; and no other accounts or items. The feed is asked for the default category and for every goal and space. Any shorter beginning of a file that was written is an error for the next run; an answer that does not begin with JSON ends the run and nothing is written.", "quantifier": "every history of runs, every answer, every order of the map of accounts, every crash point in the bytes of the file", "why_tests_cant": "all histories, answers of any size, all iteration orders", "anchors": ["cmd/download/starling.go: Sync, syncFeed, StarlingData, StarlingAccount, Spaces, FeedItem", "cmd/download/net.go: fetchFromURL", "cmd/utils/json.go: LoadFromFile, SaveToFile"]}
{"id": "C106", "title": "No answer of a server crashes the download commands", "statement": "EXPECTED: whatever bytes the server answers with, a run of download monzo, download starling or download nordigen ends with a new state file or with an error message, never with a crash.", "quantifier": "every answer (any bytes), every state file, every order of the map of accounts", "why_tests_cant": "all byte strings for all answers", "anchors": ["cmd/download/monzo.go: Sync, GetAllTransactions", "cmd/download/starling.go: Sync, syncFeed", "cmd/download/nordigen.go: Init, RefreshRequisition, RefreshAccounts"]}
{"id": "C107", "title": "The state file of download nordigen holds the newest version of everything that was booked", "statement": "EXPECTED: the first run stores the institution the user chose and the requisition the server made for it; after any further runs the file holds the newest token and requisition, of every account that was ever listed the data as last sent, and the newest version of every booked transaction that was ever sent (also of accounts no longer listed, and of transactions no longer sent), and no others, whatever is pending. A bad answer leaves the file as it was, and a file that a crash cut short is refused.", "quantifier": "every list of institutions and choice, every number of runs and every answer in them", "why_tests_cant": "whole histories of files and answers as bytes", "anchors": ["cmd/download/nordigen.go: NewNordigenClient, Init, Sync, RefreshRequisition, RefreshAccounts, UnmarshalJSON", "cmd/utils/json.go: LoadFromFile, SaveToFile, GetListValue, ListToStringList", "cmd/download/net.go: fetchFromURL, postToURL"]}
{"id": "C108", "title": "The same ledger and the same command give the same output", "statement": "EXPECTED: running a command twice on the same files, with the same options, prints the same bytes, although Go visits its maps in a different order every time and sort.Slice is free in the order of equal postings. ACTUAL: the loaded transactions, amounts, balances, prices and decimals are always the same; report (text, HTML, ledger), register, accts and the JSON and CSV exports always print the same; but export as a ledger writes the price lists in any order, ccy prints its lines in any order, and the note of a posting merged from several may change from run to run.", "quantifier": "every set of files, every order in which the open currencies, the subtotals, the prices and the currencies are visited, every correct sort, every report, register, accts or export command", "why_tests_cant": "The order is chosen at random by the runtime: a test sees one order, or by luck a few.", "anchors": ["loader/parser.go: ParseFile", "book/builder.go: Build", "book/book_accum.go: Accumulate", "book/book.go: GetPricePairs", "cmd/currencies/currencies.go", "cmd/export/export.go", "cmd/reports/ledger.go"]}
{"id": "C109", "title": "Exporting a ledger moves it to a new file, and exporting that file changes nothing", "statement": "EXPECTED: goledger export, after any operations, writes a file which loads as the ledger that was exported; exporting the new file writes the same file again. ACTUAL: the first half holds for the texts and amounts the format can carry (C49), but the number of decimals is computed anew from the amounts left after merging: a second export can print fewer decimals, and then it can change an amount (0.125 becomes 0.1) without a word.", "quantifier": "every set of files that loads, every list of operations, every order of the maps, every correct sort, every number of further exports", "why_tests_cant": "The chain load, operate, export, load, export must keep every amount for every ledger; tests try a few ledgers and one export.", "anchors": ["cmd/export/export.go: run", "cmd/export/ledger.go: ShowLedger", "book/builder.go: Build", "loader/parser.go: ParseFile"]}
{"id": "C110", "title": "A period report shows exactly what the file posts", "statement": "For every ledger file (read by the grammar of C88, includes and aliases followed) with calendar dates, positive prices and nameable accounts, whose transactions balance, the text printed by report --sum by year, quarter, month, day or as one column is a table whose columns are exactly the periods in which some account moves, in order of date; in each column there is exactly one row for each account and currency that moves in any period, with the sum of what the file posts to that account in that currency in that period, and the subtotal rows, in the base currency, are the sums of the rows at or below their account converted at the prices of the first day of the period, the top-level rows adding up to the whole. If a transaction does not balance, or nothing moves, the command fails.", "quantifier": "every file system, file, period, date of today, base currency, divider, sort and map order, terminal width and colour setting", "why_tests_cant": "A test prints a few files; the claim links every byte sequence of the ledger language to the printed amounts, through parser, builder, regrouping, summary and table printer.", "anchors": ["cmd/reports/report.go:run", "cmd/reports/text.go:ShowTransactions", "loader/parser.go", "book/builder.go", "book/book.go:SplitBy", "book/book_accum.go:Accumulate"]}
{"id": "C111", "title": "Where the output of a command goes: terminal or pager", "statement": "Expected: what a command prints is shown together, on the terminal or in the pager, nothing lost, doubled or reordered, and the pager gets the end of its input however the command ends. Proved: terminal text followed by pager text is exactly what the command prints; the pager is started at the first table that has more rows than the terminal has lines, if standard output is a terminal and less can be started, at most once, and everything from that table on goes to it; it is closed and waited for exactly when the command succeeds. report and accts print one table, so their output is in one place; register prints, for every account, its name and its register. Refuted: register puts the name of an account on the terminal and its register into the pager; a report that crashes leaves less running.", "quantifier": "all sequences of prints and tables, all books, patterns and options, all terminal sizes, with and without less", "why_tests_cant": "It depends on the number of rows of every table against every terminal height, and on the place of the first tall one; a test run has no terminal.", "anchors": ["cmd/app/app.go:initialiseLess", "cmd/app/app.go:LoadCommand", "cmd/app/print.go:PrintColumns", "cmd/register/register.go:run", "cmd/accounts/accounts.go:Add", "cmd/reports/text.go:ShowTransactions"]}
{"id": "C112", "title": "The register of an account, from the file to the printed lines", "statement": "Expected: goledger register PATTERN prints, for every account of the ledger file that matches, its name and its lines; the lines are in the order of days, for every day and currency they add up to what the file posts to the account, the balance of a line is the sum of the lines so far in its currency, and at the end of a day it is everything the file has posted by then; --begin and --asof choose the days and --count the first or last lines, without changing balances. Proved for ascending order, plain account names and calendar dates, for every file of the grammar. Refuted for the default descending order, which crashes after the first heading.", "quantifier": "all ledger files of the grammar with calendar dates, positive prices and plain account names, all patterns, windows, counts, terminal widths, with and without --all and --split", "why_tests_cant": "It joins the loader, the builder, the books, the registers and the printer; the balances depend on every posting of the file.", "anchors": ["loader/parser.go:ParseFile", "book/builder.go:Build", "book/book.go:Accounts", "book/registry.go:ExtractRegister", "book/registry.go:FilterByDate", "cmd/register/register.go:run", "cmd/register/show_register.go:ShowText"]}
{"id": "C113", "title": "Largest amounts first, each account's subtree in one piece", "statement": "In a summary, of two accounts under the same parent the one with the larger amount is printed first, together with everything below it, before the other and everything below that; so that, unless two sibling accounts have the same amount, the rows of an account and its descendants are printed in one piece.", "quantifier": "every book, every currency and divider, every pair of sibling accounts and every order in which a map may be visited", "why_tests_cant": "The order comes from strings of hexadecimal digits made of float64 arithmetic and joined per level; a test sees a few amounts, not the rounding, the width of the keys or the depth of the tree.", "anchors": ["book/book_accum.go:getSortOrder", "book/book_accum.go:getSortOrderString", "book/book_accum.go:Accumulate"]}
{"id": "C114", "title": "A text report without --sum is printed in full or refused", "statement": "`report` without `--sum` (text) of transactions that are not summarised: if every transaction has the same rows as the last one (account, displayed name, currency), the table is printed with one column per transaction and in every cell the one amount of that row in that transaction; if some transaction has a row that the last one lacks, the command fails with an error and prints nothing. It never crashes, and every line begins with the name of its account.", "quantifier": "every book (any calls of the builder, any sort order of equal elements), any number of transactions and rows, any currencies, decimals, colours and terminal width", "why_tests_cant": "Whether rows fit depends on every pair of transactions; tests use reports that were summarised.", "anchors": ["cmd/reports/text.go:ShowTransactions", "cmd/reports/report.go:run"]}
{"id": "C115", "title": "What accts lists for a ledger file", "statement": "For every ledger file, accts prints the heading and one account per line in alphabetical order, every line filled up with blanks to the longest; with --all every account matching the pattern that has something posted that does not cancel on its day (and none without postings), otherwise every matching account with money left. With --json it writes the same list as one JSON array of these texts. A file whose transactions do not balance gives an error or a crash and no list. Expected: this also holds for accounts with several currencies.", "quantifier": "every text that is a ledger (with includes, aliases, notes, left-out amounts), every map order and correct sort, every pattern, every set of names of printable characters (Unicode), colours, any terminal width", "why_tests_cant": "The list depends on all postings of the file and on every name's width.", "anchors": ["cmd/accounts/accounts.go:Add", "book/book.go:Accounts", "cmd/app/app.go:LoadBook", "cmd/app/print.go:PrintColumns"]}
{"id": "C116", "title": "The options of a command", "statement": "For report, register, export, accts and ccy every option has the value it was given last on the command line, otherwise the value of its key in the configuration file (keys are read regardless of case), otherwise its built-in value, and the command prints what these values and the remaining words say of the loaded ledger. Options may be written --name=value, --name value, --switch, -l value, -l=value or -lvalue, single-letter switches may be joined, and -- ends the options. An unknown option or a value the option cannot have is refused before any ledger is read; --help prints help and nothing else. EXPECTED also: a value the option cannot have is refused in the configuration file too; the report works with the configuration written at first start; register works without a configuration.", "quantifier": "every command line written in these ways, every configuration file (any list of keys and values), first start or not, every ledger and every choice of the external functions", "why_tests_cant": "The value of an option depends on the whole command line, the whole configuration file and the order in which the three sources are applied; a test tries a handful of lines.", "anchors": ["cmd/root.go:Execute", "cmd/app/app.go:LoadCommand", "cmd/config.go:load", "cmd/reports/report.go:Add", "cmd/register/register.go:Add", "cmd/export/export.go:Add", "cmd/accounts/accounts.go:Add", "cmd/utils/types.go:Enum"]}
{"id": "C117", "title": "From the command line of import and generate to what they print", "statement": "`goledger import [NAME] files\u2026` and `goledger generate [NAME]` take every setting from one place. The definition behind NAME is the table importdefs.NAME (generate.NAME) of the configuration file, each setting the last value of its key, upper and lower case mattering only in NAME and in the names of the parameters; without NAME nothing is set except that duplicates are removed and accounts are reclassified. --dedup (-d), --reclassify (-r), --acct (-a) and --cacct (-c) take the place of what the definition says; --code and --format exist only if the definition has no code (no configtype). A command line with an unusable option, without an option that the definition leaves open, without a file (import) or with one (generate) is refused before the ledger is read; --help prints the help. Otherwise the format chooses the reader (an invalid format is refused before the ledger is read), the ledger of --ledger is loaded, and the transactions are printed that the code makes of the data in each file (a code file:NAME is the text in the file NAME; a file that cannot be read, or is not in the format, ends the run at that file and keeps what was printed before), with the accounts, currency and switches above.", "quantifier": "every command line in every way of writing options, every configuration file, every definition, ledger, script, file system and input bytes", "why_tests_cant": "The settings come from a definition, the configuration file and the command line, in any combination and order, and which options exist depends on the definition; a test looks at one combination.", "anchors": ["cmd/importer/import.go:ImportDef.run", "cmd/importer/import.go:ImportDef.add", "cmd/importer/import.go:Add", "cmd/importer/import_op.go:NewBookImporterByConfig", "cmd/importer/starlark.go:processData", "cmd/utils/cli_file_or_str.go:GetFileOrStr", "cmd/generate/generate.go:Generate.add", "cmd/generate/generate.go:Generate.run"]}
{"id": "C118", "title": "Report, accts, register and export from the command line to the printed page", "statement": "`goledger report --sum` and `goledger register --asc` in text form and `goledger accts` print what the words typed, the configuration file and the bytes of the ledger file say, and nothing else matters: once the options in effect (the last one typed, else the last one configured, else the built-in one) name the ledger file, base currency, divider, period and colour, the report is the table with one column per period in which something moves, holding every account's balance movements of that period as the ledger file states them, in the colours chosen; and accts lists, sorted, exactly the accounts that the file, the pattern and --all call for, as a column of names or as a JSON array; and register prints, for every such account, the lines of the file's transactions that touch it, within the dates and count chosen, with running balances; export writes a file that, read again, shows the same transactions and prices. A file that does not balance is refused.", "quantifier": "every command line in a documented form and every configuration file that give these options their values; every ledger file in the grammar (with its includes), with legible, reportable amounts; every loading order of maps, sorting algorithm meeting its contract, terminal width and date of today", "why_tests_cant": "The output depends on three inputs at once (arguments, configuration, ledger bytes), each unbounded; tests call the packages one at a time and never the binary.", "anchors": ["cmd/root.go:Execute", "cmd/app/app.go:LoadCommand", "cmd/app/app.go:LoadBook", "cmd/config.go:load", "cmd/reports/report.go:Add", "cmd/accounts/accounts.go:Add", "cmd/register/register.go:run", "cmd/export/export.go:run", "book/book_accum.go:Accumulate", "cmd/app/print.go:PrintColumns"]}
