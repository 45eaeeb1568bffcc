# Formal model of mkobetic/coin — design

The source read is `/repo` (Go). Nothing is built or run here: the only tie between
model and code is the citation (`file:lines`) on every model definition.

## 1. Shape of the development

`rocq/theories/`

| layer | files | content |
|---|---|---|
| basics | `Base.v` | bytes as `list ascii`, literals, result type `res` (`Ok` / `Fail` = error or `os.Exit(1)` / `Panic` = Go run-time panic) |
| model | `M_*.v` | executable, total Gallina functions, one per Go function, each citing file and lines; no proofs |
| spec | `S_*.v` | small independent specifications, written without the model's helpers |
| proofs | `L_*.v` | lemmas |
| properties | `Properties_*.v` | only theorem statements closed by `exact`, `Print Assumptions` under each, and `Example`s showing that hypotheses are met |

Conventions

* A property the *unchanged code violates* gets a theorem `..._refuted` (a concrete witness,
  traced through the model) and a theorem `..._partial` which proves what remains true, with the
  exact guard in its hypotheses. Its manifest status is `partial`.
* `big.Int` is `Z`; `int64` is `Z` with explicit range checks or explicit wrap where the code can
  overflow; pointers compared by identity are natural-number identifiers.
* Go map iteration order is an explicit argument: an arbitrary permutation, universally quantified.
* `sort.Slice`/`sort.Sort` (unstable) is an arbitrary function returning *some* sorted permutation
  (universally quantified); `sort.Stable` is insertion sort (the unique stable result).
* Crash points: an operation is a list of file-system steps and the theorem quantifies over every prefix.
* Regular expressions: RE2/Go semantics (leftmost-first, Perl-like priorities) is a backtracking
  continuation matcher `M_Regex.v`; the program's regular expressions are transcribed as its syntax trees.

## 2. Trusted base

* Coq 8.16.1's kernel (including `vm_compute` for concrete witnesses) and the standard library.
* `Print Assumptions` is printed beneath each property theorem; the aim is
  "Closed under the global context" throughout (the table at the end of this file records it).
* The reading of the Go source recorded in the citations, and the modelled meaning of the Go standard
  library parts used: `strings.*`, `strconv.ParseInt/Atoi`, `math/big` (`Div` Euclidean, `Quo` truncated,
  `Rat.FloatString` half away from zero), `regexp` leftmost-first matching, `bufio.Scanner` lines,
  `time` calendar arithmetic, `sort`, `os` rename/remove atomicity.

## 3. Plan by property
(status and theorem names are in MANIFEST.json)

| id | what is modelled | how it is proved |
|---|---|---|
| C01 | `parseAmount`, `strings.Split/Join`, `ParseInt`, `bigPow10` | closed form of the digit fold; compared with an independent rational reading of the literal |
| C02 | same | refuted by `-0.011`; partial: holds for literals with at most D fraction digits, and gap is exactly one unit otherwise |
| C03 | `Write`, `Format` (`Rat.FloatString`), `parseAmount` | digit string lemmas |
| C04 | `Width`, `bigLog10` | decimal length = floor log + 1 |
| C05 | `FloatString` | rational half-unit bound against the spec reading of the output |
| C06 | `AddIn`, `adjustedTo` | induction, permutation invariance |
| C07 | `Times` | `Z.quot` bounds |
| C08 | `Cmp` & co. | order facts; refuted in general by two amounts with different decimals |
| C09 | tables and searches of `pow10.go` | finite table facts lifted to all arguments by monotonicity |
| C10–C13 | `Commodity.convert` with iteration-order oracle | DFS completeness over simple paths; chain soundness; refutations of determinism and label |
| C14 | `ResolvePrices` for arbitrary (unstable) sort | permutation + head maximality |
| C15–C20 | calendar (civil/day number), `parseDate`, offsets, reducers | arithmetic of proleptic Gregorian calendar by `lia`; regex matching facts |
| C21–C26 | `Parser`, `parseTransaction`, `Transaction.Write`, `Posting.Write` | character level round trip via the regex engine |
| C27–C30 | item writers and readers | same |
| C31 | `TagMatcher` | refuted + partial |
| C32 | `MustFindAccount` | refuted + partial |
| C33–C42 | ledger state machine (postings, accounts, transactions) | invariants over the fold of load steps |
| C43–C49 | reports | list induction; totals as sums over filtered lists |
| C50 | `ShortenAccountName` | list induction |
| C51–C52 | file-system step machine | every prefix of steps |
| C53 | `modify` | refuted + partial |
| C54 | include graph | refuted + partial |
| C55–C58 | `Post`, rules, OFX import | list induction |
| C59–C61 | gen2coin | induction |
| C62 | BMO reader as a state machine over read sizes | refinement to a line filter |
| C63 | generated balances | refuted + partial |
| C64 | `updateTestFile` | line-level merge |
| C65–C66 | `Tags.AddTags`, `tagREX` matching over all note lines | regex matching lemmas; refuted + partial |
| C67 | `register` listing (`Other`) | refuted (single-posting transaction) + partial |
| C68 | `IsClosed` | induction on the tree |
| C69 | `register`/`balance` selection options | refuted (option mutated in place) + partial |
| C70–C72 | `totals.go`, aggregated and recursive registers | invariants of the totals lists, permutation of sums |
| C73–C74 | gen2coin dates and postings | calendar arithmetic, sampling functions with an arbitrary random stream |
| C75 | `trimWS` | words of a text |
| C76–C79 | `LoadAll`, `include`, `LoadFile` over an abstract file tree | induction on the nesting of includes; entries of a whole database |
| C80 | rules file write/read | character-level round trip |
| C81–C82 | `ofx2coin` import loop and a second run over the written result | list induction; permutation |
| C83–C87 | `csv2coin`: sources, rules files, rows, accounts, sorting | regex soundness and completeness; list induction |
| C88–C92 | `gc2coin`: numbers, account tree, prices, transactions, output files and reading them back | composition with the parser theorems (C21, C27–C29); file-system map |
| C93 | `tags` command | per-key invariant of the two result maps; any iteration order |
| C94 | `stats` command | invariant of the day buffer over the sorted list |
| C95–C96 | `accounts`, `commodities` commands | sorting, maximum, price lists of C14 |
| C97–C99 | page amounts: `MarshalJSON`, `Amount.parse`, `toString`, `Conversion` (JavaScript doubles as exact rationals rounded to 53 bits where the claim needs it) | digit-level round trip; nearest-integer lemma |
| C100–C101 | weekly price groups, breadth-first search for conversion chains | invariants of the loops; shortest-path argument |
| C102–C103 | the exported data elements (JSON writer and `JSON.parse`), loading of the page | character-level round trip; composition with C34, C36, C38 |
| C104–C105 | dates and ranges on the page in any time zone | a zone is any strictly increasing map from days to minutes less than a day off UTC |
| C106 | balances view | composition of C34, C36, C39, C103; mutual induction over the shown tree |
| C107–C109 | registers, aggregation, subaccount columns | induction over rows/periods/columns; calendar lemmas of C15–C20 |
| C110 | `Transaction.other` | sign argument |
| C111–C113 | `Price.MarshalJSON`, `loadPrices`, `Price.reverse`, `reciprocal` | list induction; error bounds of doubles (two roundings); composition with C101 and C14 |
| C114–C115 | `State`, `initializeUI`, `updateView`/`updateAccount`/`updateAccounts`, all handlers, `allChildren` | state machine; invariant over histories of actions; the pages of C103 satisfy its hypothesis |
| C116–C117 | `updateAggregationForTimeRange`, `withAllChildPostingGroups`, `groupByWithSubAccounts`, `sumAll`, table of subaccounts | counting period starts in a range; composition of C108/C109 for any order of the columns |
| C118–C119 | bars, `topN`, `shortenAccountName`, `relativeName` | list induction; stability of the sort |
| C120 | `balance` text: `print`, `maxWidth`, `curWidth`, `Depth`, fmt's padding by runes | induction over the accounts; totals from C37; pre-order of the tree |
| C121 | `register` text: `print`, `printLong`, `widths`, `totals`, notes, locations | induction over the postings; widths bound every cell |
| C122 | aggregated `register` as text, CSV and JSON: `output`, `rows`, `print`, encoding/csv, encoding/json | the rows are those of C70; CSV and JSON by independent readers (round trip by induction), text by widths bounding every cell |
| C123 | `coin balance` from the files to the text: M_Coin on top of M_Database, M_Ledger, M_Report and M_Output | composition of C76, C34, C37, C69 and C120; the specification S_Coin speaks of written postings only |
| C124 | `coin register` without aggregation from the files to the text: coin_register in M_Coin; rows of the files are (transaction, place) pairs in S_Coin | a map from postings in memory to rows (L_Coin2.rows_fun) carries C34, C69, C72 and C121 over to the files |
| C125 | the aggregated `coin register` from the files to the table: coin_totals, coin_aggregated in M_Coin | the rows of C124 and the sums of C70 are permutations of each other; output by C122 |
| C126 | C123–C125 for books with several commodities | the rows are resolved in the commodity of their account; periods and their texts from S_Coin.first_day and period_text, not the model's reducers |
| C127 | `coin test`'s printing loop: test_report, run_report in M_TestReport over abstract commands and difference printer | induction on the tests with the loop's (last file, success so far) state; per-file verdicts refuted by concrete runs, proved under a guard |
| C128 | `coin test` followed by reading the file and `coin test` again | C64 (update and read-back) composed with C127's loop |
| C129 | gen2coin's FROM_BALANCE/TO_BALANCE amounts over whole generations (M_Gen) | invariant: balance of an account = sum of the generated postings there so far |
| C130 | conversions of a loaded book (book_conv over load_all), said over the price lines of the files | C76 (entries of the files), C14 (lists sorted by date), C10/C11 (search along chains) |
| C131 | table and chart of balances with d3-hierarchy's stratify, sum and levels (M_Treemap) | rows of the tree are in preorder without repetition, so the hierarchy built by names is the account tree; induction over levels; refuted: same depth input (the chart has one level less), negative depth, area of a box with balances of both signs |
| C132 | the reader of M_Parser against a grammar of hand-written files (S_Written), which mentions neither parser nor regular expressions | for each form of line the leftmost match is computed with the takes/fails calculus (L_Written), then induction over note lines, postings and entries; refuted: a posting line that is accepted says what it is read as (amounts with a thousands separator or without a commodity are dropped) |
| C133 | the reader and loader (M_Parser, M_Database) against a grammar of whole databases (S_Whole) that mentions neither parser nor regular expressions | leftmost match of every form of definition, price, test and include line (L_Whole), where the body of a definition halts, then mutual induction over files, lines and includes into C76's entries; refuted: blanks at the end of an include line make no difference (they are part of the path, the file is silently not read) |
| C134 | loading and resolving a whole database (M_Database, M_Ledger) against a specification of entries that fit together (S_Consistent) | totality of entering, summing and checking postings by induction over transactions and registers with every amount in its account's commodity (L_Consistent), the tree by C38, prices by sorting; conversely C77 and C33 give the conditions back |
| C135 | the date expression and parseDate (M_Date) on arbitrary texts against the forms of the README (S_DateOption) | inversion of the match relation (soundness of the matcher) in one direction, completeness of the matcher in the other; acceptance of only whole dates is refuted by a witness |
| C136 | the same, on texts of the forms YYYY, YYYY/M, YYYY/M/D with an optional offset | the matcher run symbolically on arbitrary digits, calendar by C19, offsets by C18 |
| C137 | `coin tags` from the files to the text (M_Lists over M_Listing and M_Database) against the entries of the files (S_Lists) | C93 on the resolved ledger; the load order is determined (C137_order_unique); notes and accounts carried over by the refinement of C123 |
| C138 | `coin stats` from the files to the text | C94 on the resolved ledger, postings related to the ones written (values resolved by C126), window by C94_window |
| C139 | `coin accounts`: two files, ResolveAccounts, the text | C76, C38 (the tree does not depend on iteration orders), C68 for closed branches, C95 |
| C140 | `coin commodities` without -p or argument | C76, C96 |
| C141 | NewAmountFrac (M_Amount) against rational arithmetic | Euclidean division; false for equal fractions with signs turned |
| C142 | ToRegex built as in the code (M_Pattern), run by the matcher of M_Regex, against `spells` (S_Pattern) | the regular expression's matches are characterised word by word (soundness and completeness of the matcher) |
| C143 | the same against elements of names | the single colon of a gap is the end of an element; several colons: one direction, the other refuted |
| C144 | MustFindAccount with these patterns | C32 with C143 |
| C145 | Go's flag package (parseOne/Parse: the documented forms; M_Flags) with the options of balance, against `command_line` (S_Flags) | soundness and completeness by induction on the line; numbers are decimal only, see section 4 |
| C146 | the command of M_Flags over the loaded files (load_from of M_Coin) | C145 for the line, C126 for the loading and the listing |
| C147 | the test command (M_TestReport) with balance as the command under test | C127 with C146 for a ledger loaded from the test's own file |
| C148 | the options of register (M_RegLine) over M_Flags, against `asks` (S_RegLine) | C145's soundness and completeness; each option's last value; the unknown format is a refutation |
| C149 | the command of M_RegLine over the loaded files | C148 for the line, C126 (register, aggregated) for loading and text |
| C150 | the test command with register as the command under test | C127 with C149 for a ledger loaded from the test's own file |
| C151 | account_read (M_Database): ResolveAccounts replaces Unbalanced; accounts of M_Lists | C139 and C77 with `declared`/`declaration` of the specs; a declared Unbalanced is the refutation |
| C152 | M_Main: the aliases of all commands and `dispatch`; S_Main: the names of the commands | the model's table against the written one, `calls` as the specification of an argument list; coin without arguments combined with C146 |
| C153 | M_Main: the flags of accounts, tags, stats and commodities | C145 (command lines) combined with C137-C140; commodities without argument and without -q and -p only |
| C154 | test_commands (M_Main): the alias table of coin under the run of M_TestReport | C147 and C150 (outputs, for every map order) combined with C127 (the report) and C152 (names); the listing required is stated by `listing_for` over the entries |
| C155 | coin_prices, commodity_prices_line (M_PriceList): LoadPrices, ResolvePrices, the loops of execute; without -f (the location) | C76 (entries of the files), C14/C96 (lists per currency) and grouping by currency; S_PriceList states the listing over the price lines; C96_price_order_refuted stays: the order of the blocks is free |
| C156 | coin_price_stats, price_stats_line (M_PriceStats): Commodity.String and the loop of execute with -p | C96_price_stats (per currency), C155's grouping, C76; S_PriceStats states the lines over the price lines of the files |
| C157 | find_account_of_ofx_id (M_OfxAccount) over the accounts of a loaded database, account_rules_for (M_Rules) | C76 (accounts of the files), C38 (which accounts exist); partial: ids given to one account only; refuted for statements without id |
| C158 | times, add_in (M_Amount) over lists | induction on the list: truncating two products apart or together differs by at most one unit; an explicit list reaching the bound |

## 4. What is modelled and what is not

Modelled: the root package (`amount.go`, `commodity.go`, `price.go`, `account.go`, `posting.go`, `transaction.go`,
`date.go`/`month`/`year` helpers, `tags.go`, `parser.go`, `coin.go`, `test.go`, `regex helpers`), the reports and commands of
`cmd/coin` (balance, register, totals, format, modify, test, stats, tags, accounts, commodities), `cmd/gen2coin`, `cmd/ofx2coin`
(with `rules`), `cmd/csv2coin`, `cmd/gc2coin`, `cmd/coin2html` (the Go export and, of the
TypeScript page, `commodity.ts`, `account.ts`, `utils.ts` and the tables of `viewsRegister.ts`, `viewsBalances.ts`), and the parts named
in the table above of any other command.

Not modelled, or simplified (each simplification is repeated at the definition concerned):

* Text is a list of bytes. UTF-8 decoding and Unicode case folding are left out; `fmt` pads by rune count (modelled in M_Output for the reports of C120-C122, and the listings of C95-C96, C139-C140; bytes elsewhere).
* `bufio.Scanner`'s 64 KiB line limit; overflow of `int` for years beyond the 64-bit range.
* User-supplied regular expressions are arbitrary predicates (`compile`, `rexm`), except account patterns of plain words (with ^ and $ at the ends), whose regular expressions M_Pattern builds as ToRegex does; the program's own ones are transcribed.
* Slices are lists: no aliasing of backing arrays, except where a finding depends on it.
* Tree walks carry fuel; the theorems state how much suffices or hold for every fuel.
* Text layouts are those of `balance`, `register` (M_Output) and the listing commands (M_Listing, M_Lists); chart output is not modelled.
* `os.ExpandEnv`, `filepath.Glob` and the environment are parameters (`world`). The file system has no permissions, links or fsync.
* `test` command: the output of the commands under test is given (C64, C127, C128), except `balance` (C147) and `register` (C150).
* Command lines: Go's `flag` package as documented (M_Flags), with the options of `balance` and `register`; numbers in decimal only (no 0x, 0o, 0b, underscores), `-h`/`-help` is an unknown option.
* `format`/`modify`: the account/commodity tables do not change while the files are read.
* OFX, CSV, XML and gzip decoding is given (the decoded records are the input). OFX: one time zone per import, instants in seconds.
* GnuCash: `sort.Slice` is any sorting function, failed `big.Int.SetString` yields an arbitrary value (`junk`), `time.Parse`
  leniencies, price tables and `Children` fields, the `-l` (ledger) output form.
* `commodities -q` (network quotes) and the location column of `commodities -f X`.
* Page: the DOM, scales and colours of the charts, the positions of the boxes of the treemap; events are modelled as calls of their handlers with the value chosen, one after
  another. d3 itself (its time intervals are modelled by their calendar meaning), infinite prices in averages, averages deciding the order of columns (the theorems hold for every order).

## 5. Print Assumptions

Every theorem named in MANIFEST.json prints "Closed under the global context": no axiom is used, not even of the standard
library. (`vcheck` may list `ssr.ssrunder` entries: they belong to a loaded standard-library file, no theorem depends on them.)
