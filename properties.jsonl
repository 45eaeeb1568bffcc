{"id": "C01", "title": "Amount literals are read with an exactly known rounding", "statement": "Reading a literal [-]digits[.digits] as an amount of a commodity with D decimals either fails or yields exactly floor(literal * 10^D) minor units; if the literal has at most D fractional digits the reading is exact. It succeeds exactly when the literal's digits, ignoring the point, fit in int64 (and the power-of-ten table covers the digits).", "quantifier": "every literal of that shape, of any length, and every commodity", "why_tests_cant": "the set of literals, digit counts and decimals is infinite; rounding and overflow boundaries are corner cases", "anchors": ["amount.go:parseAmount", "pow10.go:bigPow10"]}
{"id": "C02", "title": "Reading is sign-symmetric (documented truncation)", "statement": "The README says computations are truncated to the commodity's decimals, so reading \"-x\" gives the negation of reading \"x\".", "quantifier": "every literal and commodity", "why_tests_cant": "only literals with excess fractional digits and a negative sign distinguish truncation from floor", "anchors": ["amount.go:parseAmount", "README.md:Implementation Notes"]}
{"id": "C03", "title": "Amount write/read round trip", "statement": "Writing an amount and reading the written text back with the same commodity gives the same amount, whenever its minor units fit in int64; when they do not, reading fails with an error instead of giving a different amount.", "quantifier": "every amount (unbounded integer) and every commodity with at most 50 decimals", "why_tests_cant": "unbounded integers, every number of decimals, padding of small fractions and signs", "anchors": ["amount.go:Write", "amount.go:Format", "amount.go:parseAmount"]}
{"id": "C04", "title": "Predicted print width is the real width", "statement": "Amount.Width(d), used to align columns, equals the length of the amount printed with its own decimals, for every amount below 10^50 minor units.", "quantifier": "every amount and commodity", "why_tests_cant": "boundary at every power of ten and sign and leading-zero combination", "anchors": ["amount.go:Width", "pow10.go:bigLog10"]}
{"id": "C05", "title": "Reduced-precision printing rounds half away from zero", "statement": "Printing an amount with p fractional digits yields a well formed decimal with exactly p fractional digits whose value differs from the amount by at most half a unit in the last printed place, ties going away from zero.", "quantifier": "every amount, commodity and precision", "why_tests_cant": "infinite value space; ties and carries (9.995) are corner cases", "anchors": ["amount.go:Format", "amount.go:String"]}
{"id": "C06", "title": "Adding up amounts of one commodity is exact and order independent", "statement": "Accumulating any list of amounts of one commodity into a zero amount never fails, gives the exact sum, and gives the same result for every order of the list; the accumulated operands are not changed.", "quantifier": "every list of amounts, every permutation", "why_tests_cant": "lists of every length and magnitude, all permutations", "anchors": ["amount.go:AddIn", "amount.go:adjustedTo"]}
{"id": "C07", "title": "Multiplying by a price truncates toward zero", "statement": "amount.Times(price) is the exact product of the two values truncated toward zero at the amount's own decimals: the error is below one minor unit and never away from zero, and Times commutes with negation.", "quantifier": "every pair of amounts with any decimals up to 50", "why_tests_cant": "infinite operand space, sign combinations", "anchors": ["amount.go:Times"]}
{"id": "C08", "title": "Amount equality and ordering", "statement": "For amounts of equal decimals IsEqual/IsLessThan/IsMoreThan agree with the order of the values and IsEqual is an equivalence; users rely on IsEqual being symmetric in general.", "quantifier": "every pair and triple of amounts", "why_tests_cant": "equality laws quantify over all pairs; asymmetry only shows with differing decimals and truncated digits", "anchors": ["amount.go:Cmp", "amount.go:IsEqual", "amount.go:adjustedTo"]}
{"id": "C09", "title": "Powers of ten and digit counts", "statement": "pow10/bigPow10 are 10^i, log10/bigLog10 are floor(log10) for every positive argument in range (0 below 10), bigLog10 ignores the sign and panics exactly from 10^50 on, and SetFraction(10^k) gives k decimals.", "quantifier": "every int64 / big integer argument", "why_tests_cant": "2^64 arguments; off-by-one at every power of ten", "anchors": ["pow10.go:log10", "pow10.go:pow10", "pow10.go:bigLog10", "pow10.go:bigPow10", "commodity.go:SetFraction"]}
{"id": "C10", "title": "Conversion finds a path iff one exists", "statement": "Commodity.Convert terminates on every price graph (cycles included) and succeeds exactly when a chain of known prices leads from the amount's commodity to the target, whatever order the price maps are iterated in.", "quantifier": "every price graph, every pair of commodities, every map iteration order", "why_tests_cant": "graphs with cycles of any size; Go randomises map iteration order", "anchors": ["commodity.go:Convert", "commodity.go:convert", "commodity.go:includedIn"]}
{"id": "C11", "title": "Conversion multiplies by the current price along a chain", "statement": "A successful conversion equals multiplying (with truncation at each hop) by the first (latest) price of every hop of some chain of price records from the amount's commodity to the target; a direct price is always preferred to a longer chain.", "quantifier": "every price graph, amount and iteration order", "why_tests_cant": "all graphs and all iteration orders", "anchors": ["commodity.go:convert"]}
{"id": "C12", "title": "Conversion results do not depend on map iteration order", "statement": "Converting the same amount with the same price database always gives the same result.", "quantifier": "every price graph and every pair of iteration orders", "why_tests_cant": "iteration order is randomised by the runtime; a test sees one order per run", "anchors": ["commodity.go:convert"]}
{"id": "C13", "title": "A converted amount is denominated in the target commodity", "statement": "The amount returned by c.Convert(amount, c2) is an amount in commodity c.", "quantifier": "every successful conversion", "why_tests_cant": "every graph; the label of the result is never inspected by the callers or tests", "anchors": ["commodity.go:convert", "amount.go:Times"]}
{"id": "C14", "title": "The price used is the latest price on record", "statement": "After prices are resolved, for every commodity and currency the first price of the list is at least as recent as every recorded price of that pair, the list holds exactly the recorded prices of the pair, and the global price list is in date order, whatever order the files were read in.", "quantifier": "every list of price records in every order", "why_tests_cant": "all input orders and all sizes", "anchors": ["coin.go:ResolvePrices", "commodity.go:AddPrice"]}
{"id": "C15", "title": "Dates survive being written and read back", "statement": "A date written in the standard format YYYY/MM/DD is read back as the same date, for every calendar date from year 100 to 9999, independently of today's date.", "quantifier": "every calendar date in the years 100..9999, every 'today'", "why_tests_cant": "3.6 million dates times every current date; leap years", "anchors": ["date.go:parseDate", "date.go:DateREX", "date.go:DateFormat"]}
{"id": "C16", "title": "Two digit years mean the closest year", "statement": "A two digit year is read as the year with those last two digits that is closest to today's year (README).", "quantifier": "every two digit year and every current year", "why_tests_cant": "depends on the clock: it fails only in some centuries", "anchors": ["date.go:parseDate", "README.md:Date Entry"]}
{"id": "C17", "title": "Year-less dates mean the closest date", "statement": "A date entered as M/D is the date with this month and day closest to today (README).", "quantifier": "every month/day and every current date", "why_tests_cant": "depends on the clock; only combinations near the 6 month boundary distinguish", "anchors": ["date.go:parseDate", "README.md:Date Entry"]}
{"id": "C18", "title": "Date offsets", "statement": "+Nd/-Nd moves the date by exactly N days, w by 7N days; m and y offsets keep the day of month whenever that day exists in the target month, and applying +N then -N days is the identity.", "quantifier": "every date and every offset", "why_tests_cant": "all dates, offsets, month lengths and leap years", "anchors": ["date.go:parseDate"]}
{"id": "C19", "title": "Calendar arithmetic", "statement": "Every day number corresponds to exactly one valid calendar date and back, consecutive day numbers are consecutive calendar dates, and out of range months/days normalise to the same instant as carrying them by hand.", "quantifier": "every integer day number, every (year, month, day)", "why_tests_cant": "unbounded domain, leap year rules", "anchors": ["date.go:parseDate", "cmd/coin/totals.go:week", "cmd/gen2coin/dates.go:weekly"]}
{"id": "C20", "title": "Reporting periods partition time", "statement": "The week/month/quarter/year a posting is reported under starts on or before it, contains it (less than 7 days / same month / same quarter / same year), is idempotent, and the assignment is monotone in time, so postings in date order give periods in date order.", "quantifier": "every date and every pair of dates", "why_tests_cant": "all dates, leap years and year ends", "anchors": ["cmd/coin/totals.go:week", "cmd/coin/totals.go:month", "cmd/coin/totals.go:quarter", "cmd/coin/totals.go:year"]}
{"id": "C21", "title": "A written ledger reads back as the same ledger", "statement": "Writing any list of transactions (each followed by an empty line, as format, modify and the importers do) and loading that text yields exactly the same transactions in the same order: dates, codes, descriptions, notes, accounts, quantities and asserted balances.", "quantifier": "every list of transactions with well formed fields, of any length, any alignment widths", "why_tests_cant": "infinite documents; the regular expressions, padding and note placement interact", "anchors": ["transaction.go:Write", "posting.go:Write", "transaction.go:parseTransaction", "parser.go:Next", "cmd/coin/format.go:writeTransactions"]}
{"id": "C22", "title": "Formatting is idempotent", "statement": "Running format on the output of format changes nothing.", "quantifier": "every loadable transaction file", "why_tests_cant": "depends on note placement and lengths of arbitrary text", "anchors": ["cmd/coin/format.go:execute", "transaction.go:Write", "transaction.go:parseTransaction"]}
{"id": "C23", "title": "Any header text can be written and read back", "statement": "A transaction's description and notes survive a write/read cycle.", "quantifier": "every description and list of notes", "why_tests_cant": "infinite strings; only particular shapes collide with the grammar", "anchors": ["transaction.go:transactionREX", "transaction.go:Write"]}
{"id": "C24", "title": "Comment lines inside a transaction never create postings", "statement": "A note line inside a transaction only adds a note (or nothing); loading never creates a posting for it and never crashes.", "quantifier": "every note line in every position", "why_tests_cant": "only empty notes / missing postings trigger it", "anchors": ["transaction.go:parseTransaction", "transaction.go:postingREX"]}
{"id": "C25", "title": "Entries are separated where their headers are", "statement": "A line that starts a new entry (in the first column) ends the transaction above it.", "quantifier": "every transaction followed by every entry", "why_tests_cant": "all pairs of neighbouring entries", "anchors": ["transaction.go:parseTransaction", "transaction.go:postingREX", "parser.go:Next"]}
{"id": "C26", "title": "Recorded locations point at the entry", "statement": "Every loaded entry's recorded line number is the 1-based number of the line its header is on.", "quantifier": "every file and every entry in it", "why_tests_cant": "files of every length with every mixture of entries, blank and comment lines", "anchors": ["parser.go:Scan", "parser.go:Next", "transaction.go:Location"]}
{"id": "C27", "title": "Commodity definitions survive being written and read back", "statement": "Writing a commodity and loading it gives the same id, name, decimals, no-market flag and symbol.", "quantifier": "every commodity", "why_tests_cant": "all names, decimals and flag combinations", "anchors": ["commodity.go:Write", "commodity.go:parseCommodity"]}
{"id": "C28", "title": "Account definitions survive being written and read back", "statement": "Writing an account and loading it gives the same full name, description, commodity, closing date and import ids.", "quantifier": "every account", "why_tests_cant": "all names and field combinations", "anchors": ["account.go:Write", "account.go:parseAccount"]}
{"id": "C29", "title": "Prices survive being written and read back", "statement": "Writing a price and loading it gives the same date, commodity, value and currency.", "quantifier": "every price", "why_tests_cant": "all dates, commodities and values", "anchors": ["price.go:Write", "price.go:parsePrice"]}
{"id": "C30", "title": "Tags set by modify are read back", "statement": "The tag line generated for a set of tags parses to exactly these tags.", "quantifier": "every set of tags", "why_tests_cant": "all keys and values; value length and separator interactions", "anchors": ["tags.go:ParseTags", "cmd/coin/modify.go:mustParseTags"]}
{"id": "C31", "title": "Inverted tag filters select the complement", "statement": "A tag expression with leading ! selects exactly the postings the expression without it does not select.", "quantifier": "every tag expression and every set of tags", "why_tests_cant": "all tag sets; needs postings with several or no tags", "anchors": ["tags.go:NewTagMatcher", "tags.go:Match"]}
{"id": "C32", "title": "Account patterns resolve unambiguously", "statement": "A full account name always denotes that account; another pattern denotes the only matching account, or the matching account all other matches are below, and anything else is rejected.", "quantifier": "every pattern and every set of accounts", "why_tests_cant": "all account sets; needs three or more matches", "anchors": ["coin.go:MustFindAccount", "coin.go:FindAccounts"]}
{"id": "C33", "title": "Loaded transactions balance", "statement": "After loading, every transaction whose accounts share one commodity sums to zero in it; if exactly one quantity was left out it is the negated sum of the others; a transaction that cannot be balanced, with two missing quantities, or with mixed commodities and a missing quantity stops the load.", "quantifier": "every list of transactions", "why_tests_cant": "all posting counts, quantities and positions of the missing one", "anchors": ["coin.go:ResolveTransactions"]}
{"id": "C34", "title": "Account registers are complete and in date order", "statement": "After loading, each account's register holds exactly the postings made to it, each once, in date order, same-day postings in the order they were read.", "quantifier": "every sequence of transactions in every file order", "why_tests_cant": "all interleavings of dates and accounts", "anchors": ["coin.go:ResolveTransactions", "account.go:addPosting", "account.go:findPosting", "account.go:sortPostings"]}
{"id": "C35", "title": "Adding, deleting and moving postings", "statement": "On a register in date order, adding a posting keeps the order and inserts it after its same-day postings, adding twice is the same as once, deleting removes exactly that posting, delete undoes add, and moving a posting takes it from one register to the other and touches nothing else.", "quantifier": "every register and every sequence of add/delete/move operations", "why_tests_cant": "all operation sequences and date ties", "anchors": ["account.go:addPosting", "account.go:deletePosting", "account.go:findPosting", "posting.go:MoveTo"]}
{"id": "C36", "title": "Running balances and balance assertions", "statement": "After loading, a posting without an asserted balance carries the sum of the account's postings up to and including it, the account's balance is the total, and a warning is issued for exactly the asserted balances that differ from that sum.", "quantifier": "every register", "why_tests_cant": "all lengths and positions of assertions", "anchors": ["account.go:CheckPostings"]}
{"id": "C37", "title": "The books balance", "statement": "In a ledger whose transactions balance in one commodity, the cumulative total of the root account is zero, and every account's cumulative total is the sum of its own and all its descendants' postings.", "quantifier": "every account tree and every set of balanced transactions", "why_tests_cant": "all trees and ledgers", "anchors": ["cmd/coin/balance.go:execute", "account.go:WithChildrenDo", "account.go:FirstWithChildrenDo"]}
{"id": "C38", "title": "The account tree is complete", "statement": "After accounts are resolved every account is reached exactly once from the root, missing intermediate accounts exist, every account's parent is the account named by its name minus the last segment (or the root), for every map iteration order.", "quantifier": "every set of account names and every map iteration order", "why_tests_cant": "all sets and all runtime iteration orders", "anchors": ["coin.go:ResolveAccounts", "account.go:adopt", "account.go:parentAndName"]}
{"id": "C39", "title": "Transaction order", "statement": "After loading, transactions are in date order, same-day transactions with balance assertions after those without, otherwise in reading order, and none is lost or duplicated.", "quantifier": "every list of transactions", "why_tests_cant": "all lists and ties", "anchors": ["coin.go:ResolveTransactions", "transaction.go:Less"]}
{"id": "C40", "title": "Reformatting does not change balance checks", "statement": "Rewriting a file with format does not change which balance assertions hold.", "quantifier": "every transaction file", "why_tests_cant": "needs particular same-day combinations of asserted and plain transactions", "anchors": ["cmd/coin/format.go:execute", "transaction.go:Less", "account.go:CheckPostings"]}
{"id": "C41", "title": "Transactions of a day", "statement": "On a date-ordered list, Day(d) returns exactly the transactions posted at d, in order.", "quantifier": "every sorted list and every day", "why_tests_cant": "all lists and boundaries", "anchors": ["transaction.go:Day"]}
{"id": "C42", "title": "Dropping transactions undoes loading them", "statement": "After DropTransactions every account's register is what it was before these transactions were loaded.", "quantifier": "every ledger", "why_tests_cant": "all sequences of loads", "anchors": ["transaction.go:DropTransactions", "posting.go:drop"]}
{"id": "C43", "title": "Date range selection is a half-open interval", "statement": "Selecting by -b/-e keeps exactly the postings with begin <= date < end in their order, so consecutive ranges partition the register and their totals add up.", "quantifier": "every register and every pair of bounds", "why_tests_cant": "all lists, all bounds, all ties", "anchors": ["cmd/coin/utils.go:trim", "cmd/coin/stats.go:transactions"]}
{"id": "C44", "title": "Register running totals", "statement": "Line i of a register shows the sum of the first i postings in the account's commodity.", "quantifier": "every list of postings", "why_tests_cant": "all lengths", "anchors": ["cmd/coin/postings.go:totals"]}
{"id": "C45", "title": "Aggregation by period and category loses nothing", "statement": "Aggregating a date-ordered register yields strictly increasing periods; the total shown for a period (and category) is the sum of exactly the postings falling in it; the grand total is the sum of all postings.", "quantifier": "every register, every period and category reducer", "why_tests_cant": "all registers", "anchors": ["cmd/coin/totals.go:add"]}
{"id": "C46", "title": "Merging aggregated registers", "statement": "Merging sub-account totals into a parent gives, for every period, the sum of both, over the union of the periods in order; merging keys only adds missing periods as zero and changes no total.", "quantifier": "every pair of timelines", "why_tests_cant": "all interleavings of two timelines", "anchors": ["cmd/coin/totals.go:mergeTotals"]}
{"id": "C47", "title": "Top-n plus Other shows everything", "statement": "Reducing an aggregated register to the top n accounts plus Other preserves the overall total of every period.", "quantifier": "every set of account totals and every n", "why_tests_cant": "needs exactly n+1 accounts", "anchors": ["cmd/coin/totals.go:top"]}
{"id": "C48", "title": "Aggregated register never crashes", "statement": "register with an aggregation option prints a result for every account and ledger.", "quantifier": "every account tree and ledger", "why_tests_cant": "needs more than -g sub-accounts and no own postings", "anchors": ["cmd/coin/register.go:aggregatedRegister", "cmd/coin/totals.go:mergeTime", "cmd/coin/totals.go:top"]}
{"id": "C49", "title": "Cumulative register", "statement": "With -c the total of every period is the sum of the original totals of all periods up to it.", "quantifier": "every timeline", "why_tests_cant": "all lengths", "anchors": ["cmd/coin/totals.go:makeCumulative"]}
{"id": "C50", "title": "Shortened account names", "statement": "ShortenAccountName keeps the number of segments, shortens each to a nonempty prefix, leaves short names alone, and reaches the requested size whenever one character per segment allows it.", "quantifier": "every name and size", "why_tests_cant": "all strings and sizes", "anchors": ["account.go:ShortenAccountName"]}
{"id": "C51", "title": "In-place rewriting is crash safe", "statement": "At every crash point during format -i / modify the named file holds the complete old or the complete new content.", "quantifier": "every crash point and every file content", "why_tests_cant": "crash points are not testable by unit tests", "anchors": ["cmd/coin/format.go:execute", "cmd/coin/modify.go:execute"]}
{"id": "C52", "title": "In-place rewriting loses nothing", "statement": "format -i keeps every entry of the file.", "quantifier": "every file", "why_tests_cant": "all mixtures of entries", "anchors": ["cmd/coin/format.go:execute", "coin.go:Load"]}
{"id": "C53", "title": "modify moves every matching posting", "statement": "modify -a X -a: Y moves every posting of X in the selected transactions to Y and changes nothing else.", "quantifier": "every transaction", "why_tests_cant": "needs two matching postings in one transaction", "anchors": ["cmd/coin/modify.go:modify", "cmd/coin/modify.go:modifyPosting"]}
{"id": "C54", "title": "Include cycles are rejected", "statement": "Loading a file with cyclic includes terminates with an error.", "quantifier": "every include graph", "why_tests_cant": "all graphs; only self loops are tested", "anchors": ["coin.go:Load", "include.go:Files"]}
{"id": "C55", "title": "Two-sided posting", "statement": "Post/PostConversion create exactly two postings, the first one not negative first when amounts differ in sign; Post's quantities sum to zero and both are entered in their accounts' registers.", "quantifier": "every pair of accounts and amount", "why_tests_cant": "all amounts and registers", "anchors": ["transaction.go:Post", "transaction.go:PostConversion"]}
{"id": "C56", "title": "First matching rule wins", "statement": "Import rule lookup returns the first rule, in written order with rule sets expanded in place, whose pattern matches the payee, and none iff no rule matches.", "quantifier": "every rule index and payee", "why_tests_cant": "all nestings of rule sets", "anchors": ["rules.go:RuleFor", "rules.go:ScanRules"]}
{"id": "C57", "title": "Import de-duplication", "statement": "The OFX import writes no transaction equal to one already in the ledger on that day, writes no two equal transactions, drops nothing else, and a balance carried only by a dropped duplicate is kept on the written one.", "quantifier": "every batch and ledger", "why_tests_cant": "all batches", "anchors": ["cmd/ofx2coin/main.go:main", "transaction.go:FindEqual", "transaction.go:MergeDuplicate"]}
{"id": "C58", "title": "Imported bank transactions balance", "statement": "Every transaction built from an OFX record has two postings whose quantities sum to zero, and the account side carries the statement amount.", "quantifier": "every record, rule set and commodity", "why_tests_cant": "all amounts", "anchors": ["cmd/ofx2coin/main.go:newTransaction"]}
{"id": "C59", "title": "Generated date sequences", "statement": "weekly/monthly generate only dates between begin and end inclusive that fall on the requested days, in ascending order.", "quantifier": "every begin/end, day list, count, interval and random choice", "why_tests_cant": "random; all ranges", "anchors": ["cmd/gen2coin/dates.go:weekly", "cmd/gen2coin/dates.go:monthly"]}
{"id": "C60", "title": "Splitting by label loses nothing", "statement": "batchesByLabel over a date-ordered list puts every transaction in the file of its own label, in order.", "quantifier": "every list and label function monotone in time", "why_tests_cant": "all lists", "anchors": ["cmd/gen2coin/main.go:batchesByLabel"]}
{"id": "C61", "title": "Integer power", "statement": "gen2coin's pow(b,e) is b^e for every e >= 0, modulo 2^64.", "quantifier": "every base and exponent", "why_tests_cant": "unbounded exponents and wrap-around", "anchors": ["cmd/gen2coin/rule.go:pow"]}
{"id": "C62", "title": "BMO filter works for every read size", "statement": "The bytes delivered by the BMO reader do not depend on the sizes of the reads and are the input lines minus the invalid ones, plus the missing blank line.", "quantifier": "every input and every sequence of buffer sizes", "why_tests_cant": "all read schedules", "anchors": ["cmd/ofx2coin/bmo.go:Read"]}
{"id": "C63", "title": "Generated running balances", "statement": "With -wb every generated posting carries the account's running balance.", "quantifier": "every generated ledger", "why_tests_cant": "random ledgers", "anchors": ["cmd/gen2coin/rule.go:generatePostings", "cmd/gen2coin/main.go:main", "account.go:CheckPostings"]}
{"id": "C64", "title": "Test files keep their content when updated", "statement": "Updating a test file with computed results keeps every original line in order and inserts each result right after its test line.", "quantifier": "every file and every set of tests", "why_tests_cant": "all files", "anchors": ["cmd/coin/test.go:updateTestFile"]}
{"id": "C65", "title": "Adding tags keeps existing tags", "statement": "After modify adds tags to a transaction or posting it has the added tags with the given values, and every other tag it had is unchanged.", "quantifier": "every list of notes and every tag argument", "why_tests_cant": "depends on how every possible existing note text interacts with the appended tag line", "anchors": ["cmd/coin/modify.go:addTagLine", "cmd/coin/modify.go:mustParseTags", "tags.go:ParseTags"]}
{"id": "C66", "title": "Value tags are read as documented", "statement": "A note containing #key: value, the value ended by a comma or the end of the line, yields the tag key with that value, trimmed.", "quantifier": "every key, value and surrounding text", "why_tests_cant": "greedy/backtracking behaviour of the expression has to be right for every text", "anchors": ["tags.go:tagREX", "tags.go:ParseTags", "README.md"]}
{"id": "C67", "title": "Listing postings never crashes on a loadable ledger", "statement": "For every ledger that loads, the register and print listings of any account show every selected posting; in particular a transaction with a single posting (whose missing amount is filled with zero) is listed.", "quantifier": "every loadable ledger and account", "why_tests_cant": "the failing shape (a transaction with one posting) is legal, loads silently and only breaks in one report", "anchors": ["transaction.go:Other", "cmd/coin/postings.go:print", "cmd/coin/register.go"]}
{"id": "C68", "title": "Closed accounts", "statement": "An account counts as closed exactly when it or some account above it has a closing date.", "quantifier": "every account tree, every set of closing dates, every map iteration order", "why_tests_cant": "ranges over all trees and all sets of closed accounts", "anchors": ["account.go:IsClosed", "coin.go:ResolveAccounts"]}
{"id": "C69", "title": "Payee and tag options select the same way in every account", "statement": "Selecting with -p and -t keeps, in every account of the report, exactly the postings whose payee matches the pattern (or does not, with ! in front) and of which a tag or a tag of the transaction matches.", "quantifier": "every list of registers and every option value", "why_tests_cant": "ranges over all registers, orders of visiting them and option values; the option is changed while it is used", "anchors": ["cmd/coin/register.go: cmdRegister.trim", "cmd/coin/balance.go: trim", "tags.go: NewTagMatcher, Match"]}
{"id": "C70", "title": "The aggregated register shows the right sums", "statement": "For every account tree and selection in one commodity, the aggregated register of an account has, in order, one line for every period and category with a posting in or below the account, and on each line every account's column shows the sum of the postings it counts (own or, with -r, those below too; with -c up to that period; the last column those of all remaining accounts).", "quantifier": "every account tree, selection, period, category, n", "why_tests_cant": "composition of five passes over arbitrary trees and timelines", "anchors": ["cmd/coin/register.go: aggregatedRegister", "cmd/coin/totals.go"]}
{"id": "C71", "title": "Aggregating by tags groups equal tags", "statement": "Two postings fall in the same category of a register by tags iff they have the same tags with the same values, the posting's own tags taking precedence over its transaction's; the category does not depend on map iteration order and is never empty.", "quantifier": "every pair of note lists, every map order", "why_tests_cant": "quantifies over all texts and iteration orders", "anchors": ["cmd/coin/totals.go: tags reducer", "tags.go: With, KeysAndValues, ParseTags"]}
{"id": "C72", "title": "The recursive register is in date order", "statement": "register -r lists every selected posting of the account and all accounts below it exactly once, in date order, those of one day in the order of the accounts.", "quantifier": "every selection and account list", "why_tests_cant": "all lists and interleavings of dates", "anchors": ["cmd/coin/register.go: fullRegister"]}
{"id": "C73", "title": "Generated dates are complete", "statement": "weekly/monthly generate every requested day of every scheduled week/month within the range (if count allows all the days), and a scheduled week lying within the range gets exactly min(count, number of days) dates.", "quantifier": "every begin/end, day list, count, interval and random choice", "why_tests_cant": "random; all ranges, including ends falling on week and month boundaries", "anchors": ["cmd/gen2coin/dates.go:weekly", "cmd/gen2coin/dates.go:monthly"]}
{"id": "C74", "title": "Generated transactions obey their rules", "statement": "gen2coin makes one transaction per generated date, in date order; each moves an amount within the rule's bounds from one of the rule's 'from' accounts to one of its 'to' accounts, the two postings cancelling each other.", "quantifier": "every rule set, date range and random choice", "why_tests_cant": "random ledgers", "anchors": ["cmd/gen2coin/rule.go:generateTransactions", "cmd/gen2coin/rule.go:generatePostings", "cmd/gen2coin/rule.go:amtBetween", "cmd/gen2coin/main.go:main"]}
{"id": "C75", "title": "format -t normalises white space and nothing else", "statement": "format -t replaces the description and every note of a transaction by its words separated by single spaces (dates, codes, postings are as without -t), and applying it again changes nothing.", "quantifier": "every text and every transaction file", "why_tests_cant": "all mixtures of white space and words", "anchors": ["cmd/coin/format.go:execute", "cmd/coin/format.go:trimWS"]}
{"id": "C76", "title": "Included files are read in place", "statement": "Loading a list of files yields exactly the entries of those files in order, with the entries of included files in the place of the include line; a relative include path is taken from the directory of the including file (.. leaves a directory); each entry is read with the commodities defined before it, in whichever file; the result is determined by the files, and everything that can be read this way does load when enough files may be open.", "quantifier": "every set of files, every include structure, every environment and glob result", "why_tests_cant": "include structures, path shapes and file contents are unbounded", "anchors": ["coin.go: Load, LoadFile; include.go", "parser.go: Next"]}
{"id": "C77", "title": "What a loaded database is", "statement": "After a successful load of a database directory: the accounts are the declared ones, everything above them and the two built-in ones, once each; the last declaration of an account or commodity wins; every account has a known commodity; the transactions are those of the files, each completed and balanced, sorted in time order, and every account's register holds exactly the postings made to it, in order.", "quantifier": "every database directory, every map iteration order", "why_tests_cant": "histories of entries and iteration orders are unbounded", "anchors": ["coin.go: LoadAll, ResolveAll", "account.go: ResolveAccounts", "transaction.go: ResolveTransactions"]}
{"id": "C78", "title": "The books of a one-commodity database balance", "statement": "If the files of the database define a single commodity, then after loading the balance report shows zero for all accounts together, on whichever choice of days.", "quantifier": "every database directory with one commodity, every set of days, every map iteration order", "why_tests_cant": "needs the composition of parser, resolution, registers and account tree for all inputs", "anchors": ["coin.go: LoadAll", "cmd/coin/balance.go", "account.go: CumulativeBalances"]}
{"id": "C79", "title": "Every database file is read once", "statement": "Loading a database directory reads no file twice.", "quantifier": "every database directory", "why_tests_cant": "depends on which of the optional files exist", "anchors": ["coin.go: LoadAll, LoadPrices"]}
{"id": "C80", "title": "Dumped import rules read back", "statement": "The rules printed by -rules of ofx2coin and csv2coin can be used as a rules file that has, for each account id, the same account and for each payee the same rule.", "quantifier": "every rules file, account id, payee and order of the map iteration", "why_tests_cant": "all nestings of rule sets, all patterns, all map orders", "anchors": ["rules.go: RuleIndex.Write, writeRules, ReadRules", "cmd/ofx2coin/main.go: main", "cmd/csv2coin/main.go: main"]}
{"id": "C81", "title": "Every statement record is imported once", "statement": "Reading OFX files makes, for each record of each statement in the order of the files, exactly one transaction for the account of the statement, or none when the first matching rule has no account; the transactions of the ledger, their postings and registers are not changed by it.", "quantifier": "every list of OFX files, rules file and ledger", "why_tests_cant": "all files, statements, records, rules and ledgers", "anchors": ["cmd/ofx2coin/main.go: main, readTransactions, newTransaction", "rules.go: AccountRulesFor, RulesFor"]}
{"id": "C82", "title": "Importing the same statements twice adds nothing", "statement": "After the output of an OFX import is added to the ledger, importing the same statements again writes no transaction.", "quantifier": "every ledger, rules file and list of OFX files", "why_tests_cant": "two runs with a reload between them, all batches and ledgers", "anchors": ["cmd/ofx2coin/main.go: main", "transaction.go: FindEqual, IsEqual", "coin.go: Load, ResolveTransactions"]}
{"id": "C83", "title": "CSV field values mean what the source says", "statement": "The value of a named field of a csv.rules source, for any row, is that of the first of its definitions that gives a non-empty text: the column, the template filled with the groups matched in the column, or the template filled with other named values when the condition matches; undefined names are empty, and there is exactly one value.", "quantifier": "every row, every source mapping (any number of definitions, any references between names), every regular expression and template", "why_tests_cant": "Mappings are user-written programs with recursion, alternatives and templates; tests show a few.", "anchors": ["cmd/csv2coin/rules.go:Field.Value", "cmd/csv2coin/rules.go:Fields.Value", "cmd/csv2coin/rules.go:derivedField", "cmd/csv2coin/rules.go:directField", "cmd/csv2coin/README.md"]}
{"id": "C84", "title": "A CSV row becomes one balanced two-posting transaction", "statement": "Every row imported by csv2coin either is dropped by a '--' rule or yields exactly one transaction with two postings on the row's date: opposite amounts in one commodity when nothing is traded; a quantity and a cost with opposite signs when symbol and quantity are given. A row with a date, readable amounts and known commodities is always imported.", "quantifier": "all rows, mappings, rules, commodities and ledgers", "why_tests_cant": "Combines arbitrary data, rules and commodities.", "anchors": ["cmd/csv2coin/main.go:transactionFrom", "transaction.go:PostConversion"]}
{"id": "C85", "title": "CSV postings go to accounts of the right commodity", "statement": "Each posting of an imported CSV row goes to an account of the posting's commodity at or below the account meant (that of the row's account id or of the first matching rule), or to Unbalanced if there is none; a sub-account is substituted only if the commodity does not match the account.", "quantifier": "all account trees, commodities, rules and rows", "why_tests_cant": "Quantifies over account trees.", "anchors": ["cmd/csv2coin/main.go:findAccountForCommodity", "account.go:FirstWithChildrenDo", "cmd/csv2coin/README.md"]}
{"id": "C86", "title": "CSV import covers every data row and writes by date", "statement": "csv2coin skips the header rows of each file, imports every remaining row of all files in order, leaves the existing ledger as it was, and writes the transactions in date order, rows of one date in the order of the input; -fields assigns columns in the documented order.", "quantifier": "all lists of files, rows, skip counts, -fields values", "why_tests_cant": "Holds for every number of files and rows.", "anchors": ["cmd/csv2coin/main.go:main", "cmd/csv2coin/main.go:readTransactions", "cmd/csv2coin/main.go:parseFields"]}
{"id": "C87", "title": "csv.rules sources are read as written", "statement": "Reading a csv.rules file gives, for each source, its name, skip count and for each name its definitions in the order written (column, extraction, derivation, condition), independent of blanks; the last source of a name wins; the rules after --- are read as in ofx.rules.", "quantifier": "all rules files, names, templates, expressions, amounts of white space", "why_tests_cant": "The grammar is a set of regular expressions over arbitrary text.", "anchors": ["cmd/csv2coin/rules.go:ReadRules", "cmd/csv2coin/rules.go:ScanSource", "cmd/csv2coin/README.md"]}
{"id": "C88", "title": "GnuCash amounts are exact", "statement": "Converting a GnuCash book, a value n/d with positive d becomes the amount of the account's commodity that equals n/d if the commodity has enough decimals, and otherwise the largest one below it; a value that is not a fraction, or with a denominator that is not positive, stops the conversion.", "quantifier": "every text of a fraction, every commodity", "why_tests_cant": "Numerators, denominators and decimals are unbounded; rounding of negative values and currencies without a fraction need a proof for all of them.", "anchors": ["gnucash/gnucash.go:mustParseAmount", "amount.go:NewAmountFrac", "gnucash/commodity.go:CommodityFrom"]}
{"id": "C89", "title": "GnuCash accounts keep their place", "statement": "Every account of a GnuCash book becomes one account whose full name is the names of its parents (below the root) and its own joined by colons, without blanks, with its commodity, description and online id; accounts.coin lists all of them by name whatever order the maps are gone through; accounts without a way to the root, of unknown commodities or with an online id without a number stop the conversion.", "quantifier": "every list of accounts and every order of map iteration", "why_tests_cant": "The tree of accounts is unbounded and Go's map iteration order is random.", "anchors": ["gnucash/account.go:resolveAccounts", "gnucash/account.go:buildFullName", "cmd/gc2coin/main.go:main"]}
{"id": "C90", "title": "GnuCash transactions and registers", "statement": "Every transaction of a GnuCash book becomes one transaction with its time, number, description, notes and one posting for each split with its account and amount; transactions and prices are in order of time; the register of each account has exactly its postings in order of time with the balance after each; transactions that balance stay balanced; nothing written depends on the order of map iteration.", "quantifier": "every book, every correct sorting procedure, every order of map iteration", "why_tests_cant": "Histories are unbounded, sort.Slice is not stable and map order is random: tests see one schedule.", "anchors": ["gnucash/transaction.go:resolveTransactions", "gnucash/split.go:resolveSplits", "gnucash/price.go:resolvePrices"]}
{"id": "C91", "title": "gc2coin output is read back", "statement": "The files gc2coin writes contain the commodities, prices, accounts and transactions of the book and nothing else; reading them with coin gives back the same entries; other files are not touched.", "quantifier": "every book and every previous content of the directory", "why_tests_cant": "Names and descriptions are arbitrary texts.", "anchors": ["cmd/gc2coin/main.go:main", "account.go:Write", "transaction.go:Write"]}
{"id": "C92", "title": "gc2coin -y splits by year", "statement": "With -y every transaction and every price of the book is in the file of its year, and in no other, in order of time; other files are not touched.", "quantifier": "every book and every previous content of the directory", "why_tests_cant": "The loss happens only for particular sequences of time zones around New Year; tests use one zone.", "anchors": ["cmd/gc2coin/main.go:main"]}
{"id": "C93", "title": "tags lists every tag name once with its values and accounts", "statement": "`coin tags [-v] [-a] [NAMEREX]` prints exactly the tag names occurring on any transaction or posting and matching the pattern, in ascending order, each once; with -v the distinct non-empty values in ascending order, with -a the accounts of the postings carrying the tag and of all postings of transactions carrying it, each once in order of first use. The output does not depend on Go's map iteration order.", "quantifier": "all ledgers, patterns, flags and map iteration orders", "why_tests_cant": "Go randomizes map iteration; a test sees one order and a few ledgers", "anchors": ["cmd/coin/tags.go:execute", "cmd/coin/tags.go:collectKeys", "cmd/coin/tags.go:sortAndClean", "cmd/coin/tags.go:add"]}
{"id": "C94", "title": "stats -d finds every duplicate pair, -u every unbalanced posting, -c every suspicious conversion", "statement": "On a loaded ledger `coin stats -d` reports each pair of same-day transactions of the date range with the same code and pairwise equal accounts and quantities exactly once and nothing else; -u reports a transaction once per posting to Unbalanced; -c reports exactly the two-posting transactions moving q to -q of another commodity; the transaction count is that of the range; the command never panics. Reported duplicates should have the same commodities.", "quantifier": "all ledgers that load, all date ranges", "why_tests_cant": "the day buffer is reused across days: whether a pair is missed depends on the whole sequence of days", "anchors": ["cmd/coin/stats.go:execute", "cmd/coin/stats.go:transactions", "transaction.go:IsEqual"]}
{"id": "C95", "title": "accounts lists each matching open account once, by name", "statement": "`coin accounts [-c] [PATTERN]` prints each account matching the pattern, not closed unless -c, exactly once, in ascending order of full names, the columns aligned to the longest matching name.", "quantifier": "all account trees, patterns, closing dates and map orders", "why_tests_cant": "map iteration order and widths depend on all accounts at once", "anchors": ["cmd/coin/accounts.go:execute", "coin.go:AccountsDo"]}
{"id": "C96", "title": "commodities lists every commodity and all its prices, newest first", "statement": "`coin commodities` prints every commodity once by id, marked Q iff it has a symbol and a market; `coin commodities ID` prints all recorded prices of the commodity, in each currency newest first; -p prints per currency the newest price and the number of prices. The output should be the same on every run.", "quantifier": "all commodity sets, price histories and map orders", "why_tests_cant": "prices are grouped in a Go map: the order of the currencies is random per run", "anchors": ["cmd/coin/commodities.go:execute", "commodity.go:String", "coin.go:ResolvePrices"]}
{"id": "C97", "title": "Exported amounts survive the trip to the page", "statement": "The amount text that coin2html exports for a quantity, balance or price value is read by the page as the same number of minor units of the same commodity, and printed back without separators it is the exported text (so loading the prices never throws).", "quantifier": "every commodity (id without spaces, at most 50 decimals) and every amount of at most 2^53 minor units; beyond that it is false", "why_tests_cant": "needs all sign/decimals/leading-zero combinations and the exact double limit", "anchors": ["amount.go:MarshalJSON", "cmd/coin2html/js/src/commodity.ts:Amount.parse,Amount.toString,loadPrices"]}
{"id": "C98", "title": "Displayed amounts", "statement": "The text the page displays for an amount is the exact decimal value with the commodity's number of decimals, whole units grouped in threes by commas; the page's own reader accepts its display only below a million units.", "quantifier": "every amount and commodity", "why_tests_cant": "all lengths of numbers and decimals; the tests use a few literals", "anchors": ["cmd/coin2html/js/src/commodity.ts:Amount.toString,triplets,Amount.parse"]}
{"id": "C99", "title": "Page conversions round half up", "statement": "Converting an amount with a price on the page gives the exact product rounded to the price commodity's minor unit, halves up, despite double arithmetic.", "quantifier": "every amount and price whose product in minor units plus 10^decimals is below 2^53", "why_tests_cant": "double rounding errors could flip a half for some of 2^53 products; no test can try them", "anchors": ["cmd/coin2html/js/src/commodity.ts:convertTo"]}
{"id": "C100", "title": "Price used for a day on the page", "statement": "The page always values an amount with one of the known prices of the pair, never failing for any day; the price is the first on or after a Sunday between 16 days before and 9 days after the day. It is not always the latest price on or before the day.", "quantifier": "every non-empty price history and every day", "why_tests_cant": "every history and day; index arithmetic on the week scale", "anchors": ["cmd/coin2html/js/src/commodity.ts:newConversion"]}
{"id": "C101", "title": "Conversion chains on the page", "statement": "The page finds a conversion between two commodities exactly when a chain of prices links them, uses a shortest chain, and the answer does not depend on conversions searched before (which leave composed conversions behind).", "quantifier": "every set of prices, every pair of commodities, every history of earlier searches", "why_tests_cant": "graph search with a mutable cache: all graphs and all histories", "anchors": ["cmd/coin2html/js/src/commodity.ts:findConversion,composeConversions,conversions"]}
{"id": "C102", "title": "Data cannot break out of the page", "statement": "Whatever the texts in the ledger contain (markup, quotes, control characters), each data element of the exported page ends where coin2html ended it, contains no '<', and JSON.parse of its text is exactly the exported value.", "quantifier": "every exported value (any nesting of objects, arrays, texts), every text before and after", "why_tests_cant": "an injection needs one unlucky text; no finite test set covers all texts and nestings", "anchors": ["cmd/coin2html/main.go:main", "encoding/json (indentation, HTML escaping)", "cmd/coin2html/js/src/ui.ts:initializeUI"]}
{"id": "C103", "title": "The page has the books", "statement": "After exporting and loading, the page has every account but Root with its name, parent, children, commodity, closing date; every transaction in ledger order with description, code, notes; and each account's register consists of exactly the postings made to it, in transaction order, with the exact quantity, balance, assertion flag, notes and tags. False if there are no transactions, a transaction without postings, or an account whose last segment is Root.", "quantifier": "every ledger that loads and checks, with at most 2^53 minor units and 50 decimals per amount and four-digit years", "why_tests_cant": "end to end over two programs and a text format, for every ledger", "anchors": ["account.go:MarshalJSON", "transaction.go:MarshalJSON", "posting.go:MarshalJSON", "commodity.go:MarshalJSON", "cmd/coin2html/main.go:main", "cmd/coin2html/js/src/account.ts:loadAccounts,loadTransactions", "cmd/coin2html/js/src/commodity.ts:loadCommodities"]}
{"id": "C104", "title": "Displayed dates", "statement": "The date shown for a transaction on the coin2html page is the transaction's date. True exactly for browsers in time zones at or west of UTC; in every zone east of UTC the day before is shown.", "quantifier": "every day and every time zone (any function from days to local midnights less than a day from UTC midnight)", "why_tests_cant": "tests run in one time zone", "anchors": ["cmd/coin2html/js/src/utils.ts:dateToString", "cmd/coin2html/js/src/account.ts:loadTransactions"]}
{"id": "C105", "title": "Date range of registers", "statement": "The register shows exactly the postings from the start date to the end date, both included; the range at start-up includes every posting. The start-up part holds in every zone; for dates typed in it holds at UTC only: west of UTC the postings of the end day are missing, east of UTC those of the start day.", "quantifier": "every register, range and time zone; every exported ledger", "why_tests_cant": "depends on the time zone and on the order of every register", "anchors": ["cmd/coin2html/js/src/utils.ts:trimToDateRange", "cmd/coin2html/js/src/ui.ts:initializeUI", "cmd/coin2html/js/src/account.ts:loadTransactions"]}
{"id": "C106", "title": "Balances view", "statement": "The balance shown for an account is the sum of the quantities posted to it up to the date, an account's total is the sum of the balances of the accounts shown beneath it (closed ones and those beneath them hidden unless asked for). False for the balance if a transaction with a balance assertion precedes another transaction of the day in the file: then an outdated balance is shown.", "quantifier": "every ledger loaded without warnings, every account tree, date, time zone", "why_tests_cant": "end to end from ledger file to table over every tree and history", "anchors": ["cmd/coin2html/js/src/account.ts:balanceAt,withAllChildBalances,isClosed", "cmd/coin2html/js/src/viewsBalances.ts:viewBalances", "transaction.go:ResolveTransactions"]}
{"id": "C107", "title": "Register running totals", "statement": "The Cum.Total column of a register row is the exact sum of the amounts of the rows so far; the register with subaccounts has exactly the postings of all its accounts in the range, by date, same-day postings in the order of the accounts.", "quantifier": "every list of postings in one commodity within 2^53, every set of registers, range and zone", "why_tests_cant": "must hold for every history", "anchors": ["cmd/coin2html/js/src/viewsRegister.ts:renderPostings,renderPostingsWithSubAccounts", "cmd/coin2html/js/src/account.ts:withAllChildPostings"]}
{"id": "C108", "title": "Aggregation by period", "statement": "An aggregated register has one row for each week, month, quarter or year beginning in the range, with exactly the postings of that period, their sum, running total and last balance; a range of whole periods accounts for all its postings. False for other ranges: the postings of the first incomplete period are in no row, and rows before the first posting of the range show the balance 0 instead of the carried balance.", "quantifier": "every register, interval, range and time zone", "why_tests_cant": "calendar arithmetic over all dates and zones", "anchors": ["cmd/coin2html/js/src/utils.ts:groupBy", "cmd/coin2html/js/src/views.ts:Aggregation", "cmd/coin2html/js/src/viewsRegister.ts:viewRegisterAggregated"]}
{"id": "C109", "title": "Subaccount columns and Other", "statement": "With more subaccounts than columns the largest are shown unchanged and the rest as Other; every row keeps its sums, balances, totals and postings; the Total column is the sum of the cells of the row. The column headed Cum.Total, however, always repeats Total.", "quantifier": "every number of columns, every order of the accounts, every table", "why_tests_cant": "over all orders and sizes", "anchors": ["cmd/coin2html/js/src/utils.ts:groupByWithSubAccounts,sumAll", "cmd/coin2html/js/src/viewsRegister.ts:viewRegisterAggregatedWithSubAccounts"]}
{"id": "C110", "title": "The other account of a row", "statement": "For a transaction with at least two postings adding up to zero the register row of any posting names the first other posting of a different sign. For a transaction whose amounts have the same sign (accounts of different commodities) or with one posting of zero the page throws and shows no register.", "quantifier": "every transaction and posting", "why_tests_cant": "needs every combination of signs", "anchors": ["cmd/coin2html/js/src/account.ts:Transaction.other", "cmd/coin2html/js/src/viewsRegister.ts:renderPostings"]}
{"id": "C111", "title": "The page has every price", "statement": "Every price coin2html exports is loaded by the page: the prices of a commodity are, in the order of the record, each price of the commodity as it is and each price given in it reversed. A price of more than 2^53 minor units, however, stops the page from loading.", "quantifier": "every list of prices and commodities, every price text", "why_tests_cant": "all amounts and orders", "anchors": ["price.go:Price.MarshalJSON", "cmd/coin2html/js/src/commodity.ts:loadPrices,Price.reverse", "cmd/coin2html/main.go"]}
{"id": "C112", "title": "Reversed prices", "statement": "The page's reverse of a price is the number of minor units nearest to the exact reciprocal although computed with two roundings of doubles; an amount converted back is off by at most half a minor unit per unit of the currency and one half. For a commodity whose unit is worth more than twice its number of minor units the reverse price is zero and everything is worth nothing in it.", "quantifier": "every price and commodity with at most 14 decimals together, every amount", "why_tests_cant": "double rounding over all values", "anchors": ["cmd/coin2html/js/src/commodity.ts:Price.reverse,Amount.convertTo"]}
{"id": "C113", "title": "What the page can convert", "statement": "The page converts one commodity into another exactly if they are linked by a chain of recorded prices, whatever their direction and whatever was converted before; in particular it converts whatever coin converts, and if it converts one way it converts the other way.", "quantifier": "every price record, every pair of commodities, every history of conversions", "why_tests_cant": "all graphs of prices and all histories of the cache", "anchors": ["cmd/coin2html/js/src/commodity.ts:loadPrices,Commodity.findConversion", "price.go:Price", "commodity.go:Commodity.Convert"]}
{"id": "C114", "title": "The controls of the page stay consistent", "statement": "Whatever the user clicks, types or selects on the coin2html page, nothing throws before the rendering and afterwards an account is selected, the views offered are those of its category with the selected view among them, the bar chart has an aggregation, the account list shows only accounts beneath its root with the selected account being that root or beneath it, the path of links leads from the root to the selected account, and every excluded account is the selected one or beneath it.", "quantifier": "every account tree with the known root names, every finite history of possible user actions from the opening of the page", "why_tests_cant": "the state is shared by fifteen handlers and only histories of several actions show whether it stays consistent", "anchors": ["cmd/coin2html/js/src/views.ts: State, updateView, updateAccount, updateAccounts, addViewSelect, addAccountList", "cmd/coin2html/js/src/ui.ts: initializeUI"]}
{"id": "C115", "title": "The account list is that of the end date", "statement": "The account list beside the page shows exactly the accounts beneath its root that are open on the end date (all of them with Show Closed Accounts), each followed by those beneath it, and it is the same set as the rows of the balances table.", "quantifier": "every account tree, every history of actions", "why_tests_cant": "an old list is only visible after particular sequences of actions", "anchors": ["cmd/coin2html/js/src/account.ts: allChildren, withAllChildBalances, isClosed", "cmd/coin2html/js/src/views.ts: addAccountList", "cmd/coin2html/js/src/ui.ts: initializeUI"]}
{"id": "C116", "title": "A new range gets a usable aggregation", "statement": "When the range of the page changes while an aggregation is on, or the bar chart is opened without one, an aggregation is chosen that shows at most 26 periods (yearly ones only for ranges of five years or more) and at least one period.", "quantifier": "every range, every time zone", "why_tests_cant": "lengths of months and offsets of zones make the number of periods of a range irregular", "anchors": ["cmd/coin2html/js/src/views.ts: updateAggregationForTimeRange", "cmd/coin2html/js/src/utils.ts: groupBy, groupByWithSubAccounts"]}
{"id": "C117", "title": "The table of subaccounts accounts for everything", "statement": "The aggregated register with subaccounts has a row for every period; the total of a row is the sum, over the selected account and all shown accounts beneath it that are not excluded, of what was posted in the period (or of their balances after it), however many accounts are gathered under Other; a named column shows its account; excluding an account removes it and the accounts beneath it and nothing else.", "quantifier": "every account tree, register, range, aggregation, maximum of columns and set of excluded accounts", "why_tests_cant": "the columns are sorted, cut and summed for arbitrary numbers of accounts", "anchors": ["cmd/coin2html/js/src/utils.ts: groupByWithSubAccounts, sumAll, groupBy", "cmd/coin2html/js/src/account.ts: withAllChildPostingGroups, allChildren", "cmd/coin2html/js/src/viewsRegister.ts: viewRegisterAggregatedWithSubAccounts"]}
{"id": "C118", "title": "Bars and details show the amounts", "statement": "In the bar chart the bars of a row lie end to end from zero, have widths that are not negative, stay inside the domain of the axis, and the domain is no longer than the longest row; a bar is as wide as the whole units of its amount and a row as long as its total. The details of a bar list the largest postings first, equal ones in the order of the register, and omit none larger than a listed one.", "quantifier": "every set of columns, every list of postings and limit", "why_tests_cant": "layout and selection are loops over arbitrary lists of amounts of either sign", "anchors": ["cmd/coin2html/js/src/viewsAggregatedRegisterChart.ts: viewAggregatedRegisterChart", "cmd/coin2html/js/src/utils.ts: topN"]}
{"id": "C119", "title": "Labels of columns identify the accounts", "statement": "The label of a column is the name of its account after that of the selected one; a label that is too long is shortened to the allowed length from the left, keeping all its parts each at least by its first letter, and only if first letters alone are too long is it longer; different accounts have different labels.", "quantifier": "every account name and length", "why_tests_cant": "names have any number of parts of any lengths", "anchors": ["cmd/coin2html/js/src/utils.ts: shortenAccountName", "cmd/coin2html/js/src/account.ts: relativeName"]}
{"id": "C120", "title": "The balance listing is a faithful table", "statement": "coin balance prints, for the account asked for and each account below it down to the level of -l (counted from the top of the tree, 0 for all), unless its cumulative total is zero (or -z is given), exactly one line with its own total, its cumulative total, its commodity and its name; the totals are printed exactly with the decimals of the commodity; an account comes before those below it; the columns are aligned in characters if accounts name their commodity by its id.", "quantifier": "every set of accounts, every tree, totals of fewer than 50 digits, every level", "why_tests_cant": "lines, widths and padding depend on the whole tree and on every total", "anchors": ["cmd/coin/balance.go: cmdBalance.print, maxWidth, curWidth", "amount.go: Format, Width", "account.go: Depth, WithChildrenDo"]}
{"id": "C121", "title": "The register listing is a faithful table", "statement": "coin register prints the account and its commodity and then one line per selected posting in order, with the date, the description, (with -r) the abbreviated account, the abbreviated account of the first other posting, the quantity and the running total, both exact, the commodity and a mark iff the balance was asserted, the location with -f, and the notes with -n. The columns are aligned if years have four digits, descriptions at most 50 characters, account names can be abbreviated to -l characters and no running total is longer than the last one.", "quantifier": "every ledger, selection of postings, option values, quantities and totals of fewer than 50 digits", "why_tests_cant": "widths are computed from all postings and padding counts characters", "anchors": ["cmd/coin/postings.go: print, printLong, widths, totals, printNotes", "cmd/coin/register.go: fullRegister", "amount.go: Format, Width"]}
{"id": "C122", "title": "The aggregated register says the same thing in every format", "statement": "coin register with -w, -m, -q, -y or -e prints the table of periods, categories and account columns: as CSV and as JSON lines a standard reader gets back exactly the rows, headed Date, Category and the column labels, with exact amounts; the text version has the same cells, set right, in columns aligned by character count, under a line naming the account and its commodity. Each column is headed by the account's own name for the account asked for, Other for the rest, and the abbreviated relative name otherwise.", "quantifier": "every account tree, selection, period reducer, -e, -r, -c, number of columns, label width and output format; amounts under 50 digits, and years of four digits for the alignment", "why_tests_cant": "quoting, padding and column widths depend on every cell of the table", "anchors": ["cmd/coin/totals.go: output, rows, csv, json, print", "cmd/coin/register.go: aggregatedRegister"]}
{"id": "C123", "title": "coin balance shows the sums of the files", "statement": "If the database files define one commodity, coin balance prints for every account below the one asked for its own total, the exact sum of the postings to it that -b, -e, -p and -t select in the files (an omitted amount counting as what the rest of its transaction leaves), and the sum of these for all accounts below it; the accounts shown are those within -l levels whose total is not zero (all with -z), parents first, in aligned columns.", "quantifier": "every set of database files with includes that loads and defines one commodity, every account argument and option values, totals of fewer than 50 digits", "why_tests_cant": "ranges over all file contents and options, through reading, resolving, sorting, selecting, summing and printing", "anchors": ["coin.go: LoadAll, ResolveAll", "cmd/coin/balance.go: execute, print, trim", "transaction.go: Next", "account.go: WithChildrenDo"]}
{"id": "C124", "title": "coin register lists the postings of the files", "statement": "If the database files define one commodity, coin register prints one line per posting of the files to the account (with -r also to the accounts below it) that -b, -e, -p and -t select, by date and for one day in the order of the files (with -r account by account, parents first): date, description, the account of the first other posting of its transaction abbreviated to -l characters, the quantity (an omitted amount being what the rest of the transaction leaves), the exact sum of the quantities so far, a mark if it asserts a balance, and with -n its notes.", "quantifier": "every set of database files with includes that loads and defines one commodity, every account pattern and option values without aggregation and -f, listed transactions of two or more postings, sums of fewer than 50 digits", "why_tests_cant": "ranges over all file contents and options, through reading, resolving, sorting, selecting, summing and printing", "anchors": ["coin.go: LoadAll, ResolveAll", "cmd/coin/register.go: execute, fullRegister, trim", "cmd/coin/postings.go: print, printLong, totals", "transaction.go: Other"]}
{"id": "C125", "title": "The aggregated register shows the sums of the files", "statement": "If the database files define one commodity, coin register with -w, -m, -q or -y and/or -bp, -bt prints one line for each period and category that has a selected posting to the account or below it, in order; a column for each account with such postings in or below it, largest first, the first -t of them and one for the rest; and in each place the exact sum of the postings of the files that belong there (with -r including the accounts below, with -c all up to that period), the same table as text with aligned columns, CSV and JSON.", "quantifier": "every set of database files with includes that loads and defines one commodity, every account pattern and option values (-p without !, the account among the columns shown), sums of fewer than 50 digits", "why_tests_cant": "ranges over all file contents, options and sort orders, through reading, resolving, selecting, grouping, merging and printing", "anchors": ["coin.go: LoadAll, ResolveAll", "cmd/coin/register.go: execute, aggregatedRegister, trim, period, category", "cmd/coin/totals.go: accountTotals, timeTotals, output, payees, tags, week, month, quarter, year"]}
{"id": "C126", "title": "Reports in books with several commodities", "statement": "If every written amount is in the commodity of its account, coin balance, coin register and the aggregated register show for an account whose subtree (register without -r: the account itself) has one commodity exactly what C123-C125 say, whatever the commodities of the other accounts; totals are in that commodity.", "quantifier": "every set of database files with includes that loads, with any number of commodities, whose written amounts are in the commodities of their accounts; every account whose subtree has one commodity; all option values of C123-C125", "why_tests_cant": "ranges over all file contents, commodity definitions and options; a transaction that exchanges commodities must not leak into the other commodity's sums", "anchors": ["coin.go: LoadAll, ResolveAll", "cmd/coin/balance.go: execute", "cmd/coin/register.go: execute, aggregatedRegister"]}
{"id": "C127", "title": "What `coin test` prints", "statement": "With -v, coin test prints for every test that has an expected result, in order, an OK line or a FAIL line with the difference, and nothing else. Without it, it prints the same about failing tests and a line OK/FAIL for each file that tells whether all tests of that file passed; the last line tells whether any test failed.", "quantifier": "every list of tests in any files, every set of commands and their outputs, every difference printer", "why_tests_cant": "ranges over all sequences of passing, failing and unanswered tests spread over files; per-file verdicts depend on the whole history of the run", "anchors": ["cmd/coin/test.go: execute", "cmd/coin/main.go"]}
{"id": "C128", "title": "Running `coin test` again", "statement": "After `coin test` has filled in the missing results of a file, reading the file again gives the same tests, all with results, and the second run passes every test and leaves the file unchanged.", "quantifier": "every test file that can be read, every set of commands whose outputs consist of whole lines that are not 'end test'", "why_tests_cant": "needs the composition of parsing, updating and running for all file contents", "anchors": ["cmd/coin/test.go: execute, updateTestFile", "parser.go", "test.go"]}
{"id": "C129", "title": "gen2coin amounts taken from balances", "statement": "A generated transaction whose rule takes its amount from the balance of the account paid into (TO_BALANCE) or out of (FROM_BALANCE) moves minus the sum of all postings generated there before it, divided by the rule's divisor; with TO_BALANCE and divisor 1 the account paid into is left with zero.", "quantifier": "every set of rules, dates, random choices and accounts of one commodity for which generation succeeds; every generated transaction", "why_tests_cant": "depends on all transactions generated before, for all random choices", "anchors": ["cmd/gen2coin/rule.go: amtFromBalance, generatePostings", "cmd/gen2coin/generate.go"]}
{"id": "C130", "title": "Price lines of the files drive conversions", "statement": "After loading a database, an amount of one commodity is converted to another one by multiplying it with the value of a latest price line of these two commodities if there is one; otherwise along price lines leading from the one to the other, a latest line at each step; if no lines lead there, the conversion is reported as an error.", "quantifier": "every set of database files with includes that loads, every pair of commodities, every amount, every order of the prices in memory", "why_tests_cant": "ranges over all file contents and all graphs of price lines, including cycles and several prices per day", "anchors": ["coin.go: LoadAll, ResolvePrices", "commodity.go: AddPrice, Convert", "price.go"]}
{"id": "C131", "title": "Balances table and chart of coin2html show the account tree to the chosen depth", "statement": "For a selected account the balances table shows each account beneath it that is not closed (or all, if closed ones are shown) down to the chosen depth, once, with its own balance, its total and its relative name. The chart draws a box for each such account, parents before their subaccounts, labelled with name and total (and the own balance if there are subaccounts); a box is sized by the balances of all accounts beneath it converted to the commodity of the selected account, amounts of the wrong sign counting nothing - the total, if there are none. With the same depth input both show the same accounts.", "quantifier": "every page made from a loaded ledger, every selected account, date, depth, closed-account setting and conversion", "why_tests_cant": "ranges over all account trees, registers, closing dates and depths, and over the stratification of the rows into a tree by their names", "anchors": ["cmd/coin2html/js/src/viewsBalances.ts: viewBalances", "cmd/coin2html/js/src/viewsBalancesChart.ts: viewBalancesChart", "cmd/coin2html/js/src/account.ts: withAllChildBalances, depthFrom"]}
{"id": "C132", "title": "Hand-written transactions are read as written, in any layout", "statement": "A file in which every transaction is written as documented - date (y/m/d with two or four digit year, or m/d), optional (code), description and note; posting lines with account, optional amount and optional = balance, optional note; note lines; entries ended by a blank line, comment lines between them - is read as exactly these transactions: each field, amount, balance and note as written, notes before the first posting belonging to the transaction and the others to the posting above them, in order. Spaces and tabs, LF or CR LF, and a missing final line break make no difference.", "quantifier": "every file of that form: any number of transactions, postings and notes, any blanks, every amount in the int64 range", "why_tests_cant": "ranges over all texts of the grammar; the reader is an unanchored backtracking search, so every other way of matching a line must be excluded", "anchors": ["transaction.go:119-200 transactionREX, postingREX, parseTransaction", "parser.go:25-59", "amount.go:14", "rex/rex.go:Match"]}
{"id": "C133", "title": "A hand-written database says one thing, and that is what is loaded", "statement": "A set of files written as documented - account and commodity definitions with their lines in any order (a later line overriding an earlier one, the default commodity standing in until a commodity line), price lines, tests, includes and transactions, in any layout, with comments - has one meaning: the sequence of entries with their fields and line numbers, included files standing in the place of the include line. Loading these files succeeds if enough files may be open and the loaded database holds exactly that sequence: transactions, prices and tests in order, the last definition of every account and commodity, the default commodity.", "quantifier": "every file tree of that form: any number of files, includes, entries and lines, any blanks", "why_tests_cant": "ranges over all texts of the grammar and all include graphs; the reader is a line-by-line backtracking search whose environment changes with every definition", "anchors": ["coin.go:62-129 Load, LoadFile, LoadPrices, LoadAll", "account.go:82-149 parseAccount", "commodity.go:137-181 parseCommodity", "price.go:41-69", "test.go:17-33", "include.go:25-56", "parser.go:25-59"]}
{"id": "C134", "title": "A database whose entries fit together loads, and only such a database", "statement": "Take files whose postings name existing accounts in full and whose amounts and asserted balances are in the commodity of their account. If every account has a defined commodity, every price is between defined commodities, every transaction between accounts of one commodity either adds up to zero or leaves out exactly one quantity, and no transaction among several commodities leaves out a quantity, then loading succeeds - no error and no panic - in whatever order the maps of accounts are iterated, whatever prices there are and however they are sorted. If one of these conditions fails, no book is ever made.", "quantifier": "every set of such files, every iteration order of the account map in each of its four loops, every price database", "why_tests_cant": "the orders of map iteration are random in every run, and failure is an end of the program: tests see a few orders of a few databases", "anchors": ["coin.go:74-83 LoadAll", "coin.go:131-160 ResolveAll, ResolvePrices", "coin.go:162-233 ResolveAccounts", "coin.go:235-279 ResolveTransactions", "account.go:184-206 CheckPostings", "coin.go:310-333 MustFindAccount"]}
{"id": "C135", "title": "A date option is accepted exactly if its text begins with a date", "statement": "The value of -b or -e is accepted if and only if it begins with M/D, with a year of four digits or with an offset; any other text is reported as an error, and no text makes the program crash. In particular every text in a form of the README's \"Date Entry\" is accepted. The full statement - only such texts are accepted - is refuted: what follows the date is ignored.", "quantifier": "every text, every day the command runs on", "why_tests_cant": "tests try a few texts; the claim is about all of them", "anchors": ["date.go:41-48 Date.Set", "date.go:54-58 ymd, offset, DateREX", "date.go:79-130 parseDate", "README.md:74-86 Date Entry"]}
{"id": "C136", "title": "A year, a year and month, or a full date is read as the README says", "statement": "YYYY is the first of January of that year, YYYY/M the first day of that month, YYYY/M/D that day - padded or not, whatever today is - and an offset after YYYY or YYYY/M counts days, weeks, months or years from there. (YYYY-MM-DD, which is not in the README, is silently the first of January.)", "quantifier": "every year of four digits, every month and day, every offset, every current day", "why_tests_cant": "the forms and numbers are unbounded, and tests run on one day", "anchors": ["date.go:54-58 ymd, offset, DateREX", "date.go:79-130 parseDate", "README.md:80-86 Date Entry"]}
{"id": "C137", "title": "coin tags lists what the notes of the files say", "statement": "After any load, whatever Go's map iteration orders: tags lists each tag of a transaction or posting note that matches the pattern exactly once, in byte order; with -v the values it has, each once and in order (the empty value left out); with -a the accounts used with it - of the postings that carry it and of every posting of a transaction that carries it - each once, in the order of the loaded transactions, which is the order by date with those without balance assertions first, otherwise that of the files.", "quantifier": "every set of files, pattern, flag combination and iteration order", "why_tests_cant": "files, notes and map iteration orders are unbounded; the order changes from run to run", "anchors": ["cmd/coin/tags.go execute, collectKeys, sortAndClean, output", "tags.go", "coin.go LoadAll, ResolveAll"]}
{"id": "C138", "title": "coin stats reports what the files say", "statement": "For any files whose written amounts are in the commodity of their account: stats -d prints exactly the pairs of transactions of the window with the same date, code, accounts and amounts, each pair once, as the files say them with the missing amounts filled in and their locations; otherwise -u prints a transaction once per posting to Unbalanced, -c every two-posting transaction in which the same number leaves one commodity and enters another, and the counts are those of the different commodities, the price lines, the accounts (declared or above a declared one) and the transactions of the window.", "quantifier": "every set of files, window and flag combination", "why_tests_cant": "the number of transactions and pairs, and the load order, are unbounded", "anchors": ["cmd/coin/stats.go execute", "transaction.go IsEqual, Location, Write", "amount.go IsEqual"]}
{"id": "C139", "title": "coin accounts lists the accounts the two files declare", "statement": "accounts lists, in byte order and each once, the accounts declared in commodities.coin and accounts.coin, those above them, Root and Unbalanced, that match the pattern; an account that has a closing date or is below one that has only with -c; each with the commodity and description of its last declaration (the default commodity without one), names padded to the longest matching one. It prints something exactly if every account has a known commodity.", "quantifier": "every pair of files, pattern and flag, every iteration order", "why_tests_cant": "files and account trees are unbounded, iteration orders vary", "anchors": ["cmd/coin/accounts.go execute", "account.go IsClosed, AccountsDo", "coin.go ResolveAccounts"]}
{"id": "C140", "title": "coin commodities lists the commodities of commodities.coin", "statement": "commodities prints one line for every different id defined in commodities.coin and the files it includes, in byte order, with the symbol, quote mark and name of its last definition; a file that can be read is always listed.", "quantifier": "every file and every iteration order", "why_tests_cant": "files are unbounded, the iteration order varies", "anchors": ["cmd/coin/commodities.go execute", "coin.go LoadFile", "commodity.go parseCommodity"]}
{"id": "C141", "title": "An amount made from a fraction is the fraction cut to the decimals", "statement": "The amount made from a fraction in a commodity is the fraction cut to the commodity's decimals: it is at most the fraction and less than one smallest unit below it (with a negative denominator: at least it and less than one unit above). A zero denominator is an error. Expected but false: equal fractions give equal amounts (turning both signs changes the amount by one unit); true for positive denominators.", "quantifier": "every numerator, denominator and commodity", "why_tests_cant": "numerators and denominators are unbounded", "anchors": ["amount.go:21-28 NewAmountFrac", "cmd/ofx2coin/main.go:184-187", "gnucash/gnucash.go:86"]}
{"id": "C142", "title": "What an account pattern matches", "statement": "A pattern of words joined by colons matches an account name exactly if the words occur in the name in order, in either case, with exactly one colon between two words joined by one colon, and anything between words joined by several; after ^ the first word is at the start of the name, before $ the last is at its end. Patterns that differ only in case match the same names.", "quantifier": "every pattern of plain words and every account name", "why_tests_cant": "patterns and names are unbounded; the matching is by a built regular expression", "anchors": ["coin.go:322-345 ToRegex", "README.md:88-97"]}
{"id": "C143", "title": "Words of a pattern are parts of the elements of a name", "statement": "Words joined by single colons match a name exactly if consecutive elements of the name contain the words, one each; so a name matches itself and those of all accounts below it. Words joined by several colons match if a later element contains the second word. Expected but false: only then (both words may be in one element).", "quantifier": "every word list and every list of elements", "why_tests_cant": "words, elements and depths are unbounded", "anchors": ["coin.go:322-345 ToRegex", "README.md:88-97"]}
{"id": "C144", "title": "An abbreviation names the one account that has the words", "statement": "A pattern of words joined by single colons that is no account's full name means the only account with consecutive elements containing the words, if there is just one; it is rejected if there is none; and whatever account it means has such elements.", "quantifier": "every pattern of plain words and every set of accounts", "why_tests_cant": "the accounts and their order are arbitrary", "anchors": ["coin.go:285-312 MustFindAccount", "coin.go:322-370 ToRegex, FindAccounts"]}
{"id": "C145", "title": "What a command line means", "statement": "The arguments after a command's name are accepted exactly if they are options of the command in one of their written forms (one or two dashes; the value in the next argument or after an equal sign; a switch alone or with a truth value after an equal sign) with values the options take, optionally closed by --, and then arguments; they then mean these options and arguments and nothing else. Every other command line ends the program with a message. For balance: each option has the value last given for it, or its default, and the order of different options does not matter.", "quantifier": "every set of options and every list of arguments", "why_tests_cant": "command lines are unbounded lists of unbounded words, and the ways to read one must be compared", "anchors": ["cmd/coin/main.go:30-36,55-80", "cmd/coin/balance.go:24-39 newBalance", "cmd/coin/test.go:40-80"]}
{"id": "C146", "title": "coin balance from its command line and its files to its text", "statement": "coin balance with a well-formed command line prints, for the account named (the whole tree if none is), the table of the accounts at or below it at the depth asked for, with the sums of what the files' transactions in the time, payee and tag asked for post to them and below them; zero ones only if asked for. A command line or account that is not well-formed is rejected without output.", "quantifier": "every set of files and every command line", "why_tests_cant": "files, accounts, histories and command lines are unbounded", "anchors": ["cmd/coin/main.go:55-110", "cmd/coin/balance.go:24-110", "coin.go:60-180"]}
{"id": "C147", "title": "A balance test passes exactly if its text is the listing", "statement": "A test of balance in a ledger file passes exactly if it has an expected text and that is the listing that the test's command line means over the file's own transactions; it fails exactly if its expected text is another.", "quantifier": "every file, every test of balance in it", "why_tests_cant": "files, tests and command lines are unbounded", "anchors": ["cmd/coin/test.go:30-110", "cmd/coin/balance.go:24-110"]}
{"id": "C148", "title": "What a command line of register asks for", "statement": "A command line of register asks for exactly one thing: for each option the value last given or its default (text output, 5 columns, labels of 12), of several periods the shortest, payees before tags. register does what is asked for the account named first. A line that is not well-formed, has no account, both -bp and -bt, or an account not found ends without output. Expected but false: an unknown output format is refused (the text is printed without its first line).", "quantifier": "every list of arguments", "why_tests_cant": "command lines are unbounded lists of unbounded words and 18 options in any order", "anchors": ["cmd/coin/register.go:37-84,150-177", "cmd/coin/main.go:55-81", "cmd/coin/totals.go:482-495"]}
{"id": "C149", "title": "coin register from its command line and its files to its text", "statement": "coin register with a well-formed command line without aggregation prints the chosen postings of the account (with -r of those below it too) from the files by date, each on a line with its quantity and the sum so far, below a first line with the account and its commodity. With aggregation it prints the table with a line for each period and category and columns for the largest accounts, whose amounts are the exact sums of the files' postings, as text, CSV or JSON as asked.", "quantifier": "every set of files and every command line", "why_tests_cant": "files, accounts, histories and command lines are unbounded", "anchors": ["cmd/coin/main.go:55-81", "cmd/coin/register.go:67-207", "cmd/coin/totals.go:482-652", "coin.go:60-180"]}
{"id": "C150", "title": "A register test passes exactly if its text is the register", "statement": "A test of register in a ledger file passes exactly if it has an expected text and that is the register or table that the test's command line asks for over the file's own transactions; it fails exactly if its expected text is another.", "quantifier": "every file, every test of register in it", "why_tests_cant": "files, tests and command lines are unbounded", "anchors": ["cmd/coin/test.go:30-110", "cmd/coin/register.go:73-207"]}
{"id": "C151", "title": "The last declaration of an account counts", "statement": "What the last `account` entry of a name in the files says - commodity, note, closing date - is what `coin accounts` lists and what the account's postings are kept in. Expected but false: this also holds for an account named Unbalanced, whose declaration is read and then replaced by a bare account.", "quantifier": "every set of files", "why_tests_cant": "declarations may be many, anywhere and repeated; the loss only shows for one name after resolution", "anchors": ["coin.go:162-230", "account.go:98-150", "cmd/coin/accounts.go:31-59"]}
{"id": "C152", "title": "The commands of coin", "statement": "coin runs exactly the command that its first argument names - by its full name or one of its short names, each name belonging to one command - with the remaining arguments as its command line; without arguments it prints the balance of all accounts; any other first argument, including an option, ends the program with the usage.", "quantifier": "every list of arguments", "why_tests_cant": "argument lists are unbounded and any text is possible as the first one", "anchors": ["cmd/coin/main.go:11-90", "cmd/coin/accounts.go:11", "cmd/coin/balance.go:12", "cmd/coin/register.go:15", "cmd/coin/stats.go:11", "cmd/coin/tags.go:13"]}
{"id": "C153", "title": "Listings from their command lines", "statement": "coin accounts, tags, stats and commodities print, for a command line built from the options they document, what the files and the options call for (the listings of C137-C140), and end the program for a command line that is not so built.", "quantifier": "every command line and every set of files", "why_tests_cant": "command lines and files are unbounded", "anchors": ["cmd/coin/accounts.go:20-59", "cmd/coin/tags.go:24-75", "cmd/coin/stats.go:22-97", "cmd/coin/commodities.go:27-47"]}
{"id": "C154", "title": "A test file run by coin test", "statement": "coin test with a file whose tests are command lines of balance, or of register without aggregation: with -v each test with an expected text gets, in order, OK exactly if that text is the listing its command line calls for by the entries of the file (and those it includes), and FAIL with the difference otherwise; without -v the last line says OK exactly if all of them are the listings. A test naming no command ends the run.", "quantifier": "every test file, entries and command lines; every iteration order of maps", "why_tests_cant": "files, tests and command lines are unbounded; the tests in the repository are single files", "anchors": ["cmd/coin/test.go:39-118", "cmd/coin/main.go:30-36", "cmd/coin/balance.go:36-120", "cmd/coin/register.go:60-177", "test.go:9-33"]}
{"id": "C155", "title": "Listing the prices of a commodity", "statement": "coin commodities with a commodity as argument reads commodities.coin and prices.coin (or all files *.prices) and prints every price line of that commodity in them exactly once, with its date, its amount as a decimal number of exactly that value and its currency, in one block for each currency with the latest price first; for a name that is no commodity nothing is printed. It prints exactly if the commodities and currencies of all price lines are defined.", "quantifier": "every content of the files, every commodity, every command line without -f and every iteration order of the price map", "why_tests_cant": "price histories and the map orders are unbounded; the repository has no test of the command", "anchors": ["cmd/coin/commodities.go:41-70", "coin.go:61-71", "coin.go:143-160", "price.go:43-67", "commodity.go:65-76", "amount.go:42-46"]}
{"id": "C156", "title": "Summing up the prices of all commodities", "statement": "coin commodities -p reads commodities.coin and prices.coin (or all files *.prices) and prints one line for each commodity in the order of the ids: the id alone if there are no price lines of it, else one entry for each currency that it has price lines in, with the day and amount of a latest one and the number of these lines. It prints exactly if the commodities of all price lines are defined.", "quantifier": "every content of the files in which no currency is defined anew after a price line in it, every command line of -p and every iteration order of maps", "why_tests_cant": "price histories and the map orders are unbounded; the repository has no test of the command", "anchors": ["cmd/coin/commodities.go:41-52", "cmd/coin/commodities.go:99-102", "commodity.go:78-98", "coin.go:61-71", "coin.go:143-160", "coin.go:362-371", "amount.go:48-73"]}
{"id": "C157", "title": "The account of a bank statement", "statement": "A statement whose account id has no rules is imported to the account that the files give this id (ofx_acctid), whatever the order of maps, if there is only one, and ofx2coin ends with an error if there is none. Expected but false: a statement without an account id is refused; it is taken to be of any account without ofx_acctid, depending on the order of a map.", "quantifier": "every database, rules file, account id and iteration order of the accounts", "why_tests_cant": "databases are unbounded and the lookup iterates over a map in random order", "anchors": ["coin.go:313-320", "rules.go:28-36", "account.go:86-92", "account.go:128-142", "cmd/ofx2coin/main.go:41"]}
{"id": "C158", "title": "Pricing parts or the whole", "statement": "Multiplying n amounts of a commodity by a price and adding the results up differs from multiplying their sum by the price by at most n-1 units of the last decimal of the commodity; the bound is reached for every n up to 10^50, and there is no difference if the price is a whole number.", "quantifier": "every list of amounts of one commodity and every price with at most 50 decimals", "why_tests_cant": "lists and amounts are unbounded; a bound for every list is not a finite set of cases", "anchors": ["amount.go:120-129", "amount.go:131-137"]}
