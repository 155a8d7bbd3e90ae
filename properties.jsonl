{"id": "C01", "title": "Per-currency totals are exactly the sum of that currency's amounts", "statement": "After any sequence of += and -= of amounts on an AmountPool that starts empty, asking the pool for one currency gives the left-to-right f64 sum of exactly the amounts of that currency (subtracted ones negated), whatever other currencies were mixed in; a currency that never occurred is reported as an amount of zero.", "quantifier": "all sequences of additions and subtractions, all f64 magnitudes (NaN and infinities included), all currency symbols", "why_tests_cant": "The interleavings of currencies and the sequence length are unbounded; a unit test sees one interleaving.", "anchors": ["src/amount.rs: impl AddAssign<&Amount> for AmountPool, impl SubAssign<&Amount> for AmountPool, AmountPool::only"]}
{"id": "C02", "title": "A pool keeps one line per currency, in order of first use", "statement": "After any sequence of operations an AmountPool holds each currency symbol at most once, and the symbols stand in the order in which they were first used.", "quantifier": "all operation sequences", "why_tests_cant": "An invariant over every history of operations.", "anchors": ["src/amount.rs: AmountPool"]}
{"id": "C03", "title": "Different currencies are never added together", "statement": "Adding, subtracting or comparing two Amounts succeeds exactly when their symbols are equal, and then the symbol is unchanged and the magnitude is the f64 result; when the symbols differ the program stops instead of producing a number. Two amounts are equal exactly when the comparison says so.", "quantifier": "all pairs of amounts", "why_tests_cant": "Ranges over all pairs of symbols and magnitudes.", "anchors": ["src/amount.rs: impl Add, AddAssign, Sub, SubAssign, Ord, PartialEq for Amount"]}
{"id": "C04", "title": "Whole-number bookkeeping is exact", "statement": "If all amounts of a currency are whole numbers and no partial total exceeds 2^53 in absolute value, the total kept by a pool is exactly the mathematical sum (no rounding happens).", "quantifier": "all sequences of integer-valued amounts whose partial sums stay within 2^53", "why_tests_cant": "A statement about f64 rounding over all sequences.", "anchors": ["src/amount.rs: impl AddAssign<&Amount> for AmountPool"]}
{"id": "C05", "title": "A written magnitude is read as the nearest f64", "statement": "For every text of the form [-]digits[.digits] the magnitude that Amount::parse returns is the correctly rounded (nearest, ties to even) f64 of the decimal number written.", "quantifier": "all digit strings of any length, every sign and every decimal symbol that is not a digit, dash or blank", "why_tests_cant": "Correct rounding must hold for every decimal, not for the sampled ones.", "anchors": ["src/amount.rs: Amount::parse", "src/amount.rs: is_mag_char"]}
{"id": "C06", "title": "Amount text is split into number and symbol, nothing else is accepted", "statement": "Amount::parse accepts a text exactly when, after deleting '--', it has one or two whitespace-separated tokens and its digits, dashes and decimal symbols spell a decimal number; the symbol is everything else except '.' and ',' (none if nothing is left). A returned symbol never contains a digit, dash, '.', ',' and never starts or ends with whitespace; parsing never crashes.", "quantifier": "all strings, all decimal symbols", "why_tests_cant": "Ranges over all Unicode strings.", "anchors": ["src/amount.rs: Amount::parse, Amount::is_symbol_char"]}
{"id": "C07", "title": "A printed amount reads back as the amount rounded to 8 decimals", "statement": "For every amount whose displayed value is finite and whose symbol is a plain currency symbol, Amount::parse of its Display text succeeds with the same symbol and exactly the magnitude that was displayed (the magnitude rounded to 8 decimals), sign of zero included.", "quantifier": "all finite f64 magnitudes, all plain symbols", "why_tests_cant": "Round trip over all 2^64 floats and all symbols.", "anchors": ["src/amount.rs: impl Display for Amount, Amount::rounded_mag, Amount::parse"]}
{"id": "C08", "title": "Amounts typed with up to 8 decimals are shown exactly as typed", "statement": "Rounding for display changes nothing for an amount that was read from a text with at most 8 decimals and absolute value below 2^51/10^8; so writing such an amount to the journal and reading it again any number of times never drifts.", "quantifier": "all decimals with at most 8 fractional digits below the bound", "why_tests_cant": "f64 rounding behaviour for every such decimal.", "anchors": ["src/amount.rs: Amount::rounded_mag"]}
{"id": "C09", "title": "Comment stripping keeps exactly the text before the first comment mark", "statement": "utils::remove_comments returns the longest prefix of the line that contains neither ';' nor '//': a prefix of the input, free of both marks, and cut only where a mark begins.", "quantifier": "all strings", "why_tests_cant": "Ranges over all strings and both comment styles in every order.", "anchors": ["src/utils.rs: remove_comments"]}
{"id": "C10", "title": "A posting written to the journal reads back as the same posting", "statement": "Posting::parse of Posting::as_parsable gives back the posting (same account, envelope, amount, cost and balance assertion, with magnitudes rounded to 8 decimals) whenever names are plain tokens, symbols are plain and displayed magnitudes are finite, and the account is defined.", "quantifier": "all classic and envelope postings over plain names and symbols", "why_tests_cant": "Round trip over all postings.", "anchors": ["src/posting.rs: Posting::parse, Posting::as_parsable, impl Display for ClassicPosting, impl Display for EnvelopePosting, impl Display for Cost"]}
{"id": "C11", "title": "Classic postings to undefined accounts are rejected", "statement": "Every classic posting of an entry accepted by the parser names an account that is defined at that point of the journal.", "quantifier": "all posting lines, all account sets", "why_tests_cant": "Ranges over all texts and all sets of defined accounts.", "anchors": ["src/posting.rs: ClassicPosting::parse, ClassicPosting::validate", "src/ledger/mod.rs: Ledger::parse_entry"]}
{"id": "C12", "title": "Cost and balance-assertion operators are independent of their order", "statement": "In a posting line, the amount is what stands before the first operator token, and the amounts after '!', '@' and '=' are taken up to the next operator; swapping the '!' clause and the cost clause does not change the parsed posting. A unit price ('@') wins over a total cost ('=').", "quantifier": "all token lists", "why_tests_cant": "Ranges over all token sequences.", "anchors": ["src/posting.rs: ClassicPosting::parse_amount, parse_assertion_amounts, extract_amount"]}
{"id": "C13", "title": "Every accepted entry carries one of the three statuses and a valid date", "statement": "Entry::parse succeeds only if the first header token is a date in the journal's date format and the second is exactly '?', '~' or '*'; the entry gets exactly that date and status. Writing a status and reading it back gives the same status.", "quantifier": "all header texts", "why_tests_cant": "Ranges over all texts.", "anchors": ["src/entry.rs: Entry::parse_header, EntryStatus::from_str, EntryStatus::to_char"]}
{"id": "C14", "title": "At most one blank posting, and only with one named currency", "statement": "An entry is accepted by validation exactly when it has at most one posting without amount and, if it has one, the amounts of the other postings use at most one distinct currency symbol (amounts without symbol are not counted).", "quantifier": "all posting lists", "why_tests_cant": "Ranges over all posting lists.", "anchors": ["src/entry.rs: Entry::validate"]}
{"id": "C15", "title": "The inferred blank amount balances the entry", "statement": "When all written amounts of an entry have the same currency, the amount inferred for its blank posting has that currency and is minus the f64 sum of the written amounts, so that with whole-number amounts the postings of the entry sum to exactly zero.", "quantifier": "all entries with one blank posting", "why_tests_cant": "Ranges over all posting lists and all magnitudes.", "anchors": ["src/entry.rs: Entry::get_blank_amount, Entry::has_mixed_currencies"]}
{"id": "C16", "title": "In a mixed-currency entry the blank posting is inferred in the native currency or refused", "statement": "When the written amounts of an entry with a blank posting have different currencies, the inferred amount has no symbol and is minus the sum of the native values (the amount itself, the total cost, or magnitude times unit price); if any written posting has no native value the entry is refused with an error.", "quantifier": "all mixed-currency entries", "why_tests_cant": "Ranges over all posting lists.", "anchors": ["src/entry.rs: Entry::get_blank_amount", "src/posting.rs: ClassicPosting::get_original_native_value"]}
{"id": "C17", "title": "Accepted entries are balanced", "statement": "An entry accepted by the parser whose postings all have amounts in one currency sums to zero.", "quantifier": "all accepted entries", "why_tests_cant": "Ranges over all entries. (The documentation of Entry::validate promises it; the code does not check it.)", "anchors": ["src/entry.rs: Entry::validate (doc comment)"]}
{"id": "C18", "title": "Reading an entry never crashes", "statement": "Entry::parse returns an entry or an error for every text; it never panics.", "quantifier": "all texts", "why_tests_cant": "Ranges over all texts.", "anchors": ["src/entry.rs: Entry::parse_header (header_tokens[1], slices at '[' and ']')"]}
{"id": "C19", "title": "An entry written to the journal reads back as the same entry", "statement": "Entry::parse of Entry::as_parsable gives back date, status, description, payee and postings (magnitudes rounded to 8 decimals); the comment is not read back.", "quantifier": "all entries over plain descriptions, payees, names and symbols, with every date format that tells the date and writes neither white space nor comment marks", "why_tests_cant": "Round trip over all entries.", "anchors": ["src/entry.rs: Entry::as_parsable, Entry::parse"]}
{"id": "C20", "title": "The ledger keeps its entries sorted by date, stably, losing none", "statement": "After adding any sequence of entries, the ledger's entry list is a permutation of what was added, in non-decreasing date order, and entries of the same date keep the order in which they were added.", "quantifier": "all sequences of entries", "why_tests_cant": "An invariant over all histories.", "anchors": ["src/ledger/mod.rs: Ledger::add_entry"]}
{"id": "C21", "title": "An account's real value is the sum of its classic postings", "statement": "After adding any sequence of entries, the real value of each account is, per currency, the in-order sum of the amounts of its classic postings (with blank amounts inferred); envelope postings do not change it.", "quantifier": "all sequences of entries, all account names and currencies", "why_tests_cant": "An invariant over all histories.", "anchors": ["src/account.rs: Account::process_entry", "src/ledger/mod.rs: Ledger::add_entry"]}
{"id": "C22", "title": "The result of adding entries does not depend on hash-map order", "statement": "Accounts are kept in a hash map and visited in an unspecified order; adding an entry succeeds or not, and leaves every account in the same state, whatever that order is.", "quantifier": "all entries, all accounts, all iteration orders", "why_tests_cant": "Hash-map order is random per process; a test sees one order per run.", "anchors": ["src/ledger/mod.rs: Ledger::add_entry, Ledger::fill_envelopes"]}
{"id": "C23", "title": "The balance report shows each account's total", "statement": "The balance report gives, per account and currency, the sum of the account's real (classic) postings, blank ones included at their inferred amount.", "quantifier": "all journals", "why_tests_cant": "Ranges over all histories. (The code violates it in two ways.)", "anchors": ["src/ledger/mod.rs: Ledger::get_totals"]}
{"id": "C24", "title": "Journal text is cut into chunks at lines that start without whitespace; blank and comment-only lines do not matter", "statement": "Loading a text processes, in order, one chunk per line that begins with a non-whitespace character, with the following indented lines attached. Inserting a completely blank line or a whole-line comment starting in column one anywhere, or appending a comment directly to the end of any line that does not end in white space (nor in '/' for a '//' comment), does not change what is loaded.", "quantifier": "all texts", "why_tests_cant": "Ranges over all texts.", "anchors": ["src/ledger/mod.rs: Ledger::add_from_str, Ledger::parse_chunk"]}
{"id": "C25", "title": "Directives act on what follows them only", "statement": "`date_format`, `currency` and `account` lines change exactly the one setting they name and affect only the chunks after them; `currency` affects no balance at all; a directive without value is an error.", "quantifier": "all journals", "why_tests_cant": "Ranges over all journals.", "anchors": ["src/ledger/mod.rs: Ledger::parse_chunk, set_currency, set_date_format, parse_account"]}
{"id": "C26", "title": "Defining an account twice does not lose its history", "statement": "A second `account` line for the same name leaves the account's real value and envelopes as they were.", "quantifier": "all journals with a repeated definition", "why_tests_cant": "Ranges over histories. (The code violates it.)", "anchors": ["src/ledger/mod.rs: Ledger::parse_account"]}
{"id": "C27", "title": "Appending writes the entry at the end of the journal file and nothing else", "statement": "append_entry leaves every other file unchanged and changes the journal file, if it opens, to its old contents followed by a newline and the printed entry; if the file cannot be opened nothing changes anywhere, and if the date format is not valid the program stops without writing.", "quantifier": "all file systems, paths and entries", "why_tests_cant": "Ranges over all file contents.", "anchors": ["src/ledger/mod.rs: Ledger::append_entry"]}
{"id": "C28", "title": "What was appended is read back on the next run", "statement": "Loading the old journal text followed by the appended text is the same as loading the old journal and then adding the entry (printed values rounded to 8 decimals), when the file ends in a complete line or not.", "quantifier": "all journal texts and entries over plain names", "why_tests_cant": "A crash/restart consistency property over all histories.", "anchors": ["src/ledger/mod.rs: Ledger::append_entry, Ledger::from_file", "src/entry.rs: Entry::as_parsable"]}
{"id": "C29", "title": "The journal that is written is the journal that was read", "statement": "When silverfox appends to the journal it writes to the same file that it loaded, whatever path it was given and whatever the journal includes.", "quantifier": "all paths and directory layouts", "why_tests_cant": "Ranges over file system layouts. (The code violates it: it changes directory before it reopens a relative path.)", "anchors": ["src/ledger/mod.rs: Ledger::add_from_file (set_current_dir), Ledger::append_entry"]}
{"id": "C30", "title": "Includes are resolved relative to the including file", "statement": "Every `include` path in a file is resolved relative to the directory of that file.", "quantifier": "all include trees", "why_tests_cant": "Ranges over include trees. (The code violates it after a nested include.)", "anchors": ["src/ledger/mod.rs: Ledger::include, Ledger::add_from_file"]}
{"id": "C31", "title": "Loading terminates on include cycles with an error", "statement": "A journal that includes itself is reported as an error.", "quantifier": "all include graphs", "why_tests_cant": "Non-termination cannot be observed by a test. (The code violates it.)", "anchors": ["src/ledger/mod.rs: Ledger::include"]}
{"id": "C32", "title": "With --no-move nothing is written except by import", "statement": "Running any command other than import with --no-move leaves every file unchanged, whatever the journal contains.", "quantifier": "all file systems, arguments and journals", "why_tests_cant": "Ranges over all inputs.", "anchors": ["src/flags.rs: CommandFlags::execute"]}
{"id": "C33", "title": "Envelope names are unique per account and kind", "statement": "An account that parses has no two expense envelopes with the same name and no two goal envelopes with the same name; a duplicate definition is an error; every envelope belongs to the account and sits in the list of its kind in file order.", "quantifier": "all account texts", "why_tests_cant": "Ranges over all texts.", "anchors": ["src/account.rs: Account::parse, Account::add_envelope"]}
{"id": "C34", "title": "Money enters and leaves an envelope in the right compartment", "statement": "Applying an amount changes exactly one compartment by exactly that amount: negative amounts always reduce 'now'; positive amounts go to 'now' when dated before the last due date and to 'next' otherwise (always 'next' when there is no last due date); zero changes neither. Definition fields never change.", "quantifier": "all envelopes, amounts, dates and days", "why_tests_cant": "Ranges over all states and dates.", "anchors": ["src/envelope.rs: Envelope::apply_amount"]}
{"id": "C35", "title": "Manual envelope postings override inference and reach only the envelope they name", "statement": "An entry with at least one envelope posting moves money only in the envelopes that its envelope postings name (account and envelope name both equal) and by exactly those amounts in order; no automatic movement happens in any envelope for that entry.", "quantifier": "all entries and envelopes", "why_tests_cant": "Ranges over all entries and states.", "anchors": ["src/envelope.rs: Envelope::process_entry, process_manual_postings"]}
{"id": "C36", "title": "Automatic envelope movement follows the postings", "statement": "For an entry without envelope postings, an envelope is touched only if the entry has a posting to its account and one to one of its `for` accounts; then the amount moved is the smaller of the `for` sum and the absolute own-account sum, out of the envelope when the own-account sum is negative and into it otherwise.", "quantifier": "all entries and envelopes", "why_tests_cant": "Ranges over all entries and states.", "anchors": ["src/envelope.rs: Envelope::infer"]}
{"id": "C37", "title": "Spending or refunding moves the envelope in the direction of the money", "statement": "An automatic movement takes money out of the envelope when the account paid and puts it in when the account received, and never crashes on an entry that was accepted.", "quantifier": "all entries and envelopes", "why_tests_cant": "Ranges over entries. (The code violates it for refunds and for priced foreign-currency postings.)", "anchors": ["src/envelope.rs: Envelope::infer"]}
{"id": "C38", "title": "Available money is real money minus everything in envelopes", "statement": "The available value of an account is, per currency, its real value minus the sum of both compartments of all its envelopes; with whole-number amounts this is exact.", "quantifier": "all accounts", "why_tests_cant": "Ranges over all states.", "anchors": ["src/account.rs: Account::get_available_value"]}
{"id": "C39", "title": "The daily filling amount never takes money out and respects the limits", "statement": "A filling amount is never negative or NaN and has the envelope's currency. If the envelope's own balance is not negative, it is at most the available money (or zero), at most what is still missing for the next due date (or zero) and, with aggressive funding, at most the envelope's target.", "quantifier": "all envelopes, all f64 balances, all dates", "why_tests_cant": "Ranges over all f64 values.", "anchors": ["src/envelope.rs: Envelope::get_filling_amount"]}
{"id": "C40", "title": "Filling never overdraws the account", "statement": "The filling postings of one account, taken together, never bring its available money in any currency below zero, if it was not below zero.", "quantifier": "all accounts", "why_tests_cant": "Ranges over all states. (Violated when an envelope is overdrawn.)", "anchors": ["src/account.rs: Account::get_filling_postings", "src/envelope.rs: Envelope::get_filling_amount"]}
{"id": "C41", "title": "No automatic filling for manual envelopes, envelopes without due date, or envelopes already touched today", "statement": "The filling amount is zero if the funding method is manual, if there is no next due date, or if the last transaction of the envelope is dated today; conversely a non-zero amount implies none of these.", "quantifier": "all envelopes and days", "why_tests_cant": "Ranges over all states.", "anchors": ["src/envelope.rs: Envelope::get_filling_amount"]}
{"id": "C42", "title": "Filling twice on the same day moves nothing the second time", "statement": "After the filling entry of a day has been added, every envelope that received money gets a zero filling amount for the rest of that day.", "quantifier": "all ledgers", "why_tests_cant": "A property of histories.", "anchors": ["src/ledger/mod.rs: Ledger::fill_envelopes", "src/envelope.rs: apply_amount, get_filling_amount"]}
{"id": "C43", "title": "Filling never crashes on currencies", "statement": "Computing the filling postings of an account never panics on a currency mismatch: the available pool always knows the currency of each of the account's envelopes.", "quantifier": "all accounts reachable from parsed definitions", "why_tests_cant": "Ranges over all reachable states.", "anchors": ["src/account.rs: Account::get_filling_postings", "src/envelope.rs: Envelope::get_filling_amount (assert_eq!)"]}
{"id": "C44", "title": "Monthly due dates", "statement": "For `every <n>th`, the next due date is the earliest date after today whose day of the month is n, or the last day of its month if the month has no day n.", "quantifier": "all days and all n", "why_tests_cant": "Ranges over the calendar (leap years, month ends).", "anchors": ["src/envelope.rs: Frequency::next_date_by_day_of_month, get_last_date_of_month"]}
{"id": "C45", "title": "Weekly due dates", "statement": "For `every <weekday>`, the next due date is the earliest date after today that falls on that weekday, and the last due date is the latest date up to today that does.", "quantifier": "all days and weekdays", "why_tests_cant": "Ranges over the calendar.", "anchors": ["src/envelope.rs: Frequency::get_next_due_date, get_last_due_date"]}
{"id": "C46", "title": "Biweekly due dates", "statement": "For `every other <weekday> starting D`, the next due date is the earliest date after today among D, D+14, D+28, ...", "quantifier": "all days", "why_tests_cant": "Ranges over the calendar. (Violated when D is in the future.)", "anchors": ["src/envelope.rs: Frequency::get_next_due_date"]}
{"id": "C47", "title": "Bimonthly due dates", "statement": "For `every other <n>th starting D`, the next due date is the earliest date not before today in the two-month sequence that starts at D (days clamped to the month's length), and computing it terminates.", "quantifier": "all days and starting dates", "why_tests_cant": "Ranges over the calendar; termination of a while loop.", "anchors": ["src/envelope.rs: Frequency::get_next_due_date"]}
{"id": "C48", "title": "Annual due dates", "statement": "For `every year starting D`, the next due date is the earliest anniversary of D after today (D itself included).", "quantifier": "all days and starting dates", "why_tests_cant": "Ranges over the calendar. (Violated from the second year on.)", "anchors": ["src/envelope.rs: Frequency::get_next_due_date"]}
{"id": "C49", "title": "The last due date is not in the future and computing it never crashes", "statement": "get_last_due_date of a repeating frequency returns a date not after today, one period before the next due date.", "quantifier": "all days and frequencies", "why_tests_cant": "Ranges over the calendar. (Violated: months without the day, Feb 29, annual.)", "anchors": ["src/envelope.rs: Frequency::get_last_due_date, subtract_months"]}
{"id": "C50", "title": "The progress bar always has the same width", "statement": "The progress bar drawn for an envelope has exactly `width` cells between the two bars, for every f64 amount and target (zero, negative, infinite and NaN included), and drawing it never underflows.", "quantifier": "all f64 pairs, all widths up to 2^53 (the program uses 40)", "why_tests_cant": "Ranges over all f64 values.", "anchors": ["src/envelope.rs: Envelope::make_bar"]}
{"id": "C51", "title": "Envelopes are ordered consistently by due date", "statement": "Comparing envelopes by due date is a total preorder (reflexive, transitive, total, antisymmetric up to equal due dates), with envelopes without due date last.", "quantifier": "all envelopes", "why_tests_cant": "Ranges over all triples.", "anchors": ["src/envelope.rs: impl Ord for Envelope"]}
{"id": "C52", "title": "The register lists exactly the entries in the date range that touch a focused account", "statement": "The register shows, in ledger order, exactly the entries whose date lies within the inclusive range, that have a posting to a focused account, and whose focused amounts are not all zero.", "quantifier": "all ledgers, ranges and account filters", "why_tests_cant": "Ranges over all ledgers.", "anchors": ["src/ledger/register.rs: Register::display, get_maximum_lengths", "src/entry.rs: Entry::as_register_data"]}
{"id": "C53", "title": "The register's running total is the cumulative sum of the rows shown", "statement": "The running total printed in a row is, for the row's currency, the in-order sum of the amounts of that currency in all rows up to and including that entry.", "quantifier": "all ledgers", "why_tests_cant": "Ranges over all ledgers.", "anchors": ["src/ledger/register.rs: print_lines"]}
{"id": "C54", "title": "Each csv record is turned into an entry by the first matching rule block", "statement": "The rules used for a record are those of the first `if` block, in file order, one of whose patterns occurs in the joined fields of the record (ignoring case), and the root rules if none does; included files count as if their text stood at that place.", "quantifier": "all records and all rules files whose blocks include no other file and whose `if` lines have a first word and blank in ASCII", "why_tests_cant": "Ranges over all rule sets and records.", "anchors": ["src/importer.rs: Rules::get_entry_from_record, Subrules::applies_to"]}
{"id": "C55", "title": "An `if` block starts from the root rules above it and never changes them", "statement": "Rules inside an `if` block change only that block's copy of the rules; the root rules after parsing are those given by the root lines alone; a block inherits the root rules that precede it.", "quantifier": "all rules files", "why_tests_cant": "Ranges over all rules texts.", "anchors": ["src/importer.rs: Rules::add_from_str"]}
{"id": "C56", "title": "`-` resets a rule to its default", "statement": "Setting a rule to '-' gives the rules that would result had that rule never been set; other rules are untouched.", "quantifier": "all rules with names in ASCII", "why_tests_cant": "Ranges over all rule states.", "anchors": ["src/importer.rs: Rules::add_from_line"]}
{"id": "C57", "title": "Field variables are substituted independently of hash-map order", "statement": "Substituting csv fields into a template gives the same text for every iteration order of the variables, as long as names and values contain no '%' and the template is made of literal text and %name% references.", "quantifier": "all templates, variables and iteration orders", "why_tests_cant": "Hash-map order is random per process.", "anchors": ["src/importer.rs: Rules::inject_variables"]}
{"id": "C58", "title": "A single imported posting is completed by an opposite posting", "statement": "An imported entry has at least two postings; if the rules give one posting with an amount, the second is a blank posting to expenses:unknown, income:unknown or unknown according to the sign of the amount.", "quantifier": "all rules and records", "why_tests_cant": "Ranges over all rules and records.", "anchors": ["src/importer.rs: Rules::get_entry_from_record"]}
{"id": "C59", "title": "Imported entries can be read back", "statement": "After an import the journal can be loaded again.", "quantifier": "all imports", "why_tests_cant": "Ranges over all histories. (Violated: the completing posting may name an undefined account.)", "anchors": ["src/importer.rs: Rules::get_entry_from_record", "src/ledger/mod.rs: Ledger::import_csv"]}
{"id": "C60", "title": "Import appends the entries of a prefix of the records, in order", "statement": "import_csv appends one entry per record in record order, stopping at the first record that fails; what was appended before the failure stays in the file. (With a date format that is not valid nothing is written.)", "quantifier": "all csv files and failure points", "why_tests_cant": "Ranges over all crash/failure points.", "anchors": ["src/ledger/mod.rs: Ledger::import_csv", "src/importer.rs: impl Iterator for CsvImporter"]}
{"id": "C61", "title": "The subcommand is decided by the first letter of the first argument", "statement": "The first argument selects summary, balance, envelopes, register, import or new by its first letter and anything else is an error; flags after it are processed left to right, a later value of the same flag replaces an earlier one, an unknown flag or a missing value is an error.", "quantifier": "all argument lists", "why_tests_cant": "Ranges over all argument lists.", "anchors": ["src/flags.rs: Subcommand::try_from, CommandFlags::parse_from_env"]}
{"id": "C62", "title": "The journal path comes from -f, then SILVERFOX_FILE, then LEDGER_FILE", "statement": "The file used is the one given by -f if any, otherwise $SILVERFOX_FILE, otherwise $LEDGER_FILE, otherwise an error without touching any file.", "quantifier": "all argument lists and environments", "why_tests_cant": "Ranges over all environments.", "anchors": ["src/flags.rs: CommandFlags::execute, get_file_from_env"]}
{"id": "C63", "title": "A date written in the journal's format reads back as the same date", "statement": "For every date format made of years, centuries, months, days, days of the year, weeks, quarters and weekdays as numbers (padded or not) or names, and other characters, the date stands in the text in the places of the format, and if the format tells the day and the year (or the ISO week, its year and the weekday), parsing that text with the same format gives the same date. A year told by two digits alone is read as one from 1970 to 2069.", "quantifier": "all such formats in which no unpadded number is followed by a digit, all dates of the years 0 to 9999", "why_tests_cant": "Ranges over all formats and dates.", "anchors": ["src/entry.rs: Entry::as_parsable, Entry::parse_header", "src/ledger/mod.rs: Ledger::date_format"]}
{"id": "C64", "title": "Calendar arithmetic is the Gregorian calendar", "statement": "Dates are ordered by year, month, day; adding n days is n times going to the next day (day + 1, or the first of the next month, or the first of January), subtracting is the inverse, the distance in days agrees with it, weekdays advance by one a day, and February has 29 days exactly in leap years.", "quantifier": "all dates of chrono's range, all numbers of days", "why_tests_cant": "Ranges over all dates and distances.", "anchors": ["src/envelope.rs: Frequency::get_next_due_date", "Cargo.lock: chrono 0.4.41"]}
{"id": "C65", "title": "An envelope posting moves money in one envelope only", "statement": "An envelope posting names an account and an envelope; at most one envelope of the account receives its amount.", "quantifier": "all accounts reachable from parsed definitions, all envelope postings", "why_tests_cant": "Ranges over all accounts. (Violated: names are unique only within expenses and within goals.)", "anchors": ["src/account.rs: Account::add_envelope, Account::process_entry", "src/envelope.rs: Envelope::process_manual_postings"]}
{"id": "C66", "title": "The progress bar follows the amount", "statement": "For a positive target, the number of filled cells never goes down when the amount goes up, is zero for amounts up to zero, and is the full width from the target on.", "quantifier": "all finite positive targets, all f64 amounts, all widths from 1 to 2^53", "why_tests_cant": "Ranges over all float pairs. (Violated: rounding leaves a cell empty for some targets.)", "anchors": ["src/envelope.rs: Envelope::make_bar"]}
{"id": "C67", "title": "The imported entry does not depend on hash-map order", "statement": "Two imports of the same record with the same rules give the same entry, whatever the iteration order of the hash maps that hold the variables and the account and amount rules.", "quantifier": "all rules, records and iteration orders", "why_tests_cant": "Hash-map order is random per process. (Violated: the postings come out in map order.)", "anchors": ["src/importer.rs: Rules::get_entry_from_record, Rules::inject_variables"]}
{"id": "C68", "title": "A run changes at most one file, and only by appending", "statement": "Whatever the arguments, the files and directories after a run are those before it, except that text may have been put at the end of one file, which is the journal when its path is absolute.", "quantifier": "all argument lists, environments and file systems", "why_tests_cant": "Ranges over all commands and all contents of the disk.", "anchors": ["src/flags.rs: CommandFlags::execute", "src/ledger/mod.rs: Ledger::append_entry"]}
{"id": "C69", "title": "The csv and rules paths are looked up from the directory silverfox is started in", "statement": "import reads the csv and rules files that the given paths name in the directory where the program was started.", "quantifier": "all paths and directories", "why_tests_cant": "Ranges over all directory layouts. (Violated: loading the journal changes the directory first.)", "anchors": ["src/ledger/mod.rs: Ledger::add_from_file, Ledger::import_csv", "src/importer.rs: CsvImporter::from_file_with_rules"]}
{"id": "C70", "title": "Csv files are read as the records written in them", "statement": "A text made of records (fields separated by commas, written bare or in quotes with inner quotes doubled) and empty lines, ended by carriage returns, line feeds or both, is read as these records in order; a record whose number of fields differs from the first is an error; import uses all but the first `skip` records.", "quantifier": "all records, all ways of writing them", "why_tests_cant": "Ranges over all texts and quoting styles.", "anchors": ["src/importer.rs: CsvImporter::from_strs", "Cargo.lock: csv 1.3.1, csv-core 0.1.12"]}
{"id": "C71", "title": "The balance report shows every account in use and its balance", "statement": "The balance report has one line for each account that a posting names, in alphabetical order, with the name and the sum per currency of what its postings are worth.", "quantifier": "all ledgers", "why_tests_cant": "Ranges over all journals and all mixtures of currencies.", "anchors": ["src/ledger/mod.rs: Ledger::display_flat_balance, Ledger::get_totals", "src/amount.rs: impl Display for AmountPool"]}
{"id": "C72", "title": "The envelope report shows every envelope, its two amounts and its due date", "statement": "The envelope report lists the accounts with envelopes in alphabetical order, and below each the available amounts, the expenses and the goals, each envelope with its now and next amounts, their sum being what is in the envelope, and its next due date; it never fails.", "quantifier": "all ledgers built from a journal, all days", "why_tests_cant": "Ranges over all envelopes and days.", "anchors": ["src/ledger/mod.rs: Ledger::display_envelopes", "src/account.rs: Account::display_envelopes", "src/envelope.rs: impl Display for Envelope"]}
{"id": "C73", "title": "The rows of the register are aligned", "statement": "All rows of the register have the same width.", "quantifier": "all entries, dates and filters", "why_tests_cant": "Ranges over all texts. (Violated: continuation rows are padded by bytes, the others by characters.)", "anchors": ["src/ledger/register.rs: Register::display"]}
{"id": "C74", "title": "An imported entry is made of the texts of its rules", "statement": "The date, status, description, payee and comment of an imported entry are the texts of the matching rules, with references replaced by the fields of the record, read with the date format of the rules.", "quantifier": "all rules and records", "why_tests_cant": "Ranges over all rules and records. (Violated when a field contains percent signs.)", "anchors": ["src/importer.rs: Rules::get_entry_from_record, Rules::inject_variables"]}
{"id": "C75", "title": "A rule line sets the rule that it names, and no other", "statement": "A rule line with a value gives the named rule this value (stripped, or read as list, number or character) and leaves all other rules and the conditional blocks as they are; it fails only if the value cannot be read.", "quantifier": "all rules and rule lines with names in ASCII", "why_tests_cant": "Ranges over all earlier rules and all values.", "anchors": ["src/importer.rs: Rules::add_from_line"]}
{"id": "C76", "title": "Each subcommand prints its report of the journal as filled", "statement": "A run loads the journal, fills the envelopes unless forbidden, and then prints exactly the report of the subcommand for the resulting ledger, or imports the csv file; nothing else is ever printed, apart from the help text when there are no arguments; summary, new, and import without a csv file are errors.", "quantifier": "all argument lists, environments and file systems", "why_tests_cant": "Ranges over all arguments and journals.", "anchors": ["src/flags.rs: CommandFlags::execute", "src/main.rs: main"]}
{"id": "C77", "title": "A run ends unless includes form a cycle", "statement": "If the files can be ranked so that every file included by a journal, from any directory that can become current, and every file included by a rules file is ranked lower than the file that includes it, then every run of every subcommand comes to an end, within a recursion depth given by the rank; no other part of the program can run for ever. A rules file that includes itself is read for ever.", "quantifier": "all argument lists, environments and file systems, all days before the last year of the calendar", "why_tests_cant": "Termination cannot be observed by a test.", "anchors": ["src/ledger/mod.rs: Ledger::add_from_file", "src/importer.rs: Rules::add_from_file", "src/flags.rs: CommandFlags::execute", "src/main.rs: main"]}
{"id": "C78", "title": "An envelope has exactly the fields its definition says", "statement": "The text of an envelope is accepted exactly if its first line gives kind, name, due date and start and every further line gives an account, an amount or a way of funding; the envelope then has these fields, later lines win, accounts are collected, and both its amounts are zero in the currency of its target. It crashes exactly when a blank line follows readable lines.", "quantifier": "all definition texts, date formats and decimal symbols", "why_tests_cant": "Ranges over all texts.", "anchors": ["src/envelope.rs: Envelope::parse, Envelope::from_header, Envelope::add_body, Frequency::parse", "README.md: Envelopes"]}
{"id": "C79", "title": "`every other` day or month is due on the day it names", "statement": "An envelope due `every other <weekday or day of the month> starting <date>` is due on that weekday or day of the month.", "quantifier": "all days, all starting dates, all names of days", "why_tests_cant": "Ranges over all calendars. (Violated: the README's example `every other 15th starting 2020/01/20` is due on the 20th.)", "anchors": ["src/envelope.rs: Frequency::parse, Frequency::get_next_due_date", "README.md: Envelopes"]}
{"id": "C80", "title": "`due`, `by` and `due by` mean the same, and `by due` is refused", "statement": "An envelope whose first line uses `due`, `by` or `due by` is the same envelope in all three cases; a first line with `by due` is an error.", "quantifier": "all kinds, names and due dates", "why_tests_cant": "Ranges over all texts after the word.", "anchors": ["src/envelope.rs: Envelope::from_header, Frequency::parse", "README.md: Envelopes"]}
{"id": "C81", "title": "A delayed start does not move the due days", "statement": "An envelope due every month or week starting from a date is next due on the first named day that is after today and not before the start.", "quantifier": "all days, start dates, days of the month and weekdays", "why_tests_cant": "Ranges over all pairs of dates. (Violated: a start in the future is itself taken as the due date.)", "anchors": ["src/envelope.rs: Envelope::get_next_due_date", "README.md: Envelopes"]}
{"id": "C82", "title": "A one-time due date stands until it has passed", "statement": "An envelope due once on a date is next due on that date as long as it is after today, and never again afterwards; an envelope with no date is never due.", "quantifier": "all days and dates", "why_tests_cant": "Ranges over all pairs of dates. (Violated: with a start date, the envelope is due on the start for ever.)", "anchors": ["src/envelope.rs: Frequency::get_next_due_date, Envelope::get_next_due_date"]}
{"id": "C83", "title": "Balance assertions are checked", "statement": "A journal is rejected if after a posting with a balance assertion the balance of the account in the posting's currency is not the asserted one.", "quantifier": "all journals", "why_tests_cant": "Ranges over all journals. (Violated: assertions are read and printed but never checked.)", "anchors": ["src/posting.rs: ClassicPosting", "README.md: Balance assertions"]}
{"id": "C84", "title": "Amounts without symbol are combined with those of the chosen currency", "statement": "After `currency $`, amounts without a symbol and amounts in $ are added up together.", "quantifier": "all journals and currencies", "why_tests_cant": "Ranges over all journals. (Violated: the setting is stored and never used.)", "anchors": ["src/ledger/mod.rs: Ledger::set_currency", "README.md: Currencies and prices"]}
{"id": "C85", "title": "Envelope postings can be written as documented", "statement": "`envelope <name>` takes the money from the envelope of that name of the account in the entry, and `envelope <name> <account> <amount>` moves the amount in that envelope.", "quantifier": "all names, accounts and amounts", "why_tests_cant": "Ranges over all lines. (Violated: the short form is an error, and the long form takes the account first.)", "anchors": ["src/posting.rs: EnvelopePosting::parse", "README.md: Manual envelope movements"]}
{"id": "C86", "title": "Expenses and goals behave the same", "statement": "An envelope defined as `expense` and the same one defined as `goal` receive the same amounts, are due and filled on the same days with the same amounts, and are shown in the same way.", "quantifier": "all definitions, entries and days", "why_tests_cant": "Ranges over all definitions and histories. (Violated: goals are filled before expenses when the money does not suffice.)", "anchors": ["src/envelope.rs: Envelope", "src/account.rs: Account::get_filling_postings", "README.md: Envelopes"]}
{"id": "C87", "title": "Every command offered by the help text can be used", "statement": "Called without arguments the program prints the help text, changes nothing and ends normally. Each command of the help text is understood by its letter and by its full word, and there are arguments with which it succeeds.", "quantifier": "all commands of the help text, all further arguments and journals", "why_tests_cant": "Ranges over all arguments and file systems. (Violated: `new` is offered but always fails.)", "anchors": ["src/flags.rs: display_help", "src/flags.rs: CommandFlags::execute", "src/flags.rs: Subcommand::try_from"]}
{"id": "C88", "title": "A failed run has a non-zero exit status", "statement": "The exit status is 0 exactly when the run succeeded.", "quantifier": "all arguments, environments and file systems", "why_tests_cant": "Ranges over all runs; no test looks at the exit status. (Violated: after an error the status is 0; only a crash has another one.)", "anchors": ["src/main.rs: main"]}
{"id": "C89", "title": "A run never crashes", "statement": "Whatever the arguments and the journal, a run ends with its output or with an error message, not with a panic.", "quantifier": "all arguments, environments and file systems", "why_tests_cant": "Ranges over all journals; each known crash needs its own particular text. (Violated in thirteen independent ways, see C89_crashes.)", "anchors": ["src/main.rs: main", "src/ledger/mod.rs", "src/envelope.rs", "src/entry.rs", "src/amount.rs", "src/importer.rs"]}
{"id": "C90", "title": "Aggressive saving moves as much as possible", "statement": "README.md 41-42. An aggressive envelope that is due and was not touched today gets at least every amount that is available, not above its target and not above what is missing; if it gets less than its target and less than what is missing, then nothing of its currency is left in the account after the filling.", "quantifier": "all envelopes, accounts, dates and amounts", "why_tests_cant": "Ranges over all float amounts and all sets of envelopes that compete for the same money.", "anchors": ["src/envelope.rs: Envelope::get_filling_amount", "src/account.rs: Account::get_filling_postings", "README.md: Methods of saving money"]}
{"id": "C91", "title": "Conservative saving is spread over the days and is complete just in time", "statement": "README.md 42-44. A conservative envelope gets what is missing divided by the days until its due date (the nearest float), or less if that is not available; if it is filled on every day up to the day before the due date, with enough money at hand, its savings are then the target up to a relative rounding error of 2^-51. (For envelopes that owe nothing, whose savings lie between zero and the target, and whose last due date is not in the future.)", "quantifier": "all envelopes, dates, amounts and numbers of days", "why_tests_cant": "Ranges over all floats and any number of days; the rounding errors of a long run cannot be bounded by examples.", "anchors": ["src/envelope.rs: Envelope::get_filling_amount", "src/envelope.rs: Envelope::apply_amount", "README.md: Methods of saving money"]}
{"id": "C92", "title": "Automatic filling never saves more than the target", "statement": "After a filling is recorded, the envelope's savings for its next due date are not above its target.", "quantifier": "all envelopes, dates and amounts", "why_tests_cant": "Ranges over all frequencies, start dates and floats; needs runs on several days. (Violated: an envelope that starts more than a year ahead gets its whole target again on every day.)", "anchors": ["src/envelope.rs: Envelope::get_filling_amount", "src/envelope.rs: Envelope::apply_amount", "src/envelope.rs: Frequency::get_last_due_date"]}
{"id": "C93", "title": "What was saved before the last due date is ready to be spent", "statement": "README.md 32-35. After a history of entries, the first compartment of an envelope is the sum, in order, of what was spent and of what was put in before the last due date; the second is the sum of what was put in since.", "quantifier": "all account definitions, histories of entries and dates", "why_tests_cant": "Ranges over all histories and all frequencies; an error shows only in particular years or months. (Violated: for yearly envelopes the program takes a date before the start for the last due date, for ever.)", "anchors": ["src/envelope.rs: Envelope::process_entry", "src/envelope.rs: Envelope::apply_amount", "src/envelope.rs: Frequency::get_last_due_date", "README.md: Expenses, savings goals, and more"]}
{"id": "C94", "title": "An amount with up to eight decimals is shown as it was written", "statement": "The amount read from a decimal with up to eight digits after the point, of size below 2^51 units of 10^-8, is shown as that decimal without superfluous zeros: no other digits appear, the currency symbol stands before the number if it is at most two bytes long and after it otherwise, and a number that is not negative has a blank for its sign. (For a zero that was written with a minus sign the sign may be kept.)", "quantifier": "all decimal symbols, decimals and currency symbols", "why_tests_cant": "Ranges over about 2^52 numbers; each is rounded to binary, multiplied, rounded, divided and printed by a shortest-digits search.", "anchors": ["src/amount.rs: Amount::parse, Display for Amount"]}
{"id": "C95", "title": "Totals of decimals are shown exactly", "statement": "The total of amounts with up to eight decimals, as shown for an account, in the balance report, as running total of the register or as inferred amount, is their exact decimal sum. (Violated: zero can be shown as `-0`, and with large amounts the last decimals are wrong.)", "quantifier": "all journals", "why_tests_cant": "Ranges over all sequences of amounts; the error of floating-point addition depends on all of them.", "anchors": ["src/amount.rs: AddAssign for AmountPool, Display for Amount", "src/entry.rs: Entry::get_blank_amount", "src/ledger/mod.rs: Ledger::get_totals", "src/account.rs: Account::process_entry", "src/ledger/register.rs: Register::display"]}
{"id": "C96", "title": "A run records its moves in one entry and changes nothing else", "statement": "A successful run (other than import, without --no-move) appends to the journal one entry, dated today, cleared, described as 'move to envelopes', with one line for every envelope whose filling amount is not zero, in the order in which the envelopes get their money; with no such envelope it appends nothing. No other file changes.", "quantifier": "all journals, arguments and days", "why_tests_cant": "Ranges over all journals with any number of accounts and envelopes; tests compare a few written files.", "anchors": ["src/ledger/mod.rs: fill_envelopes, append_entry", "src/account.rs: get_filling_postings", "src/entry.rs: Display", "src/posting.rs: Display"]}
{"id": "C97", "title": "What stands in the skipped records does not matter", "statement": "An import with `skip n` imports the records after the first n, whatever the first n contain. (Violated: the records must have as many fields as the first one of the file, even if that one is skipped; a title line above the records makes the import fail.)", "quantifier": "all csv files and rules", "why_tests_cant": "Ranges over all csv files; the repository's tests skip a header with as many fields as the records.", "anchors": ["src/importer.rs: CsvImporter::from_strs"]}
{"id": "C98", "title": "Envelopes are filled once a day", "statement": "On a day on which money was moved into an envelope, a further run moves nothing into it. (Violated: the program remembers the date of the last move in file order; if an entry for an earlier day with a move of that envelope is added after the run, the next run on the same day fills the envelope again.)", "quantifier": "all journals and days", "why_tests_cant": "Ranges over all histories of moves, in any order in the file.", "anchors": ["src/envelope.rs: Envelope::process_entry, get_filling_amount"]}
{"id": "C99", "title": "The order in which entries stand in the journal does not matter", "statement": "Journals with the same entries in a different order give the same reports and the same moves. (Violated for the envelope report, whose currencies come in the order of the file, and for the moves, which depend on the last entry in the file.)", "quantifier": "all journals and all reorderings of their entries", "why_tests_cant": "Ranges over all permutations of the entries of all journals.", "anchors": ["src/ledger/mod.rs: Ledger::add_entry", "src/account.rs: Account::process_entry", "src/envelope.rs: Envelope::process_entry", "src/amount.rs: AddAssign for AmountPool"]}
{"id": "C100", "title": "Entries neither make nor lose money", "statement": "If all accounts are defined before the entries, and the amounts of each entry sum to zero in each currency or one of them is left out, then the real amounts of all accounts sum to zero in each currency. (Violated: the amount that is filled in for the one left out also counts the amounts of envelope postings.)", "quantifier": "all journals", "why_tests_cant": "Ranges over all sequences of entries and all sets of accounts.", "anchors": ["src/ledger/mod.rs: Ledger::add_entry", "src/account.rs: Account::process_entry", "src/entry.rs: Entry::get_blank_amount"]}
{"id": "C101", "title": "Including a file is like inserting its text", "statement": "A journal that includes a file and the journal with the text of that file in place of the `include` line give the same ledger. (Violated: if the file is in another directory, files included later are looked for there; and an indented line below the `include` line is silently ignored.)", "quantifier": "all journals in any number of files", "why_tests_cant": "Ranges over all texts and all ways to distribute them over files.", "anchors": ["src/ledger/mod.rs: Ledger::add_from_file, add_from_str, parse_chunk, include"]}
{"id": "C102", "title": "A failing run says what is wrong, once", "statement": "A run that ends with an error prints nothing on standard output and exactly one message on standard error; a run that does not prints no message. Each message has a non-empty explanation, in a fixed layout, and contains the values that the error is about, each in its place in the sentence about it.", "quantifier": "all arguments, files and errors", "why_tests_cant": "Ranges over all runs and all errors, with any text quoted in them.", "anchors": ["src/errors.rs: Display of SilverfoxError, ParseError, ValidationError, ProcessingError", "src/main.rs: main"]}
{"id": "C103", "title": "An error message quotes the journal", "statement": "When loading a journal fails, what the message quotes stands in one of the files of the journal. (Violated for a verbatim quotation: a double dash is dropped from amounts, the words of an amount are joined, a missing payee is made up.)", "quantifier": "all journals, with all included files", "why_tests_cant": "Ranges over all texts; the error may come from any function of the parser.", "anchors": ["src/errors.rs", "src/amount.rs: Amount::parse", "src/entry.rs: Entry::parse, as_full_string", "src/envelope.rs: Envelope::parse", "src/account.rs: Account::parse", "src/ledger/mod.rs: Ledger::add_from_str"]}
{"id": "C104", "title": "What an error message claims is true", "statement": "An account that is reported as not defined in the journal is used by a posting and nowhere defined; a journal that is called all valid has no malformed part. (Violated: the account may be defined further down, and a later part may be malformed.)", "quantifier": "all journals", "why_tests_cant": "Ranges over all journals; universal claim about all chunks of all files.", "anchors": ["src/entry.rs: Entry::validate", "src/errors.rs: Display of ProcessingError", "src/ledger/mod.rs: Ledger::add_entry"]}
{"id": "C105", "title": "The first error decides", "statement": "A journal that cannot be loaded gives the same error or crash whatever is written below its text; so a journal that can be loaded can be loaded when cut before any line that is not indented. (For journals that no file includes.)", "quantifier": "all journals and all continuations", "why_tests_cant": "Ranges over all texts that could follow.", "anchors": ["src/ledger/mod.rs: Ledger::add_from_str, add_from_file"]}
{"id": "C106", "title": "An error of an import is about the rules, the csv file or the journal", "statement": "When an import fails, what the message quotes stands in a line of the rules or of a rules file that they include, in the names the rules give to fields, in a rule's text with the values of a record of the csv file filled in, or it is an entry made from such a record, or one of the paths; or the error is one of the journal itself. A rule that is called unknown is unknown; a nested `if`, a discarded `fields` and an unreadable record are there.", "quantifier": "all rules files with all includes, all csv files and journals", "why_tests_cant": "Ranges over all texts of all files involved, and all substitutions of values into rules.", "anchors": ["src/importer.rs: Rules::add_from_str, add_from_line, get_entry_from_record", "src/ledger/mod.rs: Ledger::import_csv", "src/errors.rs"]}
{"id": "C107", "title": "White space, words, lines and paths are understood in the usual way", "statement": "White space is what Unicode says; the words of a text, its lines (ended by LF or CR LF) and the text between surrounding white space are unique and are what the program works with; files are found by walking along the path from the current directory or the root, with `.` and `..`.", "quantifier": "all texts and paths", "why_tests_cant": "Ranges over all texts of Unicode characters; an exact characterisation of each function.", "anchors": ["src/ledger/mod.rs: Ledger::add_from_str, add_from_file", "src/utils.rs", "src/entry.rs: Entry::parse", "src/posting.rs: Posting::parse"]}
{"id": "C108", "title": "Every frequency has exactly these due dates", "statement": "For every frequency, start (past or future) and day, the next and the last due date (or that there is none, or the crash) are given by a table: the next due day after today for weekly, monthly and started fortnightly envelopes, today included for every other month; a day 14 to 27 days ahead for fortnights that have not started; the start or one year after it for yearly ones; the last due date is one period before the next, and a crash if that day does not exist.", "quantifier": "all days within the calendar, all frequencies", "why_tests_cant": "Exact in both directions over all pairs of days; the exceptions (starts in the future, 29 February, days 29 to 31) are rare days.", "anchors": ["src/envelope.rs: Frequency::get_next_due_date, get_last_due_date, next_date_by_day_of_month, subtract_months"]}
{"id": "C109", "title": "A date is read from any text that says it, whatever time of day stands beside it", "statement": "In a format with items of the time of day, the fraction of a second, the zone or a time stamp, a date that the other items determine is read from every text that says that date and some time of day, with any allowed padding and writing of offsets. A date is read in no other format. Such a format cannot be used for writing: no row of the register is shown and no entry is appended.", "quantifier": "all formats, all dates of the years 0 to 9999, all times and offsets", "why_tests_cant": "Ranges over all formats, dates, times and ways of writing them; the converse ranges over all texts and formats.", "anchors": ["src/entry.rs: Entry::parse_header, Entry::as_register_data, Entry::as_parsable", "src/importer.rs: CsvImporter", "src/ledger/mod.rs: Ledger::append_entry"]}
{"id": "C110", "title": "The ledger depends on the sequence of definitions and entries, not on the files in which they stand", "statement": "Reading a journal with includes yields one sequence of definitions and entries, found by looking for each file in the directory of the file opened just before it. The sequence is unique, exists for every journal that can be loaded, and any two journals with the same sequence give the same ledger or the same error; the program ends in the directory of the last file.", "quantifier": "all file systems, journals, nestings of includes and directories", "why_tests_cant": "Ranges over all trees of includes, with the recursion unbounded.", "anchors": ["src/ledger/mod.rs: Ledger::from_file, add_from_file, add_from_str, parse_chunk"]}
{"id": "C111", "title": "A text that is read as a date says this date and nothing else", "statement": "When a text is read as a date, it is made of the items of the date format and nothing else, and every item agrees with the date that is read: numbers (with white space before them, zeros and, for years, a sign), names or their first three letters in any case, literal text; white space of the format may be missing or longer. For formats of dates that determine the day, these are all the texts that are read. The first word of an entry says its date in this sense.", "quantifier": "all texts and formats; the converse for the years 1 to 9999", "why_tests_cant": "Exact set of accepted texts over all texts and formats; a test shows single accepted or rejected texts.", "anchors": ["src/entry.rs: Entry::parse_header", "src/importer.rs: CsvImporter", "src/envelope.rs: Frequency::parse"]}
{"id": "C112", "title": "After a run the journal can be loaded again", "statement": "After a run that moved money to envelopes, the journal can be loaded again the same day, and the loaded ledger is the one from before the run with one more entry: the moves, with amounts of eight decimals. If eight decimals suffice for the amounts, it is the ledger that the run reported, except for the comment of the entry.", "quantifier": "all journals with includes, all accounts and envelopes, all amounts and currencies", "why_tests_cant": "Round trip through the file for every journal; a test shows it for the texts it has.", "anchors": ["src/ledger/mod.rs: Ledger::append_entry, fill_envelopes", "src/account.rs: Account::parse_header", "src/envelope.rs: Envelope::from_header", "src/amount.rs: Display for Amount", "src/flags.rs: CommandFlags::execute"]}
{"id": "C113", "title": "Two runs on the same day do not move the same money twice", "statement": "When silverfox is run twice on the same day, the second run moves nothing to an envelope to which the first run moved money.", "quantifier": "all journals, all pairs of subcommands that are not imports, all options", "why_tests_cant": "Two whole runs with the file between them, over all journals; a test shows pairs of runs it has.", "anchors": ["src/flags.rs: CommandFlags::execute", "src/ledger/mod.rs: Ledger::fill_envelopes", "src/envelope.rs: Envelope::get_filling_amount"]}
{"id": "C114", "title": "Moving money to envelopes changes neither the balances nor the register", "statement": "Moving money to envelopes keeps it in the account. So the balance report and the register are the same with and without --no-move. (Violated: both count the money that is moved as if it had been paid into the account; the account's own value, from which envelopes are filled, stays right.)", "quantifier": "all journals, all days", "why_tests_cant": "A sum over all entries before and after the moves, compared for all journals; a test sees the amounts of one journal.", "anchors": ["src/ledger/mod.rs: Ledger::get_totals", "src/ledger/mod.rs: Ledger::fill_envelopes", "src/entry.rs: Entry::as_register_data", "src/account.rs: Account::process_entry"]}
{"id": "C115", "title": "The words of entries have no effect on the numbers", "statement": "Status, description, payee and comment of an entry only describe it. Two journals (with the files they include) that differ in such words only give the same balance report, the same envelopes and the same exit status, and the same text is appended to them. If only payees and comments differ, the register is the same, too.", "quantifier": "all pairs of file systems whose files differ in the words of headers only, all subcommands, all options", "why_tests_cant": "A relation between two runs on arbitrary journals; a test compares the pairs it has.", "anchors": ["src/entry.rs: Entry::parse_header, Entry::as_register_data", "src/ledger/mod.rs: Ledger::add_from_file, add_entry, get_totals, fill_envelopes", "src/flags.rs: CommandFlags::execute"]}
{"id": "C116", "title": "A price per unit and the total cost say the same", "statement": "`x BTC @ p` and `x BTC = t`, with t the price of all |x| units, give the posting the same worth. (Violated for sales: the total cost counts with the sign of a purchase.)", "quantifier": "all amounts and prices", "why_tests_cant": "Ranges over all floating-point amounts and prices, with their signs.", "anchors": ["src/posting.rs: Posting::get_original_native_value", "src/entry.rs: Entry::get_blank_amount"]}
{"id": "C117", "title": "The cost of an amount in another currency is inferred", "statement": "README: in an entry with an amount in another currency and no price, silverfox infers its total cost from the other amounts. (Violated: a price that is not written is not known, and an entry with such an amount is refused if it concerns an envelope, even if the amount has nothing to do with it.)", "quantifier": "all entries and envelopes", "why_tests_cant": "The exact condition for acceptance ranges over all entries and envelopes.", "anchors": ["README.md: Currencies and prices", "src/envelope.rs: Envelope::infer", "src/posting.rs: Posting::get_original_native_value"]}
{"id": "C118", "title": "How a journal is laid out does not matter", "statement": "White space, blank lines and comments separate the words of a journal and mean nothing else. Two journals (with the files they include) that differ in them only give the same output and the same exit status, and the same text is appended to them. (Violated inside the definition of an envelope, where one space is required in some places.)", "quantifier": "all pairs of file systems whose files are laid out differently, all subcommands, all options", "why_tests_cant": "A relation between two runs on arbitrary journals; a test compares the pairs it has.", "anchors": ["src/ledger/mod.rs: Ledger::add_from_file, add_from_str, parse_account", "src/entry.rs: Entry::parse, parse_header", "src/posting.rs: Posting::parse", "src/account.rs: Account::parse, parse_header", "src/envelope.rs: Envelope::from_header, add_body"]}
{"id": "C119", "title": "The order of definitions does not matter", "statement": "Definitions of accounts may stand in any order, and so may the envelopes of an account and the settings of an envelope. Two journals (with the files they include) that differ in that order only are both refused, or give the same output and get the same lines appended. Nor does it matter in which order the hash map of accounts is gone through. (Violated by the order of the envelopes of an account: the one defined last is filled first.)", "quantifier": "all pairs of file systems whose files are arranged differently, all subcommands, all options; all orders of the accounts", "why_tests_cant": "A relation between two runs on arbitrary journals, and over all orders of a hash map; a test sees the pairs and the orders it happens to meet.", "anchors": ["src/ledger/mod.rs: Ledger::parse_account, add_entry, fill_envelopes, display_flat_balance, display_envelopes", "src/account.rs: Account::parse, get_filling_postings, display_envelopes", "src/envelope.rs: Envelope::parse, add_body"]}
{"id": "C120", "title": "A report asked for again shows the same", "statement": "A report that has moved money to envelopes, asked for again on the same day with --no-move, prints exactly the same and changes no file: what was counted is what was written. (Violated by the code where the amounts moved need more than eight decimals: they are counted with all of them and written with eight, so a daily share of a third changes the next balance.)", "quantifier": "all journals, all reports (balance, envelopes, register and the rest) with all options, all days", "why_tests_cant": "Relates two runs of which the second reads what the first wrote, for arbitrary journals and amounts; tests of one run cannot see it, and tests with round amounts cannot either.", "anchors": ["src/flags.rs: CommandFlags::execute", "src/ledger/mod.rs: Ledger::fill_envelopes, display_flat_balance, display_envelopes", "src/posting.rs: EnvelopePosting::fmt", "src/amount.rs: Amount::fmt"]}
{"id": "C121", "title": "Whole amounts settle in one run", "statement": "If all amounts of a journal are whole numbers (the inferred ones then are too), no envelope is filled by parts, and the amounts add up to at most 90 million as often as there are envelopes, then everything silverfox moves is a positive whole number; after a run that moved money, any further run on the same day, with --no-move or without, changes no file, and the same report prints exactly the same. (Beyond that bound whole numbers are not written as they are: 59812938990 becomes 59812938990.00001.)", "quantifier": "all journals of whole amounts with aggressive or manual envelopes, all days, all reports with all options", "why_tests_cant": "The second run reads what the first wrote and recomputes what is available; that nothing is left to move holds by exactness of every sum for arbitrary histories, which no finite set of journals shows.", "anchors": ["src/flags.rs: CommandFlags::execute", "src/ledger/mod.rs: Ledger::fill_envelopes", "src/account.rs: Account::get_filling_postings, get_available_value", "src/envelope.rs: Envelope::get_filling_amount", "src/entry.rs: Entry::get_blank_amount", "src/amount.rs: Amount::fmt"]}
{"id": "C122", "title": "The day decides only how money is divided in the envelopes", "statement": "Loading the same journal on two days gives the same accounts, entries, settings and errors; only the division of an envelope's money into what is ready and what is saved for the next time differs. Balance and register with --no-move print the same on every day, and where the amounts are whole numbers each envelope holds the same altogether and each account has the same available. False in one respect: a day can make the program crash on a journal that it reads on another (an envelope due on the 31st); journals on which no run crashes (C89) are shown the same on all days.", "quantifier": "all worlds, journals, pairs of days, arguments", "why_tests_cant": "The day enters every posting to an envelope through the last due date; that nothing else depends on it is a statement about pairs of runs on all journals and all days.", "anchors": ["src/ledger/mod.rs: Ledger::from_file, add_entry", "src/envelope.rs: Envelope::process_entry, apply_amount", "src/envelope.rs: Frequency::get_last_due_date", "src/account.rs: Account::process_entry, get_available_value", "src/flags.rs: CommandFlags::execute"]}
{"id": "C123", "title": "An entry changes only the accounts it names", "statement": "If a journal gets one more entry, anywhere in any of its files, and both journals can be loaded, then every account that no posting of the entry names is exactly as before, with its real value and all its envelopes (also those that save for an account the entry names); the other entries keep their order; the balance report has the same lines for the other accounts; and a register that does not list the entry is the same letter for letter.", "quantifier": "all worlds, journals, included files, places for the entry, days", "why_tests_cant": "The extra entry shifts everything that is read after it and the sorting of all entries; that nothing leaks to other accounts is a statement about pairs of journals.", "anchors": ["src/ledger/mod.rs: Ledger::add_entry, get_totals, display_flat_balance", "src/account.rs: Account::process_entry", "src/envelope.rs: Envelope::process_entry, process_manual_postings, infer", "src/ledger/register.rs: Register::display"]}
{"id": "C124", "title": "A csv file can be imported in parts", "statement": "Importing a csv file, with --no-move, leaves the same files and has the same outcome (also the same error) as importing its first records from one file and the others from a second, each with its own title lines. False where the first import writes entries that cannot be loaded again, such as postings to an account that is not defined: then the second part is refused.", "quantifier": "all worlds, journals, rules, csv files and places to divide them", "why_tests_cant": "The second run has to read the first part back from the journal; that this changes nothing for any record is a statement about pairs of histories of runs.", "anchors": ["src/ledger/mod.rs: Ledger::import_csv, append_entry, from_file, add_entry", "src/importer.rs: CsvImporter::from_file_with_rules, next", "src/flags.rs: CommandFlags::execute"]}
{"id": "C125", "title": "The columns of a csv file can come in any order", "statement": "Importing a csv file whose columns were put in another order, with those left out that no rule refers to, has the same outcome as importing the original, given that the `fields` line of the rules is changed accordingly. False where a pattern of an `if` block is found across the border of two columns.", "quantifier": "all worlds, rules, csv files, orders and choices of columns", "why_tests_cant": "The variables live in a hash map and the fields of a record are joined before patterns are looked for, so what a permutation changes has to be followed through every template and block.", "anchors": ["src/importer.rs: CsvImporter::next, Rules::get_entry_from_record, add_from_line, inject_variables, applies_to", "src/ledger/mod.rs: Ledger::import_csv"]}
{"id": "C126", "title": "Names of accounts, envelopes and currencies are only names", "statement": "Give all accounts, envelopes and currencies of a ledger and its entries other names, different ones for different things. Then validating and adding entries, the moves to envelopes, and the totals have the same outcome, error or panic as before, with the new names in place of the old. So have the rows of the register if the same accounts are in focus.", "quantifier": "all ledgers, entries, days and one-to-one renamings", "why_tests_cant": "A comparison of two executions on all inputs; a special case for one name anywhere in the code would break it, and no finite set of names can exclude that.", "anchors": ["src/ledger/mod.rs: Ledger::add_entry, fill_envelopes, get_totals", "src/account.rs: Account::process_entry", "src/envelope.rs: Envelope::process_entry, get_filling_amount", "src/entry.rs: Entry::get_blank_amount, validate, as_register_data", "src/amount.rs: AmountPool::only"]}
{"id": "C127", "title": "Entries with all signs turned move the money the other way", "statement": "Turn the sign of every amount (and total cost) in the entries of a ledger. Then blank amounts, the money of every account, the totals and the amounts in the register are turned too, up to the sign of zero, and the register shows the opposite flow; no error appears or disappears in the totals and the register. With whole amounts, an entry followed by its opposite leaves the money of every account as it was; what is in an envelope does not come back.", "quantifier": "all ledgers and entries, amounts of any size", "why_tests_cant": "Holds for all f64 amounts only because rounding is symmetric and every branch on a sign has its mirror image; a branch that treats one sign differently can hide from any list of examples.", "anchors": ["src/entry.rs: Entry::get_blank_amount, as_register_data", "src/account.rs: Account::process_entry", "src/ledger/mod.rs: Ledger::get_totals, add_entry", "src/posting.rs: ClassicPosting::get_original_native_value", "src/envelope.rs: Envelope::process_entry"]}
{"id": "C128", "title": "An entry changes only the currencies it names", "statement": "Add an entry anywhere in a journal. In every currency in which the entry has no amount, written or inferred, each account still holds the same money, each of its envelopes holds the same money, and the balance report shows the same amounts.", "quantifier": "all journals of any number of files, entries, and places of the entry", "why_tests_cant": "Holds only if no later entry, envelope or inference mixes currencies through the state that the added entry left behind; the number of such journals is unbounded.", "anchors": ["src/amount.rs: AmountPool::add_assign", "src/account.rs: Account::process_entry", "src/envelope.rs: Envelope::process_entry, infer, apply_amount", "src/ledger/mod.rs: Ledger::add_entry, get_totals"]}
{"id": "C129", "title": "How an entry is divided into postings does not matter", "statement": "Write the postings of an entry in another order, or two postings of one account and currency as one with the sum, or one as two. The entry is accepted as before, the amount left out is the same, every envelope of the journal is the same in all its parts, every account holds the same money, and the balance report is the same.", "quantifier": "all ledgers with accounts defined, all lists of entries and all rewritings of each of them, whole numbers", "why_tests_cant": "The amount left out, the envelope movements and the account sums are each computed by a loop over the postings in written order; the number of orders and divisions is unbounded.", "anchors": ["src/entry.rs: Entry::validate, get_blank_amount, has_mixed_currencies", "src/envelope.rs: Envelope::process_entry, infer", "src/account.rs: Account::process_entry", "src/ledger/mod.rs: Ledger::add_entry, get_totals"]}
{"id": "C130", "title": "Amounts in proportion give results in proportion", "statement": "Take two lists of entries with the same dates, accounts and currencies, whose amounts (and what they are worth) are in the proportion c to k, posting by posting, both positive. If one list is accepted into a ledger, the other is too. Then the money of every account, what every envelope holds now and for the next due date, and every amount of the balance report are in the proportion c to k.", "quantifier": "all ledgers with accounts and envelopes defined, all such pairs of lists, all c and k, whole amounts of at most 2^52 in total", "why_tests_cant": "A sign test, a comparison of two amounts or a constant in any of the loops could break the proportion only for some sizes or signs; the amounts, the factor and the lists are unbounded in number.", "anchors": ["src/entry.rs: Entry::validate, get_blank_amount", "src/posting.rs: Posting::get_original_native_value", "src/envelope.rs: Envelope::process_entry, infer", "src/account.rs: Account::process_entry", "src/ledger/mod.rs: Ledger::add_entry, get_totals"]}
{"id": "C131", "title": "An account with more money never saves less", "statement": "Take two accounts with the same envelopes, the second with at least as much money of every currency. Then on the same day every automatic move of the second is to the same envelope and in the same currency as that of the first and its amount is not smaller, and what is left over of every currency is not smaller either.", "quantifier": "all days, all pairs of such accounts with any histories, any number of envelopes, amounts of envelopes up to 10^300", "why_tests_cant": "Each envelope takes from what the envelopes before it have left, through four limits in floating point; whether more money can mean less for a later envelope depends on all of them together.", "anchors": ["src/account.rs: Account::get_filling_postings, get_available_value", "src/envelope.rs: Envelope::get_filling_amount, get_filling_posting", "src/amount.rs: AmountPool::only"]}
{"id": "C132", "title": "A due date stays until it is reached and never moves back", "statement": "From one day to a later one, the next due date that is found for an envelope does not become earlier; and as long as it lies ahead it stays the same.", "quantifier": "all pairs of days within the calendar, all frequencies and starts", "why_tests_cant": "A statement about pairs of runs on different days; the due date is computed anew each day from today, the frequency and the start, and the days on which the two computations disagree are rare.", "anchors": ["src/envelope.rs: Envelope::get_next_due_date", "src/envelope.rs: Frequency::get_next_due_date, next_date_by_day_of_month"]}
{"id": "C133", "title": "From the typed journal to the printed balances", "statement": "Take a journal that is typed as account lines and entries, with comments, empty lines and white space as one likes, amounts as decimals of at most eight places with or without a currency, and at most one posting without an amount in an entry. Then the balance command succeeds, changes no file, and prints a line for every account that is named in an entry and no other, sorted; for every currency moved on the account it shows the exact decimal sum of what was typed, where a posting without an amount counts what the others leave.", "quantifier": "all journal texts of that form, of any length, in any date order, with amounts whose sums keep their decimals in a double; a posting without an amount is not the first of its account", "why_tests_cant": "The claim goes from characters to characters through reading, sorting by date, filling in amounts, binary sums, rounding and padding; a test compares one journal with one output, and a deviation in the last decimal only shows for some amounts and lengths.", "anchors": ["src/main.rs: main", "src/ledger/mod.rs: Ledger::from_file, display_flat_balance, get_totals", "src/entry.rs: Entry::parse, get_blank_amount", "src/posting.rs: Posting::parse", "src/amount.rs: Amount::parse, AmountPool"]}
{"id": "C134", "title": "The printed balances of a balanced journal add up to zero", "statement": "If in every entry of a typed journal the amounts of every currency add up to zero, or one amount is left out, then the decimals that the balance command prints for all accounts add up to exactly zero in every currency. (Violated: the amount left out is printed as zero if its posting is the first of its account.)", "quantifier": "all journal texts of the form of C133, of any length", "why_tests_cant": "Every printed total goes through binary sums and rounding on its own; that the decimals of all of them together cancel exactly can only be tested journal by journal.", "anchors": ["src/main.rs: main", "src/ledger/mod.rs: Ledger::display_flat_balance, get_totals", "src/entry.rs: get_blank_amount", "src/amount.rs: AmountPool"]}
{"id": "C135", "title": "From the typed journal to the printed register", "statement": "For a journal typed as in C133, the register command succeeds, changes no file, and prints the entries in the order of their dates, each with its date and, for every currency moved on accounts whose names start with asset, the exact decimal sum of what the entry moves there and the exact decimal total of all entries up to it. Only entries that change none of these totals can be missing.", "quantifier": "all journal texts of that form, of any length, in any date order, with amounts whose sums keep their decimals in a double", "why_tests_cant": "The total in a row is a binary sum of binary sums, rounded when printed; whether the printed decimals are exact in every row depends on all rows before it.", "anchors": ["src/main.rs: main", "src/ledger/register.rs: display", "src/entry.rs: Entry::parse, as_register_data, get_blank_amount", "src/amount.rs: AmountPool"]}
{"id": "C136", "title": "The register and the balances agree", "statement": "For a typed journal, the last running total of each currency in the register is the decimal sum of the balances that the balance command prints for the accounts whose names start with asset; if the register has no row of a currency, these balances add up to zero. (Violated: a posting without an amount that is the first of its account counts in the register but not in the balances.)", "quantifier": "all journal texts of the form of C133, of any length, in any date order", "why_tests_cant": "Two commands add up the same postings in different ways, by account and by date; a test compares them for one journal.", "anchors": ["src/main.rs: main", "src/ledger/mod.rs: Ledger::display_flat_balance, get_totals", "src/ledger/register.rs: display", "src/entry.rs: as_register_data"]}
{"id": "C137", "title": "The balance report depends only on the totals", "statement": "Two typed journals in which the same accounts have the same totals in the same currencies print the same balance report, whatever the order and the number of their entries; in particular the order in which the entries stand in the file does not matter. (Violated: the currencies of an account come in the order in which they first occur, and a total of zero can be shown as -0.)", "quantifier": "all pairs of journal texts of the form of C133, of any length", "why_tests_cant": "A statement about two runs on any two journals; floating-point sums do depend on the order, so that a test of one pair says nothing about another.", "anchors": ["src/main.rs: main", "src/ledger/mod.rs: Ledger::display_flat_balance, get_totals", "src/amount.rs: Amount, AmountPool"]}
{"id": "C138", "title": "One more entry", "statement": "If an entry is added to a typed journal, at any place, each balance in the balance report changes by exactly what the entry moves on the account in the currency, and rows are new only for accounts of the entry. If an entry and its reverse (the same postings with the opposite amounts, on any day) are added, with accounts and currencies that are in use, and every account has one currency and a total that is not zero, the report is the same text as before.", "quantifier": "all pairs of journal texts of the form of C133 with one entry more or with an entry and its reverse more, of any length", "why_tests_cant": "A statement about pairs of runs on any journal and any added entry, with exact decimals although the sums are floats.", "anchors": ["src/main.rs: main", "src/ledger/mod.rs: Ledger::display_flat_balance, get_totals", "src/entry.rs: get_blank_amount"]}
{"id": "C139", "title": "Other names in the journal text", "statement": "Type a journal again with other names for its accounts and currencies, different ones for different things, with the entries in any order. Then the balance report has a row for every new name and no others, and shows for each account and currency the same amount as before.", "quantifier": "all pairs of journal texts of the form of C133 that differ by one-to-one renamings of accounts and of currencies, of any length", "why_tests_cant": "Names are compared, split at blanks and tried as numbers while a journal is read; a test uses a few names.", "anchors": ["src/main.rs: main", "src/ledger/mod.rs: Ledger::display_flat_balance, get_totals", "src/posting.rs: ClassicPosting"]}
{"id": "C140", "title": "A balance report can be read in one way", "statement": "If the balance reports of two typed journals are the same text, the same accounts occur in both journals, in the same currencies and with exactly the same totals: no two different states of the accounts print the same.", "quantifier": "all pairs of journal texts of the form of C133, of any length", "why_tests_cant": "That no two of all possible journals with different totals are shown alike cannot be sampled.", "anchors": ["src/main.rs: main", "src/ledger/mod.rs: Ledger::display_flat_balance, get_totals", "src/amount.rs: Amount"]}
{"id": "C141", "title": "Balances and register of a journal in several files", "statement": "A typed journal may be cut into several files, also into files included by included files, by their full paths. The balance command then prints for each account and currency the exact decimal sum of the numbers that stand in all these files, the register command the entries of all files by date with the exact changes and totals (C135), and no file is changed; accounts of an included file can be used after the include line, and those before it in the included file.", "quantifier": "all journals of the form of C133 in any number of files, with includes by full paths to any depth that ends", "why_tests_cant": "Where each entry stands, how deep and in which file, is free; a test has one arrangement of files.", "anchors": ["src/main.rs: main", "src/ledger/mod.rs: Ledger::from_file, add_from_file, add_from_str, Ledger::display_flat_balance", "src/ledger/register.rs: display", "src/entry.rs: Entry"]}
