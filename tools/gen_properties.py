#!/usr/bin/env python3
"""Writes /verif/properties.jsonl. One call to P per property."""
import json, os
out = []
def P(id, title, statement, quantifier, why, anchors):
    out.append(dict(id=id, title=title, statement=statement, quantifier=quantifier,
                    why_tests_cant=why, anchors=anchors))

# ---- money
P("C01", "Per-currency totals are exactly the sum of that currency's amounts",
  "After any sequence of += and -= of amounts on an AmountPool that starts empty, asking the pool for one currency gives the left-to-right f64 sum of exactly the amounts of that currency (subtracted ones negated), whatever other currencies were mixed in; a currency that never occurred is reported as an amount of zero.",
  "all sequences of additions and subtractions, all f64 magnitudes (NaN and infinities included), all currency symbols",
  "The interleavings of currencies and the sequence length are unbounded; a unit test sees one interleaving.",
  ["src/amount.rs: impl AddAssign<&Amount> for AmountPool, impl SubAssign<&Amount> for AmountPool, AmountPool::only"])
P("C02", "A pool keeps one line per currency, in order of first use",
  "After any sequence of operations an AmountPool holds each currency symbol at most once, and the symbols stand in the order in which they were first used.",
  "all operation sequences", "An invariant over every history of operations.",
  ["src/amount.rs: AmountPool"])
P("C03", "Different currencies are never added together",
  "Adding, subtracting or comparing two Amounts succeeds exactly when their symbols are equal, and then the symbol is unchanged and the magnitude is the f64 result; when the symbols differ the program stops instead of producing a number. Two amounts are equal exactly when the comparison says so.",
  "all pairs of amounts", "Ranges over all pairs of symbols and magnitudes.",
  ["src/amount.rs: impl Add, AddAssign, Sub, SubAssign, Ord, PartialEq for Amount"])
P("C04", "Whole-number bookkeeping is exact",
  "If all amounts of a currency are whole numbers and no partial total exceeds 2^53 in absolute value, the total kept by a pool is exactly the mathematical sum (no rounding happens).",
  "all sequences of integer-valued amounts whose partial sums stay within 2^53",
  "A statement about f64 rounding over all sequences.",
  ["src/amount.rs: impl AddAssign<&Amount> for AmountPool"])
P("C05", "A written magnitude is read as the nearest f64",
  "For every text of the form [-]digits[.digits] the magnitude that Amount::parse returns is the correctly rounded (nearest, ties to even) f64 of the decimal number written.",
  "all digit strings of any length, every sign and every decimal symbol that is not a digit, dash or blank",
  "Correct rounding must hold for every decimal, not for the sampled ones.",
  ["src/amount.rs: Amount::parse", "src/amount.rs: is_mag_char"])
P("C06", "Amount text is split into number and symbol, nothing else is accepted",
  "Amount::parse accepts a text exactly when, after deleting '--', it has one or two whitespace-separated tokens and its digits, dashes and decimal symbols spell a decimal number; the symbol is everything else except '.' and ',' (none if nothing is left). A returned symbol never contains a digit, dash, '.', ',' and never starts or ends with whitespace; parsing never crashes.",
  "all strings, all decimal symbols", "Ranges over all Unicode strings.",
  ["src/amount.rs: Amount::parse, Amount::is_symbol_char"])
P("C07", "A printed amount reads back as the amount rounded to 8 decimals",
  "For every amount whose displayed value is finite and whose symbol is a plain currency symbol, Amount::parse of its Display text succeeds with the same symbol and exactly the magnitude that was displayed (the magnitude rounded to 8 decimals), sign of zero included.",
  "all finite f64 magnitudes, all plain symbols", "Round trip over all 2^64 floats and all symbols.",
  ["src/amount.rs: impl Display for Amount, Amount::rounded_mag, Amount::parse"])
P("C08", "Amounts typed with up to 8 decimals are shown exactly as typed",
  "Rounding for display changes nothing for an amount that was read from a text with at most 8 decimals and absolute value below 2^51/10^8; so writing such an amount to the journal and reading it again any number of times never drifts.",
  "all decimals with at most 8 fractional digits below the bound", "f64 rounding behaviour for every such decimal.",
  ["src/amount.rs: Amount::rounded_mag"])
P("C09", "Comment stripping keeps exactly the text before the first comment mark",
  "utils::remove_comments returns the longest prefix of the line that contains neither ';' nor '//': a prefix of the input, free of both marks, and cut only where a mark begins.",
  "all strings", "Ranges over all strings and both comment styles in every order.",
  ["src/utils.rs: remove_comments"])
# ---- postings and entries
P("C10", "A posting written to the journal reads back as the same posting",
  "Posting::parse of Posting::as_parsable gives back the posting (same account, envelope, amount, cost and balance assertion, with magnitudes rounded to 8 decimals) whenever names are plain tokens, symbols are plain and displayed magnitudes are finite, and the account is defined.",
  "all classic and envelope postings over plain names and symbols", "Round trip over all postings.",
  ["src/posting.rs: Posting::parse, Posting::as_parsable, impl Display for ClassicPosting, impl Display for EnvelopePosting, impl Display for Cost"])
P("C11", "Classic postings to undefined accounts are rejected",
  "Every classic posting of an entry accepted by the parser names an account that is defined at that point of the journal.",
  "all posting lines, all account sets", "Ranges over all texts and all sets of defined accounts.",
  ["src/posting.rs: ClassicPosting::parse, ClassicPosting::validate", "src/ledger/mod.rs: Ledger::parse_entry"])
P("C12", "Cost and balance-assertion operators are independent of their order",
  "In a posting line, the amount is what stands before the first operator token, and the amounts after '!', '@' and '=' are taken up to the next operator; swapping the '!' clause and the cost clause does not change the parsed posting. A unit price ('@') wins over a total cost ('=').",
  "all token lists", "Ranges over all token sequences.",
  ["src/posting.rs: ClassicPosting::parse_amount, parse_assertion_amounts, extract_amount"])
P("C13", "Every accepted entry carries one of the three statuses and a valid date",
  "Entry::parse succeeds only if the first header token is a date in the journal's date format and the second is exactly '?', '~' or '*'; the entry gets exactly that date and status. Writing a status and reading it back gives the same status.",
  "all header texts", "Ranges over all texts.",
  ["src/entry.rs: Entry::parse_header, EntryStatus::from_str, EntryStatus::to_char"])
P("C14", "At most one blank posting, and only with one named currency",
  "An entry is accepted by validation exactly when it has at most one posting without amount and, if it has one, the amounts of the other postings use at most one distinct currency symbol (amounts without symbol are not counted).",
  "all posting lists", "Ranges over all posting lists.",
  ["src/entry.rs: Entry::validate"])
P("C15", "The inferred blank amount balances the entry",
  "When all written amounts of an entry have the same currency, the amount inferred for its blank posting has that currency and is minus the f64 sum of the written amounts, so that with whole-number amounts the postings of the entry sum to exactly zero.",
  "all entries with one blank posting", "Ranges over all posting lists and all magnitudes.",
  ["src/entry.rs: Entry::get_blank_amount, Entry::has_mixed_currencies"])
P("C16", "In a mixed-currency entry the blank posting is inferred in the native currency or refused",
  "When the written amounts of an entry with a blank posting have different currencies, the inferred amount has no symbol and is minus the sum of the native values (the amount itself, the total cost, or magnitude times unit price); if any written posting has no native value the entry is refused with an error.",
  "all mixed-currency entries", "Ranges over all posting lists.",
  ["src/entry.rs: Entry::get_blank_amount", "src/posting.rs: ClassicPosting::get_original_native_value"])
P("C17", "Accepted entries are balanced",
  "An entry accepted by the parser whose postings all have amounts in one currency sums to zero.",
  "all accepted entries", "Ranges over all entries. (The documentation of Entry::validate promises it; the code does not check it.)",
  ["src/entry.rs: Entry::validate (doc comment)"])
P("C18", "Reading an entry never crashes",
  "Entry::parse returns an entry or an error for every text; it never panics.",
  "all texts", "Ranges over all texts.",
  ["src/entry.rs: Entry::parse_header (header_tokens[1], slices at '[' and ']')"])
P("C19", "An entry written to the journal reads back as the same entry",
  "Entry::parse of Entry::as_parsable gives back date, status, description, payee and postings (magnitudes rounded to 8 decimals); the comment is not read back.",
  "all entries over plain descriptions, payees, names and symbols, with every date format that tells the date and writes neither white space nor comment marks", "Round trip over all entries.",
  ["src/entry.rs: Entry::as_parsable, Entry::parse"])
# ---- ledger
P("C20", "The ledger keeps its entries sorted by date, stably, losing none",
  "After adding any sequence of entries, the ledger's entry list is a permutation of what was added, in non-decreasing date order, and entries of the same date keep the order in which they were added.",
  "all sequences of entries", "An invariant over all histories.",
  ["src/ledger/mod.rs: Ledger::add_entry"])
P("C21", "An account's real value is the sum of its classic postings",
  "After adding any sequence of entries, the real value of each account is, per currency, the in-order sum of the amounts of its classic postings (with blank amounts inferred); envelope postings do not change it.",
  "all sequences of entries, all account names and currencies", "An invariant over all histories.",
  ["src/account.rs: Account::process_entry", "src/ledger/mod.rs: Ledger::add_entry"])
P("C22", "The result of adding entries does not depend on hash-map order",
  "Accounts are kept in a hash map and visited in an unspecified order; adding an entry succeeds or not, and leaves every account in the same state, whatever that order is.",
  "all entries, all accounts, all iteration orders", "Hash-map order is random per process; a test sees one order per run.",
  ["src/ledger/mod.rs: Ledger::add_entry, Ledger::fill_envelopes"])
P("C23", "The balance report shows each account's total",
  "The balance report gives, per account and currency, the sum of the account's real (classic) postings, blank ones included at their inferred amount.",
  "all journals", "Ranges over all histories. (The code violates it in two ways.)",
  ["src/ledger/mod.rs: Ledger::get_totals"])
P("C24", "Journal text is cut into chunks at lines that start without whitespace; blank and comment-only lines do not matter",
  "Loading a text processes, in order, one chunk per line that begins with a non-whitespace character, with the following indented lines attached. Inserting a completely blank line or a whole-line comment starting in column one anywhere, or appending a comment directly to the end of any line that does not end in white space (nor in '/' for a '//' comment), does not change what is loaded.",
  "all texts", "Ranges over all texts.",
  ["src/ledger/mod.rs: Ledger::add_from_str, Ledger::parse_chunk"])
P("C25", "Directives act on what follows them only",
  "`date_format`, `currency` and `account` lines change exactly the one setting they name and affect only the chunks after them; `currency` affects no balance at all; a directive without value is an error.",
  "all journals", "Ranges over all journals.",
  ["src/ledger/mod.rs: Ledger::parse_chunk, set_currency, set_date_format, parse_account"])
P("C26", "Defining an account twice does not lose its history",
  "A second `account` line for the same name leaves the account's real value and envelopes as they were.",
  "all journals with a repeated definition", "Ranges over histories. (The code violates it.)",
  ["src/ledger/mod.rs: Ledger::parse_account"])
P("C27", "Appending writes the entry at the end of the journal file and nothing else",
  "append_entry leaves every other file unchanged and changes the journal file, if it opens, to its old contents followed by a newline and the printed entry; if the file cannot be opened nothing changes anywhere, and if the date format is not valid the program stops without writing.",
  "all file systems, paths and entries", "Ranges over all file contents.",
  ["src/ledger/mod.rs: Ledger::append_entry"])
P("C28", "What was appended is read back on the next run",
  "Loading the old journal text followed by the appended text is the same as loading the old journal and then adding the entry (printed values rounded to 8 decimals), when the file ends in a complete line or not.",
  "all journal texts and entries over plain names", "A crash/restart consistency property over all histories.",
  ["src/ledger/mod.rs: Ledger::append_entry, Ledger::from_file", "src/entry.rs: Entry::as_parsable"])
P("C29", "The journal that is written is the journal that was read",
  "When silverfox appends to the journal it writes to the same file that it loaded, whatever path it was given and whatever the journal includes.",
  "all paths and directory layouts", "Ranges over file system layouts. (The code violates it: it changes directory before it reopens a relative path.)",
  ["src/ledger/mod.rs: Ledger::add_from_file (set_current_dir), Ledger::append_entry"])
P("C30", "Includes are resolved relative to the including file",
  "Every `include` path in a file is resolved relative to the directory of that file.",
  "all include trees", "Ranges over include trees. (The code violates it after a nested include.)",
  ["src/ledger/mod.rs: Ledger::include, Ledger::add_from_file"])
P("C31", "Loading terminates on include cycles with an error",
  "A journal that includes itself is reported as an error.",
  "all include graphs", "Non-termination cannot be observed by a test. (The code violates it.)",
  ["src/ledger/mod.rs: Ledger::include"])
P("C32", "With --no-move nothing is written except by import",
  "Running any command other than import with --no-move leaves every file unchanged, whatever the journal contains.",
  "all file systems, arguments and journals", "Ranges over all inputs.",
  ["src/flags.rs: CommandFlags::execute"])
# ---- envelopes
P("C33", "Envelope names are unique per account and kind",
  "An account that parses has no two expense envelopes with the same name and no two goal envelopes with the same name; a duplicate definition is an error; every envelope belongs to the account and sits in the list of its kind in file order.",
  "all account texts", "Ranges over all texts.",
  ["src/account.rs: Account::parse, Account::add_envelope"])
P("C34", "Money enters and leaves an envelope in the right compartment",
  "Applying an amount changes exactly one compartment by exactly that amount: negative amounts always reduce 'now'; positive amounts go to 'now' when dated before the last due date and to 'next' otherwise (always 'next' when there is no last due date); zero changes neither. Definition fields never change.",
  "all envelopes, amounts, dates and days", "Ranges over all states and dates.",
  ["src/envelope.rs: Envelope::apply_amount"])
P("C35", "Manual envelope postings override inference and reach only the envelope they name",
  "An entry with at least one envelope posting moves money only in the envelopes that its envelope postings name (account and envelope name both equal) and by exactly those amounts in order; no automatic movement happens in any envelope for that entry.",
  "all entries and envelopes", "Ranges over all entries and states.",
  ["src/envelope.rs: Envelope::process_entry, process_manual_postings"])
P("C36", "Automatic envelope movement follows the postings",
  "For an entry without envelope postings, an envelope is touched only if the entry has a posting to its account and one to one of its `for` accounts; then the amount moved is the smaller of the `for` sum and the absolute own-account sum, out of the envelope when the own-account sum is negative and into it otherwise.",
  "all entries and envelopes", "Ranges over all entries and states.",
  ["src/envelope.rs: Envelope::infer"])
P("C37", "Spending or refunding moves the envelope in the direction of the money",
  "An automatic movement takes money out of the envelope when the account paid and puts it in when the account received, and never crashes on an entry that was accepted.",
  "all entries and envelopes", "Ranges over entries. (The code violates it for refunds and for priced foreign-currency postings.)",
  ["src/envelope.rs: Envelope::infer"])
P("C38", "Available money is real money minus everything in envelopes",
  "The available value of an account is, per currency, its real value minus the sum of both compartments of all its envelopes; with whole-number amounts this is exact.",
  "all accounts", "Ranges over all states.",
  ["src/account.rs: Account::get_available_value"])
P("C39", "The daily filling amount never takes money out and respects the limits",
  "A filling amount is never negative or NaN and has the envelope's currency. If the envelope's own balance is not negative, it is at most the available money (or zero), at most what is still missing for the next due date (or zero) and, with aggressive funding, at most the envelope's target.",
  "all envelopes, all f64 balances, all dates", "Ranges over all f64 values.",
  ["src/envelope.rs: Envelope::get_filling_amount"])
P("C40", "Filling never overdraws the account",
  "The filling postings of one account, taken together, never bring its available money in any currency below zero, if it was not below zero.",
  "all accounts", "Ranges over all states. (Violated when an envelope is overdrawn.)",
  ["src/account.rs: Account::get_filling_postings", "src/envelope.rs: Envelope::get_filling_amount"])
P("C41", "No automatic filling for manual envelopes, envelopes without due date, or envelopes already touched today",
  "The filling amount is zero if the funding method is manual, if there is no next due date, or if the last transaction of the envelope is dated today; conversely a non-zero amount implies none of these.",
  "all envelopes and days", "Ranges over all states.",
  ["src/envelope.rs: Envelope::get_filling_amount"])
P("C42", "Filling twice on the same day moves nothing the second time",
  "After the filling entry of a day has been added, every envelope that received money gets a zero filling amount for the rest of that day.",
  "all ledgers", "A property of histories.",
  ["src/ledger/mod.rs: Ledger::fill_envelopes", "src/envelope.rs: apply_amount, get_filling_amount"])
P("C43", "Filling never crashes on currencies",
  "Computing the filling postings of an account never panics on a currency mismatch: the available pool always knows the currency of each of the account's envelopes.",
  "all accounts reachable from parsed definitions", "Ranges over all reachable states.",
  ["src/account.rs: Account::get_filling_postings", "src/envelope.rs: Envelope::get_filling_amount (assert_eq!)"])
P("C44", "Monthly due dates",
  "For `every <n>th`, the next due date is the earliest date after today whose day of the month is n, or the last day of its month if the month has no day n.",
  "all days and all n", "Ranges over the calendar (leap years, month ends).",
  ["src/envelope.rs: Frequency::next_date_by_day_of_month, get_last_date_of_month"])
P("C45", "Weekly due dates",
  "For `every <weekday>`, the next due date is the earliest date after today that falls on that weekday, and the last due date is the latest date up to today that does.",
  "all days and weekdays", "Ranges over the calendar.",
  ["src/envelope.rs: Frequency::get_next_due_date, get_last_due_date"])
P("C46", "Biweekly due dates",
  "For `every other <weekday> starting D`, the next due date is the earliest date after today among D, D+14, D+28, ...",
  "all days", "Ranges over the calendar. (Violated when D is in the future.)",
  ["src/envelope.rs: Frequency::get_next_due_date"])
P("C47", "Bimonthly due dates",
  "For `every other <n>th starting D`, the next due date is the earliest date not before today in the two-month sequence that starts at D (days clamped to the month's length), and computing it terminates.",
  "all days and starting dates", "Ranges over the calendar; termination of a while loop.",
  ["src/envelope.rs: Frequency::get_next_due_date"])
P("C48", "Annual due dates",
  "For `every year starting D`, the next due date is the earliest anniversary of D after today (D itself included).",
  "all days and starting dates", "Ranges over the calendar. (Violated from the second year on.)",
  ["src/envelope.rs: Frequency::get_next_due_date"])
P("C49", "The last due date is not in the future and computing it never crashes",
  "get_last_due_date of a repeating frequency returns a date not after today, one period before the next due date.",
  "all days and frequencies", "Ranges over the calendar. (Violated: months without the day, Feb 29, annual.)",
  ["src/envelope.rs: Frequency::get_last_due_date, subtract_months"])
P("C50", "The progress bar always has the same width",
  "The progress bar drawn for an envelope has exactly `width` cells between the two bars, for every f64 amount and target (zero, negative, infinite and NaN included), and drawing it never underflows.",
  "all f64 pairs, all widths up to 2^53 (the program uses 40)", "Ranges over all f64 values.",
  ["src/envelope.rs: Envelope::make_bar"])
P("C51", "Envelopes are ordered consistently by due date",
  "Comparing envelopes by due date is a total preorder (reflexive, transitive, total, antisymmetric up to equal due dates), with envelopes without due date last.",
  "all envelopes", "Ranges over all triples.",
  ["src/envelope.rs: impl Ord for Envelope"])
# ---- register
P("C52", "The register lists exactly the entries in the date range that touch a focused account",
  "The register shows, in ledger order, exactly the entries whose date lies within the inclusive range, that have a posting to a focused account, and whose focused amounts are not all zero.",
  "all ledgers, ranges and account filters", "Ranges over all ledgers.",
  ["src/ledger/register.rs: Register::display, get_maximum_lengths", "src/entry.rs: Entry::as_register_data"])
P("C53", "The register's running total is the cumulative sum of the rows shown",
  "The running total printed in a row is, for the row's currency, the in-order sum of the amounts of that currency in all rows up to and including that entry.",
  "all ledgers", "Ranges over all ledgers.",
  ["src/ledger/register.rs: print_lines"])
# ---- import
P("C54", "Each csv record is turned into an entry by the first matching rule block",
  "The rules used for a record are those of the first `if` block, in file order, one of whose patterns occurs in the joined fields of the record (ignoring case), and the root rules if none does; included files count as if their text stood at that place.",
  "all records and all rules files whose blocks include no other file and whose `if` lines have a first word and blank in ASCII", "Ranges over all rule sets and records.",
  ["src/importer.rs: Rules::get_entry_from_record, Subrules::applies_to"])
P("C55", "An `if` block starts from the root rules above it and never changes them",
  "Rules inside an `if` block change only that block's copy of the rules; the root rules after parsing are those given by the root lines alone; a block inherits the root rules that precede it.",
  "all rules files", "Ranges over all rules texts.",
  ["src/importer.rs: Rules::add_from_str"])
P("C56", "`-` resets a rule to its default",
  "Setting a rule to '-' gives the rules that would result had that rule never been set; other rules are untouched.",
  "all rules with names in ASCII", "Ranges over all rule states.",
  ["src/importer.rs: Rules::add_from_line"])
P("C57", "Field variables are substituted independently of hash-map order",
  "Substituting csv fields into a template gives the same text for every iteration order of the variables, as long as names and values contain no '%' and the template is made of literal text and %name% references.",
  "all templates, variables and iteration orders", "Hash-map order is random per process.",
  ["src/importer.rs: Rules::inject_variables"])
P("C58", "A single imported posting is completed by an opposite posting",
  "An imported entry has at least two postings; if the rules give one posting with an amount, the second is a blank posting to expenses:unknown, income:unknown or unknown according to the sign of the amount.",
  "all rules and records", "Ranges over all rules and records.",
  ["src/importer.rs: Rules::get_entry_from_record"])
P("C59", "Imported entries can be read back",
  "After an import the journal can be loaded again.",
  "all imports", "Ranges over all histories. (Violated: the completing posting may name an undefined account.)",
  ["src/importer.rs: Rules::get_entry_from_record", "src/ledger/mod.rs: Ledger::import_csv"])
P("C60", "Import appends the entries of a prefix of the records, in order",
  "import_csv appends one entry per record in record order, stopping at the first record that fails; what was appended before the failure stays in the file. (With a date format that is not valid nothing is written.)",
  "all csv files and failure points", "Ranges over all crash/failure points.",
  ["src/ledger/mod.rs: Ledger::import_csv", "src/importer.rs: impl Iterator for CsvImporter"])
# ---- command line
P("C61", "The subcommand is decided by the first letter of the first argument",
  "The first argument selects summary, balance, envelopes, register, import or new by its first letter and anything else is an error; flags after it are processed left to right, a later value of the same flag replaces an earlier one, an unknown flag or a missing value is an error.",
  "all argument lists", "Ranges over all argument lists.",
  ["src/flags.rs: Subcommand::try_from, CommandFlags::parse_from_env"])
P("C62", "The journal path comes from -f, then SILVERFOX_FILE, then LEDGER_FILE",
  "The file used is the one given by -f if any, otherwise $SILVERFOX_FILE, otherwise $LEDGER_FILE, otherwise an error without touching any file.",
  "all argument lists and environments", "Ranges over all environments.",
  ["src/flags.rs: CommandFlags::execute, get_file_from_env"])

# ---- later additions
P("C63", "A date written in the journal's format reads back as the same date",
  "For every date format made of years, centuries, months, days, days of the year, weeks, quarters and weekdays as numbers (padded or not) or names, and other characters, the date stands in the text in the places of the format, and if the format tells the day and the year (or the ISO week, its year and the weekday), parsing that text with the same format gives the same date. A year told by two digits alone is read as one from 1970 to 2069.",
  "all such formats in which no unpadded number is followed by a digit, all dates of the years 0 to 9999", "Ranges over all formats and dates.",
  ["src/entry.rs: Entry::as_parsable, Entry::parse_header", "src/ledger/mod.rs: Ledger::date_format"])
P("C64", "Calendar arithmetic is the Gregorian calendar",
  "Dates are ordered by year, month, day; adding n days is n times going to the next day (day + 1, or the first of the next month, or the first of January), subtracting is the inverse, the distance in days agrees with it, weekdays advance by one a day, and February has 29 days exactly in leap years.",
  "all dates of chrono's range, all numbers of days", "Ranges over all dates and distances.",
  ["src/envelope.rs: Frequency::get_next_due_date", "Cargo.lock: chrono 0.4.41"])
P("C65", "An envelope posting moves money in one envelope only",
  "An envelope posting names an account and an envelope; at most one envelope of the account receives its amount.",
  "all accounts reachable from parsed definitions, all envelope postings", "Ranges over all accounts. (Violated: names are unique only within expenses and within goals.)",
  ["src/account.rs: Account::add_envelope, Account::process_entry", "src/envelope.rs: Envelope::process_manual_postings"])
P("C66", "The progress bar follows the amount",
  "For a positive target, the number of filled cells never goes down when the amount goes up, is zero for amounts up to zero, and is the full width from the target on.",
  "all finite positive targets, all f64 amounts, all widths from 1 to 2^53", "Ranges over all float pairs. (Violated: rounding leaves a cell empty for some targets.)",
  ["src/envelope.rs: Envelope::make_bar"])
P("C67", "The imported entry does not depend on hash-map order",
  "Two imports of the same record with the same rules give the same entry, whatever the iteration order of the hash maps that hold the variables and the account and amount rules.",
  "all rules, records and iteration orders", "Hash-map order is random per process. (Violated: the postings come out in map order.)",
  ["src/importer.rs: Rules::get_entry_from_record, Rules::inject_variables"])
P("C68", "A run changes at most one file, and only by appending",
  "Whatever the arguments, the files and directories after a run are those before it, except that text may have been put at the end of one file, which is the journal when its path is absolute.",
  "all argument lists, environments and file systems", "Ranges over all commands and all contents of the disk.",
  ["src/flags.rs: CommandFlags::execute", "src/ledger/mod.rs: Ledger::append_entry"])
P("C69", "The csv and rules paths are looked up from the directory silverfox is started in",
  "import reads the csv and rules files that the given paths name in the directory where the program was started.",
  "all paths and directories", "Ranges over all directory layouts. (Violated: loading the journal changes the directory first.)",
  ["src/ledger/mod.rs: Ledger::add_from_file, Ledger::import_csv", "src/importer.rs: CsvImporter::from_file_with_rules"])
P("C70", "Csv files are read as the records written in them",
  "A text made of records (fields separated by commas, written bare or in quotes with inner quotes doubled) and empty lines, ended by carriage returns, line feeds or both, is read as these records in order; a record whose number of fields differs from the first is an error; import uses all but the first `skip` records.",
  "all records, all ways of writing them", "Ranges over all texts and quoting styles.",
  ["src/importer.rs: CsvImporter::from_strs", "Cargo.lock: csv 1.3.1, csv-core 0.1.12"])
P("C71", "The balance report shows every account in use and its balance",
  "The balance report has one line for each account that a posting names, in alphabetical order, with the name and the sum per currency of what its postings are worth.",
  "all ledgers", "Ranges over all journals and all mixtures of currencies.",
  ["src/ledger/mod.rs: Ledger::display_flat_balance, Ledger::get_totals", "src/amount.rs: impl Display for AmountPool"])
P("C72", "The envelope report shows every envelope, its two amounts and its due date",
  "The envelope report lists the accounts with envelopes in alphabetical order, and below each the available amounts, the expenses and the goals, each envelope with its now and next amounts, their sum being what is in the envelope, and its next due date; it never fails.",
  "all ledgers built from a journal, all days", "Ranges over all envelopes and days.",
  ["src/ledger/mod.rs: Ledger::display_envelopes", "src/account.rs: Account::display_envelopes", "src/envelope.rs: impl Display for Envelope"])
P("C73", "The rows of the register are aligned",
  "All rows of the register have the same width.",
  "all entries, dates and filters", "Ranges over all texts. (Violated: continuation rows are padded by bytes, the others by characters.)",
  ["src/ledger/register.rs: Register::display"])
P("C74", "An imported entry is made of the texts of its rules",
  "The date, status, description, payee and comment of an imported entry are the texts of the matching rules, with references replaced by the fields of the record, read with the date format of the rules.",
  "all rules and records", "Ranges over all rules and records. (Violated when a field contains percent signs.)",
  ["src/importer.rs: Rules::get_entry_from_record, Rules::inject_variables"])
P("C75", "A rule line sets the rule that it names, and no other",
  "A rule line with a value gives the named rule this value (stripped, or read as list, number or character) and leaves all other rules and the conditional blocks as they are; it fails only if the value cannot be read.",
  "all rules and rule lines with names in ASCII", "Ranges over all earlier rules and all values.",
  ["src/importer.rs: Rules::add_from_line"])
P("C76", "Each subcommand prints its report of the journal as filled",
  "A run loads the journal, fills the envelopes unless forbidden, and then prints exactly the report of the subcommand for the resulting ledger, or imports the csv file; nothing else is ever printed, apart from the help text when there are no arguments; summary, new, and import without a csv file are errors.",
  "all argument lists, environments and file systems", "Ranges over all arguments and journals.",
  ["src/flags.rs: CommandFlags::execute", "src/main.rs: main"])
P("C77", "A run ends unless includes form a cycle",
  "If the files can be ranked so that every file included by a journal, from any directory that can become current, and every file included by a rules file is ranked lower than the file that includes it, then every run of every subcommand comes to an end, within a recursion depth given by the rank; no other part of the program can run for ever. A rules file that includes itself is read for ever.",
  "all argument lists, environments and file systems, all days before the last year of the calendar", "Termination cannot be observed by a test.",
  ["src/ledger/mod.rs: Ledger::add_from_file", "src/importer.rs: Rules::add_from_file", "src/flags.rs: CommandFlags::execute", "src/main.rs: main"])
P("C78", "An envelope has exactly the fields its definition says",
  "The text of an envelope is accepted exactly if its first line gives kind, name, due date and start and every further line gives an account, an amount or a way of funding; the envelope then has these fields, later lines win, accounts are collected, and both its amounts are zero in the currency of its target. It crashes exactly when a blank line follows readable lines.",
  "all definition texts, date formats and decimal symbols", "Ranges over all texts.",
  ["src/envelope.rs: Envelope::parse, Envelope::from_header, Envelope::add_body, Frequency::parse", "README.md: Envelopes"])
P("C79", "`every other` day or month is due on the day it names",
  "An envelope due `every other <weekday or day of the month> starting <date>` is due on that weekday or day of the month.",
  "all days, all starting dates, all names of days", "Ranges over all calendars. (Violated: the README's example `every other 15th starting 2020/01/20` is due on the 20th.)",
  ["src/envelope.rs: Frequency::parse, Frequency::get_next_due_date", "README.md: Envelopes"])
P("C80", "`due`, `by` and `due by` mean the same, and `by due` is refused",
  "An envelope whose first line uses `due`, `by` or `due by` is the same envelope in all three cases; a first line with `by due` is an error.",
  "all kinds, names and due dates", "Ranges over all texts after the word.",
  ["src/envelope.rs: Envelope::from_header, Frequency::parse", "README.md: Envelopes"])
P("C81", "A delayed start does not move the due days",
  "An envelope due every month or week starting from a date is next due on the first named day that is after today and not before the start.",
  "all days, start dates, days of the month and weekdays", "Ranges over all pairs of dates. (Violated: a start in the future is itself taken as the due date.)",
  ["src/envelope.rs: Envelope::get_next_due_date", "README.md: Envelopes"])
P("C82", "A one-time due date stands until it has passed",
  "An envelope due once on a date is next due on that date as long as it is after today, and never again afterwards; an envelope with no date is never due.",
  "all days and dates", "Ranges over all pairs of dates. (Violated: with a start date, the envelope is due on the start for ever.)",
  ["src/envelope.rs: Frequency::get_next_due_date, Envelope::get_next_due_date"])
P("C83", "Balance assertions are checked",
  "A journal is rejected if after a posting with a balance assertion the balance of the account in the posting's currency is not the asserted one.",
  "all journals", "Ranges over all journals. (Violated: assertions are read and printed but never checked.)",
  ["src/posting.rs: ClassicPosting", "README.md: Balance assertions"])
P("C84", "Amounts without symbol are combined with those of the chosen currency",
  "After `currency $`, amounts without a symbol and amounts in $ are added up together.",
  "all journals and currencies", "Ranges over all journals. (Violated: the setting is stored and never used.)",
  ["src/ledger/mod.rs: Ledger::set_currency", "README.md: Currencies and prices"])
P("C85", "Envelope postings can be written as documented",
  "`envelope <name>` takes the money from the envelope of that name of the account in the entry, and `envelope <name> <account> <amount>` moves the amount in that envelope.",
  "all names, accounts and amounts", "Ranges over all lines. (Violated: the short form is an error, and the long form takes the account first.)",
  ["src/posting.rs: EnvelopePosting::parse", "README.md: Manual envelope movements"])
P("C86", "Expenses and goals behave the same",
  "An envelope defined as `expense` and the same one defined as `goal` receive the same amounts, are due and filled on the same days with the same amounts, and are shown in the same way.",
  "all definitions, entries and days", "Ranges over all definitions and histories. (Violated: goals are filled before expenses when the money does not suffice.)",
  ["src/envelope.rs: Envelope", "src/account.rs: Account::get_filling_postings", "README.md: Envelopes"])

P("C87", "Every command offered by the help text can be used",
  "Called without arguments the program prints the help text, changes nothing and ends normally. Each command of the help text is understood by its letter and by its full word, and there are arguments with which it succeeds.",
  "all commands of the help text, all further arguments and journals", "Ranges over all arguments and file systems. (Violated: `new` is offered but always fails.)",
  ["src/flags.rs: display_help", "src/flags.rs: CommandFlags::execute", "src/flags.rs: Subcommand::try_from"])
P("C88", "A failed run has a non-zero exit status",
  "The exit status is 0 exactly when the run succeeded.",
  "all arguments, environments and file systems", "Ranges over all runs; no test looks at the exit status. (Violated: after an error the status is 0; only a crash has another one.)",
  ["src/main.rs: main"])
P("C89", "A run never crashes",
  "Whatever the arguments and the journal, a run ends with its output or with an error message, not with a panic.",
  "all arguments, environments and file systems", "Ranges over all journals; each known crash needs its own particular text. (Violated in thirteen independent ways, see C89_crashes.)",
  ["src/main.rs: main", "src/ledger/mod.rs", "src/envelope.rs", "src/entry.rs", "src/amount.rs", "src/importer.rs"])
P("C90", "Aggressive saving moves as much as possible",
  "README.md 41-42. An aggressive envelope that is due and was not touched today gets at least every amount that is available, not above its target and not above what is missing; if it gets less than its target and less than what is missing, then nothing of its currency is left in the account after the filling.",
  "all envelopes, accounts, dates and amounts", "Ranges over all float amounts and all sets of envelopes that compete for the same money.",
  ["src/envelope.rs: Envelope::get_filling_amount", "src/account.rs: Account::get_filling_postings", "README.md: Methods of saving money"])
P("C91", "Conservative saving is spread over the days and is complete just in time",
  "README.md 42-44. A conservative envelope gets what is missing divided by the days until its due date (the nearest float), or less if that is not available; if it is filled on every day up to the day before the due date, with enough money at hand, its savings are then the target up to a relative rounding error of 2^-51. (For envelopes that owe nothing, whose savings lie between zero and the target, and whose last due date is not in the future.)",
  "all envelopes, dates, amounts and numbers of days", "Ranges over all floats and any number of days; the rounding errors of a long run cannot be bounded by examples.",
  ["src/envelope.rs: Envelope::get_filling_amount", "src/envelope.rs: Envelope::apply_amount", "README.md: Methods of saving money"])
P("C92", "Automatic filling never saves more than the target",
  "After a filling is recorded, the envelope's savings for its next due date are not above its target.",
  "all envelopes, dates and amounts", "Ranges over all frequencies, start dates and floats; needs runs on several days. (Violated: an envelope that starts more than a year ahead gets its whole target again on every day.)",
  ["src/envelope.rs: Envelope::get_filling_amount", "src/envelope.rs: Envelope::apply_amount", "src/envelope.rs: Frequency::get_last_due_date"])
P("C93", "What was saved before the last due date is ready to be spent",
  "README.md 32-35. After a history of entries, the first compartment of an envelope is the sum, in order, of what was spent and of what was put in before the last due date; the second is the sum of what was put in since.",
  "all account definitions, histories of entries and dates", "Ranges over all histories and all frequencies; an error shows only in particular years or months. (Violated: for yearly envelopes the program takes a date before the start for the last due date, for ever.)",
  ["src/envelope.rs: Envelope::process_entry", "src/envelope.rs: Envelope::apply_amount", "src/envelope.rs: Frequency::get_last_due_date", "README.md: Expenses, savings goals, and more"])

P("C94", "An amount with up to eight decimals is shown as it was written",
  "The amount read from a decimal with up to eight digits after the point, of size below 2^51 units of 10^-8, is shown as that decimal without superfluous zeros: no other digits appear, the currency symbol stands before the number if it is at most two bytes long and after it otherwise, and a number that is not negative has a blank for its sign. (For a zero that was written with a minus sign the sign may be kept.)",
  "all decimal symbols, decimals and currency symbols",
  "Ranges over about 2^52 numbers; each is rounded to binary, multiplied, rounded, divided and printed by a shortest-digits search.",
  ["src/amount.rs: Amount::parse, Display for Amount"])
P("C95", "Totals of decimals are shown exactly",
  "The total of amounts with up to eight decimals, as shown for an account, in the balance report, as running total of the register or as inferred amount, is their exact decimal sum. (Violated: zero can be shown as `-0`, and with large amounts the last decimals are wrong.)",
  "all journals", "Ranges over all sequences of amounts; the error of floating-point addition depends on all of them.",
  ["src/amount.rs: AddAssign for AmountPool, Display for Amount", "src/entry.rs: Entry::get_blank_amount", "src/ledger/mod.rs: Ledger::get_totals", "src/account.rs: Account::process_entry", "src/ledger/register.rs: Register::display"])
P("C96", "A run records its moves in one entry and changes nothing else",
  "A successful run (other than import, without --no-move) appends to the journal one entry, dated today, cleared, described as 'move to envelopes', with one line for every envelope whose filling amount is not zero, in the order in which the envelopes get their money; with no such envelope it appends nothing. No other file changes.",
  "all journals, arguments and days", "Ranges over all journals with any number of accounts and envelopes; tests compare a few written files.",
  ["src/ledger/mod.rs: fill_envelopes, append_entry", "src/account.rs: get_filling_postings", "src/entry.rs: Display", "src/posting.rs: Display"])
P("C97", "What stands in the skipped records does not matter",
  "An import with `skip n` imports the records after the first n, whatever the first n contain. (Violated: the records must have as many fields as the first one of the file, even if that one is skipped; a title line above the records makes the import fail.)",
  "all csv files and rules", "Ranges over all csv files; the repository's tests skip a header with as many fields as the records.",
  ["src/importer.rs: CsvImporter::from_strs"])
P("C98", "Envelopes are filled once a day",
  "On a day on which money was moved into an envelope, a further run moves nothing into it. (Violated: the program remembers the date of the last move in file order; if an entry for an earlier day with a move of that envelope is added after the run, the next run on the same day fills the envelope again.)",
  "all journals and days", "Ranges over all histories of moves, in any order in the file.",
  ["src/envelope.rs: Envelope::process_entry, get_filling_amount"])
P("C99", "The order in which entries stand in the journal does not matter",
  "Journals with the same entries in a different order give the same reports and the same moves. (Violated for the envelope report, whose currencies come in the order of the file, and for the moves, which depend on the last entry in the file.)",
  "all journals and all reorderings of their entries", "Ranges over all permutations of the entries of all journals.",
  ["src/ledger/mod.rs: Ledger::add_entry", "src/account.rs: Account::process_entry", "src/envelope.rs: Envelope::process_entry", "src/amount.rs: AddAssign for AmountPool"])
P("C100", "Entries neither make nor lose money",
  "If all accounts are defined before the entries, and the amounts of each entry sum to zero in each currency or one of them is left out, then the real amounts of all accounts sum to zero in each currency. (Violated: the amount that is filled in for the one left out also counts the amounts of envelope postings.)",
  "all journals", "Ranges over all sequences of entries and all sets of accounts.",
  ["src/ledger/mod.rs: Ledger::add_entry", "src/account.rs: Account::process_entry", "src/entry.rs: Entry::get_blank_amount"])
P("C101", "Including a file is like inserting its text",
  "A journal that includes a file and the journal with the text of that file in place of the `include` line give the same ledger. (Violated: if the file is in another directory, files included later are looked for there; and an indented line below the `include` line is silently ignored.)",
  "all journals in any number of files", "Ranges over all texts and all ways to distribute them over files.",
  ["src/ledger/mod.rs: Ledger::add_from_file, add_from_str, parse_chunk, include"])
P("C102", "A failing run says what is wrong, once",
  "A run that ends with an error prints nothing on standard output and exactly one message on standard error; a run that does not prints no message. Each message has a non-empty explanation, in a fixed layout, and contains the values that the error is about, each in its place in the sentence about it.",
  "all arguments, files and errors", "Ranges over all runs and all errors, with any text quoted in them.",
  ["src/errors.rs: Display of SilverfoxError, ParseError, ValidationError, ProcessingError", "src/main.rs: main"])
P("C103", "An error message quotes the journal",
  "When loading a journal fails, what the message quotes stands in one of the files of the journal. (Violated for a verbatim quotation: a double dash is dropped from amounts, the words of an amount are joined, a missing payee is made up.)",
  "all journals, with all included files", "Ranges over all texts; the error may come from any function of the parser.",
  ["src/errors.rs", "src/amount.rs: Amount::parse", "src/entry.rs: Entry::parse, as_full_string", "src/envelope.rs: Envelope::parse", "src/account.rs: Account::parse", "src/ledger/mod.rs: Ledger::add_from_str"])
P("C104", "What an error message claims is true",
  "An account that is reported as not defined in the journal is used by a posting and nowhere defined; a journal that is called all valid has no malformed part. (Violated: the account may be defined further down, and a later part may be malformed.)",
  "all journals", "Ranges over all journals; universal claim about all chunks of all files.",
  ["src/entry.rs: Entry::validate", "src/errors.rs: Display of ProcessingError", "src/ledger/mod.rs: Ledger::add_entry"])
P("C105", "The first error decides",
  "A journal that cannot be loaded gives the same error or crash whatever is written below its text; so a journal that can be loaded can be loaded when cut before any line that is not indented. (For journals that no file includes.)",
  "all journals and all continuations", "Ranges over all texts that could follow.",
  ["src/ledger/mod.rs: Ledger::add_from_str, add_from_file"])
P("C106", "An error of an import is about the rules, the csv file or the journal",
  "When an import fails, what the message quotes stands in a line of the rules or of a rules file that they include, in the names the rules give to fields, in a rule's text with the values of a record of the csv file filled in, or it is an entry made from such a record, or one of the paths; or the error is one of the journal itself. A rule that is called unknown is unknown; a nested `if`, a discarded `fields` and an unreadable record are there.",
  "all rules files with all includes, all csv files and journals", "Ranges over all texts of all files involved, and all substitutions of values into rules.",
  ["src/importer.rs: Rules::add_from_str, add_from_line, get_entry_from_record", "src/ledger/mod.rs: Ledger::import_csv", "src/errors.rs"])
P("C107", "White space, words, lines and paths are understood in the usual way",
  "White space is what Unicode says; the words of a text, its lines (ended by LF or CR LF) and the text between surrounding white space are unique and are what the program works with; files are found by walking along the path from the current directory or the root, with `.` and `..`.",
  "all texts and paths", "Ranges over all texts of Unicode characters; an exact characterisation of each function.",
  ["src/ledger/mod.rs: Ledger::add_from_str, add_from_file", "src/utils.rs", "src/entry.rs: Entry::parse", "src/posting.rs: Posting::parse"])
P("C108", "Every frequency has exactly these due dates",
  "For every frequency, start (past or future) and day, the next and the last due date (or that there is none, or the crash) are given by a table: the next due day after today for weekly, monthly and started fortnightly envelopes, today included for every other month; a day 14 to 27 days ahead for fortnights that have not started; the start or one year after it for yearly ones; the last due date is one period before the next, and a crash if that day does not exist.",
  "all days within the calendar, all frequencies", "Exact in both directions over all pairs of days; the exceptions (starts in the future, 29 February, days 29 to 31) are rare days.",
  ["src/envelope.rs: Frequency::get_next_due_date, get_last_due_date, next_date_by_day_of_month, subtract_months"])
P("C109", "A date is read from any text that says it, whatever time of day stands beside it",
  "In a format with items of the time of day, the fraction of a second, the zone or a time stamp, a date that the other items determine is read from every text that says that date and some time of day, with any allowed padding and writing of offsets. A date is read in no other format. Such a format cannot be used for writing: no row of the register is shown and no entry is appended.",
  "all formats, all dates of the years 0 to 9999, all times and offsets", "Ranges over all formats, dates, times and ways of writing them; the converse ranges over all texts and formats.",
  ["src/entry.rs: Entry::parse_header, Entry::as_register_data, Entry::as_parsable", "src/importer.rs: CsvImporter", "src/ledger/mod.rs: Ledger::append_entry"])
P("C110", "The ledger depends on the sequence of definitions and entries, not on the files in which they stand",
  "Reading a journal with includes yields one sequence of definitions and entries, found by looking for each file in the directory of the file opened just before it. The sequence is unique, exists for every journal that can be loaded, and any two journals with the same sequence give the same ledger or the same error; the program ends in the directory of the last file.",
  "all file systems, journals, nestings of includes and directories", "Ranges over all trees of includes, with the recursion unbounded.",
  ["src/ledger/mod.rs: Ledger::from_file, add_from_file, add_from_str, parse_chunk"])
P("C111", "A text that is read as a date says this date and nothing else",
  "When a text is read as a date, it is made of the items of the date format and nothing else, and every item agrees with the date that is read: numbers (with white space before them, zeros and, for years, a sign), names or their first three letters in any case, literal text; white space of the format may be missing or longer. For formats of dates that determine the day, these are all the texts that are read. The first word of an entry says its date in this sense.",
  "all texts and formats; the converse for the years 1 to 9999", "Exact set of accepted texts over all texts and formats; a test shows single accepted or rejected texts.",
  ["src/entry.rs: Entry::parse_header", "src/importer.rs: CsvImporter", "src/envelope.rs: Frequency::parse"])

P("C112", "After a run the journal can be loaded again",
  "After a run that moved money to envelopes, the journal can be loaded again the same day, and the loaded ledger is the one from before the run with one more entry: the moves, with amounts of eight decimals. If eight decimals suffice for the amounts, it is the ledger that the run reported, except for the comment of the entry.",
  "all journals with includes, all accounts and envelopes, all amounts and currencies", "Round trip through the file for every journal; a test shows it for the texts it has.",
  ["src/ledger/mod.rs: Ledger::append_entry, fill_envelopes", "src/account.rs: Account::parse_header", "src/envelope.rs: Envelope::from_header", "src/amount.rs: Display for Amount", "src/flags.rs: CommandFlags::execute"])
P("C113", "Two runs on the same day do not move the same money twice",
  "When silverfox is run twice on the same day, the second run moves nothing to an envelope to which the first run moved money.",
  "all journals, all pairs of subcommands that are not imports, all options", "Two whole runs with the file between them, over all journals; a test shows pairs of runs it has.",
  ["src/flags.rs: CommandFlags::execute", "src/ledger/mod.rs: Ledger::fill_envelopes", "src/envelope.rs: Envelope::get_filling_amount"])
P("C114", "Moving money to envelopes changes neither the balances nor the register",
  "Moving money to envelopes keeps it in the account. So the balance report and the register are the same with and without --no-move. (Violated: both count the money that is moved as if it had been paid into the account; the account's own value, from which envelopes are filled, stays right.)",
  "all journals, all days", "A sum over all entries before and after the moves, compared for all journals; a test sees the amounts of one journal.",
  ["src/ledger/mod.rs: Ledger::get_totals", "src/ledger/mod.rs: Ledger::fill_envelopes", "src/entry.rs: Entry::as_register_data", "src/account.rs: Account::process_entry"])
P("C115", "The words of entries have no effect on the numbers",
  "Status, description, payee and comment of an entry only describe it. Two journals (with the files they include) that differ in such words only give the same balance report, the same envelopes and the same exit status, and the same text is appended to them. If only payees and comments differ, the register is the same, too.",
  "all pairs of file systems whose files differ in the words of headers only, all subcommands, all options", "A relation between two runs on arbitrary journals; a test compares the pairs it has.",
  ["src/entry.rs: Entry::parse_header, Entry::as_register_data", "src/ledger/mod.rs: Ledger::add_from_file, add_entry, get_totals, fill_envelopes", "src/flags.rs: CommandFlags::execute"])
P("C116", "A price per unit and the total cost say the same",
  "`x BTC @ p` and `x BTC = t`, with t the price of all |x| units, give the posting the same worth. (Violated for sales: the total cost counts with the sign of a purchase.)",
  "all amounts and prices", "Ranges over all floating-point amounts and prices, with their signs.",
  ["src/posting.rs: Posting::get_original_native_value", "src/entry.rs: Entry::get_blank_amount"])
P("C117", "The cost of an amount in another currency is inferred",
  "README: in an entry with an amount in another currency and no price, silverfox infers its total cost from the other amounts. (Violated: a price that is not written is not known, and an entry with such an amount is refused if it concerns an envelope, even if the amount has nothing to do with it.)",
  "all entries and envelopes", "The exact condition for acceptance ranges over all entries and envelopes.",
  ["README.md: Currencies and prices", "src/envelope.rs: Envelope::infer", "src/posting.rs: Posting::get_original_native_value"])
P("C118", "How a journal is laid out does not matter",
  "White space, blank lines and comments separate the words of a journal and mean nothing else. Two journals (with the files they include) that differ in them only give the same output and the same exit status, and the same text is appended to them. (Violated inside the definition of an envelope, where one space is required in some places.)",
  "all pairs of file systems whose files are laid out differently, all subcommands, all options", "A relation between two runs on arbitrary journals; a test compares the pairs it has.",
  ["src/ledger/mod.rs: Ledger::add_from_file, add_from_str, parse_account", "src/entry.rs: Entry::parse, parse_header", "src/posting.rs: Posting::parse", "src/account.rs: Account::parse, parse_header", "src/envelope.rs: Envelope::from_header, add_body"])
P("C119", "The order of definitions does not matter",
  "Definitions of accounts may stand in any order, and so may the envelopes of an account and the settings of an envelope. Two journals (with the files they include) that differ in that order only are both refused, or give the same output and get the same lines appended. Nor does it matter in which order the hash map of accounts is gone through. (Violated by the order of the envelopes of an account: the one defined last is filled first.)",
  "all pairs of file systems whose files are arranged differently, all subcommands, all options; all orders of the accounts", "A relation between two runs on arbitrary journals, and over all orders of a hash map; a test sees the pairs and the orders it happens to meet.",
  ["src/ledger/mod.rs: Ledger::parse_account, add_entry, fill_envelopes, display_flat_balance, display_envelopes", "src/account.rs: Account::parse, get_filling_postings, display_envelopes", "src/envelope.rs: Envelope::parse, add_body"])
P("C120", "A report asked for again shows the same",
  "A report that has moved money to envelopes, asked for again on the same day with --no-move, prints exactly the same and changes no file: what was counted is what was written. (Violated by the code where the amounts moved need more than eight decimals: they are counted with all of them and written with eight, so a daily share of a third changes the next balance.)",
  "all journals, all reports (balance, envelopes, register and the rest) with all options, all days", "Relates two runs of which the second reads what the first wrote, for arbitrary journals and amounts; tests of one run cannot see it, and tests with round amounts cannot either.",
  ["src/flags.rs: CommandFlags::execute", "src/ledger/mod.rs: Ledger::fill_envelopes, display_flat_balance, display_envelopes", "src/posting.rs: EnvelopePosting::fmt", "src/amount.rs: Amount::fmt"])
P("C121", "Whole amounts settle in one run",
  "If all amounts of a journal are whole numbers (the inferred ones then are too), no envelope is filled by parts, and the amounts add up to at most 90 million as often as there are envelopes, then everything silverfox moves is a positive whole number; after a run that moved money, any further run on the same day, with --no-move or without, changes no file, and the same report prints exactly the same. (Beyond that bound whole numbers are not written as they are: 59812938990 becomes 59812938990.00001.)",
  "all journals of whole amounts with aggressive or manual envelopes, all days, all reports with all options", "The second run reads what the first wrote and recomputes what is available; that nothing is left to move holds by exactness of every sum for arbitrary histories, which no finite set of journals shows.",
  ["src/flags.rs: CommandFlags::execute", "src/ledger/mod.rs: Ledger::fill_envelopes", "src/account.rs: Account::get_filling_postings, get_available_value", "src/envelope.rs: Envelope::get_filling_amount", "src/entry.rs: Entry::get_blank_amount", "src/amount.rs: Amount::fmt"])
P("C122", "The day decides only how money is divided in the envelopes",
  "Loading the same journal on two days gives the same accounts, entries, settings and errors; only the division of an envelope's money into what is ready and what is saved for the next time differs. Balance and register with --no-move print the same on every day, and where the amounts are whole numbers each envelope holds the same altogether and each account has the same available. False in one respect: a day can make the program crash on a journal that it reads on another (an envelope due on the 31st); journals on which no run crashes (C89) are shown the same on all days.",
  "all worlds, journals, pairs of days, arguments", "The day enters every posting to an envelope through the last due date; that nothing else depends on it is a statement about pairs of runs on all journals and all days.",
  ["src/ledger/mod.rs: Ledger::from_file, add_entry", "src/envelope.rs: Envelope::process_entry, apply_amount", "src/envelope.rs: Frequency::get_last_due_date", "src/account.rs: Account::process_entry, get_available_value", "src/flags.rs: CommandFlags::execute"])
P("C123", "An entry changes only the accounts it names",
  "If a journal gets one more entry, anywhere in any of its files, and both journals can be loaded, then every account that no posting of the entry names is exactly as before, with its real value and all its envelopes (also those that save for an account the entry names); the other entries keep their order; the balance report has the same lines for the other accounts; and a register that does not list the entry is the same letter for letter.",
  "all worlds, journals, included files, places for the entry, days", "The extra entry shifts everything that is read after it and the sorting of all entries; that nothing leaks to other accounts is a statement about pairs of journals.",
  ["src/ledger/mod.rs: Ledger::add_entry, get_totals, display_flat_balance", "src/account.rs: Account::process_entry", "src/envelope.rs: Envelope::process_entry, process_manual_postings, infer", "src/ledger/register.rs: Register::display"])
P("C124", "A csv file can be imported in parts",
  "Importing a csv file, with --no-move, leaves the same files and has the same outcome (also the same error) as importing its first records from one file and the others from a second, each with its own title lines. False where the first import writes entries that cannot be loaded again, such as postings to an account that is not defined: then the second part is refused.",
  "all worlds, journals, rules, csv files and places to divide them", "The second run has to read the first part back from the journal; that this changes nothing for any record is a statement about pairs of histories of runs.",
  ["src/ledger/mod.rs: Ledger::import_csv, append_entry, from_file, add_entry", "src/importer.rs: CsvImporter::from_file_with_rules, next", "src/flags.rs: CommandFlags::execute"])
P("C125", "The columns of a csv file can come in any order",
  "Importing a csv file whose columns were put in another order, with those left out that no rule refers to, has the same outcome as importing the original, given that the `fields` line of the rules is changed accordingly. False where a pattern of an `if` block is found across the border of two columns.",
  "all worlds, rules, csv files, orders and choices of columns", "The variables live in a hash map and the fields of a record are joined before patterns are looked for, so what a permutation changes has to be followed through every template and block.",
  ["src/importer.rs: CsvImporter::next, Rules::get_entry_from_record, add_from_line, inject_variables, applies_to", "src/ledger/mod.rs: Ledger::import_csv"])
P("C126", "Names of accounts, envelopes and currencies are only names",
  "Give all accounts, envelopes and currencies of a ledger and its entries other names, different ones for different things. Then validating and adding entries, the moves to envelopes, and the totals have the same outcome, error or panic as before, with the new names in place of the old. So have the rows of the register if the same accounts are in focus.",
  "all ledgers, entries, days and one-to-one renamings", "A comparison of two executions on all inputs; a special case for one name anywhere in the code would break it, and no finite set of names can exclude that.",
  ["src/ledger/mod.rs: Ledger::add_entry, fill_envelopes, get_totals", "src/account.rs: Account::process_entry", "src/envelope.rs: Envelope::process_entry, get_filling_amount", "src/entry.rs: Entry::get_blank_amount, validate, as_register_data", "src/amount.rs: AmountPool::only"])
P("C127", "Entries with all signs turned move the money the other way",
  "Turn the sign of every amount (and total cost) in the entries of a ledger. Then blank amounts, the money of every account, the totals and the amounts in the register are turned too, up to the sign of zero, and the register shows the opposite flow; no error appears or disappears in the totals and the register. With whole amounts, an entry followed by its opposite leaves the money of every account as it was; what is in an envelope does not come back.",
  "all ledgers and entries, amounts of any size", "Holds for all f64 amounts only because rounding is symmetric and every branch on a sign has its mirror image; a branch that treats one sign differently can hide from any list of examples.",
  ["src/entry.rs: Entry::get_blank_amount, as_register_data", "src/account.rs: Account::process_entry", "src/ledger/mod.rs: Ledger::get_totals, add_entry", "src/posting.rs: ClassicPosting::get_original_native_value", "src/envelope.rs: Envelope::process_entry"])
P("C128", "An entry changes only the currencies it names",
  "Add an entry anywhere in a journal. In every currency in which the entry has no amount, written or inferred, each account still holds the same money, each of its envelopes holds the same money, and the balance report shows the same amounts.",
  "all journals of any number of files, entries, and places of the entry", "Holds only if no later entry, envelope or inference mixes currencies through the state that the added entry left behind; the number of such journals is unbounded.",
  ["src/amount.rs: AmountPool::add_assign", "src/account.rs: Account::process_entry", "src/envelope.rs: Envelope::process_entry, infer, apply_amount", "src/ledger/mod.rs: Ledger::add_entry, get_totals"])
P("C129", "How an entry is divided into postings does not matter",
  "Write the postings of an entry in another order, or two postings of one account and currency as one with the sum, or one as two. The entry is accepted as before, the amount left out is the same, every envelope of the journal is the same in all its parts, every account holds the same money, and the balance report is the same.",
  "all ledgers with accounts defined, all lists of entries and all rewritings of each of them, whole numbers",
  "The amount left out, the envelope movements and the account sums are each computed by a loop over the postings in written order; the number of orders and divisions is unbounded.",
  ["src/entry.rs: Entry::validate, get_blank_amount, has_mixed_currencies", "src/envelope.rs: Envelope::process_entry, infer", "src/account.rs: Account::process_entry", "src/ledger/mod.rs: Ledger::add_entry, get_totals"])
P("C130", "Amounts in proportion give results in proportion",
  "Take two lists of entries with the same dates, accounts and currencies, whose amounts (and what they are worth) are in the proportion c to k, posting by posting, both positive. If one list is accepted into a ledger, the other is too. Then the money of every account, what every envelope holds now and for the next due date, and every amount of the balance report are in the proportion c to k.",
  "all ledgers with accounts and envelopes defined, all such pairs of lists, all c and k, whole amounts of at most 2^52 in total",
  "A sign test, a comparison of two amounts or a constant in any of the loops could break the proportion only for some sizes or signs; the amounts, the factor and the lists are unbounded in number.",
  ["src/entry.rs: Entry::validate, get_blank_amount", "src/posting.rs: Posting::get_original_native_value", "src/envelope.rs: Envelope::process_entry, infer", "src/account.rs: Account::process_entry", "src/ledger/mod.rs: Ledger::add_entry, get_totals"])
P("C131", "An account with more money never saves less",
  "Take two accounts with the same envelopes, the second with at least as much money of every currency. Then on the same day every automatic move of the second is to the same envelope and in the same currency as that of the first and its amount is not smaller, and what is left over of every currency is not smaller either.",
  "all days, all pairs of such accounts with any histories, any number of envelopes, amounts of envelopes up to 10^300",
  "Each envelope takes from what the envelopes before it have left, through four limits in floating point; whether more money can mean less for a later envelope depends on all of them together.",
  ["src/account.rs: Account::get_filling_postings, get_available_value", "src/envelope.rs: Envelope::get_filling_amount, get_filling_posting", "src/amount.rs: AmountPool::only"])
P("C132", "A due date stays until it is reached and never moves back",
  "From one day to a later one, the next due date that is found for an envelope does not become earlier; and as long as it lies ahead it stays the same.",
  "all pairs of days within the calendar, all frequencies and starts",
  "A statement about pairs of runs on different days; the due date is computed anew each day from today, the frequency and the start, and the days on which the two computations disagree are rare.",
  ["src/envelope.rs: Envelope::get_next_due_date", "src/envelope.rs: Frequency::get_next_due_date, next_date_by_day_of_month"])
P("C133", "From the typed journal to the printed balances",
  "Take a journal that is typed as account lines and entries, with comments, empty lines and white space as one likes, amounts as decimals of at most eight places with or without a currency, and at most one posting without an amount in an entry. Then the balance command succeeds, changes no file, and prints a line for every account that is named in an entry and no other, sorted; for every currency moved on the account it shows the exact decimal sum of what was typed, where a posting without an amount counts what the others leave.",
  "all journal texts of that form, of any length, in any date order, with amounts whose sums keep their decimals in a double; a posting without an amount is not the first of its account",
  "The claim goes from characters to characters through reading, sorting by date, filling in amounts, binary sums, rounding and padding; a test compares one journal with one output, and a deviation in the last decimal only shows for some amounts and lengths.",
  ["src/main.rs: main", "src/ledger/mod.rs: Ledger::from_file, display_flat_balance, get_totals", "src/entry.rs: Entry::parse, get_blank_amount", "src/posting.rs: Posting::parse", "src/amount.rs: Amount::parse, AmountPool"])
P("C134", "The printed balances of a balanced journal add up to zero",
  "If in every entry of a typed journal the amounts of every currency add up to zero, or one amount is left out, then the decimals that the balance command prints for all accounts add up to exactly zero in every currency. (Violated: the amount left out is printed as zero if its posting is the first of its account.)",
  "all journal texts of the form of C133, of any length",
  "Every printed total goes through binary sums and rounding on its own; that the decimals of all of them together cancel exactly can only be tested journal by journal.",
  ["src/main.rs: main", "src/ledger/mod.rs: Ledger::display_flat_balance, get_totals", "src/entry.rs: get_blank_amount", "src/amount.rs: AmountPool"])
P("C135", "From the typed journal to the printed register",
  "For a journal typed as in C133, the register command succeeds, changes no file, and prints the entries in the order of their dates, each with its date and, for every currency moved on accounts whose names start with asset, the exact decimal sum of what the entry moves there and the exact decimal total of all entries up to it. Only entries that change none of these totals can be missing.",
  "all journal texts of that form, of any length, in any date order, with amounts whose sums keep their decimals in a double",
  "The total in a row is a binary sum of binary sums, rounded when printed; whether the printed decimals are exact in every row depends on all rows before it.",
  ["src/main.rs: main", "src/ledger/register.rs: display", "src/entry.rs: Entry::parse, as_register_data, get_blank_amount", "src/amount.rs: AmountPool"])
P("C136", "The register and the balances agree",
  "For a typed journal, the last running total of each currency in the register is the decimal sum of the balances that the balance command prints for the accounts whose names start with asset; if the register has no row of a currency, these balances add up to zero. (Violated: a posting without an amount that is the first of its account counts in the register but not in the balances.)",
  "all journal texts of the form of C133, of any length, in any date order",
  "Two commands add up the same postings in different ways, by account and by date; a test compares them for one journal.",
  ["src/main.rs: main", "src/ledger/mod.rs: Ledger::display_flat_balance, get_totals", "src/ledger/register.rs: display", "src/entry.rs: as_register_data"])
P("C137", "The balance report depends only on the totals",
  "Two typed journals in which the same accounts have the same totals in the same currencies print the same balance report, whatever the order and the number of their entries; in particular the order in which the entries stand in the file does not matter. (Violated: the currencies of an account come in the order in which they first occur, and a total of zero can be shown as -0.)",
  "all pairs of journal texts of the form of C133, of any length",
  "A statement about two runs on any two journals; floating-point sums do depend on the order, so that a test of one pair says nothing about another.",
  ["src/main.rs: main", "src/ledger/mod.rs: Ledger::display_flat_balance, get_totals", "src/amount.rs: Amount, AmountPool"])
P("C138", "One more entry",
  "If an entry is added to a typed journal, at any place, each balance in the balance report changes by exactly what the entry moves on the account in the currency, and rows are new only for accounts of the entry. If an entry and its reverse (the same postings with the opposite amounts, on any day) are added, with accounts and currencies that are in use, and every account has one currency and a total that is not zero, the report is the same text as before.",
  "all pairs of journal texts of the form of C133 with one entry more or with an entry and its reverse more, of any length",
  "A statement about pairs of runs on any journal and any added entry, with exact decimals although the sums are floats.",
  ["src/main.rs: main", "src/ledger/mod.rs: Ledger::display_flat_balance, get_totals", "src/entry.rs: get_blank_amount"])
P("C139", "Other names in the journal text",
  "Type a journal again with other names for its accounts and currencies, different ones for different things, with the entries in any order. Then the balance report has a row for every new name and no others, and shows for each account and currency the same amount as before.",
  "all pairs of journal texts of the form of C133 that differ by one-to-one renamings of accounts and of currencies, of any length",
  "Names are compared, split at blanks and tried as numbers while a journal is read; a test uses a few names.",
  ["src/main.rs: main", "src/ledger/mod.rs: Ledger::display_flat_balance, get_totals", "src/posting.rs: ClassicPosting"])
P("C140", "A balance report can be read in one way",
  "If the balance reports of two typed journals are the same text, the same accounts occur in both journals, in the same currencies and with exactly the same totals: no two different states of the accounts print the same.",
  "all pairs of journal texts of the form of C133, of any length",
  "That no two of all possible journals with different totals are shown alike cannot be sampled.",
  ["src/main.rs: main", "src/ledger/mod.rs: Ledger::display_flat_balance, get_totals", "src/amount.rs: Amount"])
P("C141", "Balances and register of a journal in several files",
  "A typed journal may be cut into several files, also into files included by included files, by their full paths. The balance command then prints for each account and currency the exact decimal sum of the numbers that stand in all these files, the register command the entries of all files by date with the exact changes and totals (C135), and no file is changed; accounts of an included file can be used after the include line, and those before it in the included file.",
  "all journals of the form of C133 in any number of files, with includes by full paths to any depth that ends",
  "Where each entry stands, how deep and in which file, is free; a test has one arrangement of files.",
  ["src/main.rs: main", "src/ledger/mod.rs: Ledger::from_file, add_from_file, add_from_str, Ledger::display_flat_balance", "src/ledger/register.rs: display", "src/entry.rs: Entry"])

with open(os.path.join(os.path.dirname(__file__), "..", "properties.jsonl"), "w") as f:
    for o in out:
        f.write(json.dumps(o, ensure_ascii=False) + "\n")
print(len(out))
