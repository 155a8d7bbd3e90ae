#!/usr/bin/env python3
"""Writes MANIFEST.json from the list below."""
import json, os
claims = []
def M(prop, status, theorems, note=""):
    claims.append(dict(property=prop, status=status, theorems=theorems.split(), note=note))

M("C01", "proved", "C01_pool_sum")
M("C02", "proved", "C02_pool_symbols")
M("C03", "proved", "C03_currencies_not_mixed C03_equal")
M("C04", "proved", "C04_whole_numbers_exact")
M("C05", "proved", "C05_nearest")
M("C06", "proved", "C06_accepted_texts C06_any_symbol C06_never_panics C06_symbol_clean")
M("C07", "proved", "C07_print_parse C07_eight_decimals")
M("C08", "proved", "C08_short_decimals_stable")
M("C09", "proved", "C09_remove_comments")
M("C10", "proved", "C10_posting_round_trip")
M("C11", "proved", "C11_accounts_defined")
M("C12", "proved", "C12_clauses C12_order")
M("C13", "proved", "C13_header C13_status_round_trip")
M("C14", "proved", "C14_blank_rule")
M("C15", "proved", "C15_blank_amount C15_balances_exactly")
M("C16", "proved", "C16_mixed_blank")
M("C17", "partial", "C17_balanced_partial C17_any_partial C17_unchecked C17_refuted",
  "The full statement is refuted: validation never checks the balance. Proved: in entries with a blank posting and one currency the inferred amount and the sum of the others (as computed, if finite) add up to zero; for whole amounts that sum is exact. C17_unchecked: whether an entry is accepted depends on its blank postings and currencies only, not on the numbers.")
M("C18", "partial", "C18_panics_exactly C18_postings_never_panic C18_refuted",
  "The full statement is refuted: the exact set of texts on which the reader panics is proved instead.")
M("C19", "proved", "C19_entry_round_trip")
M("C20", "proved", "C20_entries_sorted C20_loaded")
M("C21", "proved", "C21_real_value C21_per_currency C21_envelope_postings",
  "Counted from the definition of the account on (see C26).")
M("C22", "proved", "C22_adding C22_same_accounts C22_loading C22_reports C22_built",
  "Also for loading whole files and for all reports.")
M("C23", "partial", "C23_refuted C23_shown_partial C23_right_partial",
  "Refuted: a blank first posting counts as zero and envelope postings are counted as real money. Proved: exactly what is shown, and that it is right for accounts without envelope postings whose first posting has an amount.")
M("C24", "proved", "C24_chunks C24_inserted_line C24_trailing_comment")
M("C25", "proved", "C25_currency C25_date_format C25_account C25_account_map C25_currency_unused C25_currency_reports")
M("C26", "partial", "C26_refuted C26_starts_anew_partial C26_untouched_partial",
  "Refuted: the second definition overwrites the account. Proved: exactly what is lost, and that repeating an untouched definition is harmless.")
M("C27", "proved", "C27_append")
M("C28", "proved", "C28_read_back")
M("C29", "partial", "C29_refuted C29_absolute_partial C29_beside_partial C29_exact",
  "Refuted: a relative path with a directory is looked up again from that directory. Proved for absolute paths with any includes, and for files in the current directory whose includes stay in that directory. C29_exact: the file written is always the path of the journal as seen from the directory of the file read last.")
M("C30", "partial", "C30_refuted C30_absolute_partial C30_beside_partial C30_items_partial",
  "Refuted: after a nested include from another directory the rest of the file is resolved from there. Proved when all includes are absolute or stay in one directory, or whenever the files found are those meant (C30_items_partial).")
M("C31", "partial", "C31_refuted C31_exact C31_never_loaded_partial C31_fuel",
  "Refuted: a journal that includes itself is read for ever. Proved: a cycle of absolute includes is never loaded, and the bound on the recursion in the model does not matter. C31_exact: loading goes on for ever if and only if files are opened one inside another without end and all that stands before the includes is accepted.")
M("C32", "proved", "C32_no_move C32_main")
M("C33", "proved", "C33_definition C33_unique")
M("C34", "proved", "C34_compartments")
M("C35", "proved", "C35_manual C35_only_named")
M("C36", "proved", "C36_automatic C36_happens")
M("C37", "partial", "C37_partial C37_refuted C37_crash_refuted C37_exact",
  "Refuted: a refund (negative sum over the `for` accounts) takes money out of the envelope, and an accepted entry with a native value crashes. Proved: the direction is right when the sum over the `for` accounts is not negative (C37_partial), and always wrong when it is negative and the entry touches the account itself (C37_exact).")
M("C38", "proved", "C38_available C38_exact")
M("C39", "proved", "C39_safe C39_limits")
M("C40", "partial", "C40_partial C40_refuted C40_exact",
  "Refuted: an overdrawn envelope is refilled even if the money is not available. Proved for accounts without overdrawn envelopes; C40_exact gives the exact condition for one envelope: it gets more than is available if and only if it is filled automatically and owes more than that, and then it gets just what it owes.")
M("C41", "proved", "C41_zero C41_converse")
M("C42", "proved", "C42_touched C42_second_run C42_nothing_refuted",
  "C42_nothing_refuted shows that the stronger claim (no posting at all the second time) is false: an envelope that got nothing can receive a rounding error.")
M("C43", "proved", "C43_no_crash C43_available_knows",
  "C43_no_crash is for days before the last year of chrono's range (262142), where computing due dates may overflow.")
M("C44", "proved", "C44_monthly")
M("C45", "proved", "C45_weekly")
M("C46", "partial", "C46_partial C46_refuted C46_exact",
  "Refuted for starting dates in the future (the first date is skipped or dates before the start are given). Proved for starting dates up to today. C46_exact: it is right exactly for these, and from 27 to 14 days before the start.")
M("C47", "proved", "C47_bimonthly")
M("C48", "partial", "C48_partial C48_refuted C48_exact",
  "Refuted: only one year is ever added, and 29 February gives no date. Proved: the date is right exactly when it is still in the future. C48_exact includes 29 February.")
M("C49", "partial", "C49_partial C49_early_days_partial C49_annual_partial C49_refuted C108_last",
  "Refuted: panics, future dates and two-year gaps exist. Proved for started weekly, biweekly, monthly and bimonthly frequencies, with the exact panic condition. C108_last gives the exact result for every frequency and start.")
M("C50", "proved", "C50_bar")
M("C51", "proved", "C51_order",
  "For days before the last year of chrono's range (262142).")
M("C52", "proved", "C52_register C52_shown C52_exactly")
M("C53", "proved", "C53_running_total C53_exact")
M("C54", "proved", "C54_layout C54_first_block C54_unique C54_expansion C54_across_fields",
  "C54_across_fields: a pattern may match across two neighbouring fields, as the fields are joined without separator.")
M("C55", "proved", "C55_root C55_block")
M("C56", "proved", "C56_reset C56_succeeds",
  "`fields` has no default and cannot be reset (an error).")
M("C57", "partial", "C57_meaning_partial C57_refuted",
  "Refuted: in %a%b%c% the text between two references may be taken for a reference to b, depending on hash-map order. Proved when no text between two references is, after substitution, the name of a field.")
M("C58", "proved", "C58_two_postings C58_completed")
M("C59", "partial", "C59_reload_partial C59_rounded_partial C59_refuted",
  "Refuted: the completing posting may name an account that is not defined. Proved when the imported entries use defined accounts, texts that fit on a journal line and amounts of at most eight decimals, with a date format that tells the date and writes neither white space nor comment marks. C59_rounded_partial: with more decimals the journal is read as if the amounts had been rounded to eight.")
M("C60", "proved", "C60_prefix")
M("C61", "proved", "C61_accepted C61_rejected")
M("C62", "proved", "C62_chosen C62_loaded C62_none")
M("C63", "proved", "C63_date_text C63_valid C63_short_year",
  "Formats with times of day or zones cannot write a date (C109).")
M("C64", "proved", "C64_calendar")
M("C65", "partial", "C65_partial C65_exact C65_refuted",
  "Refuted: an expense and a goal of the same name both receive the posting. Proved within one kind; C65_exact: two envelopes are reached if and only if an expense and a goal have the name.")
M("C66", "partial", "C66_partial C66_refuted C66_close",
  "Refuted: rounding leaves a cell empty for targets such as 51.28. Proved: monotone, empty up to zero, full from a whole-number target on; for all targets every cell whose exact position is more than one part in 2^51 away from the amount is right (C66_close).")
M("C67", "partial", "C67_order_partial C67_refuted",
  "Refuted: the order of the postings is the order of the map. Proved: the entries are the same up to the order of their postings, for names and values without '%' and rule texts as in C57.")
M("C68", "proved", "C68_append_only C68_journal")
M("C69", "partial", "C69_absolute_partial C69_refuted C69_exact",
  "Refuted: relative paths are looked up from the directory of the journal. Proved for absolute paths and rules that include no other file. C69_exact: they are looked up from the directory of the file read last.")
M("C70", "proved", "C70_read C70_mark C70_import",
  "About the csv library, whose sources are not in the repository; its behaviour is modelled in Csv.v.")
M("C71", "proved", "C71_balance C71_shown",
  "What a posting is worth is that of C23: a blank posting that is the first to its account counts as zero, and envelope postings are included.")
M("C72", "proved", "C72_envelopes C72_shown C72_sum",
  "C72_shown: for days before the last year of the calendar.")
M("C73", "partial", "C73_exact C73_partial C73_refuted",
  "Refuted: rows are misaligned for texts with characters outside ASCII. Proved for ASCII texts; C73_exact: for entries whose texts have no line breaks, the rows are aligned if and only if every entry that takes several lines has ASCII characters only in the columns before the amounts.")
M("C74", "partial", "C74_entry_partial C74_happens C74_refuted",
  "Refuted as a whole: a field with percent signs is itself taken for a reference (C74_refuted). Proved for fields without '%' and rule texts in which every '%' is part of a reference, as in C57.")
M("C75", "proved", "C75_sets C75_accepts",
  "The reset value '-' is C56's.")
M("C76", "proved", "C76_printed C76_only C76_import C76_balance")
M("C77", "proved", "C77_load C77_run C77_absolute C77_plain C77_rules_cycle")
M("C78", "proved", "C78_reads C78_only C78_crash")
M("C79", "partial", "C79_partial C79_exact C79_ignored C79_refuted",
  "Refuted: the named day is ignored, only the start counts. Proved when the start itself falls on the named day and is not in the future. C79_exact: for every start, the due dates are on the weekday, or the day of the month, of the start.")
M("C80", "proved", "C80_says C80_same C80_by_due",
  "For names other than `by` and `starting`, in the plain layout `kind name word rest`; C80_by_due for date formats that begin with a number.")
M("C81", "partial", "C81_partial C81_refuted C81_exact",
  "Refuted: a start in the future is returned as the due date, whatever its day. Proved for starts up to today or on a due day. C81_exact: it is right exactly if the start is not after the next regular due date, or on a due day.")
M("C82", "partial", "C82_partial C82_start C82_refuted",
  "Refuted: an envelope with a start date and a past or no due date is next due on its start, however long ago. Proved without start date; C82_start is the exact behaviour with one.")
M("C83", "partial", "C83_partial C83_line C83_refuted",
  "Refuted: a journal with a false assertion is accepted. Proved instead: journals that differ only in assertions give the same reports, and later text is read in the same way.")
M("C84", "partial", "C84_partial C83_partial C84_refuted",
  "Refuted: the two are shown apart. Proved instead: the setting changes nothing else in the ledger, and no report and no later text depends on it (C83_partial).")
M("C85", "partial", "C85_partial C85_short C85_refuted",
  "Refuted: the short form is always an error, the long form is read as account, name. Proved: `envelope <account> <name> <amount>` is read as such.")
M("C86", "partial", "C86_partial C86_refuted",
  "Refuted for filling when money is short: goals come first. Proved for each envelope by itself: definition, movements, due dates, filling from the same available amount, display.")
M("C87", "partial", "C87_help C87_partial C87_refuted", "Refuted as a whole: `new` never succeeds (C87_refuted). Proved: the help text, its commands and how they are understood; that the others succeed on readable journals is C76_printed and C76_import.")
M("C88", "partial", "C88_partial C88_error C88_refuted", "Refuted as a whole: every error ends with status 0. Proved: the status is 101 exactly on a crash and 0 otherwise.")
M("C89", "partial", "C89_partial C89_crashes C89_no_terminal C89_refuted", "Refuted as a whole: C89_crashes has thirteen journals and imports that crash, one for each condition of `sound_journal` and `sound_import`. Proved: with a date within the calendar, a terminal for the register, and files that satisfy these conditions, no run crashes.")
M("C90", "proved", "C90_most C90_account", "")
M("C91", "proved", "C91_share C91_daily C91_just_in_time", "")
M("C92", "partial", "C92_partial C92_refuted C92_exact", "Refuted as a whole: C92_refuted shows the journal after three daily runs, with the whole target moved three times. Proved: within the target, up to a relative rounding error of 2^-51 (and exactly when target minus savings is exact), for envelopes that owe nothing, with savings between zero and the target, and no last due date in the future; C92_exact: a filling counts for the next due date if and only if the last due date is not in the future.")
M("C93", "partial", "C93_compartments C93_partial C93_refuted C93_exact",
  "Refuted as a whole: in C93_refuted money saved three due dates ago is not ready. Proved: for every frequency, with the date that the program takes for the last due date (C93_compartments); that date is the last due date for one-time and weekly envelopes, monthly ones up to the 28th, every other week once started, and every other month up to the 28th once started and not on the due day (C93_partial). C93_exact: the exact condition for each frequency; never for yearly ones.")

M("C94", "proved", "C94_as_written")
M("C95", "partial", "C95_inferred_partial C95_account_partial C95_balance_partial C95_running_partial C95_refuted", "Refuted as a whole: 0.3 - 0.1 - 0.2 is shown as -0, and 90000000.1 - 90000000 as 0.09999999 (C95_refuted). Proved: exact, up to the sign of zero, if the number of amounts that were added up, times a bound on all sums along the way in units of 10^-8, is at most 2^47 (2^48 for one inferred amount).")
M("C96", "proved", "C96_text C96_run", "The order of the accounts, which the program takes from a hash map, is left open.")
M("C97", "partial", "C97_partial C97_error C97_refuted", "Refuted as a whole: a title line makes the import fail although it is to be skipped. Proved: the exact condition, namely that the records to import have as many fields as the first record of the file.")
M("C98", "partial", "C98_last C98_partial C98_exact C98_refuted", "Refuted as a whole: an older entry that is added later makes a second run of the day fill again. Proved: the date remembered is that of the last move in file order, and the property holds if the entries stand in order of their dates and none is in the future. C98_exact: if the last move in the file is not of today, the envelope is filled like one that was never touched.")
M("C99", "partial", "C99_reports C99_partial C99_decimals_partial C99_refuted C99_moves_refuted", "Refuted for the envelope report and the moves. Proved: the balance and the register are the same if the entries of each day keep their order; all accounts and envelopes hold the same amounts after any reordering of entries, if the amounts are whole numbers of up to 2^53 in total; amounts of up to 8 decimals are shown the same (except for the sign of zero) as long as (number of amounts) * (sum of their sizes) is at most 2^47 units of 10^-8. Missing: larger sums, where rounding depends on the order.")
M("C100", "partial", "C100_partial C100_blank C100_decimals_partial C100_blank_decimals C100_refuted", "Refuted for entries with envelope postings. Proved for amounts that are whole numbers of up to 2^53 in total: the sum over all accounts is zero if the real amounts of each entry sum to zero, which they do in an entry of one currency with one amount left out and without envelope postings. The same for the amounts shown, for decimals within the bounds of C99. Missing: larger sums, where rounding leaves a difference.")
M("C101", "partial", "C101_parts C101_text C101_partial C101_lost C101_refuted", "Refuted as a whole. Proved: a journal can be cut in two before any line that is not indented; if all files are in one directory, no file includes the journal, and neither the included text nor what follows the line begins with an indented line, then the ledger is the same, with any includes elsewhere. C101_lost: indented lines below an `include` line are ignored.")
M("C102", "proved", "C102_explained C102_text C102_quotes C102_places C102_run C102_validation", "Texts that come from libraries (the operating system, chrono, csv) are a parameter. Panic messages are not modelled.")
M("C103", "partial", "C103_reason C103_run C103_quoted C103_verbatim_refuted", "Refuted as a verbatim quotation. C103_quoted: the text in which an entry is quoted (years 0 to 9999). Proved: every quoted value is a part of a chunk of a file of the journal, an amount up to blanks and double dashes, an entry as the program prints it, a path as given in an include. The errors of `import` are C106.")
M("C104", "partial", "C104_undefined_partial C104_defined_refuted C104_valid_refuted", "Refuted as a whole. Proved: the account stands in a posting, and is not defined above in the same file.")
M("C105", "proved", "C105_continued C105_prefix", "Under the assumption that no file of the journal includes the journal itself (otherwise loading does not end, C31).")
M("C106", "proved", "C106_reason", "Under the assumption on hash maps that iterating one yields only its own pairs.")
M("C107", "proved", "C107_white C107_words C107_trim C107_lines C107_paths C107_files", "About functions of the Rust library as modelled in Str.v and World.v; paths are resolved without symbolic links.")
M("C108", "proved", "C108_next C108_last", "For days between the years -262139 and 262142.")
M("C109", "proved", "C109_timed C109_formats C109_not_written", "Formats of chrono 0.4.41 as known; years 0 to 9999 for reading.")
M("C110", "proved", "C110_same C110_read C110_once", "For file systems without symbolic links, and paths that do not end in `..`.")
M("C111", "proved", "C111_says C111_exact C111_default C111_entry", "Formats of chrono 0.4.41 as known.")

M("C112", "partial", "C112_again_partial C112_same_partial C112_refuted",
  "Full statement refuted: the currency `//`, from an envelope with `amount /5/`, is written so that it starts a comment, and the journal cannot be loaded any more. Proved for currencies and amounts that can be written (`writable`), date formats that tell the date in one word, years 0 to 9999, and journals that are found again at the same path after loading (see C29). Included files may be anything that can be loaded; that the journal does not include itself is proved, not assumed. File systems without symbolic links, paths that do not end in `..`.")
M("C113", "partial", "C113_twice_partial C113_refuted",
  "Full statement refuted: with a relative path the entry can go to another file, and the second run moves the same money again. Proved under the conditions of C112.")
M("C114", "partial", "C114_real C114_balance C114_whole C114_register C114_refuted",
  "Refuted: 100 in an account and 10 moved to an envelope are shown as 110, in both reports. Proved: the value of every account stays the same (C114_real); in the balance report exactly the moved amounts are added, between those of the days before and after, for accounts used up to today, and nothing changes for accounts without moves (C114_balance), so that for whole numbers up to 2^53 the balance is too large by just the sum moved (C114_whole); the register has the same rows and one more, unless the moves in focus sum to zero (C114_register).")
M("C115", "proved", "C115_loading C115_reports C115_register C115_run",
  "Headers must be well formed (a status and paired brackets) and their date word must not be one of the four keywords. For imports, the rules and the table must be the same. (The README says that the payee can be queried: no output depends on it.)")
M("C116", "partial", "C116_exact C116_refuted",
  "Refuted: of two units sold for 50 each, less a fee of 1, the journal with `@ 50` receives 99 and the one with `= 100` pays 101. Proved: the same worth for positive amounts and exactly the opposite for negative ones.")
M("C117", "partial", "C117_written C117_exact C117_beside C117_refuted",
  "Refuted: the journal is refused without the cost of 100, and loaded with it. Proved: a worth exists only where a price without symbol is written; an entry that concerns an envelope is accepted only if every amount is in its currency or has such a price and stands in another account (C117_exact); such postings do not count (C117_beside).")
M("C118", "partial", "C118_loading C118_run C118_refuted",
  "Refuted: a tab after `amount`, a comment after the first line of an envelope, or two spaces before `every` make the journal unreadable. Proved for entries, keyword lines, and the indentation and the gaps in definitions of accounts (SpecLayout), for loading and for whole runs.")
M("C119", "partial", "C119_loading C119_run C119_moves C119_refuted",
  "Refuted for the order of envelopes (money goes to the one defined last). Proved for accounts with different names and for settings, for loading and for whole runs; `register` only with --no-move (it lists the lines of a move in their order). Not claimed: that both runs fail in the same way (an error or a crash).")
M("C120", "partial", "C120_again_partial C120_refuted",
  "Refuted for amounts with more than eight decimals (balance 1100, then 1099.99999999). Proved where the envelope amounts of that day are written exactly, and the path of the journal still leads to it after loading; C121 gives journals for which that is so.")
M("C121", "proved", "C121_moves C121_written C121_settled",
  "The path of the journal must still lead to it after loading, and the currencies of the envelopes must be readable when written (as in C112, C113). Example C121_large shows why there is a bound.")
M("C122", "partial", "C122_load_partial C122_reports_partial C122_reports C122_money C122_refuted",
  "The partial theorems allow one of the two runs to crash; C122_refuted is a journal that is shown on one day and crashes on another. C122_reports has no such exception, for the journals of C89. With fractions the money in an envelope can differ by rounding.")
M("C123", "proved", "C123_accounts C123_reports",
  "For two journals that load; an entry that cannot be read or processed makes the whole journal unreadable (C105).")
M("C124", "partial", "C124_parts_partial C124_tables_partial C124_refuted",
  "For first parts that succeed and whose entries can be written down (writable_entry) with amounts of at most eight decimals; C124_refuted is a csv file that can be imported at once but not in two parts. The csv file and the rules must not be the journal itself.")
M("C125", "partial", "C125_record_partial C125_rules C125_run_partial C125_refuted",
  "For records to which the same blocks apply before and after, and templates in which nothing is taken for a reference by chance (C57); the `fields` line is the first of the rules, the only one, and nothing is included. C125_refuted exchanges two columns such that a pattern is no longer found across their border.")
M("C126", "proved", "C126_valid C126_entry C126_entries C126_moves C126_totals C126_register",
  "About entries and ledgers in memory; C126_case compares two journals as texts.")
M("C127", "proved", "C127_blank C127_real C127_totals C127_register C127_cancel C127_envelopes",
  "C127_real and C127_cancel are for entries that are accepted both ways. C127_envelopes is the part about envelopes: an entry and its opposite take money out of the envelope twice.")
M("C128", "partial", "C128_money_partial C128_balance_partial C128_refuted",
  "C128_money_partial is the part about the money in accounts and envelopes (the day on which an envelope was last used may change). The part about the balance report is false: a blank amount that comes first to its account is counted as nothing, and an earlier entry in another currency makes it count (C128_refuted). It holds for accounts whose first posting has an amount (C128_balance_partial).")
M("C129", "partial", "C129_valid C129_blank C129_partial C129_refuted",
  "C129_valid, C129_blank and C129_partial are everything up to the balance report, for whole numbers of 2^52 in total and at most one amount left out per entry. The part about the balance report is false: a blank posting that comes first to its account is counted as nothing, so two lines that change places change the balances shown (C129_refuted).")
M("C130", "proved", "C130_entries",
  "For whole numbers, of 2^52 in total, with at most one amount left out per entry; beyond that the additions round.")
M("C131", "proved", "C131_more",
  "For all finite and infinite holdings; the amounts of the envelopes are at most 10^300, so that their sums are finite.")
M("C132", "partial", "C132_order C132_order_partial C132_partial C132_refuted",
  "The due dates of a frequency never move back (C132_order); with the start of the envelope they do not unless the frequency has come to its end (C132_order_partial); and a due date of the frequency stays until it is reached, but for fortnights that have not started (C132_partial). Without these conditions it is false (C132_refuted): every other Friday starting 2024/03/15 is due on the 15th when asked on 1 March, and on the 29th when asked on 2 March; a weekly envelope is due on its start, until the week is over; and a one-time date that has passed is replaced by the start, which is earlier.")
M("C133", "proved", "C133_balances",
  "Conditions: no envelopes or includes in the journal, the sums of the amounts stay below a bound under which no decimal is lost (or are whole numbers below 2^51 units of 10^-8), and a posting without an amount is not the first of its account, as C23 shows what happens then.")
M("C134", "partial", "C134_partial C134_refuted",
  "Proved under the conditions of C133, in particular that a posting without an amount is not the first of its account. C134_refuted: a journal with the single entry food 12.25, cash (left out) prints 12.25 and 0.")
M("C135", "proved", "C135_register",
  "Conditions: a terminal, no envelopes or includes in the journal, and the numbers behind the asset accounts, for each currency, below a bound under which no decimal is lost. Of the other columns it only says that the date stands first; C52 has them. The order of entries of one day is in C20.")
M("C136", "partial", "C136_partial C136_refuted",
  "Proved under the conditions of C133 and C135, in particular that a posting without an amount is not the first of its account. C136_refuted: with the single entry food 12.25, assets:cash (left out), the register ends with -12.25 and the balance of assets:cash is 0.")
M("C137", "partial", "C137_rows C137_partial C137_order C137_refuted",
  "C137_rows: the same accounts in the same order with the same currencies and the same texts for all totals but zero. C137_partial and C137_order: equal output if every account has one currency and a total that is not zero. C137_refuted: two entries of one day in different currencies, exchanged.")
M("C138", "proved", "C138_added C138_reversed",
  "Under the conditions of C133 for both journals.")
M("C139", "proved", "C139_names",
  "Under the conditions of C133 for the first journal; the second one is typed in the same form.")
M("C140", "proved", "C140_read",
  "Under the conditions of C133 for both journals. The converse of C137.")
M("C141", "proved", "C141_files C141_register",
  "With the conditions of C133 and C135 on the amounts. Relative paths are left out (C29, C69).")

path = os.path.join(os.path.dirname(__file__), "..", "MANIFEST.json")
with open(path, "w") as f:
    json.dump({"claims": claims}, f, indent=1)
    f.write("\n")
