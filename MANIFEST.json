{
 "claims": [
  {
   "property": "C01",
   "status": "proved",
   "theorems": [
    "C01_pool_sum"
   ],
   "note": ""
  },
  {
   "property": "C02",
   "status": "proved",
   "theorems": [
    "C02_pool_symbols"
   ],
   "note": ""
  },
  {
   "property": "C03",
   "status": "proved",
   "theorems": [
    "C03_currencies_not_mixed",
    "C03_equal"
   ],
   "note": ""
  },
  {
   "property": "C04",
   "status": "proved",
   "theorems": [
    "C04_whole_numbers_exact"
   ],
   "note": ""
  },
  {
   "property": "C05",
   "status": "proved",
   "theorems": [
    "C05_nearest"
   ],
   "note": ""
  },
  {
   "property": "C06",
   "status": "proved",
   "theorems": [
    "C06_accepted_texts",
    "C06_any_symbol",
    "C06_never_panics",
    "C06_symbol_clean"
   ],
   "note": ""
  },
  {
   "property": "C07",
   "status": "proved",
   "theorems": [
    "C07_print_parse",
    "C07_eight_decimals"
   ],
   "note": ""
  },
  {
   "property": "C08",
   "status": "proved",
   "theorems": [
    "C08_short_decimals_stable"
   ],
   "note": ""
  },
  {
   "property": "C09",
   "status": "proved",
   "theorems": [
    "C09_remove_comments"
   ],
   "note": ""
  },
  {
   "property": "C10",
   "status": "proved",
   "theorems": [
    "C10_posting_round_trip"
   ],
   "note": ""
  },
  {
   "property": "C11",
   "status": "proved",
   "theorems": [
    "C11_accounts_defined"
   ],
   "note": ""
  },
  {
   "property": "C12",
   "status": "proved",
   "theorems": [
    "C12_clauses",
    "C12_order"
   ],
   "note": ""
  },
  {
   "property": "C13",
   "status": "proved",
   "theorems": [
    "C13_header",
    "C13_status_round_trip"
   ],
   "note": ""
  },
  {
   "property": "C14",
   "status": "proved",
   "theorems": [
    "C14_blank_rule"
   ],
   "note": ""
  },
  {
   "property": "C15",
   "status": "proved",
   "theorems": [
    "C15_blank_amount",
    "C15_balances_exactly"
   ],
   "note": ""
  },
  {
   "property": "C16",
   "status": "proved",
   "theorems": [
    "C16_mixed_blank"
   ],
   "note": ""
  },
  {
   "property": "C17",
   "status": "partial",
   "theorems": [
    "C17_balanced_partial",
    "C17_any_partial",
    "C17_unchecked",
    "C17_refuted"
   ],
   "note": "The full statement is refuted: validation never checks the balance. Proved: in entries with a blank posting and one currency the inferred amount and the sum of the others (as computed, if finite) add up to zero; for whole amounts that sum is exact. C17_unchecked: whether an entry is accepted depends on its blank postings and currencies only, not on the numbers."
  },
  {
   "property": "C18",
   "status": "partial",
   "theorems": [
    "C18_panics_exactly",
    "C18_postings_never_panic",
    "C18_refuted"
   ],
   "note": "The full statement is refuted: the exact set of texts on which the reader panics is proved instead."
  },
  {
   "property": "C19",
   "status": "proved",
   "theorems": [
    "C19_entry_round_trip"
   ],
   "note": ""
  },
  {
   "property": "C20",
   "status": "proved",
   "theorems": [
    "C20_entries_sorted",
    "C20_loaded"
   ],
   "note": ""
  },
  {
   "property": "C21",
   "status": "proved",
   "theorems": [
    "C21_real_value",
    "C21_per_currency",
    "C21_envelope_postings"
   ],
   "note": "Counted from the definition of the account on (see C26)."
  },
  {
   "property": "C22",
   "status": "proved",
   "theorems": [
    "C22_adding",
    "C22_same_accounts",
    "C22_loading",
    "C22_reports",
    "C22_built"
   ],
   "note": "Also for loading whole files and for all reports."
  },
  {
   "property": "C23",
   "status": "partial",
   "theorems": [
    "C23_refuted",
    "C23_shown_partial",
    "C23_right_partial"
   ],
   "note": "Refuted: a blank first posting counts as zero and envelope postings are counted as real money. Proved: exactly what is shown, and that it is right for accounts without envelope postings whose first posting has an amount."
  },
  {
   "property": "C24",
   "status": "proved",
   "theorems": [
    "C24_chunks",
    "C24_inserted_line",
    "C24_trailing_comment"
   ],
   "note": ""
  },
  {
   "property": "C25",
   "status": "proved",
   "theorems": [
    "C25_currency",
    "C25_date_format",
    "C25_account",
    "C25_account_map",
    "C25_currency_unused",
    "C25_currency_reports"
   ],
   "note": ""
  },
  {
   "property": "C26",
   "status": "partial",
   "theorems": [
    "C26_refuted",
    "C26_starts_anew_partial",
    "C26_untouched_partial"
   ],
   "note": "Refuted: the second definition overwrites the account. Proved: exactly what is lost, and that repeating an untouched definition is harmless."
  },
  {
   "property": "C27",
   "status": "proved",
   "theorems": [
    "C27_append"
   ],
   "note": ""
  },
  {
   "property": "C28",
   "status": "proved",
   "theorems": [
    "C28_read_back"
   ],
   "note": ""
  },
  {
   "property": "C29",
   "status": "partial",
   "theorems": [
    "C29_refuted",
    "C29_absolute_partial",
    "C29_beside_partial",
    "C29_exact"
   ],
   "note": "Refuted: a relative path with a directory is looked up again from that directory. Proved for absolute paths with any includes, and for files in the current directory whose includes stay in that directory. C29_exact: the file written is always the path of the journal as seen from the directory of the file read last."
  },
  {
   "property": "C30",
   "status": "partial",
   "theorems": [
    "C30_refuted",
    "C30_absolute_partial",
    "C30_beside_partial",
    "C30_items_partial"
   ],
   "note": "Refuted: after a nested include from another directory the rest of the file is resolved from there. Proved when all includes are absolute or stay in one directory, or whenever the files found are those meant (C30_items_partial)."
  },
  {
   "property": "C31",
   "status": "partial",
   "theorems": [
    "C31_refuted",
    "C31_exact",
    "C31_never_loaded_partial",
    "C31_fuel"
   ],
   "note": "Refuted: a journal that includes itself is read for ever. Proved: a cycle of absolute includes is never loaded, and the bound on the recursion in the model does not matter. C31_exact: loading goes on for ever if and only if files are opened one inside another without end and all that stands before the includes is accepted."
  },
  {
   "property": "C32",
   "status": "proved",
   "theorems": [
    "C32_no_move",
    "C32_main"
   ],
   "note": ""
  },
  {
   "property": "C33",
   "status": "proved",
   "theorems": [
    "C33_definition",
    "C33_unique"
   ],
   "note": ""
  },
  {
   "property": "C34",
   "status": "proved",
   "theorems": [
    "C34_compartments"
   ],
   "note": ""
  },
  {
   "property": "C35",
   "status": "proved",
   "theorems": [
    "C35_manual",
    "C35_only_named"
   ],
   "note": ""
  },
  {
   "property": "C36",
   "status": "proved",
   "theorems": [
    "C36_automatic",
    "C36_happens"
   ],
   "note": ""
  },
  {
   "property": "C37",
   "status": "partial",
   "theorems": [
    "C37_partial",
    "C37_refuted",
    "C37_crash_refuted",
    "C37_exact"
   ],
   "note": "Refuted: a refund (negative sum over the `for` accounts) takes money out of the envelope, and an accepted entry with a native value crashes. Proved: the direction is right when the sum over the `for` accounts is not negative (C37_partial), and always wrong when it is negative and the entry touches the account itself (C37_exact)."
  },
  {
   "property": "C38",
   "status": "proved",
   "theorems": [
    "C38_available",
    "C38_exact"
   ],
   "note": ""
  },
  {
   "property": "C39",
   "status": "proved",
   "theorems": [
    "C39_safe",
    "C39_limits"
   ],
   "note": ""
  },
  {
   "property": "C40",
   "status": "partial",
   "theorems": [
    "C40_partial",
    "C40_refuted",
    "C40_exact"
   ],
   "note": "Refuted: an overdrawn envelope is refilled even if the money is not available. Proved for accounts without overdrawn envelopes; C40_exact gives the exact condition for one envelope: it gets more than is available if and only if it is filled automatically and owes more than that, and then it gets just what it owes."
  },
  {
   "property": "C41",
   "status": "proved",
   "theorems": [
    "C41_zero",
    "C41_converse"
   ],
   "note": ""
  },
  {
   "property": "C42",
   "status": "proved",
   "theorems": [
    "C42_touched",
    "C42_second_run",
    "C42_nothing_refuted"
   ],
   "note": "C42_nothing_refuted shows that the stronger claim (no posting at all the second time) is false: an envelope that got nothing can receive a rounding error."
  },
  {
   "property": "C43",
   "status": "proved",
   "theorems": [
    "C43_no_crash",
    "C43_available_knows"
   ],
   "note": "C43_no_crash is for days before the last year of chrono's range (262142), where computing due dates may overflow."
  },
  {
   "property": "C44",
   "status": "proved",
   "theorems": [
    "C44_monthly"
   ],
   "note": ""
  },
  {
   "property": "C45",
   "status": "proved",
   "theorems": [
    "C45_weekly"
   ],
   "note": ""
  },
  {
   "property": "C46",
   "status": "partial",
   "theorems": [
    "C46_partial",
    "C46_refuted",
    "C46_exact"
   ],
   "note": "Refuted for starting dates in the future (the first date is skipped or dates before the start are given). Proved for starting dates up to today. C46_exact: it is right exactly for these, and from 27 to 14 days before the start."
  },
  {
   "property": "C47",
   "status": "proved",
   "theorems": [
    "C47_bimonthly"
   ],
   "note": ""
  },
  {
   "property": "C48",
   "status": "partial",
   "theorems": [
    "C48_partial",
    "C48_refuted",
    "C48_exact"
   ],
   "note": "Refuted: only one year is ever added, and 29 February gives no date. Proved: the date is right exactly when it is still in the future. C48_exact includes 29 February."
  },
  {
   "property": "C49",
   "status": "partial",
   "theorems": [
    "C49_partial",
    "C49_early_days_partial",
    "C49_annual_partial",
    "C49_refuted",
    "C108_last"
   ],
   "note": "Refuted: panics, future dates and two-year gaps exist. Proved for started weekly, biweekly, monthly and bimonthly frequencies, with the exact panic condition. C108_last gives the exact result for every frequency and start."
  },
  {
   "property": "C50",
   "status": "proved",
   "theorems": [
    "C50_bar"
   ],
   "note": ""
  },
  {
   "property": "C51",
   "status": "proved",
   "theorems": [
    "C51_order"
   ],
   "note": "For days before the last year of chrono's range (262142)."
  },
  {
   "property": "C52",
   "status": "proved",
   "theorems": [
    "C52_register",
    "C52_shown",
    "C52_exactly"
   ],
   "note": ""
  },
  {
   "property": "C53",
   "status": "proved",
   "theorems": [
    "C53_running_total",
    "C53_exact"
   ],
   "note": ""
  },
  {
   "property": "C54",
   "status": "proved",
   "theorems": [
    "C54_layout",
    "C54_first_block",
    "C54_unique",
    "C54_expansion",
    "C54_across_fields"
   ],
   "note": "C54_across_fields: a pattern may match across two neighbouring fields, as the fields are joined without separator."
  },
  {
   "property": "C55",
   "status": "proved",
   "theorems": [
    "C55_root",
    "C55_block"
   ],
   "note": ""
  },
  {
   "property": "C56",
   "status": "proved",
   "theorems": [
    "C56_reset",
    "C56_succeeds"
   ],
   "note": "`fields` has no default and cannot be reset (an error)."
  },
  {
   "property": "C57",
   "status": "partial",
   "theorems": [
    "C57_meaning_partial",
    "C57_refuted"
   ],
   "note": "Refuted: in %a%b%c% the text between two references may be taken for a reference to b, depending on hash-map order. Proved when no text between two references is, after substitution, the name of a field."
  },
  {
   "property": "C58",
   "status": "proved",
   "theorems": [
    "C58_two_postings",
    "C58_completed"
   ],
   "note": ""
  },
  {
   "property": "C59",
   "status": "partial",
   "theorems": [
    "C59_reload_partial",
    "C59_rounded_partial",
    "C59_refuted"
   ],
   "note": "Refuted: the completing posting may name an account that is not defined. Proved when the imported entries use defined accounts, texts that fit on a journal line and amounts of at most eight decimals, with a date format that tells the date and writes neither white space nor comment marks. C59_rounded_partial: with more decimals the journal is read as if the amounts had been rounded to eight."
  },
  {
   "property": "C60",
   "status": "proved",
   "theorems": [
    "C60_prefix"
   ],
   "note": ""
  },
  {
   "property": "C61",
   "status": "proved",
   "theorems": [
    "C61_accepted",
    "C61_rejected"
   ],
   "note": ""
  },
  {
   "property": "C62",
   "status": "proved",
   "theorems": [
    "C62_chosen",
    "C62_loaded",
    "C62_none"
   ],
   "note": ""
  },
  {
   "property": "C63",
   "status": "proved",
   "theorems": [
    "C63_date_text",
    "C63_valid",
    "C63_short_year"
   ],
   "note": "Formats with times of day or zones cannot write a date (C109)."
  },
  {
   "property": "C64",
   "status": "proved",
   "theorems": [
    "C64_calendar"
   ],
   "note": ""
  },
  {
   "property": "C65",
   "status": "partial",
   "theorems": [
    "C65_partial",
    "C65_exact",
    "C65_refuted"
   ],
   "note": "Refuted: an expense and a goal of the same name both receive the posting. Proved within one kind; C65_exact: two envelopes are reached if and only if an expense and a goal have the name."
  },
  {
   "property": "C66",
   "status": "partial",
   "theorems": [
    "C66_partial",
    "C66_refuted",
    "C66_close"
   ],
   "note": "Refuted: rounding leaves a cell empty for targets such as 51.28. Proved: monotone, empty up to zero, full from a whole-number target on; for all targets every cell whose exact position is more than one part in 2^51 away from the amount is right (C66_close)."
  },
  {
   "property": "C67",
   "status": "partial",
   "theorems": [
    "C67_order_partial",
    "C67_refuted"
   ],
   "note": "Refuted: the order of the postings is the order of the map. Proved: the entries are the same up to the order of their postings, for names and values without '%' and rule texts as in C57."
  },
  {
   "property": "C68",
   "status": "proved",
   "theorems": [
    "C68_append_only",
    "C68_journal"
   ],
   "note": ""
  },
  {
   "property": "C69",
   "status": "partial",
   "theorems": [
    "C69_absolute_partial",
    "C69_refuted",
    "C69_exact"
   ],
   "note": "Refuted: relative paths are looked up from the directory of the journal. Proved for absolute paths and rules that include no other file. C69_exact: they are looked up from the directory of the file read last."
  },
  {
   "property": "C70",
   "status": "proved",
   "theorems": [
    "C70_read",
    "C70_mark",
    "C70_import"
   ],
   "note": "About the csv library, whose sources are not in the repository; its behaviour is modelled in Csv.v."
  },
  {
   "property": "C71",
   "status": "proved",
   "theorems": [
    "C71_balance",
    "C71_shown"
   ],
   "note": "What a posting is worth is that of C23: a blank posting that is the first to its account counts as zero, and envelope postings are included."
  },
  {
   "property": "C72",
   "status": "proved",
   "theorems": [
    "C72_envelopes",
    "C72_shown",
    "C72_sum"
   ],
   "note": "C72_shown: for days before the last year of the calendar."
  },
  {
   "property": "C73",
   "status": "partial",
   "theorems": [
    "C73_exact",
    "C73_partial",
    "C73_refuted"
   ],
   "note": "Refuted: rows are misaligned for texts with characters outside ASCII. Proved for ASCII texts; C73_exact: for entries whose texts have no line breaks, the rows are aligned if and only if every entry that takes several lines has ASCII characters only in the columns before the amounts."
  },
  {
   "property": "C74",
   "status": "partial",
   "theorems": [
    "C74_entry_partial",
    "C74_happens",
    "C74_refuted"
   ],
   "note": "Refuted as a whole: a field with percent signs is itself taken for a reference (C74_refuted). Proved for fields without '%' and rule texts in which every '%' is part of a reference, as in C57."
  },
  {
   "property": "C75",
   "status": "proved",
   "theorems": [
    "C75_sets",
    "C75_accepts"
   ],
   "note": "The reset value '-' is C56's."
  },
  {
   "property": "C76",
   "status": "proved",
   "theorems": [
    "C76_printed",
    "C76_only",
    "C76_import",
    "C76_balance"
   ],
   "note": ""
  },
  {
   "property": "C77",
   "status": "proved",
   "theorems": [
    "C77_load",
    "C77_run",
    "C77_absolute",
    "C77_plain",
    "C77_rules_cycle"
   ],
   "note": ""
  },
  {
   "property": "C78",
   "status": "proved",
   "theorems": [
    "C78_reads",
    "C78_only",
    "C78_crash"
   ],
   "note": ""
  },
  {
   "property": "C79",
   "status": "partial",
   "theorems": [
    "C79_partial",
    "C79_exact",
    "C79_ignored",
    "C79_refuted"
   ],
   "note": "Refuted: the named day is ignored, only the start counts. Proved when the start itself falls on the named day and is not in the future. C79_exact: for every start, the due dates are on the weekday, or the day of the month, of the start."
  },
  {
   "property": "C80",
   "status": "proved",
   "theorems": [
    "C80_says",
    "C80_same",
    "C80_by_due"
   ],
   "note": "For names other than `by` and `starting`, in the plain layout `kind name word rest`; C80_by_due for date formats that begin with a number."
  },
  {
   "property": "C81",
   "status": "partial",
   "theorems": [
    "C81_partial",
    "C81_refuted",
    "C81_exact"
   ],
   "note": "Refuted: a start in the future is returned as the due date, whatever its day. Proved for starts up to today or on a due day. C81_exact: it is right exactly if the start is not after the next regular due date, or on a due day."
  },
  {
   "property": "C82",
   "status": "partial",
   "theorems": [
    "C82_partial",
    "C82_start",
    "C82_refuted"
   ],
   "note": "Refuted: an envelope with a start date and a past or no due date is next due on its start, however long ago. Proved without start date; C82_start is the exact behaviour with one."
  },
  {
   "property": "C83",
   "status": "partial",
   "theorems": [
    "C83_partial",
    "C83_line",
    "C83_refuted"
   ],
   "note": "Refuted: a journal with a false assertion is accepted. Proved instead: journals that differ only in assertions give the same reports, and later text is read in the same way."
  },
  {
   "property": "C84",
   "status": "partial",
   "theorems": [
    "C84_partial",
    "C83_partial",
    "C84_refuted"
   ],
   "note": "Refuted: the two are shown apart. Proved instead: the setting changes nothing else in the ledger, and no report and no later text depends on it (C83_partial)."
  },
  {
   "property": "C85",
   "status": "partial",
   "theorems": [
    "C85_partial",
    "C85_short",
    "C85_refuted"
   ],
   "note": "Refuted: the short form is always an error, the long form is read as account, name. Proved: `envelope <account> <name> <amount>` is read as such."
  },
  {
   "property": "C86",
   "status": "partial",
   "theorems": [
    "C86_partial",
    "C86_refuted"
   ],
   "note": "Refuted for filling when money is short: goals come first. Proved for each envelope by itself: definition, movements, due dates, filling from the same available amount, display."
  },
  {
   "property": "C87",
   "status": "partial",
   "theorems": [
    "C87_help",
    "C87_partial",
    "C87_refuted"
   ],
   "note": "Refuted as a whole: `new` never succeeds (C87_refuted). Proved: the help text, its commands and how they are understood; that the others succeed on readable journals is C76_printed and C76_import."
  },
  {
   "property": "C88",
   "status": "partial",
   "theorems": [
    "C88_partial",
    "C88_error",
    "C88_refuted"
   ],
   "note": "Refuted as a whole: every error ends with status 0. Proved: the status is 101 exactly on a crash and 0 otherwise."
  },
  {
   "property": "C89",
   "status": "partial",
   "theorems": [
    "C89_partial",
    "C89_crashes",
    "C89_no_terminal",
    "C89_refuted"
   ],
   "note": "Refuted as a whole: C89_crashes has thirteen journals and imports that crash, one for each condition of `sound_journal` and `sound_import`. Proved: with a date within the calendar, a terminal for the register, and files that satisfy these conditions, no run crashes."
  },
  {
   "property": "C90",
   "status": "proved",
   "theorems": [
    "C90_most",
    "C90_account"
   ],
   "note": ""
  },
  {
   "property": "C91",
   "status": "proved",
   "theorems": [
    "C91_share",
    "C91_daily",
    "C91_just_in_time"
   ],
   "note": ""
  },
  {
   "property": "C92",
   "status": "partial",
   "theorems": [
    "C92_partial",
    "C92_refuted",
    "C92_exact"
   ],
   "note": "Refuted as a whole: C92_refuted shows the journal after three daily runs, with the whole target moved three times. Proved: within the target, up to a relative rounding error of 2^-51 (and exactly when target minus savings is exact), for envelopes that owe nothing, with savings between zero and the target, and no last due date in the future; C92_exact: a filling counts for the next due date if and only if the last due date is not in the future."
  },
  {
   "property": "C93",
   "status": "partial",
   "theorems": [
    "C93_compartments",
    "C93_partial",
    "C93_refuted",
    "C93_exact"
   ],
   "note": "Refuted as a whole: in C93_refuted money saved three due dates ago is not ready. Proved: for every frequency, with the date that the program takes for the last due date (C93_compartments); that date is the last due date for one-time and weekly envelopes, monthly ones up to the 28th, every other week once started, and every other month up to the 28th once started and not on the due day (C93_partial). C93_exact: the exact condition for each frequency; never for yearly ones."
  },
  {
   "property": "C94",
   "status": "proved",
   "theorems": [
    "C94_as_written"
   ],
   "note": ""
  },
  {
   "property": "C95",
   "status": "partial",
   "theorems": [
    "C95_inferred_partial",
    "C95_account_partial",
    "C95_balance_partial",
    "C95_running_partial",
    "C95_refuted"
   ],
   "note": "Refuted as a whole: 0.3 - 0.1 - 0.2 is shown as -0, and 90000000.1 - 90000000 as 0.09999999 (C95_refuted). Proved: exact, up to the sign of zero, if the number of amounts that were added up, times a bound on all sums along the way in units of 10^-8, is at most 2^47 (2^48 for one inferred amount)."
  },
  {
   "property": "C96",
   "status": "proved",
   "theorems": [
    "C96_text",
    "C96_run"
   ],
   "note": "The order of the accounts, which the program takes from a hash map, is left open."
  },
  {
   "property": "C97",
   "status": "partial",
   "theorems": [
    "C97_partial",
    "C97_error",
    "C97_refuted"
   ],
   "note": "Refuted as a whole: a title line makes the import fail although it is to be skipped. Proved: the exact condition, namely that the records to import have as many fields as the first record of the file."
  },
  {
   "property": "C98",
   "status": "partial",
   "theorems": [
    "C98_last",
    "C98_partial",
    "C98_exact",
    "C98_refuted"
   ],
   "note": "Refuted as a whole: an older entry that is added later makes a second run of the day fill again. Proved: the date remembered is that of the last move in file order, and the property holds if the entries stand in order of their dates and none is in the future. C98_exact: if the last move in the file is not of today, the envelope is filled like one that was never touched."
  },
  {
   "property": "C99",
   "status": "partial",
   "theorems": [
    "C99_reports",
    "C99_partial",
    "C99_decimals_partial",
    "C99_refuted",
    "C99_moves_refuted"
   ],
   "note": "Refuted for the envelope report and the moves. Proved: the balance and the register are the same if the entries of each day keep their order; all accounts and envelopes hold the same amounts after any reordering of entries, if the amounts are whole numbers of up to 2^53 in total; amounts of up to 8 decimals are shown the same (except for the sign of zero) as long as (number of amounts) * (sum of their sizes) is at most 2^47 units of 10^-8. Missing: larger sums, where rounding depends on the order."
  },
  {
   "property": "C100",
   "status": "partial",
   "theorems": [
    "C100_partial",
    "C100_blank",
    "C100_decimals_partial",
    "C100_blank_decimals",
    "C100_refuted"
   ],
   "note": "Refuted for entries with envelope postings. Proved for amounts that are whole numbers of up to 2^53 in total: the sum over all accounts is zero if the real amounts of each entry sum to zero, which they do in an entry of one currency with one amount left out and without envelope postings. The same for the amounts shown, for decimals within the bounds of C99. Missing: larger sums, where rounding leaves a difference."
  },
  {
   "property": "C101",
   "status": "partial",
   "theorems": [
    "C101_parts",
    "C101_text",
    "C101_partial",
    "C101_lost",
    "C101_refuted"
   ],
   "note": "Refuted as a whole. Proved: a journal can be cut in two before any line that is not indented; if all files are in one directory, no file includes the journal, and neither the included text nor what follows the line begins with an indented line, then the ledger is the same, with any includes elsewhere. C101_lost: indented lines below an `include` line are ignored."
  },
  {
   "property": "C102",
   "status": "proved",
   "theorems": [
    "C102_explained",
    "C102_text",
    "C102_quotes",
    "C102_places",
    "C102_run",
    "C102_validation"
   ],
   "note": "Texts that come from libraries (the operating system, chrono, csv) are a parameter. Panic messages are not modelled."
  },
  {
   "property": "C103",
   "status": "partial",
   "theorems": [
    "C103_reason",
    "C103_run",
    "C103_quoted",
    "C103_verbatim_refuted"
   ],
   "note": "Refuted as a verbatim quotation. C103_quoted: the text in which an entry is quoted (years 0 to 9999). Proved: every quoted value is a part of a chunk of a file of the journal, an amount up to blanks and double dashes, an entry as the program prints it, a path as given in an include. The errors of `import` are C106."
  },
  {
   "property": "C104",
   "status": "partial",
   "theorems": [
    "C104_undefined_partial",
    "C104_defined_refuted",
    "C104_valid_refuted"
   ],
   "note": "Refuted as a whole. Proved: the account stands in a posting, and is not defined above in the same file."
  },
  {
   "property": "C105",
   "status": "proved",
   "theorems": [
    "C105_continued",
    "C105_prefix"
   ],
   "note": "Under the assumption that no file of the journal includes the journal itself (otherwise loading does not end, C31)."
  },
  {
   "property": "C106",
   "status": "proved",
   "theorems": [
    "C106_reason"
   ],
   "note": "Under the assumption on hash maps that iterating one yields only its own pairs."
  },
  {
   "property": "C107",
   "status": "proved",
   "theorems": [
    "C107_white",
    "C107_words",
    "C107_trim",
    "C107_lines",
    "C107_paths",
    "C107_files"
   ],
   "note": "About functions of the Rust library as modelled in Str.v and World.v; paths are resolved without symbolic links."
  },
  {
   "property": "C108",
   "status": "proved",
   "theorems": [
    "C108_next",
    "C108_last"
   ],
   "note": "For days between the years -262139 and 262142."
  },
  {
   "property": "C109",
   "status": "proved",
   "theorems": [
    "C109_timed",
    "C109_formats",
    "C109_not_written"
   ],
   "note": "Formats of chrono 0.4.41 as known; years 0 to 9999 for reading."
  },
  {
   "property": "C110",
   "status": "proved",
   "theorems": [
    "C110_same",
    "C110_read",
    "C110_once"
   ],
   "note": "For file systems without symbolic links, and paths that do not end in `..`."
  },
  {
   "property": "C111",
   "status": "proved",
   "theorems": [
    "C111_says",
    "C111_exact",
    "C111_default",
    "C111_entry"
   ],
   "note": "Formats of chrono 0.4.41 as known."
  },
  {
   "property": "C112",
   "status": "partial",
   "theorems": [
    "C112_again_partial",
    "C112_same_partial",
    "C112_refuted"
   ],
   "note": "Full statement refuted: the currency `//`, from an envelope with `amount /5/`, is written so that it starts a comment, and the journal cannot be loaded any more. Proved for currencies and amounts that can be written (`writable`), date formats that tell the date in one word, years 0 to 9999, and journals that are found again at the same path after loading (see C29). Included files may be anything that can be loaded; that the journal does not include itself is proved, not assumed. File systems without symbolic links, paths that do not end in `..`."
  },
  {
   "property": "C113",
   "status": "partial",
   "theorems": [
    "C113_twice_partial",
    "C113_refuted"
   ],
   "note": "Full statement refuted: with a relative path the entry can go to another file, and the second run moves the same money again. Proved under the conditions of C112."
  },
  {
   "property": "C114",
   "status": "partial",
   "theorems": [
    "C114_real",
    "C114_balance",
    "C114_whole",
    "C114_register",
    "C114_refuted"
   ],
   "note": "Refuted: 100 in an account and 10 moved to an envelope are shown as 110, in both reports. Proved: the value of every account stays the same (C114_real); in the balance report exactly the moved amounts are added, between those of the days before and after, for accounts used up to today, and nothing changes for accounts without moves (C114_balance), so that for whole numbers up to 2^53 the balance is too large by just the sum moved (C114_whole); the register has the same rows and one more, unless the moves in focus sum to zero (C114_register)."
  },
  {
   "property": "C115",
   "status": "proved",
   "theorems": [
    "C115_loading",
    "C115_reports",
    "C115_register",
    "C115_run"
   ],
   "note": "Headers must be well formed (a status and paired brackets) and their date word must not be one of the four keywords. For imports, the rules and the table must be the same. (The README says that the payee can be queried: no output depends on it.)"
  },
  {
   "property": "C116",
   "status": "partial",
   "theorems": [
    "C116_exact",
    "C116_refuted"
   ],
   "note": "Refuted: of two units sold for 50 each, less a fee of 1, the journal with `@ 50` receives 99 and the one with `= 100` pays 101. Proved: the same worth for positive amounts and exactly the opposite for negative ones."
  },
  {
   "property": "C117",
   "status": "partial",
   "theorems": [
    "C117_written",
    "C117_exact",
    "C117_beside",
    "C117_refuted"
   ],
   "note": "Refuted: the journal is refused without the cost of 100, and loaded with it. Proved: a worth exists only where a price without symbol is written; an entry that concerns an envelope is accepted only if every amount is in its currency or has such a price and stands in another account (C117_exact); such postings do not count (C117_beside)."
  },
  {
   "property": "C118",
   "status": "partial",
   "theorems": [
    "C118_loading",
    "C118_run",
    "C118_refuted"
   ],
   "note": "Refuted: a tab after `amount`, a comment after the first line of an envelope, or two spaces before `every` make the journal unreadable. Proved for entries, keyword lines, and the indentation and the gaps in definitions of accounts (SpecLayout), for loading and for whole runs."
  },
  {
   "property": "C119",
   "status": "partial",
   "theorems": [
    "C119_loading",
    "C119_run",
    "C119_moves",
    "C119_refuted"
   ],
   "note": "Refuted for the order of envelopes (money goes to the one defined last). Proved for accounts with different names and for settings, for loading and for whole runs; `register` only with --no-move (it lists the lines of a move in their order). Not claimed: that both runs fail in the same way (an error or a crash)."
  },
  {
   "property": "C120",
   "status": "partial",
   "theorems": [
    "C120_again_partial",
    "C120_refuted"
   ],
   "note": "Refuted for amounts with more than eight decimals (balance 1100, then 1099.99999999). Proved where the envelope amounts of that day are written exactly, and the path of the journal still leads to it after loading; C121 gives journals for which that is so."
  },
  {
   "property": "C121",
   "status": "proved",
   "theorems": [
    "C121_moves",
    "C121_written",
    "C121_settled"
   ],
   "note": "The path of the journal must still lead to it after loading, and the currencies of the envelopes must be readable when written (as in C112, C113). Example C121_large shows why there is a bound."
  },
  {
   "property": "C122",
   "status": "partial",
   "theorems": [
    "C122_load_partial",
    "C122_reports_partial",
    "C122_reports",
    "C122_money",
    "C122_refuted"
   ],
   "note": "The partial theorems allow one of the two runs to crash; C122_refuted is a journal that is shown on one day and crashes on another. C122_reports has no such exception, for the journals of C89. With fractions the money in an envelope can differ by rounding."
  },
  {
   "property": "C123",
   "status": "proved",
   "theorems": [
    "C123_accounts",
    "C123_reports"
   ],
   "note": "For two journals that load; an entry that cannot be read or processed makes the whole journal unreadable (C105)."
  },
  {
   "property": "C124",
   "status": "partial",
   "theorems": [
    "C124_parts_partial",
    "C124_tables_partial",
    "C124_refuted"
   ],
   "note": "For first parts that succeed and whose entries can be written down (writable_entry) with amounts of at most eight decimals; C124_refuted is a csv file that can be imported at once but not in two parts. The csv file and the rules must not be the journal itself."
  },
  {
   "property": "C125",
   "status": "partial",
   "theorems": [
    "C125_record_partial",
    "C125_rules",
    "C125_run_partial",
    "C125_refuted"
   ],
   "note": "For records to which the same blocks apply before and after, and templates in which nothing is taken for a reference by chance (C57); the `fields` line is the first of the rules, the only one, and nothing is included. C125_refuted exchanges two columns such that a pattern is no longer found across their border."
  },
  {
   "property": "C126",
   "status": "proved",
   "theorems": [
    "C126_valid",
    "C126_entry",
    "C126_entries",
    "C126_moves",
    "C126_totals",
    "C126_register"
   ],
   "note": "About entries and ledgers in memory; C126_case compares two journals as texts."
  },
  {
   "property": "C127",
   "status": "proved",
   "theorems": [
    "C127_blank",
    "C127_real",
    "C127_totals",
    "C127_register",
    "C127_cancel",
    "C127_envelopes"
   ],
   "note": "C127_real and C127_cancel are for entries that are accepted both ways. C127_envelopes is the part about envelopes: an entry and its opposite take money out of the envelope twice."
  },
  {
   "property": "C128",
   "status": "partial",
   "theorems": [
    "C128_money_partial",
    "C128_balance_partial",
    "C128_refuted"
   ],
   "note": "C128_money_partial is the part about the money in accounts and envelopes (the day on which an envelope was last used may change). The part about the balance report is false: a blank amount that comes first to its account is counted as nothing, and an earlier entry in another currency makes it count (C128_refuted). It holds for accounts whose first posting has an amount (C128_balance_partial)."
  },
  {
   "property": "C129",
   "status": "partial",
   "theorems": [
    "C129_valid",
    "C129_blank",
    "C129_partial",
    "C129_refuted"
   ],
   "note": "C129_valid, C129_blank and C129_partial are everything up to the balance report, for whole numbers of 2^52 in total and at most one amount left out per entry. The part about the balance report is false: a blank posting that comes first to its account is counted as nothing, so two lines that change places change the balances shown (C129_refuted)."
  },
  {
   "property": "C130",
   "status": "proved",
   "theorems": [
    "C130_entries"
   ],
   "note": "For whole numbers, of 2^52 in total, with at most one amount left out per entry; beyond that the additions round."
  },
  {
   "property": "C131",
   "status": "proved",
   "theorems": [
    "C131_more"
   ],
   "note": "For all finite and infinite holdings; the amounts of the envelopes are at most 10^300, so that their sums are finite."
  },
  {
   "property": "C132",
   "status": "partial",
   "theorems": [
    "C132_order",
    "C132_order_partial",
    "C132_partial",
    "C132_refuted"
   ],
   "note": "The due dates of a frequency never move back (C132_order); with the start of the envelope they do not unless the frequency has come to its end (C132_order_partial); and a due date of the frequency stays until it is reached, but for fortnights that have not started (C132_partial). Without these conditions it is false (C132_refuted): every other Friday starting 2024/03/15 is due on the 15th when asked on 1 March, and on the 29th when asked on 2 March; a weekly envelope is due on its start, until the week is over; and a one-time date that has passed is replaced by the start, which is earlier."
  },
  {
   "property": "C133",
   "status": "proved",
   "theorems": [
    "C133_balances"
   ],
   "note": "Conditions: no envelopes or includes in the journal, the sums of the amounts stay below a bound under which no decimal is lost (or are whole numbers below 2^51 units of 10^-8), and a posting without an amount is not the first of its account, as C23 shows what happens then."
  },
  {
   "property": "C134",
   "status": "partial",
   "theorems": [
    "C134_partial",
    "C134_refuted"
   ],
   "note": "Proved under the conditions of C133, in particular that a posting without an amount is not the first of its account. C134_refuted: a journal with the single entry food 12.25, cash (left out) prints 12.25 and 0."
  },
  {
   "property": "C135",
   "status": "proved",
   "theorems": [
    "C135_register"
   ],
   "note": "Conditions: a terminal, no envelopes or includes in the journal, and the numbers behind the asset accounts, for each currency, below a bound under which no decimal is lost. Of the other columns it only says that the date stands first; C52 has them. The order of entries of one day is in C20."
  },
  {
   "property": "C136",
   "status": "partial",
   "theorems": [
    "C136_partial",
    "C136_refuted"
   ],
   "note": "Proved under the conditions of C133 and C135, in particular that a posting without an amount is not the first of its account. C136_refuted: with the single entry food 12.25, assets:cash (left out), the register ends with -12.25 and the balance of assets:cash is 0."
  },
  {
   "property": "C137",
   "status": "partial",
   "theorems": [
    "C137_rows",
    "C137_partial",
    "C137_order",
    "C137_refuted"
   ],
   "note": "C137_rows: the same accounts in the same order with the same currencies and the same texts for all totals but zero. C137_partial and C137_order: equal output if every account has one currency and a total that is not zero. C137_refuted: two entries of one day in different currencies, exchanged."
  },
  {
   "property": "C138",
   "status": "proved",
   "theorems": [
    "C138_added",
    "C138_reversed"
   ],
   "note": "Under the conditions of C133 for both journals."
  },
  {
   "property": "C139",
   "status": "proved",
   "theorems": [
    "C139_names"
   ],
   "note": "Under the conditions of C133 for the first journal; the second one is typed in the same form."
  },
  {
   "property": "C140",
   "status": "proved",
   "theorems": [
    "C140_read"
   ],
   "note": "Under the conditions of C133 for both journals. The converse of C137."
  },
  {
   "property": "C141",
   "status": "proved",
   "theorems": [
    "C141_files",
    "C141_register"
   ],
   "note": "With the conditions of C133 and C135 on the amounts. Relative paths are left out (C29, C69)."
  }
 ]
}
