# silverfox in Rocq: design

Code under study: `/repo` (silverfox, Rust). This directory holds a functional
model of it in Coq 8.16.1 and machine-checked proofs of the properties in
`properties.jsonl`. The Rust program is read as text only.

## 1. Layout

All Coq files are in `rocq/theories/`.

| files | content |
|---|---|
| `Base` | result type with explicit `Panic` and `Loop` outcomes, the errors with the values they quote |
| `Errors` | errors.rs: contexts, messages and `Display` |
| `Str` | strings as lists of Unicode scalar values, the Rust `str` and `char` methods that the code calls |
| `F64` | IEEE-754 binary64 on top of the standard library's `SpecFloat` (no axioms), decimal reading and printing |
| `Date` | chrono's `NaiveDate`: validity, day numbers, weekday, formats |
| `World` | files, directories, current directory |
| `Amount`, `Posting`, `Entry`, `Envelope`, `Account`, `Register`, `Ledger`, `Importer`, `Cli` | the model: one file per Rust source file, function by function, each definition citing file and lines (`Cli` is flags.rs and main.rs) |
| `Csv` | the automaton of the csv library |
| `SpecAmount`, `SpecDate`, `SpecEntry`, `SpecEnvelope`, `SpecLedger`, `SpecRegister`, `SpecImport`, `SpecCli`, `SpecReport`, `SpecRules`, `SpecRun`, `SpecDefinition`, `SpecReadme`, `SpecCsv`, `SpecCrash`, `SpecMoves`, `SpecFunding`, `SpecHistory`, `SpecTotals`, `SpecOrder`, `SpecConserve`, `SpecInclude`, `SpecErrors`, `SpecImportErrors`, `SpecText`, `SpecDecimals`, `SpecDue`, `SpecTime`, `SpecUnfold`, `SpecRead`, `SpecAgain` | the vocabulary of the theorems: relations and predicates written without the model's helper functions |
| `*Facts`, `F64Text`, `F64Round`, `AmountParse`, `DateBasics`, `DateFormat`, `EntryText` | proofs |
| `PropertiesX` | the theorems named in `MANIFEST.json`, with `Print Assumptions` and a concrete instance beside each |
| `ModelTests` | the repository's unit tests, run on the model (tests only) |

Where the theorems are:

| file | properties |
|---|---|
| `PropertiesAmount` | C01–C09 |
| `PropertiesEntry` | C10–C19, C63 |
| `PropertiesLedger` | C20–C31 |
| `PropertiesEnvelope` | C33–C43, C50, C51, C65, C66 |
| `PropertiesDate` | C44–C49, C64 |
| `PropertiesRegister` | C52, C53 |
| `PropertiesImport` | C54–C60, C67 |
| `PropertiesCli` | C32, C61, C62, C68, C69 |
| `PropertiesCsv` | C70 |
| `PropertiesReport` | C71–C73 |
| `PropertiesRules` | C74, C75 |
| `PropertiesRun` | C76, C87, C88 |
| `PropertiesEnd` | C77 |
| `PropertiesDefinition` | C78–C81 |
| `PropertiesReadme` | C82–C86 |
| `PropertiesCrash` | C89 |
| `PropertiesMoves` | C96 |
| `PropertiesSkip` | C97 |
| `PropertiesOnce` | C98 |
| `PropertiesOrder` | C99 |
| `PropertiesConserve` | C100 |
| `PropertiesInclude` | C101 |
| `PropertiesErrors` | C102–C105 |
| `PropertiesImportErrors` | C106 |
| `PropertiesText` | C107 |
| `PropertiesDecimals` | C99, C100 for decimals |
| `PropertiesDue` | C108; exact conditions of C46, C48, C81, C93 |
| `PropertiesTime` | C109 |
| `PropertiesDateRead` | C111 |
| `PropertiesBeside` | C114 |
| `PropertiesWords` | C115 |
| `PropertiesCost` | C116, C117 |
| `PropertiesLayout` | C118 |
| `PropertiesArrange` | C119 |
| `PropertiesRepeat` | C120 |
| `SpecWhole`, `WholeFacts`, `WholeAgain`, `PropertiesWhole` | C121 |
| `SpecDay`, `DayFacts`, `PropertiesDay` | C122 |
| `SpecFrame`, `PropertiesFrame` | C123 |
| `SpecParts`, `PropertiesParts` | C124 |
| `SpecColumns`, `PropertiesColumns` | C125 |
| `SpecNames`, `PropertiesNames` | C126 |
| `SpecTurn`, `PropertiesTurn` | C127 |
| `SpecCoins`, `PropertiesCoins` | C128 |
| `SpecGroup`, `PropertiesGroup` | C129 |
| `SpecScale`, `PropertiesScale` | C130 |
| `SpecMore`, `PropertiesMore` | C131 |
| `PropertiesStay` | C132 |
| `SpecTyped`, `TypedFacts`, `PropertiesTyped` | C133 |
| `SpecZero`, `PropertiesZero` | C134 |
| `SpecRows`, `PropertiesRows` | C135 |
| `SpecAgree`, `PropertiesAgree` | C136 |
| `SpecSame`, `PropertiesSame` | C137 |
| `SpecAdded`, `PropertiesAdded` | C138 |
| `SpecRenamed`, `PropertiesRenamed` | C139 |
| `SpecQuoted`, `PropertiesQuoted` | C102 (texts for invalid entries), C103 (entries in error texts) |
| `PropertiesRead` | C140 |
| `SpecTree`, `PropertiesTree` | C141 |
| `PropertiesCycle` | C31, exact condition |
| `PropertiesAgain` | C112, C113 |
| `PropertiesUnfold` | C110; exact statements for C29, C30, C69 |
| `PropertiesFunding` | C90–C92 |
| `PropertiesExact` | exact conditions of C37, C40, C92; rounding margin of C66 |
| `PropertiesExtent` | how far C17, C59, C65, C79 and C98 fail |
| `PropertiesHistory` | C93 |
| `PropertiesTotals` | C94, C95, and C17 for amounts of any size |

`tools/gen_properties.py` and `tools/gen_manifest.py` write `properties.jsonl`
and `MANIFEST.json`. `seeded/LOG.jsonl` lists deliberate bugs put into copies
of the model, and which theorems caught them. How to read its fields:

* `first_failing` is what was observed: the lemmas or theorems at which Coq stopped.
* `failed` is computed, not observed. It lists the property theorems whose proofs
  use something in `first_failing`, by the references in the `.glob` files of a late
  version of this development. So it can name theorems written after the attempt.
  No theorem in it was seen to fail one by one unless it is also in `first_failing`.
* A proof that breaks does not show that its statement is false for the edited
  model. The script may only have depended on the shape of the definition.

## 2. Modelling decisions

* **Outcomes.** A Rust function that can fail returns `res A := Ok a | Err e | Panic | Loop`.
  `Panic` is every `unwrap` on `None`/`Err`, slice out of range, `assert_eq!`,
  `unreachable!`, integer underflow (debug build; noted where release differs).
  `Loop` is exhausted fuel, only where the Rust code recurses or loops without
  structural bound (include recursion, the bimonthly `while`).
  An error is a constructor with the values that its text quotes; `Errors.display` is the text.
  The texts of libraries (operating system, chrono, csv) are a parameter of it.
* **f64.** A float is a `SpecFloat.spec_float` with a proof of canonicity for
  binary64 (`valid_binary 53 1024`). Operations are the standard library's
  executable IEEE operations. Flocq (proofs only) connects them to real numbers.
  Reading decimals is a correctly rounded quotient, as Rust guarantees for
  `str::parse::<f64>`. Printing searches the shortest decimal (1..17 digits)
  that reads back; Rust guarantees shortest and round trip. `f64::min/max`
  ignore NaN. One NaN only (sign and payload of NaN not modelled).
* **Strings** are lists of code points (`N`); byte lengths are computed by
  UTF-8 length where the code uses bytes. `char::is_whitespace` is the Unicode
  White_Space set. `to_lowercase` is a parameter of the importer model.
* **Hash maps/sets** are association lists. Where the code iterates over a map,
  the order is a parameter (any rearrangement); order independence is a theorem
  where it holds (C22, C57, C67, C119).
* **Time**: `Local::now().date_naive()` is a parameter `today`, the same during
  a whole run.
* **Dates**: proleptic Gregorian calendar, chrono's range. Formats: `%Y %C %y
  %m %d %e %j %w %u %G %g %V %U %W %q` with the paddings `-`, `_`, `0`; `%b %h
  %B %a %A`, `%D %x %F %v`, `%n %t %%`, white space and literal text, and the
  items for times of day and zones, read and written as chrono 0.4.41 does (signs, leading blanks, case of names, fields checked against
  each other, two-digit years).
* **Files**: a map from absolute paths to text, a set of directories, and a
  current directory.
* **csv**: the importer is modelled for any reader of csv files (a parameter);
  `Csv` models the reader that is used, and C70 puts the two together.
* **Terminal**: printing is the printed text (the program uses no colours); whether there is
  a terminal (`terminal_size`) is an input.

## 3. Per property: what is modelled, how it is proved

* C01, C02 — Amount.v pools; spec is a filter-and-fold over the operation list; induction.
* C03 — Amount.v; case analysis on symbol equality.
* C04 — F64 addition is exact on integers below 2^53 (Flocq `Bplus_correct`, `generic_format`); induction over the list.
* C05 — F64 decimal reading; Flocq `Bdiv_correct_aux` gives rounding of the exact quotient.
* C06 — Amount.v parse; characterisation by separate predicates on the text.
* C07 — F64 printing: accepted candidates read back by construction, exact expansion reads back by correct rounding of a representable number; then string lemmas.
* C08 — real-number error analysis of `round(x*1e8)/1e8`.
* C09 — Str.v; prefix/infix characterisation.
* C10, C19, C63 — round trip lemmas over Posting.v, Entry.v, Date.v, token by token. C63: induction over the pieces of the format; the fields read agree with the date, and fields that agree and suffice determine it.
* C109 — induction over how the date and the time are said. Each item of the time reads its text and sets only fields of the time; the fields of the date are as in C63.
* C110 — mutual induction over the files and their chunks; the converse by induction on the fuel.
* C111 — inversion of each item of the scanner; fields once read are kept and agree with the date; the converse as in C63.
* C112, C113 — the opening of files is well founded when loading succeeds, so another text for the journal changes nothing in the included files; the new text is read by C28; names come from words without comment marks; an entry with rounded amounts is added whenever the exact one is.
* C114 — the entry of the moves is inserted at one place of the sorted list; the sums are split there.
* C115 — a relation between the states of two runs, kept by every step of loading, filling and reporting.
* C116 — multiplication of floats commutes with the sign.
* C117 — an invariant of the loop over the postings: the sums keep the currency of the envelope.
* C118 — cutting into chunks and words gives the same words; then as C115.
* C119 — ledgers with the same accounts in another order stay so; moves are then the same up to the order of accounts, and totals and envelopes only look at one account.
* C120 — by C112 the second run loads what the first reported, but for the comment of the entry; by C115 that is in no report.
* C121 — sizes of all sums bound by the sizes of the entries, so every float operation is exact; what a first filling leaves is what the second finds, and it gets no more than the first left.
* C122 — two loads in step, related up to how envelopes are divided (`divided`); what is moved is planned without the day (`plan`), and whole sums do not depend on where they are put.
* C123 — the two lists of items (C110) are processed in step; an account that an entry does not name is a fixed point of it, and stable sorting commutes with leaving an entry out.
* C124 — the journal after the first part loads to the ledger that the single import has in memory at that point, up to comments (C59), and the remaining records are then treated alike.
* C125 — rules that differ only in the names of the columns read alike from the two rules files, choose the same blocks, and substitute the same values.
* C126 — every function between an entry and the totals commutes with a one-to-one renaming; only equality of names is ever used, but for the focus of the register.
* C127 — the executable float operations commute with negation up to the sign of zero (no real numbers needed); the rest is a relation between two runs. C127_cancel uses exact sums of whole numbers.
* C128 — two runs over the unfolded journals, with the accounts related in one currency only. The balance report is a counterexample (`C128_refuted`).
* C129 — the amount left out, the movements of an envelope and the sums of an account as sums of integers over the postings, which no rewriting changes. The balance report is a counterexample (`C129_refuted`).
* C130 — both lists side by side through every loop, with every amount an integer and every test (sign, comparison, zero) equal on the two sides.
* C131 — a filling amount is max (min x c) d in the available money x; subtraction is monotone; so either both accounts give the same or the poorer one is used up.
* C132 — from the table of C108: the earliest of fewer days is not earlier, and is the same if it is among them. Counterexamples in `C132_refuted`.
* C133 — the typed lines are chunked and parsed to entries that agree with what was typed up to rounding in binary; the error of a sum of n terms is bounded and rounding to eight decimals removes it (as in C95).
* C134 — from C133: the sums over accounts and over entries of what is typed are the same, and every entry gives zero.
* C135 — as C133, with two levels of sums: the error of an entry's sum goes into the bound for the running total. An entry that is left out has a binary sum of zero, so its decimal sum is zero.
* C136 — from C133 and C135: both are sums over the same postings; entries after the last row of a currency change nothing.
* C137 — from C133: a decimal without superfluous zeros is written in one way only, and a list in alphabetical order is determined by its members.
* C138 — from C133 and C137; the amounts of the reverse are the opposite ones, also the inferred one.
* C139 — from C133: the postings for a renamed account in a renamed currency are the renamed ones.
* C140 — from C133: names, lines, numbers and currency signs are cut out of the text in one way, as names have no blanks and currency signs no digits.
* C141 — by induction over the tree of files; the state after each line is that of C133 (`so_far`), the current directory does not matter for full paths.
* C11–C14 — Posting.v/Entry.v; inversion of the parser.
* C15, C16 — Entry.v `get_blank_amount` against a sum spec.
* C17, C18, C23, C26, C29–C31, C37, C40, C46, C48, C49, C57, C59, C65–C67, C69, C73, C74, C79, C81–C89, C92, C93, C95, C97–C101, C112–C114, C116–C120, C122, C124, C125, C128, C129, C132, C134, C136, C137 — false of the code, or only partly provable: where false, a refuting journal or argument list is computed in the model (`…_refuted`), and the strongest true version found is `…_partial`; the note in MANIFEST.json says what is missing.
* C20 — insertion with stable sort; permutation, sortedness, stability.
* C21, C22 — invariant over histories; the account map step is pointwise.
* C24, C25 — Ledger.v chunking against an independent chunk spec.
* C27, C28 — file-system model; C28 composes C24 and C19.
* C32, C68 — Cli.v: effects on files by case analysis, relation "only longer" is transitive.
* C33–C36, C38, C41–C43, C65 — Envelope.v/Account.v; case analysis and invariants over histories.
* C39, C40 — order reasoning on f64 via an order embedding into reals.
* C44–C49, C64 — Date.v calendar arithmetic through day numbers; specs say "earliest date such that".
* C50, C66 — F64 and integer reasoning; C51 — order laws.
* C52, C53 — Register.v against filter/fold specs.
* C54–C60, C67, C74, C75 — Importer.v with parameterised `lower` and iteration order; the layout of rules files is an inductive relation.
* C61, C62 — Cli.v; flags as an inductive relation between meanings and argument lists.
* C70 — the automaton of Csv.v against an inductive grammar of csv files.
* C71–C73 — the printed text of the reports as an inductive relation over the ledger; C73 by character counts.
* C76 — composition of loading, filling and the reports.
* C77 — "no `Loop`" for every function by case analysis, ranks for include recursion.
* C78–C81 — the words of a definition line as inductive relations; inversion of the parser.
* C82–C86 — the README's promises, restated; C83 and C84 by a simulation argument: the functions that forget assertions or the currency setting commute with every step of the program.
* C87, C88 — Cli.v, case analysis.
* C89 — CrashFacts.v: an invariant of the ledger during loading and filling (accounts keep the definitions that stand in a file, every posting has an amount, the date format is valid), and a predicate `wp` for "no panic, and the value satisfies …" that is pushed through every function from the command line down. CrashImport.v does the same for imports: every line of the rules and of the files they include is cut between characters, and the rules are the same as before filling because the journal is another file.
* C90–C92 — FundingFacts.v: the filling amount as a limit of floats; rounding errors by Flocq (`FLT_plus_error_N_ex`, largest float below a difference); induction over the days.
* C93 — induction over the history, from C34–C36; the last due date from C44–C49.
* C94, C95 — DecimalFacts.v: multiples of 10^-8 below 2^51 units have different nearest floats, so the search for the shortest decimal ends with the one that was meant; error bound of repeated f64 addition by induction, with bounds on the exact partial sums.
* C97 — Csv.v and Importer.v, from C70.
* C98 — induction over the history of an envelope.
* C99, C100 — OrderFacts.v: adding entries is pointwise in the accounts and envelopes; sums of whole numbers below 2^53 are exact, hence independent of the order. For decimals (DecimalOrder.v), sums in either order are within a quarter of the last place shown, by the error bound of C95.
* C101 — chunks of a text are the chunks of its parts; independence of the current directory from C30; more fuel does not matter.
* C102–C105 — ErrorFacts.v: a predicate `spoken` for "an error of this function satisfies …" pushed through every function of the parser; C105 by a simulation between two file systems that differ in the journal only.
* C106 — ImportErrorFacts.v: the same predicate through the importer, with the invariant that every text in the rules stands in a line of a rules file.
* C108 — the relations are functional, and the program's results satisfy them (FreqFacts.v, day numbers).
* C107 — induction over texts; each relation is total and functional.

Every property is expressible in the model.

## 4. Trusted base

### Kernel and assumptions

* Coq's kernel (and coqchk).
* Per theorem: what the `Print Assumptions` below it in `Properties*.v` lists.
  These theorems use the standard library's axioms
  `ClassicalDedekindReals.sig_forall_dec`, `ClassicalDedekindReals.sig_not_dec`,
  `FunctionalExtensionality.functional_extensionality_dep` and (through Flocq)
  `Classical_Prop.classic`, or some of them:
  C04_whole_numbers_exact, C05_nearest, C06_accepted_texts, C06_any_symbol,
  C06_symbol_clean, C07_print_parse, C07_eight_decimals,
  C08_short_decimals_stable, C10_posting_round_trip, C15_balances_exactly,
  C17_balanced_partial, C17_any_partial, C19_entry_round_trip, C28_read_back, C37_partial, C37_exact,
  C38_exact, C39_safe, C39_limits, C40_partial, C40_exact, C50_bar, C53_exact,
  C59_reload_partial, C59_rounded_partial, C66_partial, C66_close, C72_shown, C89_partial, C90_most, C90_account, C91_share,
  C91_daily, C91_just_in_time, C92_partial, C92_exact, C94_as_written, C95_inferred_partial,
  C95_account_partial, C95_balance_partial, C95_running_partial, C95_applies,
  C99_partial, C99_decimals_partial, C100_partial, C100_blank, C100_refuted,
  C100_decimals_partial, C100_blank_decimals, C112_again_partial,
  C112_same_partial, C113_twice_partial, C114_whole, C120_again_partial,
  C121_moves, C121_written, C121_settled,
  C122_load_partial, C122_reports_partial, C122_reports, C122_money,
  C124_parts_partial, C124_tables_partial, C127_cancel, C129_valid, C129_blank,
  C129_partial, C129_refuted, C130_entries, C131_more, C133_balances, C134_partial,
  C134_refuted, C135_register, C136_partial, C136_refuted, C137_rows, C137_partial, C137_order, C137_refuted, C138_added, C138_reversed, C139_names, C140_read, C141_files, C141_register.
  All other theorems of MANIFEST.json are closed under the global context.
* No other axioms; no plugin beyond those of the standard library and Flocq's
  tactics is loaded.

### What is modelled

Every function of `src/` that has an effect on what a run reads, writes or
prints, that is: account.rs, amount.rs, entry.rs, envelope.rs, flags.rs,
importer.rs, ledger/mod.rs, ledger/register.rs, main.rs, posting.rs, utils.rs,
but for the list below. The correspondence is by reading, with citations.

### What is not modelled

* Texts of errors that come from libraries, the builder methods of errors.rs
  (inlined), the messages of panics.
* Pure plumbing, inlined: constructors, getters, `Default`, `From`, `Debug`,
  `IntoIterator` (amount.rs, posting.rs, entry.rs, account.rs, envelope.rs),
  `PartialOrd`/`PartialEq` of envelopes (through `Ord`), `parse_weekday`
  (envelope.rs 193–195, a wrapper), `parse_argument_value` (flags.rs 183–191),
  `Iterator::next` of the importer (importer.rs 77–82).
* The terminal's width (asked for, but not used).
* The operating system: permissions, symbolic links, invalid UTF-8, failing
  writes, other processes. Paths such as `x/../y` are resolved lexically, and
  a path that ends in `/` is taken for the file without it.
* What `envelopes` has printed before a panic (possible only where a due date
  is out of the range of dates): the model's output is empty then.
* Two equal maps of variables in the same import are gone through in the same
  order in the model (the order is a function of the pairs, arbitrary
  otherwise); with Rust's seeds it can differ from record to record.
* The sign of the result of `f64::min`/`max` for zeros of different sign, which
  Rust leaves open: the model takes the first argument.
* strftime formats follow chrono 0.4.41 (items of dates, weeks and times of
  day). Not modelled: overflow of the year while an ISO week of a year near
  the end of the 32-bit integers is computed.
* Libraries are modelled from their documentation and sources as known, since
  they are not part of the repository: chrono (dates), csv, Rust's `str`,
  `f64` and `HashMap`.
* Memory: stack overflow (an endless recursion is `Loop`), allocation.
* Arguments that are not valid UTF-8 (`env::args` panics on them).
