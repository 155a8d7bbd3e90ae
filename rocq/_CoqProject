-Q theories Verif
theories/Str.v
theories/Base.v
theories/Errors.v
theories/F64.v
theories/Date.v
theories/World.v
theories/Amount.v
theories/Posting.v
theories/Entry.v
theories/Envelope.v
theories/Account.v
theories/Register.v
theories/Ledger.v
theories/Importer.v
theories/Cli.v
theories/StrFacts.v
theories/F64Facts.v
theories/F64Text.v
theories/F64Round.v
theories/SpecAmount.v
theories/AmountFacts.v
theories/AmountParse.v
theories/PropertiesAmount.v
theories/LineFacts.v
theories/SpecDate.v
theories/DateBasics.v
theories/DateFacts.v
theories/SpecTime.v
theories/SpecRead.v
theories/WeekFacts.v
theories/DateFormat.v
theories/TimeFacts.v
theories/ReadFacts.v
theories/SpecEntry.v
theories/PostingFacts.v
theories/EntryFacts.v
theories/EntryText.v
theories/FreqFacts.v
theories/PropertiesEntry.v
theories/PropertiesDate.v
theories/SpecEnvelope.v
theories/EnvelopeFacts.v
theories/FillFacts.v
theories/AccountFacts.v
theories/BarFacts.v
theories/PropertiesEnvelope.v
theories/SpecLedger.v
theories/LedgerFacts.v
theories/LoadFacts.v
theories/IncludeFacts.v
theories/PropertiesLedger.v
theories/SpecRegister.v
theories/RegisterFacts.v
theories/PropertiesRegister.v
theories/SpecImport.v
theories/ImportFacts.v
theories/RuleFacts.v
theories/SubstFacts.v
theories/ExpandFacts.v
theories/RunFacts.v
theories/PropertiesImport.v
theories/SpecCli.v
theories/PropertiesCli.v
theories/SpecReport.v
theories/PropertiesReport.v
theories/SpecRules.v
theories/PropertiesRules.v
theories/SpecRun.v
theories/PropertiesRun.v
theories/TermFacts.v
theories/PropertiesEnd.v
theories/SpecDefinition.v
theories/DefinitionFacts.v
theories/DueFacts.v
theories/PropertiesDefinition.v
theories/SpecReadme.v
theories/AlikeFacts.v
theories/PropertiesReadme.v
theories/Csv.v
theories/SpecCsv.v
theories/PropertiesCsv.v
theories/SpecCrash.v
theories/CrashFacts.v
theories/CrashImport.v
theories/PropertiesCrash.v
theories/PropertiesTime.v
theories/PropertiesDateRead.v
theories/SpecFunding.v
theories/FundingFacts.v
theories/PropertiesFunding.v
theories/PropertiesExact.v
theories/PropertiesExtent.v
theories/SpecHistory.v
theories/PropertiesHistory.v
theories/SpecTotals.v
theories/DecimalFacts.v
theories/PropertiesTotals.v
theories/ModelTests.v
theories/SpecMoves.v
theories/PropertiesMoves.v
theories/SpecWords.v
theories/WordsFacts.v
theories/SpecLayout.v
theories/LayoutFacts.v
theories/TwinFacts.v
theories/PropertiesWords.v
theories/PropertiesLayout.v
theories/SpecArrange.v
theories/ArrangeFacts.v
theories/ArrangeLoad.v
theories/ArrangeRun.v
theories/PropertiesArrange.v
theories/PropertiesRepeat.v
theories/SpecWhole.v
theories/WholeFacts.v
theories/WholeAgain.v
theories/PropertiesWhole.v
theories/SpecDay.v
theories/DayFacts.v
theories/PropertiesDay.v
theories/SpecFrame.v
theories/PropertiesFrame.v
theories/SpecParts.v
theories/PropertiesParts.v
theories/SpecColumns.v
theories/PropertiesColumns.v
theories/SpecNames.v
theories/PropertiesNames.v
theories/SpecTurn.v
theories/PropertiesTurn.v
theories/SpecCoins.v
theories/PropertiesCoins.v
theories/SpecGroup.v
theories/PropertiesGroup.v
theories/SpecScale.v
theories/PropertiesScale.v
theories/SpecMore.v
theories/PropertiesMore.v
theories/PropertiesStay.v
theories/SpecTyped.v
theories/TypedFacts.v
theories/PropertiesTyped.v
theories/SpecZero.v
theories/PropertiesZero.v
theories/SpecRows.v
theories/PropertiesRows.v
theories/SpecAgree.v
theories/PropertiesAgree.v
theories/SpecSame.v
theories/PropertiesSame.v
theories/SpecAdded.v
theories/PropertiesAdded.v
theories/SpecRenamed.v
theories/PropertiesRenamed.v
theories/SpecQuoted.v
theories/PropertiesQuoted.v
theories/PropertiesRead.v
theories/SpecTree.v
theories/PropertiesTree.v
theories/SpecCost.v
theories/PropertiesCost.v
theories/PropertiesBeside.v
theories/PropertiesSkip.v
theories/PropertiesOnce.v
theories/SpecOrder.v
theories/OrderFacts.v
theories/PropertiesOrder.v
theories/SpecConserve.v
theories/PropertiesConserve.v
theories/SpecInclude.v
theories/PropertiesInclude.v
theories/SpecUnfold.v
theories/UnfoldFacts.v
theories/PropertiesUnfold.v
theories/PropertiesCycle.v
theories/SpecErrors.v
theories/ErrorFacts.v
theories/PropertiesErrors.v
theories/SpecImportErrors.v
theories/ImportErrorFacts.v
theories/PropertiesImportErrors.v
theories/SpecText.v
theories/PropertiesText.v
theories/SpecDecimals.v
theories/DecimalOrder.v
theories/PropertiesDecimals.v
theories/SpecDue.v
theories/PropertiesDue.v
theories/SpecAgain.v
theories/AgainFacts.v
theories/PropertiesAgain.v
