-Q theories Verif
theories/Base.v
theories/Decimal.v
theories/Dates.v
theories/Amount.v
theories/Balance.v
theories/Scanner.v
theories/History.v
theories/Pool.v
theories/Account.v
theories/Journal.v
theories/Xact.v
theories/Parser.v
theories/Report.v
theories/Options.v
theories/Lib.v
theories/ModelTests.v
theories/ModelTestsMore.v
theories/BaseFacts.v
theories/SpecDecimal.v
theories/DecimalFacts.v
theories/RoundFacts.v
theories/SpecAmount.v
theories/BalanceFacts.v
theories/ScaleFacts.v
theories/ArithProofs.v
theories/PropertiesArith.v
theories/SpecAccount.v
theories/AccountFacts.v
theories/AccountProofs.v
theories/PropertiesAccounts.v
theories/SpecDates.v
theories/DatesFacts.v
theories/SpecPool.v
theories/PoolFacts.v
theories/SpecText.v
theories/PriceFacts.v
theories/PriceProofs.v
theories/DemoPrices.v
theories/PropertiesPrices.v
theories/SpecXact.v
theories/XactFacts.v
theories/XactProofs.v
theories/DemoXact.v
theories/PropertiesXact.v
theories/SpecJournal.v
theories/JournalFacts.v
theories/JournalProofs.v
theories/DemoJournal.v
theories/PropertiesJournal.v
theories/SpecReport.v
theories/ReportFacts.v
theories/ReportProofs.v
theories/DemoReport.v
theories/PropertiesReports.v
theories/SpecReading.v
theories/ReadingFacts.v
theories/TerminationFacts.v
theories/ReadingProofs.v
theories/DemoReading.v
theories/PropertiesReading.v
theories/SpecCommand.v
theories/CommandProofs.v
theories/PropertiesCommand.v
theories/SpecScan.v
theories/ScanFacts.v
theories/ScanProofs.v
theories/PostProofs.v
theories/HeaderProofs.v
theories/DemoScan.v
theories/PropertiesScan.v
theories/SpecWhole.v
theories/WholeProofs.v
theories/DemoWhole.v
theories/PropertiesWhole.v
theories/Memory.v
theories/SpecMemory.v
theories/MemoryFacts.v
theories/MemorySim.v
theories/MemoryRead.v
theories/MemoryProofs.v
theories/DemoMemory.v
theories/PropertiesMemory.v
theories/SpecEnd.v
theories/EndProofs.v
theories/DemoEnd.v
theories/PropertiesEnd.v
theories/Shell.v
theories/SpecShell.v
theories/ShellProofs.v
theories/PropertiesShell.v
theories/Heap.v
theories/SpecHeap.v
theories/HeapFacts.v
theories/HeapTree.v
theories/HeapRead.v
theories/HeapReport.v
theories/HeapSafe.v
theories/HeapSafeTree.v
theories/HeapSafeRead.v
theories/HeapSafeReport.v
theories/DemoHeap.v
theories/PropertiesHeap.v
theories/OldReport.v
theories/SpecMore.v
theories/MoreProofs.v
theories/DemoMore.v
theories/PropertiesMore.v
theories/DefinedFacts.v
theories/DefinedProofs.v
theories/SpecFull.v
theories/ImpliedFacts.v
theories/FullFacts.v
theories/FullProofs.v
theories/DemoFull.v
theories/PropertiesFull.v
theories/SpecFullEnd.v
theories/FullEndProofs.v
theories/DemoFullEnd.v
theories/PropertiesFullEnd.v
theories/Unfinished.v
theories/SpecUnfinished.v
theories/UnfinishedProofs.v
theories/PropertiesUnfinished.v
theories/SpecLines.v
theories/LinesProofs.v
theories/SpecOutline.v
theories/SpecPriceLog.v
theories/PriceLogFacts.v
theories/OutlineProofs.v
theories/DemoLines.v
theories/PropertiesLines.v
theories/SpecOrder.v
theories/SpecDecimals.v
theories/OrderProofs.v
theories/SpecShown.v
theories/ShownProofs.v
theories/DecimalsProofs.v
theories/DemoOrder.v
theories/PropertiesOrder.v
theories/DemoDecimals.v
theories/PropertiesDecimals.v
theories/SpecTrial.v
theories/TrialProofs.v
theories/DemoTrial.v
theories/PropertiesShown.v
theories/SpecLocal.v
theories/LocalProofs.v
theories/PropertiesLocal.v
theories/Compare.v
theories/SpecValue.v
theories/ValueProofs.v
theories/PropertiesValue.v
theories/SpecSpelling.v
theories/SpellingProofs.v
theories/PropertiesSpelling.v
theories/PropertiesPriceLog.v
theories/SpecLine.v
theories/LineReadProofs.v
theories/PropertiesLineRead.v
theories/SpecContent.v
theories/ContentProofs.v
theories/PropertiesContent.v
theories/SpecRefused.v
theories/LiteralProofs.v
theories/RefusedFacts.v
theories/RefusedProofs.v
theories/PropertiesRefused.v
theories/SpecModerate.v
theories/ModerateFacts.v
theories/ModerateProofs.v
theories/ModerateReading.v
theories/ModerateRun.v
theories/PropertiesModerate.v
theories/SpecAside.v
theories/AsideProofs.v
theories/PropertiesAside.v
theories/SpecAny.v
theories/AnyProofs.v
theories/PropertiesAny.v
theories/SpecRename.v
theories/RenameProofs.v
theories/PropertiesRename.v
theories/SpecAccountNames.v
theories/AccountNamesProofs.v
theories/PropertiesAccountNames.v
theories/Stdout.v
theories/SpecStdout.v
theories/StdoutProofs.v
theories/PropertiesStdout.v
theories/SpecPriceLookup.v
theories/PriceLookupProofs.v
theories/PropertiesPriceLookup.v
theories/SpecReportText.v
theories/ReportTextProofs.v
theories/PropertiesReportText.v
theories/SpecOpposite.v
theories/OppositeProofs.v
theories/PropertiesOpposite.v
theories/SpecExact.v
theories/HeapExactProofs.v
theories/DemoExact.v
theories/PropertiesExact.v
theories/NameCache.v
theories/SpecNameCache.v
theories/NameCacheProofs.v
theories/PropertiesNameCache.v
theories/HeapPrices.v
theories/SpecHeapPrices.v
theories/HeapPriceProofs.v
theories/PropertiesHeapPrices.v
theories/SpecTogether.v
theories/TogetherProofs.v
theories/PropertiesTogether.v
theories/HashOrder.v
theories/SpecHashOrder.v
theories/HashOrderProofs.v
theories/PropertiesHashOrder.v
theories/SpecCancel.v
theories/CancelProofs.v
theories/PropertiesCancel.v
theories/SpecDirectory.v
theories/DirectoryProofs.v
theories/PropertiesDirectory.v
theories/SpecLots.v
theories/LotProofs.v
theories/PropertiesLots.v
theories/SpecSize.v
theories/SizeProofs.v
theories/DemoSize.v
theories/PropertiesSize.v
theories/SpecKept.v
theories/KeptProofs.v
theories/DemoKept.v
theories/PropertiesKept.v
theories/SpecSums.v
theories/SumsProofs.v
theories/DemoSums.v
theories/PropertiesSums.v
theories/OwnProofs.v
theories/PropertiesOwn.v
theories/SpecCosts.v
theories/CostsProofs.v
theories/DemoCosts.v
theories/PropertiesCosts.v
theories/SpecQuote.v
theories/QuoteProofs.v
theories/DemoQuote.v
theories/PropertiesQuote.v
theories/SpecUnrelated.v
theories/UnrelatedProofs.v
theories/PropertiesUnrelated.v
theories/SpecMain.v
theories/MainProofs.v
theories/PropertiesMain.v
theories/SpecCycle.v
theories/CycleProofs.v
theories/DepthProofs.v
theories/PropertiesCycle.v
