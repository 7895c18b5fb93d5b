-Q theories Verif
theories/AlphabetFacts.v
theories/AnyText.v
theories/Api.v
theories/ArgOrder.v
theories/ArithFacts.v
theories/Ast.v
theories/AtnCases.v
theories/AtnFacts.v
theories/AtnRegex.v
theories/AtnTable.v
theories/Base.v
theories/BigDec.v
theories/BigDecFacts.v
theories/BoolFacts.v
theories/Cache.v
theories/CacheFacts.v
theories/CacheThreads.v
theories/CallFacts.v
theories/ChainCases.v
theories/ChainFacts.v
theories/ChainText.v
theories/CompareFacts.v
theories/CompareWitness.v
theories/ComputeFacts.v
theories/Conformance.v
theories/CourseCases.v
theories/CourseFacts.v
theories/DateFacts.v
theories/Dates.v
theories/DefaultFacts.v
theories/DoubledCases.v
theories/DoubledText.v
theories/ElementCases.v
theories/ElementFacts.v
theories/ElementText.v
theories/Eval.v
theories/ExactFacts.v
theories/FailureFacts.v
theories/FieldFacts.v
theories/FormCases.v
theories/FormFacts.v
theories/FuncFacts.v
theories/FuncRound.v
theories/Funcs.v
theories/Grammar.v
theories/GrowFacts.v
theories/GrowthFacts.v
theories/Heap.v
theories/HeapFacts.v
theories/InsertFacts.v
theories/JNum.v
theories/JNumFacts.v
theories/LabelFacts.v
theories/LexApi.v
theories/LexCases.v
theories/LexFacts.v
theories/LexSplit.v
theories/LexTight.v
theories/LexWords.v
theories/Lexer.v
theories/LexerAtn.v
theories/LexerTable.v
theories/ListTests.v
theories/ListText.v
theories/ListenAny.v
theories/ListenFacts.v
theories/Listener.v
theories/Locale.v
theories/LocaleCases.v
theories/LocaleFacts.v
theories/LocaleTexts.v
theories/MapFacts.v
theories/Maps.v
theories/MeaningFacts.v
theories/MeaningText.v
theories/MemberFacts.v
theories/MessageFacts.v
theories/Messages.v
theories/MixedFacts.v
theories/NameFacts.v
theories/NetCases.v
theories/NetFacts.v
theories/NetFinal.v
theories/NetMain.v
theories/NetParse.v
theories/NetRun.v
theories/NetSets.v
theories/NumFacts.v
theories/OddCases.v
theories/OddListCases.v
theories/OddListFacts.v
theories/OddText.v
theories/OneText.v
theories/Ops.v
theories/OrderFacts.v
theories/OwnCases.v
theories/OwnFacts.v
theories/ParseFacts.v
theories/ParseFuel.v
theories/ParseMessages.v
theories/ParseShapes.v
theories/ParserAtn.v
theories/ParserTable.v
theories/PlaceCases.v
theories/PlaceFacts.v
theories/PlacesFacts.v
theories/PositionFacts.v
theories/PropsAlphabet.v
theories/PropsArith.v
theories/PropsAtn.v
theories/PropsBool.v
theories/PropsCache.v
theories/PropsCall.v
theories/PropsCalls.v
theories/PropsChain.v
theories/PropsCompare.v
theories/PropsCompute.v
theories/PropsCourse.v
theories/PropsDate.v
theories/PropsDoubled.v
theories/PropsElements.v
theories/PropsExact.v
theories/PropsField.v
theories/PropsForm.v
theories/PropsFunc.v
theories/PropsGrow.v
theories/PropsGrowth.v
theories/PropsInsert.v
theories/PropsLabel.v
theories/PropsLex.v
theories/PropsList.v
theories/PropsLocale.v
theories/PropsMaps.v
theories/PropsMeaning.v
theories/PropsMember.v
theories/PropsMessage.v
theories/PropsMixed.v
theories/PropsName.v
theories/PropsNet.v
theories/PropsOdd.v
theories/PropsOddList.v
theories/PropsOrder.v
theories/PropsOwn.v
theories/PropsParse.v
theories/PropsPlace.v
theories/PropsPlaces.v
theories/PropsPosition.v
theories/PropsQuote.v
theories/PropsReads.v
theories/PropsRecord.v
theories/PropsRecover.v
theories/PropsRegistry.v
theories/PropsRename.v
theories/PropsRepr.v
theories/PropsRewrite.v
theories/PropsScale.v
theories/PropsShare.v
theories/PropsShown.v
theories/PropsShuffle.v
theories/PropsSides.v
theories/PropsSize.v
theories/PropsSpelled.v
theories/PropsStamp.v
theories/PropsStray.v
theories/PropsText.v
theories/PropsTrend.v
theories/PropsTyped.v
theories/PropsWrite.v
theories/QuoteCases.v
theories/QuoteFacts.v
theories/Reads.v
theories/ReadsFacts.v
theories/RecordFacts.v
theories/RecordText.v
theories/Recover.v
theories/RecoverFacts.v
theories/RecoverOrigin.v
theories/RecoverTexts.v
theories/Registry.v
theories/RegistryFacts.v
theories/RenameCases.v
theories/RenameFacts.v
theories/ReprCases.v
theories/ReprFacts.v
theories/RewriteCases.v
theories/RewriteFacts.v
theories/ScaleFacts.v
theories/SensibleFacts.v
theories/ShareCases.v
theories/ShownCases.v
theories/ShownFacts.v
theories/ShuffleCases.v
theories/ShuffleFacts.v
theories/SidesCases.v
theories/SidesFacts.v
theories/SizeFacts.v
theories/SizeText.v
theories/SpecAlphabet.v
theories/SpecArith.v
theories/SpecBool.v
theories/SpecCache.v
theories/SpecCall.v
theories/SpecChain.v
theories/SpecCompare.v
theories/SpecCompute.v
theories/SpecCourse.v
theories/SpecDate.v
theories/SpecDefault.v
theories/SpecDoubled.v
theories/SpecElements.v
theories/SpecExact.v
theories/SpecFailures.v
theories/SpecForm.v
theories/SpecFunc.v
theories/SpecGrammar.v
theories/SpecGrowth.v
theories/SpecHeap.v
theories/SpecInsert.v
theories/SpecLabel.v
theories/SpecLex.v
theories/SpecList.v
theories/SpecLocale.v
theories/SpecMaps.v
theories/SpecMeaning.v
theories/SpecMessage.v
theories/SpecMixed.v
theories/SpecName.v
theories/SpecNum.v
theories/SpecOdd.v
theories/SpecOddList.v
theories/SpecOrder.v
theories/SpecOwn.v
theories/SpecPath.v
theories/SpecPlace.v
theories/SpecPlaces.v
theories/SpecPosition.v
theories/SpecQuote.v
theories/SpecReads.v
theories/SpecRecord.v
theories/SpecRecover.v
theories/SpecRegistry.v
theories/SpecRename.v
theories/SpecRepr.v
theories/SpecRewrite.v
theories/SpecScale.v
theories/SpecShown.v
theories/SpecShuffle.v
theories/SpecSize.v
theories/SpecSpelled.v
theories/SpecStamp.v
theories/SpecStray.v
theories/SpecSyntax.v
theories/SpecText.v
theories/SpecThreads.v
theories/SpecTight.v
theories/SpecTrend.v
theories/SpecTyped.v
theories/SpecWrite.v
theories/SpelledFacts.v
theories/StampCases.v
theories/StampFacts.v
theories/StrayCases.v
theories/StrayFacts.v
theories/SyntaxFacts.v
theories/TextApi.v
theories/TextCases.v
theories/TextFacts.v
theories/ThreadFacts.v
theories/TreeKinds.v
theories/TrendCases.v
theories/TrendFacts.v
theories/TypedFacts.v
theories/Values.v
theories/ValuesFacts.v
theories/Version.v
theories/VersionFacts.v
theories/VersionTextFacts.v
theories/WriteCalls.v
theories/WriteFacts.v
theories/WriteMeaning.v
