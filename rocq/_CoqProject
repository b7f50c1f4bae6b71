-Q theories Verif
theories/Base.v
theories/ModelCard.v
theories/ModelEval.v
theories/ModelTable.v
theories/ModelEvaluation.v
theories/ModelThreads.v
theories/ModelExamples.v
theories/ModelDebug.v
theories/ModelBuild.v
theories/ModelRand.v
theories/Spec.v
theories/SpecApi.v
theories/SpecText.v
theories/SpecTable.v
theories/SpecExamples.v
theories/SpecBest.v
theories/SpecReads.v
theories/SpecBuild.v
theories/SpecRand.v
theories/SpecDebug.v
theories/BaseFacts.v
theories/CardFacts.v
theories/Sweep.v
theories/SweepFacts.v
theories/SpecFacts.v
theories/EvalFacts.v
theories/FiveFacts.v
theories/CombosFacts.v
theories/EvaluateFacts.v
theories/HandFacts.v
theories/ClassFacts.v
theories/CountFacts.v
theories/TextFacts.v
theories/DeckFacts.v
theories/ThreadFacts.v
theories/LawFacts.v
theories/TableFacts.v
theories/OddsFacts.v
theories/BitsFacts.v
theories/ExamplesFacts.v
theories/JacksFacts.v
theories/ReplFacts.v
theories/SizeFacts.v
theories/CategoryFacts.v
theories/BestFacts.v
theories/WorthFacts.v
theories/WalkFacts.v
theories/MachineFacts.v
theories/DealFacts.v
theories/WeakFacts.v
theories/ShuffleFacts.v
theories/EqFacts.v
theories/ReadFacts.v
theories/UniformFacts.v
theories/DrawFacts.v
theories/ClassOrderFacts.v
theories/RandFacts.v
theories/NumberFacts.v
theories/SpecMore.v
theories/AlikeFacts.v
theories/ValuesFacts.v
theories/ValuesComplete.v
theories/ReturnFacts.v
theories/DebugFacts.v
theories/BuildFacts.v
theories/Samples.v
theories/PropertiesEvaluate.v
theories/PropertiesCards.v
theories/PropertiesResults.v
theories/PropertiesInternals.v
theories/PropertiesExamples.v
theories/PropertiesMore.v
theories/PropertiesFurther.v
theories/PropertiesClasses.v
theories/ModelDebugText.v
theories/SpecDebugText.v
theories/DebugTextFacts.v
theories/ModelMacros.v
theories/SpecMacros.v
theories/MacroFacts.v
theories/PropertiesTexts.v
theories/ModelTerminal.v
theories/SpecTerminal.v
theories/TerminalFacts.v
theories/PropertiesTerminal.v
theories/ModelPrograms.v
theories/ProgramFacts.v
theories/PropertiesPrograms.v
theories/SpecShowdown.v
theories/ShowdownFacts.v
theories/ModelDebugTree.v
theories/SpecDebugTree.v
theories/DebugTreeFacts.v
theories/PropertiesShowdown.v
theories/PropertiesDebug.v
theories/SeatFacts.v
theories/PropertiesSeats.v
theories/ModelTests.v
theories/TestFacts.v
theories/PropertiesTests.v
theories/SpecLookup.v
theories/LookupFacts.v
theories/PropertiesLookup.v
theories/ModelSource.v
theories/SpecSource.v
theories/SourceFacts.v
theories/PropertiesSource.v
theories/SubhandFacts.v
theories/PropertiesSubhands.v
theories/ModelRelease.v
theories/ReleaseFacts.v
theories/PropertiesRelease.v
theories/ModelFormat.v
theories/SpecFormat.v
theories/FormatFacts.v
theories/NumeralFacts.v
theories/PropertiesFormat.v
theories/ModelWidth.v
theories/SpecWidth.v
theories/WidthFacts.v
theories/PropertiesWidth.v
theories/ModelInteract.v
theories/SpecInteract.v
theories/InteractFacts.v
theories/PropertiesInteract.v
theories/SpecPlace.v
theories/PlaceFacts.v
theories/PropertiesPlace.v
theories/ModelOrder.v
theories/SpecOrder.v
theories/OrderFacts.v
theories/PropertiesOrder.v
theories/SpecGain.v
theories/GainFacts.v
theories/PropertiesGain.v
theories/FortuneFacts.v
theories/PropertiesFortune.v
theories/ModelDeck.v
theories/SpecDeck.v
theories/DeckIterFacts.v
theories/PropertiesDeck.v
theories/ModelHash.v
theories/SpecHash.v
theories/HashFacts.v
theories/HashCrateFacts.v
theories/PropertiesHash.v
theories/ModelPhf.v
theories/SpecPhf.v
theories/SpecHeadsUp.v
theories/PhfFacts.v
theories/HeadsUpFacts.v
theories/PropertiesHeadsUp.v
theories/PropertiesPhf.v
theories/SpecBoard.v
theories/BoardFacts.v
theories/PropertiesBoard.v
theories/RustText.v
theories/RustSyntax.v
theories/RustSemantics.v
theories/RustProgram.v
theories/RustValues.v
theories/RustSteps.v
theories/RustFacts.v
theories/RustUtils.v
theories/RustEvaluate.v
theories/RustCombos.v
theories/RustHands.v
theories/RustTable.v
theories/SpecRust.v
theories/RustFormat.v
theories/RustDuplicates.v
theories/RustStreams.v
theories/RustRuns.v
theories/RustSays.v
theories/RustTakes.v
theories/RustBounds.v
theories/RustAgrees.v
theories/PropertiesRust.v
theories/PropertiesModel.v
theories/SpecOdds.v
theories/RustOdds.v
theories/PropertiesOdds.v
theories/RustFindings.v
theories/PropertiesFindings.v
theories/RustWorth.v
theories/PropertiesWorth.v
theories/SpecInside.v
theories/RustInside.v
theories/PropertiesInside.v
theories/RustSizes.v
theories/PropertiesSizes.v
theories/RustHolds.v
theories/PropertiesHolds.v
