-Q theories Verif
theories/AlignCompose.v
theories/AlignProofs.v
theories/AlignSpec.v
theories/AlignTheory.v
theories/AlignTwice.v
theories/AlignedCases.v
theories/AlignedProofs.v
theories/AlignedSpec.v
theories/AlikeCases.v
theories/AlikeProofs.v
theories/AlikeSpec.v
theories/BasicCases.v
theories/BasicProofs.v
theories/BasicSpec.v
theories/BlockCases.v
theories/BlockProofs.v
theories/BlockSpec.v
theories/CacheProofs.v
theories/CacheSpec.v
theories/Cached.v
theories/CachedExamples.v
theories/CachedProofs.v
theories/CachedSpec.v
theories/Calls.v
theories/CallsCases.v
theories/CallsFinal.v
theories/CallsMerge.v
theories/CallsProofs.v
theories/CallsResults.v
theories/CallsSearch.v
theories/CallsSpec.v
theories/CallsSteady.v
theories/ClusterProofs.v
theories/ClusterSpec.v
theories/ColourCases.v
theories/ColourProofs.v
theories/ColourSpec.v
theories/CommentProofs.v
theories/CommentSpec.v
theories/Concurrent.v
theories/CondHeap.v
theories/CondHeapProofs.v
theories/CondHeapSpec.v
theories/ConditionSpec.v
theories/Cost.v
theories/CostProofs.v
theories/CostSearch.v
theories/CostSpec.v
theories/CountCases.v
theories/CountProofs.v
theories/CountSpec.v
theories/CrossProofs.v
theories/CrossSpec.v
theories/EastAsianData.v
theories/EditCases.v
theories/EditProofs.v
theories/EditSpec.v
theories/EditTheory.v
theories/ElsewhereCases.v
theories/ElsewhereProofs.v
theories/ElsewhereSpec.v
theories/EmojiData.v
theories/EndlessCases.v
theories/EndlessProofs.v
theories/EndlessSpec.v
theories/EndsCases.v
theories/EndsProofs.v
theories/EndsSpec.v
theories/EnvProofs.v
theories/EnvSpec.v
theories/EscapeSpec.v
theories/EvenCases.v
theories/EvenProofs.v
theories/EvenSpec.v
theories/FarCases.v
theories/FarProofs.v
theories/FarSpec.v
theories/FaultCases.v
theories/FaultProofs.v
theories/FaultSpec.v
theories/FaultWhich.v
theories/FewestCases.v
theories/FewestProofs.v
theories/FewestSpec.v
theories/FewestWidth.v
theories/GenCases.v
theories/GenFormat.v
theories/GenLookup.v
theories/GenMain.v
theories/GenMainProofs.v
theories/GenMainSpec.v
theories/GenPattern.v
theories/GenRead.v
theories/GenScan.v
theories/GenScript.v
theories/GenScriptSpec.v
theories/GenScriptTables.v
theories/GenSource.v
theories/GenText.v
theories/GenTextSpec.v
theories/Generate.v
theories/GenerateProofs.v
theories/GenerateSpec.v
theories/GlyphCases.v
theories/GlyphProofs.v
theories/GlyphSpec.v
theories/GoBase.v
theories/GraphemeData.v
theories/GraphemeSpec.v
theories/GrowCases.v
theories/GrowProofs.v
theories/GrowSpec.v
theories/HangulProofs.v
theories/HangulSpec.v
theories/HeaderCases.v
theories/HeaderProofs.v
theories/HeaderSpec.v
theories/HeadlineCases.v
theories/HeadlineProofs.v
theories/HeadlineSpec.v
theories/HitCases.v
theories/HitProofs.v
theories/HitSpec.v
theories/IntervalSpec.v
theories/LawCases.v
theories/LawsProofs.v
theories/LawsTheory.v
theories/Live.v
theories/LiveAlign.v
theories/LiveAny.v
theories/LiveCases.v
theories/LiveFormat.v
theories/LiveMerge.v
theories/LiveProofs.v
theories/LiveSpec.v
theories/Locale.v
theories/LocaleProofs.v
theories/LocaleSpec.v
theories/Lru.v
theories/LruCases.v
theories/LruProofs.v
theories/LruSpec.v
theories/LutRace.v
theories/LutRaceCases.v
theories/LutRaceProofs.v
theories/LutRaceSpec.v
theories/MapRace.v
theories/MapRaceCases.v
theories/MapRaceProofs.v
theories/MapRaceSpec.v
theories/MarkCases.v
theories/MarkProofs.v
theories/MarkSpec.v
theories/MeasureWord.v
theories/MeasureWordCases.v
theories/MeasureWordProofs.v
theories/MeasuredCases.v
theories/MeasuredExact.v
theories/MeasuredProofs.v
theories/MeasuredSpec.v
theories/Merge.v
theories/MergeAsked.v
theories/MergeAskedCases.v
theories/MergeAskedProofs.v
theories/MergeCases.v
theories/MergeExamples.v
theories/MergeGroups.v
theories/MergeLaws.v
theories/MergeLayout.v
theories/MergeLeast.v
theories/MergePlan.v
theories/MergePrinted.v
theories/MergeRace.v
theories/MergeRaceCases.v
theories/MergeRaceEach.v
theories/MergeRaceLazy.v
theories/MergeRaceProofs.v
theories/MergeRaceSpec.v
theories/MergeRecorded.v
theories/MergeRender.v
theories/MergeScreens.v
theories/MergeSearch.v
theories/MergeSpec.v
theories/MergeTheory.v
theories/MergeWidths.v
theories/MergeWord.v
theories/MethodsCases.v
theories/MethodsProofs.v
theories/MethodsSpec.v
theories/MissCases.v
theories/MissProofs.v
theories/MissSpec.v
theories/PartsCases.v
theories/PartsProofs.v
theories/PartsSpec.v
theories/PickCases.v
theories/PickProofs.v
theories/PickSpec.v
theories/PipelineExamples.v
theories/PipelineProofs.v
theories/PipelineSpec.v
theories/Pointwise.v
theories/PropAlign.v
theories/PropAligned.v
theories/PropAlike.v
theories/PropBasic.v
theories/PropBlock.v
theories/PropCache.v
theories/PropCached.v
theories/PropCalls.v
theories/PropColour.v
theories/PropComment.v
theories/PropConst.v
theories/PropCost.v
theories/PropCount.v
theories/PropCross.v
theories/PropEdit.v
theories/PropElsewhere.v
theories/PropEndless.v
theories/PropEnds.v
theories/PropEven.v
theories/PropFar.v
theories/PropFault.v
theories/PropFewest.v
theories/PropGenMain.v
theories/PropGenText.v
theories/PropGenerate.v
theories/PropGlyphs.v
theories/PropGrow.v
theories/PropHeader.v
theories/PropHeadline.v
theories/PropHeap.v
theories/PropHit.v
theories/PropLaws.v
theories/PropLive.v
theories/PropLocale.v
theories/PropLru.v
theories/PropMapRace.v
theories/PropMarks.v
theories/PropMeasureWord.v
theories/PropMeasured.v
theories/PropMerge.v
theories/PropMergeAsked.v
theories/PropMergeRace.v
theories/PropMethods.v
theories/PropMiss.v
theories/PropParts.v
theories/PropPick.v
theories/PropPipeline.v
theories/PropRace.v
theories/PropRead.v
theories/PropRecorded.v
theories/PropRepair.v
theories/PropRounds.v
theories/PropRune.v
theories/PropSays.v
theories/PropScreens.v
theories/PropScript.v
theories/PropScriptMain.v
theories/PropSegment.v
theories/PropSep.v
theories/PropShared.v
theories/PropSize.v
theories/PropSlices.v
theories/PropStream.v
theories/PropSwap.v
theories/PropTable.v
theories/PropTableRace.v
theories/PropTemplate.v
theories/PropTerminal.v
theories/PropText.v
theories/PropTint.v
theories/PropTrim.v
theories/PropVisualLaws.v
theories/PropWeakRace.v
theories/PropWidth.v
theories/PropWord.v
theories/PropWrap.v
theories/RaceHalts.v
theories/ReadCases.v
theories/ReadProofs.v
theories/ReadSpec.v
theories/Regex.v
theories/RegexProofs.v
theories/RegistryProofs.v
theories/RepairCases.v
theories/RepairProofs.v
theories/RepairSpec.v
theories/RepoTests.v
theories/RoundsCases.v
theories/RoundsProofs.v
theories/RoundsSpec.v
theories/RuneTheory.v
theories/RuneWidthData.v
theories/Runewidth.v
theories/RunewidthProofs.v
theories/RunewidthSpec.v
theories/Says.v
theories/SaysCases.v
theories/SaysProofs.v
theories/SaysSpec.v
theories/ScanProofs.v
theories/ScriptMain.v
theories/ScriptMainProofs.v
theories/ScriptMainSpec.v
theories/SegmentSpec.v
theories/SegmentTheory.v
theories/SepCases.v
theories/SepProofs.v
theories/Shared.v
theories/SharedCases.v
theories/SharedProofs.v
theories/SharedSpec.v
theories/SizeCases.v
theories/SizeProofs.v
theories/SizeSpec.v
theories/Slices.v
theories/SlicesCases.v
theories/SlicesCount.v
theories/SlicesProofs.v
theories/SlicesSpec.v
theories/StepFun.v
theories/StreamCases.v
theories/StreamProofs.v
theories/StreamSpec.v
theories/StringWidthProofs.v
theories/StringWidthSpec.v
theories/Swap.v
theories/SwapCases.v
theories/SwapMerge.v
theories/SwapProofs.v
theories/SwapSpec.v
theories/Table.v
theories/TableContract.v
theories/TableExamples.v
theories/TableHeap.v
theories/TableHeapProofs.v
theories/TableHeapSpec.v
theories/TableOpsProofs.v
theories/TableProofs.v
theories/TableRace.v
theories/TableRaceCases.v
theories/TableRaceProofs.v
theories/TableRaceSpec.v
theories/TableTheory.v
theories/TemplateProofs.v
theories/TemplateSpec.v
theories/TerminalCases.v
theories/TerminalMerge.v
theories/TerminalProofs.v
theories/TerminalSpec.v
theories/TextSpec.v
theories/TintCases.v
theories/TintProofs.v
theories/TintSpec.v
theories/TintTable.v
theories/TrimCases.v
theories/TrimProofs.v
theories/TrimSpec.v
theories/TrimTable.v
theories/Uniseg.v
theories/UnisegProofs.v
theories/Utf8.v
theories/Utf8Proofs.v
theories/Utf8Spec.v
theories/Utf8Theory.v
theories/VisualLawsCases.v
theories/VisualLawsProofs.v
theories/VisualLawsSpec.v
theories/WeakRace.v
theories/WeakRaceCases.v
theories/WeakRaceHalts.v
theories/WeakRaceProofs.v
theories/WeakRaceRuns.v
theories/WeakRaceSpec.v
theories/Width.v
theories/WidthProofs.v
theories/WidthTheory.v
theories/WordCases.v
theories/WordProofs.v
theories/WrapCases.v
theories/WrapProofs.v
theories/WrapSpec.v
