-Q theories Verif
theories/Base.v
theories/NListFacts.v
theories/Status.v
theories/Mem.v
theories/MemFacts.v
theories/VectorModel.v
theories/VectorSpec.v
theories/VectorDriver.v
theories/VectorRep.v
theories/VectorProofs.v
theories/VectorProofs2.v
theories/VectorProofs3.v
theories/VectorRefine.v
theories/VectorSearch.v
theories/VectorFail.v
theories/VectorMore.v
theories/VectorFinal.v
theories/VectorFinal2.v
theories/VectorExamples.v
theories/VectorRefuted.v
theories/VectorProps.v
theories/BitFacts.v
theories/DefinesModel.v
theories/ComparisonModel.v
theories/ComparisonSpec.v
theories/MiscProofs.v
theories/MiscProps.v
theories/LibCModel.v
theories/LibCSpec.v
theories/LibCProofs.v
theories/LibCProofs2.v
theories/LibCProps.v
theories/AtomicModel.v
theories/AtomicSpec.v
theories/AtomicProofs.v
theories/SyncModel.v
theories/SyncSpec.v
theories/SyncProofs.v
theories/ApiModel.v
theories/ApiSpec.v
theories/ApiProofs.v
theories/AllocatorModel.v
theories/AllocatorProofs.v
theories/SysProps.v
theories/StringModel.v
theories/StringSpec.v
theories/StringDriver.v
theories/StringBytes.v
theories/StringProofs.v
theories/StringSearch.v
theories/StringFinal.v
theories/StringFinal2.v
theories/StringFinal3.v
theories/StringExamples.v
theories/StringRefuted.v
theories/StringProps.v
theories/FormatModel.v
theories/FormatSpec.v
theories/FormatDriver.v
theories/FormatDigits.v
theories/FormatProofs.v
theories/FormatRun.v
theories/FormatFinal.v
theories/FormatExamples.v
theories/FormatRefuted.v
theories/FormatProps.v
theories/BitsetModel.v
theories/BitsetSpec.v
theories/BitsetDriver.v
theories/BitsetBits.v
theories/BitsetProofs.v
theories/BitsetRun.v
theories/BitsetQuery.v
theories/BitsetFinal.v
theories/BitsetExamples.v
theories/BitsetRefuted.v
theories/BitsetProps.v
theories/ListModel.v
theories/ListSpec.v
theories/ListDriver.v
theories/ListHeap.v
theories/ListRep.v
theories/ListProofs.v
theories/ListProofs2.v
theories/ListFinal.v
theories/ListFinal2.v
theories/ListExamples.v
theories/ListRefuted.v
theories/ListWords.v
theories/ListProps.v
theories/ArgModel.v
theories/ArgSpec.v
theories/ArgDriver.v
theories/ArgText.v
theories/ArgVec.v
theories/ArgProofs.v
theories/ArgFinal.v
theories/ArgFinal2.v
theories/ArgExamples.v
theories/ArgRefuted.v
theories/ArgWords.v
theories/ArgProps.v
theories/WinModel.v
theories/PagesModel.v
theories/WinSpec.v
theories/WinProofs.v
theories/WinProps.v
theories/BuildSpec.v
theories/BuildProofs.v
theories/BuildProofs2.v
theories/BuildProps.v
theories/OracleProofs.v
theories/RefuseSpec.v
theories/RefuseProofs.v
theories/OracleProofs2.v
theories/RefuseProps.v
theories/LogProofs.v
theories/NullModel.v
theories/NullSpec.v
theories/NullProofs.v
theories/NullProps.v
theories/AliasSpec.v
theories/AliasProofs.v
theories/AliasProofs2.v
theories/AliasProofs3.v
theories/AliasExamples.v
theories/AliasProps.v
theories/AliasListProps.v
theories/ForeachModel.v
theories/ForeachSpec.v
theories/ForeachProofs.v
theories/ForeachProofs2.v
theories/ForeachProofs3.v
theories/ForeachProps.v
theories/OverflowSpec.v
theories/OverflowProofs.v
theories/OverflowProofs2.v
theories/OverflowExamples.v
theories/OverflowProps.v
theories/CostSpec.v
theories/CostProofs.v
theories/CostProofs2.v
theories/CostExamples.v
theories/CostProps.v
theories/AlignSpec.v
theories/AlignProofs.v
theories/AlignProps.v
theories/StrRefuseSpec.v
theories/StrRefuseProofs.v
theories/StrRefuseProofs2.v
theories/StrRefuseProps.v
theories/OverrunProofs.v
theories/OverrunProps.v
theories/BitRefuseSpec.v
theories/BitRefuseProofs.v
theories/BitRefuseProofs2.v
theories/BitRefuseProps.v
theories/GuardSpec.v
theories/GuardProofs.v
theories/GuardProps.v
theories/SortedSpec.v
theories/SortedProofs.v
theories/SortedProps.v
theories/StrCostSpec.v
theories/StrCostProofs.v
theories/StrCostProofs2.v
theories/StrCostProps.v
theories/IdiomSpec.v
theories/IdiomProofs.v
theories/IdiomProofs2.v
theories/IdiomProofs3.v
theories/IdiomProps.v
theories/ProgSpec.v
theories/ProgCopy.v
theories/ProgProofs.v
theories/ProgProps.v
theories/FmtRefuseSpec.v
theories/ExhaustSpec.v
theories/ExhaustProofs.v
theories/ExhaustProofs2.v
theories/FmtRefuseProofs.v
theories/FmtRefuseProofs2.v
theories/FmtRefuseProps.v
theories/ExhaustProofs3.v
theories/ExhaustProps.v
theories/RepoTests.v
theories/TlsDtorModel.v
theories/TlsDtorSpec.v
theories/TlsDtorProofs.v
theories/TlsDtorProofs2.v
theories/TlsDtorProps.v
theories/ThreadSpec.v
theories/ThreadProofs.v
theories/ThreadCode.v
theories/ThreadCode2.v
theories/ThreadExamples.v
theories/ThreadProofs2.v
theories/ThreadProofs3.v
theories/ThreadProps.v
theories/CallbackModel.v
theories/CallbackSpec.v
theories/CallbackProofs.v
theories/CallbackProps.v
theories/ReproSpec.v
theories/ReproProofs.v
theories/ReproProps.v
theories/StableSpec.v
theories/StableProofs.v
theories/StableProofs2.v
theories/StableProps.v
theories/CodesSpec.v
theories/CodesProofs.v
theories/CodesProps.v
theories/ListsSpec.v
theories/ListsProofs.v
theories/ListsExamples.v
theories/ListsProps.v
theories/ReadSpec.v
theories/ReadProofs.v
theories/ReadProps.v
theories/EveryProofs.v
theories/EveryProofs2.v
theories/EveryProofs3.v
theories/EveryProps.v
theories/ExactSpec.v
theories/ExactProofs.v
theories/ExactProofs2.v
theories/ExactProofs3.v
theories/ExactProps.v
theories/AppendSpec.v
theories/AppendProofs.v
theories/AppendExamples.v
theories/AppendProps.v
theories/ViewSpec.v
theories/ViewProofs.v
theories/ViewProps.v
theories/WrittenSpec.v
theories/WrittenProofs.v
theories/WrittenExamples.v
theories/WrittenProps.v
theories/ListAskSpec.v
theories/ListAskProofs.v
theories/ListAskExamples.v
theories/ListAskProps.v
theories/ReserveProofs.v
theories/ReserveBits.v
theories/ReserveProps.v
theories/ArgAskProofs.v
theories/ArgAskProps.v
theories/ArgNameSpec.v
theories/ArgNameProofs.v
theories/ArgNameProps.v
theories/SignedModel.v
theories/SignedSpec.v
theories/SignedProofs.v
theories/SignedProps.v
theories/TokDriver.v
theories/TokProofs.v
theories/TokProps.v
theories/DefinedModel.v
theories/DefinedProofs.v
theories/DefinedProps.v
theories/LargeProofs.v
theories/LargeExamples.v
theories/LargeProps.v
theories/TlsAnswerSpec.v
theories/TlsAnswerProofs.v
theories/TlsAnswerProps.v
theories/UndoSpec.v
theories/UndoProofs.v
theories/UndoProofs2.v
theories/UndoProofs3.v
theories/UndoProofs4.v
theories/UndoExamples.v
theories/UndoProps.v
theories/AgreeDriver.v
theories/AgreeProofs.v
theories/AgreeProps.v
theories/CaseSpec.v
theories/CaseProofs.v
theories/CaseProps.v
theories/ReplaceDriver.v
theories/ReplaceProofs.v
theories/ReplaceExamples.v
theories/ReplaceProps.v
theories/PurgeDriver.v
theories/PurgeProofs.v
theories/PurgeProps.v
theories/SwapDriver.v
theories/SwapProofs.v
theories/SwapProps.v
theories/GateDriver.v
theories/GateProofs.v
theories/GateProofs2.v
theories/GateProps.v
theories/SplitDriver.v
theories/SplitProofs.v
theories/SplitExamples.v
theories/SplitProps.v
theories/NumsSpec.v
theories/NumsProofs.v
theories/NumsExamples.v
theories/NumsProps.v
theories/LeftProofs.v
theories/LeftProofs2.v
theories/LeftExamples.v
theories/LeftProps.v
theories/OwnModel.v
theories/OwnDriver.v
theories/OwnSame.v
theories/OwnProofs.v
theories/OwnSwap.v
theories/OwnProofs2.v
theories/OwnBuffer.v
theories/OwnKeep.v
theories/OwnRefuse.v
theories/OwnExamples.v
theories/OwnProps.v
theories/OwnListModel.v
theories/OwnListDriver.v
theories/OwnListSame.v
theories/OwnListProofs.v
theories/OwnListProofs2.v
theories/OwnListProofs3.v
theories/OwnListExamples.v
theories/OwnListProps.v
