-Q theories Verif
theories/AggFloat.v
theories/AggMerge.v
theories/AggModel.v
theories/AggProofs.v
theories/AggProps.v
theories/AggRow.v
theories/AggSpec.v
theories/Base.v
theories/BinMain.v
theories/BinMainProofs.v
theories/BinMainProps.v
theories/BinMainSpec.v
theories/BinModel.v
theories/BinProofs.v
theories/BinProps.v
theories/BinSpec.v
theories/CacheProofs.v
theories/CalcMain.v
theories/CalcMainProofs.v
theories/CalcMainProps.v
theories/CalcMainSpec.v
theories/CatProofs.v
theories/CatProps.v
theories/CatSortProps.v
theories/CatSpec.v
theories/CheckModel.v
theories/CheckProofs.v
theories/CheckProps.v
theories/CliModel.v
theories/CliProofs.v
theories/CliProps.v
theories/ColCompProofs.v
theories/ColModel.v
theories/ColProofs.v
theories/ColProps.v
theories/ColSpec.v
theories/ColWriteProofs.v
theories/CompModel.v
theories/CompProofs.v
theories/CompProps.v
theories/CompSpec.v
theories/CutMain.v
theories/CutMainExpr.v
theories/CutMainProofs.v
theories/CutMainProps.v
theories/CutMainSpec.v
theories/CutPasteProps.v
theories/DecOrder.v
theories/DecProofs.v
theories/DecProps.v
theories/DecSpec.v
theories/EofProps.v
theories/EvenProps.v
theories/ExprCols.v
theories/ExprEval.v
theories/ExprFun.v
theories/ExprModel.v
theories/ExprProofs.v
theories/ExprProps.v
theories/ExprRun.v
theories/ExprSpec.v
theories/ExprTok.v
theories/FloatInt.v
theories/FloatModel.v
theories/FloatProofs.v
theories/FloatProps.v
theories/FloatSpec.v
theories/FloatValid.v
theories/FmtModel.v
theories/FmtProofs.v
theories/FmtProps.v
theories/FmtSpec.v
theories/FormModel.v
theories/FracErr.v
theories/GenModel.v
theories/GenProofs.v
theories/GenProps.v
theories/GenSpec.v
theories/GlobExact.v
theories/GlobProofs.v
theories/GlobProps.v
theories/GlobSpec.v
theories/GrepSortProps.v
theories/HdrModel.v
theories/HdrProofs.v
theories/HdrProps.v
theories/HdrSpec.v
theories/HeadModel.v
theories/HeadProps.v
theories/HeadSpec.v
theories/HeapProofs.v
theories/IpProofs.v
theories/JoinMain.v
theories/JoinMainProofs.v
theories/JoinMainProps.v
theories/JoinMainSpec.v
theories/JoinMainTool.v
theories/JoinModel.v
theories/JoinProofs.v
theories/JoinProps.v
theories/JoinSpec.v
theories/JunkModel.v
theories/JunkProofs.v
theories/JunkProps.v
theories/JunkSpec.v
theories/KeyModel.v
theories/KeyProofs.v
theories/KeyProps.v
theories/KeySpec.v
theories/LineProofs.v
theories/LineSpec.v
theories/LocModel.v
theories/LocProofs.v
theories/LocProps.v
theories/LocSpec.v
theories/MatchModel.v
theories/MatchProofs.v
theories/MatchProps.v
theories/MatchSpec.v
theories/MatchText.v
theories/MergeProofs.v
theories/NumCache.v
theories/NumKeyProofs.v
theories/NumKeyProps.v
theories/NumKeySpec.v
theories/NumProofs.v
theories/NumText.v
theories/NumTextProps.v
theories/NumbCutProps.v
theories/NumbModel.v
theories/NumbProofs.v
theories/NumbProps.v
theories/NumbSpec.v
theories/OrdProofs.v
theories/OrderModel.v
theories/OrderProofs.v
theories/OrderProps.v
theories/OrderSame.v
theories/OrderSpec.v
theories/OrderTool.v
theories/PasteProofs.v
theories/PasteProps.v
theories/PasteSpec.v
theories/PickProofs.v
theories/PickProps.v
theories/PickSpec.v
theories/PipeProofs.v
theories/PipeProps.v
theories/PipeSpec.v
theories/RawSplitProofs.v
theories/ReadModel.v
theories/ReadProofs.v
theories/ReadProps.v
theories/ReadSpec.v
theories/RegModel.v
theories/RegProps.v
theories/SampEven.v
theories/SampFloat.v
theories/SampModel.v
theories/SampProofs.v
theories/SampProps.v
theories/SampSpec.v
theories/ShareProofs.v
theories/SortModel.v
theories/SortProofs.v
theories/SortProps.v
theories/SortSpec.v
theories/SortUniqProps.v
theories/SorterProofs.v
theories/StrModel.v
theories/StrProofs.v
theories/StrProps.v
theories/StrSpec.v
theories/SumErr.v
theories/SumProps.v
theories/SumSpec.v
theories/TabsMain.v
theories/TabsMainProofs.v
theories/TabsMainProps.v
theories/TabsMainSpec.v
theories/TabsModel.v
theories/TabsProofs.v
theories/TabsProps.v
theories/TabsSpec.v
theories/TestMain.v
theories/TestProofs.v
theories/TestProps.v
theories/TestSpec.v
theories/TestTight.v
theories/TextModel.v
theories/TextProofs.v
theories/TextProps.v
theories/TextSpec.v
theories/TightProps.v
theories/ToolModel.v
theories/ToolOpen.v
theories/TransModel.v
theories/TransProofs.v
theories/TransProps.v
theories/TransSpec.v
theories/TurnProofs.v
theories/TurnProps.v
theories/TurnSpec.v
theories/UniqMain.v
theories/UniqMainProofs.v
theories/UniqMainProps.v
theories/UniqMainSpec.v
theories/UniqMainTool.v
theories/UniqModel.v
theories/UniqProofs.v
theories/UniqProps.v
theories/UniqSpec.v
theories/UtfAscii.v
theories/UtfGlob.v
theories/UtfGlobExact.v
theories/UtfMode.v
theories/UtfModeProps.v
theories/UtfModel.v
theories/UtfProofs.v
theories/UtfProps.v
theories/UtfSpec.v
theories/ValDec.v
theories/ValProofs.v
theories/ValProps.v
theories/ValSame.v
theories/ValSpec.v
theories/VerProofs.v
theories/VerProps.v
theories/VerSpec.v
theories/WcModel.v
theories/WcProofs.v
theories/WcProps.v
theories/WcSpec.v
theories/Assumptions.v
