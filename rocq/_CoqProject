-Q theories Verif
theories/Base.v
theories/BaseProofs.v
theories/Text.v
theories/MatchModel.v
theories/MatchSafety.v
theories/MatchSpec.v
theories/MatchProofs.v
theories/MatchLang.v
theories/MatchFacts.v
theories/MatchProps.v
theories/Bytes.v
theories/UtilModel.v
theories/UtilProofs.v
theories/TimetagModel.v
theories/TimetagSpec.v
theories/TimetagDays.v
theories/TimetagProofs.v
theories/WireSpec.v
theories/AtomSModel.v
theories/SerialModel.v
theories/SerialSpec.v
theories/SerialProofs.v
theories/SerialProps.v
theories/WireModel.v
theories/WireProofs.v
theories/WireWalk.v
theories/ArgProofs.v
theories/WireProps.v
theories/ArgProps.v
theories/DeserProofs.v
theories/DeserProps.v
theories/BundleSModel.v
theories/BundleSProofs.v
theories/BundleSProps.v
theories/HeapModel.v
theories/HeapSpec.v
theories/HeapProofs.v
theories/HeapProps.v
theories/BundleUModel.v
theories/BundleUSpec.v
theories/BundleUProofs.v
theories/BundleUProps.v
theories/HashModel.v
theories/HashSpec.v
theories/HashProofs.v
theories/HashProps.v
theories/FloatModel.v
theories/AtomUModel.v
theories/AtomSpec.v
theories/FloatProofs.v
theories/AtomProofs.v
theories/AtomProps.v
theories/NumProps.v
theories/RoundSpec.v
theories/RoundProofs.v
theories/RoundProps.v
theories/QueryModel.v
theories/QuerySpec.v
theories/QueryProofs.v
theories/QueryProps.v
theories/DispatchModel.v
theories/DispatchSpec.v
theories/DispatchProofs.v
theories/DispatchProps.v
theories/StreamModel.v
theories/StreamSpec.v
theories/StreamProofs.v
theories/StreamRun.v
theories/StreamProps.v
theories/StreamFlaws.v
theories/StreamMessage.v
theories/ArrayModel.v
theories/ArrayProps.v
theories/StrfmtModel.v
theories/StrfmtProps.v
theories/TextProps.v
theories/TypetagModel.v
theories/TypetagProps.v
theories/UtilProps.v
theories/TimetagProps.v
theories/FArithModel.v
theories/ExprModel.v
theories/ExprListModel.v
theories/ExprSpec.v
theories/ExprProps.v
theories/ExprListProofs.v
theories/ExprListProps.v
theories/FlattenModel.v
theories/FlattenSpec.v
theories/FlattenProofs.v
theories/FlattenProps.v
theories/BundleSetProps.v
theories/RealSpec.v
theories/CompareProofs.v
theories/CompareProps.v
theories/StickyProofs.v
theories/FArithProofs.v
theories/FArithProps.v
theories/LogicSpec.v
theories/LogicProps.v
theories/FormatModel.v
theories/FormatSpec.v
theories/FormatProofs.v
theories/FormatProps.v
theories/EvalModel.v
theories/EvalSpec.v
theories/EvalRep.v
theories/EvalBundle.v
theories/EvalProofs.v
theories/EvalSim.v
theories/EvalSteps.v
theories/EvalStdModel.v
theories/EvalStdSpec.v
theories/EvalStdProofs.v
theories/EvalProps.v
theories/StatModel.v
theories/StatSpec.v
theories/StatProofs.v
theories/StatProps.v
theories/FnStrModel.v
theories/FnStrSpec.v
theories/FnStrProofs.v
theories/FnStrProps.v
theories/FnNumModel.v
theories/FnNumSpec.v
theories/FnNumProofs.v
theories/FnNumProps.v
theories/FnCastModel.v
theories/FnCastSpec.v
theories/FnCastProofs.v
theories/FnCastProps.v
theories/ScanModel.v
theories/ScanSpec.v
theories/ScanProofs.v
theories/ScanTokens.v
theories/ScanGrammar.v
theories/ScanProps.v
theories/ExprParseModel.v
theories/ExprParseSpec.v
theories/ExprParseProofs.v
theories/ExprReads.v
theories/ExprSound.v
theories/ExprTotal.v
theories/ExprMeaning.v
theories/ExprTop.v
theories/ExprTextSpec.v
theories/ExprScan.v
theories/ExprParseProps.v
theories/RunModel.v
theories/RunSpec.v
theories/RunProofs.v
theories/RunText.v
theories/RunProps.v
theories/BuildModel.v
theories/BuildSpec.v
theories/BuildProps.v
theories/MemberModel.v
theories/MemberSpec.v
theories/MemberProofs.v
theories/MemberProps.v
theories/TreeModel.v
theories/TreeProps.v
theories/ExprShowModel.v
theories/ExprShowSpec.v
theories/ExprShowProps.v
theories/AskModel.v
theories/AskProps.v
theories/TreeHeapModel.v
theories/TreeHeapSpec.v
theories/TreeHeapProofs.v
theories/TreeHeapProps.v
theories/AritySpec.v
theories/ArityProps.v
theories/ExprArgsModel.v
theories/ExprArgsProps.v
theories/BundleHeapModel.v
theories/BundleHeapSpec.v
theories/BundleHeapProofs.v
theories/BundleHeapProps.v
theories/VtRenameModel.v
theories/VtRenameSpec.v
theories/VtRenameProps.v
theories/AtomOwnModel.v
theories/AtomOwnSpec.v
theories/AtomOwnProps.v
theories/ListTextModel.v
theories/ListTextSpec.v
theories/ListTextProps.v
theories/TokenizeModel.v
theories/TokenizeSpec.v
theories/TokenizeProps.v
theories/RsetHeapModel.v
theories/RsetHeapSpec.v
theories/RsetHeapProofs.v
theories/RsetHeapProps.v
theories/ClockModel.v
theories/ClockSpec.v
theories/ClockProps.v
theories/CloneModel.v
theories/CloneSpec.v
theories/CloneProps.v
theories/FunRecModel.v
theories/FunRecSpec.v
theories/FunRecProofs.v
theories/FunRecProps.v
theories/RecCopyModel.v
theories/RecCopySpec.v
theories/RecCopyProps.v
theories/NumArrayModel.v
theories/NumArraySpec.v
theories/NumArrayProps.v
