-Q theories Verif
theories/PyStr.v
theories/Ast.v
theories/Lex.v
theories/Parse.v
theories/Final.v
theories/Eval.v
theories/Builtin.v
theories/Shell.v
theories/Codec.v
theories/Loc.v
theories/PyStrFacts.v
theories/LexSpec.v
theories/LexFacts.v
theories/LexFacts2.v
theories/NumFacts.v
theories/LexCases.v
theories/Properties_Lex.v
theories/FinalSpec.v
theories/FinalFacts.v
theories/FinalCases.v
theories/Properties_Final.v
theories/TrimSpec.v
theories/TrimFacts.v
theories/TrimFacts2.v
theories/OffsetSpec.v
theories/BrowseSpec.v
theories/OffsetFacts.v
theories/OffsetFacts2.v
theories/OffsetFacts3.v
theories/OffsetFacts4.v
theories/Browse.v
theories/OffsetFacts5.v
theories/TrimCases.v
theories/EnvSpec.v
theories/EnvFacts.v
theories/EnvCases.v
theories/Properties_Env.v
theories/LocSpec.v
theories/LocFacts.v
theories/LocCases.v
theories/PlaceFacts.v
theories/Properties_Loc.v
theories/ShellSpec.v
theories/ShellFacts.v
theories/ShellFacts2.v
theories/ShellFacts3.v
theories/ShellCases.v
theories/Properties_Shell.v
theories/CodecSpec.v
theories/CodecFacts.v
theories/CodecCases.v
theories/CodecCases2.v
theories/Properties_Codec.v
theories/EvalSpec.v
theories/EvalMono.v
theories/EvalKeep.v
theories/EvalPure.v
theories/EvalFacts.v
theories/EvalFacts2.v
theories/EvalFacts3.v
theories/EvalFacts4.v
theories/EvalCases.v
theories/Properties_Eval.v
theories/ApplyFacts.v
theories/ApplyFacts2.v
theories/ApplyFacts3.v
theories/ApplyFacts4.v
theories/ApplyCases.v
theories/Properties_Apply.v
theories/Properties_Trim.v
theories/FormatSpec.v
theories/FormatFacts.v
theories/FormatFacts2.v
theories/BuiltinSpec.v
theories/BuiltinFacts.v
theories/FormatCases.v
theories/Properties_Format.v
theories/Pp.v
theories/PpSpec.v
theories/ParseSpec.v
theories/ParseFacts.v
theories/ParseFacts2.v
theories/ParseFacts3.v
theories/ParseFacts4.v
theories/ParseFacts5.v
theories/ParseCases.v
theories/Properties_Parse.v
theories/PpFacts.v
theories/PpFacts2.v
theories/HeaderFacts.v
theories/PpFacts3.v
theories/PpCases.v
theories/Properties_Pp.v
theories/ProtectSpec.v
theories/ProtectFacts.v
theories/ProtectCases.v
theories/Properties_Protect.v
theories/ExprSpec.v
theories/ExprFacts.v
theories/ExprFacts2.v
theories/ExprFacts3.v
theories/DocSpec.v
theories/ExprShow.v
theories/DocFacts.v
theories/ConfSpec.v
theories/ConfFacts.v
theories/ConfCases.v
theories/ReadFacts.v
theories/Properties_Conf.v
theories/Properties_Recur.v
theories/SheetSpec.v
theories/SheetFacts.v
theories/SheetCases.v
theories/StdSpec.v
theories/StdParse.v
theories/StdFacts.v
theories/StdRun.v
theories/StdCases.v
theories/ReadStd.v
theories/Properties_Std.v
theories/ExprCases.v
theories/Properties_Expr.v
theories/ModuleFacts.v
theories/ModuleCases.v
theories/Properties_Module.v
theories/Builtin2.v
theories/Kit.v
theories/Eg.v
theories/KitCases.v
theories/EgCases.v
theories/TextSpec.v
theories/TextFacts.v
theories/TextCases.v
theories/QuoteSpec.v
theories/QuoteFacts.v
theories/NameSpec.v
theories/NameFacts.v
theories/NameCases.v
theories/MoreSpec.v
theories/MoreCases.v
theories/SliceCases.v
theories/Properties_Slice.v
theories/Properties_Late.v
theories/SliceSpec.v
theories/Properties_Name.v
theories/OrderCases.v
theories/Properties_Order.v
theories/Properties_Text.v
theories/CoreSpec.v
theories/CoreFacts.v
theories/CoreFacts2.v
theories/LateSpec.v
theories/LateFacts.v
theories/LateCases.v
theories/CoreCases.v
theories/Properties_Core.v
theories/DefSpec.v
theories/DefFacts.v
theories/DefCases.v
theories/Properties_Def.v
theories/RunSpec.v
theories/ChainFacts.v
theories/RunFacts.v
theories/RunFacts2.v
theories/RunCases.v
theories/MacroCases.v
theories/RecurCases.v
theories/MutualCases.v
theories/LoopCases.v
theories/SourceFacts.v
theories/Properties_Source.v
theories/Properties_Run.v
theories/FlatSpec.v
theories/FlatParse.v
theories/FlatFacts.v
theories/FlatEval.v
theories/FlatBuiltin.v
theories/FlatRun.v
theories/FlatCases.v
theories/Properties_Browse.v
theories/RunHead.v
theories/PyLitFacts.v
theories/PyCases.v
theories/Properties_Python.v
theories/UseSpec.v
theories/UseFacts.v
theories/UseFacts2.v
theories/UseFacts3.v
theories/UseFacts4.v
theories/UseCases.v
theories/ChainCases.v
theories/ReadCases.v
theories/Properties_Use.v
theories/Title.v
theories/TitleSpec.v
theories/TitleFacts.v
theories/TitleCases.v
theories/Properties_Title.v
theories/MacroSpec.v
theories/MacroFacts.v
theories/MacroCases2.v
theories/Properties_Macro.v
theories/StdCases2.v
theories/StdCases3.v
theories/Properties_Std2.v
theories/Properties_Std3.v
theories/GuardSpec.v
theories/GuardCases.v
theories/GuardUse.v
theories/GuardMore.v
theories/GuardRun.v
theories/GuardFinal.v
theories/GuardMore2.v
theories/Properties_Guard.v
theories/Properties_Guard2.v
theories/CppSpec.v
theories/CppFacts.v
theories/CppCases.v
theories/CppSpec2.v
theories/CppMacros.v
theories/Properties_Cpp.v
theories/Properties_Cpp2.v
theories/RangeCases.v
theories/Properties_Range.v
theories/DefaultCases.v
theories/Properties_Default.v
