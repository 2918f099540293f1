-Q theories Verif
theories/Base.v
theories/BaseLemmas.v
theories/SourceModel.v
theories/SourceSpec.v
theories/SourceProofs.v
theories/LineMapModel.v
theories/LineMapSpec.v
theories/LineMapProofs.v
theories/ArrayModel.v
theories/ArraySpec.v
theories/ArrayProofs.v
theories/Num.v
theories/BcodeModel.v
theories/SymbolModel.v
theories/SymbolSpec.v
theories/SymbolProofs.v
theories/VmModel.v
theories/NumSpec.v
theories/NumLemmas.v
theories/DoubleProofs.v
theories/VmLemmas.v
theories/VmSpec.v
theories/ControlProofs.v
theories/VmTyping.v
theories/KindProofs.v
theories/AlikeProofs.v
theories/DefProofs.v
theories/SessionSpec.v
theories/PlaceProofs.v
theories/PromptProofs.v
theories/RunProofs.v
theories/ContProofs.v
theories/TypedProofs.v
theories/ValueSpec.v
theories/ValueProofs.v
theories/QuotientProofs.v
theories/OpSpec.v
theories/OpProofs.v
theories/PrintSpec.v
theories/PrintProofs.v
theories/StoreSpec.v
theories/StoreProofs.v
theories/StoreFrames.v
theories/DataSpec.v
theories/DataProofs.v
theories/ForSpec.v
theories/ForProofs.v
theories/LexModel.v
theories/ParseModel.v
theories/SessionModel.v
theories/MonitorModel.v
theories/SystemModel.v
theories/Examples.v
theories/Prop_Source.v
theories/Prop_LineMap.v
theories/Prop_Array.v
theories/Prop_Symbol.v
theories/Prop_Control.v
theories/Prop_For.v
theories/Prop_Ops.v
theories/Prop_Print.v
theories/VarSpec.v
theories/VarProofs.v
theories/Prop_Store.v
theories/Prop_Var.v
theories/Prop_Data.v
theories/FnSpec.v
theories/FnProofs.v
theories/Prop_Fn.v
theories/LexSpec.v
theories/LexProofs.v
theories/GrammarSpec.v
theories/ParseProofs.v
theories/StmtProofs.v
theories/TypeSpec.v
theories/CodeProofs.v
theories/CompileProofs.v
theories/LineSpec.v
theories/LineProofs.v
theories/SessionProofs.v
theories/Prop_Lines.v
theories/Prop_Lex.v
theories/Prop_Parse.v
theories/MonSpec.v
theories/MonProofs.v
theories/OptSpec.v
theories/OptProofs.v
theories/Prop_Monitor.v
theories/Prop_Options.v
theories/RenumSpec.v
theories/RenumProofs.v
theories/Prop_Renum.v
theories/MainProofs.v
theories/Prop_Session.v
theories/EvalSpec.v
theories/EvalOps.v
theories/BlameProofs.v
theories/EvalProofs.v
theories/StepSpec.v
theories/StepProofs.v
theories/Prop_Eval.v
theories/RunSpec.v
theories/ErrSpec.v
theories/ErrProofs.v
theories/BeginProofs.v
theories/ShortProofs.v
theories/ExecProofs.v
theories/TalkSpec.v
theories/TalkProofs.v
theories/Prop_Talk.v
theories/ArithSpec.v
theories/ArithProofs.v
theories/Prop_Arith.v
theories/FormatSpec.v
theories/FormatProofs.v
theories/Prop_Format.v
theories/Prop_Step.v
theories/OrdinaryProofs.v
theories/SafeSpec.v
theories/SafeProofs.v
theories/SafeCode.v
theories/SafeRun.v
theories/SafeCrash.v
theories/SafeTop.v
theories/ReportSpec.v
theories/WhereProofs.v
theories/ReportProofs.v
theories/SafeInv.v
theories/SafePrompt.v
theories/Prop_Safe.v
theories/Prop_Report.v
theories/InputSpec.v
theories/InputProofs.v
theories/Prop_Input.v
theories/DatumProofs.v
theories/Prop_Datum.v
theories/CompleteProofs.v
theories/CompleteStmts.v
theories/CompleteLines.v
theories/Prop_Accept.v
theories/NameSpec.v
theories/NameProofs.v
theories/Prop_Names.v
theories/TextNumSpec.v
theories/RoundProofs.v
theories/TextNumProofs.v
theories/NumberProofs.v
theories/Prop_Number.v
theories/TraceSpec.v
theories/TraceProofs.v
theories/TraceRun.v
theories/SafeFile.v
theories/SafeTraced.v
theories/SafeTyped.v
theories/SafeHeld.v
theories/Prop_Trace.v
