-Q theories Verif
theories/Py.v
theories/PyFacts.v
theories/Regex.v
theories/Subst.v
theories/Fmt.v
theories/ApplySpec.v
theories/ApplyProofs.v
theories/Samples.v
theories/SubstSpec.v
theories/SubstProofs.v
theories/SweepProofs.v
theories/DiffProofs.v
theories/PropsApply.v
theories/PropsSubst.v
theories/FmtSpec.v
theories/FmtProofs.v
theories/RenderProofs.v
theories/PropsFmt.v
theories/Ast.v
theories/Template.v
theories/Search.v
theories/SearchSpec.v
theories/SearchProofs.v
theories/PragmaProofs.v
theories/RewriteProofs.v
theories/RegexProofs.v
theories/TemplateProofs.v
theories/PropsSearch.v
theories/Pragmas.v
theories/PragmaSpec.v
theories/ScopeProofs.v
theories/FromTextProofs.v
theories/PropsPragma.v
theories/Codec.v
theories/Runner.v
theories/RunnerSpec.v
theories/CodecProofs.v
theories/RunnerProofs.v
theories/ReportProofs.v
theories/PropsRunner.v
theories/FromDiff.v
theories/FromDiffSpec.v
theories/FromDiffProofs.v
theories/PropsDiff.v
theories/Cli.v
theories/CliSpec.v
theories/CliProofs.v
theories/PropsCli.v
theories/Matcher.v
theories/MatchSpec.v
theories/MergeSpec.v
theories/MergeProofs.v
theories/MatcherProofs.v
theories/BindProofs.v
theories/SampleTrees.v
theories/PropsMatch.v
theories/FindSpec.v
theories/FindProofs.v
theories/OnceProofs.v
theories/PropsFind.v
theories/NavSpec.v
theories/NavProofs.v
theories/Uniq.v
theories/UniqSpec.v
theories/UniqProofs.v
theories/PropsNav.v
theories/CollSpec.v
theories/CollProofs.v
theories/GlobProofs.v
theories/PropsColl.v
theories/GlobSpec.v
theories/GlobExact.v
theories/PropsGlob.v
theories/PatTok.v
theories/PatSpec.v
theories/PatTokProofs.v
theories/LexProofs.v
theories/PropsLex.v
theories/Pattern.v
theories/PatternSpec.v
theories/EquivProofs.v
theories/PatternProofs.v
theories/PatternApi.v
theories/RenameProofs.v
theories/PropsPattern.v
theories/PyTemplate.v
theories/PyTemplateSpec.v
theories/PyTemplateProofs.v
theories/PropsTemplate.v
theories/OwnSpec.v
theories/OwnProofs.v
theories/Removal.v
theories/Fixer.v
theories/FixerSpec.v
theories/FixerProofs.v
theories/PropsFixer.v
theories/RemovalSpec.v
theories/RemovalProofs.v
theories/RemovalApi.v
theories/RemovalSearch.v
theories/RemovalLayout.v
theories/ConstTemplate.v
theories/PropsRemoval.v
theories/Eval.v
theories/EvalSpec.v
theories/EvalProofs.v
theories/PropsEval.v
theories/ColourSpec.v
theories/ColourProofs.v
theories/PropsColour.v
theories/FilterSpec.v
theories/FilterProofs.v
theories/PropsFilter.v
theories/Main.v
theories/MainSpec.v
theories/MainProofs.v
theories/PropsMain.v
theories/ReSubSpec.v
theories/ReSubProofs.v
theories/PropsReSub.v
theories/Interrupt.v
theories/InterruptSpec.v
theories/InterruptProofs.v
theories/PropsInterrupt.v
theories/ExprSubSpec.v
theories/ExprSubProofs.v
theories/PropsExprSub.v
theories/PyCode.v
theories/BuiltinFixers.v
theories/CodeProofs.v
theories/BuiltinProofs.v
theories/BuiltinSpec.v
theories/BuiltinApply.v
theories/BuiltinTables.v
theories/BuiltinMain.v
theories/CorrectnessFixers.v
theories/CorrectnessSpec.v
theories/IdiomSpec.v
theories/BuiltinSample.v
theories/PropsBuiltin.v
theories/CorrectnessProofs.v
theories/CorrectnessMain.v
theories/CorrectnessSearch.v
theories/CorrectnessSample.v
theories/PropsCorrectness.v
theories/ThoroughSpec.v
theories/ThoroughCode.v
theories/ThoroughProofs.v
theories/ThoroughSearch.v
theories/ThoroughMain.v
theories/ThoroughAttrib.v
theories/ThoroughTables.v
theories/PropsThorough.v
theories/IdiomFixers.v
theories/IdiomProofs.v
theories/IdiomThorough.v
theories/IdiomSample.v
theories/PropsIdiom.v
theories/LoggingSpec.v
theories/LoggingEval.v
theories/LoggingProofs.v
theories/LoggingError.v
theories/LoggingMain.v
theories/LoggingSample.v
theories/PropsLogging.v
theories/LoggingExcSpec.v
theories/LoggingExc.v
theories/LoggingExcProofs.v
theories/LoggingExcMain.v
theories/LoggingExcSample.v
theories/PropsLoggingExc.v
theories/External.v
theories/ExternalProofs.v
theories/PropsExternal.v
theories/AllSpec.v
theories/AllProofs.v
theories/AllSample.v
theories/PropsAll.v
theories/IterSpec.v
theories/IterProofs.v
theories/IterAll.v
theories/IterSample.v
theories/OverlapSample.v
theories/PropsIter.v
theories/FixMode.v
theories/OneRoundSpec.v
theories/PiecesSpec.v
theories/Pieces.v
theories/OneRound.v
theories/OneRoundAll.v
theories/PropsFixMode.v
theories/ErrorStrings.v
theories/ErrorSpec.v
theories/ErrorProofs.v
theories/PropsError.v
theories/Rxerr.v
theories/ShellSpec.v
theories/PropsRxerr.v
theories/Examples.v
theories/PropsExamples.v
theories/PropsPieces.v
theories/WrittenSpec.v
theories/Written.v
theories/PropsWritten.v
theories/Compile.v
theories/CompileSpec.v
theories/CompileProofs.v
theories/CompileTable.v
theories/CompileExpr.v
theories/PropsCompile.v
theories/DiffExact.v
theories/PropsPreview.v
theories/Shorthand.v
theories/PropsShorthand.v
theories/SumMatcher.v
theories/SumSpec.v
theories/SumProofs.v
theories/PropsSum.v
