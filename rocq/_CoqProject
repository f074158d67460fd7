-Q theories Verif

theories/Base.v
theories/PyNum.v
theories/TypeUtils.v
theories/Syntax.v
theories/State.v
theories/Context.v
theories/Subst.v
theories/LaunchArgs.v
theories/Exec.v
theories/Service.v
theories/SpecContext.v
theories/CtxFacts.v
theories/PropsContext.v
theories/SpecSubst.v
theories/SubstFacts.v
theories/SubstLaws.v
theories/ExWorld.v
theories/TypeFacts.v
theories/PropsSubst.v
theories/SpecNum.v
theories/NumFacts.v
theories/PropsTypes.v
theories/SpecExec.v
theories/ExecFacts.v
theories/SpecVisit.v
theories/VisitFacts.v
theories/PropsVisit.v
theories/HandleFacts.v
theories/StepFacts.v
theories/SpecEvents.v
theories/EventFacts.v
theories/PropsEvents.v
theories/SpecActions.v
theories/ActionFacts.v
theories/ArgsFacts.v
theories/PropsActions.v
theories/MicroSteps.v
theories/OwnFacts.v
theories/ProcFacts.v
theories/SpecProc.v
theories/LifeFacts.v
theories/ProcLaws.v
theories/RespawnFacts.v
theories/PropsProc.v
theories/ProcApi.v
theories/SpecOutput.v
theories/OutputFacts.v
theories/PropsOutput.v
theories/SpecNames.v
theories/NameFacts.v
theories/PropsNames.v
theories/TimerSteps.v
theories/StayFacts.v
theories/SpecTimer.v
theories/InstallFacts.v
theories/TimerFacts.v
theories/TimerLaws.v
theories/PropsTimer.v
theories/SpecEscalate.v
theories/EscalateFacts.v
theories/StopFacts.v
theories/PropsEscalate.v
theories/SpecService.v
theories/ServiceFacts.v
theories/PropsService.v
theories/Cmdline.v
theories/SpecCmdline.v
theories/CmdlineFacts.v
theories/Frontend.v
theories/SpecFrontend.v
theories/FrontendFacts.v
theories/ParseMethods.v
theories/PropsFrontend.v
theories/Logging.v
theories/SpecLogging.v
theories/StrFacts.v
theories/LoggingFacts.v
theories/LoggingLaws.v
theories/PropsLogging.v
theories/Signals.v
theories/SpecSignals.v
theories/SignalFacts.v
theories/PropsSignals.v
theories/Testing.v
theories/SpecTesting.v
theories/TestingFacts.v
theories/PropsTesting.v
theories/Waiting.v
theories/SpecWaiting.v
theories/WaitingFacts.v
theories/PropsWaiting.v
theories/TextMatch.v
theories/SpecTextMatch.v
theories/TextMatchFacts.v
theories/PropsTextMatch.v
theories/CondWait.v
theories/SpecCondWait.v
theories/CondWaitFacts.v
theories/PropsCondWait.v
theories/TestRun.v
theories/SpecTestRun.v
theories/TestRunFacts.v
theories/PropsTestRun.v
theories/SpecPath.v
theories/PathFacts.v
theories/PropsPath.v
theories/SubstText.v
theories/SpecSubstText.v
theories/SubstTextFacts.v
theories/PropsSubstText.v
theories/LaunchPytest.v
theories/SpecLaunchPytest.v
theories/LaunchPytestFacts.v
theories/PropsLaunchPytest.v
theories/Legacy.v
theories/SpecLegacy.v
theories/LegacyFacts.v
theories/PropsLegacy.v
theories/Sources.v
theories/SpecSources.v
theories/SourcesFacts.v
theories/PropsSources.v
theories/Exposed.v
theories/SpecExposed.v
theories/ExposedFacts.v
theories/PropsExposed.v
theories/TestLoad.v
theories/SpecTestLoad.v
theories/TestLoadFacts.v
theories/PropsTestLoad.v
theories/Retry.v
theories/SpecRetry.v
theories/RetryFacts.v
theories/PropsRetry.v
theories/SpecProgress.v
theories/ProgressFacts.v
theories/PropsProgress.v
theories/SpecAlive.v
theories/AliveFacts.v
theories/AliveLaws.v
theories/PropsAlive.v
theories/Introspect.v
theories/SpecIntrospect.v
theories/IntrospectFacts.v
theories/PropsIntrospect.v
theories/PytestHooks.v
theories/SpecPytestHooks.v
theories/PytestHooksFacts.v
theories/PropsPytestHooks.v
theories/Registry.v
theories/SpecRegistry.v
theories/RegistryFacts.v
theories/PropsRegistry.v
theories/MarkupFiles.v
theories/SpecMarkupFiles.v
theories/PropsMarkupFiles.v
theories/Utf8.v
theories/SpecUtf8.v
theories/Utf8Facts.v
theories/PropsUtf8.v
theories/SpecMarkup.v
theories/MarkupFacts.v
theories/MarkupLaws.v
theories/SameFacts.v
theories/PropsMarkup.v
theories/SpecCommand.v
theories/CommandFacts.v
theories/PropsCommand.v
theories/SpecTimedTest.v
theories/TimedTestFacts.v
theories/PropsTimedTest.v
theories/LaunchFixtures.v
theories/SpecLaunchFixtures.v
theories/LaunchFixtureFacts.v
theories/PropsLaunchFixtures.v
theories/Iterables.v
theories/SpecIterables.v
theories/IterableFacts.v
theories/PropsIterables.v
theories/DeclareArg.v
theories/SpecDeclareArg.v
theories/DeclareArgFacts.v
theories/PropsDeclareArg.v
theories/SpecCoro.v
theories/CoroFacts.v
theories/PropsCoro.v
theories/SpecNeeded.v
theories/NeededFacts.v
theories/PropsNeeded.v
theories/ShowArgs.v
theories/SpecShowArgs.v
theories/ShowArgsFacts.v
theories/PropsShowArgs.v
theories/Checked.v
theories/SpecChecked.v
theories/CheckedFacts.v
theories/PropsChecked.v
theories/Growing.v
theories/SpecGrowing.v
theories/GrowingFacts.v
theories/PropsGrowing.v
theories/Levels.v
theories/SpecLevels.v
theories/LevelFacts.v
theories/PropsLevels.v
theories/SpecThisFile.v
theories/ThisFileFacts.v
theories/PropsThisFile.v
theories/SpecNesting.v
theories/NestingFacts.v
theories/NestingEnds.v
theories/PropsNesting.v
theories/SpecInline.v
theories/InlineFacts.v
theories/InlineLaws.v
theories/PropsInline.v
theories/SpecOpen.v
theories/OpenFacts.v
theories/OpenEvents.v
theories/PropsOpen.v
theories/SpecBalance.v
theories/BalanceFacts.v
theories/PropsBalance.v
