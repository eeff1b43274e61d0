-Q theories Verif
theories/Events.v
theories/Core.v
theories/CoreSpec.v
theories/CoreBase.v
theories/CleanupSim.v
theories/SessionSim.v
theories/CleanupTrace.v
theories/CleanupProps.v
theories/Frame.v
theories/Records.v
theories/RecordProps.v
theories/Broken.v
theories/Generic.v
theories/Reject.v
theories/ScopeProps.v
theories/RunnerSpec.v
theories/Runner.v
theories/RunLoop.v
theories/RunSession.v
theories/RunnerProps.v
theories/Iteration.v
theories/IterationProps.v
theories/CallAllProps.v
theories/Results.v
theories/ResultsProps.v
theories/Ctx.v
theories/CtxProps.v
theories/Str.v
theories/Matcher.v
theories/MatcherProps.v
theories/Dict.v
theories/Tags.v
theories/TagsProps.v
theories/Suite.v
theories/SuiteProps.v
theories/Loader.v
theories/LoaderProps.v
theories/FixtureGraph.v
theories/FixtureGraphProps.v
theories/FixtureLife.v
theories/FixtureLifeProps.v
theories/FixtureFinsProps.v
theories/Variations.v
theories/VariationsProps.v
theories/Exclusions.v
theories/ExclusionsProps.v
theories/Parallel.v
theories/ParallelBase.v
theories/ParallelSys.v
theories/ParallelProps.v
theories/Resume.v
theories/ResumeProps.v
theories/Plugins.v
theories/PluginsProps.v
theories/Warnings.v
theories/WarningsProps.v
theories/CliConf.v
theories/CliConfProps.v
theories/LocalConfig.v
theories/LocalConfigProps.v
theories/Marks.v
theories/MarksProps.v
theories/ConsoleLines.v
theories/ConsoleLinesProps.v
theories/LogFiles.v
theories/LogFilesProps.v
theories/ScopeSpec.v
theories/WellNested.v
theories/ScopeWordProps.v
theories/TestCall.v
theories/TestCallProps.v
theories/Requires.v
theories/RequiresProps.v
theories/FixtureArgs.v
theories/FixtureArgsProps.v
theories/App.v
theories/AppProps.v
theories/Expect.v
theories/ExpectProps.v
theories/Formatter.v
theories/FormatterProps.v
theories/Transfer.v
theories/TransferProps.v
theories/Details.v
theories/DetailsProps.v
theories/Debugger.v
theories/DebuggerProps.v
theories/XUnit.v
theories/XUnitProps.v
theories/Phase.v
theories/PhaseProps.v
theories/Parameters.v
theories/ParametersProps.v
theories/Naming.v
theories/NamingProps.v
theories/Swallow.v
theories/SwallowProps.v
theories/VarNames.v
theories/VarNamesProps.v
theories/Listing.v
theories/ListingProps.v
theories/Signals.v
theories/SignalsProps.v
theories/ReportEnd.v
theories/ReportEndProps.v
theories/Console.v
theories/ConsoleProps.v
theories/Notify.v
theories/NotifyProps.v
theories/LogRoute.v
theories/LogRouteProps.v
theories/Trace.v
theories/TraceProps.v
theories/Summary.v
theories/SummaryProps.v
theories/Terminal.v
theories/TerminalProps.v
theories/Manager.v
theories/ManagerProps.v
theories/Site.v
theories/SiteProps.v
theories/FuncMarks.v
theories/FuncMarksProps.v
theories/ParPlugins.v
theories/ParPluginsProps.v
theories/Links.v
theories/LinksProps.v
theories/Prelude.v
theories/PreludeProps.v
theories/Ext.v
theories/ExtProps.v
theories/Slow.v
theories/SlowProps.v
theories/Collect.v
theories/CollectProps.v
theories/Shown.v
theories/ShownProps.v
theories/Vars.v
theories/VarsProps.v
theories/Gather.v
theories/GatherProps.v
theories/TmuxWorkers.v
theories/TmuxWorkersProps.v
theories/WorkerCommand.v
theories/WorkerCommandProps.v
theories/WorkerReports.v
theories/WorkerReportsProps.v
theories/Globals.v
theories/GlobalsProps.v
theories/Errors.v
theories/ErrorsProps.v
theories/Decorators.v
theories/DecoratorsProps.v
theories/LogPaths.v
theories/LogPathsProps.v
theories/WarnCapture.v
theories/WarnCaptureProps.v
theories/SessionHooks.v
theories/SessionHooksProps.v
theories/ReqCheck.v
theories/ReqCheckProps.v
theories/TraceProxy.v
theories/TraceProxyProps.v
theories/PluginConf.v
theories/PluginConfProps.v
theories/Coverage.v
theories/CoverageProps.v
theories/ParVerdict.v
theories/ParVerdictProps.v
theories/PluginOptions.v
theories/PluginOptionsProps.v
theories/ParTermProps.v
theories/KeepAlive.v
theories/KeepAliveProps.v
theories/CustomHooks.v
theories/CustomHooksProps.v
theories/CiLinks.v
theories/CiLinksProps.v
theories/ColorStrings.v
theories/ColorStringsProps.v
theories/ResultInfo.v
theories/ResultInfoProps.v
theories/Interactive.v
theories/InteractiveProps.v
theories/Messages.v
theories/MessagesProps.v
theories/SessionInfo.v
theories/SessionInfoProps.v
theories/GenFixture.v
theories/GenFixtureProps.v
theories/FrameSource.v
theories/FrameSourceProps.v
theories/VerdictProps.v
theories/ResumeVerdictProps.v
theories/Stops.v
theories/StopsProps.v
theories/AppSetup.v
theories/AppSetupProps.v
theories/Told.v
theories/ToldProps.v
theories/CleanupArgs.v
theories/CleanupArgsProps.v
theories/CyclePath.v
theories/CyclePathProps.v
theories/NoSwallow.v
theories/NoSwallowProps.v
theories/SkipAll.v
theories/SkipAllProps.v
theories/Emit.v
theories/EmitProps.v
theories/FrameMark.v
theories/FrameMarkProps.v
theories/FixtureCall.v
theories/FixtureCallProps.v
theories/FixOrder.v
theories/Implicit.v
theories/ImplicitProps.v
theories/Flags.v
theories/FlagsProps.v
theories/SuccessOnlyProps.v
theories/TightProps.v
