-Q theories Verif
theories/Base.v
theories/Reader.v
theories/ReaderSpec.v
theories/ReaderProofs.v
theories/ReaderProps.v
theories/Seq.v
theories/SeqProps.v
theories/Writer.v
theories/WriterProps.v
theories/Auth.v
theories/AuthProps.v
theories/Dict.v
theories/Breakpoints.v
theories/BreakpointsSpec.v
theories/BreakpointsProofs.v
theories/BreakpointsDapProofs.v
theories/BreakpointsProps.v
theories/HitCond.v
theories/HitCondProps.v
theories/ExcBreak.v
theories/ExcBreakSpec.v
theories/ExcBreakProofs.v
theories/ExcBreakProps.v
theories/Glob.v
theories/GlobSpec.v
theories/GlobProps.v
theories/Roots.v
theories/RootsProps.v
theories/FilterCache.v
theories/FilterCacheProps.v
theories/SafeRepr.v
theories/SafeReprProps.v
theories/Frames.v
theories/FramesProps.v
theories/Grouping.v
theories/GroupingProps.v
theories/Ids.v
theories/IdsProps.v
theories/Timeout.v
theories/TimeoutProps.v
theories/CmdQueue.v
theories/CmdQueueProps.v
theories/Notify.v
theories/NotifyProps.v
theories/ThreadEvents.v
theories/ThreadEventsProps.v
theories/LogMsg.v
theories/LogMsgProps.v
theories/PathMap.v
theories/PathMapProps.v
theories/SourceRef.v
theories/SourceRefProps.v
theories/WinArgs.v
theories/WinArgsProps.v
theories/PatchArgs.v
theories/PatchArgsProps.v
theories/CmdLine.v
theories/CmdLineProps.v
theories/Redirect.v
theories/RedirectProps.v
theories/ListView.v
theories/ListViewProps.v
theories/DictView.v
theories/DictViewProps.v
theories/SourceMap.v
theories/SourceMapProps.v
theories/LineValid.v
theories/LineValidProps.v
theories/StepInfo.v
theories/StepInfoProps.v
theories/CustomFrames.v
theories/CustomFramesProps.v
theories/Stack.v
theories/StackProps.v
theories/Modules.v
theories/ModulesProps.v
theories/SetBreak.v
theories/SetBreakProps.v
theories/Step.v
theories/StepProofs.v
theories/StepProps.v
theories/Mon.v
theories/MonProofs.v
theories/MonProps.v
theories/Rpc.v
theories/RpcSpec.v
theories/RpcProofs.v
theories/RpcProps.v
theories/Watch.v
theories/WatchProps.v
theories/Smart.v
theories/SmartProps.v
theories/Assign.v
theories/AssignProps.v
theories/Reload.v
theories/ReloadProps.v
theories/Xml.v
theories/XmlProps.v
theories/TestRun.v
theories/TestRunProps.v
theories/Goto.v
theories/GotoProps.v
theories/Options.v
theories/OptionsProps.v
theories/FrameEval.v
theories/FrameEvalProps.v
theories/FrameCache.v
theories/FrameCacheProps.v
theories/Django.v
theories/DjangoProps.v
theories/Jinja.v
theories/JinjaProps.v
theories/EvalName.v
theories/EvalNameProps.v
theories/ExcFlow.v
theories/ExcFlowProps.v
theories/KillTree.v
theories/KillTreeProps.v
theories/FutureImports.v
theories/FutureImportsProps.v
theories/EvalText.v
theories/EvalTextProps.v
theories/Completion.v
theories/CompletionProps.v
theories/TypeView.v
theories/TypeViewProps.v
theories/IgnoreExc.v
theories/IgnoreExcProps.v
theories/TryInfo.v
theories/TryInfoProps.v
theories/EvalUnblock.v
theories/EvalUnblockProps.v
theories/RetVals.v
theories/RetValsProps.v
theories/Detach.v
theories/DetachProps.v
theories/DontTrace.v
theories/DontTraceProps.v
theories/StartEnv.v
theories/StartEnvProps.v
theories/TraceProp.v
theories/TracePropProps.v
theories/ThreadId.v
theories/ThreadIdProps.v
theories/DapMessage.v
theories/DapSchema.v
theories/DapMessageProps.v
theories/ArrayView.v
theories/ArrayViewProps.v
theories/RunFile.v
theories/RunFileProps.v
theories/Getopt.v
theories/GetoptProps.v
theories/ConsoleIn.v
theories/ConsoleInProps.v
theories/ExcInfo.v
theories/ExcInfoProps.v
theories/RealCase.v
theories/RealCaseProps.v
