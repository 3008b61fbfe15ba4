(** The classes of the debug adapter protocol as tables (property C81), one line for each class, with the line of the class in
    /repo/_pydevd_bundle/_debug_adapter/pydevd_schema.py L10-17458; written from that file by a script: the properties in the
    order of to_dict, the parameters of __init__ and their defaults, the names translated by update_dict_ids_to_dap; then the
    names for which a class is registered. *)
From Coq Require Import String List ZArith Bool.
From Verif Require Import DapMessage.
Import ListNotations.
Open Scope list_scope.
Open Scope string_scope.

Definition dap : schema := [
  (* L9 *) ("ProtocolMessage", [Prop_ "type" Plain Required false;
     Prop_ "seq" Plain (Given (-1)) false]);
  (* L48 *) ("Request", [Prop_ "type" (Const "request") Required false;
     Prop_ "command" Plain Required false;
     Prop_ "seq" Plain (Given (-1)) false;
     Prop_ "arguments" Plain Optional false]);
  (* L101 *) ("Event", [Prop_ "type" (Const "event") Required false;
     Prop_ "event" Plain Required false;
     Prop_ "seq" Plain (Given (-1)) false;
     Prop_ "body" Plain Optional false]);
  (* L154 *) ("Response", [Prop_ "type" (Const "response") Required false;
     Prop_ "request_seq" Plain Required false;
     Prop_ "success" Plain Required false;
     Prop_ "command" Plain Required false;
     Prop_ "seq" Plain (Given (-1)) false;
     Prop_ "message" Plain Optional false;
     Prop_ "body" Plain Optional false]);
  (* L236 *) ("ErrorResponse", [Prop_ "type" (Const "response") Required false;
     Prop_ "request_seq" Plain Required false;
     Prop_ "success" Plain Required false;
     Prop_ "command" Plain Required false;
     Prop_ "body" Plain Required false;
     Prop_ "seq" Plain (Given (-1)) false;
     Prop_ "message" Plain Optional false]);
  (* L320 *) ("CancelRequest", [Prop_ "type" (Const "request") Required false;
     Prop_ "command" (Const "cancel") Required false;
     Prop_ "seq" Plain (Given (-1)) false;
     Prop_ "arguments" (Ref "CancelArguments") Optional false]);
  (* L402 *) ("CancelArguments", [Prop_ "requestId" Plain Optional false;
     Prop_ "progressId" Plain Optional false]);
  (* L448 *) ("CancelResponse", [Prop_ "type" (Const "response") Required false;
     Prop_ "request_seq" Plain Required false;
     Prop_ "success" Plain Required false;
     Prop_ "command" Plain Required false;
     Prop_ "seq" Plain (Given (-1)) false;
     Prop_ "message" Plain Optional false;
     Prop_ "body" Plain Optional false]);
  (* L530 *) ("InitializedEvent", [Prop_ "type" (Const "event") Required false;
     Prop_ "event" (Const "initialized") Required false;
     Prop_ "seq" Plain (Given (-1)) false;
     Prop_ "body" Plain Optional false]);
  (* L604 *) ("StoppedEvent", [Prop_ "type" (Const "event") Required false;
     Prop_ "event" (Const "stopped") Required false;
     Prop_ "body" Plain Required false;
     Prop_ "seq" Plain (Given (-1)) false]);
  (* L702 *) ("ContinuedEvent", [Prop_ "type" (Const "event") Required false;
     Prop_ "event" (Const "continued") Required false;
     Prop_ "body" Plain Required false;
     Prop_ "seq" Plain (Given (-1)) false]);
  (* L772 *) ("ExitedEvent", [Prop_ "type" (Const "event") Required false;
     Prop_ "event" (Const "exited") Required false;
     Prop_ "body" Plain Required false;
     Prop_ "seq" Plain (Given (-1)) false]);
  (* L829 *) ("TerminatedEvent", [Prop_ "type" (Const "event") Required false;
     Prop_ "event" (Const "terminated") Required false;
     Prop_ "seq" Plain (Given (-1)) false;
     Prop_ "body" Plain Optional false]);
  (* L894 *) ("ThreadEvent", [Prop_ "type" (Const "event") Required false;
     Prop_ "event" (Const "thread") Required false;
     Prop_ "body" Plain Required false;
     Prop_ "seq" Plain (Given (-1)) false]);
  (* L954 *) ("OutputEvent", [Prop_ "type" (Const "event") Required false;
     Prop_ "event" (Const "output") Required false;
     Prop_ "body" Plain Required false;
     Prop_ "seq" Plain (Given (-1)) false]);
  (* L1049 *) ("BreakpointEvent", [Prop_ "type" (Const "event") Required false;
     Prop_ "event" (Const "breakpoint") Required false;
     Prop_ "body" Plain Required false;
     Prop_ "seq" Plain (Given (-1)) false]);
  (* L1114 *) ("ModuleEvent", [Prop_ "type" (Const "event") Required false;
     Prop_ "event" (Const "module") Required false;
     Prop_ "body" Plain Required false;
     Prop_ "seq" Plain (Given (-1)) false]);
  (* L1177 *) ("LoadedSourceEvent", [Prop_ "type" (Const "event") Required false;
     Prop_ "event" (Const "loadedSource") Required false;
     Prop_ "body" Plain Required false;
     Prop_ "seq" Plain (Given (-1)) false]);
  (* L1240 *) ("ProcessEvent", [Prop_ "type" (Const "event") Required false;
     Prop_ "event" (Const "process") Required false;
     Prop_ "body" Plain Required false;
     Prop_ "seq" Plain (Given (-1)) false]);
  (* L1325 *) ("CapabilitiesEvent", [Prop_ "type" (Const "event") Required false;
     Prop_ "event" (Const "capabilities") Required false;
     Prop_ "body" Plain Required false;
     Prop_ "seq" Plain (Given (-1)) false]);
  (* L1392 *) ("ProgressStartEvent", [Prop_ "type" (Const "event") Required false;
     Prop_ "event" (Const "progressStart") Required false;
     Prop_ "body" Plain Required false;
     Prop_ "seq" Plain (Given (-1)) false]);
  (* L1480 *) ("ProgressUpdateEvent", [Prop_ "type" (Const "event") Required false;
     Prop_ "event" (Const "progressUpdate") Required false;
     Prop_ "body" Plain Required false;
     Prop_ "seq" Plain (Given (-1)) false]);
  (* L1557 *) ("ProgressEndEvent", [Prop_ "type" (Const "event") Required false;
     Prop_ "event" (Const "progressEnd") Required false;
     Prop_ "body" Plain Required false;
     Prop_ "seq" Plain (Given (-1)) false]);
  (* L1624 *) ("InvalidatedEvent", [Prop_ "type" (Const "event") Required false;
     Prop_ "event" (Const "invalidated") Required false;
     Prop_ "body" Plain Required false;
     Prop_ "seq" Plain (Given (-1)) false]);
  (* L1703 *) ("MemoryEvent", [Prop_ "type" (Const "event") Required false;
     Prop_ "event" (Const "memory") Required false;
     Prop_ "body" Plain Required false;
     Prop_ "seq" Plain (Given (-1)) false]);
  (* L1775 *) ("RunInTerminalRequest", [Prop_ "type" (Const "request") Required false;
     Prop_ "command" (Const "runInTerminal") Required false;
     Prop_ "arguments" (Ref "RunInTerminalRequestArguments") Required false;
     Prop_ "seq" Plain (Given (-1)) false]);
  (* L1847 *) ("RunInTerminalRequestArguments", [Prop_ "cwd" Plain Required false;
     Prop_ "args" (Array None) Required false;
     Prop_ "kind" Plain Optional false;
     Prop_ "title" Plain Optional false;
     Prop_ "env" Plain Optional false;
     Prop_ "argsCanBeInterpretedByShell" Plain Optional false]);
  (* L1938 *) ("RunInTerminalResponse", [Prop_ "type" (Const "response") Required false;
     Prop_ "request_seq" Plain Required false;
     Prop_ "success" Plain Required false;
     Prop_ "command" Plain Required false;
     Prop_ "body" Plain Required false;
     Prop_ "seq" Plain (Given (-1)) false;
     Prop_ "message" Plain Optional false]);
  (* L2035 *) ("StartDebuggingRequest", [Prop_ "type" (Const "request") Required false;
     Prop_ "command" (Const "startDebugging") Required false;
     Prop_ "arguments" (Ref "StartDebuggingRequestArguments") Required false;
     Prop_ "seq" Plain (Given (-1)) false]);
  (* L2100 *) ("StartDebuggingRequestArguments", [Prop_ "configuration" Plain Required false;
     Prop_ "request" Plain Required false]);
  (* L2152 *) ("StartDebuggingResponse", [Prop_ "type" (Const "response") Required false;
     Prop_ "request_seq" Plain Required false;
     Prop_ "success" Plain Required false;
     Prop_ "command" Plain Required false;
     Prop_ "seq" Plain (Given (-1)) false;
     Prop_ "message" Plain Optional false;
     Prop_ "body" Plain Optional false]);
  (* L2234 *) ("InitializeRequest", [Prop_ "type" (Const "request") Required false;
     Prop_ "command" (Const "initialize") Required false;
     Prop_ "arguments" (Ref "InitializeRequestArguments") Required false;
     Prop_ "seq" Plain (Given (-1)) false]);
  (* L2299 *) ("InitializeRequestArguments", [Prop_ "adapterID" Plain Required false;
     Prop_ "clientID" Plain Optional false;
     Prop_ "clientName" Plain Optional false;
     Prop_ "locale" Plain Optional false;
     Prop_ "linesStartAt1" Plain Optional false;
     Prop_ "columnsStartAt1" Plain Optional false;
     Prop_ "pathFormat" Plain Optional false;
     Prop_ "supportsVariableType" Plain Optional false;
     Prop_ "supportsVariablePaging" Plain Optional false;
     Prop_ "supportsRunInTerminalRequest" Plain Optional false;
     Prop_ "supportsMemoryReferences" Plain Optional false;
     Prop_ "supportsProgressReporting" Plain Optional false;
     Prop_ "supportsInvalidatedEvent" Plain Optional false;
     Prop_ "supportsMemoryEvent" Plain Optional false;
     Prop_ "supportsArgsCanBeInterpretedByShell" Plain Optional false;
     Prop_ "supportsStartDebuggingRequest" Plain Optional false]);
  (* L2448 *) ("InitializeResponse", [Prop_ "type" (Const "response") Required false;
     Prop_ "request_seq" Plain Required false;
     Prop_ "success" Plain Required false;
     Prop_ "command" Plain Required false;
     Prop_ "seq" Plain (Given (-1)) false;
     Prop_ "message" Plain Optional false;
     Prop_ "body" (Ref "Capabilities") Optional false]);
  (* L2530 *) ("ConfigurationDoneRequest", [Prop_ "type" (Const "request") Required false;
     Prop_ "command" (Const "configurationDone") Required false;
     Prop_ "seq" Plain (Given (-1)) false;
     Prop_ "arguments" (Ref "ConfigurationDoneArguments") Optional false]);
  (* L2593 *) ("ConfigurationDoneArguments", []);
  (* L2618 *) ("ConfigurationDoneResponse", [Prop_ "type" (Const "response") Required false;
     Prop_ "request_seq" Plain Required false;
     Prop_ "success" Plain Required false;
     Prop_ "command" Plain Required false;
     Prop_ "seq" Plain (Given (-1)) false;
     Prop_ "message" Plain Optional false;
     Prop_ "body" Plain Optional false]);
  (* L2701 *) ("LaunchRequest", [Prop_ "type" (Const "request") Required false;
     Prop_ "command" (Const "launch") Required false;
     Prop_ "arguments" (Ref "LaunchRequestArguments") Required false;
     Prop_ "seq" Plain (Given (-1)) false]);
  (* L2761 *) ("LaunchRequestArguments", [Prop_ "noDebug" Plain Optional false;
     Prop_ "__restart" Plain Optional false]);
  (* L2804 *) ("LaunchResponse", [Prop_ "type" (Const "response") Required false;
     Prop_ "request_seq" Plain Required false;
     Prop_ "success" Plain Required false;
     Prop_ "command" Plain Required false;
     Prop_ "seq" Plain (Given (-1)) false;
     Prop_ "message" Plain Optional false;
     Prop_ "body" Plain Optional false]);
  (* L2886 *) ("AttachRequest", [Prop_ "type" (Const "request") Required false;
     Prop_ "command" (Const "attach") Required false;
     Prop_ "arguments" (Ref "AttachRequestArguments") Required false;
     Prop_ "seq" Plain (Given (-1)) false]);
  (* L2946 *) ("AttachRequestArguments", [Prop_ "__restart" Plain Optional false]);
  (* L2983 *) ("AttachResponse", [Prop_ "type" (Const "response") Required false;
     Prop_ "request_seq" Plain Required false;
     Prop_ "success" Plain Required false;
     Prop_ "command" Plain Required false;
     Prop_ "seq" Plain (Given (-1)) false;
     Prop_ "message" Plain Optional false;
     Prop_ "body" Plain Optional false]);
  (* L3065 *) ("RestartRequest", [Prop_ "type" (Const "request") Required false;
     Prop_ "command" (Const "restart") Required false;
     Prop_ "seq" Plain (Given (-1)) false;
     Prop_ "arguments" (Ref "RestartArguments") Optional false]);
  (* L3126 *) ("RestartArguments", [Prop_ "arguments" Plain Optional false]);
  (* L3161 *) ("RestartResponse", [Prop_ "type" (Const "response") Required false;
     Prop_ "request_seq" Plain Required false;
     Prop_ "success" Plain Required false;
     Prop_ "command" Plain Required false;
     Prop_ "seq" Plain (Given (-1)) false;
     Prop_ "message" Plain Optional false;
     Prop_ "body" Plain Optional false]);
  (* L3243 *) ("DisconnectRequest", [Prop_ "type" (Const "request") Required false;
     Prop_ "command" (Const "disconnect") Required false;
     Prop_ "seq" Plain (Given (-1)) false;
     Prop_ "arguments" (Ref "DisconnectArguments") Optional false]);
  (* L3309 *) ("DisconnectArguments", [Prop_ "restart" Plain Optional false;
     Prop_ "terminateDebuggee" Plain Optional false;
     Prop_ "suspendDebuggee" Plain Optional false]);
  (* L3366 *) ("DisconnectResponse", [Prop_ "type" (Const "response") Required false;
     Prop_ "request_seq" Plain Required false;
     Prop_ "success" Plain Required false;
     Prop_ "command" Plain Required false;
     Prop_ "seq" Plain (Given (-1)) false;
     Prop_ "message" Plain Optional false;
     Prop_ "body" Plain Optional false]);
  (* L3448 *) ("TerminateRequest", [Prop_ "type" (Const "request") Required false;
     Prop_ "command" (Const "terminate") Required false;
     Prop_ "seq" Plain (Given (-1)) false;
     Prop_ "arguments" (Ref "TerminateArguments") Optional false]);
  (* L3518 *) ("TerminateArguments", [Prop_ "restart" Plain Optional false]);
  (* L3553 *) ("TerminateResponse", [Prop_ "type" (Const "response") Required false;
     Prop_ "request_seq" Plain Required false;
     Prop_ "success" Plain Required false;
     Prop_ "command" Plain Required false;
     Prop_ "seq" Plain (Given (-1)) false;
     Prop_ "message" Plain Optional false;
     Prop_ "body" Plain Optional false]);
  (* L3635 *) ("BreakpointLocationsRequest", [Prop_ "type" (Const "request") Required false;
     Prop_ "command" (Const "breakpointLocations") Required false;
     Prop_ "seq" Plain (Given (-1)) false;
     Prop_ "arguments" (Ref "BreakpointLocationsArguments") Optional false]);
  (* L3696 *) ("BreakpointLocationsArguments", [Prop_ "source" (Ref "Source") Required false;
     Prop_ "line" Plain Required false;
     Prop_ "column" Plain Optional false;
     Prop_ "endLine" Plain Optional false;
     Prop_ "endColumn" Plain Optional false]);
  (* L3769 *) ("BreakpointLocationsResponse", [Prop_ "type" (Const "response") Required false;
     Prop_ "request_seq" Plain Required false;
     Prop_ "success" Plain Required false;
     Prop_ "command" Plain Required false;
     Prop_ "body" Plain Required false;
     Prop_ "seq" Plain (Given (-1)) false;
     Prop_ "message" Plain Optional false]);
  (* L3866 *) ("SetBreakpointsRequest", [Prop_ "type" (Const "request") Required false;
     Prop_ "command" (Const "setBreakpoints") Required false;
     Prop_ "arguments" (Ref "SetBreakpointsArguments") Required false;
     Prop_ "seq" Plain (Given (-1)) false]);
  (* L3926 *) ("SetBreakpointsArguments", [Prop_ "source" (Ref "Source") Required false;
     Prop_ "breakpoints" (Array (Some "SourceBreakpoint")) Optional false;
     Prop_ "lines" (Array None) Optional false;
     Prop_ "sourceModified" Plain Optional false]);
  (* L3998 *) ("SetBreakpointsResponse", [Prop_ "type" (Const "response") Required false;
     Prop_ "request_seq" Plain Required false;
     Prop_ "success" Plain Required false;
     Prop_ "command" Plain Required false;
     Prop_ "body" Plain Required false;
     Prop_ "seq" Plain (Given (-1)) false;
     Prop_ "message" Plain Optional false]);
  (* L4101 *) ("SetFunctionBreakpointsRequest", [Prop_ "type" (Const "request") Required false;
     Prop_ "command" (Const "setFunctionBreakpoints") Required false;
     Prop_ "arguments" (Ref "SetFunctionBreakpointsArguments") Required false;
     Prop_ "seq" Plain (Given (-1)) false]);
  (* L4165 *) ("SetFunctionBreakpointsArguments", [Prop_ "breakpoints" (Array (Some "FunctionBreakpoint")) Required false]);
  (* L4208 *) ("SetFunctionBreakpointsResponse", [Prop_ "type" (Const "response") Required false;
     Prop_ "request_seq" Plain Required false;
     Prop_ "success" Plain Required false;
     Prop_ "command" Plain Required false;
     Prop_ "body" Plain Required false;
     Prop_ "seq" Plain (Given (-1)) false;
     Prop_ "message" Plain Optional false]);
  (* L4305 *) ("SetExceptionBreakpointsRequest", [Prop_ "type" (Const "request") Required false;
     Prop_ "command" (Const "setExceptionBreakpoints") Required false;
     Prop_ "arguments" (Ref "SetExceptionBreakpointsArguments") Required false;
     Prop_ "seq" Plain (Given (-1)) false]);
  (* L4366 *) ("SetExceptionBreakpointsArguments", [Prop_ "filters" (Array None) Required false;
     Prop_ "filterOptions" (Array (Some "ExceptionFilterOptions")) Optional false;
     Prop_ "exceptionOptions" (Array (Some "ExceptionOptions")) Optional false]);
  (* L4443 *) ("SetExceptionBreakpointsResponse", [Prop_ "type" (Const "response") Required false;
     Prop_ "request_seq" Plain Required false;
     Prop_ "success" Plain Required false;
     Prop_ "command" Plain Required false;
     Prop_ "seq" Plain (Given (-1)) false;
     Prop_ "message" Plain Optional false;
     Prop_ "body" Plain Optional false]);
  (* L4553 *) ("DataBreakpointInfoRequest", [Prop_ "type" (Const "request") Required false;
     Prop_ "command" (Const "dataBreakpointInfo") Required false;
     Prop_ "arguments" (Ref "DataBreakpointInfoArguments") Required false;
     Prop_ "seq" Plain (Given (-1)) false]);
  (* L4612 *) ("DataBreakpointInfoArguments", [Prop_ "name" Plain Required false;
     Prop_ "variablesReference" Plain Optional true;
     Prop_ "frameId" Plain Optional true]);
  (* L4690 *) ("DataBreakpointInfoResponse", [Prop_ "type" (Const "response") Required false;
     Prop_ "request_seq" Plain Required false;
     Prop_ "success" Plain Required false;
     Prop_ "command" Plain Required false;
     Prop_ "body" Plain Required false;
     Prop_ "seq" Plain (Given (-1)) false;
     Prop_ "message" Plain Optional false]);
  (* L4797 *) ("SetDataBreakpointsRequest", [Prop_ "type" (Const "request") Required false;
     Prop_ "command" (Const "setDataBreakpoints") Required false;
     Prop_ "arguments" (Ref "SetDataBreakpointsArguments") Required false;
     Prop_ "seq" Plain (Given (-1)) false]);
  (* L4860 *) ("SetDataBreakpointsArguments", [Prop_ "breakpoints" (Array (Some "DataBreakpoint")) Required false]);
  (* L4903 *) ("SetDataBreakpointsResponse", [Prop_ "type" (Const "response") Required false;
     Prop_ "request_seq" Plain Required false;
     Prop_ "success" Plain Required false;
     Prop_ "command" Plain Required false;
     Prop_ "body" Plain Required false;
     Prop_ "seq" Plain (Given (-1)) false;
     Prop_ "message" Plain Optional false]);
  (* L5000 *) ("SetInstructionBreakpointsRequest", [Prop_ "type" (Const "request") Required false;
     Prop_ "command" (Const "setInstructionBreakpoints") Required false;
     Prop_ "arguments" (Ref "SetInstructionBreakpointsArguments") Required false;
     Prop_ "seq" Plain (Given (-1)) false]);
  (* L5065 *) ("SetInstructionBreakpointsArguments", [Prop_ "breakpoints" (Array (Some "InstructionBreakpoint")) Required false]);
  (* L5108 *) ("SetInstructionBreakpointsResponse", [Prop_ "type" (Const "response") Required false;
     Prop_ "request_seq" Plain Required false;
     Prop_ "success" Plain Required false;
     Prop_ "command" Plain Required false;
     Prop_ "body" Plain Required false;
     Prop_ "seq" Plain (Given (-1)) false;
     Prop_ "message" Plain Optional false]);
  (* L5203 *) ("ContinueRequest", [Prop_ "type" (Const "request") Required false;
     Prop_ "command" (Const "continue") Required false;
     Prop_ "arguments" (Ref "ContinueArguments") Required false;
     Prop_ "seq" Plain (Given (-1)) false]);
  (* L5262 *) ("ContinueArguments", [Prop_ "threadId" Plain Required true;
     Prop_ "singleThread" Plain Optional false]);
  (* L5323 *) ("ContinueResponse", [Prop_ "type" (Const "response") Required false;
     Prop_ "request_seq" Plain Required false;
     Prop_ "success" Plain Required false;
     Prop_ "command" Plain Required false;
     Prop_ "body" Plain Required false;
     Prop_ "seq" Plain (Given (-1)) false;
     Prop_ "message" Plain Optional false]);
  (* L5414 *) ("NextRequest", [Prop_ "type" (Const "request") Required false;
     Prop_ "command" (Const "next") Required false;
     Prop_ "arguments" (Ref "NextArguments") Required false;
     Prop_ "seq" Plain (Given (-1)) false]);
  (* L5476 *) ("NextArguments", [Prop_ "threadId" Plain Required true;
     Prop_ "singleThread" Plain Optional false;
     Prop_ "granularity" (Enum ["instruction"; "line"; "statement"]) Optional false]);
  (* L5545 *) ("NextResponse", [Prop_ "type" (Const "response") Required false;
     Prop_ "request_seq" Plain Required false;
     Prop_ "success" Plain Required false;
     Prop_ "command" Plain Required false;
     Prop_ "seq" Plain (Given (-1)) false;
     Prop_ "message" Plain Optional false;
     Prop_ "body" Plain Optional false]);
  (* L5627 *) ("StepInRequest", [Prop_ "type" (Const "request") Required false;
     Prop_ "command" (Const "stepIn") Required false;
     Prop_ "arguments" (Ref "StepInArguments") Required false;
     Prop_ "seq" Plain (Given (-1)) false]);
  (* L5700 *) ("StepInArguments", [Prop_ "threadId" Plain Required true;
     Prop_ "singleThread" Plain Optional false;
     Prop_ "targetId" Plain Optional false;
     Prop_ "granularity" (Enum ["instruction"; "line"; "statement"]) Optional false]);
  (* L5775 *) ("StepInResponse", [Prop_ "type" (Const "response") Required false;
     Prop_ "request_seq" Plain Required false;
     Prop_ "success" Plain Required false;
     Prop_ "command" Plain Required false;
     Prop_ "seq" Plain (Given (-1)) false;
     Prop_ "message" Plain Optional false;
     Prop_ "body" Plain Optional false]);
  (* L5857 *) ("StepOutRequest", [Prop_ "type" (Const "request") Required false;
     Prop_ "command" (Const "stepOut") Required false;
     Prop_ "arguments" (Ref "StepOutArguments") Required false;
     Prop_ "seq" Plain (Given (-1)) false]);
  (* L5921 *) ("StepOutArguments", [Prop_ "threadId" Plain Required true;
     Prop_ "singleThread" Plain Optional false;
     Prop_ "granularity" (Enum ["instruction"; "line"; "statement"]) Optional false]);
  (* L5990 *) ("StepOutResponse", [Prop_ "type" (Const "response") Required false;
     Prop_ "request_seq" Plain Required false;
     Prop_ "success" Plain Required false;
     Prop_ "command" Plain Required false;
     Prop_ "seq" Plain (Given (-1)) false;
     Prop_ "message" Plain Optional false;
     Prop_ "body" Plain Optional false]);
  (* L6072 *) ("StepBackRequest", [Prop_ "type" (Const "request") Required false;
     Prop_ "command" (Const "stepBack") Required false;
     Prop_ "arguments" (Ref "StepBackArguments") Required false;
     Prop_ "seq" Plain (Given (-1)) false]);
  (* L6138 *) ("StepBackArguments", [Prop_ "threadId" Plain Required true;
     Prop_ "singleThread" Plain Optional false;
     Prop_ "granularity" (Enum ["instruction"; "line"; "statement"]) Optional false]);
  (* L6207 *) ("StepBackResponse", [Prop_ "type" (Const "response") Required false;
     Prop_ "request_seq" Plain Required false;
     Prop_ "success" Plain Required false;
     Prop_ "command" Plain Required false;
     Prop_ "seq" Plain (Given (-1)) false;
     Prop_ "message" Plain Optional false;
     Prop_ "body" Plain Optional false]);
  (* L6289 *) ("ReverseContinueRequest", [Prop_ "type" (Const "request") Required false;
     Prop_ "command" (Const "reverseContinue") Required false;
     Prop_ "arguments" (Ref "ReverseContinueArguments") Required false;
     Prop_ "seq" Plain (Given (-1)) false]);
  (* L6350 *) ("ReverseContinueArguments", [Prop_ "threadId" Plain Required true;
     Prop_ "singleThread" Plain Optional false]);
  (* L6411 *) ("ReverseContinueResponse", [Prop_ "type" (Const "response") Required false;
     Prop_ "request_seq" Plain Required false;
     Prop_ "success" Plain Required false;
     Prop_ "command" Plain Required false;
     Prop_ "seq" Plain (Given (-1)) false;
     Prop_ "message" Plain Optional false;
     Prop_ "body" Plain Optional false]);
  (* L6494 *) ("RestartFrameRequest", [Prop_ "type" (Const "request") Required false;
     Prop_ "command" (Const "restartFrame") Required false;
     Prop_ "arguments" (Ref "RestartFrameArguments") Required false;
     Prop_ "seq" Plain (Given (-1)) false]);
  (* L6556 *) ("RestartFrameArguments", [Prop_ "frameId" Plain Required true]);
  (* L6608 *) ("RestartFrameResponse", [Prop_ "type" (Const "response") Required false;
     Prop_ "request_seq" Plain Required false;
     Prop_ "success" Plain Required false;
     Prop_ "command" Plain Required false;
     Prop_ "seq" Plain (Given (-1)) false;
     Prop_ "message" Plain Optional false;
     Prop_ "body" Plain Optional false]);
  (* L6690 *) ("GotoRequest", [Prop_ "type" (Const "request") Required false;
     Prop_ "command" (Const "goto") Required false;
     Prop_ "arguments" (Ref "GotoArguments") Required false;
     Prop_ "seq" Plain (Given (-1)) false]);
  (* L6753 *) ("GotoArguments", [Prop_ "threadId" Plain Required true;
     Prop_ "targetId" Plain Required false]);
  (* L6807 *) ("GotoResponse", [Prop_ "type" (Const "response") Required false;
     Prop_ "request_seq" Plain Required false;
     Prop_ "success" Plain Required false;
     Prop_ "command" Plain Required false;
     Prop_ "seq" Plain (Given (-1)) false;
     Prop_ "message" Plain Optional false;
     Prop_ "body" Plain Optional false]);
  (* L6889 *) ("PauseRequest", [Prop_ "type" (Const "request") Required false;
     Prop_ "command" (Const "pause") Required false;
     Prop_ "arguments" (Ref "PauseArguments") Required false;
     Prop_ "seq" Plain (Given (-1)) false]);
  (* L6946 *) ("PauseArguments", [Prop_ "threadId" Plain Required true]);
  (* L6993 *) ("PauseResponse", [Prop_ "type" (Const "response") Required false;
     Prop_ "request_seq" Plain Required false;
     Prop_ "success" Plain Required false;
     Prop_ "command" Plain Required false;
     Prop_ "seq" Plain (Given (-1)) false;
     Prop_ "message" Plain Optional false;
     Prop_ "body" Plain Optional false]);
  (* L7075 *) ("StackTraceRequest", [Prop_ "type" (Const "request") Required false;
     Prop_ "command" (Const "stackTrace") Required false;
     Prop_ "arguments" (Ref "StackTraceArguments") Required false;
     Prop_ "seq" Plain (Given (-1)) false]);
  (* L7140 *) ("StackTraceArguments", [Prop_ "threadId" Plain Required true;
     Prop_ "startFrame" Plain Optional false;
     Prop_ "levels" Plain Optional false;
     Prop_ "format" (Ref "StackFrameFormat") Optional false]);
  (* L7219 *) ("StackTraceResponse", [Prop_ "type" (Const "response") Required false;
     Prop_ "request_seq" Plain Required false;
     Prop_ "success" Plain Required false;
     Prop_ "command" Plain Required false;
     Prop_ "body" Plain Required false;
     Prop_ "seq" Plain (Given (-1)) false;
     Prop_ "message" Plain Optional false]);
  (* L7318 *) ("ScopesRequest", [Prop_ "type" (Const "request") Required false;
     Prop_ "command" (Const "scopes") Required false;
     Prop_ "arguments" (Ref "ScopesArguments") Required false;
     Prop_ "seq" Plain (Given (-1)) false]);
  (* L7374 *) ("ScopesArguments", [Prop_ "frameId" Plain Required true]);
  (* L7426 *) ("ScopesResponse", [Prop_ "type" (Const "response") Required false;
     Prop_ "request_seq" Plain Required false;
     Prop_ "success" Plain Required false;
     Prop_ "command" Plain Required false;
     Prop_ "body" Plain Required false;
     Prop_ "seq" Plain (Given (-1)) false;
     Prop_ "message" Plain Optional false]);
  (* L7519 *) ("VariablesRequest", [Prop_ "type" (Const "request") Required false;
     Prop_ "command" (Const "variables") Required false;
     Prop_ "arguments" (Ref "VariablesArguments") Required false;
     Prop_ "seq" Plain (Given (-1)) false]);
  (* L7577 *) ("VariablesArguments", [Prop_ "variablesReference" Plain Required true;
     Prop_ "filter" Plain Optional false;
     Prop_ "start" Plain Optional false;
     Prop_ "count" Plain Optional false;
     Prop_ "format" (Ref "ValueFormat") Optional false]);
  (* L7672 *) ("VariablesResponse", [Prop_ "type" (Const "response") Required false;
     Prop_ "request_seq" Plain Required false;
     Prop_ "success" Plain Required false;
     Prop_ "command" Plain Required false;
     Prop_ "body" Plain Required false;
     Prop_ "seq" Plain (Given (-1)) false;
     Prop_ "message" Plain Optional false]);
  (* L7765 *) ("SetVariableRequest", [Prop_ "type" (Const "request") Required false;
     Prop_ "command" (Const "setVariable") Required false;
     Prop_ "arguments" (Ref "SetVariableArguments") Required false;
     Prop_ "seq" Plain (Given (-1)) false]);
  (* L7825 *) ("SetVariableArguments", [Prop_ "variablesReference" Plain Required true;
     Prop_ "name" Plain Required false;
     Prop_ "value" Plain Required false;
     Prop_ "format" (Ref "ValueFormat") Optional false]);
  (* L7896 *) ("SetVariableResponse", [Prop_ "type" (Const "response") Required false;
     Prop_ "request_seq" Plain Required false;
     Prop_ "success" Plain Required false;
     Prop_ "command" Plain Required false;
     Prop_ "body" Plain Required false;
     Prop_ "seq" Plain (Given (-1)) false;
     Prop_ "message" Plain Optional false]);
  (* L8007 *) ("SourceRequest", [Prop_ "type" (Const "request") Required false;
     Prop_ "command" (Const "source") Required false;
     Prop_ "arguments" (Ref "SourceArguments") Required false;
     Prop_ "seq" Plain (Given (-1)) false]);
  (* L8063 *) ("SourceArguments", [Prop_ "sourceReference" Plain Required false;
     Prop_ "source" (Ref "Source") Optional false]);
  (* L8111 *) ("SourceResponse", [Prop_ "type" (Const "response") Required false;
     Prop_ "request_seq" Plain Required false;
     Prop_ "success" Plain Required false;
     Prop_ "command" Plain Required false;
     Prop_ "body" Plain Required false;
     Prop_ "seq" Plain (Given (-1)) false;
     Prop_ "message" Plain Optional false]);
  (* L8201 *) ("ThreadsRequest", [Prop_ "type" (Const "request") Required false;
     Prop_ "command" (Const "threads") Required false;
     Prop_ "seq" Plain (Given (-1)) false;
     Prop_ "arguments" Plain Optional false]);
  (* L8255 *) ("ThreadsResponse", [Prop_ "type" (Const "response") Required false;
     Prop_ "request_seq" Plain Required false;
     Prop_ "success" Plain Required false;
     Prop_ "command" Plain Required false;
     Prop_ "body" Plain Required false;
     Prop_ "seq" Plain (Given (-1)) false;
     Prop_ "message" Plain Optional false]);
  (* L8342 *) ("TerminateThreadsRequest", [Prop_ "type" (Const "request") Required false;
     Prop_ "command" (Const "terminateThreads") Required false;
     Prop_ "arguments" (Ref "TerminateThreadsArguments") Required false;
     Prop_ "seq" Plain (Given (-1)) false]);
  (* L8401 *) ("TerminateThreadsArguments", [Prop_ "threadIds" (Array None) Optional false]);
  (* L8433 *) ("TerminateThreadsResponse", [Prop_ "type" (Const "response") Required false;
     Prop_ "request_seq" Plain Required false;
     Prop_ "success" Plain Required false;
     Prop_ "command" Plain Required false;
     Prop_ "seq" Plain (Given (-1)) false;
     Prop_ "message" Plain Optional false;
     Prop_ "body" Plain Optional false]);
  (* L8515 *) ("ModulesRequest", [Prop_ "type" (Const "request") Required false;
     Prop_ "command" (Const "modules") Required false;
     Prop_ "seq" Plain (Given (-1)) false;
     Prop_ "arguments" (Ref "ModulesArguments") Optional false]);
  (* L8576 *) ("ModulesArguments", [Prop_ "startModule" Plain Optional false;
     Prop_ "moduleCount" Plain Optional false]);
  (* L8617 *) ("ModulesResponse", [Prop_ "type" (Const "response") Required false;
     Prop_ "request_seq" Plain Required false;
     Prop_ "success" Plain Required false;
     Prop_ "command" Plain Required false;
     Prop_ "body" Plain Required false;
     Prop_ "seq" Plain (Given (-1)) false;
     Prop_ "message" Plain Optional false]);
  (* L8707 *) ("LoadedSourcesRequest", [Prop_ "type" (Const "request") Required false;
     Prop_ "command" (Const "loadedSources") Required false;
     Prop_ "seq" Plain (Given (-1)) false;
     Prop_ "arguments" (Ref "LoadedSourcesArguments") Optional false]);
  (* L8767 *) ("LoadedSourcesArguments", []);
  (* L8792 *) ("LoadedSourcesResponse", [Prop_ "type" (Const "response") Required false;
     Prop_ "request_seq" Plain Required false;
     Prop_ "success" Plain Required false;
     Prop_ "command" Plain Required false;
     Prop_ "body" Plain Required false;
     Prop_ "seq" Plain (Given (-1)) false;
     Prop_ "message" Plain Optional false]);
  (* L8883 *) ("EvaluateRequest", [Prop_ "type" (Const "request") Required false;
     Prop_ "command" (Const "evaluate") Required false;
     Prop_ "arguments" (Ref "EvaluateArguments") Required false;
     Prop_ "seq" Plain (Given (-1)) false]);
  (* L8941 *) ("EvaluateArguments", [Prop_ "expression" Plain Required false;
     Prop_ "frameId" Plain Optional true;
     Prop_ "context" Plain Optional false;
     Prop_ "format" (Ref "ValueFormat") Optional false]);
  (* L9029 *) ("EvaluateResponse", [Prop_ "type" (Const "response") Required false;
     Prop_ "request_seq" Plain Required false;
     Prop_ "success" Plain Required false;
     Prop_ "command" Plain Required false;
     Prop_ "body" Plain Required false;
     Prop_ "seq" Plain (Given (-1)) false;
     Prop_ "message" Plain Optional false]);
  (* L9142 *) ("SetExpressionRequest", [Prop_ "type" (Const "request") Required false;
     Prop_ "command" (Const "setExpression") Required false;
     Prop_ "arguments" (Ref "SetExpressionArguments") Required false;
     Prop_ "seq" Plain (Given (-1)) false]);
  (* L9207 *) ("SetExpressionArguments", [Prop_ "expression" Plain Required false;
     Prop_ "value" Plain Required false;
     Prop_ "frameId" Plain Optional true;
     Prop_ "format" (Ref "ValueFormat") Optional false]);
  (* L9279 *) ("SetExpressionResponse", [Prop_ "type" (Const "response") Required false;
     Prop_ "request_seq" Plain Required false;
     Prop_ "success" Plain Required false;
     Prop_ "command" Plain Required false;
     Prop_ "body" Plain Required false;
     Prop_ "seq" Plain (Given (-1)) false;
     Prop_ "message" Plain Optional false]);
  (* L9394 *) ("StepInTargetsRequest", [Prop_ "type" (Const "request") Required false;
     Prop_ "command" (Const "stepInTargets") Required false;
     Prop_ "arguments" (Ref "StepInTargetsArguments") Required false;
     Prop_ "seq" Plain (Given (-1)) false]);
  (* L9455 *) ("StepInTargetsArguments", [Prop_ "frameId" Plain Required true]);
  (* L9502 *) ("StepInTargetsResponse", [Prop_ "type" (Const "response") Required false;
     Prop_ "request_seq" Plain Required false;
     Prop_ "success" Plain Required false;
     Prop_ "command" Plain Required false;
     Prop_ "body" Plain Required false;
     Prop_ "seq" Plain (Given (-1)) false;
     Prop_ "message" Plain Optional false]);
  (* L9597 *) ("GotoTargetsRequest", [Prop_ "type" (Const "request") Required false;
     Prop_ "command" (Const "gotoTargets") Required false;
     Prop_ "arguments" (Ref "GotoTargetsArguments") Required false;
     Prop_ "seq" Plain (Given (-1)) false]);
  (* L9658 *) ("GotoTargetsArguments", [Prop_ "source" (Ref "Source") Required false;
     Prop_ "line" Plain Required false;
     Prop_ "column" Plain Optional false]);
  (* L9707 *) ("GotoTargetsResponse", [Prop_ "type" (Const "response") Required false;
     Prop_ "request_seq" Plain Required false;
     Prop_ "success" Plain Required false;
     Prop_ "command" Plain Required false;
     Prop_ "body" Plain Required false;
     Prop_ "seq" Plain (Given (-1)) false;
     Prop_ "message" Plain Optional false]);
  (* L9802 *) ("CompletionsRequest", [Prop_ "type" (Const "request") Required false;
     Prop_ "command" (Const "completions") Required false;
     Prop_ "arguments" (Ref "CompletionsArguments") Required false;
     Prop_ "seq" Plain (Given (-1)) false]);
  (* L9861 *) ("CompletionsArguments", [Prop_ "text" Plain Required false;
     Prop_ "column" Plain Required false;
     Prop_ "frameId" Plain Optional true;
     Prop_ "line" Plain Optional false]);
  (* L9939 *) ("CompletionsResponse", [Prop_ "type" (Const "response") Required false;
     Prop_ "request_seq" Plain Required false;
     Prop_ "success" Plain Required false;
     Prop_ "command" Plain Required false;
     Prop_ "body" Plain Required false;
     Prop_ "seq" Plain (Given (-1)) false;
     Prop_ "message" Plain Optional false]);
  (* L10034 *) ("ExceptionInfoRequest", [Prop_ "type" (Const "request") Required false;
     Prop_ "command" (Const "exceptionInfo") Required false;
     Prop_ "arguments" (Ref "ExceptionInfoArguments") Required false;
     Prop_ "seq" Plain (Given (-1)) false]);
  (* L10093 *) ("ExceptionInfoArguments", [Prop_ "threadId" Plain Required true]);
  (* L10140 *) ("ExceptionInfoResponse", [Prop_ "type" (Const "response") Required false;
     Prop_ "request_seq" Plain Required false;
     Prop_ "success" Plain Required false;
     Prop_ "command" Plain Required false;
     Prop_ "body" Plain Required false;
     Prop_ "seq" Plain (Given (-1)) false;
     Prop_ "message" Plain Optional false]);
  (* L10237 *) ("ReadMemoryRequest", [Prop_ "type" (Const "request") Required false;
     Prop_ "command" (Const "readMemory") Required false;
     Prop_ "arguments" (Ref "ReadMemoryArguments") Required false;
     Prop_ "seq" Plain (Given (-1)) false]);
  (* L10296 *) ("ReadMemoryArguments", [Prop_ "memoryReference" Plain Required false;
     Prop_ "count" Plain Required false;
     Prop_ "offset" Plain Optional false]);
  (* L10342 *) ("ReadMemoryResponse", [Prop_ "type" (Const "response") Required false;
     Prop_ "request_seq" Plain Required false;
     Prop_ "success" Plain Required false;
     Prop_ "command" Plain Required false;
     Prop_ "seq" Plain (Given (-1)) false;
     Prop_ "message" Plain Optional false;
     Prop_ "body" Plain Optional false]);
  (* L10445 *) ("WriteMemoryRequest", [Prop_ "type" (Const "request") Required false;
     Prop_ "command" (Const "writeMemory") Required false;
     Prop_ "arguments" (Ref "WriteMemoryArguments") Required false;
     Prop_ "seq" Plain (Given (-1)) false]);
  (* L10504 *) ("WriteMemoryArguments", [Prop_ "memoryReference" Plain Required false;
     Prop_ "data" Plain Required false;
     Prop_ "offset" Plain Optional false;
     Prop_ "allowPartial" Plain Optional false]);
  (* L10560 *) ("WriteMemoryResponse", [Prop_ "type" (Const "response") Required false;
     Prop_ "request_seq" Plain Required false;
     Prop_ "success" Plain Required false;
     Prop_ "command" Plain Required false;
     Prop_ "seq" Plain (Given (-1)) false;
     Prop_ "message" Plain Optional false;
     Prop_ "body" Plain Optional false]);
  (* L10658 *) ("DisassembleRequest", [Prop_ "type" (Const "request") Required false;
     Prop_ "command" (Const "disassemble") Required false;
     Prop_ "arguments" (Ref "DisassembleArguments") Required false;
     Prop_ "seq" Plain (Given (-1)) false]);
  (* L10717 *) ("DisassembleArguments", [Prop_ "memoryReference" Plain Required false;
     Prop_ "instructionCount" Plain Required false;
     Prop_ "offset" Plain Optional false;
     Prop_ "instructionOffset" Plain Optional false;
     Prop_ "resolveSymbols" Plain Optional false]);
  (* L10797 *) ("DisassembleResponse", [Prop_ "type" (Const "response") Required false;
     Prop_ "request_seq" Plain Required false;
     Prop_ "success" Plain Required false;
     Prop_ "command" Plain Required false;
     Prop_ "seq" Plain (Given (-1)) false;
     Prop_ "message" Plain Optional false;
     Prop_ "body" Plain Optional false]);
  (* L10892 *) ("Capabilities", [Prop_ "supportsConfigurationDoneRequest" Plain Optional false;
     Prop_ "supportsFunctionBreakpoints" Plain Optional false;
     Prop_ "supportsConditionalBreakpoints" Plain Optional false;
     Prop_ "supportsHitConditionalBreakpoints" Plain Optional false;
     Prop_ "supportsEvaluateForHovers" Plain Optional false;
     Prop_ "exceptionBreakpointFilters" (Array (Some "ExceptionBreakpointsFilter")) Optional false;
     Prop_ "supportsStepBack" Plain Optional false;
     Prop_ "supportsSetVariable" Plain Optional false;
     Prop_ "supportsRestartFrame" Plain Optional false;
     Prop_ "supportsGotoTargetsRequest" Plain Optional false;
     Prop_ "supportsStepInTargetsRequest" Plain Optional false;
     Prop_ "supportsCompletionsRequest" Plain Optional false;
     Prop_ "completionTriggerCharacters" (Array None) Optional false;
     Prop_ "supportsModulesRequest" Plain Optional false;
     Prop_ "additionalModuleColumns" (Array (Some "ColumnDescriptor")) Optional false;
     Prop_ "supportedChecksumAlgorithms" (Array (Some "ChecksumAlgorithm")) Optional false;
     Prop_ "supportsRestartRequest" Plain Optional false;
     Prop_ "supportsExceptionOptions" Plain Optional false;
     Prop_ "supportsValueFormattingOptions" Plain Optional false;
     Prop_ "supportsExceptionInfoRequest" Plain Optional false;
     Prop_ "supportTerminateDebuggee" Plain Optional false;
     Prop_ "supportSuspendDebuggee" Plain Optional false;
     Prop_ "supportsDelayedStackTraceLoading" Plain Optional false;
     Prop_ "supportsLoadedSourcesRequest" Plain Optional false;
     Prop_ "supportsLogPoints" Plain Optional false;
     Prop_ "supportsTerminateThreadsRequest" Plain Optional false;
     Prop_ "supportsSetExpression" Plain Optional false;
     Prop_ "supportsTerminateRequest" Plain Optional false;
     Prop_ "supportsDataBreakpoints" Plain Optional false;
     Prop_ "supportsReadMemoryRequest" Plain Optional false;
     Prop_ "supportsWriteMemoryRequest" Plain Optional false;
     Prop_ "supportsDisassembleRequest" Plain Optional false;
     Prop_ "supportsCancelRequest" Plain Optional false;
     Prop_ "supportsBreakpointLocationsRequest" Plain Optional false;
     Prop_ "supportsClipboardContext" Plain Optional false;
     Prop_ "supportsSteppingGranularity" Plain Optional false;
     Prop_ "supportsInstructionBreakpoints" Plain Optional false;
     Prop_ "supportsExceptionFilterOptions" Plain Optional false;
     Prop_ "supportsSingleThreadExecutionRequests" Plain Optional false]);
  (* L11290 *) ("ExceptionBreakpointsFilter", [Prop_ "filter" Plain Required false;
     Prop_ "label" Plain Required false;
     Prop_ "description" Plain Optional false;
     Prop_ "default" Plain Optional false;
     Prop_ "supportsCondition" Plain Optional false;
     Prop_ "conditionDescription" Plain Optional false]);
  (* L11373 *) ("Message", [Prop_ "id" Plain Required false;
     Prop_ "format" Plain Required false;
     Prop_ "variables" Plain Optional false;
     Prop_ "sendTelemetry" Plain Optional false;
     Prop_ "showUser" Plain Optional false;
     Prop_ "url" Plain Optional false;
     Prop_ "urlLabel" Plain Optional false]);
  (* L11459 *) ("Module", [Prop_ "id" Plain Required false;
     Prop_ "name" Plain Required false;
     Prop_ "path" Plain Optional false;
     Prop_ "isOptimized" Plain Optional false;
     Prop_ "isUserCode" Plain Optional false;
     Prop_ "version" Plain Optional false;
     Prop_ "symbolStatus" Plain Optional false;
     Prop_ "symbolFilePath" Plain Optional false;
     Prop_ "dateTimeStamp" Plain Optional false;
     Prop_ "addressRange" Plain Optional false]);
  (* L11583 *) ("ColumnDescriptor", [Prop_ "attributeName" Plain Required false;
     Prop_ "label" Plain Required false;
     Prop_ "format" Plain Optional false;
     Prop_ "type" Plain Optional false;
     Prop_ "width" Plain Optional false]);
  (* L11649 *) ("Thread", [Prop_ "id" Plain Required true;
     Prop_ "name" Plain Required false]);
  (* L11702 *) ("Source", [Prop_ "name" Plain Optional false;
     Prop_ "path" Plain Optional false;
     Prop_ "sourceReference" Plain Optional false;
     Prop_ "presentationHint" Plain Optional false;
     Prop_ "origin" Plain Optional false;
     Prop_ "sources" (Array (Some "Source")) Optional false;
     Prop_ "adapterData" Plain Optional false;
     Prop_ "checksums" (Array (Some "Checksum")) Optional false]);
  (* L11833 *) ("StackFrame", [Prop_ "id" Plain Required true;
     Prop_ "name" Plain Required false;
     Prop_ "line" Plain Required false;
     Prop_ "column" Plain Required false;
     Prop_ "source" (Ref "Source") Optional false;
     Prop_ "endLine" Plain Optional false;
     Prop_ "endColumn" Plain Optional false;
     Prop_ "canRestart" Plain Optional false;
     Prop_ "instructionPointerReference" Plain Optional false;
     Prop_ "moduleId" Plain Optional false;
     Prop_ "presentationHint" Plain Optional false]);
  (* L11980 *) ("Scope", [Prop_ "name" Plain Required false;
     Prop_ "variablesReference" Plain Required true;
     Prop_ "expensive" Plain Required false;
     Prop_ "presentationHint" Plain Optional false;
     Prop_ "namedVariables" Plain Optional false;
     Prop_ "indexedVariables" Plain Optional false;
     Prop_ "source" (Ref "Source") Optional false;
     Prop_ "line" Plain Optional false;
     Prop_ "column" Plain Optional false;
     Prop_ "endLine" Plain Optional false;
     Prop_ "endColumn" Plain Optional false]);
  (* L12137 *) ("Variable", [Prop_ "name" Plain Required false;
     Prop_ "value" Plain Required false;
     Prop_ "variablesReference" Plain Required true;
     Prop_ "type" Plain Optional false;
     Prop_ "presentationHint" (Ref "VariablePresentationHint") Optional false;
     Prop_ "evaluateName" Plain Optional false;
     Prop_ "namedVariables" Plain Optional false;
     Prop_ "indexedVariables" Plain Optional false;
     Prop_ "memoryReference" Plain Optional false]);
  (* L12297 *) ("VariablePresentationHint", [Prop_ "kind" Plain Optional false;
     Prop_ "attributes" (Array None) Optional false;
     Prop_ "visibility" Plain Optional false;
     Prop_ "lazy" Plain Optional false]);
  (* L12412 *) ("BreakpointLocation", [Prop_ "line" Plain Required false;
     Prop_ "column" Plain Optional false;
     Prop_ "endLine" Plain Optional false;
     Prop_ "endColumn" Plain Optional false]);
  (* L12467 *) ("SourceBreakpoint", [Prop_ "line" Plain Required false;
     Prop_ "column" Plain Optional false;
     Prop_ "condition" Plain Optional false;
     Prop_ "hitCondition" Plain Optional false;
     Prop_ "logMessage" Plain Optional false]);
  (* L12541 *) ("FunctionBreakpoint", [Prop_ "name" Plain Required false;
     Prop_ "condition" Plain Optional false;
     Prop_ "hitCondition" Plain Optional false]);
  (* L12593 *) ("DataBreakpointAccessType", []);
  (* L12623 *) ("DataBreakpoint", [Prop_ "dataId" Plain Required false;
     Prop_ "accessType" (Enum ["read"; "readWrite"; "write"]) Optional false;
     Prop_ "condition" Plain Optional false;
     Prop_ "hitCondition" Plain Optional false]);
  (* L12681 *) ("InstructionBreakpoint", [Prop_ "instructionReference" Plain Required false;
     Prop_ "offset" Plain Optional false;
     Prop_ "condition" Plain Optional false;
     Prop_ "hitCondition" Plain Optional false]);
  (* L12744 *) ("Breakpoint", [Prop_ "verified" Plain Required false;
     Prop_ "id" Plain Optional false;
     Prop_ "message" Plain Optional false;
     Prop_ "source" (Ref "Source") Optional false;
     Prop_ "line" Plain Optional false;
     Prop_ "column" Plain Optional false;
     Prop_ "endLine" Plain Optional false;
     Prop_ "endColumn" Plain Optional false;
     Prop_ "instructionReference" Plain Optional false;
     Prop_ "offset" Plain Optional false;
     Prop_ "reason" Plain Optional false]);
  (* L12879 *) ("SteppingGranularity", []);
  (* L12909 *) ("StepInTarget", [Prop_ "id" Plain Required false;
     Prop_ "label" Plain Required false;
     Prop_ "line" Plain Optional false;
     Prop_ "column" Plain Optional false;
     Prop_ "endLine" Plain Optional false;
     Prop_ "endColumn" Plain Optional false]);
  (* L12976 *) ("GotoTarget", [Prop_ "id" Plain Required false;
     Prop_ "label" Plain Required false;
     Prop_ "line" Plain Required false;
     Prop_ "column" Plain Optional false;
     Prop_ "endLine" Plain Optional false;
     Prop_ "endColumn" Plain Optional false;
     Prop_ "instructionPointerReference" Plain Optional false]);
  (* L13057 *) ("CompletionItem", [Prop_ "label" Plain Required false;
     Prop_ "text" Plain Optional false;
     Prop_ "sortText" Plain Optional false;
     Prop_ "detail" Plain Optional false;
     Prop_ "type" (Enum ["class"; "color"; "constructor"; "customcolor"; "enum"; "field"; "file"; "function"; "interface"; "keyword"; "method"; "module"; "property"; "reference"; "snippet"; "text"; "unit"; "value"; "variable"]) Optional false;
     Prop_ "start" Plain Optional false;
     Prop_ "length" Plain Optional false;
     Prop_ "selectionStart" Plain Optional false;
     Prop_ "selectionLength" Plain Optional false]);
  (* L13175 *) ("CompletionItemType", []);
  (* L13244 *) ("ChecksumAlgorithm", []);
  (* L13275 *) ("Checksum", [Prop_ "algorithm" (Enum ["MD5"; "SHA1"; "SHA256"; "timestamp"]) Required false;
     Prop_ "checksum" Plain Required false]);
  (* L13313 *) ("ValueFormat", [Prop_ "hex" Plain Optional false]);
  (* L13342 *) ("StackFrameFormat", [Prop_ "hex" Plain Optional false;
     Prop_ "parameters" Plain Optional false;
     Prop_ "parameterTypes" Plain Optional false;
     Prop_ "parameterNames" Plain Optional false;
     Prop_ "parameterValues" Plain Optional false;
     Prop_ "line" Plain Optional false;
     Prop_ "module" Plain Optional false;
     Prop_ "includeAll" Plain Optional false]);
  (* L13430 *) ("ExceptionFilterOptions", [Prop_ "filterId" Plain Required false;
     Prop_ "condition" Plain Optional false]);
  (* L13472 *) ("ExceptionOptions", [Prop_ "breakMode" (Enum ["always"; "never"; "unhandled"; "userUnhandled"]) Required false;
     Prop_ "path" (Array (Some "ExceptionPathSegment")) Optional false]);
  (* L13521 *) ("ExceptionBreakMode", []);
  (* L13560 *) ("ExceptionPathSegment", [Prop_ "names" (Array None) Required false;
     Prop_ "negate" Plain Optional false]);
  (* L13610 *) ("ExceptionDetails", [Prop_ "message" Plain Optional false;
     Prop_ "typeName" Plain Optional false;
     Prop_ "fullTypeName" Plain Optional false;
     Prop_ "evaluateName" Plain Optional false;
     Prop_ "stackTrace" Plain Optional false;
     Prop_ "innerException" (Array (Some "ExceptionDetails")) Optional false]);
  (* L13697 *) ("DisassembledInstruction", [Prop_ "address" Plain Required false;
     Prop_ "instruction" Plain Required false;
     Prop_ "instructionBytes" Plain Optional false;
     Prop_ "symbol" Plain Optional false;
     Prop_ "location" (Ref "Source") Optional false;
     Prop_ "line" Plain Optional false;
     Prop_ "column" Plain Optional false;
     Prop_ "endLine" Plain Optional false;
     Prop_ "endColumn" Plain Optional false;
     Prop_ "presentationHint" Plain Optional false]);
  (* L13818 *) ("InvalidatedAreas", []);
  (* L13843 *) ("SetDebuggerPropertyRequest", [Prop_ "type" (Const "request") Required false;
     Prop_ "command" (Const "setDebuggerProperty") Required false;
     Prop_ "arguments" (Ref "SetDebuggerPropertyArguments") Required false;
     Prop_ "seq" Plain (Given (-1)) false]);
  (* L13899 *) ("SetDebuggerPropertyArguments", [Prop_ "ideOS" Plain Optional false;
     Prop_ "dontTraceStartPatterns" Plain Optional false;
     Prop_ "dontTraceEndPatterns" Plain Optional false;
     Prop_ "skipSuspendOnBreakpointException" Plain Optional false;
     Prop_ "skipPrintBreakpointException" Plain Optional false;
     Prop_ "multiThreadsSingleNotification" Plain Optional false]);
  (* L13986 *) ("SetDebuggerPropertyResponse", [Prop_ "type" (Const "response") Required false;
     Prop_ "request_seq" Plain Required false;
     Prop_ "success" Plain Required false;
     Prop_ "command" Plain Required false;
     Prop_ "seq" Plain (Given (-1)) false;
     Prop_ "message" Plain Optional false;
     Prop_ "body" Plain Optional false]);
  (* L14069 *) ("PydevdInputRequestedEvent", [Prop_ "type" (Const "event") Required false;
     Prop_ "event" (Const "pydevdInputRequested") Required false;
     Prop_ "seq" Plain (Given (-1)) false;
     Prop_ "body" Plain Optional false]);
  (* L14123 *) ("SetPydevdSourceMapRequest", [Prop_ "type" (Const "request") Required false;
     Prop_ "command" (Const "setPydevdSourceMap") Required false;
     Prop_ "arguments" (Ref "SetPydevdSourceMapArguments") Required false;
     Prop_ "seq" Plain (Given (-1)) false]);
  (* L14191 *) ("SetPydevdSourceMapArguments", [Prop_ "source" (Ref "Source") Required false;
     Prop_ "pydevdSourceMaps" (Array (Some "PydevdSourceMap")) Optional false]);
  (* L14248 *) ("SetPydevdSourceMapResponse", [Prop_ "type" (Const "response") Required false;
     Prop_ "request_seq" Plain Required false;
     Prop_ "success" Plain Required false;
     Prop_ "command" Plain Required false;
     Prop_ "seq" Plain (Given (-1)) false;
     Prop_ "message" Plain Optional false;
     Prop_ "body" Plain Optional false]);
  (* L14330 *) ("PydevdSourceMap", [Prop_ "line" Plain Required false;
     Prop_ "endLine" Plain Required false;
     Prop_ "runtimeSource" (Ref "Source") Required false;
     Prop_ "runtimeLine" Plain Required false]);
  (* L14391 *) ("PydevdSystemInfoRequest", [Prop_ "type" (Const "request") Required false;
     Prop_ "command" (Const "pydevdSystemInfo") Required false;
     Prop_ "seq" Plain (Given (-1)) false;
     Prop_ "arguments" (Ref "PydevdSystemInfoArguments") Optional false]);
  (* L14448 *) ("PydevdSystemInfoArguments", []);
  (* L14473 *) ("PydevdSystemInfoResponse", [Prop_ "type" (Const "response") Required false;
     Prop_ "request_seq" Plain Required false;
     Prop_ "success" Plain Required false;
     Prop_ "command" Plain Required false;
     Prop_ "body" Plain Required false;
     Prop_ "seq" Plain (Given (-1)) false;
     Prop_ "message" Plain Optional false]);
  (* L14572 *) ("PydevdPythonInfo", [Prop_ "version" Plain Optional false;
     Prop_ "implementation" (Ref "PydevdPythonImplementationInfo") Optional false]);
  (* L14622 *) ("PydevdPythonImplementationInfo", [Prop_ "name" Plain Optional false;
     Prop_ "version" Plain Optional false;
     Prop_ "description" Plain Optional false]);
  (* L14668 *) ("PydevdPlatformInfo", [Prop_ "name" Plain Optional false]);
  (* L14697 *) ("PydevdProcessInfo", [Prop_ "pid" Plain Optional false;
     Prop_ "ppid" Plain Optional false;
     Prop_ "executable" Plain Optional false;
     Prop_ "bitness" Plain Optional false]);
  (* L14746 *) ("PydevdInfo", [Prop_ "usingCython" Plain Optional false;
     Prop_ "usingFrameEval" Plain Optional false]);
  (* L14784 *) ("PydevdAuthorizeRequest", [Prop_ "type" (Const "request") Required false;
     Prop_ "command" (Const "pydevdAuthorize") Required false;
     Prop_ "arguments" (Ref "PydevdAuthorizeArguments") Required false;
     Prop_ "seq" Plain (Given (-1)) false]);
  (* L14840 *) ("PydevdAuthorizeArguments", [Prop_ "debugServerAccessToken" Plain Optional false]);
  (* L14870 *) ("PydevdAuthorizeResponse", [Prop_ "type" (Const "response") Required false;
     Prop_ "request_seq" Plain Required false;
     Prop_ "success" Plain Required false;
     Prop_ "command" Plain Required false;
     Prop_ "body" Plain Required false;
     Prop_ "seq" Plain (Given (-1)) false;
     Prop_ "message" Plain Optional false]);
  (* L14960 *) ("ErrorResponseBody", [Prop_ "error" (Ref "Message") Optional false]);
  (* L14992 *) ("StoppedEventBody", [Prop_ "reason" Plain Required false;
     Prop_ "description" Plain Optional false;
     Prop_ "threadId" Plain Optional true;
     Prop_ "preserveFocusHint" Plain Optional false;
     Prop_ "text" Plain Optional false;
     Prop_ "allThreadsStopped" Plain Optional false;
     Prop_ "hitBreakpointIds" (Array None) Optional false]);
  (* L15125 *) ("ContinuedEventBody", [Prop_ "threadId" Plain Required true;
     Prop_ "allThreadsContinued" Plain Optional false]);
  (* L15182 *) ("ExitedEventBody", [Prop_ "exitCode" Plain Required false]);
  (* L15211 *) ("TerminatedEventBody", [Prop_ "restart" Plain Optional false]);
  (* L15246 *) ("ThreadEventBody", [Prop_ "reason" Plain Required false;
     Prop_ "threadId" Plain Required true]);
  (* L15299 *) ("OutputEventBody", [Prop_ "output" Plain Required false;
     Prop_ "category" Plain Optional false;
     Prop_ "group" Plain Optional false;
     Prop_ "variablesReference" Plain Optional true;
     Prop_ "source" (Ref "Source") Optional false;
     Prop_ "line" Plain Optional false;
     Prop_ "column" Plain Optional false;
     Prop_ "data" Plain Optional false]);
  (* L15433 *) ("BreakpointEventBody", [Prop_ "reason" Plain Required false;
     Prop_ "breakpoint" (Ref "Breakpoint") Required false]);
  (* L15477 *) ("ModuleEventBody", [Prop_ "reason" Plain Required false;
     Prop_ "module" (Ref "Module") Required false]);
  (* L15519 *) ("LoadedSourceEventBody", [Prop_ "reason" Plain Required false;
     Prop_ "source" (Ref "Source") Required false]);
  (* L15558 *) ("ProcessEventBody", [Prop_ "name" Plain Required false;
     Prop_ "systemProcessId" Plain Optional false;
     Prop_ "isLocalProcess" Plain Optional false;
     Prop_ "startMethod" Plain Optional false;
     Prop_ "pointerSize" Plain Optional false]);
  (* L15633 *) ("CapabilitiesEventBody", [Prop_ "capabilities" (Ref "Capabilities") Required false]);
  (* L15669 *) ("ProgressStartEventBody", [Prop_ "progressId" Plain Required false;
     Prop_ "title" Plain Required false;
     Prop_ "requestId" Plain Optional false;
     Prop_ "cancellable" Plain Optional false;
     Prop_ "message" Plain Optional false;
     Prop_ "percentage" Plain Optional false]);
  (* L15750 *) ("ProgressUpdateEventBody", [Prop_ "progressId" Plain Required false;
     Prop_ "message" Plain Optional false;
     Prop_ "percentage" Plain Optional false]);
  (* L15796 *) ("ProgressEndEventBody", [Prop_ "progressId" Plain Required false;
     Prop_ "message" Plain Optional false]);
  (* L15833 *) ("InvalidatedEventBody", [Prop_ "areas" (Array (Some "InvalidatedAreas")) Optional false;
     Prop_ "threadId" Plain Optional true;
     Prop_ "stackFrameId" Plain Optional false]);
  (* L15905 *) ("MemoryEventBody", [Prop_ "memoryReference" Plain Required false;
     Prop_ "offset" Plain Required false;
     Prop_ "count" Plain Required false]);
  (* L15946 *) ("RunInTerminalRequestArgumentsEnv", []);
  (* L15970 *) ("RunInTerminalResponseBody", [Prop_ "processId" Plain Optional false;
     Prop_ "shellProcessId" Plain Optional false]);
  (* L16010 *) ("StartDebuggingRequestArgumentsConfiguration", []);
  (* L16034 *) ("BreakpointLocationsResponseBody", [Prop_ "breakpoints" (Array (Some "BreakpointLocation")) Required false]);
  (* L16076 *) ("SetBreakpointsResponseBody", [Prop_ "breakpoints" (Array (Some "Breakpoint")) Required false]);
  (* L16119 *) ("SetFunctionBreakpointsResponseBody", [Prop_ "breakpoints" (Array (Some "Breakpoint")) Required false]);
  (* L16161 *) ("SetExceptionBreakpointsResponseBody", [Prop_ "breakpoints" (Array (Some "Breakpoint")) Optional false]);
  (* L16204 *) ("DataBreakpointInfoResponseBody", [Prop_ "dataId" Plain Required false;
     Prop_ "description" Plain Required false;
     Prop_ "accessTypes" (Array (Some "DataBreakpointAccessType")) Optional false;
     Prop_ "canPersist" Plain Optional false]);
  (* L16274 *) ("SetDataBreakpointsResponseBody", [Prop_ "breakpoints" (Array (Some "Breakpoint")) Required false]);
  (* L16316 *) ("SetInstructionBreakpointsResponseBody", [Prop_ "breakpoints" (Array (Some "Breakpoint")) Required false]);
  (* L16358 *) ("ContinueResponseBody", [Prop_ "allThreadsContinued" Plain Optional false]);
  (* L16392 *) ("StackTraceResponseBody", [Prop_ "stackFrames" (Array (Some "StackFrame")) Required false;
     Prop_ "totalFrames" Plain Optional false]);
  (* L16444 *) ("ScopesResponseBody", [Prop_ "scopes" (Array (Some "Scope")) Required false]);
  (* L16484 *) ("VariablesResponseBody", [Prop_ "variables" (Array (Some "Variable")) Required false]);
  (* L16524 *) ("SetVariableResponseBody", [Prop_ "value" Plain Required false;
     Prop_ "type" Plain Optional false;
     Prop_ "variablesReference" Plain Optional true;
     Prop_ "namedVariables" Plain Optional false;
     Prop_ "indexedVariables" Plain Optional false;
     Prop_ "memoryReference" Plain Optional false]);
  (* L16630 *) ("SourceResponseBody", [Prop_ "content" Plain Required false;
     Prop_ "mimeType" Plain Optional false]);
  (* L16667 *) ("ThreadsResponseBody", [Prop_ "threads" (Array (Some "Thread")) Required false]);
  (* L16701 *) ("ModulesResponseBody", [Prop_ "modules" (Array (Some "Module")) Required false;
     Prop_ "totalModules" Plain Optional false]);
  (* L16743 *) ("LoadedSourcesResponseBody", [Prop_ "sources" (Array (Some "Source")) Required false]);
  (* L16777 *) ("EvaluateResponseBody", [Prop_ "result" Plain Required false;
     Prop_ "variablesReference" Plain Required true;
     Prop_ "type" Plain Optional false;
     Prop_ "presentationHint" (Ref "VariablePresentationHint") Optional false;
     Prop_ "namedVariables" Plain Optional false;
     Prop_ "indexedVariables" Plain Optional false;
     Prop_ "memoryReference" Plain Optional false]);
  (* L16903 *) ("SetExpressionResponseBody", [Prop_ "value" Plain Required false;
     Prop_ "type" Plain Optional false;
     Prop_ "presentationHint" (Ref "VariablePresentationHint") Optional false;
     Prop_ "variablesReference" Plain Optional true;
     Prop_ "namedVariables" Plain Optional false;
     Prop_ "indexedVariables" Plain Optional false;
     Prop_ "memoryReference" Plain Optional false]);
  (* L17030 *) ("StepInTargetsResponseBody", [Prop_ "targets" (Array (Some "StepInTarget")) Required false]);
  (* L17070 *) ("GotoTargetsResponseBody", [Prop_ "targets" (Array (Some "GotoTarget")) Required false]);
  (* L17110 *) ("CompletionsResponseBody", [Prop_ "targets" (Array (Some "CompletionItem")) Required false]);
  (* L17146 *) ("ExceptionInfoResponseBody", [Prop_ "exceptionId" Plain Required false;
     Prop_ "breakMode" (Enum ["always"; "never"; "unhandled"; "userUnhandled"]) Required false;
     Prop_ "description" Plain Optional false;
     Prop_ "details" (Ref "ExceptionDetails") Optional false]);
  (* L17201 *) ("ReadMemoryResponseBody", [Prop_ "address" Plain Required false;
     Prop_ "unreadableBytes" Plain Optional false;
     Prop_ "data" Plain Optional false]);
  (* L17255 *) ("WriteMemoryResponseBody", [Prop_ "offset" Plain Optional false;
     Prop_ "bytesWritten" Plain Optional false]);
  (* L17298 *) ("DisassembleResponseBody", [Prop_ "instructions" (Array (Some "DisassembledInstruction")) Required false]);
  (* L17340 *) ("MessageVariables", []);
  (* L17364 *) ("PydevdSystemInfoResponseBody", [Prop_ "python" (Ref "PydevdPythonInfo") Required false;
     Prop_ "platform" (Ref "PydevdPlatformInfo") Required false;
     Prop_ "process" (Ref "PydevdProcessInfo") Required false;
     Prop_ "pydevd" (Ref "PydevdInfo") Required false]);
  (* L17433 *) ("PydevdAuthorizeResponseBody", [Prop_ "clientAccessToken" Plain Required false])].

Definition registered : list ((string * string) * string) := [
  (("response", "error"), "ErrorResponse");
  (("request", "cancel"), "CancelRequest");
  (("response", "cancel"), "CancelResponse");
  (("event", "initialized"), "InitializedEvent");
  (("event", "stopped"), "StoppedEvent");
  (("event", "continued"), "ContinuedEvent");
  (("event", "exited"), "ExitedEvent");
  (("event", "terminated"), "TerminatedEvent");
  (("event", "thread"), "ThreadEvent");
  (("event", "output"), "OutputEvent");
  (("event", "breakpoint"), "BreakpointEvent");
  (("event", "module"), "ModuleEvent");
  (("event", "loadedSource"), "LoadedSourceEvent");
  (("event", "process"), "ProcessEvent");
  (("event", "capabilities"), "CapabilitiesEvent");
  (("event", "progressStart"), "ProgressStartEvent");
  (("event", "progressUpdate"), "ProgressUpdateEvent");
  (("event", "progressEnd"), "ProgressEndEvent");
  (("event", "invalidated"), "InvalidatedEvent");
  (("event", "memory"), "MemoryEvent");
  (("request", "runInTerminal"), "RunInTerminalRequest");
  (("response", "runInTerminal"), "RunInTerminalResponse");
  (("request", "startDebugging"), "StartDebuggingRequest");
  (("response", "startDebugging"), "StartDebuggingResponse");
  (("request", "initialize"), "InitializeRequest");
  (("response", "initialize"), "InitializeResponse");
  (("request", "configurationDone"), "ConfigurationDoneRequest");
  (("response", "configurationDone"), "ConfigurationDoneResponse");
  (("request", "launch"), "LaunchRequest");
  (("response", "launch"), "LaunchResponse");
  (("request", "attach"), "AttachRequest");
  (("response", "attach"), "AttachResponse");
  (("request", "restart"), "RestartRequest");
  (("response", "restart"), "RestartResponse");
  (("request", "disconnect"), "DisconnectRequest");
  (("response", "disconnect"), "DisconnectResponse");
  (("request", "terminate"), "TerminateRequest");
  (("response", "terminate"), "TerminateResponse");
  (("request", "breakpointLocations"), "BreakpointLocationsRequest");
  (("response", "breakpointLocations"), "BreakpointLocationsResponse");
  (("request", "setBreakpoints"), "SetBreakpointsRequest");
  (("response", "setBreakpoints"), "SetBreakpointsResponse");
  (("request", "setFunctionBreakpoints"), "SetFunctionBreakpointsRequest");
  (("response", "setFunctionBreakpoints"), "SetFunctionBreakpointsResponse");
  (("request", "setExceptionBreakpoints"), "SetExceptionBreakpointsRequest");
  (("response", "setExceptionBreakpoints"), "SetExceptionBreakpointsResponse");
  (("request", "dataBreakpointInfo"), "DataBreakpointInfoRequest");
  (("response", "dataBreakpointInfo"), "DataBreakpointInfoResponse");
  (("request", "setDataBreakpoints"), "SetDataBreakpointsRequest");
  (("response", "setDataBreakpoints"), "SetDataBreakpointsResponse");
  (("request", "setInstructionBreakpoints"), "SetInstructionBreakpointsRequest");
  (("response", "setInstructionBreakpoints"), "SetInstructionBreakpointsResponse");
  (("request", "continue"), "ContinueRequest");
  (("response", "continue"), "ContinueResponse");
  (("request", "next"), "NextRequest");
  (("response", "next"), "NextResponse");
  (("request", "stepIn"), "StepInRequest");
  (("response", "stepIn"), "StepInResponse");
  (("request", "stepOut"), "StepOutRequest");
  (("response", "stepOut"), "StepOutResponse");
  (("request", "stepBack"), "StepBackRequest");
  (("response", "stepBack"), "StepBackResponse");
  (("request", "reverseContinue"), "ReverseContinueRequest");
  (("response", "reverseContinue"), "ReverseContinueResponse");
  (("request", "restartFrame"), "RestartFrameRequest");
  (("response", "restartFrame"), "RestartFrameResponse");
  (("request", "goto"), "GotoRequest");
  (("response", "goto"), "GotoResponse");
  (("request", "pause"), "PauseRequest");
  (("response", "pause"), "PauseResponse");
  (("request", "stackTrace"), "StackTraceRequest");
  (("response", "stackTrace"), "StackTraceResponse");
  (("request", "scopes"), "ScopesRequest");
  (("response", "scopes"), "ScopesResponse");
  (("request", "variables"), "VariablesRequest");
  (("response", "variables"), "VariablesResponse");
  (("request", "setVariable"), "SetVariableRequest");
  (("response", "setVariable"), "SetVariableResponse");
  (("request", "source"), "SourceRequest");
  (("response", "source"), "SourceResponse");
  (("request", "threads"), "ThreadsRequest");
  (("response", "threads"), "ThreadsResponse");
  (("request", "terminateThreads"), "TerminateThreadsRequest");
  (("response", "terminateThreads"), "TerminateThreadsResponse");
  (("request", "modules"), "ModulesRequest");
  (("response", "modules"), "ModulesResponse");
  (("request", "loadedSources"), "LoadedSourcesRequest");
  (("response", "loadedSources"), "LoadedSourcesResponse");
  (("request", "evaluate"), "EvaluateRequest");
  (("response", "evaluate"), "EvaluateResponse");
  (("request", "setExpression"), "SetExpressionRequest");
  (("response", "setExpression"), "SetExpressionResponse");
  (("request", "stepInTargets"), "StepInTargetsRequest");
  (("response", "stepInTargets"), "StepInTargetsResponse");
  (("request", "gotoTargets"), "GotoTargetsRequest");
  (("response", "gotoTargets"), "GotoTargetsResponse");
  (("request", "completions"), "CompletionsRequest");
  (("response", "completions"), "CompletionsResponse");
  (("request", "exceptionInfo"), "ExceptionInfoRequest");
  (("response", "exceptionInfo"), "ExceptionInfoResponse");
  (("request", "readMemory"), "ReadMemoryRequest");
  (("response", "readMemory"), "ReadMemoryResponse");
  (("request", "writeMemory"), "WriteMemoryRequest");
  (("response", "writeMemory"), "WriteMemoryResponse");
  (("request", "disassemble"), "DisassembleRequest");
  (("response", "disassemble"), "DisassembleResponse");
  (("request", "setDebuggerProperty"), "SetDebuggerPropertyRequest");
  (("response", "setDebuggerProperty"), "SetDebuggerPropertyResponse");
  (("event", "pydevdInputRequested"), "PydevdInputRequestedEvent");
  (("request", "setPydevdSourceMap"), "SetPydevdSourceMapRequest");
  (("response", "setPydevdSourceMap"), "SetPydevdSourceMapResponse");
  (("request", "pydevdSystemInfo"), "PydevdSystemInfoRequest");
  (("response", "pydevdSystemInfo"), "PydevdSystemInfoResponse");
  (("request", "pydevdAuthorize"), "PydevdAuthorizeRequest");
  (("response", "pydevdAuthorize"), "PydevdAuthorizeResponse")].
