-Q theories Verif
theories/M_Base.v
theories/F_Base.v
theories/M_Sink.v
theories/S_Sink.v
theories/M_Conc.v
theories/S_Conc.v
theories/F_Sink.v
theories/F_SinkSeq.v
theories/F_Conc.v
theories/F_Conc2.v
theories/Prop_Sink.v
theories/M_Utf8.v
theories/S_Utf8.v
theories/F_Utf8.v
theories/Prop_Utf8.v
theories/M_Raw.v
theories/F_Raw.v
theories/Prop_Raw.v
theories/M_Header.v
theories/M_V8.v
theories/M_Iter.v
theories/Prop_Format.v
theories/M_Strings.v
theories/M_StrTable.v
theories/S_Strings.v
theories/F_Strings.v
theories/M_EventId.v
theories/M_Session.v
theories/S_Session.v
theories/F_Session.v
theories/F_Session2.v
theories/Prop_Strings.v
theories/S_EventId.v
theories/F_EventId.v
theories/Prop_EventId.v
theories/M_Run.v
theories/S_Run.v
theories/F_Run.v
theories/Prop_Run.v
theories/M_Guard.v
theories/S_Guard.v
theories/Prop_Guard.v
theories/M_Map.v
theories/M_Analysis.v
theories/S_Analysis.v
theories/S_Summary.v
theories/F_Analysis.v
theories/F_Analysis2.v
theories/F_Analysis3.v
theories/Prop_Analysis.v
theories/M_Collapse.v
theories/S_Collapse.v
theories/F_Collapse.v
theories/Prop_Collapse.v
theories/M_Diff.v
theories/S_Diff.v
theories/F_Diff.v
theories/Prop_Diff.v
theories/M_Path.v
theories/Prop_Path.v
theories/M_Summarize.v
theories/S_Summarize.v
theories/Prop_Summarize.v
theories/M_Aggregate.v
theories/S_Extrema.v
theories/Prop_Extrema.v
theories/S_Aggregate.v
theories/F_Aggregate.v
theories/Prop_Aggregate.v
theories/Prop_Aggregate2.v
theories/M_Crox.v
theories/S_Crox.v
theories/Prop_Crox.v
theories/Prop_Crox2.v
theories/M_Tools.v
theories/S_Tools.v
theories/Prop_Tools.v
theories/M_Counters.v
theories/S_Counters.v
theories/Prop_Counters.v
theories/M_Metadata.v
theories/M_HwCounter.v
theories/S_Metadata.v
theories/Prop_Metadata.v
theories/S_SinkPanic.v
theories/Prop_SinkPanic.v
theories/M_Fault.v
theories/Prop_Fault.v
theories/Prop_Fault2.v
theories/M_Builder.v
theories/S_Builder.v
theories/Prop_Builder.v
theories/S_Whole.v
theories/Prop_Whole.v
theories/S_Json.v
theories/F_Json.v
theories/M_Json.v
theories/Prop_Json.v
theories/Prop_Accept.v
theories/M_Folded.v
theories/S_Folded.v
theories/Prop_Folded.v
theories/M_Float.v
theories/S_Float.v
theories/Prop_Float.v
theories/S_Durable.v
theories/Prop_Durable.v
theories/M_DiffJson.v
theories/S_DiffJson.v
theories/Prop_DiffJson.v
theories/M_Text.v
theories/S_Text.v
theories/Prop_Text.v
theories/Prop_Text2.v
theories/M_AggText.v
theories/S_AggText.v
theories/Prop_AggText.v
theories/M_Open.v
theories/S_Lossy.v
theories/Prop_Lossy.v
theories/S_Corrupt.v
theories/Prop_Corrupt.v
theories/S_Open.v
theories/Prop_Open.v
theories/S_Events.v
theories/Prop_Events.v
theories/Prop_Whole2.v
theories/Prop_Progress.v
theories/M_Programs.v
theories/S_Programs.v
theories/Prop_Programs.v
theories/Prop_Needed.v
theories/S_EndToEnd.v
theories/Prop_EndToEnd.v
theories/Prop_EndToEnd2.v
theories/M_Output.v
theories/S_Output.v
theories/Prop_Output.v
theories/M_Index.v
theories/Prop_Index.v
theories/Prop_Edit.v
theories/M_Diag.v
theories/S_Diag.v
theories/Prop_Diag.v
theories/M_Multi.v
theories/S_Multi.v
theories/F_Multi.v
theories/Prop_Multi.v
theories/S_HwCounter.v
theories/F_HwCounter.v
theories/Prop_HwCounter.v
theories/M_Start.v
theories/S_Start.v
theories/Prop_Start.v
theories/M_Cli.v
theories/S_Cli.v
theories/Prop_Cli.v
theories/S_System.v
theories/Prop_System.v
theories/M_ReadF64.v
theories/S_ReadF64.v
theories/Prop_ReadF64.v
theories/M_ShowF64.v
theories/S_ShowF64.v
theories/Prop_ShowF64.v
theories/Prop_ShowText.v
theories/Prop_ShowRec.v
theories/M_Stdout.v
theories/S_Stdout.v
theories/Prop_Stdout.v
theories/M_Harness.v
theories/S_Harness.v
theories/Prop_Harness.v
theories/S_Crash.v
theories/F_Crash.v
theories/Prop_Crash.v
theories/S_View.v
theories/Prop_View.v
theories/M_Nested.v
theories/S_Nested.v
theories/Prop_Nested.v
theories/Prop_Nested2.v
theories/Prop_Nested3.v
theories/S_CrashAnalysis.v
theories/Prop_CrashAnalysis.v
theories/S_Schedule.v
theories/Prop_Schedule.v
theories/S_Paging.v
theories/Prop_Paging.v
theories/S_Chain.v
theories/Prop_Chain.v
theories/Prop_AggOrder.v
theories/S_Shift.v
theories/Prop_Shift.v
theories/Prop_Shift2.v
theories/S_Rename.v
theories/Prop_Rename.v
theories/Prop_Rename2.v
theories/S_Looks.v
theories/Prop_Looks.v
theories/S_Split.v
theories/Prop_Split.v
theories/Prop_Split2.v
theories/S_Agree.v
theories/Prop_Agree.v
theories/S_AgreeChrome.v
theories/Prop_AgreeChrome.v
