-Q theories Verif
theories/Go.v
theories/L_List.v
theories/S_RingBuf.v
theories/M_RingBuf.v
theories/L_RingBuf.v
theories/P_RingBuf.v
theories/S_Collector.v
theories/M_RingBufs.v
theories/L_RingBufs.v
theories/P_Storage.v
theories/M_Strings.v
theories/L_Strings.v
theories/M_Types.v
theories/S_Trace.v
theories/M_Trace.v
theories/S_TraceView.v
theories/L_Trace.v
theories/D_Demo.v
theories/P_Trace.v
theories/M_Stringer.v
theories/L_Stringer.v
theories/P_Stringer.v
theories/S_Path.v
theories/M_Frame.v
theories/L_Frame.v
theories/P_Frame.v
theories/M_Filter.v
theories/S_Filter.v
theories/L_Filter.v
theories/P_Filter.v
theories/M_Stats.v
theories/S_Stats.v
theories/S_StatsView.v
theories/L_Stats.v
theories/P_Stats.v
theories/S_Order.v
theories/L_Order.v
theories/M_Search.v
theories/S_Search.v
theories/L_Search.v
theories/P_Search.v
theories/S_Multi.v
theories/P_Multi.v
theories/M_StatsHeap.v
theories/S_StatsHeap.v
theories/L_StatsHeap.v
theories/L_StatsRepeat.v
theories/P_StatsHeap.v
theories/M_Humanize.v
theories/P_Humanize.v
theories/M_Text.v
theories/L_Text.v
theories/M_Url.v
theories/L_Url.v
theories/P_Url.v
theories/M_Fmt.v
theories/L_Fmt.v
theories/M_Web.v
theories/S_Web.v
theories/P_Web.v
theories/M_Broker.v
theories/S_Broker.v
theories/L_Broker.v
theories/P_Broker.v
theories/M_Decor.v
theories/S_Decor.v
theories/L_Decor.v
theories/P_Context.v
theories/P_Decor.v
theories/S_Stream.v
theories/P_StreamTrace.v
theories/M_Slice.v
theories/P_Slice.v
theories/M_Snapshot.v
theories/S_Snapshot.v
theories/L_Snapshot.v
theories/P_Snapshot.v
theories/M_Mutex.v
theories/M_Steps.v
theories/P_Mutex.v
theories/M_Locks.v
theories/P_Locks.v
theories/M_Heap.v
theories/L_Heap.v
theories/S_Heap.v
theories/P_Heap.v
theories/M_Json.v
theories/S_Json.v
theories/P_Json.v
theories/P_JsonFindings.v
theories/M_Ulid.v
theories/P_Ulid.v
theories/M_Rates.v
theories/P_Rates.v
theories/P_HumanText.v
theories/M_StreamHttp.v
theories/S_StreamHttp.v
theories/L_StreamHttp.v
theories/P_StreamHttp.v
theories/M_Page.v
theories/S_Page.v
theories/L_Page.v
theories/P_Page.v
theories/M_Counters.v
theories/P_Counters.v
theories/M_Cli.v
theories/S_Cli.v
theories/P_Cli.v
theories/M_CliStream.v
theories/P_CliStream.v
theories/M_Summary.v
theories/S_Summary.v
theories/P_Summary.v
theories/S_System.v
theories/P_System.v
theories/P_Message.v
theories/S_Race.v
theories/M_Race.v
theories/L_Race.v
theories/L_RaceT.v
theories/L_RaceO.v
theories/L_RaceR.v
theories/L_RaceJ.v
theories/L_RaceStep.v
theories/L_RaceSteps.v
theories/L_RaceRest.v
theories/L_RaceRing.v
theories/L_RaceBool.v
theories/P_Race.v
theories/M_Shared.v
theories/S_Shared.v
theories/P_Shared.v
theories/M_HumanNum.v
theories/S_HumanNum.v
theories/P_HumanNum.v
theories/M_ReqString.v
theories/S_ReqString.v
theories/P_ReqString.v
theories/M_Easy.v
theories/S_Easy.v
theories/P_Easy.v
theories/M_Close.v
theories/S_Close.v
theories/P_Close.v
theories/M_Highlight.v
theories/S_Highlight.v
theories/L_Highlight.v
theories/P_Highlight.v
theories/S_Bound.v
theories/P_Bound.v
theories/M_Server.v
theories/S_Server.v
theories/P_Server.v
theories/M_Reconnect.v
theories/P_Reconnect.v
theories/P_Remote.v
theories/M_StreamClient.v
theories/S_StreamClient.v
theories/P_StreamClient.v
theories/M_SearchConc.v
theories/S_SearchConc.v
theories/P_SearchConc.v
theories/M_JsonText.v
theories/S_JsonText.v
theories/L_JsonText.v
theories/L_JsonRead.v
theories/L_JsonWrite.v
theories/P_JsonText.v
theories/M_EventSource.v
theories/S_EventSource.v
theories/L_EventSource.v
theories/P_EventSource.v
theories/M_Time.v
theories/S_Time.v
theories/L_Time.v
theories/L_TimeText.v
theories/P_Time.v
theories/M_LogConc.v
theories/S_LogConc.v
theories/L_LogConc.v
theories/P_LogConc.v
theories/M_Float.v
theories/S_Timeline.v
theories/L_Float.v
theories/P_Timeline.v
theories/M_Foreign.v
theories/S_Foreign.v
theories/L_Foreign.v
theories/P_Foreign.v
theories/M_RatesFloat.v
theories/S_RatesFloat.v
theories/P_RatesFloat.v
theories/M_Render.v
theories/S_Render.v
theories/P_Render.v
theories/M_Main.v
theories/S_Main.v
theories/P_Main.v
theories/M_Feedback.v
theories/S_Feedback.v
theories/P_Feedback.v
theories/M_Goroutines.v
theories/S_Goroutines.v
theories/L_Goroutines.v
theories/P_Goroutines.v
theories/S_Sources.v
theories/P_Sources.v
theories/S_Stacks.v
theories/M_Stacks.v
theories/P_Stacks.v
theories/M_Reporter.v
theories/S_Reporter.v
theories/P_Reporter.v
theories/M_Retry.v
theories/S_Retry.v
theories/P_Retry.v
theories/M_Flags.v
theories/S_Flags.v
theories/P_Flags.v
theories/S_HappensBefore.v
theories/M_BrokerRace.v
theories/S_BrokerRace.v
theories/L_HappensBefore.v
theories/L_BrokerRace.v
theories/P_BrokerRace.v
theories/M_Setup.v
theories/S_Setup.v
theories/P_Setup.v
theories/M_Example.v
theories/S_Example.v
theories/P_Example.v
theories/M_Saturate.v
theories/S_Saturate.v
theories/P_Saturate.v
theories/M_Panic.v
theories/P_Panic.v
theories/M_Sizes.v
theories/S_Sizes.v
theories/L_Sizes.v
theories/P_Sizes.v
theories/M_SearchLog.v
theories/S_SearchLog.v
theories/L_SearchLog.v
theories/P_SearchLog.v
theories/P_SearchCounts.v
theories/S_Request.v
theories/P_Request.v
theories/M_StreamFilter.v
theories/S_StreamFilter.v
theories/L_StreamFilter.v
theories/P_StreamFilter.v
theories/M_StreamLog.v
theories/S_StreamLog.v
theories/P_StreamLog.v
theories/P_Findings.v
theories/P_Relay.v
theories/M_Ages.v
theories/S_Ages.v
theories/L_Ages.v
theories/P_Ages.v
theories/M_Body.v
theories/S_Body.v
theories/P_Body.v
theories/P_Told.v
theories/M_Wrap.v
theories/S_Wrap.v
theories/P_Wrap.v
theories/S_Nested.v
theories/P_Nested.v
theories/S_Fmt.v
theories/P_Fmt.v
theories/M_Controls.v
theories/S_Controls.v
theories/P_Controls.v
theories/S_Space.v
theories/P_Space.v
theories/M_Settings.v
theories/P_Settings.v
theories/M_Debug.v
theories/P_Debug.v
theories/P_Marks.v
theories/M_CliTrace.v
theories/P_CliTrace.v
