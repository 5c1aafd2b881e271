-Q theories Verif
theories/Prelude.v
theories/Types.v
theories/M_Quorum.v
theories/M_Inflights.v
theories/M_Progress.v
theories/M_Tracker.v
theories/M_Util.v
theories/M_Storage.v
theories/M_Unstable.v
theories/M_Log.v
theories/M_ReadOnly.v
theories/M_ConfPb.v
theories/M_ConfChange.v
theories/M_Raft.v
theories/M_RawNode.v
theories/M_StorageHeap.v
theories/Spec_Quorum.v
theories/P_Quorum.v
theories/Spec_Inflights.v
theories/P_Inflights.v
theories/Spec_Progress.v
theories/P_Progress.v
theories/Spec_Log.v
theories/P_Lists.v
theories/P_Storage.v
theories/P_Log.v
theories/Spec_Storage.v
theories/Sys_Storage.v
theories/P_StorageSeq.v
theories/Spec_RaftLog.v
theories/Sys_RaftLog.v
theories/P_RaftLogSeq.v
theories/Ex_Env.v
theories/Prop_Quorum.v
theories/Prop_Tracker.v
theories/Prop_Storage.v
theories/Prop_Log.v
theories/Spec_ConfChange.v
theories/Sys_ConfChange.v
theories/P_ConfChange.v
theories/Prop_ConfChange.v
theories/P_ConfPb.v
theories/Prop_ConfPb.v
theories/Spec_ReadOnly.v
theories/Sys_ReadOnly.v
theories/P_ReadOnly.v
theories/Prop_ReadOnly.v
theories/P_Frame.v
theories/P_Prim.v
theories/Sys_Node.v
theories/P_Node.v
theories/P_Fields.v
theories/P_Vote.v
theories/Spec_Node.v
theories/Ex_Node.v
theories/P_Persist.v
theories/P_New.v
theories/P_Time.v
theories/P_Conf.v
theories/Prop_Vote.v
theories/Prop_Time.v
theories/P_NodeLog.v
theories/P_Handle.v
theories/P_NodeRun.v
theories/Ex_Check.v
theories/Prop_Deliver.v
theories/P_Emit.v
theories/Ex_Case.v
theories/Prop_Msg.v
theories/P_Ack.v
theories/P_Lead.v
theories/Prop_Leader.v
theories/Spec_Api.v
theories/P_Boot.v
theories/Prop_Api.v
theories/Spec_Prop.v
theories/Prop_Prop.v
theories/Spec_Snap.v
theories/Prop_Snap.v
theories/P_Transfer.v
theories/Prop_Transfer.v
theories/A_Proto.v
theories/Sys_Cluster.v
theories/R_Log.v
theories/R_Sim.v
theories/R_Prim.v
theories/R_Send.v
theories/R_Lead.v
theories/R_Foll.v
theories/R_Node.v
theories/R_Cluster.v
theories/R_Elig.v
theories/Spec_Cluster.v
theories/Ex_Cluster.v
theories/Prop_Cluster.v
theories/P_Flow.v
theories/P_Window.v
theories/P_FlowRun.v
theories/Spec_Flow.v
theories/Prop_Flow.v
theories/Spec_Read.v
theories/P_Read.v
theories/P_ReadQ.v
theories/P_ReadRun.v
theories/Prop_Read.v
theories/Sys_Trace.v
theories/Spec_Linear.v
theories/R_Read.v
theories/R_Linear.v
theories/Ex_Trace.v
theories/Prop_Linear.v
theories/P_Total.v
theories/P_Total2.v
theories/P_Total3.v
theories/P_Total4.v
theories/Spec_Total.v
theories/P_Total5.v
theories/P_Total6.v
theories/R_Total.v
theories/P_Self.v
theories/R_Total2.v
theories/Prop_Total.v
theories/Spec_Resp.v
theories/Prop_Answer.v
theories/Prop_Ballot.v
theories/P_Elect.v
theories/Spec_Elect.v
theories/Prop_Elect.v
theories/P_Beat.v
theories/Spec_Beat.v
theories/Prop_Beat.v
theories/P_Commit.v
theories/Spec_Commit.v
theories/Prop_Commit.v
theories/P_Feed.v
theories/P_Bcast.v
theories/Spec_Feed.v
theories/Prop_Feed.v
theories/P_ReadLive.v
theories/Spec_ReadLive.v
theories/Prop_ReadLive.v
theories/Spec_Quiet.v
theories/P_Quiet.v
theories/Prop_Quiet.v
theories/Sys_Loop.v
theories/P_Loop.v
theories/Spec_Leave.v
theories/P_Leave.v
theories/Prop_Leave.v
theories/R_Switch.v
theories/R_Self.v
theories/R_Own.v
theories/Spec_Crash.v
theories/P_Crash.v
theories/Prop_Crash.v
theories/Spec_Handoff.v
theories/Prop_Handoff.v
theories/P_Clock.v
theories/Spec_Clock.v
theories/Prop_Clock.v
theories/Sys_App.v
theories/Spec_App.v
theories/P_App.v
theories/Ex_App.v
theories/Prop_App.v
theories/Prop_Client.v
theories/Spec_Probe.v
theories/Prop_Probe.v
theories/Spec_Link.v
theories/Prop_Link.v
theories/Prop_Made.v
theories/P_Order.v
theories/Sys_Doc.v
theories/Prop_Order.v
theories/P_Order2.v
theories/Spec_DocTotal.v
theories/Prop_DocTotal.v
theories/Spec_RoundTrip.v
theories/Prop_RoundTrip.v
