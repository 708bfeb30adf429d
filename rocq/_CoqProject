-Q theories Verif
theories/M_Bytes.v
theories/M_Config.v
theories/M_Rx.v
theories/M_Unpacker.v
theories/M_Flex.v
theories/M_NonCopy.v
theories/S_Frame.v
theories/S_Rx.v
theories/L_Bytes.v
theories/L_Frame.v
theories/L_Rx.v
theories/L_FrameRx.v
theories/L_Unpacker.v
theories/L_NonCopy.v
theories/L_Flex.v
theories/P_Unpacker.v
theories/M_PrefixSuffix.v
theories/S_Affix.v
theories/L_Affix.v
theories/P_PrefixSuffix.v
theories/M_Simple.v
theories/M_UdpRx.v
theories/L_Simple.v
theories/P_Simple.v
theories/M_Packer.v
theories/S_Packer.v
theories/L_Packer.v
theories/P_Packer.v
theories/M_Buffer.v
theories/S_Buffer.v
theories/L_Buffer.v
theories/P_Buffer.v
theories/M_Queue.v
theories/S_Queue.v
theories/L_Queue.v
theories/P_Queue.v
theories/M_Send.v
theories/S_Send.v
theories/L_Send.v
theories/P_Send.v
theories/M_Timer.v
theories/S_Timer.v
theories/L_Timer.v
theories/M_TimerIds.v
theories/P_Timer.v
theories/M_Pool.v
theories/S_Pool.v
theories/L_Pool.v
theories/P_Pool.v
theories/M_Pump.v
theories/S_Pump.v
theories/L_Pump.v
theories/P_Pump.v
theories/M_Listen.v
theories/P_Listen.v
theories/M_Socks.v
theories/S_Socks.v
theories/L_Socks.v
theories/P_Socks.v
theories/M_Stat.v
theories/P_Stat.v
theories/M_File.v
theories/P_File.v
theories/M_FTimer.v
theories/M_Dispatch.v
theories/S_Dispatch.v
theories/L_Dispatch.v
theories/P_Dispatch.v
theories/M_RecvFlow.v
theories/P_RecvFlow.v
theories/M_SyncRecv.v
theories/P_SyncRecv.v
theories/M_SyncSend.v
theories/P_SyncSend.v
theories/M_SafeSend.v
theories/P_SafeSend.v
theories/M_UdpSend.v
theories/P_UdpSend.v
theories/M_Life.v
theories/P_Life.v
theories/M_Heart.v
theories/P_Heart.v
theories/M_Link.v
theories/S_Link.v
theories/L_Link.v
theories/P_Link.v
theories/M_Callback.v
theories/P_Callback.v
theories/M_Service.v
theories/S_Service.v
theories/L_Service.v
theories/L_ServiceLive.v
theories/P_Service.v
theories/M_Links.v
theories/S_Links.v
theories/P_Links.v
theories/M_Handle.v
theories/S_Handle.v
theories/P_Handle.v
theories/M_Passive.v
theories/S_Passive.v
theories/P_Passive.v
theories/M_Secure.v
theories/S_Secure.v
theories/P_Secure.v
theories/M_Kcp.v
theories/S_Kcp.v
theories/P_Kcp.v
theories/M_Ws.v
theories/S_Ws.v
theories/P_Ws.v
theories/M_Visit.v
theories/S_Visit.v
theories/P_Visit.v
theories/M_ObjBuf.v
theories/S_ObjBuf.v
theories/P_ObjBuf.v
theories/P_Pacing.v
theories/M_Wire.v
theories/S_Wire.v
theories/P_Wire.v
theories/M_Reuse.v
theories/S_Reuse.v
theories/P_Reuse.v
theories/M_Path.v
theories/S_Path.v
theories/P_Path.v
theories/M_Notify.v
theories/S_Notify.v
theories/P_Notify.v
theories/M_Delay.v
theories/S_Delay.v
theories/P_Delay.v
theories/M_Hook.v
theories/S_Hook.v
theories/P_Hook.v
theories/M_UdpAddr.v
theories/S_UdpAddr.v
theories/P_UdpAddr.v
theories/S_Sets.v
theories/P_Sets.v
theories/M_Call.v
theories/S_Call.v
theories/P_Call.v
theories/M_Names.v
theories/S_Names.v
theories/P_Names.v
theories/S_Grow.v
theories/P_Grow.v
theories/M_EchoTest.v
theories/S_EchoTest.v
theories/P_EchoTest.v
theories/M_PingPong.v
theories/S_PingPong.v
theories/P_PingPong.v
theories/S_VisitShut.v
theories/P_VisitShut.v
theories/M_Conc.v
theories/S_Conc.v
theories/P_Conc.v
theories/P_VisitOne.v
theories/M_UdpHeart.v
theories/S_UdpHeart.v
theories/P_UdpHeart.v
theories/P_HeartOn.v
theories/P_UdpHeartOn.v
theories/M_UdpPath.v
theories/S_UdpPath.v
theories/P_UdpPath.v
theories/P_UdpPathOn.v
theories/M_FileLink.v
theories/S_FileLink.v
theories/P_FileLink.v
theories/M_FileList.v
theories/S_FileList.v
theories/P_FileList.v
theories/M_Echo.v
theories/S_Echo.v
theories/P_Echo.v
theories/M_Watch.v
theories/S_Watch.v
theories/P_Watch.v
theories/M_Talk.v
theories/S_Talk.v
theories/P_Talk.v
theories/M_Short.v
theories/S_Short.v
theories/P_Short.v
theories/M_Client.v
theories/S_Client.v
theories/P_Client.v
theories/M_Keep.v
theories/S_Keep.v
theories/P_Keep.v
