-Q theories Verif
theories/Base.v
theories/BaseFacts.v
theories/S_Bencode.v
theories/M_Bencode.v
theories/P_Bencode.v
theories/M_Sha1.v
theories/T_Sha1.v
theories/S_Utf8.v
theories/M_Utf8.v
theories/P_Utf8.v
theories/M_Net.v
theories/M_Util.v
theories/M_Torrent.v
theories/M_Extensions.v
theories/M_Messages.v
theories/M_Peer.v
theories/S_Download.v
theories/P_Torrent.v
theories/P_Peer.v
theories/P_Download.v
theories/C_Download.v
theories/M_IpText.v
theories/P_IpText.v
theories/S_TorrentFile.v
theories/P_TorrentFile.v
theories/C_TorrentFile.v
theories/M_Types.v
theories/S_Types.v
theories/P_Types.v
theories/C_Types.v
theories/M_Template.v
theories/S_Template.v
theories/P_Template.v
theories/S_Path.v
theories/M_Save.v
theories/P_Save.v
theories/P_Paths.v
theories/P_Dest.v
theories/C_Paths.v
theories/M_Compact.v
theories/S_Wire.v
theories/P_Wire.v
theories/P_PeerWire.v
theories/P_ExtWire.v
theories/C_Wire.v
theories/M_Frame.v
theories/S_Frame.v
theories/P_Frame.v
theories/M_Session.v
theories/S_Session.v
theories/P_Session.v
theories/P_Exchange.v
theories/C_Session.v
theories/M_Tracker.v
theories/M_Udp.v
theories/S_Udp.v
theories/P_Udp.v
theories/S_UdpSession.v
theories/P_UdpSession.v
theories/C_Udp.v
theories/S_Form.v
theories/M_Form.v
theories/M_Http.v
theories/S_Http.v
theories/P_Form.v
theories/P_Http.v
theories/C_Http.v
theories/M_Magnet.v
theories/S_Magnet.v
theories/P_Magnet.v
theories/C_Magnet.v
theories/M_DhtMsg.v
theories/S_DhtMsg.v
theories/P_DhtMsg.v
theories/C_DhtMsg.v
theories/T_DhtMsg.v
theories/M_Json.v
theories/S_Json.v
theories/P_Json.v
theories/C_Json.v
theories/T_Json.v
theories/M_Config.v
theories/S_Config.v
theories/P_Config.v
theories/C_Config.v
theories/T_Config.v
theories/M_Rc4.v
theories/M_Mse.v
theories/M_Connect.v
theories/S_Mse.v
theories/P_Mse.v
theories/P_Mse2.v
theories/C_Mse.v
theories/T_Mse.v
theories/M_Nursery.v
theories/S_Nursery.v
theories/P_Nursery.v
theories/C_Nursery.v
theories/M_Async.v
theories/S_Async.v
theories/P_Async.v
theories/C_Async.v
theories/M_Resolve.v
theories/S_Resolve.v
theories/P_Resolve.v
theories/P_Resolve2.v
theories/P_Resolve3.v
theories/C_Resolve.v
theories/M_Batch.v
theories/P_Batch.v
theories/C_Batch.v
theories/M_Dht.v
theories/S_Dht.v
theories/P_Dht.v
theories/P_Dht2.v
theories/P_Dht3.v
theories/P_Dht4.v
theories/P_Dht5.v
theories/P_Dht6.v
theories/P_Dht7.v
theories/P_Dht8.v
theories/C_Dht.v
theories/S_IpText.v
theories/P_IpGrammar.v
theories/C_IpText.v
theories/S_Lossy.v
theories/P_Lossy.v
theories/C_Text.v
theories/M_SockText.v
theories/S_SockText.v
theories/P_SockText.v
theories/C_SockText.v
theories/M_GetInfo.v
theories/S_GetInfo.v
theories/P_GetInfo.v
theories/P_GetInfo2.v
theories/P_GetInfo3.v
theories/P_GetInfo4.v
theories/P_GetInfo5.v
theories/P_GetInfo6.v
theories/C_GetInfo.v
theories/S_Quiet.v
theories/P_Resolve4.v
theories/M_Get.v
theories/S_Get.v
theories/P_Get.v
theories/P_Get2.v
theories/P_Get3.v
theories/C_Get.v
theories/S_Answer.v
theories/P_Answer.v
theories/C_Answer.v
theories/M_Commands.v
theories/S_Commands.v
theories/P_Commands.v
theories/C_Commands.v
theories/M_App.v
theories/S_App.v
theories/P_App.v
theories/P_App2.v
theories/P_App3.v
theories/P_App4.v
theories/P_App5.v
theories/P_App6.v
theories/P_App7.v
theories/P_App8.v
theories/C_App.v
theories/M_Boot.v
theories/S_Boot.v
theories/P_Boot.v
theories/C_Boot.v
theories/M_Announce.v
theories/S_Announce.v
theories/P_Announce.v
theories/P_Announce2.v
theories/C_Announce.v
theories/S_Disk.v
theories/P_Disk.v
theories/M_BatchCmd.v
theories/S_BatchCmd.v
theories/P_BatchCmd.v
theories/P_BatchCmd2.v
theories/P_BatchCmd3.v
theories/P_BatchCmd4.v
theories/P_BatchEx.v
theories/C_BatchCmd.v
theories/M_GetDht.v
theories/S_GetDht.v
theories/P_GetDht.v
theories/P_GetDht2.v
theories/P_GetDhtEx.v
theories/C_GetDht.v
theories/M_Process.v
theories/S_Process.v
theories/P_Process.v
theories/P_Process2.v
theories/P_Process3.v
theories/P_Process4.v
theories/P_Process5.v
theories/C_Process.v
theories/S_Reason.v
theories/P_Reason.v
theories/S_Reason2.v
theories/P_Reason2.v
theories/S_Reason3.v
theories/P_Reason3.v
theories/C_Reason.v
theories/P_Commands2.v
theories/C_Commands2.v
theories/M_Commands2.v
theories/S_Commands2.v
theories/P_Commands3.v
theories/C_Commands3.v
theories/S_Reason4.v
theories/P_Reason4.v
theories/P_Reason5.v
theories/P_Reason6.v
theories/C_Reason4.v
theories/S_Memory.v
theories/P_Memory.v
theories/C_Memory.v
theories/M_Write.v
theories/S_Write.v
theories/S_Write2.v
theories/S_Write3.v
theories/P_Write.v
theories/P_Write2.v
theories/P_Write3.v
theories/P_Write4.v
theories/P_Write5.v
theories/C_Write.v
theories/M_Stdout.v
theories/P_Stdout.v
theories/C_Stdout.v
theories/S_Magnet2.v
theories/P_Magnet2.v
theories/M_Nursery2.v
theories/S_Nursery2.v
theories/P_Nursery2.v
theories/C_Nursery2.v
theories/M_Log.v
theories/S_Log.v
theories/P_Log.v
theories/P_LogRead.v
theories/P_LogMsg.v
theories/P_LogReason.v
theories/C_Log.v
theories/T_Log.v
theories/M_Report.v
theories/S_Report.v
theories/P_Report.v
theories/P_Report2.v
theories/P_Report3.v
theories/C_Report.v
theories/P_Limits.v
theories/C_Limits.v
theories/M_Duration.v
theories/S_Duration.v
theories/P_Duration.v
theories/P_Duration2.v
theories/P_Duration3.v
theories/P_Duration4.v
theories/C_Duration.v
theories/M_DhtTime.v
theories/S_DhtTime.v
theories/P_DhtTime.v
theories/P_DhtTime2.v
theories/C_DhtTime.v
theories/M_Stderr.v
theories/S_Stderr.v
theories/P_Stderr.v
theories/P_Stderr2.v
theories/C_Stderr.v
theories/S_Same.v
theories/P_Same.v
theories/C_Same.v
theories/P_Limits2.v
theories/S_LogReason.v
theories/P_LogReason2.v
theories/P_LogReason3.v
theories/P_LogReason4.v
theories/C_LogReason.v
theories/P_BatchGet.v
theories/C_BatchGet.v
theories/M_DhtUp.v
theories/P_DhtUp.v
theories/C_DhtUp.v
theories/S_LogAbout.v
theories/P_LogAbout.v
theories/C_LogAbout.v
theories/M_DhtLog.v
theories/S_DhtLog.v
theories/P_DhtLog.v
theories/C_DhtLog.v
theories/M_DhtLog2.v
theories/S_DhtLog2.v
theories/P_DhtLog2.v
theories/M_TrackerLog.v
theories/S_TrackerLog.v
theories/P_TrackerLog.v
theories/C_TrackerLog.v
theories/M_PeerLog.v
theories/S_PeerLog.v
theories/P_PeerLog.v
theories/C_PeerLog.v
