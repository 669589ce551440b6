-Q theories Verif
theories/M_Accept.v
theories/M_Base.v
theories/M_Client.v
theories/M_Conf.v
theories/M_ConfTypes.v
theories/M_Daemon.v
theories/M_Firewall.v
theories/M_Float.v
theories/M_FwProto.v
theories/M_IpAddr.v
theories/M_IpParse.v
theories/M_Json.v
theories/M_Listing.v
theories/M_Main.v
theories/M_Proto.v
theories/M_Report.v
theories/M_Seccomp.v
theories/M_Server.v
theories/M_Sha3.v
theories/M_Start.v
theories/M_Str.v
theories/M_Stream.v
theories/M_Text.v
theories/M_Udp.v
theories/M_Utf8.v
theories/M_Wake.v
theories/P_Accept.v
theories/P_Adding.v
theories/P_Alike.v
theories/P_Apart.v
theories/P_Base.v
theories/P_Both.v
theories/P_Busy.v
theories/P_Bytes.v
theories/P_CExec.v
theories/P_Cli.v
theories/P_Client.v
theories/P_Comment.v
theories/P_Conf.v
theories/P_ConfLoad.v
theories/P_Count.v
theories/P_Crash.v
theories/P_Crowd.v
theories/P_CrowdFair.v
theories/P_Daemon.v
theories/P_Dgram.v
theories/P_E2e.v
theories/P_Exec.v
theories/P_Fair.v
theories/P_Files.v
theories/P_Fips.v
theories/P_Firewall.v
theories/P_Float.v
theories/P_FloatDur.v
theories/P_FloatText.v
theories/P_FwProto.v
theories/P_Fwd.v
theories/P_FwdProps.v
theories/P_Gen.v
theories/P_Host.v
theories/P_Ini.v
theories/P_IpFmt.v
theories/P_IpParse.v
theories/P_Json.v
theories/P_Keccak.v
theories/P_Layout.v
theories/P_Listing.v
theories/P_Literal.v
theories/P_Load.v
theories/P_Loss.v
theories/P_Main.v
theories/P_Maint.v
theories/P_Many.v
theories/P_Own.v
theories/P_OwnFw.v
theories/P_Pair.v
theories/P_Patience.v
theories/P_Proto.v
theories/P_Reassign.v
theories/P_Relay.v
theories/P_Report.v
theories/P_Revoked.v
theories/P_Rotate.v
theories/P_Rush.v
theories/P_Seccomp.v
theories/P_Secret.v
theories/P_Server.v
theories/P_Session.v
theories/P_Setup.v
theories/P_Sha3.v
theories/P_Start.v
theories/P_Str.v
theories/P_Stream.v
theories/P_System.v
theories/P_Text.v
theories/P_Truth.v
theories/P_Udp.v
theories/P_UdpProps.v
theories/P_Utf8.v
theories/P_Wake.v
theories/P_Whole.v
theories/Prop_Accept.v
theories/Prop_Adding.v
theories/Prop_Apart.v
theories/Prop_Both.v
theories/Prop_Bytes.v
theories/Prop_Client.v
theories/Prop_Comment.v
theories/Prop_Conf.v
theories/Prop_Count.v
theories/Prop_Crash.v
theories/Prop_Crowd.v
theories/Prop_CrowdFair.v
theories/Prop_Daemon.v
theories/Prop_Dgram.v
theories/Prop_E2e.v
theories/Prop_Fair.v
theories/Prop_Firewall.v
theories/Prop_Float.v
theories/Prop_Host.v
theories/Prop_Ip.v
theories/Prop_Json.v
theories/Prop_Layout.v
theories/Prop_Listing.v
theories/Prop_Loss.v
theories/Prop_Main.v
theories/Prop_Maint.v
theories/Prop_Many.v
theories/Prop_Own.v
theories/Prop_OwnFw.v
theories/Prop_Pair.v
theories/Prop_Patience.v
theories/Prop_Reassign.v
theories/Prop_Replay.v
theories/Prop_Report.v
theories/Prop_Revoke.v
theories/Prop_Revoked.v
theories/Prop_Rotate.v
theories/Prop_Rush.v
theories/Prop_Seccomp.v
theories/Prop_Secret.v
theories/Prop_Serve.v
theories/Prop_Session.v
theories/Prop_Setup.v
theories/Prop_Sha3.v
theories/Prop_Start.v
theories/Prop_Stream.v
theories/Prop_System.v
theories/Prop_Truth.v
theories/Prop_Udp.v
theories/Prop_Wake.v
theories/Prop_Whole.v
theories/Prop_Wire.v
theories/S_Accept.v
theories/S_Adding.v
theories/S_Apart.v
theories/S_Both.v
theories/S_Bytes.v
theories/S_Client.v
theories/S_Conf.v
theories/S_Count.v
theories/S_Crash.v
theories/S_Crowd.v
theories/S_CrowdFair.v
theories/S_Dgram.v
theories/S_E2e.v
theories/S_Fair.v
theories/S_Files.v
theories/S_Firewall.v
theories/S_Float.v
theories/S_Host.v
theories/S_Ip.v
theories/S_Json.v
theories/S_Layout.v
theories/S_Listing.v
theories/S_Loss.v
theories/S_Main.v
theories/S_Maint.v
theories/S_Many.v
theories/S_Own.v
theories/S_Pair.v
theories/S_Patience.v
theories/S_Reassign.v
theories/S_Report.v
theories/S_Revoked.v
theories/S_Rotate.v
theories/S_Rush.v
theories/S_Seccomp.v
theories/S_Secret.v
theories/S_Session.v
theories/S_Setup.v
theories/S_Sha3.v
theories/S_Start.v
theories/S_Stream.v
theories/S_System.v
theories/S_Text.v
theories/S_Truth.v
theories/S_Udp.v
theories/S_Wake.v
theories/S_Whole.v
theories/S_Wire.v
