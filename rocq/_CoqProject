-Q theories Verif

theories/Base.v
theories/M_FragmentSet.v
theories/S_FragmentSet.v
theories/L_FragmentSet.v
theories/P_FragmentSet.v
theories/M_LtpFragmentSet.v
theories/S_LtpFragmentSet.v
theories/L_LtpFragmentSet.v
theories/P_LtpFragmentSet.v
theories/M_SegmentAlloc.v
theories/S_SegmentAlloc.v
theories/L_SegmentAlloc.v
theories/P_SegmentAlloc.v
theories/M_Intrin.v
theories/M_Sdnv.v
theories/S_Sdnv.v
theories/L_Intrin.v
theories/L_Sdnv.v
theories/P_Sdnv.v
theories/M_Cbor.v
theories/S_Cbor.v
theories/L_Cbor.v
theories/P_Cbor.v
theories/M_Spsc.v
theories/S_Spsc.v
theories/L_Spsc.v
theories/P_Spsc.v
theories/M_CustodyId.v
theories/S_CustodyId.v
theories/L_CustodyId.v
theories/P_CustodyId.v
theories/M_TokenRate.v
theories/S_TokenRate.v
theories/P_TokenRate.v
theories/M_Acs.v
theories/S_Acs.v
theories/L_Acs.v
theories/P_Acs.v
theories/M_Bpv6Frag.v
theories/S_Bpv6Frag.v
theories/L_Bpv6Frag.v
theories/P_Bpv6Frag.v
theories/M_LtpReceiver.v
theories/M_LtpSender.v
theories/M_LtpSystem.v
theories/S_LtpSession.v
theories/L_LtpReceiver.v
theories/L_LtpSender.v
theories/L_LtpSystem.v
theories/P_LtpReceiver.v
theories/P_LtpSender.v
theories/P_LtpSystem.v
theories/M_HashMap.v
theories/S_HashMap.v
theories/L_HashMap.v
theories/P_HashMap.v
theories/M_Flq.v
theories/S_Flq.v
theories/L_Flq.v
theories/P_Flq.v
theories/M_Catalog.v
theories/S_Catalog.v
theories/L_Catalog.v
theories/P_Catalog.v
theories/M_CustTimers.v
theories/S_CustTimers.v
theories/L_CustTimers.v
theories/P_CustTimers.v
theories/M_LtpIds.v
theories/S_LtpIds.v
theories/L_LtpIds.v
theories/P_LtpIds.v
theories/M_LtpTimers.v
theories/S_LtpTimers.v
theories/L_LtpTimers.v
theories/P_LtpTimers.v
theories/M_Slip.v
theories/L_Slip.v
theories/P_Slip.v
theories/M_Stream.v
theories/L_Stream.v
theories/M_Tcpcl.v
theories/L_SdnvRead.v
theories/S_Tcpcl.v
theories/L_Tcpcl.v
theories/P_Tcpcl.v
theories/M_Storage.v
theories/S_Storage.v
theories/L_Storage.v
theories/P_Storage.v
theories/M_Restore.v
theories/S_Restore.v
theories/L_Restore.v
theories/L_Restart.v
theories/P_Restore.v
theories/M_LtpCodec.v
theories/S_LtpCodec.v
theories/L_LtpCodec.v
theories/L_LtpSim.v
theories/L_LtpFeed.v
theories/L_LtpWire.v
theories/L_LtpGen.v
theories/P_LtpCodec.v
theories/M_Uri.v
theories/S_Uri.v
theories/L_Uri.v
theories/P_Uri.v
theories/M_Bpv6Block.v
theories/M_BundleV6.v
theories/S_Bpv6.v
theories/L_Bpv6Read.v
theories/L_Bpv6Load.v
theories/L_Bpv6Write.v
theories/L_Bpv6Trip.v
theories/S_BundleV6.v
theories/L_BundleV6.v
theories/P_Bpv6Block.v
theories/P_BundleV6.v
theories/M_Cgr.v
theories/S_Cgr.v
theories/L_Cgr.v
theories/L_CgrRoute.v
theories/P_Cgr.v
theories/S_CgrMulti.v
theories/L_CgrMulti.v
theories/P_CgrMulti.v
theories/M_Router.v
theories/S_Router.v
theories/L_Router.v
theories/L_RouterStep.v
theories/L_RouterGood.v
theories/P_Router.v
theories/S_RouterTimer.v
theories/L_RouterTimer.v
theories/L_RouterTime.v
theories/L_RouterStore.v
theories/P_RouterTimer.v
theories/M_Bpv7Crc.v
theories/S_Bpv7Crc.v
theories/L_Bpv7Crc.v
theories/P_Bpv7Crc.v
theories/M_Bpv7Block.v
theories/S_Bpv7.v
theories/L_Bpv7Read.v
theories/L_Bpv7Write.v
theories/P_Bpv7Block.v
theories/L_Bpv7Canon.v
theories/P_Bpv7Canon.v
theories/M_Bpv7Admin.v
theories/S_Bpv7Admin.v
theories/L_Bpv7Admin.v
theories/P_Bpv7Admin.v
theories/M_Bpv7Sec.v
theories/S_Bpv7Sec.v
theories/L_Bpv7Sec.v
theories/P_Bpv7Sec.v
theories/M_BundleV7.v
theories/S_BundleV7.v
theories/L_BundleV7.v
theories/L_BundleV7Render.v
theories/L_BundleV7Seen.v
theories/L_BundleV7Place.v
theories/P_BundleV7.v
theories/M_Ingress.v
theories/S_Ingress.v
theories/L_Ingress.v
theories/P_Ingress.v
theories/M_Dispatch.v
theories/S_Dispatch.v
theories/L_Dispatch.v
theories/L_DispatchInv.v
theories/L_DispatchFair.v
theories/L_DispatchFate.v
theories/P_Dispatch.v
theories/M_StorageIf.v
theories/S_StorageIf.v
theories/L_StorageIf.v
theories/L_StorageIfInv.v
theories/L_StorageIfSend.v
theories/L_StorageIfAll.v
theories/L_StorageIfDisk.v
theories/L_StorageIfHonest.v
theories/L_StorageIfKept.v
theories/L_StorageIfIdle.v
theories/P_StorageIf.v
theories/M_TcpSender.v
theories/S_TcpSender.v
theories/L_TcpSender.v
theories/L_TcpSenderV4.v
theories/P_TcpSender.v
theories/M_Egress.v
theories/S_Egress.v
theories/L_Egress.v
theories/P_Egress.v
theories/L_PairStorage.v
theories/M_StoreEgress.v
theories/S_StoreEgress.v
theories/L_StoreEgress.v
theories/P_StoreEgress.v
theories/P_StorageIfBack.v
theories/P_StoreEgressBack.v
theories/M_Custody.v
theories/S_Custody.v
theories/L_Custody.v
theories/L_CustodyRun.v
theories/L_CustodyView.v
theories/P_Custody.v
theories/M_Iv.v
theories/S_Iv.v
theories/L_Iv.v
theories/P_Iv.v
theories/M_Policy.v
theories/S_Policy.v
theories/L_Policy.v
theories/P_Policy.v
theories/M_PolicyRx.v
theories/S_PolicyRx.v
theories/L_PolicyRx.v
theories/L2_PolicyRx.v
theories/P_PolicyRx.v
theories/M_PolicyTx.v
theories/S_PolicyTx.v
theories/L_PolicyTx.v
theories/L2_PolicyTx.v
theories/P_PolicyTx.v
theories/M_Encap.v
theories/S_Encap.v
theories/L_Encap.v
theories/P_Encap.v
theories/M_Stcp.v
theories/S_Stcp.v
theories/L_Stcp.v
theories/P_Stcp.v
theories/M_UdpSink.v
theories/S_UdpSink.v
theories/L_UdpSink.v
theories/P_UdpSink.v
theories/M_RtpStream.v
theories/S_RtpStream.v
theories/L_RtpStream.v
theories/P_RtpStream.v
theories/M_UdpSource.v
theories/S_UdpSource.v
theories/L_UdpSource.v
theories/P_UdpSource.v
