-Q theories Verif
theories/Base.v
theories/BaseLemmas.v
theories/Tables.v
theories/ConvModel.v
theories/ConvSpec.v
theories/ConvProofs.v
theories/Props_Conv.v
theories/QpackIntModel.v
theories/QpackIntSpec.v
theories/QpackIntProofs.v
theories/HuffPaths.v
theories/HuffModel.v
theories/HuffSpec.v
theories/HuffProofs.v
theories/Props_QpackPrim.v
theories/Chunk.v
theories/QpackTabModel.v
theories/QpackDecModel.v
theories/QpackTabSpec.v
theories/QpackTabProofs.v
theories/QpackDynSpec.v
theories/QpackDynProofs.v
theories/Props_QpackTab.v
theories/QpackReadProofs.v
theories/QpackDecProofs.v
theories/QpackSecProofs.v
theories/QpackHistModel.v
theories/QpackHistSpec.v
theories/QpackHistProofs.v
theories/QpackCutProofs.v
theories/QpackEncModel.v
theories/QpackWireProofs.v
theories/QpackEncSpec.v
theories/QpackEncProofs.v
theories/QpackNvProofs.v
theories/QpackNvsProofs.v
theories/QpackShrinkProofs.v
theories/QpackStreamProofs.v
theories/QpackFeedProofs.v
theories/QpackEvolveProofs.v
theories/QpackEncHistProofs.v
theories/QpackPeerProofs.v
theories/QpackEndProofs.v
theories/HttpModel.v
theories/HttpSpec.v
theories/HttpHist.v
theories/HttpProofs.v
theories/HttpAvx.v
theories/HttpResProofs.v
theories/RdVarint.v
theories/Chunk2.v
theories/SecGood.v
theories/BidiModel.v
theories/BidiHist.v
theories/BidiProofs.v
theories/BidiRun.v
theories/SecSuffix.v
theories/BidiSpec.v
theories/BidiCut.v
theories/BidiAcct.v
theories/TraceSpec.v
theories/TraceHttp.v
theories/TraceProofs.v
theories/TraceEnd.v
theories/Props_Bidi.v
theories/ControlModel.v
theories/ControlSpec.v
theories/ControlProofs.v
theories/ControlTrace.v
theories/ControlFrame.v
theories/Props_Control.v
theories/Props_Http.v
theories/Props_QpackDec.v
theories/Props_QpackEnc.v
theories/PqModel.v
theories/PqSpec.v
theories/PqProofs.v
theories/RingModel.v
theories/RingProofs.v
theories/RingSpec.v
theories/RingHist.v
theories/GapModel.v
theories/GapSpec.v
theories/GapProofs.v
theories/GapHist.v
theories/Props_Struct.v
theories/TxModel.v
theories/TxSpec.v
theories/TxProofs.v
theories/TxRefine.v
theories/TxFill.v
theories/TxTrace.v
theories/Props_Tx.v
theories/PqWeak.v
theories/SchedModel.v
theories/SchedProofs.v
theories/SchedWindow.v
theories/SchedFair.v
theories/SchedRun.v
theories/Props_Sched.v
theories/ConnModel.v
theories/ConnCtl.v
theories/ConnStep.v
theories/ConnWf.v
theories/ConnDecomp.v
theories/ConnRx.v
theories/ConnHist.v
theories/SendSpec.v
theories/ConnKind.v
theories/ConnTx.v
theories/TxGhost.v
theories/SendWire.v
theories/ConnSend.v
theories/ConnSend2.v
theories/ConnDemo.v
theories/ConnRead.v
theories/ConnPri.v
theories/Props_Conn.v
theories/ConnUni.v
theories/Props_Uni.v
theories/ConnShut.v
theories/Props_Shut.v
theories/ConnSched.v
theories/ConnOffer.v
theories/Props_Offer.v
theories/BidiDec.v
theories/RecvSpec.v
theories/RecvLog.v
theories/ConnRecv.v
theories/ConnRecvStep.v
theories/ConnRecvHist.v
theories/ConnLimit.v
theories/Props_Recv.v
theories/SendApi.v
theories/SendDemo.v
theories/Props_Send.v
theories/SafeSpec.v
theories/ControlCut.v
theories/SafeCtl.v
theories/SafeMisc.v
theories/SafeRead.v
theories/SafeWrite.v
theories/SafeMax.v
theories/SafeMain.v
theories/Props_Safe.v
theories/RfcQpackSpec.v
theories/RfcPrim.v
theories/RfcEnc.v
theories/RfcSec.v
theories/RfcMain.v
theories/Props_Rfc.v
theories/RfcStreamSpec.v
theories/IdealSec.v
theories/SecMean.v
theories/MeanStream.v
theories/MeanGrow.v
theories/MeanRx.v
theories/MeanSeen.v
theories/MeanApi.v
theories/MeanListen.v
theories/Props_Mean.v
theories/MapModel.v
theories/MapSpec.v
theories/MapProofs.v
theories/MapHist.v
theories/Props_Map.v
theories/KslModel.v
theories/KslSpec.v
theories/KslProofs.v
theories/KslHist.v
theories/Props_Ksl.v
theories/EncRfc.v
theories/Props_EncRfc.v
theories/E2eSpec.v
theories/E2e.v
theories/EncStreamSpec.v
theories/EncStream.v
theories/Props_E2e.v
theories/RcModel.v
theories/RcSpec.v
theories/RcProofs.v
theories/Props_Rc.v
theories/PoolModel.v
theories/PoolSpec.v
theories/PoolProofs.v
theories/Props_Pool.v
theories/EncSent.v
theories/Props_EncStream.v
theories/CtlApiSpec.v
theories/CtlApi.v
theories/CtlTold.v
theories/CtlDead.v
theories/CtlErr.v
theories/CtlNext.v
theories/CtlCut.v
theories/CtlLeft.v
theories/CtlLeftApi.v
theories/Props_CtlApi.v
theories/CloseSpec.v
theories/CloseProofs.v
theories/CloseHist.v
theories/Props_Close.v
theories/GateSpec.v
theories/GateProofs.v
theories/GateLeft.v
theories/Props_Gate.v
theories/ShutRdSpec.v
theories/ShutRd.v
theories/Props_ShutRd.v
theories/Props_ShutPeer.v
theories/ConnDead.v
theories/ShutDead.v
theories/CloseDead.v
