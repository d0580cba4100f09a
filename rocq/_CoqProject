-Q theories Verif
theories/Bytes.v
theories/Cbor.v
theories/CborGen.v
theories/Values.v
theories/Ctx.v
theories/Monad.v
theories/Api.v
theories/Common.v
theories/Msg1.v
theories/Msg2.v
theories/Msg3.v
theories/Msg4.v
theories/Exporter.v
theories/MsgError.v
theories/Helpers.v
theories/History.v
theories/Spec.v
theories/Facts.v
theories/Logic.v
theories/Frame.v
theories/Quiet.v
theories/Calls.v
theories/ConfigProofs.v
theories/HistoryProofs.v
theories/SessionProofs.v
theories/CborProofs.v
theories/Rfc.v
theories/Wire.v
theories/RfcProofs.v
theories/CodecProofs.v
theories/WireProofs.v
theories/Uses.v
theories/Sym.v
theories/Conform.v
theories/Steps.v
theories/Steps2.v
theories/Steps3.v
theories/Run2.v
theories/Run2p.v
theories/Run1.v
theories/Run3.v
theories/Run4.v
theories/Sessions.v
theories/Fresh.v
theories/RoundTrip.v
theories/Agree.v
theories/Honest.v
theories/Live.v
theories/Peers.v
theories/Received.v
theories/Claims.v
theories/Claims2.v
theories/Claims3.v
theories/PropConform.v
theories/Demo.v
theories/DemoX.v
theories/DemoY.v
theories/PropSession.v
theories/PropCodec.v
theories/PropAgree.v
theories/Pres.v
theories/Policy.v
theories/ExportProofs.v
theories/ExportProofs2.v
theories/DemoZ.v
theories/PropExport.v
theories/NegProofs.v
theories/NegProofs2.v
theories/NegProofs3.v
theories/PropNeg.v
theories/Safety.v
theories/SafeProofs.v
theories/SafeHistory.v
theories/MemProofs.v
theories/MemProofs2.v
theories/DemoS.v
theories/PropMem.v
theories/Psa.v
theories/SuiteX.v
theories/SuiteW.v
theories/SuitePqc.v
theories/SuiteCalls.v
theories/SuiteSpec.v
theories/SuiteLogic.v
theories/SuiteProofs.v
theories/SuiteStore.v
theories/SuiteOps.v
theories/Fermat.v
theories/SuitePoint.v
theories/SuiteAccept.v
theories/SuiteClaims.v
theories/SuiteClaims2.v
theories/SuiteClaims3.v
theories/SuiteClaims4.v
theories/SuiteFit.v
theories/PqcCalls.v
theories/PqcSpec.v
theories/DemoL.v
theories/SuiteTable.v
theories/SuiteRows.v
theories/PropSuite.v
theories/PqcProofs.v
theories/PqcClaims.v
theories/PqcClaims2.v
theories/PropPqc.v
theories/Replies.v
theories/RepliesProofs.v
theories/Bounds.v
theories/BoundsProofs.v
theories/PropReply.v
theories/Ready.v
theories/ReadyStep.v
theories/ReadyLib.v
theories/ReadyMac.v
theories/ReadyWire.v
theories/ReadyMsg.v
theories/ReadyRead.v
theories/Ready1.v
theories/Ready2.v
theories/Ready3.v
theories/Ready4.v
theories/ReadyProofs.v
theories/DemoR.v
theories/PropReady.v
theories/Serve.v
theories/ServeProofs.v
theories/PropServe.v
theories/AskProofs.v
theories/Linked.v
theories/LinkedProofs.v
theories/LinkedRuns.v
theories/DemoK.v
theories/PropLinked.v
theories/Once.v
theories/Active.v
theories/ActiveProofs.v
theories/DemoA.v
theories/PropActive.v
theories/Keys.v
theories/KeysProofs.v
theories/DemoB.v
theories/PropKeys.v
theories/InUse.v
theories/Clean.v
theories/DemoC.v
theories/Replay.v
theories/ReplayProofs.v
theories/DemoD.v
theories/PropReplay.v
theories/Counts.v
theories/Attempts.v
theories/AttemptProofs.v
theories/PropAttempts.v
theories/Labels.v
theories/LabelProofs.v
theories/PropLabels.v
theories/Settings.v
theories/SettingsProofs.v
theories/PropSettings.v
theories/Interleave.v
theories/IsoProofs.v
theories/PropApart.v
theories/RoomProofs.v
theories/PropRoom.v
theories/Order.v
theories/OrderProofs.v
theories/PropOrder.v
theories/StaleProofs.v
theories/PropStale.v
theories/MidProofs.v
theories/PropMid.v
theories/Burden.v
theories/Work.v
theories/Early.v
theories/WorkProofs.v
theories/PropWork.v
theories/BurdenProofs.v
theories/PropBurden.v
