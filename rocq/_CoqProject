-Q theories Verif
theories/Base.v
theories/ModelBencode.v
theories/SpecBencode.v
theories/ProofBase.v
theories/SpecText.v
theories/ProofText.v
theories/ProofBencode.v
theories/ProofBencodeGrammar.v
theories/ProofBencodeMore.v
theories/PropBencode.v
theories/ModelUnmarshal.v
theories/SpecUnmarshal.v
theories/ProofNum.v
theories/ProofUnmarshal.v
theories/ProofUnmarshalMore.v
theories/PropUnmarshal.v
theories/ModelBitset.v
theories/ModelMsg.v
theories/SpecMsg.v
theories/ProofMsg.v
theories/PropMsg.v
theories/ModelConn.v
theories/ProofConn.v
theories/PropConn.v
theories/ModelFloat.v
theories/SpecPath.v
theories/ModelPath.v
theories/ModelTorrent.v
theories/ProofTorrent.v
theories/SpecTorrent.v
theories/ProofWrite.v
theories/ProofPath.v
theories/ProofHistory.v
theories/ProofFloat.v
theories/ProofDisk.v
theories/ProofNew.v
theories/PropTorrent.v
theories/ModelStats.v
theories/SpecStats.v
theories/ProofStats.v
theories/PropStats.v
theories/ModelPeer.v
theories/ModelSystem.v
theories/SpecPeer.v
theories/ProofSystem.v
theories/ProofRequests.v
theories/ProofProgress.v
theories/ProofSmall.v
theories/ProofPeer.v
theories/ProofPeer2.v
theories/ProofVerified.v
theories/ProofWitness.v
theories/PropPeer.v
theories/ModelTracker.v
theories/SpecTracker.v
theories/ProofTracker.v
theories/ProofTracker2.v
theories/PropTracker.v
theories/ProofShutdown.v
theories/ProofLost.v
theories/PropShutdown.v
theories/ModelManager.v
theories/SpecManager.v
theories/ProofManager.v
theories/ProofManager2.v
theories/ProofManager3.v
theories/ProofManager4.v
theories/PropManager.v
theories/ModelLogger.v
theories/SpecLogger.v
theories/ProofLogger.v
theories/PropLogger.v
theories/ModelCmd.v
theories/SpecCmd.v
theories/ProofCmd.v
theories/PropCmd.v
theories/ModelProgress.v
theories/SpecExchange.v
theories/ProofExchange.v
theories/ProofPrinter.v
theories/PropExchange.v
theories/SpecOffer.v
theories/ProofOffer.v
theories/PropOffer.v
theories/ModelTimed.v
theories/SpecTimed.v
theories/ProofDue.v
theories/ProofTimed.v
theories/ProofTimedW.v
theories/PropTimed.v
theories/ModelPrint.v
theories/SpecPrint.v
theories/ProofPrint.v
theories/PropPrint.v
theories/Sha1.v
theories/TestData.v
theories/ModelSize.v
theories/SpecSize.v
theories/ProofSize.v
theories/PropSize.v
theories/SpecWire.v
theories/ProofWire.v
theories/PropWire.v
theories/SpecStream.v
theories/ProofStream.v
theories/PropStream.v
theories/ModelMem.v
theories/SpecMem.v
theories/ProofMem.v
theories/PropMem.v
theories/ModelClock.v
theories/SpecClock.v
theories/ProofClock.v
theories/ProofSlow.v
theories/PropClock.v
theories/ModelRace.v
theories/SpecRace.v
theories/ProofRace.v
theories/PropRace.v
theories/SpecFinish.v
theories/ProofFinish.v
theories/PropFinish.v
theories/SpecLeak.v
theories/ProofLeak.v
theories/PropLeak.v
theories/ModelClient.v
theories/SpecClient.v
theories/ProofClient.v
theories/ProofClient2.v
theories/ProofClient3.v
theories/ProofClient4.v
theories/ProofClient5.v
theories/ProofClient6.v
theories/SpecCrash.v
theories/ProofClient7.v
theories/PropClient.v
theories/ProofCrash.v
theories/PropCrash.v
theories/SpecOrigin.v
theories/ProofOrigin.v
theories/PropOrigin.v
theories/ModelProgram.v
theories/SpecProgram.v
theories/ProofProgram.v
theories/ProofProgram2.v
theories/PropProgram.v
theories/SpecAgain.v
theories/ProofAgain.v
theories/PropAgain.v
theories/ProofAgain2.v
theories/PropAgain2.v
theories/SpecArrive.v
theories/ProofArrive.v
theories/ProofArrive2.v
theories/PropArrive.v
theories/SpecStatus.v
theories/ProofBreaks.v
theories/ProofStatus.v
theories/PropStatus.v
theories/SpecInterval.v
theories/ProofInterval.v
theories/PropInterval.v
theories/ModelStack.v
theories/SpecStack.v
theories/ProofStack.v
theories/PropStack.v
theories/ModelAddr.v
theories/SpecAddr.v
theories/ProofAddr.v
theories/PropAddr.v
theories/ModelOutput.v
theories/SpecOutput.v
theories/ProofOutput.v
theories/PropOutput.v
theories/ModelUrl.v
theories/SpecUrl.v
theories/ProofUrl.v
theories/PropUrl.v
theories/ModelArgs.v
theories/SpecArgs.v
theories/ProofArgs.v
theories/ProofArgs2.v
theories/ProofArgs3.v
theories/PropArgs.v
theories/SpecBep.v
theories/ProofBep.v
theories/ProofBepTorrent.v
theories/PropBep.v
theories/SpecSource.v
theories/ProofSource.v
theories/PropSource.v
theories/TestGo.v
theories/SpecQuery.v
theories/ProofQuery.v
theories/PropQuery.v
theories/SpecAlike.v
theories/ProofAlike.v
theories/PropAlike.v
theories/SpecOrder.v
theories/ProofLength.v
theories/ProofOrder.v
theories/ProofExact.v
theories/PropOrder.v
theories/SpecInterested.v
theories/ProofInterested.v
theories/PropInterested.v
theories/ProofStays.v
theories/PropStays.v
theories/SpecIdle.v
theories/ProofIdle.v
theories/PropIdle.v
theories/SpecTurns.v
theories/ProofTurns.v
theories/PropTurns.v
theories/SpecEncode.v
theories/ProofEncode.v
theories/PropEncode.v
theories/SpecReply.v
theories/ProofReply.v
theories/PropReply.v
theories/SpecPossible.v
theories/ProofPossible.v
theories/PropPossible.v
theories/ProofStays2.v
theories/SpecWaiting.v
theories/ProofWaiting.v
theories/PropWaiting.v
theories/ProofCan.v
theories/PropCan.v
theories/SpecCorrupt.v
theories/ProofCorrupt.v
theories/PropCorrupt.v
theories/ModelSocket.v
theories/SpecSocket.v
theories/ProofSocket.v
theories/ProofSocket2.v
theories/ProofSocket3.v
theories/PropSocket.v
theories/SpecHears.v
theories/ProofHears.v
theories/PropHears.v
theories/SpecRescue.v
theories/ProofRescue.v
theories/PropRescue.v
theories/SpecStill.v
theories/ProofStill.v
theories/PropStill.v
theories/SpecDoom.v
theories/ProofDoom.v
theories/ProofDoom2.v
theories/PropDoom.v
theories/ProofBoth.v
theories/PropBoth.v
theories/SpecName.v
theories/ProofName.v
theories/PropName.v
theories/ProofEarly.v
theories/PropEarly.v
theories/SpecSignal.v
theories/ProofSignal.v
theories/PropSignal.v
theories/SpecGone.v
theories/ProofGone.v
theories/PropGone.v
