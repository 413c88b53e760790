-Q theories Verif
theories/GoBase.v
theories/ModelIndexer.v
theories/ModelLookup.v
theories/SpecIndexer.v
theories/SpecProx.v
theories/ProofSearch.v
theories/ProofTable.v
theories/ProofIndexer.v
theories/ProofCache.v
theories/ProofHistory.v
theories/ProofIxThms.v
theories/ProofIxMap.v
theories/ProofIxMore.v
theories/ProofLookup.v
theories/ProofProx.v
theories/ProofProx2.v
theories/ExampleTools.v
theories/PropIndexer.v
theories/SpecSearch.v
theories/ProofSearchThms.v
theories/ProofIxSearch.v
theories/PropSearch.v
theories/SpecLogic.v
theories/ProofLogic.v
theories/ProofLogicThms.v
theories/PropLogic.v
theories/ProofFloat.v
theories/SpecTotal.v
theories/ProofTotal.v
theories/PropTotal.v
theories/ModelRanker.v
theories/ModelEngine.v
theories/SpecRank.v
theories/ProofScore.v
theories/ProofRanker.v
theories/ProofTopK.v
theories/SpecEngine.v
theories/ProofLookupCount.v
theories/ProofEngine.v
theories/ModelRoute.v
theories/SpecRoute.v
theories/ProofRoute.v
theories/ProofSortBy.v
theories/PropRanker.v
theories/PropEngine.v
theories/PropRoute.v
theories/ModelPipe.v
theories/SpecPipe.v
theories/ProofPipe.v
theories/ProofBlocks.v
theories/ProofFlush.v
theories/ProofFlushThms.v
theories/PropPipe.v
theories/ModelLocks.v
theories/SpecLocks.v
theories/ProofLocks.v
theories/ProofGhost.v
theories/ProofSeqEq.v
theories/PropLocks.v
theories/ModelSegment.v
theories/SpecSegment.v
theories/ProofSegment.v
theories/ProofSegThms.v
theories/ProofSegEnd.v
theories/PropSegment.v
theories/ModelStore.v
theories/SpecStore.v
theories/ProofStore.v
theories/ProofStoreRun.v
theories/ProofStoreThms.v
theories/ProofStoreSched.v
theories/ProofStoreEnd.v
theories/ProofRecover.v
theories/PropStore.v
theories/ModelSort.v
theories/ProofSort.v
theories/ProofSortQuick.v
theories/ProofSortStable.v
theories/ProofSortThms.v
theories/PropSort.v
theories/ModelMisc.v
theories/SpecMisc.v
theories/ProofMisc.v
theories/PropMisc.v
theories/ModelStart.v
theories/SpecStart.v
theories/ProofStart.v
theories/PropStart.v
theories/ModelHasDoc.v
theories/SpecHasDoc.v
theories/ProofHasDoc.v
theories/PropHasDoc.v
theories/ModelNet.v
theories/SpecNet.v
theories/ProofNet.v
theories/ProofServer.v
theories/PropNet.v
theories/ModelGather.v
theories/ModelFlight.v
theories/SpecFlight.v
theories/ProofFlight.v
theories/ProofFlightData.v
theories/ProofFlightSafe.v
theories/ProofFlightLive.v
theories/ProofFlightCrash.v
theories/PropFlight.v
theories/SpecGather.v
theories/ProofGather.v
theories/PropGather.v
theories/SpecBM25.v
theories/ProofMag.v
theories/ProofBM25.v
theories/PropBM25.v
theories/SpecLive.v
theories/ProofLive.v
theories/PropLive.v
theories/SpecEnd.v
theories/ProofEnd.v
theories/PropEnd.v
theories/SpecLife.v
theories/ProofLife.v
theories/PropLife.v
theories/ModelClose.v
theories/SpecClose.v
theories/ProofClose.v
theories/ProofCloseLife.v
theories/PropClose.v
theories/SpecUpdate.v
theories/ProofOrder.v
theories/ProofUpdate.v
theories/PropUpdate.v
theories/ModelWhole.v
theories/SpecWhole.v
theories/ProofWhole.v
theories/ProofWholeThms.v
theories/PropWhole.v
theories/ProofWholeLive.v
theories/PropWholeLive.v
theories/SpecFits.v
theories/ProofFits.v
theories/SpecDuring.v
theories/ProofMoments.v
theories/ProofDuring.v
theories/PropDuring.v
theories/ModelServer.v
theories/SpecServer.v
theories/ProofHandlers.v
theories/ProofServerStore.v
theories/ProofHttp.v
theories/PropServer.v
theories/ModelSession.v
theories/SpecSession.v
theories/ProofSession.v
theories/ProofSessionThms.v
theories/ProofSessionLost.v
theories/PropSession.v
theories/ModelCounters.v
theories/SpecCounters.v
theories/ProofCounters.v
theories/PropCounters.v
theories/SpecSessionDuring.v
theories/ProofSessionDuring.v
theories/PropSessionDuring.v
theories/SpecDeadline.v
theories/ProofDeadline.v
theories/PropDeadline.v
theories/PropFits.v
theories/SpecSurvive.v
theories/ProofSurvive.v
theories/PropSurvive.v
theories/SpecRevise.v
theories/ProofRevise.v
theories/PropRevise.v
theories/ProofReserved.v
theories/PropReserved.v
theories/ModelScoring.v
theories/SpecScored.v
theories/ProofScored.v
theories/PropScored.v
theories/ProofNumbers.v
theories/PropNumbers.v
theories/ModelExamples.v
theories/SpecExamples.v
theories/ProofExamples.v
theories/PropExamples.v
theories/ProofCodelab.v
theories/PropCodelab.v
theories/ModelFine.v
theories/SpecFine.v
theories/ProofFine.v
theories/ProofFineSim.v
theories/ProofFineThms.v
theories/ProofFineCycle.v
theories/ProofFineLive.v
theories/PropFine.v
theories/ProofFineSee.v
theories/SpecFineSearch.v
theories/ProofFineSearch.v
theories/PropFineSearch.v
theories/SpecFineDuring.v
theories/ProofFineDuring.v
theories/PropFineDuring.v
theories/ModelWire.v
theories/SpecWire.v
theories/ProofWire.v
theories/ProofWireOut.v
theories/ProofWireIn.v
theories/ProofWireBack.v
theories/ProofWireSafe.v
theories/ModelWireNet.v
theories/SpecWireNet.v
theories/ProofWireNet.v
theories/PropWire.v
theories/PropWireNet.v
theories/ModelRace.v
theories/SpecRace.v
theories/ProofRace.v
theories/PropRace.v
theories/ModelClock.v
theories/SpecClock.v
theories/ProofClock.v
theories/PropClock.v
theories/ModelRankLocks.v
theories/SpecRankLocks.v
theories/ProofRankLocks.v
theories/PropRankLocks.v
theories/ProofReal.v
theories/ProofReal32.v
theories/ProofReal64.v
theories/SpecAccuracy.v
theories/ProofAccuracy.v
theories/PropAccuracy.v
theories/SpecPrefers.v
theories/ProofPrefers.v
theories/PropPrefers.v
theories/ModelHelpers.v
theories/SpecHelpers.v
theories/ProofHelpers.v
theories/PropHelpers.v
theories/SpecShorter.v
theories/ProofShorter.v
theories/PropShorter.v
theories/SpecRescored.v
theories/ProofRescored.v
theories/PropRescored.v
theories/SpecReranked.v
theories/ProofReranked.v
theories/PropReranked.v
theories/SpecFineScores.v
theories/ProofFineScores.v
theories/PropFineScores.v
theories/SpecGrowing.v
theories/ProofGrowing.v
theories/PropGrowing.v
theories/ProofFineGrowing.v
theories/PropFineGrowing.v
theories/SpecGrowingOrder.v
theories/ProofGrowingOrder.v
theories/PropGrowingOrder.v
theories/SpecGrowingSession.v
theories/ProofGrowingSession.v
theories/PropGrowingSession.v
theories/SpecSessionOrder.v
theories/ProofSessionOrder.v
theories/PropSessionOrder.v
theories/ProofGrowingStay.v
theories/PropGrowingStay.v
theories/ProofFineRest.v
theories/PropFineRest.v
theories/ProofFineFlights.v
theories/PropFineFlights.v
theories/ProofFineMore.v
theories/PropFineMore.v
