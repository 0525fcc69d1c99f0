-Q theories Verif
theories/Base.v
theories/Lib.v
theories/SpecBasic.v
theories/SpecCrypto.v
theories/SpecEnv.v
theories/Utils.v
theories/Sha.v
theories/Encrypt.v
theories/Discr.v
theories/Chunker.v
theories/Caibx.v
theories/Index.v
theories/StoreLocal.v
theories/Target.v
theories/StoreHttp.v
theories/Chain.v
theories/Ui.v
theories/MainProg.v
theories/Patchdd.v
theories/Tool.v
theories/Log.v
theories/Bench.v
theories/Vectors.v
theories/PfUtils.v
theories/PfBasic.v
theories/PfIO.v
theories/PfEncrypt.v
theories/PfKeyspec.v
theories/Toy.v
theories/Ex1.v
theories/Properties1.v
theories/SpecChunker.v
theories/PfBuz.v
theories/PfChunker.v
theories/PfScan.v
theories/PfChunkProps.v
theories/PfDiscr.v
theories/Ex2.v
theories/Properties2.v
theories/SpecCaibx.v
theories/PfRead.v
theories/PfCaibx.v
theories/PfCaibx2.v
theories/SpecIndex.v
theories/PfIndex.v
theories/Ex3.v
theories/Properties3.v
theories/PfFrame.v
theories/SpecStore.v
theories/PfLocal.v
theories/PfLocal2.v
theories/Ex4.v
theories/Properties4.v
theories/SpecHttp.v
theories/PfHttp.v
theories/PfHttp2.v
theories/PfHttp3.v
theories/PfHttp4.v
theories/PfHttp5.v
theories/Ex5.v
theories/Properties5.v
theories/PfTarget.v
theories/PfChain.v
theories/SpecMain.v
theories/PfMain.v
theories/PfMain2.v
theories/SpecRun.v
theories/PfSetup.v
theories/PfRun.v
theories/PfReadonly.v
theories/PfSync.v
theories/SpecMemory.v
theories/PfMemory.v
theories/SpecLive.v
theories/PfLive.v
theories/PfLive2.v
theories/PfLive3.v
theories/SpecAbort.v
theories/PfAbort.v
theories/PfAbort2.v
theories/SpecOrder.v
theories/PfOrder.v
theories/PfUnique.v
theories/SpecPatch.v
theories/PfPatch.v
theories/SpecTool.v
theories/PfTool.v
theories/SpecAvail.v
theories/PfAvail.v
theories/PfUi.v
theories/PfUi2.v
theories/Ex6.v
theories/Properties6.v
theories/Ex7.v
theories/Properties7.v
theories/Ex8.v
theories/Properties8.v
theories/Ex9.v
theories/Properties9.v
theories/Ex10.v
theories/Properties10.v
theories/Ex11.v
theories/Properties11.v
theories/SpecLog.v
theories/LogSites.v
theories/PfLog.v
theories/PfLog2.v
theories/SpecBench.v
theories/PfBench.v
theories/Ex12.v
theories/Properties12.v
theories/SpecTransfers.v
theories/PfTransfers.v
theories/PfEnd.v
theories/Ex13.v
theories/Properties13.v
theories/Res.v
theories/SpecRes.v
theories/PfRes.v
theories/PfRes2.v
theories/PfRes3.v
theories/PfRes4.v
theories/PfRes5.v
theories/Stats.v
theories/SpecStats.v
theories/PfStats.v
theories/Ex14.v
theories/Properties14.v
theories/Report.v
theories/SpecReport.v
theories/PfReport.v
theories/PfTally.v
theories/Ex15.v
theories/Properties15.v
theories/SpecProgress.v
theories/PfProgress.v
theories/PfAgain.v
theories/SpecCasync.v
theories/PfCasync.v
theories/Ex16.v
theories/Properties16.v
theories/SpecGetopt.v
theories/PfGetopt.v
theories/SpecHost.v
theories/PfHost.v
theories/Ex17.v
theories/Ex18.v
theories/Properties17.v
theories/SpecDelta.v
theories/PfDelta.v
theories/Ex19.v
theories/Properties18.v
theories/Ex20.v
theories/SpecEdit.v
theories/PfEdit.v
theories/Ex21.v
theories/Properties19.v
theories/PfSame.v
theories/Properties20.v
theories/SpecHeap.v
theories/PfHeap.v
theories/Ex22.v
theories/Properties21.v
theories/SpecSupply.v
theories/PfSupply.v
theories/PfStart.v
theories/Ex23.v
theories/Properties22.v
theories/SpecSched.v
theories/PfSchedScan.v
theories/PfSched.v
theories/Ex24.v
theories/Properties23.v
theories/PfTail.v
theories/SpecDown.v
theories/PfDown.v
theories/Ex25.v
theories/Properties24.v
theories/SpecUpdate.v
theories/PfUpdate.v
theories/SpecGen.v
theories/PfGen.v
theories/Ex26.v
theories/Properties25.v
theories/SpecLeak.v
theories/PfLeak.v
theories/Ex27.v
theories/Properties26.v
theories/SpecSource.v
theories/PfSource.v
theories/PfSource2.v
theories/PfSource3.v
theories/Ex28.v
theories/Properties27.v
theories/SpecResume.v
theories/SpecMend.v
theories/PfMend.v
theories/PfRepair.v
theories/Ex29.v
theories/Properties28.v
theories/SpecTerm.v
theories/PfTerm.v
theories/Properties29.v
theories/SpecDiary.v
theories/PfDiary.v
theories/Ex30.v
theories/Properties30.v
theories/SpecNew.v
theories/PfNew.v
theories/Ex31.v
theories/Properties31.v
theories/PfCalled.v
theories/Properties32.v
theories/SpecOutline.v
theories/PfOutline.v
theories/Ex33.v
theories/Properties33.v
theories/SpecClosing.v
theories/Closing.v
theories/PfClosing.v
theories/PfShare.v
theories/PfClosing2.v
theories/Ex34.v
theories/Properties34.v
theories/SpecFrontier.v
theories/PfFrontier.v
theories/Ex35.v
theories/Properties35.v
theories/SpecRepeat.v
theories/PfRepeat.v
theories/Ex36.v
theories/Properties36.v
theories/SpecPatch2.v
theories/PfPatch2.v
theories/Ex37.v
theories/Properties37.v
theories/SpecBig.v
theories/PfBig.v
theories/Ex38.v
theories/Properties38.v
theories/PfTransfer.v
theories/Ex39.v
theories/Properties39.v
theories/SpecPower.v
theories/PfPower.v
theories/Ex40.v
theories/Properties40.v
theories/Queries.v
theories/SpecQueries.v
theories/PfQueries.v
theories/Ex41.v
theories/Properties41.v
theories/Curl.v
theories/SpecCurl.v
theories/PfCurl.v
theories/Ex42.v
theories/Properties42.v
theories/Rate.v
theories/SpecRate.v
theories/PfRate.v
theories/PfRate2.v
theories/Ex43.v
theories/Properties43.v
