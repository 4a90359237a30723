-Q theories Verif
theories/Util.v
theories/BuddyModel.v
theories/BuddySpec.v
theories/BuddyProofs.v
theories/BuddyInv.v
theories/PropertiesAlloc.v
theories/LayoutModel.v
theories/LayoutProofs.v
theories/PropertiesLayout.v
theories/PageIOModel.v
theories/PageIOSpec.v
theories/PageIOProofs.v
theories/PageIOWrite.v
theories/PageIOSys.v
theories/PropertiesPageIO.v
theories/JournalModel.v
theories/JournalSpec.v
theories/JournalProofs.v
theories/PropertiesJournal.v
theories/Bytes.v
theories/MetaModel.v
theories/MetaSpec.v
theories/MetaProofs.v
theories/PropertiesMeta.v
theories/RegionModel.v
theories/PropertiesRegions.v
theories/TuplesModel.v
theories/TuplesSpec.v
theories/TuplesCodec.v
theories/TuplesProofs.v
theories/TuplesSys.v
theories/TuplesDurable.v
theories/PropertiesTuples.v
theories/KvCodecModel.v
theories/KvCodecSpec.v
theories/KvCodecProofs.v
theories/PropertiesKvCodec.v
theories/KvLogModel.v
theories/KvLogSpec.v
theories/KvLogProofs.v
theories/KvLogSys.v
theories/KvLogInv.v
theories/PropertiesKvLog.v
theories/KvAllocModel.v
theories/KvAllocSpec.v
theories/KvAllocProofs.v
theories/KvAllocInv.v
theories/PropertiesKvAlloc.v
theories/KvReadModel.v
theories/PropertiesKvRead.v
theories/TokenModel.v
theories/TokenProofs.v
theories/TokenSpec.v
theories/PropertiesToken.v
theories/HttpModel.v
theories/HttpProofs.v
theories/PropertiesHttp.v
theories/BatchProofs.v
theories/PropertiesBatch.v
theories/PropertiesClient.v
theories/DirectModel.v
theories/DirectBase.v
theories/DirectSteps.v
theories/DirectInv.v
theories/DirectTup.v
theories/DirectAlloc.v
theories/DirectSpec.v
theories/DirectDev.v
theories/DirectRel.v
theories/DirectSim.v
theories/DirectSim2.v
theories/DirectSim3.v
theories/DirectSeqSpec.v
theories/DirectSys.v
theories/DirectSeq.v
theories/DirectDrive.v
theories/PropertiesDirect.v
theories/DirectSpaceSpec.v
theories/PropertiesDirectSpace.v
theories/DirectHistSpec.v
theories/DirectHist.v
theories/DirectCancelModel.v
theories/PropertiesDirectConc.v
theories/DirectMetricsSpec.v
theories/DirectMetrics.v
theories/PropertiesMetrics.v
theories/DirectLoadModel.v
theories/DirectCodec.v
theories/TuplesLife.v
theories/DirectRec.v
theories/DirectLog.v
theories/DirectLoad.v
theories/DirectAlive.v
theories/DirectOld.v
theories/DirectSource.v
theories/DirectRestart.v
theories/DirectRestartSpec.v
theories/DirectRestart2.v
theories/DirectRestart3.v
theories/DirectRestart4.v
theories/PropertiesRestart.v
theories/PropertiesMetricsLoad.v
theories/ExportModel.v
theories/ExportSpec.v
theories/ExportProofs.v
theories/PropertiesExport.v
theories/ClusterModel.v
theories/ClusterSpec.v
theories/ClusterSim.v
theories/ClusterInv.v
theories/PropertiesCluster.v
theories/ShareModel.v
theories/PropertiesShare.v
theories/PropertiesIo.v
theories/KvStoreModel.v
theories/KvStoreSpec.v
theories/KvStoreInv.v
theories/KvStoreFrame.v
theories/KvStoreSteps.v
theories/KvStoreCommit.v
theories/KvStoreGroup.v
theories/KvStorePages.v
theories/KvStoreIndex.v
theories/KvStoreOpen.v
theories/KvStoreLin.v
theories/PropertiesKvStore.v
theories/PropertiesKvSpace.v
theories/LiteModel.v
theories/LiteSpec.v
theories/LiteJournal.v
theories/LiteNode.v
theories/LiteRecord.v
theories/LiteInv.v
theories/LiteSteps.v
theories/LiteSteps2.v
theories/LiteLin.v
theories/LiteSim.v
theories/LiteSim2.v
theories/LiteSim3.v
theories/LiteVerSpec.v
theories/LiteVerSim.v
theories/PropertiesLite.v
theories/PropertiesLite2.v
theories/PropertiesLiteVer.v
theories/LiteMetricsModel.v
theories/PropertiesLiteMetrics.v
theories/PropertiesLiteSpace.v
theories/ServerModel.v
theories/ServerSpec.v
theories/ServerProofs.v
theories/ServerHist.v
theories/PropertiesServer.v
theories/DirectRealSpec.v
theories/DirectReal.v
theories/PropertiesConc.v
theories/ServerConcModel.v
theories/ServerConcSpec.v
theories/ServerConc.v
theories/PropertiesServerConc.v
theories/ServerCrashSpec.v
theories/ServerCrash.v
theories/PropertiesServerCrash.v
theories/ServerKillSpec.v
theories/ServerKill.v
theories/ServerKillEvents.v
theories/PropertiesServerKill.v
theories/PutModel.v
theories/PutProofs.v
theories/PropertiesPut.v
theories/UploadDirModel.v
theories/PropertiesUploadDir.v
theories/StressModel.v
theories/StressSpec.v
theories/StressProofs.v
theories/StressOwn.v
theories/StressSys.v
theories/StressPast.v
theories/PropertiesStress.v
theories/PropertiesIoSessions.v
theories/StoreModel.v
theories/StoreSpec.v
theories/StoreProofs.v
theories/StoreS3.v
theories/PropertiesStore.v
theories/BenchModel.v
theories/BenchSpec.v
theories/BenchProofs.v
theories/PropertiesBench.v
theories/StoreLite.v
theories/StoreLiteSpec.v
theories/StoreLiteProofs.v
theories/PropertiesStoreLite.v
theories/StoreDirect.v
theories/StoreDirectSpec.v
theories/StoreDirectProofs.v
theories/PropertiesStoreDirect.v
theories/TuplesLiveSpec.v
theories/TuplesLive.v
theories/PropertiesTuplesLive.v
theories/LiteLiveSpec.v
theories/LiteLive.v
theories/PropertiesLiteLive.v
theories/PropertiesLiteStuck.v
theories/KvLogLiveSpec.v
theories/KvLogLive.v
theories/PropertiesKvLogLive.v
