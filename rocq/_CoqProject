-Q theories Verif
theories/Base.v
theories/F32.v
theories/JsonNum.v
theories/JsonNumProofs.v
theories/PQ.v
theories/PQProofs.v
theories/Visited.v
theories/VisitedProofs.v
theories/Graph.v
theories/VertexFacts.v
theories/Search.v
theories/SearchProofs.v
theories/SearchLayer.v
theories/SearchKnn.v
theories/SearchCount.v
theories/Distancer.v
theories/DistancerProofs.v
theories/TestGraph.v
theories/PropPQ.v
theories/PropVisited.v
theories/PropDistancer.v
theories/PropSearch.v
theories/Insert.v
theories/HeuristicProofs.v
theories/InsertProofs.v
theories/InsertHist.v
theories/SearchCong.v
theories/InsertTotal.v
theories/InsertDim.v
theories/InsertSmall.v
theories/InsertEp.v
theories/InsertFacts.v
theories/InsertFind.v
theories/TestInsert.v
theories/PropInsert.v
theories/PropFind.v
theories/SearchSched.v
theories/PropSched.v
theories/Persist.v
theories/PersistProofs.v
theories/PersistHist.v
theories/LRU.v
theories/LRUProofs.v
theories/PropPersist.v
theories/Client.v
theories/ClientProofs.v
theories/ClientSafe.v
theories/ClientFacts.v
theories/ClientReq.v
theories/PropClient.v
theories/Collections.v
theories/CollectionsProofs.v
theories/PropCollections.v
theories/Config.v
theories/ConfigProofs.v
theories/PropConfig.v
theories/VCache.v
theories/VCacheProofs.v
theories/InsertRestart.v
theories/VCacheFacts.v
theories/PropVCache.v
theories/ClientIds.v
theories/Handlers.v
theories/HandlersProofs.v
theories/PoisonProofs.v
theories/PropHandlers.v
theories/ClientSmall.v
theories/PropRequests.v
theories/F32Real.v
theories/F32Norm.v
theories/F32Err.v
theories/DistancerDepth.v
theories/F32Cos.v
theories/F32Cmp.v
theories/PropNumeric.v
theories/BufIO.v
theories/BufIOFacts.v
theories/PropBufIO.v
theories/CommitLog.v
theories/CommitLogFacts.v
theories/CommitLogReplay.v
theories/CommitLogEffect.v
theories/CommitLogCondense.v
theories/PropCommitLog.v
theories/LogFiles.v
theories/LogFilesProofs.v
theories/LogIdem.v
theories/LogOver.v
theories/LogFilesCondense.v
theories/PropLogFiles.v
theories/Delete.v
theories/DeleteProofs.v
theories/PropDelete.v
theories/SearchDist.v
theories/SearchDistProofs.v
theories/SearchDistFacts.v
theories/PropSearchDist.v
theories/NodeRace.v
theories/NodeRaceProofs.v
theories/PropNodeRace.v
theories/EvictProofs.v
theories/PropEvict.v
theories/Routes.v
theories/PropRoutes.v
theories/Locks.v
theories/LocksProofs.v
theories/PropLocks.v
theories/Vectorizer.v
theories/VectorizerProofs.v
theories/PropVectorizer.v
theories/NumProofs.v
theories/PropNumbers.v
theories/Compress.v
theories/CompressProofs.v
theories/PropCompress.v
theories/ClientMany.v
theories/PropHistory.v
theories/Bind.v
theories/BindProofs.v
theories/PropBind.v
theories/LitCos.v
theories/EndToEnd.v
theories/PropEndToEnd.v
theories/Switch.v
theories/SwitchProofs.v
theories/PropSwitch.v
theories/Startup.v
theories/PropStartup.v
theories/Mmap.v
theories/MmapProofs.v
theories/PropMmap.v
theories/Vector.v
theories/F32L2.v
theories/PropVector.v
theories/ClientGraph.v
theories/PropGraph.v
theories/Step.v
theories/StepProofs.v
theories/PropStep.v
theories/Geo.v
theories/GeoReal.v
theories/GeoProofs.v
theories/PropGeo.v
theories/Server.v
theories/PropServer.v
theories/PropPanic.v
theories/ConcSearch.v
theories/ConcProofs.v
theories/ConcFind.v
theories/ConcHalf.v
theories/PropConc.v
theories/PropReads.v
theories/Pools.v
theories/PoolProofs.v
theories/PoolCalls.v
theories/PropPools.v
theories/Slices.v
theories/SliceProofs.v
theories/PropSlices.v
theories/WriteBack.v
theories/WriteBackProofs.v
theories/PropWriteBack.v
theories/CompSearch.v
theories/CompSearchProofs.v
theories/PropCompSearch.v
theories/Watchers.v
theories/WatchersProofs.v
theories/PropWatchers.v
theories/GetProp.v
theories/PropGetProp.v
theories/Fanout.v
theories/PropFanout.v
theories/Race.v
theories/RaceProofs.v
theories/PropRace.v
theories/PropEntry.v
theories/Overlap.v
theories/PropOverlap.v
theories/DropLog.v
theories/PropDrop.v
theories/Validate.v
theories/PropValidate.v
theories/PropOrder.v
theories/PropCut.v
theories/PropGrow.v
theories/PropLimit.v
theories/PropNearest.v
theories/PropAnyLimit.v
theories/PropTextLimit.v
theories/ClientComplete.v
theories/PropTextHistory.v
theories/PropTextCut.v
theories/PropAnyOrder.v
