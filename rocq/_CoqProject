-Q theories Verif
theories/Prelude.v
theories/ListFacts.v
theories/Succinct.v
theories/SuccinctFacts.v
theories/TripleFiles.v
theories/TripleBuildFacts.v
theories/IterFacts.v
theories/TripleReadFacts.v
theories/TripleQueryFacts.v
theories/TripleIterFacts.v
theories/Merge.v
theories/MergeFacts.v
theories/Layer.v
theories/StackFacts.v
theories/StackCountFacts.v
theories/DictFacts.v
theories/Builder.v
theories/WfFacts.v
theories/InternFacts.v
theories/SameFacts.v
theories/Rollup.v
theories/RollupFacts.v
theories/RollupSame.v
theories/Squash.v
theories/MergeBase.v
theories/Names.v
theories/SpecText.v
theories/NamesFacts.v
theories/LabelSeq.v
theories/LabelConc.v
theories/LabelSpec.v
theories/LabelConcFacts.v
theories/LabelSeqFacts.v
theories/LabelPath.v
theories/SpecLabelPath.v
theories/LabelPathFacts.v
theories/Head.v
theories/HeadSpec.v
theories/HeadFacts.v
theories/Spec.v
theories/BuilderFacts.v
theories/CommitFacts.v
theories/HistoryFacts.v
theories/SquashFacts.v
theories/MergeBaseFacts.v
theories/ReachFacts.v
theories/ApiFacts.v
theories/SquashApi.v
theories/FilesApi.v
theories/StoreBuilder.v
theories/SpecBuilder.v
theories/StoreBuilderFacts.v
theories/Store.v
theories/SpecStore.v
theories/StoreFacts.v
theories/StoreLoadFacts.v
theories/StoreCallFacts.v
theories/StoreImportFacts.v
theories/StoreExecFacts.v
theories/StoreApi.v
theories/StoreAny.v
theories/StoreAnyFacts.v
theories/RollupFile.v
theories/RollupFileFacts.v
theories/MemFiles.v
theories/MemFilesFacts.v
theories/StoreHead.v
theories/StoreHeadFacts.v
theories/StoreMissing.v
theories/FileNames.v
theories/Archive.v
theories/ArchiveFacts.v
theories/ArchiveStore.v
theories/SpecArchive.v
theories/ArchiveStoreFacts.v
theories/ArchiveApi.v
theories/ArchiveRun.v
theories/Lru.v
theories/SpecLru.v
theories/LruFacts.v
theories/LruInv.v
theories/LruExec.v
theories/LruApi.v
theories/LruRun.v
theories/Pack.v
theories/SpecPack.v
theories/Backend.v
theories/SpecBackend.v
theories/BackendFacts.v
theories/PackFacts.v
theories/PackImport.v
theories/PackBackends.v
theories/PackApi.v
theories/PackArchive.v
theories/PackRun.v
theories/Resolve.v
theories/ResolveFacts.v
theories/LayerFiles.v
theories/LayerFilesFacts.v
theories/SpecWriting.v
theories/LayerFilesMade.v
theories/SpecUtf8.v
theories/Utf8Facts.v
theories/PropertiesCodec.v
theories/PropertiesLabel.v
theories/PropertiesLabelPath.v
theories/PropertiesHead.v
theories/LabelPool.v
theories/SpecProgress.v
theories/LabelProgress.v
theories/PoolProgress.v
theories/HeadProgress.v
theories/StarveFacts.v
theories/PropertiesProgress.v
theories/LabelCancel.v
theories/SpecCancel.v
theories/LabelCancelFacts.v
theories/PropertiesCancel.v
theories/LabelTimed.v
theories/SpecLinear.v
theories/LinearFacts.v
theories/PropertiesLinear.v
theories/GraphTimed.v
theories/SpecGraph.v
theories/GraphLinearFacts.v
theories/PropertiesGraphs.v
theories/PropertiesFiles.v
theories/PropertiesLayer.v
theories/PropertiesBuilder.v
theories/BuilderCopy.v
theories/SpecCopy.v
theories/BuilderCopyFacts.v
theories/PropertiesCopy.v
theories/PropertiesRollup.v
theories/PropertiesSquash.v
theories/PropertiesStore.v
theories/PropertiesAny.v
theories/PropertiesRollupFile.v
theories/PropertiesMemFiles.v
theories/PropertiesArchive.v
theories/PropertiesLru.v
theories/PropertiesPack.v
theories/StoreDir.v
theories/SpecStoreDir.v
theories/StoreDirFacts.v
theories/PropertiesBackend.v
theories/PropertiesStoreDir.v
theories/StoreProcs.v
theories/SpecStoreProcs.v
theories/StoreProcsFacts.v
theories/PropertiesStoreProcs.v
theories/PropertiesWriting.v
theories/Widths.v
theories/SpecWidths.v
theories/WidthsFacts.v
theories/PropertiesWidths.v
theories/SpecUpdates.v
theories/UpdatesFacts.v
theories/PropertiesUpdates.v
theories/LabelFault.v
theories/SpecFault.v
theories/LabelFaultFacts.v
theories/PropertiesLabelFault.v
theories/LayerIds.v
theories/LayerIdsFacts.v
theories/PropertiesLayerIds.v
theories/SpecStray.v
theories/StrayFacts.v
theories/PropertiesStray.v
theories/Durable.v
theories/SpecDurable.v
theories/DurableFacts.v
theories/PropertiesDurable.v
theories/LabelNoLock.v
theories/SpecNoLock.v
theories/NoLockFacts.v
theories/PropertiesNoLock.v
theories/BuilderPanic.v
theories/SpecPanic.v
theories/PanicFacts.v
theories/PropertiesPanic.v
theories/LabelList.v
theories/SpecList.v
theories/ListingFacts.v
theories/PropertiesList.v
theories/HeadLoad.v
theories/SpecHead.v
theories/HeadLoadFacts.v
theories/PropertiesHeadLoad.v
theories/SpecVersions.v
theories/VersionFacts.v
theories/PropertiesVersions.v
theories/SpecGiven.v
theories/GivenFacts.v
theories/PropertiesGiven.v
