-Q theories Verif
theories/Common.v
theories/AggModel.v
theories/AggSpec.v
theories/AggProofs.v
theories/SegModel.v
theories/SegSpec.v
theories/SegProofs.v
theories/SegRowsProofs.v
theories/MergeProofs.v
theories/EventProofs.v
theories/CsaModel.v
theories/CsaSpec.v
theories/CsaProofs.v
theories/CsaLoopProofs.v
theories/CsaSegProofs.v
theories/CsaTimeProofs.v
theories/CsaPiecesProofs.v
theories/CsaRowsProofs.v
theories/SnapValsSpec.v
theories/SnapValsProofs.v
theories/SnapCsaProofs.v
theories/UserBinsSpec.v
theories/UserBinsProofs.v
theories/UserSnapSpec.v
theories/UserSnapProofs.v
theories/SegOutProofs.v
theories/PropSeg.v
theories/PropCsa.v
theories/PropSnap.v
theories/PropUser.v
theories/TestsSeg.v
theories/IdxModel.v
theories/TestsIdx.v
theories/IdxSpec.v
theories/IdxProofs.v
theories/IdxStrProofs.v
theories/PropIdx.v
theories/ColModel.v
theories/TestsCol.v
theories/ColSpec.v
theories/ColProofs.v
theories/ColScanProofs.v
theories/ColStoreProofs.v
theories/ColWriter.v
theories/PropCol.v
theories/WrModel.v
theories/TestsWr.v
theories/WrSpec.v
theories/WrIterProofs.v
theories/WrProofs.v
theories/WrHistProofs.v
theories/PropWr.v
theories/MetaModel.v
theories/TestsMeta.v
theories/PropMeta.v
theories/ConfModel.v
theories/TestsConf.v
theories/TestsCsa.v
theories/ConfSpec.v
theories/ConfProofs.v
theories/ConfKeyProofs.v
theories/PropConf.v
theories/CrashModel.v
theories/PropCrash.v
theories/ColumnsModel.v
theories/PropColumns.v
theories/RouterModel.v
theories/PropRouter.v
theories/FilterModel.v
theories/PropFilter.v
theories/StreamModel.v
theories/RaiseModel.v
theories/RaiseProofs.v
theories/StreamSpec.v
theories/IterProofs.v
theories/StreamProofs.v
theories/RecordProofs.v
theories/FailProofs.v
theories/PropStream.v
theories/PropEmpty.v
theories/TableProofs.v
theories/KeyModel.v
theories/BatchSpec.v
theories/ScaleSpec.v
theories/ScaleProofs.v
theories/LabelProofs.v
theories/BatchProofs.v
theories/BatchRunProofs.v
theories/BatchOkProofs.v
theories/BatchKeyProofs.v
theories/BatchHoldProofs.v
theories/MdProofs.v
theories/PostSpec.v
theories/PostProofs.v
theories/PostRunProofs.v
theories/PropBatch.v
theories/PropPost.v
theories/PropProv.v
theories/FeedSpec.v
theories/FeedProofs.v
theories/PropFeed.v
theories/PropFeedUser.v
theories/GrowSpec.v
theories/GrowProofs.v
theories/PropGrow.v
theories/ChainSpec.v
theories/ChainProofs.v
theories/PropChain.v
theories/SepModel.v
theories/SepSpec.v
theories/SepProofs.v
theories/PropSep.v
theories/RetypeSpec.v
theories/RetypeProofs.v
theories/PropRetype.v
theories/ParModel.v
theories/ParSpec.v
theories/ParProofs.v
theories/ParJobProofs.v
theories/PropPar.v
theories/NewSpec.v
theories/NewProofs.v
theories/PropNew.v
theories/CutSpec.v
theories/CutProofs.v
theories/TestsStream.v
theories/OrderUserModel.v
theories/OrderUserSpec.v
theories/PropOrderUser.v
theories/PropOrderUserFeed.v
theories/TestsStream2.v
theories/PropResult.v
theories/PropCut.v
theories/ArgModel.v
theories/PropArg.v
theories/HandleModel.v
theories/PropHandle.v
theories/UserKeyModel.v
theories/UserKeySpec.v
theories/UserKeyProofs.v
theories/PropUserKey.v
theories/RetryModel.v
theories/RetrySpec.v
theories/RetryProofs.v
theories/PropRetry.v
theories/SetupModel.v
theories/SetupSpec.v
theories/SetupProofs.v
theories/PropSetup.v
theories/ReuseModel.v
theories/ReuseSpec.v
theories/ReuseProofs.v
theories/PropReuse.v
theories/CalModel.v
theories/CalSpec.v
theories/CalProofs.v
theories/SnapPointsSpec.v
theories/GridProofs.v
theories/UserSnapInst.v
theories/RowBinsProofs.v
theories/MonthProofs.v
theories/PropCal.v
theories/PropSnapUser.v
theories/PropSnapStream.v
theories/MemSpec.v
theories/MemProofs.v
theories/MemCallProofs.v
theories/PropMemory.v
theories/PropScale.v
theories/GrowOkProofs.v
theories/PropGrowOk.v
theories/PropChainOk.v
theories/FeedOkProofs.v
theories/PropFeedOk.v
theories/OrderModel.v
theories/OrderSpec.v
theories/OrderProofs.v
theories/PropOrder.v
theories/PropOrderFeed.v
