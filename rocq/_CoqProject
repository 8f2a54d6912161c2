-Q theories Verif
theories/Base.v
theories/PermModel.v
theories/PermSpec.v
theories/PermProofs.v
theories/PropsPerm.v
theories/Words.v
theories/Mod3Tables.v
theories/Mod3Model.v
theories/Mod3Spec.v
theories/Mod3Proofs.v
theories/PropsMod3.v
theories/F2CodeModel.v
theories/F2CodeSpec.v
theories/F2CodeProofs.v
theories/F3CodeModel.v
theories/F3CodeSpec.v
theories/F3CodeProofs.v
theories/GF4Model.v
theories/GF4Spec.v
theories/GF4Proofs.v
theories/PropsCodes.v
theories/ConvModel.v
theories/ConvSpec.v
theories/ConvProofs.v
theories/KeyMultModel.v
theories/KeyMultSpec.v
theories/KeyMultProofs.v
theories/PrfModel.v
theories/PrfSpec.v
theories/PrfProofs.v
theories/PrfProtoProofs.v
theories/PrfSharedProofs.v
theories/PropsPrf.v
theories/PermCorModel.v
theories/PermCorSpec.v
theories/PermCorProofs.v
theories/CompPermProofs.v
theories/PropsPermCor.v
theories/GmwModel.v
theories/GmwSpec.v
theories/GmwProofs.v
theories/CircuitProofs.v
theories/PropsGmw.v
theories/SimdModel.v
theories/CompressModel.v
theories/CompressSpec.v
theories/SimdProofs.v
theories/CompressProofs.v
theories/PropsCompress.v
theories/CorGenModel.v
theories/CorGenSpec.v
theories/CorGenProofs.v
theories/CorStartProofs.v
theories/PropsCorGen.v
theories/ShuffleModel.v
theories/ShuffleSpec.v
theories/ShuffleProofs.v
theories/ShuffleSpanProofs.v
theories/AggModel.v
theories/AggSpec.v
theories/AggSizeProofs.v
theories/AggLoadProofs.v
theories/AggTreeProofs.v
theories/AggProofs.v
theories/PropsAgg.v
theories/BitInjModel.v
theories/RadixModel.v
theories/RadixSpec.v
theories/BitInjProofs.v
theories/HadamardProofs.v
theories/RadixProofs.v
theories/RadixFlagProofs.v
theories/RadixRankProofs.v
theories/RadixSortProofs.v
theories/StableSortProofs.v
theories/PropsRadix.v
theories/TableModel.v
theories/TableSpec.v
theories/TrimProofs.v
theories/TableProofs.v
theories/TableSortProofs.v
theories/PropsTable.v
theories/TableIOModel.v
theories/TableIOSpec.v
theories/HexProofs.v
theories/BinFileProofs.v
theories/CsvProofs.v
theories/PropsTableIO.v
theories/TableOpsModel.v
theories/TableOpsSpec.v
theories/JoinProofs.v
theories/AverageProofs.v
theories/PropsTableOps.v
theories/OmJoinModel.v
theories/CtrlProofs.v
theories/BlockProofs.v
theories/OmJoinSpec.v
theories/PackProofs.v
theories/OmJoinProofs.v
theories/OmJoinTop.v
theories/PropsOmJoin.v
theories/ExtractModel.v
theories/ExtractSpec.v
theories/ExtractProofs.v
theories/ExtractPrivacy.v
theories/PropsExtract.v
theories/WhereModel.v
theories/WhereSpec.v
theories/WhereProofs.v
theories/PropsWhere.v
theories/GroupByModel.v
theories/GroupBySpec.v
theories/GroupByArith.v
theories/GroupByLoad.v
theories/GroupByBlock.v
theories/GroupByProofs.v
theories/GroupByTop.v
theories/PropsGroupBy.v
theories/ParserModel.v
theories/ParserSpec.v
theories/ParserArith.v
theories/ParserProofs.v
theories/PropsParser.v
theories/GmwPrivSpec.v
theories/GmwPrivacy.v
theories/PropsGmwPriv.v
theories/PlainAggModel.v
theories/PlainAggProofs.v
theories/PlainShareProofs.v
theories/PropsPlainAgg.v
theories/DefinesModel.v
theories/DefinesProofs.v
theories/PropsDefines.v
theories/GmwIoModel.v
theories/GmwIoSpec.v
theories/GmwIoProofs.v
theories/GmwEndProofs.v
theories/PropsGmwIo.v
theories/LowMCModel.v
theories/LowMCSpec.v
theories/LowMCMat.v
theories/LowMCProofs.v
theories/LowMCCircuit.v
theories/LowMCLoad.v
theories/PropsLowMC.v
theories/LowMCPermModel.v
theories/LowMCPermSpec.v
theories/LowMCPermProofs.v
theories/PropsLowMCPerm.v
theories/SilentVoleModel.v
theories/SilentVoleSpec.v
theories/SilentVoleProofs.v
theories/PropsSilentVole.v
theories/SessionModel.v
theories/SessionSpec.v
theories/SessionProofs.v
theories/PropsSession.v
theories/DeliverModel.v
theories/DeliverSpec.v
theories/DeliverProofs.v
theories/PropsDeliver.v
theories/PrePermModel.v
theories/PrePermSpec.v
theories/PrePermProofs.v
theories/PropsPrePerm.v
theories/PrivSpec.v
theories/ConvPrivacy.v
theories/Mod2Privacy.v
theories/PrfViewModel.v
theories/RowPrivacy.v
theories/PrfPrivacy.v
theories/InputPrivacy.v
theories/PropsPrfPriv.v
theories/PermViewModel.v
theories/PermPrivSpec.v
theories/PermPrivacy.v
theories/CompPrivacy.v
theories/PropsPermPriv.v
theories/SortViewModel.v
theories/SortPrivSpec.v
theories/OtPrivacy.v
theories/HsPrivacy.v
theories/RoundPrivacy.v
theories/RoundHides.v
theories/PropsRoundPriv.v
theories/GenPermViewModel.v
theories/GenPermPrivSpec.v
theories/GenPermPrivacy.v
theories/PropsSortPriv.v
theories/Mod3SimdModel.v
theories/Mod3SimdSpec.v
theories/Mod3SimdProofs.v
theories/PropsMod3Simd.v
theories/JoinViewModel.v
theories/JoinPrivSpec.v
theories/JoinPrivacy.v
theories/JoinHides.v
theories/JoinLeak.v
theories/PropsJoinPriv.v
theories/AggCirModel.v
theories/AggCirSpec.v
theories/AggCirProofs.v
theories/AggCirBuild.v
theories/AggCirAdd.v
theories/AggCirExamples.v
theories/AggCirRun.v
theories/PropsAggCir.v
theories/AggTwoModel.v
theories/AggTwoSpec.v
theories/AggTwoRel.v
theories/AggTwoProofs.v
theories/AggTwoTree.v
theories/AggTwoDown.v
theories/AggTwoLeaf.v
theories/AggRunModel.v
theories/AggRunProofs.v
theories/AggTwoScan.v
theories/PropsAggTwo.v
theories/AggViewModel.v
theories/AggViewSpec.v
theories/AggViewHide.v
theories/AggViewRun.v
theories/AggViewLanes.v
theories/AggViewTree.v
theories/AggViewFull.v
theories/AggViewErase.v
theories/AggViewEnd.v
theories/PropsAggView.v
theories/JoinRunModel.v
theories/JoinRunSpec.v
theories/JoinRunCtl.v
theories/JoinRunStages.v
theories/JoinRunChain.v
theories/JoinRunBytes.v
theories/JoinRunTop.v
theories/PropsJoinRun.v
theories/JoinMsgSpec.v
theories/JoinMsgRows.v
theories/JoinMsgStages.v
theories/JoinMsgChain.v
theories/JoinMsgTop.v
theories/PropsJoinMsg.v
theories/TableOpenModel.v
theories/TableOpenSpec.v
theories/TableOpenProofs.v
theories/PropsTableOpen.v
theories/JoinOpenSpec.v
theories/PropsJoinOpen.v
theories/WhereRunModel.v
theories/WhereRunSpec.v
theories/WhereRunProofs.v
theories/PropsWhereRun.v
theories/GroupByRunModel.v
theories/GroupByRunSpec.v
theories/GroupByRunStages.v
theories/GroupByRunSum.v
theories/GroupByRunProofs.v
theories/PropsGroupByRun.v
theories/GroupByMsgModel.v
theories/GroupByMsgSpec.v
theories/GroupByMsgStages.v
theories/GroupByMsgProofs.v
theories/PropsGroupByMsg.v
theories/GroupByOpenSpec.v
theories/PropsGroupByOpen.v
