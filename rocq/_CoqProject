-Q theories Verif
theories/AcMetaModel.v
theories/AcMetaProps.v
theories/AcMetaSpec.v
theories/AcModel.v
theories/AcPassModel.v
theories/AcPassProofs.v
theories/AcPassProps.v
theories/AcProofs.v
theories/AcProps.v
theories/AcSpec.v
theories/AliasModel.v
theories/AliasProofs.v
theories/AliasProps.v
theories/AliasSpec.v
theories/AnsCases.v
theories/AnsModel.v
theories/AnsProofs.v
theories/AnsProps.v
theories/AnsSpec.v
theories/AnsStream.v
theories/AnsTop.v
theories/Arr.v
theories/Base.v
theories/BitIOProofs.v
theories/BitIOProps.v
theories/BitProg.v
theories/BitProgProofs.v
theories/BitReaderModel.v
theories/BitReaderProofs.v
theories/BitReaderSpec.v
theories/BitWriterModel.v
theories/BitWriterProofs.v
theories/BitWriterSpec.v
theories/BlockMapModel.v
theories/BlockMapProps.v
theories/BorderGeom.v
theories/BorderModel.v
theories/BorderProofs.v
theories/BorderProps.v
theories/BorderSpec.v
theories/BorderTop.v
theories/BundleDefaults.v
theories/BundleExt.v
theories/BundleModel.v
theories/BundleProofs.v
theories/BundleProps.v
theories/BundleSpec.v
theories/BundleTrunc.v
theories/COrderEnc.v
theories/COrderModel.v
theories/COrderNat.v
theories/COrderProofs.v
theories/COrderProps.v
theories/COrderSpec.v
theories/CodesModel.v
theories/CodesProps.v
theories/CodesRound.v
theories/CodesSafe.v
theories/CodesSpec.v
theories/CodesTop.v
theories/ContainerModel.v
theories/ContainerProofs.v
theories/ContainerProps.v
theories/ContainerSpec.v
theories/F16Proofs.v
theories/FieldsModel.v
theories/FieldsProofs.v
theories/FieldsProps.v
theories/FieldsSpec.v
theories/FrameDimModel.v
theories/FrameDimProofs.v
theories/FrameDimProps.v
theories/FrameDimSpec.v
theories/HeadersModel.v
theories/HeadersProofs.v
theories/HeadersProps.v
theories/HeadersSpec.v
theories/HistoCounts.v
theories/HistoModel.v
theories/HistoProofs.v
theories/HistoProps.v
theories/HistoSafe.v
theories/HistoSpec.v
theories/HistoTop.v
theories/HuffBuild.v
theories/HuffCanon.v
theories/HuffCreate.v
theories/HuffCreate2.v
theories/HuffCreateModel.v
theories/HuffEnc.v
theories/HuffLens.v
theories/HuffModel.v
theories/HuffProps.v
theories/HuffRle.v
theories/HuffRoot.v
theories/HuffSafe.v
theories/HuffSimple.v
theories/HuffSort.v
theories/HuffSpec.v
theories/HuffStore.v
theories/HuffStored.v
theories/HuffSub.v
theories/HuffTop.v
theories/HuffTreeModel.v
theories/HuffTreeProps.v
theories/HuffTreeTop.v
theories/HybridUintModel.v
theories/HybridUintProofs.v
theories/HybridUintProps.v
theories/HybridUintSpec.v
theories/IccAux.v
theories/IccModel.v
theories/IccPlay.v
theories/IccProps.v
theories/IccRound.v
theories/IccSafe.v
theories/IccShuffle.v
theories/IccSpec.v
theories/IccTop.v
theories/InpAny.v
theories/InpAnyProps.v
theories/InpInv.v
theories/InpJxlp.v
theories/InpModel.v
theories/InpMore.v
theories/InpParse.v
theories/InpProps.v
theories/InpSpec.v
theories/InpTop.v
theories/InpWin.v
theories/LehmerModel.v
theories/LehmerProofs.v
theories/LehmerProps.v
theories/LehmerSpec.v
theories/ListAux.v
theories/LzProofs.v
theories/MaFlat.v
theories/MaFlatProps.v
theories/MaLut.v
theories/MaModel.v
theories/MaProofs.v
theories/MaProps.v
theories/MaSpec.v
theories/MaTok.v
theories/MaValid.v
theories/MtfModel.v
theories/MtfProofs.v
theories/MtfSpec.v
theories/OMap.v
theories/OutInv.v
theories/OutModel.v
theories/OutProps.v
theories/OutRuns.v
theories/OutSpec.v
theories/OutTop.v
theories/PaletteChan.v
theories/PaletteColors.v
theories/PaletteModel.v
theories/PaletteProofs.v
theories/PaletteProps.v
theories/PaletteSpec.v
theories/PaletteTop.v
theories/PatchCode.v
theories/PatchDraw.v
theories/PatchModel.v
theories/PatchProps.v
theories/PatchSpec.v
theories/PatchTree.v
theories/PermModel.v
theories/PermProofs.v
theories/RctModel.v
theories/RctProofs.v
theories/RctProps.v
theories/RctSpec.v
theories/ResImage.v
theories/ResLoop.v
theories/ResModel.v
theories/ResPaths.v
theories/ResProps.v
theories/ResSpec.v
theories/ResTop.v
theories/ResTree.v
theories/ResWp.v
theories/ResetModel.v
theories/ResetProofs.v
theories/ResetProps.v
theories/ResetSpec.v
theories/RunnerModel.v
theories/RunnerProofs.v
theories/RunnerProps.v
theories/RunnerSpec.v
theories/RunnerTerm.v
theories/RunnerWork.v
theories/SkipDeps.v
theories/SkipModel.v
theories/SkipProofs.v
theories/SkipProps.v
theories/SkipSpec.v
theories/SkipTop.v
theories/SplitModel.v
theories/SplitProps.v
theories/SplitSpec.v
theories/SqueezeImage.v
theories/SqueezeModel.v
theories/SqueezeProofs.v
theories/SqueezeProps.v
theories/SqueezeSpec.v
theories/SqueezeStep.v
theories/TocEnc.v
theories/TocGap.v
theories/TocLayout.v
theories/TocModel.v
theories/TocProps.v
theories/TocRead.v
theories/TocSpec.v
theories/TocTop.v
theories/TokProg.v
theories/Wrap.v
theories/XOutInv.v
theories/XOutModel.v
theories/XOutPiece.v
theories/XOutPlan.v
theories/XOutProps.v
theories/XOutRuns.v
theories/XOutSpec.v
theories/XOutStep.v
theories/XOutStop.v
