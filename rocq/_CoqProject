-Q theories Verif
theories/Base/Py.v
theories/Base/PyLemmas.v
theories/Base/Fn.v
theories/Base/Sort.v
theories/Model/Catalog.v
theories/Spec/Catalog.v
theories/Proofs/Catalog.v
theories/Props/Catalog.v
theories/Model/Lock.v
theories/Spec/Lock.v
theories/Proofs/Lock.v
theories/Props/Lock.v
theories/Model/Maker.v
theories/Spec/Maker.v
theories/Proofs/Maker.v
theories/Props/Maker.v
theories/Model/ParMaker.v
theories/Spec/ParMaker.v
theories/Proofs/ParMaker.v
theories/Props/ParMaker.v
theories/Model/ZredTask.v
theories/Spec/ZredTask.v
theories/Proofs/ZredTask.v
theories/Props/ZredTask.v
theories/Model/Galfile.v
theories/Spec/Galfile.v
theories/Proofs/Galfile.v
theories/Props/Galfile.v
theories/Model/Chunks.v
theories/Spec/Chunks.v
theories/Proofs/Chunks.v
theories/Props/Chunks.v
theories/Model/BkgGen.v
theories/Spec/BkgGen.v
theories/Proofs/BkgGen.v
theories/Props/BkgGen.v
theories/Model/Bkg.v
theories/Spec/Bkg.v
theories/Proofs/Bkg.v
theories/Props/Bkg.v
theories/Model/Runner.v
theories/Spec/Runner.v
theories/Proofs/Runner.v
theories/Props/Runner.v
theories/Model/Solver.v
theories/Spec/Solver.v
theories/Proofs/Solver.v
theories/Props/Solver.v
theories/Model/ClusterZ.v
theories/Spec/ClusterZ.v
theories/Proofs/ClusterZ.v
theories/Props/ClusterZ.v
theories/Model/Richness.v
theories/Spec/Richness.v
theories/Proofs/Richness.v
theories/Props/Richness.v
theories/Model/Centering.v
theories/Proofs/Centering.v
theories/Spec/Centering.v
theories/Props/Centering.v
theories/Model/Zlambda.v
theories/Spec/Zlambda.v
theories/Proofs/Zlambda.v
theories/Props/Zlambda.v
theories/Model/ZCorr.v
theories/Spec/ZCorr.v
theories/Proofs/ZCorr.v
theories/Props/ZCorr.v
theories/Model/Vlim.v
theories/Spec/Vlim.v
theories/Proofs/Vlim.v
theories/Props/Vlim.v
theories/Model/Randoms.v
theories/Spec/Randoms.v
theories/Proofs/Randoms.v
theories/Props/Randoms.v
theories/Model/Consolidate.v
theories/Spec/Consolidate.v
theories/Proofs/Consolidate.v
theories/Props/Consolidate.v
theories/Model/Restart.v
theories/Spec/Restart.v
theories/Proofs/Restart.v
theories/Props/Restart.v
theories/Model/Config.v
theories/Spec/Config.v
theories/Proofs/Config.v
theories/Props/Config.v
theories/Model/Fitter.v
theories/Spec/Fitter.v
theories/Proofs/Fitter.v
theories/Props/Fitter.v
theories/Model/Util.v
theories/Spec/Util.v
theories/Proofs/Util.v
theories/Props/Util.v
theories/Model/RedSeq.v
theories/Spec/RedSeq.v
theories/Proofs/RedSeq.v
theories/Props/RedSeq.v
theories/Model/Chisq.v
theories/Spec/Chisq.v
theories/Proofs/Chisq.v
theories/Props/Chisq.v
theories/Model/ZredColor.v
theories/Spec/ZredColor.v
theories/Proofs/ZredColor.v
theories/Props/ZredColor.v
theories/Model/Depth.v
theories/Proofs/Depth.v
theories/Spec/Depth.v
theories/Props/Depth.v
theories/Model/Redmagic.v
theories/Spec/Redmagic.v
theories/Proofs/Redmagic.v
theories/Props/Redmagic.v
theories/Model/CalOrder.v
theories/Proofs/CalOrder.v
theories/Props/CalOrder.v
theories/Model/Names.v
theories/Spec/Names.v
theories/Proofs/Names.v
theories/Props/Names.v
theories/Model/Members.v
theories/Spec/Members.v
theories/Proofs/Members.v
theories/Props/Members.v
theories/Model/Modes.v
theories/Spec/Modes.v
theories/Proofs/Modes.v
theories/Props/Modes.v
theories/Model/Likelihood.v
theories/Spec/Likelihood.v
theories/Proofs/Likelihood.v
theories/Props/Likelihood.v
theories/Model/Percolate.v
theories/Spec/Percolate.v
theories/Proofs/Percolate.v
theories/Props/Percolate.v
theories/Model/CalRun.v
theories/Spec/CalRun.v
theories/Proofs/CalRun.v
theories/Props/CalRun.v
theories/Model/Colormem.v
theories/Spec/Colormem.v
theories/Proofs/Colormem.v
theories/Props/Colormem.v
theories/Model/MaskCorr.v
theories/Spec/MaskCorr.v
theories/Proofs/MaskCorr.v
theories/Props/MaskCorr.v
theories/Model/ColFit.v
theories/Spec/ColFit.v
theories/Proofs/ColFit.v
theories/Props/ColFit.v
theories/Model/FirstPass.v
theories/Spec/FirstPass.v
theories/Proofs/FirstPass.v
theories/Props/FirstPass.v
theories/Model/PixelTask.v
theories/Spec/PixelTask.v
theories/Proofs/PixelTask.v
theories/Props/PixelTask.v
theories/Model/SpecSeeds.v
theories/Spec/SpecSeeds.v
theories/Proofs/SpecSeeds.v
theories/Props/SpecSeeds.v
theories/Model/BkgTable.v
theories/Spec/BkgTable.v
theories/Proofs/BkgTable.v
theories/Props/BkgTable.v
theories/Model/Radii.v
theories/Proofs/Radii.v
theories/Props/Radii.v
theories/Model/Maskgals.v
theories/Spec/Maskgals.v
theories/Proofs/Maskgals.v
theories/Props/Maskgals.v
theories/Model/RedCal.v
theories/Spec/RedCal.v
theories/Proofs/RedCal.v
theories/Props/RedCal.v
theories/Model/CorrFit.v
theories/Proofs/CorrFit.v
theories/Spec/CorrFit.v
theories/Props/CorrFit.v
theories/Model/Nodes.v
theories/Proofs/Nodes.v
theories/Props/Nodes.v
theories/Model/ZCal.v
theories/Spec/ZCal.v
theories/Proofs/ZCal.v
theories/Props/ZCal.v
theories/Model/Spline.v
theories/Proofs/Spline.v
theories/Spec/Spline.v
theories/Props/Spline.v
theories/Model/PdfSample.v
theories/Proofs/PdfSample.v
theories/Props/PdfSample.v
theories/Model/Wcen.v
theories/Props/Wcen.v
theories/Model/DepthFit.v
theories/Props/DepthFit.v
theories/Model/SelectRed.v
theories/Spec/SelectRed.v
theories/Proofs/SelectRed.v
theories/Props/SelectRed.v
theories/Model/GalStats.v
theories/Proofs/GalStats.v
theories/Props/GalStats.v
theories/Model/ColorBkg.v
theories/Proofs/ColorBkg.v
theories/Spec/ColorBkg.v
theories/Props/ColorBkg.v
theories/Model/ParFile.v
theories/Proofs/ParFile.v
theories/Props/ParFile.v
theories/Model/Setup.v
theories/Props/Setup.v
theories/Model/RedFit.v
theories/Spec/RedFit.v
theories/Proofs/RedFit.v
theories/Props/RedFit.v
theories/Model/RuncatCons.v
theories/Spec/RuncatCons.v
theories/Props/RuncatCons.v
theories/Model/SubPix.v
theories/Spec/SubPix.v
theories/Proofs/SubPix.v
theories/Props/SubPix.v
theories/Model/ZLamFit.v
theories/Spec/ZLamFit.v
theories/Proofs/ZLamFit.v
theories/Props/ZLamFit.v
theories/Model/ErrBin.v
theories/Proofs/ErrBin.v
theories/Props/ErrBin.v
theories/Model/LikeInput.v
theories/Spec/LikeInput.v
theories/Proofs/LikeInput.v
theories/Props/LikeInput.v
theories/Model/Profile.v
theories/Proofs/Profile.v
theories/Props/Profile.v
theories/Model/CfgYaml.v
theories/Spec/CfgYaml.v
theories/Proofs/CfgYaml.v
theories/Props/CfgYaml.v
theories/Model/RunAll.v
theories/Spec/RunAll.v
theories/Proofs/RunAll.v
theories/Props/RunAll.v
theories/Model/ZredCat.v
theories/Spec/ZredCat.v
theories/Proofs/ZredCat.v
theories/Props/ZredCat.v
theories/Model/RandArea.v
theories/Spec/RandArea.v
theories/Proofs/RandArea.v
theories/Props/RandArea.v
theories/Model/ProdNames.v
theories/Spec/ProdNames.v
theories/Proofs/ProdNames.v
theories/Props/ProdNames.v
theories/Model/MapLook.v
theories/Spec/MapLook.v
theories/Proofs/MapLook.v
theories/Props/MapLook.v
theories/Model/InitCol.v
theories/Spec/InitCol.v
theories/Proofs/InitCol.v
theories/Props/InitCol.v
theories/Model/MemPred.v
theories/Spec/MemPred.v
theories/Proofs/MemPred.v
theories/Props/MemPred.v
theories/Model/RadBins.v
theories/Spec/RadBins.v
theories/Proofs/RadBins.v
theories/Props/RadBins.v
theories/Model/RedRun.v
theories/Spec/RedRun.v
theories/Proofs/RedRun.v
theories/Props/RedRun.v
theories/Model/WcenFit.v
theories/Spec/WcenFit.v
theories/Proofs/WcenFit.v
theories/Props/WcenFit.v
theories/Model/CentRich.v
theories/Spec/CentRich.v
theories/Proofs/CentRich.v
theories/Props/CentRich.v
theories/Model/RandMaker.v
theories/Spec/RandMaker.v
theories/Proofs/RandMaker.v
theories/Props/RandMaker.v
theories/Model/MaskLoad.v
theories/Spec/MaskLoad.v
theories/Proofs/MaskLoad.v
theories/Props/MaskLoad.v
theories/Model/Ingest.v
theories/Spec/Ingest.v
theories/Proofs/Ingest.v
theories/Props/Ingest.v
theories/Model/Logging.v
theories/Spec/Logging.v
theories/Proofs/Logging.v
theories/Props/Logging.v
theories/Model/RedTask.v
theories/Spec/RedTask.v
theories/Proofs/RedTask.v
theories/Props/RedTask.v
theories/Model/RedArea.v
theories/Spec/RedArea.v
theories/Proofs/RedArea.v
theories/Props/RedArea.v
theories/Model/CentRec.v
theories/Spec/CentRec.v
theories/Proofs/CentRec.v
theories/Props/CentRec.v
theories/Model/TileRun.v
theories/Spec/TileRun.v
theories/Proofs/TileRun.v
theories/Props/TileRun.v
theories/Model/Batch.v
theories/Spec/Batch.v
theories/Proofs/Batch.v
theories/Props/Batch.v
theories/Model/ConsFiles.v
theories/Spec/ConsFiles.v
theories/Proofs/ConsFiles.v
theories/Props/ConsFiles.v
theories/Model/ConsOut.v
theories/Spec/ConsOut.v
theories/Proofs/ConsOut.v
theories/Props/ConsOut.v
theories/Model/DistRun.v
theories/Spec/DistRun.v
theories/Proofs/DistRun.v
theories/Props/DistRun.v
theories/Model/MedCol.v
theories/Spec/MedCol.v
theories/Proofs/MedCol.v
theories/Props/MedCol.v
theories/Model/RedSamp.v
theories/Spec/RedSamp.v
theories/Proofs/RedSamp.v
theories/Props/RedSamp.v
theories/Model/BrightSat.v
theories/Spec/BrightSat.v
theories/Proofs/BrightSat.v
theories/Props/BrightSat.v
theories/Model/LumNorm.v
theories/Spec/LumNorm.v
theories/Proofs/LumNorm.v
theories/Props/LumNorm.v
theories/Model/ClusCat.v
theories/Spec/ClusCat.v
theories/Proofs/ClusCat.v
theories/Props/ClusCat.v
theories/Model/PzRow.v
theories/Spec/PzRow.v
theories/Proofs/PzRow.v
theories/Props/PzRow.v
theories/Spec/Share.v
theories/Proofs/Share.v
theories/Props/Share.v
theories/Spec/TileLocal.v
theories/Proofs/TileLocal.v
theories/Props/TileLocal.v
theories/Model/SpecMatch.v
theories/Spec/SpecMatch.v
theories/Proofs/SpecMatch.v
theories/Props/SpecMatch.v
theories/Model/StartCat.v
theories/Spec/StartCat.v
theories/Proofs/StartCat.v
theories/Props/StartCat.v
theories/Model/RedPars.v
theories/Spec/RedPars.v
theories/Proofs/RedPars.v
theories/Props/RedPars.v
theories/Model/LnDist.v
theories/Spec/LnDist.v
theories/Proofs/LnDist.v
theories/Props/LnDist.v
theories/Model/RedModel.v
theories/Spec/RedModel.v
theories/Proofs/RedModel.v
theories/Props/RedModel.v
theories/Model/MaskGeo.v
theories/Spec/MaskGeo.v
theories/Proofs/MaskGeo.v
theories/Props/MaskGeo.v
theories/Model/RunFlags.v
theories/Spec/RunFlags.v
theories/Proofs/RunFlags.v
theories/Props/RunFlags.v
theories/Model/PlotSpec.v
theories/Spec/PlotSpec.v
theories/Proofs/PlotSpec.v
theories/Props/PlotSpec.v
theories/Model/PlotNz.v
theories/Spec/PlotNz.v
theories/Proofs/PlotNz.v
theories/Props/PlotNz.v
theories/Model/OffFit.v
theories/Spec/OffFit.v
theories/Proofs/OffFit.v
theories/Props/OffFit.v
theories/Model/PlotOut.v
theories/Spec/PlotOut.v
theories/Proofs/PlotOut.v
theories/Props/PlotOut.v
theories/Model/SubMask.v
theories/Spec/SubMask.v
theories/Proofs/SubMask.v
theories/Props/SubMask.v
theories/Model/Release.v
theories/Spec/Release.v
theories/Proofs/Release.v
theories/Props/Release.v
theories/Model/MemMsg.v
theories/Spec/MemMsg.v
theories/Proofs/MemMsg.v
theories/Props/MemMsg.v
