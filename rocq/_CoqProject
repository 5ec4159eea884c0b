-Q theories Verif

theories/Args.v
theories/ArgsClaims.v
theories/ArgsExample.v
theories/ArgsModel.v
theories/ArgsSpec.v
theories/Arr.v
theories/ArrLemmas.v
theories/Base.v
theories/BaseLemmas.v
theories/Bin.v
theories/BinClaims.v
theories/BinExample.v
theories/Build.v
theories/CalibClaims.v
theories/CalibSpec.v
theories/Coarse.v
theories/CoarseClaims.v
theories/CoarseCube.v
theories/CoarseCubeExample.v
theories/CoarseCubeSpec.v
theories/CoarseExample.v
theories/CoarseSpec.v
theories/CondLemmas.v
theories/CondSame.v
theories/CoordUnits.v
theories/CoordUnitsPar.v
theories/CoordUnitsSpec.v
theories/Cube.v
theories/CubeGeom.v
theories/CubeLemmas.v
theories/Cuts.v
theories/CutsClaims.v
theories/CutsExample.v
theories/CutsSpec.v
theories/Datacube.v
theories/DatacubeClaims.v
theories/DatacubeExample.v
theories/DatacubeLemmas.v
theories/DatacubeMain.v
theories/DatacubeShift.v
theories/DatacubeSpec.v
theories/DiskLemmas.v
theories/DistLemmas.v
theories/Enrich.v
theories/EnrichExample.v
theories/EnrichSpec.v
theories/EvalExample.v
theories/EvalSpec.v
theories/Fft.v
theories/FluxClaims.v
theories/FluxResample.v
theories/FluxUnits.v
theories/FluxUnitsSpec.v
theories/FourierLemmas.v
theories/FourierSpec.v
theories/GaussLemmas.v
theories/GaussSpec.v
theories/GrowingDisk.v
theories/Heap.v
theories/HeapClaims.v
theories/HeapExample.v
theories/HeapHist.v
theories/HeapLemmas.v
theories/HeapMix.v
theories/HeapMixClaims.v
theories/HeapMixExample.v
theories/HeapMixHist.v
theories/HeapMixMom.v
theories/HeapMixMomLemmas.v
theories/HeapMixRun.v
theories/HeapMom.v
theories/HeapMomExample.v
theories/HeapMomHist.v
theories/HeapMomLemmas.v
theories/HeapMomRun.v
theories/HeapNoise.v
theories/HeapPar.v
theories/HeapParClaims.v
theories/HeapParMom.v
theories/HeapParMomLemmas.v
theories/HeapRun.v
theories/Indep.v
theories/IndepClaims.v
theories/IndepMix.v
theories/IndepSpec.v
theories/LMom.v
theories/LRatio.v
theories/LRatioExample.v
theories/LRatioSpec.v
theories/Life.v
theories/LifeClaims.v
theories/LifeExample.v
theories/LifeLemmas.v
theories/LifeShape.v
theories/LifeSpec.v
theories/LightGiven.v
theories/LightGivenMix.v
theories/LightGivenPar.v
theories/LightGivenRefuted.v
theories/Lims.v
theories/LimsClaims.v
theories/LimsSpec.v
theories/MilesClaims.v
theories/MilesExample.v
theories/MilesLemmas.v
theories/MilesLemmas2.v
theories/MilesLemmas3.v
theories/MilesSpec.v
theories/Mirror.v
theories/MirrorClaims.v
theories/MirrorCube.v
theories/MirrorDisk.v
theories/MirrorExample.v
theories/MirrorPar.v
theories/MirrorParticle.v
theories/MirrorSpec.v
theories/MixClaims.v
theories/MixCond.v
theories/MixExample.v
theories/MixGen.v
theories/MixLemmas.v
theories/MixList.v
theories/MixListClaims.v
theories/MixListExample.v
theories/MixListLemmas.v
theories/MixListSpec.v
theories/MixMom.v
theories/MixParClaims.v
theories/MixParExample.v
theories/MixParLemmas.v
theories/MixParSpec.v
theories/MixRegroup.v
theories/MixSpec.v
theories/MixStat.v
theories/MixStatClaims.v
theories/MixStatExample.v
theories/MixStatLemmas.v
theories/MixStatSpec.v
theories/MixVStat.v
theories/Mixture.v
theories/MomArr.v
theories/MomClaims.v
theories/MomLemmas.v
theories/MomLemmas2.v
theories/MomLemmas3.v
theories/MomLemmas4.v
theories/MomLemmas5.v
theories/MomLemmas6.v
theories/MomRefuted.v
theories/MomSpec.v
theories/Moments.v
theories/NanLemmas.v
theories/Noise.v
theories/NoiseExample.v
theories/NoiseLemmas.v
theories/NormalL.v
theories/NormalLClaims.v
theories/NormalLLemmas.v
theories/NormalLSpec.v
theories/Num.v
theories/NumLemmas.v
theories/Ops.v
theories/OpsClaims.v
theories/Pad.v
theories/PadLemmas.v
theories/PadSpec.v
theories/ParBuild.v
theories/ParCentral.v
theories/ParCentralLemmas.v
theories/ParCentralSpec.v
theories/ParClaims.v
theories/ParDist.v
theories/ParEnrich.v
theories/ParEval.v
theories/ParEvalClaims.v
theories/ParEvalLemmas.v
theories/ParExample.v
theories/ParLemmas.v
theories/ParMomArr.v
theories/ParMomClaims.v
theories/ParMomCorr.v
theories/ParMomExample.v
theories/ParMomLemmas.v
theories/ParMomMath.v
theories/ParMomMeans.v
theories/ParMomOther.v
theories/ParMomSpec.v
theories/ParMoments.v
theories/ParRepr.v
theories/ParSetLemmas.v
theories/ParSetSpec.v
theories/ParSpec.v
theories/ParStat.v
theories/ParStatExample.v
theories/ParVStat.v
theories/ParYbar.v
theories/ParYbarLemmas.v
theories/ParYbarSpec.v
theories/Parametric.v
theories/Particle.v
theories/ParticleArr.v
theories/ParticleArrClaims.v
theories/ParticleArrSpec.v
theories/ParticleCells.v
theories/ParticleCellsExample.v
theories/ParticleClaims.v
theories/ParticleExample.v
theories/ParticleLemmas.v
theories/ParticleMix.v
theories/ParticleSpec.v
theories/Pert.v
theories/PertClaims.v
theories/PertExample.v
theories/PertSpec.v
theories/PixClaims.v
theories/PixExample.v
theories/PixSpec.v
theories/Plot.v
theories/PlotAxes.v
theories/PlotClaims.v
theories/PlotLemmas.v
theories/Props_Args.v
theories/Props_Bin.v
theories/Props_Calib.v
theories/Props_Coarse.v
theories/Props_CoarseCube.v
theories/Props_CoordUnits.v
theories/Props_Cube.v
theories/Props_Cuts.v
theories/Props_Datacube.v
theories/Props_Dist.v
theories/Props_Enrich.v
theories/Props_Eval.v
theories/Props_FluxUnits.v
theories/Props_Heap.v
theories/Props_HeapMix.v
theories/Props_HeapMom.v
theories/Props_Indep.v
theories/Props_LMom.v
theories/Props_LRatio.v
theories/Props_Life.v
theories/Props_LightGiven.v
theories/Props_Lims.v
theories/Props_Miles.v
theories/Props_Mirror.v
theories/Props_MixList.v
theories/Props_MixPar.v
theories/Props_MixRegroup.v
theories/Props_MixStat.v
theories/Props_Mixture.v
theories/Props_Moments.v
theories/Props_Noise.v
theories/Props_Ops.v
theories/Props_Pad.v
theories/Props_ParCentral.v
theories/Props_ParMoments.v
theories/Props_ParStat.v
theories/Props_Parametric.v
theories/Props_Particle.v
theories/Props_ParticleArr.v
theories/Props_ParticleCells.v
theories/Props_ParticleMix.v
theories/Props_Pert.v
theories/Props_Pix.v
theories/Props_Plot.v
theories/Props_Rec.v
theories/Props_Rmax.v
theories/Props_Save.v
theories/Props_Setters.v
theories/Props_SinglePar.v
theories/Props_Ssps.v
theories/Props_Store.v
theories/Props_Thin.v
theories/Props_Total.v
theories/Props_VStat.v
theories/PyStr.v
theories/QuantLemmas.v
theories/ReadMiles.v
theories/RecClaims.v
theories/RecExample.v
theories/RecSpec.v
theories/Recs.v
theories/Regroup.v
theories/Repr.v
theories/RmaxClaims.v
theories/RmaxNan.v
theories/SameSpec.v
theories/Save.v
theories/SaveLemmas.v
theories/ScaleLemmas.v
theories/Sharing.v
theories/SharingClaims.v
theories/SharingLemmas.v
theories/SinglePar.v
theories/SingleParExample.v
theories/Spec.v
theories/SpecLemmas.v
theories/SspClaims.v
theories/SspFlow.v
theories/SspLemmas.v
theories/Ssps.v
theories/Stat.v
theories/StatGen.v
theories/StoreClaims.v
theories/StoreOther.v
theories/StoreSpec.v
theories/StrLemmas.v
theories/Stream.v
theories/StreamLemmas.v
theories/StringClaims.v
theories/Thin.v
theories/ThinClaims.v
theories/ThinSpec.v
theories/TotalClaims.v
theories/TotalSpec.v
theories/TotalVar.v
theories/TwoSame.v
theories/VStatMath.v
theories/VecLemmas.v
theories/VelocityLemmas.v
