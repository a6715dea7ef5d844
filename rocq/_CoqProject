-Q theories Verif
theories/DataflowModel.v
theories/DataflowSpec.v
theories/DataflowProofs.v
theories/DataflowList.v
theories/DataflowStop.v
theories/DataflowMore.v
theories/DataflowProps.v
theories/Base.v
theories/PeaksModel.v
theories/PeaksSpec.v
theories/PeaksProofs.v
theories/PeaksMore.v
theories/PeaksFind.v
theories/PeaksThr.v
theories/PeaksProps.v
theories/BuffersModel.v
theories/BuffersSpec.v
theories/BuffersProofs.v
theories/BuffersSlice.v
theories/BuffersEvent.v
theories/BuffersProps.v
theories/HitsModel.v
theories/HitsSpec.v
theories/HitsProofs.v
theories/HitsProps.v
theories/Arrays.v
theories/WfmModel.v
theories/WfmSpec.v
theories/WfmProps.v
theories/XyModel.v
theories/XySpec.v
theories/XyProps.v
theories/PaolinaModel.v
theories/PaolinaSpec.v
theories/PaolinaVoxels.v
theories/PaolinaTracks.v
theories/PaolinaDrop.v
theories/PaolinaProps.v
theories/ConfigModel.v
theories/ConfigSpec.v
theories/ConfigProofs.v
theories/ConfigProps.v
theories/PmapioModel.v
theories/PmapioSpec.v
theories/PmapioProofs.v
theories/PmapioProps.v
theories/FiltersModel.v
theories/FiltersSpec.v
theories/FiltersProps.v
theories/TablesModel.v
theories/TablesSpec.v
theories/TablesProofs.v
theories/TablesProps.v
theories/TablesHits.v
theories/McModel.v
theories/McSpec.v
theories/McProps.v
theories/KrModel.v
theories/KrSpec.v
theories/KrProps.v
theories/CalibModel.v
theories/CalibSpec.v
theories/CalibProps.v
theories/CalibLimits.v
theories/CalibBlr.v
theories/DbModel.v
theories/DbSpec.v
theories/DbProps.v
theories/DbThr.v
theories/CorrModel.v
theories/CorrSpec.v
theories/CorrProps.v
theories/CorrMore.v
theories/KmapModel.v
theories/KmapSpec.v
theories/KmapProps.v
theories/KmapGrid.v
theories/KmapTime.v
theories/PsfModel.v
theories/PsfSpec.v
theories/PsfProps.v
theories/PsfCity.v
theories/PsfSplit.v
theories/PsfPeak.v
theories/Graph.v
theories/DeconvModel.v
theories/DeconvSpec.v
theories/DeconvProps.v
theories/DeconvClusters.v
theories/DeconvPeak.v
theories/RlModel.v
theories/RlSpec.v
theories/RlProps.v
theories/RlIter.v
theories/RlSum.v
theories/DetsimModel.v
theories/DetsimSpec.v
theories/DetsimProps.v
theories/DetsimWfs.v
theories/DetsimWave.v
theories/DetsimKeep.v
theories/DetsimElectrons.v
theories/TopoModel.v
theories/TopoSpec.v
theories/TopoTrack.v
theories/TopoProps.v
theories/TopoSummary.v
theories/SophModel.v
theories/SophSpec.v
theories/SophPeak.v
theories/SophProps.v
theories/SophEnergy.v
theories/SophClusters.v
theories/ReadModel.v
theories/ReadSpec.v
theories/ReadProps.v
theories/ReadMc.v
theories/LoopProofs.v
theories/CityModel.v
theories/CitySpec.v
theories/CityProofs.v
theories/CityDoes.v
theories/CityProps.v
theories/CityTables.v
theories/CityExamples.v
theories/S1Model.v
theories/S1Spec.v
theories/S1Props.v
theories/LtModel.v
theories/LtSpec.v
theories/LtProps.v
theories/LtSensors.v
theories/TagModel.v
theories/TagSpec.v
theories/TagProofs.v
theories/TagProps.v
theories/NoiseModel.v
theories/NoiseSpec.v
theories/NoiseProofs.v
theories/NoiseProps.v
theories/FeeModel.v
theories/FeeSpec.v
theories/FeeProofs.v
theories/FeeProps.v
theories/EsmModel.v
theories/EsmSpec.v
theories/EsmProps.v
theories/HistModel.v
theories/HistSpec.v
theories/HistProps.v
theories/SpeModel.v
theories/SpeSpec.v
theories/SpeProps.v
theories/DinModel.v
theories/DinSpec.v
theories/DinProps.v
theories/ProfModel.v
theories/ProfSpec.v
theories/ProfProps.v
theories/ChanModel.v
theories/ChanSpec.v
theories/ChanProps.v
theories/ProvModel.v
theories/ProvSpec.v
theories/ProvProps.v
theories/McopyModel.v
theories/McopySpec.v
theories/McopyProps.v
theories/MhitModel.v
theories/MhitSpec.v
theories/MhitProps.v
theories/SbinModel.v
theories/SbinSpec.v
theories/SbinProps.v
theories/ZemModel.v
theories/ZemSpec.v
theories/ZemProps.v
theories/FitModel.v
theories/FitSpec.v
theories/FitProps.v
theories/IreneModel.v
theories/IreneSpec.v
theories/IreneProofs.v
theories/IreneSteps.v
theories/IreneProps.v
theories/RlStop.v
theories/PaolinaShare.v
theories/FeeShape.v
theories/DetsimNumbers.v
theories/LtEdges.v
theories/DsimModel.v
theories/DsimSpec.v
theories/DsimProofs.v
theories/DsimProps.v
theories/OldPmModel.v
theories/OldPmSpec.v
theories/OldPmProps.v
theories/HypaModel.v
theories/HypaSpec.v
theories/HypaProofs.v
theories/HypaProps.v
theories/TrigModel.v
theories/TrigSpec.v
theories/TrigProps.v
theories/TevModel.v
theories/TevSpec.v
theories/TevProps.v
theories/BeerModel.v
theories/BeerSpec.v
theories/BeerProofs.v
theories/BeerProps.v
theories/BeerTotal.v
theories/CalcModel.v
theories/CalcSpec.v
theories/CalcProps.v
theories/DioModel.v
theories/DioSpec.v
theories/DioProps.v
theories/SoeModel.v
theories/SoeSpec.v
theories/SoeProps.v
theories/FeeFilter.v
theories/Refusals.v
theories/IrunModel.v
theories/IrunSpec.v
theories/IrunProps.v
theories/PreadModel.v
theories/PreadSpec.v
theories/PreadProps.v
theories/DorModel.v
theories/DorSpec.v
theories/DorProps.v
theories/SrunModel.v
theories/SrunSpec.v
theories/SrunProps.v
theories/ErunModel.v
theories/ErunSpec.v
theories/ErunProps.v
theories/ErunChain.v
theories/BrunModel.v
theories/BrunSpec.v
theories/BrunProps.v
theories/BrunChain.v
theories/Details.v
theories/FrunModel.v
theories/FrunSpec.v
theories/FrunProps.v
theories/FrunChain.v
theories/HrunModel.v
theories/HrunSpec.v
theories/HrunProps.v
theories/IsaModel.v
theories/IsaSpec.v
theories/IsaProps.v
theories/IsiModel.v
theories/IsiSpec.v
theories/IsiProps.v
theories/BfyModel.v
theories/BfySpec.v
theories/BfyProofs.v
theories/BfyProps.v
theories/BfyChain.v
theories/TevMore.v
theories/Details2.v
theories/DetModel.v
theories/DetSpec.v
theories/DetProofs.v
theories/DetProps.v
theories/DetChain.v
theories/ZrunModel.v
theories/ZrunSpec.v
theories/ZrunProofs.v
theories/ZrunProps.v
theories/ZrunMeta.v
theories/IdSpec.v
theories/IdWf.v
theories/IdReco.v
theories/IdSim.v
theories/IdChain.v
theories/IdEx.v
theories/JobModel.v
theories/JobSpec.v
theories/JobProofs.v
theories/JobProps.v
theories/JobSimModel.v
theories/JobSim.v
theories/JobEx.v
theories/UtilModel.v
theories/UtilSpec.v
theories/UtilProps.v
theories/CloneModel.v
theories/CloneSpec.v
theories/CloneProofs.v
theories/CloneProps.v
theories/HaltBase.v
theories/HaltModel.v
theories/HaltSpec.v
theories/HaltProofs.v
theories/HaltReco.v
theories/HaltWfModel.v
theories/HaltWfSpec.v
theories/HaltWf.v
theories/HaltStopSpec.v
theories/HaltStop.v
theories/HaltStop2.v
theories/HaltStopWf.v
theories/HaltRead.v
theories/HaltEx.v
theories/HaltSimModel.v
theories/HaltSimSpec.v
theories/HaltSim.v
theories/Details3.v
theories/LoadModel.v
theories/LoadSpec.v
theories/LoadProps.v
theories/OldLightModel.v
theories/OldBfyModel.v
theories/OldLightSpec.v
theories/OldLight.v
theories/CalfModel.v
theories/CalfSpec.v
theories/CalfProofs.v
theories/CalfProps.v
theories/CalfEx.v
theories/LifeModel.v
theories/LifeSpec.v
theories/LifeProofs.v
theories/LifeProps.v
theories/SeedModel.v
theories/SeedSpec.v
theories/SeedProps.v
theories/MapfModel.v
theories/MapfSpec.v
theories/MapfProofs.v
theories/MapfProps.v
theories/ZkrModel.v
theories/ZkrSpec.v
theories/ZkrProps.v
theories/MfileModel.v
theories/MfileSpec.v
theories/MfileProps.v
theories/HitcModel.v
theories/HitcSpec.v
theories/HitcProps.v
theories/RadioModel.v
theories/RadioSpec.v
theories/RadioProps.v
theories/WgenModel.v
theories/WgenSpec.v
theories/WgenProps.v
