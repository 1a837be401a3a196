-Q theories Verif
theories/AccumModel.v
theories/AccumProofs.v
theories/AcousticModel.v
theories/AlgProofs.v
theories/AlgProps.v
theories/ArcModel.v
theories/ArcProofs.v
theories/ArcProps.v
theories/ArcSpec.v
theories/BeamProofs.v
theories/BeamProps.v
theories/BeamSpec.v
theories/BenchModel.v
theories/BenchProofs.v
theories/BenchProps.v
theories/BenchSpec.v
theories/BetaProofs.v
theories/BetaProps.v
theories/BetaSpec.v
theories/BldAudio.v
theories/BldModel.v
theories/BldProofs.v
theories/BldProps.v
theories/BldSpec.v
theories/CacheModel.v
theories/CacheProps.v
theories/CallProofs.v
theories/CallProps.v
theories/CallSpec.v
theories/CfgModel.v
theories/CfgProofs.v
theories/CfgProps.v
theories/CfgSpec.v
theories/CliHelp.v
theories/CliMain.v
theories/CliModel.v
theories/CliProofs.v
theories/CliProps.v
theories/CliSpec.v
theories/CliTriple.v
theories/ContProofs.v
theories/ContProps.v
theories/ContSpec.v
theories/ConvMore.v
theories/ConvProofs.v
theories/CorpModel.v
theories/CorpProofs.v
theories/CorpProps.v
theories/CorpSpec.v
theories/DecayProofs.v
theories/DecayProps.v
theories/DfModel.v
theories/DfProofs.v
theories/DfProps.v
theories/DfSpec.v
theories/DftProofs.v
theories/DirModel.v
theories/DirProofs.v
theories/DirProps.v
theories/DirSpec.v
theories/DlModel.v
theories/DlProofs.v
theories/DlProps.v
theories/DlSpec.v
theories/DsModel.v
theories/DsProofs.v
theories/DsProps.v
theories/DsSpec.v
theories/EdgeEnd.v
theories/EdgeProofs.v
theories/EdgeProps.v
theories/EdsModel.v
theories/EdsProofs.v
theories/EdsProps.v
theories/EdsRun.v
theories/EdsScene.v
theories/EdsSpec.v
theories/EdsTotal.v
theories/ExModel.v
theories/ExProofs.v
theories/ExProps.v
theories/ExSpec.v
theories/FiltProps.v
theories/FloatModel.v
theories/FloatProofs.v
theories/GeoModel.v
theories/GeoProofs.v
theories/GeoProps.v
theories/GeoSampling.v
theories/GeoSolids.v
theories/GeoSpec.v
theories/GsModel.v
theories/GsProofs.v
theories/GsProps.v
theories/GsSpec.v
theories/ImageModel.v
theories/ImageProofs.v
theories/ImageProps.v
theories/ImageSpec.v
theories/IoModel.v
theories/IoProofs.v
theories/IoProps.v
theories/IoSpec.v
theories/IsmModel.v
theories/IsmProofs.v
theories/IsmProps.v
theories/IsmSpec.v
theories/KernelProofs.v
theories/LoopAudio.v
theories/LoopMeta.v
theories/LoopModel.v
theories/LoopNames.v
theories/LoopProofs.v
theories/LoopProps.v
theories/LoopSceneProps.v
theories/LoopSpec.v
theories/LoopTotal.v
theories/LoopTotalProps.v
theories/MetaModel.v
theories/MetaProofs.v
theories/MetaProps.v
theories/MetaSpec.v
theories/MovProofs.v
theories/MovProps.v
theories/MovSpec.v
theories/NoteModel.v
theories/NoteProofs.v
theories/NoteProps.v
theories/NoteSpec.v
theories/PicProofs.v
theories/PicProps.v
theories/PicSpec.v
theories/Prelude.v
theories/PreludeFacts.v
theories/RecProofs.v
theories/RecProps.v
theories/RecSpec.v
theories/RefModel.v
theories/RefProofs.v
theories/RefProps.v
theories/RefSpec.v
theories/RegProps.v
theories/RoomModel.v
theories/RoomProofs.v
theories/RoomProps.v
theories/RoomSpec.v
theories/SceneSpec.v
theories/ScnModel.v
theories/ScnProofs.v
theories/ScnProps.v
theories/ScnSpec.v
theories/SegProofs.v
theories/SignalModel.v
theories/SignalProofs.v
theories/SignalProps.v
theories/SignalSpec.v
theories/SimArrival.v
theories/SimLocal.v
theories/SimMore.v
theories/SimPairs.v
theories/SimProofs.v
theories/SimStages.v
theories/SimSteps.v
theories/SpModel.v
theories/SpProofs.v
theories/SpProps.v
theories/SpSpec.v
theories/StageProps.v
theories/StageSpec.v
theories/SymProofs.v
theories/SymProps.v
theories/SymSpec.v
theories/TotalSpec.v
theories/TrajProofs.v
theories/UtlModel.v
theories/UtlProofs.v
theories/UtlProps.v
theories/UtlSpec.v
theories/VizModel.v
theories/VizProofs.v
theories/VizProps.v
theories/VizSpec.v
theories/WallProps.v
theories/WallSpec.v
