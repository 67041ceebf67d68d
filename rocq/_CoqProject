-Q theories Verif
theories/Base.v
theories/BaseProofs.v
theories/IoModel.v
theories/IoSpec.v
theories/IoProofs.v
theories/IoProps.v
theories/RanksModel.v
theories/RanksSpec.v
theories/RanksProofs.v
theories/RanksProps.v
theories/BatchModel.v
theories/BatchProofs.v
theories/BatchProto.v
theories/BatchProps.v
theories/ScopeModel.v
theories/ScopeProofs.v
theories/ScopeProps.v
theories/CatModel.v
theories/CatSpec.v
theories/CatProofs.v
theories/CatHist.v
theories/CatProps.v
theories/DistModel.v
theories/DistSpec.v
theories/DistProofs.v
theories/DistProps.v
theories/Num.v
theories/PaintModel.v
theories/PaintSpec.v
theories/PaintProofs.v
theories/PaintProps.v
theories/MeshModel.v
theories/MeshSpec.v
theories/MeshProofs.v
theories/MeshProps.v
theories/BinModel.v
theories/BinSpec.v
theories/BinArr.v
theories/BinProofs.v
theories/BinIndex.v
theories/BinMore.v
theories/BinProps.v
theories/DaModel.v
theories/DaSpec.v
theories/DaProofs.v
theories/DaBin.v
theories/DaMore.v
theories/FofModel.v
theories/FofSpec.v
theories/FofProofs.v
theories/FofLabels.v
theories/FofMerge.v
theories/FofGroups.v
theories/FofRun.v
theories/FofCmModel.v
theories/FofCmSpec.v
theories/FofCm.v
theories/FofMean.v
theories/DaCounts.v
theories/DaProps.v
theories/FofProps.v
theories/PairModel.v
theories/PairSpec.v
theories/PairProofs.v
theories/PairBox.v
theories/PairMore.v
theories/PairProps.v
theories/RandModel.v
theories/RandProofs.v
theories/RandProps.v
theories/CosmoModel.v
theories/CosmoSpec.v
theories/CosmoProofs.v
theories/CosmoMore.v
theories/CosmoUse.v
theories/CosmoDef.v
theories/CosmoProps.v
theories/NamesModel.v
theories/NamesSpec.v
theories/NamesProofs.v
theories/NamesMore.v
theories/NamesProps.v
theories/SurveyModel.v
theories/SurveySpec.v
theories/SurveyProofs.v
theories/SurveyMore.v
theories/SurveyCells.v
theories/SurveyProps.v
theories/CsvModel.v
theories/CsvSpec.v
theories/CsvProofs.v
theories/CsvMore.v
theories/CsvProps.v
theories/JsonModel.v
theories/JsonSpec.v
theories/JsonProofs.v
theories/JsonProps.v
theories/FiberModel.v
theories/FiberSpec.v
theories/FiberProofs.v
theories/FiberMore.v
theories/FiberProps.v
theories/CgmModel.v
theories/CgmSpec.v
theories/CgmProofs.v
theories/CgmLocal.v
theories/CgmGlobal.v
theories/CgmFinal.v
theories/CgmGeom.v
theories/CgmRun.v
theories/CgmProps.v
theories/PowModel.v
theories/PowSpec.v
theories/PowProofs.v
theories/PowMain.v
theories/PowFinal.v
theories/PowRun.v
theories/PowExamples.v
theories/PowProps.v
theories/ThreeModel.v
theories/ThreeSpec.v
theories/ThreeProofs.v
theories/ThreeMain.v
theories/ThreeExamples.v
theories/ThreeProps.v
theories/YlmModel.v
theories/YlmSpec.v
theories/YlmProofs.v
theories/YlmMain.v
theories/YlmProps.v
theories/ConvModel.v
theories/ConvSpec.v
theories/ConvProofs.v
theories/ConvMain.v
theories/ConvPkmu.v
theories/ConvExamples.v
theories/ConvProps.v
theories/SkyModel.v
theories/SkySpec.v
theories/SkyProofs.v
theories/SkyArrays.v
theories/SkyRedshift.v
theories/SkyMain.v
theories/SkyConcat.v
theories/SkyProps.v
theories/KdModel.v
theories/KdSpec.v
theories/KdProofs.v
theories/KdExamples.v
theories/KdProps.v
theories/SaveModel.v
theories/SaveSpec.v
theories/SaveProofs.v
theories/SaveProps.v
theories/MockModel.v
theories/MockSpec.v
theories/MockProofs.v
theories/MockMean.v
theories/MockMore.v
theories/MockProps.v
theories/SpcModel.v
theories/SpcSpec.v
theories/SpcProofs.v
theories/SpcMain.v
theories/SpcExamples.v
theories/SpcProps.v
theories/TpcfModel.v
theories/TpcfProofs.v
theories/TpcfMain.v
theories/TpcfProps.v
theories/GrowModel.v
theories/GrowProofs.v
theories/GrowMain.v
theories/GrowProps.v
theories/LinModel.v
theories/LinProofs.v
theories/LinMain.v
theories/LinProps.v
theories/GadModel.v
theories/GadSpec.v
theories/GadProofs.v
theories/GadScan.v
theories/GadMain.v
theories/GadOther.v
theories/GadProps.v
theories/HalModel.v
theories/HalProofs.v
theories/HalProps.v
theories/FldModel.v
theories/FldSpec.v
theories/FldProofs.v
theories/FldProps.v
theories/CmpModel.v
theories/CmpSpec.v
theories/CmpPoly.v
theories/CmpProofs.v
theories/CmpProps.v
theories/SlabModel.v
theories/SlabSpec.v
theories/SlabProofs.v
theories/SlabProps.v
theories/TxtModel.v
theories/TxtSpec.v
theories/TxtProofs.v
theories/TxtProps.v
theories/VarModel.v
theories/VarSpec.v
theories/VarProofs.v
theories/VarProps.v
theories/HdfModel.v
theories/HdfSpec.v
theories/HdfProofs.v
theories/HdfOpen.v
theories/HdfProps.v
theories/ViewModel.v
theories/ViewSpec.v
theories/ViewProofs.v
theories/ViewDask.v
theories/ViewProps.v
theories/UniqModel.v
theories/UniqProofs.v
theories/UniqMain.v
theories/UniqProps.v
theories/FpModel.v
theories/FpProofs.v
theories/FpProps.v
theories/LegProps.v
theories/DftModel.v
theories/DftSpec.v
theories/DftProofs.v
theories/DftMain.v
theories/DftInter.v
theories/DftProps.v
theories/RecModel.v
theories/RecProps.v
theories/DftLinProps.v
theories/TomModel.v
theories/TomSpec.v
theories/TomProofs.v
theories/TomMain.v
theories/TomSpecies.v
theories/TomProps.v
theories/FkpModel.v
theories/FkpSpec.v
theories/FkpProofs.v
theories/FkpMain.v
theories/FkpFinal.v
theories/FkpProps.v
theories/HctModel.v
theories/HctSpec.v
theories/HctProofs.v
theories/HctMain.v
theories/HctFof.v
theories/HctHalos.v
theories/HctProps.v
theories/ShnModel.v
theories/ShnSpec.v
theories/ShnProofs.v
theories/ShnMain.v
theories/ShnSym.v
theories/ShnProps.v
theories/PrjModel.v
theories/PrjSpec.v
theories/PrjProofs.v
theories/PrjMain.v
theories/PrjMore.v
theories/PrjProps.v
theories/SerModel.v
theories/SerSpec.v
theories/SerProofs.v
theories/SerProps.v
theories/CtyModel.v
theories/CtySpec.v
theories/CtyProofs.v
theories/CtyProps.v
theories/DepModel.v
theories/DepSpec.v
theories/DepProofs.v
theories/DepProps.v
theories/BrkModel.v
theories/BrkProofs.v
theories/BrkProps.v
theories/PrvModel.v
theories/PrvProofs.v
theories/PrvProps.v
theories/VisModel.v
theories/VisSpec.v
theories/VisProofs.v
theories/VisProps.v
theories/LncModel.v
theories/LncProofs.v
theories/LncProps.v
theories/RerModel.v
theories/RerProofs.v
theories/RerProps.v
theories/ArgModel.v
theories/ArgSpec.v
theories/ArgProofs.v
theories/ArgProps.v
theories/SctModel.v
theories/SctSpec.v
theories/SctProofs.v
theories/SctProps.v
theories/ItbModel.v
theories/ItbProps.v
theories/RadModel.v
theories/RadProps.v
theories/DlgModel.v
theories/DlgProps.v
theories/RpsModel.v
theories/RpsProps.v
