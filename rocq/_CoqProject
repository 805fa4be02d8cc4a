-Q theories Verif
theories/Prelude.v
theories/BlCodecModel.v
theories/BlCodecProofs.v
theories/BlCodecProps.v
theories/PyStr.v
theories/PolPairModel.v
theories/PolPairProofs.v
theories/PolPairProps.v
theories/PyDict.v
theories/RParamsModel.v
theories/RParamsProofs.v
theories/RParamsProps.v
theories/UvpModel.v
theories/ListLemmas.v
theories/UvpProofs.v
theories/UvpSpec.v
theories/SelectProofs.v
theories/SelectMain.v
theories/SelectTotal.v
theories/KeyProofs.v
theories/FoldModel.v
theories/FoldProofs.v
theories/LengthProofs.v
theories/CommonProofs.v
theories/UvpProps.v
theories/FoldProps.v
theories/ContainerModel.v
theories/ContainerProofs.v
theories/ContainerHist.v
theories/ContainerHandles.v
theories/ContainerProps.v
theories/PscCombineModel.v
theories/PscCombineProofs.v
theories/PscCombineProps.v
theories/GroupModel.v
theories/GroupProofs.v
theories/AvgModel.v
theories/AvgProofs.v
theories/AvgMain.v
theories/AvgObject.v
theories/AvgTotal.v
theories/AvgProps.v
theories/GroupProps.v
theories/CombineModel.v
theories/CombineProofs.v
theories/CombineMain.v
theories/CombineSound.v
theories/CombineObject.v
theories/CombineTree.v
theories/CombineMerge.v
theories/CombineProps.v
theories/UtilsModel.v
theories/UtilsProofs.v
theories/UtilsReds.v
theories/UtilsProps.v
theories/DelayBinModel.v
theories/DelayBinProofs.v
theories/DelayBinProps.v
theories/SphModel.v
theories/SphProofs.v
theories/SphProps.v
theories/LabelModel.v
theories/LabelProofs.v
theories/LabelProps.v
theories/PdModel.v
theories/PdProofs.v
theories/PdProps.v
theories/PspecModel.v
theories/PspecProps.v
theories/CNum.v
theories/OqeModel.v
theories/OqeProofs.v
theories/OqeProps.v
theories/OqePairProps.v
theories/CovModel.v
theories/CovProps.v
theories/FlagModel.v
theories/FlagProps.v
theories/PstokesModel.v
theories/PstokesProps.v
theories/TimesModel.v
theories/TimesProps.v
theories/CliModel.v
theories/CliProps.v
theories/ConvModel.v
theories/ConvProps.v
theories/ScalarModel.v
theories/ScalarProps.v
theories/NoiseModel.v
theories/NoiseProps.v
theories/ApproxProps.v
theories/WinModel.v
theories/WinProps.v
theories/WinCylProps.v
theories/H5Model.v
theories/H5Proofs.v
theories/H5Props.v
theories/RSelectModel.v
theories/RSelectProps.v
theories/EqModel.v
theories/EqProps.v
theories/CosmoModel.v
theories/CosmoProps.v
theories/SubModel.v
theories/SubProps.v
theories/DsetModel.v
theories/DsetProps.v
theories/CovqModel.v
theories/CovqProps.v
theories/RunModel.v
theories/RunProps.v
theories/PrunProps.v
theories/StatModel.v
theories/StatProps.v
theories/GeomModel.v
theories/CircProps.v
theories/GeomProps.v
theories/GetModel.v
theories/GetProps.v
theories/PlotModel.v
theories/PlotProps.v
theories/WinGridModel.v
theories/WinGridProps.v
theories/NerrModel.v
theories/NerrProps.v
theories/CheckModel.v
theories/CheckProps.v
theories/TightProps.v
theories/AccessModel.v
theories/AccessProps.v
theories/AdjModel.v
theories/AdjProps.v
theories/SphWfModel.v
theories/SphWfProps.v
theories/RmatProps.v
theories/DlyModel.v
theories/DlyProps.v
theories/FtbProps.v
theories/KcovModel.v
theories/KcovProps.v
theories/RedsModel.v
theories/RedsProps.v
theories/WsphModel.v
theories/WsphProps.v
theories/SimModel.v
theories/SimProps.v
theories/LawModel.v
theories/LawProofs.v
theories/LawSelect.v
theories/LawFold.v
theories/LawProps.v
theories/LawAvg.v
theories/LawFoldAvg.v
theories/SplitProofs.v
theories/SplitBridge.v
theories/SplitProps.v
theories/RsetModel.v
theories/RsetProps.v
theories/VanillaModel.v
theories/VanillaProps.v
theories/MiscModel.v
theories/MiscProps.v
theories/AvgCovModel.v
theories/AvgCovProps.v
theories/ContainerTree.v
theories/AvgStatModel.v
theories/AvgStatProps.v
theories/ScriptModel.v
theories/ScriptProps.v
theories/ScriptCalls.v
theories/AddModel.v
theories/AddSpec.v
theories/AddProps.v
theories/AddMore.v
theories/DspecModel.v
theories/DspecProps.v
theories/EnuModel.v
theories/EnuProps.v
theories/FromDataModel.v
theories/FromDataProps.v
theories/AvgTwoStep.v
theories/AvgArgsModel.v
theories/AvgArgsProps.v
theories/BeamObjModel.v
theories/BeamObjProps.v
theories/SphArgsModel.v
theories/SphArgsProps.v
theories/SummaryModel.v
theories/SummaryProps.v
theories/WaterModel.v
theories/WaterProps.v
theories/OldFileModel.v
theories/OldFileProps.v
theories/OldPolModel.v
theories/OldPolProps.v
