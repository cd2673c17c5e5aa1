-Q theories Verif
theories/Base.v
theories/BaseFacts.v
theories/CodingModel.v
theories/CodingSpec.v
theories/CodingProofs.v
theories/PropCoding.v
theories/FixedModel.v
theories/FixedSpec.v
theories/FixedProofs.v
theories/PropFixed.v
theories/UtilModel.v
theories/UtilSpec.v
theories/UtilProofs.v
theories/PropUtil.v
theories/StateModel.v
theories/StateSpec.v
theories/StateProofs.v
theories/PropState.v
theories/EstModel.v
theories/EstSpec.v
theories/EstProofs.v
theories/PropEst.v
theories/LogModel.v
theories/LogSpec.v
theories/LogProofs.v
theories/LogReal.v
theories/PropLog.v
theories/LutModel.v
theories/LutTable.v
theories/LutProofs.v
theories/LutRound.v
theories/PropLut.v
theories/ApmModel.v
theories/ApmSpec.v
theories/ApmProofs.v
theories/PropApm.v
theories/StatesModel.v
theories/StatesSpec.v
theories/StatesProofs.v
theories/PropStates.v
theories/MixerModel.v
theories/MixerSpec.v
theories/MixerProofs.v
theories/PropMixer.v
theories/WindowModel.v
theories/WindowSpec.v
theories/WindowProofs.v
theories/PropWindow.v
theories/HistModel.v
theories/HistSpec.v
theories/HistProofs.v
theories/FatProofs.v
theories/HistFacts.v
theories/PropHistory.v
theories/NodesModel.v
theories/NodesSpec.v
theories/NodesProofs.v
theories/PropNodes.v
theories/TreeModel.v
theories/TrieProofs.v
theories/TrieContexts.v
theories/TreeStats.v
theories/TreeWindow.v
theories/TreeLoop.v
theories/TreeRemove.v
theories/TreeGather.v
theories/TreeSpec.v
theories/TreeRun.v
theories/TreeFacts.v
theories/PropTree.v
theories/RandomModel.v
theories/RandomSpec.v
theories/RandomProofs.v
theories/PropRandom.v
theories/PredModel.v
theories/PredKits.v
theories/PredChain.v
theories/PredFinal.v
theories/PredTree.v
theories/PredSpec.v
theories/PredStats.v
theories/PredRun.v
theories/PredFacts.v
theories/PropPred.v
theories/FileSpec.v
theories/FileProofs.v
theories/PropFile.v
theories/KitSpec.v
theories/KitProofs.v
theories/KitChain.v
theories/KitUse.v
theories/WireSpec.v
theories/WireProofs.v
theories/PropKit.v
theories/PrintModel.v
theories/PrintSpec.v
theories/PrintProofs.v
theories/PropPrint.v
theories/BinModel.v
theories/BinSpec.v
theories/BinProofs.v
theories/PropBin.v
theories/RealFacts.v
theories/LutReal.v
theories/PropLutReal.v
theories/CostSpec.v
theories/CostReal.v
theories/PropCost.v
theories/SimModel.v
theories/SimSpec.v
theories/SimProofs.v
theories/SimReal.v
theories/PropSim.v
theories/LearnSpec.v
theories/LearnProofs.v
theories/PropLearn.v
theories/StreamSpec.v
theories/StreamProofs.v
theories/PropStream.v
theories/IntegModel.v
theories/IntegSpec.v
theories/IntegProofs.v
theories/PropInteg.v
theories/ProtoSpec.v
theories/ProtoProofs.v
theories/PropProto.v
theories/BenchModel.v
theories/BenchSpec.v
theories/BenchProofs.v
theories/PropBench.v
theories/SizeSpec.v
theories/SizeProofs.v
theories/PropSize.v
theories/ShowModel.v
theories/ShowSpec.v
theories/ShowProofs.v
theories/PropShow.v
theories/RoomSpec.v
theories/RoomProofs.v
theories/PropRoom.v
theories/OrderSpec.v
theories/OrderProofs.v
theories/PropOrder.v
theories/RotProofs.v
theories/RotRun.v
theories/PropRot.v
theories/SupplySpec.v
theories/SupplyProofs.v
theories/PropSupply.v
theories/MisuseSpec.v
theories/MisuseProofs.v
theories/PropMisuse.v
