-Q theories Verif
theories/Base.v
theories/BaseFacts.v
theories/ParamModel.v
theories/ParamSpec.v
theories/ParamProofs.v
theories/ParamExamples.v
theories/P_Param.v
theories/Env.v
theories/SelModel.v
theories/SelSpec.v
theories/SelProofs.v
theories/SelTight.v
theories/Toy.v
theories/SelExamples.v
theories/P_Sel.v
theories/SimVarModel.v
theories/SimVarSpec.v
theories/SimVarProofs.v
theories/SliceProofs.v
theories/SimVarExamples.v
theories/P_SimVar.v
theories/DistModel.v
theories/DistSpec.v
theories/DistProofs.v
theories/DistExamples.v
theories/P_Dist.v
theories/AuxModel.v
theories/AuxSpec.v
theories/AuxProofs.v
theories/AuxCycle.v
theories/AuxProps.v
theories/AuxMore.v
theories/AuxChoose.v
theories/AuxExamples.v
theories/P_Aux.v
theories/Keeps.v
theories/Tree.v
theories/PopModel.v
theories/SynthModel.v
theories/SynthFrame.v
theories/SynthInv.v
theories/SynthSpec.v
theories/SynthGraph.v
theories/Sim.v
theories/SurveySeed.v
theories/SurveyClean.v
theories/SurveyProofs.v
theories/SurveyTree.v
theories/SurveyLoop.v
theories/SurveyKeep.v
theories/SurveyFinal.v
theories/SurveyEnd.v
theories/SurveyPop.v
theories/SurveyTop.v
theories/PopSpec.v
theories/PopProofs.v
theories/SynthExamples.v
theories/P_Synth.v
theories/PopExamples.v
theories/P_Pop.v
theories/HdfModel.v
theories/HdfSpec.v
theories/LiteralSpec.v
theories/LiteralProofs.v
theories/HdfProofs.v
theories/HdfPop.v
theories/HdfExamples.v
theories/P_Hdf.v
theories/LogModel.v
theories/LogSpec.v
theories/LogProofs.v
theories/LogExamples.v
theories/P_Log.v
theories/CfgModel.v
theories/CfgSpec.v
theories/CfgProofs.v
theories/CfgExamples.v
theories/P_Cfg.v
theories/LibModel.v
theories/LibSpec.v
theories/LibProofs.v
theories/LibLum.v
theories/LibGeo.v
theories/LibHubble.v
theories/LibFit.v
theories/LibExamples.v
theories/P_Lib.v
theories/LibPopModel.v
theories/LibPopSpec.v
theories/LibPopProofs.v
theories/LibPopExamples.v
theories/P_LibPop.v
theories/ConfModel.v
theories/ConfSpec.v
theories/ConfProofs.v
theories/ConfLink.v
theories/ConfLoad.v
theories/ConfRead.v
theories/ConfSave.v
theories/ConfYaml.v
theories/ConfTwice.v
theories/ConfExamples.v
theories/P_Conf.v
theories/RealModel.v
theories/RealSpec.v
theories/RealProofs.v
theories/RealExamples.v
theories/P_Real.v
theories/Bisim.v
theories/FreshSpec.v
theories/Fresh.v
theories/P_Fresh.v
theories/SizeSpec.v
theories/SurveySize.v
theories/RealSize.v
theories/P_Size.v
theories/ReloadSpec.v
theories/Iso.v
theories/Reload.v
theories/Loaded.v
theories/ReloadExamples.v
theories/P_Reload.v
theories/AuxRunSpec.v
theories/AuxRuns.v
theories/AuxLibModel.v
theories/AuxLibSpec.v
theories/AuxLibProofs.v
theories/AuxLibExamples.v
theories/P_AuxLib.v
theories/SurveyMade.v
theories/LumLibModel.v
theories/RunSpec.v
theories/SurveyRuns.v
theories/LumLibSpec.v
theories/LumLibProofs.v
theories/LumSchechter.v
theories/RealRunSpec.v
theories/RealRuns.v
theories/LumPop.v
theories/RunExamples.v
theories/P_Run.v
theories/P_LumLib.v
theories/FlatSpec.v
theories/FlatRuns.v
theories/FlatLibSpec.v
theories/FlatLib.v
theories/SurveyLib.v
theories/FlatExamples.v
theories/P_SurveyLib.v
theories/LawSpec.v
theories/Law.v
theories/LawLib.v
theories/NearSpec.v
theories/NearLaw.v
theories/NearPops.v
theories/LawExamples.v
theories/P_Law.v
theories/AuxLawSpec.v
theories/AuxLaw.v
theories/AuxLawExamples.v
theories/P_AuxLaw.v
theories/FluxSpec.v
theories/FluxPop.v
theories/P_Flux.v
theories/SkyModel.v
theories/SkySpec.v
theories/SkyPop.v
theories/MilkyWay.v
theories/SkyExamples.v
theories/SkyFar.v
theories/P_Sky.v
theories/SpaceSpec.v
theories/SpaceProofs.v
theories/SpaceExamples.v
theories/P_Space.v
theories/ShareModel.v
theories/ShareSpec.v
theories/Share.v
theories/ShareExamples.v
theories/P_Share.v
theories/ChosenSpec.v
theories/ChosenRuns.v
theories/SoftSpec.v
theories/SoftProofs.v
theories/ChosenExamples.v
theories/P_Soft.v
theories/GalaxyChosen.v
theories/P_Chosen.v
theories/OtherSpec.v
theories/OtherSim.v
theories/OtherProofs.v
theories/OtherExamples.v
theories/P_Other.v
theories/KeptSpec.v
theories/KeptProofs.v
theories/KeptTop.v
theories/KeptLib.v
theories/KeptExamples.v
theories/P_Kept.v
theories/ManySpec.v
theories/ManyProofs.v
theories/P_Many.v
theories/PlotModel.v
theories/PlotSpec.v
theories/PlotProofs.v
theories/P_Plot.v
theories/DescModel.v
theories/DescSpec.v
theories/DescProofs.v
theories/P_Desc.v
theories/ClassModel.v
theories/ClassSpec.v
theories/ClassProofs.v
theories/ClassTable.v
theories/P_Class.v
theories/GraphSpec.v
theories/GraphProofs.v
theories/GraphTwice.v
theories/GraphExamples.v
theories/P_Graph.v
theories/HorizonSpec.v
theories/HorizonProofs.v
theories/HorizonExamples.v
theories/P_Horizon.v
theories/CountsSpec.v
theories/CountsProofs.v
theories/P_Counts.v
theories/HistModel.v
theories/HistSpec.v
theories/HistProofs.v
theories/HistPops.v
theories/P_Hist.v
theories/ListModel.v
theories/ListProofs.v
theories/P_List.v
theories/ColourModel.v
theories/ColourSpec.v
theories/ColourProofs.v
theories/P_Colour.v
theories/GalaxySamplers.v
theories/GivenLum.v
theories/P_Given.v
theories/SkyObjModel.v
theories/SkyObjSpec.v
theories/SkyObjProofs.v
theories/SkyObjExamples.v
theories/P_SkyObj.v
theories/ReadModel.v
theories/ReadSpec.v
theories/ReadProofs.v
theories/P_Read.v
