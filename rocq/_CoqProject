-Q theories Verif
theories/Base.v
theories/EventsModel.v
theories/EventsSpec.v
theories/TimedLemmas.v
theories/QueryLemmas.v
theories/EventsProofs.v
theories/EventsProofs2.v
theories/EventsSharedModel.v
theories/EventsProperties.v
theories/VdcModel.v
theories/VdcSpec.v
theories/VdcProofs.v
theories/VdcProperties.v
theories/RTModel.v
theories/RTSpec.v
theories/RTProofs.v
theories/RTProofs2.v
theories/RTProofs3.v
theories/RTProperties.v
theories/RTProperties2.v
theories/VRTCheckModel.v
theories/RTProperties3.v
theories/FRTModel.v
theories/RTProperties4.v
theories/RampModel.v
theories/RampProperties.v
theories/RBase.v
theories/VoltVarModel.v
theories/VoltVarProperties.v
theories/PhasorModel.v
theories/PhasorProperties.v
theories/PhasorProperties2.v
theories/PVModel.v
theories/PVProperties.v
theories/ODEModel.v
theories/CxField.v
theories/CircuitProperties.v
theories/CircuitProperties2.v
theories/CircuitProperties3.v
theories/JacModel.v
theories/JacSpec.v
theories/JacLemmas.v
theories/JacProperties.v
theories/JacProperties2.v
theories/JacProperties3.v
theories/JacProperties4.v
theories/JacProperties5.v
theories/GridModel.v
theories/GridProperties.v
theories/SimModel.v
theories/SimLemmas.v
theories/SimSpec.v
theories/SimProofs.v
theories/SimProofs2.v
theories/SimProofs3.v
theories/SimProofs4.v
theories/SimProperties.v
theories/ConfigValues.v
theories/ConfigData.v
theories/ConfigModel.v
theories/ConfigLemmas.v
theories/ConfigSpec.v
theories/ConfigProofs.v
theories/ConfigProperties.v
theories/ConfigProperties2.v
theories/ConfigProperties3.v
theories/ConfigStates.v
theories/ConfigProperties4.v
theories/ConfigProperties5.v
theories/ParamModel.v
theories/ParamLemmas.v
theories/ParamProperties.v
theories/RatingsModel.v
theories/RatingsProperties.v
theories/RatingsProperties2.v
theories/RatingsProperties3.v
theories/RatingsProperties4.v
theories/PLLProperties.v
theories/SeriesModel.v
theories/SeriesProperties.v
theories/FilterProperties.v
theories/EquilibriumProperties.v
theories/NbUtil.v
theories/NbConst.v
theories/Nb.v
theories/NoFilter.v
theories/NbProperties.v
theories/MeasModel.v
theories/MeasProperties.v
theories/AngleSpec.v
theories/AngleProofs.v
theories/AngleProperties.v
theories/PiProperties.v
theories/DefaultsProperties.v
theories/Const3Model.v
theories/Const3Properties.v
theories/Const3Jac.v
theories/Const3JacProperties.v
theories/ErrorProperties.v
theories/PlotModel.v
theories/PlotProperties.v
theories/RTProperties5.v
theories/NameModel.v
theories/NameProperties.v
theories/RTEnableProperties.v
theories/EventsShow.v
theories/EventsShowProperties.v
theories/ModifyModel.v
theories/ModifyProperties.v
theories/DisplayModel.v
theories/DisplayProperties.v
theories/LoadModel.v
theories/LoadProperties.v
theories/AttrModel.v
theories/AttrProperties.v
theories/ExtraModel.v
theories/ExtraProperties.v
theories/JacStatesProperties.v
theories/RTProperties6.v
theories/FRTSettingsModel.v
theories/FRTSettingsProperties.v
theories/JacCheckModel.v
theories/JacCheckProperties.v
theories/OverloadProperties.v
theories/ShippedConfig.v
theories/ShippedProperties.v
theories/LogModel.v
theories/LogProperties.v
theories/TimeConstModel.v
theories/TimeConstProperties.v
theories/RTRejectProperties.v
theories/BoundProofs.v
theories/BoundProperties.v
theories/CosimModel.v
theories/CosimProperties.v
theories/WiringModel.v
theories/WiringProperties.v
theories/SimCreateModel.v
theories/SimCreateProperties.v
theories/SettleProofs.v
theories/SettleProperties.v
theories/EnergyProperties.v
theories/SettleProperties2.v
theories/PhaseAngleModel.v
theories/PhaseAngleProperties.v
theories/RerunModel.v
theories/RerunProperties.v
theories/SolutionProofs.v
theories/SolutionProperties.v
theories/SolutionSpec.v
theories/LipschitzProofs.v
theories/PicardProofs.v
theories/ExistProperties.v
theories/ContinueProperties.v
theories/DependProperties.v
theories/StepModel.v
theories/StepProperties.v
theories/InputProperties.v
theories/BlowupProperties.v
theories/RelabelProperties.v
theories/StartTimeProperties.v
theories/DeliveredProperties.v
theories/VoltageRiseProperties.v
theories/OperatingPointProperties.v
theories/FeasibleProperties.v
