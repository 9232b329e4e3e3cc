-Q theories Verif
theories/Num.v
theories/FloatNum.v
theories/Numpy.v
theories/ListFacts.v
theories/CycleModel.v
theories/CycleSpec.v
theories/MicrotripProofs.v
theories/ConcatProofs.v
theories/CycleProofs1.v
theories/ResampleProofs.v
theories/RateProofs.v
theories/DistProofs.v
theories/GradeProofs.v
theories/JerkProofs.v
theories/CycleProofs2.v
theories/TargetProofs.v
theories/CycleProps.v
theories/VehModel.v
theories/SimModel.v
theories/SimState.v
theories/WalkModel.v
theories/FrameProofs.v
theories/WalkProofs.v
theories/StepProofs.v
theories/StepEqs.v
theories/SimSpec.v
theories/SimProofs1.v
theories/SimProofs2.v
theories/SimProofs3.v
theories/SimProofs4.v
theories/SimProofs5.v
theories/SimProofs6.v
theories/SimDemo.v
theories/SimProps.v
theories/WalkSpec.v
theories/WalkProofs2.v
theories/WalkProofs3.v
theories/TermProofs.v
theories/WalkProps.v
theories/PostModel.v
theories/PostSpec.v
theories/PostProofs.v
theories/PostProofs2.v
theories/PostProofs3.v
theories/PostProofs4.v
theories/PostProps.v
theories/VehSpec.v
theories/VehProofs.v
theories/VehProofs2.v
theories/VehProofs3.v
theories/VehProps.v
theories/UtilModel.v
theories/UtilSpec.v
theories/PathProofs.v
theories/TextProofs.v
theories/UtilProofs.v
theories/UtilProofs2.v
theories/UtilProps.v
theories/LabelModel.v
theories/LabelSpec.v
theories/LabelProofs.v
theories/LabelProofs2.v
theories/LabelProofs3.v
theories/LabelProps.v
theories/VehDictModel.v
theories/VehTableModel.v
theories/DictSpec.v
theories/DictProofs.v
theories/DictProofs2.v
theories/DictProofs3.v
theories/DictProofs4.v
theories/DictProofs5.v
theories/DictProofs6.v
theories/DictProofs7.v
theories/DictProofs8.v
theories/DictProps.v
theories/CoastSpec.v
theories/CoastProofs.v
theories/CoastProofs2.v
theories/CoastProofs3.v
theories/CoastProofs4.v
theories/CoastProofs5.v
theories/CoastProofs6.v
theories/CoastProofs7.v
theories/CoastProofs8.v
theories/CoastProofs9.v
theories/CoastProofs10.v
theories/CoastProps.v
theories/SimSpec2.v
theories/SimProofs7.v
theories/SimProps2.v
theories/CopyModel.v
theories/CopySpec.v
theories/CopyProofs.v
theories/CopyProps.v
theories/PrepModel.v
theories/PrepSpec.v
theories/PrepProofs.v
theories/PrepProofs2.v
theories/PrepProps.v
theories/CalModel.v
theories/CalSpec.v
theories/CalProofs.v
theories/CalProps.v
theories/PlainProofs.v
theories/PlainProofs2.v
theories/PlainSpec.v
theories/PlainProofs3.v
theories/PlainProofs4.v
theories/PlainProofs5.v
theories/PlainProps.v
theories/PlainSpec2.v
theories/PlainProofs6.v
theories/PlainProps2.v
theories/VehLibModel.v
theories/LibSpec.v
theories/LibProofs.v
theories/LibProofs2.v
theories/LibProps.v
theories/RustModel.v
theories/RustWalkModel.v
theories/RustPostModel.v
theories/RustSpec.v
theories/RustProofs.v
theories/RustProofs2.v
theories/RustProofs3.v
theories/RustProps.v
theories/RustProps2.v
theories/RustVehModel.v
theories/RustVehSpec.v
theories/RustVehProofs.v
theories/RustVehProofs2.v
theories/RustVehProps.v
theories/RustCycModel.v
theories/RustCycSpec.v
theories/RustCycProofs.v
theories/RustCycProofs2.v
theories/RustCycProps.v
theories/RustModsModel.v
theories/RustModsSpec.v
theories/RustModsProofs.v
theories/RustModsProofs2.v
theories/RustModsProps.v
theories/RustCoastSpec.v
theories/RustCoastProofs.v
theories/RustCoastProofs2.v
theories/RustCoastProofs3.v
theories/RustCoastProofs4.v
theories/RustCoastProofs5.v
theories/RustCoastProps.v
theories/RustCoastProps2.v
theories/RustLabelModel.v
theories/RustLabelSpec.v
theories/RustLabelProofs.v
theories/RustLabelProofs2.v
theories/RustLabelProps.v
theories/RustUtilModel.v
theories/RustUtilProofs.v
theories/RustAirSpec.v
theories/RustAirProofs.v
theories/RustUtilProps.v
theories/RustThermalModel.v
theories/RustThermalProofs.v
theories/RustThermalProps.v
theories/RustImportModel.v
theories/RustImportProofs.v
theories/RustImportProps.v
theories/RustGridModel.v
theories/RustGridSpec.v
theories/RustGridProofs.v
theories/RustGridProps.v
theories/RustBatchModel.v
theories/RustBatchProps.v
theories/RustGridProps2.v
