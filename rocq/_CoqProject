-Q theories Verif
theories/Num.v
theories/WeightModel.v
theories/WeightSpec.v
theories/WeightProofs.v
theories/WeightProps.v
theories/SmartPtrModel.v
theories/SmartPtrSpec.v
theories/SmartPtrProofs.v
theories/SmartPtrProps.v
theories/PyLibModel.v
theories/PyLibProofs.v
theories/HitcoreModel.v
theories/HitcoreSpec.v
theories/HitcoreProofs.v
theories/HitcoreProps.v
theories/HitPyModel.v
theories/HitPySpec.v
theories/HitPyProofs.v
theories/HitPyProps.v
theories/BunchModel.v
theories/BunchSpec.v
theories/BunchProofs.v
theories/BunchProps.v
theories/MomentModel.v
theories/BunchNumModel.v
theories/MomentSpec.v
theories/MomentProofs.v
theories/StatProofs.v
theories/MomentProps.v
theories/ClearProps.v
theories/TableModel.v
theories/IOModel.v
theories/IOSpec.v
theories/IOProofs.v
theories/IOFileProofs.v
theories/IOProps.v
theories/CommonModel.v
theories/CommonSpec.v
theories/CommonProofs.v
theories/GridProofs.v
theories/CommonProps.v
theories/EllipseModel.v
theories/EllipseSpec.v
theories/DetProofs.v
theories/EllipseProofs.v
theories/TwissProofs.v
theories/EllipseProps.v
theories/TwissProps.v
theories/TrackModel.v
theories/TrackSpec.v
theories/TrackProofs.v
theories/MultiProofs.v
theories/TrackProps.v
theories/MatrixModel.v
theories/MatrixSpec.v
theories/MatrixProofs.v
theories/MatrixProps.v
theories/AlgoModel.v
theories/AlgoSpec.v
theories/PeakProofs.v
theories/SmoothProofs.v
theories/ScanProofs.v
theories/AlgoProps.v
theories/MausModel.v
theories/MausSpec.v
theories/MausProofs.v
theories/MausReadProofs.v
theories/MausProps.v
theories/DispersionProps.v
theories/MatProofs.v
theories/TransformModel.v
theories/TransformSpec.v
theories/TransformProofs.v
theories/TransformProps.v
theories/Cplx.v
theories/DecoupleModel.v
theories/DecoupleSpec.v
theories/DecoupleProofs.v
theories/DecoupleProps.v
theories/FitModel.v
theories/FitSpec.v
theories/FitProofs.v
theories/FitProps.v
theories/VoronoiModel.v
theories/VoronoiSpec.v
theories/VoronoiProofs.v
theories/VoronoiProps.v
theories/MultipoleModel.v
theories/MultipoleSpec.v
theories/MultipoleProofs.v
theories/MultipoleProps.v
theories/NewtonModel.v
theories/NewtonSpec.v
theories/NewtonProofs.v
theories/NewtonProps.v
theories/OrbitModel.v
theories/OrbitSpec.v
theories/OrbitProofs.v
theories/OrbitProps.v
theories/TuneModel.v
theories/TuneSpec.v
theories/TuneProofs.v
theories/TuneProps.v
theories/MausTrackModel.v
theories/MausTrackSpec.v
theories/MausTrackProofs.v
theories/MausTrackProps.v
theories/RefineModel.v
theories/RefineSpec.v
theories/RefineProofs.v
theories/RefineProps.v
theories/CopyModel.v
theories/CopySpec.v
theories/CopyProofs.v
theories/CopyProps.v
theories/QueryModel.v
theories/QueryProofs.v
theories/QueryProps.v
theories/UserIOModel.v
theories/UserIOSpec.v
theories/UserIOProofs.v
theories/UserIOProps.v
theories/LoadModel.v
theories/LoadSpec.v
theories/LoadProofs.v
theories/LoadProps.v
theories/MausRootModel.v
theories/MausRootSpec.v
theories/MausRootProofs.v
theories/MausRootProps.v
theories/CallModel.v
theories/CallSpec.v
theories/CallProofs.v
theories/CallProps.v
theories/SubstModel.v
theories/SubstSpec.v
theories/SubstProofs.v
theories/SubstProps.v
theories/FloatModel.v
theories/FloatArith.v
theories/FloatSpec.v
theories/FloatProofs.v
theories/FloatProps.v
theories/BatchModel.v
theories/BatchSpec.v
theories/BatchProofs.v
theories/BatchProps.v
theories/PlotModel.v
theories/PlotSpec.v
theories/PlotProofs.v
theories/PlotProps.v
theories/MatplotProps.v
theories/ConvertModel.v
theories/ConvertSpec.v
theories/ConvertProofs.v
theories/ConvertProps.v
theories/FactoryModel.v
theories/FactorySpec.v
theories/FactoryProofs.v
theories/FactoryProps.v
theories/SubprocModel.v
theories/SubprocSpec.v
theories/SubprocProofs.v
theories/SubprocProps.v
theories/Bin64Model.v
theories/Bin64Spec.v
theories/Bin64Proofs.v
theories/Bin64Props.v
theories/Shell64Model.v
theories/Shell64Spec.v
theories/Shell64Proofs.v
theories/Shell64Props.v
theories/File64Round.v
theories/File64Model.v
theories/File64Spec.v
theories/File64Proofs.v
theories/File64Props.v
theories/UphillModel.v
theories/UphillSpec.v
theories/UphillProofs.v
theories/UphillProps.v
theories/Move64Model.v
theories/Move64Spec.v
theories/Move64Proofs.v
theories/Move64Props.v
theories/Derive64Model.v
theories/Derive64Spec.v
theories/Derive64Proofs.v
theories/Derive64Props.v
theories/FlowModel.v
theories/FlowSpec.v
theories/FlowProofs.v
theories/FlowProps.v
theories/Linear64Model.v
theories/Linear64Spec.v
theories/Linear64Proofs.v
theories/Linear64Props.v
theories/TextModel.v
theories/TextSpec.v
theories/TextProofs.v
theories/TextProps.v
theories/Emit64Model.v
theories/Emit64Spec.v
theories/Emit64Proofs.v
theories/Emit64Props.v
theories/Beam64Spec.v
theories/Beam64Proofs.v
theories/Beam64Props.v
theories/Geom64Model.v
theories/Geom64Spec.v
theories/Geom64Props.v
theories/Disp64Model.v
theories/Disp64Props.v
theories/KsModel.v
theories/KsProps.v
