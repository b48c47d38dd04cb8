-Q theories Verif
theories/AmrMassProps.v
theories/AmrModel.v
theories/AmrProofs.v
theories/AmrProofs2.v
theories/AmrProps.v
theories/AtmosphereModel.v
theories/AtmosphereProofs.v
theories/AtmosphereProps.v
theories/BalanceModel.v
theories/BalanceProofs.v
theories/BalanceProofs2.v
theories/BalanceProps.v
theories/BalanceSpec.v
theories/Base.v
theories/BinaryDiagModel.v
theories/BinaryDiagProofs.v
theories/BinaryDiagProps.v
theories/BinarySetupModel.v
theories/BinarySetupProps.v
theories/BoilerplateModel.v
theories/BoilerplateProps.v
theories/CheckpointModel.v
theories/CheckpointProofs.v
theories/CheckpointProps.v
theories/CloudDiagModel.v
theories/CloudDiagProps.v
theories/CloudFileModel.v
theories/CloudFileProps.v
theories/CloudMassProps.v
theories/CloudMirrorProofs.v
theories/CloudMirrorProps.v
theories/CloudModel.v
theories/CloudProofs.v
theories/CloudProofs2.v
theories/CloudProps.v
theories/CloudSetupProps.v
theories/CloudStillProps.v
theories/CloudThreadsModel.v
theories/CloudThreadsProps.v
theories/ConfigModel.v
theories/ConfigProofs.v
theories/ConfigProps.v
theories/ConversionProps.v
theories/DimensionalModel.v
theories/DimensionalProps.v
theories/DiskProps.v
theories/DoubleBudgetModel.v
theories/DoubleBudgetProps.v
theories/DoubleClockModel.v
theories/DoubleClockProofs.v
theories/DoubleClockProps.v
theories/DoubleGridProofs.v
theories/DoubleGridProps.v
theories/DoubleIeeeProps.v
theories/DoubleModel.v
theories/DoubleOrbitProofs.v
theories/DoubleOrbitProps.v
theories/DoubleProofs.v
theories/DrainModel.v
theories/DrainProofs.v
theories/DrainProofs2.v
theories/DrainProofs3.v
theories/DrainProofs4.v
theories/DrainProofs5.v
theories/DrainProps.v
theories/DrainProps2.v
theories/DrainProps3.v
theories/DriftProofs.v
theories/ElementsProofs.v
theories/EnvelopProofs.v
theories/EnvelopProps.v
theories/EulerEigenProps.v
theories/ExtentModel.v
theories/ExtentProps.v
theories/FailModel.v
theories/FailProps.v
theories/FluxModel.v
theories/FluxProofs.v
theories/FluxProofs2.v
theories/FluxProofs3.v
theories/FluxProofs4.v
theories/FluxProofs5.v
theories/FluxProps.v
theories/FluxSpec.v
theories/FluxTreeProofs.v
theories/FsModel.v
theories/FsProofs.v
theories/FsProps.v
theories/FsTreeModel.v
theories/FsTreeProps.v
theories/GeometryProps.v
theories/GuardModel.v
theories/GuardProofs.v
theories/GuardProofs2.v
theories/GuardProofs3.v
theories/GuardProofs4.v
theories/GuardProps.v
theories/GuardSpec.v
theories/HandleModel.v
theories/HandleProps.v
theories/Hdf5Model.v
theories/Hdf5Props.v
theories/HilbertModel.v
theories/HilbertProofs.v
theories/HilbertProps.v
theories/HllcProps.v
theories/HlleProofs.v
theories/HlleProps.v
theories/HydroModel.v
theories/JetModel.v
theories/JetProps.v
theories/KeplerProofs.v
theories/KillModel.v
theories/KillProofs.v
theories/KillProps.v
theories/LeakProps.v
theories/LinkModel.v
theories/LinkProofs.v
theories/LinkProps.v
theories/LinkSpec.v
theories/LiveProps.v
theories/MainModel.v
theories/MainProps.v
theories/MapModel.v
theories/MapProofs.v
theories/MatrixModel.v
theories/MatrixProps.v
theories/MeshModel.v
theories/MeshProofs.v
theories/MeshProofs2.v
theories/MeshProps.v
theories/MeshSpec.v
theories/MessageModel.v
theories/MessageProps.v
theories/MpiModel.v
theories/MpiProps.v
theories/NanClockProps.v
theories/NanClockRelProps.v
theories/NanColdProps.v
theories/NanModel.v
theories/NanProofs.v
theories/NanProps.v
theories/NanSedovModel.v
theories/NanSedovProps.v
theories/NanSrhdModel.v
theories/NanSrhdProps.v
theories/NdAdapterModel.v
theories/NdAdapterProofs.v
theories/NdAdapterProps.v
theories/NdModel.v
theories/NdOpsModel.v
theories/NdOpsProofs.v
theories/NdOpsProofs2.v
theories/NdOpsProps.v
theories/NdProofs.v
theories/NdProofs2.v
theories/NdProofs3.v
theories/NdProps.v
theories/NdSpec.v
theories/OneBlockProofs.v
theories/OrbitProofs.v
theories/ParallelModel.v
theories/ParallelProofs.v
theories/ParallelProofs2.v
theories/ParallelProps.v
theories/PartdomModel.v
theories/PartdomProofs.v
theories/PartdomProps.v
theories/PlmModel.v
theories/PlmProps.v
theories/PolyModel.v
theories/PolyProofs.v
theories/PolyProps.v
theories/PoolModel.v
theories/PoolProofs.v
theories/PoolProps.v
theories/PositivityProps.v
theories/ProlongModel.v
theories/ProlongProofs.v
theories/ProlongProps.v
theories/RationalModel.v
theories/RationalProofs.v
theories/RationalProps.v
theories/RationalSpec.v
theories/ReachProps.v
theories/ReduceProofs.v
theories/ReduceProps.v
theories/RelProofs.v
theories/Rep1Proofs.v
theories/Rep2Proofs.v
theories/RestartProofs.v
theories/RestartProofs2.v
theories/RunModel.v
theories/RunProofs.v
theories/RunProofs2.v
theories/RunProps.v
theories/RunSpec.v
theories/RunTraceProofs.v
theories/SandboxModel.v
theories/SandboxProps.v
theories/ScheduleModel.v
theories/ScheduleProofs.v
theories/ScheduleProps.v
theories/SedovDiagModel.v
theories/SedovDiagProps.v
theories/SedovGridProps.v
theories/SedovModel.v
theories/SedovProofs.v
theories/SedovProps.v
theories/SequenceModel.v
theories/SequenceProps.v
theories/ShockModel.v
theories/ShockProps.v
theories/SolutionExample.v
theories/SolutionModel.v
theories/SolutionProofs.v
theories/SolutionProofs2.v
theories/SolutionProofs3.v
theories/SolutionProofs4.v
theories/SolutionProofs5.v
theories/SolutionProps.v
theories/SolutionSpec.v
theories/SourceModel.v
theories/SourceProofs.v
theories/SrhdProps.v
theories/SrhdRecoverProps.v
theories/StepModel.v
theories/StepProofs.v
theories/StepProofs2.v
theories/StepProofs3.v
theories/StepProps.v
theories/StepSpec.v
theories/StopProps.v
theories/StrModel.v
theories/StrProofs.v
theories/TimeSeriesModel.v
theories/TimeSeriesProps.v
theories/TreeModel.v
theories/TreeNameModel.v
theories/TreeNameProofs.v
theories/TreeNameProps.v
theories/TreeProofs.v
theories/TreeProofs2.v
theories/TreeProofs3.v
theories/TreeProofs4.v
theories/TreeProps.v
theories/TreeSpec.v
theories/TwoBodyModel.v
theories/TwoBodyProofs.v
theories/TwoBodyProps.v
theories/UniformProofs.v
theories/UniformProps.v
theories/UnitsExample.v
theories/UnitsProofs.v
theories/UnitsProps.v
theories/UnitsSpec.v
