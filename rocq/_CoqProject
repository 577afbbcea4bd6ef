-Q theories Verif
theories/CollModel.v
theories/CollSpec.v
theories/CollProofs.v
theories/CollProps.v
theories/KLoopModel.v
theories/KLoopSpec.v
theories/KLoopProofs.v
theories/KLoopRecProofs.v
theories/KLoopStepProofs.v
theories/KLoopRelProofs.v
theories/KLoopMoreProofs.v
theories/KLoopEqProofs.v
theories/KLoopSetProofs.v
theories/KLoopProps.v
theories/SchedModel.v
theories/SchedSpec.v
theories/SchedProofs.v
theories/SchedProofs2.v
theories/SchedProps.v
theories/OutModel.v
theories/OutSpec.v
theories/OutProofs.v
theories/OutProps.v
theories/IdxModel.v
theories/IdxSpec.v
theories/IdxBase.v
theories/SphereProofs.v
theories/IdxProofs.v
theories/IdxProps.v
theories/TimeModel.v
theories/InterpModel.v
theories/InterpSpec.v
theories/TimeProofs.v
theories/InterpProofs.v
theories/SphereSpec.v
theories/SphereProofs2.v
theories/SphereProps.v
theories/InterpProofs2.v
theories/SampleProps.v
theories/LandSpec.v
theories/LandProofs.v
theories/LandProps.v
theories/SumModel.v
theories/SumSpec.v
theories/SumProofs.v
theories/SumProps.v
theories/ChunkModel.v
theories/ChunkSpec.v
theories/ChunkProofs.v
theories/ChunkProofs2.v
theories/ChunkProofs3.v
theories/ChunkProps.v
theories/DeferModel.v
theories/DeferSpec.v
theories/DeferProofs.v
theories/DeferProofs2.v
theories/DeferProofs3.v
theories/DeferProofs4.v
theories/DeferProps.v
theories/HaloModel.v
theories/HaloSpec.v
theories/HaloProofs.v
theories/HaloProofs2.v
theories/HaloProofs3.v
theories/HaloProps.v
theories/GenModel.v
theories/GenSpec.v
theories/GenProofs.v
theories/GenProofs2.v
theories/GenProofs3.v
theories/GenExamples.v
theories/ExprProps.v
theories/GenProofs4.v
theories/GenProofs5.v
theories/GenProofs6.v
theories/GenProofs7.v
theories/GenProofs8.v
theories/StmtProps.v
theories/AdvModel.v
theories/AdvSpec.v
theories/AdvProofs.v
theories/AdvProofs2.v
theories/AdvProofs3.v
theories/AdvGenModel.v
theories/AdvGenSpec.v
theories/AdvGenProofs.v
theories/AdvExamples.v
theories/AdvProps.v
theories/AdaptProps.v
theories/UnitModel.v
theories/UnitSpec.v
theories/UnitProofs.v
theories/UnitProps.v
theories/CGridModel.v
theories/CGridSpec.v
theories/CGridProofs.v
theories/CGridProps.v
theories/GsetModel.v
theories/GsetSpec.v
theories/GsetProofs.v
theories/GsetProps.v
theories/CurvModel.v
theories/CurvSpec.v
theories/CurvProofs.v
theories/CurvProofs2.v
theories/CurvProofs3.v
theories/CurvProps.v
theories/SlevModel.v
theories/SlevSpec.v
theories/SlevTime.v
theories/SlevProofs.v
theories/SlevProofs2.v
theories/SlevProps.v
theories/RestartModel.v
theories/RestartSpec.v
theories/RestartProofs.v
theories/RestartProofs2.v
theories/RestartProofs3.v
theories/RestartProps.v
theories/SplitSpec.v
theories/SplitProofs.v
theories/SplitProofs2.v
theories/SplitProofs3.v
theories/SplitProps.v
theories/MergeModel.v
theories/MergeSpec.v
theories/MergeProofs.v
theories/MergeProofs2.v
theories/MergeExamples.v
theories/MergeProps.v
theories/RandModel.v
theories/RandSpec.v
theories/RandProofs.v
theories/RandProps.v
theories/DiffModel.v
theories/DiffSpec.v
theories/DiffGenModel.v
theories/DiffGenSpec.v
theories/DiffProofs.v
theories/DiffGenProofs.v
theories/DiffGenProofs2.v
theories/DiffProps.v
theories/AnaModel.v
theories/AnaSpec.v
theories/AnaProofs.v
theories/AnaProofs2.v
theories/AnaProofs3.v
theories/AnaProofs4.v
theories/AnaProofs5.v
theories/AnaProps.v
theories/RunModel.v
theories/RunSpec.v
theories/RunProofs.v
theories/RunProofs2.v
theories/RunProofs3.v
theories/RunProofs4.v
theories/RunProofs5.v
theories/RunProps.v
theories/MethSpec.v
theories/MethProofs.v
theories/MethProofs2.v
theories/MethProofs3.v
theories/MethProofs4.v
theories/MethProofs5.v
theories/MethProps.v
theories/ConsModel.v
theories/ConsSpec.v
theories/ConsProofs.v
theories/ConsProofs2.v
theories/ConsProps.v
theories/TrajModel.v
theories/TrajSpec.v
theories/TrajProofs.v
theories/TrajProofs2.v
theories/TrajProofs3.v
theories/TrajProofs4.v
theories/TrajProofs5.v
theories/TrajProofs6.v
theories/TrajProofs7.v
theories/TrajProps.v
theories/DateModel.v
theories/DateSpec.v
theories/DateProofs.v
theories/DateProofs2.v
theories/DateProps.v
theories/CrashModel.v
theories/CrashSpec.v
theories/CrashProofs.v
theories/CrashProofs2.v
theories/CrashProps.v
theories/HexModel.v
theories/HexSpec.v
theories/HexProofs.v
theories/HexProofs2.v
theories/HexProofs3.v
theories/HexProofs4.v
theories/HexProps.v
theories/PeriodModel.v
theories/PeriodSpec.v
theories/PeriodProofs.v
theories/PeriodProps.v
theories/ReadModel.v
theories/ReadSpec.v
theories/ReadProofs.v
theories/ReadProofs2.v
theories/ReadProofs3.v
theories/ReadProofs4.v
theories/ReadProps.v
theories/ReleaseModel.v
theories/ReleaseSpec.v
theories/ReleaseProofs.v
theories/ReleaseProofs2.v
theories/ReleaseProps.v
theories/Rk45Model.v
theories/Rk45Spec.v
theories/Rk45Proofs.v
theories/Rk45Proofs2.v
theories/Rk45Proofs3.v
theories/Rk45Proofs4.v
theories/Rk45Proofs5.v
theories/Rk45Props.v
theories/SaveModel.v
theories/SaveSpec.v
theories/SaveProofs.v
theories/SaveProofs2.v
theories/SaveProps.v
theories/TogModel.v
theories/TogSpec.v
theories/TogProofs.v
theories/TogProofs2.v
theories/TogProofs3.v
theories/TogProps.v
