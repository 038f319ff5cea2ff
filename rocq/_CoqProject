-Q theories Verif
theories/Base.v
theories/BoxSpec.v
theories/BaseFacts.v
theories/BoxFacts.v
theories/Range.v
theories/RangeSpec.v
theories/RangeFacts.v
theories/Indexer.v
theories/IndexerFacts.v
theories/Interface.v
theories/InterfaceFacts.v
theories/ApiSpec.v
theories/ApiFacts.v
theories/Properties_Range.v
theories/Properties_Indexer.v
theories/Properties_Interface.v
theories/RangeSet.v
theories/Float32Facts.v
theories/RangeSetSpec.v
theories/RangeSetFacts.v
theories/Properties_RangeSet.v
theories/Arith.v
theories/ArithFloat.v
theories/Chunk.v
theories/VarId.v
theories/Manager.v
theories/BC.v
theories/Solvers.v
theories/FieldSpec.v
theories/FieldFacts.v
theories/ChunkFacts.v
theories/Properties_Chunk.v
theories/MgrSpec.v
theories/BCSpec.v
theories/BCFacts.v
theories/MgrFacts.v
theories/SolverFacts.v
theories/Properties_BC.v
theories/VarIdFacts.v
theories/Properties_Manager.v
theories/Par.v
theories/ParFacts.v
theories/Kernel.v
theories/Integrators.v
theories/Sweep.v
theories/Euler.v
theories/Maxwell.v
theories/KernelFacts.v
theories/ArithR.v
theories/IntegratorSpec.v
theories/IntegratorFacts.v
theories/Properties_Integrators.v
theories/SweepSpec.v
theories/SweepFacts.v
theories/FluxFacts.v
theories/EulerSpec.v
theories/NumFacts.v
theories/Properties_Euler.v
theories/Properties_Maxwell.v
theories/Sources.v
theories/SourceSpec.v
theories/SourceFacts.v
theories/Properties_Sources.v
theories/Advection.v
theories/AdvectionSpec.v
theories/AdvectionFacts.v
theories/Properties_Advection.v
theories/Initial.v
theories/InitialSpec.v
theories/InitialFacts.v
theories/Programs.v
theories/ProgramsSpec.v
theories/ProgramsFacts.v
theories/RhsFacts.v
theories/RunFacts.v
theories/ConserveFacts.v
theories/AdvectRunFacts.v
theories/Properties_Programs.v
theories/Properties_Initial.v
theories/Whole.v
theories/Properties_Whole.v
theories/Vtk.v
theories/VtkSpec.v
theories/VtkFacts.v
theories/Grid.v
theories/GridSpec.v
theories/GridFacts.v
theories/Exception.v
theories/Properties_Exception.v
theories/Properties_Grid.v
theories/Properties_Vtk.v
theories/Properties_Basis.v
theories/IndexerCopy.v
theories/IndexerCopyFacts.v
theories/Properties_Copy.v
theories/PhysicsSpec.v
theories/PhysicsFacts.v
theories/Properties_Physics.v
theories/Properties_FullCopy.v
theories/Parallel.v
theories/ParallelFacts.v
theories/Properties_Parallel.v
theories/Checks.v
theories/Properties_Checks.v
theories/Walk.v
theories/WalkFacts.v
theories/Properties_Walk.v
theories/AdvectFree.v
theories/Properties_AdvectFree.v
theories/Dataset.v
theories/Properties_Dataset.v
theories/Properties_Digits.v
theories/RepoTests.v
theories/Main.v
theories/MainSpec.v
theories/MainFacts.v
theories/Properties_Main.v
theories/Properties_Files.v
theories/SymmetrySpec.v
theories/SymmetryFacts.v
theories/Properties_Symmetry.v
theories/ReachSpec.v
theories/ReachFacts.v
theories/Properties_Reach.v
theories/MonopoleSpec.v
theories/MonopoleFacts.v
theories/Properties_Monopole.v
theories/AxesSpec.v
theories/AxesFacts.v
theories/Properties_Axes.v
theories/PositiveSpec.v
theories/PositiveFacts.v
theories/Properties_Positive.v
theories/AccuracySpec.v
theories/AccuracyFacts.v
theories/AccuracyGas.v
theories/Properties_Accuracy.v
theories/UnitsSpec.v
theories/UnitsFacts.v
theories/Properties_Units.v
theories/EquilibriumSpec.v
theories/EquilibriumFacts.v
theories/Properties_Equilibrium.v
theories/NearSpec.v
theories/NearFacts.v
theories/Properties_Near.v
theories/GaussSpec.v
theories/GaussFacts.v
theories/Properties_Gauss.v
theories/OscillationSpec.v
theories/OscillationFacts.v
theories/Properties_Oscillation.v
theories/StableSpec.v
theories/StableFacts.v
theories/Properties_Stable.v
theories/RoundingSpec.v
theories/RoundingFacts.v
theories/DriftFacts.v
theories/FiniteFacts.v
theories/RoundingCheck.v
theories/Properties_Rounding.v
theories/Properties_Sheet.v
theories/ExactSpec.v
theories/ExactFacts.v
theories/Properties_Exact.v
theories/AddOrder.v
theories/Properties_AddOrder.v
theories/SwingSpec.v
theories/SwingFacts.v
theories/Properties_Swing.v
theories/GyroSpec.v
theories/GyroFacts.v
theories/Properties_Gyro.v
theories/Properties_Tube.v
theories/HeatSpec.v
theories/HeatFacts.v
theories/Properties_Heat.v
theories/FlowSpec.v
theories/FlowFacts.v
theories/SeriesFacts.v
theories/Properties_Flow.v
theories/Properties_FlowSheet.v
theories/MomentumSpec.v
theories/MomentumFacts.v
theories/Properties_Momentum.v
theories/Properties_Reject.v
theories/OneThread.v
theories/Properties_OneThread.v
