-Q theories Verif
theories/Lib_Deriv.v
theories/Lib_Gronwall.v
theories/Lib_Lipschitz.v
theories/Lib_LocalLip.v
theories/Lib_Picard.v
theories/Lib_Py.v
theories/Model_Array.v
theories/Model_Commands.v
theories/Model_Components.v
theories/Model_Containers.v
theories/Model_Critical.v
theories/Model_Crosser.v
theories/Model_Csv.v
theories/Model_CsvOutput.v
theories/Model_Deriv.v
theories/Model_Eigen.v
theories/Model_Filter.v
theories/Model_Float.v
theories/Model_FloatGrid.v
theories/Model_FloatRhs.v
theories/Model_FloatScale.v
theories/Model_FloatShock.v
theories/Model_FloatWaves.v
theories/Model_Flow.v
theories/Model_Format.v
theories/Model_FormatTables.v
theories/Model_Human.v
theories/Model_Hydro.v
theories/Model_HydroCheck.v
theories/Model_HydroSolver.v
theories/Model_Index.v
theories/Model_Info.v
theories/Model_Inputs.v
theories/Model_Jacobian.v
theories/Model_Logging.v
theories/Model_Mcmc.v
theories/Model_McmcRun.v
theories/Model_Midplane.v
theories/Model_ModHydro.v
theories/Model_Ode.v
theories/Model_OldDict.v
theories/Model_Options.v
theories/Model_Plots.v
theories/Model_PlotsMore.v
theories/Model_PlotsOther.v
theories/Model_Pool.v
theories/Model_Prepare.v
theories/Model_Record.v
theories/Model_Run.v
theories/Model_Shock.v
theories/Model_Solution.v
theories/Model_Solve.v
theories/Model_SolverOptions.v
theories/Model_SonicPoint.v
theories/Model_SonicRoot.v
theories/Model_Space.v
theories/Model_SpacePlot.v
theories/Model_Stats.v
theories/Model_Stepper.v
theories/Model_TableCommands.v
theories/Model_Tables.v
theories/Model_Trajectory.v
theories/Model_Validate.v
theories/Model_Version.v
theories/Model_Waves.v
theories/Proofs_Array.v
theories/Proofs_Csv.v
theories/Proofs_CsvOutput.v
theories/Proofs_Edge.v
theories/Proofs_Error.v
theories/Proofs_Exist.v
theories/Proofs_Fields.v
theories/Proofs_Float.v
theories/Proofs_FloatAcross.v
theories/Proofs_FloatRhs.v
theories/Proofs_FloatSearch.v
theories/Proofs_FloatWaves.v
theories/Proofs_Flow.v
theories/Proofs_Format.v
theories/Proofs_FormatOld.v
theories/Proofs_HydroSymmetry.v
theories/Proofs_HydroUnique.v
theories/Proofs_Inputs.v
theories/Proofs_MHD.v
theories/Proofs_Midplane.v
theories/Proofs_ModHydroUnique.v
theories/Proofs_Ode.v
theories/Proofs_Options.v
theories/Proofs_Param.v
theories/Proofs_Run.v
theories/Proofs_SelfSimilar.v
theories/Proofs_Stepper.v
theories/Proofs_Symmetry.v
theories/Proofs_Taylor.v
theories/Proofs_TaylorInd.v
theories/Proofs_TaylorPhi.v
theories/Proofs_Unique.v
theories/Proofs_Version.v
theories/Proofs_Waves.v
theories/Props_Array.v
theories/Props_Batch.v
theories/Props_Best.v
theories/Props_Budget.v
theories/Props_Commands.v
theories/Props_Components.v
theories/Props_Containers.v
theories/Props_Critical.v
theories/Props_Crosser.v
theories/Props_Csv.v
theories/Props_CsvOutput.v
theories/Props_Edge.v
theories/Props_Eigen.v
theories/Props_Ends.v
theories/Props_Error.v
theories/Props_Exist.v
theories/Props_Faraday.v
theories/Props_Filter.v
theories/Props_Float.v
theories/Props_FloatAcross.v
theories/Props_FloatGrid.v
theories/Props_FloatRhs.v
theories/Props_FloatScale.v
theories/Props_FloatShock.v
theories/Props_FloatWaves.v
theories/Props_FloatWaves2.v
theories/Props_Flow.v
theories/Props_Flux.v
theories/Props_Format.v
theories/Props_FormatRun.v
theories/Props_Human.v
theories/Props_Hydro.v
theories/Props_HydroBudget.v
theories/Props_HydroCheck.v
theories/Props_HydroFrozen.v
theories/Props_HydroInduction.v
theories/Props_HydroPressure.v
theories/Props_HydroScaling.v
theories/Props_HydroSolver.v
theories/Props_HydroSymmetry.v
theories/Props_HydroUnique.v
theories/Props_HydroVelocities.v
theories/Props_Info.v
theories/Props_Inputs.v
theories/Props_InputsFile.v
theories/Props_InputsMerge.v
theories/Props_Instances.v
theories/Props_Jacobian.v
theories/Props_Judge.v
theories/Props_Limit.v
theories/Props_Logging.v
theories/Props_Mcmc.v
theories/Props_McmcRun.v
theories/Props_Midplane.v
theories/Props_ModHydro.v
theories/Props_ModHydroSymmetry.v
theories/Props_ModHydroUnique.v
theories/Props_Ode.v
theories/Props_OldDict.v
theories/Props_Options.v
theories/Props_OptionsMore.v
theories/Props_Param.v
theories/Props_Persist.v
theories/Props_Plots.v
theories/Props_PlotsMore.v
theories/Props_PlotsOther.v
theories/Props_Pool.v
theories/Props_PoolCommands.v
theories/Props_Positive.v
theories/Props_Prepare.v
theories/Props_PrepareMore.v
theories/Props_Record.v
theories/Props_Run.v
theories/Props_Shock.v
theories/Props_Solution.v
theories/Props_Solve.v
theories/Props_SolverOptions.v
theories/Props_SonicPoint.v
theories/Props_SonicRoot.v
theories/Props_Space.v
theories/Props_SpacePlot.v
theories/Props_Start.v
theories/Props_Stats.v
theories/Props_Stepper.v
theories/Props_Symmetry.v
theories/Props_TableCommands.v
theories/Props_Tables.v
theories/Props_TaylorInd.v
theories/Props_TaylorPhi.v
theories/Props_Trajectory.v
theories/Props_Transonic.v
theories/Props_Unique.v
theories/Props_Version.v
theories/Props_Waves.v
theories/Spec_Best.v
theories/Spec_Budget.v
theories/Spec_Containers.v
theories/Spec_Crosser.v
theories/Spec_Csv.v
theories/Spec_CsvOutput.v
theories/Spec_Edge.v
theories/Spec_Eigen.v
theories/Spec_Error.v
theories/Spec_Exist.v
theories/Spec_Faraday.v
theories/Spec_Fields.v
theories/Spec_Filter.v
theories/Spec_Float.v
theories/Spec_FloatGrid.v
theories/Spec_FloatRhs.v
theories/Spec_FloatScale.v
theories/Spec_FloatShock.v
theories/Spec_FloatWaves.v
theories/Spec_Flow.v
theories/Spec_Format.v
theories/Spec_Human.v
theories/Spec_HydroBudget.v
theories/Spec_HydroInduction.v
theories/Spec_HydroPressure.v
theories/Spec_HydroSymmetry.v
theories/Spec_HydroUnique.v
theories/Spec_Info.v
theories/Spec_Inputs.v
theories/Spec_Judge.v
theories/Spec_Limit.v
theories/Spec_Logging.v
theories/Spec_MHD.v
theories/Spec_Mcmc.v
theories/Spec_McmcRun.v
theories/Spec_Midplane.v
theories/Spec_ModHydroUnique.v
theories/Spec_Ode.v
theories/Spec_Options.v
theories/Spec_Param.v
theories/Spec_Plots.v
theories/Spec_Pool.v
theories/Spec_PoolCommands.v
theories/Spec_Run.v
theories/Spec_Solution.v
theories/Spec_SolverOptions.v
theories/Spec_SpacePlot.v
theories/Spec_Start.v
theories/Spec_Stepper.v
theories/Spec_Symmetry.v
theories/Spec_TableCommands.v
theories/Spec_Trajectory.v
theories/Spec_Transonic.v
theories/Spec_Unique.v
theories/Spec_Version.v
theories/Spec_Waves.v
theories/Witness_Float.v
theories/Witness_Midplane.v
theories/Witness_Ode.v
