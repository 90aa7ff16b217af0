-Q theories Verif
theories/Base.v
theories/Container.v
theories/ContainerSpec.v
theories/ContainerProofs.v
theories/ContainerHeap.v
theories/ContainerHeapProofs.v
theories/Properties_Container.v
theories/Planner.v
theories/PlannerSpec.v
theories/PlannerRows.v
theories/PlannerProofs.v
theories/PlannerInv.v
theories/PlannerMain.v
theories/PlannerLeaf.v
theories/PlannerFacts.v
theories/PlannerTwoStage.v
theories/PlannerSolution.v
theories/PlannerSolutionProofs.v
theories/Properties_Planner.v
theories/Properties_PlannerFindings.v
theories/Properties_TwoStage.v
theories/Graph.v
theories/GraphSpec.v
theories/GraphProofs.v
theories/GraphTree.v
theories/GraphData.v
theories/GraphDataProofs.v
theories/GraphPlan.v
theories/Properties_Graph.v
theories/Clustering.v
theories/ClusteringProofs.v
theories/Reader.v
theories/ReaderProofs.v
theories/NumeralSpec.v
theories/NumeralProofs.v
theories/Properties_Reader.v
theories/MatFile.v
theories/MatFileSpec.v
theories/MatFileProofs.v
theories/Properties_MatFile.v
theories/Settings.v
theories/SettingsSpec.v
theories/SettingsProofs.v
theories/Properties_Settings.v
theories/Converter.v
theories/ConverterSpec.v
theories/ConverterProofs.v
theories/ConverterFile.v
theories/ConverterInv.v
theories/ConverterMore.v
theories/ConverterAgree.v
theories/ConverterOpen.v
theories/Screening.v
theories/ScreeningSpec.v
theories/ConverterScreen.v
theories/ScreeningProofs.v
theories/ScreeningPlans.v
theories/Properties_Screening.v
theories/Properties_Converter.v
theories/Network.v
theories/NetworkSpec.v
theories/NetworkProofs.v
theories/NetworkFlex.v
theories/Properties_Network.v
theories/Cases.v
theories/CasesSpec.v
theories/CasesProofs.v
theories/CasesClusters.v
theories/CasesOutputs.v
theories/Properties_Cases.v
theories/Verification.v
theories/VerificationSpec.v
theories/VerificationProofs.v
theories/VerificationRun.v
theories/Properties_Verification.v
theories/Engines.v
theories/EnginesProofs.v
theories/Properties_Engines.v
theories/Hydro.v
theories/HydroSpec.v
theories/HydroNet.v
theories/HydroParts.v
theories/HydroTables.v
theories/HydroModel.v
theories/HydroFlow.v
theories/HydroLimits.v
theories/HydroBuilt.v
theories/HydroExamples.v
theories/Properties_Hydro.v
theories/EnergyTree.v
theories/EnergyTreeSpec.v
theories/EnergyTreeProofs.v
theories/EnergyTreeLinks.v
theories/EnergyTreeSoC.v
theories/EnergyTreeData.v
theories/Properties_EnergyTree.v
theories/InputOutput.v
theories/InputOutputSpec.v
theories/InputOutputProofs.v
theories/Properties_InputOutput.v
theories/Linear.v
theories/Devices.v
theories/Power.v
theories/PowerSpec.v
theories/LinearProofs.v
theories/DevicesProofs.v
theories/FleetProofs.v
theories/PowerTables.v
theories/PowerBalance.v
theories/PowerLimits.v
theories/PowerUnits.v
theories/PowerBuilt.v
theories/PowerExamples.v
theories/Properties_Power.v
theories/Joint.v
theories/JointTree.v
theories/JointSpec.v
theories/JointEnergy.v
theories/JointWater.v
theories/JointUse.v
theories/JointExamples.v
theories/JointCost.v
theories/Properties_Joint.v
theories/Reports.v
theories/ReportsSpec.v
theories/ReportsSetters.v
theories/ReportsProofs.v
theories/ReportsTotals.v
theories/ReportsCost.v
theories/ReportsExamples.v
theories/Properties_Reports.v
theories/Parameters.v
theories/Analyser.v
theories/AnalyserSpec.v
theories/ParametersProofs.v
theories/AnalyserProofs.v
theories/AnalyserIslands.v
theories/AnalyserExamples.v
theories/Properties_Analyser.v
theories/Reduction.v
theories/ReductionTrack.v
theories/ReductionSpec.v
theories/ReductionProofs.v
theories/ReductionPlace.v
theories/ReductionParts.v
theories/ReductionMain.v
theories/ReductionLinks.v
theories/ReductionExamples.v
theories/Properties_Reduction.v
theories/Glpk.v
theories/GlpkSpec.v
theories/GlpkProofs.v
theories/GlpkEnergy.v
theories/GlpkEnergyProofs.v
theories/GlpkTree.v
theories/Properties_Glpk.v
theories/GlpkRows.v
theories/GlpkParts.v
theories/GlpkNetwork.v
theories/GlpkNetworkSpec.v
theories/GlpkNetworkParts.v
theories/GlpkNetworkPlaces.v
theories/GlpkNetworkRows.v
theories/GlpkNetworkSystem.v
theories/GlpkNetworkValues.v
theories/Properties_GlpkNetwork.v
theories/GlpkFinal.v
theories/GlpkJoint.v
theories/GlpkJointParts.v
theories/GlpkJointSystem.v
theories/GlpkJointSpec.v
theories/GlpkJointValues.v
theories/GlpkJointNames.v
theories/Properties_GlpkJoint.v
theories/ExcelSheet.v
theories/ExcelTree.v
theories/ExcelProfiles.v
theories/ExcelBook.v
theories/ExcelProofs.v
theories/ExcelTreeProofs.v
theories/ExcelProfileProofs.v
theories/Properties_Excel.v
theories/Properties_ExcelProfiles.v
theories/Properties_ExcelUse.v
theories/Properties_ExcelBook.v
theories/MatWriter.v
theories/MatWriterSpec.v
theories/MatWriterProofs.v
theories/MatWriterRows.v
theories/MatWriterFile.v
theories/MatWriterFail.v
theories/Properties_Writer.v
theories/Psse.v
theories/PsseSpec.v
theories/PsseProofs.v
theories/PsseRead.v
theories/PsseFail.v
theories/PsseSample.v
theories/Properties_Psse.v
theories/Properties_ExcelMore.v
theories/Pypsa.v
theories/PypsaSpec.v
theories/PypsaProofs.v
theories/Properties_Pypsa.v
theories/Outputs.v
theories/OutputsSpec.v
theories/OutputsProofs.v
theories/Properties_Outputs.v
theories/ExcelOutputs.v
theories/Properties_ExcelOutputs.v
theories/Cli.v
theories/Properties_Cli.v
theories/CaseName.v
theories/Properties_CaseName.v
theories/ScreenScript.v
theories/Properties_ScreenScript.v
theories/SavedPlan.v
theories/Properties_SavedPlan.v
theories/Hdf5.v
theories/Properties_Hdf5.v
theories/Hdf5Rows.v
theories/Properties_Hdf5Rows.v
