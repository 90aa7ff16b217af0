# Formal model of pyensys: design and trusted base

The source under study is `jnmelchorg/pyensys` (read as text in `/repo`, never run).
The model and proofs are in `rocq/theories` (Coq 8.16.1, standard library only).

## 1. Modelling conventions

* Shallow embedding: each Python function becomes a total Gallina function with the same branches in
  the same order.  Mutable objects become records that are threaded through a state monad.
* Exceptions are values.  `res A` is `Ok a` or `Err e` with `e` naming the Python exception class
  (`KeyError`, `TypeError`, `IndexError`, ...).  `Err OutOfFuel` is the only artefact; every statement
  about a fuelled function excludes it or proves that enough fuel exists.
* Python `int` is `Z` (or `nat` where the code can only produce naturals).  Python `float` is the field
  `Q` of rationals: rounding, overflow, infinities and NaN are **not** modelled.  Division by zero is
  kept as `ZeroDivisionError` where Python floats raise it.
* Strings used as keys are Coq `string`; `str(n)` is decimal printing, proved injective.
* `copy.deepcopy` is the identity on values of the functional model.  Where sharing of mutable objects
  is itself the subject (C07, C08) a separate model with an explicit heap / iterator state is used.
* External libraries are oracles: the OPF (pandapower / pypower) is an arbitrary function argument of
  type node -> interventions in service -> feasible? x cost; Birch labels are an arbitrary list; the
  iteration order of a Python `set` is an arbitrary enumeration.  Theorems quantify over all oracles.

## 2. Files

Model files hold definitions only, each with the lines of `/repo` it follows and the simplifications
made; `*Spec.v` files hold the vocabulary of the statements; other files hold lemmas; `Properties_*.v`
hold the theorems `Cxx_...`, each with a comment, `Print Assumptions` and an example meeting its hypotheses.

| file | contents |
| --- | --- |
| `Base.v` | Shared vocabulary of the model: results with exceptions, Python-style indexing, decimal strings. |
| `Container.v` | Model of pyensys/DataContainersInterface/AbstractDataContainer.py and OperationsAbstractDataContainer.py. |
| `ContainerSpec.v` | Independent vocabulary for the container properties: operation histories and what a reader expects to find after them. |
| `ContainerProofs.v` | Lemmas. |
| `ContainerHeap.v` | Two finer models of AbstractDataContainer.py in which object identity matters: the single iterator stored inside the object, and the mutable two-element lists that a list-mode container holds. |
| `ContainerHeapProofs.v` | Lemmas. |
| `Properties_Container.v` | C01 - C08: properties of the data containers. |
| `Planner.v` | Model of the investment planner: pyensys/Optimisers/RecursiveFunction.py, pyensys/Optimisers/NonAnticipativeRecursiveFunction.py and pyensys/managers/GeneralManager.py. |
| `PlannerSpec.v` | Vocabulary for the planner properties: paths of the control tree, well-formed problems, discounted sums, evidence of OPF runs, plans as rows. |
| `PlannerRows.v` | Incumbent, partial and complete tables seen as lists of rows. |
| `PlannerProofs.v` | The main invariant of the planner search. |
| `PlannerInv.v` | The invariant of the search and its preservation by every step (total correctness). |
| `PlannerMain.v` | Consequences of the search invariant, enumeration of combinations, pool numbering, elimination, leaves. |
| `PlannerLeaf.v` | Leaves: the plan stored for a leaf is the cheapest of the selections tried there. |
| `PlannerFacts.v` | Consequences of the search invariant, in the form used by the property theorems. |
| `PlannerTwoStage.v` | Trees of two stages: a root and its leaves. |
| `PlannerSolution.v` | Model of what surrounds the search: the solution tables (NonAnticipativeRecursiveFunction.py:479-517, "NA:"), the anticipative planner (RecursiveFunction.py:190-405, "RF:") and the entry point (GeneralManager.py:10-34). |
| `PlannerSolutionProofs.v` | Proofs about the solution tables and the anticipative planner. |
| `Properties_Planner.v` | C09 - C29, what holds: properties of the investment planner. |
| `Properties_PlannerFindings.v` | C13 - C29, what does not hold: concrete well-formed problems on which the search of the faithful model violates the stated property. |
| `Properties_TwoStage.v` | C23, C25 - C28 on two-stage trees: a root and two or more leaves, interventions in service as soon as they are selected, OPF answers that depend only on the node and on what is in service. |
| `Graph.v` | Model of pyensys/wrappers/networkx_wrapper.py (NW) and of the control-graph creation in pyensys/Optimisers/ControlGraphsCreator.py (CG). |
| `GraphSpec.v` | Vocabulary for the graph properties: stages of a scenario graph, walks from the root. |
| `GraphProofs.v` | Lemmas about graphs and the scenario graph of a profile. |
| `GraphTree.v` | Correctness of the conversion of a staged graph into a tree (CG:100-167). |
| `GraphData.v` | Model of the rest of pyensys/Optimisers/ControlGraphsCreator.py (CG:221-318): the control graph and the load data attached to its nodes. |
| `GraphDataProofs.v` | Lemmas about the data attached to the control graph. |
| `GraphPlan.v` | The control tree as input of the planner. |
| `Properties_Graph.v` | Properties C30-C35 and C61: scenario graphs, their conversion to trees and the data attached to their nodes. |
| `Clustering.v` | Model of pyensys/data_processing/clustering.py (CL), and of its use in pyensys/Optimisers/ControlGraphsCreator.py (CG:202-218). |
| `ClusteringProofs.v` | Lemmas about the computation of centroids. |
| `Reader.v` | Model of parts of pyensys/readers/JSONReader.py (JR): profiles adapted to the OPF time settings (JR:474-495), growth profiles derived from bus data (JR:291-323, 503-530) and the number reader of MATPOWER files (JR:120-149). |
| `ReaderProofs.v` | Lemmas about the readers. |
| `NumeralSpec.v` | Decimal numerals and their values, independently of the number reader. |
| `NumeralProofs.v` | The number reader computes the value of numerals. |
| `Properties_Reader.v` | Properties C36-C40 and C62: clustering of profiles, readers, and the way from bus data to a plan. |
| `MatFile.v` | Model of pyensys/readers/JSONReader.py::_build_mat_file (JR:15-113), the reader of MATPOWER case files. |
| `MatFileSpec.v` | MATPOWER case files: layout and contents, independently of the reader. |
| `MatFileProofs.v` | Lemmas about the reader of MATPOWER case files. |
| `Properties_MatFile.v` | Properties C89-C95: the reader of MATPOWER case files. |
| `Settings.v` | Model of the settings reader: the rest of pyensys/readers/JSONReader.py (JR:116-117, 152-273, 326-501) and pyensys/readers/ReaderManager.py (RM). |
| `SettingsSpec.v` | Specification vocabulary for the settings reader: sheets in the "attest" format and what the profiles read from them must hold. |
| `SettingsProofs.v` | Lemmas about the settings reader. |
| `Properties_Settings.v` | Properties C99-C108: the settings reader. |
| `Converter.v` | Model of any2json.matpower2json, the converter of MATPOWER case files, from the lines of the file to the dictionary that is dumped. |
| `ConverterSpec.v` | MATPOWER case files as the converter takes them: layout and contents, independently of the converter. |
| `ConverterProofs.v` | Lemmas about the converter of case files. |
| `ConverterFile.v` | The converter reads the sections of a case file. |
| `ConverterInv.v` | What holds of every conversion, whatever the file. |
| `ConverterMore.v` | Files that are not converted, and words that are not read. |
| `ConverterAgree.v` | The converter and the reader of MATPOWER case files on the same file. |
| `ConverterOpen.v` | Rows while several tables are open, and words that are no whole numbers. |
| `Screening.v` | Model of the screening model: model_screening in pyensys/Optimisers/screening_model_CLI.py (SC:79-726), the pyomo model that main_screening (Cases.v) solves for every year and scenario. |
| `ScreeningSpec.v` | What the screening model should be: a DC power flow for every contingency and time point, with investments in branches and load shedding. |
| `ConverterScreen.v` | The case that the screening model receives from the converter. |
| `ScreeningProofs.v` | Proofs about the screening model: its constraints are the operations of ScreeningSpec.v. |
| `ScreeningPlans.v` | Consequences of the equivalence of ScreeningProofs.v: acceptance, totals, orientation, reinforcements, shedding, costs and investments. |
| `Properties_Screening.v` | Properties C109-C118: the screening model. |
| `Properties_Converter.v` | Properties C119-C130 and C143: the converter of MATPOWER case files. |
| `Network.v` | Model of the network the OPF sees: pyensys/wrappers/PandaPowerManager.py ("PM"), pyensys/wrappers/PandaPowerWrapper.py ("PW") and the methods of pyensys/Optimisers/RecursiveFunction.py ("RF") and pyensys/Optimisers/NonAnticipativeRecursiveFunction.py ("NA") that prepare an OPF run. |
| `NetworkSpec.v` | Specification vocabulary for the network: cells, lines, and the physical meaning of a reinforcement, independent of how PandaPowerManager computes it. |
| `NetworkProofs.v` | Lemmas about network updates. |
| `NetworkFlex.v` | Lemmas about the static generators that PandaPowerManager adds for the flexible units. |
| `Properties_Network.v` | Properties C41-C46, C63, C64 and C98: the network an OPF run sees. |
| `Cases.v` | Model of the investment-planning entry point in pyensys/cases.py (CA), of the loop around the screening model in pyensys/Optimisers/screening_model_CLI.py (SC) and of pyensys/Optimisers/scenarios_multipliers.py (SM). |
| `CasesSpec.v` | Vocabulary for the properties of the investment-planning entry point. |
| `CasesProofs.v` | Lemmas about the investment-planning entry point. |
| `CasesClusters.v` | Lemmas about the clusters of investments. |
| `CasesOutputs.v` | Lemmas about costs of clusters, the planner input and the saved results. |
| `Properties_Cases.v` | Properties C47-C53 and C65-C71: the investment-planning entry point. |
| `Verification.v` | Model of pyensys/Optimisers/clusters_verification_function.py (CV), of the parts of pyensys/Optimisers/process_data.py (PD) without pyomo objects, and of the flow of attest_invest in pyensys/cases.py (CA). |
| `VerificationSpec.v` | Vocabulary for the properties of cluster verification. |
| `VerificationProofs.v` | Lemmas about cluster verification. |
| `VerificationRun.v` | Lemmas about node networks, cost tables, factors and the planning run. |
| `Properties_Verification.v` | Properties C54-C56, C72-C79: cluster verification and the planning run. |
| `Engines.v` | Model of pyensys/engines/pyene_Stochastic.py (ST) and of the profiles without trigonometric functions of pyensys/engines/pyeneR.py (RE). |
| `EnginesProofs.v` | Lemmas about failure sequences, profiles and the Monte-Carlo simulation. |
| `Properties_Engines.v` | Properties of the engines: wind and cooling profiles, failure sequences, Monte-Carlo simulation. |
| `Hydro.v` | Model of pyensys/engines/pyeneH.py (HY): HydrologyClass, the rivers and reservoirs of the energy system, from its settings to the pyomo constraints. |
| `HydroSpec.v` | Rivers and nodes, independently of the tables of the model. |
| `HydroNet.v` | The linked lists of rivers per node. |
| `HydroParts.v` | Dividing rivers into parts. |
| `HydroTables.v` | Input and output nodes, storage and the other tables. |
| `HydroModel.v` | What an answer of the hydraulic model satisfies. |
| `HydroFlow.v` | Balances of water. |
| `HydroLimits.v` | Flow limits and the delay of rivers. |
| `HydroBuilt.v` | Well set settings give a model. |
| `HydroExamples.v` | Small models with an answer. |
| `Properties_Hydro.v` | Properties C144-C161: rivers and reservoirs. |
| `EnergyTree.v` | Model of the temporal energy tree, pyensys/engines/pyeneE.py (EN). |
| `EnergyTreeSpec.v` | What the temporal energy tree should be: level [k] has the nodes [0 .. width k - 1], numbered level by level; node [j] of level [k] has the nodes [j * len_k + c] of the next level after it. |
| `EnergyTreeProofs.v` | The energy tree is the one of the specification. |
| `EnergyTreeLinks.v` | Linked lists, data of the nodes and the states of charge that the constraints allow. |
| `EnergyTreeSoC.v` | The states of charge that the constraints allow. |
| `EnergyTreeData.v` | The data of the nodes: weights, inputs and outputs of their interval. |
| `Properties_EnergyTree.v` | Properties of the temporal energy tree. |
| `InputOutput.v` | Model of pyensys/Optimisers/input_output_function.py (IO), of the functions of pyensys/Optimisers/process_data.py (PD) that record the values of pyomo variables, and of the script pyensys/Optimisers/clusters_verification.py (CS). |
| `InputOutputSpec.v` | Vocabulary for the properties of the input and output functions. |
| `InputOutputProofs.v` | Lemmas about the input and output functions. |
| `Properties_InputOutput.v` | Properties C133-C142: catalogues, screening options, time series, the report, recorded values and the verification script. |
| `Linear.v` | Linear expressions and constraints of a pyomo model, over any set of variables. |
| `Devices.v` | Model of pyensys/engines/pyeneD.py (DV): buses, branches and generators of the electricity network, from the tables of the case to the numbers that the constraints use. |
| `Power.v` | Model of pyensys/engines/pyeneN.py (NM): ENetworkClass, the electricity network and its generators over time, from the settings to the pyomo constraints and objective. |
| `PowerSpec.v` | What the properties of the network engine say, in terms of the settings and of an assignment of the variables. |
| `LinearProofs.v` | Families of constraints. |
| `DevicesProofs.v` | The tables of the network and of the generators. |
| `FleetProofs.v` | The generators after initialise. |
| `PowerTables.v` | What initialise leaves, in terms of the settings; what an answer satisfies, rule by rule. |
| `PowerBalance.v` | Balance of power at every bus and in total. |
| `PowerLimits.v` | Flows, losses, limits and costs. |
| `PowerUnits.v` | Generators and pumps: limits, ramps, commitment and costs. |
| `PowerBuilt.v` | Complete settings give a model: initialise and addCon of the electricity network do not fail. |
| `PowerExamples.v` | Settings and answers used in the examples and refutations about the network engine. |
| `Properties_Power.v` | Properties C162 to C184: the electricity network engine (pyeneD.py and pyeneN.py). |
| `Joint.v` | Model of pyensys/engines/main.py (MA): pyeneClass, which joins the energy tree (EnergyTree.v), the electricity network (Power.v) and the rivers (Hydro.v) into one pyomo model, changes its parameters and reports its answers. |
| `JointTree.v` | The energy tree of the joint model, and the weights of its scenarios. |
| `JointSpec.v` | What the joint model should do, in terms of its data and answers. |
| `JointEnergy.v` | Energy taken from the tree by the network and the rivers. |
| `JointWater.v` | The water of the joint model: tables of pumps and plants, and the constraints that use them. |
| `JointUse.v` | The tables of plants and pumps of the joint model, and the water they use. |
| `JointExamples.v` | Settings and answers used in the examples and refutations about the joint model. |
| `JointCost.v` | The objective of the joint model. |
| `Properties_Joint.v` | Properties C185-C197: the joint model of energy, network and rivers. |
| `Reports.v` | Model of the reports and of the setters of pyensys/engines/main.py (MA): pyeneClass.get_... and set_..., on the joint model of Joint.v. |
| `ReportsSpec.v` | What the reports of the joint model should say. |
| `ReportsSetters.v` | What the setters of the joint model change. |
| `ReportsProofs.v` | The reports of the joint model. |
| `ReportsTotals.v` | Totals of the reports: types of loads, pumps and the balance of energy. |
| `ReportsCost.v` | Parts of the objective, sums over several scenarios or steps, and what the farms spill. |
| `ReportsExamples.v` | Settings and answers used in the examples and refutations about reports and setters. |
| `Properties_Reports.v` | Properties C198-C213: the reports and the setters of the joint model. |
| `Parameters.v` | Model of the container of the network elements, pyensys/engines/pyene_Parameters.py (PA): the elements by kind, their positions in the lists, the positions by which they refer to each other, deletion. |
| `Analyser.v` | Model of the search for islands and isolated nodes, pyensys/engines/pyene_Analizer.py (AN), [PowerSystemIslandsIsolations]. |
| `AnalyserSpec.v` | What the positions of the network container and the search for islands are held to, in terms of bus numbers only. |
| `ParametersProofs.v` | The positions kept by the network container: what [update_all] leaves, what deletion keeps. |
| `AnalyserProofs.v` | Islands and isolated buses: the classes found are the connected parts of the network in service, and every element goes to the island of its buses. |
| `AnalyserIslands.v` | Islands and isolated buses, continued: the network without what is out of service, the elements collected per class, and the result as a whole. |
| `AnalyserExamples.v` | Networks met by the theorems on positions and islands. |
| `Properties_Analyser.v` | Theorems on the positions of the network container and on the islands of a network. |
| `Reduction.v` | Model of the reduction of a network to a voltage level, pyensys/engines/pyene_Analizer.py (AN), [PowerSystemReduction]. Recursion in Python is bounded by the interpreter's stack, which is not modelled. |
| `ReductionTrack.v` | The search for supernodes: it always ends, and the supernodes are the connected parts of the buses below the voltage asked for. |
| `ReductionSpec.v` | What the reduction of a network is held to, in terms of bus numbers. |
| `ReductionProofs.v` | The reduction of a network: what is cut out, what is put back. |
| `ReductionPlace.v` | Putting the supernodes back into the network: artificial buses and lines, demand moved to coupling buses. |
| `ReductionParts.v` | The supernodes in terms of bus numbers. |
| `ReductionMain.v` | The reduced network against the network given. |
| `ReductionLinks.v` | What the reduced network joins, and where the generators go. |
| `ReductionExamples.v` | Networks met by the theorems on the reduction. |
| `Properties_Reduction.v` | Theorems on the reduction of a network to a voltage level. |
| `Glpk.v` | Model of the wrapper of GLPK, pyensys/engines/_glpk.pyx (GL), as the models of pyensys/engines/pyene_Models.py use it. |
| `GlpkSpec.v` | What a list of commands to GLPK states, by name of block and position in it, independently of the numbers of rows and columns. |
| `GlpkProofs.v` | Commands to GLPK: what is built states what the commands state. |
| `GlpkEnergy.v` | Model of the energy tree built with GLPK, class Energymodel of pyensys/engines/pyene_Models.py (PM), on the data of pyensys/engines/pyeneE.py. |
| `GlpkEnergyProofs.v` | The energy tree built with GLPK: what the commands state. |
| `GlpkTree.v` | The data of the temporal tree as the model for GLPK reads them. |
| `Properties_Glpk.v` | Properties of the models built with GLPK: the wrapper and the energy tree. |
| `GlpkRows.v` | The commands for a row with its coefficients, for bounds of columns and for coefficients of the objective, as the loops of pyensys/engines/pyene_Models.py emit them: the coefficients of a row, then its bound (PM:2067-2085, for example). |
| `GlpkParts.v` | Lists of commands described by their columns, bounds, rows with terms, and objective. |
| `GlpkNetwork.v` | Model of the power system built with GLPK, class Networkmodel of pyensys/engines/pyene_Models.py (PM). |
| `GlpkNetworkSpec.v` | What an optimal power flow has to meet, written with the values of the plan. |
| `GlpkNetworkParts.v` | The commands of the optimal power flow as parts with names that differ and places that exist. |
| `GlpkNetworkPlaces.v` | Names and places of the optimal power flow. |
| `GlpkNetworkRows.v` | Rows of the optimal power flow: names, places and coefficients. |
| `GlpkNetworkSystem.v` | The rows of the optimal power flow together, and its construction. |
| `GlpkNetworkValues.v` | The columns and rows of the optimal power flow, against the rules of a plan. |
| `Properties_GlpkNetwork.v` | Properties of the models built with GLPK: the power system. |
| `GlpkFinal.v` | Lists of commands in which a bound of a column may be given again. |
| `GlpkJoint.v` | Model of the energy tree and the power system built together with GLPK, class EnergyandNetwork of pyensys/engines/pyene_Models.py (PM), on the data of pyensys/engines/main.py. |
| `GlpkJointParts.v` | The commands of the energy tree and the optimal power flow together. |
| `GlpkJointSystem.v` | The construction of the energy tree and the optimal power flow together. |
| `GlpkJointSpec.v` | What the energy tree and the power system have to meet together, written with the values of the plan and the storage. |
| `GlpkJointValues.v` | The rows and bounds of the joint problem and its rules. |
| `GlpkJointNames.v` | The names of the links between the tree and the network. |
| `Properties_GlpkJoint.v` | Properties of the models built with GLPK: the energy tree and the power system together. |
| `ExcelSheet.v` | Model of the reader of workbooks, class excel2pyene of pyensys/engines/pyeneI.py (PI): cells, options and elements of the network. |
| `ExcelTree.v` | Model of the reader of workbooks, class excel2pyene of pyensys/engines/pyeneI.py (PI): the balance tree. |
| `ExcelProfiles.v` | Model of the reader of workbooks, class excel2pyene of pyensys/engines/pyeneI.py (PI): profiles of parameters. |
| `ExcelBook.v` | Model of the reader of workbooks, class excel2pyene of pyensys/engines/pyeneI.py (PI): connections and whole workbooks. |
| `ExcelProofs.v` | Lemmas about the reader of workbooks: cells, options and elements. |
| `ExcelTreeProofs.v` | Lemmas about the reader of workbooks: the balance tree. |
| `ExcelProfileProofs.v` | Lemmas about the reader of workbooks: profiles. |
| `Properties_Excel.v` | Properties of the reader of workbooks: options, elements of the network and the tree. |
| `Properties_ExcelProfiles.v` | Properties of the reader of workbooks: profiles. |
| `Properties_ExcelUse.v` | Properties of the reader of workbooks: profiles applied to parameters. |
| `Properties_ExcelBook.v` | Properties of the reader of workbooks: connections and whole workbooks. |
| `MatWriter.v` | Model of pyene2any.pyene2matpower, the writer of MATPOWER case files (pyensys/engines/pyeneI.py:757-893, PI), with the data of the network that it reads (pyene_Parameters.py:101-169 and 581-602, PA). |
| `MatWriterSpec.v` | What a written MATPOWER case file should hold of a network. |
| `MatWriterProofs.v` | The lines of the writer are the sections of a case file. |
| `MatWriterRows.v` | The rows of the written tables, and the sections of the written file. |
| `MatWriterFile.v` | The written file is a case file that the converter reads as the network. |
| `MatWriterFail.v` | Written files that the converter rejects, and files that are left behind when the writing fails. |
| `Properties_Writer.v` | Properties C269-C275: the MATPOWER case files that pyene2any.pyene2matpower writes. |
| `Psse.v` | Model of PSSErawInterface, the reader of PSS/E raw files (pyensys/engines/pyeneI.py:299-539, PI). |
| `PsseSpec.v` | PSS/E raw files: their lines and what they say, independently of the reader. |
| `PsseProofs.v` | Lines, fields and transformers of PSS/E raw files. |
| `PsseRead.v` | The transformers of a PSS/E raw file. |
| `PsseFail.v` | PSS/E raw files: whole files, and files that are rejected. |
| `PsseSample.v` | PSS/E raw files of whole numbers, for examples. |
| `Properties_Psse.v` | PSS/E raw files (PI:299-539). |
| `Properties_ExcelMore.v` | Further properties of the reader of workbooks: letters, blanks, values that are not true and elements that are not there. |
| `Pypsa.v` | Model of the conversion of networks to pypsa and of the class that collects the results of pypsa: pyensys/engines/pyeneI.py ([EInterfaceClass], lines 30-280), pyensys/engines/pyeneP.py ([PrintClass], lines 12-224) and the methods of pyensys/engines/pyeneD.py they use. |
| `PypsaSpec.v` | What is asked from the conversion to pypsa and from the tables of results. |
| `PypsaProofs.v` | Lemmas. |
| `Properties_Pypsa.v` | Conversion to pypsa and collection of its results (PI:30-292, pyeneP.py). |
| `Outputs.v` | Model of the writer of results in workbooks: pyensys/engines/pyeneO.py ([pyeneSave], lines 42-65, and [pyene2excel], lines 67-250). |
| `OutputsSpec.v` | What is asked from the writer of results. |
| `OutputsProofs.v` | Lemmas. |
| `Properties_Outputs.v` | Properties of the writer of results in workbooks (pyeneO.py). |
| `ExcelOutputs.v` | Model of the reader of workbooks, class excel2pyene of pyensys/engines/pyeneI.py (PI): the sheets "outputs" and "functions" and the search for the parameters that functions belong to. |
| `Properties_ExcelOutputs.v` | Properties of the reader of workbooks: sheets with outputs and functions. |
| `Cli.v` | Model of the commands of pyensys/cli.py (CL) that run the older engine, the settings that they make, and the changes that cases.py (CA) makes to the settings before a run; with DV for pyensys/engines/pyeneD.py and NM for pyeneN.py. |
| `Properties_Cli.v` | Properties of the commands of the older engine (Cli.v). |
| `CaseName.v` | Model of the name of the case that pyensys/cases.py (CA) takes from a path, and of the command run-dist_path. |
| `Properties_CaseName.v` | Properties of names of cases and of run-dist_path (CaseName.v). |
| `ScreenScript.v` | Model of the older screening program: pyensys/Optimisers/screening_model.py (SM'). |
| `Properties_ScreenScript.v` | Properties C333-C336: the older screening program. |
| `SavedPlan.v` | Model of the rest of save_in_jsonW in pyensys/cases.py (CA): the costs of the saved plan. |
| `Properties_SavedPlan.v` | Properties C338 and C339: what is written and the costs in the saved plan (SavedPlan.v). |
| `Hdf5.v` | Model of the HDF5 writer of the older engine: pyeneHDF5Settings in pyensys/engines/pyeneO.py (PO). |
| `Properties_Hdf5.v` | Properties C340-C342: the HDF5 writer of the older engine (Hdf5.v). |
| `Hdf5Rows.v` | Model of the tables that the HDF5 writer saves for a model solved by pyomo: saveResultspyomo in pyensys/engines/pyeneO.py (PO), lines 671-699. Simplifications: those of Reports.v and of Hdf5.v. |
| `Properties_Hdf5Rows.v` | Property C343: the tables that the HDF5 writer saves for a model solved by pyomo (Hdf5Rows.v). |

## 3. Properties and outcome

A property that is false of the model is `partial`: a theorem `..._refuted` shows a counterexample and the
theorems ending in `_partial` prove what does hold.

| id | property | status | outcome |
| --- | --- | --- | --- |
| C01 | A dictionary-mode container is an insertion-ordered map | proved | Dictionary mode over an arbitrary call history refines the expected finite map. |
| C02 | A list-mode container with distinct keys behaves like the dictionary-mode one | proved | Proved under the discipline stated in the property; a second theorem records that the modes differ without it. |
| C03 | append/pop on a list-mode container is LIFO per key | proved | Append/pop are inverse, pop removes the newest occurrence, get reads the oldest. |
| C04 | Containment is a preorder and means 'prefix' on graph paths | proved | Preorder in both modes (dictionary reflexivity for distinct keys, which every dictionary has) and prefix characterisation for graph paths. |
| C05 | `!=` is the negation of `==` | partial | False of the code: two never-created containers are == but != raises. The remaining cases are proved. |
| C06 | Container difference removes exactly the common items | partial | List mode proved in full; in dictionary mode items with value None are never removed (refuted), proved for other values; mode mismatch raises TypeError. |
| C07 | Iterating a container visits every item once, even when loops nest | partial | False of the code for nested loops over one object (general refutation, plus a diverging peek). Proved for bodies that do not iterate the same object. |
| C08 | Extending a container copies the items | partial | False of the code: list-mode extend shares item cells. Proved for any interleaving of operations on containers not connected by extend. |
| C09 | The intervention pool numbers every configured intervention once | proved | Keys, order, completeness and truncation to the shortest column, for all configurations. |
| C10 | Available interventions are exactly those not yet used | proved | Exact characterisation of the offer, and no repetition in any OPF run or stored plan of a whole run. |
| C11 | Every non-empty subset of available interventions is tried exactly once | proved | Membership, uniqueness, count and order of the combinations. |
| C12 | Search back-tracks exactly | proved | For every call reachable by the search, and for the first call. |
| C13 | Remaining construction times are restored by the search | partial | False of the code (refuted): times are only lowered by a common amount, which is what is proved. |
| C14 | An intervention serves only after its construction time | partial | False of the code (refuted: early service). Proved: only selected interventions serve, none is late, exact without construction times. |
| C15 | Stored plans are root-to-leaf paths | proved | All three tables of plans. |
| C16 | Stored plans were verified feasible | proved | Under the property's assumption of immediately available interventions. |
| C17 | Stored costs are the discounted costs of the stored plan | partial | False of the code with construction times (refuted). Operation cost proved in general, investment cost for immediately available interventions. |
| C18 | Incumbent tables stay aligned and the search never crashes | proved | Termination, absence of exceptions, alignment, and independence of the model's fuel. |
| C19 | Incumbent keys stay distinct | partial | False of the code (refuted): renumbering keys 0,2 gives 0,0. |
| C20 | Elimination removes exactly the descendants | proved | For incumbents with distinct keys (C19 records when that fails); also when the flag that admits new trees is cleared. |
| C21 | A reported tree covers every node | proved | Invariant of every run of the search. |
| C22 | Reported tree cost never increases | proved | Over every call of the search, hence over the whole run. |
| C23 | Reported plans are non-anticipative | partial | False of the code in general (refuted), even with immediately available interventions. Proved for trees of one decision node and any number of leaves, with immediate interventions and an OPF without memory. |
| C24 | Leaf decisions are optimal for the current candidate | proved | Exhaustive enumeration at a leaf, and optimality when the OPF answer depends only on node and interventions. |
| C25 | The reported tree is optimal | partial | False of the code in general (refuted): three-stage tree with one intervention. Optimality proved for trees of one decision node and any number of leaves, with immediate interventions and an OPF without memory. |
| C26 | A feasible problem yields a plan | partial | False of the code in general (refuted): three-stage tree, empty pool. Proved for trees of one decision node and any number of leaves, with immediate interventions and an OPF without memory. |
| C27 | solve reports feasibility truthfully | partial | Soundness of True proved; completeness refuted. On two-stage trees the answer is characterised exactly. |
| C28 | Solution tables give one cost per scenario | partial | Proved for tables with distinct plan numbers and disjoint leaf scenarios, and end to end (search, costs, lines) for two-stage trees; distinctness of the numbers of the final table is not proved for deeper trees. |
| C29 | The anticipative planner delivers a solution | partial | False of the code (refuted): NameError, and nothing is ever stored. |
| C30 | Scenarios are partitioned at every stage | proved | Partition, numbering and sharing, for every profile (ragged ones included). |
| C31 | Edges connect consecutive stages sharing a scenario | proved | For every rectangular profile. |
| C32 | Tree conversion unfolds the graph | proved | For every staged graph with one root, every enumeration order of sets and every node data; also instantiated on scenario graphs, scenario by scenario. Two further theorems record what happens outside the quantifier: several roots, single stage. |
| C33 | Inputs accepted as trees are arborescences | partial | False of the code in general (refuted): is_tree ignores directions. Proved for staged graphs with one root. |
| C34 | Node loads are scenario averages | proved | Means as v*n == sum over exact rationals; bus tables, for all nodes of the converted tree. |
| C35 | Stage years agree between data and discounting | partial | False of the code for unsorted indices (refuted); proved to hold exactly for ascending ones. |
| C36 | Centroids are cluster means | proved | For every labelling without gaps; labels with a gap are proved to raise IndexError. Birch itself is an oracle. |
| C37 | Profile down-sampling averages blocks | proved | Over exact rationals. |
| C38 | Growth profiles are normalised to the first year | proved | The square root is an arbitrary function; the ratio needs a non-zero first-year total to be 1. |
| C39 | Decimal numerals are read correctly | partial | False for an exponent followed by a separator (refuted: ValueError). Proved for all numerals without exponent and any separators, and with exponent at the end of the token. |
| C40 | A leading bracket does not change a number | partial | False for negative numerals (refuted: the sign is lost). Proved for unsigned ones. |
| C41 | Reinforcement keeps impedance times rating | proved | every list of well-formed line reinforcements (single or clustered positions) on every network; sqrt 3 is any positive number, voltages and ratings positive |
| C42 | Order of reinforcements is irrelevant | proved | every permutation of the updates; networks compared cell by cell, numbers up to == |
| C43 | Each OPF starts from the original network | proved | non-anticipative planner (the one GeneralManager runs); C43_opf_network states what the OPF sees for line interventions and node loads after any history; the base planner is C64 |
| C44 | Load updates hit the bus and nothing else | proved | every list of load updates on existing columns other than 'bus' |
| C45 | Flexible-unit updates take effect | partial | refuted: index[0] is a numpy integer, no Python int, so update_multiple_parameters takes the cluster branch and len() raises TypeError; C45_never_applied shows that no flexible unit is ever updated; the parameters themselves are built correctly (C45_parameters_partial) |
| C46 | Single and clustered interventions address the same line | partial | refuted: clusters count from one; C46_cluster_counts_from_one_partial and C46_cluster_is_its_lines_partial state the true relation |
| C47 | Scenario tree positions are ancestors | proved | Positions, parents, shares and the whole table built from growth data. Years as numbers; default scenario list (all leaves). |
| C48 | Growth multipliers interpolate between the two scenarios | proved | For any number of years, with the multipliers compounded over the path; also the demand-response factors. |
| C49 | Country multipliers compound along the path | partial | Refuted for all three countries: the last 2050 entry is derived from the second 2040 entry. Proved: 2030 and 2040 and the first 2050 entry compound; entries equally spaced. |
| C50 | Catalogue rounding is the least sufficient size | partial | Proved for the clusters, with the screening solver as an oracle. Refuted for the sizes listed per branch: zero becomes the least size. |
| C51 | Cluster reduction returns distinct clusters | partial | Proved for every limit above zero, including which clusters are chosen. A limit of zero raises ZeroDivisionError (refuted). Costs need sizes of the line catalogue. |
| C52 | Cluster ordering loses nothing | proved | Ordering succeeds for clusters of one length and is a permutation of the clusters without repetitions. |
| C53 | Textual lists are parsed as numbers | partial | Refuted: texts are read digit by digit. Proved: right exactly when all entries have one digit. |
| C54 | A verified cluster was verified on its own | partial | Refuted: reinforcements of rejected clusters stay in the network. Proved: order of the search, networks offered to the OPF, cluster and cost per node, the flag; and for a monotone OPF that every cheaper cluster fails on its own; clusters wider than the network are never assigned. |
| C55 | Recording generator costs is reversible | proved | Round trip for all tables, and what the table holds in between. |
| C56 | Discount and capital-recovery factors | partial | Refuted for rates 0 and -2, where the capital recovery factor divides by zero. Proved for all other rates and characterised for all. |
| C57 | Energy tree sizes and parents | proved | For all data with non-empty levels, on the arrays the code builds. |
| C58 | Storage is conserved over the energy tree | partial | The path statement is refuted: intervals of a level follow one another. Proved: the end level is the weighted sum of inputs less outputs over all nodes, and each node ends at its start plus its contribution, unless exactly one node is followed by alternatives (C86). |
| C59 | Wind output stays within the park rating | proved | Full statement. |
| C60 | Failure sequences respect drawn times | partial | Proved for positive drawn times; refuted for time to failure zero. |
| C61 | Planning on the created tree | proved | For profiles with one cluster at the first stage and at least two stages. |
| C62 | From bus data to plans | proved | Composition of C38, C36, C35, C61. The square root, Birch labels, set order and OPF are arbitrary. |
| C63 | A cluster rescales its own controller only | partial | proved for clusters that name a configured profile; refuted for the others (position -1 is the last row) |
| C64 | The base planner's OPF sees all selected interventions and nothing else | partial | refuted twice: without new interventions the previous network is reused, with new ones the candidate's interventions are dropped because each call rebuilds the network |
| C65 | Investment options describe the clusters | proved | Soundness for all inputs; existence when all sizes are in the catalogue and nothing is oversized; line lengths filled in. |
| C66 | Every screened cluster can be costed | partial | Refuted: sizes are always looked up in the catalogue of lines. Proved in general: any size outside it, or too near its end for the oversize, raises IndexError. |
| C67 | The report follows the first and the last path | partial | Proved up to four years; refuted beyond (IndexError for any solution). |
| C68 | The interventions of a plan are saved | partial | Refuted: no plan with lines in all its clusters is ever saved (KeyError or earlier), and the cluster found is the first one of equal size. |
| C69 | No empty cluster is offered | partial | Refuted when the number of clusters is reduced. C51 proves it when it is not. |
| C70 | Clusters are ordered by size | partial | Proved for clusters that can be compared branch by branch; refuted in general. |
| C71 | Screening a node assumes its ancestors' investments | partial | Refuted; proved what is assumed instead: the investments of the last node of every earlier year. |
| C72 | A network that needs nothing is reported as such | proved | The run ends with the message that nothing is to be built, and only in that case. |
| C73 | Verification reinforces a line by the MVA of the cluster | partial | Refuted: the gain is larger by the square root of 3; proved for all networks. |
| C74 | Replacing external grids keeps costs | partial | Refuted with a generator and an external grid. Proved: no unit is lost; a generator that replaces a grid has no cost unless another table has that element number; right for one grid without generators. |
| C75 | Verification scales each load by the multiplier of its bus | partial | Proved for multipliers expanded from the scenarios, as the planning run does; refuted for multipliers given per bus. |
| C76 | Reported costs are those of the catalogue | partial | Refuted: 60000 per MVA is reported, whatever the catalogue, in a field of millions. Proved that catalogue costs have no influence. |
| C77 | A planning run ends with a verified report | proved | Composition of clusters, planner input, verification and report, for one to four years. |
| C78 | Discount factors do not grow | partial | Refuted; for all rates between 0 and 1 the factors grow. |
| C79 | Clusters given by the user are verified | partial | Refuted; the outcome does not depend on the clusters given. |
| C80 | Monte-Carlo runs finish | partial | Refuted: every run fails. |
| C81 | Cooling capacity factor | partial | Proved for shutdown temperature up to the maximum temperature; refuted above it. |
| C82 | Default temperatures can be used | partial | Refuted for all generator data. |
| C83 | Data of the nodes of the energy tree | proved | For matrices, and for lists with one vector. |
| C84 | Lists of inputs are one vector | partial | Refuted for all lists of two or more intervals at the first level. |
| C85 | Uncertainty at any level | partial | Refuted for all data with uncertainty at the first level. |
| C86 | The end level is determined | partial | Refuted for a single uncertain node; C58_levels_partial covers all other data. |
| C87 | Container equality is equality of contents | proved | For lawful value equality. |
| C88 | The incumbent is restored only when it was lost | proved | Full statement. |
| C89 | A MATPOWER case file is read exactly | proved | Words, numbers, tables and the outer loop; the layout is described independently of the reader. Numbers with exponent must stand alone (C39). |
| C90 | Every row of a table is read | partial | Refuted. Proved: the table ends at the first line with fewer words than columns and the rows after it are dropped. |
| C91 | A table may be closed on its last row | partial | Refuted. Proved: a table whose header directly follows the last row of another one is not read; a table that reaches the end of the file raises IndexError. |
| C92 | Spacing of assignments does not matter | partial | Refuted. Proved: version or baseMVA with the equality sign attached to the name always raises ValueError. |
| C93 | Values may start on the line of the header | partial | Refuted. Proved: a header line with more words than columns raises ValueError, with fewer everything after the name is ignored, and a bus or branch row that starts right after the bracket loses its first number and is shifted. |
| C94 | No column of a table is dropped | partial | Refuted. Proved: every row read has exactly the fixed width of its table, for all files. |
| C95 | Unlimited values are accepted | partial | Refuted. Proved: a word without digits among the first columns of any row rejects the file. |
| C96 | Several clustered profiles are accepted | partial | False: with two or more profiles the base graph stays empty; the conversion to a tree then raises NetworkXPointlessConcept (C96_refuted), and without conversion the control graph has no nodes. C96_other_numbers_partial shows this for every number of profiles other than one. |
| C97 | Flexible units of a node are averages | proved | For every table and node, under success of the creation; the columns are listed in the statement. |
| C98 | Flexibility generators are added once per bus and found again | proved | Fresh labels, unchanged old cells and one generator with its cost row per bus; C98_updates_find_them needs that the network has no own generator at the bus (otherwise the first one is taken). |
| C99 | Sheets in the attest format are read exactly | proved | For every sheet with equally long rows; numbers of components are integers (simplification of the model). |
| C100 | Chosen active columns apply to the whole sheet | partial | False: the chosen columns are popped from the entry by the first profile (C100_refuted). C100_first_profile_only_partial shows what every sheet gives. |
| C101 | Rows of unknown type are rejected | proved | For every sheet with equally long rows. |
| C102 | Tables given in the settings are kept exactly or rejected | partial | False for tables with rows of different lengths, which are filled up with missing values (C102_refuted). Proved: rectangular tables are kept exactly, tables with a too long row or only too short rows are rejected. |
| C103 | Accepted profiles fit the periods of the OPF | proved | For every successful reading, whatever the files contain. |
| C104 | A reader can be used for several files | partial | False: investment options accumulate and old tables stay (C104_refuted). C104_second_file_partial describes the second reading completely. |
| C105 | Unknown profile formats are reported | partial | False for profiles of the network (TypeError, C105_refuted; C105_network_formats_partial for all of them); true for the optimisation profiles (C105_optimisation_formats_partial). |
| C106 | Files that are not settings are rejected | partial | False: other paths give default parameters marked as not initialised (C106_refuted, C106_other_files_partial); C106_initialised relates the mark and the extension. |
| C107 | Exactly the MATPOWER text files are converted | partial | False: every path that ends in the letter m is converted (C107_refuted). Proved: .m files are converted, .mat files are not. |
| C108 | No table of the optimisation data is lost | partial | False for repeated groups, of which the last table wins (C108_refuted). C108_tables_partial gives the table found under every name. |
| C109 | Power is balanced in every screened contingency | proved | For distinct bus numbers; costs_match says that every row of coefficients has the length NCOST, which the converter guarantees. |
| C110 | The screening model is the DC power flow with contingencies | proved | The limits are asymmetric, as in the code: earlier investments only count from the first bus to the second (see C111, C112). |
| C111 | The written direction of a branch does not matter | partial | False: previous investments only count in one direction (C111_refuted). Proved when the exchanged branches have no previous investment. |
| C112 | Earlier reinforcements remain available | partial | False (C112_refuted: the same investment is charged again). Proved: more previous investments keep an answer feasible, and replace the investments of answers whose flows respect the ratings in the second direction. |
| C113 | There always is an answer: all load can be shed | partial | False: reactive demand enters the balance and cannot be shed (C113_refuted). Proved where the demand of every bus is between zero and its active demand. |
| C114 | Generation cost is not underestimated | partial | False beyond PMIN + PMAX, reached with multipliers above one (C114_refuted). Proved for convex quadratics below it, with the error bound a*PMAX^2/36 for optimal answers. |
| C115 | Well-formed cases are accepted in any order of the generators | partial | False: the first generator must have positive PMAX (C115_refuted). C115_accepted_partial: for well-formed cases this is necessary and sufficient. |
| C116 | An optimal answer invests exactly the overload | proved | Optimal: feasible with the least objective among the feasible assignments. |
| C117 | Interventions are the positive investments, rounded up and sorted | proved | Full statement. |
| C118 | More contingencies never make a plan cheaper | proved | For a nonnegative penalty. |
| C119 | The converter reads every well-formed case file exactly | proved | For all three copies; whole columns hold the number without its fraction. |
| C120 | The columns of a table have equal lengths | partial | False: short rows (C120_refuted). Proved for every file: a column is never longer than one to its left. |
| C121 | The slack bus is the bus of type 3 | partial | False when a row of one word shifts the columns (C121_refuted). Proved: the slack bus is some bus and some bus has type 3, for every file; and at the same position, the last one, for every well-formed file. |
| C122 | The cost lists are consistent | proved | For every file and copy. |
| C123 | Cost coefficients are numbers | partial | False for the copy in pyeneI.py (C123_refuted), always: the last entry of every row is a text. The other copies store numbers only. |
| C124 | Cost functions survive the conversion | partial | False for piecewise-linear costs (C124_refuted). C124_tail_partial: in every file the words after the first 4 + NCOST have no effect. |
| C125 | Polynomial costs with decimal coefficients are accepted | partial | False (C125_refuted). C125_decimal_partial: every file with such a row is rejected by the two copies that read an integer. |
| C126 | Comments do not matter | partial | False inside tables (C126_refuted), in every table of every file; proved between tables. |
| C127 | The converter and the reader of case files agree | partial | False (C127_refuted): mpc.bus=[ is ignored by the converter, for every file whose headers are written so. Proved for files that are well-formed for both with each table given once. |
| C128 | A network file is accepted by the screening model | proved | as_mpc selects the entries that the screening model reads. |
| C129 | Whole-number columns hold the numbers of the file | partial | False for the copy of the planner (C129_refuted). Proved: in well-formed files entries that are whole numbers are stored exactly, others without their fraction; an infinite first entry stops every copy. |
| C130 | A row belongs to the last header before it | partial | False after a table without closing line (C130_refuted). C130_header_partial: a header right after an unclosed gencost header raises ValueError in the two copies that take that line as a row. C130_open_partial: a row is stored in all the tables that are open, and in no other. |
| C131 | Settings that are given are kept and the others take their defaults | partial | given settings and defaults proved for a present section (C131_settings_kept_partial) and for a missing one except for opf_type and opf_optimizer (C131_missing_section_partial); the full property is false: the defaults of the class differ from those of the reader (C131_refuted) |
| C132 | Every section of a settings file reaches the parameters | proved | dates are counted by an oracle (pandas.date_range) |
| C133 | Every size of a catalogue has a cost | proved | Full statement. |
| C134 | Every screening option has its own cost | partial | Holds for catalogues whose sizes differ pairwise; with repeated sizes every option gets the cost of the first (refuted). |
| C135 | Load and flexibility series belong to their bus | partial | The peak reactive load is that of the active load, and the other sheets are read at the position of the bus in the sheet of active loads (both refuted); the rest is proved. That the lists of zeros of a bus without load are one object is not modelled. |
| C136 | Screening and optimisation use the same peak loads | proved | Full statement. |
| C137 | The full report describes every path | partial | Proved for up to four years; with more there is no report (refuted). |
| C138 | The short report has the two extreme paths | partial | With one path the report lists it twice (refuted). |
| C139 | Writing a report changes no results | partial | Refuted: values of at most 0.0001 are replaced in the table of the caller. Proved: nothing else changes and a second report is the same. |
| C140 | Recorded values are those of the solution | proved | Full statement. |
| C141 | The verification script stores a result for every node | partial | Refuted: the places are shifted by one, so the script stops with an IndexError whenever the last node has a solution. What it does is proved for every tree. |
| C142 | The script stores clusters that are feasible | partial | Refuted: capacities add up over the clusters tried. Proved: if capacity never harms, no cluster tried before is feasible alone. |
| C143 | Whole-number columns take whole numbers only | proved | For the two copies that do not truncate (the truncating copy is C129); the file part is stated for the first column. |
| C144 | The rivers of a node | proved | Full statement. |
| C145 | Several rivers between two nodes | partial | Refuted: the lists have room for one river per pair of nodes, a second one stops with an IndexError. Proved: the network is built exactly if no two rivers join the same nodes. |
| C146 | A river in parts | proved | Full statement. |
| C147 | Ramps limit the flows | partial | Refuted: the ramps are overwritten with ones before they are read. Proved: they never change the model; a single value stops with a ValueError if there are several rivers. |
| C148 | Pumps are inputs and outputs | proved | Full statement. |
| C149 | Balance of water at every node | partial | Proved for settings that name every input, output and storage node once; refuted for an input node named twice. |
| C150 | No water is made or lost | proved | Full statement. |
| C151 | Shares of rivers | proved | Full statement. |
| C152 | Limits of flows | partial | Proved: limits hold with one slack and without a penalty exactly. Refuted: without feasibility constraints the slack is still there. |
| C153 | The ramp is that of the river | partial | Proved without feasibility constraints: the change since the first time is at most the range of the last river, whichever river it is. Refuted with feasibility constraints: no ramp holds. |
| C154 | Storage | partial | Proved for units at different nodes; refuted for two at the same node, of which the first is in no balance. |
| C155 | Links between scenarios | partial | Links hold as stated; without links the model is not built (UnboundLocalError, refuted). |
| C156 | Outlets keep a smallest flow | partial | Proved for output nodes with rivers; one without stops with an IndexError (refuted). |
| C157 | Complete settings give a model | proved | Full statement. |
| C158 | Shares that leave within a time step | proved | Full statement. |
| C159 | Flow downstream | proved | For rivers whose smallest and largest flow differ. |
| C160 | Tables of pumps | partial | The table of nodes drawn from is right; the one of nodes delivered to is filled at the nodes drawn from (refuted). |
| C161 | Given inputs | partial | Fixed inputs and several series hold; the scenario of a single series is ignored (refuted). |
| C162 | What is connected to a bus | proved | Full statement. |
| C163 | Flows of the security cases | proved | For listed cases; the flag for all branches is C166. |
| C164 | Balance at every bus | proved | For listed security cases; the flag for all branches is C166. |
| C165 | Generation covers loads, pumps and losses | partial | Proved with the pump of each bus and, without network, for all pumps; with two pumps at a bus the first draws nothing (refuted). |
| C166 | Security settings give a model | partial | Refuted for all networks: with SecurityFlag and a branch, and with cases but without estimated losses, the model cannot be built. |
| C167 | Flows follow the angles | partial | Laws and limits hold for all branches; the status of a branch is ignored (refuted). |
| C168 | Estimated losses | partial | Between the points of Loss_Param; beyond the last one losses are understated (refuted). |
| C169 | Curtailment only when allowed | partial | Without network; with network the setting is ignored (refuted). |
| C170 | Limits of generators | proved | Without unit commitment and cooling water (C174, C180). |
| C171 | Costs of generation | partial | Linear costs, points, and quadratic ones without a length of pieces; with a length that does not divide the capacity costs are understated, with a longer one they are 0, and a capacity of 0 stops the program (refuted). |
| C172 | The objective is the cost of the energy | partial | Refuted: the weight is counted twice; the bound with its square is proved for plants and farms. |
| C173 | Ramps of generators | partial | Ramps hold; a short list of ramps stops the program (refuted). |
| C174 | Unit commitment | proved | Without cooling water. |
| C175 | Minimum up and down times | partial | For units whose switched predecessors have a minimum time too and after the first step; a unit without minimum time before it shifts the variables, and at the first step units cannot start or stop (refuted). |
| C176 | Unit commitment over scenarios | partial | Refuted; the scenarios that do have a model must fit into the binary variables. |
| C177 | Pumps | partial | Limits hold; the bus is taken for a position (refuted). |
| C178 | Storage | partial | Refuted for all settings with storage. |
| C179 | Baseload | partial | For steps of equal weight and some baseload of hydropower; baseload of machines alone is ignored, and unequal weights exclude constant output (refuted). |
| C180 | Cooling water | partial | Without types; with types the temperatures of another machine, or none at all, may be used (refuted). |
| C181 | Ancillary services | partial | Bounds hold, for each service and all together, but the service keeps no capacity free (refuted). |
| C182 | Losses shared among the branches | partial | For flows along the branches; otherwise the shares do not add up (refuted). |
| C183 | Uncertain renewables keep support free | partial | The bound holds up to a service that any unit, and even the farms, can give; so the correction may change nothing (refuted). |
| C184 | Complete settings give a model | partial | Without storage, cooling, ancillary services and uncertain renewables; with storage no model is ever built (refuted). |
| C185 | Scenarios weigh as their intervals | proved | Full statement. |
| C186 | The tree fits the other models | proved | Full statement. |
| C187 | Setting the energy of one plant | partial | For several plants and numbers from 1; with one plant all inputs are set, and number 0 sets the last (refuted). |
| C188 | Hydropower within its energy | partial | Unless exactly one node is followed by alternatives; then they are not kept and a plant generates twice its energy (refuted). |
| C189 | The objective is the expected cost | partial | As a lower bound without conventional machines and with steps of weight 1; other weights count twice (refuted). |
| C190 | Water of the inputs is paid by the tree | partial | For inputs without pumps, with the plant of the same number; plants listed in another order generate more than is supplied, and with more inputs than plants there is no model (refuted). |
| C191 | Water at nodes added for pumps | partial | For the last of the pumps to a node. |
| C192 | Pumped water is not supplied twice | partial | Refuted: the power of the pump before is subtracted, as is shown for all answers. |
| C193 | Pumps need the power of what they lift | partial | Refuted for every pump with efficiency below 1: the efficiency divides where it should multiply. |
| C194 | Plants on rivers use the water of the rivers | partial | For each plant alone; two plants at a node use the water twice (refuted). |
| C195 | Plants and pumps at outputs use the water that leaves | partial | For the last plant and the last pump at an output, unless it is the last output and a plant is above a river, which removes the limit (refuted); more plants at outputs than outputs fail (refuted). |
| C196 | Water and energy of the rivers agree | partial | For steps of equal weight; otherwise water enters in light steps and leaves in heavy ones, and more is generated than supplied (refuted). |
| C197 | Rivers end as they began | proved | Full statement. |
| C198 | Reports state the energy of the answer | proved | Full statement. |
| C199 | Reports balance | partial | With network: no SecurityFlag, pumps at different buses, curtailment allowed. Without: one loaded bus. Otherwise curtailment of another scenario or none is reported (refuted). |
| C200 | Reports are sums over their parts | proved | Full statement. |
| C201 | Spilled renewable generation | proved | Full statement. |
| C202 | Components of the objective | partial | For steps of weight 1; the components do not use the weights of the steps (refuted). |
| C203 | Net demand and losses are reported | partial | Refuted: the net demand with demand always fails, and the report of losses always stops the program. |
| C204 | Urban and rural loads | partial | Unless one type is given for all loads and it is rural, which fails (refuted). |
| C205 | Profiles fit the steps of time | partial | For two steps only with 24 values; other lengths are accepted and lose values (refuted). |
| C206 | Setting demand | partial | For profiles from 1; profile 0 fails (refuted). |
| C207 | Setting renewable generation | partial | For profiles from 1 and models with farms; profile 0 sets the last value (refuted). |
| C208 | Setting capacities of generators | partial | For conventional and hydropower units without cooling systems. Switching on divides the capacity by the base again and does not undo switching off, and farms ignore it (refuted). |
| C209 | Setting lines | proved | Full statement. |
| C210 | Setting the status of an element | partial | For all elements but the first, whose status cannot be set (refuted). |
| C211 | Marginal value of water | partial | Rounding loses values below 1 (refuted); without sites the mean fails. |
| C212 | Setters keep the model consistent | partial | For demand, renewable generation and lines; a change of capacity is lost (refuted). |
| C213 | Energy of the hydropower sites | partial | Without rivers and for trees with one level, where the first node is reported; in deeper trees nothing is (refuted). |
| C214 | Positions of the network container | partial | For networks whose lines have two different ends. The positions of the ends are those of its two buses but not in their order (refuted); a line between a bus and itself gets one position (refuted). |
| C215 | Deletion from the network container | partial | For buses, lines and transformers; deleting a generator makes the buses lose the others of its kind (refuted). |
| C216 | Buses of islands and isolated nodes | partial | As soon as some element is in service; with nothing in service it fails (proved and refuted). |
| C217 | Islands are connected parts | proved | For every order in which networkx lists the components. |
| C218 | Elements of islands | proved | For every order in which networkx lists the components. |
| C219 | Generators of islands | proved | For generators at a bus of the network. |
| C220 | Islands are networks | proved | For every order in which networkx lists the components. |
| C221 | Supernodes of the reduction | proved | Elements out of service join buses too (C221_status_refuted). |
| C222 | Reduction conserves demand | partial | For demand; losses of elements that become artificial lines are counted twice (refuted). |
| C223 | What the reduction keeps | proved | Full statement. |
| C224 | Artificial buses and lines | partial | For the artificial buses; the coupling buses do not list the artificial lines (refuted). |
| C225 | Reduction preserves connectivity | partial | By elements whether in service or not, and for first numbers above those in use; by elements in service it is false (refuted). |
| C226 | When the reduction gives a network | partial | An exact condition: the level, a neighbour above for every part, and a line that stays; the level alone is not enough (refuted). |
| C227 | Generators in the reduction | partial | Generators of buses of the level stay when these buses are listed first; otherwise they may be moved (refuted). |
| C228 | Branches reported as preserved | partial | For the new places and the ends; the old places are those after the removal, and those of lines and transformers are not told apart (refuted). |
| C229 | The wrapper of GLPK states what is asked for | partial | For the lists of commands described, over exact numbers; other lists of commands stop the program (refuted). |
| C230 | The energy tree with GLPK and with pyomo | proved | The simplex method itself is not modelled: the theorem is about the set of answers. |
| C231 | The end of the energy tree with GLPK | proved | Full statement. |
| C232 | The energy tree with uncertainty and GLPK | partial | False for all data with an uncertain level after the first; C230 is the case without uncertainty. |
| C233 | Setters of the energy tree for GLPK | partial | True of inputs, outputs and weights; the links cannot be replaced and more nodes than links stop the program (refuted). |
| C234 | The optimal power flow with GLPK | proved | Over exact numbers, with the data as a record; the simplex method is not modelled: the theorem is about the set of answers. |
| C235 | Power is conserved with GLPK | partial | Proved with pumps and storage counted once for every bus, as the code does, and all buses in service; the statement itself is refuted. |
| C236 | Storage with GLPK gives what was stored | partial | Refuted: the sign is the other way round. What is given is proved to be the rise of the energy stored. |
| C237 | The objective of the optimal power flow with GLPK | partial | The costs of the units are proved; the objective counts the hours twice (refuted). |
| C238 | The economic dispatch with GLPK | partial | Refuted for all data: the method called does not exist. |
| C239 | Limits of the optimal power flow with GLPK | partial | The condition is proved; that it holds whenever there is a plan is refuted. |
| C240 | Data the optimal power flow with GLPK is built from | partial | Refuted, for all networks with more devices than cases and by examples. |
| C241 | Energy tree and power system together with GLPK | proved | For at most 11 vectors or at most 10 days; see C244 for the others. |
| C242 | Water used by the units of the joint model with GLPK | proved | Full statement. |
| C243 | Limits of the joint model with GLPK | proved | For at most 11 vectors or at most 10 days; see C244 for the others. |
| C244 | Any number of vectors and days in the joint model with GLPK | partial | Refuted for all trees and networks with twelve vectors and eleven days; C241 holds below. |
| C245 | Renewable units in the joint economic dispatch with GLPK | partial | Refuted for all networks with renewable units. |
| C246 | Hydro units without water in the joint model with GLPK | partial | Refuted by an example: a unit without a vector. |
| C247 | Balance of the joint economic dispatch with GLPK | partial | The rows are exact; missing: that the whole problem with these rows is built and solved. |
| C248 | Options of a workbook | proved | Full statement. |
| C249 | Elements of a workbook | proved | Full statement. |
| C250 | Every element with an ID is in the data (refuted) | partial | Refuted for all elements without a parameter. |
| C251 | All accepted columns reach the data (refuted) | partial | Refuted for three columns, whatever the sheet. |
| C252 | Tree of a workbook | proved | Full statement. |
| C253 | Parameters of the tree that are read again are replaced (refuted) | partial | Refuted for all levels that are read twice. |
| C254 | A title ends the block above it (refuted) | partial | Refuted for all pairs of blocks without an empty cell between them. |
| C255 | Profiles of a workbook | proved | Full statement. |
| C256 | Profiles are applied to parameters | proved | Full statement. |
| C257 | Group and zone of a profile tell its elements (refuted) | partial | Refuted for all lists of profiles that fit the parameters. |
| C258 | A profile of a group is for its elements only (refuted) | partial | Refuted for all groups. |
| C259 | Groups of profiles can be numbers (refuted) | partial | Refuted for all numbers. |
| C260 | One value for each hour of a day (refuted) | partial | Refuted for all pairs of profiles about a parameter. |
| C261 | The profile of an element replaces that of all (refuted) | partial | Refuted for all profiles of all elements followed by those of one. |
| C262 | Connections of a workbook | proved | Full statement. |
| C263 | Connections of a single element reach the model (refuted) | partial | Refuted for all sheets of connections of single elements. |
| C264 | Connections are read once (refuted) | partial | Refuted for all pairs of sheets. |
| C265 | Sheets can come in any order (refuted) | partial | Refuted for sheets of connections; C268 holds without them. |
| C266 | Other workbooks can be given by paths (refuted) | partial | Refuted for all workbooks with a path. |
| C267 | Variables can be keys of connections (refuted) | partial | Refuted for all sheets whose first key is a variable. |
| C268 | Order of sheets without connections | proved | Full statement. |
| C269 | A written case file is read back as the network | proved | Full statement. |
| C270 | The limits of a generator are written in one unit | partial | Refuted; the partial theorem gives what is written, for all networks. |
| C271 | The written file determines the network | partial | Refuted; the partial theorem lists all data the file depends on. |
| C272 | A network whose tables are fine gives a readable file | partial | Refuted for all networks with a generator without cost coefficients. |
| C273 | A Boolean status is written as a readable status | partial | Refuted for all networks with a generator with a Boolean status. |
| C274 | A failed writing leaves nothing that passes as a network | partial | Refuted for all networks with a generator without a limit of active power. |
| C275 | A floating-point last cost coefficient is readable | partial | Refuted for all networks with a floating-point last cost coefficient. |
| C276 | A PSS/E raw file is read as it says | proved | For files of any size; reactances of three-winding transformers are positive (C281, C282 for the others). |
| C277 | Only transformers of the file are written | partial | Refuted for all files without transformers of a kind. |
| C278 | Files with any number of buses are read | partial | Refuted for all files with a single bus or none. |
| C279 | The transformers are found where their section begins | partial | Refuted for all files with at most 14553 lines; the rows depend on the first line and the lines from there on only. |
| C280 | Star buses are new | proved | Full statement. |
| C281 | A pair of windings without reactance is read | partial | Refuted for all files with such a transformer at any position. |
| C282 | Reactances are limited to a hundred times the least | partial | Refuted for all files with such a transformer. |
| C283 | Impedances of code 3 use the base of the windings | partial | Refuted: files that differ in the base of the windings only give equal rows. |
| C284 | A version that is not supported is rejected | partial | Refuted for all other versions. |
| C285 | Bus names may hold commas | partial | Refuted for all names with one comma at any position. |
| C286 | Buses are converted to pypsa | proved | All networks whose parts belong together. |
| C287 | Set points are those of the generators | partial | Refuted; the set point of every bus is stated (VM or 0). |
| C288 | Conventional generators are converted | proved | All conventional generators. |
| C289 | Every generator has a component Gen{k} | partial | Refuted: names have no gap exactly when all generators are conventional; data of RES generators proved. |
| C290 | Each branch becomes a line or a transformer | proved | All branches; the base is taken not to be 0. |
| C291 | Lines between unknown buses are refused | proved | All networks that are otherwise sound. |
| C292 | Demand is put at its bus | partial | Proved for buses numbered by their positions, refuted otherwise. |
| C293 | Reactive demand is converted | partial | Refuted for all buses without active demand. |
| C294 | Tables hold the results of pypsa | partial | Proved without hydropower and RES and with buses numbered by positions; C295 shows both are needed. |
| C295 | Results can be collected for every network that can be converted | partial | Refuted for all networks with hydropower or RES, and for all with a missing number. |
| C296 | Costs are those of active power | partial | Refuted; the cost is proved to be that of the reactive power. |
| C297 | The objective counts all time steps | partial | Refuted; the objective is proved to be that of the last time step. |
| C298 | Files are opened for the devices of the outputs and closed | partial | Opening proved for all outputs; closing refuted for all outputs without HDF5. |
| C299 | The workbook has a complete table for each output | proved | All outputs of the optimal power flow with different names; values told apart by hour and ID, IDs that are no titles (C302, C304 show both are needed). |
| C300 | An output asked for twice has two tables | partial | Refuted for all names, places and values. |
| C301 | Writing ends | partial | Refuted for all values with one that has no ID; C299 proves the end for described values. |
| C302 | Values with the same description are all written | partial | Refuted for all pairs of different values. |
| C303 | Outputs of the balance tree are written | partial | Refuted for all outputs and values. |
| C304 | Every ID can be used | partial | Refuted, in two ways. |
| C305 | A table has values of its output only | partial | Refuted for values without a name. |
| C306 | Outputs asked for in a workbook are read | proved | Sheets of blocks with gaps; blocks without an end. |
| C307 | IDs in outputs are the texts of their cells | partial | Refuted for all texts, in two ways. |
| C308 | Outputs can ask for variables of some elements | partial | Refuted for all sheets with such a row. |
| C309 | What is asked for in a workbook is what the writer looks for | proved | All sheets of outputs. |
| C310 | Functions in a workbook are read | proved | Blocks with one or more single titles and a list at the end; C311 and C312 are the other blocks. |
| C311 | A block of functions can have one title | partial | Refuted for all sheets whose first block has one known title. |
| C312 | Every row of a block of functions gives a function | partial | Refuted for all blocks of single titles. |
| C313 | A function gets the characteristics of its element | partial | Proved when the parameters with the ID agree or there are none; refuted for a bus and generators with one ID. |
| C314 | Transformers without an impedance are rejected | proved | Transformers of two windings; codes 2 and 3. |
| C315 | Blank and short rows in a block of functions are skipped | partial | Refuted for all such rows. |
| C316 | Titles of functions can be in any order | partial | Refuted for all such titles. |
| C317 | --hydro n gives n hydropower plants | proved | All options. |
| C318 | --pump p gives p pumps | proved | All options and settings before. |
| C319 | --res r gives r RES generators | partial | Refuted for all numbers above 0; proved for 0. |
| C320 | The options of run-example-hydro take effect | partial | Baseline proved; the other options refuted for all values. |
| C321 | --sec gives the branches to trip | partial | Refuted for all texts that are not empty; proved without the option. |
| C322 | Losses are modelled in one way | proved | All options of run-n and run-en. |
| C323 | Every command selects one solver | proved | All commands and options. |
| C324 | The profiler runs with --profile only | partial | Refuted. |
| C325 | run-res runs its case | partial | Refuted for all options. |
| C326 | Files of networks and trees | proved | All names and commands. |
| C327 | Every output in a workbook has a sheet | partial | Refuted in two ways; C299 has the positive part. |
| C328 | An output without a name is refused | partial | Refuted for all such outputs. |
| C329 | An unknown title in a block of functions is reported | partial | Refuted in two ways; C310 has the positive part. |
| C330 | The other settings of the commands | proved | All commands and options. |
| C331 | The name of the case is the name of the file | partial | Proved for all paths with a folder and a dot; refuted for the others. |
| C332 | run-dist_path saves the plan | partial | Refuted for all paths and such plans. |
| C333 | The two screening programs agree without other demand | proved | All well-formed networks and settings. |
| C334 | The older screening program plans for the demand of the case | partial | Proved for active demand; refuted for reactive demand. |
| C335 | The sizes in the file of the older program | proved | All screening results with one nonnegative value per branch. |
| C336 | What the older screening program assumes | proved | All well-formed networks. |
| C337 | The report takes the first and the last scenario | partial | Proved for scenarios from 0 to 1000; refuted above. |
| C338 | The saved costs are those of the reported scenarios | partial | Proved for ordered scenarios from 0; refuted for other orders and for scenarios counted from 1. |
| C339 | Which plans can be saved | proved | All plans with scenarios from 0 to 1000. |
| C340 | What the summary of a study adds up | partial | Proved for both folders and runs by pyomo; refuted for runs by GLPK, for one folder and for repeated numbers. |
| C341 | The saved profiles | proved | All lists and sizes. |
| C342 | The components of the objective in the summary | proved | All models, answers and choices of components. |
| C343 | The tables saved for a solved model | partial | Proved with a network, curtailment and no losses, for at most as many scenarios as instances; refuted with losses. |

## 4. What is modelled and what is not

Abbreviations are those of the comments in the model files.

| source | modelled | not modelled |
| --- | --- | --- |
| `DataContainersInterface/AbstractDataContainer.py`, `OperationsAbstractDataContainer.py` | everything | |
| `Optimisers/RecursiveFunction.py` (RF) | pool, candidates, availability, operational check, incumbent, anticipative planner, updates before an OPF | printing |
| `Optimisers/NonAnticipativeRecursiveFunction.py` (NA) | `solve` and everything it calls, `get_solution` | printing |
| `managers/GeneralManager.py` | `main_access_function` from the control graph on | `DistributionSystemManager.py` (a stub) |
| `wrappers/networkx_wrapper.py` (NW) | graph operations used | plotting |
| `Optimisers/ControlGraphsCreator.py` (CG) | everything | Birch call is an oracle |
| `data_processing/clustering.py` (CL) | centroids | Birch itself (scikit-learn) |
| `readers/JSONReader.py` (JR) | reader of case files (`_build_mat_file`) with its number reader; settings reader: profiles in both formats, optimisation profiles, binary variables, problem and time settings, adjustment to the periods, growth profiles; ReaderManager | savemat, read_excel and json (arguments of the model), output and OPF settings (copied field by field) |
| `wrappers/PandaPowerManager.py`, `PandaPowerWrapper.py` (PM, PW) | updates, flexibility generators, controllers | time-series runs, result extraction, OPF itself (oracle) |
| `cases.py` (CA) | growth tree, clusters, planner input, investment options, report, flow of `attest_invest` | file names, command-line conversions, the older hydro and network cases |
| `Optimisers/screening_model_CLI.py` (SC) | the loop around the model (`main_screening`); the pyomo model (`model_screening`: constraints, objective, results) | the solver (any feasible, or any optimal, assignment); duals and printing |
| `Optimisers/scenarios_multipliers.py` (SM) | `get_mult` | |
| `Optimisers/clusters_verification_function.py` (CV) | everything, OPF as an oracle | spreadsheet reading (oracle) |
| `Optimisers/process_data.py` (PD) | multipliers, cost tables, factors, recording of values (the values as an oracle) | parts that build pyomo objects |
| `engines/pyene_Stochastic.py` (ST) | failure sequences, Monte-Carlo loop | random draws (arguments) |
| `engines/pyeneR.py` (RE) | wind and cooling | solar position |
| `engines/pyeneE.py` (EN) | sizes, tree, linked lists, data, constraints | printing, file input |
| `tests/matpower/conversion_model_mat2json.py` (CJ), `Optimisers/conversion_model_mat2json.py` (CO), `any2json` in `engines/pyeneI.py` (CI) | matpower2json, from the lines to the dictionary | opening the file, json.dump, constant entries |
| `engines/pyeneH.py` (HY) | settings, parts, network, tables, flow limits, variables and constraints | the solver (any feasible assignment), reading files, objective, printing |
| `engines/pyeneD.py` (DV), `engines/pyeneN.py` (NM) | buses, branches, security cases, generators, cost curves, variables, constraints, objective, sharing of losses | the solver (any feasible assignment), reading files, printing, taps and reactive power (no constraint uses them) |
| `engines/main.py` (MA) | initialisation, links between energy, network and rivers, weights of scenarios, objective, reports, setters | the solver (any feasible assignment), reading files, runs with the C++ models |
| `engines/pyene_Parameters.py` (PA) | the lists of elements, positions, deletion | entries that are only carried along, printing |
| `engines/pyene_Analizer.py` (AN) | islands and isolated nodes, with the order of networkx's components as an oracle; reduction to a voltage level | messages, `TemporalTree` |
| `engines/_glpk.pyx` | `GLPKSolver` as commands on a list of rows and columns (`Glpk.v`) | options, times, the simplex method, dual values |
| `engines/pyene_Models.py` (PM) | `Energymodel`, `Networkmodel` and `EnergyandNetwork` with GLPK (`GlpkEnergy.v`, `GlpkNetwork.v`, `GlpkJoint.v`) | the versions in C++, `_recursive_get_tree`, `_recursive_set_tree`, the constructor and setters of `Networkmodel` (its data are a record) |
| `excel2pyene` in `engines/pyeneI.py` (PI) | sheets of options, elements, the tree, profiles and connections; profiles applied to parameters; the order of sheets; sheets of functions and outputs, each by itself (`ExcelSheet.v`, `ExcelTree.v`, `ExcelProfiles.v`, `ExcelBook.v`, `ExcelOutputs.v`) | openpyxl (a sheet is a table of cells), messages |
| `pyene2any.pyene2matpower` in `engines/pyeneI.py` (PI) | all lines of the file (`MatWriter.v`) | the assertions, the path, the text of floating-point numbers (argument) |
| `PSSErawInterface` in `engines/pyeneI.py` (PI) | header, version, buses, transformers, the rows that are written (`Psse.v`) | opening the file, messages, the text of the written rows, inf and nan; the square root is an argument, exact arithmetic |
| `EInterfaceClass.pyene2pypsa` in `engines/pyeneI.py` (PI) and `PrintClass` in `engines/pyeneP.py` | the components that are added; the tables and the objective for results of pypsa (`Pypsa.v`) | pypsa (calls are recorded, the power flow is an oracle), the branch for pyomo of `PrintClass`, rows of security constraints |
| `pyeneSave` and `pyene2excel` in `engines/pyeneO.py` | which files are opened and closed, the cells of the workbooks (`Outputs.v`) | openpyxl (a sheet is the list of cells written), saving, the writers of HDF5, `get_outputs` (an argument) |
| rest of `engines/pyeneI.py`, `pyeneO.py`, `pyene_Models.py` | | everything |
| `Optimisers/input_output_function.py` (IO) | catalogues, options, time series, the report | printing, writing the report |
| `Optimisers/clusters_verification.py` (CS) | the search and storing, OPF as an oracle | reading files, printing |
| `cli.py` and the settings at the start of `test_pyeneAC`, `test_pyeneRES` and `hydro_example_tobeerased` in `cases.py` | the group, `_update_config_pyeneE`, `_update_config_pyeneN`, the commands `run-n`, `run-en`, `run-example-hydro`, `run-ac`, `run-res` up to the start of the engine (`Cli.v`) | click (options are values), the other commands, the rest of these cases |
| `attest_invest_path` in `cases.py` and the names of cases | the name from the path, clusters, what is saved (`CaseName.v`), the costs in the report (`SavedPlan.v`) | the planner (its results are arguments) |
| the HDF5 writer in `engines/pyeneO.py` | sums over runs, groups, the summary, tables of profiles (`Hdf5.v`), the tables of rows for pyomo (`Hdf5Rows.v`) | PyTables, the other tables, the settings; components, curtailment and spill of a run are arguments |
| `Optimisers/screening_model.py` | its balance of a bus, arguments and the file of sizes (`ScreenScript.v`); the other rules and the loop are those of the newer program (`Screening.v`, `Cases.v`) | the solver, the readers of its inputs, printing, the profiler |

## 5. Trusted base

* Coq's kernel (8.16.1), including its `vm_compute` reduction.
* `Print Assumptions` is run after every theorem in `Properties_*.v`.  It prints "Closed under the global
  context" for each of them: no theorem depends on an axiom.
* The standard library declares axioms that are loaded with it but on which no theorem depends:
  `Coq.ssr.ssrunder.Under_rel.Over_rel`, `Under_rel_from_rel`, `over_rel`, `over_rel_done`, `Under_rel`,
  `Under_relE` and `under_rel_done` (all in `Coq.ssr.ssrunder.Under_rel`).
* The faithfulness of the translation by hand, documented definition by definition with file and line
  citations.
* What the model leaves out: rounding, infinities and NaN of floats, the external libraries (oracles),
  files and printing.

## 6. Tests of the theorems

`seeded/LOG.jsonl` lists wrong versions of model definitions that were built in a scratch copy, with the
first lemmas or theorems that failed.  Edits that survived led to stronger theorems, which the log names.
