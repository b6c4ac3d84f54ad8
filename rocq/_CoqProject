-Q theories Verif
theories/Base.v
theories/PyDict.v
theories/PyDictFacts.v
theories/Graph.v
theories/GraphFacts.v
theories/GraphInv.v
theories/GraphInv2.v
theories/GraphInv3.v
theories/GraphQ.v
theories/GraphSpec.v
theories/GraphMain.v
theories/PropsGraph.v
theories/GraphPaths.v
theories/Dag.v
theories/PathSpec.v
theories/DagFacts.v
theories/PathFacts.v
theories/PathFacts2.v
theories/GraphCheck.v
theories/PathMain.v
theories/PropsPaths.v
theories/Actions.v
theories/ActionSpec.v
theories/ActionFacts.v
theories/ActionMain.v
theories/PropsActions.v
theories/Generators.v
theories/GenSpec.v
theories/GenFacts.v
theories/PropsGen.v
theories/Rules.v
theories/IndepTests.v
theories/Pipeline.v
theories/Parallel.v
theories/PipeFacts.v
theories/PipeSpec.v
theories/PipeMain.v
theories/RuleFacts.v
theories/PipeMain2.v
theories/Construct.v
theories/ConstructSpec.v
theories/ConstructFacts.v
theories/PropsConstruct.v
theories/Toy.v
theories/PropsPipe.v
theories/DagSep.v
theories/Rows.v
theories/Serve.v
theories/SkelSpec.v
theories/SkelFacts.v
theories/SkelStart.v
theories/SkelSteps.v
theories/SkelMatrix.v
theories/SkelMain.v
theories/Schedules.v
theories/SkelMain2.v
theories/DsepDec.v
theories/Ideal.v
theories/SkelTop.v
theories/PropsPC.v
theories/OrientSpec.v
theories/OrientGraph.v
theories/LoopFacts.v
theories/OrientMain.v
theories/OrientTop.v
theories/PropsOrient.v
theories/SampleGen.v
theories/SampleSpec.v
theories/SampleFacts.v
theories/SeriesFacts.v
theories/PropsSample.v
theories/Variables.v
theories/VariableSpec.v
theories/VariableFacts.v
theories/PropsVariables.v
theories/PyStr.v
theories/PyStrFacts.v
theories/Workspace.v
theories/WorkspaceSpec.v
theories/WorkspaceFacts.v
theories/PropsWorkspace.v
theories/PropsListing.v
theories/ColliderFacts.v
theories/ExtendFacts.v
theories/PropsCollider.v
theories/EffectSpec.v
theories/EffectFacts.v
theories/PropsEffect.v
theories/Numeric.v
theories/NumericSpec.v
theories/NumericFacts.v
theories/NumericFacts2.v
theories/PropsNumeric.v
theories/TotalSpec.v
theories/TotalFacts.v
theories/TotalMain.v
theories/PropsTotal.v
theories/Chordal.v
theories/CpdagFacts.v
theories/PropsCpdag.v
theories/Ball.v
theories/Covered.v
theories/MarkovSpec.v
theories/Markov.v
theories/PropsMarkov.v
theories/TypeSpec.v
theories/TypeFacts.v
theories/PropsTypes.v
theories/CpdagQuerySpec.v
theories/CpdagQuery.v
theories/PropsCpdagQuery.v
theories/Json.v
theories/JsonSpec.v
theories/JsonFacts.v
theories/PropsJson.v
theories/Config.v
theories/ConfigSpec.v
theories/ConfigFacts.v
theories/ConfigClasses.v
theories/PropsConfig.v
theories/PearsonStep.v
theories/PropsPearson.v
theories/JsonText.v
theories/JsonTextSpec.v
theories/JsonTextFacts.v
theories/JsonTextMain.v
theories/PropsJsonText.v
theories/ResultText.v
theories/ResultTextSpec.v
theories/ResultTextFacts.v
theories/PropsResult.v
theories/Execute.v
theories/ExecuteSpec.v
theories/ExecuteFacts.v
theories/ExecuteMain.v
theories/ResultJson.v
theories/ResultJsonFacts.v
theories/PropsExecute.v
theories/UpdateVariable.v
theories/Diff.v
theories/DiffSpec.v
theories/DiffFacts.v
theories/PropsDiff.v
theories/Server.v
theories/ServerSpec.v
theories/PropsServer.v
theories/Alias.v
theories/AliasSpec.v
theories/PropsAlias.v
theories/GraphResult.v
theories/GraphResultSpec.v
theories/GraphResultFacts.v
theories/PropsGraphResult.v
theories/DataSpec.v
theories/DataFacts.v
theories/DataMain.v
theories/UnitsSpec.v
theories/UnitsFacts.v
theories/PropsData.v
theories/TestedSpec.v
theories/TestedFacts.v
theories/TestedMain.v
theories/PropsTested.v
theories/Initial.v
theories/InitialSpec.v
theories/InitialFacts.v
theories/InitialFacts2.v
theories/PropsInitial.v
theories/LinearSpec.v
theories/LinearFacts.v
theories/LinearFacts2.v
theories/LinearFacts3.v
theories/LinearFacts4.v
theories/LinearThree.v
theories/PropsLinear.v
theories/LinearEffectSpec.v
theories/LinearEffectFacts.v
theories/PropsLinearEffect.v
theories/HookSpec.v
theories/HookFacts.v
theories/PropsHooks.v
theories/Mixins.v
theories/MixinSpec.v
theories/MixinFacts.v
theories/Inducing.v
theories/InducingFacts.v
theories/PropsMixins.v
theories/Fci.v
theories/FciSpec.v
theories/FciFacts.v
theories/PropsFci.v
theories/Nan.v
theories/NanSpec.v
theories/NanFacts.v
theories/PropsNan.v
theories/ConflictSpec.v
theories/ConflictFacts.v
theories/PropsConflict.v
theories/SampledSpec.v
theories/PropsSampled.v
theories/JsonGrammarSpec.v
theories/JsonGrammarFacts.v
theories/DataFile.v
theories/DataFileSpec.v
theories/DataFileFacts.v
theories/PropsDataFile.v
theories/DataLoader.v
theories/PropsDataLoader.v
theories/EdgeHooks.v
theories/EdgeHookSpec.v
theories/EdgeHookFacts.v
theories/PropsEdgeHook.v
theories/PlaneSpec.v
theories/PlaneFacts.v
theories/PlaneRun.v
theories/PropsPlane.v
theories/ThresholdSpec.v
theories/PropsThreshold.v
theories/PropsCycle.v
theories/PropsAgain.v
theories/VerdictSpec.v
theories/VerdictFacts.v
theories/PropsVerdict.v
theories/MirrorSpec.v
theories/MirrorFacts.v
theories/PropsMirror.v
theories/NamesFacts.v
theories/PropsNames.v
theories/Create.v
theories/CreateSpec.v
theories/CreateFacts.v
theories/PropsCreate.v
theories/GroupsFacts.v
theories/PropsGroups.v
theories/MinimalSpec.v
theories/MinimalFacts.v
theories/MinimalMain.v
theories/StableSizes.v
theories/MinimalTop.v
theories/PropsMinimal.v
theories/Eject.v
theories/Cli.v
theories/CliSpec.v
theories/PropsCli.v
theories/AncestralSpec.v
theories/AncestralFacts.v
theories/PropsAncestral.v
theories/EffectUnitsSpec.v
theories/EffectUnitsFacts.v
theories/PropsEffectUnits.v
theories/WithoutSpec.v
theories/PropsWithout.v
theories/AgainSpec.v
theories/AgainFacts.v
theories/AgainMain.v
theories/AgainEnd.v
theories/PropsRepeat.v
theories/TogetherSpec.v
theories/TogetherFacts.v
theories/PropsTogether.v
theories/RecolliderSpec.v
theories/RecolliderFacts.v
theories/RecolliderMain.v
theories/PropsRecollider.v
theories/PlaneEnd.v
theories/PlaneRunSpec.v
theories/PropsPlaneRun.v
theories/EjectSpec.v
theories/PropsEject.v
theories/OrientThree.v
theories/OwnSpec.v
theories/OwnFacts.v
theories/PropsOwn.v
theories/FaithSpec.v
theories/FaithFacts.v
theories/FaithMain.v
theories/PropsFaith.v
theories/Concurrent.v
theories/ConcurrentFacts.v
theories/ConcurrentMain.v
theories/PropsConcurrent.v
theories/PropsConfig2.v
theories/Clearing.v
theories/ClearingFacts.v
theories/PropsClearing.v
theories/PropsSaved.v
theories/Editing.v
theories/PropsEditing.v
theories/PropsFaith2.v
theories/ClearingMain.v
theories/PropsClearing2.v
theories/ArrangeSpec.v
theories/ArrangeFacts.v
theories/ArrangeExact.v
theories/PropsArrange.v
theories/PropsEditing2.v
theories/ExtendSpec.v
theories/PropsExtend.v
theories/KnowSpec.v
theories/KnowGraph.v
theories/KnowMain.v
theories/KnowTop.v
theories/PropsKnow.v
theories/PropsModel.v
theories/PropsTiers.v
theories/ForcedSpec.v
theories/KnowCpdag.v
theories/PropsForced.v
theories/PropsTellLoop.v
