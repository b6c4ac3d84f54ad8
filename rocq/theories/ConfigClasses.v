(* The classes of causy that a definition can name, with their defaults, and the pipeline of PC. *)
From Coq Require Import QArith.
From Verif Require Import Base PyDict PyStr Json Variables Config.
Close Scope Q_scope.
Open Scope string_scope.
Open Scope list_scope.

Definition m_settings := "causy.models.ComparisonSettings".
Definition m_all := "causy.generators.AllCombinationsGenerator".
Definition m_between := "causy.generators.PairsWithEdgesInBetweenGenerator".
Definition m_neighbours := "causy.generators.PairsWithNeighboursGenerator".
Definition m_sample := "causy.generators.RandomSampleGenerator".
Definition m_pearson := "causy.common_pipeline_steps.calculation.CalculatePearsonCorrelations".
Definition m_coefficient := "causy.causal_discovery.constraint.independence_tests.common.CorrelationCoefficientTest".
Definition m_partial := "causy.causal_discovery.constraint.independence_tests.common.PartialCorrelationTest".
Definition m_matrix := "causy.causal_discovery.constraint.independence_tests.common.ExtendedPartialCorrelationTestMatrix".
Definition m_regression := "causy.causal_discovery.constraint.independence_tests.common.ExtendedPartialCorrelationTestLinearRegression".
Definition m_collider := "causy.causal_discovery.constraint.orientation_rules.pc.ColliderTest".
Definition m_noncollider := "causy.causal_discovery.constraint.orientation_rules.pc.NonColliderTest".
Definition m_triple := "causy.causal_discovery.constraint.orientation_rules.pc.FurtherOrientTripleTest".
Definition m_quadruple := "causy.causal_discovery.constraint.orientation_rules.pc.OrientQuadrupleTest".
Definition m_further := "causy.causal_discovery.constraint.orientation_rules.pc.FurtherOrientQuadrupleTest".
Definition m_fci := "causy.causal_discovery.constraint.orientation_rules.fci.ColliderRuleFCI".
Definition m_effects := "causy.causal_effect_estimation.multivariate_regression.ComputeDirectEffectsInDAGsMultivariateRegression".
Definition m_placeholder := "causy.common_pipeline_steps.placeholder.PlaceholderTest".
Definition m_loop := "causy.common_pipeline_steps.logic.Loop".
Definition m_together := "causy.common_pipeline_steps.logic.ApplyActionsTogether".
Definition m_exit := "causy.common_pipeline_steps.exit_conditions.ExitOnNoActions".

(* ComparisonSettings(min=a, max=b) (models.py:26-33) *)
Definition between (a b : Z) : settings := mkSettings m_settings (PInt a) (PInt b).
(* AllCombinationsGenerator(comparison_settings=...) with the defaults of GeneratorInterface (interfaces.py:295-300) *)
Definition combinations_of (a b : Z) : gen := Gen m_all (Some (between a b)) (PBool false) PNone PNone None NoGen.
(* the defaults of PipelineStepInterface (interfaces.py:345-359), with the generator, parallel False and the chunk
   size of a class *)
Definition defaults (g : option gen) (chunk : Z) (needs : bool) (extra : list (string * pv)) : step :=
  mkStep "" g (PFloat (FNum (1 # 100))) (PInt chunk) (PBool false) PNone (PBool needs) (PBool false) extra.
Definition pairs : class := CStep (defaults (Some (combinations_of 2 2)) 1 false []) false.
(* PairsWithNeighboursGenerator(comparison_settings=ComparisonSettings(min=4, max=0), shuffle_combinations=False)
   (independence_tests/common.py:171-176 and 309-314) *)
Definition neighbours_of (chunked shuffle : bool) (a b : Z) : gen := Gen m_neighbours (Some (between a b)) (PBool chunked) PNone (PBool shuffle) None NoGen.
Definition causy_table : list (string * class) :=
  [(m_settings, CSettings (Some (PInt 2)) (Some (PInt 0)));                                     (* models.py:26-28 *)
   (m_all, CGen GPlain (PBool false) PNone PNone);                                              (* generators.py:21 *)
   (m_between, CGen (GEdges (PInt 100)) PNone PNone PNone);                                     (* generators.py:57-77 *)
   (m_neighbours, CGen GPlain (PBool true) PNone (PBool true));                                 (* generators.py:97-113 *)
   (m_sample, CGen GSample (PBool false) (PInt 100) PNone);                                     (* generators.py:192-216 *)
   (m_pearson, pairs);                                                                          (* calculation.py:15-22 *)
   (m_coefficient, pairs);                                                                      (* common.py:25-32 *)
   (m_partial, CStep (defaults (Some (combinations_of 3 3)) 1 false []) false);                 (* common.py:77-84 *)
   (m_matrix, CStep (defaults (Some (neighbours_of true false 4 0)) 1000 false []) false);      (* common.py:168-176 *)
   (m_regression, CStep (defaults (Some (neighbours_of true false 4 0)) 1000 false []) false);  (* common.py:306-314 *)
   (m_collider, CStep (defaults (Some (combinations_of 2 2)) 1 true [("conflict_resolution_strategy", PEnum "KEEP_FIRST")]) false);  (* pc.py:77-90 *)
   (m_noncollider, pairs); (m_triple, pairs); (m_quadruple, pairs); (m_further, pairs);         (* pc.py:217-224, 308-315, 366-373, 434-441 *)
   (m_fci, pairs);                                                                              (* fci.py:13-20 *)
   (m_effects, CStep (defaults (Some (Gen m_between None PNone PNone PNone (Some (PInt 100)) NoGen)) 1 false []) false);   (* multivariate_regression.py:14-18 *)
   (m_placeholder, CStep (mkStep "" None (PFloat (FNum (1 # 100))) (PInt 1) (PBool true) PNone (PBool false) (PBool false)
      [("placeholder_str", PStr "placeholder"); ("placeholder_int", PInt 1); ("placeholder_float", PFloat (FNum 1)); ("placeholder_bool", PBool true)]) true);  (* placeholder.py:15-35 *)
   (m_loop, CLogic); (m_together, CLogic); (m_exit, CExit)].                                    (* logic.py:17, 67; exit_conditions.py:4 *)
Definition causy_classes (n : string) : option class := dget causy_table n.

(* calls of constructors as they are written in the algorithms *)
Definition no_args : step_args := mkArgs None PNone PNone PNone PNone PNone [].
Definition named (d : string) : step_args := mkArgs None PNone PNone PNone (PStr d) PNone [].
Definition at_threshold (d : string) : step_args := mkArgs None (PRef "threshold") PNone PNone (PStr d) PNone [].
Definition make_item (c : string) (a : step_args) : res item := rbind (init_step causy_classes c a) (fun s => Ok (IStep s)).
(* PC_ORIENTATION_RULES (algorithms/pc.py:40-52) *)
Definition pc_rules : res (list item) :=
  rbind (make_item m_collider (named "Collider Test")) (fun c =>
  rbind (all_res (fun p => make_item (fst p) (named (snd p))) [(m_noncollider, "Non-Collider Test"); (m_triple, "Further Orient Triple Test"); (m_quadruple, "Orient Quadruple Test"); (m_further, "Further Orient Quadruple Test")]) (fun l =>
  rbind (init_logic causy_classes m_loop l (Some m_exit) (PStr "Orientation Rules Loop")) (fun l => Ok [c; l]))).
(* the tests of PC (algorithms/pc.py:66-80) *)
Definition pc_tests : res (list item) :=
  rbind (make_item m_pearson (named "Calculate Pearson Correlations")) (fun p =>
  rbind (all_res (fun p => make_item (fst p) (at_threshold (snd p))) [(m_coefficient, "Correlation Coefficient Test"); (m_partial, "Partial Correlation Test"); (m_matrix, "Extended Partial Correlation Test Matrix")]) (fun l => Ok (p :: l))).
(* the algorithm PC (algorithms/pc.py:63-90) without its extension *)
Definition pc_spec : res spec :=
  rbind pc_tests (fun t => rbind pc_rules (fun r => rbind (make_item m_effects (named "Compute Direct Effects in DAGs Multivariate Regression")) (fun e =>
  Ok (mkSpec "PC" (t ++ r ++ [e]) [EObj "DIRECTED" true "-->"; EObj "UNDIRECTED" false "---"] [mkVar "threshold" TyFloat (SFloat (FNum (5 # 100))) None])))).
