# Formal model of causy in Rocq (Coq 8.16.1)

This file says what is modelled, how each property of `properties.jsonl` is proved, and what the
result rests on.  It was written before the proofs and is kept current with them.

## Conventions of the model

* A Python object graph becomes immutable values.  A method that mutates returns the new state; a
  method that can raise returns `res A` (`Ok a | Err e`), and a mutating method returns the state
  *also in the error case*, so partial effects before an exception stay visible.
* Python dicts are insertion-ordered association lists (`PyDict.v`) because the code iterates over
  them and the iteration order is observable.
* Node objects are represented by their id.  Every graph method converts nodes to ids first.  The
  code compares node objects with `==` (pydantic field equality); inside one process this is the same
  as comparing ids, because ids are the dict keys and the objects are shared.  Comparing a node with a
  pickled copy of itself (which would compare tensors) is not modelled.
* float64 numbers in metadata are opaque 64-bit patterns (`Z`).  The numeric core of an
  independence test (Fisher z, p-value, matrix inverse, least squares) is an oracle argument (record
  `numerics`) that may answer "independent", "dependent", "give up" or raise; it is never an axiom.
  Numeric facts are proved separately over the reals in exact arithmetic; rounding is not modelled.
* Python `set` iteration order is an oracle (a function that returns some permutation without
  repetitions).  Theorems quantify over it.  Worker arrival order and snapshot staleness in parallel
  steps likewise.
* Loops that may not end are run with explicit fuel and return a distinguished out-of-fuel error;
  theorems either show the fuel suffices or show that no fuel suffices.
* Logging, durations, progress output and UI configuration are not modelled.

## Files

| file | content |
|------|---------|
| `Base.v`, `PyDict.v`, `PyStr.v` | errors and results, `itertools.combinations`, Python dict, Python string functions |
| `Graph.v` | `causy/graph.py` state, mutators and simple queries, `edge_types.py` mixin |
| `GraphPaths.v` | path, descendant and d-separation queries of `graph.py`, `edge_types.py:directed_paths` |
| `Actions.v` | `GraphModel._take_action` and friends (`graph_model.py`) |
| `Generators.v` | `causy/generators.py` |
| `Rules.v` | orientation rules (`orientation_rules/pc.py`, `fci.py`) |
| `IndepTests.v` | decision logic of the independence tests, the Pearson step and effect estimation |
| `Pipeline.v` | `execute_pipeline_step`, logic steps, exit conditions, `execute_pipeline_steps`, the four PC variants |
| `Parallel.v`, `Schedules.v` | parallel steps: every schedule of workers, and some particular ones |
| `Construct.v` | building the graph from data, JSON loaders |
| `Numeric.v` | the formulas of the correlation step, the independence tests and effect estimation, over the real numbers |
| `SampleGen.v` | `causy/sample_generator.py` |
| `HookSpec.v` | specification only: what hooks let through, actions that have been carried out |
| `Mixins.v` | the part of `graph_model_factory` that extends `Graph`, Python's C3 linearisation and attribute lookup, the shipped mixins |
| `MixinSpec.v` | specification only: iteration orders of sets, queries with one owner |
| `Inducing.v` | `fci.py` InducingPathExtension |
| `Fci.v` | the step `ColliderRuleFCI` |
| `FciSpec.v` | specification only: marks and arrowheads |
| `Nan.v` | the correlation tests with nan and Python's exceptions, over the reals |
| `NanSpec.v` | specification only: constant and repeated columns |
| `ConflictSpec.v` | specification only: unshielded triples, contradicting colliders, reports |
| `SampledSpec.v` | specification only: what a random sample keeps |
| `JsonGrammarSpec.v` | specification only: JSON texts and the values they denote, as a grammar |
| `DataFile.v`, `DataFileSpec.v` | data files: streams of rows, the loop over them; tables as JSON values and lines |
| `DataLoader.v` | loader references, dynamic loaders, hashes of loaders |
| `EdgeHooks.v`, `EdgeHookSpec.v` | taking actions with the hooks of edge types; which calls are due |
| `PlaneSpec.v` | columns calculated from two others (C104) |
| `ThresholdSpec.v` | tests given by p-values, at a threshold (C105) |
| `VerdictSpec.v`, `VerdictFacts.v`, `PropsVerdict.v` | runs whose tests come to the same verdicts (C108) |
| `MirrorSpec.v`, `MirrorFacts.v`, `PropsMirror.v` | data with variables turned round (C109) |
| `NamesFacts.v`, `PropsNames.v` | renaming the columns (C110) |
| `Create.v`, `CreateSpec.v`, `CreateFacts.v`, `PropsCreate.v` | `slugify`, the commands that add to a workspace and the files they write (C111) |
| `GroupsFacts.v`, `PropsGroups.v` | tables with unrelated groups of columns (C112) |
| `MinimalSpec.v`, `MinimalFacts.v`, `MinimalMain.v`, `StableSizes.v`, `MinimalTop.v`, `PropsMinimal.v` | the sizes of the separating sets (C113) |
| `Eject.v`, `EjectSpec.v`, `PropsEject.v`, `Cli.v`, `CliSpec.v`, `PropsCli.v` | the commands `causy execute` and `causy eject` (C114) |
| `AncestralSpec.v`, `AncestralFacts.v`, `PropsAncestral.v` | tables with fewer columns (C115) |
| `EffectUnitsSpec.v`, `EffectUnitsFacts.v`, `PropsEffectUnits.v` | estimated effects in other units, row orders and repetitions (C116) |
| `WithoutSpec.v`, `PropsWithout.v` | tests on graphs without correlations (C117) |
| `AgainSpec.v`, `AgainFacts.v`, `AgainMain.v`, `AgainEnd.v`, `PropsRepeat.v` | executing a finished model again when nothing was removed (C107) |
| `TogetherSpec.v`, `TogetherFacts.v`, `PropsTogether.v` | steps that are applied together (C118) |
| `RecolliderSpec.v`, `RecolliderFacts.v`, `RecolliderMain.v`, `PropsRecollider.v` | ColliderTest on graphs that already have arrows (C119) |
| `PlaneRunSpec.v`, `PlaneEnd.v`, `PropsPlaneRun.v` | the tables on which runs end well (C120) |
| `OrientThree.v`, `OwnSpec.v`, `OwnFacts.v`, `PropsOwn.v` | algorithms put together from the shipped steps (C121) |
| `FaithSpec.v`, `FaithFacts.v`, `FaithMain.v`, `PropsFaith.v` | tests that are right only where it matters (C122) |
| `Concurrent.v`, `ConcurrentFacts.v`, `ConcurrentMain.v`, `PropsConcurrent.v` | execute commands that run at the same time (C123) |
| `Clearing.v`, `ClearingFacts.v`, `ClearingMain.v`, `PropsClearing.v`, `PropsClearing2.v` | clearing an experiment while an execute command runs (C124) |
| `Editing.v`, `PropsEditing.v`, `PropsEditing2.v` | commands that edit the workspace at the same time (C125) |
| `PropsSaved.v` | what a saved result tells of its algorithm (C75) |
| `PropsConfig2.v` | defaults of the steps, the shape of PC and how edge types are written (C70, C71) |
| `PropsFaith2.v` | under the conditions of C122: the result is the equivalence class, runs agree, and the result tells the DAG up to equivalence |
| `ArrangeSpec.v`, `ArrangeFacts.v`, `ArrangeExact.v`, `PropsArrange.v` | pipelines put together from the shipped steps (C126) |
| `ExtendSpec.v`, `PropsExtend.v` | pipelines with tests that users have written (C127) |
| `KnowSpec.v`, `KnowGraph.v`, `KnowMain.v`, `KnowTop.v`, `PropsKnow.v` | steps that tell directions the user knows (C128) |
| `PropsModel.v` | effects in linear data with known directions (C129) |
| `PropsTiers.v` | a user's step for tiers of variables, and PC with it (C130) |
| `ForcedSpec.v`, `KnowCpdag.v`, `PropsForced.v` | which arrows known directions force (C131) |
| `PropsTellLoop.v` | steps that tell directions, inside the loop (C132) |
| `LinearEffectSpec.v` | specification only: the weight of an edge, exact regression |
| `LinearSpec.v` | specification only: data that follow linear structural equations, exact tests |
| `Initial.v`, `InitialSpec.v` | `causy/sample_generator.py`: the initial values of a time series (companion matrix, Kronecker system) over exact numbers |
| `Variables.v` | `causy/variables.py`, resolution of references in `graph_model_factory` |
| `Workspace.v` | `workspaces/cli.py`, `workspaces/models.py`, `serialization.py:load_algorithm_by_reference`, the path check of `ui/server.py` |
| `Json.v` | `graph_utils.py:hash_dictionary`, the text `json.dumps` writes for it |
| `Config.v`, `ConfigClasses.v` | constructors of steps and generators, `model_dump` of pipelines and loading them, the table of built-in classes, the pipeline of PC |
| `*Spec.v` | specification vocabulary, written without the model's helper functions |
| `Dag.v` | independent specification: DAGs, paths, d-separation |
| `DagFacts.v`, `DagSep.v`, `DsepDec.v` | facts about that specification, a decision procedure for d-separation |
| `Ideal.v`, `Toy.v`, `GraphCheck.v` | numeric answers and graphs used to show that hypotheses can be met |
| `JsonText.v`, `JsonTextSpec.v` | JSON texts of results: writing with causy's encoder, reading, what is read back |
| `ResultText.v`, `ResultTextSpec.v` | saved results: what the encoder makes of a result, what `deserialize_result` accepts |
| `ResultJson.v` | the texts that `execute` saves and reads, for the results of `Workspace.v` |
| `Execute.v`, `ExecuteSpec.v` | the file operations of `execute`, `experiment clear` and of writing the workspace; killed processes |
| `Diff.v`, `DiffSpec.v` | the diff command: names, the table of edges, the printed lines |
| `UpdateVariable.v` | how update-variable reads the typed value |
| `Server.v`, `ServerSpec.v` | the endpoints of the web server as sequences of looks at the directory, the port search; running processes |
| `Alias.v`, `AliasSpec.v` | the dictionaries of edge data as shared, mutable objects: correlation and effect steps that write in place |
| `GraphResult.v`, `GraphResultSpec.v` | the Result object that is made of a graph after a run (nodes, edges, history), as the objects of `ResultText.v` |
| `DataSpec.v`, `UnitsSpec.v` | runs on different data: routines that answer alike, the same pipeline with other routines, exact routines, data in other units or order |
| `TestedSpec.v` | what the tests answer on the data of a run; tests whose answers do not depend on the order of the arguments; renamed columns |
| `*Facts.v`, `*Main.v`, `*Inv*.v`, `GraphQ.v`, `Rows.v`, `Serve.v`, `Skel*.v`, `Orient*.v`, `Chordal.v`, `Ball.v`, `Covered.v`, `Markov.v`, `CpdagQuery.v`, `PearsonStep.v` | proofs |
| `Props*.v` | the property theorems, each with `Print Assumptions` and an `Example` that meets its hypotheses |

## Properties: what is proved and how

Theorem names and remarks are in `MANIFEST.json`.  "refuted" theorems give a concrete counterexample to the
unrestricted statement; "partial" theorems say what does hold.

| id | property | status | approach |
|----|----------|--------|----------|
| C01 | Parent queries agree with edge queries | proved | Invariant "forward and reverse index hold the same pairs" by induction over the operation list; the hard `remove_edge` on a one-way edge breaks it, shown by a witness. |
| C02 | No self loops and no dangling endpoints | proved | Invariant by induction over all operation histories, including raising operations. |
| C03 | Rejected operations leave the graph untouched | proved | Case analysis of every operation against the guard it checks; the KeyError witness shows which errors leave partial effects. |
| C04 | Soft removal and restore are inverse | proved | Soft delete and restore as state equations, all graphs. |
| C05 | Hard removal and restore are inverse | partial | Exact description of the state after hard remove and restore; the full claim is false (type and metadata are reset). |
| C06 | Purging is invisible to queries | proved | All queries before and after purge related through the set of live directions. |
| C07 | Edge classification is coherent | proved | Boolean algebra over the two live directions, no assumption on the state. |
| C08 | Edge mutations are local | proved | Frame theorem per operation. |
| C09 | Reading the value of an existing edge succeeds | partial | True for the live direction; KeyError witness for the other. |
| C10 | Edge history is append-only | proved | Prefix relation on histories, induction over operations and actions. |
| C11 | Path enumeration is exact | proved | Enumeration by recursion with fuel; soundness, completeness and NoDup by induction over simple paths. |
| C12 | Descendants are exactly the reachable nodes | proved | Fixpoint of the worklist against reflexive-transitive closure. |
| C13 | A positive d-separation answer is right | proved | Every open path of the specification is found by the code, so "separated" is never wrong. |
| C14 | A negative d-separation answer is right | partial | The code resets its collider flag per path; exact under the stated condition, refuted in general. |
| C15 | d-separation is symmetric | partial | Same condition as C14; asymmetric witness. |
| C16 | Directed path queries decide reachability | proved | Depth-first search against reachability; divergence on undirected edges shown for every fuel. |
| C17 | Directed path listing returns only genuine paths, and all of them | partial | Exact description of the listed paths; missing path witness. |
| C18 | A dry run does not touch the graph | proved | Direct from the action model. |
| C19 | Each action has exactly its documented effect | proved | Effect table (`ActionSpec`) against the model of every action kind. |
| C20 | Reported actions are a subsequence of the proposed ones | proved | Induction over proposals, arbitrary hooks. |
| C21 | The action log replays to the same graph | proved | Replaying the log gives the same whole graph state. |
| C22 | Every reported action changed the graph | partial | Holds for all actions except removing an already removed direction. |
| C23 | Combination generator is exact | proved | Membership, order and NoDup of combinations. |
| C24 | Edge-pair generator is exact | partial | Membership and NoDup; chunked variant yields pairs twice. |
| C25 | Neighbour generator is exact | proved | Membership, NoDup, all set orders and shuffles. |
| C26 | Skeleton of PC is the true skeleton | proved | Loop invariant of the skeleton phase: an edge of D is never removed, every removed pair has a recorded separating set; completeness from the local Markov property proved in `DagSep.v`. |
| C27 | PC orients every v-structure | proved | Invariant of the orientation phase plus exactness of the separating sets. |
| C28 | Every arrow PC draws is true | proved | Every removal reverses an arrow derived by Meek's rules; at the fixpoint all derived arrows are drawn. |
| C29 | The orientation loop terminates on every graph | proved | Measure: number of live directions. |
| C30 | PC stops only when no rule applies | proved | A pass without actions means every rule is idle; under perfect tests the graph is closed under Meek's rules. |
| C31 | PC returns the equivalence class of D | proved | Meek completeness proved in full (`CpdagFacts.v`): adjacent two-way vertices have the same incoming arrows (induction over rule derivations), the two-way part has a perfect elimination order that can end in any vertex (`Chordal.v`), and directing it along such an order adds no cycle and no v-structure. |
| C32 | PC and PCClassic agree | proved | Both results equal the same pattern of D. |
| C33 | PCStable recovers the skeleton and draws only true arrows | partial | Skeleton as C26; the arrows are wrong because logic steps do not purge (witness). |
| C34 | Parallel skeleton phase is schedule independent | partial | Relational model of schedules; soundness for all, exactness for start snapshots, witness for fresh snapshots. |
| C35 | Discovery never invents edges | proved | Invariant for arbitrary numeric answers and schedules. |
| C36 | Collider orientation keeps adjacencies | proved | Simulation of the taken actions: a pair never loses its second direction. |
| C37 | Orientation keeps adjacencies | partial | False in general (8-variable PC run); holds if a consistent extension exists. |
| C38 | A PC run does not crash | proved | Every phase keeps an invariant that excludes every raise except those of the numeric functions; tests may answer anything. Loop end by C29. |
| C39 | The run log has one entry per step | proved | Induction over the pipeline. |
| C40 | Graph is free of soft-deleted edges after a run | partial | Holds when the last step is a plain one; witness otherwise. |
| C41 | Input tables become the same graph in every format | proved | All four input formats against one table specification. |
| C42 | The starting graph is complete | proved | Induction over the pair list. |
| C43 | Generated samples follow the structural equations | proved | Induction along the topological order, abstract arithmetic. |
| C44 | The generator's topological order is valid | proved | Kahn's algorithm against the order specification, non-termination for every fuel on cycles. |
| C45 | Correlation is well behaved | proved | Real numbers: Cauchy-Schwarz with its equality case; None is nan. |
| C46 | The two partial correlation tests compute the same number | proved | Rows of the inverse covariance matrix as dual vectors of the centred variables; residuals of regression with a constant. |
| C47 | Variable values are validated exactly | proved | Validation functions against a type relation; pydantic coercion is an argument. |
| C48 | Resolved pipelines contain no references | partial | Induction over configuration values; lists and empty variable sets refuted. |
| C49 | Experiment result versions are found and ordered | proved | Directory as a list of names in any order. |
| C50 | Workspace edits keep references valid | proved | Invariant over command sessions. |
| C51 | Loading algorithm files is confined to the working directory | partial | String prefix check against path components. |
| C52 | Every action kind can be carried out on an edge it applies to | partial | Exact condition for raising; two refutations. |
| C53 | A failing action is not half applied | partial | Actions other than RESTORE_EDGE are atomic; witness for RESTORE_EDGE. |
| C54 | The sample graph is the edge list | proved | Induction over the edge list. |
| C55 | Generated time series follow the lagged equations | proved | Induction over time steps; contemporaneous edges refuted. |
| C56 | Skipping an unchanged experiment loses nothing | partial | Two code paths related through resolution of variables; refuted without values. |
| C57 | Experiments do not influence each other | partial | Histories of executions over shared objects; refuted for modules with references. |
| C58 | Listing queries agree with pair queries | proved | Listing functions against pair queries on reachable graphs. |
| C59 | Effect estimation fills every directed edge | proved | The step collects all proposals first, so every update reads the graph it started with; induction over the updates. |
| C60 | Direct effects adjust for the causes of the effect variable | partial | Consequence of C28 and C59; witness x -> u <- y, u -> v, u -> w, v -> w. |
| C61 | The regression test agrees with the matrix test | partial | Least squares by minimal misfit; equal for variables of mean zero, witness otherwise (no constant is fitted). |
| C62 | Test decisions follow the strength of the correlation | proved | Monotonicity of Fisher's transformation; a dimension count shows that an invertible covariance matrix has enough observations. |
| C63 | Direct effects recover the coefficients of a linear model | partial | Normal equations from minimality; witness for the dependence on the zero point. |
| C64 | The correlation step stores one number per pair | proved | The step proposes one update per pair; induction over the updates on the complete start graph. |
| C65 | Every missing edge has a recorded separating set | proved | Invariant of the skeleton phase with arbitrary answers (the separating sets carry no meaning), all four algorithms, all schedules of the pool. |
| C66 | PC decides exactly what conditional independences can decide | proved | Markov equivalence proved for DAGs in general (`Ball.v`: open simple paths = walks of a two-state ball; `Covered.v`: reversing a covered arrow keeps the reachable states up to entry class; `Markov.v`: two DAGs with equal skeleton and v-structures differ by covered reversals, and equal d-separations give equal skeleton and v-structures), combined with C28 and C31. |
| C67 | Edge types agree with the directions | proved | Invariant of every action other than a restore, lifted to steps, loops, groups and pipelines; witness that a restore breaks it. |
| C68 | d-separation asked of a PC result | partial | Path surgery: a collider with a two-way edge puts a path of indefinite status between the nodes, so on an accepted graph colliders have no two-way edge and their descendants in the DAG are descendants in the pattern; uses the completeness of Meek's rules (C31). Witness: an undirected square with a diagonal. |
| C69 | A hash of a dictionary identifies its content | proved | The encoder's text is modelled character by character; unique readability by induction over values, canonical key order for the converse. The digest is assumed free of collisions, float texts to be distinct numbers. |
| C70 | Options of a pipeline step take effect | partial | Config.v models the constructors over a table of classes (ConfigClasses.v has the built-in ones). C70_options_partial: an option is the given value if that counts as true in Python, else the default; missing: values that count as false (C70_zero_refuted, C70_parallel_refuted) and options the constructor does not know, such as the conflict strategy of the collider test, which no argument can change (C70_strategy_refuted). |
| C71 | Dumped pipelines load back | partial | Config.v models constructors, model_dump and loading. C71_reload and C71_algorithm say exactly what comes back, by induction over nested steps and generators; C71_roundtrip_partial: a pipeline comes back unchanged iff it is portable (no Enum attribute, default chunk size, inner generators only in sampling generators). Refuted in general: no pipeline with a collider test can be loaded (C71_collider_refuted, C71_pc_refuted for PC itself), chunk sizes are lost (C71_chunk_size_refuted), and a loaded algorithm with an edge type cannot be made into a model (C71_types_refuted). |
| C72 | The correlation step only adds the coefficient | partial | PearsonStep.v generalises the argument of C64 to arbitrary edge data: the invariant says each entry is the original entry up to its metadata.  C72_other_direction_refuted exhibits the loss of data in the other direction. |
| C73 | A saved result is read back | proved | JsonText.v models the writer (indent 4, ASCII escapes) and the reader (scanner of the standard library, with fuel) character by character.  JsonTextMain.v proves by induction on the value that the reader returns it from its text followed by anything that ends a value. |
| C74 | A torn result file is never accepted | proved | JsonTextMain.v: a text the reader accepts is accepted with the same value when more text follows, so a cut text and the whole one cannot both be complete.  C74_number_refuted shows that this needs a text that carries its own end. |
| C75 | A saved result is loaded as the same result, or not at all | proved | ResultText.v models what the JSON encoder makes of a result (nodes, edges, types, steps, actions, hashes) and what deserialize_result does with the parsed file, on top of the JSON texts of JsonText.v. C75_loaded composes dumps, loads and load_result for all results; C75_other_type and C75_no_metadata give the exact errors when an edge cannot be loaded; C75_torn covers every proper prefix of the file. The strings must be free of lone surrogates and the floats read back what was written, as in C73. |
| C76 | Killing `workspace execute` loses nothing that was saved, and executing again completes the work | partial | Execute.v models the command as the list of file operations it performs; a kill leaves the effect of a prefix of them, with the text being written possibly cut. C76_killed gives the content of every file at every kill point. C76_resumed_partial shows by induction over the experiments, with the fact that the check reads only files of its own experiment, that a second execution reaches the same newest results; it needs that pipelines are not shared module objects (C57), that experiments give values for the variables used (C56), that the clock does not go back, and that the texts are read back and their proper prefixes are not, which C76_json proves of the JSON texts of results. Three things users may expect are refuted: after a kill the latest result may be unreadable although an older one is complete (C76_latest_refuted), a version saved in the same second is lost (C76_same_second_refuted), and a result that cannot be encoded leaves an empty newest version (C76_unsaved_refuted). |
| C77 | Executing all experiments brings every experiment up to date, and repeating it does nothing | partial | loop_iff (ExecuteMain.v) characterises the runs of the loop that end normally: each experiment is skipped or executed according to a check that depends only on its own files. C77_complete_partial and C77_idle_partial follow, under the conditions of C56 and C57. C77_current_partial: if the hashes do not collide, the newest result after a command that ended is what executing returns, skipped or not (a skipped experiment has a newest result whose hashes are those of the configuration, check_up_to_date). C77_blocked shows that a saved result that cannot be loaded with another error than ValueError stops the command before anything is executed, even with --force-reexecution. |
| C78 | Killing a command that removes results or writes the workspace | partial | The commands are lists of file operations as in C76. C78_clear and C78_workspace_partial describe the directory after every kill; C78_workspace_refuted shows that every write of the workspace passes through an empty file. |
| C79 | The diff command shows exactly the edges on which results differ | proved | Diff.v models the name resolution, the dictionary of equivalents, the rows and the printed lines. DiffFacts.v shows by induction over the edges that the dictionary holds the first edge of each pair and column (fold_good), that rows and lines correspond to pairs (compare_lines), and that edge equality is an equivalence on results whose variables and types are known by name. C79_names settles the names, C79_table the lines. Refuted: opposite arrows are shown by identical cells (C79_direction_refuted); nodes with other ids count as other variables (C79_ids_refuted); an experiment named like a version hides it (C79_hidden_refuted). |
| C80 | update-variable stores the typed value or changes nothing | proved | UpdateVariable.v models the cast and the command on top of Workspace.run_command; int() and float() are arguments. C80_stored and C80_kept by case analysis with the validation lemmas of C47. C80_bool_refuted: for a truth value every text but the empty one stores True. C80_refused by case analysis on the cast and the validation. |
| C81 | The server answers with complete results, also while experiments are executed | proved | Server.v gives every look of a request its own directory; ServerSpec.v defines the moments of a running process (runs). The operations of an execute command are complete writings of files and remove nothing (command_saves, command_keeps), so a file holds at any moment its old content, nothing, or a part of a text the command writes (saves_killed); parts are not read (C81_json, from C74_torn). Refuted: the version number sent with the newest result may belong to a newer one (C81_label_refuted); during `experiment clear` a request fails with code 500 (C81_clear_refuted). |
| C82 | The server lists every experiment with its versions and takes a free port | proved | Server.v models list_experiments and search_port. C82_experiments by induction over the experiments with the lemma on versions of C54, C82_port by induction over the ports left. C82_empty_refuted: PORT set to the empty string stops the server. C82_start by computation and the lemma that int() reads the digits of a number. |
| C83 | Edge data written by correlation and effect steps reaches just the processed edges | proved | Alias.v has a store of dictionaries with references from edges and from recorded actions. Invariant apart: references are valid and an edge shares its dictionary at most with its own opposite direction; kept by every operation (run_apart). C83_step and C83_recorded follow. Refuted: recorded actions do not change afterwards (C83_recorded_refuted); a step that is not applied changes nothing (C83_dry_refuted). |
| C84 | The saved result of a run is loaded back and shows the graph of the run | partial | GraphResult.v turns a graph into the result objects of ResultText.v. Invariant minv of runs (run_minv): every edge has a dictionary of numbers, strings and booleans under distinct keys and every log entry is writable. Composed with retrieve_wf (C58), C67_types, C75_loaded and, for perfect tests, C31. Refuted with the collider rule of FCI (C84_fci_refuted). The entries of the log are compared by the relation step_shown; C84_types follows from the lemma on retrieve_edges for every well-formed graph. |
| C85 | A run uses the data only through the answers of the numeric routines | proved | `com m m'` (DataFacts.v): running m on a graph and m' on the graph with the other node table gives the same result and graphs that differ only in that table. Proved for every graph mutation, action, generator block, test function, executor loop, logic block and the pipeline; start graphs of two data sets differ only in the node table. For pools: induction on the schedule relation `par_run`; the pool for the other data is obtained by moving graphs back and forth. |
| C86 | The discovered graph does not depend on units or on the order of the observations | proved | pearson and matrix_par (Numeric.v) are invariant under positive affine maps and permutations (UnitsFacts.v): centred columns scale, covariances scale by a_i*a_j, a left inverse by 1/(a_i*a_j), and no inverse appears or disappears. So routines exact on both data sets (`exact_on`) answer alike, and C85 applies. The effect step only rewrites metadata (`effect_edges`). |
| C87 | Every edge the skeleton phase removes was found independent by a test, and every edge it keeps survived the tests on its final neighbours | proved | Invariant of the skeleton phase with the justification of a removal as a parameter (`skel … Sep`, TestedFacts.v): every removal an executed test proposes is justified by `found_independent`. For (2), `some_gone l`: of every list of pairs a test needs (the pair first), one pair is gone at the end of the step, because otherwise the test was asked while all were present and proposed the removal; it stays gone in later steps. Chained over the pipelines in TestedMain.v. |
| C88 | The skeleton found by PCStable does not depend on the names or the order of the columns | proved | The three tests are executed on the complete graph without applying their actions, so every test is asked (`together`, TestedMain.v), then all removals are applied. `independent_by_values` mentions only the columns, so a renaming transports it (`C88_names`). For PC a data set with four columns and its renaming are run (`C88_pc_refuted`). |
| C89 | Initial values of a time series have the variance of the stationary process | proved | Initial.v models the companion matrix, the Kronecker system and its solution with the pseudo-inverse as an argument. InitialSpec.v states the Yule-Walker equations of the stationary covariances without matrices. The proof shows that the covariances of the stacked last p states solve the system the code inverts. |
| C90 | Generated time series are stationary | partial | Random variables are elements of any type with sums, multiples and a bilinear covariance; the model of the generator runs on them. Induction on the time proves the covariances from the Yule-Walker equations. |
| C91 | Variables separated in the generating graph are uncorrelated given the separating set | proved | LinearSpec.v states the equations and the uncorrelated noise. The variables are expanded in the noise of their ancestors by induction along the order of the DAG. The residual of x given S is tested against the part of the variables on the side of y: a node and its parents lie on one side (from the walk characterisation of d-separation in Ball.v), a sum of squares vanishes, and so does the product with y. Inverses are built by orthogonalisation. |
| C92 | PC recovers the graph of linear data up to what no test can tell | proved | C91 gives the independent answers, the assumption on the strength of dependences the others, so the exact tests answer by d-separation; then the theorems for such tests (C31) apply. |
| C93 | Estimated effects are the weights of the structural equations | partial | The noise of a variable is orthogonal to the columns of its causes, because those are combinations of the noise of their ancestors and the graph has no cycle; so the weights are a least-squares solution, and independent columns allow no other. C60 says which covariates the run uses, C92 which edges it returns. |
| C94 | Update hooks decide every change of a run | partial | A property of the lists the pre-update hooks return is an invariant of every way of executing a step; the effect of the actions that have it is taken from C10. For the post-update hooks, runs with hooks that raise on actions missing from the edge history are shown equal to runs without them. Counterexamples for ApplyActionsTogether are runs of the model. |
| C95 | Queries contributed by edge types and extensions | partial | The factory is modelled with Python's C3 linearisation over an arbitrary iteration order of sets. Facts about C3: it always finishes, contains exactly the classes above the bases, and lookup finds the only class that defines a name. For the shipped classes linearisation is checked for all arrangements of the finite set of bases, and the state of the class after any sequence of calls is an invariant. Counterexamples are evaluations of the model. |
| C96 | Inducing paths | partial | The query is composed of the modelled directed_path_exists and directed_paths (C16, C17) and the lookup of C95, in which bidirected_edge_exists is never found. |
| C97 | ColliderRuleFCI marks the unshielded colliders and nothing else | partial | Composes the skeleton theorem (C22-C24 machinery: every removed pair has a recorded separating set) with the fact that a middle node of an unshielded triple is in a separating set iff it is not a collider; an invariant for batches of metadata updates then gives the final graph. Counterexamples are evaluations of the model. |
| C98 | Tables with constant or repeated columns | partial | The tests are written over real numbers with nan as an explicit value and Python's exceptions as results (Nan.v). The run of the first two steps is determined pair by pair, using the facts about correlations of C45 and C62; a constant variable is shown to keep its edges with C87 (every removed edge has a test that found independence) and the fact that no test with nan or a singular matrix finds independence. |
| C99 | Contradicting colliders are resolved and reported | partial | The calls of the step are traced in order, each with the results collected before it; every item of a call is related to the triple it is about. The directions switched off at the end are those of the last removal or restore of each direction (the simulation of C36). |
| C100 | A random sample of a generator | proved | Random draws are an argument (a coin per emission). Induction on the blocks and emissions of the wrapped generator. |
| C101 | Data files in any layout give the same graph | partial | JSON is specified as a grammar (`JsonGrammarSpec.v`, inductive relations between texts and values) and the reader is proved equivalent to it in both directions: by mutual induction on derivations and on the fuel of the reader. Decimal numbers are read through the standard library's Decimal, names through an injective UTF-8 encoding. The loop over yielded rows is modelled lazily, with the error of a line raised when it is reached. |
| C102 | The hash of a data loader tells whether the data changed | partial | Digests are arguments without collisions and without underscores; the two halves of the hash are separated at the underscore, the options by C69. |
| C103 | Hooks of edge types see every change and cannot disturb a run | partial | Hooks are functions on the graph and a state of their own, any type. `EdgeHooks.v` repeats `_take_action` with the calls of `_execute_hook`; a simulation relates it to the version without hooks, and a note-taking hook makes the sequence of calls observable. |
| C104 | A table may contain a column calculated from two others | partial | Exact real arithmetic with Python's exceptions (`Nan.v`). The partial correlation is the cosine of the two residuals; it is 1 or -1 exactly if they are parallel, that is, if the three columns lie on a plane. A run is split into its steps; a step that ends well has an answer for every triple whose three pairs are still connected. |
| C105 | A lower threshold never adds edges | partial | Tests are p-values (rationals or nan, exceptions included) compared with a threshold (`ThresholdSpec.v`). For PCStable the edges that remain are characterised by the answers alone (C88), and the set of independent answers grows when the threshold falls. For PC and PCClassic a table of p-values of three columns is a counterexample, computed by the kernel. |
| C106 | The arrows of a result never form a cycle | partial | The invariant of the skeleton phase for arbitrary tests (C87) together with right adjacencies and separators gives the precondition of the orientation theorem (C27, C28), without assuming anything about tests that were not asked. The counterexample is computed by the kernel on six variables. |
| C107 | A finished model can be executed again | partial | A run keeps the columns and the invariants of the graph. The first step asks for the metadata of the edge of every two variables; without an edge there is none, and storing the correlation in it raises before any action is applied. If nothing was removed (AgainFacts, AgainMain, AgainEnd): backwards through the first run, sequential or parallel, every answered test must have ended without an action; the same answers come again on the same edges, writing the same correlations changes nothing, and no orientation rule applies to a fully connected undirected graph. |
| C108 | The graph depends on the data only through the verdicts of the tests | proved | A relational simulation: two graphs are related when they agree in everything but the correlations in the metadata of the edges, which are those of the same pair in the two data sets. Every operation of the graph, every generator, every shipped step, the executor and every schedule of the pool keeps the relation. |
| C109 | It does not matter which way a variable is counted | proved | Over the reals a factor a other than zero multiplies correlations by the sign of a, partial correlations and the entries of the precision matrix likewise; Fisher's test is even. So all verdicts agree, and C108 gives the rest. |
| C110 | The graph does not depend on the names or the order of the columns | partial | d-separation, v-structures and Meek's orientations are carried along an injective renaming, so the tests are perfect for the renamed DAG and both runs return its pattern (C27). Refuted for PCStable by one arrow among three variables. |
| C111 | Adding to a workspace keeps what is there | partial | slugify is modelled character by character. Its results are plain and stable; files and entries are followed through any history of commands as long as no later command asks for the same file or entry. Each kind of collision is shown. |
| C112 | Unrelated groups of variables can be analysed together or apart | partial | Paths that start in a group stay there, so d-separation, v-structures and Meek's orientations within the group are those of the DAG restricted to it; both runs return their patterns (C27). PCStable is refuted with three variables. |
| C113 | Recorded separating sets contain nothing superfluous | partial | Sizes are generated one after the other: an edge that is still there when a set of size k is asked has survived all its parts, by an invariant over the blocks of the generator. PCStable: its collected actions are grouped by size, an action on an edge that is gone does nothing. PC skips triples whose third variable has lost an edge; with tests that answer by d-separation such a variable never separates alone. PC and ParallelPC are refuted with four and five variables. |
| C114 | What `causy execute` prints and writes, and executing what `causy eject` wrote | partial | The command is a function from its arguments and the files to printed lines, file operations and an ending. Names of nodes are those of the columns, the run keeps the graph well formed (C01) and its metadata serialisable (C84), PC and ParallelPC end with a plain step and so purge (C40); the file by C75 and C84, its beginnings by C75_torn. Ejected algorithms are computed from the two shipped ones. |
| C115 | Leaving out columns that are effects does not change what is found about the rest | proved | A path that leaves a set closed under causes comes back only through a collider without descendants in the set, so d-separation is the same in the part of the DAG; Meek's rules derive an arrow into the set from variables in the set only; both runs show the pattern of Meek's rules (C31). Connections are never lost because every removed edge was found independent (C87) and adjacent variables are not d-separated. A common case where a cause is left out is computed. |
| C116 | Estimated effects follow the units of the columns and not the order or repetition of the rows | proved | Best coefficients always exist (projection by induction on the columns) and are characterised by name, so the order of the covariates does not matter; scaling columns and repeating rows multiplies the misfit by a constant. The last step of both runs regresses on the same columns (C59), and the edges are the same by C86. Three columns with eight rows are computed, also with another zero. |
| C117 | No edge is removed on the strength of correlations that were never computed | proved | A general lemma: a step in which no call returns an action changes nothing, and one in which every call raises the same error ends with it, by induction over the run of the worker processes. The calls by unfolding; the start graph by ConstructFacts. |
| C118 | Steps that are applied together do not see each other's actions | proved | A dry run leaves the graph as it was, also in the worker pool (induction over its runs); its proposals are a permutation of the answers of all calls. A list of removals acts on every pair of nodes separately, so only the set of named pairs matters. |
| C119 | ColliderTest draws arrows only into nodes between two unconnected ones | partial | The calls are traced in order; a removal of z -> w is proposed only if nothing was said about w -> z before, so proposals never name both directions of an edge and each leaves its reverse in place. A report of a conflict points back to an earlier proposal about the same two-way edge, so by induction the first one is carried out. For finished results: recorded removals survive the orientation phase, and Meek's rules exclude all triples but an arrow into an undirected edge. |
| C120 | Which tables the PC algorithms can analyse | proved | The contract of the routines (`python_run`) extends the one of C98 and C104 with the test on larger sets, used with any inverse of the covariance matrix. That test never raises: an inverse exists only if there are enough rows and the coefficient is not 1 or -1. If the tests of the table answer, every step keeps the invariant of the skeleton phase and ends well, and so do the orientation and effect steps. `C120_routines` shows that such routines exist for every table. |
| C121 | The orientation rules can be rearranged, and the fourth is not needed | proved | Invariant of every arrangement: each direction that is gone is the reverse of an arrow derived from the DAG. At the end the first three rules are silent. By induction on the derivation of an arrow a -> b (v-structure or any of the four rules) the graph shows a -> b and, for every undirected edge b - c, also a -> c (Meek's Lemma 1); the case of the fourth rule needs the first three only. Termination: every round but the last removes a live direction. |
| C122 | The PC algorithms are right as soon as the tests are right where it matters | proved | From C87 and C88 (what is kept was tested, what is removed was found independent): edges of the DAG are never removed, so the neighbours of a variable in the DAG stay its neighbours in the graph, and the test given the separating neighbours is bound to be asked. For PC a sharper invariant of the partial correlation step: it asks about all triples whose three pairs the correlation test left. The recorded separators then give the v-structures, and the orientation phase is that of C121 with this weaker assumption on the separators. Perfect tests: the parents of one of two non-adjacent variables separate them, and if there is a single parent that is independent of the other variable, so is the variable itself. |
| C123 | Two execute commands can run at the same time | partial | A small-step model of the command in which listing, listing again, reading, executing, opening and each part of a write are steps of their own, and a file object writes at its own position. Alone it does what the model of C76 and C77 does (C123_alone). Two invariants over all interleavings: what is in the files each process owns, and, with the experiments each process has opened as ghost state, what it knows of those it has skipped. |
| C124 | Clearing an experiment while an execute command runs | partial | The processes of C123 with a clear process whose listing and removals are steps of their own; what is written to a file that has been removed is lost. Invariant over all interleavings: the invariant of C123 relative to what is left of the files that were there at first, and for the clear process the listed versions that are still to be removed. For the other experiments a second invariant, that of C123 for one process, which no removal touches. |
| C125 | Commands that edit the workspace at the same time | partial | A small-step model with a list of processes, each of which reads the file, runs the command of C50 or refuses, opens the file and writes it in parts. Invariant: the file and what every process has read are workspaces of a chain of commands that have ended well, with a torn file only while its writer is at work. |
| C126 | Steps can be put together in any order | partial | Invariants of C38 and C26 kept by each kind of part; the exact skeleton by splitting the pipeline at the test with any number of conditioning variables, since what is disconnected stays disconnected through all other tests. |
| C127 | Own tests can be added to a pipeline | proved | The condition on own steps is stated by what a test can see of the graph while tests run; it implies that they keep the invariant of the skeleton phase, so that the proof of C126 applies to shipped and own tests alike. |
| C128 | Directions the user knows can be told | proved | Meek's closure is defined over an arbitrary set of known directions. The invariant of the orientation phase (every removed direction is the reverse of one in the closure) is kept by the own steps in every execution mode; from then on whatever points one way counts as known, and a graph on which the rules are silent shows the closure. |
| C129 | Data and directions together give the structural equations | proved | C128 gives the graph, in which the directions into such a variable are exactly its causes; the regression on them is the one of C93. |
| C130 | Tiers of variables give the directions between them | proved | The step tells, in the sense of C128, every edge between tiers; its other removals are of directions that are already gone. So C128 and C129 apply. |
| C131 | Tiers and known directions: only forced arrows, and with tiers all of them | proved | What C128 calls known depends on the DAG only by its adjacencies and v-structures, so it holds of all these DAGs. For the converse, variables joined by two-way edges have the same arrows coming in (a told direction is no exception, by the condition on triangles), so a perfect elimination order of the two-way edges directs them to a DAG of the class, with either end of a given edge first. |
| C132 | A step that tells a direction inside the loop of the rules keeps it from ending | proved | Every step of the loop keeps the invariant of C128, so the told edge is there in every round. Then the told removal is an action taken, so the exit condition is false in every round: induction over the bound on the rounds, which no bound survives. |

## Findings

Behaviour of the code found while modelling.  Each item marked with a theorem is proved about the model.

1. Hard `remove_edge` on an edge present in one direction leaves the two indexes different (`C01_unrestricted_refuted`).
2. The d-separation query can call a separated pair connected and is not symmetric (`C14_connected_is_right_refuted`, `C15_symmetric_refuted`).
3. `directed_path_exists` does not end on undirected edges; `directed_paths` misses paths (`C16_undirected_diverges_refuted`, `C17_complete_refuted`).
4. `edge_value` and `edge_type` raise KeyError for an existing edge (`C09_value_readable_refuted`).
5. Restoring a hard-removed edge resets type and metadata (`C05_hard_restore_refuted`).
6. Removing an absent direction is reported as taken (`C22_reported_changes_refuted`).
7. Logic steps do not purge, so PCStable sees soft-deleted edges when orienting and draws wrong arrows (`C40_refuted`, `C33_arrows_refuted`).
8. Two opposite proposals in one rule step delete an adjacency (`C37_refuted`).
9. With fresh snapshots ParallelPC can keep an edge that PC removes (`C34_refuted`).
10. The chunked edge-pair generator yields pairs twice; the unchunked neighbour generator wraps pairs (`C24_chunked_refuted`, `C25_unchunked_pairs_refuted`).
11. UPDATE_EDGE_TYPE raises AttributeError, UPDATE_EDGE raises on one-way edges, a failing RESTORE_EDGE is half applied (`C52_type_change_refuted`, `C52_update_one_way_refuted`, `C53_failed_restore_refuted`).
12. Extra columns of later rows are dropped silently (`C41_extra_columns_refuted`).
13. Sample generation on a cyclic graph does not end (`C44_topologic_sort`); contemporaneous edges break the time series generator (`C55_contemporaneous_refuted`).
14. References in lists are not resolved, and none without variables (`C48_nested_refuted`, `C48_no_variables_refuted`).
15. Stray files break version listing (`C49_stray_refuted`); replacing a pipeline leaves old values (`C50_values_refuted`).
16. The confinement check of algorithm files is a string prefix check (`C51_prefix_refuted`).
17. Experiments without values and module pipelines: re-execution check and isolation fail (`C56_no_values_refuted`, `C57_module_refuted`).
18. Direct effects use undirected neighbours as covariates (`C60_causes_refuted`).
19. The regression test and the direct effects fit no constant, so both depend on the zero points of the variables (`C61_regression_refuted`, `C63_shift_refuted`).
20. The d-separation query for CPDAGs counts every path of indefinite status as open, so on PC's own result for a square with a diagonal it calls a separated pair connected (`C68_connected_refuted`).
21. Removing a direction types the opposite one as directed and restoring it does not undo that, so a two-way edge can be half typed as directed (`C67_restore_refuted`).
22. Step options that count as false in Python are replaced by the default: `threshold=0.0` gives 0.01, `parallel=False` gives True where that is the default (`C70_zero_refuted`, `C70_parallel_refuted`). No argument selects KEEP_LAST for the collider test (`C70_strategy_refuted`).
23. The dump of a pipeline with a collider test, so of every PC variant, cannot be loaded: loading descends into the Enum member and raises TypeError (`C71_collider_refuted`, `C71_pc_refuted`).
24. Edge types of a loaded algorithm stay dictionaries, so it cannot be made into a model (`C71_types_refuted`); chunk sizes of generators are lost (`C71_chunk_size_refuted`).
25. The correlation step writes the edge data of one direction over that of the other, so data in which the two directions of an edge differ is lost (`C72_other_direction_refuted`).
26. A result whose graph has an edge of a user-defined type is saved, but loading it raises KeyError (`C75_other_type`); `execute` does not catch that, so the experiment can no longer be executed from the command line until the file is removed.
27. A result with an edge whose metadata is absent or holds None is saved, but loading it raises ValueError (`C75_no_metadata`), so the check before `execute` always asks for a new run.
28. A process killed while it saves a result leaves a newest version that cannot be read, and everything that reads the latest result fails until the experiment is executed again (`C76_latest_refuted`). Two results in the same second have the same file (`C76_same_second_refuted`). A result that cannot be encoded leaves an empty newest version (`C76_unsaved_refuted`).
29. A saved result that cannot be loaded for another reason than a ValueError stops `workspace execute` for all experiments, also with `--force-reexecution` (`C77_blocked`).
30. Every command that changes the workspace empties `workspace.yml` before writing it (`C78_workspace_refuted`).
31. The diff command shows opposite arrows by the same text in both columns (`C79_direction_refuted`), takes equally named nodes with other ids for other variables (`C79_ids_refuted`), and an experiment named like a version of another one hides that version (`C79_hidden_refuted`).
32. `update-variable` sets a truth value to True for every text but the empty one, also for "False" (`C80_bool_refuted`).
33. The server may send the newest result with the version number of another one, because it reads the directory again after the file (`C81_label_refuted`); while results are removed, the request may fail with code 500 (`C81_clear_refuted`). `PORT=""` stops the server although without PORT it starts (`C82_empty_refuted`).
34. The steps write into the dictionaries of the edges in place, and recorded actions share them: the history of the correlation step later shows the effect computed by the effect step, as does the opposite direction of the edge (`C83_recorded_refuted`), and a step executed with `apply_to_graph=False` changes the data of edges (`C83_dry_refuted`).
35. A run with the shipped collider rule of FCI ends well and its result is written, but the file cannot be loaded again: the rule stores None as edge metadata (`C84_fci_refuted`).
36. In PC and PCClassic the name of a column can decide which edges remain: with tests that find b and c independent, a and b independent given c, d, and a and c independent given b, d, the edge a-b is removed and a-c kept; with the names b and c exchanged the other edge is kept (`C88_pc_refuted`). PCStable does not have this dependence (`C88_names`).
37. Generated time series are not stationary: the initial values are drawn independently although the stationary process correlates them (`C90_dependent_variables_refuted`), and with lags above one all entries before the start are the same number (`C90_longer_lags_refuted`). Two edges from one source with one lag are summed in the series but the last one counts for the initial values (`C89_repeated_edges_refuted`); an edge of lag 0 counts as one of the largest lag (`C89_same_time`).
38. (A limit, not an error.) On exact linear data in which two ways from a to c cancel out, PC drops the edge between a and c and returns an arrow c -> b for the cause b of c (`C92_cancelling_refuted`).
39. The estimated effects depend on the means of the data: on exact linear data with a = 1 + noise and c = a + b + 1 + noise the run finds the right graph but stores another effect than 1 for a -> c, because the regression has no intercept (`C93_means_refuted`).
40. Inside ApplyActionsTogether (PCStable) the update hooks run twice for every action, first when it is collected: post-update hooks are told of actions that have not been carried out (`C94_told_refuted`), and a pre-update hook that reverses actions has no effect (`C94_once_refuted`).
41. The queries that edge types and extensions contribute are added to the class `Graph` for the rest of the process, in the order of a set, and not to `GraphManager`: `model.graph` has none of them (`C95_manager_refuted`), graphs of other models gain them (`C95_leak_refuted`), and a user's mixin that overrides a query or extends the mixin of DirectedEdge works or fails depending on the iteration order (`C95_override_refuted`, `C95_subclass_refuted`).
42. `inducing_path_exists` never answers True (`C96_never`): it answers False when all listed directed paths have at most two edges, also for an edge from u to v (`C96_edge_refuted`), and raises AttributeError otherwise because `bidirected_edge_exists` does not exist (`C96_long_refuted`).
43. `ColliderRuleFCI` replaces the metadata of the directions it marks, so their correlation is lost (`C97_correlation_refuted`); it treats nodes joined in one direction only as not adjacent and marks shielded triples (`C97_shielded_refuted`).
44. A column that repeats another one in other units makes every PC algorithm raise `ZeroDivisionError` or `ValueError` (`C98_fails`). A constant column, whose correlations are nan, stays connected to every variable (`C98_constant`), and PC reports uncorrelated variables as causes of the constant (`C98_arrows_refuted`).
45. `ColliderTest` with KEEP_FIRST takes the record of an earlier conflict for an orientation: a collider whose arrows agree with everything drawn is given up and reported as a conflict (`C99_phantom_refuted`). With KEEP_LAST colliders are given up without any report (`C99_silent_refuted`).
46. A blank line in a JSONL data file, such as an empty last line, makes loading fail with a ValueError (`C101_blank_line_refuted`), and a JSON list or JSONL file without rows with a TypeError (`C101_empty_refuted`).
47. A data loader of type `dynamic` can never be created: `DynamicDataLoader.__init__` loads the module's class before it stores the options and passes `**None` (`C102_dynamic_refuted`).
48. The hash of a data loader does not contain its type, so an experiment counts as up to date after the type was changed (`C102_type_refuted`); it does contain options that file loaders never use (`C102_options_refuted`).
49. The documented `pre_edge_add_hook` and `post_edge_add_hook` of an edge type are never called, not even when an edge is restored (`C103_add_never_called`, `C103_restore_refuted`). Removing one direction changes the type of the other without any type-change hook (`C103_type_unannounced_refuted`), a removal is announced again for a direction that is already gone (`C103_removed_again_refuted`), and `pre_edge_type_change_hook` runs before an action that always fails (`C103_type_change_only_announced`).
50. A table in which a column is calculated from two others (a total, a difference) makes PC and PCStable fail with `ZeroDivisionError` or `ValueError`: the partial correlation is exactly 1 or -1 and is divided by `1 - r` (`C104_test`, `C104_pc_fails`, `C104_stable_fails`, `C104_sum_refuted`). PCClassic ends well on the same table, because the matrix test gives up on singular matrices. PCStable also fails on every table with three rows and three or more columns.
51. Lowering the threshold can add an edge in PC and PCClassic (`C105_pc_refuted`): with correlations 0.32, 0.3, 0.3 and 100 rows, the threshold 0.01 leaves the first pair unconnected and 0.002 connects it. PCStable is monotone (`C105_stable`).
52. PC and PCClassic can return a directed cycle when the answers of the tests contradict each other, and report nothing (`C106_cycle_refuted`).
53. Executing a finished model a second time fails with `TypeError` (or `KeyError`) in the first step as soon as the first run removed an edge: `CalculatePearsonCorrelations` stores the correlation in the metadata of every pair, also of unconnected ones (`C107_again`, `C107_refuted`). The same holds for any graph that is not fully connected.
54. A correlation of 1 makes the first test raise `ZeroDivisionError`, a correlation of -1 `ValueError`, so the exception a run ends with changes when a column is turned round (`C109_exception_refuted`).
55. PCStable on data with one dependence among three variables draws an arrow whose direction is the alphabetical order of the two column names, also when all tests are right (`C110_stable_refuted`).
56. Adding to a workspace never checks whether the name is taken. Pipeline modules and dynamic data loaders share the file `<slug>.py`, so the second one made under a name destroys the first while the workspace still refers to it (`C111_module_refuted`).
57. Ejected pipelines are stored under the name as typed and written to a file named by its slug: `my run` and `my_run` are two pipelines that read one file (`C111_eject_refuted`); a pipeline called `workspace` is overwritten by the workspace (`C111_workspace_refuted`).
58. Names without ASCII characters all have the empty slug, so each replaces the one before (`C111_foreign_refuted`).
59. With PCStable an unrelated column changes the result: y and z alone are joined both ways, with an independent x in the table there is an arrow between them (`C112_stable_refuted`).
60. ParallelPC samples the conditioning sets before it tests them all, so it may record a separating set with superfluous variables even when the tests answer by d-separation (`C113_parallel_refuted`). PC may do so when a single variable separates two others but was found independent of one of them: the triple is never tested (`C113_pc_refuted`).
61. `causy eject` writes files that `causy execute --pipeline` never accepts: for both available algorithms loading the file raises a TypeError (`C114_eject_refuted`). With a pipeline file whose last step is a logic step, `causy execute` also prints directions that the run has removed, because it lists edges without looking at the deletion flag (`C114_printed_refuted`).
62. `PartialCorrelationTest` swallows the KeyError that tells it that no correlation was computed: run without `CalculatePearsonCorrelations` it does nothing and reports nothing, whereas `CorrelationCoefficientTest` raises (`C117_silent`, `C117_correlation`).
63. The order of the tests in the ApplyActionsTogether group of PCStable does not matter for the skeleton (`C118_order`), but if several tests find two variables independent it decides which separating set is recorded, and so whether a collider is drawn (`C118_arrows_refuted`).
64. `ColliderTest` asks for a two-way edge when it means adjacency: two nodes joined by an arrow count as unconnected. Run on a graph with arrows, for example a second time or after other rules, it draws arrows into shielded nodes, and on a correct result the new arrow can be the wrong way round (`C119_wrong_refuted`). In a `Loop`, where nothing is purged between the rounds, it can delete an edge (`C119_loop_refuted`).
65. A row with the key `_dict` anywhere in a JSON list or JSONL file discards all rows before it and becomes the table itself (`C101_dict_row_refuted`).
66. A `Loop` with `ExitOnNoActions` that has `ColliderTest` among its steps never ends on a graph with a collider: removing the direction of an arrow that is already gone is reported as an action in every round (`C121_collider_refuted`).
67. PC does not ask the partial correlation test about x and y given p when the correlation test has removed the edge p - y, although x - y and x - p are there; PCClassic asks. A single wrong answer of the correlation test for x and y is therefore corrected by PCClassic but not by PC (`C122_pc_refuted`).
68. Two `execute` commands that save the same experiment in the same second write to the same file through two file objects. Both end without an error, and the file can hold the shorter text followed by the end of the longer one, which cannot be read any more (`C123_same_second_refuted`).
69. `experiment clear` (or `rm`) while an `execute` of all experiments runs: if the newest version is removed between the listing and the opening of the file, `execute` ends with FileNotFoundError, which it does not catch, and leaves the remaining experiments unexecuted (`C124_fails_refuted`). If the file is removed while it is being written, `execute` reports success and the result is gone (`C124_lost_refuted`).
70. Commands that edit the workspace write back the whole workspace that they read at their start, which for the interactive `add` commands is before the questions are asked. Any edit, also one of `experiment clear`, which changes nothing in the workspace, silently undoes the edits that other commands have made in the meantime (`C125_lost`, `C125_lost_refuted`); if the writes overlap, the file can hold entries that nobody has added (`C125_mixed_refuted`).
71. Steps depend on what the steps before them did, and nothing checks it. A second correlation test raises `TypeError`, because `edge_value` of a pair that the first one disconnected is `None`; a `ExtendedPartialCorrelationTestMatrix` step after `ColliderTest` raises `KeyError`, because the end of an arrow is not among the nodes that point to its start (`C126_again_refuted`, `C126_late_refuted`).
72. A test written by a user that removes an edge must record the separating set. With data that lacks it, collider detection takes the set to be empty and orients wrongly; with the default data `None` it raises `TypeError` (`C127_unsaid_refuted`, `C127_bare_refuted`). A step that removes edges before the correlation test, e.g. from background knowledge, makes that test raise (`C127_before_refuted`).
73. The tests of `PC` depend on their order even when they are perfect: the test with one conditioning variable looks only at triples whose edges all exist, and the next one starts with two. If an edge was removed before, by `ExtendedPartialCorrelationTestMatrix` placed first (`C126_swapped_refuted`) or by a step of the user that tells the truth (`C127_pc_refuted`), edges between variables that are not adjacent stay. `PCClassic` does not have this problem (`C127_class`).
74. Collider detection takes two variables to be adjacent only if their edge points both ways. If a step before it has oriented an edge, the pair counts as not adjacent, no separating set is on record, and every variable adjacent to both ends is made a collider. A true direction told before collider detection so makes two false arrows in a triangle (`C128_early_refuted`); told after it, it does no harm (`C128_pc`).
75. A direction that contradicts an arrow found before is not refused: the step removes the one direction that is left, and the edge is gone without a message. With `a -> c <- b` and tiers that say `c` comes first, PC ends normally with no edges at all (`C130_wrong_refuted`).
76. `REMOVE_EDGE_DIRECTED` is skipped only if neither the direction nor the edge exists. Removing a direction that is already gone from an edge that points the other way so counts as an action taken, and is written to the history of the edge again. A step that says which way an edge points, put into the `Loop` with the rules, therefore keeps `ExitOnNoActions` from ever being true (`C132_endless`, `C132_tiers`). The fix is to skip the action if `directed_edge_exists` is false; a step that checks this itself can be in the loop (`C132_look`).

## Trusted base

* The Coq 8.16.1 kernel and `coqchk`.
* What `Print Assumptions` reports for each theorem; it is printed in the build log beneath every
  property theorem.  All theorems print "Closed under the global context" except those named below.
  No axiom is added by this development.
  The theorems about the real numbers of the standard library (`PropsNumeric.v`, the files of C86, C91, C92, C93, `PropsNan.v`, `PropsPlane.v`, `PropsPlaneRun.v`, `PropsMirror.v`, `PropsEffectUnits.v`, `PropsModel.v`, `C130_effects` and `C130_model`) print its axioms; all other theorems are closed under the global context:
  - C63 (all), C91 (`C91_residuals`, `C91_invertible`, `C91_generated`), C93 (`C93_weights`), C116 (`C116_effects`): `ClassicalDedekindReals.sig_forall_dec`, `FunctionalExtensionality.functional_extensionality_dep`;
  - C45, C46, C61 (all), C91 (`C91_correlation`, `C91_one_control`, `C91_matrix`): those two and `ClassicalDedekindReals.sig_not_dec`;
  - C62, C86, C92, C98, C104, C109, C120, C129 (all), C130 (`C130_effects`, `C130_model`), C93 (`C93_effects_partial`, `C93_means_refuted`), C116 (`C116_units`, `C116_shift_refuted`): those three and `Classical_Prop.classic`.
* `vcheck` also lists seven constants of `Coq.ssr.ssrunder` (`Under_rel` and its companions), from a standard
  library file loaded by a dependency and used by no theorem, and the sealed definitions of
  `Coq.Reals.Rdefinitions` (`RbaseSymbolsImpl`, `RinvImpl`), which are the real numbers themselves.
* The reading of the Python code by the author of the model: each definition cites the lines it
  models.

Modelled: the files named in the table above, function by function, at the pinned commit.

Not modelled:

* floating point arithmetic, torch and numpy (oracles; exact reals in the numeric theorems),
* multiprocessing mechanics other than schedules of results (no worker crash, no pickling errors),
* in-place writes through metadata dictionaries, except in `Alias.v` for the correlation and effect steps,
* pydantic parsing beyond the validators written in causy (coercion is an argument), YAML text (JSON text is modelled, written and read; float texts and SHA256 are arguments; RecursionError of deep nesting and the digit limit of integers are not),
* in dumps of pipelines: extensions, hooks, exit conditions with attributes, and attribute values other than plain values, references, Enum members and parsed JSON,
* the command line's output (except the table of `diff` and the edges printed by `execute`), the front end of the web UI, HTTP and FastAPI themselves,
* symbolic links, and concurrent changes of the file system other than a running command seen by the server two execute commands at once, a clear command beside an execute command, and editing commands at once,
* logging, timing and progress display.
