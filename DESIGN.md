# Formal model of SAMPO in Rocq (Coq 8.16.1)

Source: `/repo/sampo` (read as text). Model and proofs: `/verif/rocq/theories`.

## 1. Layout

Every area has up to four files.

* `XxxModel.v`  – executable Gallina model of the Python functions, one definition
  per function or loop; each definition carries a comment with file and lines.
  Exceptions are values (`None`, or an error constructor). No proofs.
* `XxxSpec.v` or `Spec.v` – the vocabulary needed to read the theorem statements
  (load at a moment, running works, topological order, ...), written without
  using the model's helpers.
* `XxxProofs.v` – lemmas.
* `XxxTheorems.v` – the property theorems only, each closed by `exact lemma`,
  followed by `Print Assumptions`, with an `Example` beside it showing a concrete
  case that meets the hypotheses.

A property that is false of the faithful model gets a theorem `..._refuted` with a
witness, and the largest true part is proved under a name ending in `_partial`.
The disagreements are listed in section 5 (findings).

## 2. Modelling conventions

* Work ids, worker kinds, contractor ids (Python strings) are `nat`; only equality
  is used, except where Python sorts by id, where `nat` order stands for string order.
* `Time` is a `Z` with the saturating operations of `schemas/time.py` where the
  saturation can matter.
* Python floats (volumes, proportions, productivity) are exact rationals `Q` (or
  integers where the code only uses integers). Rounding of binary floating point is
  not modelled; this is recorded per definition.
* Random choices are universally quantified oracles (lists of choices).
* The duration estimator, resource optimiser and objective functions are
  universally quantified functions.
* Python `dict` with insertion order is an association list; `set` iteration order is
  a universally quantified permutation where it matters.
* Unbounded loops run on fuel; the fuel is computed by the model and it is proved
  sufficient (the out-of-fuel value is never returned).

## 3. Plan per property

| Id | Modelled | Method |
|----|----------|--------|
| C01 | `Time` operations | case analysis, `lia` |
| C02, C03 | Momentum event list, `bisect`, `SortedList.add`, `update_timeline` | refinement invariant to capacity − load, induction over the history |
| C04, C05 | `_find_earliest_time_slot` loop | loop invariant over the event index |
| C06 | queue loop of `_find_min_start_time` | invariant, lexicographic measure |
| C07 | `_validate`, `update_timeline` after a search | from C03/C04 |
| C08–C10 | JIT stacks, consume and bubble insert | invariants; ghost history for safety |
| C11, C12, C18 | `build_scheduler`, contractor search, `schedule` over Momentum | invariant over the ordered nodes |
| C13 | JIT `schedule` | invariant |
| C14, C15, C41 | contractor search, borders, spec application | induction over lists |
| C16, C17 | `validate_schedule` | sweep invariant over time classes |
| C19 | chain time distribution | induction, sum invariant |
| C20 | priority propagation | induction, min over descendants |
| C21, C22 | traversal, Kahn levels | measure, invariant; cycle from non-empty residue |
| C23 | Ford-Bellman rounds, stable sort | fixpoint after n rounds on a DAG |
| C24, C25 | LFT maps, priority sort, randomised selection | induction over reversed topological order |
| C26–C28 | chromosome operators | permutation and order lemmas |
| C29 | stage splitting | telescoping sums |
| C30 | DFS cycle search, elimination loop | DFS path invariant; number of edges decreases |
| C31 | singly linked list with tail pointer | representation as list with explicit length |
| C32, C33 | dichotomy, coordinate descent, full scan, average | loop invariants |
| C34 | productivity polynomial over Q | polynomial inequality |
| C35, C36 | auction, block DFS sort, manager | fold invariants |
| C37 | Floyd–Warshall table | invariant over intermediate vertices |
| C38 | graph (de)serialisation | round trip by induction over node order |
| C39 | order by start time | class invariant |
| C40 | head-node mapping | set characterisation |
| C42 | bisection over team divisors | loop invariant |
| C43, C44 | pipeline checks, contractor generation | induction |
| C45 | zone timeline | invariant over the event list of a zone; refuted for positive costs of changes |
| C46, C47 | `build_scheduler` over the JIT timeline | invariant over the ordered nodes, as C11/C12 |
| C48 | durations of placed works | invariant over both timelines |
| C49 | `Schedule.execution_time` | from the row order (C39) and feasibility (C11) |
| C50 | `ford_bellman`, `critical_path_graph` | longest paths on a DAG |
| C51 | HEFT, HEFT-between, Topological schedulers as a whole | composition of C21–C23, C40, C11, C12, C33 |
| C52 | default pipeline | composition of C20, C43, C44, C51, C34 |
| C53 | block graphs | set characterisation of the edges |
| C54 | `graph_restructuring` | invariant over the order of works, refinement to images of edges |
| C55–C57 | decoding (serial scheme) and encoding of chromosomes | the invariants of C11/C12 with the chromosome as staffing rule; step-by-step retracing for the round trip |
| C58, C59 | the parallel scheme: rows as teams, the test of a moment, the loop over time steps | the invariants of C13 for any order of placement; lexicographic measure (works left, checkpoints left, distance to a bound on all times) for termination |
| C60–C62 | LFT schedulers: choice of contractors, teams, loop over both timelines, random choices as arguments | invariants of C11/C13 with the assignments as staffing rule; counting argument for the even shares |
| C63–C65 | genetic search over any chromosomes: generations, selection, Pareto front, deadline stages; random choices as arguments | invariant of the generations: the front is an antichain that covers the population |
| C66 | `generate_chromosomes` over any chromosomes; `random.sample` and the draws are arguments | arithmetic of the counts; a sample of the whole offer omits nothing |
| C67 | `make_offspring` on chromosomes with the toolbox of `prepare_optimized_data_structures` | the operator theorems C26-C28 combined; validity of individuals as an invariant |
| C68 | `build_schedules_with_cache` on top of C63, with serial decoding as evaluation | totality of the serial scheme on valid individuals (C55-C58), invariant over generations |
| C69 | the same with `TimeFitness`; `init_chromosomes_f` for HEFTBetweenScheduler | C64 (best of all) and C49 (execution time is the latest finish), round trip C59 |
| C70 | C68 with parallel decoding as evaluation | totality of the parallel scheme on valid individuals (C58, C59 with an explicit number of iterations), the same invariant |
| C71 | C69 with parallel decoding; the comparison with HEFTBetweenScheduler is false there | as C69; finding by computation |
| C72 | usage arrays over the sorted set of starts and ends, slices by bisection, peaks | cell = number busy at the point; constant between points; workforce by splitting over contractors |
| C73 | C69, C71 with the fitness functions of resource peaks | the argument of C69 for any measure that the fitness computes |
| C74 | events of depots, roads and platforms; search of depots and start times; bookings; histories of calls | events = capacity minus load of the bookings (C02 for these lists); forward and return bookings are disjoint; induction over histories |
| C75 | as C74 | chain of bookings over the route |
| C76 | as C74 | the search with the found time as deadline passes through the same rounds |
| C77 | as C74 | last event = stock |
| C78 | the exchange loops over a list of works and the queue of optimizers | each exchange is a permutation; in a project order every exchange is refused because the start precedes and the finish follows everything |
| C79 | the loop that shares teams and the re-scheduling of the works | without chains the re-scheduling only writes works that are not in the list; invariant of the timeline as in C12 |
| C80 | the loop over rounds with the schedulers as arbitrary functions | measure: best value times plateau plus remaining plateau steps |
| C81 | C80 with the genetic search of C68/C71 as schedulers | the last population of the search keeps a best individual; C80 |
| C82 | copies as renamed edge lists per node | partition of the edges by node; image of the relation under an injective map |
| C83 | the edges of the copies and the new ones; construction of the graph | characterization of paths in two spliced relations; C26 for the traversal |
| C84 | as C83 with one new node | the splice lemma |
| C85 | as C83 without copies, random answers as arguments | the splice lemma |
| C86 | as C83 with the generated works as arguments | the splice lemma |
| C87 | both edge lists of every node, removal while iterating | each pass removes at least one hit and nothing else; paths around a bridged node |
| C88 | the Momentum timeline with its material and zone timelines as arbitrary functions | the invariant of C11, with starts delayed by deliveries |
| C89 | the same with the supply timeline of C74 and the zone timeline of C45 | invariant: every chain with zones has its occupations, which hold all its works; the search ends where workers, materials and zones agree, and the chain takes no longer than was searched for |
| C90 | as C89 | the deliveries of a run are a history of the supply timeline (C74, C75) |
| C91 | as C89, without materials | the search stays below the horizon, what it finds is free for workers and zones, so both bookings succeed |
| C92 | MergeModel: ids as strings, split and startswith on the separator, merging of rows; the sorts and the iteration order of the set are oracles | lemmas on splitting; the rows of each id are exactly those of one work |
| C93 | MergeModel on schedules of RestructModel's graphs | the chain of stages is ordered in the schedule, so the first and last rows are the first and last stages; edges by the links that C54 gives between stages |
| C94 | JitSiteModel: the release-time timeline with an arbitrary site | invariant of C46, the site's answers only move starts |
| C95 | JitSiteModel with the zone timeline of ZoneModel | the length searched for bounds the length booked; invariant over the occupations as for C89 |
| C96 | JitSiteModel with the supply timeline of SupplyModel | the run's deliveries are a history of SupplyModel, then C74 and C75 |
| C97 | JitSiteModel without materials | the search from 0 rises to at most the largest time in any timeline plus one; hence it ends and nothing saturates |
| C98 | ParserModel: cells of a table as texts | splitting is the inverse of joining; int(float(s)) written out again for numerals below 2^53 |
| C99 | ParserModel: rows, loops (LoopModel), nodes, work graph (TraverseModel) | loops by C30's theorem through the numbering of names; nodes and edges row by row in topological order |
| C100 | HistoryModel: statistics of common occurrences | counters equal lengths of lists; some element reaches the mean, so the minimum is never over nothing; sums over occurrences |
| C101 | HistoryModel over ParserModel | links of the table weigh 2^63-1, others at most the number of rows; a lightest link of the table would make a loop of links of the table |
| C102 | LagPipelineModel: restructuring (RestructModel), work graph (TraverseModel), priorities (TopoModel), pipeline (EnvModel) | C54's theorem gives the stages and edges; the graph of stages meets the hypotheses of the schedulers; times of stages are put together to times of works |
| C103 | BlockSchedModel: manager and auctions (MultiAgentModel) with the offers of real schedulers (PipelineModel) that continue a timeline | the invariants of the scheduling loops are proved from any timeline that accounts for the bookings so far, not only from a fresh one; induction over the auctions |
| C104 | BlockSchedModel | the proofs that the scheduling loops raise no error are made for any timeline whose times are bounded, not only for a fresh one; induction over the auctions with the bound growing by the span of a block |
| C105 | HistoryModel, ParserModel | the rows after the history was applied are computed in closed form for each pair of options; one lemma takes any such rows through loop breaking and graph building |
| C106 | TableScheduleModel, on ParserModel and LagPipelineModel | the graph a table gives is shown to be a project that the theorem on lag strategies is about; what it says of edges is said of the links of the table |
| C107 | SgsSiteModel, on SgsModel and SiteModel | the invariant of the serial scheme (C55) with the step lemma of the site (C88); the deliveries of a run are a history of the supply timeline (C90) |
| C108 | SgsLandModel, on SgsModel and JitSiteModel | the invariant of the parallel scheme (C58) over any site, with a second invariant as a parameter: the history of deliveries (C96) and the occupations of zones (C95) |
| C109 | JsonModel: objects as class name and attributes, writing, reading, JSON text | induction over the size of an object: every conforming object comes back with its ignored attributes None; then the classes of a schedule |
| C110 | JsonModel: works, requirements, contractors, deep copies | the same general theorem, with and without the text in between |
| C111 | GaSiteModel: the search of GaSchedModel with the decoders of SgsSiteModel and SgsLandModel | every individual the search ever holds is valid (GaSite.search_ok), so every answer is the decoding of a valid individual; then C107/C108 for that decoding |
| C112 | SynthModel: the generator as a state monad over the works and links made, with an arbitrary sequence of random numbers; the small specification is SynthSpec | invariant of the state (links lead to later works; which works have no predecessors or successors yet; requirements; handing stages), sizes of the clusters, then C21 for from_nodes and C52 for scheduling; fuel bounded by the borders |
| C113 | ExtendModel: extension.py over strings, with the order of the sets, the shuffle and the random choices as arguments and the deep copy as writing and reading the graph (TraverseModel); the small specification is ExtendSpec | unique splitting of a string at its last non-digit, length of the pool by div/mod, loops over nodes by induction, the round trip of C38 for the copy |
| C114 | LandGenModel: get_landscape_by_wg with the random draws and the shuffle as arguments, over LandscapeModel and the chains of GraphModel; the small specification is LandGenSpec | an invariant over the nodes joined so far (each leads to one joined later or earlier), heads of chains (C40), counting occurrences for the share of a platform, the largest need by induction over the works |
| C115 | SetupLandModel: the three loops of setup_landscape over dictionaries as lists; the small specification is SetupLandSpec | keys of assigned dictionaries, the table of roads and the joined nodes correspond row by row, shortest distances from C37 |
| C116 | MatGenModel: set_materials_for_wg with the draws and the order of the set as arguments; the small specification is MatGenSpec | loop over the works by induction; the last claim composes it with C114 |
| C117 | SortedListModel: buckets, greatest keys and length of the list as in the library, with merge branch by branch; the small specification is `well_kept` in SortedListTheorems | the branches of merge over an invariant of the buckets |
| C118 | PriorityQueueModel: the pairs in order with the key each was added under; the small specification (`allowed`, `behaves`) is at the head of PriorityQueueTheorems | simulation of a bag by induction over the history |
| C119 | ZoneGeneModel: tables as lists of rows, draws as arguments; the small specification (`fits`) is at the head of ZoneGeneTheorems | assignments of rows and of masked cells by induction |
| C120 | NameMapModel: dictionaries as lists of pairs in the order of insertion | induction over the items from the end; the last item with a key decides |

Not expressible: wall-clock performance, floating-point rounding, the neural
networks of `sampo/scheduler/multi_agency` and `sampo/scheduler/selection`
(trained weights), plotting, and the third-party libraries (pandas, numpy, deap,
toposort); where a third-party function is used by a modelled function its
documented behaviour is written as a Gallina definition.

## 4. Trusted base

* Coq 8.16.1's kernel (including the virtual machine for `vm_compute`, used only in
  examples and finding witnesses), `coqc`, and the standard library. No other library is
  used.
* Axioms: `Print Assumptions` stands below every property theorem and prints
  "Closed under the global context" for all of them: no axiom is used by any theorem.
  `vcheck` lists axioms of the standard library's reals, `functional_extensionality_dep`
  and `ssrunder`: these are in the library files that `Lqa`/`Lia`/`ssreflect` load, no
  theorem of ours depends on them.
* No axiom, admitted proof, functor, module type, plugin or switched-off check of our own.
* The fidelity of the model to the source, which is by reading only; the comment of every
  definition gives the lines, and says where it simplifies.

### What is modelled

| Model file | Code (under `sampo/`) |
|---|---|
| TimeModel | `schemas/time.py` |
| MomentumModel | `scheduler/timeline/momentum_timeline.py`: events, search of slots, booking, `schedule`, `can_schedule_at_the_moment` (workers; for materials and zones see SiteModel) |
| JITModel | `scheduler/timeline/just_in_time_timeline.py` (workers; for materials and zones see JitSiteModel), `scheduler/timeline/base.py` |
| GraphModel, TraverseModel | `schemas/graph.py`: nodes, edges, inseparable chains, traversals, `from_nodes`, (de)serialisation of edges |
| ScheduleModel | `scheduler/generic.py` (`build_scheduler`), `scheduler/utils/multi_contractor.py`, `scheduler/base.py` (`optimize_resources_using_spec`), chain durations in `scheduler/timeline/*` |
| ValidationModel | `utilities/validation.py` |
| OrderModel | `schemas/schedule.py` (row order, execution time) |
| TopoModel | `utilities/priority.py`, `toposort`, `scheduler/topological/base.py` |
| PriorityModel | `scheduler/heft/prioritization.py`, `scheduler/lft/prioritization.py`, `scheduler/utils/critical_path.py`, `scheduler/utils/time_computaion.py` |
| LftModel | `scheduler/lft/base.py`, `scheduler/lft/time_computaion.py` |
| HeadModel | `scheduler/utils/__init__.py` (head nodes of chains and their connections) |
| PipelineModel | `scheduler/generic.py` (`schedule_with_cache`), `scheduler/heft/base.py`, `scheduler/topological/base.py` |
| EnvModel | `generator/environment/contractor*.py`, `pipeline/default.py` (checks and scheduling step) |
| EstimatorModel | `schemas/time_estimator.py` (static productivity) |
| ResourceModel | `scheduler/resource/*`, `utilities/base_opt.py` |
| DeadlineModel | `scheduler/resources_in_time/average_binary_search.py` |
| GeneticModel, GeneticResModel | `scheduler/genetic/operators.py`: order and resource operators and checks |
| SgsModel | `scheduler/genetic/converter.py`, the borders of `scheduler/genetic/utils.py` |
| GaModel | `scheduler/genetic/schedule_builder.py`, `select_new_population`; of deap: `Fitness`, `ParetoFront` |
| GaInitModel | `generate_chromosomes` of `scheduler/genetic/operators.py` (floats as exact quotients) |
| GaSchedModel | `prepare_optimized_data_structures`, `init_chromosomes_f` (HEFTBetween) of `scheduler/genetic/utils.py`; `mate`, `mutate`, `evaluate`, `is_chromosome_correct` of `operators.py`; `make_offspring`, `build_schedules_with_cache` without deadline of `schedule_builder.py` (no zones) |
| UsageModel | `utilities/resource_usage.py`; of `operators.py`: SumOfResourcesPeaks, SumOfResources, TimeWithResources and DeadlineResources fitness; `Worker.copy`, `with_count`, `get_cost` |
| MultiAgentModel | `scheduler/multi_agency/{multi_agency,block_graph,block_validation}.py` |
| SupplyModel | `scheduler/timeline/hybrid_supply_timeline.py` (all but the unused `_find_min_delivery_time_after_work_start` and `_validate`), `platform_timeline.py` |
| LocalOptModel | `scheduler/utils/local_optimization.py`, `ApplyQueue` |
| HybridModel | `hybrid/cycle.py`, `hybrid/population.py`, `upgrade_pop` of `genetic/base.py` |
| GraphEditModel | `structurator/prepare_wg_copy.py`, `graph_insertion.py`, `insert_wu.py`, `delete_graph_node.py`, `light_modifications.py`, `OneInsertObstruction.apply` of `scheduler/utils/obstruction.py`, `restruct` of `schemas/structure_estimator.py` |
| SiteModel | `scheduler/timeline/momentum_timeline.py` with materials and zones, on top of SupplyModel and ZoneModel; `scheduler/generic.py` (`build_scheduler`) over it |
| MergeModel | utilities/schedule.py (fix_split_tasks, merge_split_stages, offset_schedule), schemas/schedule.py (merged_stages_datetime_df, unite_stages, rows of from_scheduled_works), structurator/base.py:13-22 and 187; volumes are rationals, int() accepts digits only, the contractor column is left out |
| JitSiteModel | scheduler/timeline/just_in_time_timeline.py:35-110 and 233-323 with materials and zones, over the build loop of ScheduleModel; a chain's zones are those of its first work |
| ParserModel | userinput/parser/general_build.py:116-276, csv_parser.py:78-93 and 122-137, without the structurator, name mappers and estimators; cells are texts, ids of nodes numbers |
| HistoryModel | userinput/parser/history.py, in exact arithmetic; days are numbers |
| LagPipelineModel | pipeline/default.py:189-284 with the lag strategies, pipeline/lag_optimization.py, structurator/base.py:155-193 and 332-379; stages have numbers instead of texts as ids |
| BlockSchedModel | multi_agency/multi_agency.py:29-50 and 113-160 with the schedulers of heft/base.py and topological/base.py; generic.py:124-190 with a timeline that is continued |
| TableScheduleModel | pipeline/default.py:189-205 for a DataFrame of works without history and a list of contractors |
| SgsSiteModel | scheduler/genetic/converter.py:240-318 on a site with materials and zones; the part of the chromosome for zones |
| SgsLandModel | scheduler/genetic/converter.py:127-237 on a site; scheduler/timeline/just_in_time_timeline.py:138-186 |
| JsonModel | schemas/serializable.py (AutoJSONSerializable, dumpd/dumps/loadd/loads), utilities/serializers.py (numpy integers; not arrays and data frames), serializers of schedule.py, scheduled_work.py, works.py, contractor.py, requirements.py, resources.py, zones.py, time.py; WorkUnit.__getstate__/__setstate__; the json module is trusted |
| GaSiteModel | scheduler/genetic/converter.py:44-161 on a landscape as the decoder of the genetic search (both schemes); the zone matrices of the individuals stay as converted because the calls of the zone operators are commented out (operators.py:746-747, 773-774) |
| SynthModel | generator/pipeline/cluster.py and project.py, generator/config/gen_counts.py and worker_req.py, requirements.py:50-73, interval.py:52-81, graph.py:351-359; floats are rationals, the lag 0.05 of the roads is 0 (as in GraphModel), ids are numbers in the order of creation, names without the prefix of the cluster; negative borders are not modelled |
| ExtendModel | generator/pipeline/extension.py, generator/base.py:75-78, works.py:48-53; of a work the name, the requirements and, as one value, the rest; that works come back from the deep copy is C110 (works without equipment) |
| LandGenModel | generator/environment/landscape.py:73-172, generator/base.py:113-118; ceil(log n) and ceil(sqrt(log n)) are arguments; ids and names of nodes and vehicles are left out |
| SetupLandModel | generator/environment/landscape.py:11-70; names are numbers, ids are left out |
| MatGenModel | generator/base.py:80-111 |
| SortedListModel | schemas/sorted_list.py, and `_expand` of sortedcontainers without its index |
| PriorityQueueModel | utilities/priority_queue.py; SortedKeyList is one list in order |
| ZoneGeneModel | scheduler/genetic/operators.py:849-898; the two parents have tables of the same shape |
| NameMapModel | utilities/collections_util.py:25-43, utilities/name_mapper.py:7-24 and 77-78 |
| LandscapeModel | `schemas/landscape.py`, `schemas/landscape_graph.py` (routes) |
| RestructModel | `structurator/base.py` |
| ZoneModel | `scheduler/timeline/zone_timeline.py` |
| LoopModel | `userinput/parser/general_build.py` (cycle elimination) |
| LinkedListModel | `utilities/linked_list.py` |

### What is not modelled

* Statuses of zones at the end of a project. Of the supply timelines,
  `to_start_supply_timeline.py` is not modelled. Materials are integers; the saturation of
  times at infinity is excluded by a bound on times.
* Binary floating point: rationals or integers stand for floats.
* NSGA-II selection, the parallel computational
  backends (`backend/*`).
* The reading of contractors, of the structure of works and of
  names (`userinput/parser`), (de)serialisation of numpy arrays, data frames and
  `ScheduledProject`, visualisation, neural networks, `api`, `native`.

## 5. Findings

Each is a theorem with a concrete witness (and is listed with the property it limits in
`MANIFEST.json`).

* `time_add_not_associative`: saturated addition of times is not associative.
* `momentum_can_schedule_independent_refuted`: asking whether an independent work can be
  scheduled at a moment raises `KeyError`.
* `momentum_too_large_team_crashes`: booking a team larger than the workforce trips the
  internal assertion. `jit_oversized_team_accepted`: the other timeline accepts it silently.
* `momentum_assigned_time_can_crash`: an assigned execution time larger than the estimate
  can trip the assertion. A work inside a chain with an assigned time ignores its
  predecessors outside the chain (C11's exclusion).
* `jit_find_ignores_predecessors`: the start found by the JIT search ignores the finish of
  predecessors (placement corrects it). `jit_negative_inseparable_lag_crashes`.
* `infinite_schedule_not_validated`: a schedule whose last row ends at infinity is
  accepted without being checked. `execution_time_needs_finish`: without a finish work the
  execution time can be smaller than the latest finish.
* `spec_team_wrong_kind_crashes`, `partial_specification_crashes`,
  `partial_specification_fails`, `single_exclusion_ignored`: specifications that fix some of
  the worker counts raise or are overwritten. `identity_exceeds_maximum`: the identity
  optimizer does not respect the maximum.
* `topological_order_priorities_needed`, `corrected_priorities_break_chains`: priorities
  that are only corrected edge by edge can contradict the dependencies of chains and the
  resulting schedule breaks dependencies. `start_start_edges_ignored`: dependencies of type
  start-start are not respected by the schedulers without restructuring.
* `topological_traversal_endless`: traversal never ends if a node has a predecessor that
  cannot be reached from the start.
* `order_check_too_weak_for_crossover`, `resource_crossover_needs_equal_borders`,
  `equal_priorities_order_operators_idle`: limits of the genetic operators.
* `misplaced_borders_overbook`: the resource borders of the genetic scheduler are written
  by position in the contractor's own list; if contractors list their professions in
  different orders, decoded schedules use more workers than a contractor has.
  `serial_decoding_needs_borders`: a row above its border makes decoding raise.
* `parallel_specified_counts_overbook`, `parallel_rows_above_borders_overbook`,
  `parallel_independent_work_overtakes`: in the parallel scheme the numbers of the
  specification are applied after the test that workers are free, rows above the border are
  accepted, and independent works do not wait for predecessors that are not placed yet.
* `lft_uneven`: the LFT scheduler counts the works of a contractor at its position among
  the accepted contractors. If the first contractor is never allowed, of two equal
  contractors the first gets all works and the other none, for every number of works.
* `dichotomy_never_upper_border`, `dichotomy_misses_minimum`: the dichotomy never answers
  the upper border.
* `append_after_removed_tail_lost`, `iteration_omits_last`: the linked list loses elements
  appended after the last one was removed, and its iterator omits the last element.
* `heavy_parallel_link_removed`: cycle elimination removes heavier parallel links with the
  lightest one.
* `overstaffed_work_takes_no_time`, `empty_team_takes_no_time`, `unknown_kind_fails`: the
  default estimator outside the limits of a work.
* `contractor_check_fails`: the check in front of scheduling raises `KeyError` if a
  contractor lacks a profession although another one can do every work.
* `exact_deadline_missed`, `deadline_search_fails`: the search for the least resources.
* `downtime_counted_twice` (auction), `copy_reverses` (block graph copies).
* `own_holder_not_first`, `unreachable_route_diverges`, `parallel_roads_not_shortest`,
  `parallel_roads_unavailable`, `zero_roads_ignored`: routes.
* `double_edge_crashes`, `finish_lag_uses_wrong_volume`: restructuring. `start_start_order_crashes`
  shows that the order of the works has to respect edges of all types, as that of
  `WorkGraph.nodes` does.
* `zone_released_early`, `zone_changed_in_use`: with positive costs of changes of status,
  works with conflicting statuses can overlap in a zone.
* `small_population_omits_heuristic`: in a population smaller than the number of
  heuristics plus two a heuristic schedule can be lost.
* `failed_heuristic_breaks_population`: a heuristic that finds no contractor makes
  `generate_chromosomes` raise, whatever the others found.
* `specified_counts_break_optimized_borders`: with optimized borders and a number of
  workers fixed by the specification, mutation can lower the border below the fixed number;
  the individual passes the validity check, decoding raises and the genetic scheduler
  answers nothing.
* `parallel_genetic_worse_than_heft`: the parallel scheme (the default) tries only times at
  which some work starts or ends, not the ends of lags, so it decodes the schedule of
  HEFTBetweenScheduler to a longer one; without lucky mutations the genetic scheduler
  answers a schedule worse than the heuristic one it started from.
* `resources_sum_raises`: `resources_sum` reads `worker.model_name`, which no worker has, so
  SumOfResourcesFitness raises for every schedule with a worker.
* `late_schedule_preferred`: DeadlineResourcesFitness multiplies the peaks by the relative
  delay; a late schedule with fewer workers can be preferred to one on time.
* `price_ignored`: `Worker.copy` does not pass `cost_one_unit` on and every worker of a
  schedule is a copy, so prices set by the user have no effect on costs.
* `vehicles_never_booked`: `_supply_resources` books `len(selected_vehicles)` vehicles of the
  outer, empty list, i.e. none; one vehicle makes any number of deliveries at once.
* `overloaded_vehicle`: if more vehicles are needed than the depot has, the slice of the
  vehicle list is shorter and the delivery takes place with those.
* `stock_used_twice`: the platform accepts a work with one later event and does not reduce
  the stock after it.
* `stock_not_deducted`: if some materials of a work are in stock and others are delivered,
  only the delivered ones are reduced.
* `instant_road_lost`: a booking on a road of length 0 starts and ends at the same time; its
  end event repeats the reduced number, so the bandwidth is lost.
* `local_order_whole_broken`: given the whole list, the optimizer of the order exchanges start
  and finish of the project, and the finish is scheduled before the works.
* `local_order_predecessors_ignored`: an exchange looks at the successors of the later and the
  predecessors of the earlier work only, so a work can be put before its predecessor.
* `parallelize_breaks_chains`: the schedule optimizer leaves the head of an inseparable chain
  at its old time and gives the inner works new ones.
* `hybrid_zero_plateau_never_ends`: with `max_plateau_size = 0` the hybrid loop never ends
  (the counter is compared by `==` after it was raised).
* `hybrid_two_objectives_wrong`: `np.argmin` over tuples counts values, not individuals.
* `hybrid_heuristics_forget`: a heuristic population in the cycle discards the population.
* `hybrid_genetic_start_raises`: the starting scheduler gets `[]`, which is not `None`, so a
  genetic scheduler raises `IndexError` for its empty hall of fame.
* `simplified_start_random`: `new_id or uuid_str()` treats the number 0 as missing, so with the
  default offset the start of a graph with simplified ids has a random id.
* `insertion_backwards_never_ends`: inserting a graph with the second work before (or equal to) the
  first makes a cycle, and the constructor of the graph never ends; nothing is checked.
* `insertion_direct_edge_raises`: an inserted graph with an edge from its start to its finish
  raises KeyError.
* `insert_work_correct`: parents and children given as plain nodes get edges of lag -1 (elsewhere
  the default is 0), so a work may start one unit before its parent has ended.
* `obstruction_not_before_finish`: the exit edge of an obstruction leaves from the start of the
  inserted graph, not from its finish: the inserted works are not before the finish of the
  project, and the graph has two ends.
* `restruct_finish_never_ends`: a sub-work of a finish that is not a service work makes a cycle.
* `deletion_leaves_last_of_chain`: deleting an inseparable chain by its head deletes all works but
  the last; by another work it deletes only this one. The docstring says all are deleted.
* `deletion_keeps_ss_work`: a deleted work with a start-start or finish-finish edge stays in the graph.
* `late_material_breaks_booking`, `late_material_breaks_zone`: the search for the start of a chain
  asks for the materials of its first work only. If the materials of a later work come late, the
  chain takes longer than the gap that was found, and the booking of workers or of zones fails with
  an assertion error.

- **Stage ids are parsed by prefix** (`stage_suffix_confuses`): a work whose id ends in `_stage` has its
  stages merged into the work whose id is the rest, which gets their volume and finish.
- **Uniting loses cost** (`united_cost_lost`): the cost of a united work is that of one of its stages.
- **All stages of a work carry one granular name** (`stage_names`, `unstable_sort_keeps_stage_id`): the
  dictionary `model_name` is shared by a work and all its stages (structurator/base.py:187 on a shallow copy
  of the attributes), so each stage appends its suffix to the same string, and the input graph's works are
  renamed as well. All stages hence have the same stage number, and which of them is "last" depends on how
  pandas' unstable sort treats ties; the united work may keep the id of a stage.
- **Merged rows count days inclusively** (`merged_duration_one_longer`): the duration column is
  finish - start + 1 for works in several stages and finish - start for the others.

- **A zone is held while its work waits** (`jit_zone_held_while_waiting`): the just-in-time timeline looks for
  a start without regard to the predecessors, then moves the works behind them, but books the zone from the
  start it found. Conflicting works wait although nobody works in the zone.
- **Chains outgrow the gap found for their zone** (`jit_chain_outgrows_zone`): the length that the just-in-time
  timeline asks the zone timeline for knows neither the lags inside the chain nor the materials of its later
  works. If the chain takes longer, the zone timeline's assertion fails.

- **Names that look like numbers change** (`numbers_in_names_change`, `dotted_names_change`, `link_to_wrong_work`):
  predecessors pass through int(float(s)), ids do not. A link to the work `1.2` becomes a link to the work
  `1`, or is dropped if there is none; so are links to `007` and to numbers from 2^53 on that floats lack.
- **A missing lag is -1** (`missing_lag_is_negative`, `missing_lag_in_graph`), and a row with predecessors but
  no types raises IndexError (`missing_types_fail`).
- **Links of the history depend on the order of rows** (`direction_by_row_order`): of works that start
  together the first in the table precedes. Occurrences with the same days count twice (`same_days_count_twice`),
  and a single overlap outvotes any number of occurrences one after the other (`overlap_outvotes`).
- **Types and lags of the history go to the wrong links** (`history_info_misplaced`) if all_connections and
  change_connections_info are on; lags, being shares, are cut to 0 (`history_lags_vanish`); a row with more types
  than predecessors makes set_connections_info loop forever (`extra_type_endless`).

- **Lag strategies TRUE and FALSE do nothing** (`lag_strategies_ignored`): `case LagOptimizationStrategy.TRUE,
  LagOptimizationStrategy.FALSE` is a pattern for pairs, so both strategies go to the last case, the graph is not
  restructured and Start-Start and Finish-Finish links are not honoured.
- **A split work loses its specification** (`specification_lost_by_restructuring`): it is found under the id of
  the work, which only the last stage keeps, and the team is chosen for the first stage.

- **Agents that share a contractor overbook it** (`shared_contractor_overbooked`): each agent has its own
  timeline, and nothing checks that the contractors of agents differ.

- **One agent that cannot do a block stops all** (`unable_agent_stops_all`): its offer raises
  NoSufficientContractorError instead of abstaining, and `run_auction` does not catch it.

- **Links the history does not know lose type and lag** (`rewritten_in_order`): with both options
  on, a row of whose predecessors the history knows none gets FS with a lag of 1 for all of them,
  whatever the table says.

- **The serial scheme fails on every site with zones** (`serial_scheme_fails_with_zones`):
  `MomentumTimeline.schedule` returns `None`, which `serial_schedule_generation_scheme` gives to the
  zone timeline as a start time; comparing with it raises ValueError, for every chromosome made
  from a schedule.
* `parallel_independent_zone_fails` (C108): a work that the specification calls
  independent is placed without asking its zones (just_in_time_timeline.py:145-152); if a
  zone is taken with another status, `ZoneTimeline.update_timeline` raises and the
  chromosome is not decoded.
* `schedule_read_once` (C109): `Schedule.loadd` replaces the works in the caller's
  dictionary by objects (schedule.py:104); reading the same dictionary again raises.
* `requirement_read_twice` (C110): `_deserialize` deletes the type hints from the caller's
  dictionary (serializable.py:408); a second read silently leaves dictionaries where times
  belong.
* `equipment_not_written` (C110): equipment requirements have no serializer (works.py:84-95);
  `dumps` of a work that has one raises.
* `copy_forgets_name` (C110): `WorkUnit.__setstate__` sets neither `name` nor `description`
  (works.py:146-160); reading them from a deep copy or an unpickled work raises
  AttributeError.
* `read_worker_unproductive` (C110): the productivity of workers is not written
  (resources.py:73); after reading it is None, `get_productivity` raises, and the copies the
  schedulers make have productivity 1 and price 10.
* `genetic_serial_fails_with_zones` (C111): with at least one zone on the site, whatever the
  works need and whatever is drawn, the genetic scheduler with the serial scheme raises (the
  general consequence of `serial_scheme_fails_with_zones`, C107).
* `clusters_exceed_request` (C112): get_graph with `cluster_counts = k` always returns more
  than k clusters (the loop compares with `len(stages) - 1`, project.py:121-122).
* `bottom_border_missed` (C112): with `bottom_border = 60` the graph may have at most 48 works:
  if the first cluster reaches the border, it is thrown away and a small graph is returned
  instead (project.py:125-126).
* `seed_ignored` (C112): that small graph is made without `rand`, so with one and the same
  seed the result differs (project.py:126).
* `top_border_exceeded` (C112): `top_border = 80` may give more than 80 works; the size of the
  next cluster is taken to be that of the last (project.py:120).
* `names_never_extended` (C113): the constructor of WorkUnit gives every work the name 'dummy'
  (works.py:53), so there is no name to extend: extend_names with a positive count raises
  ZeroDivisionError (extension.py:18), and so does SimpleSynthetic.advanced_work_graph.
* `resources_not_reached` (C113): extend_resources may return a graph with no more professions
  than before, whatever was requested; each suffix is drawn independently.
* `old_contractors_useless` (C113): after extend_resources no requirement can be met by a
  contractor with the professions of the generator: every profession got a suffix.
* `no_resources_fails` (C113): without requirements extend_resources raises ZeroDivisionError.
* `twice_drawn_neighbour` (C114): get_landscape_by_wg draws neighbours with replacement
  (landscape.py:103, 142). The test against neighbours looks only at roads made before, so a
  neighbour drawn twice gets two roads, and the table of routes keeps the longer one.
* `vehicles_empty` (C114): vehicles carry the largest need // 2 (landscape.py:164). If no work
  needs more than one of a material they carry none, and the division by the load fails
  when the material is to be delivered (hybrid_supply_timeline.py:51-58).
* `service_chains_unplaced` (C114): a chain that begins with a service unit is on no platform,
  with all its works.
* `no_platform_fails` (C114): for one vertex there is no platform and the division by their
  number raises ZeroDivisionError (landscape.py:120).
* `platform_lost` (C115): a warehouse with the name of a platform silently takes its place
  (landscape.py:49); the platform and its storage are gone.
* `road_listed_twice` (C115): a road that is listed from both ends becomes two roads, and the
  length listed last counts, although the shorter road exists.
* `bottom_not_kept` (C116): set_materials_for_wg draws with replacement and puts the draws
  into a set (base.py:104), so a work may get one material whatever the bottom border is.
* `borders_ignored` (C116): without names the borders given by the user are overwritten.
* `setitem_wrong_item` (C117): with two items of the same key, setting the first one changes
  the second (sorted_list.py:16, 64).
* `merge_foreign_key` (C117): if no item has the key of old, the value is kept under that key
  and not under its own, and the values may be out of order.
* `changed_key_duplicates` (C118): if the key of a queued value has changed, decrease_key does
  not find the old entry (priority_queue.py:26) and the value is in the queue twice. If it has
  not changed, decrease_key changes nothing but the order of equal keys.
* `shared_unique_name` (C120): if two names share a unique name, the inverse mapping takes the
  first one to the second without notice.

Observed while reading, not modelled: `get` of every name mapper drops the answer of
`__getitem__` and returns None (name_mapper.py:62, 74); the heuristics of the first population are
scheduled from time zero and without the caller's timeline, whatever
`assigned_parent_time` is; `schemas/interval.py` clamps with EPS;
`append_statuses` of the zone timeline raises `AttributeError`;
two schedule optimizers in one pipeline raise (`ApplyQueue` passes on the result only, the
order is lost), and the optimizer reads `worker.model_name`, which workers do not have;
`hybrid/cycle.py` evaluates the first population with whatever project the backend was last
told about, and raises if there was none;
copies of work units (`copy_graph_node`) lose priority, display name and description (the
priority of a copy is 1), and `work_graph_ids_simplification` ignores its `change_id`;
a table without a `model_name` column raises `SyntaxError` (`eval('')`); requirements for
kinds that the estimator does not name are dropped; `req_volume` is not evaluated when read
from a file; `to_frame` writes a table that cannot be read again; `DummyNameMapper.get`
returns `None`.
