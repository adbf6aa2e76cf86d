{"id": "C01", "title": "Time arithmetic is saturated integer arithmetic with a total order", "statement": "Every Time produced by the constructor or by +, -, *, // lies in [-2000000000, 2000000000]; it equals the exact integer result whenever that result is in range and the nearest bound otherwise; adding is commutative and monotone, and the comparison operators are a total order that agrees with the integers.", "quantifier": "all Python integers used as Time values or operands", "why_tests_cant": "The domain is all pairs (triples for the laws) of integers; saturation only shows at the extremes.", "anchors": ["sampo/schemas/time.py: Time.__init__, set_time, __add__, __sub__, __mul__, __floordiv__, __lt__..__eq__, is_inf"]}
{"id": "C02", "title": "Interval-keeping timeline never overbooks a worker type", "statement": "For a MomentumTimeline created from a worker pool, after any sequence of update_timeline calls that do not raise, at every time moment and for every contractor and worker kind the sum of the counts of the works running at that moment does not exceed the number of workers the contractor has.", "quantifier": "all pools, all sequences of bookings (any start, duration, team), all time moments", "why_tests_cant": "Overbooking depends on an unbounded history of overlapping, touching and nested intervals.", "anchors": ["sampo/scheduler/timeline/momentum_timeline.py: MomentumTimeline.__init__, update_timeline"]}
{"id": "C03", "title": "Interval-keeping timeline reports exactly the free workers", "statement": "After any such history, the availability recorded by a MomentumTimeline for a moment t (the count of the last event not later than t) is capacity minus the sum of the counts of the bookings active at t; in particular booking changes availability only inside [start, end).", "quantifier": "all histories of successful bookings, all moments t >= 0", "why_tests_cant": "An equality between an event list and a sum over an unbounded history at all moments.", "anchors": ["sampo/scheduler/timeline/momentum_timeline.py: update_timeline"]}
{"id": "C04", "title": "A time slot returned by the slot search is really free", "statement": "When the slot search of MomentumTimeline answers s for a parent time, a duration and a team size not larger than the capacity, then s >= parent time and at every moment of [s, s+duration) at least the team size is free.", "quantifier": "all reachable timelines, parent times, durations and team sizes", "why_tests_cant": "The search walks an event list built by an arbitrary history.", "anchors": ["sampo/scheduler/timeline/momentum_timeline.py: _find_earliest_time_slot"]}
{"id": "C05", "title": "The slot search returns the earliest feasible start", "statement": "Every s' with parent time <= s' < s is infeasible: some moment of [s', s'+duration) has fewer free workers than the team size. The search always terminates.", "quantifier": "all reachable timelines, parent times, positive durations and team sizes (work not marked independent)", "why_tests_cant": "Minimality is a statement about all earlier start times.", "anchors": ["sampo/scheduler/timeline/momentum_timeline.py: _find_earliest_time_slot"]}
{"id": "C06", "title": "The start found for a whole team suits all its professions at once and is the earliest such start", "statement": "The search over all required professions terminates and returns a start >= parent time at which every profession of the team is free for the whole duration, and no earlier start has this property.", "quantifier": "all reachable timelines, lists of requirements, durations", "why_tests_cant": "The queue re-inserts requirements an unbounded number of times; termination and fixpoint optimality need induction.", "anchors": ["sampo/scheduler/timeline/momentum_timeline.py: _find_min_start_time"]}
{"id": "C07", "title": "Booking a found slot never fails", "statement": "If a team fits the contractor's capacity and the start was found by the timeline for that team and duration (or for a longer one), then booking it raises no assertion error.", "quantifier": "all reachable timelines, teams and durations", "why_tests_cant": "Absence of assertion failures over all histories.", "anchors": ["sampo/scheduler/timeline/momentum_timeline.py: find_min_start_time_with_additional, _validate, update_timeline"]}
{"id": "C08", "title": "Release-time timeline conserves workers and stays ordered", "statement": "After any sequence of bookings of teams not larger than the capacity, for each contractor and profession a JustInTimeTimeline still accounts for exactly the contractor's number of workers, with no negative group and with groups in descending order of release time.", "quantifier": "all pools, all sequences of bookings including independent works", "why_tests_cant": "Conservation over unbounded histories of splits and merges.", "anchors": ["sampo/scheduler/timeline/just_in_time_timeline.py: __init__, update_timeline"]}
{"id": "C09", "title": "Release-time timeline answers the earliest moment enough workers are free for good", "statement": "The start computed from a JustInTimeTimeline for a team is at least the given lower bound, and at that moment at least the requested number of workers of every profession is released; at any earlier moment (not before the lower bound) some profession has too few released workers.", "quantifier": "all reachable timelines, all teams not larger than capacity", "why_tests_cant": "Quantifies over all histories and all earlier moments.", "anchors": ["sampo/scheduler/timeline/just_in_time_timeline.py: _find_min_start_time, can_schedule_at_the_moment"]}
{"id": "C10", "title": "Works placed through the release-time timeline never overbook", "statement": "If every work is booked at a start not earlier than the timeline's answer for its team, then at every moment the sum of counts of running works does not exceed the capacity.", "quantifier": "all pools, all histories of bookings, all moments", "why_tests_cant": "Safety over unbounded histories; the data structure forgets the past, so the invariant relates it to a ghost history.", "anchors": ["sampo/scheduler/timeline/just_in_time_timeline.py: _find_min_start_time, update_timeline"]}
{"id": "C11", "title": "List scheduling with the interval timeline yields a feasible schedule", "statement": "For every work graph, every contractor list, every team-choice function within requirements and capacity, every non-negative duration estimator and every order in which a work comes after the works it depends on, if the generic scheduler over MomentumTimeline returns a schedule then every ordered work (with its inseparable chain) is scheduled exactly once, no work starts before the finish plus lag of each of its predecessors outside its chain, chain members follow each other, and no contractor is ever overbooked.", "quantifier": "all graphs, contractor lists, orders, estimators, specs (works without materials and zones)", "why_tests_cant": "End-to-end correctness of a scheduler over all inputs.", "anchors": ["sampo/scheduler/generic.py: GenericScheduler.build_scheduler, get_resource_optimizer", "sampo/scheduler/timeline/momentum_timeline.py: schedule, _schedule_with_inseparables", "sampo/schemas/graph.py: GraphNode.min_start_time"]}
{"id": "C12", "title": "List scheduling never trips an internal assertion", "statement": "Under the conditions of C11 the only way the generic scheduler over MomentumTimeline can fail is reporting that no contractor can perform some work.", "quantifier": "same as C11", "why_tests_cant": "Absence of internal errors over all runs.", "anchors": ["sampo/scheduler/generic.py: build_scheduler", "sampo/scheduler/utils/multi_contractor.py: run_contractor_search"]}
{"id": "C13", "title": "Precedence in schedules built over the release-time timeline", "statement": "Works scheduled one by one through JustInTimeTimeline.schedule never start before the finish plus lag of an already scheduled predecessor, whatever start time is passed in.", "quantifier": "all graphs, orders, start times passed in, estimators", "why_tests_cant": "All histories of the schedule under construction.", "anchors": ["sampo/scheduler/timeline/just_in_time_timeline.py: schedule, _schedule_with_inseparables", "sampo/schemas/graph.py: min_start_time"]}
{"id": "C14", "title": "Contractor search returns an enabled contractor with the earliest finish", "statement": "run_contractor_search returns a contractor from the given list that the work's specification allows, whose finish time is finite and minimal among all allowed contractors, ties broken by the smaller total workforce; it raises the no-sufficient-contractor error exactly when no allowed contractor has a finite finish time.", "quantifier": "all contractor lists, specifications and evaluation functions", "why_tests_cant": "Optimality over arbitrary lists and evaluation functions.", "anchors": ["sampo/scheduler/utils/multi_contractor.py: run_contractor_search", "sampo/schemas/schedule_spec.py: WorkSpec.filter_contractors, is_contractor_enabled"]}
{"id": "C15", "title": "Worker borders are within the requirement and the contractor's capacity", "statement": "get_worker_borders either reports failure, exactly when the contractor lacks a required profession or has fewer workers than the required minimum, or returns for each requirement its minimum and the smaller of its maximum and the contractor's count.", "quantifier": "all pools, contractors, requirement lists", "why_tests_cant": "Arbitrary requirement lists and pools.", "anchors": ["sampo/scheduler/utils/multi_contractor.py: get_worker_borders", "sampo/scheduler/utils/__init__.py: get_worker_contractor_pool"]}
{"id": "C16", "title": "The schedule validator's capacity check is exact", "statement": "The capacity check of validate_schedule passes exactly when, for every contractor and profession, at every moment the sum of the team counts of the works running at that moment is within the contractor's capacity (works with well-formed intervals).", "quantifier": "all schedules and contractor lists", "why_tests_cant": "Soundness and completeness of a checker over all schedules.", "anchors": ["sampo/utilities/validation.py: check_all_allocated_workers_do_not_exceed_capacity_of_contractors"]}
{"id": "C17", "title": "The schedule validator's other checks mean what they say", "statement": "If validate_schedule accepts a schedule whose execution time is not infinite, then every work of the graph is scheduled, every dependency predecessor finishes before its successor starts, every restricted work is done by an allowed contractor, service works take no time and each team is within the requirement's bounds.", "quantifier": "all graphs, schedules, specifications", "why_tests_cant": "Soundness of a checker over all inputs.", "anchors": ["sampo/utilities/validation.py: validate_schedule, _check_parent_dependencies, _check_all_tasks_scheduled, _check_all_tasks_corresponds_to_spec, _check_all_workers_correspond_to_worker_reqs"]}
{"id": "C18", "title": "Generic scheduler output passes the library's own validator", "statement": "The schedule built in C11, when lags are non-negative and chain members share requirements, is accepted by validate_schedule's precedence, spec, requirement and capacity checks.", "quantifier": "all inputs of C11 with non-negative lags", "why_tests_cant": "Relates two independent components for all inputs.", "anchors": ["sampo/scheduler/generic.py: schedule_with_cache", "sampo/utilities/validation.py: validate_schedule"]}
{"id": "C19", "title": "Assigned execution time is distributed exactly over an inseparable chain", "statement": "When a work specification assigns a total time to a chain, the times given to the chain's works are non-negative and add up exactly to the assigned time.", "quantifier": "all chains, non-negative volumes and assigned times", "why_tests_cant": "Rounding over arbitrary chains.", "anchors": ["sampo/scheduler/timeline/utils.py: get_exec_times_from_assigned_time_for_chain"]}
{"id": "C20", "title": "Priority correction makes priorities respect dependencies", "statement": "After check_and_correct_priorities every work's priority is at most that of each work depending on it; each priority equals the minimum of the original priorities of the work and of all works that depend on it directly or indirectly; nothing else changes and applying it again changes nothing.", "quantifier": "all acyclic graphs and priority assignments", "why_tests_cant": "Holds for all graphs; depends on recursion over all ancestors and on iteration order.", "anchors": ["sampo/utilities/priority.py: update_priority, check_and_correct_priorities"]}
{"id": "C21", "title": "Topological traversal of a work graph", "statement": "Topological traversal from the start node of an acyclic graph with a single source terminates and yields every node exactly once, each after all its predecessors.", "quantifier": "all acyclic graphs", "why_tests_cant": "Termination and order for all graphs.", "anchors": ["sampo/schemas/graph.py: GraphNode.traverse_children, WorkGraph.from_nodes"]}
{"id": "C22", "title": "Level-by-level topological sort is correct and detects cycles", "statement": "The topological scheduler's sort returns every node exactly once with each node after its prerequisites, and raises the circular-dependency error exactly when the dependencies contain a cycle.", "quantifier": "all dependency maps", "why_tests_cant": "All graphs, including cyclic.", "anchors": ["sampo/scheduler/topological/base.py: toposort, _topological_sort"]}
{"id": "C23", "title": "HEFT order respects dependencies", "statement": "The node order computed by HEFT prioritization is a permutation of the head nodes in which every node comes after the nodes it depends on, whenever priorities respect dependencies.", "quantifier": "all acyclic graphs, estimators, priority assignments respecting dependencies", "why_tests_cant": "Correctness of a longest-path fixpoint for all graphs.", "anchors": ["sampo/scheduler/heft/prioritization.py: prioritization, prioritization_nodes", "sampo/scheduler/utils/critical_path.py: ford_bellman"]}
{"id": "C24", "title": "LFT order respects dependencies", "statement": "The node order computed by the latest-finish-time rule is a permutation in which every node comes after its prerequisites.", "quantifier": "all acyclic graphs with durations at least 1 and priorities respecting dependencies", "why_tests_cant": "All graphs and durations.", "anchors": ["sampo/scheduler/lft/prioritization.py: map_lft_lst, lft_prioritization_core, lft_prioritization"]}
{"id": "C25", "title": "Randomized LFT order respects dependencies for every random choice", "statement": "Whatever the random generator returns, the randomized latest-finish-time order is a permutation in which each node comes after its prerequisites, and the procedure never runs out of candidates on an acyclic graph.", "quantifier": "all acyclic graphs and all random choice sequences", "why_tests_cant": "All random outcomes.", "anchors": ["sampo/scheduler/lft/prioritization.py: lft_randomized_prioritization_core"]}
{"id": "C26", "title": "Order crossover of chromosomes preserves a correct work order", "statement": "Two-point order crossover of two permutations of the same works is again a permutation of them; if both parents respect the dependencies, so do both children.", "quantifier": "all pairs of work orders, all cut points", "why_tests_cant": "All permutations and cut points.", "anchors": ["sampo/scheduler/genetic/operators.py: two_point_order_crossover, mate_scheduling_order"]}
{"id": "C27", "title": "Order mutation of chromosomes preserves a correct work order", "statement": "For every mutation decision and every random position chosen, order mutation returns a permutation of the same works that respects the dependencies if the input does.", "quantifier": "all work orders, dependency relations, random decisions", "why_tests_cant": "All random outcomes and graphs.", "anchors": ["sampo/scheduler/genetic/operators.py: mutate_scheduling_order_core, mutate_scheduling_order"]}
{"id": "C28", "title": "Resource crossover and mutation keep chromosomes valid", "statement": "Starting from chromosomes whose worker counts are within the work's minimum and within the contractor borders, resource crossover and mutation (for every random choice) return chromosomes with the same property.", "quantifier": "all chromosomes, borders, random decisions", "why_tests_cant": "All random outcomes and shapes.", "anchors": ["sampo/scheduler/genetic/operators.py: mate_resources, mutate_resources, mutate_values, is_chromosome_contractors_correct"]}
{"id": "C29", "title": "Splitting a work into stages conserves its amounts", "statement": "Splitting a work into stages by proportions produces stages whose requirement amounts are non-negative and add up exactly to the original requirement's amount; the last stage keeps the original id and stages are linked into one inseparable chain.", "quantifier": "all works, requirement lists and proportion lists", "why_tests_cant": "Rounding for arbitrary proportions and counts.", "anchors": ["sampo/structurator/base.py: split_node_into_stages"]}
{"id": "C30", "title": "Breaking loops in the input graph terminates and yields an acyclic subgraph", "statement": "Cycle elimination over the input links terminates, breaks only cycles of the remaining graph, each by removing the links between two consecutive works one of whose links is of minimal weight on the cycle, keeps all other links, and the result has no cycle; an acyclic input is unchanged.", "quantifier": "all weighted directed graphs", "why_tests_cant": "Termination and acyclicity for all graphs.", "anchors": ["sampo/userinput/parser/general_build.py: Graph.dfs_cycle, find_cycle, eliminate_cycle, eliminate_cycles, break_loops_in_input_graph"]}
{"id": "C31", "title": "LinkedList filtering removal", "statement": "remove_if keeps exactly the elements not selected, in order, testing each element once in order, and the length stays correct.", "quantifier": "all lists and predicates", "why_tests_cant": "All lists and stateful predicates.", "anchors": ["sampo/utilities/linked_list.py: LinkedList.remove_if, append"]}
{"id": "C32", "title": "Integer dichotomy search stays in range and is within one of the optimum", "statement": "dichotomy_int terminates, returns a value in [down, up], and for a strictly unimodal objective the value is at distance at most one from the minimiser.", "quantifier": "all integer ranges and objectives", "why_tests_cant": "All functions and ranges.", "anchors": ["sampo/utilities/base_opt.py: dichotomy_int"]}
{"id": "C33", "title": "Resource optimizers return teams within the borders", "statement": "The coordinate descent, full scan and average resource optimizers terminate and set each worker count to a value between the given minimum and maximum, whatever the objective function is.", "quantifier": "all border vectors (min <= max) and objective functions", "why_tests_cant": "All objectives.", "anchors": ["sampo/utilities/base_opt.py: coordinate_descent", "sampo/scheduler/resource/average_req.py", "sampo/scheduler/resource/full_scan.py", "sampo/scheduler/resource/coordinate_descent.py", "sampo/scheduler/resource/identity.py"]}
{"id": "C34", "title": "Work time estimate is monotone in team size up to the useful maximum", "statement": "For a non-empty team the default estimator returns infinite time when a required profession is missing or below its minimum, otherwise the least whole time in which the team does the volume of every requirement (never negative, saturated at the infinite time); adding workers never increases it while the team does not exceed the requirement's maximum count.", "quantifier": "all requirement lists and teams", "why_tests_cant": "All counts; cubic communication coefficient.", "anchors": ["sampo/schemas/time_estimator.py: DefaultWorkEstimator.estimate_time, _get_productivity, communication_coefficient"]}
{"id": "C35", "title": "Auction picks the agent with the earliest finish", "statement": "The multi-agency auction returns, among all agents, an agent offering the minimal finish time, the first such in list order, and confirms exactly that offer.", "quantifier": "all agent lists and offers", "why_tests_cant": "All lists.", "anchors": ["sampo/scheduler/multi_agency/multi_agency.py: Manager.run_auction"]}
{"id": "C36", "title": "Block scheduling respects block dependencies", "statement": "The manager schedules every block of an acyclic block graph exactly once, in an order where each block comes after its predecessors, and every block's start is strictly later than the end of each of its predecessors.", "quantifier": "all acyclic block graphs and agent lists", "why_tests_cant": "All graphs.", "anchors": ["sampo/scheduler/multi_agency/block_graph.py: BlockGraph.toposort", "sampo/scheduler/multi_agency/multi_agency.py: Manager.manage_blocks", "sampo/scheduler/multi_agency/block_validation.py"]}
{"id": "C37", "title": "Shortest routes between landscape nodes", "statement": "The all-pairs route table is exact: the recorded distance is the minimal length over all routes, there is no entry iff no route exists, and following the recorded hops yields a shortest route. Holders are listed by that distance. A route built from a set of available roads uses only these, is a shortest one of its kind, and is empty iff the available roads do not join the two nodes.", "quantifier": "all road graphs with positive lengths, no road from a node to itself and at most one road between two nodes; all pairs of nodes; all sets of available roads (the finding theorems show what happens without these restrictions)", "why_tests_cant": "All graphs and routes.", "anchors": ["sampo/schemas/landscape.py: LandscapeConfiguration._build_routes, get_route, get_sorted_holders, _dijkstra, construct_route", "sampo/schemas/landscape_graph.py: LandGraph, LandGraphNode.add_neighbours"]}
{"id": "C38", "title": "Work graph serialization round trip", "statement": "Deserializing a serialized acyclic work graph gives a graph with the same works and the same typed, lagged edges in the same order.", "quantifier": "all work graphs with one start and one finish node", "why_tests_cant": "All graphs.", "anchors": ["sampo/schemas/graph.py: WorkGraph._serialize, _deserialize, GraphNode._serialize"]}
{"id": "C39", "title": "Schedule order is by start time and topological", "statement": "Ordering of works in a Schedule built with a work graph lists every work once, in non-decreasing start time, and a work never before a predecessor that starts at the same or an earlier time.", "quantifier": "all schedules and acyclic graphs", "why_tests_cant": "All schedules.", "anchors": ["sampo/schemas/schedule.py: order_nodes_by_start_time, from_scheduled_works"]}
{"id": "C40", "title": "Head-node mapping collapses inseparable chains faithfully", "statement": "Every work belongs to the chain of exactly one head node; a head node's prerequisites are exactly the heads of the chains containing dependency predecessors of its chain members, and the children mapping is the inverse of the parents mapping.", "quantifier": "all graphs whose inseparable edges form disjoint chains", "why_tests_cant": "All graphs.", "anchors": ["sampo/scheduler/utils/__init__.py: get_head_nodes_with_connections_mappings_nodes"]}
{"id": "C41", "title": "Spec-driven team choice", "statement": "If a specification names worker counts for a work, the team used has exactly these counts for the named professions and only the others are optimised.", "quantifier": "all works, teams, specifications, optimisers", "why_tests_cant": "All specs.", "anchors": ["sampo/scheduler/base.py: Scheduler.optimize_resources_using_spec"]}
{"id": "C42", "title": "Resource-constrained deadline search returns a schedule meeting the deadline when it found one", "statement": "The average binary search optimizer returns a schedule within the deadline if the smallest teams finish before the deadline or any of the team sizes that its bisection tries meets the deadline, and then none of those tried comes closer to the deadline; if none meets it, the schedule is the fastest of those tried. It always ends. For a scheduler that never gets faster with smaller teams it finds a schedule within the deadline whenever a coefficient of at least 1.05 gives one, with teams as small as possible up to 0.05 in the coefficient.", "quantifier": "all deterministic schedulers, deadlines", "why_tests_cant": "All schedulers and deadlines.", "anchors": ["sampo/scheduler/resources_in_time/average_binary_search.py"]}
{"id": "C43", "title": "Feasibility pre-check of the pipeline is exact", "statement": "The pipeline's contractor check accepts exactly when for each work some single contractor has at least the required minimum of every profession.", "quantifier": "all graphs and contractor lists", "why_tests_cant": "All inputs; the code uses shared flags across nested loops.", "anchors": ["sampo/pipeline/default.py: contractors_can_perform_work_graph"]}
{"id": "C44", "title": "A generated contractor can perform the graph it was generated for", "statement": "A contractor generated from a work graph with any generation method has, for each profession, at least the minimum count of every work of the graph.", "quantifier": "all graphs, methods and scalers >= 1", "why_tests_cant": "All graphs.", "anchors": ["sampo/generator/environment/contractor_by_wg.py: get_contractor_by_wg", "sampo/generator/environment/contractor.py: get_contractor", "sampo/schemas/interval.py"]}
{"id": "C45", "title": "Zone statuses during a work", "statement": "If changing the status of a zone takes no time, then in every history of searches for the earliest moment and checks of given moments, each search ends with a moment not before the requested time at which the work gets all its zones at once, and no two works that require different statuses of a zone ever overlap. (If changes take time this is false: the zone is released too early and can be changed while in use.)", "quantifier": "all start statuses and all histories of works with any zones, statuses, lengths and wishes", "why_tests_cant": "Overlaps appear only after particular sequences of nested and abutting bookings.", "anchors": ["sampo/scheduler/timeline/zone_timeline.py: find_min_start_time, can_schedule_at_the_moment, update_timeline"]}
{"id": "C46", "title": "List scheduling with the release-time timeline yields a feasible schedule", "statement": "For every work graph, contractor list, team-choice function within the borders, non-negative duration estimator and order in which a work comes after the works it depends on, if the generic scheduler over JustInTimeTimeline returns a schedule then every work is scheduled once, every predecessor finishes (plus lag) before its successor starts, chains are contiguous in order with one team, teams are within requirements and no contractor's workers are ever overbooked.", "quantifier": "all graphs, contractors, optimisers, estimators, orders", "why_tests_cant": "All inputs and run lengths.", "anchors": ["sampo/scheduler/generic.py: build_scheduler", "sampo/scheduler/timeline/just_in_time_timeline.py: schedule, update_timeline"]}
{"id": "C47", "title": "List scheduling with the release-time timeline never fails internally", "statement": "Under the conditions of C46 with non-negative lags on inseparable edges and a bounded horizon, the only way the generic scheduler over JustInTimeTimeline can fail is reporting that no contractor can perform some work, and then no allowed contractor has the minimum workers of that work.", "quantifier": "same as C46", "why_tests_cant": "Absence of internal errors over all runs.", "anchors": ["sampo/scheduler/generic.py: build_scheduler", "sampo/scheduler/timeline/just_in_time_timeline.py: _schedule_with_inseparables"]}
{"id": "C48", "title": "Scheduled works take the estimated time", "statement": "In a schedule built without assigned execution times, every work finishes exactly the estimated execution time of its own team after it starts (saturated at the infinite time); over MomentumTimeline a work without worker requirements takes no time.", "quantifier": "all graphs, estimators, contractors, team-choice functions, specifications without assigned time, orders and both timelines", "why_tests_cant": "the placement of a work in a chain recomputes times from gaps and lags over any number of earlier works", "anchors": ["sampo/scheduler/timeline/momentum_timeline.py: find_min_start_time_with_additional, _schedule_with_inseparables", "sampo/scheduler/timeline/just_in_time_timeline.py: _schedule_with_inseparables"]}
{"id": "C49", "title": "Execution time of a schedule is its latest finish", "statement": "The execution time of a Schedule built with its work graph equals the latest finish time of its works, when every work leads to the finish work and every dependent work starts after its prerequisites end; in particular for schedules produced by the timelines.", "quantifier": "all acyclic graphs with one finish work, all schedules respecting precedence, all orders in which sets are iterated", "why_tests_cant": "The last row must be the right one for every schedule, including ties in start times.", "anchors": ["sampo/schemas/schedule.py: Schedule.execution_time, from_scheduled_works, order_nodes_by_start_time"]}
{"id": "C50", "title": "Longest-path weights and the critical path", "statement": "The weight computed for a node by the longest-path procedure is the largest total weight of a dependency path from the node to the end, and the critical path is a path of directly dependent works from the first work to the last whose length is the longest possible.", "quantifier": "all acyclic graphs and non-negative node weights", "why_tests_cant": "Maximality is over all paths of all graphs.", "anchors": ["sampo/scheduler/utils/critical_path.py: ford_bellman, critical_path_graph", "sampo/scheduler/heft/prioritization.py: prioritization_nodes"]}
{"id": "C51", "title": "From a work graph to a feasible schedule", "statement": "Given a valid work graph (finish-start edges, no cycles, inseparable edges forming chains) and priorities that respect the dependencies between chains, the HEFT, HEFT-between and Topological schedulers either report that chains depend on each other cyclically or that some work has no allowed contractor with enough workers, or answer a schedule that contains every work exactly once, respects every dependency with its lag, keeps every inseparable chain together with one team, staffs every work within its limits and never uses more workers of a kind than the contractor has.", "quantifier": "all work graphs, estimators, contractors, specifications, resource optimizers, set iteration orders and priorities", "why_tests_cant": "The composition of all stages must be right for all inputs; every stage's precondition must be met by what the previous stage produces.", "anchors": ["sampo/scheduler/generic.py: GenericScheduler.schedule_with_cache", "sampo/scheduler/heft/base.py: HEFTScheduler, HEFTBetweenScheduler", "sampo/scheduler/topological/base.py: TopologicalScheduler", "sampo/scheduler/utils/__init__.py: get_head_nodes_with_connections_mappings"]}
{"id": "C52", "title": "The default pipeline produces a feasible schedule", "statement": "Scheduling through the default pipeline with the HEFT scheduler and the default estimator answers a feasible schedule that respects all dependencies whenever every contractor lists every profession and each work has an allowed contractor with its minimum of workers; with contractors generated from the graph (any method, any number of at least one, any scaler of at least one) it always does, unless the inseparable chains depend on each other cyclically.", "quantifier": "all work graphs with consistent priorities, contractors or generation methods, productivity tables and start times whose total horizon fits the time range", "why_tests_cant": "End-to-end composition of priority correction, contractor generation, pre-check, ordering, resource search and the timeline over all inputs.", "anchors": ["sampo/pipeline/default.py: DefaultInputPipeline.schedule, contractors_can_perform_work_graph", "sampo/generator/environment/contractor_by_wg.py: get_contractor_by_wg", "sampo/scheduler/heft/base.py: HEFTScheduler", "sampo/schemas/time_estimator.py: DefaultWorkEstimator"]}
{"id": "C53", "title": "A block graph becomes one work graph with the same dependencies", "statement": "Turning a block graph into a single work graph links the finish of one block to the start of another exactly when the block graph has that dependency, starts the blocks without predecessors after one global start, and finishes after all blocks without successors; the dependency check of block schedules accepts exactly the schedules in which every block starts no earlier than its predecessors end, and what the manager returns passes it.", "quantifier": "all block graphs and block schedules", "why_tests_cant": "All graphs; the copy made on the way reverses all edges, which has to be undone.", "anchors": ["sampo/scheduler/multi_agency/block_graph.py: BlockGraph.to_work_graph, __copy__", "sampo/scheduler/multi_agency/block_validation.py: _check_block_dependencies"]}
{"id": "C54", "title": "Restructuring keeps every constraint and leaves only Finish-Start and inseparable edges", "statement": "Restructuring a work graph succeeds and returns the stages of all works in the order of the works, each work divided only where an edge demands it; the remaining edges are Finish-Start or inseparable, all go forward in that order, and are exactly the links between consecutive stages together with the images of the original edges (Start-Start: the child starts after the stage in which the lag is done; Finish-Finish: the child's last part waits for the parent to finish; mixed edges: both), none missing; no stage gets two inseparable predecessors or successors unless the work had.", "quantifier": "all work graphs with all five types of edges and any lags, with or without the use of lags", "why_tests_cant": "Combinations of edge types, lags and positions are unbounded; a lost or misdirected edge only shows for some of them.", "anchors": ["sampo/structurator/base.py: graph_restructuring, split_node_into_stages, fill_parents_to_new_nodes"]}
{"id": "C55", "title": "Decoding a chromosome with the serial scheme gives a feasible schedule", "statement": "Decoding a chromosome in the serial scheme answers a schedule that contains every work of the order (with its inseparable chain) exactly once, in which every work starts after its predecessors outside the chain plus the lag, chains run without interleaving and with one team, every team is exactly the one the chromosome's row and the work's specification name, with the contractor of the row, no contractor ever uses more workers of a kind than the border in the chromosome, and the reported start is the earliest start of a work with workers.", "quantifier": "all work graphs, chromosomes with non-negative amounts and topological order, borders, specifications, estimators, contractors and assigned start times", "why_tests_cant": "Genetic search decodes many thousands of different chromosomes; each must be feasible, whatever the operators produce.", "anchors": ["sampo/scheduler/genetic/converter.py: serial_schedule_generation_scheme, convert_chromosome_to_schedule", "sampo/scheduler/timeline/momentum_timeline.py: MomentumTimeline"]}
{"id": "C56", "title": "Decoding a valid chromosome never fails", "statement": "If the rows of the chromosome are valid in the sense that the genetic operators preserve (amounts within the work's limits and within the border of the chosen contractor, contractor available for the work), the available contractors have the required professions and the counts fixed by the specification are within the borders, then decoding in the serial scheme answers a schedule: no exception.", "quantifier": "all work graphs, chromosomes with topological order, contractors, specifications without assigned times, estimators with bounded estimates and horizons within the time range", "why_tests_cant": "A crash may need a particular combination of order, amounts and borders that the search reaches only after many generations.", "anchors": ["sampo/scheduler/genetic/converter.py: serial_schedule_generation_scheme, convert_chromosome_to_schedule", "sampo/scheduler/genetic/operators.py: is_chromosome_contractors_correct"]}
{"id": "C57", "title": "A heuristic schedule survives encoding and decoding", "statement": "A schedule built by a list scheduler, encoded as a chromosome with borders equal to the contractors' workforces and decoded in the serial scheme, is the same schedule: same works in the same order, same times, same teams and contractors (only the contractor recorded for works without workers may differ).", "quantifier": "all work graphs, estimators, contractors, specifications, resource optimizers and assigned start times", "why_tests_cant": "Round trip over all schedules the heuristics may produce; the genetic scheduler relies on it to never be worse than the heuristics it starts from.", "anchors": ["sampo/scheduler/genetic/converter.py: convert_schedule_to_chromosome, convert_chromosome_to_schedule", "sampo/scheduler/genetic/base.py: GeneticScheduler.generate_first_population"]}
{"id": "C58", "title": "Decoding a chromosome with the parallel scheme gives a feasible schedule", "statement": "What decoding in the parallel scheme (time steps, every ready work is tried) answers is a feasible schedule: no work twice, every work either placed or left over, proper intervals, every dependency predecessor of a placed work that is not marked independent is placed too and finishes (plus lag) before it starts, chains run in order with one team, the team and contractor are those of the chromosome's row with the numbers fixed by the specification, no contractor ever uses more workers of a kind than the border, and works outside of chains last exactly as long as specified or estimated.", "quantifier": "all work graphs, chromosomes within the borders (the order need not be topological beyond the first work), specifications whose numbers do not exceed the rows, estimators, contractors, assigned start times and numbers of loop iterations", "why_tests_cant": "Which works are placed at which time step depends on the whole history of releases; the space of chromosomes is unbounded.", "anchors": ["sampo/scheduler/genetic/converter.py: parallel_schedule_generation_scheme", "sampo/scheduler/timeline/just_in_time_timeline.py: can_schedule_at_the_moment, schedule", "sampo/scheduler/timeline/general_timeline.py: GeneralTimeline"]}
{"id": "C59", "title": "Decoding a valid chromosome with the parallel scheme ends with all works placed", "statement": "For a chromosome with valid rows, borders that are zero for professions the contractor does not have, a topological order that contains the predecessors of its works and specified numbers and times within the rows and limits, the loop over time steps of the parallel scheme ends after finitely many iterations, raises nothing and leaves no work over.", "quantifier": "all work graphs, chromosomes, specifications, contractors, bounded estimators and lags, assigned start times, horizons within the time range", "why_tests_cant": "Termination of an unbounded loop; a test can only wait.", "anchors": ["sampo/scheduler/genetic/converter.py: parallel_schedule_generation_scheme", "sampo/utilities/linked_list.py: LinkedList.remove_if"]}
{"id": "C60", "title": "LFT schedulers staff works with the largest allowed teams and share works evenly", "statement": "In every schedule of the LFT scheduler and of the randomized LFT scheduler every chain is given to one contractor that is allowed for it and has the required and the specified numbers of workers, and its team has of every required profession exactly the specified number, or, if none is specified, as many workers as the contractor has and the requirement admits. If all contractors have the same workforce and all can do every work, the LFT scheduler gives any two of them numbers of chains that differ by at most one.", "quantifier": "all work graphs, contractors, specifications, estimators, priorities, assigned start times and random choices, both timelines", "why_tests_cant": "The share of each contractor depends on the whole history of assignments; a test sees one graph and one set of contractors.", "anchors": ["sampo/scheduler/lft/base.py: LFTScheduler._contractor_workers_assignment, get_contractors_and_workers_amounts_for_work", "sampo/scheduler/lft/base.py: RandomizedLFTScheduler"]}
{"id": "C61", "title": "LFT schedules are feasible", "statement": "Every schedule that the LFT scheduler or the randomized LFT scheduler answers, with either timeline, contains every work exactly once, has proper intervals, respects the dependencies with their lags, runs chains in order with one team, and never uses more workers of a kind than a contractor has.", "quantifier": "all work graphs, contractors, specifications, estimators, priorities that respect the dependencies between chains, assigned start times and random choices", "why_tests_cant": "Feasibility must hold for every graph and every sequence of random choices.", "anchors": ["sampo/scheduler/lft/base.py: LFTScheduler.schedule_with_cache, build_scheduler", "sampo/scheduler/lft/base.py: RandomizedLFTScheduler"]}
{"id": "C62", "title": "LFT schedulers answer a schedule or the true reason for its absence", "statement": "The LFT schedulers end and answer a schedule, or report wrong specified numbers only if some chain's specification names a number outside its requirement, report insufficient contractors only if some chain has no contractor that is allowed and has enough workers, and otherwise raise only if chains depend on each other cyclically or there are no contractors.", "quantifier": "all work graphs, contractors, specifications without assigned times, bounded estimators, priorities, random choices and horizons within the time range", "why_tests_cant": "A crash may need a particular combination of graph, teams and choices.", "anchors": ["sampo/scheduler/lft/base.py: LFTScheduler, RandomizedLFTScheduler, get_contractors_and_workers_amounts_for_work"]}
{"id": "C63", "title": "The genetic search answers a Pareto front of what it found", "statement": "Every answer of the genetic search is a member of the first population or offspring of some generation and carries its true fitness; of two different answers neither is at least as good as the other in every objective; and every member of the first and of the last population is matched or surpassed in every objective by some answer.", "quantifier": "all fitness functions, weights, ways of producing offspring, selections, shuffles, timeouts, plateaus and numbers of generations", "why_tests_cant": "The answer depends on every random choice of the whole run; a test fixes one seed.", "anchors": ["sampo/scheduler/genetic/schedule_builder.py: build_schedules, build_schedules_with_cache", "sampo/scheduler/genetic/operators.py: select_new_population, Individual"]}
{"id": "C64", "title": "With one objective the genetic search answers the best of everything it evaluated", "statement": "Without multi-objective selection and with one objective the genetic search answers exactly one individual, and it is at least as good as every individual that was evaluated in any generation, in particular as the heuristic schedules of the first population.", "quantifier": "all fitness functions, weights, ways of producing offspring, shuffles, timeouts, plateaus, positive population sizes and numbers of generations", "why_tests_cant": "That nothing good is lost must hold for every history of generations.", "anchors": ["sampo/scheduler/genetic/schedule_builder.py: build_schedules_with_cache", "sampo/scheduler/genetic/operators.py: select_new_population"]}
{"id": "C65", "title": "With a deadline the genetic search meets it whenever it found how", "statement": "If any individual of the first stage meets the deadline, every answer meets it; otherwise every answer takes the least time found in the first stage. No answer is worse than another by the user's fitness, and with one objective the answer is at least as good as everything that was evaluated in the second stage.", "quantifier": "all fitness functions, deadlines, weights, ways of producing offspring, shuffles, timeouts, plateaus, positive population sizes and numbers of generations", "why_tests_cant": "Depends on two chained random searches.", "anchors": ["sampo/scheduler/genetic/schedule_builder.py: build_schedules_with_cache"]}
{"id": "C66", "title": "The first population is full and contains every heuristic schedule", "statement": "The first population of the genetic search has exactly the size asked for. Each member is the chromosome of a given heuristic schedule or of a randomized one. If the size exceeds the number of heuristics by at least two, every heuristic with a positive weight and at least one randomized topological and one randomized LFT schedule are in it. With LFT initialization alone the given LFT schedule is in it.", "quantifier": "all population sizes, numbers and weights of heuristics, random samples and randomized schedules", "why_tests_cant": "Which individuals survive the sampling is random; rounding of the counts decides whether one can be lost.", "anchors": ["sampo/scheduler/genetic/operators.py: generate_chromosomes"]}
{"id": "C67", "title": "Crossover and mutation keep individuals valid", "statement": "Applied to valid individuals, crossover and mutation of orders, rows of workers and contractor borders never raise and produce exactly two individuals per pair, each valid: an order of all chains respecting dependencies and priorities; for each chain an allowed contractor and numbers of workers within the limits of the work and the border of the contractor; borders within the workforces.", "quantifier": "all work graphs, contractors, specifications, populations and all answers of the random generators", "why_tests_cant": "The space of orders, rows, borders and random answers is unbounded; an individual that turns invalid after some generation only costs fitness or raises much later.", "anchors": ["sampo/scheduler/genetic/schedule_builder.py: make_offspring", "sampo/scheduler/genetic/operators.py: mate, mutate, mutate_resource_borders", "sampo/scheduler/genetic/utils.py: prepare_optimized_data_structures"]}
{"id": "C68", "title": "The genetic scheduler answers feasible schedules", "statement": "Started from valid individuals, with the serial decoding, without deadline, the genetic scheduler never raises and answers at least one schedule; each answered schedule is feasible: every work once, chains in sequence with one team, teams within limits from an allowed contractor, never more workers busy than a contractor has, and dependencies respected with their lags.", "quantifier": "all work graphs, contractors, specifications, fitness functions, objectives, population sizes, generation numbers, clocks and random answers", "why_tests_cant": "Random search over generations; each run of the program visits one path.", "anchors": ["sampo/scheduler/genetic/schedule_builder.py: build_schedules_with_cache", "sampo/scheduler/genetic/operators.py: evaluate, is_chromosome_correct", "sampo/scheduler/genetic/converter.py: serial_schedule_generation_scheme"]}
{"id": "C69", "title": "The genetic scheduler is no worse than its first population", "statement": "Minimizing execution time with serial decoding, the genetic scheduler answers exactly one schedule, and it ends no later than the schedule of any individual of its first population. If the schedule of HEFTBetweenScheduler (project start zero) is in the first population, the answer ends no later than that schedule.", "quantifier": "all work graphs with a finish work, contractors, specifications, populations, generation numbers, clocks and random answers", "why_tests_cant": "It is a comparison over all random runs, and relies on encoding and decoding preserving the heuristic schedule for every input.", "anchors": ["sampo/scheduler/genetic/schedule_builder.py: build_schedules_with_cache", "sampo/scheduler/genetic/base.py: GeneticScheduler.generate_first_population", "sampo/scheduler/genetic/utils.py: init_chromosomes_f", "sampo/scheduler/genetic/operators.py: TimeFitness"]}
{"id": "C70", "title": "The genetic scheduler answers feasible schedules in the default scheme", "statement": "Started from valid individuals, with the parallel decoding (the default), without deadline and without fixed worker counts, the genetic scheduler never raises, each decoding ends within a stated number of iterations, and each answered schedule is feasible: every work once, proper times, chains in sequence with one team, professions and numbers of workers within the limits and from an allowed contractor, never more workers busy than a contractor has, and lags respected by all works that are not specified as independent.", "quantifier": "all work graphs, contractors, specifications, fitness functions, objectives, population sizes, generation numbers, clocks and random answers", "why_tests_cant": "Random search over generations around a loop whose end depends on all durations and lags; each run of the program visits one path.", "anchors": ["sampo/scheduler/genetic/schedule_builder.py: build_schedules_with_cache", "sampo/scheduler/genetic/operators.py: evaluate, is_chromosome_correct", "sampo/scheduler/genetic/converter.py: parallel_schedule_generation_scheme"]}
{"id": "C71", "title": "In the default scheme the genetic scheduler is no worse than its first population", "statement": "Minimizing execution time with parallel decoding, with no independent works and no negative lags, the genetic scheduler answers exactly one schedule; it respects every dependency with its lag and ends no later than the parallel decoding of any individual of its first population.", "quantifier": "all work graphs with a finish work, contractors, specifications, populations, generation numbers, clocks and random answers", "why_tests_cant": "It is a comparison over all random runs.", "anchors": ["sampo/scheduler/genetic/schedule_builder.py: build_schedules_with_cache", "sampo/scheduler/genetic/converter.py: parallel_schedule_generation_scheme", "sampo/scheduler/genetic/operators.py: TimeFitness"]}
{"id": "C72", "title": "Resource peaks are the greatest simultaneous use", "statement": "The peak usage of a schedule lists exactly the chosen professions that occur in its teams, each once, and gives for each the greatest number of its workers that are busy at the same moment, over all moments; for feasible schedules it is never more than all contractors have together. The sum of the peaks is independent of the order of works.", "quantifier": "all schedules, all choices of professions; all moments, including those between starts and ends", "why_tests_cant": "The maximum ranges over all moments of unbounded time and all schedules.", "anchors": ["sampo/utilities/resource_usage.py: get_total_resources_usage, get_resources_peak_usage, resources_peaks_sum, resources_sum, resources_costs_sum", "sampo/schemas/resources.py: Worker.copy"]}
{"id": "C73", "title": "Minimizing resources, the genetic scheduler is no worse than its first population", "statement": "Minimizing the sum of resource peaks, or execution time plus that sum, the genetic scheduler answers exactly one feasible schedule whose measure is not greater than that of the decoding of any individual of its first population, in both schemes.", "quantifier": "all work graphs with a finish work, contractors, specifications, chosen professions, populations, generation numbers, clocks and random answers", "why_tests_cant": "It is a comparison over all random runs.", "anchors": ["sampo/scheduler/genetic/operators.py: SumOfResourcesPeaksFitness, TimeWithResourcesFitness", "sampo/scheduler/genetic/schedule_builder.py: build_schedules_with_cache"]}
{"id": "C74", "title": "Deliveries never overdraw depots or roads", "statement": "Whatever materials works ask for, at whatever times and in whatever order, a call is answered or refused for lack of materials or roads, and nothing else goes wrong; the deliveries together take no more of a material from a depot than it had, and at no moment are there more vehicles on a road than its bandwidth.", "quantifier": "all landscapes whose roads take time and whose depots have vehicles that carry what they stock; all sequences of calls whose amounts fit the storage of the platform and whose times are far enough below infinity", "why_tests_cant": "It is an invariant over all sequences of bookings on all resources; the code only asserts it.", "anchors": ["sampo/scheduler/timeline/hybrid_supply_timeline.py: deliver_resources, _supply_resources, _find_earliest_start_time, _get_route_with_additional, _update_timeline", "sampo/scheduler/timeline/platform_timeline.py: PlatformTimeline"]}
{"id": "C75", "title": "A delivery arrives when needed, over its route", "statement": "Every answer is a time not before the one asked for. A delivery leaves a depot of the platform at a time not negative and before it arrives, brings positive amounts of materials of the work, and, if the depot has the least number of vehicles that can carry them, all of them cross the roads of the route one after the other from departure to arrival, and of the way back after that.", "quantifier": "as C74", "why_tests_cant": "It relates the bookings of unboundedly many roads for all histories.", "anchors": ["sampo/scheduler/timeline/hybrid_supply_timeline.py: deliver_resources, _supply_resources, _get_route_with_additional, _get_necessary_vehicles_amount"]}
{"id": "C76", "title": "The earliest material time is accepted", "statement": "The time that is found as the earliest for the materials of a work is not before the requested one and is accepted when it is checked; materials asked for at that time are there at exactly that time. No other work may take materials from the platform between the two times.", "quantifier": "all landscapes and histories as in C74, all times and needs", "why_tests_cant": "The search for a delivery is repeated with another deadline and may take another depot; agreement must hold for all states.", "anchors": ["sampo/scheduler/timeline/hybrid_supply_timeline.py: find_min_material_time, can_schedule_at_the_moment, deliver_resources", "sampo/scheduler/timeline/platform_timeline.py: find_min_material_time_with_additional"]}
{"id": "C77", "title": "The stock of a platform is kept in order", "statement": "For works that need one material of a platform, in the order of time, a delivery comes exactly if the stock does not suffice, and then fills the storage; the stock is what was there and came minus what was used, and it stays between zero and the capacity.", "quantifier": "all landscapes, histories on other platforms, amounts up to the capacity", "why_tests_cant": "It is an invariant over histories of any length.", "anchors": ["sampo/scheduler/timeline/platform_timeline.py: get_material_for_delivery, can_provide_resources, update_timeline", "sampo/scheduler/timeline/hybrid_supply_timeline.py: deliver_resources"]}
{"id": "C78", "title": "Local optimization of an order keeps the order of a project", "statement": "An optimizer of the order of works never fails for an area inside the list and its answer holds exactly the same works. On the order of a project, from its start to its finish, any sequence of such optimizers gives the same order back, unless one of them is given the whole list.", "quantifier": "all work graphs, all orders, all areas", "why_tests_cant": "The loops exchange works any number of times; no test covers all graphs and areas.", "anchors": ["sampo/scheduler/utils/local_optimization.py: SwapOrderLocalOptimizer.optimize, get_swap_candidates, is_candidate_accepted", "sampo/schemas/apply_queue.py: ApplyQueue.apply"]}
{"id": "C79", "title": "The schedule optimizer keeps schedules without inseparable works", "statement": "The optimizer that parallelizes a schedule, applied to the order and the schedule of a project without inseparable works over the release-time timeline, always answers, and the answer is the schedule that was given.", "quantifier": "all work graphs without inseparable works, contractors, specifications, areas, all affordable teams", "why_tests_cant": "It is a claim about every schedule the scheduler can produce.", "anchors": ["sampo/scheduler/utils/local_optimization.py: ParallelizeScheduleLocalOptimizer.optimize, recalc_schedule"]}
{"id": "C80", "title": "The hybrid scheduler ends and is no worse than its start", "statement": "If no scheduler of the cycle loses the best individual it is given, and there is one objective that is not negative, the hybrid scheduler ends, after at most max_plateau rounds for every value the best one can fall to, and its answer is at least as good as every individual of the starting population.", "quantifier": "all populations, all such schedulers and all their random behaviour, all fitness functions with one value, every plateau of at least one", "why_tests_cant": "Ending is a claim about a loop without a bound; the schedulers are arbitrary.", "anchors": ["sampo/hybrid/cycle.py: CycleHybridScheduler.run, _get_population_fitness, _get_best_individual"]}
{"id": "C81", "title": "The hybrid scheduler answers feasible schedules no later than its start", "statement": "With genetic schedulers in the cycle that minimize the time, started from individuals of the project, the hybrid scheduler always ends, and the schedule it answers is feasible and ends no later than the schedule of any individual it was started from. This holds for the serial and the parallel scheme.", "quantifier": "all projects, contractors and specifications that C68 (serial) or C71 (parallel) admit; all random answers; all numbers and sizes of the genetic schedulers", "why_tests_cant": "It joins an unbounded loop with the genetic search over all random choices.", "anchors": ["sampo/hybrid/cycle.py: CycleHybridScheduler", "sampo/hybrid/population.py: GeneticPopulationScheduler", "sampo/scheduler/genetic/base.py: GeneticScheduler.upgrade_pop"]}
{"id": "C82", "title": "A copied work graph is the same project", "statement": "Copying a work graph under new ids (random, simplified numbers, or the same ids) gives a graph with exactly the same works, requirements, edges, lags, edge types and order of incoming edges, under the new ids; the precedence relation is the same. Simplified ids are distinct and are the numbers from the offset on when the offset is positive.", "quantifier": "all work graphs without cycles with one start and one finish, all one-to-one renamings, all positive offsets", "why_tests_cant": "Tests copy a few generated graphs; the claim is about every graph and every renaming.", "anchors": ["sampo/structurator/prepare_wg_copy.py: prepare_work_graph_copy, restore_parents, copy_graph_node, new_start_finish", "sampo/structurator/light_modifications.py: work_graph_ids_simplification"]}
{"id": "C83", "title": "Inserting a graph puts its works between two works and changes nothing else", "statement": "Inserting a graph between two works (the second not before the first) ends with a work graph that has exactly the works of the project and the inner works of the inserted graph; all edges, lags and requirements are kept; the inserted works come after the first work and everything before it, and before the second work and everything after it; two works of the project are ordered as before or through the inserted graph; inserted works are ordered as in their graph.", "quantifier": "all projects and inserted graphs without a direct edge from start to finish, all pairs of insertion points in order", "why_tests_cant": "The claim is about precedence in every pair of graphs, and that the construction ends.", "anchors": ["sampo/structurator/graph_insertion.py: graph_in_graph_insertion"]}
{"id": "C84", "title": "Inserting one work puts it between its parents and children and changes nothing else", "statement": "Inserting a work with parents and children, no child before a parent, ends with a work graph with exactly one more work; all edges are kept, the new edges are those given; the precedence relation grows by exactly what the new work implies.", "quantifier": "all projects, all non-empty lists of parents and children given as nodes or as edges with lags and types", "why_tests_cant": "The claim is about the transitive precedence in every graph.", "anchors": ["sampo/structurator/insert_wu.py: insert_work_unit"]}
{"id": "C85", "title": "An obstruction keeps the project and puts the inserted works after the insertion point", "statement": "An obstruction that inserts a graph at a random work keeps every work and edge of the project and of the inserted graph and the order within both; the inserted works come after exactly the insertion point and what is before it. Only the start of the inserted graph comes before works of the project: the inserted works themselves do not come before the finish.", "quantifier": "all projects, inserted graphs, random insertion points and random children", "why_tests_cant": "The random choices and graphs are unbounded.", "anchors": ["sampo/scheduler/utils/obstruction.py: OneInsertObstruction.apply"]}
{"id": "C86", "title": "Generated sub-works are added without changing the project", "statement": "Restructuring with generated sub-works ends with a work graph with exactly the works of the project and the generated ones; works of the project are ordered as before; a sub-work comes after its work and everything before that, and before the finish only.", "quantifier": "all projects whose finish is a service work, all generated sub-works", "why_tests_cant": "The generator is random; the claim is about every outcome.", "anchors": ["sampo/schemas/structure_estimator.py: DefaultStructureEstimator.restruct"]}
{"id": "C87", "title": "Deleting a work keeps the precedence of all others", "statement": "Deleting a work with dependency edges that is not the head of an inseparable chain ends with a work graph with exactly the other works; their edges, lags and types are kept, each predecessor of the deleted work is linked to each of its successors, and any two remaining works are ordered exactly as before.", "quantifier": "all projects, all such works, also with several edges between the same works", "why_tests_cant": "The edge lists are changed while they are iterated over; that all edges are found is a claim about every list.", "anchors": ["sampo/structurator/delete_graph_node.py: delete_graph_node, _node_deletion"]}
{"id": "C88", "title": "Schedules on a site with materials and zones are feasible", "statement": "Whatever a landscape with materials and zones answers, a schedule that the list scheduler builds on it places every work once, respects every predecessor and lag, keeps chains together, uses allowed teams and never exceeds a contractor's workforce.", "quantifier": "all projects, contractors, estimators, specifications, orders, and all behaviours of the material and the zone timeline", "why_tests_cant": "Materials and zones shift starts and lengthen chains in ways that depend on everything scheduled before.", "anchors": ["sampo/scheduler/timeline/momentum_timeline.py: find_min_start_time_with_additional, schedule, _schedule_with_inseparables", "sampo/scheduler/generic.py: build_scheduler"]}
{"id": "C89", "title": "Scheduled works that need different statuses of a zone never overlap", "statement": "In a schedule built on a site with zones whose status changes take no time, two works (or chains) that need different statuses of a zone never overlap in time: one of them is finished before the other starts.", "quantifier": "all projects, zone requirements, landscapes and contractors, all orders of scheduling", "why_tests_cant": "A conflict depends on the whole history of bookings of workers, materials and zones.", "anchors": ["sampo/scheduler/timeline/momentum_timeline.py: find_min_start_time_with_additional, _schedule_with_inseparables", "sampo/scheduler/timeline/zone_timeline.py: find_min_start_time, update_timeline"]}
{"id": "C90", "title": "Every scheduled work starts when its materials are on site", "statement": "In a schedule built on a site with depots and roads, every work has its order of exactly the materials it needs answered, and it starts at the time of this answer: a delivery has arrived by then over its route. Over the whole schedule no depot gives out more than it had and no road carries more vehicles than it may.", "quantifier": "all projects, material needs, landscapes and contractors, all orders of scheduling", "why_tests_cant": "Whether depots and roads are overdrawn depends on all deliveries of a schedule together.", "anchors": ["sampo/scheduler/timeline/momentum_timeline.py: _schedule_with_inseparables", "sampo/scheduler/timeline/hybrid_supply_timeline.py: deliver_resources"]}
{"id": "C91", "title": "Scheduling on a site with zones fails only for want of a contractor", "statement": "With zones whose status changes take no time and no materials, the list scheduler never fails internally: either it gives a schedule that ends within the number of works times (longest execution + longest lag + 1) of the start, or some work has no allowed contractor with enough workers.", "quantifier": "all projects, zone requirements, contractors, specifications without assigned times, optimizers, precedence-respecting orders; bounded horizons", "why_tests_cant": "The booking of zones and workers asserts that what the search found is still free; this can only be checked for all histories by an invariant.", "anchors": ["sampo/scheduler/timeline/momentum_timeline.py: find_min_start_time_with_additional, schedule, _schedule_with_inseparables", "sampo/scheduler/timeline/zone_timeline.py: update_timeline", "sampo/scheduler/generic.py: build_scheduler"]}
{"id": "C92", "title": "Merging the stages of a schedule gives one row per work", "statement": "Merging the split tasks of a schedule gives exactly one row per original work, sorted by start: its volume is the sum over the stages, it starts with the first and finishes with the last stage in the table, and a work that was not split keeps its row unchanged. It needs work ids that do not contain, or end in the beginning of, the stage separator.", "quantifier": "all tables of scheduled works, numbers of stages, iteration orders of sets, unstable sorts", "why_tests_cant": "Tests merge a few schedules with benign ids; the claim is about all id strings (prefixes of one another, ids ending in part of the separator) and all orders of rows.", "anchors": ["sampo/utilities/schedule.py: fix_split_tasks, merge_split_stages, offset_schedule", "sampo/schemas/schedule.py: Schedule.merged_stages_datetime_df", "sampo/structurator/base.py: make_new_node_id"]}
{"id": "C93", "title": "A united schedule keeps the original work graph", "statement": "If a schedule of a restructured graph respects the finish-start edges between the stages, then uniting its stages gives one work per original work, with the original volume, spanning exactly the times of its stages, and satisfying each edge of the original graph in the sense of its type (finish-start, lagged finish-start, start-start, finish-finish, and so on).", "quantifier": "all work graphs that can be restructured, with or without lags, all schedules of the restructured graph, all ids without the separator", "why_tests_cant": "Splitting, scheduling and uniting are tested separately on single graphs; that the composition preserves every edge type must hold for all graphs and schedules.", "anchors": ["sampo/schemas/schedule.py: Schedule.unite_stages, Schedule.from_scheduled_works", "sampo/utilities/schedule.py: fix_split_tasks", "sampo/structurator/base.py: graph_restructuring, fill_parents_to_new_nodes"]}
{"id": "C94", "title": "List schedules over the release-time timeline on a site are feasible", "statement": "On a site with materials and zones, a schedule that the list scheduler builds over the just-in-time timeline has every work once, starts every work after its predecessors and their lags, runs inseparable chains back to back with one team and contractor, gives every work a team within its requirements and never uses more workers than a contractor has, whatever the material and zone timelines answer.", "quantifier": "all work graphs, contractors, estimators, specifications, orders, optimizers, and all behaviours of the material and zone timelines", "why_tests_cant": "The answers of the supply and zone timelines depend on the whole history; a test sees a few sites only.", "anchors": ["sampo/scheduler/timeline/just_in_time_timeline.py: find_min_start_time_with_additional, schedule, _schedule_with_inseparables", "sampo/scheduler/generic.py: GenericScheduler.build_scheduler"]}
{"id": "C95", "title": "Works that need different statuses of a zone never overlap (release-time timeline)", "statement": "In a schedule built over the just-in-time timeline, two works that need conflicting statuses of one zone do not overlap, if changing a status takes no time, the chains that need zones need no materials and have no positive lags inside, and the first node needs no zones.", "quantifier": "all such projects, zone requirements, starting statuses and orders", "why_tests_cant": "The just-in-time timeline books a zone from a start that may be earlier than the work's own; whether conflicts can arise depends on all earlier bookings.", "anchors": ["sampo/scheduler/timeline/just_in_time_timeline.py: find_min_start_time_with_additional, _schedule_with_inseparables", "sampo/scheduler/timeline/zone_timeline.py: find_min_start_time, update_timeline"]}
{"id": "C96", "title": "Every work has its materials when it starts (release-time timeline)", "statement": "In a schedule built over the just-in-time timeline every work has exactly one answered order of the materials it needs at its platform, starts at the time of this answer, and over the whole schedule no depot gives out more than it had and no road carries more vehicles than it may.", "quantifier": "all projects, landscapes with routes, and orders of scheduling", "why_tests_cant": "Deliveries interact through stocks and roads over the whole schedule.", "anchors": ["sampo/scheduler/timeline/just_in_time_timeline.py: _schedule_with_inseparables", "sampo/scheduler/timeline/hybrid_supply_timeline.py"]}
{"id": "C97", "title": "Scheduling over the release-time timeline with zones fails only for want of a contractor", "statement": "If no work needs materials, status changes are free, and the chains that need zones have no positive lags inside, then the list scheduler over the just-in-time timeline either returns a schedule, all of whose works end within (number of works) * (longest execution + longest lag + 1) of the start, or raises because some work has no allowed contractor with enough workers. No search runs forever and no assertion fails.", "quantifier": "all such projects, zones, contractors, specifications, optimizers", "why_tests_cant": "The search alternates between the worker and the zone timeline; that the two always agree on a start must hold for every history.", "anchors": ["sampo/scheduler/timeline/just_in_time_timeline.py: find_min_start_time_with_additional", "sampo/scheduler/generic.py: GenericScheduler.build_scheduler"]}
{"id": "C98", "title": "Reading a table of works gives the links as they were written", "statement": "A row of a table of works whose cells list predecessors, link types and lags separated by commas is read into exactly these links, in order, each with its predecessor, type and lag; empty cells are read as no links. Names of works must not look like numbers, or be numerals below 2^53 without leading zeros.", "quantifier": "all rows whose texts have no commas inside and are neither empty nor 'nan', with any number of links of any type", "why_tests_cant": "Names, lags and numbers of links are unbounded texts; names that look like numbers take another path.", "anchors": ["sampo/userinput/parser/general_build.py: fix_df_column_with_arrays, preprocess_graph_df"]}
{"id": "C99", "title": "A table of works becomes a graph with exactly its works and links", "statement": "Reading a table of works with distinct ids without history never fails and gives a work graph with a node for each row, a start and a finish; between works it has exactly one edge for each link of the table to a work of the table, with its type and lag, except links removed to break loops, which lay on loops; without loops none is removed. Exactly the works without dependency predecessors (successors) are joined to the start (finish), the order of nodes is topological, and every work has the volume and requirements of its row.", "quantifier": "all non-empty tables with distinct ids, any links (also with loops, repeated, or to missing works), any requirements, any topological sorting and any iteration order of sets", "why_tests_cant": "Which links survive depends on all loops of the table; the numbering, sorting and linking of nodes go through several passes over the whole table.", "anchors": ["sampo/userinput/parser/general_build.py: break_loops_in_input_graph, preprocess_graph_df, add_graph_info, topsort_graph_df, build_work_graph", "sampo/userinput/parser/csv_parser.py: CSVParser.read_graph_info, CSVParser.work_graph"]}
{"id": "C100", "title": "Links found in historical data reflect the common occurrences of two works", "statement": "The search for links in historical data never fails. It finds exactly one link for every two listed works with different names that occur together with known days, and no other. The link knows the number of common occurrences (at each site the k-th performance of the one with the k-th of the other); its lag is a share between 0 and 1. If no occurrence is empty or has both starting on one day, the predecessor starts first in at least half of the occurrences, the type follows from the numbers of occurrences one after the other, within each other and overlapping, and the lag is, up to rounding, the share of the predecessor done when the successor started in one of the occurrences of that type.", "quantifier": "all histories (any number of sites, works and repetitions, days possibly missing) and all lists of works", "why_tests_cant": "The statistic is taken over arbitrary histories; the minimum without outliers is taken over lists that must never be empty.", "anchors": ["sampo/userinput/parser/history.py: get_all_connections, gather_links_types_statistics, get_all_seq_statistic, find_min_without_outliers"]}
{"id": "C101", "title": "Historical data never override the links of the table", "statement": "Reading a table of works with historical data, whose links are added to those of the table, never fails and gives a graph with exactly one edge for each link of the table to a work of the table, with its type and lag, and one for each link of the history between works that the table does not join in that way, except links removed to break loops, which lay on loops. If the links of the table alone have no loop, none of them is removed, whatever the history says.", "quantifier": "all tables with distinct ids, all histories with fewer than 2^63-1 rows, any topological sorting and iteration order of sets", "why_tests_cant": "Whether a link of the table is the lightest on some loop depends on all links that any history could add.", "anchors": ["sampo/userinput/parser/history.py: set_connections_info", "sampo/userinput/parser/general_build.py: break_loops_in_input_graph, eliminate_cycle, build_work_graph", "sampo/userinput/parser/csv_parser.py: CSVParser.read_graph_info, CSVParser.work_graph"]}
{"id": "C102", "title": "Automatic lag strategy: the shorter of two schedules, both of which honour all links", "statement": "With the lag strategy AUTO the default pipeline answers with the shorter of the schedules of the graph restructured without and with lags. Both can be carried out on the stages, and honour every link of the project whatever its type: a Finish-Start link with its lag, start after start, finish after finish; with lags, the stated part of the earlier work is finished when the later one begins, and the stated part of the later one is not begun when the earlier one ends. There is no answer only if groups of inseparable works depend on each other cyclically or some work has no allowed contractor with enough workers.", "quantifier": "all projects with links of all types and any lags, contractors, specifications and orders of iterating sets, and every scheduler that is correct for work graphs", "why_tests_cant": "The stages, their number and their links depend on all links and volumes of the project; the schedules compared are those of arbitrary restructured graphs.", "anchors": ["sampo/pipeline/default.py: DefaultInputPipeline.schedule", "sampo/pipeline/lag_optimization.py: LagOptimizationStrategy", "sampo/structurator/base.py: graph_restructuring, make_new_stage_node", "sampo/schemas/schedule.py: execution_time"]}
{"id": "C103", "title": "A project of blocks divided among agents is scheduled feasibly as a whole", "statement": "When a manager has divided a graph of blocks among agents that use HEFT, HEFTBetween or topological schedulers, every block has been done exactly once, by one agent, by a feasible schedule with the contractors of that agent inside the times noted for the block; if a block depends on another, each of its works starts after every work of the other has ended; and at every moment no more workers of a contractor are busy than it has, counted over all blocks given to the agent together, and over the whole project if agents do not share contractors.", "quantifier": "all graphs of blocks, blocks, agents, contractors, schedulers of agents, estimators, resource optimizers and orders of iterating sets", "why_tests_cant": "Each block continues the timeline that earlier blocks left, and which blocks those are depends on all auctions so far. The validation of block schedules in the code does not check the use of workers over several blocks, as a comment in it says.", "anchors": ["sampo/scheduler/multi_agency/multi_agency.py: Agent.offer, Agent.confirm, Manager.manage_blocks, Manager.run_auction", "sampo/scheduler/multi_agency/block_validation.py: validate_block_schedule", "sampo/scheduler/generic.py: GenericScheduler.schedule_with_cache, build_scheduler", "sampo/scheduler/heft/base.py: HEFTScheduler, HEFTBetweenScheduler", "sampo/scheduler/topological/base.py: TopologicalScheduler"]}
{"id": "C104", "title": "A project of blocks that every agent can do is always scheduled", "statement": "If the blocks do not depend on each other cyclically and every agent can do every block (for each work some contractor of the agent has enough workers, and no groups of inseparable works wait for each other), then a manager with at least one agent divides all blocks; no auction fails, whatever the agents have done before, with HEFT, HEFTBetween and topological schedulers.", "quantifier": "all graphs of blocks, blocks, agents, contractors, schedulers of agents, estimators, resource optimizers and orders of iterating sets", "why_tests_cant": "Every offer continues the timeline of all earlier blocks of the agent, and must find a place for each work in it.", "anchors": ["sampo/scheduler/multi_agency/multi_agency.py: Agent.offer, Manager.manage_blocks, Manager.run_auction", "sampo/scheduler/generic.py: build_scheduler", "sampo/scheduler/timeline/momentum_timeline.py: find_min_start_time_with_additional, schedule", "sampo/scheduler/timeline/just_in_time_timeline.py: find_min_start_time_with_additional, schedule"]}
{"id": "C105", "title": "Historical data that may change links do so link by link", "statement": "With change_connections_info on and all_connections off, the graph has one edge for each link of the table, with type and lag of the history if it knows that link and those of the table if not, and one for each other link of the history, except links taken away to break loops; these were on loops, and links the history does not know are all kept if they have no loop themselves. With both options on, works without links get those of the history and the others keep their predecessors, with types and lags in the order of the history, FS and 1 where there are no more.", "quantifier": "all tables of works, historical records, mappings of names, topological sorts and orders of iterating sets", "why_tests_cant": "Which entry of the history goes to which link depends on the order of both, and loop breaking on the counts of both.", "anchors": ["sampo/userinput/parser/history.py: set_connections_info, update_connections, append_new_connections", "sampo/userinput/parser/csv_parser.py: CSVParser.read_graph_info, CSVParser.work_graph", "sampo/userinput/parser/general_build.py: break_loops_in_input_graph, build_work_graph"]}
{"id": "C106", "title": "A table of works becomes a schedule that keeps every link of the table", "statement": "Given a table of works with distinct ids and links without loops, integral lags and a list of contractors, the pipeline with lag strategy AUTO reads the table, makes a work graph and schedules it: every row is carried out and every link between rows is kept (start after finish plus lag for FS, after finish for IFS, start after start for SS, finish after finish for FF, both for FFS), workers are never overbooked, and links to works outside the table are ignored. If it fails instead, some row has no allowed contractor with enough workers, or there are inseparable links whose groups depend on each other cyclically.", "quantifier": "all tables of works, topological sorts, orders of iterating sets, contractors, specifications, productivities and all schedulers that are correct for work graphs, HEFT among them", "why_tests_cant": "It is a statement about three parts together, for every table; tests look at each part on a few tables.", "anchors": ["sampo/pipeline/default.py: DefaultInputPipeline.schedule", "sampo/userinput/parser/csv_parser.py: CSVParser.read_graph_info, CSVParser.work_graph_and_contractors", "sampo/structurator/base.py: graph_restructuring", "sampo/scheduler/generic.py: GenericScheduler.schedule_with_cache"]}
{"id": "C107", "title": "The serial scheme of the genetic scheduler respects workers and materials of a site", "statement": "Decoding a chromosome with the serial schedule generation scheme on a site, where works may need materials: if it succeeds, every work is scheduled once, after its predecessors and their lags, with the team and the contractor that the chromosome and the specification name, no contractor ever employs more workers than the border part says, and every work starts when its materials have arrived, with no depot giving out more than it has and no road carrying more vehicles than it may. A site that no work needs does not change the schedule. Not so with zones: as soon as the site has a zone, the scheme raises for every chromosome.", "quantifier": "all work graphs, sites, materials, chromosomes, estimators and start times", "why_tests_cant": "The order of the works, the deliveries and the bookings of workers interact; tests look at a few chromosomes, none of them on a site with zones.", "anchors": ["sampo/scheduler/genetic/converter.py: serial_schedule_generation_scheme", "sampo/scheduler/timeline/momentum_timeline.py: MomentumTimeline.schedule", "sampo/scheduler/timeline/hybrid_supply_timeline.py: HybridSupplyTimeline.deliver_resources", "sampo/scheduler/timeline/zone_timeline.py: ZoneTimeline.find_min_start_time"]}
{"id": "C108", "title": "The parallel scheme of the genetic scheduler respects workers, materials and zones of a site", "statement": "Decoding a chromosome with the parallel schedule generation scheme on a site, where works may need materials and zones: what is placed keeps precedence, lags, chains, teams of the chromosome and the borders of contractors; every work starts when its materials have arrived, with no depot giving out more than it has and no road carrying more vehicles than it may; works that need different statuses of a zone never overlap. A site that no work needs does not change the result. Independent works are not asked for zones: such a work can make the scheme raise.", "quantifier": "all work graphs, sites, materials, zones, chromosomes, estimators, start times and numbers of iterations", "why_tests_cant": "The scheme places works in an order that depends on which of them the site and the workers admit at each moment; tests look at a few chromosomes.", "anchors": ["sampo/scheduler/genetic/converter.py: parallel_schedule_generation_scheme", "sampo/scheduler/timeline/just_in_time_timeline.py: JustInTimeTimeline.can_schedule_at_the_moment", "sampo/scheduler/timeline/hybrid_supply_timeline.py: HybridSupplyTimeline.can_schedule_at_the_moment", "sampo/scheduler/timeline/zone_timeline.py: ZoneTimeline.can_schedule_at_the_moment"]}
{"id": "C109", "title": "A schedule that is written to JSON and read back is the same schedule", "statement": "Schedule.dumps followed by Schedule.loads gives a schedule with the same works in the same order: ids, names, times, teams (names, numbers, prices), contractors, costs, volumes and zone changes are those written, and the table of the schedule is the same. Only equipment, materials and object of a work and the productivity of a worker are not kept. The dictionary given to loadd cannot be used twice: reading replaces its contents.", "quantifier": "all non-empty schedules, works, teams, zone changes and model names made of simple values", "why_tests_cant": "The result depends on every class, type hint and custom serializer that occurs in the schedule; a test writes one schedule and looks at a few columns.", "anchors": ["sampo/schemas/schedule.py: Schedule._serialize, Schedule._deserialize, Schedule.from_scheduled_works", "sampo/schemas/scheduled_work.py: ScheduledWork", "sampo/schemas/serializable.py: AutoJSONSerializable._serialize, AutoJSONSerializable._deserialize"]}
{"id": "C110", "title": "Works and contractors survive writing, reading and copying", "statement": "A work without equipment requirements that is written to JSON and read back equals the work written, with all requirements. A contractor keeps its id, name, equipment and workers under their keys, but the productivity of its workers is lost, so the schedulers then use the default. A copied or pickled work keeps its requirements, id, model name, volume, group, display name and priority, but not its name and description. A work with equipment requirements cannot be written as text, and a dictionary read twice gives requirements whose volume is not a time.", "quantifier": "all works, requirements, contractors and model names made of simple values", "why_tests_cant": "Round trips are tested on one work and one contractor; the fields that get lost are found only by looking at every attribute of every class.", "anchors": ["sampo/schemas/works.py: WorkUnit", "sampo/schemas/contractor.py: Contractor", "sampo/schemas/requirements.py: WorkerReq, MaterialReq, ZoneReq, EquipmentReq", "sampo/schemas/resources.py: Worker", "sampo/schemas/serializable.py: AutoJSONSerializable"]}
{"id": "C111", "title": "The genetic scheduler on a site with materials and zones", "statement": "Whatever the works need: when the genetic scheduler returns on a site, each schedule it returns was decoded from a legal individual, keeps the links, lags, chains, teams and numbers of workers, and gets its materials: every work starts when the order of exactly its materials is delivered, no depot gives out more than it had and no road carries more vehicles than it may. With the serial scheme all works are in the schedule. With the parallel scheme (the default) no work is there twice, none without its predecessors, and chains that need different statuses of a zone are never carried out at the same time. If no work needs materials or zones, the scheduler always returns complete schedules. With a zone on the site the serial scheme always raises.", "quantifier": "all work graphs, contractors, specs, landscapes, materials, zones, first populations, random draws, populations sizes and numbers of generations", "why_tests_cant": "The answer depends on the whole random search, every individual of which is decoded on the site; tests run a few seeds and only look at the execution time.", "anchors": ["sampo/scheduler/genetic/base.py: GeneticScheduler.schedule_with_cache, GeneticScheduler.upgrade_pop", "sampo/scheduler/genetic/schedule_builder.py: build_schedules_with_cache", "sampo/scheduler/genetic/converter.py: ScheduleGenerationScheme, ChromosomeType", "sampo/backend/default.py: DefaultComputationalBackend", "sampo/scheduler/timeline/just_in_time_timeline.py: JustInTimeTimeline", "sampo/scheduler/timeline/momentum_timeline.py: MomentumTimeline", "sampo/scheduler/timeline/hybrid_supply_timeline.py: HybridSupplyTimeline", "sampo/scheduler/timeline/zone_timeline.py: ZoneTimeline"]}
{"id": "C112", "title": "The generator of synthetic work graphs", "statement": "Whatever the random numbers, get_small_graph returns a legal work graph with 30 to 50 vertices, as its description says, and get_graph, called with a number of clusters or a border, always ends and returns a legal work graph: every work made is a vertex, exactly once, there are two more vertices, the start and the finish, every work comes after the start and before the finish, every link leads forward, and every work has requirements that can be met (different professions, 1 <= min <= max, volume at most 4500). Unless the graph has one cluster, the bottom border is reached and exceeded by less than 164 works. The clusters are linked as the mode says. The default pipeline schedules every generated graph with contractors generated for it.", "quantifier": "all sequences of random numbers, modes, numbers of clusters, borders and probabilities; all methods, numbers and scalers of contractors, all priorities", "why_tests_cant": "The graph depends on dozens to hundreds of random draws; tests look at a few seeds.", "anchors": ["sampo/generator/pipeline/project.py: get_small_graph, get_graph, _get_cluster_graph", "sampo/generator/pipeline/cluster.py: get_cluster_works", "sampo/generator/base.py: SimpleSynthetic", "sampo/generator/config/gen_counts.py", "sampo/generator/config/worker_req.py", "sampo/schemas/requirements.py: WorkerReq.scale_all, WorkerReq.scale_volume", "sampo/schemas/interval.py: IntervalUniform", "sampo/schemas/graph.py: WorkGraph.from_nodes"]}
{"id": "C113", "title": "Extending a work graph to more professions and names", "statement": "extend_resources(count, wg) returns wg itself if it requires at least count professions. Otherwise it returns a copy with the same works and links in which each requirement keeps its volume, its counts and its name and the profession gets a suffix, such that requirements of different professions never fall together: the number of professions is at least the old one and at most count, and the names come from a pool of exactly count names, each of which can occur. extend_names does the same with the names of works, and leaves the works that are named as the start or the finish.", "quantifier": "all legal work graphs, requirements, counts, orders of the sets, shuffles and random choices", "why_tests_cant": "The result depends on the order of a set, a shuffle and a random choice per requirement; that appended suffixes never make two professions equal has to hold for all strings.", "anchors": ["sampo/generator/pipeline/extension.py: extend_resources, extend_names", "sampo/generator/base.py: SimpleSynthetic.advanced_work_graph", "sampo/schemas/works.py: WorkUnit", "sampo/schemas/graph.py: WorkGraph.__getstate__, WorkGraph.__setstate__"]}
{"id": "C114", "title": "The landscape generated for a work graph", "statement": "synthetic_landscape(wg) ends with a site of P platforms and H holders, for a work graph with more than one vertex. Any two nodes of the site are connected by roads, the lengths are positive multiples of 50, and the table of routes can be built; if the neighbours drawn for a node are distinct there is one road at most between two nodes and the table holds the shortest distances. Every chain of works that begins with a work that is no service unit is on exactly one platform, as a whole, and no platform gets more than its share of chains. Each platform can store what any one work needs of any material, each holder alone has enough of every material for all works, and its 20 vehicles together carry what any one work needs, if some work needs 2 or more of the material.", "quantifier": "all work graphs whose chains are proper, all needs of materials, all positive numbers of platforms and holders, all random draws and shuffles", "why_tests_cant": "The site is drawn at random: that every draw leaves the nodes connected and the works placed once, and that stocks suffice, cannot be seen from some draws.", "anchors": ["sampo/generator/environment/landscape.py: get_landscape_by_wg", "sampo/generator/base.py: SimpleSynthetic.synthetic_landscape", "sampo/schemas/landscape_graph.py: LandGraphNode.add_neighbours, LandGraphNode.neighbours, LandGraphNode.add_works", "sampo/schemas/landscape.py: LandscapeConfiguration"]}
{"id": "C115", "title": "A landscape set up from tables", "statement": "setup_landscape(platforms, warehouses, roads) succeeds iff every name in the table of roads is defined and every node has a road; it raises KeyError iff a name is not defined, and NoAvailableResources iff all are defined and some node has no road. If no warehouse has the name of a platform, the site has exactly the nodes of the tables with their storages, exactly the roads of the table between the nodes they name, and the holders of the table at their own nodes with their vehicles, and the routes are built. If each road is listed once the table of routes holds the shortest distances.", "quantifier": "all tables of platforms, warehouses and roads", "why_tests_cant": "Names are resolved through a dictionary that both loops write; the outcome has to be right for every combination of names and roads.", "anchors": ["sampo/generator/environment/landscape.py: setup_landscape", "sampo/schemas/landscape_graph.py: LandGraphNode, LandGraph", "sampo/schemas/landscape.py: LandscapeConfiguration, ResourceHolder"]}
{"id": "C116", "title": "Materials for a work graph", "statement": "set_materials_for_wg refuses borders beyond the number of names. With a bottom border not above the top one it leaves service works as they are and gives every other work distinct materials among the names, not more than the top border, at least one if the bottom border is positive, with amounts from 52 to 345. A landscape generated afterwards serves every work: platforms can store what it needs, each holder has enough for all works, and its vehicles carry some of each material and together what the work needs.", "quantifier": "all work graphs, lists of names, borders, random draws and orders of sets", "why_tests_cant": "Every work draws at random and equal draws fall together; the claims have to hold for all draws, and the last for all draws of two generators.", "anchors": ["sampo/generator/base.py: SimpleSynthetic.set_materials_for_wg, SimpleSynthetic.synthetic_landscape", "sampo/schemas/requirements.py: MaterialReq", "sampo/schemas/works.py: WorkUnit.need_materials"]}
{"id": "C117", "title": "Merging into a sorted list", "statement": "ExtendedSortedList.merge(old, value, merger) keeps the list sorted by the keys of its items and its buckets consistent. If an item is kept under the key of old, exactly one such item is replaced, in place, by what merger makes of it and value; if none is, value is added under that key and every other item stays. s[i] = value replaces exactly item i if the keys are distinct.", "quantifier": "all well-kept sorted lists of any number and size of buckets, all load factors, keys, values and mergers", "why_tests_cant": "The code edits the buckets of the library by hand with branches for the empty list, the end, a new last key and a bucket that has to be split; tests reach few of those states.", "anchors": ["sampo/schemas/sorted_list.py: ExtendedSortedList.merge, ExtendedSortedList.__setitem__"]}
{"id": "C118", "title": "The priority queue", "statement": "On a PriorityQueue whose keys do not change, every history of add, extract_extremum, replace, decrease_key and len answers as a bag of values does: extract_extremum takes out one value whose key is greatest (least with descending) among all in the queue and raises IndexError iff it is empty, replace puts the new value in the place of one copy of the old one if there is one and otherwise adds it, decrease_key of a queued value changes nothing. Of values with equal extremal keys the one added last is taken first.", "quantifier": "all initial lists, key functions and histories of calls", "why_tests_cant": "The claim is about every sequence of calls, with ties and repeated values.", "anchors": ["sampo/utilities/priority_queue.py: PriorityQueue"]}
{"id": "C119", "title": "Genetic operators on zones", "statement": "mate_for_zones gives two children in which every work has the whole row of zone statuses of one parent in one child and that of the other parent in the other child; at least a quarter (rounded down) of the works are exchanged and at least a quarter are not. mutate_for_zones changes only the cells drawn for mutation, each of those gets a drawn status, each the draw of its own turn, and it does not fail. Both keep the number of works and zones and keep statuses among those available.", "quantifier": "all tables of zone statuses of equal shape and all random draws", "why_tests_cant": "The operators overwrite selected rows and cells of arrays of two individuals at once; the claim is for every selection.", "anchors": ["sampo/scheduler/genetic/operators.py: mate_for_zones, mutate_for_zones"]}
{"id": "C120", "title": "Indexes, reversed dictionaries and mappings of names", "statement": "build_index lists each key once and it leads to the value of the last item with that key. reverse_dictionary swaps the pairs of a dictionary iff no value is there twice. first gives the first element that meets the condition and None iff there is none. With distinct names in both columns of the table of tasks, the inverse name mapping takes the mapped name back to the name, except exactly for names that are not in the first column but are in the second.", "quantifier": "all iterables, key and value functions, dictionaries, conditions and tables of names", "why_tests_cant": "Whether the mappings are inverse depends on how names are repeated between and within the columns, over all tables.", "anchors": ["sampo/utilities/collections_util.py: build_index, reverse_dictionary, first", "sampo/utilities/name_mapper.py: get_task_name_unique_mapping, get_inverse_task_name_mapping, DictNameMapper.__getitem__"]}
