{
 "claims": [
  {
   "property": "C01",
   "status": "proved",
   "theorems": [
    "time_operations_are_clipped_integers",
    "time_in_range",
    "time_exact_in_range",
    "time_add_commutative_monotone",
    "time_total_order",
    "time_add_not_associative"
   ],
   "note": "Integer operands. Saturated addition is not associative (time_add_not_associative)."
  },
  {
   "property": "C02",
   "status": "proved",
   "theorems": [
    "momentum_never_overbooks",
    "momentum_accepts_iff_fits"
   ],
   "note": "Teams name each (contractor, kind) once; times in [0, TIME_INF]; at most TIME_INF bookings."
  },
  {
   "property": "C03",
   "status": "proved",
   "theorems": [
    "momentum_reports_exactly_the_free_workers",
    "momentum_can_schedule_exact",
    "momentum_can_schedule_independent_refuted"
   ],
   "note": "The independent branch of can_schedule_at_the_moment raises KeyError (finding)."
  },
  {
   "property": "C04",
   "status": "proved",
   "theorems": [
    "momentum_slot_free_and_earliest",
    "momentum_slot_independent"
   ],
   "note": ""
  },
  {
   "property": "C05",
   "status": "proved",
   "theorems": [
    "momentum_slot_free_and_earliest"
   ],
   "note": "Termination: the search answers Some for every input, its fuel is never exhausted."
  },
  {
   "property": "C06",
   "status": "proved",
   "theorems": [
    "momentum_team_start_earliest"
   ],
   "note": "Requirements name each kind once; chain members share the requirement kinds, as the code's comment assumes."
  },
  {
   "property": "C07",
   "status": "proved",
   "theorems": [
    "momentum_booking_found_slot_succeeds",
    "momentum_too_large_team_crashes"
   ],
   "note": "Finite finish time. A team larger than the workforce trips the internal assertion (finding)."
  },
  {
   "property": "C08",
   "status": "proved",
   "theorems": [
    "jit_conserves_workers_in_order"
   ],
   "note": ""
  },
  {
   "property": "C09",
   "status": "proved",
   "theorems": [
    "jit_start_earliest",
    "jit_start_independent",
    "jit_workers_free_exact"
   ],
   "note": ""
  },
  {
   "property": "C10",
   "status": "proved",
   "theorems": [
    "jit_never_overbooks",
    "jit_oversized_team_accepted"
   ],
   "note": "Teams within capacity; a larger team is silently accepted (finding)."
  },
  {
   "property": "C100",
   "status": "proved",
   "theorems": [
    "history_links",
    "direction_by_row_order",
    "same_days_count_twice",
    "overlap_outvotes"
   ],
   "note": "In exact arithmetic. Findings: the direction of a link between works that start together depends on the order of the rows; occurrences with the same days count twice; one overlap outvotes any number of occurrences one after the other."
  },
  {
   "property": "C101",
   "status": "proved",
   "theorems": [
    "history_respects_table",
    "history_info_misplaced",
    "extra_type_endless",
    "history_lags_vanish"
   ],
   "note": "For all_connections=False, change_connections_info=False. Findings: with both on, types and lags are written to the wrong links; a row with more types than predecessors makes the reading endless; lags from the history are cut to 0."
  },
  {
   "property": "C102",
   "status": "proved",
   "theorems": [
    "auto_pipeline",
    "auto_pipeline_heft",
    "single_works_not_cyclic",
    "lag_strategies_ignored",
    "specification_lost_by_restructuring"
   ],
   "note": "For graphs whose start and finish have Finish-Start links only, with priorities that do not decrease along links, and Finish-Start lags that are not negative. Findings: the strategies TRUE and FALSE do not restructure at all; what is specified for a work is lost when it is split."
  },
  {
   "property": "C103",
   "status": "proved",
   "theorems": [
    "blocks_feasible",
    "blocks_feasible_together",
    "shared_contractor_overbooked"
   ],
   "note": "For blocks whose works lie between a start that needs no workers and a finish, with priorities that do not decrease along links and lags that are not negative. Finding: agents that share a contractor overbook it, since each has its own timeline."
  },
  {
   "property": "C104",
   "status": "proved",
   "theorems": [
    "blocks_always_scheduled",
    "unable_agent_stops_all"
   ],
   "note": "If twice the sum of all times is representable; service works need no workers and the works of a chain need the same kinds. Finding: one agent that cannot do a block makes the whole division fail, although others could do it."
  },
  {
   "property": "C105",
   "status": "proved",
   "theorems": [
    "history_changes_links",
    "history_rewrites_links",
    "rewritten_in_order"
   ],
   "note": "Each theorem is about the graph. Finding (with both options on): types and lags are handed out by position; they are right if the history has the predecessors of a row in the order of the row, and all become FS with lag 1 if it knows none."
  },
  {
   "property": "C106",
   "status": "proved",
   "theorems": [
    "table_scheduled",
    "table_scheduled_heft"
   ],
   "note": "Composes the reading of tables (C99) with the lag strategies of the pipeline (C102). Tables without columns of priorities and of required statuses; lags and volumes are integers."
  },
  {
   "property": "C107",
   "status": "proved",
   "theorems": [
    "site_serial_feasible",
    "site_serial_materials",
    "site_serial_without_needs",
    "serial_scheme_fails_with_zones"
   ],
   "note": "Partial correctness with materials: that decoding succeeds is proved for sites without needs (with C56). The last theorem is a finding: MomentumTimeline.schedule returns nothing, and the scheme passes this to the zone timeline."
  },
  {
   "property": "C108",
   "status": "proved",
   "theorems": [
    "site_parallel_feasible",
    "site_parallel_materials",
    "site_parallel_zones",
    "site_parallel_without_needs",
    "parallel_independent_zone_fails"
   ],
   "note": "Partial correctness: that decoding ends is proved for sites without needs (with C59). The last theorem is a finding. Works left at the end of the loop are reported, as in C58."
  },
  {
   "property": "C109",
   "status": "proved",
   "theorems": [
    "schedule_written_and_read",
    "schedule_read_once"
   ],
   "note": "The second theorem is a finding: loadd changes the dictionary it is given. The json module is trusted."
  },
  {
   "property": "C11",
   "status": "proved",
   "theorems": [
    "momentum_schedule_feasible"
   ],
   "note": "Works without materials and zones. A work inside a chain whose specification assigns a time (other than the first of the chain) is excluded from the predecessor clause: the code ignores external predecessors there (finding)."
  },
  {
   "property": "C110",
   "status": "proved",
   "theorems": [
    "work_written_and_read",
    "equipment_not_written",
    "work_copied",
    "copy_forgets_name",
    "contractor_written_and_read",
    "read_worker_unproductive",
    "requirement_read_twice"
   ],
   "note": "equipment_not_written, copy_forgets_name, read_worker_unproductive and requirement_read_twice are findings."
  },
  {
   "property": "C111",
   "status": "proved",
   "theorems": [
    "genetic_site_serial",
    "genetic_site_parallel",
    "genetic_site_without_needs",
    "genetic_serial_fails_with_zones"
   ],
   "note": "Without needs both schemes are total; with needs the theorems are about the schedules returned, because a site may refuse deliveries (C96, C108). genetic_serial_fails_with_zones is a finding."
  },
  {
   "property": "C112",
   "status": "proved",
   "theorems": [
    "small_graph_correct",
    "graph_correct",
    "generated_graph_scheduled",
    "clusters_exceed_request",
    "bottom_border_missed",
    "seed_ignored",
    "top_border_exceeded"
   ],
   "note": "Floats are rationals. The last four are findings: the number of clusters is always exceeded, a bottom border may be missed, the graph may ignore the seed, and a top border may be exceeded."
  },
  {
   "property": "C113",
   "status": "proved",
   "theorems": [
    "resources_extended",
    "resources_suffice",
    "resources_not_reached",
    "no_resources_fails",
    "old_contractors_useless",
    "names_extended",
    "names_never_extended",
    "both_extended"
   ],
   "note": "resources_not_reached, no_resources_fails, old_contractors_useless and names_never_extended are findings: with names as the constructor of WorkUnit gives them extend_names and advanced_work_graph always raise, so names_extended is about names assigned afterwards."
  },
  {
   "property": "C114",
   "status": "proved",
   "theorems": [
    "landscape_generated",
    "supplies_suffice",
    "distinct_draws_exact",
    "vehicles_empty",
    "service_chains_unplaced",
    "no_platform_fails",
    "twice_drawn_neighbour"
   ],
   "note": "The numbers of platforms and holders (rounded logarithms) are arguments. vehicles_empty, service_chains_unplaced, no_platform_fails and twice_drawn_neighbour are findings."
  },
  {
   "property": "C115",
   "status": "proved",
   "theorems": [
    "setup_outcome",
    "setup_made",
    "setup_routes_exact",
    "platform_lost",
    "road_listed_twice"
   ],
   "note": "platform_lost and road_listed_twice are findings."
  },
  {
   "property": "C116",
   "status": "proved",
   "theorems": [
    "materials_set",
    "borders_refused",
    "landscape_after_materials",
    "bottom_not_kept",
    "borders_ignored"
   ],
   "note": "bottom_not_kept and borders_ignored are findings: the bottom border is not a border for the number of materials."
  },
  {
   "property": "C117",
   "status": "proved",
   "theorems": [
    "merge_outcome",
    "setitem_exact",
    "setitem_wrong_item",
    "merge_foreign_key"
   ],
   "note": "setitem_wrong_item and merge_foreign_key are findings."
  },
  {
   "property": "C118",
   "status": "proved",
   "theorems": [
    "queue_behaves",
    "last_in_first_out",
    "changed_key_duplicates"
   ],
   "note": "changed_key_duplicates is a finding: decrease_key does not do what its name says."
  },
  {
   "property": "C119",
   "status": "proved",
   "theorems": [
    "mate_exchanges",
    "mutate_keeps"
   ],
   "note": "Of the copies of individuals only the table of zones is modelled."
  },
  {
   "property": "C12",
   "status": "proved",
   "theorems": [
    "momentum_schedule_never_crashes",
    "momentum_assigned_time_can_crash"
   ],
   "note": "No assigned execution times (they can trip the assertion: momentum_assigned_time_can_crash), horizon below half of the infinite time, spec counts within workforces."
  },
  {
   "property": "C120",
   "status": "proved",
   "theorems": [
    "index_exact",
    "reverse_exact",
    "first_exact",
    "names_there_and_back",
    "shared_unique_name"
   ],
   "note": "shared_unique_name is a finding. Reading the table from a file is not modelled."
  },
  {
   "property": "C13",
   "status": "proved",
   "theorems": [
    "jit_precedence",
    "jit_find_ignores_predecessors"
   ],
   "note": "The start answered by the search ignores predecessors (finding) but placement corrects it."
  },
  {
   "property": "C14",
   "status": "proved",
   "theorems": [
    "contractor_search_optimal",
    "contractor_search_error_exact"
   ],
   "note": ""
  },
  {
   "property": "C15",
   "status": "proved",
   "theorems": [
    "worker_borders_exact"
   ],
   "note": ""
  },
  {
   "property": "C16",
   "status": "proved",
   "theorems": [
    "capacity_check_exact"
   ],
   "note": "Works with proper intervals and teams of one listed contractor each; equivalence with the load at every moment."
  },
  {
   "property": "C17",
   "status": "proved",
   "theorems": [
    "validated_schedule_sound",
    "infinite_schedule_not_validated"
   ],
   "note": "The second theorem is the finding that a schedule whose last row ends at infinity is accepted unchecked."
  },
  {
   "property": "C18",
   "status": "proved",
   "theorems": [
    "momentum_schedule_validated",
    "jit_schedule_validated"
   ],
   "note": "All checks of validate_schedule, both timelines, any order of the rows. Conditions: non-negative lags, closed graph, chain members share requirements and allowed contractors, no fixed teams or times."
  },
  {
   "property": "C19",
   "status": "proved",
   "theorems": [
    "assigned_time_distributed_exactly"
   ],
   "note": "Exact arithmetic instead of floats for the proportions."
  },
  {
   "property": "C20",
   "status": "proved",
   "theorems": [
    "priorities_corrected",
    "corrected_topological_order"
   ],
   "note": "Correction is total on acyclic graphs (recursion depth at least the number of nodes), gives the minimum over all direct and indirect dependants, and is idempotent; corrected priorities make the topological order valid for any original priorities."
  },
  {
   "property": "C21",
   "status": "proved",
   "theorems": [
    "topological_traversal_correct",
    "plain_traversal_correct",
    "topological_traversal_endless",
    "from_nodes_correct"
   ],
   "note": "Also covers the plain traversal and WorkGraph.from_nodes. topological_traversal_endless is the finding that the traversal never ends if a node has a predecessor that is not reachable from the start."
  },
  {
   "property": "C22",
   "status": "proved",
   "theorems": [
    "toposort_correct",
    "topological_order_correct",
    "topological_order_priorities_needed"
   ],
   "note": "Every dictionary and every listing order of a level. The level loop needs no fuel beyond the number of items (proved). topological_order_priorities_needed is the counterexample without the hypothesis on priorities."
  },
  {
   "property": "C23",
   "status": "proved",
   "theorems": [
    "heft_order_correct"
   ],
   "note": "For all graphs, estimators and priorities respecting the prerequisites of head nodes. Weights are kept exact (doubled integers)."
  },
  {
   "property": "C24",
   "status": "proved",
   "theorems": [
    "lft_order_correct"
   ],
   "note": "Durations at least 1, as the code computes them (cascade value + 1)."
  },
  {
   "property": "C25",
   "status": "proved",
   "theorems": [
    "lft_randomized_correct"
   ],
   "note": "Every choice function of the random generator."
  },
  {
   "property": "C26",
   "status": "proved",
   "theorems": [
    "order_check_exact",
    "order_crossover_correct",
    "order_crossover_accepted",
    "equal_priorities_order_operators_idle",
    "order_check_too_weak_for_crossover"
   ],
   "note": "For every outcome of the random generator and every relation both parents respect. Orders are assumed to list works by priority; the last theorem is the finding that the order check does not ensure this and the crossover may then fail."
  },
  {
   "property": "C27",
   "status": "proved",
   "theorems": [
    "order_mutation_correct",
    "order_group_mutation_correct",
    "equal_priorities_order_operators_idle"
   ],
   "note": "For every selection, shuffle and position drawn."
  },
  {
   "property": "C28",
   "status": "proved",
   "theorems": [
    "resource_mutation_correct",
    "border_mutation_correct",
    "resource_crossover_correct",
    "contractors_check_exact",
    "resource_crossover_needs_equal_borders"
   ],
   "note": "For every draw. Work indices are 0..n-1. The last theorem is the counterexample without equal borders."
  },
  {
   "property": "C29",
   "status": "proved",
   "theorems": [
    "split_conserves"
   ],
   "note": "Rationals for floats; int() truncation as in the code. The amounts are those of worker, equipment, object and material requirements."
  },
  {
   "property": "C30",
   "status": "proved",
   "theorems": [
    "eliminate_cycles_correct",
    "list_cycles_correct",
    "break_loops_correct",
    "heavy_parallel_link_removed"
   ],
   "note": "All dictionaries and insertion orders; integer or missing weights; termination of every loop is proved. The lists of a row are taken of equal length. The last theorem is the finding that heavier parallel links are removed with the lightest one."
  },
  {
   "property": "C31",
   "status": "proved",
   "theorems": [
    "remove_if_correct",
    "remove_if_filter",
    "iterator_correct",
    "append_correct",
    "linked_list_of_correct",
    "append_after_removed_tail_lost",
    "iteration_omits_last"
   ],
   "note": "Nodes in a heap, comparison of nodes by value as @dataclass generates it with arbitrary == of values, conditions with state. The last two are findings: append after removal of the last element loses the new element, and iteration omits the last element. Python's recursion limit in the comparison of long lists of equal values is not modelled."
  },
  {
   "property": "C32",
   "status": "proved",
   "theorems": [
    "dichotomy_in_range",
    "dichotomy_near_minimum",
    "dichotomy_of_falling",
    "dichotomy_never_upper_border",
    "dichotomy_misses_minimum"
   ],
   "note": "The last two are findings: the upper border is never answered unless it is the only value, so the minimum can be missed by one."
  },
  {
   "property": "C33",
   "status": "proved",
   "theorems": [
    "full_scan_within_borders",
    "coordinate_descent_within_borders",
    "average_within_borders",
    "optimizers_answer",
    "partial_specification_crashes",
    "single_exclusion_ignored",
    "identity_exceeds_maximum"
   ],
   "note": "The coefficient of the average is the default 2. The last three theorems are findings: with a partial specification of worker counts the optimizers raise (two or more kinds) or overwrite the named count (one kind); the identity optimizer does not respect the maximum."
  },
  {
   "property": "C34",
   "status": "proved",
   "theorems": [
    "communication_coefficient_correct",
    "estimate_correct",
    "estimate_monotone",
    "default_estimator_ok",
    "default_estimator_bounded",
    "overstaffed_work_takes_no_time",
    "empty_team_takes_no_time",
    "unknown_kind_fails"
   ],
   "note": "Static productivity mode, exact rationals instead of floats. The finite answer is characterised as the least time in which the team does every volume; times of at least TIME_INF are infinite. The last three are findings: a team above the maximum can take no time, so can an empty team, and an unknown kind raises KeyError."
  },
  {
   "property": "C35",
   "status": "proved",
   "theorems": [
    "auction_correct",
    "auction_answers",
    "downtime_counted_twice"
   ],
   "note": "The second request to the winner may be answered differently (stochastic estimators); that answer is what is confirmed. Finding: the idle time of losers is counted again in every auction."
  },
  {
   "property": "C36",
   "status": "proved",
   "theorems": [
    "block_toposort_correct",
    "manage_blocks_correct",
    "manage_blocks_total"
   ],
   "note": "The schedulers of the agents are arbitrary. Obstructions are taken as applied; StochasticManager and NeuralManager are not modelled."
  },
  {
   "property": "C37",
   "status": "proved",
   "theorems": [
    "routes_exact",
    "routes_built",
    "sorted_holders_correct",
    "construct_route_correct",
    "own_holder_not_first",
    "unreachable_route_diverges",
    "parallel_roads_not_shortest",
    "parallel_roads_unavailable",
    "zero_roads_ignored"
   ],
   "note": "Positive lengths (integers for floats), simple graphs; the last five theorems are findings about what happens otherwise. construct_route is proved for different end nodes."
  },
  {
   "property": "C38",
   "status": "proved",
   "theorems": [
    "serialization_round_trip"
   ],
   "note": "The order of each node's incoming edges is preserved; the order of outgoing edges and of the node list may change. Work units are carried unchanged (their own serialization is not modelled)."
  },
  {
   "property": "C39",
   "status": "proved",
   "theorems": [
    "rows_ordered"
   ],
   "note": "Works with distinct ids; any iteration order of sets; termination included."
  },
  {
   "property": "C40",
   "status": "proved",
   "theorems": [
    "inseparable_chain_correct",
    "head_nodes_correct"
   ],
   "note": "Graphs whose inseparable edges form disjoint chains. The call fails exactly when the collapsed chains depend on each other cyclically."
  },
  {
   "property": "C41",
   "status": "proved",
   "theorems": [
    "spec_team_counts",
    "spec_team_flags",
    "spec_team_wrong_kind_crashes"
   ],
   "note": "A specification with as many entries as requirements but another profession raises KeyError (finding)."
  },
  {
   "property": "C42",
   "status": "proved",
   "theorems": [
    "deadline_search_correct",
    "deadline_search_ends",
    "deadline_search_complete",
    "exact_deadline_missed",
    "deadline_search_fails"
   ],
   "note": "The base scheduler is an arbitrary deterministic function from coefficient and separated works to a time. Findings: a schedule with the smallest teams that meets the deadline exactly does not count; a failing first schedule makes the search fail."
  },
  {
   "property": "C43",
   "status": "proved",
   "theorems": [
    "contractor_check_exact",
    "contractor_check_answers",
    "contractor_check_fails"
   ],
   "note": "The last theorem is the finding that the check raises KeyError if a contractor lacks a profession, although another contractor can do every work."
  },
  {
   "property": "C44",
   "status": "proved",
   "theorems": [
    "generated_contractor_correct",
    "generated_contractor_rejects"
   ],
   "note": "Rationals instead of floats; sigma 0 as in the code."
  },
  {
   "property": "C45",
   "status": "proved",
   "theorems": [
    "zones_never_conflict",
    "zone_released_early",
    "zone_changed_in_use"
   ],
   "note": "The default statuses (0 matches anything). The last two theorems are findings: with positive costs of changes the property fails. append_statuses (AttributeError) and finish_statuses are not modelled."
  },
  {
   "property": "C46",
   "status": "proved",
   "theorems": [
    "jit_schedule_feasible"
   ],
   "note": "Works without materials and zones."
  },
  {
   "property": "C47",
   "status": "proved",
   "theorems": [
    "jit_schedule_never_crashes",
    "jit_negative_inseparable_lag_crashes"
   ],
   "note": ""
  },
  {
   "property": "C48",
   "status": "proved",
   "theorems": [
    "momentum_durations",
    "jit_durations"
   ],
   "note": "Both timelines."
  },
  {
   "property": "C49",
   "status": "proved",
   "theorems": [
    "execution_time_is_latest_finish",
    "momentum_execution_time",
    "execution_time_needs_finish"
   ],
   "note": "The last theorem is the finding that without a finish work the execution time can be smaller than the latest finish."
  },
  {
   "property": "C50",
   "status": "proved",
   "theorems": [
    "path_weights_correct",
    "critical_path_correct"
   ],
   "note": "The weight of the last node itself is not counted by the code; critical_path_correct states the length accordingly."
  },
  {
   "property": "C51",
   "status": "proved",
   "theorems": [
    "heft_between_feasible",
    "heft_between_total",
    "topological_scheduler_feasible",
    "heft_end_feasible",
    "heft_end_total",
    "heft_between_default_feasible",
    "heft_between_default_total",
    "heft_end_default_feasible",
    "heft_end_default_total",
    "topological_default_feasible",
    "partial_specification_fails",
    "corrected_priorities_break_chains",
    "start_start_edges_ignored"
   ],
   "note": "Composition of the head mapping, the prioritization and the schedule building; the _default theorems are about the schedulers with the optimizers they are constructed with. The last three theorems are findings: partial worker specifications crash, priorities that are only corrected edge by edge, and start-start edges. Dependencies into a chain with an assigned time, and edges inside a chain for the interval timeline, are covered by the chain clause of feasible (finish before start), not with their lag."
  },
  {
   "property": "C52",
   "status": "proved",
   "theorems": [
    "heft_with_default_estimator",
    "heft_between_with_default_estimator",
    "pipeline_with_contractors",
    "pipeline_with_generated_contractors"
   ],
   "note": "Without local optimizers and lag restructuring. Any priorities without chains; with chains the corrected priorities have to agree within a chain (see C51's finding)."
  },
  {
   "property": "C53",
   "status": "proved",
   "theorems": [
    "to_work_graph_correct",
    "copy_reverses",
    "block_check_exact",
    "managed_blocks_pass"
   ],
   "note": "Finding: a copy of a block graph has its edges reversed (to_work_graph compensates)."
  },
  {
   "property": "C54",
   "status": "proved",
   "theorems": [
    "restructure_correct",
    "restructure_chains",
    "start_start_order_crashes",
    "double_edge_crashes",
    "finish_lag_uses_wrong_volume"
   ],
   "note": "For orders of works that respect all edges and, with lags, at most one starting and one finishing edge between two works; the last three theorems show what happens otherwise. The work graph made of the result is in C102."
  },
  {
   "property": "C55",
   "status": "proved",
   "theorems": [
    "serial_decoding_feasible",
    "misplaced_borders_overbook"
   ],
   "note": "The amounts may be any non-negative numbers. The second theorem is a finding: the borders the genetic scheduler starts from are misplaced when contractors list their kinds in different orders, so that decoded schedules exceed a workforce. Zones and the landscape are not modelled."
  },
  {
   "property": "C56",
   "status": "proved",
   "theorems": [
    "serial_decoding_succeeds",
    "serial_decoding_needs_borders"
   ],
   "note": "Works of a chain require the same kinds; the second theorem shows that a row above its border makes decoding raise."
  },
  {
   "property": "C57",
   "status": "proved",
   "theorems": [
    "encode_decode_round_trip"
   ],
   "note": "For the schedules of the list scheduler over the Momentum timeline (any staffing rule)."
  },
  {
   "property": "C58",
   "status": "proved",
   "theorems": [
    "parallel_decoding_feasible",
    "parallel_specified_counts_overbook",
    "parallel_rows_above_borders_overbook",
    "parallel_independent_work_overtakes"
   ],
   "note": "The three findings show what happens without the hypotheses on specified numbers and borders and for independent works."
  },
  {
   "property": "C59",
   "status": "proved",
   "theorems": [
    "parallel_decoding_ends",
    "parallel_decoding_ends_within"
   ],
   "note": "parallel_decoding_ends_within gives a number of iterations that suffices"
  },
  {
   "property": "C60",
   "status": "proved",
   "theorems": [
    "lft_feasible",
    "randomized_lft_feasible",
    "lft_even",
    "lft_uneven"
   ],
   "note": "The teams are part of the feasibility theorems. Finding lft_uneven: the counter of assignments is kept by the position among the accepted contractors; if the first contractor is never allowed, of two equal contractors one gets all works."
  },
  {
   "property": "C61",
   "status": "proved",
   "theorems": [
    "lft_feasible",
    "randomized_lft_feasible"
   ],
   "note": "With the momentum timeline, dependencies of works inside a chain with an assigned time are excluded, as in C11."
  },
  {
   "property": "C62",
   "status": "proved",
   "theorems": [
    "lft_total",
    "randomized_lft_total"
   ],
   "note": ""
  },
  {
   "property": "C63",
   "status": "proved",
   "theorems": [
    "genetic_front"
   ],
   "note": "Offspring, shuffles, the clock and NSGA-II selection are arguments; deap's ParetoFront and Fitness comparison are modelled."
  },
  {
   "property": "C64",
   "status": "proved",
   "theorems": [
    "genetic_best_of_all"
   ],
   "note": ""
  },
  {
   "property": "C65",
   "status": "proved",
   "theorems": [
    "genetic_deadline"
   ],
   "note": "Modelled with the time objective in the first stage; is_multiobjective=False."
  },
  {
   "property": "C66",
   "status": "proved",
   "theorems": [
    "first_population_correct",
    "first_population_lft_correct",
    "small_population_omits_heuristic",
    "failed_heuristic_breaks_population"
   ],
   "note": "Counts computed exactly instead of in floats. Findings: a small population can omit a heuristic; a heuristic without schedule breaks the population."
  },
  {
   "property": "C67",
   "status": "proved",
   "theorems": [
    "genetic_offspring_valid",
    "genetic_toolbox"
   ],
   "note": "Random answers are arguments. Without zones."
  },
  {
   "property": "C68",
   "status": "proved",
   "theorems": [
    "genetic_schedules_feasible",
    "specified_counts_break_optimized_borders"
   ],
   "note": "Serial scheme, no deadline, no caller timeline. No fixed counts if borders are optimized: otherwise the scheduler can raise (finding)."
  },
  {
   "property": "C69",
   "status": "proved",
   "theorems": [
    "genetic_time_no_worse",
    "feasible_schedule_encodes",
    "heft_between_individual_ok",
    "genetic_no_worse_than_heft_between"
   ],
   "note": "Lags not negative, one finish work. The heuristics are always scheduled from time zero, so the comparison with HEFTBetweenScheduler is for project start zero."
  },
  {
   "property": "C70",
   "status": "proved",
   "theorems": [
    "parallel_genetic_schedules_feasible"
   ],
   "note": "No deadline, no caller timeline, no fixed worker counts (finding parallel_specified_counts_overbook), chains without negative lags, all times below infinity."
  },
  {
   "property": "C71",
   "status": "proved",
   "theorems": [
    "parallel_genetic_time_no_worse",
    "parallel_genetic_worse_than_heft"
   ],
   "note": "Finding: the parallel scheme does not reproduce the heuristic schedules of the first population, so the answer can end later than HEFTBetweenScheduler's."
  },
  {
   "property": "C72",
   "status": "proved",
   "theorems": [
    "peak_usage_exact",
    "peaks_within_workforce",
    "peaks_total_unique",
    "resources_sum_raises",
    "price_ignored"
   ],
   "note": "Findings: the sum of the usage raises for every schedule with workers; prices set for workers are lost when workers are copied."
  },
  {
   "property": "C73",
   "status": "proved",
   "theorems": [
    "genetic_peaks_no_worse",
    "parallel_genetic_peaks_no_worse",
    "late_schedule_preferred"
   ],
   "note": "Lags not negative, one finish work; in the parallel scheme no independent works. Finding: DeadlineResourcesFitness can prefer a late schedule."
  },
  {
   "property": "C74",
   "status": "proved",
   "theorems": [
    "supply_never_overdraws",
    "routes_of_landscape",
    "vehicles_never_booked",
    "overloaded_vehicle",
    "instant_road_lost"
   ],
   "note": "Routes are as construct_route builds them (routes_of_landscape). Findings: the vehicles of depots are never booked, too few vehicles are overloaded, roads of length 0 lose their bandwidth."
  },
  {
   "property": "C75",
   "status": "proved",
   "theorems": [
    "deliveries_travel"
   ],
   "note": "If the depot has too few vehicles, see the findings of C74."
  },
  {
   "property": "C76",
   "status": "proved",
   "theorems": [
    "material_time_accepted"
   ],
   "note": ""
  },
  {
   "property": "C77",
   "status": "proved",
   "theorems": [
    "platform_stock_kept",
    "stock_used_twice",
    "stock_not_deducted"
   ],
   "note": "Findings: works that are not in the order of time, or need several materials, can use the same stock twice."
  },
  {
   "property": "C78",
   "status": "proved",
   "theorems": [
    "local_order_kept",
    "local_order_whole_broken",
    "local_order_predecessors_ignored"
   ],
   "note": "Findings: given the whole list the optimizer exchanges start and finish; between the two works of an exchange no dependency is looked at."
  },
  {
   "property": "C79",
   "status": "proved",
   "theorems": [
    "parallelize_keeps_schedule",
    "parallelize_breaks_chains"
   ],
   "note": "Finding: with inseparable works the head of a chain keeps its old time while the others get new ones."
  },
  {
   "property": "C80",
   "status": "proved",
   "theorems": [
    "hybrid_no_worse",
    "hybrid_zero_plateau_never_ends",
    "hybrid_two_objectives_wrong",
    "hybrid_heuristics_forget",
    "hybrid_genetic_start_raises"
   ],
   "note": "Findings: a plateau of zero never ends, two objectives pick a wrong individual or raise, heuristics in the cycle forget what was found, a genetic scheduler cannot be the starting one."
  },
  {
   "property": "C81",
   "status": "proved",
   "theorems": [
    "hybrid_feasible_no_later",
    "hybrid_parallel_feasible_no_later"
   ],
   "note": "The backend is taken to evaluate with the project at hand; in the code this is so after the first genetic scheduler has run."
  },
  {
   "property": "C82",
   "status": "proved",
   "theorems": [
    "copy_keeps_project",
    "simplified_ids",
    "simplified_start_random"
   ],
   "note": "Finding: with the default offset 0 the first node gets a random id."
  },
  {
   "property": "C83",
   "status": "proved",
   "theorems": [
    "graph_insertion_correct",
    "insertion_backwards_never_ends",
    "insertion_direct_edge_raises"
   ],
   "note": "Findings: inserting backwards never ends; a graph with a direct edge from start to finish raises KeyError."
  },
  {
   "property": "C84",
   "status": "proved",
   "theorems": [
    "insert_work_correct"
   ],
   "note": "New edges from plain nodes have lag -1 (part of the statement)."
  },
  {
   "property": "C85",
   "status": "proved",
   "theorems": [
    "obstruction_correct",
    "obstruction_not_before_finish"
   ],
   "note": "Finding: the exit edge leaves from the start of the inserted graph, so the inserted works are not before the finish."
  },
  {
   "property": "C86",
   "status": "proved",
   "theorems": [
    "restruct_correct",
    "restruct_finish_never_ends"
   ],
   "note": "Finding: with sub-works of the finish it never ends."
  },
  {
   "property": "C87",
   "status": "proved",
   "theorems": [
    "deletion_correct",
    "deletion_leaves_last_of_chain",
    "deletion_keeps_ss_work",
    "deletion_of_ends_raises"
   ],
   "note": "Findings: the last work of a chain is left; works with start-start or finish-finish edges stay; start and finish raise."
  },
  {
   "property": "C88",
   "status": "proved",
   "theorems": [
    "site_schedule_feasible"
   ],
   "note": "The site is arbitrary: its answers are only assumed not to exceed infinity."
  },
  {
   "property": "C89",
   "status": "proved",
   "theorems": [
    "site_zones_never_conflict",
    "late_material_breaks_zone"
   ],
   "note": "For status changes that take no time (otherwise see C45's findings), and chains of which only the first work needs materials. Finding: a late delivery for a later work of a chain makes the zone timeline fail."
  },
  {
   "property": "C90",
   "status": "proved",
   "theorems": [
    "site_materials_delivered",
    "late_material_breaks_booking"
   ],
   "note": "Finding: a late delivery for a later work of a chain makes the booking of workers fail."
  },
  {
   "property": "C91",
   "status": "proved",
   "theorems": [
    "site_schedule_never_crashes"
   ],
   "note": "For works that need zones and have workers; materials are excluded (see late_material_breaks_booking for why a chain with late materials fails)."
  },
  {
   "property": "C92",
   "status": "proved",
   "theorems": [
    "stages_merged",
    "stages_merged_with_dates",
    "stage_suffix_confuses",
    "merged_duration_one_longer"
   ],
   "note": "Strings are lists of characters. stage_suffix_confuses shows that the hypothesis on ids is needed: a work with id 'a_stage' has its stages counted to work 'a'. merged_duration_one_longer: the duration column is one more than finish - start for merged rows only."
  },
  {
   "property": "C93",
   "status": "proved",
   "theorems": [
    "united_schedule_keeps_graph",
    "stage_names",
    "united_cost_lost",
    "unstable_sort_keeps_stage_id"
   ],
   "note": "Proved for a stable sort by stage number, because all the stages of a work carry the same granular name (see stage_names); unstable_sort_keeps_stage_id shows that with pandas' default quick sort the united work may keep the id of a stage. united_cost_lost: the cost of a united work is that of its last stage."
  },
  {
   "property": "C94",
   "status": "proved",
   "theorems": [
    "jit_site_schedule_feasible"
   ],
   "note": "The site is arbitrary: its answers are only assumed to be within infinity."
  },
  {
   "property": "C95",
   "status": "proved",
   "theorems": [
    "jit_site_zones_never_conflict",
    "jit_zone_held_while_waiting",
    "jit_chain_outgrows_zone"
   ],
   "note": "Findings: a zone is held while its work waits for its predecessors; lags inside a chain and late materials make the booking of the zone fail."
  },
  {
   "property": "C96",
   "status": "proved",
   "theorems": [
    "jit_site_materials_delivered"
   ],
   "note": ""
  },
  {
   "property": "C97",
   "status": "proved",
   "theorems": [
    "jit_site_schedule_never_crashes",
    "jit_chain_outgrows_zone"
   ],
   "note": "Without materials; jit_chain_outgrows_zone shows that the hypotheses on materials and on lags inside chains are needed."
  },
  {
   "property": "C98",
   "status": "proved",
   "theorems": [
    "cells_are_read",
    "blank_cells_are_read",
    "numbers_in_names_change",
    "dotted_names_change",
    "missing_lag_is_negative"
   ],
   "note": "Findings: names that look like numbers are changed where they are named as predecessors; a missing lag is read as -1."
  },
  {
   "property": "C99",
   "status": "proved",
   "theorems": [
    "table_makes_graph",
    "link_to_wrong_work",
    "missing_lag_in_graph",
    "missing_types_fail"
   ],
   "note": "Findings: a link to work 1.2 becomes a link to work 1; a lag cell that is empty gives an edge with lag -1; a row with predecessors but no types raises IndexError."
  }
 ]
}