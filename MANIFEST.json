{
 "claims": [
  {
   "property": "C01",
   "status": "proved",
   "theorems": [
    "C01_reward_bounded"
   ],
   "note": "exact arithmetic; schemes 0,1,2,4"
  },
  {
   "property": "C02",
   "status": "proved",
   "theorems": [
    "C02_epoch_budget",
    "C02_budget_in_every_state"
   ],
   "note": "exact arithmetic"
  },
  {
   "property": "C03",
   "status": "proved",
   "theorems": [
    "C03_monotone_in_stake",
    "C03_flat_above_saturation",
    "C03_strict_below_saturation"
   ],
   "note": "exact arithmetic"
  },
  {
   "property": "C04",
   "status": "proved",
   "theorems": [
    "C04_potential_profit_monotone_in_pledge",
    "C04_potential_profit_cost",
    "C04_potential_profit_is_maximal",
    "C04_cardano_not_monotone_in_pledge"
   ],
   "note": "exact arithmetic"
  },
  {
   "property": "C05",
   "status": "proved",
   "theorems": [
    "C05_split_exact"
   ],
   "note": "exact arithmetic"
  },
  {
   "property": "C06",
   "status": "proved",
   "theorems": [
    "C06_delegators_never_pay"
   ],
   "note": "exact arithmetic"
  },
  {
   "property": "C07",
   "status": "proved",
   "theorems": [
    "C07_k_and_threshold",
    "C07_zero_rejected",
    "C07_k_saturated_pools_hold_everything"
   ],
   "note": "exact arithmetic"
  },
  {
   "property": "C08",
   "status": "proved",
   "theorems": [
    "C08_suitable_margin",
    "C08_margin_is_highest"
   ],
   "note": "exact arithmetic"
  },
  {
   "property": "C09",
   "status": "proved",
   "theorems": [
    "C09_pledge_per_pool",
    "C09_pledge_rejects",
    "C09_cost_per_pool"
   ],
   "note": "exact arithmetic"
  },
  {
   "property": "C10",
   "status": "proved",
   "theorems": [
    "C10_calculate_ranks"
   ],
   "note": "for every arithmetic whose comparisons form a total preorder (rationals, and floats with NaN compared as greatest); with any tie breaking dictionaries; ranks are characterised by an iff"
  },
  {
   "property": "C11",
   "status": "proved",
   "theorems": [
    "C11_covered",
    "C11_placeholder",
    "C11_exhausted",
    "C11_cases_exhaustive",
    "C11_capacity_monotone"
   ],
   "note": "any arithmetic; monotonicity of the capacity in exact arithmetic"
  },
  {
   "property": "C12",
   "status": "proved",
   "theorems": [
    "C12_memoisation_transparent",
    "C12_helpers_transparent"
   ],
   "note": "generic LRU cache; the sign of a zero result may differ on floats (0.0 == -0.0 share an entry), which the relation R of the generic theorem covers"
  },
  {
   "property": "C13",
   "status": "proved",
   "theorems": [
    "C13_rankings_complete_and_sorted"
   ],
   "note": "every visible state of every run of the sequential (random activation) scheduler, any phases, any arithmetic with totally preordered comparisons, any set iteration order"
  },
  {
   "property": "C14",
   "status": "proved",
   "theorems": [
    "C14_stake_is_pledge_plus_delegations",
    "C14_pool_books_balance_in_every_order"
   ],
   "note": "exact arithmetic, every activation order and every phase; in binary64 the equality holds up to rounding only (C14_binary64_rounding in FloatRun.v)"
  },
  {
   "property": "C15",
   "status": "proved",
   "theorems": [
    "C15_delegations_recorded_on_both_sides",
    "C15_pools_recorded_on_both_sides"
   ],
   "note": "any arithmetic, sequential scheduler"
  },
  {
   "property": "C16",
   "status": "proved",
   "theorems": [
    "C16_no_agent_spends_stake_twice",
    "C16_pools_hold_no_more_than_agents"
   ],
   "note": "exact arithmetic, sequential scheduler, non-negative stakes"
  },
  {
   "property": "C17",
   "status": "proved",
   "theorems": [
    "C17_no_delegation_to_own_pools",
    "C17_private_pools_have_no_delegators"
   ],
   "note": "own pools: any arithmetic; private pools and minimum size: exact arithmetic"
  },
  {
   "property": "C18",
   "status": "proved",
   "theorems": [
    "C18_delegation_is_greedy",
    "C18_nothing_to_delegate"
   ],
   "note": "exact arithmetic, sequential scheduler, every reachable state"
  },
  {
   "property": "C19",
   "status": "proved",
   "theorems": [
    "C19_considering_has_no_side_effects",
    "C19_keeping_the_strategy_changes_nothing"
   ],
   "note": "exact arithmetic, sequential scheduler; on floats withdrawing and restoring a delegation may round"
  },
  {
   "property": "C20",
   "status": "proved",
   "theorems": [
    "C20_inertia",
    "C20_only_worthwhile_changes"
   ],
   "note": "any arithmetic with totally preordered comparisons"
  },
  {
   "property": "C21",
   "status": "proved",
   "theorems": [
    "C21_search_ends_at_a_local_maximum",
    "C21_global_maximum_if_unimodal",
    "C21_search_always_ends",
    "C21_chosen_number_of_pools",
    "C21_not_global_in_general"
   ],
   "note": "any arithmetic; the last theorem shows the unimodality condition is needed"
  },
  {
   "property": "C22",
   "status": "proved",
   "theorems": [
    "C22_operator_moves",
    "C22_pools_of_one_operator_agree",
    "C22_margins_are_fractions",
    "C22_private_iff_pledge_saturates"
   ],
   "note": "exact arithmetic, sequential scheduler; the link between privacy and saturation for single-phase runs"
  },
  {
   "property": "C23",
   "status": "partial",
   "theorems": [
    "C23_registered_under_own_id",
    "C23_ids_never_reused",
    "C74_pools_and_operators",
    "C74_ids_never_reused",
    "C23_run_model_is_steps",
    "C23_run_model_after_steps_refuted"
   ],
   "note": "proved for every sequence of step() calls and for run_model on a new model, in any arithmetic and (C74) under every activation order; false when run_model is called after manual steps: it restarts the ids while pools are open, two agents then operate different pools with one id and run_model can raise KeyError (C23_run_model_after_steps_refuted)"
  },
  {
   "property": "C24",
   "status": "partial",
   "theorems": [
    "C24_no_step_raises_partial",
    "C24_run_model_returns_partial",
    "C24_construction_succeeds",
    "C24_cip50_without_a0_refuted"
   ],
   "note": "exact arithmetic; proved for every scheme except CIP-50 with a0 = 0, costs of any sign, and the constructor as well; REFUTED for CIP-50 with a0 = 0 and a myopic agent: ZeroDivisionError"
  },
  {
   "property": "C25",
   "status": "partial",
   "theorems": [
    "C14_pool_books_balance_in_every_order",
    "C25_two_sided_recording_refuted",
    "C25_stake_counted_twice_refuted"
   ],
   "note": "REFUTED for both simultaneous orders: delegations are recorded differently on the two sides, and the pools together hold more stake than exists. Proved for them: every pool's stake is its pledge plus the delegations it records"
  },
  {
   "property": "C26",
   "status": "proved",
   "theorems": [
    "C26_semisimultaneous",
    "C26_round",
    "C26_exactly_once",
    "C26_step_advances",
    "C26_step_runs_the_round",
    "C26_z_zero_never_ends"
   ],
   "note": "any arithmetic, any shuffles and samples that are permutations / sub-multisets of the requested size; group size at least 1 (with 0 the loop would never end, which is proved)"
  },
  {
   "property": "C27",
   "status": "proved",
   "theorems": [
    "C27_total_is_one",
    "C27_proportions",
    "C27_total_positive",
    "C27_stakes_nonneg"
   ],
   "note": "exact arithmetic"
  },
  {
   "property": "C28",
   "status": "partial",
   "theorems": [
    "C28_inactive_stake_refuted",
    "C28_inactive_stake_partial"
   ],
   "note": "REFUTED when the inactive fraction is positive and the last agent is active: the fraction is added to the last agent. Proved: what the inactive agents hold in general"
  },
  {
   "property": "C29",
   "status": "partial",
   "theorems": [
    "C29_run_model_terminates",
    "C29_no_round_hangs",
    "C29_run_model_stops",
    "C29_changing_max_iterations_refuted"
   ],
   "note": "any arithmetic, any scheduler, any choices. Proved: run_model always ends and executes at most the iteration bound; with one iteration bound it ends stopped and exported. REFUTED when max_iterations takes several values: the loop can be left with running = True and nothing exported"
  },
  {
   "property": "C30",
   "status": "partial",
   "theorems": [
    "C30_equilibrium_follows_idle_rounds",
    "C30_reported_equilibrium_single_phase",
    "C30_later_phases_refuted",
    "C30_reported_equilibrium_refuted"
   ],
   "note": "proved for single-phase runs and the first phase, any arithmetic and scheduler; REFUTED for later phases: the count of idle rounds is carried over"
  },
  {
   "property": "C31",
   "status": "proved",
   "theorems": [
    "C31_no_agent_moves_after_an_idle_round",
    "C31_later_rounds_are_idle",
    "C31_reported_equilibrium"
   ],
   "note": "exact arithmetic, runs with sequential / random activation: after an idle round any activations in any order raise nothing and change nothing, until the phase changes. The decision of an agent does not depend on discarded objects, on the counters or on the order of the delegators (update_rel). Simultaneous orders and floating point are not covered"
  },
  {
   "property": "C32",
   "status": "partial",
   "theorems": [
    "C32_known_inactive_first_phase",
    "C32_unknown_inactive_first_phase",
    "C32_later_phases_refuted"
   ],
   "note": "proved for the first phase; REFUTED for later phases (the raw k is installed)"
  },
  {
   "property": "C33",
   "status": "partial",
   "theorems": [
    "C33_applies_the_listed_parameters",
    "C33_pools_are_repriced",
    "C33_run_can_go_on_refuted"
   ],
   "note": "parameters: any arithmetic, any scheduler; pools and rankings: any ordered arithmetic, sequential or random activation. REFUTED: the run can not always go on, a larger k in a later phase makes the next round raise IndexError"
  },
  {
   "property": "C34",
   "status": "proved",
   "theorems": [
    "C34_one_row_per_round"
   ],
   "note": "any arithmetic, any scheduler, one iteration bound"
  },
  {
   "property": "C35",
   "status": "proved",
   "theorems": [
    "C35_nakamoto_minimal",
    "C35_initial_nakamoto_minimal",
    "C35_nakamoto_of_reachable_states",
    "C35_no_stake"
   ],
   "note": "exact arithmetic; minimal over all sets of agents; for every state with positive stake in pools, and for every reachable state of sequential / random runs with positive stakes; with no stake in the pools the report is 1 (proved)"
  },
  {
   "property": "C36",
   "status": "proved",
   "theorems": [
    "C36_gini",
    "C36_gini_metrics"
   ],
   "note": "exact arithmetic, arrays of any length"
  },
  {
   "property": "C37",
   "status": "proved",
   "theorems": [
    "C37_pledge_rate_and_homogeneity"
   ],
   "note": "exact arithmetic, every visible state of sequential / random runs with positive stakes and k"
  },
  {
   "property": "C38",
   "status": "proved",
   "theorems": [
    "C38_operator_statistics"
   ],
   "note": "exact arithmetic, every world whose active pools exist"
  },
  {
   "property": "C39",
   "status": "partial",
   "theorems": [
    "C39_stake_reports_add_up",
    "C39_stake_reports_refuted"
   ],
   "note": "exact arithmetic, sequential / random activation: proved when the number of agents is the same in all phases; REFUTED otherwise: after a phase change of n both reports raise"
  },
  {
   "property": "C40",
   "status": "proved",
   "theorems": [
    "C40_statistical_distance",
    "C40_distance_at_most_one"
   ],
   "note": "exact arithmetic, every visible state with pools of sequential / random runs; the upper bound 1 for positive stakes and k"
  },
  {
   "property": "C41",
   "status": "proved",
   "theorems": [
    "C41_runs_cover_the_grid",
    "C41_directories_are_distinct",
    "C41_every_run_has_a_directory",
    "C41_directory_is_named_after_the_identifier"
   ],
   "note": "every parameter dictionary with distinct names that does not use the reserved names"
  },
  {
   "property": "C42",
   "status": "partial",
   "theorems": [
    "C42_every_run_recorded_once",
    "C42_completion_order_is_irrelevant",
    "C42_lists_as_values_refuted"
   ],
   "note": "proved for every completion order when the values of the parameters are hashable; REFUTED for list-valued parameter values: TypeError after the run was made"
  },
  {
   "property": "C43",
   "status": "partial",
   "theorems": [
    "C43_all_interleavings",
    "C43_one_header",
    "C43_without_overlap",
    "C43_overlapping_refuted"
   ],
   "note": "every interleaving and crash point: rows in order of completion, and the exact number of headers. Proved: one header unless two calls open the file before the first of them has written. REFUTED for that interleaving: two headers"
  },
  {
   "property": "C44",
   "status": "partial",
   "theorems": [
    "C44_numbers_increase",
    "C44_crash_refuted",
    "C44_race_refuted"
   ],
   "note": "proved for executions one after another that do not crash while writing; REFUTED for a crash between truncation and write (every later execution raises ValueError) and for two executions at the same time (same number)"
  },
  {
   "property": "C45",
   "status": "partial",
   "theorems": [
    "C45_row_is_the_state_before_the_last_round",
    "C45_aggregate_results_after_convergence",
    "C45_aggregate_results_at_the_bound_refuted"
   ],
   "note": "any arithmetic: the row is the state before the last round. Exact arithmetic: it has the metrics of the final state if the run converged. REFUTED when max_iterations ended the run"
  },
  {
   "property": "C46",
   "status": "partial",
   "theorems": [
    "C46_positive_int",
    "C46_non_negative_int",
    "C46_not_an_int",
    "C46_floats",
    "C46_floats_ieee",
    "C46_nan_accepted_refuted"
   ],
   "note": "REFUTED for NaN: the float validators accept NaN. Proved: exact on ints, decimal strings and rationals; on machine floats they accept exactly the stated range plus NaN. Parsing of float strings is not modelled."
  },
  {
   "property": "C47",
   "status": "proved",
   "theorems": [
    "C47_flat",
    "C47_flat_empty",
    "C47_disparity",
    "C47_disparity_undefined",
    "C47_costs"
   ],
   "note": "exact arithmetic"
  },
  {
   "property": "C48",
   "status": "partial",
   "theorems": [
    "C48_scheme_3_refuted",
    "C48_other_schemes_partial"
   ],
   "note": "REFUTED: reward scheme 3 always raises TypeError in the constructor; schemes 0, 1, 2 and 4 can be constructed"
  },
  {
   "property": "C49",
   "status": "proved",
   "theorems": [
    "C49_curve_root_one_is_cardano"
   ],
   "note": "exact arithmetic, for every power operator with x**1 = x and x**0 = 1"
  },
  {
   "property": "C50",
   "status": "proved",
   "theorems": [
    "C50_top_or_not",
    "C50_behind_a_placeholder",
    "C50_pool_rankings",
    "C50_exactly_the_k_best"
   ],
   "note": "any ordered arithmetic"
  },
  {
   "property": "C51",
   "status": "proved",
   "theorems": [
    "C51_keeps_the_best",
    "C51_in_every_state"
   ],
   "note": "any ordered arithmetic"
  },
  {
   "property": "C52",
   "status": "partial",
   "theorems": [
    "C52_iteration_column_refuted"
   ],
   "note": "REFUTED: the iteration column is 0 in every row, since the counter key includes the seed and the sequence number"
  },
  {
   "property": "C53",
   "status": "proved",
   "theorems": [
    "C53_batch_job_terminates",
    "C53_batch_job_exports_once"
   ],
   "note": "any arithmetic, any scheduler, any choices"
  },
  {
   "property": "C54",
   "status": "proved",
   "theorems": [
    "C54_every_pool_has_potential_profit"
   ],
   "note": "exact arithmetic, sequential / random activation, single phase; CIP-50 with a0 = 0 excluded as in C24"
  },
  {
   "property": "C55",
   "status": "proved",
   "theorems": [
    "C55_incomes_are_the_rewards",
    "C55_incomes_within_the_budget"
   ],
   "note": "exact arithmetic, sequential / random activation, positive stakes and k, a0 >= 0; every state including those within a round. The instance is C55_instance"
  },
  {
   "property": "C56",
   "status": "proved",
   "theorems": [
    "C56_agents_never_change",
    "C56_stakes_never_change",
    "C56_total_stake_is_conserved"
   ],
   "note": "the agents: any arithmetic, every order; the total: exact arithmetic"
  },
  {
   "property": "C57",
   "status": "proved",
   "theorems": [
    "C57_pool_statistics",
    "C57_pool_statistics_of_reachable_states"
   ],
   "note": "exact arithmetic; every state including those within a round. Average saturation for CIP-50 only with a0 > 0, otherwise the thresholds are 0"
  },
  {
   "property": "C58",
   "status": "proved",
   "theorems": [
    "C58_rank_metrics"
   ],
   "note": "exact arithmetic; every state including those within a round"
  },
  {
   "property": "C59",
   "status": "proved",
   "theorems": [
    "C59_cost_efficient_count",
    "C59_cost_efficient_count_is_defined"
   ],
   "note": "exact arithmetic; constancy for every activation order"
  },
  {
   "property": "C60",
   "status": "partial",
   "theorems": [
    "C60_operator_margins",
    "C60_single_pool_in_the_top_k",
    "C60_all_pools_in_the_top_k_refuted"
   ],
   "note": "Proved for a single pool, and for the i-th of several pools against the pools of the other agents. The full claim is REFUTED for two pools (the better pool of the same operator is not counted). Exact arithmetic, sequential / random activation, every state including those within a round"
  },
  {
   "property": "C61",
   "status": "proved",
   "theorems": [
    "C61_stakeholders_table",
    "C61_stakeholders_table_is_defined",
    "C61_pools_table",
    "C61_initial_descriptors",
    "C61_final_descriptors"
   ],
   "note": "exact arithmetic, sequential / random activation, every state including those within a round, any rounding function. Standard deviation of the stakes and the writing of the files are not modelled"
  },
  {
   "property": "C62",
   "status": "proved",
   "theorems": [
    "C62_myopic_moves_pay",
    "C62_myopic_expectations_are_met",
    "C62_non_myopic_refuted"
   ],
   "note": "exact arithmetic, sequential / random activation, positive stakes and k, a0 >= 0; every state including those within a round. The third theorem shows that the restriction to myopic agents is needed. The instance is C62_instance"
  },
  {
   "property": "C63",
   "status": "proved",
   "theorems": [
    "C63_no_step_raises",
    "C63_run_model_returns",
    "C63_every_pool_has_potential_profit",
    "C63_rankings_are_long_enough"
   ],
   "note": "exact arithmetic, sequential / random activation. The CIP-50 scheme needs a0 > 0 in every phase (C24_cip50_without_a0_refuted). That raising k can make a round fail is shown under C33. The instance is C63_instance"
  },
  {
   "property": "C64",
   "status": "partial",
   "theorems": [
    "C64_accepted_command_lines_run",
    "C64_accepted_but_raising_refuted"
   ],
   "note": "proved under the conditions listed in the statement; each of the conditions is shown to be needed by an accepted command line that makes the program raise"
  },
  {
   "property": "C65",
   "status": "proved",
   "theorems": [
    "C65_every_metric_is_defined",
    "C65_saturation_rate_refuted"
   ],
   "note": "C65_saturation_rate_refuted shows that the exception for metric 8 is needed; the value of metric 11 comes from an external solver and is an arbitrary number"
  },
  {
   "property": "C66",
   "status": "partial",
   "theorems": [
    "C66_simultaneous_run_raises_refuted",
    "C66_step_fails_only_with_KeyError_partial",
    "C66_run_fails_only_with_KeyError_partial"
   ],
   "note": "REFUTED for both orders, with default profiles and four agents: an operator installs a copy of its pool made before a delegator left, the copy is private, and taking the delegation away from the delegator raises KeyError. Proved for every order and every mix of profiles: a step and a run return or raise KeyError; they never divide by zero, index out of range, meet a value error or a missing attribute, use an object that does not exist or fail to return. Missing in the partial theorems: exactly the KeyError that the refutation exhibits. Instances: C66_C76_instance, C88_instance"
  },
  {
   "property": "C67",
   "status": "partial",
   "theorems": [
    "C67_name_is_unambiguous",
    "C67_folders_are_exclusive",
    "C67_one_after_another",
    "C67_race_refuted"
   ],
   "note": "exclusive folders for every interleaving; no failure for executions that start one after another, with crashes. REFUTED for executions with the same identifier that start at the same time: one of them ends with FileExistsError. The instance is C67_instance"
  },
  {
   "property": "C68",
   "status": "partial",
   "theorems": [
    "C68_options_mean_what_they_say",
    "C68_default_metrics_refuted",
    "C68_documented_ranges_refuted"
   ],
   "note": "proved as an equivalence with a table of ranges and defaults. REFUTED with respect to the documentation for the default of --metrics, the range of --iterations_after_convergence and the relation of --cost_max and --cost_min. The instances are C68_instance and C68_rejected"
  },
  {
   "property": "C69",
   "status": "partial",
   "theorems": [
    "C69_metrics_are_as_documented",
    "C69_exactly_half_refuted"
   ],
   "note": "exact arithmetic, sequential / random activation; metric 8 under CIP-50 only with a0 > 0; metric 11 for a solver that finds optimal choices (exhaustive_works shows one). REFUTED for metric 11: pools with exactly half of the active stake are accepted where more than half is documented, so the first theorem says at least half there. The instance is C69_instance"
  },
  {
   "property": "C70",
   "status": "proved",
   "theorems": [
    "C70_columns_line_up"
   ],
   "note": "for parameters whose names are distinct and differ from the names of the metrics and from Step, seed, seq_id and execution_id, as the constructor and the reporters have them. The instance is C70_instance"
  },
  {
   "property": "C71",
   "status": "partial",
   "theorems": [
    "C71_script_runs_every_combination",
    "C71_no_values_no_runs",
    "C71_profile_option_refuted"
   ],
   "note": "proved for fifteen options and the seed. REFUTED for --agent_profile_distr, which is accepted and ignored; an option given without values leads to no runs at all. The instance is C71_instance"
  },
  {
   "property": "C72",
   "status": "partial",
   "theorems": [
    "C72_same_seed_same_outcome",
    "C72_saved_arguments_repeat",
    "C72_recorded_seed_partial",
    "C72_recorded_seed_refuted",
    "C72_saved_arguments_refuted"
   ],
   "note": "proved for seeds given on the command line. REFUTED for the recorded seed of an execution without one, and for saved arguments: profiles and the order of activation come from a generator that only sees the seed of the command line. For sequential activation and one profile the recorded seed does repeat the execution. The instance is C72_instance"
  },
  {
   "property": "C73",
   "status": "proved",
   "theorems": [
    "C73_a_move_touches_only_the_movers_things",
    "C73_stakes_follow_the_mover"
   ],
   "note": "the second theorem, on amounts, is for exact arithmetic. C25 and C66 show that nothing like this holds for simultaneous activation. The instance is C73_instance"
  },
  {
   "property": "C74",
   "status": "proved",
   "theorems": [
    "C74_pools_and_operators",
    "C74_no_more_pools_than_k",
    "C74_ids_never_reused",
    "C74_no_agent_spends_stake_twice"
   ],
   "note": "extends C15, C16 and C23, whose theorems are for one agent at a time, to every order; what fails under simultaneous orders is C25 (delegations as seen by agents and pools) and C66 (crash). The instance, with simultaneous activation, is C74_instance"
  },
  {
   "property": "C75",
   "status": "proved",
   "theorems": [
    "C75_rankings_under_every_order",
    "C75_prepared_pools_are_separate"
   ],
   "note": "extends C13 (one agent at a time) to every order. The instance, in the middle of a simultaneous round, is C75_instance"
  },
  {
   "property": "C76",
   "status": "proved",
   "theorems": [
    "C76_pools_are_worth_having_in_every_order",
    "C76_public_pools_are_worth_having_in_every_order",
    "C76_pools_without_profit_are_private"
   ],
   "note": "extends C54, which is for one agent at a time. Without myopic agents all pools; with them all public pools, and a pool without a profit is private and belongs to a myopic agent for whom no number of pools pays. Instances: C66_C76_instance, C88_instance"
  },
  {
   "property": "C77",
   "status": "proved",
   "theorems": [
    "C77_machine_reward_close_to_formula",
    "C77_machine_reward_bounded",
    "C77_machine_epoch_budget",
    "C77_machine_reward_monotone",
    "C77_machine_reward_flat_above_saturation",
    "C77_scheme_of_k_is_sane",
    "C77_machine_reward_can_exceed_stake"
   ],
   "note": "the same generic model, instantiated with binary64 (FloatI) and with the real numbers (ExactR). The instance, for all four schemes, is C77_instance"
  },
  {
   "property": "C78",
   "status": "proved",
   "theorems": [
    "C78_machine_delegators_never_pay",
    "C78_machine_operator_within_profit",
    "C78_machine_rewards_close_to_formula",
    "C78_machine_payouts_add_up",
    "C78_machine_margin_and_desirability",
    "C78_machine_payouts_not_exact"
   ],
   "note": "the last theorem shows that the exact statement of C05 fails for floats. The instance is C78_instance"
  },
  {
   "property": "C79",
   "status": "partial",
   "theorems": [
    "C79_messages_are_answered_partial",
    "C79_a_round",
    "C79_new_settings",
    "C79_charts_show_the_collected_state",
    "C79_two_charts_stay_empty_refuted",
    "C79_does_not_start_refuted",
    "C79_slider_positions_refuted"
   ],
   "note": "exact arithmetic; the server of this repository and mesa's, which differ in what a submitted value does. REFUTED: runViz.py imports a constant that is commented out in logic/helper.py, so it does not start; two of its three charts ask for metrics that are not collected and stay empty in every session; all stake inactive (ZeroDivisionError) and a minimum cost above the maximum cost (ValueError) can be set. Proved, as if the constant were there: no other message fails, what a round and a reset do, and what the charts show when their metrics are collected. The instance is C79_instance"
  },
  {
   "property": "C80",
   "status": "partial",
   "theorems": [
    "C80_every_run_can_be_drawn",
    "C80_the_equilibrium_line_is_one_round_early",
    "C80_equilibrium_line_refuted"
   ],
   "note": "C80_every_run_can_be_drawn is the whole property except for the vertical line, for every arithmetic, with no condition but that main returns. The line is refuted: its first position is the last round in which an agent still moved, one too early (proved in general), and -1 if nobody ever moves (witness: main prints 'Reached equilibrium at step: [-1]')."
  },
  {
   "property": "C81",
   "status": "partial",
   "theorems": [
    "C81_truncated_when_it_returns",
    "C81_never_returns",
    "C81_returns_when_draws_are_low",
    "C81_pareto",
    "C81_uniform_costs",
    "C81_banded_costs",
    "C81_two_level_costs",
    "C81_two_level_costs_of_two",
    "C81_disparity",
    "C81_disparity_refuted",
    "C81_normal_costs",
    "C81_normal_costs_refuted",
    "C81_bounds_refused"
   ],
   "note": "The part about stake is proved in full. For costs the claim is false for two generators, so it is proved for the others and refuted for these: generate_cost_distr_disparity returns ten costs for fewer than ten agents (C81_disparity_refuted), and generate_cost_distr_nrm takes the bounds in standard deviations from the mean, so all its costs can be above cost_max (C81_normal_costs_refuted); what they do return is C81_disparity, C81_normal_costs. generate_cost_distr_bands_manual fails for fewer than three agents. That low draws come with probability one is not modelled. Instance: C81_instance."
  },
  {
   "property": "C82",
   "status": "proved",
   "theorems": [
    "C82_abstainers_stay_out",
    "C82_only_abstainers_have_no_strategy",
    "C82_stake_of_abstainers_is_in_no_pool"
   ],
   "note": "the first two theorems for every arithmetic and every activation order; the third in exact arithmetic with agents acting one at a time (under simultaneous activation pools can hold more stake than exists, C25). The instance is C82_instance."
  },
  {
   "property": "C83",
   "status": "partial",
   "theorems": [
    "C83_points_are_the_runs",
    "C83_cells_are_the_runs",
    "C83_every_figure_has_its_file",
    "C83_chosen_metrics_are_shown",
    "C83_metrics_with_a_number",
    "C83_repeated_value_refuted"
   ],
   "note": "Proved for all options, completion orders and results when no value of an option is given twice. False otherwise: if exactly two options take several values and one of them is given a value twice, unstack raises a ValueError and the script ends without heat maps after all runs were made (C83_repeated_value_refuted, for every such command line). The drawing by matplotlib and seaborn is not modelled; a figure is the data it shows."
  },
  {
   "property": "C84",
   "status": "partial",
   "theorems": [
    "C84_reported_profit",
    "C84_splitter_column",
    "C84_yes_is_sound",
    "C84_large_stake_refuted",
    "C84_cip50_refuted"
   ],
   "note": "Proved for the Cardano, simplified and flat-pledge-benefit schemes and agents whose stake does not exceed the saturation threshold, for every number of pools; a YES is right for every agent. False beyond: an agent with more stake than a pool can use is told NO although splitting pays (C84_large_stake_refuted), and under the CIP-50 scheme an agent is told YES although it does not (C84_cip50_refuted)."
  },
  {
   "property": "C85",
   "status": "proved",
   "theorems": [
    "C85_schemes_ordered",
    "C85_same_potential_profit",
    "C85_cip50_incomparable"
   ],
   "note": "Exact arithmetic. C85_cip50_incomparable gives two pools of which one gets more and the other less under CIP-50."
  },
  {
   "property": "C86",
   "status": "partial",
   "theorems": [
    "C86_scale_invariant",
    "C86_rejected_at_every_scale",
    "C86_scale_with_inactive_stake",
    "C86_inactive_stake_refuted"
   ],
   "note": "True without inactive stake, and with inactive stake unless one of the two distributions sums to exactly the active fraction. False in that case (C86_inactive_stake_refuted): such a distribution is left as it is, while the same distribution at any other scale is normalised to a sum of one, so that the stakes of all agents differ. Exact arithmetic."
  },
  {
   "property": "C87",
   "status": "proved",
   "theorems": [
    "C87_scheme_is_irrelevant_without_a0",
    "C87_scheme_matters_with_a0"
   ],
   "note": "Exact arithmetic. C87_scheme_matters_with_a0 shows a run with a0 > 0 whose result does depend on the scheme, so the hypothesis is needed."
  },
  {
   "property": "C88",
   "status": "proved",
   "theorems": [
    "C88_myopic_agents_propose_profitable_pools_if_they_can"
   ],
   "note": "the instance is C88_instance"
  },
  {
   "property": "C89",
   "status": "partial",
   "theorems": [
    "C89_first_mover_settles_for_a_loss_refuted",
    "C89_myopic_choice_not_best_refuted",
    "C89_superior_agents_choose_best_partial"
   ],
   "note": "REFUTED for both profiles, already before any pool exists: a non-myopic agent settles on one pool, which by its own calculation loses, while three pools would gain; a myopic agent settles on one pool although three would bring more. Proved for non-myopic agents under the schemes other than CIP-50 when each of the agent's pools could outdo all pools of the others (superior) and the others' pools are ordered alike by desirability and by potential profit (aligned). Missing in the partial theorem: the other agents and CIP-50, for which the refutations show it does not hold in general. Instance: C89_instance, with three pools of a rival in operation"
  },
  {
   "property": "C90",
   "status": "partial",
   "theorems": [
    "C90_calculate_margin_is_a_margin",
    "C90_calculate_margin_matches_the_kth_pool",
    "C90_margin_outside_the_top_k_refuted"
   ],
   "note": "the parts about the value of the margin are proved; the claim of the documentation that only pools in the top k get a margin is REFUTED, by potential profit and by desirability alike: the reference is the potential profit of the pool in the k-th place by desirability, which can be lower than that of pools further down. The method is not called during a run (the operator's margins come from the number of pools). Instance: C90_instance"
  },
  {
   "property": "C91",
   "status": "partial",
   "theorems": [
    "C91_every_metric_is_defined_in_every_order",
    "C91_decentralisation_metrics_in_every_order",
    "C91_pool_statistics_in_every_order",
    "C91_stake_reports_add_up_in_every_order",
    "C91_reported_stake_exceeds_all_stake_refuted"
   ],
   "note": "all parts but the last are proved; that the reported stake in pools is at most the agents' stake is REFUTED for both simultaneous orders: 8/5 of the stake is reported as delegated after three steps (the double counting of C25). Instance: C91_instance"
  },
  {
   "property": "C92",
   "status": "proved",
   "theorems": [
    "C92_pledge_and_delegations_are_affordable",
    "C92_nobody_delegates_to_themselves",
    "C92_no_pool_holds_more_than_everything"
   ],
   "note": "what remains true of C16, C17 and C25 under the simultaneous orders. Instance: C92_instance (both simultaneous orders, a pool with 4/5 of all stake in a run whose pools together hold 8/5)"
  },
  {
   "property": "C93",
   "status": "partial",
   "theorems": [
    "C93_rewards_in_every_order",
    "C93_budget_in_every_order_refuted"
   ],
   "note": "The bounds per pool and by stake are proved for every order. The last sentence is refuted under both simultaneous orders: a run of five agents stops in an equilibrium in which the pools are due 13788/12625 of the total and the incomes after costs exceed it too. For the one-at-a-time orders it is C02 and C55. Instance: C93_instance"
  },
  {
   "property": "C94",
   "status": "partial",
   "theorems": [
    "C94_every_pool_evolved",
    "C94_drift_is_bounded",
    "C94_drift_in_a_run",
    "C94_books_balance_refuted",
    "C94_considering_has_no_effect_refuted"
   ],
   "note": "The history of a pool is proved for every arithmetic with a total preorder, the machine's among them. The bound is proved for binary64: for single histories in a range (C94_drift_is_bounded), and for all pools of all runs whose agents start with proper stakes (C94_drift_in_a_run; C95_proper_stakes and C95_proper_stakes_with_inactive_stake say which inputs lead to such stakes). The last sentence is REFUTED by a run of five agents acting in turn: after two rounds a pool that all delegators have left records less stake than its pledge, and after three rounds an agent that keeps its strategy changes the stake of a pool, since a delegation is taken away and put back while it is considered (C14, C19 hold in exact arithmetic). Instances: C94_instance, C95_instance"
  },
  {
   "property": "C95",
   "status": "partial",
   "theorems": [
    "C95_stakes_add_up_to_one",
    "C95_proper_stakes",
    "C95_stakes_with_inactive_stake",
    "C95_proper_stakes_with_inactive_stake",
    "C95_no_stake_is_negative_refuted"
   ],
   "note": "Proved but for the clause that no agent starts with a negative stake, which is proved for every agent but the last. For the last agent it is REFUTED: the rounding error of all agents is taken from it, so with stakes 4.9, 7.3, 4.8, 2.9 and 1e-17 it starts with about -2.2e-16. It holds if the last stake is at least n*2^-48 of the total (C95_proper_stakes), and whenever at least n*2^-48 of the stake is inactive (C95_proper_stakes_with_inactive_stake). In exact arithmetic see C27 and C28. Instances: C95_instance, C95_inactive_instance"
  },
  {
   "property": "C96",
   "status": "partial",
   "theorems": [
    "C96_sturdy_pools_have_rewards",
    "C96_current_utility_defined",
    "C96_no_round_divides_by_zero_refuted"
   ],
   "note": "REFUTED as stated: with three non-myopic agents, k = 3, a0 = 0.3 and stakes 0.78, 3e-17 and 0.92 the third round raises ZeroDivisionError: agent 0 leaves the pool of agent 1, whose stake is then 0 although its pledge is about 1.8e-17. Proved instead: the rewards of a pool are defined if its pledge exceeds the bound of C94 on the rounding error in its stake (n*2^-50 after n changes), for all activation orders; and an agent all of whose pools are like that can compute its utility, for agents moving one at a time. That whole rounds succeed is proved in exact arithmetic only (C24, C66). Instance: C96_instance"
  },
  {
   "property": "C97",
   "status": "partial",
   "theorems": [
    "C97_rewards_in_a_run",
    "C97_no_reward_is_negative_refuted"
   ],
   "note": "The bounds are proved for pools that record a stake which is not negative, in particular for pools with a pledge of at least n*2^-50. That no reward is negative is proved for pools whose recorded stake covers the pledge and REFUTED in general: with three non-myopic agents, k = 3, a0 = 0.1 and stakes 0.77, 5e-17 and 0.93 a pool with a pledge of 2.9e-17 records the stake 0 after two rounds and is due about -2.4e-34. In exact arithmetic see C93. Instance: C97_instance"
  },
  {
   "property": "C98",
   "status": "proved",
   "theorems": [
    "C98_margins_in_a_run"
   ],
   "note": "In the arithmetic FloatA, whose comparisons place NaN above all numbers: a run in which a NaN is compared may continue differently in Python. In exact arithmetic see C22. Instance: C98_instance, a run in which a pool has a margin between 1/16 and 1/8"
  },
  {
   "property": "C99",
   "status": "partial",
   "theorems": [
    "C99_margin_hits_the_target",
    "C99_above_the_rival",
    "C99_target_is_reached_refuted",
    "C99_above_the_rival_for_all_profits_refuted"
   ],
   "note": "The first two sentences are proved. The last one is REFUTED: with a profit of 0.27735497061078451 and the target 1e-6 the desirability is 9.99999999999746e-07, below the target, and with a profit of 2^40 and a rival of desirability 1 the pool gets desirability 1 exactly, no more than the rival. Rewards in the simulation are fractions of 1 (C97), so its profits stay far below 2^30. In exact arithmetic see C08. Instance: C99_instance"
  },
  {
   "property": "C100",
   "status": "partial",
   "theorems": [
    "C100_pledges_use_the_stake",
    "C100_pledges_and_rest_are_the_stake",
    "C100_costs_add_up",
    "C100_no_more_is_pledged_than_the_stake_refuted"
   ],
   "note": "All but the last sentence is proved. That the pledges never exceed the stake is REFUTED: five pools of an agent with stake 1 pledge the double nearest to 0.2 each, which is above 1/5. In exact arithmetic see C09. Instance: C100_instance"
  },
  {
   "property": "C101",
   "status": "partial",
   "theorems": [
    "C101_delegations_use_the_stake",
    "C101_delegations_fit",
    "C101_no_more_is_delegated_than_the_stake_refuted"
   ],
   "note": "All but the last sentence is proved. That the delegations never exceed the stake is REFUTED: 1 is divided into 0.2, 0.5 and the double after 0.3, which add up to more than 1. Stated for the loop of the move, given the eligible pools; in exact arithmetic see C18. Instances: C101_instance, C101_full_instance"
  },
  {
   "property": "C102",
   "status": "partial",
   "theorems": [
    "C102_no_agent_spends_stake_twice",
    "C102_pools_hold_no_more_than_the_agents",
    "C102_never_more_than_the_stake_refuted"
   ],
   "note": "All but the last sentence is proved. The last sentence is REFUTED: in a run an agent opens three pools whose pledges add up to 1.4e-17 more than its stake. In exact arithmetic it holds (C16). Initial stakes as required follow from C95. Instance: C102_instance"
  },
  {
   "property": "C103",
   "status": "proved",
   "theorems": [
    "C103_rewards_of_all_pools",
    "C103_rewards_within_the_budget"
   ],
   "note": "The binary64 counterpart of the bound on all rewards in C55. Without a stake that is not negative a pool may be paid a negative or undefined reward (C94, C97). Initial stakes as required follow from C95. The second theorem takes the initial stakes from the inputs by C95, without inactive stake. Instances: C103_instance, C103_budget_instance (six pools, D = 1)"
  }
 ]
}