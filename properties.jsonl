{"id": "C01", "title": "Pool reward is bounded by pool stake", "statement": "For each runnable reward scheme (0 Cardano, 1 simplified, 2 flat pledge benefit, 4 CIP-50), calculate_pool_reward(pledge, stake) is never negative and never exceeds min(stake, saturation threshold) when 0 <= pledge <= stake.", "quantifier": "every k>=1, a0>=0, pledge and stake with 0<=pledge<=stake", "why_tests_cant": "The inputs are real numbers: any finite set of test points leaves the rest of the domain unchecked.", "anchors": ["logic/reward_schemes.py:CardanoRSS.calculate_pool_reward", "logic/reward_schemes.py:SimplifiedRSS", "logic/reward_schemes.py:FlatPledgeBenefitRSS", "logic/reward_schemes.py:CIP50RSS"]}
{"id": "C02", "title": "Epoch budget is never exceeded", "statement": "The sum of the rewards of all pools never exceeds TOTAL_EPOCH_REWARDS_R = 1 as long as the pools' total stake is at most 1.", "quantifier": "every finite list of pools (any length) with total stake <= 1, every runnable scheme, k, a0", "why_tests_cant": "The number of pools and their stakes are unbounded.", "anchors": ["logic/reward_schemes.py:TOTAL_EPOCH_REWARDS_R", "logic/reward_schemes.py:*.calculate_pool_reward"]}
{"id": "C03", "title": "Reward is monotone in stake and flat above saturation", "statement": "Adding stake to a pool never lowers its reward, and stake beyond the saturation threshold changes nothing.", "quantifier": "every scheme, k>=1, a0>=0, pledge>=0 and pair of stakes", "why_tests_cant": "The inputs are real numbers: any finite set of test points leaves the rest of the domain unchecked.", "anchors": ["logic/reward_schemes.py:*.calculate_pool_reward"]}
{"id": "C04", "title": "Potential profit rewards pledge", "statement": "A pool's potential profit never decreases with pledge and always decreases one for one with cost; below saturation the Cardano scheme's reward is not monotone in pledge.", "quantifier": "every scheme, pledge pair, cost", "why_tests_cant": "The inputs are real numbers: any finite set of test points leaves the rest of the domain unchecked.", "anchors": ["logic/helper.py:calculate_potential_profit", "logic/reward_schemes.py:CardanoRSS"]}
{"id": "C05", "title": "Reward split is exact", "statement": "Operator reward plus the rewards of all delegators equals pool reward minus cost, whether the pool makes a profit or a loss.", "quantifier": "every margin in [0,1], cost, reward and every finite list of delegations which with the pledge adds up to the pool stake", "why_tests_cant": "The number of delegators is unbounded and the identity is over real numbers.", "anchors": ["logic/helper.py:calculate_operator_reward_from_pool", "logic/helper.py:calculate_delegator_reward_from_pool", "logic/helper.py:calculate_operator_utility_from_pool", "logic/helper.py:calculate_delegator_utility_from_pool"]}
{"id": "C06", "title": "Delegators never pay", "statement": "A delegator's reward is never negative and never exceeds its share of the profit; the operator alone bears the loss of an unprofitable pool.", "quantifier": "every margin in [0,1], cost, reward, stake fraction", "why_tests_cant": "The inputs are real numbers: any finite set of test points leaves the rest of the domain unchecked.", "anchors": ["logic/helper.py:calculate_delegator_reward_from_pool", "logic/helper.py:calculate_operator_reward_from_pool"]}
{"id": "C07", "title": "Setting k keeps the saturation threshold consistent", "statement": "After any sequence of assignments to k, global_saturation_threshold = 1/(last accepted value) and the stored k is its integer part; assigning 0 raises ValueError and changes nothing; k pools filled to the threshold hold exactly the total stake when k is an integer.", "quantifier": "every sequence of assignments", "why_tests_cant": "The claim ranges over every reachable state of an unbounded run with arbitrary agent populations and activation orders.", "anchors": ["logic/reward_schemes.py:RSS.k"]}
{"id": "C08", "title": "Suitable margin hits its target", "statement": "calculate_suitable_margin(pp, t) lies in [0,1] and the pool desirability with that margin is min(t, pp) when pp>0 (0 when pp<=0), for every target t>=0: asking for the highest margin never overshoots nor gives negative desirability.", "quantifier": "every potential profit and target", "why_tests_cant": "The inputs are real numbers: any finite set of test points leaves the rest of the domain unchecked.", "anchors": ["logic/helper.py:calculate_suitable_margin", "logic/helper.py:calculate_pool_desirability"]}
{"id": "C09", "title": "Splitting stake and cost over pools is conservative", "statement": "For every number of pools t>=1: t times the per-pool pledge never exceeds the agent's stake, the per-pool pledge never exceeds the saturation threshold, one of the two bounds is tight, and t times the per-pool cost is exactly cost + (t-1)*fraction*cost. t<=0 is rejected with ValueError.", "quantifier": "every t, stake, threshold, cost, fraction", "why_tests_cant": "t and the reals are unbounded.", "anchors": ["logic/helper.py:calculate_pledge_per_pool", "logic/helper.py:calculate_cost_per_pool"]}
{"id": "C10", "title": "calculate_ranks is a ranking", "statement": "calculate_ranks assigns each key exactly one rank, uses precisely the ranks 1..n, ranks a strictly greater value strictly better, and breaks ties towards the lower id.", "quantifier": "every dictionary", "why_tests_cant": "Any number of keys and any tie pattern.", "anchors": ["logic/helper.py:calculate_ranks"]}
{"id": "C11", "title": "find_target_pool returns the marginal pool", "statement": "find_target_pool returns the last pool of the shortest prefix of the ranking whose saturation thresholds cover the target stake; if a placeholder is reached first, or the list is empty, it returns None; if the pools do not cover the target it returns the last one.", "quantifier": "every ranking and target stake", "why_tests_cant": "Lists of any length.", "anchors": ["logic/helper.py:find_target_pool"]}
{"id": "C12", "title": "Memoisation is transparent", "statement": "Every call to an lru_cache-wrapped helper returns the value the undecorated function would return, whatever calls happened before and whatever got evicted; the cache never exceeds 1024 entries.", "quantifier": "every history of calls", "why_tests_cant": "Histories are unbounded; eviction only starts after 1024 distinct calls.", "anchors": ["logic/helper.py:lru_cache"]}
{"id": "C13", "title": "Pool rankings are complete and sorted", "statement": "In every state reached by a run, both pool rankings contain each active pool exactly once, plus exactly the k+1 placeholders created at construction, sorted by the current (not a stale) comparison key.", "quantifier": "every reachable state, any population, any activation order of the non-simultaneous modes", "why_tests_cant": "The claim ranges over every reachable state of an unbounded run with arbitrary agent populations and activation orders.", "anchors": ["logic/sim.py:pool_rankings", "logic/sim.py:pool_rankings_myopic", "logic/helper.py:pool_comparison_key", "logic/stakeholder.py:execute_strategy"]}
{"id": "C14", "title": "Pool stake is pledge plus delegations", "statement": "In every reachable state, every active pool's stake equals its pledge plus the sum of its recorded delegations.", "quantifier": "every reachable state in sequential and random activation", "why_tests_cant": "The claim ranges over every reachable state of an unbounded run with arbitrary agent populations and activation orders.", "anchors": ["logic/pool.py:update_delegation", "logic/stakeholder.py:execute_strategy", "logic/stakeholder.py:find_operator_move"]}
{"id": "C15", "title": "Delegations are recorded identically on both sides", "statement": "In every reachable state, agent a's strategy allocates v to pool p if and only if pool p records delegator a with v; every allocation refers to an active pool.", "quantifier": "every reachable state in sequential and random activation", "why_tests_cant": "The claim ranges over every reachable state of an unbounded run with arbitrary agent populations and activation orders.", "anchors": ["logic/stakeholder.py:execute_strategy", "logic/stakeholder.py:remove_delegations", "logic/pool.py:update_delegation"]}
{"id": "C16", "title": "No agent spends stake twice", "statement": "In every reachable state, for each agent the pledges of its pools plus its delegations do not exceed its stake; hence the total stake of all pools never exceeds the total stake of the agents.", "quantifier": "every reachable state in sequential and random activation", "why_tests_cant": "The claim ranges over every reachable state of an unbounded run with arbitrary agent populations and activation orders.", "anchors": ["logic/stakeholder.py:find_operator_move", "logic/stakeholder.py:find_delegation_for_operator", "logic/stakeholder.py:determine_stake_allocations", "logic/model_reporters.py:get_total_delegated_stake"]}
{"id": "C17", "title": "Private pools and own pools receive no delegation", "statement": "In every reachable state no private pool has a delegator, no agent delegates to a pool it owns, and every delegation is at least MIN_STAKE_UNIT.", "quantifier": "every reachable state in sequential and random activation", "why_tests_cant": "The claim ranges over every reachable state of an unbounded run with arbitrary agent populations and activation orders.", "anchors": ["logic/stakeholder.py:update_pool", "logic/stakeholder.py:determine_stake_allocations"]}
{"id": "C18", "title": "Delegation move is greedy and feasible", "statement": "The allocation an agent finds never exceeds the stake to delegate; it never pushes an unsaturated pool over its saturation threshold; a pool receives stake only when every better ranked eligible pool is filled; whatever does not fit goes to the best ranked saturated pool; stake remains undelegated (at least MIN_STAKE_UNIT) only if no eligible pool was saturated beforehand.", "quantifier": "every ranking, every pool population and stake amount", "why_tests_cant": "Any number of pools in any state.", "anchors": ["logic/stakeholder.py:determine_stake_allocations"]}
{"id": "C19", "title": "Considering a move has no side effects", "statement": "An agent that evaluates its options and keeps its current strategy leaves every active pool's stake, pledge, margin, cost and delegations, both rankings and all strategies unchanged.", "quantifier": "every reachable state and agent", "why_tests_cant": "The claim ranges over every reachable state of an unbounded run with arbitrary agent populations and activation orders.", "anchors": ["logic/stakeholder.py:update_strategy", "logic/stakeholder.py:determine_stake_allocations", "logic/stakeholder.py:determine_pools_to_keep"]}
{"id": "C20", "title": "Inertia", "statement": "An agent only adopts a new strategy if its expected utility strictly exceeds both (1+relative threshold) times and absolute threshold plus the utility (current as well as expected) of its present strategy; ties keep the present strategy, and delegation is preferred to operation on ties.", "quantifier": "every state, agent and thresholds", "why_tests_cant": "The claim ranges over every reachable state of an unbounded run with arbitrary agent populations and activation orders.", "anchors": ["logic/stakeholder.py:update_strategy"]}
{"id": "C21", "title": "Search for the number of pools terminates at a local maximum", "statement": "choose_pool_strategy's search terminates for every utility function, returns a number of pools between 1 and k that is no worse than its feasible neighbours, and is a global maximum whenever utility is strictly unimodal.", "quantifier": "every k>=1 and every utility function", "why_tests_cant": "Arbitrary functions and unbounded k.", "anchors": ["logic/stakeholder.py:choose_pool_strategy"]}
{"id": "C22", "title": "Pools of one operator are homogeneous", "statement": "Every operator move gives the agent exactly the chosen number of pools, all with the same pledge and the same cost, owned by the agent, private exactly if the pledge reaches the saturation threshold, with margins in [0,1].", "quantifier": "every agent, state and chosen number of pools", "why_tests_cant": "The claim ranges over every reachable state of an unbounded run with arbitrary agent populations and activation orders.", "anchors": ["logic/stakeholder.py:find_operator_move", "logic/stakeholder_profiles.py:calculate_margins_and_utility"]}
{"id": "C23", "title": "Pool ids are unique", "statement": "No two pools ever opened on a model share an id, and the id under which a pool is registered is its own id, also when step() has been called by hand before run_model.", "quantifier": "every run and every interleaving of step and run_model", "why_tests_cant": "The claim ranges over every reachable state of an unbounded run with arbitrary agent populations and activation orders.", "anchors": ["logic/sim.py:get_next_pool_id", "logic/sim.py:run_model", "logic/sim.py:initialize_pool_id_seq"]}
{"id": "C24", "title": "A single phase run never crashes", "statement": "With positive stakes, k>=1, a0>=0 and positive costs, no step of a single phase sequential or random run raises an exception.", "quantifier": "every population of the three profiles, every schedule, every reward scheme that can be constructed, any number of steps", "why_tests_cant": "The claim ranges over every reachable state of an unbounded run with arbitrary agent populations and activation orders.", "anchors": ["logic/sim.py:step", "logic/stakeholder.py", "logic/stakeholder_profiles.py"]}
{"id": "C25", "title": "Simultaneous activation preserves the bookkeeping", "statement": "The properties on stake accounting and two-sided recording also hold under simultaneous and semisimultaneous activation.", "quantifier": "every reachable state and schedule in the (semi)simultaneous modes", "why_tests_cant": "Needs a particular interleaving of staged moves.", "anchors": ["logic/activations.py:SemiSimultaneousActivation", "logic/stakeholder.py:advance", "logic/stakeholder.py:update_pool"]}
{"id": "C26", "title": "Every agent is activated exactly once per round", "statement": "For every scheduler, and for semisimultaneous activation for every outcome of the random sampling and batch size z>=1, each agent is stepped exactly once and advanced exactly once per round, in batches of at most z, each agent being advanced after all agents of its batch were stepped, and the round terminates.", "quantifier": "every set of agents, z>=1 and sampling outcomes", "why_tests_cant": "Every random outcome.", "anchors": ["logic/activations.py:SemiSimultaneousActivation.step"]}
{"id": "C27", "title": "Stakes are normalised", "statement": "After construction the agents' stakes (and the recorded total stake) add up to exactly 1, relative proportions of all but the last agent are those of the input distribution, and a non-positive total is rejected.", "quantifier": "every stake distribution and inactive fraction in [0,1)", "why_tests_cant": "The inputs are real numbers: any finite set of test points leaves the rest of the domain unchecked.", "anchors": ["logic/sim.py:normalize_agent_stake", "logic/sim.py:__init__"]}
{"id": "C28", "title": "Inactive stake stays inactive", "statement": "With inactive_stake_fraction = f the agents together hold the fraction 1-f of the total stake.", "quantifier": "every stake distribution and f in [0,1)", "why_tests_cant": "The inputs are real numbers: any finite set of test points leaves the rest of the domain unchecked.", "anchors": ["logic/sim.py:normalize_agent_stake", "docs/configuration.md:inactive_stake_fraction"]}
{"id": "C29", "title": "A run terminates within the iteration bound", "statement": "run_model performs at most max_iterations rounds and then has running = False; a run stops earlier only on convergence in the last phase.", "quantifier": "every configuration, schedule and agent behaviour", "why_tests_cant": "The claim ranges over every reachable state of an unbounded run with arbitrary agent populations and activation orders.", "anchors": ["logic/sim.py:run_model", "logic/sim.py:step"]}
{"id": "C30", "title": "Equilibrium is declared only after enough idle rounds", "statement": "Every entry of equilibrium_steps and the final report 'Equilibrium reached: Yes' correspond to iterations_after_convergence consecutive rounds, under the parameters of that phase, in which no agent changed its strategy.", "quantifier": "every run, number of phases, schedule", "why_tests_cant": "The claim ranges over every reachable state of an unbounded run with arbitrary agent populations and activation orders.", "anchors": ["logic/sim.py:step", "logic/sim.py:has_converged", "logic/sim.py:change_phase", "logic/sim.py:export_final_state_desc_file"]}
{"id": "C31", "title": "A declared equilibrium is stable", "statement": "If a round passes in which no agent moves, then no later round of the same phase contains a move: every agent, activated in the final state in any order, keeps its strategy.", "quantifier": "every reachable state, any activation order of later rounds", "why_tests_cant": "The claim ranges over every reachable state of an unbounded run with arbitrary agent populations and activation orders.", "anchors": ["logic/sim.py:has_converged", "logic/stakeholder.py:update_strategy"]}
{"id": "C32", "title": "Known inactive stake inflates k", "statement": "With inactive_stake_fraction_known, the saturation threshold becomes (1-f)/k and k its inverse rounded down, in every phase.", "quantifier": "every k, f in [0,1) and list of phases", "why_tests_cant": "The inputs are real numbers: any finite set of test points leaves the rest of the domain unchecked.", "anchors": ["logic/sim.py:__init__", "logic/sim.py:change_phase"]}
{"id": "C33", "title": "A phase change keeps the system consistent", "statement": "change_phase applies precisely the parameters listed for the new phase, recomputes profit and desirability of every pool under the new scheme, leaves stakes, pledges, margins and delegations untouched and keeps both rankings complete and sorted; the run can go on.", "quantifier": "every reachable state and list of phase parameters", "why_tests_cant": "The claim ranges over every reachable state of an unbounded run with arbitrary agent populations and activation orders.", "anchors": ["logic/sim.py:change_phase"]}
{"id": "C34", "title": "One metrics row per round", "statement": "metrics.csv has exactly one row for each executed round, row i describing the state after i rounds, plus the final state when the iteration bound ends the run.", "quantifier": "every run", "why_tests_cant": "The claim ranges over every reachable state of an unbounded run with arbitrary agent populations and activation orders.", "anchors": ["logic/sim.py:step", "logic/sim.py:export_metrics_file"]}
{"id": "C35", "title": "Nakamoto coefficient is minimal", "statement": "get_nakamoto_coefficient returns the least number m such that some m agents control strictly more than half of the stake in pools (before any pools: of the agents' stakes).", "quantifier": "every assignment of pools to agents with positive total stake", "why_tests_cant": "Minimum over all subsets of agents.", "anchors": ["logic/model_reporters.py:get_nakamoto_coefficient"]}
{"id": "C36", "title": "Gini coefficient is a Gini coefficient", "statement": "gini_coefficient of non-negative values with positive sum is at least 0 and less than 1, is 0 exactly when all values are equal, does not depend on order or scale, equals half the relative mean absolute difference, and is -1 exactly when the sum is 0.", "quantifier": "every array", "why_tests_cant": "Arrays of any length.", "anchors": ["logic/model_reporters.py:gini_coefficient"]}
{"id": "C37", "title": "Pledge rate and homogeneity are fractions", "statement": "In every reachable state with pools, pledge rate and homogeneity lie in (0,1]; homogeneity is 1 exactly if all pools have equal stake; pledge rate is 1 exactly if nobody delegates.", "quantifier": "every reachable state", "why_tests_cant": "The claim ranges over every reachable state of an unbounded run with arbitrary agent populations and activation orders.", "anchors": ["logic/model_reporters.py:get_pledge_rate", "logic/model_reporters.py:get_homogeneity_factor"]}
{"id": "C38", "title": "Operator statistics agree with each other", "statement": "Operator count times average pools per operator is the pool count; the average and median number of pools per operator are at most the maximum and at least 1; there is a pool splitter exactly when the maximum exceeds 1; splitters never outnumber operators.", "quantifier": "every set of pools", "why_tests_cant": "The claim ranges over every reachable state of an unbounded run with arbitrary agent populations and activation orders.", "anchors": ["logic/model_reporters.py:get_avg_pools_per_operator", "logic/model_reporters.py:get_max_pools_per_operator", "logic/model_reporters.py:get_median_pools_per_operator", "logic/model_reporters.py:get_pool_splitter_count", "logic/model_reporters.py:get_operator_count"]}
{"id": "C39", "title": "Stake reports add up", "statement": "The list and the mapping of stake per agent agree, and their entries add up to the total delegated stake; with all agents' stake at most 1, so is that total.", "quantifier": "every reachable state", "why_tests_cant": "The claim ranges over every reachable state of an unbounded run with arbitrary agent populations and activation orders.", "anchors": ["logic/model_reporters.py:get_pool_stakes_by_agent", "logic/model_reporters.py:get_pool_stakes_by_agent_id", "logic/model_reporters.py:get_total_delegated_stake"]}
{"id": "C40", "title": "Statistical distance is a distance", "statement": "The reported statistical distance is half the L1 distance of initial and controlled stake: non-negative, 0 exactly if all agents control what they own, at most 1 when both total at most 1.", "quantifier": "every reachable state with pools", "why_tests_cant": "The claim ranges over every reachable state of an unbounded run with arbitrary agent populations and activation orders.", "anchors": ["logic/model_reporters.py:get_controlled_stake_distr_stat_dist"]}
{"id": "C41", "title": "Batch run covers the parameter grid", "statement": "The runs of a batch are exactly all combinations of the parameter values, each once per iteration, with seeds initial_seed+i, pairwise distinct sequence numbers and output directories; strings and scalars are never split.", "quantifier": "every parameter dictionary", "why_tests_cant": "Any number of parameters and values.", "anchors": ["custom_batchrunner.py:_make_model_kwargs", "custom_batchrunner.py:custom_batch_run"]}
{"id": "C42", "title": "Batch results do not depend on worker timing", "statement": "For every completion order of the worker processes each run's rows appear exactly once and get a run id of their own; the results of different completion orders are the same up to order and run ids.", "quantifier": "every completion order", "why_tests_cant": "Depends on scheduling of worker processes.", "anchors": ["custom_batchrunner.py:custom_batch_run"]}
{"id": "C43", "title": "Aggregate file has one header", "statement": "aggregate results and experiment tracker files consist of one header line followed by one row per run.", "quantifier": "every number of runs, every interleaving of writers", "why_tests_cant": "A race between processes.", "anchors": ["logic/helper.py:write_to_csv", "custom_batchrunner.py:_model_run_func"]}
{"id": "C44", "title": "Sequence numbers are never reused", "statement": "Each execution gets a sequence number greater than all earlier ones in the same directory, also after a crash.", "quantifier": "every sequence of runs, every crash point, every interleaving", "why_tests_cant": "Crash points and races.", "anchors": ["logic/helper.py:read_seq_id", "logic/helper.py:write_seq_id", "logic/sim.py:__init__"]}
{"id": "C45", "title": "Aggregate results describe the final state", "statement": "The row written to the aggregate results is the metrics of the state in which the run ended.", "quantifier": "every run", "why_tests_cant": "Depends on how the run ended.", "anchors": ["custom_batchrunner.py:_model_run_func", "custom_batchrunner.py:_collect_data"]}
{"id": "C46", "title": "Numeric argument validators are exact", "statement": "positive_int, non_negative_int, positive_float, non_negative_float and fraction accept exactly the values in their range and return them unchanged.", "quantifier": "every number", "why_tests_cant": "All numbers.", "anchors": ["logic/helper.py:positive_int", "logic/helper.py:non_negative_int", "logic/helper.py:positive_float", "logic/helper.py:non_negative_float", "logic/helper.py:fraction"]}
{"id": "C47", "title": "Synthetic stake distributions are distributions", "statement": "The flat and the disparity distribution have the requested number of positive entries adding up to exactly 1; the disparity distribution is undefined (division by zero) exactly when n equals the number of rich agents.", "quantifier": "every n", "why_tests_cant": "The inputs are real numbers: any finite set of test points leaves the rest of the domain unchecked.", "anchors": ["logic/helper.py:generate_stake_distr_flat", "logic/helper.py:generate_stake_distr_disparity"]}
{"id": "C48", "title": "Every documented reward scheme can be simulated", "statement": "A simulation can be constructed with each of the reward schemes 0 to 4.", "quantifier": "every scheme id and valid parameters", "why_tests_cant": "Configuration dependent failure.", "anchors": ["logic/reward_schemes.py:RSS_MAPPING", "logic/sim.py:__init__"]}
{"id": "C49", "title": "Curve pledge benefit generalises Cardano", "statement": "With curve root 1 the CIP-7 scheme gives exactly the Cardano reward for every pledge and stake.", "quantifier": "every k, a0, crossover, pledge, stake", "why_tests_cant": "The inputs are real numbers: any finite set of test points leaves the rest of the domain unchecked.", "anchors": ["logic/reward_schemes.py:CurvePledgeBenefitRSS"]}
{"id": "C50", "title": "Non-myopic stake", "statement": "A pool's non-myopic stake is its saturation threshold or current stake (whichever is greater) if the better ranked pools cannot hold the total stake, and its pledge otherwise; under a uniform threshold 1/k with total stake 1 this means: exactly the k best ranked pools count as top pools.", "quantifier": "every ranking and pool", "why_tests_cant": "The inputs are real numbers: any finite set of test points leaves the rest of the domain unchecked.", "anchors": ["logic/helper.py:calculate_non_myopic_pool_stake"]}
{"id": "C51", "title": "Keeping pools keeps the best ones", "statement": "When an operator reduces the number of pools, the pools it keeps are the best by (desirability, potential profit, stake, age): no discarded pool beats a kept one, and the number kept is as requested; otherwise all are kept, unmodified copies.", "quantifier": "every set of owned pools", "why_tests_cant": "Any number of pools and ties.", "anchors": ["logic/stakeholder.py:determine_pools_to_keep"]}
{"id": "C52", "title": "The iteration column numbers repetitions", "statement": "In the results of a batch run with several iterations per parameter combination, the rows of the runs with the same parameter combination carry the iteration numbers 0, 1, 2, ... in order of completion.", "quantifier": "every parameter dictionary, number of iterations and completion order", "why_tests_cant": "Depends on the completion order of worker processes and holds or fails for all parameter dictionaries at once.", "anchors": ["custom_batchrunner.py:custom_batch_run"]}
{"id": "C53", "title": "Every job of a batch ends", "statement": "A job of a batch run ends after at most max_steps + 1 rounds; if max_iterations is a single value not greater than max_steps, it ends in the same state as run_model would, stopped and with its results exported exactly once.", "quantifier": "every configuration, scheduler, outcome of the random choices, and max_steps", "why_tests_cant": "Termination for every configuration and every outcome of the random choices cannot be observed on finitely many runs.", "anchors": ["custom_batchrunner.py:_model_run_func", "logic/sim.py:step"]}
{"id": "C54", "title": "Only worthwhile pools are operated", "statement": "In a single phase run every pool that is in operation could make a profit if it were saturated: the reward of a saturated pool with its pledge exceeds its cost. Agents never open, keep or reprice pools that could at best make a loss.", "quantifier": "every population of the three profiles with positive stakes, k>=1, a0>=0, every cost vector, every reward scheme that can be constructed (CIP-50 only with a0>0), every sequential or random schedule, every reachable state", "why_tests_cant": "The claim ranges over every reachable state of an unbounded run; it depends on comparing the best operator strategy with the best delegation for every state.", "anchors": ["logic/stakeholder.py:update_strategy", "logic/stakeholder_profiles.py", "logic/pool.py:set_profit"]}
{"id": "C55", "title": "Incomes add up to the rewards", "statement": "In every state of a run the utilities that the agents have from their present strategies add up to the sum of the rewards of the pools minus the sum of the costs of the pools: no reward is lost, paid twice or created. They never exceed the epoch's total reward minus the costs.", "quantifier": "every population with positive stakes, k>0, a0>=0, every constructible reward scheme, every sequential or random schedule, every reachable state", "why_tests_cant": "The identity depends on the two-sided bookkeeping of pools and agents being consistent in every reachable state; a leak could need a particular order of pool closings and reallocations.", "anchors": ["logic/stakeholder.py:calculate_current_utility", "logic/helper.py:calculate_operator_reward_from_pool", "logic/helper.py:calculate_delegator_reward_from_pool"]}
{"id": "C56", "title": "Agents keep their identity, profile, stake and cost", "statement": "During a run no agent is added or removed, and no agent's id, profile, stake or cost changes, whatever the agents do and whatever parameters a new phase sets. The total stake of the agents is the same in every state and is at most 1.", "quantifier": "every arithmetic (for the total: exact arithmetic), configuration, activation order, outcome of the random choices and reachable state, also within a round", "why_tests_cant": "An assignment that touches an agent's stake could lie on any of the many paths of strategy execution, pool closing and phase change.", "anchors": ["logic/stakeholder.py", "logic/sim.py:step", "logic/sim.py:change_phase"]}
{"id": "C57", "title": "Pledge, margin and saturation metrics", "statement": "Mean and median margin, mean, median and total pledge and average saturation rate report exactly the mean, the median and the sum of the margins, pledges and relative saturations of the pools in operation, and 0 when there are none. In every state of a run mean and median margin lie in [0,1], and the total pledge is at most the stake in pools, which is at most the stake of the agents. The pool table has one entry per pool with the values of that pool and the stake of its operator.", "quantifier": "every state of a run with positive stakes and k, sequential or random activation", "why_tests_cant": "Ranges over every reachable state and every list of pools of any length, both parities.", "anchors": ["logic/model_reporters.py:get_avg_margin", "logic/model_reporters.py:get_median_margin", "logic/model_reporters.py:get_avg_pledge", "logic/model_reporters.py:get_total_pledge", "logic/model_reporters.py:get_avg_sat_rate", "logic/model_reporters.py:get_stakes_n_margins"]}
{"id": "C58", "title": "Rank metrics", "statement": "Mean and median stake rank (cost rank) are the mean and the median, rounded to the nearest integer with halves to even, of the places of the pools' operators when all agents are ordered by stake, richest first (by cost, cheapest first), ties by id. They lie between 1 and the number of agents, and are 0 when there are no pools.", "quantifier": "every configuration, sequential or random activation, every reachable state", "why_tests_cant": "Ranges over all populations with any pattern of ties, and all reachable states.", "anchors": ["logic/model_reporters.py:get_avg_stk_rnk", "logic/model_reporters.py:get_avg_cost_rnk", "logic/model_reporters.py:get_median_stk_rnk", "logic/model_reporters.py:get_median_cost_rnk", "logic/helper.py:calculate_ranks"]}
{"id": "C59", "title": "Cost efficient stakeholders", "statement": "The number of cost efficient stakeholders is the number of agents for which a saturated pool with all their stake as pledge would earn more than their cost. It does not change during a run unless the parameters do.", "quantifier": "every configuration with positive stakes and k and a0>=0, every pair of reachable states with the same parameters", "why_tests_cant": "Ranges over every pair of states of every run.", "anchors": ["logic/model_reporters.py:get_cost_efficient_count", "logic/helper.py:calculate_potential_profit"]}
{"id": "C60", "title": "Margins that bring pools into the top k", "statement": "When a non-myopic agent changes its strategy to operate t pools, their margins are such that all t pools end up among the k most desirable ones, unless a pool could not get there even with a margin of zero. (Documented in choose_pool_strategy. True for a single pool. False for several: the i-th pool only beats all but k - i of the pools of the others, so its own better pools push it out.)", "quantifier": "every configuration, every state agents get to see in a run with sequential or random activation, every activation of a non-myopic agent", "why_tests_cant": "Needs the rankings to be right in every state and ranges over every constellation of pools and every number of pools of the agent.", "anchors": ["logic/stakeholder.py:choose_pool_strategy", "logic/stakeholder.py:find_operator_move", "logic/stakeholder_profiles.py:NonMyopicStakeholder.calculate_margins_and_utility", "logic/helper.py:calculate_suitable_margin"]}
{"id": "C61", "title": "The exported tables agree with the state", "statement": "The exported table of the stakeholders has one row per agent, in the order of the identifiers. A row shows the agent's stake and cost, whether it is an operator (it owns a pool in operation), a delegator or has no strategy, how many pools in operation it owns and the stake these hold. The columns add up to the number of pools, the total delegated stake and the number of operators. The exported table of the pools has one row per pool in operation, with the data of its owner and its potential profit and desirability under the present parameters. The descriptors of the initial and final state are the sum, extremes, mean and median of the stakes, the numbers of pools and operators, the Nakamoto coefficient and the total pledge. Under positive stakes and k and a0>=0 none of these exports raises an exception.", "quantifier": "every configuration, every state a user can export in a run with sequential or random activation, every rounding function", "why_tests_cant": "An agent's record of its pools and the system's list of pools are separate; that they never diverge ranges over every history.", "anchors": ["logic/sim.py:export_agents_file", "logic/sim.py:export_pools_file", "logic/sim.py:export_initial_state_desc_file", "logic/sim.py:export_final_state_desc_file", "logic/helper.py:calculate_pool_splitting_profit", "logic/model_reporters.py:get_stake_distr_stats"]}
{"id": "C62", "title": "Moves of myopic agents pay", "statement": "When a myopic agent changes its strategy, its income right after its move, computed from the resulting state, exceeds its income before the move by more than the absolute inertia threshold, and exceeds (1 + relative inertia threshold) times that income. The income the agent estimated for the move is what it gets, or less; it is exactly what it gets unless the agent operates a private pool. (Non-myopic agents may move to a strategy with a lower present income, even a negative one.)", "quantifier": "every configuration with positive stakes and k and a0>=0, every state agents get to see in a run with sequential or random activation, every activation of a myopic agent", "why_tests_cant": "The estimate is made on hypothetical pools before the move, the income arises from the changed books after it; that the two agree ranges over every state and every move.", "anchors": ["logic/stakeholder.py:update_strategy", "logic/stakeholder.py:execute_strategy", "logic/stakeholder.py:calculate_expected_utility", "logic/stakeholder.py:calculate_current_utility", "logic/stakeholder_profiles.py:MyopicStakeholder"]}
{"id": "C63", "title": "Relaxing the parameters between phases is safe", "statement": "In a run with several phases in which the desired number of pools k (a whole number of at least one) never grows from one phase to the next and the pledge influence a0 never grows either (under the CIP-50 scheme: stays positive and never shrinks), no step raises an exception, run_model returns, the rankings always have room for k + 1 entries, and every pool that exists at any time, including pools opened under the parameters of an earlier phase, has a positive potential profit under the parameters in force. The inertia thresholds, the cost of extra pools, the activation order (sequential or random), the iteration limit and the graph switch may change in any way.", "quantifier": "every such configuration with positive stakes and an inactive fraction in [0,1), every number of phases, every random choice, every reachable state and every state within a round", "why_tests_cant": "A phase change re-ranks whatever pools the run has produced; that none of them can break the next round depends on every history before the change.", "anchors": ["logic/sim.py:change_phase", "logic/sim.py:step", "logic/reward_schemes.py", "logic/pool.py:set_profit", "logic/stakeholder.py"]}
{"id": "C64", "title": "Accepted command lines run to the end", "statement": "If argument parsing accepts a command line, then the program builds the simulation, runs it and returns: it stops within max_iterations rounds, reports whether an equilibrium was reached, and writes its result files exactly once, with one row of metrics per call of step and one column per chosen metric, and the tables and descriptors taken from the final state. Conditions that parsing does not check and that are needed: agents act one at a time, the reward scheme is not number 3, cost_min <= cost_max, some profile has a positive weight, less than all stake is inactive, not exactly three agents with the disparity distribution, a stake file (if used) that exists and holds positive numbers, a positive a0 under CIP-50, and later phases that only relax k and a0.", "quantifier": "every command line, every random sample of the right size and range, every set-enumeration order, every fair choice of the scheduler, every content of the stake file", "why_tests_cant": "The space of accepted command lines and samples is infinite, and an exception may depend on the particular history of a run of thousands of rounds.", "anchors": ["main.py:main", "logic/helper.py:add_script_arguments", "logic/helper.py:read_stake_distr_from_file", "logic/helper.py:generate_stake_distr_pareto", "logic/helper.py:generate_cost_distr_unfrm", "logic/sim.py:Simulation.__init__", "logic/sim.py:run_model", "logic/sim.py:wrap_up_execution"]}
{"id": "C65", "title": "No metric raises", "statement": "In every state in which metrics can be collected, each of the thirty metrics that can be selected by number has a value: none divides by zero, takes the median of nothing or looks up a missing agent or pool, whether or not pools exist. Only the average saturation rate (number 8) under the CIP-50 scheme needs a positive a0.", "quantifier": "every configuration with agents acting one at a time, positive stakes and an inactive fraction in [0,1), every phase, every random choice, every reachable state, every metric number from 1 to 30", "why_tests_cant": "A metric is evaluated at every round of every run; a single raising combination of state and metric ends the run and loses its output.", "anchors": ["logic/model_reporters.py", "logic/sim.py:step"]}
{"id": "C66", "title": "A run under simultaneous activation never crashes", "statement": "With positive stakes and costs, k >= 1, a0 >= 0 and a scheme that can be constructed, no step of a single phase run under simultaneous or semisimultaneous activation raises an exception.", "quantifier": "every such configuration, both activation orders, every random choice, every number of rounds", "why_tests_cant": "Whether two staged moves collide depends on the whole history of the run; most configurations run for many rounds without a collision.", "anchors": ["logic/activations.py", "logic/stakeholder.py:execute_strategy", "logic/stakeholder.py:update_pool", "logic/stakeholder.py:remove_delegations"]}
{"id": "C67", "title": "Each execution gets its own output folder", "statement": "The name of an output folder determines the sequence number and the identifier it was made from. A folder that an execution writes its results into did not exist before that execution and is used by no other one, whatever executions start at the same time or crash. Executions that start one after another never fail because of the folder, even if earlier ones crashed anywhere, and get the consecutive numbers after the stored one. That this also holds for executions that start at the same time is the full claim.", "quantifier": "every interleaving and crash point of any number of executions, all identifiers, every content of the sequence file and of the output directory", "why_tests_cant": "Interleavings and crash points of several processes are unbounded; a test starts executions one at a time in a clean directory.", "anchors": ["logic/sim.py: Simulation.__init__", "custom_batchrunner.py: custom_batch_run", "logic/helper.py: read_seq_id, write_seq_id"]}
{"id": "C68", "title": "Command-line options mean what the documentation says", "statement": "Argument parsing accepts a command line exactly if every value given lies in its documented range, and then the simulation is configured with exactly the values given and with the documented default for every option left out.", "quantifier": "every command line: every combination of options given and left out, every value", "why_tests_cant": "Twenty options with unbounded values; any two of them could be swapped or one of them dropped or clipped for some value only.", "anchors": ["logic/helper.py: add_script_arguments, positive_int, non_negative_int, positive_float, non_negative_float, fraction", "logic/sim.py: Simulation.__init__ (default metrics)", "docs/configuration.md"]}
{"id": "C69", "title": "Metric numbers report the documented quantities", "statement": "Whenever metrics are collected, selecting a metric by its number (1 to 30) reports the quantity that docs/metrics.md describes under that number, computed from the pools that are active and the agents at that moment: counts, totals, means, medians, saturation, Nakamoto coefficient, statistical distance, minimal aggregate pledge, rates, number of iterations, ranks, splitters, cost efficient stakeholders, gini coefficients, stake per agent.", "quantifier": "every metric number, every state of every run, including the ones without pools", "why_tests_cant": "A swapped or shifted number, or a formula that is wrong for some shapes of the pool set only (no pools, one operator, ties, even counts), passes tests on particular simulations.", "anchors": ["logic/model_reporters.py: REPORTER_IDS, ALL_MODEL_REPORTEERS and the reporters", "docs/metrics.md"]}
{"id": "C70", "title": "Columns of the aggregate results of a batch line up", "statement": "In a batch, the header of the aggregate results and every row have the same columns in the same order: the step, each parameter that varies, seed, number and identifier of the run, and the metrics. Parameters with a single value do not appear. Under each column stands the value that the run of that row was given or reported.", "quantifier": "every parameter grid, every number of iterations, every run of the batch, whatever values the metrics have", "why_tests_cant": "Header and rows are computed by different processes, each from its own dictionary; a difference in keys or order for one run of one grid shifts its row, and no error is raised.", "anchors": ["custom_batchrunner.py: _model_run_func, _make_model_kwargs", "logic/helper.py: write_to_csv"]}
{"id": "C71", "title": "The batch script runs every combination of the values given", "statement": "batch-run.py runs one simulation for each combination of the values given for its options, with the default for options left out, and no others; all of them with the seed given, or one drawn once.", "quantifier": "every command line of batch-run.py, with any number of values per option, and every seed drawn", "why_tests_cant": "The combinations are unbounded and an option that is dropped, or one that takes no part in the product, only shows when it is given.", "anchors": ["batch-run.py", "custom_batchrunner.py: custom_batch_run, _make_model_kwargs"]}
{"id": "C72", "title": "Seeds make executions repeatable", "statement": "Two executions with the same command line and the same seed give the same files and the same final state. An execution that was started without a seed can be repeated by giving the seed that it recorded, and any execution can be repeated from the arguments it saved.", "quantifier": "every command line, every state of the random generators, every machine", "why_tests_cant": "Whether a draw comes from the seeded generator or from another source shows only in some executions; no finite set of repeated executions excludes it.", "anchors": ["logic/sim.py: Simulation.__init__, export_args_file, export_initial_state_desc_file, initialize_agents", "logic/helper.py: read_args_from_file", "main.py", "docs/configuration.md: --seed, --input_from_file"]}
{"id": "C73", "title": "A move touches only what belongs to the mover", "statement": "When one agent is activated, the pools of all other agents stay in operation with the same identifier, operator, cost, pledge, margin and private flag, no pool is opened in another agent's name, and every delegation between two other agents stays as it is; the stake of such a pool changes by exactly what the mover adds or withdraws. Another agent keeps its profile, stake and cost; it gets no new delegation, and it loses one only if that delegation went to a pool of the mover that the mover has closed or made private.", "quantifier": "every accepted configuration with sequential or random activation, every state between two activations of a run, every agent activated in it, every enumeration order of sets, every arithmetic with a total preorder", "why_tests_cant": "A move evaluates hypothetical strategies on shared pool objects and undoes the changes, then edits pools and strategies of several agents; a test sees the absence of side effects only in the states it reaches.", "anchors": ["logic/stakeholder.py: Stakeholder.step, update_strategy, execute_strategy, open_pool, update_pool, close_pool, calculate_expected_utility, find_delegation_move", "logic/pool.py: Pool.update_delegation"]}
{"id": "C74", "title": "Operators, pool ids and stakes under every activation order", "statement": "Whichever activation order is used, also the simultaneous ones: the active pools are listed under distinct ids, each under its own; an agent counts a pool among its own exactly if the pool is active and names that agent as its operator; no agent ever operates more pools than the largest k of the run; an id is used by one operator for one uninterrupted period and never again after its pool has closed; and no agent's pledges and delegations together exceed its stake.", "quantifier": "every accepted configuration, all four activation orders (also changed between phases), every state between two activations of a run, every enumeration order of sets, every arithmetic (the last part: exact arithmetic, non-negative stakes)", "why_tests_cant": "Under simultaneous activation agents prepare strategies on copies of pools and carry them out after others have acted; how the prepared copies and the registered pools interleave depends on every agent's choices in every round.", "anchors": ["logic/stakeholder.py: Stakeholder.step, advance, execute_strategy, open_pool, update_pool, close_pool, find_operator_move, determine_stake_allocations", "logic/activations.py: SemiSimultaneousActivation", "logic/sim.py: Simulation.step, change_phase"]}
{"id": "C75", "title": "Pool rankings under every activation order", "statement": "Whichever activation order is used, also the simultaneous ones: at every moment the desirability ranking and the myopic ranking that agents consult contain every active pool exactly once, no pool that has closed or is only proposed, and the placeholders, in the order of the pools' present values; pools proposed in a prepared strategy are separate objects with the proposing agent as operator, so preparing a move never changes an active pool's terms.", "quantifier": "every accepted configuration, all four activation orders (also changed between phases), every state between two activations of a run, every enumeration order of sets, every arithmetic with a total order on its values", "why_tests_cant": "The lists stay sorted only if every change of a pool removes and re-inserts the right object at the right moment; with prepared copies carried out later, the object that must be removed depends on the whole interleaving.", "anchors": ["logic/sim.py: Simulation.__init__ (pool_rankings, pool_rankings_myopic), change_phase, pool_comparison_key_myopic", "logic/stakeholder.py: Stakeholder.execute_strategy, open_pool, update_pool, close_pool, determine_stake_allocations", "logic/activations.py: SemiSimultaneousActivation", "logic/helper.py: pool_comparison_key"]}
{"id": "C76", "title": "Pools are worth having under every activation order", "statement": "Whichever activation order is used, also the simultaneous ones, at any moment of a single-phase run: if no agent is myopic, every pool in operation has a positive potential profit (it would earn more than its cost if it were saturated). If there are myopic agents, every public pool has one, and a pool without one is private and belongs to a myopic agent for whom no number of pools from 1 to k pays.", "quantifier": "every configuration with one phase, positive stakes, k >= 1, a0 >= 0 (CIP-50: a0 > 0) and any mix of profiles, costs of any sign, all four activation orders, every state between two activations of a run, every random choice, every enumeration order of sets", "why_tests_cant": "A move prepared in one state is carried out in another one, after other agents' updates have been lost or overwritten; that no prepared pool has become worthless has to hold for every interleaving.", "anchors": ["logic/stakeholder.py: Stakeholder.update_strategy, find_operator_move, find_delegation_move, execute_strategy", "logic/stakeholder_profiles.py: NonMyopicStakeholder", "logic/activations.py: SemiSimultaneousActivation", "logic/helper.py: calculate_potential_profit"]}
{"id": "C77", "title": "The reward the machine computes", "statement": "calculate_pool_reward evaluated with Python floats (binary64) on finite inputs far from overflow never fails, is finite and never negative, differs from the formula over the real numbers by at most 2^-48 of the stake that counts, never decreases when stake is added, does not change above saturation, and the rewards of any number of pools holding at most the whole stake add up to at most 1 + 2^-48 (+ 2^-600 per pool). Literally 'reward <= stake' (C01) does not hold for floats: it can be exceeded by one unit in the last place.", "quantifier": "every runnable scheme, every finite double a0 in [0, 2^400], saturation threshold in [2^-400, 1] (in particular 1/k for every integer 1 <= k <= 2^53), pledge and stake in [0, 2^400], every list of pools", "why_tests_cant": "There are about 2^62 doubles per argument; a rounding error that breaks monotonicity or the budget may show up at any of them.", "anchors": ["logic/reward_schemes.py:*.calculate_pool_reward", "logic/reward_schemes.py:RSS.k", "logic/helper.py:calculate_pool_reward"]}
{"id": "C78", "title": "The division of a reward the machine computes", "statement": "With Python floats, for margin and shares between 0 and 1: a delegator's reward is finite and never negative; the operator bears the whole loss, and of a profit receives a non-negative part that never exceeds the profit (exactly, in spite of rounding); both agree with the formulas over the reals up to 2^-49 of the profit; if the shares add up to one, all payouts together differ from the profit by at most that much per payee; the margin computed for a target is between 0 and 1, and 0 if the target is the whole potential profit or more; a desirability is never negative and never above the potential profit.", "quantifier": "every finite double margin, share in [0,1], cost, reward, target in [0, 2^400], any number of delegators", "why_tests_cant": "There are about 2^62 doubles per argument, and any number of delegators.", "anchors": ["logic/helper.py:calculate_delegator_reward_from_pool", "logic/helper.py:calculate_operator_reward_from_pool", "logic/helper.py:calculate_suitable_margin", "logic/helper.py:calculate_pool_desirability"]}
{"id": "C79", "title": "The web interface shows the simulation", "statement": "Starting the web interface serves a simulation with the settings of the page. Every message from the page is answered whatever the positions of the sliders and the messages before; 'get_step' makes one round of the simulation until it has stopped, and the charts show the number of pools, the stake per agent and the pools of the collected state; 'reset' starts a new simulation with the current settings.", "quantifier": "every sequence of messages (steps, resets, submitted values, including values out of range), every random sample and order of activation", "why_tests_cant": "A session may consist of any number of messages in any order; a test clicks through a few of them.", "anchors": ["interactiveViz/runViz.py:server", "interactiveViz/runViz.py:model_params", "interactiveViz/myModularVisualization.py:MySocketHandler.on_message", "interactiveViz/myModularVisualization.py:MyModularServer.reset_model", "interactiveViz/bubbleChartModule.py:render", "interactiveViz/stackedChartModule.py:render", "interactiveViz/myChartModule.py:render", "logic/sim.py:Simulation.step"]}
{"id": "C80", "title": "The figures of an execution", "statement": "When an execution ends and graphs are wanted, export_graphs does not raise, whatever the options: it saves exactly one figure for each chosen metric except the two that are tables (21 and 27), each to a file of its own. A line chart shows, for every round, the value of the metric in the state after that round, and has one mark per change of parameters, on the line, at the first round of the new phase; the chart of metric 26 has one layer per agent and starts at round 1. The vertical line 'Equilibrium reached' is at the round in which the equilibrium was reached.", "quantifier": "all command lines, environments (random draws, files, orders of enumeration) and executions that end, with any number of phases and rounds", "why_tests_cant": "the number of rounds, phases and metrics is unbounded, and whether data[step] exists for every marked round depends on how the collection of metrics interleaves with phase changes and with the end of the run", "anchors": ["logic/sim.py:Simulation.export_graphs", "logic/sim.py:Simulation.step", "logic/sim.py:Simulation.change_phase", "logic/helper.py:plot_line", "logic/helper.py:plot_stack_area_chart"]}
{"id": "C81", "title": "Truncated stakes and synthetic costs", "statement": "Asked for a Pareto distribution of stake with a positive truncation factor f, generate_stake_distr_pareto returns one stake per agent, each at least the mode, none above 1/f of the total, and leaves a sample that already satisfies this untouched; it returns as soon as the generator gives, once, as many low values in a row as there are agents, and never returns when f exceeds the number of agents. Each generator of costs refuses cost_max < cost_min and otherwise returns one cost per agent, each within [cost_min, cost_max].", "quantifier": "all numbers of agents, bounds, factors and sequences of random draws", "why_tests_cant": "rejection sampling is a loop without a bound over an infinite sequence of draws; whether it ends, and what holds when it does, depends on every draw", "anchors": ["logic/helper.py:generate_stake_distr_pareto", "logic/helper.py:truncate_pareto", "logic/helper.py:generate_cost_distr_unfrm", "logic/helper.py:generate_cost_distr_bands", "logic/helper.py:generate_cost_distr_bands_manual", "logic/helper.py:generate_cost_distr_disparity", "logic/helper.py:generate_cost_distr_nrm"]}
{"id": "C82", "title": "Abstainers stay out", "statement": "An agent with the third profile (Abstainer) takes no part in the game: whatever the activation order, the other agents and the parameters, at no time does it operate a pool, delegate, or plan a move, and no pool names it as its operator or a delegator. Every other agent always has a strategy, so that the status 'Abstainer' of the exported table marks exactly the agents with that profile. What the pools hold together with what the abstainers own never exceeds the stake of all agents, which is at most 1.", "quantifier": "all numbers of agents, assignments of profiles, parameters, activation orders, random choices and states, also those within a round and in later phases", "why_tests_cant": "an invariant of every state of every execution; under simultaneous activation copies of pools made in one state are installed in another, so that what a pool records cannot be read off a single move", "anchors": ["logic/stakeholder_profiles.py:Abstainer", "logic/stakeholder.py:Stakeholder.execute_strategy", "logic/stakeholder.py:Stakeholder.remove_delegations", "logic/pool.py:Pool.update_delegation", "logic/sim.py:Simulation.initialize_agents"]}
{"id": "C83", "title": "The figures of a batch show its runs", "statement": "After a batch, batch-run.py draws one scatter plot for each option with several values and each metric, and, if exactly two options take several values, one heat map per metric. A scatter plot has one point for every run whose metric is not negative, at the run's value of the option and its metric; a heat map has one cell per run, at the run's two values, showing its metric. This does not depend on the order in which the runs end, and no figure overwrites another one.", "quantifier": "all values of the options, all completion orders, all metrics and results of the runs", "why_tests_cant": "The figures depend on every combination of options and on the order in which worker processes finish; tests do not look at figures.", "anchors": ["batch-run.py:81-116", "logic/helper.py:plot_aggregate_data", "logic/helper.py:plot_aggregate_data_heatmap", "custom_batchrunner.py:custom_batch_run"]}
{"id": "C84", "title": "The table of the stakeholders tells who profits from splitting their pool", "statement": "In the table of the stakeholders written at the end of a run, an agent is marked as a profitable pool splitter exactly if each of several equal pools of theirs (with the pledge and the cost that the simulation gives to the pools of a splitter) has a higher potential profit than a single pool with their whole stake; this does not depend on the number of pools, and the column before it is that difference up to the factor (1 + a0) m / (m - 1).", "quantifier": "every table, every row, every number of pools from two on, all reward schemes, stakes, costs and cost fractions", "why_tests_cant": "The column is a closed formula that uses neither the reward scheme nor the number of pools; only a proof for all stakes, costs and numbers of pools shows where it agrees with the profits computed by the simulation.", "anchors": ["logic/sim.py:export_agents_file", "logic/helper.py:calculate_pool_splitting_profit", "logic/helper.py:calculate_potential_profit", "logic/helper.py:calculate_pledge_per_pool", "logic/helper.py:calculate_cost_per_pool"]}
{"id": "C85", "title": "The reward schemes are ordered", "statement": "For the same parameters, pledge and stake, a pool gets at most as much under the Cardano scheme as under the simplified one, and at most as much there as under the flat-pledge-benefit scheme, with equality exactly if a0 is zero, the pledge is zero or the pool is saturated. The potential profit of a pool is the same under the three. The CIP-50 scheme is neither above nor below them.", "quantifier": "every saturation threshold > 0, every a0 >= 0, every non-negative pledge, every stake", "why_tests_cant": "An order between functions of real parameters, with an exact condition for equality, cannot be established on samples.", "anchors": ["logic/reward_schemes.py:CardanoRSS", "logic/reward_schemes.py:SimplifiedRSS", "logic/reward_schemes.py:FlatPledgeBenefitRSS", "logic/reward_schemes.py:CIP50RSS", "logic/helper.py:calculate_potential_profit"]}
{"id": "C86", "title": "Only the proportions of the sampled stakes matter", "statement": "Multiplying all sampled stakes by the same positive number leaves the initial state of the simulation (and with it everything that follows) unchanged, whatever the inactive stake fraction.", "quantifier": "every command line, every list of stakes and costs, every positive factor", "why_tests_cant": "Quantifies over all distributions and all factors; the exception is a single value of the sum that samples do not hit.", "anchors": ["logic/sim.py:Simulation.initialize_agents", "logic/sim.py:Simulation.normalize_agent_stake"]}
{"id": "C87", "title": "Without influence of the pledge the choice between three reward schemes makes no difference", "statement": "If all values of a0 are zero, running the simulation with reward scheme 0, 1 or 2 on the same input gives the same result: the same error, or the same final state, the same data of every round, the same exported states, rounds, phases and equilibria, up to the name of the scheme.", "quantifier": "every command line with a0 = 0 in all phases and positive k, every profile, stake and cost list, every schedule and every enumeration of the sets", "why_tests_cant": "Relates two whole runs, of any length and with any number of phases, for every schedule.", "anchors": ["logic/reward_schemes.py:CardanoRSS", "logic/reward_schemes.py:SimplifiedRSS", "logic/reward_schemes.py:FlatPledgeBenefitRSS", "logic/sim.py:Simulation.__init__", "logic/sim.py:Simulation.run_model", "logic/sim.py:Simulation.step", "logic/stakeholder.py"]}
{"id": "C88", "title": "A myopic agent settles on a number of pools that pays, if any does", "statement": "At any moment of a single-phase run under any activation order, if there is some number of pools from 1 to k with which a myopic agent's pools would have a positive potential profit, then every pool in the operator strategy the agent comes up with has a positive potential profit. (The agent looks for the number of pools by bisection, comparing neighbouring numbers by utilities whose margins come from its current profit, not from the potential profit.)", "quantifier": "every configuration with one phase, positive stakes, k >= 1, a0 >= 0 (CIP-50: a0 > 0), any mix of profiles, costs of any sign, every state of a run, all activation orders, every myopic agent", "why_tests_cant": "The agent compares neighbouring numbers of pools by a utility that depends on all the other pools and on the stake delegated to it; that this bisection never drops the profitable numbers depends on the shape of the profit in the number of pools for all stakes and costs.", "anchors": ["logic/stakeholder.py:Stakeholder.choose_pool_strategy", "logic/stakeholder.py:Stakeholder.find_operator_move", "logic/stakeholder_profiles.py:MyopicStakeholder.calculate_margins_and_utility", "logic/helper.py:calculate_potential_profit", "logic/helper.py:calculate_pledge_per_pool", "logic/helper.py:calculate_cost_per_pool"]}
{"id": "C89", "title": "The number of pools an operator settles on is the best one", "statement": "When an agent works out an operator strategy, the number of pools in it has the highest utility, by the agent's own calculation, of all numbers from 1 to k. (The code's documentation claims this: 'the utility of an agent as a function of the number of pools to operate has only one local max'.)", "quantifier": "every configuration with positive stakes, k >= 1, a0 >= 0 (CIP-50: a0 > 0), one phase or phases that relax the parameters, agents activated one at a time, every state of a run, every agent that is not an abstainer", "why_tests_cant": "Whether the utility has several local maxima depends on the stakes, the costs and all pools in operation; a test sees only the states it happens to visit.", "anchors": ["logic/stakeholder.py:Stakeholder.choose_pool_strategy", "logic/stakeholder_profiles.py:NonMyopicStakeholder.calculate_margins_and_utility", "logic/stakeholder_profiles.py:MyopicStakeholder.calculate_margins_and_utility"]}
{"id": "C90", "title": "The margin an agent works out for a pool guarantees its desirability", "statement": "calculate_margin(pool) of an agent that is not an abstainer returns a margin between 0 and 1 for any pool, 0 for a private one. For a non-myopic agent and a public pool with a positive potential profit, the pool with this margin is exactly as desirable as the potential profit of the pool in the k-th place by desirability (0 if there is none), or the margin is 0 if the pool cannot reach that. By the documentation the margin is non-zero only if the pool ranks in the top k.", "quantifier": "every configuration with positive stakes, k >= 1, a0 >= 0 (CIP-50: a0 > 0), one phase or phases that relax the parameters, agents activated one at a time, every state of a run, every agent that is not an abstainer, every pool object", "why_tests_cant": "Which pool is in the k-th place depends on the whole history of the run; the unit test builds five pools by hand and compares four margins.", "anchors": ["logic/stakeholder.py:Stakeholder.calculate_margin", "logic/helper.py:calculate_suitable_margin", "logic/sim.py:Simulation.pool_comparison_key"]}
{"id": "C91", "title": "Reported figures under every activation order", "statement": "Whatever the activation order, no metric raises in a state between two steps. The Nakamoto coefficient is the least number of agents whose pools hold more than half of the stake in pools; pledge rate and homogeneity are in (0, 1] when there are pools, 1 exactly if nobody delegates or if all pools have the same stake; margins average within [0, 1]; the total pledge is at most the stake in pools; the ranks are those of the operators; the stakes per agent add up to the stake in pools. The stake in pools is at most the stake of the agents.", "quantifier": "every configuration of one phase with positive stakes, k >= 1, a0 >= 0 (CIP-50: a0 > 0), every mix of agents, every activation order and schedule, every state of a run, every metric", "why_tests_cant": "Under the simultaneous orders pools and agents disagree about delegations after some histories, so that a report could divide by zero or look up an operator that does not exist; the unit tests build a few consistent pools by hand.", "anchors": ["logic/model_reporters.py:ALL_MODEL_REPORTEERS", "logic/model_reporters.py:get_nakamoto_coefficient", "logic/model_reporters.py:get_pledge_rate", "logic/model_reporters.py:get_homogeneity_factor", "logic/model_reporters.py:get_total_delegated_stake", "logic/model_reporters.py:get_pool_stakes_by_agent", "logic/activations.py:SemiSimultaneousActivation"]}
{"id": "C92", "title": "What a pool holds under every activation order", "statement": "Whatever the activation order and the phase, a pool's pledge is between 0 and the stake of its operator, and every delegation it lists is positive, of an agent other than its operator, and no more than the stake of that agent. No agent delegates to a pool of its own, in its present strategy or in one it has prepared. Hence no pool holds more than all agents have together (at most 1), and the stake reported as delegated is at most the number of pools times the stake of the agents.", "quantifier": "every configuration with nonnegative stakes and inactive stake in [0, 1), every number of phases, every mix of agents, every activation order, schedule and order of sets, every state between two moves", "why_tests_cant": "Under the simultaneous orders a pool may keep delegations its delegators have withdrawn (C25), so the books of the pools cannot be checked against the agents; only an invariant of all histories bounds them.", "anchors": ["logic/stakeholder.py:determine_stake_allocations", "logic/stakeholder.py:execute_strategy", "logic/stakeholder.py:find_operator_move", "logic/pool.py:update_delegation", "logic/activations.py:SemiSimultaneousActivation", "logic/model_reporters.py:get_total_delegated_stake"]}
{"id": "C93", "title": "The rewards of an epoch under every activation order", "statement": "Whatever the activation order and the phase, the reward of every pool is defined, is at least 0 and at most the stake the pool holds, the saturation threshold and 1; all rewards together are at most the stake reported as delegated and at most the number of pools times the threshold. The rewards together, and the incomes of all agents together, are at most the epoch's total of 1.", "quantifier": "every configuration with nonnegative stakes, inactive stake in [0, 1), positive target numbers of pools and nonnegative a0 in every phase, every mix of agents, every activation order, schedule and order of sets, every state between two moves", "why_tests_cant": "The bounds rest on an invariant of the pools' books over all histories; the excess over the total needs a particular mix of agents under a simultaneous order.", "anchors": ["logic/reward_schemes.py:RSS.calculate_pool_reward", "logic/reward_schemes.py:CardanoRSS", "logic/activations.py:SemiSimultaneousActivation", "logic/stakeholder.py:execute_strategy", "logic/sim.py:Simulation.update_parameters"]}
{"id": "C94", "title": "The books of the pools in the arithmetic of the machine", "statement": "Computed with binary64 numbers, as the program does: every pool of a run starts with a stake equal to its pledge, and changes it only by setting a delegation (to nothing or at least the smallest unit) or by changing the pledge. Each such change moves the recorded stake by at most 2^-50 away from the exact sum of the pledge and the delegations on record. The recorded stake is never below the pledge, and an agent that considers its options and keeps its strategy leaves the stakes of all pools as they are.", "quantifier": "every configuration, every activation order, schedule and order of sets, every state between two moves; for the bound, every run whose agents start with finite stakes that are not negative and add up to at most 9/8, and every pool that has changed at most 2^47 times", "why_tests_cant": "Rounding errors depend on the whole history of a pool; the unit tests compare a few sums of small decimals.", "anchors": ["logic/pool.py:Pool.update_delegation", "logic/pool.py:Pool.__init__", "logic/stakeholder.py:Stakeholder.find_operator_move", "logic/stakeholder.py:Stakeholder.determine_stake_allocations"]}
{"id": "C95", "title": "The stakes agents start with, in the arithmetic of the machine", "statement": "With n input stakes that are finite, not negative and have a total between 2^-900 and 2^900, computed with binary64 numbers: without inactive stake each agent starts with its part of the total within n*2^-48, all parts are finite and add up to 1 within n*2^-48, and no agent starts with a negative stake. With an inactive fraction f of at most 1 - 2^-20 either the agents start with the input stakes, whose total is then 1 - f within n*2^-48, or each agent starts with its part of 1 - f, the last one with f in addition, each within n*2^-48.", "quantifier": "every configuration, every inactive fraction up to 1 - 2^-20, every list of at most 2^40 input stakes, one per agent", "why_tests_cant": "Division by the total and the correction of the last agent round differently for every list of stakes.", "anchors": ["logic/sim.py:Simulation.__init__", "logic/sim.py:Simulation.normalize_agent_stake"]}
{"id": "C96", "title": "No round divides by zero, in the arithmetic of the machine", "statement": "With binary64 numbers, finite positive stakes and costs, k at least 1 and a0 not negative, no round fails because a pool with a positive pledge has the stake 0: the rewards of its operator and its delegators are always defined.", "quantifier": "every configuration whose agents start with finite stakes that are not negative and add up to at most 9/8, every activation order and order of sets, every state between two moves, every active pool and agent", "why_tests_cant": "Whether the stake of a pool is rounded to 0 depends on everything that was delegated to it and withdrawn from it before.", "anchors": ["logic/pool.py:Pool.update_delegation", "logic/helper.py:calculate_operator_utility_from_pool", "logic/helper.py:calculate_delegator_utility_from_pool", "logic/stakeholder.py:Stakeholder.calculate_current_utility", "logic/reward_schemes.py"]}
{"id": "C97", "title": "What pools are paid in a run, in the arithmetic of the machine", "statement": "With binary64 numbers, in every run and at every point: every pool is paid a finite reward that is not negative, and a pool that has changed n times (n <= 2^47) is paid at most what it holds (its pledge and the delegations it lists, up to n*2^-50) and at most the saturation threshold, both up to a factor of 1 + 2^-48 (and 2^-600).", "quantifier": "every configuration whose agents start with finite stakes that are not negative and add up to at most 9/8, every scheme with finite a0 in [0, 2^400] and threshold in [2^-400, 1], every activation order and order of sets, every state between two moves, every active pool", "why_tests_cant": "The recorded stake from which the reward is computed carries the rounding errors of everything delegated to the pool and withdrawn from it before.", "anchors": ["logic/reward_schemes.py:*.calculate_pool_reward", "logic/pool.py:Pool.update_delegation", "logic/stakeholder.py:Stakeholder.execute_strategy", "logic/sim.py:Simulation.step"]}
{"id": "C98", "title": "Margins and desirabilities in a run, in the arithmetic of the machine", "statement": "With binary64 numbers, in every run and at every point, whatever has been rounded, has overflowed or has underflowed: the margin of every active pool is between 0 and 1, ends included, its desirability is not negative (either may be NaN instead), and the potential profit and the desirability a pool remembers are bit for bit the ones computed from its current pledge, cost and margin and the current parameters.", "quantifier": "every configuration and every list of binary64 stakes and costs, huge, tiny, infinite or negative ones included, agents acting one at a time, every activation order and order of sets, any number of phases, every state between two moves, every active pool", "why_tests_cant": "A margin is one minus a quotient of two computed numbers, the second of which can be arbitrarily small; that no combination of roundings and overflows leads outside [0, 1] depends on where the targets come from in all earlier moves of all agents.", "anchors": ["logic/helper.py:calculate_suitable_margin", "logic/helper.py:calculate_pool_desirability", "logic/stakeholder.py:Stakeholder.calculate_margins_and_utility", "logic/stakeholder.py:Stakeholder.update_pool", "logic/pool.py:Pool.set_profit", "logic/sim.py:Simulation.step"]}
{"id": "C99", "title": "The margin for a target, in the arithmetic of the machine", "statement": "With binary64 numbers: for every potential profit pp in (0, 2^400] and every target in [0, pp], the margin calculate_suitable_margin returns is between 0 and 1, and the desirability of a pool with that margin and profit differs from the target by at most about 2^-51 times pp. A pool whose profit, at most 2^30, reaches the desirability of a rival plus 1e-6 (the target operators set themselves) is strictly more desirable than the rival once it takes the margin for that target. The target itself is always reached, and the rival is always outdone, whatever the size of the profit.", "quantifier": "all finite binary64 numbers in the stated ranges: profits, targets, desirabilities of rivals", "why_tests_cant": "Four roundings in a row, among them one after a cancellation, for every pair of binary64 numbers; whether 1e-6 outweighs them depends on their sum.", "anchors": ["logic/helper.py:calculate_suitable_margin", "logic/helper.py:calculate_pool_desirability", "logic/stakeholder_profiles.py:NonMyopicStakeholder.calculate_margins_and_utility", "logic/stakeholder_profiles.py:MyopicStakeholder.calculate_margins_and_utility"]}
{"id": "C100", "title": "Dividing stake and cost over pools, in the arithmetic of the machine", "statement": "With binary64 numbers and any number n of pools from 1 to 2^53: calculate_pledge_per_pool returns a finite pledge between 0 and the saturation threshold; unless it is the threshold, n times the pledge is the stake up to a relative error of 2^-53; the n pledges and what the operator has left to delegate (stake - pledge*n, if positive) together are the stake up to a relative error of 3*2^-53; n times the result of calculate_cost_per_pool is the cost of the first pool plus the fraction of it for each further pool, up to a relative error of 5*2^-53 (all up to the smallest positive numbers). The pledges together never exceed the stake.", "quantifier": "all finite binary64 stakes, costs and fractions from 0 to 2^400, all thresholds that are not negative, all n from 1 to 2^53", "why_tests_cant": "Every quotient and product is rounded; the sums of n equal rounded numbers have to be bounded for all n at once.", "anchors": ["logic/helper.py:calculate_pledge_per_pool", "logic/helper.py:calculate_cost_per_pool", "logic/stakeholder.py:Stakeholder.find_delegation_for_operator", "logic/stakeholder.py:Stakeholder.find_operator_move"]}
{"id": "C101", "title": "Delegations of one move, in the arithmetic of the machine", "statement": "With binary64 numbers: when an agent divides a stake over eligible pools, every delegation is finite and not negative; together the delegations are at most the stake plus one rounding error (2^-53 of the stake) for each delegation; and they are at least the stake minus these errors and the smallest unit of stake, unless every eligible pool has got a delegation. Each delegation is at least the smallest unit and fits into the room its pool has left, except that the best-ranked full pool may get the rest. The delegations together never exceed the stake.", "quantifier": "all reward schemes, all lists of eligible pools with distinct ids (whatever their stakes and pledges, infinities and NaN included), all finite stakes from the smallest unit to 2^400", "why_tests_cant": "The remaining stake is rounded after each pool; the errors have to be added up for any number of pools with arbitrary room.", "anchors": ["logic/stakeholder.py:Stakeholder.determine_stake_allocations", "logic/helper.py:MIN_STAKE_UNIT"]}
{"id": "C102", "title": "What an agent pledges and delegates in a run, in the arithmetic of the machine", "statement": "In every state a run with binary64 numbers passes through, each agent's delegations are finite and not negative, and the pledges of its pools plus its delegations are at most its stake, up to a relative error of (N + 3) * 2^-53 where N is the number of pools opened so far in the run (and 2*(N + 1) times the smallest rounding unit). All active pools together hold at most the stake of all agents, up to the same errors. No agent's pledges and delegations ever exceed its stake.", "quantifier": "all runs with one activation at a time (sequential or random), any number of phases, rounds and pools up to 2^53, all initial stakes that are finite, not negative and add up to at most 9/8; all reachable states, also between two activations", "why_tests_cant": "It has to hold after any number of moves by any agents, with a rounding error in every pledge and every delegation.", "anchors": ["logic/stakeholder.py:Stakeholder.update_strategy", "logic/stakeholder.py:Stakeholder.execute_strategy", "logic/stakeholder.py:Stakeholder.determine_stake_allocations", "logic/helper.py:calculate_pledge_per_pool"]}
{"id": "C103", "title": "What all pools are paid together in a run, in the arithmetic of the machine", "statement": "In every state a run with binary64 numbers passes through, if every active pool has changed at most D times (D <= 2^47) and records a stake that is not negative or has a pledge of at least D * 2^-50, then the reward of every active pool is a finite number, and together the rewards are at most (1 + 2^-48) times the stake of all agents, up to a relative error of (N + 3) * 2^-53 of that stake (N pools opened so far), 2*(N + 1) times the smallest rounding unit for each agent, D * 2^-50 for each active pool, and 2^-600 for each active pool. In particular, with up to 2^30 agents, pools opened and changes of active pools, the rewards of an epoch exceed the epoch's total reward by at most 2^-17.", "quantifier": "all runs with one activation at a time, any number of phases, rounds and pools up to 2^53, all initial stakes that are finite, not negative and add up to at most 9/8, every scheme with finite a0 in [0, 2^400] and threshold in [2^-400, 1]; all reachable states, also between two activations; all D", "why_tests_cant": "The total is over any number of pools, each with a recorded stake that carries the rounding errors of its whole history, and over agents that each may have rounded their pledges and delegations up.", "anchors": ["logic/reward_schemes.py:*.calculate_pool_reward", "logic/pool.py:Pool.update_delegation", "logic/stakeholder.py:Stakeholder.execute_strategy", "logic/sim.py:Simulation.step"]}
