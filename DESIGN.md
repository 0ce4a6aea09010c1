# Formal model of the Rewards Sharing Simulation Engine in Rocq (Coq 8.16.1)

`properties.jsonl` lists 103 properties, `MANIFEST.json` says which theorems settle each of them, `seeded/LOG.jsonl` records the wrong
programs against which the theorems were tested, and `rocq/theories` holds the model and the proofs.

## 1. What is modelled and how

The Python code is modelled function by function as total, computable Gallina functions. Each definition cites the file and the lines
it models, and says what it simplifies.

* **Numbers.** All model functions are parametric in a record `Arith` (carrier, `+ - * /`, comparisons, `fsum`,
  integer conversions, the literals `MIN_STAKE_UNIT` and `boost`). Instances:
  * `QcA`, exact rationals (Leibniz equality, computable): numeric theorems are about this instance;
  * `FloatA`, IEEE-754 binary64 through Coq's primitive floats: used to run the model on the numbers Python uses, and to refute
    statements that only hold in exact arithmetic;
  * `FloatI`, binary64 with the comparisons of the machine, `ExactR`, the reals, and `RoundR`, the reals with rounding after each operation:
    C77 and C78 bound the distance between rewards computed by the machine and the formulas, C94 that between the stake a pool records and what it holds, C95 that between the stakes agents
    start with and their parts of the total. `sum` adds from left to right, as in Python up to 3.11 (later versions compensate rounding errors).

  Structural theorems (bookkeeping, rankings, ids, termination) are proved for *every* `Arith` whose comparison is a total preorder, hence
  do not depend on exactness. `FloatOrd.v` shows that binary64 is such an arithmetic, with NaN put above everything;
  `FloatRun.v` runs the model in binary64, and shows that the exact theorems on amounts (C14) hold there up to rounding only.
* **Exceptions.** A computation returns `Ok x` or `Err e` (`KeyError`, `IndexError`, `ValueError`, `ZeroDivisionError`,
  `AttributeError`, `TypeError`, ...). Division goes through a checked operation. Loops without a syntactic bound use fuel and return
  `Err OutOfFuel`; `Ends.v` and `PropSearch.v` prove that this is never returned.
* **Objects.** Pools are mutable Python objects shared between `model.pools`, the rankings and the strategies, and copied by
  `deepcopy`. They live in a heap indexed by references; dictionaries are insertion ordered association lists. A reference to an object
  that does not exist would give `Err Dangling`, which the theorems about the absence of exceptions exclude.
* **Nondeterminism.** Set iteration order, the shuffles and samples of the schedulers, the completion order of worker processes, the
  interleaving of file operations and the crash points of file writes are universally quantified parameters.
* **Runs.** `Reach.v` defines which states a run goes through: all states between rounds (`reach`) and all states between two activations
  within a round (`visible`), from any arguments accepted by the constructor, with any shuffles, over any number of rounds and phases.

## 2. The properties

"Status" is the status in `MANIFEST.json`. "partial" mostly means that the property as stated is false of the code: the part that holds is
proved and a concrete counterexample is proved as a `..._refuted` theorem (section 3).

| id | property | what is modelled | method of proof | files | status |
|----|----------|------------------|-----------------|-------|--------|
| C01 | Pool reward is bounded by pool stake | `calculate_pool_reward` of schemes 0, 1, 2, 4 over `Qc` | case analysis on the scheme, nonlinear arithmetic | PropRewards | proved |
| C02 | Epoch budget is never exceeded | the same, summed over a list of pools; the pools of every reachable state | induction over the list; conservation of stake (C16, C56) | PropRewards, PropBudget | proved |
| C03 | Reward is monotone in stake and flat above saturation | the same as a function of the stake | case analysis, monotonicity of each factor; flatness above the threshold | PropRewards | proved |
| C04 | Potential profit rewards pledge | `calculate_potential_profit` | case analysis; concrete counterexample for the reward of unsaturated pools | PropRewards | proved |
| C05 | Reward split is exact | operator and delegator rewards of one pool | field, induction over the delegators | PropRewards | proved |
| C06 | Delegators never pay | delegator reward and utility | case analysis on reward <= cost | PropRewards | proved |
| C07 | Setting k keeps the saturation threshold consistent | the setter of `k` as a state transformer on the scheme object | induction over the list of assignments | PropRewards | proved |
| C08 | Suitable margin hits its target | `calculate_suitable_margin`, `calculate_pool_desirability` | field, order reasoning | PropRewards | proved |
| C09 | Splitting stake and cost over pools is conservative | `calculate_pledge_per_pool`, `calculate_cost_per_pool` | algebra and case analysis on the number of pools | PropRewards | proved |
| C10 | calculate_ranks is a ranking | `calculate_ranks` with any tie-breaking dictionaries | permutation and sortedness of the sort; ranks characterised by an iff | PropHelper | proved |
| C11 | find_target_pool returns the marginal pool | the loop of `find_target_pool` | induction, prefix characterisation | PropHelper | proved |
| C12 | Memoisation is transparent | `functools.lru_cache` as a list with eviction, any function, any size | invariant "entries are correct", induction over the calls | PropHelper | proved |
| C13 | Pool rankings are complete and sorted | `SortedKeyList` with stored keys, all state changes | global invariant over every reachable state | PropState | proved |
| C14 | Pool stake is pledge plus delegations | heap of pool objects, `update_delegation` and everything that calls it | invariant per pool object; a second one for every activation order | PropExact, PropSimul | proved |
| C15 | Delegations are recorded identically on both sides | `execute_strategy`, `open_pool`, `close_pool`, `update_pool` | global two-sided invariant | PropState | proved |
| C16 | No agent spends stake twice | the same | invariant plus exchange of sums over agents and pools | PropExact | proved |
| C17 | Private pools and own pools receive no delegation | the same, `find_delegation_move` | invariant | PropState, PropExact | proved |
| C18 | Delegation move is greedy and feasible | `determine_stake_allocations` | loop invariant over the two rankings; optimality stated on amounts | PropMove | proved |
| C19 | Considering a move has no side effects | the whole `update_strategy` | frame lemma: withdrawing and restoring a delegation cancels | PropMove | proved |
| C20 | Inertia | the comparison of moves in `update_strategy` | case analysis on the comparison chain | PropMove | proved |
| C21 | Search for the number of pools terminates at a local maximum | the search loop of `choose_pool_strategy` over any utility function | interval invariant, fuel is never exhausted | PropSearch | proved |
| C22 | Pools of one operator are homogeneous | `find_operator_move` | induction over the pools kept and opened; invariant of the state | PropMove | proved |
| C23 | Pool ids are unique | `id_seq` and the registration of pools | invariant and a monotone counter along runs; a computed run for the call of run_model after manual steps | PropState, PropBooks, PropRestart | partial |
| C24 | A single phase run never crashes | a complete round with all exceptions as values | progress proof: every lookup, division and index is shown to succeed from the invariants | PropTotal | partial |
| C25 | Simultaneous activation preserves the bookkeeping | staged moves of simultaneous activation | counterexamples by computation; the part that holds as an invariant | PropSimul | partial |
| C26 | Every agent is activated exactly once per round | event traces of the schedulers with a sampling oracle | induction on the agents that remain | PropSched | proved |
| C27 | Stakes are normalised | `normalize_agent_stake` | induction over the agents, field | PropInit | proved |
| C28 | Inactive stake stays inactive | constructor with inactive stake | computation of the constructor; counterexample | PropInit | partial |
| C29 | A run terminates within the iteration bound | `step`, `run_model` | induction over rounds with a decreasing measure; counterexample | PropRun | partial |
| C30 | Equilibrium is declared only after enough idle rounds | the idle counter | history invariant over rounds; counterexample for later phases | PropRun | partial |
| C31 | A declared equilibrium is stable | evaluation in two states that differ in discarded drafts | bisimulation between the states; induction over activations | PropStable | proved |
| C32 | Known inactive stake inflates k | constructor and `change_phase` | direct; counterexample | PropInit | partial |
| C33 | A phase change keeps the system consistent | `change_phase` | invariant is re-established; counterexample | PropPhase | partial |
| C34 | One metrics row per round | `step` with its data collector | induction over rounds | PropRun | proved |
| C35 | Nakamoto coefficient is minimal | `get_nakamoto_coefficient` | a greedy prefix is minimal among all sets of agents (exchange argument) | PropReporters | proved |
| C36 | Gini coefficient is a Gini coefficient | `gini_coefficient` and its callers | algebraic identity with the mean absolute difference | PropReporters, PropMetrics | proved |
| C37 | Pledge rate and homogeneity are fractions | `get_pledge_rate`, `get_homogeneity_factor` | bounds from the state invariant | PropReporters | proved |
| C38 | Operator statistics agree with each other | operator counts | counting lemmas | PropReporters | proved |
| C39 | Stake reports add up | the stake reports | sums over agents equal sums over pools | PropReporters | partial |
| C40 | Statistical distance is a distance | `get_controlled_stake_distr_stat_dist` | triangle inequality on lists, conservation of stake | PropReporters, PropBudget | proved |
| C41 | Batch run covers the parameter grid | `_make_model_kwargs` and the naming of directories | product characterisation by membership; injectivity of names | PropBatch | proved |
| C42 | Batch results do not depend on worker timing | the collection loop of `custom_batch_run`, any completion order | permutation argument; counterexample | PropBatch | partial |
| C43 | Aggregate file has one header | `write_to_csv` in any number of processes, any interleaving and crash point | small-step semantics of the file system operations, invariant | PropFiles | partial |
| C44 | Sequence numbers are never reused | `read_seq_id`, `write_seq_id` in the same semantics | invariant; counterexamples | PropFiles | partial |
| C45 | Aggregate results describe the final state | `_model_run_func`, `_collect_data` | run invariant plus C31 | PropBatchRun | partial |
| C46 | Numeric argument validators are exact | the validators on ints, decimal strings, rationals, binary64 | case analysis; IEEE comparison axioms for floats | PropHelper | partial |
| C47 | Synthetic stake distributions are distributions | `generate_stake_distr_flat`, `..._disparity`, `generate_cost_distr_disparity` | sums of lists | PropHelper | proved |
| C48 | Every documented reward scheme can be simulated | the constructor of schemes | computation | PropHelper | partial |
| C49 | Curve pledge benefit generalises Cardano | `CurvePledgeBenefitRSS` over any power operator | algebra | PropRewards | proved |
| C50 | Non-myopic stake | `calculate_non_myopic_pool_stake` | rank lemma on sorted lists | PropPools | proved |
| C51 | Keeping pools keeps the best ones | `determine_pools_to_keep` | sortedness of the stable sort | PropPools | proved |
| C52 | The iteration column numbers repetitions | the `iteration` column of batch results | computation | PropBatch | partial |
| C53 | Every job of a batch ends | `_model_run_func` | from C29 | PropBatchRun | proved |
| C54 | Only worthwhile pools are operated | the decision between operating and delegating | comparison of utilities: pools without potential profit lose against delegation | PropTotal | proved |
| C55 | Incomes add up to the rewards | `calculate_current_utility` of all agents | double counting over the two-sided books | PropIncome, PropBudget | proved |
| C56 | Agents keep their identity, profile, stake and cost | agents in `update_strategy`, `execute_strategy`, schedulers, phases | frame invariant for every order | Persons, PropBudget | proved |
| C57 | Pledge, margin and saturation metrics | averages, medians and totals over the pools | induction, specification by `is_mean`, `is_median` | PropMetrics | proved |
| C58 | Rank metrics | rank metrics of operators | the same, with C10 | PropMetrics | proved |
| C59 | Cost efficient stakeholders | `get_cost_efficient_count` | counting; constancy by C56 | PropMetrics | proved |
| C60 | Margins that bring pools into the top k | `calculate_margins_and_utility` of non-myopic agents | order reasoning on desirabilities; counterexample | PropTopK | partial |
| C61 | The exported tables agree with the state | the export functions of `sim.py` | agreement of every cell with the state | PropExport | proved |
| C62 | Moves of myopic agents pay | `update_strategy`, `execute_strategy`, `calculate_current_utility` of a myopic agent | the pools after execution are the pools the estimate was made on; a fold over the strategy; counterexample for non-myopic agents | PropForesight | proved |
| C63 | Relaxing the parameters between phases is safe | `change_phase`, `step`, `run_model` with several phases | induction over the run: the values still listed relax the ones in force; potential profit is monotone in the threshold and the pledge influence, so no pool becomes worthless; totality of every phase change and round | PropTotal | proved |
| C64 | Accepted command lines run to the end | `main.py`, the argument parser, the sources of stake, cost and profiles, the constructor, `run_model`, `wrap_up_execution` | what parsing accepts meets the hypotheses of C24 and C63; the loop with metrics and files refines the loop of C29; concrete command lines for the refutation | PropMain | partial |
| C65 | No metric raises | all reporters by number | combination of the totality parts of C35–C40 and C57–C59 | PropMain | proved |
| C66 | A run under simultaneous activation never crashes | both simultaneous activation orders; for the partial theorems all events of a run without any assumption on the order or the profiles | counterexample found by running the extracted model on random configurations and replayed in Coq; invariant of all events with the errors they may raise (AnyTotal.v, on top of AnyBooks.v and AnyRank.v). AttributeError is excluded because every pool an agent can see has a positive potential profit; for myopic agents this needs that the number of pools they settle on pays if any number does, which follows from the concavity of the profit in the number of pools (Concave.v) | PropSimul, PropAnyTotal | partial |
| C67 | Each execution gets its own output folder | the sequence file and the making of the output folder by the constructor and by the batch runner | invariant over every interleaving; induction over executions that start one after another; a two-process counterexample | PropFolder | partial |
| C68 | Command-line options mean what the documentation says | the argument parser | equivalence with a table of ranges and defaults; concrete command lines for the refutations | PropOptions | partial |
| C69 | Metric numbers report the documented quantities | the table of reporters by number, all thirty reporters, the optimisation problem of metric 11 | one row per documented metric, from C35–C40 and C57–C59; exhaustive search as a solver for the counterexample | PropDocs | partial |
| C70 | Columns of the aggregate results of a batch line up | parameter grid, merging of dictionaries, header and row of the aggregate results | keys of the merged dictionary computed for every job; same filter on header and row | PropScript | proved |
| C71 | The batch script runs every combination of the values given | the options of batch-run.py and the grid they become | from C41: a job for each cell of the grid, values by position; refutation for the option that is dropped | PropScript | partial |
| C72 | Seeds make executions repeatable | main with and without --input_from_file, with the seeded and the unseeded generator kept apart | two executions compared step by step; two runs of the model with different orders of activation for the refutations | PropSeed | partial |
| C73 | A move touches only what belongs to the mover | the activation of one agent: evaluation, execution of the chosen strategy | invariant of the loops of execute_strategy, extended by what they keep; the evaluation leaves the fixed data of pools alone; delegations are compared through the books of both sides | PropFrame | proved |
| C74 | Operators, pool ids and stakes under every activation order | all functions of an activation, without any assumption on the order; prepared strategies are part of the state | invariant of all events (AnyBooks.v): every pool object ever made has one operator per id, every present and prepared strategy refers to own objects, the register is the union of the present strategies; a relation between successive states for ids in use, prepared or used up | PropBooks | proved |
| C75 | Pool rankings under every activation order | all functions of an activation, without any assumption on the order; rankings are the sorted lists of keys and objects | invariant of all events (AnyRank.v, on top of AnyBooks.v): both rankings are sorted by the current keys and hold the registered objects; objects of prepared strategies are not registered; an update removes exactly the registered version of the pool | PropRank | proved |
| C76 | Pools are worth having under every activation order | all events of a run, in any order, with any profiles | invariant fine (AnyTotal.v): all pools of an agent have a potential profit of the same sign, those without are private, and non-myopic agents delegate only to owners who thrive | PropAnyTotal | proved |
| C77 | The reward the machine computes | reward schemes, run on binary64 (FloatI), on reals rounded after each operation (RoundR) and on reals (ExactR) | Flocq relates the primitive floats to rounded real arithmetic (Binary64.v); FloatI equals RoundR where nothing overflows (FloatReward.v); monotonicity follows operation by operation from monotone rounding, the tolerance from a forward error analysis of the four formulas (FloatError.v) | PropFloat | proved |
| C78 | The division of a reward the machine computes | delegator and operator rewards, margin and desirability on binary64 (FloatI) and on reals (ExactR) | as C77; margin + (1 - margin) rounds to at most 1 (half an ulp above 1 is not reached), so the operator's factor is at most 1 | PropFloat | proved |
| C79 | The web interface shows the simulation | imports, charts, sliders, handlers of messages, construction and steps of the served model | invariant of the server over all messages: the settings are within the bounds of the sliders and the model is in a reachable state of a simulation made of such settings; failure of a round is excluded by C63, C65 and C61 | PropViz | partial |
| C80 | The figures of an execution | export_graphs, plot_line and plot_stack_area_chart on the rows main collects | an invariant of the loop of run_model ties the collected rows, the marks and the phases together; the type of a metric's value depends only on its number | PropGraphs | partial |
| C81 | Truncated stakes and synthetic costs | `truncate` with its loop bounded by a fuel and the draws an arbitrary sequence; the cost generators over arbitrary draws of the right size and range (`honest`) | induction on the fuel; the number of values above n/f decreases with every low draw; if f > n the maximum is always above the limit | PropDistributions | partial |
| C82 | Abstainers stay out | every state of a run, including those within a round, under all four orders | an invariant on all pool objects in the heap and on all agents, preserved by every function of a move and of a phase change | Abstain, PropAbstain | proved |
| C83 | The figures of a batch show its runs | the results table, the selection of options and metrics, the points of scatter plots, the cells of heat maps, the file names | every row of the table is the row of one run (from C42), the grid positions of two runs differ in an option with several values (from C41); names are cut at their last dash | PropBatchFigures, PropMetricNames | partial |
| C84 | The table of the stakeholders tells who profits from splitting their pool | the rows of the table (Export.v), potential profit, pledge and cost per pool | the difference of the two profits is computed in closed form; a stake above the threshold only makes splitting better than the formula says | PropSplit | partial |
| C85 | The reward schemes are ordered | the four reward functions and the potential profit | the differences are products of non-negative factors that vanish exactly under the stated conditions | PropSchemes | proved |
| C86 | Only the proportions of the sampled stakes matter | the constructor with its normalisation of the stakes | shares of the scaled stakes are the shares of the stakes; the branch taken when the total is exactly one is analysed separately | PropScale | partial |
| C87 | Without influence of the pledge the choice between three reward schemes makes no difference | the constructor and complete runs of the model under all activation orders | simulation relation: replacing the scheme commutes with every function of the model as long as a0 = 0, because then every one of the three pays min(stake, threshold) | PropNoPledge | proved |
| C88 | A myopic agent settles on a number of pools that pays, if any does | the search for a number of pools and the strategies it builds (Stakeholder.v), potential profit, pledge and cost per pool | the potential profit of the whole set of pools is concave in the number of pools (Concave.v), so the numbers that pay form an interval; the search cannot leave or jump over it (AnyTotal.v: search_pays, choice_pays) | PropAnyTotal | proved |
| C89 | The number of pools an operator settles on is the best one | the search for a number of pools and the utilities it compares (Stakeholder.v) | counterexamples found by running the extracted model and replayed in Coq; for superior agents the utility is concave in the number of pools (no_dents), from the concavity of the potential profit and of the benefit forgone, so the local maximum of C21 is a global one | PropBest | partial |
| C90 | The margin an agent works out for a pool guarantees its desirability | calculate_margin (Stakeholder.v) | invariants of C13 and C63 (rankings sorted, long enough, every pool worth having); counting the entries of the sorted ranking before and after the k-th place | PropCalcMargin | partial |
| C91 | Reported figures under every activation order | all 30 reporters (Reporters.v, Main.v: metric) | invariant of C66 (every pool object has a positive pledge and consistent books, under every order) and C74 (operators are agents), then each reporter from these facts | PropAnyMetrics | partial |
| C92 | What a pool holds under every activation order | World.v, Stakeholder.v, Sched.v, Sim.v, Init.v; Reporters.v for the total | invariant of all pool objects, also copies and drafts (delegations within the fixed stakes of others, pledges nonnegative) and of all strategies (allocations name pool ids of others), on top of the books of C74; ids belong to one operator for ever | PropAnyShares | proved |
| C93 | The rewards of an epoch under every activation order | World.v, Stakeholder.v, Sched.v, Sim.v, Init.v, Rewards.v | threshold and a0 followed through all phases (C33), books of C92 and C14, bound of one reward C01; the refutation by a computed run | PropAnyBudget | partial |
| C94 | The books of the pools in the arithmetic of the machine | World.v, Stakeholder.v, Sched.v, Sim.v, Init.v over the arithmetic FloatA of NumFloat.v | invariant of all pool objects (AnyOrder.v) for the history; induction over the history with the rounding error of one operation (Flocq) for the bound; invariant of all amounts agents handle (AnyValues.v, FloatRange.v) for the range in a run; computed runs for the refutations | PropDrift, PropDriftRun | partial |
| C95 | The stakes agents start with, in the arithmetic of the machine | Init.v over the arithmetic FloatA of NumFloat.v | induction over the lists with the rounding error of one operation (Flocq); computed start for the refutation | PropStakesFloat, PropInactiveFloat | partial |
| C96 | No round divides by zero, in the arithmetic of the machine | Stakeholder.v, Rewards.v over the arithmetic FloatA of NumFloat.v | bound of C94 on the rounding error, invariant of the parameters (FloatRange.v), both sides of the books (C15); computed run for the refutation | PropDivFloat | partial |
| C97 | What pools are paid in a run, in the arithmetic of the machine | Rewards.v and the runs of Reach.v over the arithmetic FloatA of NumFloat.v | C94's bound for the recorded stake, C77's error of one reward and its monotony, and the agreement of both sets of comparisons on finite numbers; computed run for the refutation | PropPayFloat | partial |
| C98 | Margins and desirabilities in a run, in the arithmetic of the machine | Rewards.v and the runs of Reach.v over the arithmetic FloatA of NumFloat.v | the run invariant of SimInv.v, instantiated with targets that are not negative; sums, quotients and 1 - q by the specification of binary64 (signs of rounded results, Flocq for 1 - q when q is finite) | PropMarginFloat | proved |
| C99 | The margin for a target, in the arithmetic of the machine | Rewards.v over the arithmetic FloatI of NumFloat.v (machine comparisons) | the error of each of the four roundings, from Flocq; computed values for the refutations | PropTargetFloat | partial |
| C100 | Dividing stake and cost over pools, in the arithmetic of the machine | Rewards.v over the arithmetic FloatI of NumFloat.v (machine comparisons) | the error of each rounding, from Flocq, and linear arithmetic over the reals; computed values for the refutation | PropSplitFloat | partial |
| C101 | Delegations of one move, in the arithmetic of the machine | Stakeholder.v (greedy, greedy_allocations) over the arithmetic FloatA of NumFloat.v | induction over the eligible pools, with the error of each subtraction from Flocq; computed values for the refutation | PropGreedyFloat | partial |
| C102 | What an agent pledges and delegates in a run, in the arithmetic of the machine | Sim.v, Stakeholder.v, Init.v over the arithmetic FloatA of NumFloat.v | an invariant over all activations and changes of phase (SimInv.v), with the bounds of C100 and C101 for each move; a computed run for the refutation | PropBudgetFloat | partial |
| C103 | What all pools are paid together in a run, in the arithmetic of the machine | Sim.v, Stakeholder.v, Init.v over the arithmetic FloatA of NumFloat.v | the bound of C97 for each pool, summed over the pools with C102_pools_hold_no_more_than_the_agents | PropPayAllFloat | proved |

## 3. Properties that are partial

* **C23** (partial): proved for every sequence of step() calls and for run_model on a new model, in any arithmetic and (C74) under every activation order; false when run_model is called after manual steps: it restarts the ids while pools are open, two agents then operate different pools with one id and run_model can raise KeyError (C23_run_model_after_steps_refuted)
* **C24** (partial): exact arithmetic; proved for every scheme except CIP-50 with a0 = 0, costs of any sign, and the constructor as well; REFUTED for CIP-50 with a0 = 0 and a myopic agent: ZeroDivisionError
* **C25** (partial): REFUTED for both simultaneous orders: delegations are recorded differently on the two sides, and the pools together hold more stake than exists. Proved for them: every pool's stake is its pledge plus the delegations it records
* **C28** (partial): REFUTED when the inactive fraction is positive and the last agent is active: the fraction is added to the last agent. Proved: what the inactive agents hold in general
* **C29** (partial): any arithmetic, any scheduler, any choices. Proved: run_model always ends and executes at most the iteration bound; with one iteration bound it ends stopped and exported. REFUTED when max_iterations takes several values: the loop can be left with running = True and nothing exported
* **C30** (partial): proved for single-phase runs and the first phase, any arithmetic and scheduler; REFUTED for later phases: the count of idle rounds is carried over
* **C32** (partial): proved for the first phase; REFUTED for later phases (the raw k is installed)
* **C33** (partial): parameters: any arithmetic, any scheduler; pools and rankings: any ordered arithmetic, sequential or random activation. REFUTED: the run can not always go on, a larger k in a later phase makes the next round raise IndexError
* **C39** (partial): exact arithmetic, sequential / random activation: proved when the number of agents is the same in all phases; REFUTED otherwise: after a phase change of n both reports raise
* **C42** (partial): proved for every completion order when the values of the parameters are hashable; REFUTED for list-valued parameter values: TypeError after the run was made
* **C43** (partial): every interleaving and crash point: rows in order of completion, and the exact number of headers. Proved: one header unless two calls open the file before the first of them has written. REFUTED for that interleaving: two headers
* **C44** (partial): proved for executions one after another that do not crash while writing; REFUTED for a crash between truncation and write (every later execution raises ValueError) and for two executions at the same time (same number)
* **C45** (partial): any arithmetic: the row is the state before the last round. Exact arithmetic: it has the metrics of the final state if the run converged. REFUTED when max_iterations ended the run
* **C46** (partial): REFUTED for NaN: the float validators accept NaN. Proved: exact on ints, decimal strings and rationals; on machine floats they accept exactly the stated range plus NaN. Parsing of float strings is not modelled.
* **C48** (partial): REFUTED: reward scheme 3 always raises TypeError in the constructor; schemes 0, 1, 2 and 4 can be constructed
* **C52** (partial): REFUTED: the iteration column is 0 in every row, since the counter key includes the seed and the sequence number
* **C60** (partial): Proved for a single pool, and for the i-th of several pools against the pools of the other agents. The full claim is REFUTED for two pools (the better pool of the same operator is not counted). Exact arithmetic, sequential / random activation, every state including those within a round
* **C64** (partial): proved under the conditions listed in the statement; each of the conditions is shown to be needed by an accepted command line that makes the program raise
* **C66** (partial): REFUTED for both orders, with default profiles and four agents: an operator installs a copy of its pool made before a delegator left, the copy is private, and taking the delegation away from the delegator raises KeyError. Proved for every order and every mix of profiles: a step and a run return or raise KeyError; they never divide by zero, index out of range, meet a value error or a missing attribute, use an object that does not exist or fail to return. Missing in the partial theorems: exactly the KeyError that the refutation exhibits. Instances: C66_C76_instance, C88_instance
* **C67** (partial): exclusive folders for every interleaving; no failure for executions that start one after another, with crashes. REFUTED for executions with the same identifier that start at the same time: one of them ends with FileExistsError. The instance is C67_instance
* **C68** (partial): proved as an equivalence with a table of ranges and defaults. REFUTED with respect to the documentation for the default of --metrics, the range of --iterations_after_convergence and the relation of --cost_max and --cost_min. The instances are C68_instance and C68_rejected
* **C69** (partial): exact arithmetic, sequential / random activation; metric 8 under CIP-50 only with a0 > 0; metric 11 for a solver that finds optimal choices (exhaustive_works shows one). REFUTED for metric 11: pools with exactly half of the active stake are accepted where more than half is documented, so the first theorem says at least half there. The instance is C69_instance
* **C71** (partial): proved for fifteen options and the seed. REFUTED for --agent_profile_distr, which is accepted and ignored; an option given without values leads to no runs at all. The instance is C71_instance
* **C72** (partial): proved for seeds given on the command line. REFUTED for the recorded seed of an execution without one, and for saved arguments: profiles and the order of activation come from a generator that only sees the seed of the command line. For sequential activation and one profile the recorded seed does repeat the execution. The instance is C72_instance
* **C79** (partial): exact arithmetic; the server of this repository and mesa's, which differ in what a submitted value does. REFUTED: runViz.py imports a constant that is commented out in logic/helper.py, so it does not start; two of its three charts ask for metrics that are not collected and stay empty in every session; all stake inactive (ZeroDivisionError) and a minimum cost above the maximum cost (ValueError) can be set. Proved, as if the constant were there: no other message fails, what a round and a reset do, and what the charts show when their metrics are collected. The instance is C79_instance
* **C80** (partial): C80_every_run_can_be_drawn is the whole property except for the vertical line, for every arithmetic, with no condition but that main returns. The line is refuted: its first position is the last round in which an agent still moved, one too early (proved in general), and -1 if nobody ever moves (witness: main prints 'Reached equilibrium at step: [-1]').
* **C81** (partial): The part about stake is proved in full. For costs the claim is false for two generators, so it is proved for the others and refuted for these: generate_cost_distr_disparity returns ten costs for fewer than ten agents (C81_disparity_refuted), and generate_cost_distr_nrm takes the bounds in standard deviations from the mean, so all its costs can be above cost_max (C81_normal_costs_refuted); what they do return is C81_disparity, C81_normal_costs. generate_cost_distr_bands_manual fails for fewer than three agents. That low draws come with probability one is not modelled. Instance: C81_instance.
* **C83** (partial): Proved for all options, completion orders and results when no value of an option is given twice. False otherwise: if exactly two options take several values and one of them is given a value twice, unstack raises a ValueError and the script ends without heat maps after all runs were made (C83_repeated_value_refuted, for every such command line). The drawing by matplotlib and seaborn is not modelled; a figure is the data it shows.
* **C84** (partial): Proved for the Cardano, simplified and flat-pledge-benefit schemes and agents whose stake does not exceed the saturation threshold, for every number of pools; a YES is right for every agent. False beyond: an agent with more stake than a pool can use is told NO although splitting pays (C84_large_stake_refuted), and under the CIP-50 scheme an agent is told YES although it does not (C84_cip50_refuted).
* **C86** (partial): True without inactive stake, and with inactive stake unless one of the two distributions sums to exactly the active fraction. False in that case (C86_inactive_stake_refuted): such a distribution is left as it is, while the same distribution at any other scale is normalised to a sum of one, so that the stakes of all agents differ. Exact arithmetic.
* **C89** (partial): REFUTED for both profiles, already before any pool exists: a non-myopic agent settles on one pool, which by its own calculation loses, while three pools would gain; a myopic agent settles on one pool although three would bring more. Proved for non-myopic agents under the schemes other than CIP-50 when each of the agent's pools could outdo all pools of the others (superior) and the others' pools are ordered alike by desirability and by potential profit (aligned). Missing in the partial theorem: the other agents and CIP-50, for which the refutations show it does not hold in general. Instance: C89_instance, with three pools of a rival in operation
* **C90** (partial): the parts about the value of the margin are proved; the claim of the documentation that only pools in the top k get a margin is REFUTED, by potential profit and by desirability alike: the reference is the potential profit of the pool in the k-th place by desirability, which can be lower than that of pools further down. The method is not called during a run (the operator's margins come from the number of pools). Instance: C90_instance
* **C91** (partial): all parts but the last are proved; that the reported stake in pools is at most the agents' stake is REFUTED for both simultaneous orders: 8/5 of the stake is reported as delegated after three steps (the double counting of C25). Instance: C91_instance
* **C93** (partial): The bounds per pool and by stake are proved for every order. The last sentence is refuted under both simultaneous orders: a run of five agents stops in an equilibrium in which the pools are due 13788/12625 of the total and the incomes after costs exceed it too. For the one-at-a-time orders it is C02 and C55. Instance: C93_instance
* **C94** (partial): The history of a pool is proved for every arithmetic with a total preorder, the machine's among them. The bound is proved for binary64: for single histories in a range (C94_drift_is_bounded), and for all pools of all runs whose agents start with proper stakes (C94_drift_in_a_run; C95_proper_stakes and C95_proper_stakes_with_inactive_stake say which inputs lead to such stakes). The last sentence is REFUTED by a run of five agents acting in turn: after two rounds a pool that all delegators have left records less stake than its pledge, and after three rounds an agent that keeps its strategy changes the stake of a pool, since a delegation is taken away and put back while it is considered (C14, C19 hold in exact arithmetic). Instances: C94_instance, C95_instance
* **C95** (partial): Proved but for the clause that no agent starts with a negative stake, which is proved for every agent but the last. For the last agent it is REFUTED: the rounding error of all agents is taken from it, so with stakes 4.9, 7.3, 4.8, 2.9 and 1e-17 it starts with about -2.2e-16. It holds if the last stake is at least n*2^-48 of the total (C95_proper_stakes), and whenever at least n*2^-48 of the stake is inactive (C95_proper_stakes_with_inactive_stake). In exact arithmetic see C27 and C28. Instances: C95_instance, C95_inactive_instance
* **C96** (partial): REFUTED as stated: with three non-myopic agents, k = 3, a0 = 0.3 and stakes 0.78, 3e-17 and 0.92 the third round raises ZeroDivisionError: agent 0 leaves the pool of agent 1, whose stake is then 0 although its pledge is about 1.8e-17. Proved instead: the rewards of a pool are defined if its pledge exceeds the bound of C94 on the rounding error in its stake (n*2^-50 after n changes), for all activation orders; and an agent all of whose pools are like that can compute its utility, for agents moving one at a time. That whole rounds succeed is proved in exact arithmetic only (C24, C66). Instance: C96_instance
* **C97** (partial): The bounds are proved for pools that record a stake which is not negative, in particular for pools with a pledge of at least n*2^-50. That no reward is negative is proved for pools whose recorded stake covers the pledge and REFUTED in general: with three non-myopic agents, k = 3, a0 = 0.1 and stakes 0.77, 5e-17 and 0.93 a pool with a pledge of 2.9e-17 records the stake 0 after two rounds and is due about -2.4e-34. In exact arithmetic see C93. Instance: C97_instance
* **C99** (partial): The first two sentences are proved. The last one is REFUTED: with a profit of 0.27735497061078451 and the target 1e-6 the desirability is 9.99999999999746e-07, below the target, and with a profit of 2^40 and a rival of desirability 1 the pool gets desirability 1 exactly, no more than the rival. Rewards in the simulation are fractions of 1 (C97), so its profits stay far below 2^30. In exact arithmetic see C08. Instance: C99_instance
* **C100** (partial): All but the last sentence is proved. That the pledges never exceed the stake is REFUTED: five pools of an agent with stake 1 pledge the double nearest to 0.2 each, which is above 1/5. In exact arithmetic see C09. Instance: C100_instance
* **C101** (partial): All but the last sentence is proved. That the delegations never exceed the stake is REFUTED: 1 is divided into 0.2, 0.5 and the double after 0.3, which add up to more than 1. Stated for the loop of the move, given the eligible pools; in exact arithmetic see C18. Instances: C101_instance, C101_full_instance
* **C102** (partial): All but the last sentence is proved. The last sentence is REFUTED: in a run an agent opens three pools whose pledges add up to 1.4e-17 more than its stake. In exact arithmetic it holds (C16). Initial stakes as required follow from C95. Instance: C102_instance

## 4. Layout

In the order of compilation. Files named `Prop*` hold the theorems of the manifest; `Spec.v` and `Reach.v` hold the vocabulary of the
statements.

| file | contents |
|------|----------|
| `Num.v` | Numbers |
| `NumFloat.v` | IEEE-754 binary64 instance of the arithmetic the model runs on |
| `Py.v` | Python's runtime, as far as the program uses it: exceptions as values, insertion ordered dictionaries, list indexing, checked division |
| `QcTac.v` | Reasoning about [Qc]: transfer to [Q] and linear / nonlinear arithmetic |
| `Rewards.v` | Reward schemes (logic/reward_schemes.py) and the numeric helpers of logic/helper.py |
| `SortedKeyList.v` | sortedcontainers.SortedList with a key function, as used for the pool rankings (logic/sim.py:109-112, logic/stakeholder_profiles.py:14-17) |
| `World.v` | The objects of the simulation: pools (logic/pool.py), strategies (logic/strategy.py), agents, and the part of the model object (logic/sim.py) on which agents act |
| `Stakeholder.v` | Agents: logic/stakeholder.py and logic/stakeholder_profiles.py |
| `Sched.v` | Activation orders: mesa.time 1.0.0 (BaseScheduler, RandomActivation, SimultaneousActivation) and logic/activations.py |
| `Sim.v` | The simulation object: logic/sim.py (step, run_model, change_phase, wrap_up_execution) |
| `Init.v` | Construction of a simulation: Simulation.__init__ (logic/sim.py:21-193) and the synthetic distributions of logic/helper.py |
| `RewardFacts.v` | Facts about the reward schemes and the numeric helpers in exact arithmetic |
| `PropRewards.v` | Properties C01 - C09 and C49: reward schemes and the helpers that split rewards, costs and pledges |
| `Helper.v` | Further functions of logic/helper.py: calculate_ranks, find_target_pool, functools.lru_cache, argument validators |
| `ListFacts.v` | Facts about the Python runtime of Py.v: monadic loops, dictionaries; and about orders, sorting and permutations |
| `PropHelper.v` | Properties of the helper functions: rankings of dictionaries (C10), the marginal pool (C11), memoisation (C12), argument validators (C46), synthetic distributions (C47), construction of reward schemes (C48) |
| `FloatOrd.v` | The comparisons of [FloatA] form a total preorder, so every theorem stated for an arithmetic with [OrdLaws] holds for binary64 |
| `Greedy.v` | The greedy delegation move (C18) and its monotonicity in the amount of stake |
| `SLFacts.v` | Facts about the sorted lists of SortedKeyList.v |
| `Inv.v` | The state invariant of runs in which agents act one at a time, and its preservation by the elementary operations |
| `Static.v` | Executing a strategy changes, of the pool objects that exist, only stakes and delegations |
| `Exec.v` | Executing a strategy preserves the invariant of Inv.v |
| `Eval.v` | What an agent's evaluation of its options (update_strategy) does to the state, and what the strategy it comes up with looks like |
| `Step.v` | One activation of an agent preserves the state invariant; so do rounds and runs of agents acting one at a time |
| `Reach.v` | Specification: which states a run of the simulation goes through |
| `SimInv.v` | The state invariant along simulations with one agent acting at a time (random and sequential activation), including phase changes |
| `Spec.v` | Vocabulary of the properties about states: plain readings of the data structures of the simulation, used in the statements of the theorems |
| `PropState.v` | Properties of every state of a run with agents acting one at a time, in any arithmetic with a total preorder: C13, C15, C17 (first part), C23 |
| `PropInit.v` | Construction of a simulation: normalisation of stakes (C27), inactive stake (C28), inflated k (C32, first phase) |
| `ExactInv.v` | The state invariant in exact arithmetic: what holds of every pool and every agent along runs with agents acting one at a time |
| `Demo.v` | A concrete run, used to show that the hypotheses of the theorems about runs are met: four agents, k = 2, sequential activation |
| `PropExact.v` | Properties of every state of a run with agents acting one at a time, in exact arithmetic: C14, C16, C17 |
| `PropMove.v` | Properties of single moves: C20 (inertia), C19 (considering has no side effects), C22 (operator moves), C18 (greedy delegation) |
| `PropSearch.v` | C21: the search for the number of pools (stakeholder.py:131-151) |
| `PropSched.v` | C26: every agent acts once per round, under every activation order (logic/activations.py, mesa.time) |
| `Ends.v` | Every loop of the model ends: no call returns OutOfFuel, the mark of an exhausted loop bound |
| `Frame.v` | What activations leave alone, for arbitrary states and activation orders: the parameters, the agents and, unless a move is executed, their strategies |
| `PropRun.v` | Runs: C29 (termination), C34 (metrics rows), C30 (equilibria follow idle rounds) |
| `PropPools.v` | C50 (non-myopic stake of a pool) and C51 (which pools an operator keeps) |
| `PropPhase.v` | C33: what happens between two phases |
| `Reporters.v` | The metrics: logic/model_reporters.py |
| `ReporterFacts.v` | Facts about the arithmetic of the metrics: sums, sorted lists, medians, counters |
| `PropReporters.v` | The metrics, in exact arithmetic: C35-C40 |
| `Batch.v` | The batch runner (custom_batchrunner.py), the csv and sequence files (logic/helper.py:343-362) and the naming of runs (logic/sim.py:48-64) |
| `PropBatch.v` | The batch runner, csv and sequence files: C41-C44, C52 |
| `PropFiles.v` | The csv files with one header (C43) and the sequence file (C44) |
| `PropBatchRun.v` | The runs of a batch (C45: the aggregate results; C53: every run ends) |
| `AnyOrder.v` | Facts about single pool objects that hold under every activation order: [P] holds of every pool object ever made and [D] of every delegation an agent has chosen, if the operations on pool objects preserve them |
| `PropSimul.v` | Simultaneous activation (C25), and the part of the bookkeeping (C14) that holds under every activation order |
| `TotalExec.v` | Executing a strategy does not raise: under the invariant of Inv.v every operation of execute_strategy has a result |
| `TotalEval.v` | Evaluating the possible moves does not raise: in exact arithmetic, with positive pledges, a saturation threshold that is positive, and only pools that are worth having (positive potential profit), every helper that update_strategy calls has a result |
| `Profit.v` | An agent only ever opens pools that are worth having: operating pools without potential profit is never better than delegating everything |
| `PropTotal.v` | C24: with positive stakes and at least one desired pool, no step of a single phase run with agents acting one at a time raises an exception |
| `Stable.v` | Evaluating the options gives the same answer in two states that differ only in discarded pool objects, in the numbers of the next pool object and the next pool id, and in the order in which the delegators of a pool are listed |
| `PropStable.v` | An equilibrium is stable (C31): after a round in which every agent was activated and nobody moved, no activation of any agent, in any order and any number of times, changes anything until the parameters change |
| `PropIncome.v` | What the agents earn (C55): the utilities that the agents compute for their present strategies add up to the rewards of the pools minus the costs of the pools: no reward is lost, paid twice or created by the bookkeeping |
| `Persons.v` | Who the agents are (C56): nothing in a run changes the identity, the profile, the stake or the cost of an agent, or adds or removes one, for every arithmetic, activation order and outcome of the random choices |
| `PropBudget.v` | Since the agents never change (C56), the total stake is conserved and the reward budget is kept in every state of a run (C02, C16, C40, C55) |
| `PropMetrics.v` | What the remaining metrics report (C57-C59): means and medians over the pools, average and median ranks of the operators, counts of stakeholders |
| `PropTopK.v` | How operators price their pools (C60): what the margins of a non-myopic operator achieve, and what the documentation of choose_pool_strategy (stakeholder.py:117-123, "Calculate suitable margins so that all t pools end up in the top k") promises beyond that |
| `Export.v` | The tables and descriptors a simulation writes: logic/sim.py:256-346 |
| `PropExport.v` | The exported tables and descriptors agree with the state and with each other (C61) |
| `PropForesight.v` | What a move brings (C62): when a myopic agent changes its strategy, its actual income rises by more than both inertia thresholds |
| `FloatRun.v` | A run in binary64 arithmetic |
| `Main.v` | The program as a whole: main.py, the command line (logic/helper.py:532-605), the sources of stake, cost and profiles (logic/helper.py:26-123, logic/sim.py:148-164), the metrics by number (logic/model_reporters.py:385-451) and the files written at the end (logic/sim.py:433-443) |
| `PropMain.v` | The program as a whole (C64, C65): no metric raises, and main returns for every command line it accepts that meets a short list of conditions |
| `Folder.v` | The output folders of executions: the name (logic/sim.py:48-59), mkdir (sim.py:61-62, custom_batchrunner.py:62-64), and the sequence file that both use |
| `PropFolder.v` | Every execution has an output folder of its own (C67) |
| `PropOptions.v` | The options of the command line (C68) |
| `PropDocs.v` | The metrics by number mean what docs/metrics.md says (C69) |
| `Script.v` | The script batch-run.py and the rows that batch runs write to the aggregate results (custom_batchrunner.py:184-209) |
| `PropScript.v` | The columns of the aggregate results (C70) and the runs of the script batch-run.py (C71) |
| `PropSeed.v` | Seeds and repeatability (C72): executions with the same seed, executions repeated from the seed or from the arguments that an execution has saved |
| `PropFrame.v` | C73: what the move of one agent leaves alone |
| `AnyBooks.v` | What the agents' own books say under every activation order: who operates which pool, and how much of an agent's stake its present and its prepared strategy use |
| `PropBooks.v` | C74: who operates which pool, the life of a pool id, and the use an agent makes of its stake, under every activation order |
| `PropRestart.v` | run_model called on a model that has already been stepped by hand (C23): it restarts the sequence of pool ids while pools are open |
| `AnyRank.v` | The rankings of the pools under every activation order |
| `PropRank.v` | C75: the two rankings of the pools under every activation order |
| `Concave.v` | The profit of splitting a stake into several pools is concave in their number; where a myopic agent's search ends (stakeholder_profiles.py:123-165, stakeholder.py:131-151) |
| `AnyTotal.v` | Which exceptions a move can raise under every activation order: evaluating and carrying out moves fails only in a look-up of a dictionary |
| `PropAnyTotal.v` | C66: which exceptions step() can raise, for every activation order |
| `Binary64.v` | Binary64 as rounded real arithmetic: the operations of Python's floats on finite numbers (Flocq's model of the primitive floats of Coq) |
| `RealArith.v` | Real numbers as an arithmetic of the model, with a rounding after each operation: no rounding (the formulas of the program as mathematics) or rounding to the nearest binary64 |
| `FloatReward.v` | The reward formulas of the program on binary64 numbers |
| `FloatError.v` | Rounding errors of the reward formulas |
| `PropFloat.v` | Rewards in the arithmetic of the machine (C77) and their division (C78) |
| `Viz.v` | The web interface: interactiveViz/runViz.py, the three charts (interactiveViz/*ChartModule.py), the server and its messages (interactiveViz/myModularVisualization.py, and mesa.visualization.ModularVisualization and UserParam of mesa 1.0.0, which runViz.py uses) |
| `PropViz.v` | The web interface (C79): which pages it shows, and which positions of the sliders and which messages make it fail |
| `Graphs.v` | The figures of an execution: export_graphs (logic/sim.py:354-381) with plot_line and plot_stack_area_chart (logic/helper.py:365-400) |
| `PropGraphs.v` | C80: the figures of an execution |
| `Abstain.v` | Abstainers (stakeholder_profiles.py:168-174) under every activation order: no pool object ever names one of them as its operator or as a delegator |
| `PropAbstain.v` | C82: abstainers |
| `Distributions.v` | The distributions of logic/helper.py that draw several times or are not used by the simulation: truncate_pareto (helper.py:90-99), as generate_stake_distr_pareto calls it when a truncation factor is given (72-87), and the distributions of cost (63-69, 107-155) |
| `PropDistributions.v` | C81: the truncated Pareto distribution of stake, and the distributions of cost |
| `BatchFigures.v` | The figures that batch-run.py draws from the results of its runs (batch-run.py:83-88, 103-116; logic/helper.py:411-460) |
| `PropBatchFigures.v` | The figures of a batch (C83) |
| `PropSplit.v` | What splitting one's stake over several pools brings, as reported in the table of the stakeholders (C84) |
| `PropSchemes.v` | The reward schemes compared with each other (C85) |
| `PropScale.v` | Only the proportions of the sampled stakes matter (C86) |
| `SameRewards.v` | Two reward schemes that pay the same and have the same saturation thresholds lead to the same executions |
| `PropNoPledge.v` | Without influence of the pledge (a0 = 0) the choice between the first three reward schemes makes no difference (C87) |
| `PropBest.v` | The number of pools an operator settles on (C89) |
| `PropCalcMargin.v` | The margin Stakeholder.calculate_margin works out for a pool (C90) |
| `PropAnyMetrics.v` | C91: the figures a run reports, under every activation order |
| `AnyShares.v` | What a pool holds under every activation order: every recorded delegation is of an agent other than the operator, and of no more than the stake of that agent |
| `PropAnyShares.v` | C92: what a pool holds under every activation order, in every phase |
| `PropAnyBudget.v` | C93: the rewards of an epoch under every activation order |
| `PropDrift.v` | C94: the books of the pools in the arithmetic of the machine |
| `AnyValues.v` | Facts about pool objects and about the amounts agents handle, under every activation order and in every arithmetic: [P] holds of every pool object ever made, [D] of every delegation an agent has chosen, [Amt] of the amounts it has for this, [Plg] of the pledges and [Par] of the parameters, if the elementary operations preserve them |
| `FloatRange.v` | The amounts agents handle in the arithmetic of the machine: delegations and pledges stay between nothing and the stakes of the agents |
| `PropDriftRun.v` | C94 for whole runs: the bound on the rounding error in the books holds in every run whose agents start with finite stakes that add up to about 1 |
| `PropStakesFloat.v` | C95: the stakes the agents start with, in the arithmetic of the machine |
| `PropDivFloat.v` | C96: division by the stake of a pool in the arithmetic of the machine |
| `PropInactiveFloat.v` | C95: the stakes the agents start with, in the arithmetic of the machine, when part of the stake is inactive |
| `PropPayFloat.v` | C97: what pools are paid in a run, in the arithmetic of the machine |
| `PropMarginFloat.v` | C98: margins and desirabilities in a run, in the arithmetic of the machine |
| `PropTargetFloat.v` | C99: the margin an operator works out and the desirability it leads to, in the arithmetic of the machine |
| `PropMetricNames.v` | The metrics a user can ask for are metrics the figures of a batch can show (C83) |
| `PropSplitFloat.v` | C100: dividing stake and cost over pools, in the arithmetic of the machine |
| `PropGreedyFloat.v` | C101: what an agent delegates in one move, in the arithmetic of the machine |
| `PropBudgetFloat.v` | C102: what an agent pledges and delegates in a run, in the arithmetic of the machine |
| `PropPayAllFloat.v` | C103: what all pools are paid together in a run, in the arithmetic of the machine |

## 5. Coverage of the source

| file of /repo | modelled | not modelled |
|---------------|----------|--------------|
| `logic/reward_schemes.py` | everything; the power operator of the curve scheme is a parameter | |
| `logic/pool.py` | everything | |
| `logic/strategy.py` | everything | |
| `logic/stakeholder.py` | everything that runs: `step`, `advance`, `update_strategy`, utilities, `choose_pool_strategy`, operator and delegation moves, `execute_strategy`, opening, updating, closing of pools | `get_status` (printing), `discard_draft_pools` (marked unused) |
| `logic/stakeholder_profiles.py` | everything | |
| `logic/activations.py` | everything, and the schedulers of mesa.time 1.0.0 it builds on | |
| `logic/sim.py` | constructor, `initialize_agents`, `normalize_agent_stake`, pool ids, `step`, `run_model`, `has_converged`, `change_phase`, `wrap_up_execution`, rankings, naming of runs, output folders, values of the exported tables and descriptors, what the figures show | `revise_beliefs` (unused method), pickling, the drawing of the figures (matplotlib), printing, the drawing of a random seed, the text format of the files |
| `logic/helper.py` | rewards, profits, utilities, desirability, margin, pledge and cost per pool, non-myopic stake, `calculate_ranks`, `find_target_pool`, memoisation, flat, disparity, truncated Pareto, band and normal distributions, validators, sequence file, csv appending, the argument parser, `read_stake_distr_from_file`, the use made of Pareto and uniform samples | the samples themselves (arbitrary functions of the call; where a theorem needs their size or range this is a hypothesis, `contract` in PropMain.v), plotting beyond the data of line and area charts, `sci_notation`, parsing of float strings, options given without a value |
| `logic/model_reporters.py` | all metrics except those named on the right | the external solver GEKKO behind `get_min_aggregate_pledge` (an arbitrary function; C69 assumes that it finds an optimal choice of pools), the standard deviation of the stakes |
| `custom_batchrunner.py` | parameter grid, jobs, collection of results in any completion order, output folder | the process pool itself, progress bar |
| `main.py` | everything except profiling | `--profile_code`; json is taken to read back what was written |
| `batch-run.py` | options, defaults, the grid of runs, the seed, the data of the figures | what argparse accepts, drawing |
| `interactiveViz` | imports and settings of `runViz.py`, the values the charts get, the handling of messages, `reset_model` | web pages, sockets, drawing in the browser |

## 6. Trusted base

* Coq 8.16.1's kernel (including its virtual machine for `vm_compute`, used only to evaluate concrete witnesses and examples).
* The reading of the Python source that the comments cite, and of the parts of mesa 1.0.0, sortedcontainers and functools it relies on.
* `Print Assumptions` says "Closed under the global context" for every theorem in the manifest except:
  * `C46_floats_ieee` uses the standard library's `FloatAxioms.eqb_spec`, `ltb_spec`, `leb_spec`, and the primitive types and operations of
    `PrimFloat` and `PrimInt63`;
  * `C46_nan_accepted_refuted` uses primitive types and operations of `PrimFloat` and `PrimInt63`, and no axiom about them;
  * `C94_books_balance_refuted`, `C94_considering_has_no_effect_refuted`, `C95_no_stake_is_negative_refuted`, `C96_no_round_divides_by_zero_refuted` and `C97_no_reward_is_negative_refuted` compute runs with the primitive operations of `PrimFloat` and
    `PrimInt63`, and use no axiom about them;
  * the theorems of C77 and C78, `C94_drift_is_bounded`, `C94_drift_in_a_run`, `C95_stakes_add_up_to_one`, `C95_proper_stakes`, `C95_stakes_with_inactive_stake`, `C95_proper_stakes_with_inactive_stake`, `C96_sturdy_pools_have_rewards`, `C96_current_utility_defined`, `C97_rewards_in_a_run`, `C98_margins_in_a_run` and the theorems of C99 to C103 other than `C101_delegations_fit`, which is closed (real numbers, Flocq) use axioms of the standard library only: `ClassicalDedekindReals.sig_not_dec` and
    `sig_forall_dec`, `Classical_Prop.classic`, `FunctionalExtensionality.functional_extensionality_dep`; `FloatAxioms.add_spec`, `sub_spec`,
    `mul_spec`, `div_spec`, `abs_spec`, `eqb_spec`, `ltb_spec`, `leb_spec`, `Prim2SF_valid`, `SF2Prim_Prim2SF`, `Prim2SF_SF2Prim`; the primitive types and
    operations of `PrimFloat` and `PrimInt63`; and where integers are converted to floats also `FloatAxioms.of_uint63_spec` and
    `Uint63.of_to_Z`, `add_spec`, `sub_spec`, `lsl_spec`, `lsr_spec`, `lor_spec`, `eqb_correct`, `eqb_refl`, `ltb_spec`, `leb_spec`.
    Flocq contributes definitions and proofs and no axiom.
* No axiom, parameter, section-less variable, `Admitted`, functor or module type is defined here, and no kernel check is switched off.
