(** The program as a whole: main.py, the command line (logic/helper.py:532-605), the sources of stake, cost and profiles (logic/helper.py:26-123,
    logic/sim.py:148-164), the metrics by number (logic/model_reporters.py:385-451) and the files written at the end (logic/sim.py:433-443). *)
From Coq Require Import ZArith List Bool.
From Verif Require Import Num Py Rewards SortedKeyList World Stakeholder Helper Sched Sim Init Reporters Export.
Import ListNotations.
Open Scope num_scope.

(** --stake_distr_source (helper.py:571-574); the conversion to lower case is not modelled *)
Inductive source := FromPareto | FromFlat | FromDisparity | FromFile.

Section Main.
Variable A : Arith.
Notation num := (T A).

(** * What the program gets from outside *)
(** Random numbers, files and the solver.  The results of numpy and of random are arbitrary functions of what they are called with; the order of sets and the
    choices of the activation order belong here too.  self.random is the generator that mesa's Model.__new__ makes from the argument seed of Simulation(...): Some z is that seed,
    and None stands for a generator that is not seeded, whose choices differ from execution to execution. *)
Record env := mkEnv {
  e_seed : Z;                                          (* random.randint(0, 9999999), sim.py:45 *)
  e_pareto : Z -> num -> Z -> list num;                (* default_rng(seed).pareto(a, size), helper.py:82-85 *)
  e_uniform : Z -> num -> num -> Z -> list num;        (* default_rng(seed).uniform(low, high, size), helper.py:118-119 *)
  e_choices : option Z -> list num -> Z -> list profile; (* self.random.choices([0, 1, 2], weights, k=n), sim.py:165-166 *)
  e_sample : list num -> Z -> bool -> list num;        (* default_rng(42).choice(a, size, replace), helper.py:47-50 *)
  e_file : option Z -> option (list num);              (* Some n: synthetic-stake-distribution-n-agents.csv, None: the one for 10000 agents; helper.py:27-43 *)
  e_solver : list num -> list num -> num -> num;       (* what GEKKO finds: the least sum of the first numbers over a choice for which the second ones add up to the third; or -2; model_reporters.py:177-194 *)
  e_sets : list nat -> list nat -> list nat;           (* the order in which a set of pool ids is enumerated *)
  e_round : option Z -> nat -> choices;                (* the choices that the scheduler takes from self.random, per round *)
  e_round15 : num -> num; e_round4 : num -> num        (* round(x, 15), round(x, 4) *)
}.

(** * The command line *)
(** None: the option is left out.  An option of type float is represented by the number its text denotes.  Options whose nargs is "?" can also be given without a
    value, which gives None instead of a number: not modelled.  Left out too: --execution_id (a name) and --profile_code (as if not given); --input_from_file is [main_from_file] below. *)
Record cmdline := mkCmd {
  o_n : option (pyval A); o_k : option (list (pyval A)); o_a0 : option (list num); o_scheme : option Z; o_weights : option (list num);
  o_cost_min : option num; o_cost_max : option num; o_phi : option num; o_order : option order; o_abs : option num; o_rel : option num;
  o_source : option source; o_pareto : option num; o_inactive : option num; o_known : bool; o_itac : option Z; o_maxit : option (pyval A);
  o_metrics : option (list Z); o_graphs : bool; o_seed : option (pyval A)
}.
(** What argparse hands over to Simulation(...) (main.py:14-40) *)
Record accepted := mkAcc {
  ac_args : args A; ac_weights : list num; ac_cost_min : num; ac_cost_max : num; ac_source : source; ac_pareto : num; ac_metrics : list Z; ac_seed : option Z
}.
Definition optional {X Y} (o : option X) (type : X -> res Y) (default : Y) : res Y := match o with None => Ok default | Some x => type x end.
(** nargs="+": at least one value; the values are kept in a list *)
Definition several {X Y} (o : option (list X)) (type : X -> res Y) (default : Y) : res (pv Y) :=
  match o with None => Ok (Single default) | Some [] => Err ArgumentTypeError | Some l => let! ys := mapM type l in Ok (Multi ys) end.
(** choices=range(a, b); argparse reports an error and exits, as it does for the exceptions of the types *)
Definition between (a b : Z) (z : Z) : res Z := if (a <=? z)%Z && (z <? b)%Z then Ok z else Err ArgumentTypeError.
Definition decimal (a b : Z) : num := div (ofZ a) (ofZ b).
(** parse_args with add_script_arguments (helper.py:532-605); metrics and profile weights left out get their defaults in sim.py:36-39 *)
Definition parse (o : cmdline) : res accepted :=
  let! n := optional (o_n o) positive_int 1000%Z in
  let! k := several (o_k o) (fun v => let! z := positive_int v in Ok (ofZ z)) (ofZ 100) in
  let! a0 := several (o_a0 o) non_negative_float (decimal 3 10) in
  let! scheme := optional (o_scheme o) (between 0 5) 0%Z in
  let! weights := optional (o_weights o) (fun l => if Nat.eqb (length l) 3 then mapM non_negative_float l else Err ArgumentTypeError) [one; zero; zero] in
  let! cmin := optional (o_cost_min o) non_negative_float (decimal 1 100000) in
  let! cmax := optional (o_cost_max o) non_negative_float (decimal 1 10000) in
  let! phi := optional (o_phi o) non_negative_float (decimal 4 10) in
  let! abs := optional (o_abs o) non_negative_float (decimal 1 1000000000) in
  let! rel := optional (o_rel o) non_negative_float zero in
  let! pareto := optional (o_pareto o) positive_float (ofZ 2) in
  let! inactive := optional (o_inactive o) fraction zero in
  let! maxit := optional (o_maxit o) positive_int 2000%Z in
  let! ms := match o_metrics o with None => Ok [1; 2; 6; 9; 17; 18; 25]%Z | Some [] => Err ArgumentTypeError | Some l => mapM (between 1 31) l end in
  let! seed := match o_seed o with None => Ok None | Some v => let! z := non_negative_int v in Ok (Some z) end in
  let order_ := match o_order o with None => Random | Some x => x end in
  let src := match o_source o with None => FromPareto | Some x => x end in
  let itac := match o_itac o with None => 10%Z | Some z => z end in
  Ok (mkAcc (mkArgs (Single n) k a0 (Single rel) (Single abs) (Single maxit) (Single phi) (Single order_) (Single (o_graphs o)) scheme inactive (o_known o) itac)
            weights cmin cmax src pareto ms seed).

(** * Construction *)
(** read_stake_distr_from_file (helper.py:26-50).  numpy raises ValueError when it has to choose from an empty list. *)
Definition read_stakes (e : env) (n : Z) : res (list num) :=
  let! l := match e_file e (Some n) with Some l => Ok l | None => of_option FileNotFoundError (e_file e None) end in
  let len := Z.of_nat (length l) in
  if (n =? len)%Z then Ok l
  else match l with [] => Err ValueError | _ => Ok (e_sample e l n (negb (n <? len)%Z)) end.
(** the sources of stake (sim.py:149-161); pareto: helper.py:72-88 without truncation; disparity: x = 0.3 and c = 3 *)
Definition stake_distribution (e : env) (src : source) (n : Z) (param : num) (seed : Z) : res (list num) :=
  match src with
  | FromFile => read_stakes e n
  | FromPareto => Ok (map (fun x => (x +' one) *' one) (e_pareto e seed param n))
  | FromFlat => stake_distr_flat n
  | FromDisparity => stake_distr_disparity n (decimal 3 10) 3
  end.
(** generate_cost_distr_unfrm (helper.py:107-120) *)
Definition cost_distribution (e : env) (n : Z) (low high : num) (seed : Z) : res (list num) :=
  if high <? low then Err ValueError else Ok (e_uniform e seed low high n).
(** random.choices raises ValueError when the total of the weights is not positive (sim.py:165-166) *)
Definition draw_profiles (e : env) (weights : list num) (n : Z) (rng : option Z) : res (list profile) :=
  if psum weights <=? zero then Err ValueError else Ok (e_choices e rng weights n).

(** Simulation.__init__ (sim.py:21-146).  Simplification: the samples are drawn first, so of two reasons to raise another one may be reported.
    The sequence number and the output directory (sim.py:48-62) are modelled in Batch.v and Folder.v.  [rng]: the argument seed that mesa's Model.__new__ sees. *)
Definition used_seed (e : env) (ac : accepted) : Z := match ac_seed ac with Some z => z | None => e_seed e end.
Definition construct (e : env) (rng : option Z) (ac : accepted) : res (sim A * initial_desc A) :=
  let g := ac_args ac in
  let seed := used_seed e ac in
  let! n := match g_n g with Single n => Ok n | Multi l => py_index l 0 end in
  let! stakes := stake_distribution e (ac_source ac) n (ac_pareto ac) seed in
  let! costs := cost_distribution e n (ac_cost_min ac) (ac_cost_max ac) seed in
  let! profiles := draw_profiles e (ac_weights ac) n rng in
  let! s := init g profiles stakes costs in
  let! d := initial_descriptors (s_w s) in
  Ok (s, d).

(** * Metrics by number *)
Inductive mvalue := MNat (n : nat) | MInt (z : Z) | MNum (x : num) | MNums (l : list num) | MDict (d : dict num) | MRows (l : list (num * num * num * nat * nat)).
Definition as_nat (m : res nat) : res mvalue := let! x := m in Ok (MNat x).
Definition as_int (m : res Z) : res mvalue := let! x := m in Ok (MInt x).
Definition as_num (m : res num) : res mvalue := let! x := m in Ok (MNum x).
(** get_min_aggregate_pledge (model_reporters.py:162-195); a failure of the solver is caught *)
Definition min_aggregate_pledge (e : env) (w : world A) : res num := when_pools w (fun ps => let! lower_bound := pdiv (psum (map p_stake ps)) two in Ok (e_solver e (map p_pledge ps) (map p_stake ps) lower_bound)).
(** ALL_MODEL_REPORTEERS[REPORTER_IDS[i]](model) (model_reporters.py:385-451) *)
Definition metric (e : env) (i : Z) (s : sim A) : res mvalue :=
  let w := s_w s in
  match i with
  | 1%Z => Ok (MNat (number_of_pools w))
  | 2%Z => as_num (total_pledge w)
  | 3%Z => as_num (avg_pledge w)
  | 4%Z => as_num (median_pledge w)
  | 5%Z => as_num (avg_pools_per_operator w)
  | 6%Z => as_nat (max_pools_per_operator w)
  | 7%Z => as_num (median_pools_per_operator w)
  | 8%Z => as_num (avg_sat_rate w)
  | 9%Z => as_nat (nakamoto w)
  | 10%Z => as_num (stat_dist w)
  | 11%Z => as_num (min_aggregate_pledge e w)
  | 12%Z => as_num (pledge_rate w)
  | 13%Z => as_num (homogeneity w)
  | 14%Z => Ok (MNat (iterations s))
  | 15%Z => as_int (avg_stk_rnk w)
  | 16%Z => as_int (avg_cost_rnk w)
  | 17%Z => as_int (median_stk_rnk w)
  | 18%Z => as_int (median_cost_rnk w)
  | 19%Z => as_nat (pool_splitter_count w)
  | 20%Z => as_nat (cost_efficient_count w)
  | 21%Z => let! l := stakes_n_margins w in Ok (MRows l)
  | 22%Z => as_num (gini_pool_count w)
  | 23%Z => as_num (gini_stake w)
  | 24%Z => as_num (avg_margin w)
  | 25%Z => as_num (median_margin w)
  | 26%Z => let! l := pool_stakes_by_agent (s_n s) w in Ok (MNums l)
  | 27%Z => let! d := pool_stakes_by_agent_id (s_n s) w in Ok (MDict d)
  | 28%Z => as_num (total_delegated_stake w)
  | 29%Z => Ok (MNum (active_stake_agents w))
  | 30%Z => as_nat (operator_count w)
  | _ => Err KeyError
  end.
(** the columns of the data collector: a dictionary, so a repeated number counts once (sim.py:136-139) *)
Definition columns (ms : list Z) : list Z := fold_left (fun l i => if existsb (Z.eqb i) l then l else l ++ [i]) ms [].

(** * The run *)
(** what wrap_up_execution writes (sim.py:436-440): the two tables, metrics.csv, the descriptors; the row of the tracker holds the same numbers.
    Not modelled: the pickled object and the graphs. *)
Record files := mkFiles { fi_pools : list (pool_row A); fi_agents : list (agent_row A); fi_metrics : list (list mvalue); fi_final : final_desc A }.
Definition write_files (e : env) (rows : list (list mvalue)) (s : sim A) : res files :=
  let! ps := pools_table (e_round15 e) (s_w s) in
  let! ags := agents_table (e_round15 e) (s_w s) in
  let! fd := final_descriptors (e_round4 e) s in
  Ok (mkFiles ps ags rows fd).
Record progress := mkProgress { pg_sim : sim A; pg_rows : list (list mvalue); pg_files : list files }.
(** step (sim.py:205-232) with the collection of the metrics at its start and the files at the end of the last step *)
Definition full_step (e : env) (rng : option Z) (cols : list Z) (p : progress) : res progress :=
  let s := pg_sim p in
  let! row := mapM (fun i => metric e i s) cols in
  let rows := pg_rows p ++ [row] in
  let! s' := sim_step (e_sets e) (e_round e rng (s_steps s)) s in
  if Nat.ltb (length (s_out s)) (length (s_out s')) then
    let! f := write_files e rows s' in Ok (mkProgress s' rows (pg_files p ++ [f]))
  else Ok (mkProgress s' rows (pg_files p)).
(** run_model (sim.py:234-242), as in Sim.v *)
Fixpoint full_loop (e : env) (rng : option Z) (cols : list Z) (fuel : nat) (p : progress) : res progress :=
  if (Z.of_nat (s_steps (pg_sim p)) <=? s_maxit (pg_sim p))%Z && s_running (pg_sim p) then
    match fuel with
    | O => Err OutOfFuel
    | S fuel' => let! p' := full_step e rng cols p in full_loop e rng cols fuel' p'
    end
  else Ok p.

(** main (main.py:7-58): the files written at the start (args.json, sim.py:63, 251-254, which holds what the constructor was given, and initial-state-descriptors.json with the seed
    used, sim.py:256-272) and at the end, the final state, and whether 'Reached equilibrium' is printed *)
Record outcome := mkOutcome { oc_args : accepted; oc_seed : Z; oc_initial : initial_desc A; oc_end : progress; oc_equilibrium : bool }.
Definition execute (e : env) (rng : option Z) (ac : accepted) : res outcome :=
  let! sd := construct e rng ac in
  let '(s, d) := sd in
  let! p := full_loop e rng (columns (ac_metrics ac)) (S (S (Z.to_nat (maxit_bound s)))) (mkProgress (initialize_pool_id_seq s) [] []) in
  Ok (mkOutcome ac (used_seed e ac) d p (has_converged (pg_sim p))).
Definition main (e : env) (o : cmdline) : res outcome := let! ac := parse o in execute e (ac_seed ac) ac.
(** main with --input_from_file: the constructor takes everything from the file args.json (sim.py:29-30, helper.py:328-340), but Model.__new__ has seen the seed of the command line.
    [saved]: what the file holds; json reads numbers as they were written. *)
Definition main_from_file (e : env) (saved : accepted) (o : cmdline) : res outcome := let! ac := parse o in execute e (ac_seed ac) saved.
End Main.

Arguments mkEnv {A}. Arguments e_seed {A}. Arguments e_pareto {A}. Arguments e_uniform {A}. Arguments e_choices {A}. Arguments e_sample {A}. Arguments e_file {A}. Arguments e_solver {A}.
Arguments e_sets {A}. Arguments e_round {A}. Arguments e_round15 {A}. Arguments e_round4 {A}.
Arguments mkCmd {A}. Arguments o_n {A}. Arguments o_k {A}. Arguments o_a0 {A}. Arguments o_scheme {A}. Arguments o_weights {A}. Arguments o_cost_min {A}. Arguments o_cost_max {A}.
Arguments o_phi {A}. Arguments o_order {A}. Arguments o_abs {A}. Arguments o_rel {A}. Arguments o_source {A}. Arguments o_pareto {A}. Arguments o_inactive {A}. Arguments o_known {A}.
Arguments o_itac {A}. Arguments o_maxit {A}. Arguments o_metrics {A}. Arguments o_graphs {A}. Arguments o_seed {A}.
Arguments mkAcc {A}. Arguments ac_args {A}. Arguments ac_weights {A}. Arguments ac_cost_min {A}. Arguments ac_cost_max {A}. Arguments ac_source {A}. Arguments ac_pareto {A}.
Arguments ac_metrics {A}. Arguments ac_seed {A}. Arguments decimal {A}. Arguments parse {A}. Arguments read_stakes {A}. Arguments stake_distribution {A}. Arguments cost_distribution {A}.
Arguments draw_profiles {A}. Arguments construct {A}. Arguments MNat {A}. Arguments MInt {A}. Arguments MNum {A}. Arguments MNums {A}. Arguments MDict {A}. Arguments MRows {A}.
Arguments as_nat {A}. Arguments as_int {A}. Arguments as_num {A}. Arguments min_aggregate_pledge {A}. Arguments metric {A}. Arguments mkFiles {A}. Arguments fi_pools {A}. Arguments fi_agents {A}.
Arguments fi_metrics {A}. Arguments fi_final {A}. Arguments write_files {A}. Arguments mkProgress {A}. Arguments pg_sim {A}. Arguments pg_rows {A}. Arguments pg_files {A}.
Arguments full_step {A}. Arguments full_loop {A}. Arguments mkOutcome {A}. Arguments oc_args {A}. Arguments oc_seed {A}. Arguments oc_initial {A}. Arguments oc_end {A}. Arguments oc_equilibrium {A}. Arguments used_seed {A}. Arguments execute {A}. Arguments main {A}. Arguments main_from_file {A}.
