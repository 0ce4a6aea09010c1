(** The web interface: interactiveViz/runViz.py, the three charts (interactiveViz/*ChartModule.py), the server and its messages
    (interactiveViz/myModularVisualization.py, and mesa.visualization.ModularVisualization and UserParam of mesa 1.0.0, which runViz.py uses).
    Not modelled: web pages and sockets, the drawing in the browser, json, the folder that each new model makes (Folder.v). *)
From Coq Require Import ZArith List Bool String.
From Verif Require Import Num Py Rewards SortedKeyList World Stakeholder Helper Sched Sim Init Reporters Export Main.
Import ListNotations.
Open Scope num_scope.

(** * Importing *)
(** the names that logic/helper.py binds at its top level (helper.py:1-605), except those that begin with an underscore *)
Definition helper_names : list string :=
  ["default_rng"; "np"; "stats"; "csv"; "pathlib"; "floor"; "log10"; "fsum"; "lru_cache"; "json"; "plt"; "ticker"; "sns"; "argparse"; "PROFILE_MAPPING";
   "RSS_MAPPING"; "REPORTER_IDS"; "TOTAL_EPOCH_REWARDS_R"; "MIN_STAKE_UNIT"; "read_stake_distr_from_file"; "generate_stake_distr_disparity";
   "generate_cost_distr_disparity"; "generate_stake_distr_pareto"; "truncate_pareto"; "generate_stake_distr_flat"; "generate_cost_distr_unfrm";
   "generate_cost_distr_bands"; "generate_cost_distr_bands_manual"; "generate_cost_distr_nrm"; "calculate_potential_profit"; "calculate_current_profit";
   "calculate_pool_reward"; "calculate_delegator_reward_from_pool"; "calculate_operator_reward_from_pool"; "calculate_non_myopic_pool_stake";
   "calculate_ranks"; "generate_execution_id"; "calculate_cost_per_pool"; "calculate_suitable_margin"; "calculate_pool_desirability";
   "calculate_myopic_pool_desirability"; "calculate_operator_utility_from_pool"; "calculate_delegator_utility_from_pool";
   "calculate_non_myopic_pool_stake_from_rank"; "calculate_pledge_per_pool"; "export_csv_file"; "export_json_file"; "read_args_from_file"; "read_seq_id";
   "write_seq_id"; "write_to_csv"; "plot_line"; "plot_stack_area_chart"; "sci_notation"; "plot_aggregate_data"; "plot_aggregate_data_heatmap";
   "calculate_pool_splitting_profit"; "find_target_pool"; "pool_comparison_key"; "positive_int"; "non_negative_int"; "positive_float";
   "non_negative_float"; "fraction"; "add_script_arguments"]%string.
(** from module import name, ...: false stands for ImportError *)
Definition import_from (module wanted : list string) : bool := forallb (fun x => existsb (String.eqb x) module) wanted.
(** what runViz.py imports from logic.helper (runViz.py:6) *)
Definition wanted : list string := ["MAX_NUM_POOLS"]%string.

(** REPORTER_IDS (model_reporters.py:420-451) *)
Definition reporter_names : list string :=
  ["Pool count"; "Total pledge"; "Mean pledge"; "Median pledge"; "Average pools per operator"; "Max pools per operator"; "Median pools per operator";
   "Average saturation rate"; "Nakamoto coefficient"; "Statistical distance"; "Min-aggregate pledge"; "Pledge rate"; "Pool homogeneity factor"; "Iterations";
   "Mean stake rank"; "Mean cost rank"; "Median stake rank"; "Median cost rank"; "Number of pool splitters"; "Cost efficient stakeholders"; "StakePairs";
   "Gini-id"; "Gini-id stake"; "Mean margin"; "Median margin"; "Stake per agent"; "Stake per agent id"; "Total delegated stake"; "Total agent stake";
   "Operator count"]%string.
Definition reporter_name (i : Z) : option string := if (1 <=? i)%Z then nth_error reporter_names (Z.to_nat (i - 1)) else None.

Section Viz.
Variable A : Arith.
Notation num := (T A).

(** * Charts *)
(** what the data collector holds (sim.py:138-142): the collected values by the name of the reporter.  [cols]: the numbers of the metrics, [rows]: one row per
    collection.  None: KeyError *)
Fixpoint model_vars (cols : list Z) (rows : list (list (mvalue A))) (name : string) : option (list (mvalue A)) :=
  match cols with
  | [] => None
  | i :: rest => if match reporter_name i with Some x => String.eqb x name | None => false end
                 then Some (flat_map (fun row => match row with v :: _ => [v] | [] => [] end) rows)
                 else model_vars rest (map (@tl _) rows) name
  end.
(** model_vars[name][-1]; None: IndexError or KeyError, after which the charts go on with the next series *)
Definition latest (vars : string -> option (list (mvalue A))) (name : string) : option (mvalue A) :=
  match vars name with Some (v :: l) => Some (last l v) | _ => None end.
(** the numbers of a bubble *)
Inductive cell := CNum (x : num) | CId (i : nat).
(** what render returns *)
Inductive shown := ShowValues (l : list (mvalue A)) | ShowKeys (keys : list nat) (values : list num) | ShowCells (l : list cell).
(** MyChartModule.render (myChartModule.py:37-49) *)
Definition render_line (series : list string) (vars : string -> option (list (mvalue A))) : shown :=
  ShowValues (flat_map (fun name => match latest vars name with Some v => [v] | None => [] end) series).
(** StackedChartModule.render (stackedChartModule.py:62-77): of several series the last one with values is shown; AttributeError if the value is no dictionary *)
Definition render_stacked (series : list string) (vars : string -> option (list (mvalue A))) : res shown :=
  let! kv := foldM (fun kv name => match latest vars name with
                                   | None => Ok kv
                                   | Some (MDict d) => Ok (keys d, values d)
                                   | Some _ => Err AttributeError
                                   end) series ([], []) in
  Ok (ShowKeys (fst kv) (snd kv)).
(** BubbleChartModule.render (bubbleChartModule.py:57-80): five numbers per pool; TypeError if the value has no item 'x' *)
Definition render_bubble (series : list string) (vars : string -> option (list (mvalue A))) : res shown :=
  let! cells := foldM (fun acc name => match latest vars name with
                                       | None => Ok acc
                                       | Some (MRows l) => Ok (acc ++ flat_map (fun '(x, y, r, pid, oid) => [CNum x; CNum y; CNum r; CId pid; CId oid]) l)
                                       | Some _ => Err TypeError
                                       end) series [] in
  Ok (ShowCells cells).
(** render_model (myModularVisualization.py:154-163) for the three charts of runViz.py (14-23, 90) *)
Definition render_model (cols : list Z) (rows : list (list (mvalue A))) : res (list shown) :=
  let vars := model_vars cols rows in
  let! b := render_stacked ["Stake per agent id"%string] vars in
  let! c := render_bubble ["StakePairs"%string] vars in
  Ok [render_line ["Pool count"%string] vars; b; c].

(** * Sliders *)
(** the settings of the page (runViz.py:27-61).  Simplification: n, k and the seed are whole numbers, the seed is not negative. *)
Record settings := mkSettings { v_n : Z; v_k : Z; v_a0 : num; v_cmin : num; v_cmax : num; v_seed : Z; v_inactive : num; v_phi : num }.
Definition milli (z : Z) : num := div (ofZ z) (ofZ 1000).
Definition hundredth (z : Z) : num := div (ofZ z) (ofZ 100).
Definition default_settings : settings := mkSettings 100 10 (hundredth 30) (milli 1) (milli 2) 42 (hundredth 10) (hundredth 40).
(** UserSettableParameter.value (mesa.visualization.UserParam): a slider keeps its value between its bounds *)
Definition clamp (lo hi x : num) : num := if x <? lo then lo else if hi <? x then hi else x.
Definition clampZ (lo hi x : Z) : Z := if (x <? lo)%Z then lo else if (hi <? x)%Z then hi else x.
Inductive change := SetN (z : Z) | SetK (z : Z) | SetA0 (x : num) | SetCostMin (x : num) | SetCostMax (x : num) | SetSeed (z : Z) | SetInactive (x : num) | SetPhi (x : num).
(** the bounds of the sliders (runViz.py:28-60) *)
Definition submit (c : change) (v : settings) : settings :=
  let '(mkSettings n k a0 cmin cmax seed f phi) := v in
  match c with
  | SetN z => mkSettings (clampZ 10 1000 z) k a0 cmin cmax seed f phi
  | SetK z => mkSettings n (clampZ 1 100 z) a0 cmin cmax seed f phi
  | SetA0 x => mkSettings n k (clamp zero one x) cmin cmax seed f phi
  | SetCostMin x => mkSettings n k a0 (clamp (milli 1) (milli 50) x) cmax seed f phi
  | SetCostMax x => mkSettings n k a0 cmin (clamp (milli 2) (milli 100) x) seed f phi
  | SetSeed z => mkSettings n k a0 cmin cmax z f phi
  | SetInactive x => mkSettings n k a0 cmin cmax seed (clamp zero one x) phi
  | SetPhi x => mkSettings n k a0 cmin cmax seed f (clamp zero one x)
  end.
(** Simulation(n=..., k=..., ...) with the defaults of the constructor for the other arguments (sim.py:21-39) *)
Definition arguments (v : settings) : accepted A :=
  mkAcc (mkArgs (Single (v_n v)) (Single (ofZ (v_k v))) (Single (v_a0 v)) (Single zero) (Single zero) (Single 1000%Z) (Single (v_phi v)) (Single Random) (Single true)
                0 (v_inactive v) false 10)
        [one; zero; zero] (v_cmin v) (v_cmax v) FromPareto (ofZ 2) [1; 2; 6; 9; 17; 18; 25]%Z (Some (v_seed v)).

(** * The server *)
Record server := mkServer { sv_settings : settings; sv_seed : Z; sv_progress : progress A }.
Definition sv_sim (sv : server) : sim A := pg_sim (sv_progress sv).
(** the columns of the data collector of the model that is served *)
Definition served_columns : list Z := columns [1; 2; 6; 9; 17; 18; 25]%Z.
(** reset_model (myModularVisualization.py:138-152): a new model with the current settings *)
Definition reset_model (e : env A) (v : settings) : res server :=
  let! sd := construct e (Some (v_seed v)) (arguments v) in
  Ok (mkServer v (v_seed v) (mkProgress (fst sd) [] [])).
(** viz_state_message *)
Definition page (sv : server) : res (list shown) := render_model served_columns (pg_rows (sv_progress sv)).
Inductive message := GetStep | Reset | Submit (c : change) | Unexpected.
Inductive reply := End | VizState (charts : list shown) | Silent.
(** on_message (myModularVisualization.py:34-66).  [resets]: whether a submitted parameter makes a new model at once, as the handler of this repository does (60);
    mesa's own handler, which runViz.py uses, does not. *)
Definition on_message (resets : bool) (e : env A) (m : message) (sv : server) : res (server * reply) :=
  match m with
  | GetStep =>
      if s_running (sv_sim sv) then
        let! p := full_step e (Some (sv_seed sv)) served_columns (sv_progress sv) in
        let sv' := mkServer (sv_settings sv) (sv_seed sv) p in
        let! cs := page sv' in Ok (sv', VizState cs)
      else Ok (sv, End)
  | Reset => let! sv' := reset_model e (sv_settings sv) in let! cs := page sv' in Ok (sv', VizState cs)
  | Submit c =>
      let v := submit c (sv_settings sv) in
      if resets then let! sv' := reset_model e v in Ok (sv', Silent)
      else Ok (mkServer v (sv_seed sv) (sv_progress sv), Silent)
  | Unexpected => Ok (sv, Silent)
  end.
(** runViz.py as a whole: None if it does not get beyond its imports; otherwise the server with its first model *)
Definition run_viz (e : env A) : option (res server) := if import_from helper_names wanted then Some (reset_model e default_settings) else None.
End Viz.
Arguments mkSettings {A}. Arguments GetStep {A}. Arguments Reset {A}. Arguments Submit {A}. Arguments Unexpected {A}. Arguments End {A}. Arguments Silent {A}. Arguments VizState {A}.
Arguments SetN {A}. Arguments SetK {A}. Arguments SetA0 {A}. Arguments SetCostMin {A}. Arguments SetCostMax {A}. Arguments SetSeed {A}. Arguments SetInactive {A}. Arguments SetPhi {A}.
Arguments ShowValues {A}. Arguments ShowKeys {A}. Arguments ShowCells {A}. Arguments CNum {A}. Arguments CId {A}. Arguments mkServer {A}.
Arguments v_n {A}. Arguments v_k {A}. Arguments v_a0 {A}. Arguments v_cmin {A}. Arguments v_cmax {A}. Arguments v_seed {A}. Arguments v_inactive {A}. Arguments v_phi {A}.
Arguments sv_settings {A}. Arguments sv_seed {A}. Arguments sv_progress {A}. Arguments sv_sim {A}. Arguments submit {A}. Arguments arguments {A}. Arguments reset_model {A}. Arguments page {A}.
Arguments on_message {A}. Arguments run_viz {A}. Arguments model_vars {A}. Arguments latest {A}. Arguments render_line {A}. Arguments render_stacked {A}. Arguments render_bubble {A}. Arguments render_model {A}.
Arguments default_settings {A}. Arguments milli {A}. Arguments hundredth {A}. Arguments clamp {A}.
