(** The figures that batch-run.py draws from the results of its runs (batch-run.py:83-88, 103-116; logic/helper.py:411-460).  The drawing itself (matplotlib, seaborn) is not modelled: a figure is the data
    that it shows. *)
From Coq Require Import ZArith List Bool String.
From Verif Require Import Num Py Batch Script.
Import ListNotations.
Open Scope string_scope.

(** ALL_MODEL_REPORTEERS.keys() (model_reporters.py:385-418) *)
Definition all_reporters : list string :=
  ["Pool count"; "Total pledge"; "Mean pledge"; "Median pledge"; "Average pools per operator"; "Max pools per operator"; "Median pools per operator"; "Average saturation rate"; "Nakamoto coefficient";
   "Statistical distance"; "Min-aggregate pledge"; "Pledge rate"; "Pool homogeneity factor"; "Iterations"; "Mean stake rank"; "Mean cost rank"; "Median stake rank"; "Median cost rank"; "Number of pool splitters";
   "Cost efficient stakeholders"; "Gini-id"; "Gini-id stake"; "Gini-id (k)"; "Gini-id stake (k)"; "Mean margin"; "Median margin"; "Stake per agent"; "Stake per agent id"; "StakePairs"; "Total delegated stake";
   "Total agent stake"; "Operator count"].

(** variable_params (batch-run.py:81-86) *)
Definition is_variable (e : string * value) : bool := match snd e with VList l => Nat.ltb 1 (List.length l) | _ => false end.
Definition variable_params (o : given) : list string := map fst (filter is_variable (script_parameters o)).

(** pd.DataFrame(results) (103): the rows, in the order of the results; a row has the run id, the iteration and the data of the run (custom_batchrunner.py:96-103).  All rows have the same columns (C70),
    so no cell is filled in by pandas. *)
Definition frame := list kwargs.
Definition frame_row (r : row kwargs) : kwargs := merge [("RunId", VInt (Z.of_nat (run_id r))); ("iteration", VInt (iteration r))] (run_data r).
Definition data_frame (results : list (row kwargs)) : frame := map frame_row results.
(** df[name] for one row *)
Definition entry (name : string) (r : kwargs) : res value := of_option KeyError (sget r name).
(** model_reporters (108) *)
Definition model_reporters (df : frame) : list string := match df with [] => [] | r :: _ => filter (fun n => existsb (String.eqb n) all_reporters) (map fst r) end.

Section Figures.
(** v >= 0 for a value of a metric; None if the comparison raises a TypeError (lists, dictionaries) *)
Variable nonneg : value -> option bool.
(** == of values *)
Variable veq : value -> value -> bool.

(** the points of plot_aggregate_data (helper.py:411-421), with positive_only=True *)
Definition scatter (df : frame) (variable_param model_reporter : string) : res (list (value * value)) :=
  let! marks := mapM (fun r => let! v := entry model_reporter r in of_option TypeError (nonneg v)) df in
  let kept := map snd (filter (fun p => fst p) (combine marks df)) in
  mapM (fun r => let! x := entry variable_param r in let! y := entry model_reporter r in Ok (x, y)) kept.
(** its file name (helper.py:430) *)
Definition scatter_file (exec_id model_reporter variable_param : string) : string := exec_id ++ "-" ++ model_reporter ++ "-per-" ++ variable_param ++ ".png".

(** the cells of plot_aggregate_data_heatmap (helper.py:435-445): set_index and unstack(level=0); unstack raises ValueError ("Index contains duplicate entries, cannot reshape") if a pair of values occurs
    twice.  The result is the list of the cells, (value of the first variable, value of the second variable) with what stands there. *)
Definition same_index (p q : value * value) : bool := veq (fst p) (fst q) && veq (snd p) (snd q).
Fixpoint duplicates (l : list (value * value)) : bool := match l with [] => false | p :: l => existsb (same_index p) l || duplicates l end.
Definition heatmap (df : frame) (v1 v2 model_reporter : string) : res (list ((value * value) * value)) :=
  let! cells := mapM (fun r => let! a := entry v1 r in let! b := entry v2 r in let! y := entry model_reporter r in Ok ((a, b), y)) df in
  if duplicates (map fst cells) then Err ValueError else Ok cells.
(** its file name (helper.py:458) *)
Definition heatmap_file (model_reporter v1 v2 : string) : string := "heatmap-" ++ model_reporter ++ "-" ++ v1 ++ "-" ++ v2 ++ ".png".

Inductive figure := Scatter (points : list (value * value)) | Heatmap (cells : list ((value * value) * value)).
(** The figures, with the names of their files, in the order in which they are saved (106-116).  [Err]: the script ends with an exception; figures saved before that stay. *)
Definition batch_figures (batch_run_id : string) (o : given) (df : frame) : res (list (string * figure)) :=
  let vp := variable_params o in
  let! scatters := mapM (fun p => let! pts := scatter df (fst p) (snd p) in Ok (scatter_file batch_run_id (snd p) (fst p), Scatter pts)) (list_prod vp (model_reporters df)) in
  match vp with
  | [v1; v2] =>
      let! maps := mapM (fun m => let! cells := heatmap df v1 v2 m in Ok (heatmap_file m v1 v2, Heatmap cells)) (model_reporters df) in
      Ok (scatters ++ maps)%list
  | _ => Ok scatters
  end.
End Figures.
