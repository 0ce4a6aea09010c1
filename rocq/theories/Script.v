(** The script batch-run.py and the rows that batch runs write to the aggregate results (custom_batchrunner.py:184-209). *)
From Coq Require Import ZArith List Bool String.
From Verif Require Import Num Py Batch.
Import ListNotations.
Open Scope string_scope.

(** {**d, **d'}: entries of d' replace those of d with the same key, in place; other entries are appended *)
Definition merge {V} (d d' : sdict V) : sdict V := fold_left (fun d e => sset d (fst e) (snd e)) d' d.
(** stepdata[0] when there are no agent reporters (197): the step, the arguments of the run and its metrics *)
Definition step_data (step : Z) (kw model_data : kwargs) : kwargs := merge (merge [("Step", VInt step)] kw) model_data.
(** header and row (201-202) *)
Definition shown (fixed : list string) (e : string * value) : bool := negb (existsb (String.eqb (fst e)) fixed).
Definition csv_header (fixed : list string) (d : kwargs) : list string := map fst (filter (shown fixed) d).
Definition csv_row (fixed : list string) (d : kwargs) : list value := map snd (filter (shown fixed) d).

(** * batch-run.py *)
(** The options that become parameters, with their defaults, in the order in which they are declared (22-62).  Numbers that are not integers are given by their text. *)
Definition script_options : kwargs :=
  [("max_iterations", VInt 2000); ("n", VInt 1000); ("k", VList [VInt 100; VInt 200; VInt 300]); ("a0", VAtom "0.3"); ("inactive_stake_fraction", VInt 0);
   ("inactive_stake_fraction_known", VAtom "False"); ("pareto_param", VAtom "2.0"); ("cost_min", VAtom "1e-05"); ("cost_max", VAtom "0.0001"); ("extra_pool_cost_fraction", VAtom "0.4");
   ("stake_distr_source", VStr "Pareto"); ("reward_scheme", VInt 0); ("relative_utility_threshold", VInt 0); ("absolute_utility_threshold", VInt 0); ("iterations_after_convergence", VInt 10);
   ("agent_profile_distr", VList [VInt 1; VInt 0; VInt 0])].
(** What argparse makes of the command line: the options that were given, with their values; a list for the options with nargs="*" or "+".  The checks of argparse (integers, numbers,
    choices of the reward scheme) are not modelled: whatever the values are, the script passes them on. *)
Definition given := kwargs.
Definition option_value (o : given) (name : string) (default : value) : value := match sget o name with Some v => v | None => default end.
(** args_dict without execution_id, seed and agent_profile_distr (67-78); params (83-86) *)
Definition script_parameters (o : given) : kwargs :=
  map (fun e => (fst e, option_value o (fst e) (snd e))) (filter (fun e => negb (String.eqb (fst e) "agent_profile_distr")) script_options).
(** the runs of the batch (91-101, custom_batchrunner.py:66-77); [drawn]: random.randint(0, 9999999) (75-76); [path]: the output directory *)
Definition script_jobs (py_str : value -> string) (o : given) (drawn : Z) (path : string) : list kwargs :=
  let seed := match sget o "seed" with Some (VInt z) => z | _ => drawn end in
  jobs py_str (merge (script_parameters o) [("parent_dir", VAtom path)]) 1 seed.
