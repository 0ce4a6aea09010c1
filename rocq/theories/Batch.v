(** The batch runner (custom_batchrunner.py), the csv and sequence files (logic/helper.py:343-362) and the naming of runs (logic/sim.py:48-64). *)
From Coq Require Import ZArith List Bool String Ascii DecimalString.
From Verif Require Import Num Py Rewards World Sched Sim.
Import ListNotations.

(** * Parameters *)
(** Python values, as far as the batch runner distinguishes them: strings, integers, values that can not be iterated (floats, None, booleans, paths;
    [repr] stands for the value), and lists.  Other iterables (tuples, sets, ranges) are not modelled. *)
Inductive value := VStr (s : string) | VInt (z : Z) | VAtom (repr : string) | VList (l : list value).
(** dictionaries with string keys, in insertion order *)
Definition sdict (V : Type) := list (string * V).
Fixpoint sget {V} (d : sdict V) (k : string) : option V :=
  match d with [] => None | (k', v) :: d' => if String.eqb k' k then Some v else sget d' k end.
Fixpoint sset {V} (d : sdict V) (k : string) (v : V) : sdict V :=
  match d with [] => [(k, v)] | (k', v') :: d' => if String.eqb k' k then (k, v) :: d' else (k', v') :: sset d' k v end.
Definition kwargs := sdict value.

(** itertools.product( *ls ): the last factor varies fastest *)
Fixpoint product {X} (ls : list (list X)) : list (list X) :=
  match ls with [] => [[]] | l :: ls' => flat_map (fun x => map (cons x) (product ls')) l end.

(** one parameter of _make_model_kwargs (131-142): the values and whether the parameter is fixed *)
Definition all_values (p : string * value) : list (string * value) * bool :=
  match snd p with
  | VList l => (map (fun v => (fst p, v)) l, false)
  | v => ([(fst p, v)], true)
  end.
(** _make_model_kwargs (112-146); parameters is a dictionary, so dict(kwargs) has the entries of kwargs *)
Definition make_model_kwargs (parameters : kwargs) : list kwargs * list string :=
  (product (map (fun p => fst (all_values p)) parameters),
   map fst (filter (fun p => snd (all_values p)) parameters)).

(** str() of an integer *)
Definition str_int (z : Z) : string := NilEmpty.string_of_int (Z.to_int z).

Section Jobs.
(** str() of the values of parameters *)
Variable py_str : value -> string.
(** '-'.join([...]) (76) *)
Definition make_execution_id (params : kwargs) (fixed : list string) : string :=
  String.concat "-" (map (fun e => String.append (fst e) (String.append "-" (py_str (snd e)))) (filter (fun e => negb (existsb (String.eqb (fst e)) fixed)) params)).
(** 69-73 *)
Definition add_seeds (initial_seed : Z) (iterations : nat) (l : list kwargs) : list kwargs :=
  flat_map (fun kw => map (fun i => sset kw "seed" (VInt (initial_seed + Z.of_nat i))) (seq 0 iterations)) l.
(** 74-77 *)
Fixpoint number (fixed : list string) (i : nat) (l : list kwargs) : list kwargs :=
  match l with
  | [] => []
  | params :: l' => sset (sset params "seq_id" (VInt (Z.of_nat (i + 1)))) "execution_id" (VStr (make_execution_id params fixed)) :: number fixed (S i) l'
  end.
(** final_kwargs_list (66-77): the arguments of the runs; [parameters] includes parent_dir *)
Definition jobs (parameters : kwargs) (iterations : nat) (initial_seed : Z) : list kwargs :=
  let '(kwargs_list, fixed) := make_model_kwargs parameters in
  number fixed 0 (add_seeds initial_seed iterations kwargs_list).
End Jobs.

(** The name of the output directory of a simulation, relative to the parent directory (sim.py:48-62).  [fresh]: the sequence number read from the
    file if seq_id is -1; [generated]: what generate_execution_id returns. *)
Definition run_directory (generated : string) (fresh : Z) (kw : kwargs) : option string :=
  match sget kw "seq_id", sget kw "execution_id" with
  | Some (VInt s), Some (VStr e) =>
      let seq_id := if Z.eqb s (-1) then fresh else s in
      let id := if String.eqb e "" || String.eqb e "temp" then generated else e in
      Some (String.append (str_int seq_id) (String.append "-" id))
  | _, _ => None
  end.

(** * Collecting the results *)
Section Collect.
Variable R : Type.
(** == of values, as used by the keys of a Counter *)
Variable veq : value -> value -> bool.
Fixpoint tuple_eq (t t' : list value) : bool :=
  match t, t' with [], [] => true | x :: t, y :: t' => veq x y && tuple_eq t t' | _, _ => false end.
(** lists can not be hashed *)
Definition hashable (v : value) : bool := match v with VList _ => false | _ => true end.
Record row := mkRow { run_id : nat; iteration : Z; run_data : R }.
(** the state of the loop: the keys counted so far, run_counter, results *)
Definition collect_state := (list (list value) * nat * list row)%type.
(** _fn (95-105) *)
Definition record_run (st : collect_state) (run : list value * list R) : res collect_state :=
  let '(counted, next, results) := st in
  if forallb hashable (fst run) then
    let counted' := counted ++ [fst run] in
    let iteration := Z.of_nat (List.length (filter (tuple_eq (fst run)) counted')) in
    Ok (counted', S next, results ++ map (fun d => mkRow next (iteration - 1) d) (snd run))
  else Err TypeError.
(** 107-114; [finished]: what the workers return, in the order in which they finish (or the order of the jobs with one process) *)
Definition collect_results (finished : list (list value * list R)) : res (list row) :=
  let! st := foldM record_run finished ([], 0%nat, []) in Ok (snd st).
End Collect.
Arguments mkRow {R}. Arguments run_id {R}. Arguments iteration {R}. Arguments run_data {R}. Arguments record_run {R}. Arguments collect_results {R}.

(** * One run of the batch *)
Section Run.
Variable A : Arith.
Variable so : list nat -> list nat -> list nat.
(** while model.running and model.schedule.steps <= max_steps: model.step() (175-176); [fuel] bounds the iterations of the loop *)
Fixpoint batch_loop (ch : nat -> choices) (max_steps : Z) (fuel : nat) (s : sim A) : res (sim A) :=
  if s_running s && (Z.of_nat (s_steps s) <=? max_steps)%Z then
    match fuel with
    | O => Err OutOfFuel
    | S fuel' => let! s' := sim_step so (ch (s_steps s)) s in batch_loop ch max_steps fuel' s'
    end
  else Ok s.
Definition batch_run (ch : nat -> choices) (max_steps : Z) (s : sim A) : res (sim A) := batch_loop ch max_steps (S (S (Z.to_nat max_steps))) s.

(** range(0, n, period) *)
Definition range_step (n : nat) (period : Z) : res (list nat) :=
  if (period =? 0)%Z then Err ValueError
  else Ok (if (period <? 0)%Z then [] else filter (fun i => Z.eqb (Z.of_nat i mod period) 0) (seq 0 n)).
(** the steps for which data are returned (180-182) *)
Definition data_steps (n : nat) (period : Z) : res (list Z) :=
  let! r := range_step n period in
  let steps := map Z.of_nat r in
  Ok (match steps with
      | [] => [Z.of_nat n - 1]
      | _ => if Z.eqb (List.last steps 0) (Z.of_nat n - 1) then steps else steps ++ [Z.of_nat n - 1]
      end)%Z.
(** _model_run_func without the arguments (179-210): the step and the world whose metrics make up each row.  The reporters are functions of the world
    at collect(), so that instead of their values the world itself is recorded.  There are no agent reporters (sim.py:142). *)
Definition run_rows (s : sim A) (period : Z) : res (list (Z * world A)) :=
  let! steps := data_steps (s_steps s) period in
  mapM (fun i => let! r := py_index (s_rows s) i in Ok (i, snd r)) steps.
(** what is written to the aggregate results file (199-208): the rows for step n - 1 *)
Definition aggregate_rows (s : sim A) (period : Z) : res (list (world A)) :=
  let! rows := run_rows s period in
  Ok (map snd (filter (fun r => Z.eqb (fst r) (Z.of_nat (s_steps s) - 1)) rows)).
End Run.
Arguments batch_loop {A}. Arguments batch_run {A}. Arguments run_rows {A}. Arguments aggregate_rows {A}.

(** * write_to_csv (helper.py:357-362) *)
(** Lines of the file.  [Row i]: the row of writer i. *)
Inductive line := Header | Row (i : nat).
(** A call consists of two effects on the file: opening it in append mode, which positions the stream at the end, so that tell() is 0 iff the file is
    empty then; and closing it, which appends the buffered lines at once.  (Rows longer than the buffer, 8 kB, would be written in pieces.) *)
Inductive csv_event := Opens (i : nat) | Closes (i : nat).
(** the file, and the writers that opened it but did not close it yet with the outcome of their test *)
Definition csv_state := (list line * dict bool)%type.
Definition csv_step (st : csv_state) (e : csv_event) : res csv_state :=
  let '(file, pending) := st in
  match e with
  | Opens i => Ok (file, set pending i (match file with [] => true | _ => false end))
  | Closes i => let! first := of_option ValueError (get pending i) in
                Ok (file ++ (if first then [Header] else []) ++ [Row i], pop pending i)
  end.
Definition csv_run (st : csv_state) (l : list csv_event) : res csv_state := foldM csv_step l st.

(** * read_seq_id and write_seq_id (helper.py:343-354) *)
(** int(f.read()); the file consists of the digits written by write_seq_id *)
Definition parse_seq (s : string) : res Z := match NilZero.int_of_string s with Some d => Ok (Z.of_int d) | None => Err ValueError end.
Definition read_seq (file : option string) : res Z := match file with None => Ok 0%Z | Some s => parse_seq s end.
(** writing [s] at the beginning of a file with contents [c] *)
Definition overwrite (s c : string) : string := String.append s (String.substring (String.length s) (String.length c - String.length s) c).
(** The effects of the three statements of an execution on the file (sim.py:50-51, custom_batchrunner.py:60-61): reading it, opening it for
    writing (which empties it), and closing it (which writes the number). *)
Inductive seq_event := Reads (i : nat) | Truncates (i : nat) | Writes (i : nat).
(** the file, and the numbers that the executions have computed *)
Definition seq_state := (option string * dict Z)%type.
Definition seq_step (st : seq_state) (e : seq_event) : res seq_state :=
  let '(file, ids) := st in
  match e with
  | Reads i => let! n := read_seq file in Ok (file, set ids i (n + 1)%Z)
  | Truncates i => Ok (Some EmptyString, ids)
  | Writes i => let! n := of_option ValueError (get ids i) in
                Ok (Some (overwrite (str_int n) (match file with Some c => c | None => EmptyString end)), ids)
  end.
Definition seq_run (st : seq_state) (l : list seq_event) : res seq_state := foldM seq_step l st.
