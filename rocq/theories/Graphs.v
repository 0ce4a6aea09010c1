(** The figures of an execution: export_graphs (logic/sim.py:354-381) with plot_line and plot_stack_area_chart (logic/helper.py:365-400).
    The model gives what is drawn; colours, labels, the legend and the drawing itself (matplotlib, seaborn) are not modelled. *)
From Coq Require Import ZArith List Bool String.
From Verif Require Import Num Py World Sim Main Viz.
Import ListNotations.
Open Scope num_scope.

Section Graphs.
Variable A : Arith.
Notation num := (T A).

(** what a figure shows, and the file it is saved to.  [LineChart]: the values by round; the rounds marked 'Equilibrium reached' with a vertical line; the points marked
    'Parameter change'.  [AreaChart]: the rounds of the horizontal axis; the layers, from the bottom up. *)
Inductive figure :=
  | LineChart (file : string) (points : list (mvalue A)) (equilibria : list Z) (changes : list (nat * mvalue A))
  | AreaChart (file : string) (rounds : list nat) (layers : list (list num)).
Definition figure_file (f : figure) : string := match f with LineChart x _ _ _ => x | AreaChart x _ _ => x end.

(** plot_line (helper.py:365-385); data[step] raises KeyError when there is no such round *)
Definition plot_line (eid name : string) (data : list (mvalue A)) (equilibrium_steps : list Z) (pivot_steps : list nat) : res figure :=
  let! changes := mapM (fun step => let! v := of_option KeyError (nth_error data step) in Ok (step, v)) pivot_steps in
  Ok (LineChart (eid ++ "-" ++ name ++ ".png") data equilibrium_steps changes).
(** plot_stack_area_chart (helper.py:388-400): np.array(rows).T without its first column.  Rows of different lengths: ValueError (before numpy 1.24: IndexError). *)
Definition plot_stack (eid : string) (data : list (mvalue A)) : res figure :=
  let! table := mapM (fun v => match v with MNums l => Ok l | _ => Err ValueError end) data in
  let width := match table with l :: _ => List.length l | [] => 0%nat end in
  if forallb (fun l => Nat.eqb (List.length l) width) table
  then Ok (AreaChart ("poolDynamics-" ++ eid ++ ".png") (seq 1 (List.length data - 1)) (map (fun i => map (fun l => nth i l zero) (tl table)) (seq 0 width)))
  else Err ValueError.
(** the column of a metric in the table of the data collector *)
Definition column (j : nat) (rows : list (list (mvalue A))) : res (list (mvalue A)) := mapM (fun row => of_option IndexError (nth_error row j)) rows.
(** the body of the loop of export_graphs (sim.py:367-381): the type of the first value decides *)
Definition graph_of (eid : string) (rows : list (list (mvalue A))) (equilibrium_steps : list Z) (pivot_steps : list nat) (j : nat) (i : Z) : res (list figure) :=
  let! data := column j rows in
  let! name := of_option KeyError (reporter_name i) in
  match data with
  | [] => Err KeyError
  | MNums _ :: _ => let! f := plot_stack eid data in Ok [f]
  | MDict _ :: _ | MRows _ :: _ => Ok []
  | _ => let! f := plot_line eid name data equilibrium_steps pivot_steps in Ok [f]
  end.
(** export_graphs (sim.py:354-381) *)
Definition export_graphs (eid : string) (cols : list Z) (rows : list (list (mvalue A))) (equilibrium_steps : list Z) (pivot_steps : list nat) : res (list figure) :=
  match rows with
  | [] => Ok []
  | _ => let! fs := mapM (fun '(j, i) => graph_of eid rows equilibrium_steps pivot_steps j i) (combine (seq 0 (List.length cols)) cols) in Ok (List.concat fs)
  end.
(** the last statement of wrap_up_execution (sim.py:442-443), at the end of main *)
Definition figures_of (eid : string) (oc : outcome A) : res (list figure) :=
  let s := pg_sim (oc_end oc) in
  if s_graphs s then export_graphs eid (columns (ac_metrics (oc_args oc))) (pg_rows (oc_end oc)) (s_eq s) (s_piv s) else Ok [].
End Graphs.

Arguments LineChart {A}. Arguments AreaChart {A}. Arguments figure_file {A}. Arguments plot_line {A}. Arguments plot_stack {A}. Arguments column {A}. Arguments graph_of {A}.
Arguments export_graphs {A}. Arguments figures_of {A}.
