(** The tables and descriptors a simulation writes: logic/sim.py:256-346.  The model gives the values of the cells; the writing of csv and json files and the
    names of the files are not modelled.  Python's round to 15 or 4 decimals is a parameter: any function on numbers. *)
From Coq Require Import ZArith List Bool.
From Verif Require Import Num Py Rewards SortedKeyList World Stakeholder Helper Sched Sim Reporters.
Import ListNotations.
Open Scope num_scope.

Section Export.
Variable A : Arith.
Notation num := (T A).
(** round(x, 15) and round(x, 4) *)
Variables rnd rnd4 : num -> num.

Inductive status := Abstainer | Operator | Delegator.
(** one row of final-state-stakeholders-*.csv (sim.py:275-277) *)
Record agent_row := mkAgentRow {
  ar_id : nat; ar_stake : num; ar_cost : num; ar_pp : num; ar_status : status; ar_pools : nat; ar_pool_stake : num; ar_split : num; ar_splitter : bool
}.
(** the row of one agent (sim.py:281-294) *)
Definition agent_row_of (w : world A) (id : nat) : res agent_row :=
  let! ag := the_agent w id in
  let! pp := potential_profit (w_rss w) (a_stake ag) (a_cost ag) in
  let st := match a_strategy ag with
            | None => Abstainer
            | Some s => if (0 <? length (s_owned s))%nat then Operator else Delegator
            end in
  let count := match a_strategy ag with None => 0%nat | Some s => length (s_owned s) end in
  let! pool_stake := match a_strategy ag with
                     | None => Ok zero
                     | Some s => let! ps := mapM (deref w) (values (s_owned s)) in Ok (psum (map p_stake ps))
                     end in
  let split := pool_splitting_profit (r_a0 (w_rss w)) (w_phi w) (a_cost ag) (a_stake ag) in
  Ok (mkAgentRow id (rnd (a_stake ag)) (rnd (a_cost ag)) (rnd pp) st count pool_stake split (zero <? split)).
(** export_agents_file (sim.py:274-299) *)
Definition agents_table (w : world A) : res (list agent_row) := mapM (agent_row_of w) (seq 0 (length (w_agents w))).

(** one row of final-state-pools-*.csv (sim.py:302-303) *)
Record pool_row := mkPoolRow {
  pr_id : nat; pr_owner : nat; pr_owner_stake : num; pr_pledge : num; pr_stake : num; pr_owner_cost : num; pr_cost : num; pr_margin : num; pr_pp : num; pr_des : num
}.
Definition pool_row_of (w : world A) (p : pool A) : res pool_row :=
  let! ag := the_agent w (p_owner p) in
  Ok (mkPoolRow (p_id p) (p_owner p) (rnd (a_stake ag)) (rnd (p_pledge p)) (rnd (p_stake p)) (rnd (a_cost ag)) (rnd (p_cost p)) (rnd (p_margin p)) (p_pp p) (p_des p)).
(** export_pools_file (sim.py:301-314) *)
Definition pools_table (w : world A) : res (list pool_row) :=
  let! ps := pools_list w in mapM (pool_row_of w) ps.

(** export_final_state_desc_file (sim.py:322-332) *)
Record final_desc := mkFinalDesc { fd_equilibrium : bool; fd_pools : nat; fd_operators : nat; fd_nakamoto : nat; fd_pledge : num }.
Definition final_descriptors (s : sim A) : res final_desc :=
  let w := s_w s in
  let! ops := operator_count w in
  let! nak := nakamoto w in
  let! pl := total_pledge w in
  Ok (mkFinalDesc (has_converged s) (number_of_pools w) ops nak (rnd4 pl)).

(** export_initial_state_desc_file (sim.py:256-272), called at the end of the construction, when the attribute pools does not exist yet: the Nakamoto
    coefficient is the one of the stakes.  get_stake_distr_stats (model_reporters.py:375-378) without the standard deviation; numpy raises ValueError for
    the maximum of an empty array. *)
Record initial_desc := mkInitialDesc { id_active : num; id_max : num; id_min : num; id_mean : num; id_median : num; id_nakamoto : nat; id_efficient : nat }.
Definition min_of (l : list num) : res num := match l with [] => Err ValueError | x :: l' => Ok (fold_left pmin l' x) end.
Definition initial_descriptors (w : world A) : res initial_desc :=
  let l := map a_stake (agents_list w) in
  let! mx := max_of l in
  let! mn := min_of l in
  let! me := mean l in
  let! md := median l in
  let! nak := nakamoto_initial w in
  let! eff := cost_efficient_count w in
  Ok (mkInitialDesc (active_stake_agents w) mx mn me md nak eff).
End Export.
Arguments mkAgentRow {A}. Arguments ar_id {A}. Arguments ar_stake {A}. Arguments ar_cost {A}. Arguments ar_pp {A}. Arguments ar_status {A}. Arguments ar_pools {A}.
Arguments ar_pool_stake {A}. Arguments ar_split {A}. Arguments ar_splitter {A}. Arguments agent_row_of {A}. Arguments agents_table {A}.
Arguments mkPoolRow {A}. Arguments pr_id {A}. Arguments pr_owner {A}. Arguments pr_owner_stake {A}. Arguments pr_pledge {A}. Arguments pr_stake {A}. Arguments pr_owner_cost {A}.
Arguments pr_cost {A}. Arguments pr_margin {A}. Arguments pr_pp {A}. Arguments pr_des {A}. Arguments pool_row_of {A}. Arguments pools_table {A}.
Arguments mkFinalDesc {A}. Arguments fd_equilibrium {A}. Arguments fd_pools {A}. Arguments fd_operators {A}. Arguments fd_nakamoto {A}. Arguments fd_pledge {A}. Arguments final_descriptors {A}.
Arguments mkInitialDesc {A}. Arguments id_active {A}. Arguments id_max {A}. Arguments id_min {A}. Arguments id_mean {A}. Arguments id_median {A}. Arguments id_nakamoto {A}. Arguments id_efficient {A}.
Arguments min_of {A}. Arguments initial_descriptors {A}.
