(** The simulation object: logic/sim.py (step, run_model, change_phase, wrap_up_execution). *)
From Coq Require Import ZArith List Bool.
From Verif Require Import Num Py Rewards SortedKeyList World Stakeholder Sched.
Import ListNotations.

Section Sim.
Variable A : Arith.
Variable so : list nat -> list nat -> list nat.
Notation num := (T A).

(** One value of one of the parameters in [other_fields] (sim.py:72-75). *)
Inductive setting :=
  | SetN (v : Z) | SetK (v : num) | SetA0 (v : num) | SetRel (v : num) | SetAbs (v : num) | SetMaxIter (v : Z) | SetPhi (v : num)
  | SetOrder (v : order) | SetGraphs (v : bool).

(** What wrap_up_execution exports (sim.py:433-443): the final state and whether it is described as an equilibrium (sim.py:325) *)
Record final := mkFinal { f_world : world A; f_converged : bool }.

(** What never changes after construction: class of self.schedule, iterations_after_convergence, total_phases, multi_phase_params *)
Record conf := mkConf { c_sched : order; c_itac : Z; c_phases : nat; c_multi : list (list setting) }.

(** Attributes of Simulation.  [s_rows]: what the data collector saw, oldest first (steps and state at each collect()). *)
Record sim := mkSim {
  s_c : conf; s_w : world A;
  s_n : Z; s_maxit : Z; s_order : order; s_graphs : bool;
  s_steps : nat; s_cons : nat; s_phase : nat;
  s_eq : list Z; s_piv : list nat; s_running : bool;
  s_rows : list (nat * world A); s_out : list final
}.
Definition set_w w s := mkSim (s_c s) w (s_n s) (s_maxit s) (s_order s) (s_graphs s) (s_steps s) (s_cons s) (s_phase s) (s_eq s) (s_piv s) (s_running s) (s_rows s) (s_out s).
Definition set_steps x s := mkSim (s_c s) (s_w s) (s_n s) (s_maxit s) (s_order s) (s_graphs s) x (s_cons s) (s_phase s) (s_eq s) (s_piv s) (s_running s) (s_rows s) (s_out s).
Definition set_cons x s := mkSim (s_c s) (s_w s) (s_n s) (s_maxit s) (s_order s) (s_graphs s) (s_steps s) x (s_phase s) (s_eq s) (s_piv s) (s_running s) (s_rows s) (s_out s).
Definition set_phase x s := mkSim (s_c s) (s_w s) (s_n s) (s_maxit s) (s_order s) (s_graphs s) (s_steps s) (s_cons s) x (s_eq s) (s_piv s) (s_running s) (s_rows s) (s_out s).
Definition set_eq x s := mkSim (s_c s) (s_w s) (s_n s) (s_maxit s) (s_order s) (s_graphs s) (s_steps s) (s_cons s) (s_phase s) x (s_piv s) (s_running s) (s_rows s) (s_out s).
Definition set_piv x s := mkSim (s_c s) (s_w s) (s_n s) (s_maxit s) (s_order s) (s_graphs s) (s_steps s) (s_cons s) (s_phase s) (s_eq s) x (s_running s) (s_rows s) (s_out s).
Definition set_rows x s := mkSim (s_c s) (s_w s) (s_n s) (s_maxit s) (s_order s) (s_graphs s) (s_steps s) (s_cons s) (s_phase s) (s_eq s) (s_piv s) (s_running s) x (s_out s).
Definition set_out x s := mkSim (s_c s) (s_w s) (s_n s) (s_maxit s) (s_order s) (s_graphs s) (s_steps s) (s_cons s) (s_phase s) (s_eq s) (s_piv s) (s_running s) (s_rows s) x.
Definition set_running x s := mkSim (s_c s) (s_w s) (s_n s) (s_maxit s) (s_order s) (s_graphs s) (s_steps s) (s_cons s) (s_phase s) (s_eq s) (s_piv s) x (s_rows s) (s_out s).
Definition set_misc n m o g s := mkSim (s_c s) (s_w s) n m o g (s_steps s) (s_cons s) (s_phase s) (s_eq s) (s_piv s) (s_running s) (s_rows s) (s_out s).

(** setattr(instance, field, value), with instance chosen as in sim.py:78-81 and 420-423: k and a0 belong to the reward scheme *)
Definition apply_setting (v : setting) (s : sim) : res sim :=
  let w := s_w s in
  match v with
  | SetN x => Ok (set_misc x (s_maxit s) (s_order s) (s_graphs s) s)
  | SetK x => let! r := set_k (w_rss w) x in Ok (set_w (with_rss r w) s)
  | SetA0 x => Ok (set_w (with_rss (set_a0 (w_rss w) x) w) s)
  | SetRel x => Ok (set_w (with_rel x w) s)
  | SetAbs x => Ok (set_w (with_abs x w) s)
  | SetMaxIter x => Ok (set_misc (s_n s) x (s_order s) (s_graphs s) s)
  | SetPhi x => Ok (set_w (with_phi x w) s)
  | SetOrder x => Ok (set_w (with_simul (is_simul x) w) (set_misc (s_n s) (s_maxit s) x (s_graphs s) s))
  | SetGraphs x => Ok (set_misc (s_n s) (s_maxit s) (s_order s) x s)
  end.

(** has_converged (sim.py:244-249) *)
Definition has_converged (s : sim) : bool := (c_itac (s_c s) <=? Z.of_nat (s_cons s))%Z.

(** wrap_up_execution (sim.py:433-443); the exporting functions only read the state.  File system errors are not modelled. *)
Definition wrap_up (s : sim) : sim :=
  set_out (s_out s ++ [mkFinal (s_w s) (has_converged s)]) (set_running false s).

(** the loops of change_phase over the pools (sim.py:415-417 and 425-429) *)
Definition unrank_pool (w : world A) (r : nat) : res (world A) :=
  let! w1 := rank_remove w r in rankm_remove w1 r.
Definition rerank_pool (w : world A) (r : nat) : res (world A) :=
  let! p := deref w r in
  let! p1 := pool_set_profit (w_rss w) p in
  let! w1 := rank_add (store w r (pool_set_desirability p1)) r in
  rankm_add w1 r.

(** the values of the current phase (sim.py:418-423) *)
Definition phase_settings (phase : nat) (multi : list (list setting)) : list setting :=
  flat_map (fun vs => match nth_error vs phase with Some v => [v] | None => [] end) multi.

(** change_phase (sim.py:412-431) *)
Definition change_phase (s : sim) : res sim :=
  let s1 := set_phase (S (s_phase s)) s in
  let! w1 := foldM unrank_pool (values (w_pools (s_w s1))) (s_w s1) in
  let vs := phase_settings (s_phase s1) (c_multi (s_c s1)) in
  let! s2 := foldM (fun s v => apply_setting v s) vs (set_w w1 s1) in
  let! w2 := foldM rerank_pool (values (w_pools (s_w s2))) (s_w s2) in
  let s3 := set_w w2 s2 in
  Ok (match vs with [] => s3 | _ => set_piv (s_piv s3 ++ [s_steps s3]) s3 end).

(** step (sim.py:205-232); [ch] are the random choices of the round *)
Definition sim_step (ch : choices) (s : sim) : res sim :=
  let s0 := set_rows (s_rows s ++ [(s_steps s, s_w s)]) s in
  let current_step := s_steps s0 in
  if (s_maxit s0 <=? Z.of_nat current_step)%Z then Ok (wrap_up s0)
  else
    let! w := schedule_step so (c_sched (s_c s0)) ch (s_w s0) in
    let s1 := set_steps (S current_step) (set_w w s0) in
    let idle_again s := set_w (with_idle true (s_w s)) s in
    if w_idle (s_w s1) then
      let s2 := set_cons (S (s_cons s1)) s1 in
      if has_converged s2 then
        let s3 := set_eq (s_eq s2 ++ [(Z.of_nat current_step - c_itac (s_c s2))%Z]) s2 in
        if Nat.ltb (s_phase s3) (c_phases (s_c s3) - 1) then
          let! s4 := change_phase s3 in Ok (idle_again s4)
        else Ok (wrap_up s3)
      else Ok (idle_again s2)
    else Ok (idle_again (set_cons 0 s1)).

(** initialize_pool_id_seq (sim.py:195-196) *)
Definition initialize_pool_id_seq (s : sim) : sim := set_w (with_idseq 0%nat (s_w s)) s.

(** run_model (sim.py:234-242).  [ch i] are the random choices of the i-th round.  [fuel] bounds the iterations of the loop. *)
Fixpoint run_loop (ch : nat -> choices) (fuel : nat) (s : sim) : res sim :=
  if (Z.of_nat (s_steps s) <=? s_maxit s)%Z && s_running s then
    match fuel with
    | O => Err OutOfFuel
    | S fuel' => let! s' := sim_step (ch (s_steps s)) s in run_loop ch fuel' s'
    end
  else Ok s.
(** a bound on the number of iterations, whichever phases are entered *)
Definition maxit_bound (s : sim) : Z :=
  fold_right Z.max (s_maxit s) (flat_map (fun vs => flat_map (fun v => match v with SetMaxIter x => [x] | _ => [] end) vs) (c_multi (s_c s))).
Definition run_model (ch : nat -> choices) (s : sim) : res sim :=
  run_loop ch (S (S (Z.to_nat (maxit_bound s)))) (initialize_pool_id_seq s).
End Sim.

Arguments SetN {A}. Arguments SetK {A}. Arguments SetA0 {A}. Arguments SetRel {A}. Arguments SetAbs {A}. Arguments SetMaxIter {A}. Arguments SetPhi {A}.
Arguments SetOrder {A}. Arguments SetGraphs {A}.
Arguments mkFinal {A}. Arguments f_world {A}. Arguments f_converged {A}.
Arguments mkConf {A}. Arguments c_sched {A}. Arguments c_itac {A}. Arguments c_phases {A}. Arguments c_multi {A}.
Arguments mkSim {A}. Arguments s_c {A}. Arguments s_w {A}. Arguments s_n {A}. Arguments s_maxit {A}. Arguments s_order {A}. Arguments s_graphs {A}.
Arguments s_steps {A}. Arguments s_cons {A}. Arguments s_phase {A}. Arguments s_eq {A}. Arguments s_piv {A}. Arguments s_running {A}. Arguments s_rows {A}.
Arguments s_out {A}.
Arguments set_w {A}. Arguments set_steps {A}. Arguments set_cons {A}. Arguments set_phase {A}. Arguments set_eq {A}. Arguments set_piv {A}.
Arguments set_rows {A}. Arguments set_out {A}. Arguments set_running {A}. Arguments set_misc {A}.
Arguments apply_setting {A}. Arguments has_converged {A}. Arguments wrap_up {A}. Arguments unrank_pool {A}. Arguments rerank_pool {A}.
Arguments phase_settings {A}. Arguments change_phase {A}. Arguments sim_step {A}. Arguments initialize_pool_id_seq {A}. Arguments run_loop {A}.
Arguments maxit_bound {A}. Arguments run_model {A}.
