(** Activation orders: mesa.time 1.0.0 (BaseScheduler, RandomActivation, SimultaneousActivation) and logic/activations.py. *)
From Coq Require Import ZArith List Bool.
From Verif Require Import Num Py Rewards SortedKeyList World Stakeholder.
Import ListNotations.

(** Keys of agent_activation_orders (sim.py:99-105) *)
Inductive order := Random | Sequential | Simultaneous | Semisimultaneous.
(** "simultaneous" in self.model.agent_activation_order.lower() *)
Definition is_simul (o : order) : bool := match o with Simultaneous | Semisimultaneous => true | _ => false end.

(** What a scheduler does to an agent. *)
Inductive event := EStep (a : nat) | EAdv (a : nat).

(** The random choices of one round: the shuffle of RandomActivation, and the i-th random.sample of SemiSimultaneousActivation (arguments: the
    population and the sample size). *)
Record choices := mkChoices { c_shuffle : list nat -> list nat; c_sample : nat -> list nat -> nat -> list nat }.

Definition batch_events (batch : list nat) : list event := map EStep batch ++ map EAdv batch.

(** SemiSimultaneousActivation.step (activations.py:19-34); [z] is simultaneous_moves, [all_move] is all_agents_move.
    [fuel] bounds the iterations of the while loop. *)
Fixpoint semi_loop (ch : choices) (z : nat) (all_move : bool) (fuel i : nat) (agent_keys : list nat) : res (list event) :=
  match agent_keys with
  | [] => Ok []
  | _ =>
      match fuel with
      | O => Err OutOfFuel
      | S fuel' =>
          let k := if Nat.ltb z (length agent_keys) then z else length agent_keys in
          let batch := c_sample ch i agent_keys k in
          let rest := if all_move then filter (fun key => negb (inb key batch)) agent_keys else [] in
          let! evs := semi_loop ch z all_move fuel' (S i) rest in
          Ok (batch_events batch ++ evs)
      end
  end.

(** The default arguments of SemiSimultaneousActivation (activations.py:14) *)
Definition simultaneous_moves : nat := 5.
Definition all_agents_move : bool := true.

(** The events of one round of the scheduler of class [o] over the agents [ks] (in the order in which they were added).  BaseScheduler and
    RandomActivation call step() of each agent; SimultaneousActivation calls step() of all and then advance() of all. *)
Definition round_events (o : order) (ch : choices) (ks : list nat) : res (list event) :=
  match o with
  | Sequential => Ok (map EStep ks)
  | Random => Ok (map EStep (c_shuffle ch ks))
  | Simultaneous => Ok (batch_events ks)
  | Semisimultaneous => semi_loop ch simultaneous_moves all_agents_move (length ks) 0 ks
  end.

Section Do.
Variable A : Arith.
Variable so : list nat -> list nat -> list nat.
Definition do_event (w : world A) (e : event) : res (world A) :=
  match e with EStep a => agent_step so w a | EAdv a => advance so w a end.
(** schedule.step() *)
Definition schedule_step (o : order) (ch : choices) (w : world A) : res (world A) :=
  let! evs := round_events o ch (keys (w_agents w)) in
  foldM do_event evs w.
End Do.
Arguments do_event {A}. Arguments schedule_step {A}.
