(** The objects of the simulation: pools (logic/pool.py), strategies (logic/strategy.py), agents, and the part of the model object (logic/sim.py) on which
    agents act. *)
From Coq Require Import ZArith List Bool.
From Verif Require Import Num Py Rewards SortedKeyList.
Import ListNotations.
Open Scope num_scope.

Section World.
Variable A : Arith.
Notation num := (T A).

(** Pool attributes (pool.py:6-15). *)
Record pool := mkPool {
  p_id : nat; p_cost : num; p_pledge : num; p_stake : num; p_owner : nat; p_private : bool;
  p_delegators : dict num; p_pp : num; p_margin : num; p_des : num
}.

(** pool.py:21-32, margin setter: also recomputes the desirability *)
Definition pool_set_margin (m : num) (p : pool) : pool :=
  mkPool (p_id p) (p_cost p) (p_pledge p) (p_stake p) (p_owner p) (p_private p) (p_delegators p) (p_pp p) m (desirability m (p_pp p)).
(** pool.py:27-29 *)
Definition pool_set_profit (r : rss A) (p : pool) : res pool :=
  let! pp := potential_profit r (p_pledge p) (p_cost p) in
  Ok (mkPool (p_id p) (p_cost p) (p_pledge p) (p_stake p) (p_owner p) (p_private p) (p_delegators p) pp (p_margin p) (p_des p)).
(** pool.py:31-32 *)
Definition pool_set_desirability (p : pool) : pool :=
  mkPool (p_id p) (p_cost p) (p_pledge p) (p_stake p) (p_owner p) (p_private p) (p_delegators p) (p_pp p) (p_margin p) (desirability (p_margin p) (p_pp p)).
(** Pool.__init__ (pool.py:6-15) *)
Definition new_pool (id : nat) (cost pledge : num) (owner : nat) (r : rss A) (margin : num) (private : bool) : res pool :=
  let! pp := potential_profit r pledge cost in
  Ok (mkPool id cost pledge pledge owner private [] pp margin (desirability margin pp)).
(** Pool.update_delegation (pool.py:34-40) *)
Definition update_delegation (v : num) (delegator : nat) (p : pool) : pool :=
  let stake1 := match get (p_delegators p) delegator with Some old => p_stake p -' old | None => p_stake p end in
  let stake2 := stake1 +' v in
  let d1 := set (p_delegators p) delegator v in
  let d2 := if v <? min_stake_unit then pop d1 delegator else d1 in
  mkPool (p_id p) (p_cost p) (p_pledge p) stake2 (p_owner p) (p_private p) d2 (p_pp p) (p_margin p) (p_des p).

(** Strategy (strategy.py).  [s_owned] maps pool ids to references to pool objects. *)
Record strategy := mkStrategy { s_alloc : dict num; s_owned : dict nat }.
Definition empty_strategy : strategy := mkStrategy [] [].

(** PROFILE_MAPPING (stakeholder_profiles.py:177-181) *)
Inductive profile := NonMyopic | Myopic | Abstainer.

(** Stakeholder attributes (stakeholder.py:14-22); an Abstainer has strategy None (stakeholder_profiles.py:168-171) *)
Record agent := mkAgent {
  a_id : nat; a_profile : profile; a_stake : num; a_cost : num;
  a_strategy : option strategy; a_new : option strategy
}.
Definition new_agent (id : nat) (p : profile) (stake cost : num) : agent :=
  mkAgent id p stake cost (match p with Abstainer => None | _ => Some empty_strategy end) None.
Definition agent_set_strategy (s : option strategy) (a : agent) : agent :=
  mkAgent (a_id a) (a_profile a) (a_stake a) (a_cost a) s (a_new a).
Definition agent_set_new (s : option strategy) (a : agent) : agent :=
  mkAgent (a_id a) (a_profile a) (a_stake a) (a_cost a) (a_strategy a) s.
Definition agent_set_stake (s : num) (a : agent) : agent :=
  mkAgent (a_id a) (a_profile a) s (a_cost a) (a_strategy a) (a_new a).

(** The model attributes agents read and write.  [w_heap] holds the pool objects, [w_next] the next fresh reference.  [w_simul] is
    ["simultaneous" in agent_activation_order.lower()]. *)
Record world := mkWorld {
  w_rss : rss A; w_rel : num; w_abs : num; w_phi : num; w_simul : bool; w_total : num;
  w_agents : dict agent; w_heap : dict pool; w_next : nat; w_pools : dict nat;
  w_rank : sl A; w_rankm : sl A; w_idseq : nat; w_idle : bool
}.
Definition with_rss x w := mkWorld x (w_rel w) (w_abs w) (w_phi w) (w_simul w) (w_total w) (w_agents w) (w_heap w) (w_next w) (w_pools w) (w_rank w) (w_rankm w) (w_idseq w) (w_idle w).
Definition with_rel x w := mkWorld (w_rss w) x (w_abs w) (w_phi w) (w_simul w) (w_total w) (w_agents w) (w_heap w) (w_next w) (w_pools w) (w_rank w) (w_rankm w) (w_idseq w) (w_idle w).
Definition with_abs x w := mkWorld (w_rss w) (w_rel w) x (w_phi w) (w_simul w) (w_total w) (w_agents w) (w_heap w) (w_next w) (w_pools w) (w_rank w) (w_rankm w) (w_idseq w) (w_idle w).
Definition with_phi x w := mkWorld (w_rss w) (w_rel w) (w_abs w) x (w_simul w) (w_total w) (w_agents w) (w_heap w) (w_next w) (w_pools w) (w_rank w) (w_rankm w) (w_idseq w) (w_idle w).
Definition with_simul x w := mkWorld (w_rss w) (w_rel w) (w_abs w) (w_phi w) x (w_total w) (w_agents w) (w_heap w) (w_next w) (w_pools w) (w_rank w) (w_rankm w) (w_idseq w) (w_idle w).
Definition with_agents x w := mkWorld (w_rss w) (w_rel w) (w_abs w) (w_phi w) (w_simul w) (w_total w) x (w_heap w) (w_next w) (w_pools w) (w_rank w) (w_rankm w) (w_idseq w) (w_idle w).
Definition with_heap x w := mkWorld (w_rss w) (w_rel w) (w_abs w) (w_phi w) (w_simul w) (w_total w) (w_agents w) x (w_next w) (w_pools w) (w_rank w) (w_rankm w) (w_idseq w) (w_idle w).
Definition with_pools x w := mkWorld (w_rss w) (w_rel w) (w_abs w) (w_phi w) (w_simul w) (w_total w) (w_agents w) (w_heap w) (w_next w) x (w_rank w) (w_rankm w) (w_idseq w) (w_idle w).
Definition with_rank x w := mkWorld (w_rss w) (w_rel w) (w_abs w) (w_phi w) (w_simul w) (w_total w) (w_agents w) (w_heap w) (w_next w) (w_pools w) x (w_rankm w) (w_idseq w) (w_idle w).
Definition with_rankm x w := mkWorld (w_rss w) (w_rel w) (w_abs w) (w_phi w) (w_simul w) (w_total w) (w_agents w) (w_heap w) (w_next w) (w_pools w) (w_rank w) x (w_idseq w) (w_idle w).
Definition with_idseq x w := mkWorld (w_rss w) (w_rel w) (w_abs w) (w_phi w) (w_simul w) (w_total w) (w_agents w) (w_heap w) (w_next w) (w_pools w) (w_rank w) (w_rankm w) x (w_idle w).
Definition with_idle x w := mkWorld (w_rss w) (w_rel w) (w_abs w) (w_phi w) (w_simul w) (w_total w) (w_agents w) (w_heap w) (w_next w) (w_pools w) (w_rank w) (w_rankm w) (w_idseq w) x.

(** Object access.  A reference that is not in the heap cannot occur in Python; Dangling marks it in the model. *)
Definition deref (w : world) (r : nat) : res pool := of_option Dangling (get (w_heap w) r).
Definition store (w : world) (r : nat) (p : pool) : world := with_heap (set (w_heap w) r p) w.
(** allocation of a new object *)
Definition alloc (w : world) (p : pool) : world * nat :=
  (mkWorld (w_rss w) (w_rel w) (w_abs w) (w_phi w) (w_simul w) (w_total w) (w_agents w) (set (w_heap w) (w_next w) p) (S (w_next w)) (w_pools w)
           (w_rank w) (w_rankm w) (w_idseq w) (w_idle w), w_next w).
(** copy.deepcopy of a pool: all its fields are immutable values except the dictionary of delegators, which is copied too *)
Definition deepcopy (w : world) (r : nat) : res (world * nat) :=
  let! p := deref w r in Ok (alloc w p).

Definition the_agent (w : world) (a : nat) : res agent := of_option KeyError (get (w_agents w) a).
Definition put_agent (w : world) (a : nat) (ag : agent) : world := with_agents (set (w_agents w) a ag) w.
(** agent.strategy.<attr>: raises AttributeError on an Abstainer *)
Definition the_strategy (ag : agent) : res strategy := of_option AttributeError (a_strategy ag).
(** model.pools[pool_id] *)
Definition the_pool (w : world) (id : nat) : res nat := of_option KeyError (get (w_pools w) id).

(** helper.pool_comparison_key (helper.py:487-494) *)
Definition pool_key (p : pool) : key A := (opp (p_des p), opp (p_pp p), Z.of_nat (p_id p)).
(** Simulation.pool_comparison_key_myopic (sim.py:445-454) *)
Definition pool_key_myopic (r : rss A) (p : pool) : res (key A) :=
  let! cp := current_profit r (p_stake p) (p_pledge p) (p_cost p) in
  Ok (opp (desirability (p_margin p) cp), zero, Z.of_nat (p_id p)).

(** model.pool_rankings.add / remove, model.pool_rankings_myopic.add / remove *)
Definition rank_add (w : world) (r : nat) : res world :=
  let! p := deref w r in Ok (with_rank (sl_add (pool_key p) (Some r) (w_rank w)) w).
Definition rank_remove (w : world) (r : nat) : res world :=
  let! p := deref w r in
  let! l := sl_remove (pool_key p) (Some r) (w_rank w) in Ok (with_rank l w).
Definition rankm_add (w : world) (r : nat) : res world :=
  let! p := deref w r in let! k := pool_key_myopic (w_rss w) p in
  Ok (with_rankm (sl_add k (Some r) (w_rankm w)) w).
Definition rankm_remove (w : world) (r : nat) : res world :=
  let! p := deref w r in let! k := pool_key_myopic (w_rss w) p in
  let! l := sl_remove k (Some r) (w_rankm w) in Ok (with_rankm l w).

(** get_next_pool_id (sim.py:198-200) *)
Definition next_pool_id (w : world) : world * nat := (with_idseq (S (w_idseq w)) w, S (w_idseq w)).
End World.

Arguments mkPool {A}. Arguments p_id {A}. Arguments p_cost {A}. Arguments p_pledge {A}. Arguments p_stake {A}. Arguments p_owner {A}. Arguments p_private {A}.
Arguments p_delegators {A}. Arguments p_pp {A}. Arguments p_margin {A}. Arguments p_des {A}.
Arguments pool_set_margin {A}. Arguments pool_set_profit {A}. Arguments pool_set_desirability {A}. Arguments new_pool {A}. Arguments update_delegation {A}.
Arguments mkStrategy {A}. Arguments s_alloc {A}. Arguments s_owned {A}. Arguments empty_strategy {A}.
Arguments mkAgent {A}. Arguments a_id {A}. Arguments a_profile {A}. Arguments a_stake {A}. Arguments a_cost {A}. Arguments a_strategy {A}. Arguments a_new {A}.
Arguments new_agent {A}. Arguments agent_set_strategy {A}. Arguments agent_set_new {A}. Arguments agent_set_stake {A}.
Arguments mkWorld {A}. Arguments w_rss {A}. Arguments w_rel {A}. Arguments w_abs {A}. Arguments w_phi {A}. Arguments w_simul {A}. Arguments w_total {A}.
Arguments w_agents {A}. Arguments w_heap {A}. Arguments w_next {A}. Arguments w_pools {A}. Arguments w_rank {A}. Arguments w_rankm {A}. Arguments w_idseq {A}.
Arguments w_idle {A}.
Arguments with_rss {A}. Arguments with_rel {A}. Arguments with_abs {A}. Arguments with_phi {A}. Arguments with_simul {A}. Arguments with_agents {A}.
Arguments with_heap {A}. Arguments with_pools {A}. Arguments with_rank {A}. Arguments with_rankm {A}. Arguments with_idseq {A}. Arguments with_idle {A}.
Arguments deref {A}. Arguments store {A}. Arguments alloc {A}. Arguments deepcopy {A}. Arguments the_agent {A}. Arguments put_agent {A}.
Arguments the_strategy {A}. Arguments the_pool {A}. Arguments pool_key {A}. Arguments pool_key_myopic {A}. Arguments rank_add {A}. Arguments rank_remove {A}.
Arguments rankm_add {A}. Arguments rankm_remove {A}. Arguments next_pool_id {A}.
