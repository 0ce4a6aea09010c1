(** Reward schemes (logic/reward_schemes.py) and the numeric helpers of logic/helper.py. *)
From Coq Require Import ZArith List Bool.
From Verif Require Import Num Py.
Import ListNotations.
Open Scope num_scope.

Section Rewards.
Variable A : Arith.
Notation num := (T A).

(** RSS_MAPPING keys that the constructor of the simulation can instantiate (reward_schemes.py:119-125); 3 is treated separately in Init.v because its
    class takes two more constructor arguments. *)
Inductive scheme := Cardano | Simplified | Flat | CIP50.

(** An RSS object (reward_schemes.py:4-26): [_k], [a0], [global_saturation_threshold]. *)
Record rss := mkRss { r_scheme : scheme; r_k : Z; r_a0 : num; r_thr : num }.

(** TOTAL_EPOCH_REWARDS_R (reward_schemes.py:1) *)
Definition total_R : num := one.

(** RSS.k setter (reward_schemes.py:20-26).  Raises before anything is assigned. *)
Definition set_k (r : rss) (k_value : num) : res rss :=
  if k_value =? zero then Err ValueError
  else let! t := pdiv total_R k_value in
       Ok {| r_scheme := r_scheme r; r_k := trunc k_value; r_a0 := r_a0 r; r_thr := t |}.

(** plain attribute assignment reward_scheme.a0 = v *)
Definition set_a0 (r : rss) (v : num) : rss :=
  {| r_scheme := r_scheme r; r_k := r_k r; r_a0 := v; r_thr := r_thr r |}.

(** get_pool_saturation_threshold: default (reward_schemes.py:31-39), CIP-50 override (114-116) *)
Definition pool_threshold (r : rss) (pledge : num) : num :=
  match r_scheme r with
  | CIP50 => pmin (r_a0 r *' pledge) (r_thr r)
  | _ => r_thr r
  end.

(** calculate_pool_reward: CardanoRSS (46-52), SimplifiedRSS (59-64), FlatPledgeBenefitRSS (71-75), CIP50RSS (109-112); helper.calculate_pool_reward
    (helper.py:178-179) only forwards. *)
Definition pool_reward (r : rss) (pledge stake : num) : res num :=
  let b := r_thr r in
  let pledge_ := pmin pledge b in
  let stake_ := pmin stake b in
  match r_scheme r with
  | Cardano =>
      let! c := pdiv total_R (one +' r_a0 r) in
      let! s := pdiv stake_ b in
      let! q := pdiv (stake_ -' pledge_ *' (one -' s)) b in
      Ok (c *' (stake_ +' pledge_ *' r_a0 r *' q))
  | Simplified =>
      let! c := pdiv total_R (one +' r_a0 r) in
      let! q := pdiv (r_a0 r *' pledge_) b in
      Ok (c *' stake_ *' (one +' q))
  | Flat =>
      let! c := pdiv total_R (one +' r_a0 r) in
      Ok (c *' (stake_ +' r_a0 r *' pledge_))
  | CIP50 => Ok (total_R *' pmin stake (pool_threshold r pledge))
  end.

(** CurvePledgeBenefitRSS (78-93).  [pow] is the operator [**]. *)
Definition curve_reward (pow : num -> num -> num) (k_thr a0 crossover_factor curve_root pledge stake : num) : res num :=
  let! crossover := pdiv k_thr crossover_factor in
  let! inv_root := pdiv one curve_root in
  let! e := pdiv (curve_root -' one) curve_root in
  let pledge_factor := pow pledge inv_root *' pow crossover e in
  let pledge_ := pmin pledge_factor k_thr in
  let stake_ := pmin stake k_thr in
  let! c := pdiv total_R (one +' a0) in
  let! s := pdiv stake_ k_thr in
  let! q := pdiv (stake_ -' pledge_ *' (one -' s)) k_thr in
  Ok (c *' (stake_ +' pledge_ *' a0 *' q)).

(** helper.py:158-169 *)
Definition potential_profit (r : rss) (pledge cost : num) : res num :=
  let! rew := pool_reward r pledge (pool_threshold r pledge) in
  Ok (rew -' cost).

(** helper.py:173-175 *)
Definition current_profit (r : rss) (stake pledge cost : num) : res num :=
  let! rew := pool_reward r pledge stake in
  Ok (rew -' cost).

(** helper.py:182-187 (the lru_cache decorator is modelled in Cache.v) *)
Definition delegator_reward (margin cost reward fraction : num) : num :=
  let margin_factor := (one -' margin) *' fraction in
  let pool_profit := reward -' cost in
  pmax (margin_factor *' pool_profit) zero.

(** helper.py:190-194 *)
Definition operator_reward (margin cost reward fraction : num) : num :=
  let margin_factor := margin +' ((one -' margin) *' fraction) in
  let pool_profit := reward -' cost in
  if pool_profit <=? zero then pool_profit else pool_profit *' margin_factor.

(** helper.py:253-263 *)
Definition cost_per_pool (num_pools : Z) (initial_cost fraction : num) : res num :=
  pdiv (initial_cost +' ofZ (num_pools - 1) *' fraction *' initial_cost) (ofZ num_pools).

(** helper.py:266-269 *)
Definition suitable_margin (pp target : num) : res num :=
  let! m := (if zero <? pp then let! q := pdiv target pp in Ok (one -' q) else Ok zero) in
  Ok (pmax m zero).

(** helper.py:272-274 and 277-279 (identical bodies) *)
Definition desirability (margin pp : num) : num := pmax ((one -' margin) *' pp) zero.

(** helper.py:283-287 *)
Definition operator_utility (r : rss) (pool_stake pledge margin cost : num) : res num :=
  let! rew := pool_reward r pledge pool_stake in
  let! f := pdiv pledge pool_stake in
  Ok (operator_reward margin cost rew f).

(** helper.py:291-295 *)
Definition delegator_utility (r : rss) (stake_allocation pool_stake pledge margin cost : num) : res num :=
  let! rew := pool_reward r pledge pool_stake in
  let! f := pdiv stake_allocation pool_stake in
  Ok (delegator_reward margin cost rew f).

(** helper.py:298-300 *)
Definition non_myopic_from_rank (pledge stake thr : num) (rank_in_top_pools : bool) : num :=
  if rank_in_top_pools then pmax thr stake else pledge.

(** helper.py:303-314 *)
Definition pledge_per_pool (agent_stake thr : num) (num_pools : Z) : res num :=
  if (num_pools <=? 0)%Z then Err ValueError
  else let! q := pdiv agent_stake (ofZ num_pools) in Ok (pmin q thr).

(** helper.py:461-462 *)
Definition pool_splitting_profit (a0 phi cost stake : num) : num :=
  (one +' a0) *' (one -' phi) *' cost -' total_R *' stake *' a0.

End Rewards.

Arguments mkRss {A}. Arguments r_scheme {A}. Arguments r_k {A}. Arguments r_a0 {A}. Arguments r_thr {A}.
Arguments set_k {A}. Arguments set_a0 {A}. Arguments pool_threshold {A}. Arguments pool_reward {A}. Arguments curve_reward {A}.
Arguments potential_profit {A}. Arguments current_profit {A}. Arguments delegator_reward {A}. Arguments operator_reward {A}.
Arguments cost_per_pool {A}. Arguments suitable_margin {A}. Arguments desirability {A}. Arguments operator_utility {A}.
Arguments delegator_utility {A}. Arguments non_myopic_from_rank {A}. Arguments pledge_per_pool {A}. Arguments pool_splitting_profit {A}.
