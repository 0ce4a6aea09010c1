(** The metrics: logic/model_reporters.py.  Not modelled: get_min_aggregate_pledge (163-196, calls an external solver) and the standard deviation in
    get_stake_distr_stats (375-378).  In exact arithmetic the sums below are sums; on floats numpy's sum and statistics.mean round differently from the
    sums written here. *)
From Coq Require Import ZArith List Bool.
From Verif Require Import Num Py Rewards SortedKeyList World Stakeholder Helper Sched Sim.
Import ListNotations.
Open Scope num_scope.

Section Reporters.
Variable A : Arith.
Notation num := (T A).
Notation pool := (pool A).

(** get_pools_list (sim.py:382-383) *)
Definition pools_list (w : world A) : res (list pool) := mapM (deref w) (values (w_pools w)).
(** model.schedule.agents; get_agents_dict (sim.py:385-386) is [w_agents] *)
Definition agents_list (w : world A) : list (agent A) := values (w_agents w).

(** sorted(l) and sorted(l, reverse=True) *)
Fixpoint insert_num (lt : num -> num -> bool) (x : num) (l : list num) : list num :=
  match l with [] => [x] | y :: l' => if lt x y then x :: l else y :: insert_num lt x l' end.
Definition sort_num (lt : num -> num -> bool) (l : list num) : list num := fold_right (insert_num lt) [] l.
Definition sort_up (l : list num) : list num := sort_num ltb l.
Definition sort_down (l : list num) : list num := sort_num (fun x y => ltb y x) l.

Definition of_nat (n : nat) : num := ofZ (Z.of_nat n).
(** statistics.mean; raises StatisticsError (a ValueError) on empty data *)
Definition mean (l : list num) : res num := match l with [] => Err ValueError | _ => pdiv (fsum l) (of_nat (length l)) end.
(** statistics.median; raises StatisticsError on empty data *)
Definition median (l : list num) : res num :=
  let s := sort_up l in
  let n := length l in
  match l with
  | [] => Err ValueError
  | _ =>
      if Nat.odd n then of_option IndexError (nth_error s (Nat.div2 n))
      else let! a := of_option IndexError (nth_error s (Nat.div2 n - 1)) in
           let! b := of_option IndexError (nth_error s (Nat.div2 n)) in
           pdiv (a +' b) two
  end.
(** max(l) *)
Definition max_of (l : list num) : res num := match l with [] => Err ValueError | x :: l' => Ok (fold_left pmax l' x) end.
(** round(x) for x >= 0: to the nearest integer, halves to the even one *)
Definition py_round (x : num) : Z :=
  let f := trunc x in
  let d := (x -' ofZ f) *' two in
  if d <? one then f else if one <? d then (f + 1)%Z else if Z.even f then f else (f + 1)%Z.

(** collections.Counter(l), also the loop over a defaultdict(lambda: 0) in 322-324 *)
Definition tally (d : dict nat) (k : nat) : dict nat := set d k (S (match get d k with Some n => n | None => 0 end)).
Definition counter (l : list nat) : dict nat := fold_left tally l [].
(** most_common(1)[0]: the first entry with the greatest count *)
Definition most_common (d : dict nat) : res (nat * nat) :=
  match d with [] => Err IndexError | e :: d' => Ok (fold_left (fun m x => if Nat.ltb (snd m) (snd x) then x else m) d' e) end.
(** len(set(l)) *)
Definition distinct (l : list nat) : nat := length (fold_left (fun s x => if inb x s then s else s ++ [x]) l []).

Definition when_pools (w : world A) (f : list pool -> res num) : res num :=
  let! ps := pools_list w in match ps with [] => Ok zero | _ => f ps end.

Definition number_of_pools (w : world A) : nat := length (w_pools w).                                    (* 10-11 *)
Definition avg_margin (w : world A) := when_pools w (fun ps => mean (map p_margin ps)).                  (* 14-17 *)
Definition median_margin (w : world A) := when_pools w (fun ps => median (map p_margin ps)).             (* 20-23 *)
Definition avg_pledge (w : world A) := when_pools w (fun ps => mean (map p_pledge ps)).                  (* 26-28 *)
Definition total_pledge (w : world A) : res num := let! ps := pools_list w in Ok (fsum (map p_pledge ps)). (* 31-33 *)
Definition median_pledge (w : world A) := when_pools w (fun ps => median (map p_pledge ps)).             (* 36-38 *)
Definition avg_pools_per_operator (w : world A) :=                                                       (* 41-47 *)
  when_pools w (fun ps => pdiv (of_nat (length ps)) (of_nat (distinct (map p_owner ps)))).
Definition max_pools_per_operator (w : world A) : res nat :=                                             (* 50-56 *)
  let! ps := pools_list w in
  match ps with [] => Ok 0%nat | _ => let! e := most_common (counter (map p_owner ps)) in Ok (snd e) end.
Definition median_pools_per_operator (w : world A) :=                                                    (* 59-65 *)
  when_pools w (fun ps => median (map of_nat (values (counter (map p_owner ps))))).
Definition avg_sat_rate (w : world A) :=                                                                 (* 68-73 *)
  when_pools w (fun ps => let! rs := mapM (fun p => pdiv (p_stake p) (pool_threshold (w_rss w) (p_pledge p))) ps in mean rs).

(** get_stakes_n_margins (76-85): stake of the owner, stake, margin, id and owner of every pool *)
Definition stakes_n_margins (w : world A) : res (list (num * num * num * nat * nat)) :=
  let! ps := pools_list w in
  mapM (fun p => let! ag := of_option KeyError (get (w_agents w) (p_owner p)) in
                 Ok (a_stake ag, p_stake p, p_margin p, p_id p, p_owner p)) ps.

(** d[k] += x *)
Definition add_at (d : dict num) (k : nat) (x : num) : res (dict num) :=
  let! v := of_option KeyError (get d k) in Ok (set d k (v +' x)).
(** the stake each agent controls through its pools (100-108, 150-152, 300-306) *)
Definition controlled (ks : list nat) (ps : list pool) : res (dict num) :=
  foldM (fun d p => add_at d (p_owner p) (p_stake p)) ps (map (fun k => (k, zero)) ks).

(** get_controlled_stake_distr_stat_dist (88-115) *)
Definition stat_dist (w : world A) : res num :=
  when_pools w (fun ps =>
    let! cur := controlled (keys (w_agents w)) ps in
    let! diffs := mapM (fun e => let! c := of_option KeyError (get cur (fst e)) in Ok (absv (c -' a_stake (snd e)))) (w_agents w) in
    pdiv (psum diffs) two).

(** np.argmax of an array of booleans: the first True, or 0 *)
Fixpoint first_true (l : list bool) : option nat :=
  match l with [] => None | b :: l' => if b then Some 0%nat else option_map S (first_true l') end.
Definition argmax (l : list bool) : res nat :=
  match l with [] => Err ValueError | _ => Ok (match first_true l with Some i => i | None => 0%nat end) end.
(** get_nakamoto_coefficient once pools may exist (146-160) *)
Definition nakamoto (w : world A) : res nat :=
  let! ps := pools_list w in
  match ps with
  | [] => Ok 0%nat
  | _ =>
      let! cur := controlled (keys (w_agents w)) ps in
      let! final := mapM (fun k => of_option KeyError (get cur k)) (keys (w_agents w)) in
      let sorted := sort_down final in
      let cumulative := map (fun i => fsum (firstn (S i) sorted)) (seq 0 (length sorted)) in
      let! threshold := pdiv (fsum final) two in
      let! i := argmax (map (fun c => threshold <? c) cumulative) in
      Ok (i + 1)%nat
  end.
(** get_nakamoto_coefficient during construction, before model.pools exists (130-144); sorted_final_stake[index] raises IndexError at the end *)
Fixpoint majority_loop (sorted : list num) (half stake : num) (agents : nat) : res nat :=
  if half <? stake then Ok agents
  else match sorted with [] => Err IndexError | x :: r => majority_loop r half (stake +' x) (S agents) end.
Definition nakamoto_initial (w : world A) : res nat :=
  let sorted := sort_down (map a_stake (agents_list w)) in
  let! half := pdiv (fsum sorted) two in
  majority_loop sorted half zero 0.

Definition pledge_rate (w : world A) :=                                                                  (* 199-210 *)
  when_pools w (fun ps => pdiv (fsum (map p_pledge ps)) (fsum (map p_stake ps))).
Definition homogeneity (w : world A) :=                                                                  (* 213-229 *)
  when_pools w (fun ps =>
    let! m := max_of (map p_stake ps) in
    pdiv (fsum (map p_stake ps)) (of_nat (length ps) *' m)).
(** get_iterations (232-233) *)
Definition iterations (s : sim A) : nat := s_steps s.

(** get_avg_stk_rnk, get_avg_cost_rnk, get_median_stk_rnk, get_median_cost_rnk (236-267) *)
Definition owner_ranks (w : world A) (d : dict num) : res (list num) :=
  let! ps := pools_list w in
  let! ranks := calculate_ranks true d [] in
  mapM (fun p => let! r := of_option KeyError (get ranks (p_owner p)) in Ok (of_nat r)) ps.
Definition rounded (f : list num -> res num) (l : list num) : res Z :=
  match l with [] => Ok 0%Z | _ => let! x := f l in Ok (py_round x) end.
Definition stakes_dict (w : world A) : dict num := map (fun e => (fst e, a_stake (snd e))) (w_agents w).
Definition neg_costs_dict (w : world A) : dict num := map (fun e => (fst e, opp (a_cost (snd e)))) (w_agents w).
Definition avg_stk_rnk (w : world A) : res Z := let! l := owner_ranks w (stakes_dict w) in rounded mean l.
Definition avg_cost_rnk (w : world A) : res Z := let! l := owner_ranks w (neg_costs_dict w) in rounded mean l.
Definition median_stk_rnk (w : world A) : res Z := let! l := owner_ranks w (stakes_dict w) in rounded median l.
Definition median_cost_rnk (w : world A) : res Z := let! l := owner_ranks w (neg_costs_dict w) in rounded median l.

Definition pool_splitter_count (w : world A) : res nat :=                                                (* 270-278 *)
  let! ps := pools_list w in
  Ok (length (filter (fun e => Nat.ltb 1 (snd e)) (counter (map p_owner ps)))).
Definition cost_efficient_count (w : world A) : res nat :=                                               (* 281-288 *)
  let! pps := mapM (fun ag => potential_profit (w_rss w) (a_stake ag) (a_cost ag)) (agents_list w) in
  Ok (length (filter (fun x => zero <? x) pps)).

(** l[i] += x on a list, i >= 0 *)
Definition list_add_at (l : list num) (i : nat) (x : num) : res (list num) :=
  let! v := of_option IndexError (nth_error l i) in Ok (firstn i l ++ (v +' x) :: skipn (S i) l).
(** get_pool_stakes_by_agent (291-297): the number of agents is read from model.n *)
Definition pool_stakes_by_agent (n : Z) (w : world A) : res (list num) :=
  let! ps := pools_list w in
  foldM (fun l p => list_add_at l (p_owner p) (p_stake p)) ps (repeat zero (Z.to_nat n)).
(** get_pool_stakes_by_agent_id (300-306) *)
Definition pool_stakes_by_agent_id (n : Z) (w : world A) : res (dict num) :=
  let! ps := pools_list w in controlled (seq 0 (Z.to_nat n)) ps.

(** gini_coefficient (309-316) *)
Fixpoint gini_diffs (acc : num) (l : list num) : num :=
  match l with
  | x :: ((_ :: _) as rest) => gini_diffs (acc +' psum (map (fun y => absv (x -' y)) rest)) rest
  | _ => acc
  end.
Definition gini (l : list num) : res num :=
  if psum l =? zero then Ok (ofZ (-1)) else pdiv (gini_diffs zero l) (of_nat (length l) *' psum l).
(** stake_controlled (346-349): defaultdict(lambda: 0) *)
Definition stake_tally (ps : list pool) : dict num :=
  fold_left (fun d p => set d (p_owner p) ((match get d (p_owner p) with Some v => v | None => zero end) +' p_stake p)) ps [].
(** padding with zeros up to k entries (337-339, 358-360) *)
Definition pad (k : Z) (l : list num) : list num := l ++ repeat zero (Z.to_nat (k - Z.of_nat (length l))).
Definition gini_pool_count (w : world A) : res num :=                                                    (* 319-327 *)
  let! ps := pools_list w in gini (map of_nat (values (counter (map p_owner ps)))).
Definition gini_pool_count_k (w : world A) : res num :=                                                  (* 330-340 *)
  let! ps := pools_list w in gini (pad (r_k (w_rss w)) (map of_nat (values (counter (map p_owner ps))))).
Definition gini_stake (w : world A) : res num :=                                                         (* 343-349 *)
  let! ps := pools_list w in gini (values (stake_tally ps)).
Definition gini_stake_k (w : world A) : res num :=                                                       (* 352-361 *)
  let! ps := pools_list w in gini (pad (r_k (w_rss w)) (values (stake_tally ps))).

Definition total_delegated_stake (w : world A) : res num :=                                              (* 364-368 *)
  let! ps := pools_list w in Ok (fsum (map p_stake ps)).
Definition active_stake_agents (w : world A) : num := fsum (map a_stake (agents_list w)).                (* 371-372 *)
Definition operator_count (w : world A) : res nat :=                                                     (* 381-382 *)
  let! ps := pools_list w in Ok (distinct (map p_owner ps)).
End Reporters.

Arguments pools_list {A}. Arguments agents_list {A}. Arguments insert_num {A}. Arguments sort_num {A}. Arguments sort_up {A}. Arguments sort_down {A}. Arguments of_nat {A}.
Arguments mean {A}. Arguments median {A}. Arguments max_of {A}. Arguments py_round {A}. Arguments when_pools {A}. Arguments number_of_pools {A}. Arguments avg_margin {A}.
Arguments median_margin {A}. Arguments avg_pledge {A}. Arguments total_pledge {A}. Arguments median_pledge {A}. Arguments avg_pools_per_operator {A}.
Arguments max_pools_per_operator {A}. Arguments median_pools_per_operator {A}. Arguments avg_sat_rate {A}. Arguments stakes_n_margins {A}. Arguments add_at {A}.
Arguments controlled {A}. Arguments stat_dist {A}. Arguments nakamoto {A}. Arguments majority_loop {A}. Arguments nakamoto_initial {A}. Arguments pledge_rate {A}.
Arguments homogeneity {A}. Arguments iterations {A}. Arguments owner_ranks {A}. Arguments rounded {A}. Arguments stakes_dict {A}. Arguments neg_costs_dict {A}.
Arguments avg_stk_rnk {A}. Arguments avg_cost_rnk {A}. Arguments median_stk_rnk {A}. Arguments median_cost_rnk {A}. Arguments pool_splitter_count {A}.
Arguments cost_efficient_count {A}. Arguments list_add_at {A}. Arguments pool_stakes_by_agent {A}. Arguments pool_stakes_by_agent_id {A}. Arguments gini_diffs {A}.
Arguments gini {A}. Arguments stake_tally {A}. Arguments pad {A}. Arguments gini_pool_count {A}. Arguments gini_pool_count_k {A}. Arguments gini_stake {A}.
Arguments gini_stake_k {A}. Arguments total_delegated_stake {A}. Arguments active_stake_agents {A}. Arguments operator_count {A}.
