(** Agents: logic/stakeholder.py and logic/stakeholder_profiles.py.

    [so] is the iteration order of Python sets of ints: [so ctx l] is the order in which a set with the elements [l], built from the operands [ctx], is
    enumerated.  Nothing is assumed about it in the model; theorems assume that it is a permutation of [l]. *)
From Coq Require Import ZArith List Bool.
From Verif Require Import Num Py Rewards SortedKeyList World.
Import ListNotations.
Open Scope num_scope.

(** [[x for x in l if f(x)]] with exceptions *)
Fixpoint filterM {B} (f : B -> res bool) (l : list B) : res (list B) :=
  match l with
  | [] => Ok []
  | x :: l' => let! b := f x in let! r := filterM f l' in Ok (if b then x :: r else r)
  end.

Section Stakeholder.
Variable A : Arith.
Variable so : list nat -> list nat -> list nat.
Notation num := (T A).
Notation world := (world A).
Notation agent := (agent A).
Notation strategy := (strategy A).

(** self.rankings: set in the constructors of the profiles (stakeholder_profiles.py:10, 102); Abstainers have none *)
Definition rankings (w : world) (ag : agent) : res (sl A) :=
  match a_profile ag with NonMyopic => Ok (w_rank w) | Myopic => Ok (w_rankm w) | Abstainer => Err AttributeError end.

(** helper.calculate_non_myopic_pool_stake (helper.py:197-216) *)
Definition non_myopic_stake (w : world) (r : nat) (ranking : sl A) : res num :=
  let! p := deref w r in
  let! rank := sl_index (pool_key p) (Some r) ranking in
  let! sats := mapM (fun e => match e with
                              | None => Err AttributeError   (* None.pledge *)
                              | Some r' => let! q := deref w r' in Ok (pool_threshold (w_rss w) (p_pledge q))
                              end) (firstn rank (sl_elems ranking)) in
  let in_top := (fsum sats +' min_stake_unit) <? w_total w in
  Ok (non_myopic_from_rank (p_pledge p) (p_stake p) (pool_threshold (w_rss w) (p_pledge p)) in_top).

(** helper.calculate_operator_utility_from_pool applied to a pool's own attributes *)
Definition pool_operator_utility (w : world) (stake : num) (p : pool A) : res num :=
  operator_utility (w_rss w) stake (p_pledge p) (p_margin p) (p_cost p).

(** calculate_operator_utility_from_strategy: NonMyopicStakeholder (stakeholder_profiles.py:12-36), MyopicStakeholder (104-113).
    SortedList.update is written as repeated insertion (same result: no two elements have equal keys). *)
Definition op_utility_strategy (w : world) (ag : agent) (st : strategy) : res num :=
  match a_profile ag with
  | NonMyopic =>
      let! others := filterM (fun e => match e with
                                       | None => Ok false
                                       | Some r => let! p := deref w r in Ok (negb (Nat.eqb (p_owner p) (a_id ag)))
                                       end) (sl_elems (w_rank w)) in
      let add_pool l e := match e with
                          | None => Ok l
                          | Some r => let! p := deref w r in Ok (sl_add (pool_key p) (Some r) l)
                          end in
      let! temp0 := foldM add_pool others [] in
      let! temp := foldM add_pool (map Some (values (s_owned st))) temp0 in
      foldM (fun u r => let! p := deref w r in
                        let! s := non_myopic_stake w r temp in
                        let! pu := pool_operator_utility w s p in Ok (u +' pu)) (values (s_owned st)) zero
  | Myopic =>
      foldM (fun u r => let! p := deref w r in
                        let! pu := pool_operator_utility w (p_stake p) p in Ok (u +' pu)) (values (s_owned st)) zero
  | Abstainer => Err NotImplementedError   (* base class, stakeholder.py:24-27 *)
  end.

(** calculate_delegator_utility_from_pool: NonMyopicStakeholder (stakeholder_profiles.py:38-53), MyopicStakeholder (115-121) *)
Definition del_utility_pool (w : world) (ag : agent) (r : nat) (a : num) : res num :=
  match a_profile ag with
  | Abstainer => Err NotImplementedError   (* base class, stakeholder.py:29-32 *)
  | _ =>
      let! st := the_strategy ag in
      let! p := deref w r in
      let prev := match get (s_alloc st) (p_id p) with Some v => v | None => zero end in
      let current_stake := p_stake p -' prev +' a in
      let! pool_stake := (match a_profile ag with
                          | NonMyopic => let! s := non_myopic_stake w r (w_rank w) in Ok (pmax s current_stake)
                          | _ => Ok current_stake
                          end) in
      delegator_utility (w_rss w) a pool_stake (p_pledge p) (p_margin p) (p_cost p)
  end.

(** calculate_current_utility (stakeholder.py:86-100) *)
Definition current_utility (w : world) (ag : agent) : res num :=
  let! st := the_strategy ag in
  let! u := foldM (fun u r => let! p := deref w r in
                              let! pu := pool_operator_utility w (p_stake p) p in Ok (u +' pu)) (values (s_owned st)) zero in
  foldM (fun u e => let '(id, a) := e in
                    let! r := the_pool w id in
                    let! p := deref w r in
                    let! du := delegator_utility (w_rss w) a (p_stake p) (p_pledge p) (p_margin p) (p_cost p) in
                    Ok (u +' du)) (s_alloc st) u.

(** calculate_expected_utility (stakeholder.py:102-115) *)
Definition expected_utility (w : world) (ag : agent) (st : strategy) : res num :=
  let! u := (match s_owned st with
             | [] => Ok zero
             | _ => let! x := op_utility_strategy w ag st in Ok (zero +' x)
             end) in
  foldM (fun u e => let '(id, a) := e in
                    match get (w_pools w) id with
                    | None => Ok u
                    | Some r => let! du := del_utility_pool w ag r a in Ok (u +' du)
                    end) (s_alloc st) u.

(** calculate_cost_per_pool and determine_pledge_per_pool (stakeholder.py:190-210) *)
Definition agent_cost_per_pool (w : world) (ag : agent) (n : Z) : res num := cost_per_pool n (a_cost ag) (w_phi w).
Definition agent_pledge_per_pool (w : world) (ag : agent) (n : Z) : res num := pledge_per_pool (a_stake ag) (r_thr (w_rss w)) n.

(** [fixed_pools_ranked] (stakeholder_profiles.py:66-70, 137-141) *)
Definition fixed_pools_ranked (w : world) (ag : agent) : res (list (option nat)) :=
  let! rk := rankings w ag in
  filterM (fun e => match e with
                    | None => Ok true
                    | Some r => let! p := deref w r in Ok (negb (Nat.eqb (p_owner p) (a_id ag)))
                    end) (sl_elems rk).

(** calculate_margins_and_utility: NonMyopicStakeholder (stakeholder_profiles.py:55-96), MyopicStakeholder (123-165) *)
Definition margins_and_utility (w : world) (ag : agent) (n : Z) : res (list num * num) :=
  match a_profile ag with
  | Abstainer => Err NotImplementedError   (* base class, stakeholder.py:34-37 *)
  | NonMyopic =>
      let! cost := agent_cost_per_pool w ag n in
      let! pledge := agent_pledge_per_pool w ag n in
      let sat := pool_threshold (w_rss w) pledge in
      let! pp := potential_profit (w_rss w) pledge cost in
      let! fixed := fixed_pools_ranked w ag in
      foldM (fun acc t =>
               let '(margins, u) := acc in
               let! target := py_index fixed (r_k (w_rss w) - t)%Z in
               let! dp := (match target with
                           | None => Ok (zero, zero)
                           | Some r => let! p := deref w r in Ok (p_des p, p_pp p)
                           end) in
               let target_des := fst dp +' boost in
               if pp <? target_des then
                 let! ou := operator_utility (w_rss w) pledge pledge zero cost in
                 Ok (margins ++ [zero], u +' ou)
               else
                 let! m := suitable_margin pp (pmax target_des (snd dp)) in
                 let! ou := operator_utility (w_rss w) sat pledge m cost in
                 Ok (margins ++ [m], u +' ou)) (zrange 1 (n + 1)) ([], zero)
  | Myopic =>
      let! cost := agent_cost_per_pool w ag n in
      let! pledge := agent_pledge_per_pool w ag n in
      let sat := pool_threshold (w_rss w) pledge in
      let! st := the_strategy ag in
      let! owned := mapM (deref w) (values (s_owned st)) in
      let delegated := pmax (psum (map p_stake owned)) (a_stake ag) in
      let! expected_stake := pdiv delegated (ofZ n) in
      let! profit := current_profit (w_rss w) expected_stake pledge cost in
      let! fixed := fixed_pools_ranked w ag in
      foldM (fun acc t =>
               let '(margins, u) := acc in
               let! target := py_index fixed (r_k (w_rss w) - t)%Z in
               let! des := (match target with
                            | None => Ok zero
                            | Some r => let! p := deref w r in
                                        let! cp := current_profit (w_rss w) (p_stake p) (p_pledge p) (p_cost p) in
                                        Ok (desirability (p_margin p) cp)
                            end) in
               let! m := suitable_margin profit (des +' boost) in
               let! ou := operator_utility (w_rss w) sat pledge m cost in
               Ok (margins ++ [m], u +' ou)) (zrange 1 (n + 1)) ([], zero)
  end.

(** The search loop of choose_pool_strategy (stakeholder.py:131-151) over an arbitrary evaluation function.  math.floor((t_min + t_max) / 2) is
    written as integer division (exact for |t_min + t_max| < 2^53).  [fuel] bounds the iterations; see Search.v. *)
Fixpoint search {X : Type} (f : Z -> res (X * num)) (fuel : nat) (t_min t_max : Z) : res (Z * X) :=
  match fuel with
  | O => Err OutOfFuel
  | S fuel' =>
      let t := ((t_min + t_max) / 2)%Z in
      let! xu := f t in
      let try_plus :=
        if (t <? t_max)%Z then
          let! xp := f (t + 1)%Z in
          if snd xp >? snd xu then search f fuel' (t + 1)%Z t_max else Ok (t, fst xu)
        else Ok (t, fst xu) in
      if (t_min <? t)%Z then
        let! xm := f (t - 1)%Z in
        if snd xm >? snd xu then search f fuel' t_min (t - 1)%Z else try_plus
      else try_plus
  end.
Definition search_fuel (k : Z) : nat := S (Z.to_nat k).

(** Python's comparison of the tuples (desirability, potential_profit, stake, -id) used by heapq.nlargest *)
Definition keep_key : Type := num * num * num * nat.
Definition keep_ltb (x y : keep_key) : bool :=
  let '(x1, x2, x3, x4) := x in let '(y1, y2, y3, y4) := y in
  if x1 =? y1 then (if x2 =? y2 then (if x3 =? y3 then Nat.ltb y4 x4 else x3 <? y3) else x2 <? y2) else x1 <? y1.
(** sorted(l, reverse=True); heapq.nlargest(n, l) is documented as sorted(l, reverse=True)[:n] *)
Fixpoint insert_desc (x : keep_key) (l : list keep_key) : list keep_key :=
  match l with [] => [x] | y :: l' => if keep_ltb y x then x :: l else y :: insert_desc x l' end.
Definition sort_desc (l : list keep_key) : list keep_key := fold_right insert_desc [] l.
Definition nlargest (n : nat) (l : list keep_key) : list keep_key := firstn n (sort_desc l).

(** determine_pools_to_keep (stakeholder.py:177-188).  [top_pools_ids] is a set; [n] is at least 1 when called. *)
Definition pools_to_keep (w : world) (ag : agent) (n : Z) : res (world * dict nat) :=
  let! st := the_strategy ag in
  let copy_all := foldM (fun acc e => let '(w, d) := acc in let '(id, r) := e in
                                      let! wr := deepcopy w r in
                                      let '(w', r') := wr in Ok (w', set d id r')) in
  if (n <? Z.of_nat (length (s_owned st)))%Z then
    let! props := mapM (fun e => let '(id, r) := e in
                                 let! p := deref w r in Ok (p_des p, p_pp p, p_stake p, id)) (s_owned st) in
    let ids := map (fun x => snd x) (nlargest (Z.to_nat n) props) in
    let! todo := mapM (fun id => let! r := of_option KeyError (get (s_owned st) id) in Ok (id, r)) (so ids ids) in
    copy_all todo (w, [])
  else copy_all (s_owned st) (w, []).

(** calculate_margin (stakeholder.py:161-175) *)
Definition calculate_margin (w : world) (ag : agent) (p : pool A) : res num :=
  if p_private p then Ok zero
  else
    let! rk := rankings w ag in
    let! ref := py_index (sl_elems rk) (r_k (w_rss w) - 1)%Z in
    let! ref_pp := (match ref with None => Ok zero | Some r => let! q := deref w r in Ok (p_pp q) end) in
    suitable_margin (p_pp p) ref_pp.

(** margins[i] if len(margins) > i else self.calculate_margin(pool) *)
Definition margin_at (w : world) (ag : agent) (margins : list num) (i : nat) (p : pool A) : res num :=
  match nth_error margins i with Some m => Ok m | None => calculate_margin w ag p end.

(** take the stake of agent [uid] out of pool [id] or put it back: model.pool_rankings_myopic.remove(pool); pool.update_delegation(v, uid);
    model.pool_rankings_myopic.add(pool)   (stakeholder.py:271-274, 299-302, 322-335) *)
Definition touch_delegation (uid : nat) (w : world) (id : nat) (v : num) : res world :=
  let! r := the_pool w id in
  let! w1 := rankm_remove w r in
  let! p := deref w1 r in
  rankm_add (store w1 r (update_delegation v uid p)) r.

(** the while loop of determine_stake_allocations (stakeholder.py:276-291): allocations, remaining stake, best saturated pool *)
Fixpoint greedy (rs : rss A) (eligible : list (pool A)) (stake : num) (allocs : dict num) (best_sat : option nat) : dict num * num * option nat :=
  match eligible with
  | [] => (allocs, stake, best_sat)
  | p :: rest =>
      let room := pool_threshold rs (p_pledge p) -' p_stake p in
      if room <? min_stake_unit then
        greedy rs rest stake allocs (match best_sat with None => Some (p_id p) | Some _ => best_sat end)
      else
        let a := pmin stake room in
        let stake' := stake -' a in
        let allocs' := set allocs (p_id p) a in
        if stake' <? min_stake_unit then (allocs', stake', best_sat) else greedy rs rest stake' allocs' best_sat
  end.
(** stakeholder.py:292-295 *)
Definition greedy_allocations (rs : rss A) (eligible : list (pool A)) (stake : num) : dict num :=
  let '(allocs, rest, best_sat) := greedy rs eligible stake [] None in
  match best_sat with
  | Some id => if rest >=? min_stake_unit then set allocs id rest else allocs
  | None => allocs
  end.

(** determine_stake_allocations (stakeholder.py:251-303) *)
Definition stake_allocations (w : world) (ag : agent) (stake : num) : res (world * option (dict num)) :=
  let! rk := rankings w ag in
  let! eligible := filterM (fun e => match e with
                                     | None => Ok false
                                     | Some r => let! p := deref w r in
                                                 Ok (negb (Nat.eqb (p_owner p) (a_id ag)) && negb (p_private p))
                                     end) (sl_elems rk) in
  match eligible with
  | [] => Ok (w, None)
  | _ =>
      let! st := the_strategy ag in
      let! w1 := foldM (fun w e => touch_delegation (a_id ag) w (fst e) zero) (s_alloc st) w in
      let! pools := mapM (fun e => match e with None => Err AttributeError | Some r => deref w1 r end) eligible in
      let allocs := greedy_allocations (w_rss w1) pools stake in
      let! w2 := foldM (fun w e => touch_delegation (a_id ag) w (fst e) (snd e)) (s_alloc st) w1 in
      Ok (w2, Some allocs)
  end.

(** find_delegation_move (stakeholder.py:305-312) *)
Definition find_delegation_move (w : world) (ag : agent) (stake : num) : res (world * strategy) :=
  if stake <? min_stake_unit then Ok (w, empty_strategy)
  else
    let! wa := stake_allocations w ag stake in
    let '(w', allocs) := wa in
    Ok (w', mkStrategy (match allocs with None => [] | Some d => d end) []).

(** find_delegation_for_operator (stakeholder.py:242-249) *)
Definition find_delegation_for_operator (w : world) (ag : agent) (total_pledge : num) : res (world * dict num) :=
  let remaining := a_stake ag -' total_pledge in
  if remaining >? zero then
    let! ws := find_delegation_move w ag remaining in
    let '(w', s) := ws in Ok (w', s_alloc s)
  else Ok (w, []).

(** body of the first loop of find_operator_move (stakeholder.py:216-223) *)
Definition adjust_pool (w : world) (ag : agent) (pledge cost : num) (margins : list num) (i : nat) (p : pool A) : res (pool A) :=
  let p1 := mkPool (p_id p) cost pledge (p_stake p -' (p_pledge p -' pledge)) (p_owner p) (pool_threshold (w_rss w) pledge <=? pledge)
                   (p_delegators p) (p_pp p) (p_margin p) (p_des p) in
  let! p2 := pool_set_profit (w_rss w) p1 in
  let! m := margin_at w ag margins i p2 in
  Ok (pool_set_margin m p2).

(** body of the second loop of find_operator_move (stakeholder.py:226-236) *)
Definition draft_pool (w : world) (ag : agent) (pledge cost : num) (margins : list num) (i : nat) (id : nat) : res (pool A) :=
  let! p := new_pool id cost pledge (a_id ag) (w_rss w) (opp one) (pool_threshold (w_rss w) pledge <=? pledge) in
  let! m := margin_at w ag margins i p in
  Ok (pool_set_margin m p).

(** find_operator_move (stakeholder.py:212-240) *)
Definition find_operator_move (w : world) (ag : agent) (n : Z) (owned : dict nat) (margins : list num) : res (world * strategy) :=
  let! pledge := agent_pledge_per_pool w ag n in
  let! cost := agent_cost_per_pool w ag n in
  let! wi := foldM (fun acc e => let '(w, i) := acc in
                                 let! p := deref w (snd e) in
                                 let! p' := adjust_pool w ag pledge cost margins i p in
                                 Ok (store w (snd e) p', S i)) owned (w, 0%nat) in
  let w1 := fst wi in
  let existing := length owned in
  let! wo := foldM (fun acc i => let '(w, d) := acc in
                                 let '(w', id) := next_pool_id w in
                                 let! p := draft_pool w' ag pledge cost margins i id in
                                 let '(w'', r) := alloc w' p in
                                 Ok (w'', set d id r)) (seq existing (Z.to_nat n - existing)) (w1, owned) in
  let '(w2, owned') := wo in
  let! wa := find_delegation_for_operator w2 ag (pledge *' ofZ n) in
  let '(w3, allocs) := wa in
  Ok (w3, mkStrategy allocs owned').

(** choose_pool_strategy (stakeholder.py:117-159) *)
Definition choose_pool_strategy (w : world) (ag : agent) : res (world * num * option strategy) :=
  let k := r_k (w_rss w) in
  let! tm := search (margins_and_utility w ag) (search_fuel k) 1 k in
  let '(t, margins) := tm in
  if (0 <? t)%Z then
    let! wo := pools_to_keep w ag t in
    let '(w1, copies) := wo in
    let! ws := find_operator_move w1 ag t copies margins in
    let '(w2, st) := ws in
    let! u := expected_utility w2 ag st in
    Ok (w2, u, Some st)
  else Ok (w, zero, None).

(** the augmented utility of the current strategy (stakeholder.py:54-61) *)
Definition augmented_utility (w : world) (current expected : num) : num :=
  pmax (pmax (pmax ((one +' w_rel w) *' current) (current +' w_abs w)) ((one +' w_rel w) *' expected)) (expected +' w_abs w).

(** max(possible_moves, key=...): the first entry with the greatest utility (stakeholder.py:63-78) *)
Definition pick_move (u_cur : num) (del : num * strategy) (op : num * option strategy) : option strategy :=
  let b1 := if u_cur <? fst del then (fst del, Some (snd del)) else (u_cur, None) in
  match snd op with
  | None => snd b1
  | Some s => if fst b1 <? fst op then Some s else snd b1
  end.

(** update_strategy (stakeholder.py:53-78; Abstainer: stakeholder_profiles.py:173-174) *)
Definition update_strategy (w : world) (uid : nat) : res world :=
  let! ag := the_agent w uid in
  match a_profile ag with
  | Abstainer => Ok w
  | _ =>
      let! st := the_strategy ag in
      let! cu := current_utility w ag in
      let! eu := expected_utility w ag st in
      let aug := augmented_utility w cu eu in
      let! wd := find_delegation_move w ag (a_stake ag) in
      let '(w1, del_st) := wd in
      let! du := expected_utility w1 ag del_st in
      let! wo := choose_pool_strategy w1 ag in
      let '(w2, ou, op_st) := wo in
      Ok (put_agent w2 uid (agent_set_new (pick_move aug (du, del_st) (ou, op_st)) ag))
  end.

(** remove_delegations (stakeholder.py:383-395) *)
Definition remove_one_delegation (r : nat) (id : nat) (w : world) (a : nat) : res world :=
  let! ag := the_agent w a in
  let! st := the_strategy ag in
  let! _ := of_option KeyError (get (s_alloc st) id) in
  let w' := put_agent w a (agent_set_strategy (Some (mkStrategy (pop (s_alloc st) id) (s_owned st))) ag) in
  let! p := deref w' r in
  Ok (store w' r (update_delegation zero a p)).
Definition drop_from_new (id : nat) (ag : agent) : agent :=
  match a_new ag with
  | None => ag
  | Some st => agent_set_new (Some (mkStrategy (pop (s_alloc st) id) (s_owned st))) ag
  end.
Definition remove_delegations (w : world) (r : nat) : res world :=
  let! p := deref w r in
  let! w1 := foldM (remove_one_delegation r (p_id p)) (keys (p_delegators p)) w in
  Ok (if w_simul w1 then with_agents (map (fun e => (fst e, drop_from_new (p_id p) (snd e))) (w_agents w1)) w1 else w1).

(** close_pool (stakeholder.py:373-381) *)
Definition close_pool (w : world) (id : nat) : res world :=
  let! r := the_pool w id in
  let! w1 := rank_remove w r in
  let! w2 := rankm_remove w1 r in
  let! w3 := remove_delegations w2 r in
  Ok (with_pools (pop (w_pools w3) id) w3).

(** update_pool (stakeholder.py:352-364) and the assignment in execute_strategy (345) *)
Definition update_pool (uid : nat) (w : world) (id : nat) : res world :=
  let! ag := the_agent w uid in
  let! new := of_option AttributeError (a_new ag) in
  let! r := of_option KeyError (get (s_owned new) id) in
  let! p := deref w r in
  let! w1 := (if p_private p && (p_pledge p <? p_stake p) then remove_delegations w r else Ok w) in
  let w2 := with_pools (set (w_pools w1) id r) w1 in
  let! ag2 := the_agent w2 uid in
  let! st := the_strategy ag2 in
  let! old := of_option KeyError (get (s_owned st) id) in
  let! w3 := rank_remove w2 old in
  let! w4 := rank_add w3 r in
  let! w5 := rankm_remove w4 old in
  let! w6 := rankm_add w5 r in
  Ok (with_pools (set (w_pools w6) id r) w6).

(** open_pool (stakeholder.py:366-371) *)
Definition open_pool (uid : nat) (w : world) (id : nat) : res world :=
  let! ag := the_agent w uid in
  let! st := the_strategy ag in
  let! r := of_option KeyError (get (s_owned st) id) in
  let w1 := with_pools (set (w_pools w) id r) w in
  let! w2 := rank_add w1 r in
  rankm_add w2 r.

(** set difference and intersection of the keys of two dictionaries *)
Definition diff (l1 l2 : list nat) : list nat := filter (fun x => negb (inb x l2)) l1.
Definition inter (l1 l2 : list nat) : list nat := filter (fun x => inb x l2) l1.

(** execute_strategy (stakeholder.py:314-350) *)
Definition execute_strategy (w : world) (uid : nat) : res world :=
  let! ag := the_agent w uid in
  let! old := the_strategy ag in
  let! new := of_option AttributeError (a_new ag) in
  let old_a := keys (s_alloc old) in
  let new_a := keys (s_alloc new) in
  let! w1 := foldM (fun w id => touch_delegation uid w id zero) (so (old_a ++ new_a) (diff old_a new_a)) w in
  let! w2 := foldM (fun w e => touch_delegation uid w (fst e) (snd e)) (s_alloc new) w1 in
  let old_o := keys (s_owned old) in
  let new_o := keys (s_owned new) in
  let! w3 := foldM close_pool (so (old_o ++ new_o) (diff old_o new_o)) w2 in
  let! w4 := foldM (update_pool uid) (so (new_o ++ old_o) (inter new_o old_o)) w3 in
  let! ag4 := the_agent w4 uid in
  let w5 := put_agent w4 uid (agent_set_new None (agent_set_strategy (a_new ag4) ag4)) in
  foldM (open_pool uid) (so (new_o ++ old_o) (diff new_o old_o)) w5.

(** advance (stakeholder.py:47-51) *)
Definition advance (w : world) (uid : nat) : res world :=
  let! ag := the_agent w uid in
  match a_new ag with
  | None => Ok w
  | Some _ => let! w' := execute_strategy w uid in Ok (with_idle false w')
  end.

(** step (stakeholder.py:39-45) *)
Definition agent_step (w : world) (uid : nat) : res world :=
  let! w1 := update_strategy w uid in
  if w_simul w1 then Ok w1 else advance w1 uid.
End Stakeholder.

Arguments rankings {A}. Arguments non_myopic_stake {A}. Arguments op_utility_strategy {A}. Arguments del_utility_pool {A}. Arguments current_utility {A}.
Arguments expected_utility {A}. Arguments agent_cost_per_pool {A}. Arguments agent_pledge_per_pool {A}. Arguments fixed_pools_ranked {A}.
Arguments margins_and_utility {A}. Arguments search {A X}. Arguments keep_ltb {A}. Arguments insert_desc {A}. Arguments sort_desc {A}. Arguments nlargest {A}.
Arguments pools_to_keep {A}. Arguments calculate_margin {A}. Arguments margin_at {A}. Arguments touch_delegation {A}. Arguments greedy {A}.
Arguments greedy_allocations {A}. Arguments stake_allocations {A}. Arguments find_delegation_move {A}. Arguments find_delegation_for_operator {A}.
Arguments adjust_pool {A}. Arguments draft_pool {A}. Arguments find_operator_move {A}. Arguments choose_pool_strategy {A}. Arguments augmented_utility {A}.
Arguments pick_move {A}. Arguments update_strategy {A}. Arguments remove_one_delegation {A}. Arguments drop_from_new {A}. Arguments remove_delegations {A}.
Arguments close_pool {A}. Arguments update_pool {A}. Arguments open_pool {A}. Arguments execute_strategy {A}. Arguments advance {A}. Arguments agent_step {A}.
Arguments pool_operator_utility {A}.
