(** Construction of a simulation: Simulation.__init__ (logic/sim.py:21-193) and the synthetic distributions of logic/helper.py. *)
From Coq Require Import ZArith List Bool.
From Verif Require Import Num Py Rewards SortedKeyList World Stakeholder Sched Sim.
Import ListNotations.
Open Scope num_scope.

Section Init.
Variable A : Arith.
Notation num := (T A).

(** generate_stake_distr_flat (helper.py:102-104) *)
Definition stake_distr_flat (n : Z) : res (list num) :=
  let! s := (if (0 <? n)%Z then pdiv one (ofZ n) else Ok zero) in
  Ok (repeat s (Z.to_nat n)).
(** generate_stake_distr_disparity (helper.py:53-60), with arbitrary x and c *)
Definition stake_distr_disparity (n : Z) (x : num) (c : Z) : res (list num) :=
  let! high := pdiv x (ofZ c) in
  let! low := pdiv (one -' x) (ofZ (n - c)) in
  Ok (repeat high (Z.to_nat c) ++ repeat low (Z.to_nat (n - c))).
(** generate_cost_distr_disparity (helper.py:63-69) *)
Definition cost_distr_disparity (n : Z) (low high : num) (c : Z) : res (list num) :=
  if high <? low then Err ValueError else Ok (repeat high (Z.to_nat c) ++ repeat low (Z.to_nat (n - c))).

(** RSS_MAPPING[args['reward_scheme']](-1, -1) (sim.py:70; reward_schemes.py:119-125, 78-82, 12-14) *)
Definition make_rss (i : Z) : res (rss A) :=
  let build sc := let! r := set_k (mkRss sc 0%Z zero zero) (ofZ (-1)) in Ok (set_a0 r (ofZ (-1))) in
  match i with
  | 0%Z => build Cardano
  | 1%Z => build Simplified
  | 2%Z => build Flat
  | 3%Z => Err TypeError     (* __init__() missing 2 required positional arguments: 'crossover_factor' and 'curve_root' *)
  | 4%Z => build CIP50
  | _ => Err KeyError
  end.

(** A parameter is a value or a list of values for successive phases. *)
Inductive pv (X : Type) := Single (x : X) | Multi (l : list X).
Arguments Single {X}. Arguments Multi {X}.
Definition pv_map {X Y} (f : X -> Y) (p : pv X) : pv Y := match p with Single x => Single (f x) | Multi l => Multi (map f l) end.

(** Constructor arguments that matter for the behaviour (sim.py:22-27). *)
Record args := mkArgs {
  g_n : pv Z; g_k : pv num; g_a0 : pv num; g_rel : pv num; g_abs : pv num; g_maxit : pv Z; g_phi : pv num; g_order : pv order; g_graphs : pv bool;
  g_scheme : Z; g_inactive : num; g_known : bool; g_itac : Z
}.

(** [other_fields] in order (sim.py:72-75) *)
Definition fields (g : args) : list (pv (setting A)) :=
  [ pv_map SetN (g_n g); pv_map SetK (g_k g); pv_map SetA0 (g_a0 g); pv_map SetRel (g_rel g); pv_map SetAbs (g_abs g);
    pv_map SetMaxIter (g_maxit g); pv_map SetPhi (g_phi g); pv_map SetOrder (g_order g); pv_map SetGraphs (g_graphs g) ].

(** a model object before any field is set: dummy values are overwritten by the nine fields *)
Definition blank (r : rss A) : sim A :=
  mkSim (mkConf Random 0 1 []) (mkWorld r zero zero zero false zero [] [] 0 [] [] [] 0 true) 0 0 Random true 0 0 0 [] [] true [] [].

(** the loop over other_fields (sim.py:76-89) *)
Definition set_field (s : sim A) (f : pv (setting A)) : res (sim A) :=
  match f with
  | Single v => apply_setting v s
  | Multi l =>
      let! v := py_index l 0 in
      let! s' := apply_setting v s in
      let c := s_c s' in
      Ok (mkSim (mkConf (c_sched c) (c_itac c) (Nat.max (length l) (c_phases c)) (c_multi c ++ [l])) (s_w s') (s_n s') (s_maxit s') (s_order s')
                (s_graphs s') (s_steps s') (s_cons s') (s_phase s') (s_eq s') (s_piv s') (s_running s') (s_rows s') (s_out s'))
  end.

(** initialize_agents (sim.py:148-176): the samples of stakes, costs and profiles are inputs *)
Definition make_agents (n : Z) (profiles : list profile) (stakes costs : list num) : res (dict (agent A)) :=
  mapM (fun i => let! p := py_index profiles (Z.of_nat i) in
                 let! s := py_index stakes (Z.of_nat i) in
                 let! c := py_index costs (Z.of_nat i) in
                 Ok (i, new_agent i p s c)) (seq 0 (Z.to_nat n)).

(** normalize_agent_stake (sim.py:178-193): returns the agents and the normalised total *)
Definition add_to_last (d : dict (agent A)) (x : num) : dict (agent A) :=
  match rev d with
  | [] => d
  | (i, ag) :: r => rev ((i, agent_set_stake (a_stake ag +' x) ag) :: r)
  end.
Definition normalize (total : num) (d : dict (agent A)) : res (dict (agent A) * num) :=
  let! d1 := mapM (fun e => let! s := pdiv (a_stake (snd e)) total in Ok (fst e, agent_set_stake s (snd e))) d in
  let norm := psum (map (fun e => a_stake (snd e)) d1) in
  if norm =? one then Ok (d1, norm)
  else match d1 with
       | [] => Err UnboundLocalError   (* the loop variable agent was never assigned *)
       | _ => let err := one -' norm in Ok (add_to_last d1 err, norm +' err)
       end.

(** Simulation.__init__ (sim.py:66-146).  Omitted: seeds, output directory, exported descriptor files, choice of metrics. *)
Definition init (g : args) (profiles : list profile) (stakes costs : list num) : res (sim A) :=
  let! r0 := make_rss (g_scheme g) in
  let! s1 := foldM set_field (fields g) (blank r0) in
  let w1 := s_w s1 in
  let! r1 := (if g_known g then
                let! k' := pdiv (ofZ (r_k (w_rss w1))) (one -' g_inactive g) in
                set_k (w_rss w1) k'
              else Ok (w_rss w1)) in
  let nones := repeat (key_none (A := A), @None nat) (Z.to_nat (r_k r1 + 1)) in
  let! ags := make_agents (s_n s1) profiles stakes costs in
  let! total := pdiv (psum stakes) (one -' g_inactive g) in
  if total <=? zero then Err ValueError
  else
    let! at_ := (if total =? one then Ok (ags, total) else normalize total ags) in
    let '(ags', total') := at_ in
    let w := mkWorld r1 (w_rel w1) (w_abs w1) (w_phi w1) (w_simul w1) total' ags' [] 0 [] nones nones 0 true in
    let c := s_c s1 in
    Ok (mkSim (mkConf (s_order s1) (g_itac g) (c_phases c) (c_multi c)) w (s_n s1) (s_maxit s1) (s_order s1) (s_graphs s1) 0 0 0 [] [] true [] []).
End Init.
Arguments Single {X}. Arguments Multi {X}.
Arguments stake_distr_flat {A}. Arguments stake_distr_disparity {A}. Arguments cost_distr_disparity {A}. Arguments make_rss {A}.
Arguments mkArgs {A}. Arguments g_n {A}. Arguments g_k {A}. Arguments g_a0 {A}. Arguments g_rel {A}. Arguments g_abs {A}. Arguments g_maxit {A}.
Arguments g_phi {A}. Arguments g_order {A}. Arguments g_graphs {A}. Arguments g_scheme {A}. Arguments g_inactive {A}. Arguments g_known {A}. Arguments g_itac {A}.
Arguments fields {A}. Arguments blank {A}. Arguments set_field {A}. Arguments make_agents {A}. Arguments add_to_last {A}. Arguments normalize {A}. Arguments init {A}.
