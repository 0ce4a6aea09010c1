(** Since the agents never change (C56), the total stake is conserved and the reward budget is kept in every state of a run (C02, C16, C40, C55). *)
From Coq Require Import ZArith QArith Qcanon List Bool Arith Lia Permutation.
From Verif Require Import Num Py QcTac Rewards RewardFacts PropRewards SortedKeyList World Stakeholder Helper Sched Sim Init Reach ListFacts Inv Eval Exec Step SimInv Spec Greedy PropInit Demo PropSched ExactInv PropState PropExact Reporters ReporterFacts PropReporters Frame PropRun PropPhase PropMove PropTotal PropIncome Persons.
Import ListNotations.
Open Scope Qc_scope.

(** the stakes of the agents never exceed 1 at the start, even if the given stakes add up to less than 1 or there are more stakes than agents *)
Lemma init_at_most_one (g : args QcA) profiles (stakes costs : list Qc) (s0 : sim QcA) : init g profiles stakes costs = Ok s0 -> 0 <= g_inactive g -> g_inactive g < 1 -> (forall x, In x stakes -> 0 <= x) ->
  Qc_sum (agent_stakes (w_agents (s_w s0))) <= 1.
Proof.
  intros H F0 F1 Hx. destruct (C27_total_is_one _ _ _ _ _ H) as [_ One].
  destruct (Qc_eqb_spec (Qc_sum stakes) (1 - g_inactive g)) as [E|E]; [|rewrite One by (now left); apply Qcle_refl].
  assert (E1 : Qc_sum stakes / (1 - g_inactive g) = 1). { rewrite E. apply Qcmult_inv_r. intros C. qlra. }
  apply init_inv in H as (r0 & s1 & ags & tot & ags' & tot' & _ & _ & _ & Ha & Ht & Hp & Hn & Ea & _). rewrite Ea.
  assert (tot = 1) as ->. { rewrite pdiv_ok in Ht by (intros C; cbn [sub one QcA] in C; qlra). injection Ht as Ht. rewrite psum_sum in Ht. rewrite <- Ht. exact E1. }
  destruct Hn as [-> _]. destruct (make_agents_stakes _ _ _ _ _ Ha) as [-> _]. apply Qcle_trans with (Qc_sum stakes); [|rewrite E; qlra]. change (T QcA) with Qc in *.
  rewrite <- (firstn_skipn (Z.to_nat (s_n s1)) stakes) at 2. rewrite Qc_sum_app. assert (0 <= Qc_sum (skipn (Z.to_nat (s_n s1)) stakes)); [|qlra]. apply Qc_sum_nonneg. intros y Hy. apply Hx.
  rewrite <- (firstn_skipn (Z.to_nat (s_n s1)) stakes). apply in_app_iff. now right.
Qed.

(** * C56: the total stake is conserved *)
Theorem C56_total_stake_is_conserved : forall so (g : args QcA) profiles (stakes costs : list Qc) (s0 : sim QcA) w, init g profiles stakes costs = Ok s0 -> visible so s0 w ->
  active_stake_agents w = active_stake_agents (s_w s0) /\
  (Qc_sum stakes <> 1 - g_inactive g \/ g_inactive g = 0 /\ length stakes = Z.to_nat (s_n s0) -> active_stake_agents w = 1) /\
  (0 <= g_inactive g -> g_inactive g < 1 -> (forall x, In x stakes -> 0 <= x) -> active_stake_agents w <= 1).
Proof.
  intros so g profiles stakes costs s0 w H V. assert (E := C56_stakes_never_change _ _ _ _ V).
  assert (Q : active_stake_agents w = Qc_sum (agent_stakes (w_agents (s_w s0)))). { unfold active_stake_agents, agents_list, values. rewrite map_map. unfold agent_stakes. now rewrite E. }
  assert (Q0 : active_stake_agents (s_w s0) = Qc_sum (agent_stakes (w_agents (s_w s0)))). { unfold active_stake_agents, agents_list, values. rewrite map_map. reflexivity. }
  split; [congruence|]. rewrite Q. split; [apply (C27_total_is_one _ _ _ _ _ H) | now apply (init_at_most_one g profiles stakes costs)].
Qed.

(** * C02 for the states of a run *)
(** In every state of a run the rewards of all pools together do not exceed the epoch's total, 1. *)
Theorem C02_budget_in_every_state : forall so (g : args QcA) profiles (stakes costs : list Qc) (s0 : sim QcA) w, set_order so -> init g profiles stakes costs = Ok s0 -> one_at_a_time g -> positive_inputs g stakes ->
  (forall x : Qc, In x (phase_values (g_a0 g)) -> 0 <= x) -> visible so s0 w ->
  exists ps rewards, pools_list w = Ok ps /\ mapM (fun p => pool_reward (A := QcA) (w_rss w) (p_pledge p) (p_stake p)) ps = Ok rewards /\ Qc_sum (map p_stake ps) <= 1 /\ Qc_sum rewards <= 1.
Proof.
  intros so g profiles stakes costs s0 w SO H1 H2 HP HA V. assert (HP' := HP). destruct HP' as (F0 & F1 & Hx & _). assert (Hx' : forall x, In x stakes -> 0 <= x) by (intros x J; apply Hx in J; qlra).
  destruct (exact_all False True True so SO _ _ _ _ _ _ H1 H2 (inputs_pos _ _ _ _ _ H1 HP) V) as [G _]. assert (A0 := HA _ (visible_a0 _ _ _ _ _ _ _ H1 V)).
  destruct (reported_pools _ _ _ _ _ G) as (ps & Hps & A1 & _ & F). assert (S1 : Qc_sum (map p_stake ps) <= 1).
  { destruct (C16_pools_hold_no_more_than_agents so g profiles stakes costs s0 w SO H1 H2 F0 F1 Hx' V) as (ps' & F' & Le). assert (ps' = ps) as ->.
    { clear - F F'. revert ps' F'. induction F as [|r p l l' E F IH]; intros ps' F'; inversion F'; subst; [reflexivity|]. f_equal; [congruence | now apply IH]. }
    eapply Qcle_trans; [exact Le|]. destruct (C56_total_stake_is_conserved _ _ _ _ _ _ _ H1 V) as (_ & _ & L). exact (L F0 F1 Hx'). }
  exists ps.
  assert (P : forall p, In p ps -> 0 < r_thr (w_rss w) /\ 0 <= p_pledge p /\ p_pledge p <= p_stake p).
  { intros p J. apply A1 in J as (id & J). destruct (income_pool _ w G id p J) as (T1 & T2 & _ & T3 & _). destruct (reported_deleg _ _ _ _ _ G _ _ J) as [D _]. split; [assumption|]. split; [qlra|]. rewrite T3. change (T QcA) with Qc in *. qlra. }
  destruct ps as [|p0 ps0]. { exists []. split; [assumption|]. split; [reflexivity|]. split; [assumption | discriminate]. }
  remember (p0 :: ps0) as ps eqn:Eps. assert (Ht : 0 < r_thr (w_rss w)) by (apply (P p0); subst; now left). clear Eps.
  destruct (C02_epoch_budget (w_rss w) (map (fun p => (p_pledge p, p_stake p)) ps) Ht A0) as (xs & X1 & _ & X2).
  { intros q J. apply in_map_iff in J as (p & <- & J). now apply P. }
  { rewrite map_map. exact S1. }
  exists xs. split; [assumption|]. split; [|now split]. revert X1. clear. revert xs. induction ps as [|p ps IH]; intros xs X; [exact X|]. cbn [map mapM fst snd] in *. apply bind_ok in X as (y & Y1 & X). apply bind_ok in X as (ys & Y2 & X). rewrite Y1. cbn [bind]. rewrite (IH _ Y2). exact X.
Qed.
(** hence the agents together never earn more than the epoch's total less the costs of the pools *)
Theorem C55_incomes_within_the_budget : forall so (g : args QcA) profiles (stakes costs : list Qc) (s0 : sim QcA) w, set_order so -> init g profiles stakes costs = Ok s0 -> one_at_a_time g -> positive_inputs g stakes ->
  (forall x : Qc, In x (phase_values (g_a0 g)) -> 0 <= x) -> visible so s0 w ->
  exists ps incomes, pools_list w = Ok ps /\ mapM (earns w) (agents_list w) = Ok incomes /\ Qc_sum incomes <= 1 - Qc_sum (map p_cost ps).
Proof.
  intros so g profiles stakes costs s0 w SO H1 H2 HP HA V. destruct (C55_incomes_are_the_rewards _ _ _ _ _ _ _ SO H1 H2 HP HA V) as (ps & rewards & incomes & E1 & E2 & E3 & E4).
  destruct (C02_budget_in_every_state _ _ _ _ _ _ _ SO H1 H2 HP HA V) as (ps' & rewards' & E1' & E2' & _ & L). assert (ps' = ps) by congruence. subst ps'. assert (rewards' = rewards) by congruence. subst rewards'.
  exists ps, incomes. split; [assumption|]. split; [assumption|]. rewrite E4. change (T QcA) with Qc in *. qlra.
Qed.
(** * C40 without a condition on the state *)
Theorem C40_distance_at_most_one : forall so (g : args QcA) profiles (stakes costs : list Qc) (s0 : sim QcA) w, set_order so -> init g profiles stakes costs = Ok s0 -> one_at_a_time g -> positive_inputs g stakes ->
  visible so s0 w -> w_pools w <> [] -> exists d, stat_dist w = Ok d /\ 0 <= d /\ d <= 1.
Proof.
  intros so g profiles stakes costs s0 w SO H1 H2 HP V N. assert (HP' := HP). destruct HP' as (F0 & F1 & Hx & _). assert (Hx' : forall x, In x stakes -> 0 <= x) by (intros x J; apply Hx in J; qlra).
  destruct (C40_statistical_distance so g profiles stakes costs s0 w SO H1 H2 F0 F1 Hx' V N) as (ps & d & _ & Ed & _ & D0 & _ & D1). exists d. split; [assumption|]. split; [assumption|]. apply D1; [|assumption]. now apply (C56_total_stake_is_conserved _ _ _ _ _ _ _ H1 V).
Qed.

(** the demo run after three rounds: three pools, and rewards to distribute *)
Example C55_instance : exists s0 s ps incomes, init demo_seq demo_profiles demo_stakes demo_costs = Ok s0 /\ visible so_id s0 (s_w s) /\ set_order so_id /\ one_at_a_time demo_seq /\ positive_inputs demo_seq demo_stakes /\
  (forall x : Qc, In x (phase_values (g_a0 demo_seq)) -> 0 <= x) /\ w_pools (s_w s) <> [] /\ pools_list (s_w s) = Ok ps /\ length ps = 3%nat /\ mapM (earns (s_w s)) (agents_list (s_w s)) = Ok incomes /\ 0 < Qc_sum incomes.
Proof.
  destruct (steps_check demo_init 3 (fun s => match pools_list (s_w s), mapM (earns (s_w s)) (agents_list (s_w s)) with Ok ps, Ok xs => Nat.eqb (length ps) 3 && Qc_ltb 0 (Qc_sum xs) | _, _ => false end)) as (s0 & s & H1 & H2 & H3). { vm_compute. reflexivity. }
  cbv beta in H3. destruct (pools_list (s_w s)) as [ps|] eqn:E1; [|discriminate]. destruct (mapM (earns (s_w s)) (agents_list (s_w s))) as [xs|] eqn:E2; [|discriminate]. apply andb_true_iff in H3 as [L P]. apply Nat.eqb_eq in L.
  exists s0, s, ps, xs. split; [exact H1|]. split; [constructor; now apply steps_reach in H2|]. split; [exact so_id_set_order|]. split; [exact demo_one|]. split; [exact demo_positive|].
  split. { intros x J. cbn in J. destruct J as [<-|[]]. discriminate. }
  split. { intros E. unfold pools_list in E1. rewrite E in E1. injection E1 as <-. discriminate. }
  split; [exact E1|]. split; [assumption|]. split; [exact E2|]. destruct (Qc_ltb_spec 0 (Qc_sum xs)); [assumption | discriminate].
Qed.
