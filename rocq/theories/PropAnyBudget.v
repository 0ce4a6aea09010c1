(** C93: the rewards of an epoch under every activation order. *)
From Coq Require Import ZArith QArith Qcanon List Bool Arith Lia Permutation.
From Verif Require Import Num Py QcTac Rewards RewardFacts PropRewards SortedKeyList World Stakeholder Sched Sim Init Reach ListFacts Inv SimInv Spec Greedy PropInit Demo PropState Reporters ReporterFacts PropReporters Frame PropRun PropPhase PropMove PropTotal PropIncome Persons PropBudget AnyOrder PropSimul.
From Verif Require Import AnyBooks PropBooks AnyShares PropAnyMetrics PropAnyShares.
Import ListNotations.
Open Scope Qc_scope.

(** the saturation threshold is positive in every phase *)
Lemma reach_thr so (g : args QcA) profiles (stakes costs : list Qc) (s0 s : sim QcA) : init g profiles stakes costs = Ok s0 -> g_inactive g < 1 -> (forall x : Qc, In x (phase_values (g_k g)) -> 0 < x) -> reach so s0 s -> 0 < r_thr (w_rss (s_w s)).
Proof.
  intros H0 F Hk. induction 1 as [|ch s s' R IH H]; [exact (init_threshold g profiles stakes costs s0 H0 F Hk)|].
  assert (SH := H). apply step_shape in SH as (_ & _ & _ & SH). destruct (Nat.eq_dec (s_phase s') (s_phase s)) as [E|N].
  - assert (K : w_rss (s_w s') = w_rss (s_w s)); [|now rewrite K]. destruct SH as [(_ & _ & _ & _ & _ & _ & _ & W & _)|(_ & _ & _ & [(_ & _ & _ & _ & _ & P)|(_ & _ & _ & [(_ & _ & _ & P & _)|(_ & _ & _ & _ & _ & P)])])]; [now rewrite W | | lia |]; unfold Frame.params in P; congruence.
  - destruct (C33_applies_the_listed_parameters QcA so g profiles stakes costs s0 s s' ch H0 R H N) as (_ & _ & _ & _ & _ & _ & _ & _ & E & _). unfold listed in E. destruct (g_k g) as [x|l] eqn:Eg; [destruct E as [_ E]; now rewrite E|].
    destruct (nth_error l (S (s_phase s))) as [k|] eqn:En; [|destruct E as [_ E]; now rewrite E]. destruct E as (_ & _ & E). rewrite E. apply Qcdiv_pos; [reflexivity|]. apply Hk. cbn. eapply nth_error_In; exact En.
Qed.
Lemma visible_thr so (g : args QcA) profiles (stakes costs : list Qc) (s0 : sim QcA) w : init g profiles stakes costs = Ok s0 -> g_inactive g < 1 -> (forall x : Qc, In x (phase_values (g_k g)) -> 0 < x) -> visible so s0 w -> 0 < r_thr (w_rss w).
Proof.
  intros H0 F Hk [s R|s ch evs1 evs2 w' R Hev Hw]; [eapply reach_thr; eassumption|]. destruct (events_frame so _ _ _ Hw) as (P & _). assert (K : w_rss w' = w_rss (s_w s)) by (unfold Frame.params in P; congruence). rewrite K. eapply reach_thr; eassumption.
Qed.

(** Each pool earns something between nothing and what it holds, and never more than the saturation threshold. All pools together earn at most the stake in pools, and at most as many thresholds as there are pools. *)
Theorem C93_rewards_in_every_order : forall so (g : args QcA) profiles (stakes costs : list Qc) (s0 : sim QcA) w, set_order so -> init g profiles stakes costs = Ok s0 ->
  0 <= g_inactive g -> g_inactive g < 1 -> (forall x, In x stakes -> 0 <= x) -> (forall x : Qc, In x (phase_values (g_k g)) -> 0 < x) -> (forall x : Qc, In x (phase_values (g_a0 g)) -> 0 <= x) -> visible so s0 w ->
  exists ps rewards t, pools_list w = Ok ps /\ Forall2 (fun p x => pool_reward (A := QcA) (w_rss w) (p_pledge p) (p_stake p) = Ok x /\ 0 <= x /\ x <= p_stake p /\ x <= r_thr (w_rss w) /\ x <= 1) ps rewards /\
  total_delegated_stake w = Ok t /\ Qc_sum rewards <= t /\ Qc_sum rewards <= Qc_ofZ (Z.of_nat (length ps)) * r_thr (w_rss w).
Proof.
  intros so g profiles stakes costs s0 w SO H F0 F1 Hx Hk Ha V. assert (Ht := visible_thr so g profiles stakes costs s0 w H F1 Hk V). assert (A0 := Ha _ (visible_a0 so g profiles stakes costs s0 w H V)).
  destruct (C92_no_pool_holds_more_than_everything so g profiles stakes costs s0 w SO H F0 F1 Hx V) as (B & ps & t & Hps & Et & _). exists ps.
  assert (Np : NoDup (keys (w_pools w))) by exact (proj1 (proj2 (proj1 (run_both so SO g profiles stakes costs s0 H F0 F1 Hx w V)))).
  assert (A : forall p, In p ps -> exists id, active w id p).
  { intros p J. apply mapM_ok in Hps. assert (X : exists r, In r (values (w_pools w)) /\ deref w r = Ok p). { clear - Hps J. induction Hps as [|r q l l' E F IH]; [destruct J|]. destruct J as [->|J]; [exists r; split; [now left | exact E] | destruct (IH J) as (r' & X1 & X2); exists r'; split; [now right | exact X2]]. }
    destruct X as (r & X1 & X2). apply In_values in X1 as (id & X1); [|exact Np]. apply of_option_ok in X2. exists id, r. now split. }
  assert (P : forall p, In p ps -> exists x, pool_reward (A := QcA) (w_rss w) (p_pledge p) (p_stake p) = Ok x /\ 0 <= x /\ x <= p_stake p /\ x <= r_thr (w_rss w) /\ x <= 1).
  { intros p J. destruct (A p J) as (id & Jp). destruct (C92_pledge_and_delegations_are_affordable so g profiles stakes costs s0 w SO H F0 F1 Hx V id p Jp) as ((ow & _ & Pp & _) & Pd).
    destruct (C14_pool_books_balance_in_every_order so g profiles stakes costs s0 w H V id p Jp) as (Es & Nd & _).
    assert (0 <= Qc_sum (values (p_delegators p))). { apply Qc_sum_nonneg. intros y Jy. apply in_map_iff in Jy as ([a v] & <- & Je). apply (In_get _ _ _ Nd) in Je. destruct (Pd a v Je) as (_ & ag & _ & P0 & _). now apply Qclt_le_weak. }
    assert (Le : p_pledge p <= p_stake p) by (rewrite Es; qlra). destruct (C01_reward_bounded (w_rss w) (p_pledge p) (p_stake p) Ht A0 Pp Le) as (x & E & X0 & X1 & X2). exists x.
    split; [exact E|]. split; [exact X0|]. split; [exact X1|]. split; [exact X2|]. eapply Qcle_trans; [exact X1 | exact (proj2 (proj2 (B id p Jp)))]. }
  assert (R : exists rewards, Forall2 (fun p x => pool_reward (A := QcA) (w_rss w) (p_pledge p) (p_stake p) = Ok x /\ 0 <= x /\ x <= p_stake p /\ x <= r_thr (w_rss w) /\ x <= 1) ps rewards).
  { clear - P. induction ps as [|p ps IH]; [exists []; constructor|]. destruct (P p (or_introl eq_refl)) as (x & X). destruct (IH (fun q J => P q (or_intror J))) as (l & L). exists (x :: l). now constructor. }
  destruct R as (rewards & R). exists rewards, t. split; [exact Hps|]. split; [exact R|]. split; [exact Et|]. unfold total_delegated_stake in Et. rewrite Hps in Et. cbn [bind] in Et. apply Ok_inj in Et. change (Qc_sum (map p_stake ps) = t) in Et. rewrite <- Et.
  clear - R. split.
  - induction R as [|p x l l' (_ & _ & L & _) R IH]; [apply Qcle_refl|]. cbn [map]. rewrite !Qc_sum_cons. now apply Qcplus_le_compat.
  - generalize dependent (r_thr (w_rss w)). intros th R. induction R as [|p x l l' (_ & _ & _ & L & _) R IH]; [change (0 <= 0 * th); rewrite Qcmult_0_l; apply Qcle_refl|]. cbn [length]. rewrite Qc_sum_cons, Nat2Z.inj_succ. unfold Z.succ. rewrite Qc_ofZ_add. change (Qc_ofZ 1) with 1.
    generalize dependent (Qc_ofZ (Z.of_nat (length l))). intros z IH. replace ((z + 1) * th) with (th + z * th) by ring. now apply Qcplus_le_compat.
Qed.

(** The budget of an epoch can be exceeded. With a0 = 1/100 the run of C25 stops after five steps, in the state it keeps; its pools are due 13788/12625 of the epoch's total,
    and the agents' incomes, after costs, add up to more than the total as well. *)
Definition low_args (o : order) : args QcA :=
  mkArgs (A := QcA) (Single 5%Z) (Single (Q2Qc 2)) (Single (Q2Qc (1#100))) (Single 0) (Single (Q2Qc (1#1000000))) (Single 100%Z) (Single (Q2Qc 2)) (Single o) (Single true) 0 0 false 2.
Definition low_check (s : sim QcA) : bool :=
  match pools_list (s_w s) with
  | Ok ps =>
      match mapM (fun p : pool QcA => pool_reward (A := QcA) (w_rss (s_w s)) (p_pledge p) (p_stake p)) ps, mapM (earns (s_w s)) (agents_list (s_w s)) with
      | Ok rewards, Ok incomes => Qc_eqb (Qc_sum rewards) (Q2Qc (13788 # 12625)) && Qc_ltb 1 (Qc_sum incomes) && negb (s_running s)
      | _, _ => false
      end
  | Err _ => false
  end.
Lemma low_sim : match (let! s0 := init (low_args Simultaneous) five_profiles five_stakes five_costs in steps 5 s0) with Ok s => low_check s | Err _ => false end = true.
Proof. vm_compute. reflexivity. Qed.
Lemma low_semi : match (let! s0 := init (low_args Semisimultaneous) five_profiles five_stakes five_costs in steps 5 s0) with Ok s => low_check s | Err _ => false end = true.
Proof. vm_compute. reflexivity. Qed.
Lemma low_reached o : simultaneous o -> exists s0 s, init (low_args o) five_profiles five_stakes five_costs = Ok s0 /\ reach so_id s0 s /\ low_check s = true.
Proof.
  intros [->| ->].
  - destruct (steps_check (init (low_args Simultaneous) five_profiles five_stakes five_costs) 5 low_check low_sim) as (s0 & s & H1 & H2 & H3). exists s0, s. apply steps_reach in H2. split; [exact H1|]. split; [exact H2 | exact H3].
  - destruct (steps_check (init (low_args Semisimultaneous) five_profiles five_stakes five_costs) 5 low_check low_semi) as (s0 & s & H1 & H2 & H3). exists s0, s. apply steps_reach in H2. split; [exact H1|]. split; [exact H2 | exact H3].
Qed.
Theorem C93_budget_in_every_order_refuted : forall o, simultaneous o ->
  exists s0 s ps rewards incomes, init (low_args o) five_profiles five_stakes five_costs = Ok s0 /\ set_order so_id /\ positive_inputs (low_args o) five_stakes /\ reach so_id s0 s /\ s_running s = false /\
  pools_list (s_w s) = Ok ps /\ mapM (fun p => pool_reward (A := QcA) (w_rss (s_w s)) (p_pledge p) (p_stake p)) ps = Ok rewards /\ 1 < Qc_sum rewards /\
  mapM (earns (s_w s)) (agents_list (s_w s)) = Ok incomes /\ 1 < Qc_sum incomes.
Proof.
  intros o Ho. destruct (low_reached o Ho) as (s0 & s & H1 & H2 & H3). unfold low_check in H3. destruct (pools_list (s_w s)) as [ps|] eqn:Ep; [|discriminate H3].
  destruct (mapM (fun p : pool QcA => _) ps) as [rewards|] eqn:Er; [|discriminate H3]. destruct (mapM (earns (s_w s)) _) as [incomes|] eqn:Ei; [|discriminate H3].
  apply andb_true_iff in H3 as [H3 H5]. apply andb_true_iff in H3 as [H3 H4]. apply Qc_eqb_eq in H3. destruct (Qc_ltb_spec 1 (Qc_sum incomes)) as [L|L]; [|discriminate H4]. apply negb_true_iff in H5.
  exists s0, s, ps, rewards, incomes. split; [exact H1|]. split; [exact so_id_set_order|]. split.
  { split; [discriminate|]. split; [reflexivity|]. split; [cbn; intros x [<-|[<-|[<-|[<-|[<-|[]]]]]]; reflexivity | cbn; intros x [<-|[]]; reflexivity]. }
  split; [exact H2|]. split; [exact H5|]. split; [exact Ep|]. split; [exact Er|]. split; [rewrite H3; reflexivity|]. split; [exact Ei | exact L].
Qed.
(** This run meets the hypotheses of [C93_rewards_in_every_order], with pools to pay. *)
Example C93_instance : forall o, simultaneous o -> exists s0 s ps, init (low_args o) five_profiles five_stakes five_costs = Ok s0 /\ set_order so_id /\ 0 <= g_inactive (low_args o) /\ g_inactive (low_args o) < 1 /\ (forall x, In x five_stakes -> 0 <= x) /\
  (forall x : Qc, In x (phase_values (g_k (low_args o))) -> 0 < x) /\ (forall x : Qc, In x (phase_values (g_a0 (low_args o))) -> 0 <= x) /\ visible so_id s0 (s_w s) /\ pools_list (s_w s) = Ok ps /\ ps <> [].
Proof.
  intros o Ho. destruct (C93_budget_in_every_order_refuted o Ho) as (s0 & s & ps & rewards & incomes & H1 & SO & (F0 & F1 & Hx & Hk) & R & _ & Ep & Er & L & _). exists s0, s, ps. split; [exact H1|]. split; [exact SO|]. split; [exact F0|]. split; [exact F1|].
  split; [intros x J; apply Qclt_le_weak; now apply Hx|]. split; [exact Hk|]. split; [cbn; intros x [<-|[]]; discriminate|]. split; [now apply vis_between|]. split; [exact Ep|]. intros C. rewrite C in Er. cbn in Er. injection Er as <-. discriminate L.
Qed.
