(** The metrics by number mean what docs/metrics.md says (C69). *)
From Coq Require Import ZArith QArith Qcanon List Bool Arith Lia Permutation Sorted.
From Verif Require Import Num Py QcTac Rewards RewardFacts PropRewards SortedKeyList World Stakeholder Helper PropHelper Sched Sim Init Reach ListFacts Inv Eval Exec Step SimInv Spec Greedy PropInit Demo PropSched ExactInv PropState PropExact Reporters ReporterFacts PropReporters Frame PropRun PropPhase PropMove PropTotal TotalEval PropIncome Persons PropBudget PropMetrics Export PropExport Main PropMain.
Import ListNotations.
Open Scope Qc_scope.

(** * Specification: docs/metrics.md, and 0 for the averages when there is no pool *)
Definition zero_or (stat : list Qc -> Qc -> Prop) (l : list Qc) (v : mvalue QcA) : Prop := exists m : Qc, v = MNum (A := QcA) m /\ (l = [] -> m = 0) /\ (l <> [] -> stat l m).
Definition rounded_or_zero (stat : list Qc -> Qc -> Prop) (l : list Qc) (v : mvalue QcA) : Prop := exists z, v = MInt z /\ (l = [] -> z = 0%Z) /\ (l <> [] -> exists m, stat l m /\ nearest_even m z).
(** the gini coefficient: half of the relative mean absolute difference; -1 if there is nothing to share *)
Definition is_gini (l : list Qc) (v : mvalue QcA) : Prop := exists g : Qc, v = MNum (A := QcA) g /\ (Qc_sum l = 0 -> g = Qc_ofZ (-1)) /\ (0 < Qc_sum l -> g * ((1 + 1) * count_of l * Qc_sum l) = pair_differences l).
(** the total over the chosen positions *)
Definition chosen {X} (sel : list bool) (l : list X) : list X := map snd (filter fst (combine sel l)).
Definition least_total (costs weights : list Qc) (enough : Qc -> Prop) (x : Qc) : Prop :=
  (exists sel, length sel = length costs /\ enough (Qc_sum (chosen sel weights)) /\ x = Qc_sum (chosen sel costs)) /\
  forall sel, length sel = length costs -> enough (Qc_sum (chosen sel weights)) -> x <= Qc_sum (chosen sel costs).
(** the solver finds optimal choices *)
Definition solver_works (e : env QcA) : Prop := forall (costs weights : list Qc) (bound : Qc), length weights = length costs -> bound <= Qc_sum weights -> (forall x : Qc, In x weights -> 0 <= x) -> least_total costs weights (fun t => bound <= t) (e_solver e costs weights bound).
(** [iterations n]: the state was reached in n rounds; [ps]: the active pools *)
Definition documented (iterations : nat -> Prop) (w : world QcA) (ps : list (pool QcA)) (i : Z) (v : mvalue QcA) : Prop :=
  let operators := nodup Nat.eq_dec (map p_owner ps) in
  let pools_each := map (fun a => Qc_ofZ (Z.of_nat (pools_of ps a))) operators in
  let stake_each := map (controls ps) operators in
  let active_stake := Qc_sum (map p_stake ps) in
  match i with
  | 1%Z => v = MNat (length ps)
  | 2%Z => v = MNum (A := QcA) (Qc_sum (map p_pledge ps))
  | 3%Z => zero_or is_mean (map p_pledge ps) v
  | 4%Z => zero_or is_median (map p_pledge ps) v
  | 5%Z => zero_or is_mean pools_each v
  | 6%Z => exists m, v = MNat m /\ (ps = [] -> m = 0%nat) /\ (ps <> [] -> (exists a, pools_of ps a = m) /\ forall a, (pools_of ps a <= m)%nat)
  | 7%Z => zero_or is_median pools_each v
  | 8%Z => exists sats, Forall2 (fun p sat => sat * pool_threshold (A := QcA) (w_rss w) (p_pledge p) = p_stake p) ps sats /\ zero_or is_mean sats v
  | 9%Z => exists m, v = MNat m /\ (ps = [] -> m = 0%nat) /\ (ps <> [] -> least (majority (keys (w_agents w)) (controls ps) active_stake) m)
  | 10%Z => exists d : Qc, v = MNum (A := QcA) d /\ (ps = [] -> d = 0) /\ (ps <> [] -> d * (1 + 1) = Qc_sum (map (fun e : nat * agent QcA => Qcabs' (controls ps (fst e) - a_stake (snd e))) (w_agents w)))
  | 11%Z => exists x : Qc, v = MNum (A := QcA) x /\ (ps = [] -> x = 0) /\ (ps <> [] -> least_total (map p_pledge ps) (map p_stake ps) (fun t => active_stake <= t + t) x) (* at least half of the active stake; see below *)
  | 12%Z => exists r : Qc, v = MNum (A := QcA) r /\ (ps = [] -> r = 0) /\ r * active_stake = Qc_sum (map p_pledge ps)
  | 13%Z => exists h m : Qc, v = MNum (A := QcA) h /\ (ps = [] -> h = 0) /\ (ps <> [] -> In m (map p_stake ps : list Qc) /\ (forall x : Qc, In x (map p_stake ps : list Qc) -> x <= m) /\ h * (count_of ps * m) = active_stake)
  | 14%Z => forall n, iterations n -> v = MNat n
  | 15%Z => exists l, operator_places a_stake w ps l /\ rounded_or_zero is_mean l v
  | 16%Z => exists l, operator_places (fun ag => 0 - a_cost ag) w ps l /\ rounded_or_zero is_mean l v
  | 17%Z => exists l, operator_places a_stake w ps l /\ rounded_or_zero is_median l v
  | 18%Z => exists l, operator_places (fun ag => 0 - a_cost ag) w ps l /\ rounded_or_zero is_median l v
  | 19%Z => v = MNat (length (filter (fun a => Nat.ltb 1 (pools_of ps a)) operators))
  | 20%Z => exists pps, Forall2 (fun ag pp => potential_profit (A := QcA) (w_rss w) (a_stake ag) (a_cost ag) = Ok pp) (values (w_agents w)) pps /\ v = MNat (length (filter (fun pp => Qc_ltb 0 pp) pps))
  | 21%Z => exists rows, v = MRows rows /\ Forall2 (fun p row => exists ag, get (w_agents w) (p_owner p) = Some ag /\ row = (a_stake ag, p_stake p, p_margin p, p_id p, p_owner p)) ps rows
  | 22%Z => is_gini pools_each v
  | 23%Z => is_gini stake_each v
  | 24%Z => zero_or is_mean (map p_margin ps) v
  | 25%Z => zero_or is_median (map p_margin ps) v
  | 26%Z => v = MNums (A := QcA) (map (controls ps) (keys (w_agents w)))
  | 27%Z => v = MDict (A := QcA) (map (fun a => (a, controls ps a)) (keys (w_agents w)))
  | 28%Z => v = MNum (A := QcA) active_stake
  | 29%Z => v = MNum (A := QcA) (Qc_sum (map a_stake (values (w_agents w))))
  | 30%Z => v = MNat (length operators)
  | _ => False
  end.

Lemma is_mean_perm l l' m : Permutation l l' -> is_mean l m -> is_mean l' m.
Proof. intros P. unfold is_mean, count_of. rewrite (Permutation_length P). now rewrite (Qc_sum_perm _ _ P). Qed.
Lemma is_median_perm l l' m : Permutation l l' -> is_median l m -> is_median l' m.
Proof. intros P (s & a & b & P1 & S & Ea & Eb & E). rewrite (Permutation_length P) in Ea, Eb. exists s, a, b. split; [now transitivity l|]. auto. Qed.
Lemma counts_perm (ps : list (pool QcA)) : Permutation (values (counter (owners ps))) (map (pools_of ps) (nodup Nat.eq_dec (owners ps))).
Proof.
  destruct (counter_keys (owners ps)) as [Nk K].
  assert (G : forall e, In e (counter (owners ps)) -> snd e = pools_of ps (fst e)).
  { intros [a n] J. apply In_get in J; [|assumption]. rewrite counter_get in J. destruct (in_dec Nat.eq_dec a (owners ps)); [|discriminate]. injection J as <-. reflexivity. }
  transitivity (map (pools_of ps) (keys (counter (owners ps)))).
  - unfold values, keys. rewrite map_map. erewrite map_ext_in; [reflexivity|]. intros e J. now apply G.
  - apply Permutation_map. apply NoDup_Permutation; [assumption | apply NoDup_nodup |]. intros a. now rewrite K, nodup_In.
Qed.
Lemma gini_is (l l' : list Qc) x : (forall y, In y l' -> 0 <= y) -> Permutation l l' -> gini (A := QcA) l = Ok x -> is_gini l' (MNum (A := QcA) x).
Proof.
  intros N P E. assert (N' : forall y, In y l -> 0 <= y) by (intros y J; apply N; now apply (Permutation_in _ P)).
  destruct (C36_gini l N') as [Z1 Z2]. exists x. split; [reflexivity|]. split.
  - intros S. rewrite <- (Qc_sum_perm _ _ P) in S. apply Z1 in S. congruence.
  - intros S. rewrite <- (Qc_sum_perm _ _ P) in S. destruct (Z2 S) as (g & Eg & _ & _ & _ & _ & Pm & _). assert (g = x) by congruence. subst g. specialize (Pm _ P). rewrite (Qc_sum_perm _ _ P) in S.
    destruct (proj2 (C36_gini l' N) S) as (g & Eg' & Ef & _). assert (g = x) as -> by congruence. rewrite Ef. unfold count_of. apply Qcdiv_mul. apply Qc_pos_neq. apply Qcmult_pos; [|assumption]. apply Qcmult_pos; [reflexivity|]. apply Qc_ofZ_pos. destruct l'; [discriminate S | cbn; lia].
Qed.
Lemma zero_or_ok stat l (r : res Qc) : summarises stat l r -> exists v, as_num (A := QcA) r = Ok v /\ zero_or stat l v.
Proof. intros (m & -> & H). exists (MNum (A := QcA) m). split; [reflexivity|]. exists m. auto. Qed.
Lemma rounded_ok stat l (r : res Z) : rounds_to stat l r -> exists v, as_int (A := QcA) r = Ok v /\ rounded_or_zero stat l v.
Proof. intros (m & -> & H). exists (MInt m). split; [reflexivity|]. exists m. auto. Qed.
Lemma mean_pools_each (w : world QcA) ps : pools_list w = Ok ps -> summarises is_mean (map (fun a => Qc_ofZ (Z.of_nat (pools_of ps a))) (nodup Nat.eq_dec (map p_owner ps))) (avg_pools_per_operator w).
Proof.
  intros E. fold (owners ps). destruct (C38_operator_statistics w ps E) as (ops & spl & mx & _ & _ & _ & Eo & En & _ & _ & _ & _ & Ne & Em).
  destruct ps as [|p0 ps0]; [destruct Em as (_ & _ & _ & X & _); [reflexivity|]; exists 0; split; [exact X|]; split; [reflexivity | intros N; now contradiction N]|]. remember (p0 :: ps0) as ps eqn:Ep.
  destruct Ne as (_ & _ & avg & _ & Ea & _ & Hs & _); [subst; discriminate|]. exists avg. split; [exact Ea|]. split.
  - intros C. exfalso. apply map_eq_nil in C. assert (J : In (p_owner p0) (nodup Nat.eq_dec (owners ps))) by (apply nodup_In; subst ps; now left). rewrite C in J. destruct J.
  - intros _. unfold is_mean, count_of. rewrite map_length, <- Eo, Qcmult_comm, Hs, En. rewrite <- (map_map (pools_of ps) (fun n => Qc_ofZ (Z.of_nat n))).
    rewrite <- (Qc_sum_perm _ _ (Permutation_map (fun n => Qc_ofZ (Z.of_nat n)) (counts_perm ps))), counter_sum. unfold owners. now rewrite map_length.
Qed.
Lemma median_pools_each (w : world QcA) ps : pools_list w = Ok ps -> summarises is_median (map (fun a => Qc_ofZ (Z.of_nat (pools_of ps a))) (nodup Nat.eq_dec (map p_owner ps))) (median_pools_per_operator w).
Proof.
  intros E. fold (owners ps). unfold median_pools_per_operator, when_pools. rewrite E. cbn [bind]. destruct ps as [|p0 ps0]; [exists 0; split; [reflexivity|]; split; [reflexivity | intros N; now contradiction N]|]. remember (p0 :: ps0) as ps eqn:Ep. fold (owners ps).
  assert (P := Permutation_map (fun n => Qc_ofZ (Z.of_nat n)) (counts_perm ps)). rewrite map_map in P.
  assert (N : map (fun a => Qc_ofZ (Z.of_nat (pools_of ps a))) (nodup Nat.eq_dec (owners ps)) <> []).
  { intros C. apply map_eq_nil in C. assert (J : In (p_owner p0) (nodup Nat.eq_dec (owners ps))) by (apply nodup_In; subst ps; now left). rewrite C in J. destruct J. }
  destruct (median_is (map (fun n => Qc_ofZ (Z.of_nat n)) (values (counter (owners ps))))) as (m & Em & Im).
  { intros C. rewrite C in P. apply Permutation_nil in P. now apply N. }
  exists m. split; [exact Em|]. split; [intros C; now contradiction N|]. intros _. exact (is_median_perm _ _ _ P Im).
Qed.
Lemma controls_nonneg (ps : list (pool QcA)) a : (forall p, In p ps -> 0 <= p_stake p) -> 0 <= controls ps a.
Proof. intros H. unfold controls. apply Qc_sum_nonneg. intros x J. apply in_map_iff in J as (p & <- & J). apply filter_In in J as [J _]. now apply H. Qed.
Lemma listed_pools (w : world QcA) ps : pools_list w = Ok ps -> NoDup (keys (w_pools w)) -> Forall2 (fun id p => active w id p) (keys (w_pools w)) ps.
Proof.
  intros E N. unfold pools_list in E. apply mapM_ok in E. assert (G : forall e, In e (w_pools w) -> get (w_pools w) (fst e) = Some (snd e)) by (intros [id r] J; now apply In_get).
  unfold keys, values in *. clear N. remember (w_pools w) as l eqn:El in E, G at 1 |- *. clear El. revert ps E. induction l as [|e l IH]; intros ps E; inversion E as [|? p ? ps' D E']; subst; cbn; constructor.
  - exists (snd e). split; [apply G; now left | now apply of_option_ok in D].
  - apply IH; [|assumption]. intros; apply G; now right.
Qed.

Lemma cip50_scheme (g : args QcA) profiles (stakes costs : list Qc) (s0 : sim QcA) : init g profiles stakes costs = Ok s0 -> r_scheme (w_rss (s_w s0)) = CIP50 -> g_scheme g = 4%Z.
Proof.
  intros H Sc. assert (Q := H). apply init_inv in Q as (r0 & s1 & ags & tot & ags' & tot' & Hm & Hf & Hr & _). apply fields_values in Hf as (n' & k0 & a0 & rel & abs & mi & phi & o & gr & rk & _ & _ & _ & _ & _ & _ & _ & _ & _ & Ek & P).
  unfold PropInit.params in P. injection P as P1 _ _ _ _ _ _ _. apply set_k_inv in Ek as (_ & Es & _ & _). apply (make_rss_scheme _ _ Hm). rewrite <- Es.
  destruct (g_known g); [destruct Hr as (k' & _ & Hr); apply set_k_inv in Hr as (_ & E1 & _ & _); rewrite P1 in E1; cbn in E1; congruence | rewrite Hr, P1 in Sc; exact Sc].
Qed.
Lemma controls_table (d : dict Qc) f : NoDup (keys d) -> (forall a, In a (keys d) -> get d a = Some (f a)) -> d = map (fun a => (a, f a)) (keys d).
Proof.
  intros N G. unfold keys in *. rewrite map_map. rewrite <- (map_id d) at 1. apply map_ext_in. intros [a v] J. cbn [fst]. f_equal. assert (E := G a (in_map fst _ _ J)). apply In_get in J; [|exact N]. congruence.
Qed.

(** Whenever metrics are collected, each metric has the documented value; number 8 for the CIP-50 scheme only if a0 is positive in every phase. *)
Theorem C69_metrics_are_as_documented : forall (e : env QcA) so (g : args QcA) profiles (stakes costs : list Qc) (s0 s : sim QcA) n, set_order so -> init g profiles stakes costs = Ok s0 -> one_at_a_time g ->
  positive_inputs g stakes -> (forall x : Qc, In x (phase_values (g_a0 g)) -> 0 <= x) -> g_n g = Single n -> reach so s0 s ->
  exists ps, Forall2 (fun id p => active (s_w s) id p) (keys (w_pools (s_w s))) ps /\ NoDup (keys (w_pools (s_w s))) /\
    forall i, (1 <= i <= 30)%Z -> (i = 8%Z -> ~ degenerate_cip50 g) -> (i = 11%Z -> solver_works e) -> exists v, metric e i s = Ok v /\ documented (fun m => exists l, rounds so s0 l s /\ length l = m) (s_w s) ps i v.
Proof.
  intros e so g profiles stakes costs s0 s n SO H OT HP HA Hn R. assert (V : visible so s0 (s_w s)) by (now constructor).
  destruct (C57_pool_statistics_of_reachable_states so g profiles stakes costs s0 (s_w s) SO H OT HP V) as (ps & am & mm & tp & del & Hps & _ & _ & _ & _ & _ & _ & _ & _ & _ & _ & _ & _ & _ & Hsat & rows & E21 & F21).
  destruct (exact_all False True True so SO _ _ _ _ _ _ H OT (inputs_pos _ _ _ _ _ H HP) V) as [G _].
  destruct (reported_pools _ _ _ _ _ G) as (ps' & Hps' & A1 & A2 & F2). assert (ps' = ps) as -> by congruence. clear Hps'.
  assert (St : forall p, In p ps -> 0 < p_stake p). { intros p J. apply A1 in J as (id & J). destruct (income_pool _ (s_w s) G id p J) as (_ & _ & T & _). exact T. }
  assert (NoDup (keys (w_pools (s_w s)))) as ND by apply (g_inv _ _ _ _ _ G).
  exists ps. split; [now apply listed_pools|]. split; [assumption|]. intros i Hi Hd He11.
  destruct (C65_every_metric_is_defined e so g profiles stakes costs s0 s n i SO H OT HP HA Hn R Hi Hd) as (v & Ev).
  enough (Q : exists v, metric e i s = Ok v /\ documented (fun m => exists l, rounds so s0 l s /\ length l = m) (s_w s) ps i v) by exact Q.
  destruct (C57_pool_statistics (s_w s) ps Hps) as (S24 & S25 & S3 & S4 & E2).
  destruct (C38_operator_statistics (s_w s) ps Hps) as (ops & spl & mx & E30 & E19 & E6 & Eo & En & Es & Mx & _ & _ & Hne & He).
  destruct (C35_nakamoto_of_reachable_states so g profiles stakes costs s0 (s_w s) SO H OT HP V) as (ps' & nak & Hps' & E9 & N1 & N2). assert (ps' = ps) as -> by congruence.
  destruct (C58_rank_metrics so g profiles stakes costs s0 (s_w s) SO H OT V) as (ps' & l1 & l2 & Hps2 & P1 & P2 & R15 & R17 & R16 & R18 & _). assert (ps' = ps) as -> by congruence.
  destruct (C36_gini_metrics (s_w s) ps Hps) as (g1 & g2 & G1 & G2 & E22 & E23 & _).
  assert (HP' := HP). destruct HP' as (F0 & F1 & Hx & Hk).
  destruct (C39_stake_reports_add_up so g profiles stakes costs s0 s n SO H OT F0 F1 (fun x J => Qclt_le_weak _ _ (Hx x J)) Hn R) as (ps' & x26 & x27 & del' & Hps3 & E26 & E27 & _ & Kd & Vd & Nd & _). assert (ps' = ps) as -> by congruence.
  assert (Np : w_pools (s_w s) <> [] <-> ps <> []). { assert (L := mapM_length _ _ _ Hps). unfold values in L. rewrite map_length in L. destruct (w_pools (s_w s)), ps; try discriminate; split; congruence. }
  assert (i = 1 \/ i = 2 \/ i = 3 \/ i = 4 \/ i = 5 \/ i = 6 \/ i = 7 \/ i = 8 \/ i = 9 \/ i = 10 \/ i = 11 \/ i = 12 \/ i = 13 \/ i = 14 \/ i = 15 \/ i = 16 \/ i = 17 \/ i = 18 \/ i = 19 \/ i = 20 \/ i = 21 \/ i = 22 \/ i = 23 \/ i = 24 \/ i = 25 \/ i = 26 \/ i = 27 \/ i = 28 \/ i = 29 \/ i = 30)%Z as D by lia.
  decompose [or] D; clear D; subst i; unfold documented; cbv zeta.
  - exists (MNat (number_of_pools (s_w s))). split; [reflexivity|]. now rewrite En.
  - unfold metric. rewrite E2. eexists. split; reflexivity.
  - exact (zero_or_ok _ _ _ S3).
  - exact (zero_or_ok _ _ _ S4).
  - exact (zero_or_ok _ _ _ (mean_pools_each _ _ Hps)).
  - unfold metric. rewrite E6. eexists. split; [reflexivity|]. exists mx. split; [reflexivity|]. split; [intros C; now apply He | intros C; split; [now apply Hne | assumption]].
  - exact (zero_or_ok _ _ _ (median_pools_each _ _ Hps)).
  - destruct Hsat as (sats & Fs & S8).
    { intros Sc. rewrite (reach_scheme _ _ _ _ _ _ _ H R) in Sc. assert (J := visible_a0 _ _ _ _ _ _ _ H V). assert (L := HA _ J). destruct (Qcle_lt_or_eq _ _ L) as [L'|L']; [assumption|]. exfalso. apply (Hd eq_refl). split; [|rewrite L'; exact J].
      exact (cip50_scheme _ _ _ _ _ H Sc). }
    destruct (zero_or_ok _ _ _ S8) as (v' & Ev' & Z). exists v'. split; [exact Ev'|]. exists sats. split; [|assumption]. clear - Fs. induction Fs as [|? ? ? ? [? _]]; constructor; assumption.
  - unfold metric. rewrite E9. eexists. split; [reflexivity|]. exists nak. auto.
  - destruct ps as [|p0 ps0] eqn:Ep.
    + exists (MNum (A := QcA) 0). split; [unfold metric, stat_dist, when_pools; now rewrite Hps|]. exists 0. split; [reflexivity|]. split; [reflexivity | intros N; now contradiction N].
    + rewrite <- Ep in *. assert (Ne : ps <> []) by (rewrite Ep; discriminate). destruct (C40_statistical_distance so g profiles stakes costs s0 (s_w s) SO H OT F0 F1 (fun x J => Qclt_le_weak _ _ (Hx x J)) V (proj2 Np Ne)) as (ps' & d & Hps4 & Ed & Hd' & _).
      assert (ps' = ps) as -> by congruence. unfold metric. rewrite Ed. eexists. split; [reflexivity|]. exists d. split; [reflexivity|]. split; [congruence | intros _; exact Hd'].
  - destruct ps as [|p0 ps0] eqn:Ep.
    + exists (MNum (A := QcA) 0). split; [unfold metric, min_aggregate_pledge, when_pools; now rewrite Hps|]. exists 0. split; [reflexivity|]. split; [reflexivity | intros N; now contradiction N].
    + rewrite <- Ep in *. assert (Sp : 0 < Qc_sum (map p_stake ps)) by (apply Qc_sum_pos; [intros x J; apply in_map_iff in J as (p & <- & J); now apply St | rewrite Ep; discriminate]).
      set (half := Qc_sum (map p_stake ps) / (1 + 1)). assert (Hh : half + half = Qc_sum (map p_stake ps)) by (rewrite <- twice; apply Qcdiv_mul; discriminate).
      assert (Em : min_aggregate_pledge e (s_w s) = Ok (e_solver e (map p_pledge ps) (map p_stake ps) half)).
      { unfold min_aggregate_pledge, when_pools. rewrite Hps. cbn [bind]. rewrite Ep. rewrite <- Ep. rewrite psum_sum, pdiv_ok by discriminate. reflexivity. }
      unfold metric. rewrite Em. eexists. split; [reflexivity|]. eexists. split; [reflexivity|]. split; [rewrite Ep; discriminate|]. intros _.
      assert (Hl : length (map p_stake ps : list Qc) = length (map p_pledge ps : list Qc)) by (now rewrite !map_length).
      destruct (He11 eq_refl (map p_pledge ps) (map p_stake ps) half Hl) as [(sel & L1 & L2 & L3) L4]; [qlra | intros x J; apply in_map_iff in J as (p & <- & J); apply Qclt_le_weak; now apply St |].
      split; [exists sel; split; [assumption|]; split; [qlra | assumption]|]. intros sel' L5 L6. apply L4; [assumption | qlra].
  - destruct ps as [|p0 ps0] eqn:Ep.
    + exists (MNum (A := QcA) 0). split; [unfold metric, pledge_rate, when_pools; now rewrite Hps|]. exists 0. split; [reflexivity|]. split; reflexivity.
    + rewrite <- Ep in *. assert (Ne : ps <> []) by (rewrite Ep; discriminate). assert (Sp : 0 < Qc_sum (map p_stake ps)) by (apply Qc_sum_pos; [intros x J; apply in_map_iff in J as (p & <- & J); now apply St | rewrite Ep; discriminate]).
      assert (Er : pledge_rate (s_w s) = Ok (Qc_sum (map p_pledge ps) / Qc_sum (map p_stake ps))).
      { unfold pledge_rate, when_pools. rewrite Hps. cbn [bind]. rewrite Ep in Sp |- *. apply pdiv_ok. exact (Qc_pos_neq _ Sp). }
      unfold metric. rewrite Er. eexists. split; [reflexivity|]. eexists. split; [reflexivity|]. split; [congruence|]. apply Qcdiv_mul. now apply Qc_pos_neq.
  - destruct ps as [|p0 ps0] eqn:Ep.
    + exists (MNum (A := QcA) 0). split; [unfold metric, homogeneity, when_pools; now rewrite Hps|]. exists 0, 0. split; [reflexivity|]. split; [reflexivity | intros N; now contradiction N].
    + rewrite <- Ep in *. assert (Ne : ps <> []) by (rewrite Ep; discriminate). destruct (max_of_ok (map p_stake ps)) as (m & Em & Jm & Lm); [rewrite Ep; discriminate|].
      assert (Pm : 0 < m) by (apply in_map_iff in Jm as (p & <- & J); now apply St). assert (Pi : 0 < count_of ps * m) by (apply Qcmult_pos; [|assumption]; apply Qc_ofZ_pos; rewrite Ep; cbn; lia).
      assert (Er : homogeneity (s_w s) = Ok (Qc_sum (map p_stake ps) / (count_of ps * m))).
      { unfold homogeneity, when_pools. rewrite Hps. cbn [bind]. rewrite Ep. rewrite <- Ep. rewrite Em. cbn [bind]. apply pdiv_ok. exact (Qc_pos_neq _ Pi). }
      unfold metric. rewrite Er. eexists. split; [reflexivity|]. eexists _, m. split; [reflexivity|]. split; [congruence|]. intros _. split; [assumption|]. split; [assumption|]. apply Qcdiv_mul. now apply Qc_pos_neq.
  - exists (MNat (s_steps s)). split; [reflexivity|]. intros m (l & Hl & <-). apply rounds_shape in Hl as (_ & _ & Hs & _). rewrite Hs, (proj1 (fs_start _ _ _ _ _ (init_fresh _ _ _ _ _ H))). reflexivity.
  - destruct (rounded_ok _ _ _ R15) as (v' & E' & Z). exists v'. split; [exact E'|]. exists l1. auto.
  - destruct (rounded_ok _ _ _ R16) as (v' & E' & Z). exists v'. split; [exact E'|]. exists l2. auto.
  - destruct (rounded_ok _ _ _ R17) as (v' & E' & Z). exists v'. split; [exact E'|]. exists l1. auto.
  - destruct (rounded_ok _ _ _ R18) as (v' & E' & Z). exists v'. split; [exact E'|]. exists l2. auto.
  - unfold metric. rewrite E19. eexists. split; [reflexivity|]. now rewrite Es.
  - destruct (C59_cost_efficient_count_is_defined so g profiles stakes costs s0 (s_w s) SO H OT HP HA V) as (x20 & E20). destruct (C59_cost_efficient_count so g profiles stakes costs s0 (s_w s) x20 H V E20) as ((pps & Fp & ->) & _).
    unfold metric. rewrite E20. eexists. split; [reflexivity|]. exists pps. auto.
  - unfold metric. rewrite E21. eexists. split; [reflexivity|]. exists rows. auto.
  - destruct (gini_total g1) as (x & Ex). exists (MNum (A := QcA) x). split; [unfold metric; rewrite E22, Ex; reflexivity|]. eapply gini_is; [|exact G1|exact Ex]. intros y J. apply in_map_iff in J as (a & <- & _). change 0 with (Qc_ofZ 0). apply Qc_ofZ_le. lia.
  - destruct (gini_total g2) as (x & Ex). exists (MNum (A := QcA) x). split; [unfold metric; rewrite E23, Ex; reflexivity|]. eapply gini_is; [|exact G2|exact Ex]. intros y J. apply in_map_iff in J as (a & <- & _). apply controls_nonneg. intros p J. apply Qclt_le_weak. now apply St.
  - exact (zero_or_ok _ _ _ S24).
  - exact (zero_or_ok _ _ _ S25).
  - assert (Q : x27 = map (fun a => (a, controls ps a)) (keys (w_agents (s_w s)))).
    { rewrite <- Kd. apply controls_table; [exact (eq_ind_r (fun k => NoDup k) (reported_agents _ _ _ _ _ G) Kd)|]. intros a J. apply Nd. exact (eq_ind _ (fun k => In a k) J _ Kd). }
    unfold metric. rewrite E26. eexists. split; [reflexivity|]. rewrite <- Vd, Q. unfold values. now rewrite map_map.
  - assert (Q : x27 = map (fun a => (a, controls ps a)) (keys (w_agents (s_w s)))).
    { rewrite <- Kd. apply controls_table; [exact (eq_ind_r (fun k => NoDup k) (reported_agents _ _ _ _ _ G) Kd)|]. intros a J. apply Nd. exact (eq_ind _ (fun k => In a k) J _ Kd). }
    unfold metric. rewrite E27. eexists. split; [reflexivity|]. now rewrite Q.
  - exists (MNum (A := QcA) (Qc_sum (map p_stake ps))). split; [unfold metric, total_delegated_stake; rewrite Hps; reflexivity | reflexivity].
  - exists (MNum (A := QcA) (active_stake_agents (s_w s))). split; reflexivity.
  - unfold metric. rewrite E30. eexists. split; [reflexivity|]. now rewrite Eo.
Qed.
Example C69_instance : exists s0 s, init demo_seq demo_profiles demo_stakes demo_costs = Ok s0 /\ reach so_id s0 s /\ set_order so_id /\ one_at_a_time demo_seq /\ positive_inputs demo_seq demo_stakes /\
  (forall x : Qc, In x (phase_values (g_a0 demo_seq)) -> 0 <= x) /\ (exists n, g_n demo_seq = Single n) /\ ~ degenerate_cip50 demo_seq /\ w_pools (s_w s) <> [].
Proof.
  destruct (steps_check demo_init 3 (fun s => negb (Nat.eqb (length (w_pools (s_w s))) 0))) as (s0 & s & H1 & H2 & H3); [vm_compute; reflexivity|].
  exists s0, s. split; [exact H1|]. split; [now apply steps_reach in H2|]. split; [exact so_id_set_order|]. split; [exact demo_one|]. split; [exact demo_positive|]. split; [intros x [<-|[]]; discriminate|].
  split; [eexists; reflexivity|]. split; [intros [C _]; discriminate C|]. intros E. now rewrite E in H3.
Qed.

(** * REFUTED for metric 11: pools that control exactly half of the active stake are accepted, although more than 50 % is documented *)
Fixpoint all_choices (n : nat) : list (list bool) := match n with O => [[]] | S n => map (cons true) (all_choices n) ++ map (cons false) (all_choices n) end.
Lemma all_choices_all n sel : In sel (all_choices n) <-> length sel = n.
Proof.
  revert sel. induction n as [|n IH]; intros sel; cbn [all_choices].
  - split; [intros [<-|[]]; reflexivity | intros H; left; now destruct sel].
  - rewrite in_app_iff, !in_map_iff. split.
    + intros [(x & <- & J)|(x & <- & J)]; apply IH in J; cbn; congruence.
    + intros H. destruct sel as [|b sel]; [discriminate|]. injection H as H. apply IH in H. destruct b; [left | right]; eauto.
Qed.
Definition exhaustive (costs weights : list Qc) (bound : Qc) : Qc :=
  match min_of (A := QcA) (map (fun sel => Qc_sum (chosen sel costs)) (filter (fun sel => Qc_leb bound (Qc_sum (chosen sel weights))) (all_choices (length costs)))) with Ok x => x | Err _ => 0 end.
Lemma chosen_all {X} (l : list X) : chosen (repeat true (length l)) l = l.
Proof. unfold chosen. induction l as [|x l IH]; [reflexivity|]. cbn. now rewrite IH. Qed.
Definition exhaustive_env : env QcA :=
  let e := demo_env None in mkEnv (A := QcA) (e_seed e) (e_pareto e) (e_uniform e) (e_choices e) (e_sample e) (e_file e) exhaustive (e_sets e) (e_round e) (e_round15 e) (e_round4 e).
Lemma exhaustive_works : solver_works exhaustive_env.
Proof.
  intros costs weights bound L B _. cbn [e_solver exhaustive_env]. unfold exhaustive. set (ok := filter _ _).
  assert (K : forall sel, In sel ok <-> length sel = length costs /\ bound <= Qc_sum (chosen sel weights)).
  { intros sel. unfold ok. rewrite filter_In, all_choices_all. destruct (Qc_leb_spec bound (Qc_sum (chosen sel weights))); split; intros [? ?]; split; try assumption; try discriminate; [reflexivity | contradiction]. }
  destruct (min_of_ok (map (fun sel => Qc_sum (chosen sel costs)) ok)) as (m & Em & Jm & Lm).
  { intros C. apply map_eq_nil in C. assert (J : In (repeat true (length weights)) ok) by (apply K; split; [now rewrite repeat_length | now rewrite chosen_all]). rewrite C in J. destruct J. }
  rewrite Em. apply in_map_iff in Jm as (sel & E & J). apply K in J as [J1 J2]. split.
  - exists sel. split; [assumption|]. split; [assumption | now symmetry].
  - intros sel' J3 J4. apply Lm. apply (in_map (fun sel => Qc_sum (chosen sel costs))). apply K. now split.
Qed.
Definition two_args : args QcA := mkArgs (A := QcA) (Single 2%Z) (Single (Q2Qc 2)) (Single (Q2Qc (3#10))) (Single 0) (Single (Q2Qc (1#100))) (Single 100%Z) (Single 0) (Single Sequential) (Single true) 0 0 false 5.
Definition two_stakes : list Qc := [1; 1].
Definition two_costs : list Qc := [Q2Qc (1#1000); Q2Qc (1#1000)].
Definition holds_half (s : sim QcA) : bool :=
  match pools_list (s_w s), metric exhaustive_env 11 s with
  | Ok [p; q; r], Ok (MNum x) => Qc_eqb (p_stake p) (Q2Qc (1#4)) && Qc_eqb (q.(p_stake)) (Q2Qc (1#4)) && Qc_eqb (p_stake r) (Q2Qc (1#2)) && Qc_eqb (p_pledge p) (Q2Qc (1#4)) && Qc_eqb (p_pledge q) (Q2Qc (1#4)) && Qc_eqb (p_pledge r) (Q2Qc (1#2)) && Qc_eqb x (Q2Qc (1#2))
  | _, _ => false
  end.
Theorem C69_exactly_half_refuted : exists e profiles stakes costs (s0 s : sim QcA) ps x, solver_works e /\ init two_args profiles stakes costs = Ok s0 /\ one_at_a_time two_args /\ positive_inputs two_args stakes /\ reach so_id s0 s /\
  pools_list (s_w s) = Ok ps /\ metric e 11 s = Ok (MNum (A := QcA) x) /\ ~ least_total (map p_pledge ps) (map p_stake ps) (fun t => Qc_sum (map p_stake ps) < t + t) x.
Proof.
  destruct (steps_check (init two_args [NonMyopic; NonMyopic] two_stakes two_costs) 3 holds_half) as (s0 & s & H1 & H2 & H3); [vm_compute; reflexivity|].
  unfold holds_half in H3. destruct (pools_list (s_w s)) as [[|p [|q [|r [|]]]]|] eqn:Ep; try discriminate H3. destruct (metric exhaustive_env 11 s) as [[| |x| | |]|] eqn:Em; try discriminate H3.
  exists exhaustive_env, [NonMyopic; NonMyopic], two_stakes, two_costs, s0, s, [p; q; r], x. split; [exact exhaustive_works|]. split; [exact H1|]. split; [constructor; [right; reflexivity | constructor]|].
  split. { split; [discriminate|]. split; [reflexivity|]. split; [intros y [<-|[<-|[]]]; reflexivity|]. intros y [<-|[]]. reflexivity. }
  split; [now apply steps_reach in H2|]. split; [exact Ep|]. split; [exact Em|].
  clear Ep Em H1 H2. repeat apply andb_true_iff in H3 as [H3 ?]. repeat match goal with H : Qc_eqb _ _ = true |- _ => apply Qc_eqb_eq in H end. intros [(sel & L1 & L2 & L3) _]. cbn [map] in *.
  rewrite H3, H, H0, H1, H2, H4, H5 in *. clear - L1 L2 L3. destruct sel as [|b1 [|b2 [|b3 [|]]]]; try discriminate L1. destruct b1, b2, b3; try discriminate L3; discriminate L2.
Qed.
