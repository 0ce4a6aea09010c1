(** The program as a whole (C64, C65): no metric raises, and main returns for every command line it accepts that meets a short list of conditions. *)
From Coq Require Import ZArith QArith Qcanon List Bool Arith Lia Permutation Sorted.
From Verif Require Import Num Py QcTac Rewards RewardFacts PropRewards SortedKeyList World Stakeholder Helper PropHelper Sched Sim Init Reach ListFacts Inv Eval Exec Step SimInv Spec Greedy PropInit Demo PropSched ExactInv PropState PropExact Reporters ReporterFacts PropReporters Frame PropRun PropMove PropTotal TotalEval PropIncome Persons PropBudget PropMetrics Export PropExport AnyOrder PropSimul Main PropPhase.
Import ListNotations.
Open Scope Qc_scope.

(** * C65: no metric raises *)
Lemma gini_total (l : list Qc) : exists x, gini (A := QcA) l = Ok x.
Proof. destruct (Qc_eqb_spec (Qc_sum l) 0) as [E|N]; [|rewrite gini_ok by assumption; eauto]. unfold gini. rewrite psum_sum, E. eexists. reflexivity. Qed.
Lemma reach_scheme so (g : args QcA) profiles (stakes costs : list Qc) (s0 s : sim QcA) : init g profiles stakes costs = Ok s0 -> reach so s0 s -> r_scheme (w_rss (s_w s)) = r_scheme (w_rss (s_w s0)).
Proof.
  intros H R. induction R as [|ch s s' R IH E]; [reflexivity|]. rewrite <- IH. destruct (Nat.eq_dec (s_phase s') (s_phase s)) as [Ep|Np].
  - apply step_shape in E as (_ & _ & _ & [X|(_ & _ & _ & [X|(_ & _ & _ & [X|X])])]).
    + decompose [and] X. congruence.
    + destruct X as (_ & _ & _ & _ & _ & P). unfold Frame.params in P. congruence.
    + lia.
    + decompose [and] X. unfold Frame.params in *. congruence.
  - destruct (C33_applies_the_listed_parameters QcA so g profiles stakes costs s0 s s' ch H R E Np) as (_ & _ & _ & _ & _ & _ & _ & _ & _ & _ & P4 & _). exact P4.
Qed.

Theorem C65_every_metric_is_defined : forall (e : env QcA) so (g : args QcA) profiles (stakes costs : list Qc) (s0 s : sim QcA) n i, set_order so -> init g profiles stakes costs = Ok s0 -> one_at_a_time g ->
  positive_inputs g stakes -> (forall x : Qc, In x (phase_values (g_a0 g)) -> 0 <= x) -> g_n g = Single n -> reach so s0 s -> (1 <= i <= 30)%Z -> (i = 8%Z -> ~ degenerate_cip50 g) ->
  exists v, metric e i s = Ok v.
Proof.
  intros e so g profiles stakes costs s0 s n i SO H OT HP HA Hn R Hi Hd. assert (V : visible so s0 (s_w s)) by (now constructor).
  destruct (C57_pool_statistics_of_reachable_states so g profiles stakes costs s0 (s_w s) SO H OT HP V) as (ps & am & mm & tp & del & Hps & E24 & E25 & E2 & E28 & _ & _ & _ & _ & _ & _ & _ & _ & _ & Hsat & rows & E21 & _).
  destruct (C57_pool_statistics (s_w s) ps Hps) as (_ & _ & (x3 & E3 & _) & (x4 & E4 & _) & _).
  destruct (C38_operator_statistics (s_w s) ps Hps) as (ops & spl & mx & E30 & E19 & E6 & _ & _ & _ & _ & _ & _ & Hne & He).
  assert (exists x5 x7, avg_pools_per_operator (s_w s) = Ok x5 /\ median_pools_per_operator (s_w s) = Ok x7) as (x5 & x7 & E5 & E7).
  { destruct ps as [|p ps]; [destruct He as (_ & _ & _ & X1 & X2); [reflexivity|]; eauto|]. destruct Hne as (_ & _ & x5 & x7 & X1 & X2 & _); [discriminate|]. eauto. }
  destruct (C35_nakamoto_of_reachable_states so g profiles stakes costs s0 (s_w s) SO H OT HP V) as (_ & nak & _ & E9 & _).
  destruct (C58_rank_metrics so g profiles stakes costs s0 (s_w s) SO H OT V) as (_ & _ & _ & _ & _ & _ & (x15 & E15 & _) & (x17 & E17 & _) & (x16 & E16 & _) & (x18 & E18 & _) & _).
  destruct (C59_cost_efficient_count_is_defined so g profiles stakes costs s0 (s_w s) SO H OT HP HA V) as (x20 & E20).
  destruct (C36_gini_metrics (s_w s) ps Hps) as (l1 & l2 & _ & _ & E22 & E23 & _). destruct (gini_total l1) as (x22 & G22). destruct (gini_total l2) as (x23 & G23).
  destruct HP as (F0 & F1 & Hx & Hk).
  destruct (C39_stake_reports_add_up so g profiles stakes costs s0 s n SO H OT F0 F1 (fun x J => Qclt_le_weak _ _ (Hx x J)) Hn R) as (_ & x26 & x27 & _ & _ & E26 & E27 & _).
  assert (exists x10, stat_dist (s_w s) = Ok x10) as (x10 & E10).
  { destruct ps as [|p ps]; [exists 0; unfold stat_dist, when_pools; now rewrite Hps|]. destruct (C40_distance_at_most_one so g profiles stakes costs s0 (s_w s) SO H OT (conj F0 (conj F1 (conj Hx Hk))) V) as (d & E & _); [|eauto].
    intros C. unfold pools_list in Hps. rewrite C in Hps. discriminate. }
  assert (exists x12 x13, pledge_rate (s_w s) = Ok x12 /\ homogeneity (s_w s) = Ok x13) as (x12 & x13 & E12 & E13).
  { destruct ps as [|p ps]; [exists 0, 0; unfold pledge_rate, homogeneity, when_pools; now rewrite Hps|]. destruct (C37_pledge_rate_and_homogeneity so g profiles stakes costs s0 (s_w s) SO H OT (conj F0 (conj F1 (conj Hx Hk))) V) as (d1 & d2 & E & E' & _); [|eauto].
    intros C. unfold pools_list in Hps. rewrite C in Hps. discriminate. }
  assert (exists x11, min_aggregate_pledge e (s_w s) = Ok x11) as (x11 & E11) by (unfold min_aggregate_pledge, when_pools; rewrite Hps; destruct ps; cbn [bind]; [eauto|]; rewrite pdiv_ok by discriminate; cbn [bind]; eauto).
  assert (i = 8%Z -> exists x8, avg_sat_rate (s_w s) = Ok x8) as E8.
  { intros E. destruct Hsat as (sats & _ & x8 & X & _); [|eauto]. intros Sc. rewrite (reach_scheme _ _ _ _ _ _ _ H R) in Sc.
    assert (J := visible_a0 _ _ _ _ _ _ _ H V). assert (L := HA _ J). destruct (Qcle_lt_or_eq _ _ L) as [L'|L']; [assumption|]. exfalso. apply (Hd E). split; [|rewrite L'; exact J].
    assert (Q := H). apply init_inv in Q as (r0 & s1 & ags & tot & ags' & tot' & Hm & Hf & Hr & _). apply fields_values in Hf as (n' & k0 & a0 & rel & abs & mi & phi & o & gr & rk & _ & _ & _ & _ & _ & _ & _ & _ & _ & Ek & P).
    unfold PropInit.params in P. injection P as P1 _ _ _ _ _ _ _. apply set_k_inv in Ek as (_ & Es & _ & _). apply (make_rss_scheme _ _ Hm). rewrite <- Es.
    destruct (g_known g); [destruct Hr as (k' & _ & Hr); apply set_k_inv in Hr as (_ & E1 & _ & _); rewrite P1 in E1; cbn in E1; congruence | rewrite Hr, P1 in Sc; exact Sc]. }
  assert (i = 1 \/ i = 2 \/ i = 3 \/ i = 4 \/ i = 5 \/ i = 6 \/ i = 7 \/ i = 8 \/ i = 9 \/ i = 10 \/ i = 11 \/ i = 12 \/ i = 13 \/ i = 14 \/ i = 15 \/ i = 16 \/ i = 17 \/ i = 18 \/ i = 19 \/ i = 20 \/ i = 21 \/ i = 22 \/ i = 23 \/ i = 24 \/ i = 25 \/ i = 26 \/ i = 27 \/ i = 28 \/ i = 29 \/ i = 30)%Z as D by lia.
  repeat match goal with D : _ \/ _ |- _ => destruct D as [->|D] | D : i = _ |- _ => subst i end; unfold metric; unfold as_num, as_nat, as_int;
  try (eexists; reflexivity);
  try (destruct E8 as (x8 & E8'); [reflexivity|]; rewrite E8'; eexists; reflexivity);
  first [rewrite E2 | rewrite E3 | rewrite E4 | rewrite E5 | rewrite E6 | rewrite E7 | rewrite E9 | rewrite E10 | rewrite E11 | rewrite E12 | rewrite E13 | rewrite E15 | rewrite E16 | rewrite E17 | rewrite E18 | rewrite E19 | rewrite E20 | rewrite E21 | rewrite E22, G22 | rewrite E23, G23 | rewrite E24 | rewrite E25 | rewrite E26 | rewrite E27 | rewrite E28 | rewrite E30];
  eexists; reflexivity.
Qed.

(** * C64: the program returns *)
(** What numpy, random and the scheduler promise: samples of the right size within the right range. *)
Definition contract (e : env QcA) : Prop :=
  (forall seed (a : Qc) n, 0 < a -> length (e_pareto e seed a n) = Z.to_nat n /\ forall x : Qc, In x (e_pareto e seed a n) -> 0 <= x) /\
  (forall seed (low high : Qc) n, low <= high -> length (e_uniform e seed low high n) = Z.to_nat n /\ forall x : Qc, In x (e_uniform e seed low high n) -> low <= x /\ x <= high) /\
  (forall rng weights n, length (e_choices e rng weights n) = Z.to_nat n) /\
  (forall l n replace, l <> [] -> (replace = false -> (n <= Z.of_nat (length l))%Z) -> length (e_sample e l n replace) = Z.to_nat n /\ incl (e_sample e l n replace) l) /\
  set_order (e_sets e) /\ (forall rng i, fair (e_round e rng i)).
(** the distribution of stake that is read from a file, if there is a file *)
Definition stake_file (e : env QcA) (n : Z) (l : list Qc) : Prop := e_file e (Some n) = Some l \/ e_file e (Some n) = None /\ e_file e None = Some l.
(** What the command line does not check.  Agents act one at a time; the scheme is not the one that cannot be constructed; the costs form a range; some profile has
    weight; not all stake is inactive; not three agents with the 'disparity' distribution; a file with positive numbers; under CIP-50 the pledge has influence;
    later phases only lower k and a0 (under CIP-50, raise a0). *)
Definition runnable (e : env QcA) (ac : accepted QcA) : Prop :=
  let g := ac_args ac in
  one_at_a_time g /\ g_scheme g <> 3%Z /\ (ac_cost_min ac : Qc) <= ac_cost_max ac /\ (exists x : Qc, In x (ac_weights ac) /\ 0 < x) /\ (g_inactive g : Qc) < 1 /\
  (ac_source ac = FromDisparity -> g_n g <> Single 3%Z) /\
  (ac_source ac = FromFile -> forall n, g_n g = Single n -> exists l, stake_file e n l /\ l <> [] /\ forall x, In x l -> 0 < x) /\
  ~ degenerate_cip50 g /\ relaxing g.

(** what the accepted arguments look like *)
Lemma optional_inv {X Y} (o : option X) (t : X -> res Y) d y : optional o t d = Ok y -> y = d \/ exists x, o = Some x /\ t x = Ok y.
Proof. destruct o as [x|]; cbn; intros H; [right; eauto | left; congruence]. Qed.
Lemma several_inv {X Y} (o : option (list X)) (t : X -> res Y) d p : several o t d = Ok p -> phase_values p <> [] /\ forall y, In y (phase_values p) -> y = d \/ exists x, t x = Ok y.
Proof.
  destruct o as [[|x l]|]; cbn [several]; intros H; [discriminate| |apply Ok_inj in H; subst p; split; [discriminate | intros y [<-|[]]; now left]].
  apply bind_ok in H as (ys & E & H). apply Ok_inj in H. subst p. split; cbn [phase_values].
  - intros ->. apply mapM_length in E. discriminate.
  - intros y J. right. apply mapM_ok in E. clear - E J. induction E as [|x0 y0 l0 l1 E0 E IH]; [destruct J|]. destruct J as [->|J]; eauto.
Qed.
Record shape (ac : accepted QcA) (n : Z) (M : Z) : Prop := mkShape {
  sh_n : g_n (ac_args ac) = Single n; sh_n1 : (1 <= n)%Z; sh_m : g_maxit (ac_args ac) = Single M; sh_m1 : (1 <= M)%Z;
  sh_fields : forall f, In f (fields (ac_args ac)) -> phase_values f <> [];
  sh_k : forall x : Qc, In x (phase_values (g_k (ac_args ac))) -> 1 <= x;
  sh_a0 : forall x : Qc, In x (phase_values (g_a0 (ac_args ac))) -> 0 <= x;
  sh_scheme : (0 <= g_scheme (ac_args ac) <= 4)%Z; sh_inactive : 0 <= (g_inactive (ac_args ac) : Qc); sh_pareto : 0 < (ac_pareto ac : Qc);
  sh_weights : forall x : Qc, In x (ac_weights ac) -> 0 <= x; sh_metrics : forall i, In i (ac_metrics ac) -> (1 <= i <= 30)%Z
}.
Lemma nn_float (x y : Qc) : non_negative_float (A := QcA) x = Ok y -> 0 <= y.
Proof. unfold non_negative_float. change (ltb (a := QcA)) with Qc_ltb. change (@zero QcA) with 0. destruct (Qc_ltb_spec x 0) as [|L]; [discriminate|]. intros H. apply Ok_inj in H. subst. now apply Qcnot_lt_le. Qed.
Lemma parse_shape (o : cmdline QcA) ac : parse o = Ok ac -> exists n M, shape ac n M.
Proof.
  intros H. unfold parse in H.
  apply bind_ok in H as (n & Hn & H). apply bind_ok in H as (k & Hk & H). apply bind_ok in H as (a0 & Ha & H). apply bind_ok in H as (sc & Hs & H). apply bind_ok in H as (ws & Hw & H).
  apply bind_ok in H as (cmin & _ & H). apply bind_ok in H as (cmax & _ & H). apply bind_ok in H as (phi & _ & H). apply bind_ok in H as (abs & _ & H). apply bind_ok in H as (rel & _ & H).
  apply bind_ok in H as (par & Hp & H). apply bind_ok in H as (ina & Hi & H). apply bind_ok in H as (M & HM & H). apply bind_ok in H as (ms & Hms & H). apply bind_ok in H as (seed & _ & H). apply Ok_inj in H. subst ac.
  assert (PI : forall (v : pyval QcA) z, positive_int v = Ok z -> (1 <= z)%Z). { intros v z E. unfold positive_int in E. apply bind_ok in E as (i & _ & E). destruct (Z.leb_spec i 0); [discriminate|]. apply Ok_inj in E. lia. }
  apply several_inv in Hk as [Nk Hk]. apply several_inv in Ha as [Na Ha].
  exists n, M. constructor; cbn [ac_args g_n g_maxit g_k g_a0 g_scheme g_inactive ac_pareto ac_weights ac_metrics]; try reflexivity.
  - apply optional_inv in Hn as [->|(v & _ & E)]; [lia | now apply PI in E].
  - apply optional_inv in HM as [->|(v & _ & E)]; [lia | now apply PI in E].
  - intros f J. cbn in J. destruct J as [<-|[<-|[<-|[<-|[<-|[<-|[<-|[<-|[<-|[]]]]]]]]]]; try discriminate; [destruct k as [|[|]] | destruct a0 as [|[|]]]; cbn in *; congruence.
  - intros x J. destruct (Hk x J) as [->|(v & E)]; [discriminate|]. apply bind_ok in E as (z & E & E'). apply Ok_inj in E'. subst x. apply PI in E. change 1 with (Qc_ofZ 1). now apply Qc_ofZ_le.
  - intros x J. destruct (Ha x J) as [->|(v & E)]; [discriminate|]. now apply nn_float in E.
  - apply optional_inv in Hs as [->|(v & _ & E)]; [lia|]. unfold between in E. destruct (Z.leb_spec 0 v); [|discriminate]. destruct (Z.ltb_spec v 5); [|discriminate]. apply Ok_inj in E. lia.
  - apply optional_inv in Hi as [->|(v & _ & E)]; [discriminate|]. unfold fraction in E. change (ltb (a := QcA)) with Qc_ltb in E. change (@zero QcA) with 0 in E. destruct (Qc_ltb_spec v 0) as [|L]; [discriminate|]. cbn [orb] in E. match type of E with (if ?b then _ else _) = _ => destruct b end; [discriminate|]. apply Ok_inj in E. subst. now apply Qcnot_lt_le.
  - apply optional_inv in Hp as [->|(v & _ & E)]; [reflexivity|]. unfold positive_float in E. change (leb (a := QcA)) with Qc_leb in E. change (@zero QcA) with 0 in E. destruct (Qc_leb_spec v 0) as [|L]; [discriminate|]. apply Ok_inj in E. subst. now apply Qcnot_le_lt.
  - intros x J. apply optional_inv in Hw as [->|(l & _ & E)]; [destruct J as [<-|[<-|[<-|[]]]]; discriminate|]. destruct (Nat.eqb _ _); [|discriminate]. apply mapM_ok in E. clear - E J. induction E as [|x0 y0 l0 l1 E0 E IH]; [destruct J|]. destruct J as [->|J]; [now apply nn_float in E0 | auto].
  - intros i J. destruct (o_metrics o) as [[|m l]|]; [discriminate| |apply Ok_inj in Hms; subst ms; cbn in J; intuition lia]. apply mapM_ok in Hms. clear - Hms J. induction Hms as [|x0 y0 l0 l1 E0 E IH]; [destruct J|]. destruct J as [->|J]; [|auto].
    unfold between in E0. destruct (Z.leb_spec 1 x0); [|discriminate]. destruct (Z.ltb_spec x0 31); [|discriminate]. apply Ok_inj in E0. lia.
Qed.

Lemma stakes_drawn (e : env QcA) src n (param : Qc) seed : contract e -> (1 <= n)%Z -> 0 < param -> (src = FromDisparity -> n <> 3%Z) ->
  (src = FromFile -> exists l, stake_file e n l /\ l <> [] /\ forall x, In x l -> 0 < x) ->
  exists l : list Qc, stake_distribution e src n param seed = Ok l /\ (n <= Z.of_nat (length l))%Z /\ forall x, In x l -> 0 < x.
Proof.
  intros (C1 & _ & _ & C4 & _) N1 P D F. destruct src; cbn [stake_distribution].
  - destruct (C1 seed param n P) as [L Hx]. eexists. split; [reflexivity|]. split; [rewrite map_length; apply (f_equal Z.of_nat) in L; rewrite Z2Nat.id in L by lia; apply Z.eq_le_incl; symmetry; exact L|].
    intros x J. apply in_map_iff in J as (y & <- & J). apply Hx in J. change (mul (a := QcA)) with Qcmult. change (add (a := QcA)) with Qcplus. change (@one QcA) with 1. rewrite Qcmult_1_r. clear - J. change (T QcA) with Qc in *. qlra.
  - unfold stake_distr_flat. destruct (Z.ltb_spec 0 n); [|lia]. assert (0 < Qc_ofZ n) by (apply Qc_ofZ_pos; lia). change (ofZ (a := QcA) n) with (Qc_ofZ n). rewrite pdiv_ok by (now apply Qc_pos_neq). cbn [bind]. eexists. split; [reflexivity|].
    split; [rewrite repeat_length; lia|]. intros x J. apply repeat_spec in J. subst x. change (div (a := QcA) one (Qc_ofZ n)) with (1 / Qc_ofZ n). now apply Qcdiv_pos.
  - unfold stake_distr_disparity. change (ofZ (a := QcA) 3) with (Qc_ofZ 3). rewrite pdiv_ok by discriminate. cbn [bind]. change (ofZ (a := QcA) (n - 3)) with (Qc_ofZ (n - 3)). specialize (D eq_refl).
    assert (Nz : Qc_ofZ (n - 3) <> 0). { intros E. assert (E1 : Qc_ofZ (n - 3) <= Qc_ofZ 0) by (rewrite E; discriminate). assert (E2 : Qc_ofZ 0 <= Qc_ofZ (n - 3)) by (rewrite E; discriminate). apply Qc_ofZ_le_inv in E1. apply Qc_ofZ_le_inv in E2. lia. } rewrite pdiv_ok by assumption. cbn [bind]. eexists. split; [reflexivity|]. split; [rewrite app_length, !repeat_length; lia|].
    intros x J. apply in_app_or in J as [J|J]; [apply repeat_spec in J; subst x; reflexivity|]. assert (3 < n)%Z. { destruct (Z_lt_le_dec 3 n) as [|L]; [assumption|]. replace (Z.to_nat (n - 3)) with 0%nat in J by lia. destruct J. }
    apply repeat_spec in J. subst x. change (div (a := QcA)) with Qcdiv. apply Qcdiv_pos; [reflexivity | apply Qc_ofZ_pos; lia].
  - destruct (F eq_refl) as (l & SF & Nl & Hx). unfold read_stakes. assert (E : match e_file e (Some n) with Some l => Ok l | None => of_option FileNotFoundError (e_file e None) end = Ok l) by (destruct SF as [-> | [-> ->]]; reflexivity).
    rewrite E. cbn [bind]. change (T QcA) with Qc. destruct (Z.eqb_spec n (Z.of_nat (length l))) as [En|En]; [exists l; split; [reflexivity|]; split; [lia | assumption]|].
    destruct (C4 l n (negb (n <? Z.of_nat (length l))%Z)) as [L I]; [assumption | intros Q; apply negb_false_iff, Z.ltb_lt in Q; change (T QcA) with Qc; lia|].
    exists (e_sample e l n (negb (n <? Z.of_nat (length l))%Z)). split; [destruct l; [congruence | reflexivity]|]. split; [apply (f_equal Z.of_nat) in L; rewrite Z2Nat.id in L by lia; apply Z.eq_le_incl; symmetry; exact L|]. intros x J. apply Hx, I, J.
Qed.

Lemma init_n (g : args QcA) profiles (stakes costs : list Qc) s0 n : init g profiles stakes costs = Ok s0 -> g_n g = Single n -> s_n s0 = n.
Proof.
  intros H Hn. apply init_inv in H as (r0 & s1 & ags & tot & ags' & tot' & _ & Hf & _ & _ & _ & _ & _ & R). destruct R as (_ & _ & R & _).
  apply fields_values in Hf as (n' & k0 & a0 & rel & abs & mi & phi & o & gr & rk & Jn & _ & _ & _ & _ & _ & _ & _ & _ & _ & P). unfold PropInit.params in P. injection P as _ _ _ _ P _ _ _. rewrite Hn in Jn. cbn in Jn. congruence.
Qed.

Section Accepted.
  Variables (e : env QcA) (rng : option Z) (ac : accepted QcA) (n M : Z).
  Hypothesis (C : contract e) (SH : shape ac n M) (RN : runnable e ac).
  Notation g := (ac_args ac).
  Lemma constructed : exists profiles (stakes costs : list Qc) s0 d, construct e rng ac = Ok (s0, d) /\ init g profiles stakes costs = Ok s0 /\ sound_inputs g stakes.
  Proof.
    destruct RN as (OT & S3 & CC & (x & Jx & Px) & In1 & D3 & FF & ND & RL). destruct SH as [Hn N1 HM M1 HF HK HA0 HS HI HP HW HMs]. set (seed := used_seed e ac).
    destruct (stakes_drawn e (ac_source ac) n (ac_pareto ac) seed C N1 HP) as (stakes & E1 & L1 & P1); [intros E Q; apply (D3 E); congruence | intros E; now apply FF|].
    destruct (proj1 (proj2 C) seed (ac_cost_min ac) (ac_cost_max ac) n CC) as [L2 _]. assert (L3 := proj1 (proj2 (proj2 C)) rng (ac_weights ac) n).
    set (costs := e_uniform e seed (ac_cost_min ac) (ac_cost_max ac) n) in *. set (profiles := e_choices e rng (ac_weights ac) n) in *.
    assert (SI : sound_inputs g stakes) by (repeat split; assumption).
    destruct (C24_construction_succeeds g profiles stakes costs) as (s0 & H); [cbn; lia | assumption | assumption | rewrite Hn; cbn; intros z [<-|[]]; change (T QcA) with Qc in *; lia|].
    assert (PI : positive_inputs g stakes) by (repeat split; try assumption; intros y J; apply HK in J; qlra).
    assert (Sn : (0 < s_n s0)%Z). { rewrite (init_n _ _ _ _ _ _ H Hn). lia. }
    destruct (C61_initial_descriptors g profiles stakes costs s0 H OT PI HA0 Sn) as (d & Hd & _).
    exists profiles, stakes, costs, s0, d. split; [|split; assumption]. unfold construct. fold seed. rewrite Hn. cbn [bind]. rewrite E1. cbn [bind]. unfold cost_distribution. change (ltb (a := QcA)) with Qc_ltb. destruct (Qc_ltb_spec (ac_cost_max ac) (ac_cost_min ac)) as [L|_]; [exfalso; apply Qclt_not_le in L; contradiction|].
    cbn [bind]. unfold draw_profiles. rewrite psum_sum. change (leb (a := QcA)) with Qc_leb. change (@zero QcA) with 0. destruct (Qc_leb_spec (Qc_sum (ac_weights ac)) 0) as [L|_].
    - exfalso. assert (Q : 0 < Qc_sum (ac_weights ac)); [|apply Qclt_not_le in Q; contradiction]. clear - Jx Px HW. change (T QcA) with Qc in *. induction (ac_weights ac) as [|y l IH]; [destruct Jx|]. change (Qc_sum (y :: l)) with (y + Qc_sum l). assert (0 <= y) by (apply HW; now left).
      assert (0 <= Qc_sum l) by (apply Qc_sum_nonneg; intros z J; apply HW; now right). destruct Jx as [->|Jx]; [qlra|]. assert (0 < Qc_sum l) by (apply IH; [assumption | intros z J; apply HW; now right]). qlra.
    - cbn [bind]. fold costs profiles. rewrite H. cbn [bind]. rewrite Hd. reflexivity.
  Qed.
End Accepted.

(** ** What the program has written when it ends *)
(** the rows of metrics.csv: one per recorded state, with the value of each chosen metric in that state *)
Definition metric_rows (e : env QcA) (cols : list Z) (s0 s : sim QcA) (rows : list (list (mvalue QcA))) : Prop :=
  Forall2 (fun (tw : nat * world QcA) row => exists s', reach (e_sets e) s0 s' /\ s_steps s' = fst tw /\ s_w s' = snd tw /\ Forall2 (fun i v => metric e i s' = Ok v) cols row) (s_rows s) rows.

Lemma columns_In ms i : In i (columns ms) <-> In i ms.
Proof.
  unfold columns. assert (Q : forall l, In i (fold_left (fun l i => if existsb (Z.eqb i) l then l else l ++ [i]) ms l) <-> In i l \/ In i ms); [|rewrite Q; cbn; tauto].
  induction ms as [|m ms IH]; intros l; cbn [fold_left]; [cbn; tauto|]. rewrite IH. destruct (existsb (Z.eqb m) l) eqn:E; [|rewrite in_app_iff; cbn; tauto].
  apply existsb_exists in E as (x & J & E). apply Z.eqb_eq in E. subst x. cbn. intuition congruence.
Qed.

Section Loop.
  Variables (e : env QcA) (g : args QcA) (profiles : list profile) (stakes costs : list Qc) (s0 : sim QcA) (n M : Z) (rng : option Z) (cols : list Z).
  Hypothesis (C : contract e) (H : init g profiles stakes costs = Ok s0) (OT : one_at_a_time g) (SI : sound_inputs g stakes) (ND : ~ degenerate_cip50 g) (RL : relaxing g).
  Hypothesis (Hn : g_n g = Single n) (Hc : forall i, In i cols -> (1 <= i <= 30)%Z).
  Notation so := (e_sets e).
  Lemma SO : set_order so. Proof. apply C. Qed.
  Lemma PI : positive_inputs g stakes.
  Proof. destruct SI as (F0 & F1 & P & K & _). repeat split; try assumption. intros y J. apply K in J. qlra. Qed.
  Lemma A0 : forall x : Qc, In x (phase_values (g_a0 g)) -> 0 <= x. Proof. apply SI. Qed.

  Lemma mapM_metrics s : reach so s0 s -> exists row, mapM (fun i => metric e i s) cols = Ok row /\ Forall2 (fun i v => metric e i s = Ok v) cols row.
  Proof.
    intros R. destruct (mapM_total (fun i => metric e i s) cols) as (row & E); [|exists row; split; [assumption | now apply mapM_ok]].
    intros i J. eapply C65_every_metric_is_defined; try eassumption; [exact SO | exact PI | exact A0 | now apply Hc | intros _; exact ND].
  Qed.
  Lemma files_written rows s : reach so s0 s -> exists f, write_files e rows s = Ok f /\ fi_metrics f = rows /\ pools_table (e_round15 e) (s_w s) = Ok (fi_pools f) /\
    agents_table (e_round15 e) (s_w s) = Ok (fi_agents f) /\ final_descriptors (e_round4 e) s = Ok (fi_final f).
  Proof.
    intros R. assert (V : visible so s0 (s_w s)) by (now constructor). unfold write_files.
    destruct (C61_pools_table (e_round15 e) so g profiles stakes costs s0 (s_w s) SO H OT V) as (t1 & E1 & _). rewrite E1. cbn [bind].
    destruct (C61_stakeholders_table_is_defined (e_round15 e) so g profiles stakes costs s0 (s_w s) SO H OT PI A0 V) as (t2 & E2). rewrite E2. cbn [bind].
    destruct (C61_final_descriptors (e_round4 e) so g profiles stakes costs s0 s SO H OT PI R) as (d & _ & E3 & _). rewrite E3. cbn [bind]. eexists. split; [reflexivity|]. cbn. auto.
  Qed.
  (** what has been written so far fits the state *)
  Definition fits (p : progress QcA) : Prop := reach so s0 (pg_sim p) /\ metric_rows e cols s0 (pg_sim p) (pg_rows p) /\
    Forall2 (fun f (x : files QcA) => f_world f = s_w (pg_sim p) /\ fi_metrics x = pg_rows p /\ pools_table (e_round15 e) (f_world f) = Ok (fi_pools x) /\
       agents_table (e_round15 e) (f_world f) = Ok (fi_agents x) /\ final_descriptors (e_round4 e) (pg_sim p) = Ok (fi_final x)) (s_out (pg_sim p)) (pg_files p).
  Lemma full_step_fits p : fits p -> s_running (pg_sim p) = true -> s_out (pg_sim p) = [] -> exists p', full_step e rng cols p = Ok p' /\ sim_step so (e_round e rng (s_steps (pg_sim p))) (pg_sim p) = Ok (pg_sim p') /\ fits p' /\ (s_running (pg_sim p') = true -> s_out (pg_sim p') = []).
  Proof.
    destruct p as [s rows fs]. unfold fits. cbn [pg_sim pg_rows pg_files]. intros (R & MR & FS) Rn Out. rewrite Out in FS. destruct fs as [|]; [|inversion FS]. clear FS. unfold full_step. cbn [pg_sim pg_rows pg_files].
    destruct (mapM_metrics s R) as (row & E1 & FR). rewrite E1. cbn [bind].
    destruct (C63_no_step_raises so g profiles stakes costs s0 s (e_round e rng (s_steps s)) SO H OT RL SI ND R) as (s' & E2); [apply C|]. rewrite E2. cbn [bind].
    assert (R' : reach so s0 s') by (econstructor; eassumption). destruct (step_shape so _ s s' E2) as (_ & Er & _ & D). rewrite Out in *. cbn [length].
    assert (MR' : metric_rows e cols s0 s' (rows ++ [row])). { unfold metric_rows. rewrite Er. apply Forall2_app; [exact MR|]. constructor; [|constructor]. exists s. cbn. auto. }
    assert (D' : s_out s' = [] /\ s_running s' = true \/ (exists b, s_out s' = [mkFinal (s_w s') b]) /\ s_running s' = false).
    { destruct D as [D|(_ & _ & _ & [D|(_ & _ & _ & [D|D])])].
      - right. destruct D as (_ & _ & D1 & _ & _ & D2 & _ & D3 & D4). split; [|exact D2]. exists (has_converged s). rewrite D4, D3. reflexivity.
      - left. destruct D as (_ & D1 & D2 & _). split; congruence.
      - left. destruct D as (_ & D1 & D2 & _). split; congruence.
      - right. destruct D as (_ & D1 & D2 & _). split; [exists true|]; assumption. }
    destruct D' as [[Eo Ern]|[(b & Eo) Ern]]; rewrite Eo; cbn [length Nat.ltb Nat.leb].
    - eexists. split; [reflexivity|]. cbn [pg_sim pg_rows pg_files]. split; [reflexivity|]. split; [|intros _; assumption]. split; [assumption|]. split; [assumption|]. rewrite Eo. constructor.
    - destruct (files_written (rows ++ [row]) s' R') as (f & Ef & F1 & F2 & F3 & F4). rewrite Ef. cbn [bind app]. eexists. split; [reflexivity|]. cbn [pg_sim pg_rows pg_files]. split; [reflexivity|]. split; [|congruence]. split; [assumption|]. split; [assumption|]. rewrite Eo.
      constructor; [|constructor]. cbn [f_world]. auto 10.
  Qed.
  Lemma full_loop_fits fuel : forall p s, fits p -> (s_running (pg_sim p) = true -> s_out (pg_sim p) = []) -> run_loop so (e_round e rng) fuel (pg_sim p) = Ok s -> exists p', full_loop e rng cols fuel p = Ok p' /\ pg_sim p' = s /\ fits p'.
  Proof.
    induction fuel as [|fuel IH]; intros p s F O E; cbn [run_loop full_loop] in *.
    - destruct (_ && _)%bool; [discriminate|]. apply Ok_inj in E. eauto.
    - destruct (_ && _)%bool eqn:B; [|apply Ok_inj in E; eauto]. apply andb_true_iff in B as [_ B]. destruct (full_step_fits p F B (O B)) as (p' & E1 & E2 & F' & O'). rewrite E2 in E. cbn [bind] in E. rewrite E1. cbn [bind]. now apply IH.
  Qed.
End Loop.

Theorem C64_accepted_command_lines_run : forall (e : env QcA) (o : cmdline QcA) ac, contract e -> parse o = Ok ac -> runnable e ac ->
  exists oc s0 d f, main e o = Ok oc /\ construct e (ac_seed ac) ac = Ok (s0, d) /\ oc_initial oc = d /\
    (* the final state is that of run_model; the run has ended within max_iterations rounds, and main says whether an equilibrium was reached *)
    let s := pg_sim (oc_end oc) in
    run_model (e_sets e) (e_round e (ac_seed ac)) s0 = Ok s /\ s_running s = false /\ (forall M, g_maxit (ac_args ac) = Single M -> (Z.of_nat (s_steps s) <= M)%Z) /\ oc_equilibrium oc = has_converged s /\
    (* the files were written once; metrics.csv has a column for each of the chosen metrics and a row for each call of step *)
    pg_files (oc_end oc) = [f] /\ (forall i, In i (columns (ac_metrics ac)) <-> In i (ac_metrics ac)) /\ metric_rows e (columns (ac_metrics ac)) s0 s (fi_metrics f) /\
    (* the other files are the tables and the descriptors of the final state *)
    pools_table (e_round15 e) (s_w s) = Ok (fi_pools f) /\ agents_table (e_round15 e) (s_w s) = Ok (fi_agents f) /\ final_descriptors (e_round4 e) s = Ok (fi_final f).
Proof.
  intros e o ac C HP RN. destruct (parse_shape o ac HP) as (n & M & SH). destruct (constructed e (ac_seed ac) ac n M C SH RN) as (profiles & stakes & costs & s0 & d & E1 & H & SI).
  destruct RN as (OT & _ & _ & _ & _ & _ & _ & ND & RL). assert (SO : set_order (e_sets e)) by apply C.
  destruct (C63_run_model_returns (e_sets e) (ac_args ac) profiles stakes costs s0 (e_round e (ac_seed ac)) SO H OT RL SI ND) as (s & E2); [apply C|].
  assert (FS := init_fresh _ _ _ _ _ H). destruct (fs_start _ _ _ _ _ FS) as (S1 & S2 & S3 & S4 & S5 & S6 & S7 & S8 & S9).
  assert (I0 : initialize_pool_id_seq s0 = s0). { assert (Q := fs_idseq _ _ _ _ _ FS). unfold initialize_pool_id_seq. destruct s0 as [c [] ? ? ? ? ? ? ? ? ? ? ? ?]. cbn in *. now rewrite Q. }
  destruct (C29_run_model_stops QcA (e_sets e) (ac_args ac) profiles stakes costs s0 s (e_round e (ac_seed ac)) M H (sh_m _ _ _ SH)) as (T1 & T2 & T3 & _); [assert (Q := sh_m1 _ _ _ SH); lia | assumption|].
  assert (E2' := E2). unfold run_model in E2'. rewrite I0 in E2'.
  destruct (full_loop_fits e (ac_args ac) profiles stakes costs s0 n (ac_seed ac) (columns (ac_metrics ac)) C H OT SI ND RL (sh_n _ _ _ SH)) with (fuel := S (S (Z.to_nat (maxit_bound s0)))) (p := mkProgress s0 [] ([] : list (files QcA))) (s := s) as (p & E3 & E4 & F1 & F2 & F3).
  - intros i J. apply (sh_metrics _ _ _ SH). now apply columns_In.
  - split; [constructor|]. cbn. split; [unfold metric_rows; rewrite S7; constructor | rewrite S8; constructor].
  - cbn. auto.
  - exact E2'.
  - rewrite E4 in *. rewrite T3 in F3. inversion F3 as [|x f l l' (G1 & G2 & G3 & G4 & G5) F4 Ex Ef]; subst. inversion F4; subst.
    exists (mkOutcome ac (used_seed e ac) d p (has_converged (pg_sim p))), s0, d, f. split; [unfold main, execute; rewrite HP; cbn [bind]; rewrite E1; cbn [bind]; rewrite I0, E3; reflexivity|]. split; [assumption|]. split; [reflexivity|]. cbn [oc_end oc_equilibrium].
    split; [assumption|]. split; [assumption|]. split; [intros M' E; rewrite (sh_m _ _ _ SH) in E; injection E as <-; assumption|]. split; [reflexivity|]. split; [congruence|]. split; [apply columns_In|].
    rewrite G2. cbn [f_world] in *. auto.
Qed.

(** * Instances and counterexamples *)
(** An outside world that keeps its promises.  Costs: the numbers of Demo.v or of PropSimul.v if they fit, otherwise the lowest possible ones; profiles: all agents get the first profile with weight. *)
Definition fitting (costs : list Qc) (low high : Qc) (n : Z) : bool := (n =? Z.of_nat (length costs))%Z && forallb (fun x => Qc_leb low x && Qc_leb x high) costs.
Definition demo_uniform (low high : Qc) (n : Z) : list Qc :=
  if fitting demo_costs low high n then demo_costs else if fitting four_costs low high n then four_costs else repeat low (Z.to_nat n).
Lemma fitting_fits costs low high n : fitting costs low high n = true -> length costs = Z.to_nat n /\ forall x : Qc, In x costs -> low <= x /\ x <= high.
Proof.
  intros B. apply andb_true_iff in B as [B1 B2]. apply Z.eqb_eq in B1. split; [rewrite B1, Nat2Z.id; reflexivity|]. intros x J. rewrite forallb_forall in B2. specialize (B2 x J). apply andb_true_iff in B2 as [B2 B3].
  destruct (Qc_leb_spec low x); [|discriminate]. destruct (Qc_leb_spec x high); [|discriminate]. now split.
Qed.
Definition demo_choice (weights : list Qc) : profile := match weights with x :: y :: _ => if Qc_ltb 0 x then NonMyopic else if Qc_ltb 0 y then Myopic else World.Abstainer | _ => NonMyopic end.
Definition demo_env (file : option (list Qc)) : env QcA :=
  mkEnv (A := QcA) 7 (fun _ _ n => repeat 0 (Z.to_nat n)) (fun _ low high n => demo_uniform low high n) (fun _ ws n => repeat (demo_choice ws) (Z.to_nat n))
    (fun l n r => if r then repeat (hd 0 l) (Z.to_nat n) else firstn (Z.to_nat n) l) (fun _ => file) (fun _ _ _ => 0) so_id (fun _ _ => no_choice) (fun x => x) (fun x => x).
Lemma demo_contract file : contract (demo_env file).
Proof.
  split; [|split; [|split; [|split; [|split]]]]; cbn [demo_env e_pareto e_uniform e_choices e_sample e_sets e_round].
  - intros _ a n _. split; [apply repeat_length|]. intros x J. apply repeat_spec in J. subst x. discriminate.
  - intros _ low high n L. unfold demo_uniform. destruct (fitting demo_costs low high n) eqn:B; [exact (fitting_fits _ _ _ _ B)|]. destruct (fitting four_costs low high n) eqn:B'; [exact (fitting_fits _ _ _ _ B')|].
    split; [apply repeat_length|]. intros x J. apply repeat_spec in J. subst x. split; [apply Qcle_refl | assumption].
  - intros _ ws n. apply repeat_length.
  - intros l n r N L. destruct r.
    + split; [apply repeat_length|]. intros x J. apply repeat_spec in J. subst x. destruct l; [congruence | now left].
    + specialize (L eq_refl). split; [apply firstn_length_le; apply Nat2Z.inj_le; destruct (Z_le_gt_dec 0 n); [rewrite Z2Nat.id by assumption; exact L | replace (Z.to_nat n) with 0%nat by lia; apply Nat2Z.is_nonneg]|]. intros x J. rewrite <- (firstn_skipn (Z.to_nat n) l). apply in_app_iff. now left.
  - exact so_id_set_order.
  - intros _ _. exact fair_no_choice.
Qed.

(** python3 main.py --n n --k ... --a0 ... --reward_scheme scheme --agent_profile_distr weights --cost_min cmin --cost_max cmax --inactive_stake_fraction inactive --stake_distr_source src
    --absolute_utility_threshold abs --extra_pool_cost_fraction 2 --agent_activation_order ord --iterations_after_convergence 1 --max_iterations 20, with all thirty metrics *)
Definition demo_cmd (n : Z) (k : list Z) (a0 : list Qc) (scheme : Z) (weights : list Qc) (cmin cmax inactive : Qc) (src : source) (abs : Qc) (ord : order) : cmdline QcA :=
  mkCmd (A := QcA) (Some (VInt n)) (Some (map VInt k)) (Some a0) (Some scheme) (Some weights) (Some cmin) (Some cmax) (Some (Q2Qc 2)) (Some ord) (Some abs) None
    (Some src) None (Some inactive) false (Some 1%Z) (Some (VInt 20)) (Some (map Z.of_nat (seq 1 30))) false None.
Definition raised (r : res (outcome QcA)) : option exn := match r with Ok _ => None | Err x => Some x end.
Lemma raised_Err r x : raised r = Some x -> r = Err x.  Proof. destruct r; cbn; congruence. Qed.

(** REFUTED without the conditions: command lines that are accepted and then make the program raise, one for each condition. *)
Theorem C64_accepted_but_raising_refuted : forall case, In case
  [ (* all stake inactive *)                 (Some demo_stakes, demo_cmd 4 [2%Z] [Q2Qc (3#10)] 0 [1; 0; 0] (Q2Qc (1#1000)) (Q2Qc (1#2)) 1 FromFile 0 Sequential, ZeroDivisionError);
    (* CIP-7 scheme *)                       (Some demo_stakes, demo_cmd 4 [2%Z] [Q2Qc (3#10)] 3 [1; 0; 0] (Q2Qc (1#1000)) (Q2Qc (1#2)) 0 FromFile 0 Sequential, TypeError);
    (* cost_max < cost_min *)                (Some demo_stakes, demo_cmd 4 [2%Z] [Q2Qc (3#10)] 0 [1; 0; 0] (Q2Qc (1#2)) (Q2Qc (1#1000)) 0 FromFile 0 Sequential, ValueError);
    (* no profile has weight *)              (Some demo_stakes, demo_cmd 4 [2%Z] [Q2Qc (3#10)] 0 [0; 0; 0] (Q2Qc (1#1000)) (Q2Qc (1#2)) 0 FromFile 0 Sequential, ValueError);
    (* three agents, disparity *)            (Some demo_stakes, demo_cmd 3 [2%Z] [Q2Qc (3#10)] 0 [1; 0; 0] (Q2Qc (1#1000)) (Q2Qc (1#2)) 0 FromDisparity 0 Sequential, ZeroDivisionError);
    (* no file *)                            (None, demo_cmd 4 [2%Z] [Q2Qc (3#10)] 0 [1; 0; 0] (Q2Qc (1#1000)) (Q2Qc (1#2)) 0 FromFile 0 Sequential, FileNotFoundError);
    (* empty file *)                         (Some [], demo_cmd 4 [2%Z] [Q2Qc (3#10)] 0 [1; 0; 0] (Q2Qc (1#1000)) (Q2Qc (1#2)) 0 FromFile 0 Sequential, ValueError);
    (* a stake of zero in the file *)        (Some [1; 0; 0; 0], demo_cmd 4 [2%Z] [Q2Qc (3#10)] 0 [1; 0; 0] (Q2Qc (1#1000)) (Q2Qc (1#2)) 0 FromFile 0 Sequential, ZeroDivisionError);
    (* CIP-50 without influence of pledge *) (Some demo_stakes, demo_cmd 4 [2%Z] [0] 4 [0; 1; 0] (Q2Qc (1#1000)) (Q2Qc (1#2)) 0 FromFile 0 Sequential, ZeroDivisionError);
    (* k grows *)                            (Some demo_stakes, demo_cmd 4 [2%Z; 5%Z] [Q2Qc (3#10)] 0 [0; 1; 0] (Q2Qc (1#1000)) (Q2Qc (1#2)) 0 FromFile 0 Sequential, IndexError);
    (* a0 grows *)                           (Some [1; 1; 1; 1], demo_cmd 4 [2%Z] [0; Q2Qc 20] 0 [1; 0; 0] (Q2Qc (1#3)) (Q2Qc (1#3)) 0 FromFile (Q2Qc (1#10)) Sequential, AttributeError);
    (* simultaneous *)                       (Some four_stakes, demo_cmd 4 [3%Z] [Q2Qc (3#10)] 0 [1; 0; 0] (Q2Qc (1#10000)) (Q2Qc (1#1000)) 0 FromFile (Q2Qc (1#10000)) Simultaneous, KeyError);
    (* semisimultaneous *)                   (Some four_stakes, demo_cmd 4 [3%Z] [Q2Qc (3#10)] 0 [1; 0; 0] (Q2Qc (1#10000)) (Q2Qc (1#1000)) 0 FromFile (Q2Qc (1#10000)) Semisimultaneous, KeyError) ] ->
  let '(file, o, x) := case in contract (demo_env file) /\ (exists ac, parse o = Ok ac) /\ main (demo_env file) o = Err x.
Proof.
  intros case J. repeat (destruct J as [<-|J]; [split; [apply demo_contract|]; split; [eexists; reflexivity | apply raised_Err; vm_compute; reflexivity]|]). destruct J.
Qed.
(** with several phases, inactive stake and all metrics: the hypotheses of C64 and C65 are met, and the run goes through both phases *)
Definition good_cmd : cmdline QcA := demo_cmd 4 [3%Z; 2%Z] [Q2Qc (3#10); Q2Qc (1#10)] 0 [0; 1; 0] (Q2Qc (1#1000)) (Q2Qc (1#2)) (Q2Qc (1#10)) FromFile (Q2Qc (1#100)) Sequential.
Definition good_check (r : res (outcome QcA)) : bool := match r with Ok oc => let s := pg_sim (oc_end oc) in Nat.eqb (s_phase s) 1 && negb (Nat.eqb (length (w_pools (s_w s))) 0) && Nat.eqb (length (pg_files (oc_end oc))) 1 && oc_equilibrium oc && Nat.leb 4 (length (pg_rows (oc_end oc))) | Err _ => false end.
Lemma good_parsed : exists ac, parse good_cmd = Ok ac /\ runnable (demo_env (Some demo_stakes)) ac.
Proof.
  eexists. split; [reflexivity|]. split; [constructor; [right; reflexivity | constructor]|]. split; [discriminate|]. split; [discriminate|]. split; [exists 1; split; [cbn; auto | reflexivity]|]. split; [reflexivity|]. split; [discriminate|].
  split; [intros _ n _; exists demo_stakes; split; [now left|]; split; [discriminate | exact demo_stakes_pos]|]. split; [intros [D _]; discriminate|].
  split; intros x y (l & i & El & E1 & E2); injection El as <-; (destruct i as [|[|[|i]]]; cbn in E1, E2; try discriminate); injection E1 as <-; injection E2 as <-.
  - split; [discriminate|]. split; [exists 3%Z | exists 2%Z]; reflexivity.
  - cbn. discriminate.
Qed.
Lemma good_run : good_check (main (demo_env (Some demo_stakes)) good_cmd) = true.
Proof. vm_compute. reflexivity. Qed.
Example C64_C65_instance : exists ac oc, contract (demo_env (Some demo_stakes)) /\ parse good_cmd = Ok ac /\ runnable (demo_env (Some demo_stakes)) ac /\ main (demo_env (Some demo_stakes)) good_cmd = Ok oc /\
  (s_phase (pg_sim (oc_end oc)) = 1)%nat /\ w_pools (s_w (pg_sim (oc_end oc))) <> [] /\ oc_equilibrium oc = true /\ (4 <= length (pg_rows (oc_end oc)))%nat.
Proof.
  destruct good_parsed as (ac & E & RN). assert (B := good_run). destruct (main (demo_env (Some demo_stakes)) good_cmd) as [oc|] eqn:Em; [|discriminate B]. unfold good_check in B. apply andb_true_iff in B as [B B5]. apply andb_true_iff in B as [B B4]. apply andb_true_iff in B as [B _]. apply andb_true_iff in B as [B1 B2].
  exists ac, oc. split; [apply demo_contract|]. split; [exact E|]. split; [exact RN|]. split; [reflexivity|]. clear E Em RN.
  apply Nat.eqb_eq in B1. apply negb_true_iff, Nat.eqb_neq in B2. apply Nat.leb_le in B5. split; [exact B1|]. split; [intros C; now rewrite C in B2|]. split; [exact B4 | exact B5].
Qed.

(** REFUTED without the condition on metric 8: under CIP-50 with a0 = 1 and then a0 = 0 the average saturation rate raises in the second phase, while pools exist. *)
Definition cip_args : args QcA := mkArgs (A := QcA) (Single 4%Z) (Single (Q2Qc 2)) (Multi [1; 0]) (Single 0) (Single (Q2Qc (1#100))) (Single 100%Z) (Single (Q2Qc 2)) (Single Sequential) (Single true) 4 0 false 1.
Lemma cip_sound : sound_inputs cip_args demo_stakes.
Proof. repeat split; try discriminate; [exact demo_stakes_pos | cbn; intros x [<-|[]]; discriminate | cbn; intros x [<-|[<-|[]]]; discriminate]. Qed.
Definition cip_check (s : sim QcA) : bool := negb (Nat.eqb (length (w_pools (s_w s))) 0) && match avg_sat_rate (s_w s) with Err ZeroDivisionError => true | _ => false end.
Lemma cip_run : match (let! s0 := init cip_args [NonMyopic; NonMyopic; NonMyopic; NonMyopic] demo_stakes demo_costs in steps 2 s0) with Ok s => cip_check s | Err _ => false end = true.
Proof. vm_compute. reflexivity. Qed.
Lemma cip_raises (s : sim QcA) e : cip_check s = true -> w_pools (s_w s) <> [] /\ metric e 8 s = Err ZeroDivisionError.
Proof.
  intros H. apply andb_true_iff in H as [H3 H4]. split; [intros C; now rewrite C in H3|]. cbn [metric]. unfold as_num. destruct (avg_sat_rate (s_w s)) as [|[]]; try discriminate. reflexivity.
Qed.
Theorem C65_saturation_rate_refuted : exists profiles stakes costs (s0 s : sim QcA), init cip_args profiles stakes costs = Ok s0 /\ one_at_a_time cip_args /\ sound_inputs cip_args stakes /\ reach so_id s0 s /\
  w_pools (s_w s) <> [] /\ forall e, metric e 8 s = Err ZeroDivisionError.
Proof.
  exists [NonMyopic; NonMyopic; NonMyopic; NonMyopic], demo_stakes, demo_costs.
  destruct (steps_check (init cip_args [NonMyopic; NonMyopic; NonMyopic; NonMyopic] demo_stakes demo_costs) 2 cip_check cip_run) as (s0 & s & H1 & H2 & H3).
  exists s0, s. split; [exact H1|]. split; [constructor; [right; reflexivity | constructor]|]. split; [exact cip_sound|]. split; [eapply steps_reach; exact H2|]. clear H1 H2.
  split; [exact (proj1 (cip_raises s (demo_env None) H3))|]. intros e. exact (proj2 (cip_raises s e H3)).
Qed.
