(** C97: what pools are paid in a run, in the arithmetic of the machine. *)
From Coq Require Import ZArith Reals Lra Lia Psatz List Bool.
From Coq Require Import PrimFloat.
Set Warnings "-inexact-float".
From Verif Require Import Num NumFloat FloatOrd Py Rewards Binary64 RealArith FloatReward FloatError PropFloat SortedKeyList World Stakeholder Sched Sim Init Reach Spec Demo FloatRange AnyValues PropDrift PropDriftRun PropStakesFloat PropDivFloat.
From Flocq Require Core.
Import Flocq.Core.Core.
Import ListNotations.
Local Open Scope R_scope.

(** The two sets of comparisons agree on finite numbers, so a reward is the same with both. *)
Definition machine_rss (r : rss FloatA) : rss FloatI := mkRss (A := FloatI) (r_scheme r) (r_k r) (r_a0 r) (r_thr r).
Lemma pmin_AI (x y : PrimFloat.float) : ffin x -> ffin y -> pmin (A := FloatA) x y = pmin (A := FloatI) x y.
Proof. intros F G. unfold pmin. cbn [ltb FloatA FloatI]. unfold F_ltb. now rewrite (fin_not_nan x F), (fin_not_nan y G). Qed.
Lemma pmin_fin (x y : PrimFloat.float) : ffin x -> ffin y -> ffin (pmin (A := FloatI) x y).
Proof. intros F G. unfold pmin. now destruct (ltb (a := FloatI) y x). Qed.
Lemma pdiv_AI (x y : PrimFloat.float) : ffin y -> pdiv (A := FloatA) x y = pdiv (A := FloatI) x y.
Proof.
  intros F. unfold pdiv. assert (E : F_eqb y PrimFloat.zero = PrimFloat.eqb y PrimFloat.zero); [|change ((if F_eqb y PrimFloat.zero then Err ZeroDivisionError else Ok (PrimFloat.div x y)) = (if PrimFloat.eqb y PrimFloat.zero then Err ZeroDivisionError else Ok (PrimFloat.div x y))); now rewrite E].
  destruct val_0 as [V0 F0]. unfold F_eqb. destruct (F_ltb y PrimFloat.zero) eqn:E1, (F_ltb PrimFloat.zero y) eqn:E2, (PrimFloat.eqb y PrimFloat.zero) eqn:E3; try reflexivity; exfalso;
    try apply (flt_val _ _ F F0) in E1; try apply (flt_val_false _ _ F F0) in E1; try apply (flt_val _ _ F0 F) in E2; try apply (flt_val_false _ _ F0 F) in E2;
    try (apply (eqb_val _ _ F F0) in E3; lra); assert (Z : fval y = fval PrimFloat.zero) by lra; apply (eqb_val _ _ F F0) in Z; congruence.
Qed.
Lemma bind_eq {X Y} (m m' : res X) (k k' : X -> res Y) : m = m' -> (forall x, k x = k' x) -> bind m k = bind m' k'.
Proof. intros -> E. destruct m' as [x|]; [apply E | reflexivity]. Qed.
Lemma reward_AI (r : rss FloatA) (p s : PrimFloat.float) : sane_scheme (machine_rss r) -> sane p -> ffin s -> pool_reward (A := FloatA) r p s = pool_reward (A := FloatI) (machine_rss r) p s.
Proof.
  intros (Fa & Ba & Ft & Bt) (Fp & Bp) Fs. cbn [machine_rss r_a0 r_thr] in *. destruct val_1 as [V1 F1].
  assert (B4 : bpow radix2 400 <= bpow radix2 999) by (apply bpow_le; lia).
  assert (F2 : ffin (PrimFloat.add PrimFloat.one (r_a0 r))). { apply add_val; [exact F1 | exact Fa|]. rewrite V1. unfold big. change 1000%Z with (1 + 999)%Z. rewrite bpow_plus. change (bpow radix2 1) with 2. assert (1 <= bpow radix2 999) by (apply (bpow_le radix2 0 999); lia). apply Rabs_le. lra. }
  assert (F3 : ffin (PrimFloat.mul (r_a0 r) p)). { apply mul_val; [exact Fa | exact Fp|]. rewrite Rabs_pos_eq by (apply Rmult_le_pos; lra). apply Rle_trans with (bpow radix2 400 * bpow radix2 400); [apply Rmult_le_compat; lra|]. rewrite <- bpow_plus. unfold big. apply bpow_le. lia. }
  unfold pool_reward, pool_threshold. cbn [machine_rss r_scheme r_a0 r_thr].
  destruct (r_scheme r).
  - rewrite (pmin_AI s _ Fs Ft), (pmin_AI p _ Fp Ft). apply bind_eq; [exact (pdiv_AI _ _ F2)|]. intros c. apply bind_eq; [exact (pdiv_AI _ _ Ft)|]. intros z. apply bind_eq; [exact (pdiv_AI _ _ Ft)|]. reflexivity.
  - rewrite (pmin_AI s _ Fs Ft), (pmin_AI p _ Fp Ft). apply bind_eq; [exact (pdiv_AI _ _ F2)|]. intros c. apply bind_eq; [exact (pdiv_AI _ _ Ft)|]. reflexivity.
  - rewrite (pmin_AI s _ Fs Ft), (pmin_AI p _ Fp Ft). apply bind_eq; [exact (pdiv_AI _ _ F2)|]. reflexivity.
  - rewrite (pmin_AI (mul (a := FloatA) (r_a0 r) p) _ F3 Ft). rewrite pmin_AI; [reflexivity | exact Fs | now apply pmin_fin].
Qed.

(** The reward of a pool whose stake is not negative, whatever its pledge: at most the larger of the two, and at most the threshold, up to 2^-48. *)
Lemma reward_at_most (r : rss FloatA) (p s : PrimFloat.float) : sane_scheme (machine_rss r) -> sane p -> sane s ->
  exists x, pool_reward (A := FloatA) r p s = Ok x /\ ffin x /\ fval x <= (1 + err_rel) * Rmin (Rmax (fval p) (fval s)) (fval (r_thr r)) + err_abs /\ (fval p <= fval s -> 0 <= fval x).
Proof.
  intros R P S. rewrite (reward_AI r p s R P (proj1 S)). destruct (machine_value (machine_rss r) p s R P S) as (x & E & F & V). exists x. split; [exact E|]. split; [exact F|]. destruct R as (_ & A & _ & B). destruct P as [FP BP]. destruct S as [FS BS].
  cbn [machine_rss r_scheme r_a0 r_thr] in *. assert (0 < bpow radix2 (-400)) by apply bpow_gt_0. rewrite V. split; [|intros L; apply reward_nonneg; try apply rnd_fval; lra].
  assert (M1 := Rmax_l (fval p) (fval s)). assert (M2 := Rmax_r (fval p) (fval s)). assert (RM : rnd (Rmax (fval p) (fval s)) = Rmax (fval p) (fval s)) by (unfold Rmax; destruct (Rle_dec (fval p) (fval s)); apply rnd_fval).
  eapply Rle_trans; [apply (reward_mono _ _ _ _ _ (Rmax (fval p) (fval s))); lra|].
  destruct (reward_err (r_scheme r) (fval (r_a0 r)) (fval (r_thr r)) (fval p) (Rmax (fval p) (fval s))) as [Y X]; try apply rnd_fval; try assumption; try lra. rewrite err_rel_u, err_abs_tau. lra.
Qed.

(** In every run on the machine, under every activation order and at every point, every pool has a history in the range of C94. A pool that has changed n <= 2^47 times and records a stake that is not negative is paid a finite
    reward, at most what it holds up to n * 2^-50 and at most the saturation threshold, both up to a factor 1 + 2^-48 and 2^-600, and not negative if the recorded stake covers the pledge.
    The recorded stake is not negative if the pledge is at least n * 2^-50. *)
Theorem C97_rewards_in_a_run : forall so (g : args FloatA) profiles (stakes costs : list (T FloatA)) (s0 : sim FloatA) w, init g profiles stakes costs = Ok s0 -> proper_stakes s0 -> visible so s0 w -> sane_scheme (machine_rss (w_rss w)) ->
  forall id p, active w id p -> (exists past, evolution past p /\ forall q, In q (p :: past) -> in_range q) /\
  forall past, evolution past p -> (forall q, In q (p :: past) -> in_range q) -> INR (length past) <= bpow radix2 47 -> let e := INR (length past) * bpow radix2 (-50) in
    (e <= fval (p_pledge p) -> 0 <= fval (p_stake p)) /\
    (0 <= fval (p_stake p) -> exists x, pool_reward (w_rss w) (p_pledge p) (p_stake p) = Ok x /\ ffin x /\
       fval x <= (1 + bpow radix2 (-48)) * Rmin (held p + e) (fval (r_thr (w_rss w))) + bpow radix2 (-600) /\ (fval (p_pledge p) <= fval (p_stake p) -> 0 <= fval x)).
Proof.
  intros so g profiles stakes costs s0 w H Pr V R id p Ap. split; [exact (history_in_range so g profiles stakes costs s0 w H Pr V id p Ap)|]. intros past E G L e. destruct (C94_drift_is_bounded past p E G L) as [F B]. fold e in B. destruct (G p (or_introl eq_refl)) as (G1 & G2 & G3 & G4).
  assert (Sd := sumD_nonneg _ G3). unfold held in *. apply Rabs_le_inv in B. split; [lra|]. intros S.
  assert (Be : e <= / 8). { apply Rle_trans with (bpow radix2 47 * bpow radix2 (-50)); [apply Rmult_le_compat_r; [apply bpow_ge_0 | exact L]|]. rewrite <- bpow_plus. change (/ 8) with (bpow radix2 (-3)). apply bpow_le. lia. }
  assert (Pe : 0 <= e) by (apply Rmult_le_pos; [apply pos_INR | apply bpow_ge_0]). assert (B4 : 4 <= bpow radix2 400) by (change 4 with (bpow radix2 2); apply bpow_le; lia).
  destruct (reward_at_most (w_rss w) (p_pledge p) (p_stake p) R) as (x & X1 & X2 & X3 & X4); [split; [exact G1 | lra] | split; [exact F | lra]|]. exists x. split; [exact X1|]. split; [exact X2|]. split; [|exact X4].
  eapply Rle_trans; [exact X3|]. apply Rplus_le_compat_r. unfold err_rel. apply Rmult_le_compat_l; [assert (0 <= bpow radix2 (-48)) by apply bpow_ge_0; lra|]. apply Rle_min_compat_r. apply Rmax_lub; lra.
Qed.

(** Three non-myopic agents with the stakes 0.77, 5e-17 and 0.93, k = 3 and a0 = 0.1: after two rounds the pool of agent 1 has the pledge 2.9e-17 and records the stake 0; its reward is about -2.4e-34. *)
Definition loss_args : args FloatA :=
  mkArgs (A := FloatA) (Single 3%Z) (Single 3%float) (Single 0.1%float) (Single 0%float) (Single 1e-6%float) (Single 100%Z) (Single 2%float) (Single Sequential) (Single true) 0%Z 0%float false 2%Z.
Definition loss_stakes : list PrimFloat.float := [0.77; 5e-17; 0.93]%float.
Definition loss_costs : list PrimFloat.float := [0.0126; 0.002; 0.0746]%float.
Definition loss_check (s : sim FloatA) : bool :=
  match pool_at (s_w s) 4 with
  | Some p => PrimFloat.ltb 0%float (p_pledge p) && PrimFloat.leb 0%float (p_stake p) && match pool_reward (w_rss (s_w s)) (p_pledge p) (p_stake p) with Ok x => PrimFloat.ltb x 0%float | Err _ => false end
  | None => false
  end.
Lemma loss_run : match (let! s0 := init loss_args zero_profiles loss_stakes loss_costs in steps 2 s0) with Ok s => loss_check s | Err _ => false end = true.
Proof. vm_compute. reflexivity. Qed.
Theorem C97_no_reward_is_negative_refuted : exists s0 s id p x, init loss_args zero_profiles loss_stakes loss_costs = Ok s0 /\ forallb (fun x => PrimFloat.ltb PrimFloat.zero x) loss_stakes = true /\ one_at_a_time loss_args /\ reach so_id s0 s /\
  active (s_w s) id p /\ PrimFloat.ltb 0%float (p_pledge p) = true /\ PrimFloat.leb 0%float (p_stake p) = true /\ pool_reward (w_rss (s_w s)) (p_pledge p) (p_stake p) = Ok x /\ PrimFloat.ltb x 0%float = true.
Proof.
  destruct (steps_check (init loss_args zero_profiles loss_stakes loss_costs) 2 loss_check loss_run) as (s0 & s & H1 & H2 & H3). apply steps_reach in H2. unfold loss_check in H3. destruct (pool_at (s_w s) 4) as [p|] eqn:Ep; [|discriminate H3].
  apply andb_prop in H3 as [H3 K3]. apply andb_prop in H3 as [K1 K2]. destruct (pool_reward (w_rss (s_w s)) (p_pledge p) (p_stake p)) as [x|] eqn:Ex; [|discriminate K3].
  exists s0, s, 4%nat, p, x. split; [exact H1|]. split; [reflexivity|]. split; [constructor; [now right | constructor]|]. split; [exact H2|]. split; [now apply pool_at_active|]. split; [exact K1|]. split; [exact K2|]. split; [exact Ex | exact K3].
Qed.

(** * Instance *)
(** After one round of the run of C94 pool 1 has a history of one change, a delegator and a stake above its pledge. *)
Definition look_paid (s : sim FloatA) : option (facts * PrimFloat.float * PrimFloat.float) := Some (look s 1, r_a0 (w_rss (s_w s)), r_thr (w_rss (s_w s))).
Lemma paid_look : match (let! s0 := init drift_args drift_profiles drift_stakes drift_costs in steps 1 s0) with Ok s => look_paid s | Err _ => None end =
  Some (Some (0.1052048726467331%float, PrimFloat.add 0.1052048726467331%float 0.14839424141749727%float, [(2%nat, 0.14839424141749727%float)]), 0.3%float, 0.33333333333333331%float).
Proof. vm_compute. reflexivity. Qed.
Example C97_instance : exists s0 s id p past, init drift_args drift_profiles drift_stakes drift_costs = Ok s0 /\ proper_stakes s0 /\ visible so_id s0 (s_w s) /\ sane_scheme (machine_rss (w_rss (s_w s))) /\ active (s_w s) id p /\ p_delegators p <> [] /\
  evolution past p /\ (forall q, In q (p :: past) -> in_range q) /\ INR (length past) <= bpow radix2 47 /\ INR (length past) * bpow radix2 (-50) <= fval (p_pledge p) /\ fval (p_pledge p) <= fval (p_stake p).
Proof.
  destruct (look_run (init drift_args drift_profiles drift_stakes drift_costs) 1 look_paid _ paid_look) as (s0 & s & H & H1 & L). apply steps_reach in H1. unfold look_paid in L.
  assert (Pr : proper_stakes s0). { destruct C95_instance as (t0 & _ & _ & _ & E & _ & _ & _ & _ & _ & _ & P & _). rewrite H in E. injection E as <-. exact P. }
  injection L as L1 La Lt. unfold look in L1. destruct (pool_at (s_w s) 1) as [p|] eqn:Ep; [|discriminate L1]. cbn [option_map] in L1. injection L1 as E1 E2 E3.
  assert (St : sturdy p) by (apply (sturdy_one p 2 0.14839424141749727%float); rewrite ?E1, ?E2; try exact E3; vm_compute; reflexivity). destruct St as (past & S1 & S2 & S3 & S4).
  exists s0, s, 1%nat, p, past. split; [exact H|]. split; [exact Pr|]. split; [now constructor|]. split.
  { destruct (unit_unit 0.3%float eq_refl) as [F1 B1]. destruct (unit_unit 0.33333333333333331%float eq_refl) as [F2 B2]. assert (Q := quarter_le 0.33333333333333331%float F2 eq_refl). assert (1 <= bpow radix2 400) by (apply (bpow_le radix2 0 400); lia).
    assert (bpow radix2 (-400) <= / 4) by (change (/ 4) with (bpow radix2 (-2)); apply bpow_le; lia). unfold sane_scheme. cbn [machine_rss r_a0 r_thr]. rewrite La, Lt. split; [exact F1|]. split; [lra|]. split; [exact F2 | lra]. }
  split; [now apply pool_at_active|]. split; [rewrite E3; discriminate|]. split; [exact S1|]. split; [exact S2|]. split; [exact S3|]. split; [lra|].
  rewrite E1, E2. apply (leb_val 0.1052048726467331%float (PrimFloat.add 0.1052048726467331%float 0.14839424141749727%float)); [apply (unit_unit 0.1052048726467331%float eq_refl) | apply (unit_unit (PrimFloat.add 0.1052048726467331%float 0.14839424141749727%float) eq_refl) | reflexivity].
Qed.
