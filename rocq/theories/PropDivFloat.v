(** C96: division by the stake of a pool in the arithmetic of the machine.  A run can fail with a division by zero; the rewards of a pool whose pledge exceeds the rounding error in its books are always defined. *)
From Coq Require Import ZArith Reals Lra Lia Psatz List Bool Permutation.
From Coq Require Import PrimFloat.
From Coq Require FloatOps SpecFloat.
Set Warnings "-inexact-float".
From Verif Require Import Num NumFloat FloatOrd Py Rewards Binary64 RealArith FloatReward FloatError PropFloat SortedKeyList World Stakeholder Sched Sim Init Reach ListFacts Inv Step SimInv Spec PropInit Demo FloatRange AnyValues PropState PropDrift PropDriftRun PropStakesFloat.
From Flocq Require Core BinarySingleNaN PrimFloat.
Import Flocq.Core.Core.
Import ListNotations.
Local Open Scope R_scope.

(** a finite number above zero can be divided by *)
Lemma pdiv_pos (x y : T FloatA) : ffin y -> 0 < fval y -> exists z, pdiv (A := FloatA) x y = Ok z.
Proof.
  intros F L. unfold pdiv. destruct (eqb y zero) eqn:E; [exfalso | now eexists]. change (eqb (a := FloatA) y zero) with (F_eqb y PrimFloat.zero) in E. unfold F_eqb in E. destruct val_0 as [V0 F0].
  assert (X : F_ltb PrimFloat.zero y = true) by (apply flt_val; [exact F0 | exact F | lra]). rewrite X in E. now rewrite andb_false_r in E.
Qed.
(** parameters under which rewards are defined: k at least 1, a0 finite and not negative *)
Definition usable (rs : rss FloatA) : Prop := (1 <= r_k rs)%Z /\ ffin (r_a0 rs) /\ 0 <= fval (r_a0 rs) <= bpow radix2 999.
Lemma reward_defined (rs : rss FloatA) pledge stake : sound_rss rs -> usable rs -> exists x, pool_reward rs pledge stake = Ok x.
Proof.
  intros S (K & Fa & La). destruct (S K) as (Ft & Pt). destruct val_1 as [V1 F1].
  assert (C : exists c, pdiv (A := FloatA) (total_R FloatA) (add one (r_a0 rs)) = Ok c).
  { assert (B : 1 + bpow radix2 999 <= big). { unfold big. change 1000%Z with (1 + 999)%Z. rewrite bpow_plus. change (bpow radix2 1) with 2. assert (1 <= bpow radix2 999) by (apply (bpow_le radix2 0 999); lia). lra. }
    destruct (add_val PrimFloat.one (r_a0 rs) F1 Fa) as [G1 G2]; [rewrite V1; apply Rabs_le; lra|]. apply pdiv_pos; [exact G1|]. change (0 < fval (PrimFloat.add PrimFloat.one (r_a0 rs))). rewrite G2, V1.
    apply Rlt_le_trans with 1; [lra|]. apply rnd_ge_1. lra. }
  destruct C as (c & C). assert (D : forall x, exists z, pdiv (A := FloatA) x (r_thr rs) = Ok z) by (intros x; now apply pdiv_pos). unfold pool_reward. destruct (r_scheme rs).
  - rewrite C. cbn [bind]. destruct (D (pmin stake (r_thr rs))) as (z & ->). cbn [bind]. edestruct D as (q & ->). cbn [bind]. now eexists.
  - rewrite C. cbn [bind]. edestruct D as (q & ->). cbn [bind]. now eexists.
  - rewrite C. cbn [bind]. now eexists.
  - now eexists.
Qed.

(** what the operator and the delegators of a pool get from it can be computed *)
Definition rewarding (rs : rss FloatA) (p : pool FloatA) : Prop :=
  (exists x, pool_reward rs (p_pledge p) (p_stake p) = Ok x) /\
  (exists x, operator_utility rs (p_stake p) (p_pledge p) (p_margin p) (p_cost p) = Ok x) /\
  (forall v, exists x, delegator_utility rs v (p_stake p) (p_pledge p) (p_margin p) (p_cost p) = Ok x).
Lemma rewarding_pos (rs : rss FloatA) (p : pool FloatA) : sound_rss rs -> usable rs -> ffin (p_stake p) -> 0 < fval (p_stake p) -> rewarding rs p.
Proof.
  intros S U F L. destruct (reward_defined rs (p_pledge p) (p_stake p) S U) as (x & E). assert (D : forall v, exists z, pdiv (A := FloatA) v (p_stake p) = Ok z) by (intros v; now apply pdiv_pos). split; [now exists x|]. split.
  - unfold operator_utility. rewrite E. cbn [bind]. destruct (D (p_pledge p)) as (z & ->). cbn [bind]. now eexists.
  - intros v. unfold delegator_utility. rewrite E. cbn [bind]. destruct (D v) as (z & ->). cbn [bind]. now eexists.
Qed.
(** a pool with some history of [n <= 2^47] changes and a pledge above n * 2^-50, the bound on the rounding error in its stake *)
Definition sturdy (p : pool FloatA) : Prop := exists past, evolution past p /\ (forall q, In q (p :: past) -> in_range q) /\ INR (length past) <= bpow radix2 47 /\ INR (length past) * bpow radix2 (-50) < fval (p_pledge p).
Lemma sturdy_stake p : sturdy p -> ffin (p_stake p) /\ 0 < fval (p_stake p).
Proof.
  intros (past & E & R & N & L). destruct (C94_drift_is_bounded past p E R N) as [F B]. split; [exact F|]. destruct (R p (or_introl eq_refl)) as (_ & _ & Rd & _). assert (S := sumD_nonneg _ Rd). unfold held in B.
  assert (X := Rle_abs (- (fval (p_stake p) - (fval (p_pledge p) + sumD (p_delegators p))))). rewrite Rabs_Ropp in X. lra.
Qed.

(** In every run on the machine, under every activation order and at every point, every pool has a history in the range of C94, and if it is sturdy its rewards are defined. *)
Theorem C96_sturdy_pools_have_rewards : forall so (g : args FloatA) profiles (stakes costs : list (T FloatA)) (s0 : sim FloatA) w, init g profiles stakes costs = Ok s0 -> proper_stakes s0 -> visible so s0 w -> usable (w_rss w) ->
  forall id p, active w id p -> (exists past, evolution past p /\ forall q, In q (p :: past) -> in_range q) /\ (sturdy p -> rewarding (w_rss w) p).
Proof.
  intros so g profiles stakes costs s0 w H Pr V U id p Ap. split; [exact (history_in_range so g profiles stakes costs s0 w H Pr V id p Ap)|]. intros S. destruct Pr as (P1 & P2). assert (G := lived_visible _ P1 P2 so s0 w (init_lived _ _ _ _ _ H (conj P1 P2)) V). destruct (sturdy_stake p S) as [F L]. apply rewarding_pos; [exact (proj2 (proj2 G)) | exact U | exact F | exact L].
Qed.
(** An agent whose pools, those it operates and those it delegates to, are sturdy can compute what it gets. *)
Theorem C96_current_utility_defined : forall so (g : args FloatA) profiles (stakes costs : list (T FloatA)) (s0 : sim FloatA) w, set_order so -> init g profiles stakes costs = Ok s0 -> one_at_a_time g -> proper_stakes s0 -> visible so s0 w -> usable (w_rss w) ->
  forall a ag st, plays w a ag st -> (forall id p, operates w a id p -> sturdy p) -> (forall id v p, allocates w a id v -> active w id p -> sturdy p) ->
  exists x, current_utility w ag = Ok x.
Proof.
  intros so g profiles stakes costs s0 w SO H One Pr V U a ag st Pl Ho Ha. assert (MP : ltb (zero (a := FloatA)) min_stake_unit = true) by (vm_compute; reflexivity).
  assert (G := plain_visible FloatA_ord MP so SO _ _ _ _ _ _ H One V). destruct (C15_delegations_recorded_on_both_sides FloatA FloatA_ord MP so g profiles stakes costs s0 w SO H One V) as (D1 & _ & D3).
  assert (RW : forall id p, active w id p -> sturdy p -> rewarding (w_rss w) p) by (intros id p J; exact (proj2 (C96_sturdy_pools_have_rewards so g profiles stakes costs s0 w H Pr V U id p J))).
  assert (Na := D3 a ag st Pl). assert (Pl' := Pl). destruct Pl' as [Pl1 Pl2]. destruct (proj2 (g_ok _ _ _ _ _ G) a ag Pl1) as [_ No]. destruct (No st Pl2) as [_ No'].
  unfold current_utility, the_strategy. rewrite Pl2. cbn [of_option bind].
  match goal with |- exists x, bind (foldM ?f ?l ?z) _ = Ok x => destruct (foldM_total f (fun _ => True) l z I) as (y & E & _) end.
  { intros y r J _. apply (In_values _ _ No') in J as (id & J). assert (O : ow_of w a id = Some r) by (unfold ow_of; rewrite Pl1, Pl2; exact J).
    destruct (i_own _ _ _ _ _ _ (g_inv _ _ _ _ _ G) a id r O) as [G1 _]. destruct (i_reg _ _ _ _ _ _ (g_inv _ _ _ _ _ G) id r G1) as (p & G2 & _).
    assert (S : sturdy p) by (apply (Ho id); exists ag, st, r; auto). destruct (RW id p (ex_intro _ r (conj G1 G2)) S) as (_ & (x & X) & _).
    unfold deref. rewrite G2. cbn [of_option bind]. unfold pool_operator_utility. rewrite X. cbn [bind]. eexists. split; [reflexivity | exact I]. }
  rewrite E. cbn [bind]. match goal with |- exists x, foldM ?f ?l ?z = Ok x => destruct (foldM_total f (fun _ => True) l z I) as (x & Ex & _); [|now exists x] end.
  intros y0 [id v] J _. apply (In_get _ _ _ Na) in J. assert (Al : allocates w a id v) by (exists ag, st; now split). destruct (proj1 (D1 a id v) Al) as (p & Ap & _). assert (S := Ha id v p Al Ap). destruct Ap as (r & G1 & G2).
  destruct (RW id p (ex_intro _ r (conj G1 G2)) S) as (_ & _ & X). destruct (X v) as (x & X'). unfold the_pool. rewrite G1. cbn [of_option bind]. unfold deref. rewrite G2. cbn [of_option bind]. rewrite X'. cbn [bind]. eexists. split; [reflexivity | exact I].
Qed.

(** * A run that divides by zero *)
(** Three non-myopic agents, k = 3 and a0 = 0.3, one of them with the stake 3e-17. All input stakes and costs are positive. In the third round agent 0 leaves the pool of that agent, whose stake is then 0
    although its pledge is not; the agent is next, and its move fails when it divides by the stake of its pool. *)
Definition zero_args : args FloatA :=
  mkArgs (A := FloatA) (Single 3%Z) (Single 3%float) (Single 0.3%float) (Single 0%float) (Single 1e-6%float) (Single 100%Z) (Single 2%float) (Single Sequential) (Single true) 0%Z 0%float false 2%Z.
Definition zero_profiles := [NonMyopic; NonMyopic; NonMyopic].
Definition zero_stakes : list PrimFloat.float := [0.78; 3e-17; 0.92]%float.
Definition zero_costs : list PrimFloat.float := [0.05; 0.001; 0.002]%float.
Definition zero_check (s : sim FloatA) : bool :=
  match sim_step so_id no_choice s, agent_step so_id (s_w s) 0 with
  | Err ZeroDivisionError, Ok w1 => match agent_step so_id w1 1, pool_at w1 4 with
                                    | Err ZeroDivisionError, Some p => PrimFloat.eqb (p_stake p) 0%float && PrimFloat.ltb 0%float (p_pledge p) && Nat.eqb (p_owner p) 1
                                    | _, _ => false
                                    end
  | _, _ => false
  end.
Lemma zero_run : match (let! s0 := init zero_args zero_profiles zero_stakes zero_costs in steps 2 s0) with Ok s => zero_check s | Err _ => false end = true.
Proof. vm_compute. reflexivity. Qed.
Theorem C96_no_round_divides_by_zero_refuted : exists s0 s w1 id p, init zero_args zero_profiles zero_stakes zero_costs = Ok s0 /\ set_order so_id /\ one_at_a_time zero_args /\ reach so_id s0 s /\
  agent_step so_id (s_w s) 0 = Ok w1 /\ active w1 id p /\ p_owner p = 1%nat /\ PrimFloat.ltb 0%float (p_pledge p) = true /\ PrimFloat.eqb (p_stake p) 0%float = true /\
  agent_step so_id w1 1 = Err ZeroDivisionError /\ sim_step so_id no_choice s = Err ZeroDivisionError.
Proof.
  destruct (steps_check (init zero_args zero_profiles zero_stakes zero_costs) 2 zero_check zero_run) as (s0 & s & H1 & H2 & H3). apply steps_reach in H2. unfold zero_check in H3.
  destruct (sim_step so_id no_choice s) as [s'|e] eqn:E; [discriminate H3|]. destruct e; try discriminate H3. destruct (agent_step so_id (s_w s) 0) as [w1|] eqn:E1; [|discriminate H3]. destruct (agent_step so_id w1 1) as [w2|e] eqn:E2; [discriminate H3|]. destruct e; try discriminate H3.
  destruct (pool_at w1 4) as [p|] eqn:Ep; [|discriminate H3]. apply andb_prop in H3 as [H3 K3]. apply andb_prop in H3 as [K1 K2]. apply Nat.eqb_eq in K3.
  exists s0, s, w1, 4%nat, p. split; [exact H1|]. split; [exact so_id_set_order|]. split; [constructor; [now right | constructor]|]. split; [exact H2|]. split; [exact E1|]. split; [now apply pool_at_active|]. split; [exact K3|]. split; [exact K2|]. split; [exact K1|]. split; [exact E2 | exact E].
Qed.

(** * Instance *)
(** After one round of the run of C94 agent 2 delegates to the pools 4 and 1; all pools it deals with are sturdy, with a history of one change. *)
Lemma val_16th : fval 0.0625%float = / 16.
Proof.
  rewrite fval_SF. assert (E : FloatOps.Prim2SF 0.0625%float = SpecFloat.S754_finite false 4503599627370496 (-56)) by (vm_compute; reflexivity). rewrite E. unfold BinarySingleNaN.SF2R, F2R. cbn [Fnum Fexp cond_Zopp].
  change (IZR 4503599627370496) with (bpow radix2 52). rewrite <- bpow_plus. cbn. lra.
Qed.
Definition opened (p : pool FloatA) : pool FloatA := mkPool (A := FloatA) (p_id p) (p_cost p) (p_pledge p) (p_pledge p) (p_owner p) (p_private p) [] (p_pp p) (p_margin p) (p_des p).
Lemma sturdy_one (p : pool FloatA) a (v : PrimFloat.float) : p_delegators p = [(a, v)] -> p_stake p = PrimFloat.add (p_pledge p) v -> F_ltb v (min_stake_unit (a := FloatA)) = false ->
  (PrimFloat.is_finite (p_pledge p) && PrimFloat.leb PrimFloat.zero (p_pledge p) && PrimFloat.leb (p_pledge p) 0.25%float)%bool = true -> PrimFloat.leb 0.0625%float (p_pledge p) = true ->
  (PrimFloat.is_finite v && PrimFloat.leb PrimFloat.zero v && PrimFloat.leb v 0.25%float)%bool = true -> sturdy p.
Proof.
  intros Ed Es Hv Hp Hl Hw. apply quarter_range in Hp. apply quarter_range in Hw. exists [opened p]. split; [|split; [|split]].
  - apply (ev_terms [opened p] (update_delegation (A := FloatA) v a (opened p))).
    + apply ev_delegation; [now apply ev_opened | right; exact Hv].
    + exact Es.
    + reflexivity.
    + rewrite Ed. unfold update_delegation. cbn [opened p_delegators set]. change (ltb (a := FloatA) v min_stake_unit) with (F_ltb v (min_stake_unit (a := FloatA))). now rewrite Hv.
  - intros q [<-|[<-|[]]]; unfold in_range, held, sumD; cbn [opened p_pledge p_delegators map fold_right]; rewrite ?Ed; cbn [map fold_right snd].
    + split; [tauto|]. split; [lra|]. split; [intros b x [[= <- <-]|[]]; tauto | lra].
    + split; [tauto|]. split; [lra|]. split; [intros b x [] | lra].
  - apply Rle_trans with (bpow radix2 1); [cbn; lra | apply bpow_le; lia].
  - apply (leb_val 0.0625%float (p_pledge p)) in Hl; [|apply (quarter_range 0.0625%float eq_refl) | tauto]. rewrite val_16th in Hl. cbn [length INR]. assert (bpow radix2 (-50) <= / 32) by (change (/ 32) with (bpow radix2 (-5)); apply bpow_le; lia). lra.
Qed.
Definition look (s : sim FloatA) id := option_map (fun p : pool FloatA => (p_pledge p, p_stake p, p_delegators p)) (pool_at (s_w s) id).
Definition look_agent (s : sim FloatA) a := match get (w_agents (s_w s)) a with Some ag => option_map (fun st => (s_alloc st, s_owned st)) (a_strategy ag) | None => None end.
Definition facts := option (PrimFloat.float * PrimFloat.float * dict PrimFloat.float).
Definition look_all (s : sim FloatA) : option (facts * facts * option (dict PrimFloat.float * dict nat) * Z * PrimFloat.float) := Some (look s 1, look s 4, look_agent s 2, r_k (w_rss (s_w s)), r_a0 (w_rss (s_w s))).
Lemma look_run {X} (i : res (sim FloatA)) n (f : sim FloatA -> option X) v : match (let! s0 := i in steps n s0) with Ok s => f s | Err _ => None end = Some v -> exists s0 s, i = Ok s0 /\ steps n s0 = Ok s /\ f s = Some v.
Proof. destruct i as [s0|]; [|discriminate]. cbn [bind]. destruct (steps n s0) as [s|] eqn:E; [|discriminate]. intros H. exists s0, s. now split. Qed.
Lemma drift_look : match (let! s0 := init drift_args drift_profiles drift_stakes drift_costs in steps 1 s0) with Ok s => look_all s | Err _ => None end =
  Some (Some (0.1052048726467331%float, PrimFloat.add 0.1052048726467331%float 0.14839424141749727%float, [(2%nat, 0.14839424141749727%float)]),
   Some (0.2159468438538206%float, PrimFloat.add 0.2159468438538206%float 0.11738648947951272%float, [(2%nat, 0.11738648947951272%float)]),
   Some ([(4%nat, 0.11738648947951272%float); (1%nat, 0.14839424141749727%float)], []), 3%Z, 0.3%float).
Proof. vm_compute. reflexivity. Qed.
Example C96_instance : exists s0 s ag st, init drift_args drift_profiles drift_stakes drift_costs = Ok s0 /\ set_order so_id /\ one_at_a_time drift_args /\ proper_stakes s0 /\ visible so_id s0 (s_w s) /\ usable (w_rss (s_w s)) /\
  plays (s_w s) 2 ag st /\ length (s_alloc st) = 2%nat /\ (forall id p, operates (s_w s) 2 id p -> sturdy p) /\ (forall id v p, allocates (s_w s) 2 id v -> active (s_w s) id p -> sturdy p).
Proof.
  destruct (look_run (init drift_args drift_profiles drift_stakes drift_costs) 1 look_all _ drift_look) as (s0 & s & H & H1 & L). apply steps_reach in H1. unfold look_all in L.
  assert (Pr : proper_stakes s0). { destruct C95_instance as (t0 & _ & _ & _ & E & _ & _ & _ & _ & _ & _ & P & _). rewrite H in E. injection E as <-. exact P. }
  injection L as L1 L4 L2 Lk La. unfold look_agent in L2. destruct (get (w_agents (s_w s)) 2) as [ag|] eqn:Eg; [|discriminate L2]. destruct (a_strategy ag) as [st|] eqn:Et; [|discriminate L2]. cbn [option_map] in L2. injection L2 as Ea Eo.
  exists s0, s, ag, st. split; [exact H|]. split; [exact so_id_set_order|]. split; [exact drift_one|]. split; [exact Pr|]. split; [now constructor|]. split.
  { split; [rewrite Lk; lia|]. rewrite La. destruct (unit_unit 0.3%float eq_refl) as [F B]. split; [exact F|]. assert (1 <= bpow radix2 999) by (apply (bpow_le radix2 0 999); lia). lra. }
  split; [now split|]. split; [now rewrite Ea|]. split.
  - intros id p (ag' & st' & r & (P1 & P2) & P3 & _). rewrite Eg in P1. injection P1 as <-. rewrite Et in P2. injection P2 as <-. rewrite Eo in P3. discriminate P3.
  - intros id v p (ag' & st' & (P1 & P2) & P3) (r & K1 & K2). rewrite Eg in P1. injection P1 as <-. rewrite Et in P2. injection P2 as <-. rewrite Ea in P3. cbn [get] in P3.
    assert (J : id = 4%nat \/ id = 1%nat). { destruct (Nat.eqb_spec id 4); [now left|]. destruct (Nat.eqb_spec id 1); [now right | discriminate P3]. } clear P3. unfold look, pool_at in L1, L4. destruct J as [-> | ->].
    + rewrite K1, K2 in L4. cbn [option_map] in L4. injection L4 as E1 E2 E3. apply (sturdy_one p 2 0.11738648947951272%float); rewrite ?E1, ?E2; try exact E3; vm_compute; reflexivity.
    + rewrite K1, K2 in L1. cbn [option_map] in L1. injection L1 as E1 E2 E3. apply (sturdy_one p 2 0.14839424141749727%float); rewrite ?E1, ?E2; try exact E3; vm_compute; reflexivity.
Qed.
