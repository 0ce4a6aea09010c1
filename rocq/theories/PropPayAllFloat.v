(** C103: what all pools are paid together in a run, in the arithmetic of the machine. *)
From Coq Require Import ZArith Reals Lra Lia Psatz List Bool.
From Coq Require Import PrimFloat.
Set Warnings "-inexact-float".
From Verif Require Import Num NumFloat FloatOrd Py Rewards Binary64 RealArith FloatReward FloatError PropFloat SortedKeyList World Stakeholder Sched Sim Init Reach Inv Static Exec Eval Step SimInv Spec Demo ListFacts FloatRange PropState PropDrift AnyValues PropDriftRun PropTargetFloat PropSplitFloat PropGreedyFloat PropStakesFloat PropDivFloat PropPayFloat PropInit Persons PropStakesFloat PropBudgetFloat PropDrift.
From Flocq Require Core.
Import Flocq.Core.Core.
Import ListNotations.
Local Open Scope R_scope.

(** the pool has changed at most [D] times since it was opened *)
Definition changed_at_most (D : nat) (p : pool FloatA) : Prop := exists past, evolution past p /\ (forall q, In q (p :: past) -> in_range q) /\ (length past <= D)%nat.

(** logic/reward_schemes.py, calculate_pool_reward for every active pool: the rewards of an epoch add up to at most the stake of all agents, up to rounding and to the drift of the recorded stakes. *)
Theorem C103_rewards_of_all_pools : forall so (g : args FloatA) profiles (stakes costs : list (T FloatA)) (s0 : sim FloatA) w (D : nat), set_order so -> init g profiles stakes costs = Ok s0 -> one_at_a_time g -> proper_stakes s0 -> visible so s0 w ->
  sane_scheme (machine_rss (w_rss w)) -> (Z.of_nat (w_idseq w) <= 2 ^ 53)%Z -> INR D <= bpow radix2 47 -> (forall id p, active w id p -> changed_at_most D p /\ (0 <= fval (p_stake p) \/ INR D * bpow radix2 (-50) <= fval (p_pledge p))) ->
  let total := fold_right Rplus 0 (map (fun ag : agent FloatA => fval (a_stake ag)) (values (w_agents w))) in
  let n := INR (length (w_pools w)) in
  exists pools rewards, Forall2 (fun r p => get (w_heap w) r = Some p) (values (w_pools w)) pools /\
    Forall2 (fun (p : pool FloatA) x => pool_reward (w_rss w) (p_pledge p) (p_stake p) = Ok x /\ ffin x) pools rewards /\
    fold_right Rplus 0 (map fval rewards) <= (1 + bpow radix2 (-48)) * (total + (INR (w_idseq w) + 3) * u * total + INR (length (w_agents w)) * (2 * (INR (w_idseq w) + 1) * eta) + n * (INR D * bpow radix2 (-50))) + n * bpow radix2 (-600).
Proof.
  intros so g profiles stakes costs s0 w D SO H1 H2 Pr V Sa L LD Hd total n.
  destruct (C102_pools_hold_no_more_than_the_agents so g profiles stakes costs s0 w SO H1 H2 Pr V L) as (pools & F & B). destruct (float_run so g profiles stakes costs s0 w SO H1 H2 Pr V) as [Gw _]. assert (Gi := g_inv _ _ _ _ _ Gw).
  assert (One : forall r p, In r (values (w_pools w)) -> get (w_heap w) r = Some p -> exists x, pool_reward (w_rss w) (p_pledge p) (p_stake p) = Ok x /\ ffin x /\ fval x <= (1 + bpow radix2 (-48)) * (held p + INR D * bpow radix2 (-50)) + bpow radix2 (-600)).
  { intros r p J Gp. apply in_map_iff in J as ([id r'] & E & J). cbn in E. subst r'. apply In_get in J; [|apply Gi]. assert (Ap : active w id p) by (exists r; auto).
    destruct (Hd id p Ap) as [(past & E1 & E2 & E3) S]. destruct (C97_rewards_in_a_run so g profiles stakes costs s0 w H1 Pr V Sa id p Ap) as [_ K]. apply le_INR in E3.
    destruct (K past E1 E2 ltac:(lra)) as [K1 K2]. assert (S' : 0 <= fval (p_stake p)). { destruct S as [S|S]; [exact S|]. apply K1. eapply Rle_trans; [|exact S]. apply Rmult_le_compat_r; [apply bpow_ge_0 | exact E3]. }
    destruct (K2 S') as (x & X1 & X2 & X3 & _). exists x. split; [exact X1|]. split; [exact X2|]. eapply Rle_trans; [exact X3|]. apply Rplus_le_compat_r. assert (P48 := bpow_ge_0 radix2 (-48)). apply Rmult_le_compat_l; [lra|].
    eapply Rle_trans; [apply Rmin_l|]. apply Rplus_le_compat_l. apply Rmult_le_compat_r; [apply bpow_ge_0 | exact E3]. }
  assert (Ex : exists rewards, Forall2 (fun (p : pool FloatA) x => pool_reward (w_rss w) (p_pledge p) (p_stake p) = Ok x /\ ffin x) pools rewards /\
    sumL (map fval rewards) <= (1 + bpow radix2 (-48)) * (sumL (map held pools) + INR (length (values (w_pools w))) * (INR D * bpow radix2 (-50))) + INR (length (values (w_pools w))) * bpow radix2 (-600)).
  { revert One F. clear. generalize (values (w_pools w)) as l. intros l One F. revert One. induction F as [|r p l ps Gp F IH]; intros One; [exists []; split; [constructor|]; cbn [map sumL fold_right length INR]; lra|].
    destruct (One r p (or_introl eq_refl) Gp) as (x & X1 & X2 & X3). destruct IH as (xs & I1 & I2); [intros; eapply One; [right|]; eassumption|]. exists (x :: xs). split; [constructor; auto|]. cbn [map sumL fold_right length]. rewrite S_INR. unfold sumL in I2. lra. }
  destruct Ex as (rewards & F2 & B2). exists pools, rewards. split; [exact F|]. split; [exact F2|]. eapply Rle_trans; [exact B2|]. unfold values at 1 2. rewrite map_length. fold n. apply Rplus_le_compat_r. assert (P48 := bpow_ge_0 radix2 (-48)). apply Rmult_le_compat_l; [lra|]. apply Rplus_le_compat_r.
  refine (Rle_trans _ _ _ (Req_le _ _ _) B). unfold sumL. f_equal. apply map_ext. intros p. unfold held, sumD, values. rewrite map_map. reflexivity.
Qed.

(** With stakes scaled at the start of the run (C95), and up to 2^30 agents, pools opened, and changes of active pools: the rewards of an epoch exceed the epoch's total reward, which is 1, by at most 2^-17. *)
Theorem C103_rewards_within_the_budget : forall so (g : args FloatA) profiles (stakes costs : list (T FloatA)) (s0 : sim FloatA) w (D : nat), set_order so -> init g profiles stakes costs = Ok s0 -> one_at_a_time g ->
  g_inactive g = zero -> length stakes = Z.to_nat (s_n s0) -> proper stakes -> INR (length stakes) <= bpow radix2 30 -> bpow radix2 (-900) <= sumR stakes <= bpow radix2 900 ->
  (forall x, nth_error stakes (Nat.pred (length stakes)) = Some x -> INR (length stakes) * bpow radix2 (-48) * sumR stakes <= fval x) ->
  visible so s0 w -> sane_scheme (machine_rss (w_rss w)) -> INR (w_idseq w) <= bpow radix2 30 -> INR D <= bpow radix2 30 -> INR (length (w_pools w)) * (INR D + 1) <= bpow radix2 30 -> (forall id p, active w id p -> changed_at_most D p /\ (0 <= fval (p_stake p) \/ INR D * bpow radix2 (-50) <= fval (p_pledge p))) ->
  exists pools rewards, Forall2 (fun r p => get (w_heap w) r = Some p) (values (w_pools w)) pools /\
    Forall2 (fun (p : pool FloatA) x => pool_reward (w_rss w) (p_pledge p) (p_stake p) = Ok x /\ ffin x) pools rewards /\
    fold_right Rplus 0 (map fval rewards) <= 1 + bpow radix2 (-17).
Proof.
  intros so g profiles stakes costs s0 w D SO H1 H2 Hi Hn Hp HN HX Hl V Sa L LD LP Hd.
  assert (HN' : INR (length stakes) <= bpow radix2 40) by (eapply Rle_trans; [exact HN | apply bpow_le; lia]).
  assert (Pr := C95_proper_stakes _ _ _ _ _ H1 Hi Hn Hp HN' HX Hl). destruct (C95_stakes_add_up_to_one _ _ _ _ _ H1 Hi Hn Hp HN' HX) as (Le & _ & S & _).
  assert (LZ : (Z.of_nat (w_idseq w) <= 2 ^ 53)%Z). { apply le_IZR. rewrite <- INR_IZR_INZ. eapply Rle_trans; [exact L|]. change (bpow radix2 30) with (IZR (2 ^ 30)). apply IZR_le. lia. }
  assert (LD' : INR D <= bpow radix2 47) by (eapply Rle_trans; [exact LD | apply bpow_le; lia]).
  destruct (C103_rewards_of_all_pools so g profiles stakes costs s0 w D SO H1 H2 Pr V Sa LZ LD' Hd) as (pools & rewards & F & F2 & B). exists pools, rewards. split; [exact F|]. split; [exact F2|]. eapply Rle_trans; [exact B|]. clear B F F2.
  assert (Es := C56_stakes_never_change _ _ _ _ V). assert (El : length (w_agents w) = length stakes). { apply (f_equal (@length _)) in Es. rewrite !map_length in Es. rewrite Es, <- Le. unfold agent_stakes. now rewrite map_length. }
  set (total := fold_right Rplus 0 _). assert (Et : total = sumR (agent_stakes (w_agents (s_w s0)))). { unfold total, sumR, agent_stakes, values. rewrite <- Es, !map_map. reflexivity. }
  rewrite <- Et in S. rewrite El. apply Rabs_le_inv in S. clear Et Es.
  assert (T1 : INR (length stakes) * bpow radix2 (-48) <= bpow radix2 (-18)). { change (-18)%Z with (30 + -48)%Z. rewrite bpow_plus. apply Rmult_le_compat_r; [apply bpow_ge_0 | exact HN]. }
  assert (A0 := pos_INR (length stakes)). assert (N0 := pos_INR (w_idseq w)). assert (P0 := pos_INR (length (w_pools w))). assert (D0 := pos_INR D).
  assert (T2 : INR (length (w_pools w)) * (INR D * bpow radix2 (-50)) <= bpow radix2 (-20)).
  { change (-20)%Z with (30 + -50)%Z. rewrite bpow_plus, <- Rmult_assoc. apply Rmult_le_compat_r; [apply bpow_ge_0|]. lra. }
  assert (PD : 0 <= INR (length (w_pools w)) * INR D) by (apply Rmult_le_pos; lra).
  assert (T3 : INR (length (w_pools w)) * bpow radix2 (-600) <= bpow radix2 (-30)).
  { apply Rle_trans with (bpow radix2 30 * bpow radix2 (-600)); [apply Rmult_le_compat_r; [apply bpow_ge_0 | lra]|]. rewrite <- bpow_plus. apply bpow_le. lia. }
  assert (T4 : (INR (w_idseq w) + 3) * u <= bpow radix2 (-22)). { change (-22)%Z with (31 + -53)%Z. rewrite bpow_plus. change u with (bpow radix2 (-53)). apply Rmult_le_compat_r; [apply bpow_ge_0|]. change (bpow radix2 31) with (IZR (2 ^ 31)). change (bpow radix2 30) with (IZR (2 ^ 30)) in L. cbn in *. lra. }
  assert (T5 : INR (length stakes) * (2 * (INR (w_idseq w) + 1) * eta) <= bpow radix2 (-30)).
  { assert (E0 : 0 < eta) by apply small_u. apply Rle_trans with (bpow radix2 30 * (bpow radix2 32 * eta)).
    - apply Rmult_le_compat; [lra | apply Rmult_le_pos; lra | exact HN|]. apply Rmult_le_compat_r; [lra|]. change (bpow radix2 32) with (IZR (2 ^ 32)). change (bpow radix2 30) with (IZR (2 ^ 30)) in L. cbn in *. lra.
    - apply Rle_trans with (bpow radix2 30 * (bpow radix2 32 * bpow radix2 (-1000))); [apply Rmult_le_compat_l; [apply bpow_ge_0|]; apply Rmult_le_compat_l; [apply bpow_ge_0 | unfold eta; apply bpow_le; lia]|]. rewrite <- !bpow_plus. apply bpow_le. lia. }
  assert (Tp : 0 <= total). { assert (bpow radix2 (-18) <= 1) by (apply (bpow_le radix2 (-18) 0); lia). lra. }
  assert (T6 : (INR (w_idseq w) + 3) * u * total <= bpow radix2 (-22) * total) by (apply Rmult_le_compat_r; assumption).
  set (X := total + _ + _ + _). assert (BX : X <= 1 + bpow radix2 (-18) + bpow radix2 (-20) + 2 * bpow radix2 (-22) + bpow radix2 (-30)).
  { unfold X. assert (bpow radix2 (-22) * total <= bpow radix2 (-22) * 2); [apply Rmult_le_compat_l; [apply bpow_ge_0|]; assert (bpow radix2 (-18) <= 1) by (apply (bpow_le radix2 (-18) 0); lia); lra|]. lra. }
  apply Rle_trans with ((1 + bpow radix2 (-48)) * (1 + bpow radix2 (-18) + bpow radix2 (-20) + 2 * bpow radix2 (-22) + bpow radix2 (-30)) + bpow radix2 (-30)).
  { apply Rplus_le_compat; [|exact T3]. apply Rmult_le_compat_l; [assert (0 <= bpow radix2 (-48)) by apply bpow_ge_0; lra | exact BX]. }
  cbn -[Rle]. lra.
Qed.

(** * Instance *)
Lemma changed_one (p : pool FloatA) a (v : PrimFloat.float) : p_delegators p = [(a, v)] -> p_stake p = PrimFloat.add (p_pledge p) v -> F_ltb v (min_stake_unit (a := FloatA)) = false ->
  (PrimFloat.is_finite (p_pledge p) && PrimFloat.leb PrimFloat.zero (p_pledge p) && PrimFloat.leb (p_pledge p) 0.25%float)%bool = true ->
  (PrimFloat.is_finite v && PrimFloat.leb PrimFloat.zero v && PrimFloat.leb v 0.25%float)%bool = true -> changed_at_most 1 p.
Proof.
  intros Ed Es Hv Hp Hw. apply quarter_range in Hp. apply quarter_range in Hw. exists [opened p]. split; [|split; [|cbn; lia]].
  - apply (ev_terms [opened p] (update_delegation (A := FloatA) v a (opened p))).
    + apply ev_delegation; [now apply ev_opened | right; exact Hv].
    + exact Es.
    + reflexivity.
    + rewrite Ed. unfold update_delegation. cbn [opened p_delegators set]. change (ltb (a := FloatA) v min_stake_unit) with (F_ltb v (min_stake_unit (a := FloatA))). now rewrite Hv.
  - intros q [<-|[<-|[]]]; unfold in_range, held, sumD; cbn [opened p_pledge p_delegators map fold_right]; rewrite ?Ed; cbn [map fold_right snd].
    + split; [tauto|]. split; [lra|]. split; [intros b x [[= <- <-]|[]]; tauto | lra].
    + split; [tauto|]. split; [lra|]. split; [intros b x [] | lra].
Qed.
Lemma changed_none (p : pool FloatA) : p_delegators p = [] -> p_stake p = p_pledge p -> (PrimFloat.is_finite (p_pledge p) && PrimFloat.leb PrimFloat.zero (p_pledge p) && PrimFloat.leb (p_pledge p) 0.25%float)%bool = true -> changed_at_most 1 p.
Proof.
  intros Ed Es Hp. apply quarter_range in Hp. exists []. split; [now constructor|]. split; [|cbn; lia]. intros q [<-|[]]. unfold in_range, held, sumD. rewrite Ed. cbn [map fold_right]. split; [tauto|]. split; [lra|]. split; [intros b x [] | lra].
Qed.
(** pledge, recorded stake and delegators of the six pools *)
Definition expected : list (PrimFloat.float * PrimFloat.float * dict PrimFloat.float) :=
  [(0.1052048726467331%float, PrimFloat.add 0.1052048726467331%float 0.14839424141749727%float, [(2%nat, 0.14839424141749727%float)]); (0.1052048726467331%float, 0.1052048726467331%float, []); (0.1052048726467331%float, 0.1052048726467331%float, []);
   (0.2159468438538206%float, PrimFloat.add 0.2159468438538206%float 0.11738648947951272%float, [(2%nat, 0.11738648947951272%float)]); (0.049833887043189362%float, 0.049833887043189362%float, []); (0.15282392026578084%float, 0.15282392026578084%float, [])].
Definition look_pools (s : sim FloatA) : option (list (option (PrimFloat.float * PrimFloat.float * dict PrimFloat.float)) * nat) :=
  Some (map (fun r => option_map (fun p : pool FloatA => (p_pledge p, p_stake p, p_delegators p)) (get (w_heap (s_w s)) r)) (values (w_pools (s_w s))), w_idseq (s_w s)).
Lemma pools_look : match (let! s0 := init drift_args drift_profiles drift_stakes drift_costs in steps 1 s0) with Ok s => look_pools s | Err _ => None end = Some (map Some expected, 7%nat).
Proof. vm_compute. reflexivity. Qed.
(** After one round of the run of C94 six pools are active, two of them with a delegator. *)
Lemma C103_instance : exists s0 s, init drift_args drift_profiles drift_stakes drift_costs = Ok s0 /\ set_order so_id /\ one_at_a_time drift_args /\ proper_stakes s0 /\ visible so_id s0 (s_w s) /\ sane_scheme (machine_rss (w_rss (s_w s))) /\
  (Z.of_nat (w_idseq (s_w s)) <= 2 ^ 53)%Z /\ INR 1 <= bpow radix2 47 /\ (forall id p, active (s_w s) id p -> changed_at_most 1 p /\ (0 <= fval (p_stake p) \/ INR 1 * bpow radix2 (-50) <= fval (p_pledge p))) /\ length (w_pools (s_w s)) = 6%nat /\ w_idseq (s_w s) = 7%nat.
Proof.
  destruct (look_run (init drift_args drift_profiles drift_stakes drift_costs) 1 look_pools _ pools_look) as (s0 & s & H & H1 & L). unfold look_pools in L. assert (L1 := f_equal (fun o => match o with Some t => fst t | None => [] end) L). assert (L2 := f_equal (fun o => match o with Some t => snd t | None => 0%nat end) L). cbn [fst snd] in L1, L2. clear L.
  assert (Sa : sane_scheme (machine_rss (w_rss (s_w s)))). { destruct (look_run (init drift_args drift_profiles drift_stakes drift_costs) 1 look_paid _ paid_look) as (t0 & t & K & K1 & L). rewrite H in K. injection K as <-. rewrite H1 in K1. injection K1 as <-. unfold look_paid in L. injection L as _ La Lt.
    destruct (unit_unit 0.3%float eq_refl) as [F1 B1]. destruct (unit_unit 0.33333333333333331%float eq_refl) as [F2 B2]. assert (Q := quarter_le 0.33333333333333331%float F2 eq_refl). assert (1 <= bpow radix2 400) by (apply (bpow_le radix2 0 400); lia).
    assert (bpow radix2 (-400) <= / 4) by (change (/ 4) with (bpow radix2 (-2)); apply bpow_le; lia). unfold sane_scheme. cbn [machine_rss r_a0 r_thr]. rewrite La, Lt. split; [exact F1|]. split; [lra|]. split; [exact F2 | lra]. }
  assert (Pr : proper_stakes s0). { destruct C95_instance as (t0 & _ & _ & _ & E & _ & _ & _ & _ & _ & _ & P & _). rewrite H in E. injection E as <-. exact P. }
  exists s0, s. split; [exact H|]. split; [exact so_id_set_order|]. split; [exact drift_one|]. split; [exact Pr|]. split; [constructor; now apply steps_reach in H1|]. split; [exact Sa|]. split; [rewrite L2; lia|]. split; [apply (bpow_le radix2 0 47); lia|]. split.
  - intros id p (r & K1 & K2). apply get_In, (in_map snd) in K1. apply (in_map (fun r => option_map (fun p : pool FloatA => (p_pledge p, p_stake p, p_delegators p)) (get (w_heap (s_w s)) r))) in K1. cbn [snd] in K1. rewrite K2 in K1. cbn [option_map] in K1.
    assert (K3 : In (Some (p_pledge p, p_stake p, p_delegators p) : option (PrimFloat.float * PrimFloat.float * dict PrimFloat.float)) (map Some expected)) by (rewrite <- L1; exact K1). clear K1. rename K3 into K1. cbn [map expected] in K1. destruct K1 as [E|[E|[E|[E|[E|[E|[]]]]]]]; injection E as E1 E2 E3; symmetry in E1, E2, E3.
    1: split; [apply (changed_one p 2 0.14839424141749727%float); rewrite ?E1, ?E2; try exact E3; vm_compute; reflexivity | left; rewrite E2; match goal with |- 0 <= fval ?x => apply (unit_unit x eq_refl) end].
    3: split; [apply (changed_one p 2 0.11738648947951272%float); rewrite ?E1, ?E2; try exact E3; vm_compute; reflexivity | left; rewrite E2; match goal with |- 0 <= fval ?x => apply (unit_unit x eq_refl) end].
    all: split; [apply changed_none; rewrite ?E1, ?E2; try exact E3; vm_compute; reflexivity | left; rewrite E2; match goal with |- 0 <= fval ?x => apply (unit_unit x eq_refl) end].
  - split; [|exact L2]. apply (f_equal (@length _)) in L1. rewrite map_length in L1. unfold values in L1. rewrite map_length in L1. exact L1.
Qed.
(** The same state meets the hypotheses of [C103_rewards_within_the_budget]. *)
Lemma C103_budget_instance : exists s0 s, init drift_args drift_profiles drift_stakes drift_costs = Ok s0 /\ set_order so_id /\ one_at_a_time drift_args /\ g_inactive drift_args = zero /\ length drift_stakes = Z.to_nat (s_n s0) /\ proper drift_stakes /\
  INR (length drift_stakes) <= bpow radix2 30 /\ bpow radix2 (-900) <= sumR drift_stakes <= bpow radix2 900 /\ (forall x, nth_error drift_stakes (Nat.pred (length drift_stakes)) = Some x -> INR (length drift_stakes) * bpow radix2 (-48) * sumR drift_stakes <= fval x) /\
  visible so_id s0 (s_w s) /\ sane_scheme (machine_rss (w_rss (s_w s))) /\ INR (w_idseq (s_w s)) <= bpow radix2 30 /\ INR 1 <= bpow radix2 30 /\ INR (length (w_pools (s_w s))) * (INR 1 + 1) <= bpow radix2 30 /\
  (forall id p, active (s_w s) id p -> changed_at_most 1 p /\ (0 <= fval (p_stake p) \/ INR 1 * bpow radix2 (-50) <= fval (p_pledge p))) /\ length (w_pools (s_w s)) = 6%nat.
Proof.
  destruct C103_instance as (s0 & s & H & SO & One & Pr & V & Sa & Q & _ & All & Len & Seq). destruct C95_instance as (t0 & _ & _ & _ & E & I1 & I2 & I3 & _ & I5 & I6 & _). rewrite H in E. injection E as <-.
  assert (B : 32 <= bpow radix2 30) by (change 32 with (bpow radix2 5); apply bpow_le; lia). exists s0, s.
  split; [exact H|]. split; [exact SO|]. split; [exact One|]. split; [exact I1|]. split; [exact I2|]. split; [exact I3|]. split; [cbn [length drift_stakes INR]; lra|]. split; [exact I5|]. split; [exact I6|]. split; [exact V|]. split; [exact Sa|].
  split; [rewrite Seq; cbn [INR]; lra|]. split; [cbn [INR]; lra|]. split; [rewrite Len; cbn [INR]; lra|]. split; [exact All | exact Len].
Qed.
