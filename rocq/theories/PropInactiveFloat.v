(** C95: the stakes the agents start with, in the arithmetic of the machine, when part of the stake is inactive. *)
From Coq Require Import ZArith Reals Lra Lia Psatz List Bool Permutation.
From Coq Require Import PrimFloat.
From Coq Require FloatOps SpecFloat.
Set Warnings "-inexact-float".
From Verif Require Import Num NumFloat FloatOrd Py Rewards Binary64 RealArith FloatReward FloatError PropFloat SortedKeyList World Stakeholder Sched Sim Init Reach ListFacts Inv SimInv Spec PropInit Demo FloatRange AnyValues PropDrift PropDriftRun PropStakesFloat.
From Flocq Require Core BinarySingleNaN PrimFloat.
Import Flocq.Core.Core.
Import ListNotations.
Local Open Scope R_scope.

(** [scaled l l' q e]: the numbers [l'] are those of [l] scaled to a total of [q], each within [e], except that the last one gets the missing [1 - q] as well; together they are 1 within [e], and none but the last one is negative *)
Definition scaled (l l' : list (T FloatA)) (q e : R) : Prop :=
  length l' = length l /\ (forall x, In x l' -> ffin x) /\ Rabs (sumR l' - 1) <= e /\
  forall i x x', nth_error l i = Some x -> nth_error l' i = Some x' ->
    if (S i =? length l)%nat then Rabs (fval x' - (q * (fval x / sumR l) + (1 - q))) <= e else Rabs (fval x' - q * (fval x / sumR l)) <= e /\ 0 <= fval x'.

Lemma normalize_scaled tot d d' t : normalize (A := FloatA) tot d = Ok (d', t) -> let l := agent_stakes d in proper l -> (1 <= length l)%nat -> INR (length l) <= bpow radix2 40 -> 0 < sumR l ->
  ffin tot -> 0 < fval tot -> sumR l / fval tot <= 5 / 4 -> scaled l (agent_stakes d') (sumR l / fval tot) (16 * INR (length l) * u).
Proof.
  intros H l Hl L1 L2 PX Ft Pt Q2. destruct u_pos as (U1 & U2 & U3 & U4). set (n := INR (length l)) in *. set (X := sumR l) in *.
  assert (N1 : 1 <= n) by (unfold n; change 1 with (INR 1); now apply le_INR). assert (Nu : n * u <= / 8192). { apply Rle_trans with (bpow radix2 40 * u); [apply Rmult_le_compat_r; lra|]. unfold u. rewrite <- bpow_plus. change (bpow radix2 (40 + -53)) with (/ 8192). lra. }
  assert (Lu : u <= n * u) by nra. assert (Le : n * eta <= n * u / 64) by nra. assert (Le1 : eta <= n * u / 64) by lra.
  assert (Pi := Rinv_0_lt_compat _ Pt). set (q := X / fval tot) in *.
  assert (Q0 : q * fval tot = X) by (unfold q; field; lra). assert (Pq : 0 < q) by (apply Rmult_lt_0_compat; lra).
  destruct (quots_err tot Ft Pt l Hl) as [Y1 Y2]; [fold X; fold q; lra|]. fold X in Y2. fold q in Y2. fold n in Y2. set (ys := map (fun x => div (a := FloatA) x tot) l) in *.
  assert (Uq : u * q <= u * (5 / 4)) by (apply Rmult_le_compat_l; lra). apply Rabs_le_inv in Y2. set (Y := sumR ys) in *.
  unfold normalize in H. apply bind_ok in H as (d1 & H1 & H).
  assert (S1 : agent_stakes d1 = ys /\ length d1 = length d).
  { unfold ys, l. clear - H1. revert d1 H1. induction d as [|[i ag] d IH]; intros d1 H1; cbn [mapM] in H1; [injection H1 as <-; split; reflexivity|].
    apply bind_ok in H1 as (e & He & H1). apply bind_ok in H1 as (d2 & H2 & H1). injection H1 as <-. apply bind_ok in He as (s & Hs & He). injection He as <-. unfold pdiv in Hs. destruct (eqb tot zero); [discriminate Hs|]. injection Hs as <-.
    destruct (IH _ H2) as [E1 E2]. split; [|cbn; now rewrite E2]. unfold agent_stakes in *. cbn [map snd fst]. f_equal. exact E1. }
  destruct S1 as [S1 S2]. change (map (fun e => a_stake (snd e)) d1) with (agent_stakes d1) in H. rewrite S1 in H.
  assert (Ly : length ys = length l) by (unfold ys; now rewrite map_length).
  destruct (psum_err ys 2) as [P1 P2]; [exact Y1 | split; [apply Rle_trans with (bpow radix2 1); [apply bpow_le; lia | cbn; lra] | apply (bpow_le radix2 1 901); lia] | fold Y; lra | rewrite Ly; fold n; lra|]. rewrite Ly in P2. fold n in P2. fold Y in P2. apply Rabs_le_inv in P2.
  (* each quotient *)
  assert (Each : forall i x x', nth_error l i = Some x -> nth_error ys i = Some x' -> ffin x' /\ 0 <= fval x' /\ Rabs (fval x' - q * (fval x / X)) <= 2 * (n * u)).
  { intros i x x' J J'. unfold ys in J'. rewrite (map_nth_error _ _ _ J) in J'. injection J' as <-. change (PrimFloat.div x tot) with (div (a := FloatA) x tot). apply nth_error_In in J. destruct (Hl x J) as [Fx Px]. assert (Bx := sumR_In l x Hl J). fold X in Bx.
    set (f := fval x / X). assert (F01 : 0 <= f <= 1) by (apply div_01; lra). assert (Ef : fval x / fval tot = f * q) by (unfold f, q; field; lra). assert (Fq : f * q <= 1 * (5 / 4)) by (apply Rmult_le_compat; lra).
    destruct (quot_err x tot Fx Px Ft Pt) as (A1 & A2 & A3); [rewrite Ef; lra|]. split; [exact A1|]. split; [exact A2|]. rewrite Ef in A3. assert (u * (f * q) <= u * (5 / 4)) by (apply Rmult_le_compat_l; lra). apply Rabs_le_inv in A3.
    apply Rabs_le. lra. }
  destruct (eqb (psum ys) one) eqn:Eq.
  - injection H as <- <-. rewrite S1. split; [exact Ly|]. split; [intros x J; exact (proj1 (Y1 x J))|].
    assert (V : fval (psum ys) = 1). { change (F_eqb (psum ys) PrimFloat.one = true) in Eq. destruct val_1 as [V1 F1]. unfold F_eqb in Eq. apply andb_prop in Eq as [Z1 Z2]. apply negb_true_iff in Z1, Z2. apply (flt_val_false _ _ P1 F1) in Z1. apply (flt_val_false _ _ F1 P1) in Z2. lra. }
    split; [apply Rabs_le; fold Y; lra|]. intros i x x' J J'. destruct (Each i x x' J J') as (A1 & A2 & A3). apply Rabs_le_inv in A3. fold X. destruct (S i =? length l)%nat; [apply Rabs_le; lra|]. split; [apply Rabs_le; lra | exact A2].
  - destruct d1 as [|e1 d1']; [discriminate H|]. remember (e1 :: d1') as d1 eqn:Ed1. assert (Ne : d1 <> []) by (subst; discriminate). clear Ed1. injection H as <- <-.
    destruct (exists_last Ne) as (dl & [i0 ag0] & Ed). set (err := sub (a := FloatA) one (psum ys)).
    assert (Ea : add_to_last (A := FloatA) d1 err = dl ++ [(i0, agent_set_stake (A := FloatA) (add (a_stake ag0) err) ag0)]).
    { unfold add_to_last. rewrite Ed, rev_app_distr. cbn [rev app]. rewrite rev_involutive. reflexivity. }
    match goal with |- context [add_to_last d1 ?e] => change e with err end. rewrite Ea. set (ls := agent_stakes dl). set (yl := a_stake ag0). assert (Eys : ys = ls ++ [yl]) by (rewrite <- S1, Ed; unfold agent_stakes; rewrite map_app; reflexivity).
    assert (El' : agent_stakes (dl ++ [(i0, agent_set_stake (A := FloatA) (add yl err) ag0)]) = ls ++ [add yl err]) by (unfold agent_stakes; rewrite map_app; reflexivity). fold yl. rewrite El'.
    assert (Fyl : ffin yl /\ 0 <= fval yl) by (apply Y1; rewrite Eys; apply in_or_app; right; now left). destruct Fyl as [Fyl Pyl].
    assert (Yl : Y = sumR ls + fval yl). { unfold Y. rewrite Eys, sumR_app. unfold sumR at 2. cbn. lra. } assert (Pls : 0 <= sumR ls) by (apply sumR_pos; intros x J; apply Y1; rewrite Eys; apply in_or_app; now left).
    destruct val_1 as [V1 F1]. destruct (sub_val PrimFloat.one (psum ys) F1 P1) as [E1 E2]; [rewrite V1; apply big_2; apply Rabs_le; lra|]. change (PrimFloat.sub PrimFloat.one (psum ys)) with err in *. rewrite V1 in E2.
    assert (X1 : Rabs (fval err - (1 - fval (psum ys))) <= u * (5 / 2) + eta) by (rewrite E2; apply one_op; apply Rabs_le; lra). apply Rabs_le_inv in X1.
    destruct (add_val yl err Fyl E1) as [G1 G2]; [apply big_2; apply Rabs_le; lra|]. change (PrimFloat.add yl err) with (add (a := FloatA) yl err) in *.
    assert (X2 : Rabs (fval (add (a := FloatA) yl err) - (fval yl + fval err)) <= u * (5 / 2) + eta) by (rewrite G2; apply one_op; apply Rabs_le; lra). apply Rabs_le_inv in X2.
    assert (Lls : length l = S (length ls)) by (rewrite <- Ly, Eys, app_length; cbn; lia).
    split; [rewrite Lls, app_length; cbn; lia|]. split; [|split].
    + intros x J. apply in_app_or in J as [J|[<-|[]]]; [apply Y1; rewrite Eys; apply in_or_app; now left | exact G1].
    + rewrite sumR_app. change (sumR [add yl err]) with (fval (add (a := FloatA) yl err) + 0). apply Rabs_le. lra.
    + intros i x x' J J'. destruct (Nat.eq_dec i (length ls)) as [->|Ni].
      * rewrite nth_error_app2, Nat.sub_diag in J' by lia. injection J' as <-. change (PrimFloat.add yl err) with (add (a := FloatA) yl err). assert (Jy : nth_error ys (length ls) = Some yl) by (rewrite Eys, nth_error_app2, Nat.sub_diag by lia; reflexivity). destruct (Each _ _ _ J Jy) as (A1 & A2 & A3). apply Rabs_le_inv in A3. fold X. rewrite Lls, Nat.eqb_refl. apply Rabs_le. lra.
      * assert (Lt : (i < length ls)%nat). { assert (i < length l)%nat by (apply nth_error_Some; congruence). lia. } rewrite nth_error_app1 in J' by exact Lt. assert (Jy : nth_error ys i = Some x') by (rewrite Eys, nth_error_app1 by exact Lt; exact J').
        destruct (Each _ _ _ J Jy) as (A1 & A2 & A3). apply Rabs_le_inv in A3. fold X. destruct (Nat.eqb_spec (S i) (length l)) as [C|_]; [lia|]. split; [apply Rabs_le; lra | exact A2].
Qed.


(** the total that __init__ computes: the sum of the stakes over the active part *)
Lemma total_err (stakes : list (T FloatA)) (f tot : T FloatA) : proper stakes -> (1 <= length stakes)%nat -> INR (length stakes) <= bpow radix2 40 -> bpow radix2 (-900) <= sumR stakes <= bpow radix2 900 -> ffin f -> 0 <= fval f <= 1 - bpow radix2 (-20) ->
  pdiv (psum stakes) (sub one f) = Ok tot -> ffin tot /\ 0 < fval tot /\ Rabs (sumR stakes / fval tot - (1 - fval f)) <= 12 * INR (length stakes) * u.
Proof.
  intros Hp L1 HN HX Ff Bf Ht. destruct u_pos as (U1 & U2 & U3 & U4). set (n := INR (length stakes)) in *. set (X := sumR stakes) in *.
  assert (N1 : 1 <= n) by (unfold n; change 1 with (INR 1); now apply le_INR). assert (Nu : n * u <= / 8192). { apply Rle_trans with (bpow radix2 40 * u); [apply Rmult_le_compat_r; lra|]. unfold u. rewrite <- bpow_plus. change (bpow radix2 (40 + -53)) with (/ 8192). lra. }
  assert (Lu : u <= n * u) by nra. assert (PX : 0 < X) by (apply Rlt_le_trans with (bpow radix2 (-900)); [apply bpow_gt_0 | tauto]). assert (EX := eta_small X (proj1 HX)).
  destruct (psum_err stakes X) as [P1 P2]; [exact Hp | split; [tauto|]; apply Rle_trans with (bpow radix2 900); [tauto | apply bpow_le; lia] | apply Rle_refl | fold n; lra|]. fold n in P2. fold X in P2. set (ps := fval (psum stakes)) in *.
  assert (P3 : 3 * n * u * X <= 3 / 8192 * X) by (apply Rmult_le_compat_r; lra). apply Rabs_le_inv in P2.
  set (a := 1 - fval f). assert (B20 : bpow radix2 (-20) = / 1048576) by reflexivity. assert (Ba : bpow radix2 (-20) <= a <= 1) by (unfold a; lra).
  destruct val_1 as [V1 F1]. destruct (sub_val PrimFloat.one f F1 Ff) as [D1 D2]; [rewrite V1; apply big_2; apply Rabs_le; lra|]. change (PrimFloat.sub PrimFloat.one f) with (sub (a := FloatA) one f) in *. rewrite V1 in D2. fold a in D2. set (d := fval (sub (a := FloatA) one f)) in *.
  assert (E1 : Rabs (d - a) <= 2 * u * a). { rewrite D2. eapply Rle_trans; [apply rnd_err|]. rewrite (Rabs_pos_eq a) by lra. assert (eta <= u * bpow radix2 (-20)) by (apply eta_small; apply bpow_le; lia). assert (u * bpow radix2 (-20) <= u * a) by (apply Rmult_le_compat_l; lra). lra. }
  assert (E1' : 2 * u * a <= / 4096 * a) by (apply Rmult_le_compat_r; lra). apply Rabs_le_inv in E1. assert (Pd : / 2097152 <= d <= 2) by lra.
  unfold pdiv in Ht. destruct (eqb (sub one f) zero); [discriminate Ht|]. injection Ht as <-.
  set (z := ps / d). assert (Z0 : z * d = ps) by (unfold z; field; lra). assert (Pz : 0 < z) by (apply Rmult_lt_0_compat; [lra | apply Rinv_0_lt_compat; lra]).
  assert (Z1 : X / 4 <= z). { apply (Rmult_le_reg_r d); [lra|]. rewrite Z0. assert (X / 4 * d <= X / 4 * 2) by (apply Rmult_le_compat_l; lra). lra. }
  assert (Z2 : z <= 4194304 * X). { apply (Rmult_le_reg_r d); [lra|]. rewrite Z0. assert (4194304 * X * / 2097152 <= 4194304 * X * d) by (apply Rmult_le_compat_l; lra). lra. }
  assert (Bg : 4194304 * X <= Binary64.big). { unfold Binary64.big. apply Rle_trans with (bpow radix2 922); [|apply bpow_le; lia]. change 922%Z with (22 + 900)%Z. rewrite bpow_plus. change (bpow radix2 22) with 4194304. lra. }
  destruct (div_val (psum stakes) (sub (a := FloatA) one f) P1 D1) as [T1 T2]; [fold d; lra | fold ps; fold d; fold z; apply Rabs_le; lra|]. change (PrimFloat.div (psum stakes) (sub (a := FloatA) one f)) with (div (a := FloatA) (psum stakes) (sub one f)) in *. fold ps in T2. fold d in T2. fold z in T2. set (tot := div (a := FloatA) (psum stakes) (sub one f)) in *. set (t := fval tot) in *.
  assert (E2 : Rabs (t - z) <= 5 * u * z). { rewrite T2. eapply Rle_trans; [apply rnd_err|]. rewrite (Rabs_pos_eq z) by lra. assert (u * (X / 4) <= u * z) by (apply Rmult_le_compat_l; lra). lra. }
  assert (E2' : 5 * u * z <= / 1024 * z) by (apply Rmult_le_compat_r; lra). apply Rabs_le_inv in E2. assert (Pt : 0 < t) by lra. split; [exact T1|]. split; [exact Pt|].
  (* a * t against X *)
  set (q := X / t). assert (Q0 : q * t = X) by (unfold q; field; lra).
  assert (K1 : Rabs (d * t - a * t) <= 2 * u * t). { replace (d * t - a * t) with ((d - a) * t) by ring. rewrite Rabs_mult, (Rabs_pos_eq t) by lra. apply Rmult_le_compat_r; [lra|]. assert (2 * u * a <= 2 * u * 1) by (apply Rmult_le_compat_l; lra). apply Rabs_le. lra. }
  assert (K2 : Rabs (d * t - ps) <= 5 * u * ps). { rewrite <- Z0 at 1. replace (d * t - z * d) with ((t - z) * d) by ring. rewrite Rabs_mult, (Rabs_pos_eq d) by lra. replace (5 * u * ps) with (5 * u * z * d) by (rewrite <- Z0; ring). apply Rmult_le_compat_r; [lra|]. apply Rabs_le. lra. }
  assert (D3 : d <= 1001 / 1000) by lra. assert (Zd : z * d <= z * (1001 / 1000)) by (apply Rmult_le_compat_l; lra). assert (Xt : X <= 101 / 100 * t) by lra.
  assert (K3 : 5 * u * ps <= 6 * u * t). { assert (ps <= 102 / 100 * t) by lra. assert (5 * u * ps <= 5 * u * (102 / 100 * t)) by (apply Rmult_le_compat_l; lra). assert (0 <= u * t) by (apply Rmult_le_pos; lra). lra. }
  assert (K4 : 3 * n * u * X <= 3 * n * u * (101 / 100 * t)) by (apply Rmult_le_compat_l; lra). assert (K5 : u * t <= n * u * t) by (apply Rmult_le_compat_r; lra). apply Rabs_le_inv in K1. apply Rabs_le_inv in K2.
  assert (Pn : 0 <= n * u * t) by (apply Rmult_le_pos; lra). assert (K6 : - (12 * n * u * t) <= (q - a) * t <= 12 * n * u * t) by (rewrite Rmult_minus_distr_r, Q0; lra).
  change (Rabs (q - a) <= 12 * n * u). apply Rabs_le. split; apply (Rmult_le_reg_r t); lra.
Qed.

(** Let f be the inactive fraction, at most 1 - 2^-20, and let there be n <= 2^40 input stakes, finite, not negative and of a total between 2^-900 and 2^900. Either the agents start with the input stakes, which then add up to 1 - f
    within n * 2^-48, or each but the last starts with its part of 1 - f, the last with its part of 1 - f and the whole of f, each within n * 2^-48, and all together with 1 within n * 2^-48. *)
Theorem C95_stakes_with_inactive_stake : forall (g : args FloatA) profiles (stakes costs : list (T FloatA)) (s0 : sim FloatA), init g profiles stakes costs = Ok s0 -> ffin (g_inactive g) -> 0 <= fval (g_inactive g) <= 1 - bpow radix2 (-20) ->
  length stakes = Z.to_nat (s_n s0) -> proper stakes -> INR (length stakes) <= bpow radix2 40 -> bpow radix2 (-900) <= sumR stakes <= bpow radix2 900 ->
  let f := fval (g_inactive g) in let e := INR (length stakes) * bpow radix2 (-48) in
  (agent_stakes (w_agents (s_w s0)) = stakes /\ Rabs (sumR stakes - (1 - f)) <= e) \/ scaled stakes (agent_stakes (w_agents (s_w s0))) (1 - f) e.
Proof.
  intros g profiles stakes costs s0 H Ff Bf Hn Hp HN HX f e. apply init_inv in H as (r0 & s1 & ags & tot & ags' & tot' & _ & _ & _ & Ha & Ht & Hq & Hm & Ea & _ & En & _). rewrite Ea. rewrite En in Hn. clear Ea En.
  destruct (make_agents_stakes _ _ _ _ _ Ha) as [S1 _]. rewrite <- Hn, firstn_all in S1. destruct u_pos as (U1 & U2 & U3 & U4).
  assert (E32 : e = 32 * (INR (length stakes) * u)). { unfold e, u. replace (-48)%Z with (5 + -53)%Z by reflexivity. rewrite bpow_plus. change (bpow radix2 5) with 32. ring. } rewrite E32. clear e E32. set (n := INR (length stakes)) in *.
  assert (PX : 0 < sumR stakes) by (apply Rlt_le_trans with (bpow radix2 (-900)); [apply bpow_gt_0 | tauto]).
  assert (L1 : (1 <= length stakes)%nat). { destruct stakes as [|x l]; [exfalso; unfold sumR in PX; cbn in PX; lra | cbn; lia]. }
  assert (N1 : 1 <= n) by (unfold n; change 1 with (INR 1); now apply le_INR). assert (Nu : n * u <= / 8192). { apply Rle_trans with (bpow radix2 40 * u); [apply Rmult_le_compat_r; lra|]. unfold u. rewrite <- bpow_plus. change (bpow radix2 (40 + -53)) with (/ 8192). lra. }
  destruct (total_err stakes (g_inactive g) tot Hp L1 HN HX Ff Bf Ht) as (T1 & Pt & T2). fold n in T2. fold f in T2. fold f in Bf. assert (B20 : 0 < bpow radix2 (-20)) by apply bpow_gt_0.
  assert (Pnu : 0 <= n * u) by (apply Rmult_le_pos; lra).
  destruct (eqb tot one) eqn:Eq.
  - left. destruct Hm as [-> _]. split; [exact S1|].
    assert (V : fval tot = 1). { change (F_eqb tot PrimFloat.one = true) in Eq. destruct val_1 as [V1 F1]. unfold F_eqb in Eq. apply andb_prop in Eq as [Z1 Z2]. apply negb_true_iff in Z1, Z2. apply (flt_val_false _ _ T1 F1) in Z1. apply (flt_val_false _ _ F1 T1) in Z2. lra. }
    rewrite V in T2. unfold Rdiv in T2. rewrite Rinv_1, Rmult_1_r in T2. eapply Rle_trans; [exact T2 | lra].
  - right. set (q := sumR stakes / fval tot) in *. apply Rabs_le_inv in T2. assert (Q : q <= 5 / 4) by lra.
    assert (Sc : scaled stakes (agent_stakes ags') q (16 * n * u)). { unfold q, n in *. rewrite <- S1 in *. now apply (normalize_scaled tot ags ags' tot' Hm). }
    destruct Sc as (R1 & R2 & R3 & R4). split; [exact R1|]. split; [exact R2|]. split; [eapply Rle_trans; [exact R3 | lra]|]. intros i x x' J J'. specialize (R4 i x x' J J').
    assert (Jx := nth_error_In _ _ J). destruct (Hp x Jx) as [Fx Px]. assert (Bx := sumR_In _ _ Hp Jx). assert (F01 : 0 <= fval x / sumR stakes <= 1) by (apply div_01; lra). set (y := fval x / sumR stakes) in *.
    assert (Tq : - (12 * (n * u)) <= q - (1 - f) <= 12 * (n * u)) by lra.
    assert (Y1 : Rabs ((q - (1 - f)) * y) <= 12 * (n * u)). { rewrite Rabs_mult, (Rabs_pos_eq y) by lra. assert (Rabs (q - (1 - f)) <= 12 * (n * u)) by (apply Rabs_le; lra). assert (Pa := Rabs_pos (q - (1 - f))). nra. }
    assert (Y2 : Rabs ((q - (1 - f)) * (1 - y)) <= 12 * (n * u)). { rewrite Rabs_mult, (Rabs_pos_eq (1 - y)) by lra. assert (Rabs (q - (1 - f)) <= 12 * (n * u)) by (apply Rabs_le; lra). assert (Pa := Rabs_pos (q - (1 - f))). nra. }
    apply Rabs_le_inv in Y1. apply Rabs_le_inv in Y2. destruct (S i =? length stakes)%nat.
    + apply Rabs_le_inv in R4. apply Rabs_le. lra.
    + destruct R4 as [R4 R5]. split; [|exact R5]. apply Rabs_le_inv in R4. apply Rabs_le. lra.
Qed.

(** If at least n * 2^-48 of the stake is inactive, the agents start with stakes as [C94_drift_in_a_run] and [C96_sturdy_pools_have_rewards] ask for, whatever the last input stake is. *)
Theorem C95_proper_stakes_with_inactive_stake : forall (g : args FloatA) profiles (stakes costs : list (T FloatA)) (s0 : sim FloatA), init g profiles stakes costs = Ok s0 ->
  ffin (g_inactive g) -> INR (length stakes) * bpow radix2 (-48) <= fval (g_inactive g) <= 1 - bpow radix2 (-20) ->
  length stakes = Z.to_nat (s_n s0) -> proper stakes -> INR (length stakes) <= bpow radix2 40 -> bpow radix2 (-900) <= sumR stakes <= bpow radix2 900 -> proper_stakes s0.
Proof.
  intros g profiles stakes costs s0 H Ff Bf Hn Hp HN HX. assert (Pe : 0 <= INR (length stakes) * bpow radix2 (-48)) by (apply Rmult_le_pos; [apply pos_INR | apply bpow_ge_0]).
  assert (PX : 0 < sumR stakes) by (apply Rlt_le_trans with (bpow radix2 (-900)); [apply bpow_gt_0 | tauto]).
  assert (Be : INR (length stakes) * bpow radix2 (-48) <= / 8). { apply Rle_trans with (bpow radix2 40 * bpow radix2 (-48)); [apply Rmult_le_compat_r; [apply bpow_ge_0 | exact HN]|]. rewrite <- bpow_plus. change (/ 8) with (bpow radix2 (-3)). apply bpow_le. lia. }
  assert (B20 : 0 < bpow radix2 (-20)) by apply bpow_gt_0. assert (Or := C95_stakes_with_inactive_stake _ _ _ _ _ H Ff ltac:(lra) Hn Hp HN HX). cbv zeta in Or. set (e := INR (length stakes) * bpow radix2 (-48)) in *. set (f := fval (g_inactive g)) in *.
  assert (In1 : forall a x, In (a, x) (own_stakes s0) -> In x (agent_stakes (w_agents (s_w s0)))) by (intros a x J; apply (in_map snd) in J; unfold own_stakes in J; rewrite map_map in J; exact J).
  destruct Or as [[E S]|(L & F & S & E)].
  - rewrite E in In1. split; [intros a x J; apply Hp, (In1 a x J)|]. rewrite own_sum, E. apply Rabs_le_inv in S. lra.
  - split; [|rewrite own_sum; apply Rabs_le_inv in S; lra]. intros a x J. apply In1 in J. split; [now apply F|].
    apply In_nth_error in J as (i & J'). assert (Li : (i < length stakes)%nat) by (rewrite <- L; apply nth_error_Some; congruence). destruct (nth_error stakes i) as [y|] eqn:Ey; [|apply nth_error_None in Ey; lia].
    specialize (E i y x Ey J'). destruct (Datatypes.S i =? length stakes)%nat; [|exact (proj2 E)]. apply Rabs_le_inv in E.
    assert (Jy := nth_error_In _ _ Ey). destruct (Hp y Jy) as [Fy Py]. assert (By := sumR_In _ _ Hp Jy). assert (F01 : 0 <= fval y / sumR stakes <= 1) by (apply div_01; lra). assert (0 <= (1 - f) * (fval y / sumR stakes)) by (apply Rmult_le_pos; lra). lra.
Qed.

(** A quarter of the stake is inactive, five agents: after two rounds pool 1 is active; the last agent starts with more than a third although its input stake is less than a sixth of the sum. *)
Definition idle_args : args FloatA :=
  mkArgs (A := FloatA) (Single 5%Z) (Single 3%float) (Single 0.3%float) (Single 0%float) (Single 1e-6%float) (Single 100%Z) (Single 2%float) (Single Sequential) (Single true) 0%Z 0.25%float false 2%Z.
Definition idle_check (s : sim FloatA) : bool := match pool_at (s_w s) 1 with Some _ => true | None => false end.
Lemma idle_run : match (let! s0 := init idle_args drift_profiles drift_stakes drift_costs in steps 2 s0) with Ok s => idle_check s | Err _ => false end = true.
Proof. vm_compute. reflexivity. Qed.
Definition idle_init_check (s : sim FloatA) : bool := Z.eqb (s_n s) 5 && match get (w_agents (s_w s)) 4 with Some ag => PrimFloat.ltb 0.34%float (a_stake ag) | None => false end.
Lemma idle_init : match init idle_args drift_profiles drift_stakes drift_costs with Ok s => idle_init_check s | Err _ => false end = true.
Proof. vm_compute. reflexivity. Qed.
Example C95_inactive_instance : exists s0 s id p ag, init idle_args drift_profiles drift_stakes drift_costs = Ok s0 /\ ffin (g_inactive idle_args) /\ INR (length drift_stakes) * bpow radix2 (-48) <= fval (g_inactive idle_args) <= 1 - bpow radix2 (-20) /\
  length drift_stakes = Z.to_nat (s_n s0) /\ proper drift_stakes /\ INR (length drift_stakes) <= bpow radix2 40 /\ bpow radix2 (-900) <= sumR drift_stakes <= bpow radix2 900 /\
  proper_stakes s0 /\ visible so_id s0 (s_w s) /\ active (s_w s) id p /\ get (w_agents (s_w s0)) 4 = Some ag /\ PrimFloat.ltb 0.34%float (a_stake ag) = true.
Proof.
  destruct (steps_check (init idle_args drift_profiles drift_stakes drift_costs) 2 idle_check idle_run) as (s0 & s & H1 & H2 & H3). apply steps_reach in H2. unfold idle_check in H3. destruct (pool_at (s_w s) 1) as [p|] eqn:Ep; [|discriminate H3].
  assert (N := idle_init). rewrite H1 in N. unfold idle_init_check in N. apply andb_prop in N as [N G]. apply Z.eqb_eq in N. destruct (get (w_agents (s_w s0)) 4) as [ag|] eqn:Eg; [|discriminate G].
  destruct drift_sum as (D1 & D2 & D3 & D4).
  assert (B1 : bpow radix2 (-900) <= / 4) by (change (/ 4) with (bpow radix2 (-2)); apply bpow_le; lia). assert (B2 : 8 <= bpow radix2 40) by (change 8 with (bpow radix2 3); apply bpow_le; lia). assert (B3 : bpow radix2 40 <= bpow radix2 900) by (apply bpow_le; lia).
  assert (K1 : length drift_stakes = Z.to_nat (s_n s0)) by (now rewrite N). assert (K2 : INR (length drift_stakes) <= bpow radix2 40) by (rewrite D3; lra). assert (K3 : bpow radix2 (-900) <= sumR drift_stakes <= bpow radix2 900) by lra.
  assert (K4 : ffin (g_inactive idle_args)) by exact (proj1 (unit_unit 0.25%float eq_refl)). assert (V : fval (g_inactive idle_args) = / 4) by (change (fval 0.25%float = / 4); rewrite val_quarter; lra).
  assert (K5 : INR (length drift_stakes) * bpow radix2 (-48) <= fval (g_inactive idle_args) <= 1 - bpow radix2 (-20)).
  { rewrite V, D3. assert (bpow radix2 (-48) <= / 1024) by (change (/ 1024) with (bpow radix2 (-10)); apply bpow_le; lia). assert (bpow radix2 (-20) <= / 1024) by (change (/ 1024) with (bpow radix2 (-10)); apply bpow_le; lia). lra. }
  exists s0, s, 1%nat, p, ag. split; [exact H1|]. split; [exact K4|]. split; [exact K5|]. split; [exact K1|]. split; [exact D1|]. split; [exact K2|]. split; [exact K3|].
  split; [exact (C95_proper_stakes_with_inactive_stake _ _ _ _ _ H1 K4 K5 K1 D1 K2 K3)|]. split; [now constructor|]. split; [now apply pool_at_active|]. split; [exact Eg | exact G].
Qed.
