(** C95: the stakes the agents start with, in the arithmetic of the machine. *)
From Coq Require Import ZArith Reals Lra Lia Psatz List Bool Permutation.
From Coq Require Import PrimFloat.
From Coq Require FloatOps SpecFloat.
Set Warnings "-inexact-float".
From Verif Require Import Num NumFloat FloatOrd Py Rewards Binary64 RealArith FloatReward FloatError PropFloat SortedKeyList World Stakeholder Sched Sim Init Reach ListFacts Inv SimInv Spec PropInit Demo FloatRange AnyValues PropDrift PropDriftRun.
From Flocq Require Core BinarySingleNaN PrimFloat.
Import Flocq.Core.Core.
Import ListNotations.
Local Open Scope R_scope.

(** the exact sum of a list of machine numbers *)
Definition sumR (l : list (T FloatA)) : R := fold_right Rplus 0 (map fval l).
Definition proper (l : list (T FloatA)) : Prop := forall x, In x l -> ffin x /\ 0 <= fval x.
Lemma sumR_pos l : proper l -> 0 <= sumR l.
Proof. induction l as [|x l IH]; intros H; [apply Rle_refl|]. change (0 <= fval x + sumR l). assert (X := proj2 (H x (or_introl eq_refl))). assert (Y := IH (fun y J => H y (or_intror J))). lra. Qed.
Lemma sumR_app l m : sumR (l ++ m) = sumR l + sumR m.
Proof. induction l as [|x l IH]; [unfold sumR; cbn; lra|]. change (fval x + sumR (l ++ m) = fval x + sumR l + sumR m). lra. Qed.
Lemma sumR_In l x : proper l -> In x l -> fval x <= sumR l.
Proof.
  induction l as [|y l IH]; intros H J; [destruct J|]. change (fval x <= fval y + sumR l). assert (X := proj2 (H y (or_introl eq_refl))). assert (Z := sumR_pos l (fun z K => H z (or_intror K))).
  destruct J as [->|J]; [lra|]. specialize (IH (fun z K => H z (or_intror K)) J). lra.
Qed.

Lemma eta_small M : bpow radix2 (-900) <= M -> eta <= u * M.
Proof.
  intros H. apply Rle_trans with (u * bpow radix2 (-900)); [|apply Rmult_le_compat_l; [apply bpow_ge_0 | exact H]]. unfold u, eta. rewrite <- bpow_plus. apply bpow_le. lia.
Qed.
(** adding up a list *)
Lemma fold_err : forall l acc sm M k, proper l -> ffin acc -> bpow radix2 (-900) <= M <= bpow radix2 901 -> 0 <= sm -> sm + sumR l <= M -> 0 <= k -> Rabs (fval acc - sm) <= 3 * k * u * M -> 3 * (k + INR (length l)) * u <= / 16 ->
  ffin (fold_left (add (a := FloatA)) l acc) /\ Rabs (fval (fold_left (add (a := FloatA)) l acc) - (sm + sumR l)) <= 3 * (k + INR (length l)) * u * M.
Proof.
  destruct u_pos as (U1 & U2 & U3 & U4).
  induction l as [|x l IH]; intros acc sm M k Hl Fa HM Hs Hsum Hk Ha Hn.
  - cbn [fold_left length INR]. split; [exact Fa|]. change (sumR []) with 0. rewrite !Rplus_0_r. exact Ha.
  - change (length (x :: l)) with (S (length l)) in *. rewrite S_INR in *. change (sumR (x :: l)) with (fval x + sumR l) in *. cbn [fold_left].
    destruct (Hl x (or_introl eq_refl)) as [Fx Px]. assert (Hl' : proper l) by (intros y J; exact (Hl y (or_intror J))). assert (Pl := sumR_pos l Hl'). assert (Nn := pos_INR (length l)). assert (Em := eta_small M (proj1 HM)). assert (Pm : 0 < M) by (apply Rlt_le_trans with (bpow radix2 (-900)); [apply bpow_gt_0 | tauto]).
    assert (Bk : 3 * k * u * M <= / 16 * M) by (apply Rmult_le_compat_r; [lra|]; nra). apply Rabs_le_inv in Ha.
    assert (Bx : Rabs (fval acc + fval x) <= 2 * M) by (apply Rabs_le; lra).
    assert (Bg : 2 * M <= big). { unfold big. apply Rle_trans with (bpow radix2 902); [|apply bpow_le; lia]. change 902%Z with (1 + 901)%Z. rewrite bpow_plus. change (bpow radix2 1) with 2. lra. }
    destruct (add_val acc x Fa Fx) as [R1 R2]; [lra|]. change (PrimFloat.add acc x) with (add (a := FloatA) acc x) in *.
    assert (E : Rabs (fval (add (a := FloatA) acc x) - (fval acc + fval x)) <= 3 * u * M). { rewrite R2. eapply Rle_trans; [apply rnd_err|]. assert (u * Rabs (fval acc + fval x) <= u * (2 * M)) by (apply Rmult_le_compat_l; lra). lra. }
    apply Rabs_le_inv in E. destruct (IH (add (a := FloatA) acc x) (sm + fval x) M (k + 1)) as [I1 I2]; try assumption; try lra; [apply Rabs_le; lra|].
    split; [exact I1|]. replace (sm + (fval x + sumR l)) with (sm + fval x + sumR l) by ring. replace (k + (INR (length l) + 1)) with (k + 1 + INR (length l)) by ring. exact I2.
Qed.
Lemma psum_err l M : proper l -> bpow radix2 (-900) <= M <= bpow radix2 901 -> sumR l <= M -> 3 * INR (length l) * u <= / 16 ->
  ffin (psum l) /\ Rabs (fval (psum l) - sumR l) <= 3 * INR (length l) * u * M.
Proof.
  intros Hl HM Hs Hn. destruct val_0 as [V0 F0]. destruct (fold_err l PrimFloat.zero 0 M 0) as [R1 R2]; try assumption; try lra; [rewrite V0, Rminus_0_r, Rabs_R0; lra|].
  rewrite !Rplus_0_l in R2. now split.
Qed.

(** dividing a list by its total *)
Lemma quot_err x tot : ffin x -> 0 <= fval x -> ffin tot -> 0 < fval tot -> fval x / fval tot <= 2 ->
  ffin (div (a := FloatA) x tot) /\ 0 <= fval (div (a := FloatA) x tot) /\ Rabs (fval (div (a := FloatA) x tot) - fval x / fval tot) <= u * (fval x / fval tot) + eta.
Proof.
  intros Fx Px Ft Pt B. assert (P : 0 <= fval x / fval tot) by (apply Rmult_le_pos; [exact Px | apply Rlt_le, Rinv_0_lt_compat, Pt]).
  destruct (div_val x tot Fx Ft) as [R1 R2]; [lra | apply big_2; apply Rabs_le; lra|]. change (PrimFloat.div x tot) with (div (a := FloatA) x tot) in *. split; [exact R1|]. rewrite R2. split; [now apply rnd_pos|].
  assert (E := rnd_err (fval x / fval tot)). rewrite (Rabs_pos_eq (fval x / fval tot)) in E by exact P. exact E.
Qed.
Lemma quots_err tot : ffin tot -> 0 < fval tot -> forall l, proper l -> sumR l / fval tot <= 2 ->
  proper (map (fun x => div (a := FloatA) x tot) l) /\ Rabs (sumR (map (fun x => div (a := FloatA) x tot) l) - sumR l / fval tot) <= u * (sumR l / fval tot) + INR (length l) * eta.
Proof.
  intros Ft Pt. assert (Pi := Rinv_0_lt_compat _ Pt). induction l as [|x l IH]; intros Hl HB.
  - split; [intros y []|]. unfold sumR. cbn [map fold_right length INR]. rewrite Rabs_right; unfold Rdiv; rewrite ?Rmult_0_l; lra.
  - destruct (Hl x (or_introl eq_refl)) as [Fx Px]. assert (Hl' : proper l) by (intros y J; exact (Hl y (or_intror J))). assert (Pl := sumR_pos l Hl'). change (length (x :: l)) with (S (length l)). rewrite S_INR. change (sumR (x :: l)) with (fval x + sumR l) in *.
    assert (Q : (fval x + sumR l) / fval tot = fval x / fval tot + sumR l / fval tot) by (unfold Rdiv; ring). rewrite Q in *.
    assert (Q1 : 0 <= fval x / fval tot) by (apply Rmult_le_pos; lra). assert (Q2 : 0 <= sumR l / fval tot) by (apply Rmult_le_pos; lra).
    destruct (IH Hl' ltac:(lra)) as [I1 I2]. destruct (quot_err x tot Fx Px Ft Pt ltac:(lra)) as (J1 & J2 & J3). cbn [map]. split; [intros y [<-|J]; [now split | exact (I1 y J)]|].
    change (sumR (div x tot :: map (fun x => div (a := FloatA) x tot) l)) with (fval (div (a := FloatA) x tot) + sumR (map (fun x => div (a := FloatA) x tot) l)). apply Rabs_le_inv in I2. apply Rabs_le_inv in J3. apply Rabs_le. lra.
Qed.

(** [close l l' e]: the numbers [l'] are the parts of [l], each within [e], they add up to 1 within [e], and none but the last one is negative *)
Definition close (l l' : list (T FloatA)) (e : R) : Prop :=
  length l' = length l /\ (forall x, In x l' -> ffin x) /\ Rabs (sumR l' - 1) <= e /\
  forall i x x', nth_error l i = Some x -> nth_error l' i = Some x' -> Rabs (fval x' - fval x / sumR l) <= e /\ (S i <> length l -> 0 <= fval x').

Lemma normalize_close tot d d' t : normalize (A := FloatA) tot d = Ok (d', t) -> let l := agent_stakes d in proper l -> (1 <= length l)%nat -> INR (length l) <= bpow radix2 40 -> bpow radix2 (-900) <= sumR l <= bpow radix2 900 ->
  ffin tot -> Rabs (fval tot - sumR l) <= 3 * INR (length l) * u * sumR l -> close l (agent_stakes d') (32 * INR (length l) * u).
Proof.
  intros H l Hl L1 L2 HX Ft Et. destruct u_pos as (U1 & U2 & U3 & U4). set (n := INR (length l)) in *. set (X := sumR l) in *.
  assert (N1 : 1 <= n) by (unfold n; change 1 with (INR 1); now apply le_INR). assert (Nu : n * u <= / 8192). { apply Rle_trans with (bpow radix2 40 * u); [apply Rmult_le_compat_r; lra|]. unfold u. rewrite <- bpow_plus. change (bpow radix2 (40 + -53)) with (/ 8192). lra. }
  assert (PX : 0 < X) by (apply Rlt_le_trans with (bpow radix2 (-900)); [apply bpow_gt_0 | tauto]). assert (Lu : u <= n * u) by nra. assert (Le : n * eta <= n * u / 64) by nra. assert (Le1 : eta <= n * u / 64) by lra.
  assert (Et2 : 3 * n * u * X <= 3 / 8192 * X) by (apply Rmult_le_compat_r; lra). apply Rabs_le_inv in Et.
  assert (Pt : 0 < fval tot) by lra. assert (Pi := Rinv_0_lt_compat _ Pt). set (q := X / fval tot).
  assert (Q0 : q * fval tot = X) by (unfold q; field; lra). assert (Pq : 0 < q) by (apply Rmult_lt_0_compat; lra).
  assert (Q1 : Rabs (q - 1) <= 4 * (n * u)).
  { assert (B : Rabs (q - 1) <= 3 * (n * u) * q). { assert (E : q - 1 = (X - fval tot) * / fval tot) by (unfold q; field; lra). rewrite E, Rabs_mult, (Rabs_pos_eq (/ fval tot)) by lra. replace (3 * (n * u) * q) with (3 * n * u * X * / fval tot) by (unfold q, Rdiv; ring). apply Rmult_le_compat_r; [lra|]. apply Rabs_le. lra. }
    assert (B2 : 3 * (n * u) * q <= 3 / 8192 * q) by (apply Rmult_le_compat_r; lra). apply Rabs_le_inv in B as B'. assert (q <= 5 / 4) by lra. assert (3 * (n * u) * q <= 3 * (n * u) * (5 / 4)) by (apply Rmult_le_compat_l; lra). lra. }
  apply Rabs_le_inv in Q1. assert (Q2 : q <= 5 / 4) by lra.
  destruct (quots_err tot Ft Pt l Hl) as [Y1 Y2]; [fold X; fold q; lra|]. fold X in Y2. fold q in Y2. fold n in Y2. set (ys := map (fun x => div (a := FloatA) x tot) l) in *.
  assert (Uq : u * q <= u * (5 / 4)) by (apply Rmult_le_compat_l; lra). apply Rabs_le_inv in Y2. set (Y := sumR ys) in *.
  unfold normalize in H. apply bind_ok in H as (d1 & H1 & H).
  assert (S1 : agent_stakes d1 = ys /\ length d1 = length d).
  { unfold ys, l. clear - H1. revert d1 H1. induction d as [|[i ag] d IH]; intros d1 H1; cbn [mapM] in H1; [injection H1 as <-; split; reflexivity|].
    apply bind_ok in H1 as (e & He & H1). apply bind_ok in H1 as (d2 & H2 & H1). injection H1 as <-. apply bind_ok in He as (s & Hs & He). injection He as <-. unfold pdiv in Hs. destruct (eqb tot zero); [discriminate Hs|]. injection Hs as <-.
    destruct (IH _ H2) as [E1 E2]. split; [|cbn; now rewrite E2]. unfold agent_stakes in *. cbn [map snd fst]. f_equal. exact E1. }
  destruct S1 as [S1 S2]. change (map (fun e => a_stake (snd e)) d1) with (agent_stakes d1) in H. rewrite S1 in H.
  assert (Ly : length ys = length l) by (unfold ys; now rewrite map_length).
  destruct (psum_err ys 2) as [P1 P2]; [exact Y1 | split; [apply Rle_trans with (bpow radix2 1); [apply bpow_le; lia | cbn; lra] | apply (bpow_le radix2 1 901); lia] | fold Y; lra | rewrite Ly; fold n; lra|]. rewrite Ly in P2. fold n in P2. fold Y in P2. apply Rabs_le_inv in P2.
  (* each quotient *)
  assert (Each : forall i x x', nth_error l i = Some x -> nth_error ys i = Some x' -> ffin x' /\ 0 <= fval x' /\ Rabs (fval x' - fval x / X) <= 6 * (n * u)).
  { intros i x x' J J'. unfold ys in J'. rewrite (map_nth_error _ _ _ J) in J'. injection J' as <-. change (PrimFloat.div x tot) with (div (a := FloatA) x tot). apply nth_error_In in J. destruct (Hl x J) as [Fx Px]. assert (Bx := sumR_In l x Hl J). fold X in Bx.
    set (f := fval x / X). assert (F01 : 0 <= f <= 1) by (apply div_01; lra). assert (Ef : fval x / fval tot = f * q) by (unfold f, q; field; lra). assert (Fq : f * q <= 1 * (5 / 4)) by (apply Rmult_le_compat; lra).
    destruct (quot_err x tot Fx Px Ft Pt) as (A1 & A2 & A3); [rewrite Ef; lra|]. split; [exact A1|]. split; [exact A2|]. rewrite Ef in A3. assert (u * (f * q) <= u * (5 / 4)) by (apply Rmult_le_compat_l; lra). apply Rabs_le_inv in A3.
    assert (Fd : Rabs (f * q - f) <= 4 * (n * u)). { replace (f * q - f) with (f * (q - 1)) by ring. rewrite Rabs_mult, (Rabs_pos_eq f) by lra. assert (Rabs (q - 1) <= 4 * (n * u)) by (apply Rabs_le; lra). assert (Pa := Rabs_pos (q - 1)). nra. }
    apply Rabs_le_inv in Fd. apply Rabs_le. lra. }
  destruct (eqb (psum ys) one) eqn:Eq.
  - injection H as <- <-. rewrite S1. split; [exact Ly|]. split; [intros x J; exact (proj1 (Y1 x J))|].
    assert (V : fval (psum ys) = 1). { change (F_eqb (psum ys) PrimFloat.one = true) in Eq. destruct val_1 as [V1 F1]. unfold F_eqb in Eq. apply andb_prop in Eq as [Z1 Z2]. apply negb_true_iff in Z1, Z2. apply (flt_val_false _ _ P1 F1) in Z1. apply (flt_val_false _ _ F1 P1) in Z2. lra. }
    split; [apply Rabs_le; fold Y; lra|]. intros i x x' J J'. destruct (Each i x x' J J') as (A1 & A2 & A3). split; [eapply Rle_trans; [exact A3 | lra] | now intros _].
  - destruct d1 as [|e1 d1']; [discriminate H|]. remember (e1 :: d1') as d1 eqn:Ed1. assert (Ne : d1 <> []) by (subst; discriminate). clear Ed1. injection H as <- <-.
    destruct (exists_last Ne) as (dl & [i0 ag0] & Ed). set (err := sub (a := FloatA) one (psum ys)).
    assert (Ea : add_to_last (A := FloatA) d1 err = dl ++ [(i0, agent_set_stake (A := FloatA) (add (a_stake ag0) err) ag0)]).
    { unfold add_to_last. rewrite Ed, rev_app_distr. cbn [rev app]. rewrite rev_involutive. reflexivity. }
    match goal with |- context [add_to_last d1 ?e] => change e with err end. rewrite Ea. set (ls := agent_stakes dl). set (yl := a_stake ag0). assert (Eys : ys = ls ++ [yl]) by (rewrite <- S1, Ed; unfold agent_stakes; rewrite map_app; reflexivity).
    assert (El' : agent_stakes (dl ++ [(i0, agent_set_stake (A := FloatA) (add yl err) ag0)]) = ls ++ [add yl err]) by (unfold agent_stakes; rewrite map_app; reflexivity). fold yl. rewrite El'.
    assert (Fyl : ffin yl /\ 0 <= fval yl) by (apply Y1; rewrite Eys; apply in_or_app; right; now left). destruct Fyl as [Fyl Pyl].
    assert (Yl : Y = sumR ls + fval yl). { unfold Y. rewrite Eys, sumR_app. unfold sumR at 2. cbn. lra. } assert (Pls : 0 <= sumR ls) by (apply sumR_pos; intros x J; apply Y1; rewrite Eys; apply in_or_app; now left).
    destruct val_1 as [V1 F1]. destruct (sub_val PrimFloat.one (psum ys) F1 P1) as [E1 E2]; [rewrite V1; apply big_2; apply Rabs_le; lra|]. change (PrimFloat.sub PrimFloat.one (psum ys)) with err in *. rewrite V1 in E2.
    assert (X1 : Rabs (fval err - (1 - fval (psum ys))) <= u * (5 / 2) + eta) by (rewrite E2; apply one_op; apply Rabs_le; lra). apply Rabs_le_inv in X1.
    destruct (add_val yl err Fyl E1) as [G1 G2]; [apply big_2; apply Rabs_le; lra|]. change (PrimFloat.add yl err) with (add (a := FloatA) yl err) in *.
    assert (X2 : Rabs (fval (add (a := FloatA) yl err) - (fval yl + fval err)) <= u * (5 / 2) + eta) by (rewrite G2; apply one_op; apply Rabs_le; lra). apply Rabs_le_inv in X2.
    assert (Lls : length l = S (length ls)) by (rewrite <- Ly, Eys, app_length; cbn; lia).
    split; [rewrite Lls, app_length; cbn; lia|]. split; [|split].
    + intros x J. apply in_app_or in J as [J|[<-|[]]]; [apply Y1; rewrite Eys; apply in_or_app; now left | exact G1].
    + rewrite sumR_app. change (sumR [add yl err]) with (fval (add (a := FloatA) yl err) + 0). apply Rabs_le. lra.
    + intros i x x' J J'. destruct (Nat.eq_dec i (length ls)) as [->|Ni].
      * rewrite nth_error_app2, Nat.sub_diag in J' by lia. injection J' as <-. change (PrimFloat.add yl err) with (add (a := FloatA) yl err). assert (Jy : nth_error ys (length ls) = Some yl) by (rewrite Eys, nth_error_app2, Nat.sub_diag by lia; reflexivity). destruct (Each _ _ _ J Jy) as (A1 & A2 & A3). apply Rabs_le_inv in A3. fold X. split; [apply Rabs_le; lra|]. intros C. exfalso. apply C. lia.
      * assert (Lt : (i < length ls)%nat). { assert (i < length l)%nat by (apply nth_error_Some; congruence). lia. } rewrite nth_error_app1 in J' by exact Lt. assert (Jy : nth_error ys i = Some x') by (rewrite Eys, nth_error_app1 by exact Lt; exact J').
        destruct (Each _ _ _ J Jy) as (A1 & A2 & A3). split; [eapply Rle_trans; [exact A3 | lra] | now intros _].
Qed.

Lemma psum_div_one (l : list (T FloatA)) tot : ffin (psum l) -> Rabs (fval (psum l)) <= Binary64.big -> pdiv (psum l) (sub one zero) = Ok tot -> ffin tot /\ fval tot = fval (psum l).
Proof.
  intros F B H. assert (E : sub (a := FloatA) one zero = PrimFloat.one) by reflexivity. rewrite E in H. unfold pdiv in H. destruct (eqb (a := FloatA) PrimFloat.one zero); [discriminate H|]. injection H as <-. destruct val_1 as [V1 F1].
  destruct (div_val (psum l) PrimFloat.one F F1) as [R1 R2]; [rewrite V1; lra | rewrite V1; unfold Rdiv; rewrite Rinv_1, Rmult_1_r; exact B|]. split; [exact R1|]. change (div (a := FloatA) (psum l) PrimFloat.one) with (PrimFloat.div (psum l) PrimFloat.one). rewrite R2, V1. unfold Rdiv. rewrite Rinv_1, Rmult_1_r. apply rnd_fval.
Qed.

(** If no stake is inactive and there are n <= 2^40 input stakes, finite, not negative and of a total between 2^-900 and 2^900, then each agent starts with its part of the total within n * 2^-48,
    these parts add up to 1 within n * 2^-48, and none but the last agent's is negative. *)
Theorem C95_stakes_add_up_to_one : forall (g : args FloatA) profiles (stakes costs : list (T FloatA)) (s0 : sim FloatA), init g profiles stakes costs = Ok s0 -> g_inactive g = zero -> length stakes = Z.to_nat (s_n s0) ->
  proper stakes -> INR (length stakes) <= bpow radix2 40 -> bpow radix2 (-900) <= sumR stakes <= bpow radix2 900 ->
  close stakes (agent_stakes (w_agents (s_w s0))) (INR (length stakes) * bpow radix2 (-48)).
Proof.
  intros g profiles stakes costs s0 H Hi Hn Hp HN HX. apply init_inv in H as (r0 & s1 & ags & tot & ags' & tot' & _ & _ & _ & Ha & Ht & Hq & Hm & Ea & _ & En & _). rewrite Ea. rewrite En in Hn. clear Ea En. rewrite Hi in Ht.
  destruct (make_agents_stakes _ _ _ _ _ Ha) as [S1 _]. rewrite <- Hn, firstn_all in S1. destruct u_pos as (U1 & U2 & U3 & U4).
  assert (E32 : bpow radix2 (-48) = 32 * u) by (unfold u; replace (-48)%Z with (5 + -53)%Z by reflexivity; rewrite bpow_plus; reflexivity). rewrite E32. set (n := INR (length stakes)) in *.
  assert (PX : 0 < sumR stakes) by (apply Rlt_le_trans with (bpow radix2 (-900)); [apply bpow_gt_0 | tauto]).
  assert (L1 : (1 <= length stakes)%nat). { destruct stakes as [|x l]; [exfalso; unfold sumR in PX; cbn in PX; lra | cbn; lia]. }
  assert (N1 : 1 <= n) by (unfold n; change 1 with (INR 1); now apply le_INR). assert (Nu : n * u <= / 8192). { apply Rle_trans with (bpow radix2 40 * u); [apply Rmult_le_compat_r; lra|]. unfold u. rewrite <- bpow_plus. change (bpow radix2 (40 + -53)) with (/ 8192). lra. }
  destruct (psum_err stakes (sumR stakes)) as [P1 P2]; [exact Hp | split; [tauto|]; apply Rle_trans with (bpow radix2 900); [tauto | apply bpow_le; lia] | apply Rle_refl | fold n; lra|]. fold n in P2.
  assert (P3 : 3 * n * u * sumR stakes <= 3 / 8192 * sumR stakes) by (apply Rmult_le_compat_r; lra). apply Rabs_le_inv in P2 as P4.
  assert (Bg : 2 * sumR stakes <= Binary64.big). { unfold Binary64.big. apply Rle_trans with (bpow radix2 901); [|apply bpow_le; lia]. change 901%Z with (1 + 900)%Z. rewrite bpow_plus. change (bpow radix2 1) with 2. lra. }
  destruct (psum_div_one stakes tot P1) as [T1 T2]; [apply Rabs_le; lra | exact Ht|]. replace (n * (32 * u)) with (32 * n * u) by ring.
  destruct (eqb tot one) eqn:Eq.
  - destruct Hm as [-> _]. rewrite S1. split; [reflexivity|]. split; [intros x J; exact (proj1 (Hp x J))|].
    assert (V : fval tot = 1). { change (F_eqb tot PrimFloat.one = true) in Eq. destruct val_1 as [V1 F1]. unfold F_eqb in Eq. apply andb_prop in Eq as [Z1 Z2]. apply negb_true_iff in Z1, Z2. apply (flt_val_false _ _ T1 F1) in Z1. apply (flt_val_false _ _ F1 T1) in Z2. lra. }
    assert (Lu : u <= n * u) by nra. assert (X2 : sumR stakes <= 5 / 4) by lra. assert (X3 : 3 * n * u * sumR stakes <= 3 * n * u * (5 / 4)) by (apply Rmult_le_compat_l; lra). assert (X1 : Rabs (sumR stakes - 1) <= 4 * (n * u)) by (apply Rabs_le; lra).
    split; [apply Rabs_le_inv in X1; apply Rabs_le; lra|]. intros i x x' J J'. rewrite J in J'. injection J' as <-. apply nth_error_In in J. destruct (Hp x J) as [Fx Px]. assert (Bx := sumR_In _ _ Hp J). split; [|now intros _].
    assert (F01 : 0 <= fval x / sumR stakes <= 1) by (apply div_01; lra). replace (fval x - fval x / sumR stakes) with (fval x / sumR stakes * (sumR stakes - 1)) by (field; lra). rewrite Rabs_mult, (Rabs_pos_eq (fval x / sumR stakes)) by lra. assert (Pa := Rabs_pos (sumR stakes - 1)). nra.
  - unfold n in *. clear n. subst stakes. apply (normalize_close tot ags ags' tot' Hm Hp L1 HN HX T1). rewrite T2. exact P2.
Qed.

Lemma own_sum s0 : sumD (own_stakes s0) = sumR (agent_stakes (w_agents (s_w s0))).
Proof. unfold sumD, sumR, own_stakes, agent_stakes. now rewrite !map_map. Qed.
(** If the last input stake is not negligible - at least n * 2^-48 of the total - the agents start with stakes as [C94_drift_in_a_run] asks for. *)
Theorem C95_proper_stakes : forall (g : args FloatA) profiles (stakes costs : list (T FloatA)) (s0 : sim FloatA), init g profiles stakes costs = Ok s0 -> g_inactive g = zero -> length stakes = Z.to_nat (s_n s0) ->
  proper stakes -> INR (length stakes) <= bpow radix2 40 -> bpow radix2 (-900) <= sumR stakes <= bpow radix2 900 ->
  (forall x, nth_error stakes (Nat.pred (length stakes)) = Some x -> INR (length stakes) * bpow radix2 (-48) * sumR stakes <= fval x) -> proper_stakes s0.
Proof.
  intros g profiles stakes costs s0 H Hi Hn Hp HN HX Hlast. destruct (C95_stakes_add_up_to_one _ _ _ _ _ H Hi Hn Hp HN HX) as (L & F & S & E). set (e := INR (length stakes) * bpow radix2 (-48)) in *.
  assert (PX : 0 < sumR stakes) by (apply Rlt_le_trans with (bpow radix2 (-900)); [apply bpow_gt_0 | tauto]).
  assert (Be : e <= / 8). { apply Rle_trans with (bpow radix2 40 * bpow radix2 (-48)); [apply Rmult_le_compat_r; [apply bpow_ge_0 | exact HN]|]. rewrite <- bpow_plus. change (/ 8) with (bpow radix2 (-3)). apply bpow_le. lia. }
  split; [|rewrite own_sum; apply Rabs_le_inv in S; lra]. intros a x J.
  assert (J' : In x (agent_stakes (w_agents (s_w s0)))) by (apply (in_map snd) in J; unfold own_stakes in J; rewrite map_map in J; exact J). split; [now apply F|].
  apply In_nth_error in J' as (i & J'). assert (Li : (i < length stakes)%nat) by (rewrite <- L; apply nth_error_Some; congruence). destruct (nth_error stakes i) as [y|] eqn:Ey; [|apply nth_error_None in Ey; lia].
  destruct (E i y x Ey J') as [E1 E2]. destruct (Nat.eq_dec (Datatypes.S i) (length stakes)) as [Ei|Ni]; [|now apply E2].
  rewrite <- Ei in Hlast. cbn [Nat.pred] in Hlast. specialize (Hlast y Ey). apply Rabs_le_inv in E1. enough (e <= fval y / sumR stakes) by lra. apply (Rmult_le_reg_r (sumR stakes)); [exact PX|]. unfold Rdiv. rewrite Rmult_assoc, Rinv_l by lra. lra.
Qed.

(** The last agent can start with a negative stake: the rounding error of all the others is taken from it, whatever it has. *)
Definition dust_stakes : list PrimFloat.float := [4.9; 7.3; 4.8; 2.9; 1e-17]%float.
Definition dust_check (s : sim FloatA) : bool := match get (w_agents (s_w s)) 4 with Some ag => PrimFloat.ltb (a_stake ag) PrimFloat.zero | None => false end.
Lemma dust_init : match init drift_args drift_profiles dust_stakes drift_costs with Ok s => dust_check s | Err _ => false end = true.
Proof. vm_compute. reflexivity. Qed.
Theorem C95_no_stake_is_negative_refuted : exists s0 ag, init drift_args drift_profiles dust_stakes drift_costs = Ok s0 /\ forallb (fun x => PrimFloat.ltb PrimFloat.zero x) dust_stakes = true /\ g_inactive drift_args = zero /\
  get (w_agents (s_w s0)) 4 = Some ag /\ PrimFloat.ltb (a_stake ag) PrimFloat.zero = true.
Proof.
  assert (H := dust_init). destruct (init drift_args drift_profiles dust_stakes drift_costs) as [s0|] eqn:E; [|discriminate H]. unfold dust_check in H. destruct (get (w_agents (s_w s0)) 4) as [ag|] eqn:G; [|discriminate H].
  exists s0, ag. split; [reflexivity|]. split; [reflexivity|]. split; [reflexivity|]. split; [exact G | exact H].
Qed.

(** The run of [C94_books_balance_refuted] meets the hypotheses of [C95_proper_stakes], and so those of [C94_drift_in_a_run]; pool 1 is active in it after two rounds. *)
Lemma quarter_le (x : PrimFloat.float) : ffin x -> PrimFloat.leb 0.25%float x = true -> / 4 <= fval x.
Proof. intros F H. apply (leb_val 0.25%float x) in H; [|apply (unit_unit 0.25%float eq_refl) | exact F]. rewrite val_quarter in H. lra. Qed.
Lemma drift_sum : proper drift_stakes /\ / 4 <= sumR drift_stakes <= 5 /\ INR (length drift_stakes) = 5 /\ forall x, nth_error drift_stakes 4 = Some x -> / 4 <= fval x.
Proof.
  assert (X1 := unit_unit 0.95%float eq_refl). assert (X2 := unit_unit 0.65%float eq_refl). assert (X3 := unit_unit 0.8%float eq_refl). assert (X4 := unit_unit 0.15%float eq_refl). assert (X5 := unit_unit 0.46%float eq_refl).
  assert (Q5 := quarter_le 0.46%float (proj1 X5) eq_refl). destruct X1 as [F1 B1]. destruct X2 as [F2 B2]. destruct X3 as [F3 B3]. destruct X4 as [F4 B4]. destruct X5 as [F5 B5]. unfold drift_stakes.
  split; [|split; [|split]].
  - intros x [<-|[<-|[<-|[<-|[<-|[]]]]]]; split; assumption || lra.
  - unfold sumR. cbn [map fold_right]. lra.
  - cbn [length INR]. lra.
  - cbn [nth_error]. intros x [= <-]. exact Q5.
Qed.
Definition drift_check (s : sim FloatA) : bool := match pool_at (s_w s) 1 with Some _ => true | None => false end.
Lemma drift_run : match (let! s0 := init drift_args drift_profiles drift_stakes drift_costs in steps 2 s0) with Ok s => drift_check s | Err _ => false end = true.
Proof. vm_compute. reflexivity. Qed.
Lemma drift_n s0 : init drift_args drift_profiles drift_stakes drift_costs = Ok s0 -> s_n s0 = 5%Z.
Proof.
  intros H. assert (E : match init drift_args drift_profiles drift_stakes drift_costs with Ok s => Z.eqb (s_n s) 5 | Err _ => false end = true) by (vm_compute; reflexivity). rewrite H in E. now apply Z.eqb_eq.
Qed.
Example C95_instance : exists s0 s id p, init drift_args drift_profiles drift_stakes drift_costs = Ok s0 /\ g_inactive drift_args = zero /\ length drift_stakes = Z.to_nat (s_n s0) /\ proper drift_stakes /\ INR (length drift_stakes) <= bpow radix2 40 /\
  bpow radix2 (-900) <= sumR drift_stakes <= bpow radix2 900 /\ (forall x, nth_error drift_stakes (Nat.pred (length drift_stakes)) = Some x -> INR (length drift_stakes) * bpow radix2 (-48) * sumR drift_stakes <= fval x) /\
  proper_stakes s0 /\ visible so_id s0 (s_w s) /\ active (s_w s) id p.
Proof.
  destruct (steps_check (init drift_args drift_profiles drift_stakes drift_costs) 2 drift_check drift_run) as (s0 & s & H1 & H2 & H3). apply steps_reach in H2. unfold drift_check in H3. destruct (pool_at (s_w s) 1) as [p|] eqn:Ep; [|discriminate H3].
  destruct drift_sum as (D1 & D2 & D3 & D4). assert (N := drift_n s0 H1).
  assert (B1 : bpow radix2 (-900) <= / 4) by (change (/ 4) with (bpow radix2 (-2)); apply bpow_le; lia). assert (B2 : 8 <= bpow radix2 40) by (change 8 with (bpow radix2 3); apply bpow_le; lia). assert (B3 : bpow radix2 40 <= bpow radix2 900) by (apply bpow_le; lia).
  assert (K1 : length drift_stakes = Z.to_nat (s_n s0)) by (now rewrite N). assert (K2 : INR (length drift_stakes) <= bpow radix2 40) by (rewrite D3; lra). assert (K3 : bpow radix2 (-900) <= sumR drift_stakes <= bpow radix2 900) by lra.
  assert (K4 : forall x, nth_error drift_stakes (Nat.pred (length drift_stakes)) = Some x -> INR (length drift_stakes) * bpow radix2 (-48) * sumR drift_stakes <= fval x).
  { intros x J. change (Nat.pred (length drift_stakes)) with 4%nat in J. specialize (D4 x J). rewrite D3. assert (B4 : bpow radix2 (-48) <= / 1024) by (change (/ 1024) with (bpow radix2 (-10)); apply bpow_le; lia). assert (B5 := bpow_ge_0 radix2 (-48)).
    assert (5 * bpow radix2 (-48) * sumR drift_stakes <= 5 * / 1024 * 5) by (apply Rmult_le_compat; lra). lra. }
  exists s0, s, 1%nat, p. split; [exact H1|]. split; [reflexivity|]. split; [exact K1|]. split; [exact D1|]. split; [exact K2|]. split; [exact K3|]. split; [exact K4|].
  split; [exact (C95_proper_stakes _ _ _ _ _ H1 eq_refl K1 D1 K2 K3 K4)|]. split; [now constructor | now apply pool_at_active].
Qed.
