(** C100: dividing stake and cost over pools, in the arithmetic of the machine. *)
From Coq Require Import ZArith Reals Lra Lia Psatz List Bool.
From Coq Require Import PrimFloat.
Set Warnings "-inexact-float".
From Verif Require Import Num NumFloat Py Rewards Binary64 RealArith FloatReward FloatError PropFloat PropTargetFloat.
From Flocq Require Core PrimFloat.
Import Flocq.Core.Core.
Import ListNotations.
Local Open Scope R_scope.

Lemma ofZ_range n : (1 <= n <= 2 ^ 53)%Z -> ffin (F_ofZ n) /\ fval (F_ofZ n) = IZR n /\ 1 <= IZR n <= bpow radix2 53.
Proof.
  intros H. destruct (ofZ_val n ltac:(lia)) as [F V]. split; [exact F|]. split; [exact V|]. split; [apply (IZR_le 1); lia|]. change (bpow radix2 53) with (IZR (2 ^ 53)). apply IZR_le. lia.
Qed.
Lemma ofZ_zero : F_ofZ 0 = PrimFloat.zero.  Proof. vm_compute. reflexivity. Qed.
Lemma small_u : 0 < u <= / 1024 /\ 0 < eta <= / 1024.
Proof.
  split; (split; [apply bpow_gt_0|]); (apply Rle_trans with (bpow radix2 (-10)); [apply bpow_le; lia | cbn; lra]).
Qed.
Lemma div_inv_bound x n B : 0 <= x <= B -> 1 <= n -> 0 <= x / n <= B.
Proof. intros H N. assert (0 < / n) by (apply Rinv_0_lt_compat; lra). assert (/ n <= 1) by (rewrite <- Rinv_1; apply Rinv_le_contravar; lra). unfold Rdiv. nra. Qed.

(** The pledge of each of n pools: at most the threshold, and all pledges together are the stake up to rounding unless the pledge is the threshold. *)
Theorem C100_pledges_use_the_stake : forall (stake thr : PrimFloat.float) (n : Z), (1 <= n <= 2 ^ 53)%Z -> ffin stake -> ffin thr -> 0 <= fval stake <= bpow radix2 400 -> 0 <= fval thr ->
  exists x, pledge_per_pool (A := FloatI) stake thr n = Ok x /\ ffin x /\ 0 <= fval x <= fval thr /\
    IZR n * fval x <= (1 + u) * fval stake + IZR n * eta /\ (fval x = fval thr \/ Rabs (IZR n * fval x - fval stake) <= u * fval stake + IZR n * eta).
Proof.
  intros s t n N Fs Ft [S0 SB] T0. destruct (ofZ_range n N) as (Fn & Vn & N1 & _). destruct val_0 as [V0 F0].
  assert (D := div_inv_bound (fval s) (IZR n) _ (conj S0 SB) N1).
  destruct (div_val s (F_ofZ n) Fs Fn ltac:(lra)) as [Fq Vq]. { rewrite Vn, Rabs_pos_eq by lra. apply Rle_trans with (bpow radix2 400); [lra | apply big_ge; lia]. }
  rewrite Vn in Vq. assert (E := rnd_err (fval s / IZR n)). rewrite <- Vq, (Rabs_pos_eq (_ / _)) in E by lra. assert (Q0 : 0 <= fval (PrimFloat.div s (F_ofZ n))) by (rewrite Vq; apply rnd_pos; lra). set (q := PrimFloat.div s (F_ofZ n)) in *.
  apply abs_le_inv in E. set (y := fval s / IZR n) in *. assert (Y : IZR n * y = fval s) by (unfold y; field; lra).
  assert (B1 : IZR n * fval q <= IZR n * (y + (u * y + eta))) by (apply Rmult_le_compat_l; lra). assert (B2 : IZR n * (y - (u * y + eta)) <= IZR n * fval q) by (apply Rmult_le_compat_l; lra).
  replace (IZR n * (y + (u * y + eta))) with ((1 + u) * (IZR n * y) + IZR n * eta) in B1 by ring. replace (IZR n * (y - (u * y + eta))) with ((1 - u) * (IZR n * y) - IZR n * eta) in B2 by ring. rewrite Y in B1, B2.
  assert (P : pledge_per_pool (A := FloatI) s t n = Ok (if PrimFloat.ltb t q then t else q)).
  { unfold pledge_per_pool. destruct (Z.leb_spec n 0); [lia|]. unfold pdiv. change (eqb (a := FloatI) (ofZ n) zero) with (PrimFloat.eqb (F_ofZ n) PrimFloat.zero).
    destruct (PrimFloat.eqb (F_ofZ n) PrimFloat.zero) eqn:K; [apply (eqb_val _ _ Fn F0) in K; lra | reflexivity]. }
  exists (if PrimFloat.ltb t q then t else q). split; [exact P|]. destruct (PrimFloat.ltb t q) eqn:L.
  - apply (ltb_val _ _ Ft Fq) in L. split; [exact Ft|]. split; [lra|]. split; [|now left]. apply Rle_trans with (IZR n * fval q); [apply Rmult_le_compat_l; lra | exact B1].
  - apply (ltb_val_false _ _ Ft Fq) in L. split; [exact Fq|]. split; [lra|]. split; [exact B1|]. right. apply Rabs_le. lra.
Qed.

(** What an operator pledges and what it has left to delegate are its stake, up to rounding. *)
Theorem C100_pledges_and_rest_are_the_stake : forall (stake thr x : PrimFloat.float) (n : Z), (1 <= n <= 2 ^ 53)%Z -> ffin stake -> ffin thr -> 0 <= fval stake <= bpow radix2 400 -> 0 <= fval thr ->
  pledge_per_pool (A := FloatI) stake thr n = Ok x ->
  let rest := PrimFloat.sub stake (PrimFloat.mul x (F_ofZ n)) in ffin rest /\ Rabs (IZR n * fval x + Rmax (fval rest) 0 - fval stake) <= 3 * u * fval stake + (IZR n + 2) * eta.
Proof.
  intros s t x n N Fs Ft HS T0 H rest. destruct (C100_pledges_use_the_stake s t n N Fs Ft HS T0) as (x' & H' & Fx & [X0 _] & B & _). rewrite H in H'. injection H' as <-. destruct HS as [S0 SB]. destruct (ofZ_range n N) as (Fn & Vn & N1 & N2).
  destruct small_u as [[U0 U1] [E0 E1]]. assert (B4 : 1 <= bpow radix2 400) by (apply (bpow_le radix2 0 400); lia).
  set (P := IZR n * fval x) in *. assert (P0 : 0 <= P) by (unfold P; apply Rmult_le_pos; lra).
  assert (NE : 0 <= IZR n * eta <= 1). { split; [apply Rmult_le_pos; lra|]. apply Rle_trans with (bpow radix2 53 * bpow radix2 (-1075)); [apply Rmult_le_compat; unfold eta in *; lra|]. rewrite <- bpow_plus. apply (bpow_le radix2 _ 0). lia. }
  assert (US : 0 <= u * fval s <= fval s) by nra. assert (PB : P <= 3 * bpow radix2 400) by lra. assert (B3 : 8 * bpow radix2 400 <= big). { change 8 with (bpow radix2 3). rewrite <- bpow_plus. apply big_ge. lia. }
  assert (EP : fval x * fval (F_ofZ n) = P) by (rewrite Vn; unfold P; ring).
  destruct (mul_val x (F_ofZ n) Fx Fn) as [Fv Vv]. { rewrite EP, Rabs_pos_eq by exact P0. lra. } rewrite EP in Vv. assert (D1 := rnd_err P). rewrite <- Vv, (Rabs_pos_eq P P0) in D1. apply abs_le_inv in D1. set (v := PrimFloat.mul x (F_ofZ n)) in *.
  assert (UP : 0 <= u * P <= u * fval s + / 2 * u * fval s + IZR n * eta). { split; [apply Rmult_le_pos; lra|]. assert (u * P <= u * ((1 + u) * fval s + IZR n * eta)) by (apply Rmult_le_compat_l; lra). assert (u * (u * fval s) <= / 2 * (u * fval s)) by (apply Rmult_le_compat_r; lra). assert (u * (IZR n * eta) <= 1 * (IZR n * eta)) by (apply Rmult_le_compat_r; lra). lra. }
  assert (UP2 : u * P <= P) by nra.
  destruct (sub_val s v Fs Fv) as [Fr Vr]. { apply Rabs_le. lra. } fold rest in Fr, Vr. split; [exact Fr|]. assert (D2 := rnd_err (fval s - fval v)). rewrite <- Vr in D2. apply abs_le_inv in D2. destruct (Rle_or_lt 0 (fval s - fval v)) as [L|L].
  - assert (R0 : 0 <= fval rest) by (rewrite Vr; now apply rnd_pos). rewrite Rmax_left by exact R0. rewrite Rabs_pos_eq in D2 by exact L. assert (V0 : 0 <= fval v) by (rewrite Vv; now apply rnd_pos). assert (u * (fval s - fval v) <= u * fval s) by (apply Rmult_le_compat_l; lra). apply Rabs_le. lra.
  - assert (R0 : fval rest <= 0) by (rewrite Vr, <- rnd_0; apply rnd_le; lra). rewrite Rmax_right by exact R0. apply Rabs_le. lra.
Qed.

(** Without rounding up: five pools of an agent with stake 1 pledge a little more than 1. *)
Theorem C100_no_more_is_pledged_than_the_stake_refuted : exists (stake thr x : PrimFloat.float) (n : Z), (1 <= n <= 2 ^ 53)%Z /\ unit stake /\ unit thr /\ pledge_per_pool (A := FloatI) stake thr n = Ok x /\ fval stake < IZR n * fval x.
Proof.
  exists 1%float, 0.25%float, 0.2%float, 5%Z. split; [lia|]. split; [exact (unit_unit 1%float eq_refl)|]. split; [exact (unit_unit 0.25%float eq_refl)|]. split; [vm_compute; reflexivity|]. destruct val_1 as [V1 _]. change (fval 1%float) with (fval PrimFloat.one). rewrite V1.
  rewrite fval_SF. assert (E : FloatOps.Prim2SF 0.2%float = SpecFloat.S754_finite false 7205759403792794 (-55)) by (vm_compute; reflexivity). rewrite E. unfold BinarySingleNaN.SF2R, F2R. cbn [Fnum Fexp SpecFloat.cond_Zopp].
  replace (bpow radix2 (-55)) with (/ 36028797018963968) by (cbn; lra). lra.
Qed.

(** The cost of n pools together: that of the first one and a fraction of it for each further one, up to rounding. *)
Theorem C100_costs_add_up : forall (cost fraction : PrimFloat.float) (n : Z), (1 <= n <= 2 ^ 53)%Z -> ffin cost -> ffin fraction -> 0 <= fval cost <= bpow radix2 400 -> 0 <= fval fraction <= bpow radix2 400 ->
  exists x, cost_per_pool (A := FloatI) n cost fraction = Ok x /\ ffin x /\ 0 <= fval x /\
    Rabs (IZR n * fval x - (fval cost + IZR (n - 1) * fval fraction * fval cost)) <= 5 * u * (fval cost + IZR (n - 1) * fval fraction * fval cost) + 2 * (fval cost + IZR n + 2) * eta.
Proof.
  intros c f n N Fc Ff [C0 CB] [P0 PB]. destruct (ofZ_range n N) as (Fn & Vn & N1 & N2). destruct val_0 as [V0 F0]. destruct small_u as [[U0 U1] [E0 E1]]. assert (BB : 1 <= bpow radix2 400) by (apply (bpow_le radix2 0 400); lia).
  assert (K : ffin (F_ofZ (n - 1)) /\ fval (F_ofZ (n - 1)) = IZR (n - 1)).
  { destruct (Z.eq_dec n 1) as [->|Ne]; [change (1 - 1)%Z with 0%Z; rewrite ofZ_zero; split; [exact F0 | exact V0]|]. destruct (ofZ_range (n - 1) ltac:(lia)) as (A1 & A2 & _). now split. }
  destruct K as [Fk Vk]. assert (K0 : 0 <= IZR (n - 1) <= bpow radix2 53) by (split; [apply (IZR_le 0); lia|]; change (bpow radix2 53) with (IZR (2 ^ 53)); apply IZR_le; lia). set (k := IZR (n - 1)) in *.
  assert (KP : 0 <= k * fval f <= bpow radix2 453). { split; [apply Rmult_le_pos; lra|]. change 453%Z with (53 + 400)%Z. rewrite bpow_plus. apply Rmult_le_compat; lra. }
  set (y := k * fval f) in *.
  destruct (mul_val (F_ofZ (n - 1)) f Fk Ff) as [Fa Va]. { rewrite Vk. fold y. rewrite Rabs_pos_eq by lra. apply Rle_trans with (bpow radix2 453); [lra | apply big_ge; lia]. }
  rewrite Vk in Va. fold y in Va. assert (Da := rnd_err y). rewrite <- Va, (Rabs_pos_eq y) in Da by lra. apply abs_le_inv in Da. assert (A0 : 0 <= fval (PrimFloat.mul (F_ofZ (n - 1)) f)) by (rewrite Va; apply rnd_pos; lra). set (a := PrimFloat.mul (F_ofZ (n - 1)) f) in *.
  assert (UY : 0 <= u * y <= y) by nra. assert (B453 : 1 <= bpow radix2 453) by (apply (bpow_le radix2 0 453); lia). assert (A2 : fval a <= bpow radix2 455). { replace (bpow radix2 455) with (4 * bpow radix2 453); [lra|]. change 455%Z with (2 + 453)%Z. rewrite bpow_plus. reflexivity. }
  set (z := fval a * fval c). assert (Z0 : 0 <= z <= bpow radix2 855). { unfold z. split; [apply Rmult_le_pos; lra|]. change 855%Z with (455 + 400)%Z. rewrite bpow_plus. apply Rmult_le_compat; lra. }
  destruct (mul_val a c Fa Fc) as [Fb Vb]. { fold z. rewrite Rabs_pos_eq by lra. apply Rle_trans with (bpow radix2 855); [lra | apply big_ge; lia]. }
  fold z in Vb. assert (Db := rnd_err z). rewrite <- Vb, (Rabs_pos_eq z) in Db by lra. apply abs_le_inv in Db. assert (B0 : 0 <= fval (PrimFloat.mul a c)) by (rewrite Vb; apply rnd_pos; lra). set (b := PrimFloat.mul a c) in *.
  assert (UZ : 0 <= u * z <= z) by nra. assert (B855 : bpow radix2 400 <= bpow radix2 855) by (apply bpow_le; lia). assert (B858 : 8 * bpow radix2 855 <= big) by (change 8 with (bpow radix2 3); rewrite <- bpow_plus; apply big_ge; lia).
  destruct (add_val c b Fc Fb) as [Fs Vs]. { rewrite Rabs_pos_eq by lra. lra. }
  assert (Ds := rnd_err (fval c + fval b)). rewrite <- Vs, (Rabs_pos_eq (_ + _)) in Ds by lra. apply abs_le_inv in Ds. assert (S0 : 0 <= fval (PrimFloat.add c b)) by (rewrite Vs; apply rnd_pos; lra). set (s := PrimFloat.add c b) in *.
  assert (UB : u * (fval c + fval b) <= fval c + fval b) by nra. assert (SB : fval s <= big) by lra. assert (D := div_inv_bound (fval s) (IZR n) _ (conj S0 SB) N1).
  destruct (div_val s (F_ofZ n) Fs Fn ltac:(lra)) as [Fq Vq]. { rewrite Vn, Rabs_pos_eq by lra. lra. }
  rewrite Vn in Vq. assert (Dq := rnd_err (fval s / IZR n)). rewrite <- Vq, (Rabs_pos_eq (_ / _)) in Dq by lra. apply abs_le_inv in Dq. assert (Q0 : 0 <= fval (PrimFloat.div s (F_ofZ n))) by (rewrite Vq; apply rnd_pos; lra). set (q := PrimFloat.div s (F_ofZ n)) in *.
  set (x := fval s / IZR n) in *. assert (X : IZR n * x = fval s) by (unfold x; field; lra).
  exists q. split. { unfold cost_per_pool, pdiv. change (eqb (a := FloatI) (ofZ n) zero) with (PrimFloat.eqb (F_ofZ n) PrimFloat.zero). destruct (PrimFloat.eqb (F_ofZ n) PrimFloat.zero) eqn:L; [apply (eqb_val _ _ Fn F0) in L; lra | reflexivity]. }
  split; [exact Fq|]. split; [exact Q0|].
  (* the errors add up *)
  assert (Q1 : IZR n * fval q <= IZR n * (x + (u * x + eta))) by (apply Rmult_le_compat_l; lra). assert (Q2 : IZR n * (x - (u * x + eta)) <= IZR n * fval q) by (apply Rmult_le_compat_l; lra).
  replace (IZR n * (x + (u * x + eta))) with (IZR n * x + u * (IZR n * x) + IZR n * eta) in Q1 by ring. replace (IZR n * (x - (u * x + eta))) with (IZR n * x - u * (IZR n * x) - IZR n * eta) in Q2 by ring. rewrite X in Q1, Q2.
  assert (Z1 : z <= (y + (u * y + eta)) * fval c) by (apply Rmult_le_compat_r; lra). assert (Z2 : (y - (u * y + eta)) * fval c <= z) by (apply Rmult_le_compat_r; lra). clearbody z.
  set (w := y * fval c) in *. assert (W0 : 0 <= w) by (apply Rmult_le_pos; lra). replace ((y + (u * y + eta)) * fval c) with (w + u * w + eta * fval c) in Z1 by (unfold w; ring). replace ((y - (u * y + eta)) * fval c) with (w - u * w - eta * fval c) in Z2 by (unfold w; ring).
  set (h := eta * fval c) in *. assert (H0 : 0 <= h) by (apply Rmult_le_pos; lra). set (g := IZR n * eta) in *. assert (G0 : 0 <= g) by (apply Rmult_le_pos; lra). replace (2 * (fval c + IZR n + 2) * eta) with (2 * h + 2 * g + 4 * eta) by (unfold h, g; ring).
  set (C := fval c) in *. set (T := C + w). assert (T0 : 0 <= T) by (unfold T; lra). assert (UU : forall r, 0 <= r -> 0 <= u * r <= / 1024 * r) by (intros r Hr; nra).
  assert (U_T := UU T T0). assert (U_w := UU w W0). assert (U_C := UU C C0). assert (U_h := UU h H0). assert (U_z : u * z <= u * (w + u * w + h)) by (apply Rmult_le_compat_l; lra). assert (U_uw := UU (u * w) (proj1 U_w)). assert (U_e := UU eta (Rlt_le _ _ E0)).
  assert (ET : u * T = u * C + u * w) by (unfold T; ring).
  assert (Zc : w - (u * w + h) <= z <= w + (u * w + h)) by lra.
  assert (Bc : T - (2 * (u * w) + / 1024 * (u * w) + / 1024 * h + h + eta) <= C + fval b <= T + (2 * (u * w) + / 1024 * (u * w) + / 1024 * h + h + eta)) by (unfold T; lra).
  assert (U_b : u * (C + fval b) <= u * (T + (2 * (u * w) + / 1024 * (u * w) + / 1024 * h + h + eta))) by (apply Rmult_le_compat_l; lra).
  assert (U_b2 : u * (C + fval b) <= u * T + / 100 * (u * w) + / 100 * h + / 1024 * eta) by lra.
  assert (U_s : u * fval s <= u * (T + (u * T + / 100 * (u * w) + / 100 * h + / 1024 * eta) + (2 * (u * w) + / 1024 * (u * w) + / 1024 * h + h + eta) + eta)) by (apply Rmult_le_compat_l; lra).
  assert (U_uT := UU (u * T) (proj1 U_T)).
  assert (U_s2 : u * fval s <= u * T + / 100 * (u * T) + / 100 * (u * w) + / 100 * h + / 100 * eta) by lra.
  fold T. apply Rabs_le. lra.
Qed.
(** an agent with stake 1 and cost 0.001, five pools, a threshold of 1/4 and 0.3 as the cost of a further pool meet the hypotheses *)
Lemma C100_instance : (1 <= 5 <= 2 ^ 53)%Z /\ ffin 1%float /\ ffin 0.25%float /\ 0 <= fval 1%float <= bpow radix2 400 /\ 0 <= fval 0.25%float /\ pledge_per_pool (A := FloatI) 1%float 0.25%float 5 = Ok 0.2%float /\
  ffin 0.001%float /\ ffin 0.3%float /\ 0 <= fval 0.001%float <= bpow radix2 400 /\ 0 <= fval 0.3%float <= bpow radix2 400.
Proof.
  assert (B : 1 <= bpow radix2 400) by (apply (bpow_le radix2 0 400); lia). destruct (unit_unit 1%float eq_refl) as [F1 B1]. destruct (unit_unit 0.25%float eq_refl) as [F2 B2]. destruct (unit_unit 0.001%float eq_refl) as [F3 B3]. destruct (unit_unit 0.3%float eq_refl) as [F4 B4].
  split; [lia|]. split; [exact F1|]. split; [exact F2|]. split; [lra|]. split; [lra|]. split; [vm_compute; reflexivity|]. split; [exact F3|]. split; [exact F4|]. split; lra.
Qed.
