(** C99: the margin an operator works out and the desirability it leads to, in the arithmetic of the machine. *)
From Coq Require Import ZArith Reals Lra Lia Psatz List Bool.
From Coq Require Import PrimFloat.
Set Warnings "-inexact-float".
From Verif Require Import Num NumFloat Py Rewards Binary64 RealArith FloatReward FloatError PropFloat.
From Flocq Require Core PrimFloat.
Import Flocq.Core.Core.
Import ListNotations.
Local Open Scope R_scope.

Lemma big_ge e : (e <= 1000)%Z -> bpow radix2 e <= big.  Proof. intros H. unfold big. now apply bpow_le. Qed.
(** rounding a number between 0 and 1 *)
Lemma rnd_frac x : 0 <= x <= 1 -> 0 <= rnd x <= 1 /\ Rabs (rnd x - x) <= u + eta.
Proof.
  intros H. split; [split; [apply rnd_pos; lra | rewrite <- rnd_1; apply rnd_le; lra]|]. eapply Rle_trans; [apply rnd_err|]. rewrite Rabs_pos_eq by lra. assert (0 < u) by apply bpow_gt_0. nra.
Qed.
Lemma abs_le_inv x y e : Rabs (x - y) <= e -> y - e <= x <= y + e.
Proof. intros H. unfold Rabs in H. destruct (Rcase_abs (x - y)); lra. Qed.

(** The desirability of a pool that takes the margin worked out for a target it can reach. *)
Theorem C99_margin_hits_the_target : forall pp target : PrimFloat.float, ffin pp -> ffin target -> 0 < fval pp <= bpow radix2 400 -> 0 <= fval target <= fval pp ->
  exists m, suitable_margin (A := FloatI) pp target = Ok m /\ ffin m /\ 0 <= fval m <= 1 /\
    ffin (desirability (A := FloatI) m pp) /\ Rabs (fval (desirability (A := FloatI) m pp) - fval target) <= 4 * (u + eta) * fval pp + eta.
Proof.
  intros pp t FP FT [P0 PB] [T0 TP]. destruct val_0 as [V0 F0]. destruct val_1 as [V1 F1]. assert (U := bpow_gt_0 radix2 (-53)). fold u in U. assert (N := bpow_gt_0 radix2 (-1075)). fold eta in N.
  assert (B1 : 1 <= big) by (apply (big_ge 0); lia). assert (B4 : bpow radix2 400 <= big) by (apply big_ge; lia).
  set (x := fval t / fval pp). assert (X : 0 <= x <= 1). { unfold x. split; [apply Rmult_le_pos; [exact T0 | apply Rlt_le, Rinv_0_lt_compat, P0] | apply (Rmult_le_reg_r (fval pp)); [exact P0 | field_simplify; lra]]. }
  assert (Xp : x * fval pp = fval t) by (unfold x; field; lra).
  destruct (div_val t pp FT FP ltac:(lra)) as [Fq Vq]. { rewrite Rabs_pos_eq by (apply X). fold x. lra. } fold x in Vq. destruct (rnd_frac x X) as [Q E1]. rewrite <- Vq in Q, E1. set (q := PrimFloat.div t pp) in *.
  destruct (sub_val PrimFloat.one q F1 Fq) as [Fm Vm]. { rewrite V1, Rabs_pos_eq; lra. } rewrite V1 in Vm. destruct (rnd_frac (1 - fval q) ltac:(lra)) as [M E2]. rewrite <- Vm in M, E2. set (m := PrimFloat.sub PrimFloat.one q) in *.
  destruct (sub_val PrimFloat.one m F1 Fm) as [Fv Vv]. { rewrite V1, Rabs_pos_eq; lra. } rewrite V1 in Vv. destruct (rnd_frac (1 - fval m) ltac:(lra)) as [V E3]. rewrite <- Vv in V, E3. set (v := PrimFloat.sub PrimFloat.one m) in *.
  assert (Y : 0 <= fval v * fval pp <= fval pp) by nra.
  destruct (mul_val v pp Fv FP) as [Fd Vd]. { rewrite Rabs_pos_eq; lra. } assert (E4 := rnd_err (fval v * fval pp)). rewrite <- Vd in E4. rewrite (Rabs_pos_eq (fval v * fval pp)) in E4 by lra. assert (D0 : 0 <= fval (PrimFloat.mul v pp)) by (rewrite Vd; apply rnd_pos; lra). set (d := PrimFloat.mul v pp) in *.
  exists m. assert (S : suitable_margin (A := FloatI) pp t = Ok m).
  { unfold suitable_margin. change (ltb (zero (a := FloatI)) pp) with (PrimFloat.ltb PrimFloat.zero pp). replace (PrimFloat.ltb PrimFloat.zero pp) with true by (symmetry; apply (ltb_val _ _ F0 FP); lra).
    unfold pdiv. change (eqb (a := FloatI) pp zero) with (PrimFloat.eqb pp PrimFloat.zero). destruct (PrimFloat.eqb pp PrimFloat.zero) eqn:E; [apply (eqb_val _ _ FP F0) in E; lra|]. cbn [bind].
    change (Ok (if PrimFloat.ltb m PrimFloat.zero then PrimFloat.zero else m) = Ok m). destruct (PrimFloat.ltb m PrimFloat.zero) eqn:L; [apply (ltb_val _ _ Fm F0) in L; lra | reflexivity]. }
  assert (De : desirability (A := FloatI) m pp = d).
  { unfold desirability. change ((if PrimFloat.ltb d PrimFloat.zero then PrimFloat.zero else d) = d). destruct (PrimFloat.ltb d PrimFloat.zero) eqn:L; [apply (ltb_val _ _ Fd F0) in L; lra | reflexivity]. }
  rewrite De. split; [exact S|]. split; [exact Fm|]. split; [exact M|]. split; [exact Fd|]. clear S De.
  apply abs_le_inv in E1, E2, E3, E4. set (w := u + eta) in *. assert (W : x - 3 * w <= fval v <= x + 3 * w) by lra. assert (0 < w) by (unfold w; lra).
  assert (W1 : (x - 3 * w) * fval pp <= fval v * fval pp) by (apply Rmult_le_compat_r; lra). assert (W2 : fval v * fval pp <= (x + 3 * w) * fval pp) by (apply Rmult_le_compat_r; lra).
  assert (W3 : u * (fval v * fval pp) <= w * fval pp) by (apply Rmult_le_compat; unfold w; lra). apply Rabs_le. lra.
Qed.

(** the amount added to the desirability of the rival, 1e-6 *)
Lemma boost_val : ffin (boost (a := FloatI)) /\ bpow radix2 (-20) <= fval (boost (a := FloatI)) <= 1.
Proof.
  destruct (unit_unit (boost (a := FloatI)) eq_refl) as [F B]. split; [exact F|]. split; [|apply B]. change (boost (a := FloatI)) with 1e-6%float. rewrite fval_SF.
  assert (E : FloatOps.Prim2SF 1e-6%float = SpecFloat.S754_finite false 4722366482869645 (-72)) by (vm_compute; reflexivity). rewrite E. unfold BinarySingleNaN.SF2R, F2R. cbn [Fnum Fexp SpecFloat.cond_Zopp].
  change (-20)%Z with (52 + -72)%Z. rewrite bpow_plus. apply Rmult_le_compat_r; [apply bpow_ge_0|]. change (bpow radix2 52) with (IZR 4503599627370496). apply IZR_le. lia.
Qed.
(** A pool that can reach the desirability of a rival plus 1e-6 is more desirable than the rival with the margin worked out for that target, in spite of rounding. *)
Theorem C99_above_the_rival : forall pp rival : PrimFloat.float, ffin pp -> ffin rival -> fval pp <= bpow radix2 30 -> 0 <= fval rival <= bpow radix2 30 ->
  PrimFloat.leb (PrimFloat.add rival (boost (a := FloatI))) pp = true ->
  exists m, suitable_margin (A := FloatI) pp (PrimFloat.add rival (boost (a := FloatI))) = Ok m /\ 0 <= fval m <= 1 /\ PrimFloat.ltb rival (desirability (A := FloatI) m pp) = true.
Proof.
  intros pp d FP FD PB [D0 DB] L. destruct boost_val as (Fb & B1 & B2). set (b := boost (a := FloatI)) in *. change (bpow radix2 30) with 1073741824 in *. replace (bpow radix2 (-20)) with (/ 1048576) in B1 by (cbn; lra).
  destruct (add_val d b FD Fb) as [Ft Vt]. { rewrite Rabs_pos_eq by lra. apply Rle_trans with (bpow radix2 31); [change (bpow radix2 31) with 2147483648; lra | apply big_ge; lia]. }
  apply (leb_val _ _ Ft FP) in L. set (t := PrimFloat.add d b) in *. assert (E := rnd_err (fval d + fval b)). rewrite <- Vt in E. rewrite (Rabs_pos_eq (fval d + fval b)) in E by lra.
  assert (U : u = / 9007199254740992) by (unfold u; cbn; lra). assert (N : 0 < eta <= / 1152921504606846976). { split; [apply bpow_gt_0|]. apply Rle_trans with (bpow radix2 (-60)); [apply bpow_le; lia | cbn; lra]. }
  apply abs_le_inv in E. rewrite U in E. assert (T0 : 0 < fval t) by lra.
  destruct (C99_margin_hits_the_target pp t FP Ft) as (m & Hm & Fm & M & Fd & H); [split; [lra | apply Rle_trans with (bpow radix2 30); [exact PB | apply bpow_le; lia]] | lra |].
  exists m. split; [exact Hm|]. split; [exact M|]. apply (ltb_val _ _ FD Fd). apply abs_le_inv in H. rewrite U in H. assert (K : 4 * (/ 9007199254740992 + eta) * fval pp <= 4 * (/ 9007199254740992 + / 1152921504606846976) * 1073741824) by (apply Rmult_le_compat; lra). lra.
Qed.
(** a pool with a profit of 0.3 and a rival of desirability 0.1 meet the hypotheses *)
Lemma C99_instance : ffin 0.3%float /\ ffin 0.1%float /\ 0 < fval 0.3%float <= bpow radix2 30 /\ 0 <= fval 0.1%float <= bpow radix2 30 /\ fval 0.1%float <= fval 0.3%float /\ PrimFloat.leb (PrimFloat.add 0.1%float (boost (a := FloatI))) 0.3%float = true.
Proof.
  destruct (unit_unit 0.3%float eq_refl) as [F1 B1]. destruct (unit_unit 0.1%float eq_refl) as [F2 B2]. assert (B : 1 <= bpow radix2 30) by (apply (bpow_le radix2 0 30); lia). destruct val_0 as [V0 F0].
  assert (P : fval PrimFloat.zero < fval 0.3%float) by (apply (ltb_val _ _ F0 F1); vm_compute; reflexivity). assert (Q : fval 0.1%float <= fval 0.3%float) by (apply (leb_val _ _ F2 F1); vm_compute; reflexivity).
  split; [exact F1|]. split; [exact F2|]. split; [lra|]. split; [lra|]. split; [exact Q | vm_compute; reflexivity].
Qed.

(** The target itself can be missed, from below: *)
Theorem C99_target_is_reached_refuted : exists pp target m : PrimFloat.float, unit pp /\ unit target /\ PrimFloat.ltb target pp = true /\ suitable_margin (A := FloatI) pp target = Ok m /\ PrimFloat.ltb (desirability (A := FloatI) m pp) target = true.
Proof.
  exists 0.27735497061078451%float, 1e-6%float, 0.9999963945120659%float. split; [exact (unit_unit 0.27735497061078451%float eq_refl)|]. split; [exact (unit_unit 1e-6%float eq_refl)|]. split; [vm_compute; reflexivity|]. split; vm_compute; reflexivity.
Qed.
(** and for profits of the order of 2^40 adding 1e-6 is not enough: the pool is no more desirable than its rival. *)
Theorem C99_above_the_rival_for_all_profits_refuted : exists pp rival m : PrimFloat.float, ffin pp /\ ffin rival /\ 0 <= fval rival /\ PrimFloat.leb (PrimFloat.add rival (boost (a := FloatI))) pp = true /\
  suitable_margin (A := FloatI) pp (PrimFloat.add rival (boost (a := FloatI))) = Ok m /\ PrimFloat.ltb rival (desirability (A := FloatI) m pp) = false.
Proof.
  destruct (suitable_margin (A := FloatI) 0x1p40%float (PrimFloat.add 1%float (boost (a := FloatI)))) as [m|e] eqn:E; [|vm_compute in E; discriminate E].
  exists 0x1p40%float, 1%float, m. split; [unfold ffin; rewrite <- PrimFloat.is_finite_equiv; vm_compute; reflexivity|]. destruct val_1 as [V1 F1]. split; [exact F1|]. split; [change (fval 1%float) with (fval PrimFloat.one); lra|]. split; [vm_compute; reflexivity|]. split; [exact E|].
  vm_compute in E. injection E as <-. vm_compute. reflexivity.
Qed.
