(** Rounding errors of the reward formulas. *)
From Coq Require Import ZArith Reals Lra Lia Psatz List Bool.
From Verif Require Import Num NumFloat Py Rewards Binary64 RealArith FloatReward.
From Flocq Require Core.
Import Flocq.Core.Core.
Local Open Scope R_scope.

Lemma u_small : 0 < u <= / 1000000.
Proof. split; [apply bpow_gt_0|]. unfold u. apply Rle_trans with (bpow radix2 (-20)); [apply bpow_le; lia|]. cbn. lra. Qed.
(** a bound on eta divided by anything at least 2^-410 *)
Definition tau : R := bpow radix2 (-610).
Lemma tau_small : 0 < tau <= u * u.
Proof. split; [apply bpow_gt_0|]. unfold u, tau. rewrite <- bpow_plus. apply bpow_le. lia. Qed.
Lemma eta_tau y : bpow radix2 (-460) <= y -> 0 <= eta <= tau * y.
Proof.
  intros H. split; [apply bpow_ge_0|]. apply Rle_trans with (tau * bpow radix2 (-460)).
  - unfold eta, tau. rewrite <- bpow_plus. apply bpow_le. lia.
  - apply Rmult_le_compat_l; [apply bpow_ge_0 | exact H].
Qed.
Lemma eta_tau1 : 0 <= eta <= tau.
Proof. assert (H := eta_tau 1). rewrite Rmult_1_r in H. apply H. apply (bpow_le radix2 (-460) 0). lia. Qed.
Lemma rnd_two x : 0 <= x -> x - u * x - eta <= rnd x <= x + u * x + eta.
Proof. intros H. assert (E := rnd_err x). rewrite (Rabs_pos_eq x H) in E. apply Rabs_le_inv in E. lra. Qed.

Section Common.
Variables (a0 : R).
Hypothesis A : 0 <= a0 <= bpow radix2 400.
Let d := 1 + a0.
Let c := / d.
Lemma c_pos : 0 < c <= 1 /\ c * d = 1 /\ bpow radix2 (-401) <= c.
Proof.
  assert (D : 1 <= d) by (unfold d; lra). assert (P : 0 < c) by (apply Rinv_0_lt_compat; lra). split; [split; [exact P|]|split].
  - unfold c. rewrite <- Rinv_1. apply Rinv_le; lra.
  - unfold c. apply Rinv_l. lra.
  - unfold c. change (-401)%Z with (- (401))%Z. rewrite bpow_opp. apply Rinv_le; [lra|]. change 401%Z with (400 + 1)%Z. rewrite <- ab_dbl. unfold d. assert (1 <= bpow radix2 400) by (apply (bpow_le radix2 0 400); lia). lra.
Qed.
Lemma c_err : c - 5 * u * c <= rnd (1 / rnd (1 + a0)) <= c + 5 * u * c.
Proof.
  destruct c_pos as ([P P1] & I & L). assert (U := u_small). assert (T := eta_tau1). assert (TS := tau_small). fold d.
  assert (D : 1 <= d) by (unfold d; lra). assert (E1 := rnd_two d ltac:(lra)). assert (UU : u * u <= u) by nra. assert (UD : u <= u * d) by nra.
  set (e := rnd d) in *. assert (E2 : d - 2 * u * d <= e <= d + 2 * u * d) by nra.
  assert (E3 : c - 3 * u * c <= 1 / e <= c + 3 * u * c). {
    unfold Rdiv. rewrite Rmult_1_l. assert (Pe : 0 < e) by nra. assert (X : / e * e = 1) by (apply Rinv_l; lra). assert (Pi : 0 < / e) by now apply Rinv_0_lt_compat.
    split; apply (Rmult_le_reg_r e); try assumption; rewrite X.
    - apply Rle_trans with ((c - 3 * u * c) * (d + 2 * u * d)); [apply Rmult_le_compat_l; nra|]. replace ((c - 3 * u * c) * (d + 2 * u * d)) with ((c * d) * ((1 - 3 * u) * (1 + 2 * u))) by ring. rewrite I. nra.
    - apply Rle_trans with ((c + 3 * u * c) * (d - 2 * u * d)); [|apply Rmult_le_compat_l; nra]. replace ((c + 3 * u * c) * (d - 2 * u * d)) with ((c * d) * ((1 + 3 * u) * (1 - 2 * u))) by ring. rewrite I. nra.
  }
  assert (E4 : 0 <= eta <= tau * c) by (apply eta_tau; eapply Rle_trans; [|exact L]; apply bpow_le; lia).
  assert (E5 := rnd_two (1 / e) ltac:(nra)). set (x := rnd (1 / e)) in *.
  assert (tau * c <= u * u * c) by (apply Rmult_le_compat_r; lra). assert (u * (1 / e) <= u * (c + 3 * u * c)) by (apply Rmult_le_compat_l; lra). nra.
Qed.
End Common.

(** ** one step of a computation *)
Lemma mul_bound x y X Y : 0 <= x <= X -> 0 <= y <= Y -> 0 <= x * y <= X * Y.
Proof. intros H G. split; [apply Rmult_le_pos; lra | apply Rmult_le_compat; lra]. Qed.

Lemma shr x y : 0 <= x -> 0 <= y <= 1 -> 0 <= x * y <= x.
Proof. intros H G. split; [apply Rmult_le_pos; lra|]. rewrite <- (Rmult_1_r x) at 2. apply Rmult_le_compat_l; lra. Qed.
Lemma shl x y : 0 <= x -> 0 <= y <= 1 -> 0 <= y * x <= x.
Proof. rewrite Rmult_comm. apply shr. Qed.
Lemma ux x : 0 <= x -> 0 <= u * x <= / 1000000 * x.
Proof. intros H. assert (U := u_small). split; [apply Rmult_le_pos; lra | apply Rmult_le_compat_r; lra]. Qed.

Section Err.
Variables (a0 b pl st : R).
Hypothesis A : 0 <= a0 <= bpow radix2 400.
Hypothesis B : bpow radix2 (-400) <= b <= 1.
Hypothesis P : 0 <= pl <= st.
Hypothesis S : st <= b.
Hypothesis Fp : rnd pl = pl.
Hypothesis Fs : rnd st = st.
Let c := / (1 + a0).
Let c' := rnd (1 / rnd (1 + a0)).
Let Hb : 0 < b.
Proof. assert (0 < bpow radix2 (-400)) by apply bpow_gt_0. lra. Qed.
Let ib := / b.
Let Hib : 0 < ib /\ ib * b = 1.
Proof. split; [now apply Rinv_0_lt_compat | apply Rinv_l; lra]. Qed.
Let eb := eta * ib.
Let Heb : 0 <= eta <= eb /\ eb <= tau.
Proof.
  destruct Hib as [H1 H2]. assert (T := eta_tau b). assert (I1 : 1 <= ib) by (unfold ib; rewrite <- Rinv_1; apply Rinv_le; lra).
  destruct T as [T1 T2]; [apply Rle_trans with (bpow radix2 (-400)); [apply bpow_le; lia | lra]|]. unfold eb. split; [split; [exact T1 | nra]|]. apply Rle_trans with (tau * b * ib); [apply Rmult_le_compat_r; lra|]. rewrite Rmult_assoc, (Rmult_comm b). rewrite H2. lra.
Qed.

Lemma cardano_err :
  let x := c * (st + pl * a0 * ((st - pl * (1 - st / b)) / b)) in
  let x' := rnd (c' * rnd (st + rnd (rnd (pl * a0) * rnd (rnd (st - rnd (pl * rnd (1 - rnd (st / b)))) / b)))) in
  0 <= x <= st /\ x - 32 * u * st - 1024 * tau <= x' <= x + 32 * u * st + 1024 * tau.
Proof.
  intros x x'. subst x x'. destruct Hib as [I0 I1]. destruct Heb as [[E0 E1] E2]. assert (U := u_small). assert (T := tau_small).
  unfold Rdiv. fold ib.
  assert (Is : 0 <= st * ib <= 1) by (split; [apply Rmult_le_pos; lra|]; rewrite <- I1, (Rmult_comm ib); apply Rmult_le_compat_r; lra).
  set (s := st * ib) in *.
  (* s *)
  assert (H1 := rnd_two s (proj1 Is)). assert (R1 : 0 <= rnd s <= 1) by (split; [apply rnd_pos; tauto | apply rnd_le_1; tauto]). set (s' := rnd s) in *.
  assert (X1 := shr u s ltac:(lra) Is).
  (* t *)
  assert (H2 := rnd_two (1 - s') ltac:(lra)). assert (R2 : 0 <= rnd (1 - s') <= 1) by (split; [apply rnd_pos; lra | apply rnd_le_1; lra]). set (t' := rnd (1 - s')) in *.
  assert (X2 := shr u (1 - s') ltac:(lra) ltac:(lra)).
  assert (K2 : 1 - s - 2 * u - 2 * eta <= t' <= 1 - s + 2 * u + 2 * eta) by lra. 
  (* v *)
  assert (R3' := shr pl t' (proj1 P) R2).
  assert (H3 := rnd_two (pl * t') (proj1 R3')). assert (R3 : 0 <= rnd (pl * t') <= pl) by (split; [apply rnd_pos; tauto | rewrite <- Fp at 2; apply rnd_le; tauto]). set (v' := rnd (pl * t')) in *.
  assert (X3 : 0 <= u * (pl * t') <= u * pl) by (split; [apply Rmult_le_pos; lra | apply Rmult_le_compat_l; lra]).
  assert (Y3 : pl * (1 - s - 2 * u - 2 * eta) <= pl * t' <= pl * (1 - s + 2 * u + 2 * eta)) by (split; apply Rmult_le_compat_l; lra).
  assert (P1 : pl <= 1) by lra. assert (Z3 := shl eta pl E0 ltac:(lra)).
  assert (K3 : pl * (1 - s) - 3 * (u * pl) - 3 * eta <= v' <= pl * (1 - s) + 3 * (u * pl) + 3 * eta) by lra.
  set (v := pl * (1 - s)) in *. assert (Rv : 0 <= v <= pl) by (apply shr; lra).
  (* w *)
  assert (H4 := rnd_two (st - v') ltac:(lra)). assert (R4 : 0 <= rnd (st - v') <= st) by (split; [apply rnd_pos; lra | rewrite <- Fs at 2; apply rnd_le; lra]). set (w' := rnd (st - v')) in *.
  assert (X4 : 0 <= u * (st - v') <= u * st) by (split; [apply Rmult_le_pos; lra | apply Rmult_le_compat_l; lra]).
  assert (Y4 : u * pl <= u * st) by (apply Rmult_le_compat_l; lra).
  assert (K4 : (st - v) - 4 * (u * st) - 4 * eta <= w' <= (st - v) + 4 * (u * st) + 4 * eta) by lra.
  (* q *)
  set (w := st - v) in *. assert (Rw : 0 <= w <= st) by (unfold w; lra).
  assert (R5' : 0 <= w' * ib <= s) by (unfold s; split; [apply Rmult_le_pos; lra | apply Rmult_le_compat_r; lra]).
  assert (H5 := rnd_two (w' * ib) (proj1 R5')). assert (R5 : 0 <= rnd (w' * ib) <= 1) by (split; [apply rnd_pos; tauto | apply rnd_le_1; lra]). set (q' := rnd (w' * ib)) in *.
  assert (X5 := shr u (w' * ib) ltac:(lra) ltac:(lra)).
  assert (Y5 : (w - 4 * (u * st) - 4 * eta) * ib <= w' * ib <= (w + 4 * (u * st) + 4 * eta) * ib) by (split; apply Rmult_le_compat_r; lra).
  replace ((w - 4 * (u * st) - 4 * eta) * ib) with (w * ib - 4 * (u * s) - 4 * eb) in Y5 by (unfold s, eb; ring).
  replace ((w + 4 * (u * st) + 4 * eta) * ib) with (w * ib + 4 * (u * s) + 4 * eb) in Y5 by (unfold s, eb; ring).
  assert (K5 : w * ib - 5 * u - 5 * eb <= q' <= w * ib + 5 * u + 5 * eb) by lra.
  set (q := w * ib) in *. assert (Rq : 0 <= q <= 1) by (unfold q; split; [apply Rmult_le_pos; lra|]; apply Rle_trans with s; [unfold s; apply Rmult_le_compat_r; lra | lra]).
  (* m *)
  set (m := pl * a0) in *. assert (Rm : 0 <= m) by (apply Rmult_le_pos; lra).
  assert (H6 := rnd_two m Rm). assert (R6 := rnd_pos m Rm). set (m' := rnd m) in *.
  (* n *)
  assert (R7' := shr m' q' R6 R5).
  assert (H7 := rnd_two (m' * q') (proj1 R7')). assert (R7 := rnd_pos (m' * q') (proj1 R7')). set (n' := rnd (m' * q')) in *.
  assert (X7 : 0 <= u * (m' * q') <= u * m') by (split; [apply Rmult_le_pos; lra | apply Rmult_le_compat_l; lra]).
  assert (Um := proj1 (ux m Rm)). assert (UUm := ux (u * m) Um). assert (Ue := ux eta E0).
  assert (X7' : u * m' <= u * (m + u * m + eta)) by (apply Rmult_le_compat_l; lra).
  assert (Y7 : (m' - m) * q' <= u * m + eta) by (apply Rle_trans with ((u * m + eta) * q'); [apply Rmult_le_compat_r; lra | apply shr; lra]).
  assert (Y7' : - (u * m + eta) <= (m' - m) * q') by (apply Rle_trans with (- (u * m + eta) * q'); [rewrite Ropp_mult_distr_l_reverse; apply Ropp_le_contravar, shr; lra | apply Rmult_le_compat_r; lra]).
  assert (Z7 : m * (q - 5 * u - 5 * eb) <= m * q' <= m * (q + 5 * u + 5 * eb)) by (split; apply Rmult_le_compat_l; lra).
  assert (Em : 0 <= m * eb <= / 1000000 * (u * m)) by (assert (HH : 0 <= eb <= u * u) by lra; assert (HU := ux u ltac:(lra)); split; [apply Rmult_le_pos; lra|]; apply Rle_trans with (m * (/ 1000000 * u)); [apply Rmult_le_compat_l; lra | lra]).
  assert (K7 : m * q - 8 * (u * m) - 3 * eta <= n' <= m * q + 8 * (u * m) + 3 * eta) by lra.
  (* z *)
  set (n := m * q) in *. assert (Rn : 0 <= n <= m) by (apply shr; lra).
  assert (H8 := rnd_two (st + n') ltac:(lra)). assert (R8 := rnd_pos (st + n') ltac:(lra)). set (z' := rnd (st + n')) in *.
  assert (X8 : u * (st + n') <= u * (st + m + 8 * (u * m) + 3 * eta)) by (apply Rmult_le_compat_l; lra).
  assert (Us := proj1 (ux st ltac:(lra))).
  assert (K8 : (st + n) - 10 * (u * m) - 2 * (u * st) - 20 * eta <= z' <= (st + n) + 10 * (u * m) + 2 * (u * st) + 20 * eta) by lra.
  (* x *)
  destruct (c_pos a0 A) as ([C0 C1] & CD & _). fold c in C0, C1, CD. assert (Ec := c_err a0 A). fold c c' in Ec.
  assert (Cs : c * (st + m) <= st). { apply Rle_trans with (c * (st + st * a0)); [apply Rmult_le_compat_l; [lra|]; unfold m; apply Rplus_le_compat_l, Rmult_le_compat_r; lra|]. replace (c * (st + st * a0)) with (st * (c * (1 + a0))) by ring. rewrite CD. lra. }
  assert (Cn : 0 <= c * (st + n)) by (apply Rmult_le_pos; lra).
  assert (Cn' : c * (st + n) <= st) by (apply Rle_trans with (c * (st + m)); [apply Rmult_le_compat_l; lra | exact Cs]).
  split; [split; [exact Cn | exact Cn']|].
  assert (Kc : 0 <= c') by (assert (HU := ux c ltac:(lra)); lra). assert (R9' : 0 <= c' * z') by (apply Rmult_le_pos; lra).
  assert (H9 := rnd_two (c' * z') R9'). set (x' := rnd (c' * z')) in *.
  set (g := c * (st + m)) in *. assert (Rg : 0 <= g <= st) by (split; [apply Rmult_le_pos; lra | exact Cs]).
  set (z := st + n) in *. assert (Z0 : 0 <= z) by (unfold z; lra).
  assert (D1 : c * z' <= c * (z + 10 * (u * m) + 2 * (u * st) + 20 * eta)) by (apply Rmult_le_compat_l; lra).
  assert (D2 : c * (z - 10 * (u * m) - 2 * (u * st) - 20 * eta) <= c * z') by (apply Rmult_le_compat_l; lra).
  assert (D3 : c * (10 * (u * m) + 2 * (u * st) + 20 * eta) <= 10 * (u * g) + 20 * eta). {
    assert (2 * (u * st) <= 10 * (u * st)) by lra. replace (10 * (u * g)) with (c * (10 * (u * st) + 10 * (u * m))) by (unfold g; ring). assert (HE := shl eta c E0 ltac:(lra)). replace (c * (10 * (u * m) + 2 * (u * st) + 20 * eta)) with (c * (10 * (u * m) + 2 * (u * st)) + 20 * (c * eta)) by ring. apply Rplus_le_compat; [apply Rmult_le_compat_l; lra | lra]. }
  assert (Ug : 0 <= u * g <= u * st) by (split; [apply ux; lra | apply Rmult_le_compat_l; lra]).
  assert (D4 : c * z' <= c * z + 10 * (u * st) + 20 * eta) by lra. assert (D5 : c * z - 10 * (u * st) - 20 * eta <= c * z') by lra.
  assert (Cz0 : 0 <= c * z') by (apply Rmult_le_pos; lra).
  assert (D6 : (c - 5 * u * c) * z' <= c' * z' <= (c + 5 * u * c) * z') by (split; apply Rmult_le_compat_r; lra).
  replace ((c - 5 * u * c) * z') with (c * z' - 5 * (u * (c * z'))) in D6 by ring. replace ((c + 5 * u * c) * z') with (c * z' + 5 * (u * (c * z'))) in D6 by ring.
  assert (D7 : u * (c * z') <= u * (st + 10 * (u * st) + 20 * eta)) by (apply Rmult_le_compat_l; lra).
  assert (UUs := ux (u * st) Us). assert (Us' := ux st ltac:(lra)).
  assert (D8 : u * (c * z') <= 2 * (u * st) + 20 * eta) by lra.
  assert (D9 : u * (c' * z') <= u * (2 * st + 1000 * eta)) by (apply Rmult_le_compat_l; lra).
  assert (eta <= tau) by lra. lra.
Qed.

Lemma flat_err :
  let x := c * (st + a0 * pl) in
  let x' := rnd (c' * rnd (st + rnd (a0 * pl))) in
  0 <= x <= st /\ x - 32 * u * st - 1024 * tau <= x' <= x + 32 * u * st + 1024 * tau.
Proof.
  intros x x'. subst x x'. destruct Heb as [[E0 E1] E2]. assert (U := u_small). assert (T := tau_small).
  set (m := a0 * pl) in *. assert (Rm : 0 <= m) by (apply Rmult_le_pos; lra).
  assert (H6 := rnd_two m Rm). assert (R6 := rnd_pos m Rm). set (m' := rnd m) in *.
  assert (Um := ux m Rm). assert (UUm := ux (u * m) (proj1 Um)). assert (Ue := ux eta E0).
  assert (H8 := rnd_two (st + m') ltac:(lra)). assert (R8 := rnd_pos (st + m') ltac:(lra)). set (z' := rnd (st + m')) in *.
  assert (X8 : u * (st + m') <= u * (st + (m + u * m + eta))) by (apply Rmult_le_compat_l; lra).
  assert (Us := ux st ltac:(lra)).
  assert (K8 : (st + m) - 10 * (u * m) - 2 * (u * st) - 20 * eta <= z' <= (st + m) + 10 * (u * m) + 2 * (u * st) + 20 * eta) by lra.
  destruct (c_pos a0 A) as ([C0 C1] & CD & _). fold c in C0, C1, CD. assert (Ec := c_err a0 A). fold c c' in Ec.
  assert (Cs : c * (st + m) <= st). { apply Rle_trans with (c * (st + a0 * st)); [apply Rmult_le_compat_l; [lra|]; unfold m; apply Rplus_le_compat_l, Rmult_le_compat_l; lra|]. replace (c * (st + a0 * st)) with (st * (c * (1 + a0))) by ring. rewrite CD. lra. }
  assert (Cn : 0 <= c * (st + m)) by (apply Rmult_le_pos; lra).
  split; [split; [exact Cn | exact Cs]|].
  assert (Kc : 0 <= c') by (assert (HU := ux c ltac:(lra)); lra). assert (R9' : 0 <= c' * z') by (apply Rmult_le_pos; lra).
  assert (H9 := rnd_two (c' * z') R9'). set (x' := rnd (c' * z')) in *.
  set (g := c * (st + m)) in *. set (z := st + m) in *.
  assert (D1 : c * z' <= c * (z + 10 * (u * m) + 2 * (u * st) + 20 * eta)) by (apply Rmult_le_compat_l; lra).
  assert (D2 : c * (z - 10 * (u * m) - 2 * (u * st) - 20 * eta) <= c * z') by (apply Rmult_le_compat_l; lra).
  assert (D3 : c * (10 * (u * m) + 2 * (u * st) + 20 * eta) <= 10 * (u * g) + 20 * eta). {
    assert (2 * (u * st) <= 10 * (u * st)) by lra. replace (10 * (u * g)) with (c * (10 * (u * st) + 10 * (u * m))) by (unfold g, z; ring). assert (HE := shl eta c E0 ltac:(lra)). replace (c * (10 * (u * m) + 2 * (u * st) + 20 * eta)) with (c * (10 * (u * m) + 2 * (u * st)) + 20 * (c * eta)) by ring. apply Rplus_le_compat; [apply Rmult_le_compat_l; lra | lra]. }
  assert (Ug : 0 <= u * g <= u * st) by (split; [apply ux; lra | apply Rmult_le_compat_l; lra]).
  assert (D4 : c * z' <= g + 10 * (u * st) + 20 * eta) by (unfold g in *; lra). assert (D5 : g - 10 * (u * st) - 20 * eta <= c * z') by (unfold g in *; lra).
  assert (Cz0 : 0 <= c * z') by (apply Rmult_le_pos; lra).
  assert (D6 : (c - 5 * u * c) * z' <= c' * z' <= (c + 5 * u * c) * z') by (split; apply Rmult_le_compat_r; lra).
  replace ((c - 5 * u * c) * z') with (c * z' - 5 * (u * (c * z'))) in D6 by ring. replace ((c + 5 * u * c) * z') with (c * z' + 5 * (u * (c * z'))) in D6 by ring.
  assert (D7 : u * (c * z') <= u * (st + 10 * (u * st) + 20 * eta)) by (apply Rmult_le_compat_l; lra).
  assert (UUs := ux (u * st) (proj1 Us)).
  assert (D8 : u * (c * z') <= 2 * (u * st) + 20 * eta) by lra.
  assert (D9 : u * (c' * z') <= u * (2 * st + 1000 * eta)) by (apply Rmult_le_compat_l; lra).
  assert (eta <= tau) by lra. lra.
Qed.

Lemma simplified_err :
  let x := c * st * (1 + a0 * pl / b) in
  let x' := rnd (rnd (c' * st) * rnd (1 + rnd (rnd (a0 * pl) / b))) in
  0 <= x <= st /\ x - 32 * u * st - 1024 * tau <= x' <= x + 32 * u * st + 1024 * tau.
Proof.
  intros x x'. subst x x'. destruct Hib as [I0 I1]. destruct Heb as [[E0 E1] E2]. assert (U := u_small). assert (T := tau_small). unfold Rdiv. fold ib.
  destruct (c_pos a0 A) as ([C0 C1] & CD & CL). fold c in C0, C1, CD, CL. assert (Ec := c_err a0 A). fold c c' in Ec.
  assert (EC : 0 <= eta <= tau * c) by (apply eta_tau; eapply Rle_trans; [|exact CL]; apply bpow_le; lia).
  assert (Kc : 0 <= c') by (assert (HU := ux c ltac:(lra)); lra).
  (* y *)
  assert (D1 : (c - 5 * u * c) * st <= c' * st <= (c + 5 * u * c) * st) by (split; apply Rmult_le_compat_r; lra).
  set (y := c * st) in *. assert (Ry : 0 <= y <= st) by (apply shl; lra).
  replace ((c - 5 * u * c) * st) with (y - 5 * (u * y)) in D1 by (unfold y; ring). replace ((c + 5 * u * c) * st) with (y + 5 * (u * y)) in D1 by (unfold y; ring).
  assert (R1 : 0 <= c' * st) by (apply Rmult_le_pos; lra). assert (H1 := rnd_two (c' * st) R1). assert (R1' := rnd_pos (c' * st) R1). set (y' := rnd (c' * st)) in *.
  assert (Uy := ux y (proj1 Ry)). assert (UUy := ux (u * y) (proj1 Uy)).
  assert (X1 : u * (c' * st) <= u * (y + 5 * (u * y))) by (apply Rmult_le_compat_l; lra). assert (Uc := ux (c' * st) R1).
  assert (K1 : y - 7 * (u * y) - eta <= y' <= y + 7 * (u * y) + eta) by lra.
  (* m *)
  set (m := a0 * pl) in *. assert (Rm : 0 <= m) by (apply Rmult_le_pos; lra).
  assert (H2 := rnd_two m Rm). assert (R2 := rnd_pos m Rm). set (m' := rnd m) in *.
  (* h *)
  assert (R3 : 0 <= m' * ib) by (apply Rmult_le_pos; lra).
  assert (D3 : (m - u * m - eta) * ib <= m' * ib <= (m + u * m + eta) * ib) by (split; apply Rmult_le_compat_r; lra).
  set (h := m * ib) in *. assert (Rh : 0 <= h) by (apply Rmult_le_pos; lra).
  replace ((m - u * m - eta) * ib) with (h - u * h - eb) in D3 by (unfold h, eb; ring). replace ((m + u * m + eta) * ib) with (h + u * h + eb) in D3 by (unfold h, eb; ring).
  assert (H3 := rnd_two (m' * ib) R3). assert (R3' := rnd_pos (m' * ib) R3). set (h' := rnd (m' * ib)) in *.
  assert (Uh := ux h Rh). assert (UUh := ux (u * h) (proj1 Uh)). assert (Ueb := ux eb ltac:(lra)).
  assert (X3 : u * (m' * ib) <= u * (h + u * h + eb)) by (apply Rmult_le_compat_l; lra). assert (Um' := ux (m' * ib) R3).
  assert (K3 : h - 3 * (u * h) - 3 * eb <= h' <= h + 3 * (u * h) + 3 * eb) by lra.
  (* k *)
  assert (H4 := rnd_two (1 + h') ltac:(lra)). assert (R4 := rnd_pos (1 + h') ltac:(lra)). set (k' := rnd (1 + h')) in *.
  assert (X4 : u * (1 + h') <= u * (1 + (h + 3 * (u * h) + 3 * eb))) by (apply Rmult_le_compat_l; lra). assert (Uh' := ux (1 + h') ltac:(lra)).
  set (k := 1 + h) in *. assert (Uk : u * k = u + u * h) by (unfold k; ring).
  assert (K4 : k - 5 * (u * k) - 6 * eb <= k' <= k + 5 * (u * k) + 6 * eb) by (rewrite Uk; unfold k; lra).
  assert (Rk : 1 <= k) by (unfold k; lra). assert (Uk' := ux k ltac:(lra)).
  (* k is at most 1 + a0 *)
  assert (Kk : c * k <= 1). { rewrite <- CD. apply Rmult_le_compat_l; [lra|]. unfold k, h, m. apply Rplus_le_compat_l. replace (a0 * pl * ib) with (a0 * (pl * ib)) by ring. apply shr; [lra|]. split; [apply Rmult_le_pos; lra|]. rewrite <- I1, (Rmult_comm ib). apply Rmult_le_compat_r; lra. }
  assert (Xs : 0 <= y * k <= st). { split; [apply Rmult_le_pos; lra|]. unfold y. replace (c * st * k) with (st * (c * k)) by ring. apply shr; [lra|]. split; [apply Rmult_le_pos; lra | exact Kk]. }
  split; [exact Xs|].
  assert (Ek : 0 <= eta * k <= tau). { split; [apply Rmult_le_pos; lra|]. apply Rle_trans with (tau * c * k); [apply Rmult_le_compat_r; lra|]. rewrite Rmult_assoc. apply shr; [lra|]. split; [apply Rmult_le_pos; lra | exact Kk]. }
  set (X := y * k) in *.
  assert (Kt : k' <= 1001 / 1000 * k) by (assert (u * u <= / 1000000 * / 1000000) by (apply Rmult_le_compat; lra); lra).
  assert (R5 : 0 <= y' * k') by (apply Rmult_le_pos; lra). assert (H5 := rnd_two (y' * k') R5). set (x' := rnd (y' * k')) in *.
  assert (UX : 0 <= u * X <= u * st) by (split; [apply ux; lra | apply Rmult_le_compat_l; lra]).
  assert (P1 : (7 * (u * y) + eta) * k' <= 8 * (u * X) + 2 * tau). {
    apply Rle_trans with ((7 * (u * y) + eta) * (1001 / 1000 * k)); [apply Rmult_le_compat_l; lra|]. replace ((7 * (u * y) + eta) * (1001 / 1000 * k)) with (7007 / 1000 * (u * X) + 1001 / 1000 * (eta * k)) by (unfold X; field). lra. }
  assert (P2 : (y' - y) * k' <= 8 * (u * X) + 2 * tau) by (eapply Rle_trans; [|exact P1]; apply Rmult_le_compat_r; lra).
  assert (P3 : - (8 * (u * X) + 2 * tau) <= (y' - y) * k') by (apply Rle_trans with (- (7 * (u * y) + eta) * k'); [rewrite Ropp_mult_distr_l_reverse; lra | apply Rmult_le_compat_r; lra]).
  assert (P4 : y * (k - 5 * (u * k) - 6 * eb) <= y * k' <= y * (k + 5 * (u * k) + 6 * eb)) by (split; apply Rmult_le_compat_l; lra).
  replace (y * (k - 5 * (u * k) - 6 * eb)) with (X - 5 * (u * X) - 6 * (eb * y)) in P4 by (unfold X; ring). replace (y * (k + 5 * (u * k) + 6 * eb)) with (X + 5 * (u * X) + 6 * (eb * y)) in P4 by (unfold X; ring).
  assert (P5 := shr eb y ltac:(lra) ltac:(lra)).
  assert (K5 : X - 13 * (u * X) - 8 * tau <= y' * k' <= X + 13 * (u * X) + 8 * tau) by lra.
  assert (UXX := ux (u * X) (proj1 UX)). assert (UT := ux tau ltac:(lra)).
  assert (X5 : u * (y' * k') <= u * (X + 13 * (u * X) + 8 * tau)) by (apply Rmult_le_compat_l; lra).
  lra.
Qed.
End Err.

(** CIP-50: the product a0 * pledge is rounded, the two minima are exact *)
Lemma cip50_err a0 b p s : 0 <= a0 * p -> 0 <= b <= 1 -> 0 <= s -> rnd s = s -> rnd b = b ->
  let x := 1 * Rmin s (Rmin (a0 * p) b) in let x' := rnd (1 * Rmin s (Rmin (rnd (a0 * p)) b)) in
  0 <= x <= Rmin s b /\ x - 32 * u * Rmin s b - 1024 * tau <= x' <= x + 32 * u * Rmin s b + 1024 * tau.
Proof.
  intros X B S Fs Fb x x'. subst x x'. rewrite Rmult_1_l, rnd_mul1; [|apply rnd_min; [exact Fs|]; apply rnd_min; [|exact Fb]; apply round_generic; [apply valid_rnd_N|]; apply generic_format_round; [apply FLT_exp_valid; reflexivity | apply valid_rnd_N]].
  assert (M : forall y, Rmin s (Rmin y b) = Rmin y (Rmin s b)) by (intros y; unfold Rmin; repeat destruct Rle_dec; lra).
  rewrite !M. set (st := Rmin s b). assert (St : 0 <= st) by (apply Rmin_glb; lra). assert (Fst : rnd st = st) by now apply rnd_min.
  assert (U := u_small). assert (T := tau_small). assert (Et := eta_tau1). assert (Us := ux st St).
  split; [split; [now apply Rmin_glb | apply Rmin_r]|].
  destruct (Rle_dec st (a0 * p)) as [L | L].
  - assert (L' : st <= rnd (a0 * p)) by (rewrite <- Fst; now apply rnd_le). rewrite !Rmin_right by assumption. lra.
  - assert (L1 : a0 * p <= st) by lra. assert (L' : rnd (a0 * p) <= st) by (rewrite <- Fst; now apply rnd_le). rewrite !Rmin_left by assumption.
    assert (E := rnd_two (a0 * p) X). assert (u * (a0 * p) <= u * st) by (apply Rmult_le_compat_l; lra). lra.
Qed.
