(** The amounts agents handle in the arithmetic of the machine: delegations and pledges stay between nothing and the stakes of the agents. *)
From Coq Require Import ZArith Reals Lra Lia Psatz List Bool Permutation.
From Coq Require Import PrimFloat Uint63.
From Coq Require FloatOps SpecFloat FloatAxioms.
From Verif Require Import Num NumFloat FloatOrd Py Rewards Binary64 RealArith FloatReward FloatError PropFloat SortedKeyList World Stakeholder Sched Sim Init Reach ListFacts Greedy.
From Flocq Require Core BinarySingleNaN PrimFloat.
Import Flocq.Core.Core.
Import ListNotations.
Local Open Scope R_scope.

(** * comparisons *)
Lemma fin_not_nan x : ffin x -> F_nan x = false.
Proof. intros F. unfold F_nan. assert (E : PrimFloat.eqb x x = true) by (now apply eqb_val). now rewrite E. Qed.
Lemma flt_val x y : ffin x -> ffin y -> (F_ltb x y = true <-> fval x < fval y).
Proof. intros F G. unfold F_ltb. rewrite (fin_not_nan x F), (fin_not_nan y G). now apply ltb_val. Qed.
Lemma flt_val_false x y : ffin x -> ffin y -> (F_ltb x y = false <-> fval y <= fval x).
Proof. intros F G. unfold F_ltb. rewrite (fin_not_nan x F), (fin_not_nan y G). now apply ltb_val_false. Qed.
Lemma fin_SF x : ffin x <-> BinarySingleNaN.is_finite_SF (FloatOps.Prim2SF x) = true.
Proof. unfold ffin. rewrite <- PrimFloat.B2SF_Prim2B. now rewrite BinarySingleNaN.is_finite_SF_B2SF. Qed.
(** a float that is at least one finite float and below another one is finite *)
Lemma between_fin x lo hi : ffin lo -> ffin hi -> F_ltb x lo = false -> F_ltb x hi = true -> ffin x.
Proof.
  intros Fl Fh L H. unfold F_ltb in *. rewrite (fin_not_nan lo Fl) in L. rewrite (fin_not_nan hi Fh) in H. destruct (F_nan x) eqn:N; [discriminate H|].
  rewrite FloatAxioms.ltb_spec in L, H. apply fin_SF in Fl. apply fin_SF in Fh. apply fin_SF.
  assert (Nx : FloatOps.Prim2SF x <> SpecFloat.S754_nan) by (rewrite <- F_nan_spec; congruence).
  destruct (FloatOps.Prim2SF x) as [s|s| |s m e]; [reflexivity | | now destruct Nx | reflexivity]. exfalso.
  destruct s.
  - destruct (FloatOps.Prim2SF lo) as [[]|[]| |[] ? ?]; try discriminate Fl; discriminate L.
  - destruct (FloatOps.Prim2SF hi) as [[]|[]| |[] ? ?]; try discriminate Fh; discriminate H.
Qed.
Lemma min_fin : ffin (min_stake_unit (a := FloatA)) /\ 0 <= fval (min_stake_unit (a := FloatA)).
Proof. destruct (unit_unit (min_stake_unit (a := FloatA)) eq_refl) as [F B]. split; [exact F | lra]. Qed.

(** * integers *)
Lemma bpow_63 : bpow radix2 63 = IZR (2 ^ 63).
Proof. symmetry. exact (IZR_Zpower radix2 63 ltac:(lia)). Qed.
Lemma rnd_63 (z : Z) : (0 <= z < 2 ^ 63)%Z -> 0 <= rnd (IZR z) <= bpow radix2 63 /\ (rnd (IZR z) = 0 \/ 1 <= rnd (IZR z)).
Proof.
  intros Bz. assert (L : 0 <= IZR z <= bpow radix2 63). { rewrite bpow_63. split; apply IZR_le; lia. }
  split; [split; [now apply rnd_pos|]|].
  - assert (X : rnd (bpow radix2 63) = bpow radix2 63) by (apply round_generic; [apply valid_rnd_N | apply generic_format_bpow; unfold FLT_exp; lia]). rewrite <- X. now apply rnd_le.
  - destruct (Z.eq_dec z 0) as [->|N]; [left; apply rnd_0|]. right. apply rnd_ge_1. apply IZR_le. lia.
Qed.
Lemma normal_val (z : Z) : (0 <= z < 2 ^ 63)%Z -> let b := BinarySingleNaN.binary_normalize 53 1024 PrimFloat.Hprec PrimFloat.Hmax BinarySingleNaN.mode_NE z 0 false in
  BinarySingleNaN.is_finite b = true /\ BinarySingleNaN.B2R b = rnd (IZR z).
Proof.
  intros Bz b. assert (H := BinarySingleNaN.binary_normalize_correct 53 1024 PrimFloat.Hprec PrimFloat.Hmax BinarySingleNaN.mode_NE z 0 false). cbv zeta in H. fold b in H. clearbody b.
  change (round radix2 _ _ ?y) with (rnd y) in H.
  assert (V : F2R (Float radix2 z 0) = IZR z) by (unfold F2R; cbn [Fnum Fexp bpow]; ring). rewrite V in H. destruct (rnd_63 z Bz) as [M _].
  rewrite Rlt_bool_true in H. 2:{ rewrite Rabs_pos_eq by tauto. apply Rle_lt_trans with (bpow radix2 63); [tauto | apply bpow_lt; lia]. }
  destruct H as (H1 & H2 & _). now split.
Qed.
Lemma to_Z_63 (x : Uint63.int) : (0 <= Uint63.to_Z x < 2 ^ 63)%Z.
Proof. assert (X := Uint63.to_Z_bounded x). assert (W : Uint63.wB = (2 ^ 63)%Z) by reflexivity. rewrite W in X. exact X. Qed.
Lemma ofZ_any (n : Z) : (1 <= n)%Z -> ffin (F_ofZ n) /\ (fval (F_ofZ n) = 0 \/ 1 <= fval (F_ofZ n) <= bpow radix2 63).
Proof.
  intros K. destruct n as [|k|k]; try lia. unfold ffin, fval, F_ofZ. rewrite PrimFloat.of_int63_equiv. assert (Bz := to_Z_63 (Uint63.of_Z (Zpos k))). generalize dependent (Uint63.to_Z (Uint63.of_Z (Zpos k))). intros z Bz.
  destruct (normal_val z Bz) as [H1 H2]. destruct (rnd_63 z Bz) as [M1 M2]. split; [exact H1|]. rewrite <- H2 in M1, M2. destruct M2 as [M2|M2]; [left; exact M2|]. right. split; [exact M2 | exact (proj2 M1)].
Qed.
(** a number whose whole part is positive *)
Lemma trunc_pos (x : PrimFloat.float) : (1 <= F_trunc x)%Z -> ffin x /\ 1 <= fval x.
Proof.
  unfold F_trunc. intros H. rewrite fin_SF, fval_SF. destruct (FloatOps.Prim2SF x) as [s|s| |s m e]; try lia. split; [reflexivity|]. destruct s.
  - exfalso. destruct (Z.leb_spec 0 e).
    + assert (0 <= Z.shiftl (Zpos m) e)%Z by (apply Z.shiftl_nonneg; lia). lia.
    + assert (0 <= Z.shiftr (Zpos m) (- e))%Z by (apply Z.shiftr_nonneg; lia). lia.
  - unfold BinarySingleNaN.SF2R, F2R. cbn [Fnum Fexp cond_Zopp]. destruct (Z.leb_spec 0 e) as [E|E].
    + assert (1 <= IZR (Zpos m)) by (apply IZR_le; lia). assert (1 <= bpow radix2 e) by (apply (bpow_le radix2 0 e); lia). nra.
    + rewrite Z.shiftr_div_pow2 in H by lia. assert (2 ^ (- e) <= Zpos m)%Z. { destruct (Z_lt_le_dec (Zpos m) (2 ^ (- e))) as [C|C]; [|exact C]. rewrite Z.div_small in H by lia. lia. }
      replace 1 with (bpow radix2 (- e) * bpow radix2 e) by (rewrite <- bpow_plus; replace (- e + e)%Z with 0%Z by lia; reflexivity). apply Rmult_le_compat_r; [apply bpow_ge_0|].
      rewrite <- IZR_Zpower by lia. now apply IZR_le.
Qed.

Section Range.
  (** the stakes of the agents, and a bound on all of them *)
  Variable cap : nat -> R.
  Variable top : R.
  Hypothesis cap_top : forall a, cap a <= top.
  Hypothesis top_1 : 0 <= top <= 2.
  Definition amount (a : nat) (x : T FloatA) : Prop := ffin x /\ 0 <= fval x <= cap a.
  Definition deposit (a : nat) (x : T FloatA) : Prop := amount a x /\ ltb x min_stake_unit = false.
  Definition pledgeable (x : T FloatA) : Prop := ffin x /\ 0 <= fval x <= top.
  Definition sound_rss (rs : rss FloatA) : Prop := (1 <= r_k rs)%Z -> ffin (r_thr rs) /\ 0 < fval (r_thr rs).

  Lemma sub_amount a x y : amount a x -> ffin y -> 0 <= fval y <= fval x -> amount a (sub x y) /\ fval (sub (a := FloatA) x y) <= fval x.
  Proof.
    intros (F & L & U) G B. assert (T1 := cap_top a). destruct (sub_val x y F G) as [S1 S2]; [apply Rabs_le; unfold big; assert (4 <= bpow radix2 1000) by (apply (bpow_le radix2 2 1000); lia); lra|].
    assert (R1 : 0 <= rnd (fval x - fval y)) by (apply rnd_pos; lra). assert (R2 : rnd (fval x - fval y) <= fval x) by (rewrite <- (rnd_fval x) at 2; apply rnd_le; lra).
    change (sub (a := FloatA) x y) with (PrimFloat.sub x y). unfold amount. rewrite S2. split; [|exact R2]. split; [exact S1 | lra].
  Qed.
  Lemma greedy_deposits rs a : forall el x d best, amount a x -> ltb x min_stake_unit = false -> (forall id v, In (id, v) d -> deposit a v) ->
    amount a (snd (fst (greedy rs el x d best))) /\ forall id v, In (id, v) (fst (fst (greedy rs el x d best))) -> deposit a v.
  Proof.
    induction el as [|p el IH]; intros x d best Hx Bx Hd; cbn [greedy]; [now split|].
    set (room := sub (pool_threshold rs (p_pledge p)) (p_stake p)). destruct (ltb room min_stake_unit) eqn:E; [now apply IH|].
    assert (Y : deposit a (pmin x room) /\ fval (pmin (A := FloatA) x room) <= fval x).
    { unfold pmin. destruct (ltb room x) eqn:El; [|split; [now split | apply Rle_refl]]. destruct Hx as (F & L & U). destruct min_fin as (Fm & Pm).
      assert (Fr : ffin room) by exact (between_fin room _ _ Fm F E El). apply (flt_val_false _ _ Fr Fm) in E as E'. apply (flt_val _ _ Fr F) in El as El'. split; [|lra]. split; [|exact E]. split; [exact Fr | lra]. }
    destruct Y as ((Y1 & Y2) & Y3). assert (Z := sub_amount a x (pmin x room) Hx (proj1 Y1) (conj (proj1 (proj2 Y1)) Y3)). destruct Z as [Z1 _].
    assert (Hd' : forall id v, In (id, v) (set d (p_id p) (pmin x room)) -> deposit a v). { intros id v J. revert J. clear - Hd Y1 Y2. induction d as [|[k y] d IH']; cbn [set].
      - intros [[= <- <-]|[]]. now split.
      - destruct (Nat.eqb (p_id p) k); intros [[= <- <-]|J]; [now split | apply (Hd id); now right | apply (Hd k); now left | apply IH'; [intros i z J'; apply (Hd i); now right | exact J]]. }
    destruct (ltb (sub x (pmin x room)) min_stake_unit) eqn:E2; cbn [fst snd]; [now split|]. now apply IH.
  Qed.
  Lemma greedy_range a x rs el id v : amount a x -> ltb x min_stake_unit = false -> In (id, v) (greedy_allocations rs el x) -> deposit a v.
  Proof.
    intros Hx Bx. unfold greedy_allocations. destruct (greedy rs el x [] None) as [[d rest] best] eqn:E. destruct (greedy_deposits rs a el x [] None Hx Bx (fun _ _ J => match J with end)) as [G1 G2]. rewrite E in G1, G2. cbn [fst snd] in G1, G2.
    destruct best as [i|]; [|exact (G2 id v)]. destruct (leb min_stake_unit rest) eqn:L; [|exact (G2 id v)]. assert (B : ltb (a := FloatA) rest min_stake_unit = false). { rewrite (ol_leb _ FloatA_ord) in L. now apply negb_true_iff in L. }
    clear - G1 G2 B. revert G2. induction d as [|[k y] d IH]; intros G2; cbn [set].
    - intros [[= <- <-]|[]]. now split.
    - destruct (Nat.eqb i k); intros [[= <- <-]|J]; [now split | apply (G2 id); now right | apply (G2 k); now left | apply IH; [intros j z J'; apply (G2 j); now right | exact J]].
  Qed.
  Lemma pledge_range a x rs n (q : T FloatA) : sound_rss rs -> (1 <= n <= r_k rs)%Z -> amount a x -> pledge_per_pool x (r_thr rs) n = Ok q -> ffin q /\ 0 <= fval q <= fval x.
  Proof.
    intros Hr Hn (F & L & U) H. destruct (Hr ltac:(lia)) as (Ft & Pt). unfold pledge_per_pool in H. destruct (n <=? 0)%Z; [discriminate H|]. destruct (pdiv x (ofZ n)) as [y|] eqn:E; [|discriminate H]. cbn [bind] in H. injection H as <-.
    unfold pdiv in E. destruct (eqb (ofZ n) zero) eqn:Ez; [discriminate E|]. injection E as <-. destruct (ofZ_any n ltac:(lia)) as [Fn Vn]. change (F_ofZ n) with (ofZ (a := FloatA) n) in *.
    destruct Vn as [Vn|Vn].
    - exfalso. change (eqb (a := FloatA) (ofZ n) zero) with (F_eqb (ofZ (a := FloatA) n) PrimFloat.zero) in Ez. unfold F_eqb in Ez. destruct val_0 as [V0 F0].
      assert (X1 : F_ltb (ofZ (a := FloatA) n) PrimFloat.zero = false) by (apply flt_val_false; [exact Fn | exact F0 | lra]). assert (X2 : F_ltb PrimFloat.zero (ofZ (a := FloatA) n) = false) by (apply flt_val_false; [exact F0 | exact Fn | lra]). rewrite X1, X2 in Ez. discriminate Ez.
    - assert (T1 := cap_top a). assert (D : 0 <= fval x / fval (ofZ (a := FloatA) n) <= fval x).
      { assert (0 < / fval (ofZ (a := FloatA) n) <= 1) by (split; [apply Rinv_0_lt_compat; lra | rewrite <- Rinv_1; apply Rinv_le; lra]). unfold Rdiv. split; [apply Rmult_le_pos; lra|]. rewrite <- (Rmult_1_r (fval x)) at 2. apply Rmult_le_compat_l; lra. }
      destruct (div_val x (ofZ (a := FloatA) n) F Fn) as [Q1 Q2]; [lra | apply Rabs_le; unfold big; assert (4 <= bpow radix2 1000) by (apply (bpow_le radix2 2 1000); lia); lra|]. change (PrimFloat.div x (ofZ (a := FloatA) n)) with (div (a := FloatA) x (ofZ n)) in *.
      assert (R1 : 0 <= rnd (fval x / fval (ofZ (a := FloatA) n)) <= fval x) by (split; [apply rnd_pos; tauto | rewrite <- (rnd_fval x) at 2; apply rnd_le; tauto]). rewrite <- Q2 in R1.
      unfold pmin. destruct (ltb (r_thr rs) (div x (ofZ n))) eqn:Ec; [|now split]. apply (flt_val _ _ Ft Q1) in Ec. split; [exact Ft | lra].
  Qed.
  Lemma pledgeable_pledge a x rs n (q : T FloatA) : sound_rss rs -> (1 <= n <= r_k rs)%Z -> amount a x -> pledge_per_pool x (r_thr rs) n = Ok q -> pledgeable q.
  Proof. intros Hr Hn Hx H. destruct (pledge_range a x rs n q Hr Hn Hx H) as [F B]. assert (T1 := cap_top a). destruct Hx as (_ & _ & U). split; [exact F | lra]. Qed.
  Lemma rest_amount a x rs n (q : T FloatA) : sound_rss rs -> (1 <= n <= r_k rs)%Z -> amount a x -> pledge_per_pool x (r_thr rs) n = Ok q -> ltb zero (sub x (mul q (ofZ n))) = true -> amount a (sub x (mul q (ofZ n))).
  Proof.
    intros Hr Hn Hx H El. destruct (pledge_range a x rs n q Hr Hn Hx H) as [F B]. assert (T1 := cap_top a). destruct Hx as (Fx & Lx & Ux). destruct (ofZ_any n ltac:(lia)) as [Fn Vn]. change (F_ofZ n) with (ofZ (a := FloatA) n) in *.
    assert (B63 : 1 <= bpow radix2 63) by (apply (bpow_le radix2 0 63); lia). assert (Vn' : 0 <= fval (ofZ (a := FloatA) n) <= bpow radix2 63) by (destruct Vn; lra).
    assert (M : 0 <= fval q * fval (ofZ (a := FloatA) n) <= bpow radix2 64). { split; [apply Rmult_le_pos; lra|]. change 64%Z with (1 + 63)%Z. rewrite bpow_plus. change (bpow radix2 1) with 2. apply Rmult_le_compat; lra. }
    assert (Bg : bpow radix2 64 + 4 <= big). { unfold big. apply Rle_trans with (bpow radix2 65); [|apply bpow_le; lia]. change 65%Z with (1 + 64)%Z. rewrite bpow_plus. change (bpow radix2 1) with 2. assert (4 <= bpow radix2 64) by (apply (bpow_le radix2 2 64); lia). lra. }
    destruct (mul_val q (ofZ (a := FloatA) n) F Fn) as [M1 M2]; [apply Rabs_le; lra|]. change (PrimFloat.mul q (ofZ (a := FloatA) n)) with (mul (a := FloatA) q (ofZ n)) in *.
    assert (M3 : 0 <= fval (mul (a := FloatA) q (ofZ n)) <= bpow radix2 64). { rewrite M2. split; [apply rnd_pos; tauto|]. assert (X : rnd (bpow radix2 64) = bpow radix2 64) by (apply round_generic; [apply valid_rnd_N | apply generic_format_bpow; cbn; lia]). rewrite <- X. apply rnd_le. tauto. }
    destruct (sub_val x (mul (a := FloatA) q (ofZ n)) Fx M1) as [S1 S2]; [apply Rabs_le; lra|]. change (PrimFloat.sub x (mul (a := FloatA) q (ofZ n))) with (sub (a := FloatA) x (mul q (ofZ n))) in *.
    destruct val_0 as [V0 F0]. apply (flt_val _ _ F0 S1) in El. rewrite V0 in El. split; [exact S1|]. split; [lra|]. rewrite S2. apply Rle_trans with (fval x); [|exact Ux]. rewrite <- (rnd_fval x) at 2. apply rnd_le. lra.
  Qed.
End Range.
(** one over a finite number that is at least 1 does not underflow *)
Lemma inv_pos (x : PrimFloat.float) : ffin x -> 1 <= fval x -> 0 < rnd (1 / fval x).
Proof.
  intros F L. assert (U : fval x <= bpow radix2 1024). { apply Rle_trans with (Rabs (fval x)); [apply Rle_abs|]. apply Rlt_le. apply BinarySingleNaN.abs_B2R_lt_emax. }
  apply Rlt_le_trans with (bpow radix2 (-1024)); [apply bpow_gt_0|]. assert (X : rnd (bpow radix2 (-1024)) = bpow radix2 (-1024)) by (apply round_generic; [apply valid_rnd_N | apply generic_format_bpow; unfold FLT_exp; lia]).
  rewrite <- X. apply rnd_le. unfold Rdiv. rewrite Rmult_1_l. change (-1024)%Z with (- (1024))%Z. rewrite bpow_opp. apply Rinv_le; lra.
Qed.
Lemma set_k_sound (r : rss FloatA) x r' : set_k r x = Ok r' -> sound_rss r'.
Proof.
  unfold set_k. destruct (eqb x zero); [discriminate|]. intros H. destruct (pdiv (total_R FloatA) x) as [t|] eqn:E; [|discriminate H]. cbn [bind] in H. injection H as <-. intros K. cbn [r_k r_thr] in *. apply trunc_pos in K as [F L].
  unfold pdiv in E. destruct (eqb x zero); [discriminate E|]. injection E as <-. destruct val_1 as [V1 F1].
  assert (D : 0 <= fval PrimFloat.one / fval x <= 1) by (rewrite V1; apply div_01; lra).
  destruct (div_val PrimFloat.one x F1 F) as [Q1 Q2]; [lra | apply Rabs_le; unfold big; assert (4 <= bpow radix2 1000) by (apply (bpow_le radix2 2 1000); lia); lra|].
  split; [exact Q1|]. change (0 < fval (PrimFloat.div PrimFloat.one x)). rewrite Q2, V1. now apply inv_pos.
Qed.
Lemma set_a0_sound (r : rss FloatA) x : sound_rss r -> sound_rss (set_a0 r x).
Proof. intros H. exact H. Qed.
