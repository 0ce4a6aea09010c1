(** The reward formulas of the program on binary64 numbers. *)
From Coq Require Import ZArith Reals Lra Lia Psatz List Bool.
From Coq Require PrimFloat.
From Verif Require Import Num NumFloat Py Rewards Binary64 RealArith.
From Flocq Require Core.
Import Flocq.Core.Core.
Import ListNotations.
Local Open Scope R_scope.

(** The numbers considered: any doubles far from the ends of the range. *)
Definition sane_scheme (r : rss FloatI) : Prop :=
  ffin (r_a0 r) /\ 0 <= fval (r_a0 r) <= bpow radix2 400 /\ ffin (r_thr r) /\ bpow radix2 (-400) <= fval (r_thr r) <= 1.
Definition sane (x : PrimFloat.float) : Prop := ffin x /\ 0 <= fval x <= bpow radix2 400.

(** ** sizes *)
Definition ab (x : R) (e : Z) : Prop := Rabs x <= bpow radix2 e.
Lemma ab_big x e : ab x e -> (e <= 1000)%Z -> Rabs x <= big.
Proof. intros H L. eapply Rle_trans; [exact H|]. now apply bpow_le. Qed.
Lemma ab_rnd x e : ab x e -> (-1000 <= e)%Z -> ab (rnd x) e.
Proof. intros H L. apply abs_round_le_generic; [apply FLT_exp_valid; reflexivity | apply valid_rnd_N | apply generic_format_bpow; unfold FLT_exp; lia | exact H]. Qed.
Lemma ab_mul x y e f : ab x e -> ab y f -> ab (x * y) (e + f).
Proof. intros H G. unfold ab. rewrite Rabs_mult, bpow_plus. apply Rmult_le_compat; (apply Rabs_pos || assumption). Qed.
Lemma ab_mono x e f : ab x e -> (e <= f)%Z -> ab x f.
Proof. intros H L. eapply Rle_trans; [exact H | now apply bpow_le]. Qed.
Lemma ab_dbl e : bpow radix2 e + bpow radix2 e = bpow radix2 (e + 1).
Proof. rewrite bpow_plus. change (bpow radix2 1) with 2. ring. Qed.
Lemma ab_add x y e : ab x e -> ab y e -> ab (x + y) (e + 1).
Proof. intros H G. unfold ab in *. rewrite <- ab_dbl. eapply Rle_trans; [apply Rabs_triang | lra]. Qed.
Lemma ab_sub x y e : ab x e -> ab y e -> ab (x - y) (e + 1).
Proof. intros H G. apply ab_add; [exact H|]. unfold ab. now rewrite Rabs_Ropp. Qed.
Lemma ab_div x y e f : ab x e -> bpow radix2 f <= y -> ab (x / y) (e - f).
Proof.
  intros H G. unfold ab. assert (P : 0 < bpow radix2 f) by apply bpow_gt_0. unfold Rdiv. rewrite Rabs_mult, (Rabs_pos_eq (/ y)) by (apply Rlt_le, Rinv_0_lt_compat; lra).
  unfold Z.sub. rewrite bpow_plus. apply Rmult_le_compat; [apply Rabs_pos | apply Rlt_le, Rinv_0_lt_compat; lra | exact H|]. rewrite bpow_opp. now apply Rinv_le.
Qed.
Lemma ab_1 : ab 1 0.
Proof. unfold ab. rewrite Rabs_R1. cbn. lra. Qed.
Lemma ab_pos x e : 0 <= x <= bpow radix2 e -> ab x e.
Proof. intros H. unfold ab. rewrite Rabs_pos_eq; lra. Qed.

Lemma rnd_le_1 x : x <= 1 -> rnd x <= 1.
Proof. intros H. rewrite <- rnd_1. now apply rnd_le. Qed.
Lemma rnd_ge_1 x : 1 <= x -> 1 <= rnd x.
Proof. intros H. rewrite <- rnd_1. now apply rnd_le. Qed.
Lemma rnd_mul1 x : rnd x = x -> rnd (1 * x) = x.
Proof. now rewrite Rmult_1_l. Qed.
Lemma div_01 x y : 0 < y -> 0 <= x <= y -> 0 <= x / y <= 1.
Proof.
  intros P H. assert (I := Rinv_0_lt_compat y P). split; [apply Rmult_le_pos; lra|]. apply (Rmult_le_reg_r y); [exact P|]. unfold Rdiv. rewrite Rmult_assoc, Rinv_l by lra. lra.
Qed.
Lemma rmin_pos x y : 0 <= x -> 0 <= y -> 0 <= Rmin x y <= y.
Proof. intros H G. split; [now apply Rmin_glb | apply Rmin_r]. Qed.
Lemma rnd_min x y : rnd x = x -> rnd y = y -> rnd (Rmin x y) = Rmin x y.
Proof. unfold Rmin. now destruct (Rle_dec x y). Qed.

(** ** the formulas over the reals *)
Definition reward_R (rn : R -> R) (sc : scheme) (a0 b p s : R) : R :=
  let pl := Rmin p b in let st := Rmin s b in
  let c := rn (1 / rn (1 + a0)) in
  match sc with
  | Cardano => rn (c * rn (st + rn (rn (pl * a0) * rn (rn (st - rn (pl * rn (1 - rn (st / b)))) / b))))
  | Simplified => rn (rn (c * st) * rn (1 + rn (rn (a0 * pl) / b)))
  | Flat => rn (c * rn (st + rn (a0 * pl)))
  | CIP50 => rn (1 * Rmin s (Rmin (rn (a0 * p)) b))
  end.
Lemma pool_reward_R rn (r : rss (RealA rn)) p s : rn (1 + r_a0 r) <> 0 -> r_thr r <> 0 ->
  pool_reward r p s = Ok (reward_R rn (r_scheme r) (r_a0 r) (r_thr r) p s).
Proof.
  intros N B. unfold pool_reward, pool_threshold, reward_R, total_R. cbv zeta. rewrite !(pmin_R rn). unfold pdiv. cbn [eqb zero one add sub mul div RealA T].
  rewrite (Req_bool_false _ _ N), (Req_bool_false _ _ B). cbn [bind]. now destruct (r_scheme r).
Qed.

(** ** binary64 computes the rounded formula *)
Theorem machine_reward (r : rss FloatI) (pledge stake : PrimFloat.float) : sane_scheme r -> sane pledge -> sane stake ->
  exists x, pool_reward (A := FloatI) r pledge stake = Ok x /\ ffin x /\ pool_reward (A := RoundR) (rss_val rnd r) (fval pledge) (fval stake) = Ok (fval x).
Proof.
  intros (FA & BA & FB & BB) (FP & BP) (FS & BS).
  assert (P4 : 0 < bpow radix2 (-400)) by apply bpow_gt_0.
  assert (NB : fval (r_thr r) <> 0) by lra.
  set (a0 := fval (r_a0 r)) in *. set (b := fval (r_thr r)) in *.
  assert (Sa : stands (r_a0 r) a0) by now apply stands_fval. assert (Sb : stands (r_thr r) b) by now apply stands_fval.
  assert (Sp : stands (pmin (A := FloatI) pledge (r_thr r)) (Rmin (fval pledge) b)) by (apply stands_pmin; [now apply stands_fval | exact Sb]).
  assert (Ss : stands (pmin (A := FloatI) stake (r_thr r)) (Rmin (fval stake) b)) by (apply stands_pmin; [now apply stands_fval | exact Sb]).
  assert (Pp := rmin_pos (fval pledge) b (proj1 BP) ltac:(lra)). assert (Ps := rmin_pos (fval stake) b (proj1 BS) ltac:(lra)).
  assert (Hc : exists c, pdiv (A := FloatI) (total_R FloatI) (add one (r_a0 r)) = Ok c /\ stands c (rnd (1 / rnd (1 + a0))) /\ rnd (1 + a0) <> 0 /\ ab (rnd (1 / rnd (1 + a0))) 0). {
    assert (S1 : stands (add one (r_a0 r)) (rnd (1 + a0))) by (apply stands_add; [apply stands_1 | exact Sa | apply (ab_big _ 401); [|lia]; apply (ab_add _ _ 400); [apply (ab_mono _ 0); [apply ab_1 | lia] | apply ab_pos; exact BA]]).
    assert (G1 : 1 <= rnd (1 + a0)) by (apply rnd_ge_1; lra).
    assert (B1 : ab (1 / rnd (1 + a0)) 0) by (apply (ab_div 1 _ 0 0); [apply ab_1 | exact G1]).
    destruct (stands_pdiv (total_R FloatI) _ 1 _ stands_1 S1) as (c & E & S); [lra | apply (ab_big _ 0); [exact B1 | lia]|].
    exists c. split; [exact E|]. split; [exact S|]. split; [lra|]. apply ab_rnd; [exact B1 | lia].
  }
  destruct Hc as (c & Ec & Sc & Nc & Bc).
  unfold RoundR. rewrite (pool_reward_R rnd (rss_val rnd r) (fval pledge) (fval stake) Nc NB). unfold pool_reward, reward_R. cbv zeta.
  change (r_scheme (rss_val rnd r)) with (r_scheme r). change (r_a0 (rss_val rnd r)) with a0. change (r_thr (rss_val rnd r)) with b.
  set (pl := Rmin (fval pledge) b) in *. set (st := Rmin (fval stake) b) in *.
  assert (ab pl 0) by (apply ab_pos; cbn; lra). assert (ab st 0) by (apply ab_pos; cbn; lra). assert (ab a0 400) by now apply ab_pos.
  destruct (r_scheme r) eqn:Esc.
  - (* Cardano *)
    rewrite Ec. cbn [bind].
    assert (B1 : ab (st / b) 400) by (apply (ab_div st b 0 (-400)); [assumption | lra]).
    destruct (stands_pdiv _ _ _ _ Ss Sb NB ltac:(apply (ab_big _ 400); [exact B1 | lia])) as (s & Es & S1). rewrite Es. cbn [bind].
    assert (R1 : 0 <= rnd (st / b) <= 1) by (split; [apply rnd_pos; apply div_01; lra | apply rnd_le_1; apply div_01; lra]).
    assert (B2 : ab (1 - rnd (st / b)) 0) by (apply ab_pos; cbn; lra).
    assert (S2 := stands_sub _ _ _ _ stands_1 S1 ltac:(apply (ab_big _ 0); [exact B2 | lia])).
    assert (B3 : ab (pl * rnd (1 - rnd (st / b))) 0) by (apply (ab_mul _ _ 0 0); [assumption | apply ab_rnd; [exact B2 | lia]]).
    assert (S3 := stands_mul _ _ _ _ Sp S2 ltac:(apply (ab_big _ 0); [exact B3 | lia])).
    assert (B4 : ab (st - rnd (pl * rnd (1 - rnd (st / b)))) 1) by (apply (ab_sub _ _ 0); [assumption | apply ab_rnd; [exact B3 | lia]]).
    assert (S4 := stands_sub _ _ _ _ Ss S3 ltac:(apply (ab_big _ 1); [exact B4 | lia])).
    assert (B5 : ab (rnd (st - rnd (pl * rnd (1 - rnd (st / b)))) / b) 401) by (apply (ab_div _ b 1 (-400)); [apply ab_rnd; [exact B4 | lia] | lra]).
    destruct (stands_pdiv _ _ _ _ S4 Sb NB ltac:(apply (ab_big _ 401); [exact B5 | lia])) as (q & Eq & S5). rewrite Eq. cbn [bind].
    assert (B6 : ab (pl * a0) 400) by (apply (ab_mul _ _ 0 400); assumption).
    assert (S6 := stands_mul _ _ _ _ Sp Sa ltac:(apply (ab_big _ 400); [exact B6 | lia])).
    assert (B7 := ab_mul _ _ _ _ (ab_rnd _ _ B6 ltac:(lia)) (ab_rnd _ _ B5 ltac:(lia))).
    assert (S7 := stands_mul _ _ _ _ S6 S5 ltac:(apply (ab_big _ 801); [exact B7 | lia])).
    assert (B8 := ab_add _ _ 801 (ab_mono st 0 801 ltac:(assumption) ltac:(lia)) (ab_rnd _ _ B7 ltac:(lia))).
    assert (S8 := stands_add _ _ _ _ Ss S7 ltac:(apply (ab_big _ 802); [exact B8 | lia])).
    assert (B9 := ab_mul _ _ _ _ Bc (ab_rnd _ _ B8 ltac:(lia))).
    assert (S9 := stands_mul _ _ _ _ Sc S8 ltac:(apply (ab_big _ 802); [exact B9 | lia])).
    destruct S9 as [F9 V9]. eexists. split; [reflexivity|]. split; [exact F9|]. rewrite V9. reflexivity.
  - (* Simplified *)
    rewrite Ec. cbn [bind].
    assert (B1 : ab (a0 * pl) 400) by (apply (ab_mul _ _ 400 0); assumption).
    assert (S1 := stands_mul _ _ _ _ Sa Sp ltac:(apply (ab_big _ 400); [exact B1 | lia])).
    assert (B2 : ab (rnd (a0 * pl) / b) 800) by (apply (ab_div _ b 400 (-400)); [apply ab_rnd; [exact B1 | lia] | lra]).
    destruct (stands_pdiv _ _ _ _ S1 Sb NB ltac:(apply (ab_big _ 800); [exact B2 | lia])) as (q & Eq & S2). rewrite Eq. cbn [bind].
    assert (B3 := ab_mul _ _ _ _ Bc (ltac:(assumption) : ab st 0)).
    assert (S3 := stands_mul _ _ _ _ Sc Ss ltac:(apply (ab_big _ 0); [exact B3 | lia])).
    assert (B4 := ab_add _ _ 800 (ab_mono _ 0 800 ab_1 ltac:(lia)) (ab_rnd _ _ B2 ltac:(lia))).
    assert (S4 := stands_add _ _ _ _ stands_1 S2 ltac:(apply (ab_big _ 801); [exact B4 | lia])).
    assert (B5 := ab_mul _ _ _ _ (ab_rnd _ _ B3 ltac:(lia)) (ab_rnd _ _ B4 ltac:(lia))).
    assert (S5 := stands_mul _ _ _ _ S3 S4 ltac:(apply (ab_big _ 801); [exact B5 | lia])).
    destruct S5 as [F5 V5]. eexists. split; [reflexivity|]. split; [exact F5|]. rewrite V5. reflexivity.
  - (* Flat *)
    rewrite Ec. cbn [bind].
    assert (B1 : ab (a0 * pl) 400) by (apply (ab_mul _ _ 400 0); assumption).
    assert (S1 := stands_mul _ _ _ _ Sa Sp ltac:(apply (ab_big _ 400); [exact B1 | lia])).
    assert (B2 := ab_add _ _ 400 (ab_mono _ 0 400 (ltac:(assumption) : ab st 0) ltac:(lia)) (ab_rnd _ _ B1 ltac:(lia))).
    assert (S2 := stands_add _ _ _ _ Ss S1 ltac:(apply (ab_big _ 401); [exact B2 | lia])).
    assert (B3 := ab_mul _ _ _ _ Bc (ab_rnd _ _ B2 ltac:(lia))).
    assert (S3 := stands_mul _ _ _ _ Sc S2 ltac:(apply (ab_big _ 401); [exact B3 | lia])).
    destruct S3 as [F3 V3]. eexists. split; [reflexivity|]. split; [exact F3|]. rewrite V3. reflexivity.
  - (* CIP50 *)
    unfold pool_threshold. rewrite Esc.
    assert (B1 : ab (a0 * fval pledge) 800) by (apply (ab_mul _ _ 400 400); [assumption | now apply ab_pos]).
    assert (S1 := stands_mul _ _ _ _ Sa (stands_fval _ FP) ltac:(apply (ab_big _ 800); [exact B1 | lia])).
    assert (S2 := stands_pmin _ _ _ _ S1 Sb). 
    assert (S3 := stands_pmin _ _ _ _ (stands_fval _ FS) S2).
    assert (P1 : 0 <= Rmin (rnd (a0 * fval pledge)) b <= b) by (apply rmin_pos; [apply rnd_pos, Rmult_le_pos; tauto | lra]).
    assert (P2 : 0 <= Rmin (fval stake) (Rmin (rnd (a0 * fval pledge)) b) <= 1) by (split; [apply Rmin_glb; tauto | eapply Rle_trans; [apply Rmin_r | lra]]).
    assert (B3 : ab (1 * Rmin (fval stake) (Rmin (rnd (a0 * fval pledge)) b)) 0) by (apply ab_pos; cbn; lra).
    assert (S4 := stands_mul _ _ _ _ stands_1 S3 ltac:(apply (ab_big _ 0); [exact B3 | lia])).
    destruct S4 as [F4 V4]. eexists. split; [|split; [exact F4|]]; [|rewrite V4].
    + reflexivity.
    + reflexivity.
Qed.
