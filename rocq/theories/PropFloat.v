(** Rewards in the arithmetic of the machine (C77) and their division (C78).  Rocq's primitive floats are binary64, as Python's are; [fval] is the real number
    a finite float stands for. *)
From Coq Require Import ZArith Reals Lra Lia Psatz List Bool Uint63.
From Coq Require Import PrimFloat.
From Coq Require FloatOps SpecFloat.
Set Warnings "-inexact-float".
From Verif Require Import Num NumFloat Py Rewards Binary64 RealArith FloatReward FloatError.
From Flocq Require Core BinarySingleNaN PrimFloat.
Import Flocq.Core.Core.
Import ListNotations.
Local Open Scope R_scope.

(** * C77: the reward of a pool *)

Lemma reward_id sc a0 b p s : 0 <= a0 -> 0 < b ->
  reward_R (fun x => x) sc a0 b p s =
  let pl := Rmin p b in let st := Rmin s b in
  match sc with
  | Cardano => / (1 + a0) * (st + pl * a0 * ((st - pl * (1 - st / b)) / b))
  | Simplified => / (1 + a0) * st * (1 + a0 * pl / b)
  | Flat => / (1 + a0) * (st + a0 * pl)
  | CIP50 => 1 * Rmin s (Rmin (a0 * p) b)
  end.
Proof. intros A B. unfold reward_R. cbv zeta. unfold Rdiv. rewrite Rmult_1_l. destruct sc; reflexivity. Qed.

Lemma reward_err sc a0 b p s : 0 <= a0 <= bpow radix2 400 -> bpow radix2 (-400) <= b <= 1 -> 0 <= p <= s -> rnd p = p -> rnd s = s -> rnd b = b ->
  let x := reward_R (fun x => x) sc a0 b p s in let x' := reward_R rnd sc a0 b p s in
  0 <= x <= Rmin s b /\ x - 32 * u * Rmin s b - 1024 * tau <= x' <= x + 32 * u * Rmin s b + 1024 * tau.
Proof.
  intros A B P Fp Fs Fb x x'. assert (0 < bpow radix2 (-400)) by apply bpow_gt_0. subst x x'. rewrite reward_id by lra. cbv zeta. unfold reward_R. cbv zeta.
  assert (Q : 0 <= Rmin p b <= Rmin s b) by (split; [apply Rmin_glb; lra | apply Rle_min_compat_r; lra]). assert (Q' := Rmin_r s b).
  destruct sc.
  - apply (cardano_err a0 b (Rmin p b) (Rmin s b)); try assumption; now apply rnd_min.
  - apply (simplified_err a0 b (Rmin p b) (Rmin s b)); try assumption; now apply rnd_min.
  - apply (flat_err a0 b (Rmin p b) (Rmin s b)); try assumption; now apply rnd_min.
  - apply (cip50_err a0 b p s); try assumption; try lra. apply Rmult_le_pos; lra.
Qed.

Lemma reward_nonneg sc a0 b p s : 0 <= a0 -> 0 < b -> 0 <= p <= s -> rnd p = p -> rnd s = s -> rnd b = b -> 0 <= reward_R rnd sc a0 b p s.
Proof.
  intros A B P Fp Fs Fb. unfold reward_R. cbv zeta.
  assert (Q : 0 <= Rmin p b <= Rmin s b) by (split; [apply Rmin_glb; lra | apply Rle_min_compat_r; lra]). assert (Q' := Rmin_r s b).
  assert (FP : rnd (Rmin p b) = Rmin p b) by now apply rnd_min. set (pl := Rmin p b) in *. set (st := Rmin s b) in *.
  assert (C : 0 <= rnd (1 / rnd (1 + a0))). { apply rnd_pos. assert (1 <= rnd (1 + a0)) by (apply rnd_ge_1; lra). unfold Rdiv. rewrite Rmult_1_l. apply Rlt_le, Rinv_0_lt_compat. lra. }
  assert (IB := Rinv_0_lt_compat b B).
  destruct sc; apply rnd_pos.
  - apply Rmult_le_pos; [exact C|]. apply rnd_pos. apply Rplus_le_le_0_compat; [lra|]. apply rnd_pos, Rmult_le_pos; [apply rnd_pos, Rmult_le_pos; lra|]. apply rnd_pos, Rmult_le_pos; [|lra]. apply rnd_pos.
    assert (S1 := div_01 st b B ltac:(lra)). assert (S2 : 0 <= rnd (st / b) <= 1) by (split; [apply rnd_pos; tauto | apply rnd_le_1; tauto]).
    assert (S3 : 0 <= rnd (1 - rnd (st / b)) <= 1) by (split; [apply rnd_pos; lra | apply rnd_le_1; lra]).
    assert (S4 := shr pl _ (proj1 Q) S3). assert (rnd (pl * rnd (1 - rnd (st / b))) <= pl) by (rewrite <- FP at 2; apply rnd_le; tauto). lra.
  - apply Rmult_le_pos; [apply rnd_pos, Rmult_le_pos; lra|]. apply rnd_pos. apply Rplus_le_le_0_compat; [lra|]. apply rnd_pos, Rmult_le_pos; [apply rnd_pos, Rmult_le_pos; lra | lra].
  - apply Rmult_le_pos; [exact C|]. apply rnd_pos. apply Rplus_le_le_0_compat; [lra|]. apply rnd_pos, Rmult_le_pos; lra.
  - rewrite Rmult_1_l. apply Rmin_glb; [lra|]. apply Rmin_glb; [apply rnd_pos, Rmult_le_pos; lra | lra].
Qed.

Lemma reward_mono sc a0 b p s s' : 0 <= a0 -> 0 < b -> 0 <= p -> s <= s' -> reward_R rnd sc a0 b p s <= reward_R rnd sc a0 b p s'.
Proof.
  intros A B P L. unfold reward_R. cbv zeta.
  assert (P' : 0 <= Rmin p b) by (apply Rmin_glb; lra). assert (L' : Rmin s b <= Rmin s' b) by (apply Rle_min_compat_r; lra).
  set (pl := Rmin p b) in *. set (st := Rmin s b) in *. set (st' := Rmin s' b) in *.
  assert (C : 0 <= rnd (1 / rnd (1 + a0))). { apply rnd_pos. assert (1 <= rnd (1 + a0)) by (apply rnd_ge_1; lra). unfold Rdiv. rewrite Rmult_1_l. apply Rlt_le, Rinv_0_lt_compat. lra. }
  assert (IB := Rinv_0_lt_compat b B).
  destruct sc; apply rnd_le.
  - apply Rmult_le_compat_l; [exact C|]. apply rnd_le, Rplus_le_compat; [exact L'|]. apply rnd_le, Rmult_le_compat_l; [apply rnd_pos, Rmult_le_pos; lra|].
    apply rnd_le, Rmult_le_compat_r; [lra|]. apply rnd_le. apply Rplus_le_compat; [exact L'|]. apply Ropp_le_contravar. apply rnd_le, Rmult_le_compat_l; [exact P'|].
    apply rnd_le. apply Rplus_le_compat_l, Ropp_le_contravar. apply rnd_le, Rmult_le_compat_r; lra.
  - apply Rmult_le_compat_r; [apply rnd_pos, Rplus_le_le_0_compat; [lra|]; apply rnd_pos, Rmult_le_pos; [apply rnd_pos, Rmult_le_pos; lra | lra]|]. apply rnd_le, Rmult_le_compat_l; lra.
  - apply Rmult_le_compat_l; [exact C|]. apply rnd_le, Rplus_le_compat_r, L'.
  - rewrite !Rmult_1_l. now apply Rle_min_compat_r.
Qed.

Lemma machine_value (r : rss FloatI) (p s : PrimFloat.float) : sane_scheme r -> sane p -> sane s ->
  exists x, pool_reward (A := FloatI) r p s = Ok x /\ ffin x /\ fval x = reward_R rnd (r_scheme r) (fval (r_a0 r)) (fval (r_thr r)) (fval p) (fval s).
Proof.
  intros R P S. destruct (machine_reward r p s R P S) as (x & E & F & V). exists x. split; [exact E|]. split; [exact F|].
  destruct R as (_ & A & _ & B). assert (0 < bpow radix2 (-400)) by apply bpow_gt_0. unfold RoundR in V. rewrite pool_reward_R in V; [now inversion V| |].
  - change (rnd (1 + fval (r_a0 r)) <> 0). assert (1 <= rnd (1 + fval (r_a0 r))) by (apply rnd_ge_1; lra). lra.
  - change (fval (r_thr r) <> 0). lra.
Qed.

Definition err_rel : R := bpow radix2 (-48).
Definition err_abs : R := bpow radix2 (-600).
Lemma err_rel_u : err_rel = 32 * u.
Proof. unfold err_rel, u. change 32 with (bpow radix2 5). now rewrite <- bpow_plus. Qed.
Lemma err_abs_tau : err_abs = 1024 * tau.
Proof. unfold err_abs, tau. change 1024 with (bpow radix2 10). now rewrite <- bpow_plus. Qed.

(** The reward computed by the machine exists, is finite, is never negative, and differs from the formula evaluated over the reals by at most 2^-48 times the
    stake that counts (plus 2^-600, where numbers underflow). *)
Theorem C77_machine_reward_close_to_formula : forall (r : rss FloatI) (pledge stake : PrimFloat.float),
  sane_scheme r -> sane pledge -> sane stake -> fval pledge <= fval stake ->
  exists x y, pool_reward (A := FloatI) r pledge stake = Ok x /\ ffin x /\ 0 <= fval x /\
    pool_reward (A := ExactR) (rss_val (fun x => x) r) (fval pledge) (fval stake) = Ok y /\
    Rabs (fval x - y) <= err_rel * Rmin (fval stake) (fval (r_thr r)) + err_abs.
Proof.
  intros r p s R P S L. destruct (machine_value r p s R P S) as (x & E & F & V). assert (R' := R). destruct R' as (_ & A & _ & B). destruct P as [FP BP]. destruct S as [FS BS].
  assert (0 < bpow radix2 (-400)) by apply bpow_gt_0.
  exists x, (reward_R (fun x => x) (r_scheme r) (fval (r_a0 r)) (fval (r_thr r)) (fval p) (fval s)). split; [exact E|]. split; [exact F|]. split; [|split].
  - rewrite V. apply reward_nonneg; try apply rnd_fval; lra.
  - apply (pool_reward_R (fun x => x) (rss_val (fun x => x) r)); [change (1 + fval (r_a0 r) <> 0); lra | change (fval (r_thr r) <> 0); lra].
  - rewrite V. destruct (reward_err (r_scheme r) (fval (r_a0 r)) (fval (r_thr r)) (fval p) (fval s)) as [_ X]; try apply rnd_fval; try assumption; try lra.
    apply Rabs_le. rewrite err_rel_u, err_abs_tau. lra.
Qed.

(** C01 for the machine *)
Theorem C77_machine_reward_bounded : forall (r : rss FloatI) (pledge stake x : PrimFloat.float),
  sane_scheme r -> sane pledge -> sane stake -> fval pledge <= fval stake -> pool_reward (A := FloatI) r pledge stake = Ok x ->
  0 <= fval x <= (1 + err_rel) * Rmin (fval stake) (fval (r_thr r)) + err_abs.
Proof.
  intros r p s x R P S L E. destruct (machine_value r p s R P S) as (x' & E' & F & V). rewrite E in E'. injection E' as <-. assert (R' := R). destruct R' as (_ & A & _ & B). destruct P as [FP BP]. destruct S as [FS BS].
  assert (0 < bpow radix2 (-400)) by apply bpow_gt_0. rewrite V. split; [apply reward_nonneg; try apply rnd_fval; lra|].
  destruct (reward_err (r_scheme r) (fval (r_a0 r)) (fval (r_thr r)) (fval p) (fval s)) as [Y X]; try apply rnd_fval; try assumption; try lra. rewrite err_rel_u, err_abs_tau. lra.
Qed.

(** C02 for the machine: the rewards of any list of pools that together hold at most the whole stake *)
Definition sumR (l : list R) : R := fold_right Rplus 0 l.
Theorem C77_machine_epoch_budget : forall (r : rss FloatI) (pools : list (PrimFloat.float * PrimFloat.float)) (rewards : list PrimFloat.float),
  sane_scheme r -> Forall (fun ps => sane (fst ps) /\ sane (snd ps) /\ fval (fst ps) <= fval (snd ps)) pools ->
  sumR (map (fun ps => fval (snd ps)) pools) <= 1 ->
  mapM (fun ps => pool_reward (A := FloatI) r (fst ps) (snd ps)) pools = Ok rewards ->
  0 <= sumR (map fval rewards) <= 1 + err_rel + INR (length pools) * err_abs.
Proof.
  intros r pools rewards R H T E.
  assert (K : 0 <= sumR (map fval rewards) <= (1 + err_rel) * sumR (map (fun ps => fval (snd ps)) pools) + INR (length pools) * err_abs). {
    clear T. revert rewards E. induction H as [|[p s] pools (P & S & L) _ IH]; intros rewards E.
    - cbn in E. injection E as <-. cbn. lra.
    - cbn [mapM fst snd] in E. destruct (pool_reward r p s) as [x|] eqn:Ex; [|discriminate]. cbn [bind] in E. destruct (mapM (fun ps : T FloatI * T FloatI => pool_reward r (fst ps) (snd ps)) pools) as [xs|] eqn:Exs; [|discriminate]. cbn [bind] in E. injection E as <-.
      specialize (IH xs eq_refl). cbn [fst snd] in *. assert (X := C77_machine_reward_bounded r p s x R P S L Ex). assert (M := Rmin_l (fval s) (fval (r_thr r))).
      assert (0 < err_rel) by apply bpow_gt_0. assert ((1 + err_rel) * Rmin (fval s) (fval (r_thr r)) <= (1 + err_rel) * fval s) by (apply Rmult_le_compat_l; lra).
      cbn [map sumR fold_right length snd]. rewrite S_INR. unfold sumR in *. lra.
  }
  split; [lra|]. assert (0 < err_rel) by apply bpow_gt_0. assert ((1 + err_rel) * sumR (map (fun ps => fval (snd ps)) pools) <= (1 + err_rel) * 1) by (apply Rmult_le_compat_l; lra). lra.
Qed.

(** C03 for the machine, with no error at all: more stake never yields less, and above saturation nothing changes *)
Theorem C77_machine_reward_monotone : forall (r : rss FloatI) (pledge s s' x x' : PrimFloat.float),
  sane_scheme r -> sane pledge -> sane s -> sane s' -> fval s <= fval s' ->
  pool_reward (A := FloatI) r pledge s = Ok x -> pool_reward (A := FloatI) r pledge s' = Ok x' -> fval x <= fval x'.
Proof.
  intros r p s s' x x' R P S S' L E E'. destruct (machine_value r p s R P S) as (y & Ey & _ & V). destruct (machine_value r p s' R P S') as (y' & Ey' & _ & V').
  rewrite E in Ey. rewrite E' in Ey'. injection Ey as <-. injection Ey' as <-. rewrite V, V'. destruct R as (_ & A & _ & B). destruct P as [_ BP]. assert (0 < bpow radix2 (-400)) by apply bpow_gt_0. apply reward_mono; lra.
Qed.
Theorem C77_machine_reward_flat_above_saturation : forall (r : rss FloatI) (pledge s s' : PrimFloat.float),
  sane_scheme r -> sane pledge -> sane s -> sane s' -> fval (r_thr r) <= fval s -> fval (r_thr r) <= fval s' ->
  exists x x', pool_reward (A := FloatI) r pledge s = Ok x /\ pool_reward (A := FloatI) r pledge s' = Ok x' /\ fval x = fval x'.
Proof.
  intros r p s s' R P S S' L L'. destruct (machine_value r p s R P S) as (y & Ey & _ & V). destruct (machine_value r p s' R P S') as (y' & Ey' & _ & V'). exists y, y'. split; [exact Ey|]. split; [exact Ey'|]. rewrite V, V'.
  unfold reward_R. cbv zeta. rewrite !(Rmin_right _ _ L), !(Rmin_right _ _ L'). destruct (r_scheme r); try reflexivity.
  assert (M := Rmin_r (rnd (fval (r_a0 r) * fval p)) (fval (r_thr r))). now rewrite !(Rmin_right _ _ (Rle_trans _ _ _ M L)), !(Rmin_right _ _ (Rle_trans _ _ _ M L')).
Qed.

(** k >= 1 pools (an integer of at most 53 bits) give a scheme in the range of these theorems *)
Lemma ofZ_val (k : Z) : (0 < k <= 2 ^ 53)%Z -> ffin (F_ofZ k) /\ fval (F_ofZ k) = IZR k.
Proof.
  intros K. destruct k as [|k|k]; try lia. unfold ffin, fval, F_ofZ. rewrite PrimFloat.of_int63_equiv.
  assert (Z : Uint63.to_Z (Uint63.of_Z (Zpos k)) = Zpos k). { rewrite Uint63.of_Z_spec. apply Z.mod_small. split; [lia|]. assert (2 ^ 53 < Uint63.wB)%Z by reflexivity. lia. }
  assert (H := BinarySingleNaN.binary_normalize_correct 53 1024 PrimFloat.Hprec PrimFloat.Hmax BinarySingleNaN.mode_NE (Zpos k) 0 false). cbv zeta in H.
  change (round radix2 _ _ ?z) with (rnd z) in H.
  assert (V : F2R (Float radix2 (Zpos k) 0) = IZR (Zpos k)) by (unfold F2R; cbn [Fnum Fexp bpow]; ring). rewrite V in H.
  assert (Fm : rnd (IZR (Zpos k)) = IZR (Zpos k)). {
    apply round_generic; [apply valid_rnd_N|]. destruct (Z.eq_dec (Zpos k) (2 ^ 53)) as [-> | N].
    - change (IZR (2 ^ 53)) with (bpow radix2 53). apply generic_format_bpow. cbn. lia.
    - apply generic_format_FLT. exists (Float radix2 (Zpos k) 0); [now rewrite V | cbn; lia | cbn; lia]. }
  rewrite Fm, Rlt_bool_true in H. 2:{ rewrite Rabs_pos_eq by (apply IZR_le; lia). apply Rle_lt_trans with (bpow radix2 53); [change (bpow radix2 53) with (IZR (2 ^ 53)); apply IZR_le; lia | apply bpow_lt; lia]. }
  destruct H as (H1 & H2 & _). rewrite Z. split; [exact H2 | exact H1].
Qed.
Theorem C77_scheme_of_k_is_sane : forall (r r' : rss FloatI) (k : Z), (1 <= k <= 2 ^ 53)%Z -> sane (r_a0 r) -> set_k (A := FloatI) r (F_ofZ k) = Ok r' -> sane_scheme r'.
Proof.
  intros r r' k K [FA BA] E. destruct (ofZ_val k ltac:(lia)) as [FK VK]. unfold set_k in E.
  assert (K1 : 1 <= IZR k) by (apply (IZR_le 1); lia). assert (K2 : IZR k <= bpow radix2 53) by (change (bpow radix2 53) with (IZR (2 ^ 53)); apply IZR_le; lia).
  assert (Sk : stands (F_ofZ k) (IZR k)) by now split.
  assert (D : 0 <= 1 / IZR k <= 1) by (apply div_01; lra).
  destruct (stands_pdiv (total_R FloatI) (F_ofZ k) 1 (IZR k) stands_1 Sk) as (t & Et & Ft & Vt); [lra | apply (ab_big _ 0); [apply ab_pos; cbn; lra | lia]|].
  destruct (eqb (a := FloatI) (F_ofZ k) zero); [discriminate|]. cbn [bind] in E.
  rewrite Et in E. cbn [bind] in E. injection E as <-.
  unfold sane_scheme. cbn [r_a0 r_thr]. split; [exact FA|]. split; [exact BA|]. split; [exact Ft|]. rewrite Vt. split; [|apply rnd_le_1; tauto].
  apply Rle_trans with (bpow radix2 (-53)); [apply bpow_le; lia|]. assert (X : rnd (bpow radix2 (-53)) = bpow radix2 (-53)) by (apply round_generic; [apply valid_rnd_N | apply generic_format_bpow; cbn; lia]).
  rewrite <- X. apply rnd_le. change (-53)%Z with (- (53))%Z. rewrite bpow_opp. unfold Rdiv. rewrite Rmult_1_l. apply Rinv_le; lra.
Qed.

(** a finite float that compares between 0 and 1 is sane *)
Lemma unit_sane (x : PrimFloat.float) : (PrimFloat.is_finite x && PrimFloat.leb PrimFloat.zero x && PrimFloat.leb x PrimFloat.one)%bool = true -> sane x.
Proof.
  intros H. apply andb_prop in H. destruct H as [H H3]. apply andb_prop in H. destruct H as [H1 H2].
  assert (F : ffin x) by (unfold ffin; now rewrite <- PrimFloat.is_finite_equiv).
  apply (leb_val PrimFloat.zero x) in H2; [|apply val_0 | exact F]. apply (leb_val x PrimFloat.one) in H3; [|exact F | apply val_1]. rewrite (proj1 val_0) in H2. rewrite (proj1 val_1) in H3.
  assert (1 <= bpow radix2 400) by (apply (bpow_le radix2 0 400); lia). split; [exact F | lra].
Qed.
Definition ex_scheme (sc : scheme) (k : Z) : rss FloatI := match set_k (A := FloatI) (@mkRss FloatI sc 0 0.3%float 0%float) (F_ofZ k) with Ok r => r | Err _ => @mkRss FloatI sc 0 0.3%float 0%float end.
Lemma ex_scheme_sane sc : sane_scheme (ex_scheme sc 100).
Proof.
  apply (C77_scheme_of_k_is_sane (@mkRss FloatI sc 0 0.3%float 0%float) _ 100); [lia | exact (unit_sane 0.3%float eq_refl)|]. 
  assert (K : is_ok (set_k (A := FloatI) (@mkRss FloatI sc 0 0.3%float 0%float) (F_ofZ 100)) = true) by (destruct sc; vm_compute; reflexivity).
  unfold ex_scheme. destruct (set_k _ _); [reflexivity | discriminate].
Qed.
Definition ex_reward_ok (sc : scheme) : bool := match pool_reward (A := FloatI) (ex_scheme sc 100) 0.001%float 0.005%float with Ok x => PrimFloat.ltb 0.0002%float x | Err _ => false end.
(** pledge 0.001, stake 0.005, k = 100, a0 = 0.3, all four schemes *)
Example C77_instance : forall sc, sane_scheme (ex_scheme sc 100) /\ sane 0.001%float /\ sane 0.005%float /\ fval 0.001%float <= fval 0.005%float /\
  exists x, pool_reward (A := FloatI) (ex_scheme sc 100) 0.001%float 0.005%float = Ok x /\ PrimFloat.ltb 0.0002%float x = true.
Proof.
  intros sc. assert (P : sane 0.001%float) by exact (unit_sane 0.001%float eq_refl). assert (S : sane 0.005%float) by exact (unit_sane 0.005%float eq_refl).
  split; [apply ex_scheme_sane|]. split; [exact P|]. split; [exact S|]. split.
  - apply leb_val; [apply P | apply S | vm_compute; reflexivity].
  - assert (K : ex_reward_ok sc = true) by (destruct sc; vm_compute; reflexivity). unfold ex_reward_ok in K. destruct (pool_reward _ _ _) as [x|]; [|discriminate]. now exists x.
Qed.

(** * C78: the division of a pool's reward *)

(** the numbers considered: the margin and a share of the pool's stake lie between 0 and 1 *)
Definition unit (x : PrimFloat.float) : Prop := ffin x /\ 0 <= fval x <= 1.

Lemma succ_1 : succ radix2 (FLT_exp (-1074) 53) 1 = 1 + bpow radix2 (-52).
Proof. rewrite succ_eq_pos by lra. change 1 with (bpow radix2 0) at 2. rewrite ulp_bpow. reflexivity. Qed.
Lemma rnd_near_1 x : x < 1 + u -> rnd x <= 1.
Proof.
  intros H. apply round_N_le_midp; [apply FLT_exp_valid; reflexivity | apply format_1|]. rewrite succ_1. unfold u in H.
  assert (bpow radix2 (-52) = 2 * bpow radix2 (-53)) by (change 2 with (bpow radix2 1); rewrite <- bpow_plus; reflexivity). lra.
Qed.
Lemma compl_1 m : 0 <= m <= 1 -> 0 <= rnd (1 - m) <= 1 /\ m + rnd (1 - m) < 1 + u.
Proof.
  intros H. assert (R : 0 <= rnd (1 - m) <= 1) by (split; [apply rnd_pos; lra | apply rnd_le_1; lra]). split; [exact R|].
  destruct (Rlt_dec m u) as [L | L]; [lra|]. assert (E := rnd_two (1 - m) ltac:(lra)). assert (U := u_small). assert (eta < u * u). { unfold eta, u. rewrite <- bpow_plus. apply bpow_lt. lia. } assert (u * u <= u * m) by (apply Rmult_le_compat_l; lra). lra.
Qed.

(** the operator's factor margin + (1 - margin) * fraction *)
Lemma factor_01 m f : 0 <= m <= 1 -> 0 <= f <= 1 -> 0 <= rnd (m + rnd (rnd (1 - m) * f)) <= 1.
Proof.
  intros M F. destruct (compl_1 m M) as [R L]. assert (X := shr (rnd (1 - m)) f (proj1 R) F).
  assert (Y : 0 <= rnd (rnd (1 - m) * f) <= rnd (1 - m)). {
    split; [apply rnd_pos; tauto|]. assert (I : rnd (rnd (1 - m)) = rnd (1 - m)) by (apply round_generic; [apply valid_rnd_N | apply generic_format_round; [apply FLT_exp_valid; reflexivity | apply valid_rnd_N]]). rewrite <- I at 2. apply rnd_le. tauto. }
  split; [apply rnd_pos; lra | apply rnd_near_1; lra].
Qed.

Lemma prod_err g g' P : 0 <= g <= 1 -> 0 <= g' <= 1 -> g - 6 * u <= g' <= g + 6 * u -> Rabs (rnd (g' * rnd P) - g * P) <= 16 * u * Rabs P + 16 * tau.
Proof.
  intros G G' E. assert (U := u_small). assert (T := tau_small). assert (Et := eta_tau1). assert (E1 := rnd_err P). assert (E2 := rnd_err (g' * rnd P)).
  set (P' := rnd P) in *. assert (AP := Rabs_pos P). assert (UP := ux (Rabs P) AP). assert (UUP := ux (u * Rabs P) (proj1 UP)). assert (Ue := ux eta (proj1 Et)).
  assert (A1 : Rabs P' <= Rabs P + u * Rabs P + eta). { replace P' with ((P' - P) + P) by ring. eapply Rle_trans; [apply Rabs_triang | lra]. }
  assert (A2 : Rabs (g' * P') <= Rabs P'). { rewrite Rabs_mult, (Rabs_pos_eq g') by lra. apply shl; [apply Rabs_pos | lra]. }
  assert (A3 : Rabs ((g' - g) * P') <= 6 * u * (Rabs P + u * Rabs P + eta)). { rewrite Rabs_mult. apply Rmult_le_compat; [apply Rabs_pos | apply Rabs_pos | apply Rabs_le; lra | exact A1]. }
  assert (A4 : Rabs (g * (P' - P)) <= u * Rabs P + eta). { rewrite Rabs_mult, (Rabs_pos_eq g) by lra. eapply Rle_trans; [apply shl; [apply Rabs_pos | lra] | exact E1]. }
  assert (A5 : u * Rabs (g' * P') <= u * (Rabs P + u * Rabs P + eta)) by (apply Rmult_le_compat_l; lra).
  replace (rnd (g' * P') - g * P) with ((rnd (g' * P') - g' * P') + ((g' - g) * P' + g * (P' - P))) by ring.
  eapply Rle_trans; [apply Rabs_triang|]. assert (A6 := Rabs_triang ((g' - g) * P') (g * (P' - P))). lra.
Qed.
Lemma compl_err m f : 0 <= m <= 1 -> 0 <= f <= 1 -> let g' := rnd (rnd (1 - m) * f) in 0 <= g' <= 1 /\ (1 - m) * f - 4 * u <= g' <= (1 - m) * f + 4 * u.
Proof.
  intros M F g'. subst g'. assert (U := u_small). assert (T := tau_small). assert (Et := eta_tau1). assert (UU := ux u ltac:(lra)). destruct (compl_1 m M) as [R _]. assert (E := rnd_two (1 - m) ltac:(lra)). set (a' := rnd (1 - m)) in *.
  assert (X := shr a' f (proj1 R) F). assert (E2 := rnd_two (a' * f) (proj1 X)). assert (UX := shr u (a' * f) ltac:(lra) ltac:(lra)). assert (UM := shr u (1 - m) ltac:(lra) ltac:(lra)).
  assert (Y : (1 - m - 2 * u) * f <= a' * f <= (1 - m + 2 * u) * f) by (split; apply Rmult_le_compat_r; lra). assert (Uf := shr u f ltac:(lra) F).
  split; [split; [apply rnd_pos; lra | apply rnd_le_1; lra]|]. lra.
Qed.
Lemma rmax0_lip x y e : Rabs (x - y) <= e -> Rabs (Rmax x 0 - Rmax y 0) <= e.
Proof. intros H. apply Rabs_le_inv in H. apply Rabs_le. unfold Rmax. destruct (Rle_dec x 0), (Rle_dec y 0); lra. Qed.

Lemma profit_val (reward cost : PrimFloat.float) : sane reward -> sane cost -> stands (sub (a := FloatI) reward cost) (rnd (fval reward - fval cost)) /\ ab (rnd (fval reward - fval cost)) 401.
Proof.
  intros [FR BR] [FC BC]. assert (X : ab (fval reward - fval cost) 401) by (apply (ab_sub _ _ 400); now apply ab_pos). split; [|apply ab_rnd; [exact X | lia]].
  apply stands_sub; [now apply stands_fval | now apply stands_fval | apply (ab_big _ 401); [exact X | lia]].
Qed.
Lemma share_val (margin fraction : PrimFloat.float) : unit margin -> unit fraction ->
  stands (mul (a := FloatI) (sub (a := FloatI) one margin) fraction) (rnd (rnd (1 - fval margin) * fval fraction)).
Proof.
  intros [FM BM] [FF BF]. destruct (compl_1 _ BM) as [R _]. apply stands_mul; [|now apply stands_fval|].
  - apply stands_sub; [apply stands_1 | now apply stands_fval | apply (ab_big _ 0); [apply ab_pos; cbn; lra | lia]].
  - apply (ab_big _ 0); [|lia]. apply ab_pos. change (bpow radix2 0) with 1. assert (X := shr _ _ (proj1 R) BF). lra.
Qed.
Lemma delegator_val (margin cost reward fraction : PrimFloat.float) : unit margin -> unit fraction -> sane cost -> sane reward ->
  stands (delegator_reward (A := FloatI) margin cost reward fraction) (Rmax (rnd (rnd (rnd (1 - fval margin) * fval fraction) * rnd (fval reward - fval cost))) 0).
Proof.
  intros M F C R. destruct (profit_val reward cost R C) as [SP BP]. assert (SS := share_val margin fraction M F). destruct (compl_err _ _ (proj2 M) (proj2 F)) as [G _].
  unfold delegator_reward. apply stands_pmax; [|apply stands_0]. apply stands_mul; [exact SS | exact SP|]. apply (ab_big _ 401); [|lia]. apply (ab_mul _ _ 0 401); [apply ab_pos; cbn; lra | exact BP].
Qed.
Lemma operator_val (margin cost reward fraction : PrimFloat.float) : unit margin -> unit fraction -> sane cost -> sane reward ->
  let P' := rnd (fval reward - fval cost) in
  stands (operator_reward (A := FloatI) margin cost reward fraction)
    (if Rle_bool P' 0 then P' else rnd (P' * rnd (fval margin + rnd (rnd (1 - fval margin) * fval fraction)))).
Proof.
  intros M F C R P'. destruct (profit_val reward cost R C) as [SP BP]. fold P' in SP, BP. assert (SS := share_val margin fraction M F). destruct (compl_err _ _ (proj2 M) (proj2 F)) as [G _]. assert (K := factor_01 _ _ (proj2 M) (proj2 F)).
  unfold operator_reward. cbv zeta. rewrite (stands_leb _ _ _ _ SP stands_0). destruct (Rle_bool P' 0); [exact SP|]. apply stands_mul; [exact SP| |].
  - apply stands_add; [now apply stands_fval; destruct M | exact SS|]. apply (ab_big _ 1); [|lia]. apply (ab_add _ _ 0); apply ab_pos; cbn; [apply M | lra].
  - apply (ab_big _ 401); [|lia]. apply (ab_mul _ _ 401 0); [exact BP | apply ab_pos; cbn; lra].
Qed.

(** A delegator's reward is finite and never negative. *)
Theorem C78_machine_delegators_never_pay : forall margin cost reward fraction : PrimFloat.float, unit margin -> unit fraction -> sane cost -> sane reward ->
  ffin (delegator_reward (A := FloatI) margin cost reward fraction) /\ 0 <= fval (delegator_reward (A := FloatI) margin cost reward fraction).
Proof. intros m c r f M F C R. destruct (delegator_val m c r f M F C R) as [X V]. split; [exact X|]. rewrite V. apply Rmax_r. Qed.

(** The operator bears the whole loss, and of a profit gets a part: never a negative one and never more than the profit as the machine computes it. *)
Theorem C78_machine_operator_within_profit : forall margin cost reward fraction : PrimFloat.float, unit margin -> unit fraction -> sane cost -> sane reward ->
  let profit := fval (PrimFloat.sub reward cost) in let x := operator_reward (A := FloatI) margin cost reward fraction in
  ffin x /\ (profit <= 0 -> fval x = profit) /\ (0 <= profit -> 0 <= fval x <= profit).
Proof.
  intros m c r f M F C R profit x. destruct (operator_val m c r f M F C R) as [X V]. fold x in X, V. split; [exact X|]. destruct (profit_val r c R C) as [[_ SP] _]. change (profit = rnd (fval r - fval c)) in SP. rewrite <- SP in V.
  assert (K := factor_01 _ _ (proj2 M) (proj2 F)). split; intros H; rewrite V.
  - now rewrite Rle_bool_true.
  - destruct (Rle_bool_spec profit 0) as [L | L]; [lra|]. assert (Y := shr profit _ H K). split; [apply rnd_pos; tauto|]. assert (Z : rnd profit = profit) by apply rnd_fval. rewrite <- Z at 2. apply rnd_le. tauto.
Qed.

Definition err_share : R := bpow radix2 (-49).
Lemma err_share_u : err_share = 16 * u.
Proof. unfold err_share, u. change 16 with (bpow radix2 4). now rewrite <- bpow_plus. Qed.

(** Both agree with the formulas over the reals up to 2^-49 of the profit. *)
Theorem C78_machine_rewards_close_to_formula : forall margin cost reward fraction : PrimFloat.float, unit margin -> unit fraction -> sane cost -> sane reward ->
  let tol := err_share * Rabs (fval reward - fval cost) + err_abs in
  Rabs (fval (delegator_reward (A := FloatI) margin cost reward fraction) - delegator_reward (A := ExactR) (fval margin) (fval cost) (fval reward) (fval fraction)) <= tol /\
  Rabs (fval (operator_reward (A := FloatI) margin cost reward fraction) - operator_reward (A := ExactR) (fval margin) (fval cost) (fval reward) (fval fraction)) <= tol.
Proof.
  intros m c r f M F C R tol. destruct (delegator_val m c r f M F C R) as [_ V]. destruct (operator_val m c r f M F C R) as [_ W].
  set (P := fval r - fval c) in *. destruct (compl_err _ _ (proj2 M) (proj2 F)) as [G E]. assert (K := factor_01 _ _ (proj2 M) (proj2 F)). destruct M as [FM BM]. destruct F as [FF BF]. set (g' := rnd (rnd (1 - fval m) * fval f)) in *.
  assert (U := u_small). assert (T := tau_small). assert (Et := eta_tau1). assert (G0 := shr (1 - fval m) (fval f) ltac:(lra) BF).
  assert (Tol : 16 * u * Rabs P + 16 * tau <= tol) by (unfold tol; rewrite err_share_u, err_abs_tau; lra). split.
  - rewrite V. unfold delegator_reward. rewrite (pmax_R (fun x => x)). cbn [mul sub one zero ExactR RealA]. apply rmax0_lip. eapply Rle_trans; [|exact Tol]. apply (prod_err ((1 - fval m) * fval f) g' P); lra.
  - rewrite W. unfold operator_reward. cbv zeta. cbn [mul sub add one zero leb ExactR RealA]. change (fval r - fval c) with P.
    assert (N : rnd (fval m + g') - (fval m + g') <= u * (fval m + g') + eta /\ - (u * (fval m + g') + eta) <= rnd (fval m + g') - (fval m + g')) by (assert (X := rnd_two (fval m + g') ltac:(lra)); lra).
    assert (UK : u * (fval m + g') <= u * (1 + 4 * u)) by (apply Rmult_le_compat_l; lra). assert (UU := ux u ltac:(lra)).
    assert (Hf : 0 <= fval m + (1 - fval m) * fval f <= 1) by (assert (Q := shr (1 - fval m) (fval f) ltac:(lra) BF); lra).
    assert (B := prod_err (fval m + (1 - fval m) * fval f) (rnd (fval m + g')) P Hf K ltac:(lra)).
    destruct (Rle_bool_spec P 0) as [L | L].
    + assert (L' : rnd P <= 0) by (rewrite <- rnd_0; now apply rnd_le). rewrite Rle_bool_true by exact L'. eapply Rle_trans; [apply rnd_err|]. assert (AP := Rabs_pos P). assert (UP := ux (Rabs P) AP). lra.
    + destruct (Rle_bool_spec (rnd P) 0) as [L' | L'].
      * assert (Z : rnd P = 0) by (assert (Q := rnd_pos P ltac:(lra)); lra). rewrite Z in B |- *. rewrite Rmult_0_r, rnd_0 in B. rewrite (Rmult_comm P). eapply Rle_trans; [exact B | exact Tol].
      * rewrite (Rmult_comm (rnd P)), (Rmult_comm P). eapply Rle_trans; [exact B | exact Tol].
Qed.

(** C05 for the machine: operator and delegators together receive the profit, up to the rounding of each payment, when their shares add up to one. *)
Theorem C78_machine_payouts_add_up : forall (margin cost reward own : PrimFloat.float) (shares : list PrimFloat.float),
  unit margin -> unit own -> Forall unit shares -> sane cost -> sane reward -> fval cost <= fval reward -> fval own + sumR (map fval shares) = 1 ->
  let paid := fval (operator_reward (A := FloatI) margin cost reward own) + sumR (map (fun f => fval (delegator_reward (A := FloatI) margin cost reward f)) shares) in
  Rabs (paid - (fval reward - fval cost)) <= INR (S (length shares)) * (err_share * (fval reward - fval cost) + err_abs).
Proof.
  intros m c r o fs M O Fs C R L S paid. set (P := fval r - fval c) in *. assert (P0 : 0 <= P) by (unfold P; lra). set (tol := err_share * P + err_abs).
  assert (AP : Rabs P = P) by (apply Rabs_pos_eq; lra).
  assert (D : Rabs (sumR (map (fun f => fval (delegator_reward (A := FloatI) m c r f)) fs) - (1 - fval m) * sumR (map fval fs) * P) <= INR (length fs) * tol). {
    clear S paid. induction Fs as [|f fs F _ IH]; [cbn; rewrite Rmult_0_r, Rmult_0_l, Rmult_0_l, Rminus_0_r, Rabs_R0; lra|].
    destruct (C78_machine_rewards_close_to_formula m c r f M F C R) as [X _]. fold P in X. rewrite AP in X. fold tol in X.
    unfold delegator_reward at 2 in X. rewrite (pmax_R (fun x => x)) in X. cbn [mul sub one zero ExactR RealA] in X. fold P in X.
    rewrite Rmax_left in X by (destruct M as [_ BM]; destruct F as [_ BF]; apply Rmult_le_pos; [apply Rmult_le_pos; lra | exact P0]).
    cbn [map sumR fold_right length]. rewrite S_INR. fold (sumR (map fval fs)). fold (sumR (map (fun f => fval (delegator_reward (A := FloatI) m c r f)) fs)).
    apply Rabs_le_inv in X. apply Rabs_le_inv in IH. apply Rabs_le. lra. }
  destruct (C78_machine_rewards_close_to_formula m c r o M O C R) as [_ X]. fold P in X. rewrite AP in X. fold tol in X.
  unfold operator_reward at 2 in X. cbv zeta in X. cbn [mul sub add one zero leb ExactR RealA] in X. fold P in X.
  assert (X' : Rabs (fval (operator_reward (A := FloatI) m c r o) - P * (fval m + (1 - fval m) * fval o)) <= tol). { destruct (Rle_bool_spec P 0) as [Q | Q]; [|exact X]. assert (Z : P = 0) by lra. rewrite Z in X |- *. now rewrite Rmult_0_l. }
  rewrite S_INR. apply Rabs_le_inv in D. apply Rabs_le_inv in X'. apply Rabs_le. unfold paid.
  replace (fval o) with (1 - sumR (map fval fs)) in X' by lra. lra.
Qed.

(** C06, C08 for the machine: a margin computed for a non-negative target lies between 0 and 1, and a pool's desirability is never negative. *)
Theorem C78_machine_margin_and_desirability : forall pp target : PrimFloat.float,
  ffin pp -> fval pp <= bpow radix2 400 -> (fval pp <= 0 \/ bpow radix2 (-500) <= fval pp) -> - bpow radix2 400 <= fval pp -> sane target ->
  exists m, suitable_margin (A := FloatI) pp target = Ok m /\ unit m /\ (fval pp <= fval target -> fval m = 0) /\
    ffin (desirability (A := FloatI) m pp) /\ 0 <= fval (desirability (A := FloatI) m pp) /\ fval (desirability (A := FloatI) m pp) <= Rmax (fval pp) 0.
Proof.
  intros pp t FP BP LP NP [FT BT]. assert (SP := stands_fval pp FP). assert (ST := stands_fval t FT). assert (Q0 : 0 < bpow radix2 (-500)) by apply bpow_gt_0.
  assert (H : exists m, suitable_margin (A := FloatI) pp t = Ok m /\ unit m /\ (fval pp <= fval t -> fval m = 0)). {
    unfold suitable_margin. rewrite (stands_ltb _ _ _ _ stands_0 SP). destruct (Rlt_bool_spec 0 (fval pp)) as [L | L].
    - destruct LP as [LP | LP]; [lra|]. assert (B1 : ab (fval t / fval pp) 900) by (apply (ab_div _ _ 400 (-500)); [now apply ab_pos | exact LP]).
      destruct (stands_pdiv _ _ _ _ ST SP ltac:(lra) ltac:(apply (ab_big _ 900); [exact B1 | lia])) as (q & Eq & Sq). rewrite Eq. cbn [bind].
      assert (D0 : 0 <= fval t / fval pp) by (apply Rmult_le_pos; [lra | apply Rlt_le, Rinv_0_lt_compat, L]). assert (D1 := rnd_pos _ D0).
      assert (B2 : ab (1 - rnd (fval t / fval pp)) 901) by (apply (ab_sub _ _ 900); [apply (ab_mono _ 0); [apply ab_1 | lia] | apply ab_rnd; [exact B1 | lia]]).
      assert (S2 := stands_sub _ _ _ _ stands_1 Sq ltac:(apply (ab_big _ 901); [exact B2 | lia])). destruct (stands_pmax _ _ _ _ S2 stands_0) as [F V].
      eexists. split; [reflexivity|]. split; [split; [exact F|]; rewrite V; split; [apply Rmax_r | apply Rmax_lub; [apply rnd_le_1; lra | lra]]|].
      intros Le. rewrite V. apply Rmax_right. rewrite <- rnd_0. apply rnd_le. assert (1 <= rnd (fval t / fval pp)); [|lra]. apply rnd_ge_1. apply (Rmult_le_reg_r (fval pp)); [exact L|]. unfold Rdiv. rewrite Rmult_assoc, Rinv_l by lra. lra.
    - cbn [bind]. eexists. split; [reflexivity|]. destruct (stands_pmax _ _ _ _ stands_0 stands_0) as [F V]. rewrite Rmax_left in V by lra. split; [split; [exact F|]; rewrite V; lra|]. intros _. exact V. }
  destruct H as (m & E & [FM BM] & Z). exists m. split; [exact E|]. split; [now split|]. split; [exact Z|].
  destruct (compl_1 _ BM) as [R _]. assert (AP : ab (fval pp) 400) by (unfold ab; apply Rabs_le; lra).
  assert (S1 := stands_sub _ _ _ _ stands_1 (stands_fval m FM) ltac:(apply (ab_big _ 0); [apply ab_pos; cbn; lra | lia])).
  assert (B1 : ab (rnd (1 - fval m) * fval pp) 400) by (apply (ab_mul _ _ 0 400); [apply ab_pos; cbn; lra | exact AP]).
  assert (S2 := stands_mul _ _ _ _ S1 SP ltac:(apply (ab_big _ 400); [exact B1 | lia])). destruct (stands_pmax _ _ _ _ S2 stands_0) as [F V].
  split; [exact F|]. change (pmax _ _) with (desirability (A := FloatI) m pp) in V. rewrite V. split; [apply Rmax_r|]. apply Rmax_lub; [|apply Rmax_r].
  destruct (Rle_dec 0 (fval pp)) as [L | L].
  - rewrite Rmax_left by exact L. assert (Z' : rnd (fval pp) = fval pp) by apply rnd_fval. rewrite <- Z' at 2. apply rnd_le. apply shl; [exact L | exact R].
  - apply Rle_trans with 0; [|apply Rmax_r]. rewrite <- rnd_0. apply rnd_le. assert (0 <= rnd (1 - fval m) * - fval pp) by (apply Rmult_le_pos; lra). lra.
Qed.

(** The tolerance cannot be dropped: with k = 3 and a0 = 0.43, a saturated pool with full pledge earns more than its stake, by one unit in the last place. *)
Definition exceeds (sc : scheme) : bool :=
  match set_k (A := FloatI) (@mkRss FloatI sc 0 0.43%float 0%float) (F_ofZ 3) with
  | Ok r => match pool_reward (A := FloatI) r (r_thr r) (r_thr r) with Ok x => PrimFloat.ltb (r_thr r) x | Err _ => false end
  | Err _ => false
  end.
Theorem C77_machine_reward_can_exceed_stake : forall sc, sc <> CIP50 -> exists (r : rss FloatI) (stake x : PrimFloat.float),
  r_scheme r = sc /\ sane_scheme r /\ sane stake /\ pool_reward (A := FloatI) r stake stake = Ok x /\ fval stake < fval x.
Proof.
  intros sc N. assert (K : exceeds sc = true) by (destruct sc; try contradiction; vm_compute; reflexivity). unfold exceeds in K.
  destruct (set_k (A := FloatI) (@mkRss FloatI sc 0 0.43%float 0%float) (F_ofZ 3)) as [r|] eqn:E; [|discriminate].
  assert (R : sane_scheme r) by (apply (C77_scheme_of_k_is_sane (@mkRss FloatI sc 0 0.43%float 0%float) r 3); [lia | exact (unit_sane 0.43%float eq_refl) | exact E]).
  assert (S : sane (r_thr r)). { destruct R as (_ & _ & F & B). split; [exact F|]. assert (0 < bpow radix2 (-400)) by apply bpow_gt_0. assert (1 <= bpow radix2 400) by (apply (bpow_le radix2 0 400); lia). lra. }
  destruct (machine_value r _ _ R S S) as (x & Ex & Fx & _). rewrite Ex in K. exists r, (r_thr r), x. split; [|split; [exact R|]; split; [exact S|]; split; [exact Ex|]].
  - unfold set_k in E. destruct (eqb _ _); [discriminate|]. destruct (pdiv _ _); [|discriminate]. cbn [bind] in E. injection E as <-. reflexivity.
  - apply ltb_val; [apply S | exact Fx | exact K].
Qed.

(** Nor are the payouts exact: reward 0.01, cost 0.001, margin 0.05, the operator owns a quarter. *)
Lemma unit_unit (x : PrimFloat.float) : (PrimFloat.is_finite x && PrimFloat.leb PrimFloat.zero x && PrimFloat.leb x PrimFloat.one)%bool = true -> unit x.
Proof.
  intros H. destruct (unit_sane x H) as [F B]. split; [exact F|]. apply andb_prop in H. destruct H as [_ H3]. apply (leb_val x PrimFloat.one) in H3; [|exact F | apply val_1]. rewrite (proj1 val_1) in H3. lra.
Qed.
Definition paid_machine : PrimFloat.float :=
  PrimFloat.add (operator_reward (A := FloatI) 0.05%float 0.001%float 0.01%float 0.25%float) (delegator_reward (A := FloatI) 0.05%float 0.001%float 0.01%float 0.75%float).
Theorem C78_machine_payouts_not_exact : exists margin cost reward own share : PrimFloat.float,
  unit margin /\ unit own /\ unit share /\ sane cost /\ sane reward /\ PrimFloat.add own share = PrimFloat.one /\
  PrimFloat.eqb (PrimFloat.add (operator_reward (A := FloatI) margin cost reward own) (delegator_reward (A := FloatI) margin cost reward share)) (PrimFloat.sub reward cost) = false.
Proof.
  exists 0.05%float, 0.001%float, 0.01%float, 0.25%float, 0.75%float. split; [exact (unit_unit 0.05%float eq_refl)|]. split; [exact (unit_unit 0.25%float eq_refl)|]. split; [exact (unit_unit 0.75%float eq_refl)|].
  split; [exact (unit_sane 0.001%float eq_refl)|]. split; [exact (unit_sane 0.01%float eq_refl)|]. split; [vm_compute; reflexivity|]. fold paid_machine. vm_compute. reflexivity.
Qed.

(** the hypotheses of the theorems of C78 on these numbers: shares 1/4 and 3/4 add up to one *)
Lemma fval_SF x : fval x = BinarySingleNaN.SF2R radix2 (FloatOps.Prim2SF x).
Proof. unfold fval. rewrite <- BinarySingleNaN.SF2R_B2SF, PrimFloat.B2SF_Prim2B. reflexivity. Qed.
Lemma val_quarter : fval 0.25%float = / 4.
Proof.
  rewrite fval_SF. assert (E : FloatOps.Prim2SF 0.25%float = SpecFloat.S754_finite false 4503599627370496 (-54)) by (vm_compute; reflexivity). rewrite E. unfold BinarySingleNaN.SF2R, F2R. cbn [Fnum Fexp cond_Zopp].
  change (IZR 4503599627370496) with (bpow radix2 52). rewrite <- bpow_plus. cbn. lra.
Qed.
Example C78_instance : unit 0.05%float /\ unit 0.25%float /\ Forall unit [0.25%float; 0.25%float; 0.25%float] /\ sane 0.001%float /\ sane 0.01%float /\ fval 0.001%float <= fval 0.01%float /\
  fval 0.25%float + sumR (map fval [0.25%float; 0.25%float; 0.25%float]) = 1 /\ ffin 0.001%float /\ fval 0.001%float <= bpow radix2 400 /\ bpow radix2 (-500) <= fval 0.001%float.
Proof.
  assert (Q := unit_unit 0.25%float eq_refl). destruct (unit_sane 0.001%float eq_refl) as [F B]. split; [exact (unit_unit 0.05%float eq_refl)|]. split; [exact Q|]. split; [exact (Forall_cons _ Q (Forall_cons _ Q (Forall_cons _ Q (Forall_nil _))))|]. split; [now split|]. split; [exact (unit_sane 0.01%float eq_refl)|].
  split; [apply leb_val; [exact F | apply (unit_sane 0.01%float eq_refl) | vm_compute; reflexivity]|]. split; [cbn [map sumR fold_right]; rewrite val_quarter; lra|]. split; [exact F|]. split; [apply B|].
  rewrite fval_SF. assert (E : FloatOps.Prim2SF 0.001%float = SpecFloat.S754_finite false 4611686018427388 (-62)) by (vm_compute; reflexivity). rewrite E. unfold BinarySingleNaN.SF2R, F2R. cbn [Fnum Fexp cond_Zopp].
  apply Rle_trans with (1 * bpow radix2 (-62)); [rewrite Rmult_1_l; apply bpow_le; lia | apply Rmult_le_compat_r; [apply bpow_ge_0 | lra]].
Qed.
