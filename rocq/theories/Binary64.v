(** Binary64 as rounded real arithmetic: the operations of Python's floats on finite numbers (Flocq's model of the primitive floats of Coq). *)
From Coq Require Import ZArith Reals Lra Lia Psatz List Bool.
From Coq Require PrimFloat FloatOps FloatAxioms.
From Flocq Require Core Relative BinarySingleNaN PrimFloat.
From Verif Require Import Num NumFloat Py.
Import Flocq.Core.Core.
Local Open Scope R_scope.
Notation float := PrimFloat.float.

(** the real number a float stands for, and whether it stands for one *)
Definition fval (x : float) : R := BinarySingleNaN.B2R (PrimFloat.Prim2B x).
Definition ffin (x : float) : Prop := BinarySingleNaN.is_finite (PrimFloat.Prim2B x) = true.
(** rounding to the nearest float, ties to even *)
Definition rnd (x : R) : R := round radix2 (FLT_exp (-1074) 53) ZnearestE x.

Lemma prec53 : Prec_gt_0 53.  Proof. reflexivity. Qed.
#[local] Existing Instance prec53.
Lemma rnd_le x y : x <= y -> rnd x <= rnd y.
Proof. apply round_le; [apply FLT_exp_valid; reflexivity | apply valid_rnd_N]. Qed.
Lemma fval_format x : generic_format radix2 (FLT_exp (-1074) 53) (fval x).
Proof. apply (BinarySingleNaN.generic_format_B2R 53 1024). Qed.
Lemma rnd_fval x : rnd (fval x) = fval x.
Proof. apply round_generic; [apply valid_rnd_N | apply fval_format]. Qed.
Lemma rnd_0 : rnd 0 = 0.
Proof. apply round_0, valid_rnd_N. Qed.
Lemma format_1 : generic_format radix2 (FLT_exp (-1074) 53) 1.
Proof. apply (generic_format_bpow radix2 _ 0). cbn. lia. Qed.
Lemma rnd_1 : rnd 1 = 1.
Proof. apply round_generic; [apply valid_rnd_N | apply format_1]. Qed.
Lemma rnd_pos x : 0 <= x -> 0 <= rnd x.
Proof. intros H. rewrite <- rnd_0. now apply rnd_le. Qed.
Definition u : R := bpow radix2 (-53).
Definition eta : R := bpow radix2 (-1075).
Lemma half_bpow e : / 2 * bpow radix2 (e + 1) = bpow radix2 e.
Proof. rewrite bpow_plus. change (bpow radix2 1) with 2. lra. Qed.
Lemma rnd_err x : Rabs (rnd x - x) <= u * Rabs x + eta.
Proof.
  destruct (Relative.error_N_FLT radix2 (-1074) 53 eq_refl (fun n => negb (Z.even n)) x) as (e & d & He & Hd & _ & E). unfold rnd. rewrite E.
  replace (x * (1 + e) + d - x) with (e * x + d) by ring. eapply Rle_trans; [apply Rabs_triang|]. rewrite Rabs_mult. apply Rplus_le_compat.
  - apply Rmult_le_compat_r; [apply Rabs_pos|]. unfold u. rewrite <- (half_bpow (-53)). exact He.
  - unfold eta. rewrite <- (half_bpow (-1075)). exact Hd.
Qed.

(** ** the operations *)
Definition big : R := bpow radix2 1000.
Lemma rnd_small x : Rabs x <= big -> Rlt_bool (Rabs (rnd x)) (bpow radix2 1024) = true.
Proof.
  intros H. apply Rlt_bool_true. apply Rle_lt_trans with big; [|apply bpow_lt; lia]. unfold rnd. apply abs_round_le_generic; [apply FLT_exp_valid; reflexivity | apply valid_rnd_N | apply generic_format_bpow; cbn; lia | exact H].
Qed.
Lemma add_val x y : ffin x -> ffin y -> Rabs (fval x + fval y) <= big -> ffin (PrimFloat.add x y) /\ fval (PrimFloat.add x y) = rnd (fval x + fval y).
Proof.
  intros Fx Fy B. unfold ffin, fval. rewrite PrimFloat.add_equiv. assert (H := BinarySingleNaN.Bplus_correct 53 1024 PrimFloat.Hprec PrimFloat.Hmax BinarySingleNaN.mode_NE _ _ Fx Fy).
  change (round radix2 _ _ ?z) with (rnd z) in H. fold (fval x) (fval y) in H. rewrite rnd_small in H by exact B. destruct H as (H1 & H2 & _). now split.
Qed.
Lemma sub_val x y : ffin x -> ffin y -> Rabs (fval x - fval y) <= big -> ffin (PrimFloat.sub x y) /\ fval (PrimFloat.sub x y) = rnd (fval x - fval y).
Proof.
  intros Fx Fy B. unfold ffin, fval. rewrite PrimFloat.sub_equiv. assert (H := BinarySingleNaN.Bminus_correct 53 1024 PrimFloat.Hprec PrimFloat.Hmax BinarySingleNaN.mode_NE _ _ Fx Fy).
  change (round radix2 _ _ ?z) with (rnd z) in H. fold (fval x) (fval y) in H. rewrite rnd_small in H by exact B. destruct H as (H1 & H2 & _). now split.
Qed.
Lemma mul_val x y : ffin x -> ffin y -> Rabs (fval x * fval y) <= big -> ffin (PrimFloat.mul x y) /\ fval (PrimFloat.mul x y) = rnd (fval x * fval y).
Proof.
  intros Fx Fy B. unfold ffin, fval. rewrite PrimFloat.mul_equiv. assert (H := BinarySingleNaN.Bmult_correct 53 1024 PrimFloat.Hprec PrimFloat.Hmax BinarySingleNaN.mode_NE (PrimFloat.Prim2B x) (PrimFloat.Prim2B y)).
  change (round radix2 _ _ ?z) with (rnd z) in H. fold (fval x) (fval y) in H. rewrite rnd_small in H by exact B. destruct H as (H1 & H2 & _). split; [|exact H1]. etransitivity; [exact H2|]. apply andb_true_intro. split; [exact Fx | exact Fy].
Qed.
Lemma div_val x y : ffin x -> ffin y -> fval y <> 0 -> Rabs (fval x / fval y) <= big -> ffin (PrimFloat.div x y) /\ fval (PrimFloat.div x y) = rnd (fval x / fval y).
Proof.
  intros Fx Fy Ny B. unfold ffin, fval. rewrite PrimFloat.div_equiv. assert (H := BinarySingleNaN.Bdiv_correct 53 1024 PrimFloat.Hprec PrimFloat.Hmax BinarySingleNaN.mode_NE (PrimFloat.Prim2B x) (PrimFloat.Prim2B y) Ny).
  change (round radix2 _ _ ?z) with (rnd z) in H. fold (fval x) (fval y) in H. rewrite rnd_small in H by exact B. destruct H as (H1 & H2 & _). split; [|exact H1]. etransitivity; [exact H2 | exact Fx].
Qed.

(** ** comparisons *)
Lemma ltb_val x y : ffin x -> ffin y -> (PrimFloat.ltb x y = true <-> fval x < fval y).
Proof.
  intros Fx Fy. rewrite PrimFloat.ltb_equiv, (BinarySingleNaN.Bltb_correct 53 1024) by assumption. change (Rlt_bool _ _) with (Rlt_bool (fval x) (fval y)). destruct (Rlt_bool_spec (fval x) (fval y)); split; intros; try easy; exfalso; lra.
Qed.
Lemma ltb_val_false x y : ffin x -> ffin y -> (PrimFloat.ltb x y = false <-> fval y <= fval x).
Proof. intros Fx Fy. assert (H := ltb_val x y Fx Fy). destruct (PrimFloat.ltb x y); split; intros; try easy; [exfalso; destruct H as [H _]; specialize (H eq_refl); lra|]. apply Rnot_lt_le. intros L. now apply H in L. Qed.
Lemma leb_val x y : ffin x -> ffin y -> (PrimFloat.leb x y = true <-> fval x <= fval y).
Proof.
  intros Fx Fy. rewrite PrimFloat.leb_equiv, (BinarySingleNaN.Bleb_correct 53 1024) by assumption. change (Rle_bool _ _) with (Rle_bool (fval x) (fval y)). destruct (Rle_bool_spec (fval x) (fval y)); split; intros; try easy; exfalso; lra.
Qed.
Lemma eqb_val x y : ffin x -> ffin y -> (PrimFloat.eqb x y = true <-> fval x = fval y).
Proof.
  intros Fx Fy. rewrite PrimFloat.eqb_equiv, (BinarySingleNaN.Beqb_correct 53 1024) by assumption. change (Req_bool _ _) with (Req_bool (fval x) (fval y)). destruct (Req_bool_spec (fval x) (fval y)); split; intros; try easy; exfalso; lra.
Qed.
Lemma val_0 : fval PrimFloat.zero = 0 /\ ffin PrimFloat.zero.
Proof. unfold fval, ffin. rewrite PrimFloat.zero_equiv, PrimFloat.Prim2B_B2Prim. split; reflexivity. Qed.
Lemma val_1 : fval PrimFloat.one = 1 /\ ffin PrimFloat.one.
Proof. unfold fval, ffin. rewrite PrimFloat.one_equiv, PrimFloat.Prim2B_B2Prim. split; [apply (BinarySingleNaN.Bone_correct 53 1024) | apply (BinarySingleNaN.is_finite_Bone 53 1024)]. Qed.
