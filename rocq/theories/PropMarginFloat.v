(** C98: margins and desirabilities in a run, in the arithmetic of the machine. *)
From Coq Require Import ZArith Reals Lra Lia List Bool.
From Coq Require Import PrimFloat FloatAxioms.
From Coq Require FloatOps SpecFloat.
Set Warnings "-inexact-float".
From Verif Require Import Num NumFloat FloatOrd Py Rewards Binary64 RealArith FloatReward FloatError PropFloat SortedKeyList World Stakeholder Sched Sim Init Reach Inv Static Exec Eval Step SimInv Spec Demo ListFacts FloatRange PropState PropDrift PropDivFloat.
From Flocq Require Core BinarySingleNaN PrimFloat.
Import Flocq.Core.Core.
Import SpecFloat.
Import ListNotations.
Local Open Scope R_scope.

(** * Numbers that are not negative, infinity and NaN included *)
Definition nnS (x : spec_float) : Prop := match x with S754_nan => True | S754_zero _ => True | S754_infinity s => s = false | S754_finite s _ _ => s = false end.
Definition nn (x : PrimFloat.float) : Prop := nnS (FloatOps.Prim2SF x).

Lemma nan_iff x : F_nan x = true <-> FloatOps.Prim2SF x = S754_nan.
Proof.
  unfold F_nan. rewrite eqb_spec. destruct (FloatOps.Prim2SF x) as [s|s| |s m e] eqn:E; cbn; unfold SFeqb, SFcompare; try (split; intros; congruence).
  - destruct s; split; intros H; discriminate H.
  - destruct s; rewrite Z.compare_refl, Pos.compare_refl; split; intros H; discriminate H.
Qed.
Lemma nn_iff x : nn x <-> F_nan x = true \/ PrimFloat.leb 0%float x = true.
Proof.
  rewrite nan_iff, leb_spec. change (FloatOps.Prim2SF 0%float) with (S754_zero false). unfold nn. destruct (FloatOps.Prim2SF x) as [s|s| |s m e]; cbn; unfold SFleb; cbn; try destruct s; intuition congruence.
Qed.
Lemma nn_not_less x : F_ltb x 0%float = false -> nn x.
Proof.
  unfold F_ltb. destruct (F_nan x) eqn:N; [intros _; apply nn_iff; now left|]. change (F_nan 0%float) with false. cbn iota. rewrite ltb_spec. change (FloatOps.Prim2SF 0%float) with (S754_zero false). unfold nn.
  destruct (FloatOps.Prim2SF x) as [s|s| |s m e]; unfold SFltb; cbn; try destruct s; intuition congruence.
Qed.
Lemma nn_less x y : nn x -> F_ltb x y = true -> nn y.
Proof.
  unfold F_ltb. destruct (F_nan x) eqn:N; [discriminate|]. destruct (F_nan y) eqn:M; [intros _ _; apply nn_iff; now left|]. rewrite ltb_spec. unfold nn.
  destruct (FloatOps.Prim2SF x) as [s|s| |s m e], (FloatOps.Prim2SF y) as [s'|s'| |s' m' e']; unfold SFltb; cbn; try destruct s; try destruct s'; intuition congruence.
Qed.
Lemma round_nn mx ex lx : nnS (binary_round_aux FloatOps.prec FloatOps.emax false mx ex lx).
Proof. unfold binary_round_aux. destruct (shr_fexp _ _ mx ex lx) as [m1 e1]. destruct (shr_fexp _ _ _ e1 _) as [m2 e2]. destruct (shr_m m2); cbn; auto. destruct (Z.leb _ _); cbn; auto. Qed.
Lemma brnd_nn m e : nnS (binary_round FloatOps.prec FloatOps.emax false m e).
Proof. unfold binary_round. destruct (shl_align m e (fexp FloatOps.prec FloatOps.emax (Z.pos (digits2_pos m) + e))) as [m1 e1]. apply round_nn. Qed.
Lemma nn_add x y : nn x -> nn y -> nn (PrimFloat.add x y).
Proof.
  unfold nn. rewrite add_spec. unfold SF64add. destruct (FloatOps.Prim2SF x) as [s|s| |s m e], (FloatOps.Prim2SF y) as [s'|s'| |s' m' e']; cbn [nnS SFadd]; intros A B; subst; auto; try (now destruct s, s'); try (now destruct s).
  all: first [reflexivity | apply brnd_nn | now destruct s | now destruct s' | idtac].
Qed.
Lemma nn_div x y : nn x -> nn y -> F_ltb 0%float y = true -> nn (PrimFloat.div x y).
Proof.
  intros A B L. assert (Z : forall s, FloatOps.Prim2SF y <> S754_zero s).
  { intros s E. unfold F_ltb in L. change (F_nan 0%float) with false in L. cbn iota in L. destruct (F_nan y) eqn:N; [apply nan_iff in N; congruence|]. rewrite ltb_spec, E in L. discriminate L. }
  unfold nn in *. rewrite div_spec. unfold SF64div. destruct (FloatOps.Prim2SF x) as [s|s| |s m e], (FloatOps.Prim2SF y) as [s'|s'| |s' m' e']; cbn [nnS SFdiv] in *; subst; auto; try (exfalso; now apply (Z s')).
  destruct (SFdiv_core_binary FloatOps.prec FloatOps.emax (Z.pos m) e (Z.pos m') e') as [[m1 e1] l1]. apply round_nn.
Qed.

(** * Margins *)
(** one minus a number that is not negative is at most one *)
Lemma one_minus_fin q : ffin q -> 0 <= fval q -> PrimFloat.leb (PrimFloat.sub 1%float q) 1%float = true.
Proof.
  intros F P. destruct val_1 as [V1 F1]. assert (B : Rlt_bool (Rabs (rnd (fval PrimFloat.one - fval q))) (bpow radix2 1024) = true).
  { apply Rlt_bool_true. rewrite V1. assert (Q := BinarySingleNaN.abs_B2R_lt_emax 53 1024 (PrimFloat.Prim2B q)). fold (fval q) in Q. rewrite Rabs_pos_eq in Q by exact P. apply Rle_lt_trans with (Rmax 1 (fval q)).
    - unfold rnd. apply abs_round_le_generic; [apply FLT_exp_valid; reflexivity | apply valid_rnd_N | unfold Rmax; destruct (Rle_dec 1 (fval q)); [apply fval_format | apply format_1]|].
      assert (M1 := Rmax_l 1 (fval q)). assert (M2 := Rmax_r 1 (fval q)). apply Rabs_le. lra.
    - apply Rmax_lub_lt; [|exact Q]. apply (bpow_lt radix2 0 1024). lia. }
  assert (H := BinarySingleNaN.Bminus_correct 53 1024 PrimFloat.Hprec PrimFloat.Hmax BinarySingleNaN.mode_NE _ _ F1 F). change (round radix2 _ _ ?z) with (rnd z) in H. match type of H with if ?b then _ else _ => assert (B' : b = true) by exact B; rewrite B' in H end. destruct H as (H1 & H2 & _).
  rewrite <- PrimFloat.sub_equiv in H1, H2. apply leb_val; [exact H2 | exact F1|]. assert (H3 : fval (PrimFloat.sub PrimFloat.one q) = rnd (fval PrimFloat.one - fval q)) by exact H1.
  change (fval (PrimFloat.sub PrimFloat.one q) <= fval PrimFloat.one). rewrite H3, V1. rewrite <- rnd_1 at 2. apply rnd_le. lra.
Qed.
Lemma one_minus q : nn q -> F_nan (PrimFloat.sub 1%float q) = true \/ PrimFloat.leb (PrimFloat.sub 1%float q) 1%float = true.
Proof.
  intros H. assert (Fi : ffin q -> F_nan (PrimFloat.sub 1%float q) = true \/ PrimFloat.leb (PrimFloat.sub 1%float q) 1%float = true).
  { intros F. right. apply one_minus_fin; [exact F|]. apply nn_iff in H as [H|H]; [rewrite (fin_not_nan q F) in H; discriminate H|]. destruct val_0 as [V0 F0]. apply (leb_val 0%float q F0 F) in H. change (fval 0%float) with (fval PrimFloat.zero) in H. lra. }
  destruct (FloatOps.Prim2SF q) as [s|s| |s m e] eqn:E.
  - apply Fi, fin_SF. rewrite E. reflexivity.
  - right. unfold nn in H. rewrite E in H. cbn in H. subst s. rewrite leb_spec, sub_spec, E. reflexivity.
  - left. apply nan_iff. rewrite sub_spec, E. reflexivity.
  - apply Fi, fin_SF. rewrite E. reflexivity.
Qed.
(** NaN, or between 0 and 1 *)
Definition in_unit (m : PrimFloat.float) : Prop := F_nan m = true \/ (PrimFloat.leb 0%float m = true /\ PrimFloat.leb m 1%float = true).
Lemma margin_in_unit m : margin_src (A := FloatA) nn m -> in_unit m.
Proof.
  assert (Z : in_unit 0%float) by (right; split; reflexivity). intros [->|(x & y & Hy & H)]; [exact Z|]. unfold suitable_margin in H. change (ltb (zero (a := FloatA)) x) with (F_ltb 0%float x) in H. destruct (F_ltb 0%float x) eqn:L.
  - apply bind_ok in H as (z & H1 & H). apply bind_ok in H1 as (q & Hq & H1). injection H1 as <-. injection H as <-. unfold pdiv in Hq. destruct (eqb x zero); [discriminate Hq|]. injection Hq as <-.
    assert (Nx : nn x) by (apply (nn_less 0%float); [reflexivity | exact L]). assert (Nq := nn_div y x Hy Nx L). destruct (one_minus _ Nq) as [O|O]; unfold pmax.
    + change (in_unit (if F_ltb (PrimFloat.sub 1%float (PrimFloat.div y x)) 0%float then 0%float else (PrimFloat.sub 1%float (PrimFloat.div y x)))). unfold F_ltb. rewrite O. left. exact O.
    + change (in_unit (if F_ltb (PrimFloat.sub 1%float (PrimFloat.div y x)) 0%float then 0%float else (PrimFloat.sub 1%float (PrimFloat.div y x)))). destruct (F_ltb (PrimFloat.sub 1%float (PrimFloat.div y x)) 0%float) eqn:E; [exact Z|]. apply nn_not_less, nn_iff in E as [E|E]; [now left | right; now split].
  - cbn [bind] in H. injection H as <-. exact Z.
Qed.

(** * Runs *)
Lemma des_nn (m x : PrimFloat.float) : nn (desirability (A := FloatA) m x).
Proof.
  unfold desirability, pmax. change (ltb (a := FloatA)) with F_ltb. change (zero (a := FloatA)) with 0%float. destruct (F_ltb (mul (a := FloatA) (sub (a := FloatA) one m) x) 0%float) eqn:E; [exact I | now apply nn_not_less].
Qed.
Lemma pmax_nn (x y : PrimFloat.float) : nn x -> nn (pmax (A := FloatA) x y).
Proof. intros H. unfold pmax. change (ltb (a := FloatA)) with F_ltb. destruct (F_ltb x y) eqn:E; [now apply (nn_less x) | exact H]. Qed.
Lemma boost_nn : nn (boost (a := FloatA)).  Proof. vm_compute. reflexivity. Qed.

(** what holds of a pool: its margin is between 0 and 1 (or NaN), and its potential profit and its desirability are the ones the code computes from its pledge, its cost, its margin and the parameters *)
Definition priced_pool (rs : rss FloatA) (p : pool FloatA) : Prop :=
  in_unit (p_margin p) /\ potential_profit rs (p_pledge p) (p_cost p) = Ok (p_pp p) /\ p_des p = desirability (p_margin p) (p_pp p).

Lemma M_TG_d (mg pp : PrimFloat.float) : nn (add (a := FloatA) (desirability (A := FloatA) mg pp) boost).
Proof. apply nn_add; [apply des_nn | apply boost_nn]. Qed.
Lemma M_TG_z : nn (add (a := FloatA) zero boost) /\ nn (pmax (A := FloatA) (add (a := FloatA) zero boost) zero).
Proof. assert (H : nn (add (a := FloatA) zero boost)) by (apply nn_add; [exact I | apply boost_nn]). split; [exact H | now apply pmax_nn]. Qed.
Lemma M_TG_np rs p (y : PrimFloat.float) : priced_pool rs p -> nn (pmax (A := FloatA) (add (a := FloatA) (p_des p) boost) y).
Proof. intros (_ & _ & E). apply pmax_nn. rewrite E. apply M_TG_d. Qed.
Lemma M_made rs pledge c p : priced (A := FloatA) nn rs pledge c p -> priced_pool rs p.
Proof. intros (P1 & P2 & _ & P4 & P5 & P6). split; [now apply margin_in_unit|]. rewrite P1, P2. now split. Qed.
Lemma M_phase rs rs' p p' : priced_pool rs p -> reprice rs' p p' -> priced_pool rs' p'.
Proof.
  intros (H & _) R. apply reprice_fields in R as (_ & R2 & R3 & _ & _ & _ & _ & R8 & R9 & R10). split; [now rewrite R8|]. rewrite R2, R3, R8. now split.
Qed.

Theorem C98_margins_in_a_run : forall so g profiles stakes costs (s0 : sim FloatA) w, set_order so -> init g profiles stakes costs = Ok s0 -> one_at_a_time g -> visible so s0 w ->
  forall id p, active w id p ->
  (F_nan (p_margin p) = true \/ PrimFloat.leb 0%float (p_margin p) = true /\ PrimFloat.leb (p_margin p) 1%float = true) /\
  (F_nan (p_des p) = true \/ PrimFloat.leb 0%float (p_des p) = true) /\
  potential_profit (w_rss w) (p_pledge p) (p_cost p) = Ok (p_pp p) /\ p_des p = desirability (p_margin p) (p_pp p).
Proof.
  intros so g profiles stakes costs s0 w SO H1 H2 V id p J.
  assert (MP : ltb (zero (a := FloatA)) min_stake_unit = true) by (vm_compute; reflexivity).
  assert (G : simgood priced_pool False (fun _ _ => True) (fun _ => True) (fun _ => True) True (Z.to_nat (r_k (w_rss (s_w s0)) + 1)) (fun _ => True) s0)
    by (eapply (init_simgood FloatA_ord); eauto).
  eapply (visible_good FloatA_ord MP so SO priced_pool False (fun _ _ => True) nn M_TG_d M_TG_z M_TG_np) in V.
  2: { intros rs q v a F _ _. exact F. }
  2: { intros []. }
  2: { intros rs st c ph n q pl cc _ _ _ _ F _. exact (M_made _ _ _ _ F). }
  all: try exact G; auto; try (intros _ rs rs' q q' _; apply M_phase).
  destruct V as [V _]. destruct (good_active _ _ _ _ _ V id p J) as (_ & _ & _ & (M & E1 & E2) & _). split; [exact M|]. split; [|now split]. apply nn_iff. rewrite E2. apply des_nn.
Qed.
(** a run to which it applies, with a margin strictly between 0 and 1: after two rounds, pool 4 *)
Definition margin_check (s : sim FloatA) : bool :=
  match pool_at (s_w s) 4 with Some p => PrimFloat.ltb 0.0625%float (p_margin p) && PrimFloat.ltb (p_margin p) 0.125%float && PrimFloat.ltb 0.25%float (p_des p) | None => false end.
Lemma margin_run : match (let! s0 := init drift_args drift_profiles drift_stakes drift_costs in steps 2 s0) with Ok s => margin_check s | Err _ => false end = true.
Proof. vm_compute. reflexivity. Qed.
Lemma C98_instance : exists s0 s p, init drift_args drift_profiles drift_stakes drift_costs = Ok s0 /\ set_order so_id /\ one_at_a_time drift_args /\ visible so_id s0 (s_w s) /\ active (s_w s) 4%nat p /\
  PrimFloat.ltb 0.0625%float (p_margin p) = true /\ PrimFloat.ltb (p_margin p) 0.125%float = true /\ PrimFloat.ltb 0.25%float (p_des p) = true.
Proof.
  destruct (steps_check (init drift_args drift_profiles drift_stakes drift_costs) 2 margin_check margin_run) as (s0 & s & H1 & H2 & H3). apply steps_reach in H2. unfold margin_check in H3. destruct (pool_at (s_w s) 4) as [p|] eqn:Ep; [|discriminate H3].
  apply andb_prop in H3 as [H3 H5]. apply andb_prop in H3 as [H3 H4]. exists s0, s, p. split; [exact H1|]. split; [exact so_id_set_order|]. split; [exact drift_one|]. split; [now apply vis_between|]. split; [now apply pool_at_active|]. now split; [|split].
Qed.
