(** Real numbers as an arithmetic of the model, with a rounding after each operation: no rounding (the formulas of the program as mathematics) or rounding to
    the nearest binary64.  Where nothing overflows, binary64 is the second. *)
From Coq Require Import ZArith Reals Lra Lia Psatz List Bool.
From Coq Require PrimFloat.
From Verif Require Import Num NumFloat Py Rewards Binary64.
From Flocq Require Core.
Import Flocq.Core.Core.
Import ListNotations.
Local Open Scope R_scope.

Definition RealA (rn : R -> R) : Arith := {|
  T := R; zero := 0; one := 1;
  add := fun x y => rn (x + y); sub := fun x y => rn (x - y); mul := fun x y => rn (x * y); div := fun x y => rn (x / y);
  eqb := Req_bool; ltb := Rlt_bool; leb := Rle_bool;
  ofZ := fun z => rn (IZR z); trunc := Ztrunc; fsum := fun l => rn (fold_right Rplus 0 l);
  min_stake_unit := rn (22 / 10 ^ 18); boost := rn (/ 10 ^ 6)
|}.
(** exact real arithmetic *)
Definition ExactR : Arith := RealA (fun x => x).
(** real arithmetic rounded to binary64 after each operation, with no bound on the exponent *)
Definition RoundR : Arith := RealA rnd.

(** the reward scheme a float-valued one stands for *)
Definition rss_val (B : R -> R) (r : rss FloatI) : rss (RealA B) :=
  @mkRss (RealA B) (r_scheme r) (r_k r) (fval (r_a0 r)) (fval (r_thr r)).

Lemma pmin_R rn (x y : T (RealA rn)) : pmin x y = Rmin x y.
Proof. unfold pmin. cbn. unfold Rmin. destruct (Rlt_bool_spec y x), (Rle_dec x y); try lra; reflexivity. Qed.
Lemma pmax_R rn (x y : T (RealA rn)) : pmax x y = Rmax x y.
Proof. unfold pmax. cbn. unfold Rmax. destruct (Rlt_bool_spec x y), (Rle_dec x y); try lra; reflexivity. Qed.
Lemma pdiv_R rn (x y : T (RealA rn)) : y <> 0 -> pdiv x y = Ok (rn (x / y)).
Proof. intros H. unfold pdiv. cbn. now rewrite Req_bool_false. Qed.

(** [stands x v]: the float [x] is finite and stands for [v] *)
Definition stands (x : PrimFloat.float) (v : R) : Prop := ffin x /\ fval x = v.
Lemma stands_fval x : ffin x -> stands x (fval x).
Proof. now split. Qed.
Lemma stands_0 : stands (zero : T FloatI) 0.
Proof. split; apply val_0. Qed.
Lemma stands_1 : stands (one : T FloatI) 1.
Proof. split; apply val_1. Qed.
Lemma stands_add (x y : T FloatI) a b : stands x a -> stands y b -> Rabs (a + b) <= big -> stands (add x y) (rnd (a + b)).
Proof. intros [F <-] [G <-] B. exact (add_val x y F G B). Qed.
Lemma stands_sub (x y : T FloatI) a b : stands x a -> stands y b -> Rabs (a - b) <= big -> stands (sub x y) (rnd (a - b)).
Proof. intros [F <-] [G <-] B. exact (sub_val x y F G B). Qed.
Lemma stands_mul (x y : T FloatI) a b : stands x a -> stands y b -> Rabs (a * b) <= big -> stands (mul x y) (rnd (a * b)).
Proof. intros [F <-] [G <-] B. exact (mul_val x y F G B). Qed.
Lemma stands_pdiv (x y : T FloatI) a b : stands x a -> stands y b -> b <> 0 -> Rabs (a / b) <= big -> exists z, pdiv x y = Ok z /\ stands z (rnd (a / b)).
Proof.
  intros [F <-] [G <-] N B. exists (PrimFloat.div x y). split; [|exact (div_val x y F G N B)]. unfold pdiv.
  destruct (eqb (a := FloatI) y zero) eqn:E; [|reflexivity]. apply (eqb_val y PrimFloat.zero) in E; [|exact G | apply val_0]. rewrite (proj1 val_0) in E. contradiction.
Qed.
Lemma stands_ltb (x y : T FloatI) a b : stands x a -> stands y b -> ltb x y = Rlt_bool a b.
Proof.
  intros [F <-] [G <-]. cbn. destruct (Rlt_bool_spec (fval x) (fval y)) as [L | L].
  - now apply ltb_val.
  - now apply ltb_val_false.
Qed.
Lemma stands_leb (x y : T FloatI) a b : stands x a -> stands y b -> leb x y = Rle_bool a b.
Proof.
  intros [F <-] [G <-]. cbn. assert (H := leb_val x y F G). destruct (Rle_bool_spec (fval x) (fval y)) as [L | L]; destruct (PrimFloat.leb x y); try reflexivity.
  - now apply H in L.
  - exfalso. destruct H as [H _]. specialize (H eq_refl). lra.
Qed.
Lemma stands_pmin (x y : T FloatI) a b : stands x a -> stands y b -> stands (pmin x y) (Rmin a b).
Proof.
  intros S S'. unfold pmin. rewrite (stands_ltb y x b a S' S). rewrite <- (pmin_R rnd a b). unfold pmin. cbn [ltb RealA]. now destruct (Rlt_bool b a).
Qed.
Lemma stands_pmax (x y : T FloatI) a b : stands x a -> stands y b -> stands (pmax x y) (Rmax a b).
Proof.
  intros S S'. unfold pmax. rewrite (stands_ltb x y a b S S'). rewrite <- (pmax_R rnd a b). unfold pmax. cbn [ltb RealA]. now destruct (Rlt_bool a b).
Qed.
