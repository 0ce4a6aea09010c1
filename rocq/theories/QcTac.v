(** Reasoning about [Qc]: transfer to [Q] and linear / nonlinear arithmetic. *)
From Coq Require Import ZArith QArith Qcanon Lqa Lia.
From Verif Require Import Num.

Lemma this_plus x y : (this (x + y)%Qc == this x + this y)%Q.  Proof. apply Qred_correct. Qed.
Lemma this_mult x y : (this (x * y)%Qc == this x * this y)%Q.  Proof. apply Qred_correct. Qed.
Lemma this_opp x : (this (- x)%Qc == - this x)%Q.  Proof. apply Qred_correct. Qed.
Lemma this_minus x y : (this (x - y)%Qc == this x - this y)%Q.
Proof. unfold Qcminus. rewrite this_plus, this_opp. reflexivity. Qed.
Lemma this_inv x : (this (/ x)%Qc == / this x)%Q.  Proof. apply Qred_correct. Qed.
Lemma this_Q2Qc q : (this (Q2Qc q) == q)%Q.  Proof. apply Qred_correct. Qed.
Lemma this_0 : (this 0%Qc == 0)%Q.  Proof. reflexivity. Qed.
Lemma this_1 : (this 1%Qc == 1)%Q.  Proof. reflexivity. Qed.

Lemma Qc_eq_iff x y : x = y <-> (this x == this y)%Q.
Proof. split; [intros ->; reflexivity | apply Qc_is_canon]. Qed.
Lemma Qc_neq_iff x y : x <> y <-> ~ (this x == this y)%Q.
Proof. rewrite Qc_eq_iff. tauto. Qed.

(** Leave [Qc] for [Q]: hypotheses and goal. *)
Ltac qify_hyps :=
  repeat match goal with
  | H : @eq Qc _ _ |- _ => apply Qc_eq_iff in H
  | H : not (@eq Qc _ _) |- _ => apply Qc_neq_iff in H
  end.
Ltac qify_goal :=
  match goal with
  | |- @eq Qc _ _ => apply Qc_is_canon
  | |- not (@eq Qc _ _) => apply Qc_neq_iff
  | _ => idtac
  end.
Ltac qify_terms :=
  unfold Qcle, Qclt in *;
  repeat match goal with
  | |- context [this (?x + ?y)%Qc] =>
      lazymatch goal with _ : (this (x + y)%Qc == this x + this y)%Q |- _ => fail | _ => pose proof (this_plus x y) end
  | |- context [this (?x - ?y)%Qc] =>
      lazymatch goal with _ : (this (x - y)%Qc == this x - this y)%Q |- _ => fail | _ => pose proof (this_minus x y) end
  | |- context [this (?x * ?y)%Qc] =>
      lazymatch goal with _ : (this (x * y)%Qc == this x * this y)%Q |- _ => fail | _ => pose proof (this_mult x y) end
  | |- context [this (- ?x)%Qc] =>
      lazymatch goal with _ : (this (- x)%Qc == - this x)%Q |- _ => fail | _ => pose proof (this_opp x) end
  | H : context [this (?x + ?y)%Qc] |- _ =>
      lazymatch goal with _ : (this (x + y)%Qc == this x + this y)%Q |- _ => fail | _ => pose proof (this_plus x y) end
  | H : context [this (?x - ?y)%Qc] |- _ =>
      lazymatch goal with _ : (this (x - y)%Qc == this x - this y)%Q |- _ => fail | _ => pose proof (this_minus x y) end
  | H : context [this (?x * ?y)%Qc] |- _ =>
      lazymatch goal with _ : (this (x * y)%Qc == this x * this y)%Q |- _ => fail | _ => pose proof (this_mult x y) end
  | H : context [this (- ?x)%Qc] |- _ =>
      lazymatch goal with _ : (this (- x)%Qc == - this x)%Q |- _ => fail | _ => pose proof (this_opp x) end
  end;
  repeat match goal with
  | |- context [this 0%Qc] => change (this 0%Qc) with 0%Q
  | H : context [this 0%Qc] |- _ => change (this 0%Qc) with 0%Q in H
  | |- context [this 1%Qc] => change (this 1%Qc) with 1%Q
  | H : context [this 1%Qc] |- _ => change (this 1%Qc) with 1%Q in H
  end.
Ltac qify := change (T QcA) with Qc in *; qify_hyps; qify_goal; qify_terms.
Ltac qlra := qify; lra.
Ltac qnra := qify; nra.

(** Comparisons *)
Lemma Qc_ltb_spec x y : reflect (x < y)%Qc (Qc_ltb x y).
Proof.
  apply Bool.iff_reflect. unfold Qc_ltb, Qccompare, Qclt.
  destruct (Qcompare_spec (this x) (this y)) as [H|H|H]; split; intros; try discriminate; try reflexivity; lra.
Qed.
Lemma Qc_leb_spec x y : reflect (x <= y)%Qc (Qc_leb x y).
Proof.
  apply Bool.iff_reflect. unfold Qc_leb, Qccompare, Qcle.
  destruct (Qcompare_spec (this x) (this y)) as [H|H|H]; split; intros; try discriminate; try reflexivity; lra.
Qed.
Lemma Qc_eqb_spec x y : reflect (x = y) (Qc_eqb x y).
Proof.
  apply Bool.iff_reflect. rewrite Qc_eq_iff. unfold Qc_eqb, Qccompare.
  destruct (Qcompare_spec (this x) (this y)) as [H|H|H]; split; intros; try discriminate; try reflexivity; lra.
Qed.

Lemma QcA_ord : OrdLaws QcA.
Proof.
  constructor; cbn -[Qc_ltb Qc_leb Qc_eqb]; intros.
  - destruct (Qc_ltb_spec x x); [qlra | reflexivity].
  - destruct (Qc_ltb_spec x y), (Qc_ltb_spec y z), (Qc_ltb_spec x z); try discriminate; try reflexivity. qlra.
  - destruct (Qc_ltb_spec x y), (Qc_ltb_spec y z), (Qc_ltb_spec x z); try discriminate; try reflexivity. qlra.
  - destruct (Qc_leb_spec x y), (Qc_ltb_spec y x); cbn; try reflexivity; qlra.
  - destruct (Qc_eqb_spec x y), (Qc_ltb_spec x y), (Qc_ltb_spec y x); cbn; try reflexivity; qlra.
Qed.

(** case analysis on the comparisons of the exact instance *)
Ltac qcase :=
  repeat match goal with
  | |- context [Qc_ltb ?x ?y] => destruct (Qc_ltb_spec x y)
  | |- context [Qc_leb ?x ?y] => destruct (Qc_leb_spec x y)
  | |- context [Qc_eqb ?x ?y] => destruct (Qc_eqb_spec x y)
  end.

Lemma pmax_Qc (x y : Qc) : @pmax QcA x y = (if Qc_ltb x y then y else x).  Proof. reflexivity. Qed.
Lemma pmin_Qc (x y : Qc) : @pmin QcA x y = (if Qc_ltb y x then y else x).  Proof. reflexivity. Qed.
