(** Numbers.  The model is parametric in the arithmetic the program runs on.  [QcA] is exact rational arithmetic, [FloatA] (NumFloat.v) is IEEE-754
    binary64 (Python's [float]).  Python's [min]/[max] are modelled with Python's tie rule (the first of equal arguments wins). *)
From Coq Require Import ZArith QArith Qcanon List Lia.
Import ListNotations.

Record Arith := mkArith {
  T : Type;
  zero : T; one : T;
  add : T -> T -> T; sub : T -> T -> T; mul : T -> T -> T; div : T -> T -> T;
  eqb : T -> T -> bool; ltb : T -> T -> bool; leb : T -> T -> bool;
  ofZ : Z -> T;           (* int -> number *)
  trunc : T -> Z;         (* Python's int() *)
  fsum : list T -> T;     (* math.fsum *)
  min_stake_unit : T;     (* logic/helper.py:23  MIN_STAKE_UNIT = 2.2e-17 *)
  boost : T               (* logic/stakeholder_profiles.py:62,133  boost = 1e-6 *)
}.

Arguments zero {_}. Arguments one {_}.
Arguments add {_}. Arguments sub {_}. Arguments mul {_}. Arguments div {_}.
Arguments eqb {_}. Arguments ltb {_}. Arguments leb {_}.
Arguments ofZ {_}. Arguments trunc {_}. Arguments fsum {_}.
Arguments min_stake_unit {_}. Arguments boost {_}.

Declare Scope num_scope.
Delimit Scope num_scope with num.
Notation "x +' y" := (add x y) (at level 50, left associativity) : num_scope.
Notation "x -' y" := (sub x y) (at level 50, left associativity) : num_scope.
Notation "x *' y" := (mul x y) (at level 40, left associativity) : num_scope.
Notation "x <? y" := (ltb x y) (at level 70, no associativity) : num_scope.
Notation "x <=? y" := (leb x y) (at level 70, no associativity) : num_scope.
Notation "x >? y" := (ltb y x) (at level 70, no associativity, only parsing) : num_scope.
Notation "x >=? y" := (leb y x) (at level 70, no associativity, only parsing) : num_scope.
Notation "x =? y" := (eqb x y) (at level 70, no associativity) : num_scope.

(** Python: max(a, b) keeps a unless b > a;  min(a, b) keeps a unless b < a. *)
Definition pmax {A : Arith} (a b : T A) : T A := if ltb a b then b else a.
Definition pmin {A : Arith} (a b : T A) : T A := if ltb b a then b else a.
(** Unary minus, written 0 - x (they differ at most in the sign of a zero). *)
Definition opp {A : Arith} (a : T A) : T A := sub zero a.
(** Python's sum(): left to right, starting from 0. *)
Definition psum {A : Arith} (l : list (T A)) : T A := fold_left add l zero.
Definition absv {A : Arith} (a : T A) : T A := if ltb a zero then opp a else a.
Definition two {A : Arith} : T A := ofZ 2.

(** The laws the structural theorems need: comparisons form a total preorder, and [==] is the induced equivalence. *)
Record OrdLaws (A : Arith) : Prop := {
  ol_ltb_irrefl : forall x : T A, ltb x x = false;
  ol_ltb_trans : forall x y z : T A, ltb x y = true -> ltb y z = true -> ltb x z = true;
  ol_nlt_trans : forall x y z : T A, ltb x y = false -> ltb y z = false -> ltb x z = false;
  ol_leb : forall x y : T A, leb x y = negb (ltb y x);
  ol_eqb : forall x y : T A, eqb x y = andb (negb (ltb x y)) (negb (ltb y x))
}.

(** * Exact rationals *)

Definition Qc_ltb (x y : Qc) : bool := match (x ?= y)%Qc with Lt => true | _ => false end.
Definition Qc_leb (x y : Qc) : bool := match (x ?= y)%Qc with Gt => false | _ => true end.
Definition Qc_eqb (x y : Qc) : bool := match (x ?= y)%Qc with Eq => true | _ => false end.
Definition Qc_ofZ (z : Z) : Qc := Q2Qc (inject_Z z).
(** int(): truncation towards zero *)
Definition Qc_trunc (x : Qc) : Z := Z.quot (Qnum (this x)) (Zpos (Qden (this x))).
Definition Qc_sum (l : list Qc) : Qc := fold_right Qcplus 0%Qc l.

Definition QcA : Arith := {|
  T := Qc; zero := 0%Qc; one := 1%Qc;
  add := Qcplus; sub := Qcminus; mul := Qcmult; div := Qcdiv;
  eqb := Qc_eqb; ltb := Qc_ltb; leb := Qc_leb;
  ofZ := Qc_ofZ; trunc := Qc_trunc; fsum := Qc_sum;
  min_stake_unit := Q2Qc (22 # 1000000000000000000);
  boost := Q2Qc (1 # 1000000)
|}.

