(** IEEE-754 binary64 instance of the arithmetic the model runs on. *)
From Coq Require Import ZArith List Floats Uint63.
From Verif Require Import Num.
Import ListNotations.
Set Warnings "-inexact-float".

(** NaN is the only place where Python's comparisons are not a total preorder.  [FloatA] compares NaN as larger than everything; on all other values
    these are the comparisons of the machine. *)
Definition F_nan (x : float) : bool := negb (PrimFloat.eqb x x).
Definition F_ltb (x y : float) : bool :=
  if F_nan x then false else if F_nan y then true else PrimFloat.ltb x y.
Definition F_leb (x y : float) : bool := negb (F_ltb y x).
Definition F_eqb (x y : float) : bool := andb (negb (F_ltb x y)) (negb (F_ltb y x)).
Definition F_ofZ (z : Z) : float :=
  match z with
  | Z0 => PrimFloat.zero
  | Zpos p => PrimFloat.of_uint63 (Uint63.of_Z (Zpos p))
  | Zneg p => PrimFloat.opp (PrimFloat.of_uint63 (Uint63.of_Z (Zpos p)))
  end.
Definition F_trunc (x : float) : Z :=
  match FloatOps.Prim2SF x with
  | SpecFloat.S754_finite s m e =>
      let a := if (0 <=? e)%Z then Z.shiftl (Zpos m) e else Z.shiftr (Zpos m) (- e) in
      if s then (- a)%Z else a
  | _ => 0%Z
  end.

(** math.fsum, Shewchuk's algorithm as in CPython: exact partials, then one rounding with the half-even correction. *)
Fixpoint fs_add (x : float) (ps : list float) : list float :=
  (* partials in increasing order of magnitude *)
  match ps with
  | [] => [x]
  | y :: ps' =>
      let '(x, y) := if PrimFloat.ltb (PrimFloat.abs x) (PrimFloat.abs y) then (y, x) else (x, y) in
      let hi := PrimFloat.add x y in
      let lo := PrimFloat.sub y (PrimFloat.sub hi x) in
      if PrimFloat.eqb lo PrimFloat.zero then fs_add hi ps' else lo :: fs_add hi ps'
  end.
Fixpoint fs_collapse (hi : float) (rev_ps : list float) : float :=
  match rev_ps with
  | [] => hi
  | y :: rest =>
      let x := hi in
      let hi := PrimFloat.add x y in
      let yr := PrimFloat.sub hi x in
      let lo := PrimFloat.sub y yr in
      if PrimFloat.eqb lo PrimFloat.zero then fs_collapse hi rest
      else match rest with
           | [] => hi
           | z :: _ =>
               if orb (andb (PrimFloat.ltb lo PrimFloat.zero) (PrimFloat.ltb z PrimFloat.zero))
                      (andb (PrimFloat.ltb PrimFloat.zero lo) (PrimFloat.ltb PrimFloat.zero z))
               then let y2 := PrimFloat.mul lo 2%float in
                    let x2 := PrimFloat.add hi y2 in
                    if PrimFloat.eqb y2 (PrimFloat.sub x2 hi) then x2 else hi
               else hi
           end
  end.
Definition F_fsum (l : list float) : float :=
  match rev (fold_left (fun ps x => fs_add x ps) l []) with
  | [] => PrimFloat.zero
  | hi :: rest => fs_collapse hi rest
  end.

Definition FloatA : Arith := {|
  T := float; zero := 0%float; one := 1%float;
  add := PrimFloat.add; sub := PrimFloat.sub; mul := PrimFloat.mul; div := PrimFloat.div;
  eqb := F_eqb; ltb := F_ltb; leb := F_leb;
  ofZ := F_ofZ; trunc := F_trunc; fsum := F_fsum;
  min_stake_unit := 2.2e-17%float;
  boost := 1e-6%float
|}.

(** The same arithmetic with the comparisons of the machine (False on NaN), as Python's [<], [<=], [==] are. *)
Definition FloatI : Arith := {|
  T := float; zero := 0%float; one := 1%float;
  add := PrimFloat.add; sub := PrimFloat.sub; mul := PrimFloat.mul; div := PrimFloat.div;
  eqb := PrimFloat.eqb; ltb := PrimFloat.ltb; leb := PrimFloat.leb;
  ofZ := F_ofZ; trunc := F_trunc; fsum := F_fsum;
  min_stake_unit := 2.2e-17%float;
  boost := 1e-6%float
|}.
