(** The distributions of logic/helper.py that draw several times or are not used by the simulation: truncate_pareto (helper.py:90-99), as generate_stake_distr_pareto
    calls it when a truncation factor is given (72-87), and the distributions of cost (63-69, 107-155).  What numpy and scipy draw is a parameter. *)
From Coq Require Import ZArith List Bool.
From Verif Require Import Num Py Rewards World Init Reporters.
Import ListNotations.
Open Scope num_scope.

Section Distributions.
Variable A : Arith.
Notation num := (T A).

(** list.remove: the first occurrence *)
Fixpoint remove_first (x : num) (l : list num) : list num := match l with [] => [] | y :: l' => if y =? x then l' else y :: remove_first x l' end.
(** truncate_pareto (helper.py:90-99) with mode m = 1.  [draw i]: the result of the i-th call of rng.pareto(a).  [fuel] bounds the iterations of the loop. *)
Fixpoint truncate (draw : nat -> num) (fuel : nat) (i : nat) (sample : list num) (factor : num) : res (list num) :=
  let! max_value := max_of sample in
  let! limit := pdiv (psum sample) factor in
  if limit <? max_value then
    match fuel with
    | O => Err OutOfFuel
    | S fuel' => truncate draw fuel' (S i) (remove_first max_value sample ++ [(draw i +' one) *' one]) factor
    end
  else Ok sample.
(** generate_stake_distr_pareto (helper.py:72-87).  [first]: rng.pareto(a, num_agents), [draw]: what is drawn after it *)
Definition stake_distr_pareto (first : list num) (draw : nat -> num) (fuel : nat) (factor : num) : res (list num) :=
  let sample := map (fun x => (x +' one) *' one) first in
  if zero <? factor then truncate draw fuel 0 sample factor else Ok sample.

(** what the generators of random numbers give: uniform(low, high, size), choice(list, size), truncnorm.rvs(a, b, 0, 1, size) *)
Record draws := mkDraws { d_uniform : num -> num -> Z -> list num; d_choice : list num -> Z -> list num; d_truncnorm : num -> num -> Z -> list num }.
(** rng.choice(l, size): ValueError for a negative size, and when there is nothing to choose from *)
Definition rng_choice (d : draws) (l : list num) (size : Z) : res (list num) :=
  if (size <? 0)%Z then Err ValueError else match l with [] => if (size =? 0)%Z then Ok [] else Err ValueError | _ => Ok (d_choice d l size) end.
(** rng.uniform(..., size): ValueError for a negative size *)
Definition rng_uniform (d : draws) (low high : num) (size : Z) : res (list num) := if (size <? 0)%Z then Err ValueError else Ok (d_uniform d low high size).
(** generate_cost_distr_bands (helper.py:123-129) *)
Definition cost_distr_bands (d : draws) (n : Z) (low high : num) (num_bands : Z) : res (list num) :=
  if high <? low then Err ValueError else
  let! bands := rng_uniform d low high num_bands in
  rng_choice d bands n.
(** generate_cost_distr_bands_manual (helper.py:132-143): what is drawn is not used *)
Definition cost_distr_bands_manual (d : draws) (n : Z) (low high : num) (num_bands : Z) : res (list num) :=
  if high <? low then Err ValueError else
  let! bands := rng_uniform d low high num_bands in
  let! costs := rng_choice d bands (n - 3) in
  Ok (map (fun i => if Nat.ltb i 5 then low else high) (seq 0 (Z.to_nat n))).
(** generate_cost_distr_nrm (helper.py:146-155); truncnorm.rvs(a, b, loc, scale, size) is loc + scale times a sample of the standard normal distribution truncated to [a, b] *)
Definition cost_distr_nrm (d : draws) (n : Z) (low high mean stddev : num) : res (list num) :=
  if high <? low then Err ValueError else Ok (map (fun z => mean +' stddev *' z) (d_truncnorm d low high n)).
(** generate_cost_distr_unfrm (helper.py:107-120) *)
Definition cost_distr_unfrm (d : draws) (n : Z) (low high : num) : res (list num) :=
  if high <? low then Err ValueError else rng_uniform d low high n.
End Distributions.

Arguments remove_first {A}. Arguments truncate {A}. Arguments stake_distr_pareto {A}. Arguments mkDraws {A}. Arguments d_uniform {A}. Arguments d_choice {A}. Arguments d_truncnorm {A}.
Arguments rng_choice {A}. Arguments rng_uniform {A}. Arguments cost_distr_bands {A}. Arguments cost_distr_bands_manual {A}. Arguments cost_distr_nrm {A}. Arguments cost_distr_unfrm {A}.
