(** Python's runtime, as far as the program uses it: exceptions as values, insertion ordered dictionaries, list indexing, checked division. *)
From Coq Require Import ZArith List Bool Arith Lia.
From Verif Require Import Num.
Import ListNotations.

Inductive exn :=
  | KeyError | IndexError | ValueError | ZeroDivisionError | AttributeError | TypeError | FileExistsError
  | FileNotFoundError | ArgumentTypeError | NotImplementedError | UnboundLocalError
  | Dangling     (* not a Python exception: marks the use of a reference that is not in the heap of the model, which cannot occur in Python *)
  | OutOfFuel.   (* not a Python exception: marks an exhausted loop bound of the model; proved unreachable *)

Inductive res (A : Type) := Ok (a : A) | Err (e : exn).
Arguments Ok {A}. Arguments Err {A}.

Definition bind {A B} (m : res A) (f : A -> res B) : res B :=
  match m with Ok a => f a | Err e => Err e end.
Notation "'let!' x ':=' m 'in' k" := (bind m (fun x => k)) (at level 200, x pattern, right associativity).

Definition of_option {A} (e : exn) (o : option A) : res A := match o with Some a => Ok a | None => Err e end.
Definition is_ok {A} (r : res A) : bool := match r with Ok _ => true | Err _ => false end.

(** [for x in l: acc = f(acc, x)] with exceptions *)
Fixpoint foldM {A B} (f : A -> B -> res A) (l : list B) (a : A) : res A :=
  match l with [] => Ok a | x :: l' => let! a' := f a x in foldM f l' a' end.
(** [[f(x) for x in l]] with exceptions *)
Fixpoint mapM {A B} (f : A -> res B) (l : list A) : res (list B) :=
  match l with [] => Ok [] | x :: l' => let! y := f x in let! ys := mapM f l' in Ok (y :: ys) end.

(** Dictionaries with integer keys, in insertion order. *)
Definition dict (V : Type) := list (nat * V).
Section Dict.
  Context {V : Type}.
  Fixpoint get (d : dict V) (k : nat) : option V :=
    match d with [] => None | (k', v) :: d' => if Nat.eqb k k' then Some v else get d' k end.
  (** d[k] = v: replaces in place, or appends *)
  Fixpoint set (d : dict V) (k : nat) (v : V) : dict V :=
    match d with
    | [] => [(k, v)]
    | (k', v') :: d' => if Nat.eqb k k' then (k, v) :: d' else (k', v') :: set d' k v
    end.
  (** d.pop(k, None) *)
  Fixpoint pop (d : dict V) (k : nat) : dict V :=
    match d with [] => [] | (k', v') :: d' => if Nat.eqb k k' then d' else (k', v') :: pop d' k end.
  Definition mem (d : dict V) (k : nat) : bool := match get d k with Some _ => true | None => false end.
  Definition keys (d : dict V) : list nat := map fst d.
  Definition values (d : dict V) : list V := map snd d.
End Dict.

(** membership of an int in a list of ints *)
Definition inb (k : nat) (l : list nat) : bool := existsb (Nat.eqb k) l.

(** Python list indexing, negative indices count from the end *)
Definition py_index {V} (l : list V) (i : Z) : res V :=
  let n := Z.of_nat (length l) in
  let j := if (i <? 0)%Z then (i + n)%Z else i in
  if ((0 <=? j) && (j <? n))%Z then of_option IndexError (nth_error l (Z.to_nat j)) else Err IndexError.

(** range(a, b) over ints *)
Definition zrange (a b : Z) : list Z := map (fun i => (a + Z.of_nat i)%Z) (seq 0 (Z.to_nat (b - a))).

(** x / y *)
Definition pdiv {A : Arith} (x y : T A) : res (T A) :=
  if eqb y zero then Err ZeroDivisionError else Ok (div x y).
