(** Further functions of logic/helper.py: calculate_ranks, find_target_pool, functools.lru_cache, argument validators. *)
From Coq Require Import ZArith List Bool String Decimal DecimalString DecimalZ.
From Verif Require Import Num Py Rewards World.
Import ListNotations.
Open Scope num_scope.

Section Helper.
Variable A : Arith.
Notation num := (T A).

(** Python's [<] on tuples (lists of numbers) of equal length; at the end the ids decide: -i < -j *)
Fixpoint tuple_ltb (x y : list num) (tail : bool) : bool :=
  match x, y with
  | a :: x', b :: y' => if a =? b then tuple_ltb x' y' tail else a <? b
  | _, _ => tail
  end.

(** An entry of final_ranking_dict (helper.py:232-236): key and tuple without the id component *)
Definition rank_item : Type := nat * list num.
(** item1 < item2; with rank_ids the last component of the tuple is -key (helper.py:229-231) *)
Definition rank_ltb (rank_ids : bool) (x y : rank_item) : bool :=
  tuple_ltb (snd x) (snd y) (rank_ids && Nat.ltb (fst y) (fst x)).

(** sorted(..., reverse=True): stable, descending *)
Fixpoint rank_insert (ids : bool) (x : rank_item) (l : list rank_item) : list rank_item :=
  match l with [] => [x] | y :: l' => if rank_ltb ids x y then y :: rank_insert ids x l' else x :: l end.
Definition rank_sort (ids : bool) (l : list rank_item) : list rank_item := fold_right (rank_insert ids) [] l.

(** calculate_ranks (helper.py:219-241) *)
Definition calculate_ranks (rank_ids : bool) (d : dict num) (tie_breakers : list (dict num)) : res (dict nat) :=
  let! items := mapM (fun e => let! ts := mapM (fun t => of_option KeyError (get t (fst e))) tie_breakers in
                               Ok (fst e, snd e :: ts)) d in
  let sorted := rank_sort rank_ids items in
  Ok (combine (map fst sorted) (seq 1 (List.length sorted))).

(** find_target_pool (helper.py:465-484); [top] is top_pools *)
Fixpoint target_loop (rs : rss A) (pools : list (option (pool A))) (target covered : num) (top : list (pool A)) (last : option (pool A)) : option (pool A) :=
  match pools with
  | [] => last
  | p :: rest =>
      if covered >=? target then last
      else match p with
           | None => None
           | Some p' =>
               let top' := top ++ [p'] in
               target_loop rs rest target (fsum (map (fun q => pool_threshold rs (p_pledge q)) top')) top' (Some p')
           end
  end.
Definition find_target_pool (rs : rss A) (pools : list (option (pool A))) (target : num) : option (pool A) :=
  target_loop rs pools target zero [] None.
End Helper.

(** functools.lru_cache(maxsize) around a function [f] that may raise (used in helper.py:182, 190, 253, 266, 272, 277, 298, 303 with maxsize 1024).
    Entries are kept from most to least recently used.  [keq] is Python's equality of argument tuples. *)
Section Lru.
Variables (K V : Type) (keq : K -> K -> bool) (f : K -> res V) (maxsize : nat).
Fixpoint lru_find (k : K) (c : list (K * V)) : option (K * V * list (K * V)) :=
  match c with
  | [] => None
  | e :: c' => if keq k (fst e) then Some (e, c') else
                 match lru_find k c' with Some (e', r) => Some (e', e :: r) | None => None end
  end.
Definition lru_call (c : list (K * V)) (k : K) : list (K * V) * res V :=
  match lru_find k c with
  | Some (e, rest) => (e :: rest, Ok (snd e))
  | None =>
      match f k with
      | Err x => (c, Err x)
      | Ok v => (if Nat.leb maxsize (List.length c) then (k, v) :: removelast c else (k, v) :: c, Ok v)
      end
  end.
(** a sequence of calls: final cache, results, and the sizes of the cache after each call *)
Fixpoint lru_calls (c : list (K * V)) (ks : list K) : list (K * V) * list (res V) * list nat :=
  match ks with
  | [] => (c, [], [])
  | k :: ks' => let '(c', r) := lru_call c k in
                let '(c'', rs, ns) := lru_calls c' ks' in (c'', r :: rs, List.length c' :: ns)
  end.
End Lru.

(** Values that reach the argument validators: strings from the command line or numbers. *)
Section Validators.
Variable A : Arith.
Inductive pyval := VInt (z : Z) | VNum (x : T A) | VStr (s : string).
(** int(value).  Strings: an optional minus sign and decimal digits; Python also accepts surrounding blanks, a plus sign and underscores. *)
Definition py_int (v : pyval) : res Z :=
  match v with
  | VInt z => Ok z
  | VNum x => Ok (trunc x)
  | VStr s => match NilZero.int_of_string s with Some d => Ok (Z.of_int d) | None => Err ValueError end
  end.
(** float(value) of a number.  The conversion of strings to floats is not modelled: a string is represented by the number it denotes. *)
Definition positive_int (v : pyval) : res Z :=       (* helper.py:497-501 *)
  let! i := py_int v in if (i <=? 0)%Z then Err ArgumentTypeError else Ok i.
Definition non_negative_int (v : pyval) : res Z :=   (* helper.py:504-508 *)
  let! i := py_int v in if (i <? 0)%Z then Err ArgumentTypeError else Ok i.
Definition positive_float (x : T A) : res (T A) :=   (* helper.py:511-515 *)
  if x <=? zero then Err ArgumentTypeError else Ok x.
Definition non_negative_float (x : T A) : res (T A) :=   (* helper.py:518-522 *)
  if x <? zero then Err ArgumentTypeError else Ok x.
Definition fraction (x : T A) : res (T A) :=   (* helper.py:525-529 *)
  if (x <? zero) || (x >? one) then Err ArgumentTypeError else Ok x.
End Validators.
Arguments calculate_ranks {A}. Arguments find_target_pool {A}. Arguments target_loop {A}. Arguments tuple_ltb {A}. Arguments rank_ltb {A}.
Arguments rank_insert {A}. Arguments rank_sort {A}.
Arguments VInt {A}. Arguments VNum {A}. Arguments VStr {A}. Arguments py_int {A}. Arguments positive_int {A}. Arguments non_negative_int {A}.
Arguments positive_float {A}. Arguments non_negative_float {A}. Arguments fraction {A}.
