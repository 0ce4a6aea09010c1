(** sortedcontainers.SortedList with a key function, as used for the pool rankings (logic/sim.py:109-112, logic/stakeholder_profiles.py:14-17).
    The list stores, next to each element, the key computed when the element was inserted: [add] computes the key of the new element and inserts it
    behind all entries whose stored key is not greater (bisect_right); [remove] and [index] compute the key the element has *now*, go to the first entry
    whose stored key is not smaller (bisect_left) and scan the entries with an equal stored key; if the element is not among them they raise ValueError.
    Simplification: the binary searches over the stored keys (which are sorted) are written as linear scans. *)
From Coq Require Import ZArith List Bool.
From Verif Require Import Num Py.
Import ListNotations.
Open Scope num_scope.

Section SL.
Variable A : Arith.
Notation num := (T A).

(** Comparison keys.  The non-myopic key is (-desirability, -potential_profit, id) (helper.py:487-494); the myopic key is (-myopic desirability, id)
    (sim.py:445-454), represented as (-myopic desirability, 0, id); placeholders (None) have key (0, 0, 0) in both.  As pool ids are at least 1, comparing
    the pair (x, id) with the triple (0, 0, 0) gives the same answer as comparing (x, 0, id) with it. *)
Definition key : Type := num * num * Z.
(** Python's lexicographic comparison of tuples *)
Definition key_ltb (x y : key) : bool :=
  let '(x1, x2, x3) := x in let '(y1, y2, y3) := y in
  if x1 =? y1 then (if x2 =? y2 then (x3 <? y3)%Z else x2 <? y2) else x1 <? y1.
Definition key_eqb (x y : key) : bool :=
  let '(x1, x2, x3) := x in let '(y1, y2, y3) := y in
  (x1 =? y1) && (x2 =? y2) && (x3 =? y3)%Z.
Definition key_none : key := (zero, zero, 0%Z).

(** None or a reference to a pool *)
Definition elt_eqb (x y : option nat) : bool :=
  match x, y with Some a, Some b => Nat.eqb a b | None, None => true | _, _ => false end.

Definition sl := list (key * option nat).

Fixpoint sl_add (k : key) (v : option nat) (l : sl) : sl :=
  match l with
  | [] => [(k, v)]
  | e :: l' => if key_ltb k (fst e) then (k, v) :: l else e :: sl_add k v l'
  end.

(** scan of the entries whose stored key equals k *)
Fixpoint sl_scan_remove (k : key) (v : option nat) (l : sl) : res sl :=
  match l with
  | [] => Err ValueError
  | e :: l' =>
      if negb (key_eqb (fst e) k) then Err ValueError
      else if elt_eqb (snd e) v then Ok l'
      else let! r := sl_scan_remove k v l' in Ok (e :: r)
  end.
Fixpoint sl_remove (k : key) (v : option nat) (l : sl) : res sl :=
  match l with
  | [] => Err ValueError
  | e :: l' => if key_ltb (fst e) k then let! r := sl_remove k v l' in Ok (e :: r) else sl_scan_remove k v l
  end.

Fixpoint sl_scan_index (k : key) (v : option nat) (l : sl) : res nat :=
  match l with
  | [] => Err ValueError
  | e :: l' =>
      if negb (key_eqb (fst e) k) then Err ValueError
      else if elt_eqb (snd e) v then Ok 0%nat
      else let! i := sl_scan_index k v l' in Ok (S i)
  end.
Fixpoint sl_index (k : key) (v : option nat) (l : sl) : res nat :=
  match l with
  | [] => Err ValueError
  | e :: l' => if key_ltb (fst e) k then let! i := sl_index k v l' in Ok (S i) else sl_scan_index k v l
  end.

Definition sl_elems (l : sl) : list (option nat) := map snd l.
End SL.

Arguments key_ltb {A}. Arguments key_eqb {A}. Arguments key_none {A}.
Arguments sl_add {A}. Arguments sl_remove {A}. Arguments sl_index {A}. Arguments sl_elems {A}. Arguments sl_scan_remove {A}. Arguments sl_scan_index {A}.
