(** Vocabulary of the properties about states: plain readings of the data structures of the simulation, used in the statements of the theorems. *)
From Coq Require Import ZArith List Bool Permutation Sorted.
From Verif Require Import Num Py Rewards SortedKeyList World Stakeholder Sched Sim Init Reach.
Import ListNotations.

Section Spec.
  Context {A : Arith}.
  Notation num := (T A).
  Variable w : world A.
  (** [p] is the active pool registered under [id] *)
  Definition active (id : nat) (p : pool A) : Prop := exists r, get (w_pools w) id = Some r /\ get (w_heap w) r = Some p.
  (** the present strategy of agent [a] *)
  Definition plays (a : nat) (ag : agent A) (st : strategy A) : Prop := get (w_agents w) a = Some ag /\ a_strategy ag = Some st.
  (** agent [a] delegates [v] to the pool with identifier [id], according to the agent *)
  Definition allocates (a id : nat) (v : num) : Prop := exists ag st, plays a ag st /\ get (s_alloc st) id = Some v.
  (** agent [a] delegates [v] to the pool with identifier [id], according to the pool *)
  Definition records (id a : nat) (v : num) : Prop := exists p, active id p /\ get (p_delegators p) a = Some v.
  (** agent [a] operates pool [p], identifier [id], according to the agent *)
  Definition operates (a id : nat) (p : pool A) : Prop := exists ag st r, plays a ag st /\ get (s_owned st) id = Some r /\ get (w_heap w) r = Some p.

  (** the comparison key an entry of a ranking has now *)
  Definition current_key (K : pool A -> res (key A)) (e : option nat) : res (key A) :=
    match e with None => Ok (zero, zero, 0%Z) | Some r => let! p := deref w r in K p end.
  (** [l] lists every active pool once and [m] placeholders, by increasing current key *)
  Definition complete_and_sorted (m : nat) (K : pool A -> res (key A)) (l : list (option nat)) : Prop :=
    Permutation l (repeat None m ++ map Some (values (w_pools w))) /\ NoDup (values (w_pools w)) /\
    exists ks, mapM (current_key K) l = Ok ks /\ StronglySorted (fun x y => key_ltb y x = false) ks.
End Spec.

(** every set is enumerated in some order *)
Definition set_order (so : list nat -> list nat -> list nat) : Prop := forall ctx l, Permutation (so ctx l) l.
