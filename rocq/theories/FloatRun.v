(** A run in binary64 arithmetic.  The theorems about the structure of the state are stated for every ordered arithmetic: this run meets their hypotheses.  The theorems about amounts are
    stated in exact arithmetic: the same run shows that in binary64 they hold up to rounding errors only. *)
From Coq Require Import ZArith List Bool Arith Floats Permutation.
From Verif Require Import Num NumFloat FloatOrd Py Rewards SortedKeyList World Stakeholder Sched Sim Init Reach Spec ListFacts PropInit Demo PropState.
Import ListNotations.

Set Warnings "-inexact-float".
Definition float_args : args FloatA :=
  mkArgs (A := FloatA) (Single 6%Z) (Single 3%float) (Single 0.3%float) (Single 0%float) (Single 1e-6%float) (Single 100%Z) (Single 2%float) (Single Sequential) (Single true) 0 0%float false 2.
Notation float_init := (init (A := FloatA) float_args [NonMyopic; NonMyopic; NonMyopic; NonMyopic; NonMyopic; NonMyopic] [0.31; 0.23; 0.17; 0.13; 0.09; 0.07]%float
  [0.001; 0.0013; 0.0017; 0.0023; 0.0029; 0.0037]%float).
Lemma float_one : one_at_a_time float_args.  Proof. constructor; [right; reflexivity | constructor]. Qed.
Lemma MP_Float : ltb (zero (a := FloatA)) min_stake_unit = true.  Proof. vm_compute. reflexivity. Qed.

(** what the structural theorems say of binary64 *)
Corollary binary64_structure : forall so g profiles stakes costs (s0 : sim FloatA) w, set_order so -> init g profiles stakes costs = Ok s0 -> one_at_a_time g -> visible so s0 w ->
  (forall a id v, allocates w a id v <-> records w id a v) /\
  (forall a id p, operates w a id p <-> active w id p /\ p_owner p = a) /\
  (forall a id v, allocates w a id v -> ltb v min_stake_unit = false /\ exists p, active w id p /\ p_owner p <> a) /\
  (forall id p, active w id p -> p_id p = id).
Proof.
  intros so g profiles stakes costs s0 w SO H1 H2 V. split; [apply (C15_delegations_recorded_on_both_sides FloatA FloatA_ord MP_Float so g profiles stakes costs s0 w SO H1 H2 V)|].
  split; [apply (C15_pools_recorded_on_both_sides FloatA FloatA_ord MP_Float so g profiles stakes costs s0 w SO H1 H2 V)|].
  split; [apply (C17_no_delegation_to_own_pools FloatA FloatA_ord MP_Float so g profiles stakes costs s0 w SO H1 H2 V)|].
  apply (C23_registered_under_own_id FloatA FloatA_ord MP_Float so g profiles stakes costs s0 w SO H1 H2 V).
Qed.
Example binary64_instance : exists s0 s p, float_init = Ok s0 /\ visible so_id s0 (s_w s) /\ active (s_w s) 4 p /\ p_owner p = 1 /\ length (p_delegators p) = 2.
Proof.
  destruct (steps_check float_init 4 (fun s => pool_is (s_w s) 4 (fun p => Nat.eqb (p_owner p) 1 && Nat.eqb (length (p_delegators p)) 2))) as (s0 & s & H1 & H2 & H3).
  { vm_compute. reflexivity. }
  cbv beta in H3. apply pool_is_active in H3 as (p & K1 & K2). apply andb_true_iff in K2 as [K2 K3]. exists s0, s, p. split; [exact H1|]. split; [apply vis_between; eapply steps_reach; exact H2|].
  split; [assumption|]. split; now apply Nat.eqb_eq.
Qed.

(** C14 is a statement about exact arithmetic: after four rounds of this run the stake of pool 4 is neither the sum of its pledge and its delegations added from left to right nor the
    correctly rounded sum.  Rounding also leaves crumbs: agent 5, who delegates the rest of its stake to pool 4, keeps a delegation of 2^-53 to pool 5, above MIN_STAKE_UNIT, by which that pool
    exceeds the saturation point 1/3. *)
Theorem C14_binary64_rounding : exists (s0 s : sim FloatA) p q v, float_init = Ok s0 /\ set_order so_id /\ one_at_a_time float_args /\ visible so_id s0 (s_w s) /\
  active (s_w s) 4 p /\ eqb (p_stake p) (psum (p_pledge p :: values (p_delegators p))) = false /\ eqb (p_stake p) (fsum (p_pledge p :: values (p_delegators p))) = false /\
  active (s_w s) 5 q /\ ltb (r_thr (w_rss (s_w s))) (p_stake q) = true /\ records (s_w s) 5 5 v /\ eqb v 0x1p-53%float = true.
Proof.
  destruct (steps_check float_init 4 (fun s => pool_is (s_w s) 4 (fun p => negb (eqb (p_stake p) (psum (p_pledge p :: values (p_delegators p)))) && negb (eqb (p_stake p) (fsum (p_pledge p :: values (p_delegators p))))) &&
    pool_is (s_w s) 5 (fun q => ltb (r_thr (w_rss (s_w s))) (p_stake q) && match get (p_delegators q) 5 with Some v => eqb (a := FloatA) v 0x1p-53%float | None => false end))) as (s0 & s & H1 & H2 & H3).
  { vm_compute. reflexivity. }
  cbv beta in H3. apply andb_true_iff in H3 as [K1 K2]. apply pool_is_active in K1 as (p & A1 & B1). apply andb_true_iff in B1 as [B1 B2]. apply pool_is_active in K2 as (q & A2 & C1). apply andb_true_iff in C1 as [C1 C2].
  destruct (get (p_delegators q) 5) as [v|] eqn:E; [|discriminate].
  exists s0, s, p, q, v. split; [exact H1|]. split; [exact so_id_set_order|]. split; [exact float_one|]. split; [apply vis_between; eapply steps_reach; exact H2|]. split; [assumption|].
  split; [now apply negb_true_iff in B1|]. split; [now apply negb_true_iff in B2|]. split; [assumption|]. split; [assumption|]. split; [exists q; split; assumption | assumption].
Qed.
