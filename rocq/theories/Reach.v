(** Specification: which states a run of the simulation goes through. *)
From Coq Require Import ZArith List Bool Arith Lia.
From Verif Require Import Num Py Rewards SortedKeyList World Stakeholder Sched Sim Init.
Import ListNotations.

(** the values a parameter takes in the successive phases *)
Definition phase_values {X} (p : pv X) : list X := match p with Single x => [x] | Multi l => l end.

(** random or sequential activation: agents act one after the other *)
Definition one_by_one (o : order) : Prop := o = Random \/ o = Sequential.
Definition one_at_a_time {A} (g : args A) : Prop := Forall one_by_one (phase_values (g_order g)).

Section Reach.
  Variable A : Arith.
  Variable so : list nat -> list nat -> list nat.
  (** [reach s0 s]: the simulation object can be in state [s] after some calls of step() on [s0], for some outcomes of the random choices *)
  Inductive reach (s0 : sim A) : sim A -> Prop :=
  | reach_start : reach s0 s0
  | reach_step ch s s' : reach s0 s -> sim_step so ch s = Ok s' -> reach s0 s'.
  (** the states agents get to see: between rounds, and within a round after the first activations *)
  Inductive visible (s0 : sim A) : world A -> Prop :=
  | vis_between s : reach s0 s -> visible s0 (s_w s)
  | vis_within s ch evs1 evs2 w : reach s0 s -> round_events (c_sched (s_c s)) ch (keys (w_agents (s_w s))) = Ok (evs1 ++ evs2) ->
      foldM (do_event so) evs1 (s_w s) = Ok w -> visible s0 w.
End Reach.
Arguments reach {A}. Arguments visible {A}.

(** run_model only goes through reachable states *)
Section Run.
  Context {A : Arith}.
  Variable so : list nat -> list nat -> list nat.
  Lemma run_loop_reach ch fuel : forall (s0 s s' : sim A), reach so s0 s -> run_loop so ch fuel s = Ok s' -> reach so s0 s'.
  Proof.
    induction fuel as [|fuel IH]; intros s0 s s' R; cbn; destruct ((_ <=? _)%Z && _); try discriminate; try (intros [= <-]; exact R).
    destruct (sim_step so (ch (s_steps s)) s) as [s1|e] eqn:E; [|discriminate]. cbn. intros H. eapply IH; [|exact H]. eapply reach_step; eassumption.
  Qed.
  Lemma run_model_reach ch (s0 s' : sim A) : w_idseq (s_w s0) = 0 -> run_model so ch s0 = Ok s' -> reach so s0 s'.
  Proof.
    intros E H. unfold run_model in H. replace (initialize_pool_id_seq s0) with s0 in H; [eapply run_loop_reach; [apply reach_start | exact H]|].
    destruct s0 as [c w ? ? ? ? ? ? ? ? ? ? ? ?]. unfold initialize_pool_id_seq, set_w. cbn in *. destruct w. cbn in *. subst. reflexivity.
  Qed.
End Run.
