(** C82: abstainers.  The stake of abstainers is in no pool; instances for a sequential and a simultaneous run with an abstainer. *)
From Coq Require Import ZArith QArith Qcanon List Bool Arith Lia Permutation.
From Verif Require Import Num Py QcTac Rewards SortedKeyList World Stakeholder Sched Sim Init Reach Spec ListFacts Greedy Inv Static Exec Eval Step SimInv PropInit PropState ExactInv PropExact PropHelper PropBudget Reporters PropReporters Demo Persons Abstain.
Import ListNotations.
Open Scope Qc_scope.

Definition abstains (ag : agent QcA) : bool := match a_profile ag with World.Abstainer => true | _ => false end.
Lemma playing_sum (l : list (agent QcA)) : (forall ag, In ag l -> a_profile ag = World.Abstainer -> a_strategy ag = None) -> (forall ag, In ag l -> a_profile ag <> World.Abstainer -> a_strategy ag <> None) ->
  Qc_sum (map playing_stake l) + Qc_sum (map a_stake (filter abstains l)) = Qc_sum (map a_stake l).
Proof.
  induction l as [|ag l IH]; intros H1 H2; [change (0 + 0 = 0); ring|]. assert (E := IH (fun x J => H1 x (or_intror J)) (fun x J => H2 x (or_intror J))). specialize (H1 ag (or_introl eq_refl)). specialize (H2 ag (or_introl eq_refl)).
  cbn [map filter]. change (Qc_sum (playing_stake ag :: map playing_stake l)) with (playing_stake ag + Qc_sum (map playing_stake l)). change (Qc_sum (a_stake ag :: map a_stake l)) with (a_stake ag + Qc_sum (map a_stake l)). rewrite <- E. unfold abstains at 1, playing_stake at 1.
  destruct (a_profile ag); [destruct (a_strategy ag) eqn:Es; [|now exfalso; apply H2].. | rewrite (H1 eq_refl); cbn [map]; change (Qc_sum (a_stake ag :: map a_stake (filter abstains l))) with (a_stake ag + Qc_sum (map a_stake (filter abstains l)))].
  1,2: ring. ring.
Qed.
(** What the pools hold and what the abstainers have is together no more than all agents have, which is at most 1. *)
Theorem C82_stake_of_abstainers_is_in_no_pool : forall so (g : args QcA) profiles (stakes costs : list Qc) (s0 : sim QcA) w, set_order so -> init g profiles stakes costs = Ok s0 -> one_at_a_time g ->
  0 <= g_inactive g -> g_inactive g < 1 -> (forall x, In x stakes -> 0 <= x) -> visible so s0 w ->
  exists pools, Forall2 (fun r p => get (w_heap w) r = Some p) (values (w_pools w)) pools /\
    Qc_sum (map p_stake pools) + Qc_sum (map a_stake (filter abstains (values (w_agents w)))) <= Qc_sum (map a_stake (values (w_agents w))) /\ Qc_sum (map a_stake (values (w_agents w))) <= 1.
Proof.
  intros so g profiles stakes costs s0 w SO H1 H2 F0 F1 Hx V. destruct (C16_pools_hold_no_more_than_players so g profiles stakes costs s0 w SO H1 H2 F0 F1 Hx V) as (pools & F & L).
  exists pools. split; [exact F|]. assert (Na : NoDup (keys (w_agents w))).
  { destruct (exact_all False True False so SO _ _ _ _ _ _ H1 H2 (inputs_nonneg _ _ _ _ _ H1 F0 F1 Hx) V) as [G _]. apply (g_ok _ _ _ _ _ G). }
  split.
  - rewrite <- (playing_sum (values (w_agents w))); [change (T QcA) with Qc in *; apply Qcplus_le_compat; [exact L | apply Qcle_refl] | |]; intros ag J; apply in_map_iff in J as ([a ag'] & E & J); cbn in E; subst ag'; apply In_get in J; try assumption; intros N;
      destruct (visible_ok so _ s0 w (init_abstain _ _ _ _ _ H1) V) as [_ K]; destruct (K a ag J) as (_ & J1 & J2 & J3 & _); [now apply J2; apply J1 | apply J3; intros C; now apply J1 in C].
  - destruct (C56_total_stake_is_conserved so g profiles stakes costs s0 w H1 V) as (_ & _ & T). exact (T F0 F1 Hx).
Qed.

(** Instances: the third of four agents abstains, others operate pools and delegate; sequentially and simultaneously *)
Definition shy_profiles := [NonMyopic; Myopic; World.Abstainer; Myopic].
Definition shy_check (s : sim QcA) : bool := existsb (fun e => match get (w_heap (s_w s)) (snd e) with Some p => match p_delegators p with [] => false | _ => true end | None => false end) (w_pools (s_w s)).
Example C82_instance : (exists s0 s, init demo_seq shy_profiles demo_stakes demo_costs = Ok s0 /\ visible so_id s0 (s_w s) /\ shy_check s = true) /\
  (exists s0 s, init (demo_args Simultaneous (Single (Q2Qc 2))) shy_profiles demo_stakes demo_costs = Ok s0 /\ visible so_id s0 (s_w s) /\ shy_check s = true) /\ nth_error shy_profiles 2 = Some World.Abstainer.
Proof.
  split; [|split; [|reflexivity]].
  - destruct (steps_check (init demo_seq shy_profiles demo_stakes demo_costs) 3 shy_check) as (s0 & s & K1 & K2 & K3); [vm_compute; reflexivity|]. exists s0, s. split; [exact K1|]. split; [apply vis_between; eapply steps_reach; exact K2 | exact K3].
  - destruct (steps_check (init (demo_args Simultaneous (Single (Q2Qc 2))) shy_profiles demo_stakes demo_costs) 3 shy_check) as (s0 & s & K1 & K2 & K3); [vm_compute; reflexivity|]. exists s0, s. split; [exact K1|]. split; [apply vis_between; eapply steps_reach; exact K2 | exact K3].
Qed.
