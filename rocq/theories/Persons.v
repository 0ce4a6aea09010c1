(** Who the agents are (C56): nothing in a run changes the identity, the profile, the stake or the cost of an agent, or adds or removes one, for every
    arithmetic, activation order and outcome of the random choices. *)
From Coq Require Import ZArith List Bool Arith Lia Permutation.
From Verif Require Import Num Py Rewards SortedKeyList World Stakeholder Sched Sim Init Reach ListFacts Eval Frame SimInv PropRun Demo.
Import ListNotations.
Open Scope nat_scope.

(** everything about the agents except their strategies, in the order in which they were made *)
Definition who {A} (w : world A) : list (nat * (nat * profile * T A * T A)) := map (fun e => (fst e, (a_id (snd e), a_profile (snd e), a_stake (snd e), a_cost (snd e)))) (w_agents w).

Section Persons.
  Context {A : Arith}.
  Implicit Types w : world A.
  Definition same_who w w' : Prop := who w' = who w.
  Lemma sw_refl w : same_who w w.  Proof. reflexivity. Qed.
  Lemma sw_trans w w1 w2 : same_who w w1 -> same_who w1 w2 -> same_who w w2.  Proof. unfold same_who. congruence. Qed.
  Lemma calm_sw w w' : calm w w' -> same_who w w'.  Proof. intros (_ & E & _). unfold same_who, who. now rewrite E. Qed.
  Lemma put_sw w a ag ag' : get (w_agents w) a = Some ag -> a_id ag' = a_id ag -> a_profile ag' = a_profile ag -> a_stake ag' = a_stake ag -> a_cost ag' = a_cost ag -> same_who w (put_agent w a ag').
  Proof.
    intros G E1 E2 E3 E4. unfold same_who, who, put_agent. cbn [w_agents with_agents]. apply (set_same (w_agents w) a ag' _ (fun x => (a_id x, a_profile x, a_stake x, a_cost x))); [|congruence].
    intros v0 E. rewrite G in E. injection E as <-. congruence.
  Qed.
  Lemma rod_sw r id w a w' : remove_one_delegation r id w a = Ok w' -> same_who w w'.
  Proof.
    unfold remove_one_delegation, the_agent. intros H. destruct (get (w_agents w) a) as [ag|] eqn:G; [|discriminate]. cbn [of_option bind] in H.
    apply bind_ok in H as (st & _ & H). apply bind_ok in H as (v & _ & H). cbv zeta in H. apply bind_ok in H as (p & _ & H). injection H as <-. apply (put_sw w a ag); [assumption | reflexivity..].
  Qed.
  Lemma rd_sw w r w' : remove_delegations w r = Ok w' -> same_who w w'.
  Proof.
    unfold remove_delegations. intros H. apply bind_ok in H as (p & _ & H). apply bind_ok in H as (w1 & H1 & H). injection H as <-.
    apply (rel_foldM same_who sw_refl sw_trans (fun w => w)) in H1; [|intros; eapply rod_sw; eassumption]. destruct (w_simul w1); [|assumption].
    eapply sw_trans; [exact H1|]. unfold same_who, who. cbn [w_agents with_agents]. rewrite map_map. apply map_ext. intros [b ag]. cbn. unfold drop_from_new. destruct (a_new ag); reflexivity.
  Qed.
  Lemma close_sw w id w' : close_pool w id = Ok w' -> same_who w w'.
  Proof.
    unfold close_pool. intros H. apply bind_ok in H as (r & _ & H). apply bind_ok in H as (w1 & H1 & H). apply bind_ok in H as (w2 & H2 & H). apply bind_ok in H as (w3 & H3 & H). injection H as <-.
    apply rr_calm, calm_sw in H1. apply rmr_calm, calm_sw in H2. apply rd_sw in H3. eapply sw_trans; [exact H1|]. eapply sw_trans; [exact H2|]. exact H3.
  Qed.
  Lemma upool_sw uid w id w' : update_pool uid w id = Ok w' -> same_who w w'.
  Proof.
    unfold update_pool. intros H. apply bind_ok in H as (ag & _ & H). apply bind_ok in H as (new & _ & H). apply bind_ok in H as (r & _ & H). apply bind_ok in H as (p & _ & H).
    apply bind_ok in H as (w1 & H1 & H). apply bind_ok in H as (ag2 & _ & H). apply bind_ok in H as (st & _ & H). apply bind_ok in H as (old & _ & H).
    apply bind_ok in H as (w3 & H3 & H). apply bind_ok in H as (w4 & H4 & H). apply bind_ok in H as (w5 & H5 & H). apply bind_ok in H as (w6 & H6 & H). injection H as <-.
    assert (E1 : same_who w w1) by (destruct (p_private p && _); [now apply rd_sw in H1 | injection H1 as <-; apply sw_refl]).
    apply rr_calm, calm_sw in H3. apply ra_calm, calm_sw in H4. apply rmr_calm, calm_sw in H5. apply rma_calm, calm_sw in H6.
    eapply sw_trans; [exact E1|]. eapply sw_trans; [exact H3|]. eapply sw_trans; [exact H4|]. eapply sw_trans; [exact H5|]. exact H6.
  Qed.
  Lemma open_sw uid w id w' : open_pool uid w id = Ok w' -> same_who w w'.
  Proof.
    unfold open_pool. intros H. apply bind_ok in H as (ag & _ & H). apply bind_ok in H as (st & _ & H). apply bind_ok in H as (r & _ & H). apply bind_ok in H as (w2 & H2 & H).
    apply ra_calm, calm_sw in H2. apply rma_calm, calm_sw in H. eapply sw_trans; [exact H2 | exact H].
  Qed.
  Lemma execute_sw so w uid w' : execute_strategy so w uid = Ok w' -> same_who w w'.
  Proof.
    unfold execute_strategy. intros H. apply bind_ok in H as (ag & G & H). apply bind_ok in H as (old & _ & H). apply bind_ok in H as (new & _ & H).
    apply bind_ok in H as (w1 & H1 & H). apply bind_ok in H as (w2 & H2 & H). apply bind_ok in H as (w3 & H3 & H). apply bind_ok in H as (w4 & H4 & H). apply bind_ok in H as (ag4 & G4 & H).
    apply (rel_foldM same_who sw_refl sw_trans (fun w => w)) in H1; [|intros; eapply calm_sw, touch_calm; eassumption].
    apply (rel_foldM same_who sw_refl sw_trans (fun w => w)) in H2; [|intros; eapply calm_sw, touch_calm; eassumption].
    apply (rel_foldM same_who sw_refl sw_trans (fun w => w)) in H3; [|intros; eapply close_sw; eassumption].
    apply (rel_foldM same_who sw_refl sw_trans (fun w => w)) in H4; [|intros; eapply upool_sw; eassumption].
    apply (rel_foldM same_who sw_refl sw_trans (fun w => w)) in H; [|intros; eapply open_sw; eassumption].
    eapply sw_trans; [exact H1|]. eapply sw_trans; [exact H2|]. eapply sw_trans; [exact H3|]. eapply sw_trans; [exact H4|]. eapply sw_trans; [|exact H].
    unfold the_agent in G4. apply of_option_ok in G4. apply (put_sw w4 uid ag4); [assumption | reflexivity..].
  Qed.
  Lemma advance_sw so w uid w' : advance so w uid = Ok w' -> same_who w w'.
  Proof.
    unfold advance. intros H. apply bind_ok in H as (ag & _ & H). destruct (a_new ag); [|injection H as <-; apply sw_refl].
    apply bind_ok in H as (w1 & H1 & H). injection H as <-. apply execute_sw in H1. exact H1.
  Qed.
  Lemma update_sw so w uid w' : update_strategy so w uid = Ok w' -> same_who w w'.
  Proof.
    intros H. unfold update_strategy, the_agent in H. destruct (get (w_agents w) uid) as [ag|] eqn:G; [|discriminate]. cbn [of_option bind] in H.
    destruct (a_profile ag) eqn:Ep; [| |injection H as <-; apply sw_refl].
    all: apply bind_ok in H as (st & _ & H); apply bind_ok in H as (cu & _ & H); apply bind_ok in H as (eu & _ & H); apply bind_ok in H as ([w1 ds] & H1 & H);
      apply bind_ok in H as (du & _ & H); apply bind_ok in H as ([[w2 ou] os] & H2 & H); injection H as <-; apply fdm_calm in H1; apply choose_calm in H2;
      assert (C := calm_trans _ _ _ H1 H2); eapply sw_trans; [apply calm_sw; exact C|]; destruct C as (_ & E & _); apply (put_sw w2 uid ag); [now rewrite E | reflexivity..].
  Qed.
  Lemma event_sw so w e w' : do_event so w e = Ok w' -> same_who w w'.
  Proof.
    destruct e as [a|a]; cbn; intros H; [|eapply advance_sw; exact H].
    unfold agent_step in H. apply bind_ok in H as (w1 & H1 & H). apply update_sw in H1. destruct (w_simul w1); [injection H as <-; assumption|]. apply advance_sw in H. eapply sw_trans; eassumption.
  Qed.
  Lemma events_sw so evs w w' : foldM (do_event so) evs w = Ok w' -> same_who w w'.
  Proof. intros H. apply (rel_foldM same_who sw_refl sw_trans (fun w => w)) in H; [assumption|]. intros; eapply event_sw; eassumption. Qed.
  Lemma sim_step_sw so ch (s s' : sim A) : sim_step so ch s = Ok s' -> same_who (s_w s) (s_w s').
  Proof.
    intros H. apply sim_step_cases in H as [(L & ->)|(L & w & Hw & H)]; [apply sw_refl|]. assert (E : same_who (s_w s) w). { unfold schedule_step in Hw. apply bind_ok in Hw as (evs & _ & Hw). eapply events_sw; exact Hw. }
    destruct H as [(Ei & ->)|[(Ei & Lc & ->)|[(Ei & Lc & Lp & s4 & H4 & ->)|(Ei & Lc & Lp & ->)]]]; try exact E.
    apply phase_frame in H4 as (_ & _ & _ & _ & _ & _ & _ & _ & F & _). cbn in F. eapply sw_trans; [exact E|]. unfold same_who, who. cbn. now rewrite F.
  Qed.
End Persons.

Theorem C56_agents_never_change : forall (A : Arith) so (s0 : sim A) w, visible so s0 w -> who w = who (s_w s0).
Proof.
  intros A so s0 w V. assert (R : forall s, reach so s0 s -> who (s_w s) = who (s_w s0)). { induction 1 as [|ch s s' R IH H]; [reflexivity|]. apply sim_step_sw in H. unfold same_who in H. congruence. }
  destruct V as [s Hs|s ch evs1 evs2 w' Hs Hev Hw]; [now apply R|]. apply events_sw in Hw. unfold same_who in Hw. rewrite Hw. now apply R.
Qed.
(** in particular every agent keeps its stake, and the stakes add up to the same total *)
Theorem C56_stakes_never_change : forall (A : Arith) so (s0 : sim A) w, visible so s0 w -> map (fun e => a_stake (snd e)) (w_agents w) = map (fun e => a_stake (snd e)) (w_agents (s_w s0)).
Proof. intros A so s0 w V. assert (E := f_equal (map (fun e => snd (fst (snd e)))) (C56_agents_never_change A so s0 w V)). unfold who in E. rewrite !map_map in E. exact E. Qed.

(** the demo run moves: after three rounds agents have strategies they did not have at the start *)
Example C56_instance : exists s0 s, demo_init = Ok s0 /\ reach so_id s0 s /\ visible so_id s0 (s_w s) /\ length (who (s_w s)) = length demo_stakes /\ strategies (s_w s) <> strategies (s_w s0).
Proof.
  assert (H : match (let! s0 := demo_init in let! s := sim_step so_id no_choice s0 in Ok (s0, s)) with
    Ok (s0, s) => Nat.eqb (length (who (s_w s))) (length demo_stakes) &&
      negb (Nat.eqb (length (flat_map (fun e => match snd e with Some st => s_owned st | None => [] end) (strategies (s_w s)))) (length (flat_map (fun e => match snd e with Some st => s_owned st | None => [] end) (strategies (s_w s0)))))
    | Err _ => false end = true) by (vm_compute; reflexivity).
  destruct demo_init as [s0|e]; cbn [bind] in H; [|discriminate]. destruct (sim_step so_id no_choice s0) as [s|e] eqn:E; cbn [bind] in H; [|discriminate]. apply andb_true_iff in H as [H1 H2].
  assert (R : reach so_id s0 s) by (econstructor; [constructor | exact E]). exists s0, s. split; [reflexivity|]. split; [assumption|]. split; [now constructor|]. split; [now apply Nat.eqb_eq|].
  intros Eq. rewrite Eq, Nat.eqb_refl in H2. discriminate.
Qed.
