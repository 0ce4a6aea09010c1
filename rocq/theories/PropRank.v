(** C75: the two rankings of the pools under every activation order. *)
From Coq Require Import ZArith QArith Qcanon List Bool Arith Lia Permutation.
From Verif Require Import Num Py QcTac Rewards SortedKeyList World Stakeholder Sched Sim Init Reach Spec ListFacts Inv SimInv PropState AnyBooks PropBooks AnyRank Demo.
Import ListNotations.
Open Scope nat_scope.

(** The desirability ranking and the myopic ranking list every active pool exactly once, and the placeholders, in the order of the pools' present values.
    Unlike [C13_rankings_complete_and_sorted] the theorem says nothing about the activation order of any phase: it covers simultaneous and semisimultaneous activation,
    where agents prepare moves against one state and carry them out in another, and states in the middle of such a round. *)
Theorem C75_rankings_under_every_order : forall (A : Arith), OrdLaws A ->
  forall so g profiles stakes costs (s0 : sim A) w, set_order so -> init g profiles stakes costs = Ok s0 -> visible so s0 w ->
  let m := Z.to_nat (r_k (w_rss (s_w s0)) + 1) in
  complete_and_sorted w m (fun p => Ok (opp (p_des p), opp (p_pp p), Z.of_nat (p_id p))) (sl_elems (w_rank w)) /\
  complete_and_sorted w m (fun p => let! cp := current_profit (w_rss w) (p_stake p) (p_pledge p) (p_cost p) in
                                    Ok (opp (desirability (p_margin p) cp), zero, Z.of_nat (p_id p))) (sl_elems (w_rankm w)).
Proof.
  intros A O so g profiles stakes costs s0 w SO H V m. destruct (visible_good O so SO m s0 w (init_good O _ _ _ _ _ H) V) as (F & _ & R1 & R2).
  assert (N := own_nodup _ (full_own _ F)). split; apply rank_ok_spec; assumption.
Qed.

(** Moves that have been prepared and not yet carried out propose pool objects of their own: no active pool is one of them, and an id proposed in them that is active belongs to the same agent's pools. *)
Theorem C75_prepared_pools_are_separate : forall (A : Arith), OrdLaws A ->
  forall so g profiles stakes costs (s0 : sim A) w, set_order so -> init g profiles stakes costs = Ok s0 -> visible so s0 w ->
  forall a ag new id r, get (w_agents w) a = Some ag -> a_new ag = Some new -> get (s_owned new) id = Some r ->
  (forall id' , get (w_pools w) id' <> Some r) /\ (exists p, get (w_heap w) r = Some p /\ p_id p = id /\ p_owner p = a) /\
  (forall q, active w id q -> p_owner q = a).
Proof.
  intros A O so g profiles stakes costs s0 w SO H V a ag new id r G1 G2 G3.
  destruct (visible_good O so SO _ s0 w (init_good O _ _ _ _ _ H) V) as (F & Sp & _). split; [intros id' J; apply (Sp a ag new id r G1 G2 G3); eapply values_In; exact J|].
  assert (Ow := full_own w F). destruct F as [[[_ Hp] Ha] _]. destruct (Ha _ _ G1) as (_ & _ & _ & I4). destruct (I4 new G2) as (_ & _ & ps & Fo & _). destruct (mine_get _ _ _ _ _ _ Fo G3) as (p & Gp & Ip & Op).
  split; [now exists p|]. intros q (r' & J1 & J2). destruct (proj2 Ow _ _ J1) as (q' & J3 & J4). assert (q' = q) by congruence. subst q'. rewrite <- Op. apply (Hp r' r q p J2 Gp). congruence.
Qed.

(** after the first round under simultaneous activation pools 1, 2 and 3 are active; in the middle of the second round agent 0 has prepared another version of its pool 1, which is not the registered one *)
Definition mid_test : res bool :=
  let! s0 := simul_init in let! s1 := steps 1 s0 in let! evs := round_events (c_sched (s_c s1)) no_choice (keys (w_agents (s_w s1))) in
  let! w := foldM (do_event so_id) (firstn 2 evs) (s_w s1) in
  Ok (pool_is w 1 (fun _ => true) && pool_is w 2 (fun _ => true) && pool_is w 3 (fun _ => true) &&
      match get (w_agents w) 0 with Some ag => match a_new ag with Some new => match get (s_owned new) 1, get (w_pools w) 1 with Some r, Some r' => negb (Nat.eqb r r') | _, _ => false end | None => false end | None => false end).
Example C75_instance : OrdLaws QcA /\ set_order so_id /\ exists s0 w p1 p2 p3 ag new r, simul_init = Ok s0 /\ visible so_id s0 w /\ active w 1 p1 /\ active w 2 p2 /\ active w 3 p3 /\
  get (w_agents w) 0 = Some ag /\ a_new ag = Some new /\ get (s_owned new) 1 = Some r.
Proof.
  split; [exact QcA_ord|]. split; [exact so_id_set_order|].
  assert (Hc : match mid_test with Ok b => b | Err _ => false end = true) by (vm_compute; reflexivity).
  unfold mid_test in Hc. destruct simul_init as [s0|] eqn:E0; [|discriminate]. cbn [bind] in Hc. destruct (steps 1 s0) as [s1|] eqn:E1; [|discriminate]. cbn [bind] in Hc.
  destruct (round_events _ _ _) as [evs|] eqn:E2; [|discriminate]. cbn [bind] in Hc. destruct (foldM _ _ _) as [w|] eqn:E3; [|discriminate]. cbn [bind] in Hc.
  assert (V : visible so_id s0 w) by (apply (vis_within _ _ _ s1 no_choice (firstn 2 evs) (skipn 2 evs) w); [exact (steps_reach _ _ _ E1) | rewrite firstn_skipn; exact E2 | exact E3]).
  apply andb_true_iff in Hc as [Hc H4]. apply andb_true_iff in Hc as [Hc H3]. apply andb_true_iff in Hc as [H1 H2].
  apply pool_is_active in H1 as (p1 & A1 & _). apply pool_is_active in H2 as (p2 & A2 & _). apply pool_is_active in H3 as (p3 & A3 & _).
  destruct (get (w_agents w) 0) as [ag|] eqn:E4; [|discriminate]. destruct (a_new ag) as [new|] eqn:E5; [|discriminate]. destruct (get (s_owned new) 1) as [r|] eqn:E6; [|discriminate].
  exists s0, w, p1, p2, p3, ag, new, r. exact (conj eq_refl (conj V (conj A1 (conj A2 (conj A3 (conj E4 (conj E5 E6))))))).
Qed.
