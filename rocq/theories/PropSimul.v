(** Simultaneous activation (C25), and the part of the bookkeeping (C14) that holds under every activation order. *)
From Coq Require Import ZArith QArith Qcanon List Bool Arith Lia Permutation.
From Verif Require Import Num Py QcTac Rewards SortedKeyList World Stakeholder Sched Sim Init Reach RewardFacts ListFacts Greedy PropHelper Inv SimInv Spec PropInit ExactInv Demo AnyOrder PropSched.
Import ListNotations.
Open Scope Qc_scope.

(** * what survives: every pool's own books balance *)
Record balanced (p : pool QcA) : Prop := {
  bal_stake : p_stake p = p_pledge p + Qc_sum (values (p_delegators p));
  bal_min : forall a v, get (p_delegators p) a = Some v -> MIN <= v;
  bal_once : NoDup (keys (p_delegators p))
}.
Lemma balanced_upd p v a : balanced p -> v = zero (a := QcA) \/ big (A := QcA) v -> balanced (update_delegation v a p).
Proof.
  intros [F1 F2 F3] Hv. unfold update_delegation. constructor; cbn [p_stake p_pledge p_delegators].
  - change (p_stake p = p_pledge p + total (p_delegators p)) in F1. change (Qc_sum (values (if ltb v min_stake_unit then pop (set (p_delegators p) a v) a else set (p_delegators p) a v))) with (total (if ltb v min_stake_unit then pop (set (p_delegators p) a v) a else set (p_delegators p) a v)).
    assert (E : total (if ltb v min_stake_unit then pop (set (p_delegators p) a v) a else set (p_delegators p) a v) = total (set (p_delegators p) a v)).
    { destruct (ltb v min_stake_unit) eqn:E; [|reflexivity]. destruct Hv as [->|Hv]; [|unfold big in Hv; congruence]. change (@zero QcA) with 0. assert (T1 := total_pop (set (p_delegators p) a 0) a 0 (get_set_eq _ _ _)). rewrite Qcplus_0_l in T1. symmetry. exact T1. }
    transitivity (p_pledge p + total (set (p_delegators p) a v)); [|f_equal; symmetry; exact E]. cbn [add sub QcA]. destruct (get (p_delegators p) a) as [v0|] eqn:G.
    + assert (T1 := total_set (p_delegators p) a v v0 G). qlra.
    + assert (T1 := total_set_new (p_delegators p) a v (proj1 (get_None _ _) G)). qlra.
  - intros b x. destruct Hv as [->|Hv].
    + change (ltb (a := QcA) zero min_stake_unit) with true. cbv iota. destruct (Nat.eq_dec b a) as [->|N]; [rewrite get_pop_eq by (now apply NoDup_set); discriminate|].
      rewrite get_pop_ne, get_set_ne by congruence. apply F2.
    + unfold big in Hv. rewrite Hv. destruct (Nat.eq_dec b a) as [->|N]; [rewrite get_set_eq; intros [= <-]; now apply ltb_MIN_false|]. rewrite get_set_ne by congruence. apply F2.
  - destruct (ltb v min_stake_unit); [apply NoDup_pop|]; now apply NoDup_set.
Qed.
Lemma balanced_adjust (w : world QcA) ag pledge cost margins i p p' : balanced p -> adjust_pool w ag pledge cost margins i p = Ok p' -> balanced p'.
Proof.
  intros [F1 F2 F3] H. unfold adjust_pool in H. apply bind_ok in H as (p2 & H2 & H). apply bind_ok in H as (m & _ & H). injection H as <-. unfold pool_set_profit in H2. apply bind_ok in H2 as (pp & _ & H2). injection H2 as <-.
  constructor; cbn [pool_set_margin p_stake p_pledge p_delegators sub add QcA]; [|exact F2 | exact F3]. rewrite F1. generalize (Qc_sum (values (p_delegators p))) (p_pledge p). change (T QcA) with Qc in *. intros x y. qlra.
Qed.
Lemma balanced_draft (w : world QcA) ag pledge cost margins i id p : draft_pool w ag pledge cost margins i id = Ok p -> balanced p.
Proof.
  intros H. unfold draft_pool in H. apply bind_ok in H as (p2 & H2 & H). apply bind_ok in H as (m & _ & H). injection H as <-. unfold new_pool in H2. apply bind_ok in H2 as (pp & _ & H2). injection H2 as <-.
  constructor; cbn; [symmetry; apply Qcplus_0_r | discriminate | constructor].
Qed.
Lemma balanced_reprice (rs : rss QcA) p p' : balanced p -> pool_set_profit rs p = Ok p' -> balanced (pool_set_desirability p').
Proof. intros [F1 F2 F3] H. unfold pool_set_profit in H. apply bind_ok in H as (pp & _ & H). injection H as <-. now constructor. Qed.

(** Under every activation order, in every phase and in every state agents see, the stake of an active pool is its pledge plus the delegations it records; it
    records at most one delegation per agent, and none below the smallest unit of stake. *)
Theorem C14_pool_books_balance_in_every_order : forall so (g : args QcA) profiles (stakes costs : list Qc) (s0 : sim QcA) w, init g profiles stakes costs = Ok s0 -> visible so s0 w ->
  forall id p, active w id p ->
  p_stake p = p_pledge p + Qc_sum (values (p_delegators p)) /\ NoDup (keys (p_delegators p)) /\ (forall a v, get (p_delegators p) a = Some v -> Q2Qc (22 # 1000000000000000000) <= v).
Proof.
  intros so g profiles stakes costs s0 w H V id p (r & _ & Hp).
  assert (G : ok balanced w) by exact (visible_ok so balanced balanced_upd balanced_adjust balanced_draft balanced_reprice QcA_ord s0 w (init_ok balanced g profiles stakes costs s0 H) V).
  destruct (proj1 G _ _ Hp) as [F1 F2 F3]. auto.
Qed.

(** * what does not: delegations and pools drift apart *)
(** five agents with a fifth of the stake each *)
Definition five_args (o : order) : args QcA :=
  mkArgs (A := QcA) (Single 5%Z) (Single (Q2Qc 2)) (Single (Q2Qc (3#10))) (Single 0) (Single (Q2Qc (1#1000000))) (Single 100%Z) (Single (Q2Qc 2)) (Single o) (Single true) 0 0 false 2.
Definition five_profiles := [NonMyopic; Myopic; NonMyopic; Myopic; NonMyopic].
Definition five_stakes : list Qc := [Q2Qc (2#10); Q2Qc (2#10); Q2Qc (2#10); Q2Qc (2#10); Q2Qc (2#10)].
Definition five_costs : list Qc := [Q2Qc (1#2); Q2Qc (1#2); Q2Qc (1#2); Q2Qc (1#1000); Q2Qc (2#1000)].
Definition keys_are (d : dict nat) (l : list nat) : bool := if list_eq_dec Nat.eq_dec (keys d) l then true else false.
Definition five_check (s : sim QcA) : bool :=
  let w := s_w s in
  Qc_eqb (Qc_sum (map (fun x : nat * agent QcA => a_stake (snd x)) (w_agents w))) 1 && keys_are (w_pools w) [4; 5; 6]%nat &&
  pool_is w 4 (fun p => Qc_eqb (p_stake p) (Q2Qc (7#10)) && match get (p_delegators p) 0 with Some v => Qc_eqb v (Q2Qc (1#5)) | None => false end) &&
  pool_is w 5 (fun p => Qc_eqb (p_stake p) (Q2Qc (1#10))) &&
  pool_is w 6 (fun p => Qc_eqb (p_stake p) (Q2Qc (8#10)) && match get (p_delegators p) 0 with Some v => Qc_eqb v (Q2Qc (1#5)) | None => false end) &&
  agent_is w 0 (fun ag st => Qc_eqb (a_stake ag) (Q2Qc (1#5)) && dict_eqb (s_alloc st) [(6%nat, Q2Qc (1#5))]).
Lemma five_sim : match (let! s0 := init (five_args Simultaneous) five_profiles five_stakes five_costs in steps 3 s0) with Ok s => five_check s | Err _ => false end = true.
Proof. vm_compute. reflexivity. Qed.
Lemma five_semi : match (let! s0 := init (five_args Semisimultaneous) five_profiles five_stakes five_costs in steps 3 s0) with Ok s => five_check s | Err _ => false end = true.
Proof. vm_compute. reflexivity. Qed.

Lemma five_facts (s : sim QcA) : five_check s = true ->
  Qc_sum (map (fun x : nat * agent QcA => a_stake (snd x)) (w_agents (s_w s))) = 1 /\
  keys (w_pools (s_w s)) = [4; 5; 6]%nat /\
  (exists p, active (s_w s) 4 p /\ p_stake p = Q2Qc (7#10) /\ get (p_delegators p) 0 = Some (Q2Qc (1#5))) /\
  (exists p, active (s_w s) 5 p /\ p_stake p = Q2Qc (1#10)) /\
  (exists p, active (s_w s) 6 p /\ p_stake p = Q2Qc (8#10) /\ get (p_delegators p) 0 = Some (Q2Qc (1#5))) /\
  (exists ag st, plays (s_w s) 0 ag st /\ a_stake ag = Q2Qc (1#5) /\ s_alloc st = [(6%nat, Q2Qc (1#5))]).
Proof.
  unfold five_check. intros H. cbv beta zeta in H. apply andb_true_iff in H as [H H5]. apply andb_true_iff in H as [H H4]. apply andb_true_iff in H as [H H3]. apply andb_true_iff in H as [H H2]. apply andb_true_iff in H as [H0 H1]. apply Qc_eqb_eq in H0.
  split; [exact H0|]. split; [unfold keys_are in H1; destruct (list_eq_dec _ _ _); [assumption | discriminate]|].
  split; [|split; [|split]].
  - apply pool_is_active in H2 as (p & J & E). exists p. apply andb_true_iff in E as [E1 E2]. apply Qc_eqb_eq in E1. destruct (get (p_delegators p) 0) as [v|]; [|discriminate]. apply Qc_eqb_eq in E2. subst v. auto.
  - apply pool_is_active in H3 as (p & J & E). exists p. apply Qc_eqb_eq in E. auto.
  - apply pool_is_active in H4 as (p & J & E). exists p. apply andb_true_iff in E as [E1 E2]. apply Qc_eqb_eq in E1. destruct (get (p_delegators p) 0) as [v|]; [|discriminate]. apply Qc_eqb_eq in E2. subst v. auto.
  - apply agent_is_plays in H5 as (ag & st & J & E). exists ag, st. apply andb_true_iff in E as [E1 E2]. apply Qc_eqb_eq in E1. apply dict_eqb_eq in E2. auto.
Qed.

(** [o] is one of the orders in which agents first all choose and then all act *)
Definition simultaneous (o : order) : Prop := o = Simultaneous \/ o = Semisimultaneous.
Lemma five_reached o : simultaneous o -> exists s0 s, init (five_args o) five_profiles five_stakes five_costs = Ok s0 /\ reach so_id s0 s /\ five_check s = true.
Proof.
  intros [->| ->].
  - destruct (steps_check (init (five_args Simultaneous) five_profiles five_stakes five_costs) 3 five_check five_sim) as (s0 & s & H1 & H2 & H3). exists s0, s. apply steps_reach in H2. split; [exact H1|]. split; [exact H2 | exact H3].
  - destruct (steps_check (init (five_args Semisimultaneous) five_profiles five_stakes five_costs) 3 five_check five_semi) as (s0 & s & H1 & H2 & H3). exists s0, s. apply steps_reach in H2. split; [exact H1|]. split; [exact H2 | exact H3].
Qed.

(** An agent moves its delegation from one pool to another while the operator of the first pool replaces it by a copy made before the move: the pool keeps
    the delegation, the agent no longer has it. *)
Theorem C25_two_sided_recording_refuted : forall o, simultaneous o ->
  ~ (forall so (g : args QcA) profiles (stakes costs : list Qc) (s0 : sim QcA) w, set_order so -> init g profiles stakes costs = Ok s0 -> s_order s0 = o -> (forall x, In x stakes -> 0 < x) ->
     visible so s0 w -> forall a id v, allocates w a id v <-> records w id a v).
Proof.
  intros o Ho F. destruct (five_reached o Ho) as (s0 & s & H1 & H2 & H3). apply five_facts in H3 as (_ & _ & (p & J & _ & Gp) & _ & _ & (ag & st & Pl & _ & Ea)).
  assert (Hx : forall x, In x five_stakes -> 0 < x) by (cbn; intros x [<-|[<-|[<-|[<-|[<-|[]]]]]]; reflexivity).
  assert (Eo : s_order s0 = o). { assert (Fs := init_fresh _ _ _ _ _ H1). destruct (fs_order _ _ _ _ _ Fs) as (_ & _ & K). cbn in K. now destruct K as [K|[]]. }
  destruct (proj2 (F so_id _ _ _ _ s0 (s_w s) so_id_set_order H1 Eo Hx (vis_between _ _ _ _ H2) 0%nat 4%nat (Q2Qc (1#5)))) as (ag' & st' & (Pl1 & Pl2) & G).
  - exists p. auto.
  - destruct Pl as [Q1 Q2]. rewrite Q1 in Pl1. injection Pl1 as <-. rewrite Q2 in Pl2. injection Pl2 as <-. rewrite Ea in G. discriminate.
Qed.

(** Then the active pools together hold more stake than all agents together: 8/5 of the total here, although no agent has been given more than its share. *)
Theorem C25_stake_counted_twice_refuted : forall o, simultaneous o ->
  ~ (forall so (g : args QcA) profiles (stakes costs : list Qc) (s0 : sim QcA) w, set_order so -> init g profiles stakes costs = Ok s0 -> s_order s0 = o -> (forall x, In x stakes -> 0 < x) ->
     visible so s0 w -> forall pools, Forall2 (active w) (keys (w_pools w)) pools -> Qc_sum (map p_stake pools) <= Qc_sum (map (fun x : nat * agent QcA => a_stake (snd x)) (w_agents w))).
Proof.
  intros o Ho F. destruct (five_reached o Ho) as (s0 & s & H1 & H2 & H3). apply five_facts in H3 as (Es & Ek & (p4 & J4 & E4 & _) & (p5 & J5 & E5) & (p6 & J6 & E6 & _) & _).
  assert (Hx : forall x, In x five_stakes -> 0 < x) by (cbn; intros x [<-|[<-|[<-|[<-|[<-|[]]]]]]; reflexivity).
  assert (Eo : s_order s0 = o). { assert (Fs := init_fresh _ _ _ _ _ H1). destruct (fs_order _ _ _ _ _ Fs) as (_ & _ & K). cbn in K. now destruct K as [K|[]]. }
  assert (K := F so_id _ _ _ _ s0 (s_w s) so_id_set_order H1 Eo Hx (vis_between _ _ _ _ H2) [p4; p5; p6]). rewrite Ek in K. specialize (K ltac:(repeat constructor; assumption)).
  cbn [map] in K. rewrite E4, E5, E6, Es in K. now apply K.
Qed.

(** [C14_pool_books_balance_in_every_order] has instances with delegations under both simultaneous orders: pool 4 of the run above. *)
Example C14_every_order_instance : forall o, simultaneous o ->
  exists s0 s p, init (five_args o) five_profiles five_stakes five_costs = Ok s0 /\ reach so_id s0 s /\ active (s_w s) 4 p /\ p_stake p = Q2Qc (7#10) /\ get (p_delegators p) 0 = Some (Q2Qc (1#5)).
Proof.
  intros o Ho. destruct (five_reached o Ho) as (s0 & s & H1 & H2 & H3). apply five_facts in H3 as (_ & _ & (p & J & E & Gp) & _). exists s0, s, p.
  split; [exact H1|]. split; [exact H2|]. auto.
Qed.

(** * C66: a run can raise *)
Lemma fair_no_choice : fair no_choice.
Proof.
  split; [intros; apply Permutation_refl|]. intros i l n N L. cbn. split; [now apply firstn_length_le|]. split.
  - rewrite <- (firstn_skipn n l) in N. clear - N. induction (firstn n l) as [|x l' IH]; [constructor|]. cbn in N. inversion N; subst. constructor; [rewrite in_app_iff in *; tauto | auto].
  - intros x J. rewrite <- (firstn_skipn n l). apply in_app_iff. now left.
Qed.
(** Four agents with the default profile. *)
Definition four_args (o : order) : args QcA :=
  mkArgs (A := QcA) (Single 4%Z) (Single (Q2Qc 3)) (Single (Q2Qc (3#10))) (Single 0) (Single (Q2Qc (1#10000))) (Single 100%Z) (Single (Q2Qc 2)) (Single o) (Single true) 0 0 false 2.
Definition four_profiles := [NonMyopic; NonMyopic; NonMyopic; NonMyopic].
Definition four_stakes : list Qc := [Q2Qc 2; Q2Qc 9; Q2Qc 9; Q2Qc 6].
Definition four_costs : list Qc := [Q2Qc (5#10000); Q2Qc (9#10000); Q2Qc (5#10000); Q2Qc (4#10000)].
Definition raises_KeyError (s : sim QcA) : bool := match sim_step so_id no_choice s with Err KeyError => true | _ => false end.
Lemma four_sim : match (let! s0 := init (four_args Simultaneous) four_profiles four_stakes four_costs in steps 2 s0) with Ok s => raises_KeyError s | Err _ => false end = true.
Proof. vm_compute. reflexivity. Qed.
Lemma four_semi : match (let! s0 := init (four_args Semisimultaneous) four_profiles four_stakes four_costs in steps 2 s0) with Ok s => raises_KeyError s | Err _ => false end = true.
Proof. vm_compute. reflexivity. Qed.

(** REFUTED: in the third round an operator raises the pledge of a pool up to saturation, which makes it private, while a delegator leaves the pool.  The operator installs the copy made at the
    start of the round, which still records the delegation, and takes it away from the delegator, who no longer has it: KeyError. *)
Theorem C66_simultaneous_run_raises_refuted : forall o, simultaneous o ->
  exists so ch (g : args QcA) profiles (stakes costs : list Qc) (s0 s : sim QcA), set_order so /\ fair ch /\ init g profiles stakes costs = Ok s0 /\ g_order g = Single o /\
    (* stakes and costs are positive, nothing is inactive, k >= 1, a0 > 0, Cardano rewards, one phase *)
    (forall x, In x stakes -> 0 < x) /\ (forall x, In x costs -> 0 < x) /\ g_inactive g = 0 /\ g_k g = Single (Q2Qc 3) /\ g_a0 g = Single (Q2Qc (3#10)) /\ g_scheme g = 0%Z /\
    reach so s0 s /\ sim_step so ch s = Err KeyError.
Proof.
  intros o Ho. exists so_id, no_choice, (four_args o), four_profiles, four_stakes, four_costs.
  assert (exists s0 s, init (four_args o) four_profiles four_stakes four_costs = Ok s0 /\ reach so_id s0 s /\ raises_KeyError s = true) as (s0 & s & H1 & H2 & H3).
  { destruct Ho as [->| ->].
    - destruct (steps_check (init (four_args Simultaneous) four_profiles four_stakes four_costs) 2 raises_KeyError four_sim) as (s0 & s & H1 & H2 & H3). exists s0, s. apply steps_reach in H2. split; [exact H1|]. split; [exact H2 | exact H3].
    - destruct (steps_check (init (four_args Semisimultaneous) four_profiles four_stakes four_costs) 2 raises_KeyError four_semi) as (s0 & s & H1 & H2 & H3). exists s0, s. apply steps_reach in H2. split; [exact H1|]. split; [exact H2 | exact H3]. }
  exists s0, s. split; [exact so_id_set_order|]. split; [exact fair_no_choice|]. split; [exact H1|]. split; [reflexivity|]. split; [cbn; intros x [<-|[<-|[<-|[<-|[]]]]]; reflexivity|].
  split; [cbn; intros x [<-|[<-|[<-|[<-|[]]]]]; reflexivity|]. split; [reflexivity|]. split; [reflexivity|]. split; [reflexivity|]. split; [reflexivity|]. split; [exact H2|]. unfold raises_KeyError in H3. destruct (sim_step so_id no_choice s) as [|[]]; [discriminate | reflexivity | discriminate ..].
Qed.
