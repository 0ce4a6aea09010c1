(** C73: what the move of one agent leaves alone. *)
From Coq Require Import ZArith QArith Qcanon List Bool Arith Lia Permutation Sorted.
From Verif Require Import Num Py QcTac Rewards SortedKeyList World Stakeholder Sched Sim Init Reach Spec ListFacts SLFacts Greedy Inv Static Exec Eval Step SimInv PropState ExactInv PropInit PropExact Demo.
Import ListNotations.
Open Scope nat_scope.

(** [w'] differs from [w] by what agent [uid] may do only *)
Record only_touches {A : Arith} (uid : nat) (w w' : world A) : Prop := {
  (** the pools of the others stay in operation, on the same terms and with the same delegations of everybody else *)
  ot_pools : forall id p, active w id p -> p_owner p <> uid -> exists p', active w' id p' /\
    p_id p' = p_id p /\ p_owner p' = p_owner p /\ p_cost p' = p_cost p /\ p_pledge p' = p_pledge p /\ p_margin p' = p_margin p /\ p_private p' = p_private p /\
    forall a, a <> uid -> get (p_delegators p') a = get (p_delegators p) a;
  (** no pool is opened in the name of another agent *)
  ot_new : forall id p', active w' id p' -> p_owner p' <> uid -> exists p, active w id p /\ p_owner p = p_owner p';
  (** the other agents are who they were *)
  ot_agents : forall a ag, a <> uid -> get (w_agents w) a = Some ag -> exists ag', get (w_agents w') a = Some ag' /\
    a_id ag' = a_id ag /\ a_profile ag' = a_profile ag /\ a_stake ag' = a_stake ag /\ a_cost ag' = a_cost ag;
  (** they get no new delegations ... *)
  ot_sub : forall a id v, a <> uid -> allocates w' a id v -> allocates w a id v;
  (** ... and lose one only if it goes to a pool of the mover that the mover closes or makes private *)
  ot_keep : forall a id v, a <> uid -> allocates w a id v ->
    allocates w' a id v \/ exists p, active w id p /\ p_owner p = uid /\ forall p', active w' id p' -> p_owner p' = uid /\ p_private p' = true
}.

Section Frame.
  Context {A : Arith} (O : OrdLaws A) (MP : ltb (zero (a := A)) min_stake_unit = true).
  Variable so : list nat -> list nat -> list nat.
  Hypothesis so_perm : set_order so.
  Notation num := (T A).

  Lemma same_static_fields (p p' : pool A) : same_static p p' ->
    p_id p' = p_id p /\ p_owner p' = p_owner p /\ p_cost p' = p_cost p /\ p_pledge p' = p_pledge p /\ p_margin p' = p_margin p /\ p_private p' = p_private p.
  Proof. unfold same_static. intros ->. repeat split. Qed.

  Lemma option_ext (x y : option num) : (forall v, x = Some v <-> y = Some v) -> x = y.
  Proof. intros H. destruct x as [v|], y as [v'|]; [now apply H | symmetry; now apply H | now apply H | reflexivity]. Qed.

  Lemma good_dels m (w w' : world A) id p p' a : plain_good m w -> plain_good m w' -> active w id p -> active w' id p' ->
    (forall v, al_of w' a id = Some v <-> al_of w a id = Some v) -> get (p_delegators p') a = get (p_delegators p) a.
  Proof.
    intros G G' (r & R1 & R2) (r' & R1' & R2') H. apply option_ext. intros v.
    rewrite (i_del _ _ _ _ _ _ (g_inv _ _ _ _ _ G') id r' p' a v R1' R2'), (i_del _ _ _ _ _ _ (g_inv _ _ _ _ _ G) id r p a v R1 R2). apply H.
  Qed.

  Lemma step_only_touches m (w : world A) uid (w' : world A) : plain_good m w -> agent_step so w uid = Ok w' -> only_touches uid w w'.
  Proof.
    intros G H. destruct (plain_step O MP so so_perm m w uid w' G H) as [G' [(w2 & E & Ea & _ & Ew)|(ag & st & w2 & new & w3 & Ga & Gst & I2 & E & M & X & Hh & _ & Ew)]].
    - assert (Al : forall a id, al_of w' a id = al_of w a id) by (intros; unfold al_of; now rewrite Ea).
      destruct E as ((_ & _ & _ & _ & _ & _ & _ & Ep & _) & En & Es & E & _). constructor.
      + intros id p (r & R1 & R2) _. destruct (E r p R2) as (p' & R3 & S). assert (J' : active w' id p') by (exists r; rewrite Ew; cbn; rewrite Ep; now split).
        exists p'. split; [assumption|]. destruct (same_static_fields _ _ S) as (S1 & S2 & S3 & S4 & S5 & S6). do 6 (split; [assumption|]). intros a _.
        apply (good_dels m w w' id); [exact G | exact G' | exists r; split; assumption | exact J' |]. intros v. now rewrite Al.
      + intros id p' (r & R1 & R2) _. rewrite Ew in R1, R2. cbn in R1, R2. rewrite Ep in R1. destruct (i_reg _ _ _ _ _ _ (g_inv _ _ _ _ _ G) id r R1) as (p & R3 & _).
        exists p. split; [now exists r|]. destruct (E r p R3) as (p2 & R4 & S). rewrite R4 in R2. injection R2 as <-. symmetry. now apply same_static_fields.
      + intros a ag _ R. exists ag. rewrite Ea. auto.
      + intros a id v _ J. apply al_of_allocates in J. rewrite Al in J. now apply al_of_allocates.
      + intros a id v _ J. left. apply al_of_allocates in J. rewrite <- Al in J. now apply al_of_allocates.
    - assert (Ea : w_agents w2 = w_agents w) by apply E. assert (Ep : w_pools w2 = w_pools w) by apply E.
      assert (Al2 : forall a id, al_of w2 a id = al_of w a id) by (intros; unfold al_of; now rewrite Ea).
      assert (Ow2 : forall a id, ow_of w2 a id = ow_of w a id) by (intros; unfold ow_of; now rewrite Ea).
      assert (Al3 : forall a id, al_of w' a id = al_of w3 a id) by (intros; rewrite Ew; reflexivity).
      destruct E as (_ & En & Es & Eh & _).
      (* operators other than the mover *)
      assert (Oth : forall id p', active w' id p' -> p_owner p' <> uid -> exists p, active w id p /\ p_owner p = p_owner p').
      { intros id p' J Ne. destruct (proj2 (good_operates _ _ _ _ _ G' (p_owner p') id p') (conj J eq_refl)) as (ag' & st' & r & (P1 & P2) & P3 & P4). rewrite Ew in P1, P4. cbn in P1, P4.
        assert (Y := x_others _ _ _ _ _ X (p_owner p') Ne). rewrite Ea in Y. destruct (get (w_agents w) (p_owner p')) as [ag0|] eqn:Ga0; [|congruence].
        destruct Y as (ag1 & Y1 & (_ & _ & _ & _ & _ & Y2)). rewrite P1 in Y1. injection Y1 as <-.
        assert (exists st0, a_strategy ag0 = Some st0 /\ s_owned st0 = s_owned st') as (st0 & Z1 & Z2).
        { destruct Y2 as [Y2|(st0 & al' & Y2 & Y3)]; [exists st'; split; [congruence | reflexivity]|]. exists st0. split; [assumption|]. rewrite P2 in Y3. injection Y3 as ->. reflexivity. }
        assert (Ow : ow_of w (p_owner p') id = Some r) by (unfold ow_of; rewrite Ga0, Z1, Z2; exact P3).
        destruct (i_own _ _ _ _ _ _ (g_inv _ _ _ _ _ G) _ id r Ow) as [G1 G2]. destruct (i_reg _ _ _ _ _ _ (g_inv _ _ _ _ _ G) id r G1) as (p0 & G3 & _).
        exists p0. split; [now exists r | now apply G2]. }
      assert (Sub : forall a id v, a <> uid -> al_of w' a id = Some v -> al_of w a id = Some v).
      { intros a id v Ne J. rewrite Al3 in J. apply (x_sub _ _ _ _ _ X) in J; [|assumption]. now rewrite Al2 in J. }
      assert (Keep : forall a id v, a <> uid -> al_of w a id = Some v -> al_of w' a id = Some v \/
                exists p, active w id p /\ p_owner p = uid /\ forall p', active w' id p' -> p_owner p' = uid /\ p_private p' = true).
      { intros a id v Ne J. rewrite <- Al2 in J. destruct (x_keep _ _ _ _ _ X a id v Ne J) as [K|[K1 K2]]; [left; now rewrite Al3|]. right.
        rewrite Ow2 in K1. destruct (ow_of w uid id) as [r|] eqn:Ow; [|congruence]. clear K1.
        destruct (i_own _ _ _ _ _ _ (g_inv _ _ _ _ _ G) _ id r Ow) as [G1 G2]. destruct (i_reg _ _ _ _ _ _ (g_inv _ _ _ _ _ G) id r G1) as (p & G3 & _). exists p.
        split; [now exists r|]. split; [now apply G2|]. intros p' J'.
        assert (Eo : p_owner p' = uid).
        { destruct (Nat.eq_dec (p_owner p') uid) as [|Ne']; [assumption|]. destruct (Oth id p' J' Ne') as (p0 & (r0 & Q1 & Q2) & Q3). rewrite G1 in Q1. injection Q1 as <-. rewrite <- Q3. now apply G2. }
        split; [assumption|]. destruct (proj2 (good_operates _ _ _ _ _ G' uid id p') (conj J' Eo)) as (ag' & st' & r' & (P1 & P2) & P3 & P4). rewrite Ew in P1, P4. cbn in P1, P4.
        rewrite (x_self _ _ _ _ _ X) in P1. injection P1 as <-. cbn in P2. injection P2 as <-. destruct K2 as [K2|(r2 & p2 & K2 & K3 & K4)]; [congruence|]. congruence. }
      constructor.
      + intros id p (r & R1 & R2) Ne. destruct (Eh r p R2) as (p2 & R3 & S). assert (R1' := R1). rewrite <- Ep in R1.
        destruct (x_static _ _ _ _ _ X id r p2 R1 R3) as (R4 & p' & R5 & S'); [destruct (same_static_fields _ _ S) as (_ & -> & _); assumption|].
        assert (J' : active w' id p') by (exists r; rewrite Ew; now split). exists p'. split; [assumption|].
        destruct (same_static_fields _ _ S) as (S1 & S2 & S3 & S4 & S5 & S6). destruct (same_static_fields _ _ S') as (T1 & T2 & T3 & T4 & T5 & T6).
        do 6 (split; [congruence|]). intros a Na. apply (good_dels m w w' id); [exact G | exact G' | exists r; split; assumption | exact J' |]. intros v. split; [now apply Sub|].
        intros J. destruct (Keep a id v Na J) as [K|(p0 & (r0 & Q1 & Q2) & Q3 & _)]; [assumption|]. exfalso. apply Ne. congruence.
      + exact Oth.
      + intros a ag0 Ne R. assert (Y := x_others _ _ _ _ _ X a Ne). rewrite Ea, R in Y. destruct Y as (ag' & Y1 & (Y2 & Y3 & Y4 & Y5 & _)). exists ag'. rewrite Ew. auto.
      + intros a id v Ne J. apply al_of_allocates in J. apply al_of_allocates. now apply Sub.
      + intros a id v Ne J. apply al_of_allocates in J. destruct (Keep a id v Ne J) as [K|K]; [left; now apply al_of_allocates | now right].
  Qed.
End Frame.

(** * C73 *)
Theorem C73_a_move_touches_only_the_movers_things : forall (A : Arith) so (g : args A) profiles stakes costs (s0 : sim A) w uid w',
  OrdLaws A -> ltb (zero (a := A)) min_stake_unit = true -> set_order so -> init g profiles stakes costs = Ok s0 -> one_at_a_time g -> visible so s0 w ->
  agent_step so w uid = Ok w' -> only_touches uid w w'.
Proof.
  intros A so g profiles stakes costs s0 w uid w' O MP SO H1 H2 V H. eapply step_only_touches; try eassumption. eapply plain_visible; eassumption.
Qed.

(** in exact arithmetic the stake of a pool of another agent changes by what the mover adds or withdraws *)
Open Scope Qc_scope.
Definition in_pool (p : pool QcA) (a : nat) : Qc := match get (p_delegators p) a with Some v => v | None => 0 end.
Lemma sum_but (d : dict Qc) a : NoDup (keys d) -> Qc_sum (values d) = match get d a with Some v => v | None => 0 end + Qc_sum (values (filter (fun e => negb (Nat.eqb (fst e) a)) d)).
Proof.
  induction d as [|[k v] d IH]; intros N; cbn [keys map fst get filter] in *; [cbn; ring|]. apply NoDup_cons_iff in N as [N1 N].
  change (Qc_sum (values ((k, v) :: d))) with (v + Qc_sum (values d)). rewrite (Nat.eqb_sym a k). destruct (Nat.eqb_spec k a); cbn [negb].
  - subst k. rewrite (IH N). replace (get d a) with (@None Qc); [ring|]. symmetry. now apply get_None.
  - change (Qc_sum (values ((k, v) :: filter (fun e => negb (Nat.eqb (fst e) a)) d))) with (v + Qc_sum (values (filter (fun e => negb (Nat.eqb (fst e) a)) d))). rewrite (IH N). ring.
Qed.
Lemma nodup_pairs {V} (d : dict V) : NoDup (keys d) -> NoDup d.
Proof. unfold keys. apply NoDup_map_inv. Qed.
Lemma sum_but_eq (d d' : dict Qc) a : NoDup (keys d) -> NoDup (keys d') -> (forall b, b <> a -> get d' b = get d b) ->
  Qc_sum (values (filter (fun e => negb (Nat.eqb (fst e) a)) d')) = Qc_sum (values (filter (fun e => negb (Nat.eqb (fst e) a)) d)).
Proof.
  intros N N' H. apply Greedy.Qc_sum_perm. unfold values. apply Permutation_map, NoDup_Permutation.
  - now apply NoDup_filter, nodup_pairs.
  - now apply NoDup_filter, nodup_pairs.
  - intros [k v]. rewrite !filter_In. cbn [fst]. rewrite negb_true_iff, Nat.eqb_neq. split; (intros [J Ne]; split; [|assumption]); apply In_get in J; try assumption; apply get_In; [now rewrite <- H | now rewrite H].
Qed.
Lemma diff_of_sums (a b c r x y : Qc) : x = b + r -> y = c + r -> a + y - (a + x) = c - b.
Proof. intros -> ->. ring. Qed.
Theorem C73_stakes_follow_the_mover : forall so (g : args QcA) profiles (stakes costs : list Qc) (s0 : sim QcA) w uid w',
  set_order so -> init g profiles stakes costs = Ok s0 -> one_at_a_time g -> visible so s0 w -> agent_step so w uid = Ok w' ->
  forall id p p', active w id p -> p_owner p <> uid -> active w' id p' -> p_stake p' - p_stake p = in_pool p' uid - in_pool p uid.
Proof.
  intros so g profiles stakes costs s0 w uid w' SO H1 H2 V H id p p' J Ne J'.
  assert (F := C73_a_move_touches_only_the_movers_things QcA so g profiles stakes costs s0 w uid w' QcA_ord eq_refl SO H1 H2 V H).
  destruct (exact_all False False False so SO _ _ _ _ _ _ H1 H2 (inputs_none _ _) V) as [G _]. destruct (exact_step False False False so SO _ _ _ _ G H) as [G' _].
  destruct (ot_pools _ _ _ F id p J Ne) as (q & Jq & _ & _ & _ & Ep & _ & _ & D). assert (q = p').
  { destruct Jq as (r & Q1 & Q2), J' as (r' & Q1' & Q2'). rewrite Q1 in Q1'. injection Q1' as <-. congruence. } subst q.
  assert (Nd : forall w0 q, egood False False False (Z.to_nat (r_k (w_rss (s_w s0)) + 1)) w0 -> active w0 id q -> NoDup (keys (p_delegators q)) /\ p_stake q = p_pledge q + Qc_sum (values (p_delegators q))).
  { intros w0 q G0 (r & Q1 & Q2). destruct (i_reg _ _ _ _ _ _ (g_inv _ _ _ _ _ G0) id r Q1) as (q' & Q3 & _ & _ & Q4 & _ & Q5 & _). rewrite Q2 in Q3. injection Q3 as <-. split; [assumption | exact (pf_stake _ _ _ _ Q5)]. }
  destruct (Nd w p G J) as [N S]. destruct (Nd w' p' G' J') as [N' S']. 
  assert (B := sum_but (p_delegators p) uid N). assert (B' := sum_but (p_delegators p') uid N'). rewrite (sum_but_eq (p_delegators p) (p_delegators p') uid N N' D) in B'. fold (in_pool p uid) in B. fold (in_pool p' uid) in B'.
  transitivity ((p_pledge p + Qc_sum (@values Qc (p_delegators p'))) - (p_pledge p + Qc_sum (@values Qc (p_delegators p))) : Qc); [f_equal; [|f_equal; exact S]; rewrite S'; f_equal; exact Ep|].
  exact (diff_of_sums _ _ _ _ _ _ B B').
Qed.

(** * The hypotheses are met, and both outcomes occur in one move: with k = 1, after two rounds, agent 0 closes pool 1, so that agent 1 loses its delegation there, and delegates 1/10 to
    pool 3 of agent 2, where agent 3 keeps its delegation *)
Definition frame_args : args QcA := demo_args Sequential (Single (Q2Qc 1)).
Definition frame_profiles := [NonMyopic; NonMyopic; NonMyopic; NonMyopic].
Definition frame_stakes : list Qc := [Q2Qc (1#10); Q2Qc (1#10); Q2Qc (1#10); Q2Qc (7#10)].
Definition frame_costs : list Qc := [Q2Qc (1#10); Q2Qc (1#2); Q2Qc (1#1000); Q2Qc (1#2)].
Definition has_alloc (w : world QcA) (a id : nat) (v : Qc) : bool := agent_is w a (fun _ st => match get (s_alloc st) id with Some x => Qc_eqb x v | None => false end).
Lemma has_alloc_allocates w a id v : has_alloc w a id v = true -> allocates w a id v.
Proof.
  unfold has_alloc. intros H. apply agent_is_plays in H as (ag & st & P & H). exists ag, st. split; [assumption|]. destruct (get (s_alloc st) id) as [x|]; [|discriminate]. apply Qc_eqb_eq in H. now subst x.
Qed.
Example C73_instance : OrdLaws QcA /\ ltb (zero (a := QcA)) min_stake_unit = true /\ set_order so_id /\ one_at_a_time frame_args /\
  exists s0 s w' p p', init frame_args frame_profiles frame_stakes frame_costs = Ok s0 /\ visible so_id s0 (s_w s) /\ agent_step so_id (s_w s) 0 = Ok w' /\
    allocates (s_w s) 1 1 (Q2Qc (1#10)) /\ get (w_pools w') 1 = None /\ allocates w' 0 3 (Q2Qc (1#10)) /\
    active (s_w s) 3 p /\ p_owner p = 2%nat /\ active w' 3 p' /\ allocates (s_w s) 3 3 (Q2Qc (7#10)) /\ allocates w' 3 3 (Q2Qc (7#10)).
Proof.
  split; [exact QcA_ord|]. split; [reflexivity|]. split; [exact so_id_set_order|]. split; [constructor; [right; reflexivity | constructor]|].
  destruct (steps_check (init frame_args frame_profiles frame_stakes frame_costs) 2 (fun s => match agent_step so_id (s_w s) 0 with Err _ => false | Ok w' =>
    has_alloc (s_w s) 1 1 (Q2Qc (1#10)) && match get (w_pools w') 1 with None => true | Some _ => false end && has_alloc w' 0 3 (Q2Qc (1#10)) && pool_is (s_w s) 3 (fun p => Nat.eqb (p_owner p) 2) &&
    pool_is w' 3 (fun _ => true) && has_alloc (s_w s) 3 3 (Q2Qc (7#10)) && has_alloc w' 3 3 (Q2Qc (7#10)) end)) as (s0 & s & H1 & H2 & H3).
  { vm_compute. reflexivity. }
  apply steps_reach in H2. destruct (agent_step so_id (s_w s) 0) as [w'|e] eqn:E; [|discriminate].
  apply andb_true_iff in H3 as [H3 K7]. apply andb_true_iff in H3 as [H3 K6]. apply andb_true_iff in H3 as [H3 K5]. apply andb_true_iff in H3 as [H3 K4]. apply andb_true_iff in H3 as [H3 K3]. apply andb_true_iff in H3 as [K1 K2].
  apply has_alloc_allocates in K1, K3, K6, K7. apply pool_is_active in K4 as (p & A1 & B1). apply Nat.eqb_eq in B1. apply pool_is_active in K5 as (p' & A2 & _).
  destruct (get (w_pools w') 1) eqn:E1; [discriminate|].
  exists s0, s, w', p, p'. split; [exact H1|]. split; [now constructor|]. split; [exact E|]. split; [exact K1|]. split; [exact E1|]. split; [exact K3|]. split; [exact A1|]. split; [exact B1|]. split; [exact A2|]. split; [exact K6 | exact K7].
Qed.
