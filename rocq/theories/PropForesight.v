(** What a move brings (C62): when a myopic agent changes its strategy, its actual income rises by more than both inertia thresholds. *)
From Coq Require Import ZArith QArith Qcanon List Bool Arith Lia Permutation.
From Verif Require Import Num Py QcTac Rewards SortedKeyList World Stakeholder Sched Sim Init Reach RewardFacts ListFacts SLFacts Greedy PropRewards PropHelper Inv Static Exec Eval Step SimInv Spec PropInit PropState ExactInv Demo PropExact PropMove Reporters ReporterFacts PropReporters PropIncome.
Import ListNotations.
Open Scope Qc_scope.

(** ** which pool objects the execution of a strategy changes, and how *)
Section Heap.
  Context {A : Arith}.
  Variable so : list nat -> list nat -> list nat.
  Hypothesis so_perm : forall c l, Permutation (so c l) l.
  Implicit Types w : world A.
  Notation num := (T A).

  Lemma touches_hit uid (l : dict num) : forall w w' id v r p, touches uid l w = Ok w' -> NoDup (keys l) -> In (id, v) l -> get (w_pools w) id = Some r ->
    (forall id', get (w_pools w) id' = Some r -> id' = id) -> get (w_heap w) r = Some p -> get (w_heap w') r = Some (update_delegation v uid p).
  Proof.
    induction l as [|[i u] l IH]; intros w w' id v r p H N J Gp Gi Gh; [destruct J|]. cbn in H, N. apply NoDup_cons_iff in N as [N1 N2]. apply bind_ok in H as (w1 & H1 & H2). cbn [fst snd] in H1.
    assert (F := touch_frame _ _ _ _ _ H1). assert (Ef := tframe_fields _ _ _ F). destruct Ef as (_ & _ & _ & _ & _ & _ & _ & _ & Ep & _).
    destruct J as [J|J].
    - injection J as -> ->. destruct (touch_ok _ _ _ _ _ H1) as (r' & p' & k & l' & k' & G1 & G2 & _ & _ & _ & ->). rewrite Gp in G1. injection G1 as <-. rewrite Gh in G2. injection G2 as <-.
      destruct (touches_frame uid l _ _ H2) as (_ & F2 & _). rewrite F2; [cbn; apply get_set_eq|]. intros id' J G. cbn in G. apply Gi in G. subst id'. now apply N1.
    - apply (IH w1 w' id v r p); [assumption | assumption | assumption | now rewrite Ep | intros id'; rewrite Ep; apply Gi |].
      destruct F as (_ & F & _). rewrite F; [assumption|]. intros id' [<-|[]] G. apply Gi in G. subst i. apply N1. apply in_map_iff. now exists (id, v).
  Qed.

  Lemma remove_heap w r w' : remove_delegations w r = Ok w' -> w_pools w' = w_pools w /\ forall x, x <> r -> get (w_heap w') x = get (w_heap w) x.
  Proof.
    unfold remove_delegations. intros H. apply bind_ok in H as (p & _ & H). apply bind_ok in H as (w1 & H1 & H).
    assert (E : w_pools w' = w_pools w1 /\ w_heap w' = w_heap w1) by (injection H as <-; now destruct (w_simul w1)). destruct E as [-> ->]. clear H.
    revert H1. apply (foldM_inv _ (fun v => w_pools v = w_pools w /\ forall x, x <> r -> get (w_heap v) x = get (w_heap w) x)); [now split|].
    intros v a v' _ [E1 E2] H. destruct (remove_one_ok _ _ _ _ _ H) as (ag & st & u & q & _ & _ & _ & _ & ->). split; [exact E1|]. intros x Hx. cbn. rewrite get_set_ne by congruence. now apply E2.
  Qed.
  Lemma close_heap w id w' : close_pool w id = Ok w' -> exists r, get (w_pools w) id = Some r /\ w_pools w' = pop (w_pools w) id /\ forall x, x <> r -> get (w_heap w') x = get (w_heap w) x.
  Proof.
    intros H. destruct (close_ok _ _ _ H) as (r & p & k & l & lm & w3 & G & _ & _ & _ & _ & R & ->). destruct (remove_heap _ _ _ R) as [E1 E2]. exists r. split; [assumption|]. cbn. rewrite E1. split; [reflexivity | exact E2].
  Qed.
  Lemma closes_heap x ids : forall w w', NoDup (keys (w_pools w)) -> foldM close_pool ids w = Ok w' -> (forall id, In id ids -> get (w_pools w) id <> Some x) -> get (w_heap w') x = get (w_heap w) x.
  Proof.
    induction ids as [|i ids IH]; intros w w' N H Hx; cbn in H; [now injection H as <-|]. apply bind_ok in H as (w1 & H1 & H). destruct (close_heap _ _ _ H1) as (r & G & E1 & E2).
    transitivity (get (w_heap w1) x).
    - apply IH; [rewrite E1; now apply NoDup_pop | assumption|]. intros id J. rewrite E1, get_pop by assumption. destruct (Nat.eqb i id); [discriminate|]. apply Hx. now right.
    - apply E2. intros ->. now apply (Hx i (or_introl eq_refl)).
  Qed.
  Lemma update_heap uid w id w' x p : update_pool uid w id = Ok w' -> get (w_heap w) x = Some p -> p_private p = false -> get (w_heap w') x = Some p.
  Proof.
    unfold update_pool. intros H G Pv. apply bind_ok in H as (ag & _ & H). apply bind_ok in H as (new & _ & H). apply bind_ok in H as (r & _ & H). apply bind_ok in H as (q & Hq & H). apply of_option_ok in Hq.
    apply bind_ok in H as (w1 & H1 & H). apply bind_ok in H as (ag2 & _ & H). apply bind_ok in H as (st & _ & H). apply bind_ok in H as (old & _ & H).
    apply bind_ok in H as (w3 & H3 & H). apply bind_ok in H as (w4 & H4 & H). apply bind_ok in H as (w5 & H5 & H). apply bind_ok in H as (w6 & H6 & H). injection H as <-.
    apply rank_remove_heap in H3. apply rank_add_heap in H4. apply rankm_remove_heap in H5. apply rankm_add_heap in H6. cbn in H3. cbn [w_heap with_pools].
    replace (w_heap w6) with (w_heap w1) by congruence. destruct (p_private q) eqn:Eq; cbn [andb] in H1.
    - destruct (ltb (p_pledge q) (p_stake q)); [|injection H1 as <-; exact G]. destruct (remove_heap _ _ _ H1) as [_ E]. rewrite E; [assumption|]. intros ->. congruence.
    - injection H1 as <-. exact G.
  Qed.
  Lemma updates_heap uid x p ids : p_private p = false -> forall w w', foldM (update_pool uid) ids w = Ok w' -> get (w_heap w) x = Some p -> get (w_heap w') x = Some p.
  Proof. intros Pv w w' H G. revert H. apply (foldM_inv _ (fun v => get (w_heap v) x = Some p)); [assumption|]. intros v id v' _ E H. eapply update_heap; eassumption. Qed.
  Lemma opens_heap uid ids : forall w w', foldM (open_pool uid) ids w = Ok w' -> w_heap w' = w_heap w.
  Proof.
    intros w w'. apply (foldM_inv _ (fun v => w_heap v = w_heap w)); [reflexivity|]. intros v id v' _ E H. unfold open_pool in H. apply bind_ok in H as (ag & _ & H). apply bind_ok in H as (st & _ & H). apply bind_ok in H as (r & _ & H). apply bind_ok in H as (w2 & H2 & H).
    apply rank_add_heap in H2. apply rankm_add_heap in H. cbn in *. congruence.
  Qed.

  (** a public pool object that is not one of the agent's pools before the move: untouched if it is a draft, and with the new delegation of the agent if the
      agent delegates to it *)
  Lemma execute_heap w uid w' ag st new x p : execute_strategy so w uid = Ok w' -> get (w_agents w) uid = Some ag -> a_strategy ag = Some st -> a_new ag = Some new ->
    NoDup (keys (w_pools w)) -> get (w_heap w) x = Some p -> p_private p = false -> (forall id, In id (keys (s_owned st)) -> get (w_pools w) id <> Some x) ->
    ((forall id, get (w_pools w) id <> Some x) -> get (w_heap w') x = Some p) /\
    (forall id v, NoDup (keys (s_alloc new)) -> get (s_alloc new) id = Some v -> get (w_pools w) id = Some x -> (forall id', get (w_pools w) id' = Some x -> id' = id) ->
       get (w_heap w') x = Some (update_delegation v uid p)).
  Proof.
    intros H Ga Gst Gnew N Gx Pv Hown. unfold execute_strategy, the_agent in H. rewrite Ga in H. cbn [of_option bind] in H. unfold the_strategy in H. rewrite Gst in H. cbn [of_option bind] in H. rewrite Gnew in H. cbn [of_option bind] in H.
    apply bind_ok in H as (w1 & H1 & H). rewrite touches_zeros in H1. apply bind_ok in H as (w2 & H2 & H). change (touches uid (s_alloc new) w1 = Ok w2) in H2.
    apply bind_ok in H as (w3 & H3 & H). apply bind_ok in H as (w4 & H4 & H). apply bind_ok in H as (ag4 & _ & H).
    assert (F1 := touches_frame uid _ _ _ H1). assert (E1 := tframe_fields _ _ _ F1). destruct E1 as (_ & _ & _ & _ & _ & _ & _ & _ & Ep1 & _).
    assert (F2 := touches_frame uid _ _ _ H2). assert (E2 := tframe_fields _ _ _ F2). destruct E2 as (_ & _ & _ & _ & _ & _ & _ & _ & Ep2 & _).
    assert (Rest : forall q, p_private q = false -> get (w_heap w2) x = Some q -> get (w_heap w') x = Some q).
    { intros q Pq Gq. rewrite (opens_heap _ _ _ _ H). cbn. eapply updates_heap; [exact Pq | exact H4|]. rewrite (closes_heap x _ _ _ ltac:(now rewrite Ep2, Ep1) H3); [assumption|].
      intros id J. rewrite Ep2, Ep1. apply Hown. assert (J' : In id (diff (keys (s_owned st)) (keys (s_owned new)))) by (eapply Permutation_in; [apply so_perm | exact J]). unfold diff in J'. now apply filter_In in J' as [J' _]. }
    split.
    - intros Hx. apply Rest; [assumption|]. destruct F2 as (_ & F2 & _). rewrite F2 by (intros id _; rewrite Ep1; apply Hx). destruct F1 as (_ & F1 & _). rewrite F1 by (intros id _; apply Hx). assumption.
    - intros id v Na Gv Gp Gi. apply Rest; [exact Pv|]. apply (touches_hit uid (s_alloc new) w1 w2 id v x p); [exact H2 | assumption | now apply get_In | now rewrite Ep1 | intros id' G; rewrite Ep1 in G; now apply Gi |].
      destruct F1 as (_ & F1 & _). rewrite F1; [assumption|]. intros id' J G. apply Gi in G. subst id'. change (In id (keys (zeros (so (keys (s_alloc st) ++ keys (s_alloc new)) (diff (keys (s_alloc st)) (keys (s_alloc new)))) : dict num))) in J. rewrite zeros_keys in J.
      assert (J' : In id (diff (keys (s_alloc st)) (keys (s_alloc new)))) by (eapply Permutation_in; [apply so_perm | exact J]). unfold diff in J'. apply filter_In in J' as [_ J']. apply negb_true_iff, inb_false in J'. apply J'. apply get_Some_key. eauto.
  Qed.
End Heap.

(** ** utilities *)
(** an operator whose pledge saturates the pool loses nothing when the delegations leave *)
Lemma saturated_operator (rs : rss QcA) (s pledge m c x y : Qc) : 0 < r_thr rs -> 0 <= r_a0 rs -> 0 < pledge -> pledge <= s -> pool_threshold (A := QcA) rs pledge <= pledge -> 0 <= m -> m <= 1 ->
  operator_utility (A := QcA) rs s pledge m c = Ok x -> operator_utility (A := QcA) rs pledge pledge m c = Ok y -> x <= y.
Proof.
  intros H1 H2 H3 H4 H5 H6 H7 Hx Hy. unfold operator_utility in *. rewrite (C03_flat_above_saturation rs pledge pledge s H1 H2 H5 H4) in Hx.
  apply bind_ok in Hx as (R & HR & Hx). rewrite HR in Hy. cbn [bind] in Hy. rewrite pdiv_ok in Hx by (apply Qc_pos_neq; qlra). rewrite pdiv_ok in Hy by (now apply Qc_pos_neq). cbn [bind] in Hx, Hy.
  injection Hx as <-. injection Hy as <-. unfold operator_reward. cbn [leb sub add mul one zero QcA]. destruct (Qc_leb_spec (R - c) 0); [apply Qcle_refl|].
  rewrite !(Qcmult_comm (R - c)). apply Qcmult_le_compat_r; [|qlra]. assert (E1 : pledge / pledge = 1) by (field; now apply Qc_pos_neq). rewrite E1.
  assert (E2 : pledge / s <= 1). { apply Qcdiv_le; qlra. }
  assert (0 <= 1 - m) by qlra. assert (Q := Qcmult_le_compat_r (pledge / s) 1 (1 - m) E2 H). replace ((1 - m) * (pledge / s)) with (pledge / s * (1 - m)) by ring. replace ((1 - m) * 1) with (1 * (1 - m)) by ring. qlra.
Qed.

Lemma foldM_parts {X} (h : X -> res Qc) (l : list X) : forall (u z : Qc), foldM (fun (u : Qc) x => let! y := h x in Ok (u + y)) l u = Ok z -> exists ys, Forall2 (fun x y => h x = Ok y) l ys /\ z = u + Qc_sum ys.
Proof.
  induction l as [|x l IH]; intros u z H; cbn [foldM] in H; [injection H as <-; exists []; split; [constructor | cbn; ring]|].
  apply bind_ok in H as (v & Hv & H). apply bind_ok in Hv as (y & Hy & Hv). injection Hv as <-. destruct (IH _ _ H) as (ys & F & ->). exists (y :: ys). split; [now constructor|]. rewrite Qc_sum_cons. ring.
Qed.
Lemma parts_le {X} (h h' : X -> res Qc) (l : list X) : (forall x y y', In x l -> h x = Ok y -> h' x = Ok y' -> y <= y') -> forall ys ys', Forall2 (fun x y => h x = Ok y) l ys -> Forall2 (fun x y => h' x = Ok y) l ys' -> Qc_sum ys <= Qc_sum ys'.
Proof.
  intros Hl ys ys' F. revert ys'. induction F as [|x y l ys Hy F IH]; intros ys' F'; inversion F' as [|x' y' l' ys1 Hy' F1]; subst; [apply Qcle_refl|]. rewrite !Qc_sum_cons. apply Qcplus_le_compat; [eapply Hl; [now left | |]; eassumption|].
  apply IH; [intros; eapply Hl; [right|..]; eassumption | assumption].
Qed.

Section Foresight.
  Variable so : list nat -> list nat -> list nat.
  Hypothesis SO : set_order so.
  Notation NPF := (pool_facts False True).

  Lemma update_shape (w w' : world QcA) uid ag : get (w_agents w) uid = Some ag -> a_profile ag <> Abstainer -> update_strategy so w uid = Ok w' ->
    exists st cu eu w1 del du w2 ou op, a_strategy ag = Some st /\ current_utility w ag = Ok cu /\ expected_utility w ag st = Ok eu /\
      find_delegation_move w ag (a_stake ag) = Ok (w1, del) /\ expected_utility w1 ag del = Ok du /\ choose_pool_strategy so w1 ag = Ok (w2, ou, op) /\
      w' = put_agent w2 uid (agent_set_new (pick_move (augmented_utility w cu eu) (du, del) (ou, op)) ag).
  Proof.
    intros G Pr H. unfold update_strategy, the_agent in H. rewrite G in H. cbn [of_option bind] in H. destruct (a_profile ag); [| |congruence].
    all: unfold the_strategy in H; apply bind_ok in H as (st & Hst & H); apply of_option_ok in Hst; apply bind_ok in H as (cu & Hc & H); apply bind_ok in H as (eu & He & H);
      apply bind_ok in H as ([w1 del] & Hd & H); apply bind_ok in H as (du & Hdu & H); apply bind_ok in H as ([[w2 ou] op] & Ho & H); injection H as <-;
      exists st, cu, eu, w1, del, du, w2, ou, op; now repeat (split; [assumption|]).
  Qed.

  (** the pools as the agent sees them when it evaluates [new] in [v], and as they are in [w2], when it starts to execute it *)
  Definition seen (v w2 : world QcA) (new : strategy QcA) : Prop :=
    w_rss v = w_rss w2 /\ w_pools v = w_pools w2 /\ (forall r, In r (values (s_owned new)) -> get (w_heap v) r = get (w_heap w2) r) /\
    (forall id r p, get (w_pools w2) id = Some r -> get (w_heap w2) r = Some p -> exists q, get (w_heap v) r = Some q /\ p_id q = p_id p /\ p_stake q = p_stake p /\ p_pledge q = p_pledge p /\ p_margin q = p_margin p /\ p_cost q = p_cost p).

  (** [private_pays] is the only difference between what is expected and what happens *)
  Lemma foresight m (w w' : world QcA) uid ag st w2 new w3 w4 v e u : egood False True True m w -> egood False True True m w' -> 0 <= r_a0 (w_rss w) ->
    get (w_agents w) uid = Some ag -> a_strategy ag = Some st -> a_profile ag = Myopic ->
    Inv NPF True m (al_of w) (ow_of w) w2 -> efr uid w w2 -> staged NPF True w2 uid st new -> executed uid new ag w2 w3 -> hstat w2 w3 ->
    (forall id r p, get (s_owned new) id = Some r -> get (w_heap w2) r = Some p -> p_private p = leb (a := QcA) (pool_threshold (A := QcA) (w_rss w) (p_pledge p)) (p_pledge p)) ->
    execute_strategy so (put_agent w2 uid (agent_set_new (Some new) ag)) uid = Ok w4 -> w_heap w4 = w_heap w3 -> w' = with_idle false w3 -> seen v w2 new ->
    expected_utility v ag new = Ok e -> current_utility w' (agent_set_strategy (Some new) ag) = Ok u ->
    e <= u /\ ((forall id p, operates w' uid id p -> p_private p = false) -> e = u).
  Proof.
    intros G G' A0 Ga Gst Epr I2 E2 Sg X HS Priv Hx Ehp Ew (Sv1 & Sv2 & Sv3 & Sv4) He Hu. subst w'.
    assert (Ea2 : w_agents w2 = w_agents w) by apply E2. assert (Er2 : w_rss w2 = w_rss w) by apply E2. assert (Er3 : w_rss w3 = w_rss w2) by (destruct (x_par _ _ _ _ _ X) as (Y & _); exact Y).
    destruct (proj2 (g_ok _ _ _ _ _ G) uid ag Ga) as [Aid Ast]. destruct (Ast st Gst) as [Na No].
    set (w2' := put_agent w2 uid (agent_set_new (Some new) ag)) in *.
    assert (Npool : NoDup (keys (w_pools w2))) by apply (i_nd _ _ _ _ _ _ I2).
    assert (Hown : forall x, (forall id, get (w_pools w2) id <> Some x) -> forall id, In id (keys (s_owned st)) -> get (w_pools w2) id <> Some x) by (intros x Hx' id _; apply Hx').
    assert (Gself : get (w_agents w3) uid = Some (agent_set_strategy (Some new) ag)).
    { rewrite (x_self _ _ _ _ _ X). f_equal. assert (Hn : a_new ag = None) by (now apply (g_new _ _ _ _ _ G uid ag)). destruct ag; cbn in *. now rewrite Hn. }
    assert (P' : plays (with_idle false w3) uid (agent_set_strategy (Some new) ag) new) by (split; [exact Gself | reflexivity]).
    (* own pools *)
    assert (Own : forall id r, In (id, r) (s_owned new) -> exists p p', get (w_heap w2) r = Some p /\ get (w_heap w3) r = Some p' /\ same_static p p' /\ active (with_idle false w3) id p' /\
              (p_private p = false -> p' = p) /\ (p_private p = true -> p_stake p' = p_pledge p) /\ p_pledge p <= p_stake p).
    { intros id r J. assert (J' : In id (keys (s_owned new))) by (apply in_map_iff; now exists (id, r)). apply In_get in J; [|exact (sg_ownd _ _ _ _ _ _ Sg)].
      destruct (sg_ow _ _ _ _ _ _ Sg id J') as (r1 & p & J1 & J2 & J3 & J4 & J5 & J6 & J7 & J8). rewrite J in J1. injection J1 as <-.
      destruct (HS r p J3) as (p' & K1 & K2). assert (Ac : active (with_idle false w3) id p').
      { assert (O : ow_of (with_idle false w3) uid id = Some r) by (unfold ow_of; cbn; now rewrite Gself). apply (i_own _ _ _ _ _ _ (g_inv _ _ _ _ _ G')) in O as [O _]. exists r. split; [exact O | exact K1]. }
      exists p, p'. split; [assumption|]. split; [assumption|]. split; [assumption|]. split; [assumption|]. split; [|split].
      - intros Pv. destruct (execute_heap so SO w2' uid w4 (agent_set_new (Some new) ag) st new r p Hx) as [Y _]; [cbn; apply get_set_eq | exact Gst | reflexivity | exact Npool | exact J3 | exact Pv | now apply Hown|].
        assert (Y' : get (w_heap w3) r = Some p) by (rewrite <- Ehp; now apply Y). congruence.
      - intros Pv. destruct (reported_facts _ _ _ _ _ G' id p' Ac) as (_ & F & _). rewrite (pf_stake _ _ _ _ F). unfold same_static in K2.
        destruct Ac as (r' & L1 & L2). destruct (i_reg _ _ _ _ _ _ (g_inv _ _ _ _ _ G') id r' L1) as (q & L2' & _ & _ & _ & _ & _ & L3). assert (q = p') by congruence. subst q.
        assert (Pv' : p_private p' = true) by (rewrite K2; exact Pv). rewrite (L3 I Pv'). replace (p_pledge p') with (p_pledge p) by (rewrite K2; reflexivity). cbn. ring.
      - rewrite (pf_stake _ _ _ _ J6). assert (T0 : 0 <= total (p_delegators p)); [|qlra]. apply total_nonneg. intros a x Jx. apply (In_get _ _ _ J7) in Jx. destruct (get (s_owned st) id) as [r0|] eqn:E0.
        + destruct J8 as (L1 & p0 & L2 & L3). rewrite L3 in Jx. apply (i_del _ _ _ _ _ _ I2 id r0 p0 a x L1 L2) in Jx. apply (i_al _ _ _ _ _ _ I2) in Jx as [Jx _]. change (Qc_ltb x MIN = false) in Jx. destruct (Qc_ltb_spec x MIN) as [|Jm]; [discriminate|]. apply Qcle_trans with MIN; [discriminate | now apply Qcnot_lt_le].
        + destruct J8 as (_ & _ & L3). rewrite L3 in Jx. discriminate. }
    (* delegations *)
    assert (Del : forall id a, In (id, a) (s_alloc new) -> exists r p p', get (w_pools w2) id = Some r /\ get (w_heap w2) r = Some p /\ p_id p = id /\ get (w_pools w3) id = Some r /\ get (w_heap w3) r = Some p' /\ same_static p p' /\
              p_stake p' = p_stake p - (match get (s_alloc st) id with Some b => b | None => 0 end) + a).
    { intros id a J. apply In_get in J; [|exact (sg_alnd _ _ _ _ _ _ Sg)]. destruct (sg_al _ _ _ _ _ _ Sg id a J) as (Ha & r & p & J1 & J2 & J3 & J4). specialize (J4 I).
      destruct (i_reg _ _ _ _ _ _ I2 id r J1) as (q & J2' & J5 & _). assert (q = p) by congruence. subst q.
      destruct (x_static _ _ _ _ _ X id r p J1 J2 J3) as (K1 & p' & K2 & K3). exists r, p, p'. repeat (split; [assumption|]).
      destruct (execute_heap so SO w2' uid w4 (agent_set_new (Some new) ag) st new r p Hx) as [_ Y]; [cbn; apply get_set_eq | exact Gst | reflexivity | exact Npool | exact J2 | exact J4 | |].
      { intros id' Jo Gp. cbn in Gp. apply get_Some_key in Jo as (r0 & Jo). assert (O : ow_of w uid id' = Some r0) by (unfold ow_of; now rewrite Ga, Gst). destruct (i_own _ _ _ _ _ _ I2 _ _ _ O) as [O1 O2]. apply J3. apply O2. congruence. }
      assert (Inj : forall id', get (w_pools w2') id' = Some r -> id' = id) by (intros id' Gp; exact (Inv_ref_id NPF True _ _ _ _ _ _ _ I2 Gp J1)).
      specialize (Y id a (sg_alnd _ _ _ _ _ _ Sg) J J1 Inj). rewrite Ehp in Y. assert (p' = update_delegation a uid p) by congruence. subst p'.
      assert (Ed : get (p_delegators p) uid = get (s_alloc st) id).
      { destruct (get (p_delegators p) uid) as [b|] eqn:Eb.
        - apply (i_del _ _ _ _ _ _ I2 id r p uid b J1 J2) in Eb. unfold al_of in Eb. rewrite Ga, Gst in Eb. now symmetry.
        - destruct (get (s_alloc st) id) as [b|] eqn:Eb'; [|reflexivity]. exfalso. assert (B : al_of w uid id = Some b) by (unfold al_of; now rewrite Ga, Gst). apply (i_del _ _ _ _ _ _ I2 id r p uid b J1 J2) in B. congruence. }
      unfold update_delegation. cbn [p_stake]. destruct (get (s_alloc st) id) as [b|]; rewrite Ed; change (T QcA) with Qc; cbn [add sub QcA]; ring. }
    set (f := fun (w0 : world QcA) (r : nat) => let! p := deref w0 r in pool_operator_utility w0 (p_stake p) p).
    set (gE := fun e : nat * Qc => let! q := of_option Dangling (match get (w_pools v) (fst e) with Some r => Some r | None => None end) in del_utility_pool v ag q (snd e)).
    set (gC := fun e : nat * Qc => let! r := the_pool (with_idle false w3) (fst e) in let! p := deref (with_idle false w3) r in delegator_utility (A := QcA) (w_rss (with_idle false w3)) (snd e) (p_stake p) (p_pledge p) (p_margin p) (p_cost p)).
    (* the expected utility as two sums *)
    assert (SE : exists xs ys, Forall2 (fun r x => f v r = Ok x) (values (s_owned new)) xs /\ Forall2 (fun e x => gE e = Ok x) (s_alloc new) ys /\ e = Qc_sum xs + Qc_sum ys).
    { unfold expected_utility in He. apply bind_ok in He as (u0 & H0 & He).
      assert (H0' : foldM (fun (u : Qc) r => let! y := f v r in Ok (u + y)) (values (s_owned new)) 0 = Ok u0).
      { assert (C : (s_owned new = [] /\ u0 = 0) \/ exists x, op_utility_strategy v ag new = Ok x /\ u0 = 0 + x).
        { destruct (s_owned new) as [|o os]; [left; split; [reflexivity | now injection H0] |]. right. apply bind_ok in H0 as (x & H0 & Hx0). exists x. split; [exact H0 | now injection Hx0]. }
        clear H0. destruct C as [[Eo ->]|(x & H0 & ->)]; [now rewrite Eo|]. unfold op_utility_strategy in H0. rewrite Epr in H0. transitivity (Ok (x : Qc)); [|exact (f_equal (@Ok Qc) (eq_sym (Qcplus_0_l x)))].
        refine (eq_trans _ H0). apply foldM_ext. intros a r _. unfold f. unfold deref. destruct (get (w_heap v) r); reflexivity. }
      apply foldM_parts in H0' as (xs & F1 & ->).
      assert (He' : foldM (fun (u : Qc) e => let! y := gE e in Ok (u + y)) (s_alloc new) (0 + Qc_sum xs) = Ok e).
      { refine (eq_trans _ He). apply foldM_ext. intros a [id b] J. destruct (Del id b J) as (r & p & p' & K1 & _). unfold gE. cbn [fst snd]. rewrite Sv2, K1. reflexivity. }
      apply foldM_parts in He' as (ys & F2 & ->). exists xs, ys. split; [assumption|]. split; [assumption|]. change (T QcA) with Qc. ring. }
    assert (SC : exists xs ys, Forall2 (fun r x => f (with_idle false w3) r = Ok x) (values (s_owned new)) xs /\ Forall2 (fun e x => gC e = Ok x) (s_alloc new) ys /\ u = Qc_sum xs + Qc_sum ys).
    { unfold current_utility, the_strategy in Hu. cbn [a_strategy agent_set_strategy of_option bind] in Hu. apply bind_ok in Hu as (u0 & H0 & Hu).
      assert (H0' : foldM (fun (u : Qc) r => let! y := f (with_idle false w3) r in Ok (u + y)) (values (s_owned new)) 0 = Ok u0).
      { refine (eq_trans _ H0). apply foldM_ext. intros a r _. unfold f, deref. destruct (get (w_heap (with_idle false w3)) r); reflexivity. }
      apply foldM_parts in H0' as (xs & F1 & ->).
      assert (Hu' : foldM (fun (u : Qc) e => let! y := gC e in Ok (u + y)) (s_alloc new) (0 + Qc_sum xs) = Ok u).
      { refine (eq_trans _ Hu). apply foldM_ext. intros a [id b] J. unfold gC, the_pool, deref. cbn [fst snd]. destruct (get (w_pools (with_idle false w3)) id) as [r|]; cbn [of_option bind]; [|reflexivity]. destruct (get (w_heap (with_idle false w3)) r); reflexivity. }
      apply foldM_parts in Hu' as (ys & F2 & ->). exists xs, ys. split; [assumption|]. split; [assumption|]. change (T QcA) with Qc. ring. }
    destruct SE as (xs & ys & F1 & F2 & ->). destruct SC as (xs' & ys' & F1' & F2' & ->).
    assert (Dl : forall ed y y', In ed (s_alloc new) -> gE ed = Ok y -> gC ed = Ok y' -> y = y').
    { intros [id b] y y' J Hy Hy'. destruct (Del id b J) as (r & p & p' & K1 & K2 & K3 & K4 & K5 & K6 & K7). unfold gE in Hy. unfold gC in Hy'. cbn [fst snd] in Hy, Hy'. rewrite Sv2, K1 in Hy. cbn [of_option bind] in Hy.
      unfold the_pool, deref in Hy'. cbn [w_pools w_heap with_idle w_rss] in Hy'. rewrite K4 in Hy'. cbn [of_option bind] in Hy'. rewrite K5 in Hy'. cbn [of_option bind] in Hy'.
      destruct (Sv4 id r p K1 K2) as (q & Q1 & Q2 & Q3 & Q4 & Q5 & Q6). unfold del_utility_pool, the_strategy, deref in Hy. rewrite Epr, Gst, Q1 in Hy. cbn [of_option bind] in Hy. unfold same_static in K6.
      assert (T1 : p_pledge p' = p_pledge q) by (rewrite K6, Q4; reflexivity). assert (T2 : p_margin p' = p_margin q) by (rewrite K6, Q5; reflexivity). assert (T3 : p_cost p' = p_cost q) by (rewrite K6, Q6; reflexivity).
      rewrite T1, T2, T3, K7, Er3, <- Sv1 in Hy'. rewrite Q2, K3, Q3 in Hy. assert (Z : Ok y = Ok y') by (exact (eq_trans (eq_sym Hy) Hy')). now injection Z. }
    assert (Ol : forall r y y', In r (values (s_owned new)) -> f v r = Ok y -> f (with_idle false w3) r = Ok y' -> y <= y' /\ ((forall id p, operates (with_idle false w3) uid id p -> p_private p = false) -> y = y')).
    { intros r y y' J Hy Hy'. unfold values in J. apply in_map_iff in J as ([id r'] & E & J). cbn in E. subst r'. destruct (Own id r J) as (p & p' & K1 & K2 & K3 & K4 & K5 & K6 & K7). unfold f, deref in Hy, Hy'.
      rewrite Sv3 in Hy by (apply in_map_iff; now exists (id, r)). rewrite K1 in Hy. cbn [of_option bind w_heap with_idle] in Hy, Hy'. rewrite K2 in Hy'. cbn [of_option bind] in Hy'. unfold pool_operator_utility in *. cbn [w_rss with_idle] in Hy'. rewrite Er3, <- Sv1 in Hy'.
      destruct (p_private p) eqn:Pv.
      - split.
        + specialize (K6 eq_refl). rewrite K6 in Hy'. unfold same_static in K3. assert (T1 : p_pledge p' = p_pledge p) by (rewrite K3; reflexivity). assert (T2 : p_margin p' = p_margin p) by (rewrite K3; reflexivity). assert (T3 : p_cost p' = p_cost p) by (rewrite K3; reflexivity).
          destruct (income_pool m (with_idle false w3) G' id p' K4) as (L1 & L2 & _ & _ & L3 & L4 & _). cbn [w_rss with_idle] in L1. rewrite Er3, <- Sv1 in L1. rewrite T1 in *. rewrite T2 in *. rewrite T3 in *.
          apply (saturated_operator (w_rss v) (p_stake p) (p_pledge p) (p_margin p) (p_cost p) y y'); try assumption.
          * now rewrite Sv1, Er2.
          * apply In_get in J; [|exact (sg_ownd _ _ _ _ _ _ Sg)]. assert (Q := Priv id r p J K1). rewrite Pv in Q. symmetry in Q. cbn in Q. rewrite Sv1, Er2. now destruct (Qc_leb_spec (pool_threshold (A := QcA) (w_rss w) (p_pledge p)) (p_pledge p)).
        + intros No'. exfalso. assert (Op : operates (with_idle false w3) uid id p') by (exists (agent_set_strategy (Some new) ag), new, r; split; [exact P'|]; split; [apply In_get; [exact (sg_ownd _ _ _ _ _ _ Sg) | exact J] | exact K2]).
          apply No' in Op. unfold same_static in K3. rewrite K3 in Op. cbn in Op. congruence.
      - rewrite (K5 eq_refl) in Hy'. assert (Z : Ok y = Ok y') by (exact (eq_trans (eq_sym Hy) Hy')). injection Z as <-. split; [apply Qcle_refl | reflexivity]. }
    split.
    - apply Qcplus_le_compat; [apply (parts_le (f v) (f (with_idle false w3)) (values (s_owned new))) | apply (parts_le gE gC (s_alloc new))]; try assumption.
      + intros r y y' J Hy Hy'. now apply (Ol r y y').
      + intros ed y y' J Hy Hy'. rewrite (Dl ed y y' J Hy Hy'). apply Qcle_refl.
    - intros Np. apply Qcle_antisym; apply Qcplus_le_compat; [apply (parts_le (f v) (f (with_idle false w3)) (values (s_owned new))) | apply (parts_le gE gC (s_alloc new)) | apply (parts_le (f (with_idle false w3)) (f v) (values (s_owned new))) | apply (parts_le gC gE (s_alloc new))]; try assumption.
      + intros r y y' J Hy Hy'. now apply (Ol r y y').
      + intros ed y y' J Hy Hy'. rewrite (Dl ed y y' J Hy Hy'). apply Qcle_refl.
      + intros r y y' J Hy Hy'. destruct (Ol r y' y J Hy' Hy) as [_ Q]. rewrite (Q Np). apply Qcle_refl.
      + intros ed y y' J Hy Hy'. rewrite (Dl ed y' y J Hy' Hy). apply Qcle_refl.
  Qed.

  (** what an activation that changes the strategy of an agent does *)
  Lemma move_outcome m (w w' : world QcA) uid ag st ag' new : egood False True True m w -> 0 <= r_a0 (w_rss w) -> agent_step so w uid = Ok w' -> plays w uid ag st -> plays w' uid ag' new -> new <> st -> a_profile ag = Myopic ->
    exists cu eu e u, current_utility w ag = Ok cu /\ expected_utility w ag st = Ok eu /\ worthwhile w cu eu e /\
      (exists w1 del, find_delegation_move w ag (a_stake ag) = Ok (w1, del) /\ ((new = del /\ expected_utility w1 ag new = Ok e) \/ (exists w2, choose_pool_strategy so w1 ag = Ok (w2, e, Some new)))) /\
      current_utility w' ag' = Ok u /\ e <= u /\ ((forall id p, operates w' uid id p -> p_private p = false) -> e = u).
  Proof.
    intros G A0 H [Ga Gst] [Ga' Gst'] Ne Epr.
    destruct (exact_step False True True so SO m w uid w' G H) as [G' [(w0 & _ & Ea & _)|(ag1 & st1 & w2 & new1 & w3 & Ga1 & Gst1 & I2 & E2 & M & X & HS & HU & Ew)]].
    { exfalso. rewrite Ea, Ga in Ga'. injection Ga' as <-. congruence. }
    rewrite Ga in Ga1. injection Ga1 as <-. rewrite Gst in Gst1. injection Gst1 as <-. destruct (proj2 (g_ok _ _ _ _ _ G) uid ag Ga) as [Aid Ast]. destruct (Ast st Gst) as [Na No].
    destruct (g_new _ _ _ _ _ G uid ag Ga) as [Hnew HA].
    assert (Eag : ag' = agent_set_strategy (Some new1) ag). { subst w'. cbn in Ga'. rewrite (x_self _ _ _ _ _ X) in Ga'. injection Ga' as <-. destruct ag; cbn in *. now rewrite Hnew. }
    assert (new1 = new) by (rewrite Eag in Gst'; cbn in Gst'; now injection Gst'). subst new1.
    assert (Ea2 : w_agents w2 = w_agents w) by apply E2. assert (Es2 : w_simul w2 = false) by (rewrite <- (g_sim _ _ _ _ _ G); apply E2). assert (Er2 : w_rss w2 = w_rss w) by apply E2.
    assert (exists w4, execute_strategy so (put_agent w2 uid (agent_set_new (Some new) ag)) uid = Ok w4 /\ w_heap w4 = w_heap w3) as (w4 & Hx & Ehp).
    { unfold agent_step in H. rewrite HU in H. cbn [bind w_simul put_agent with_agents] in H. rewrite Es2 in H. unfold advance, the_agent in H. cbn [w_agents put_agent with_agents] in H. rewrite get_set_eq in H. cbn [of_option bind a_new agent_set_new] in H.
      apply bind_ok in H as (w4 & H4 & H). exists w4. split; [exact H4|]. injection H as H. rewrite Ew in H. change (w_heap (with_idle false w4) = w_heap (with_idle false w3)). now rewrite H. }
    assert (Sg : staged NPF True w2 uid st new).
    { rewrite <- Aid in Ga, E2 |- *. now destruct (move_staged NPF True (agent_facts True True) nonneg E_TG_z (E_NP_made False True True) m w ag st w2 new (g_inv _ _ _ _ _ G) Ga Gst HA I2 E2 M) as (_ & _ & Sg). }
    assert (Npr : a_profile ag <> Abstainer) by congruence.
    destruct (update_shape w _ uid ag Ga Npr HU) as (st' & cu & eu & w1 & del & du & w2' & ou & op & Q1 & Q2 & Q3 & Q4 & Q5 & Q6 & Q7). rewrite Gst in Q1. injection Q1 as <-.
    assert (Eh : w_heap w2' = w_heap w2 /\ w_pools w2' = w_pools w2 /\ w_rss w2' = w_rss w2).
    { split; [|split]; match goal with |- ?f w2' = ?f w2 => change (f (put_agent w2' uid (agent_set_new (pick_move (augmented_utility w cu eu) (du, del) (ou, op)) ag)) = f (put_agent w2 uid (agent_set_new (Some new) ag))) end; now rewrite Q7. }
    destruct Eh as (Eh & Ep & Er).
    assert (Epick : pick_move (augmented_utility w cu eu) (du, del) (ou, op) = Some new).
    { assert (Z : get (w_agents (put_agent w2 uid (agent_set_new (Some new) ag))) uid = get (w_agents (put_agent w2' uid (agent_set_new (pick_move (augmented_utility w cu eu) (du, del) (ou, op)) ag))) uid) by (now rewrite Q7).
      cbn in Z. rewrite !get_set_eq in Z. now injection Z. }
    assert (Dec := pick_decision QcA_ord w cu eu du del ou op). rewrite Epick in Dec. cbn [decision] in Dec.
    assert (Eal : forall id, al_of w (a_id ag) id = get (s_alloc st) id) by (intros; unfold al_of; now rewrite Aid, Ga, Gst).
    assert (Eow : forall id, ow_of w (a_id ag) id = get (s_owned st) id) by (intros; unfold ow_of; now rewrite Aid, Ga, Gst).
    destruct (delegation_move_spec QcA_ord MP_Qc nonneg NPF True (E_NP_upd False True) E_TG_z m (al_of w) (ow_of w) ag st Gst Eal Na w (a_stake ag) w1 del (g_inv _ _ _ _ _ G) Q4) as (I1 & E1 & _ & _ & D1 & _ & _).
    destruct (choose_spec QcA_ord MP_Qc so SO nonneg NPF True (E_NP_upd False True) E_TG_d E_TG_z (E_TG_np False True) m (al_of w) (ow_of w) ag st Gst Eal Eow Na No w1 w2' ou op I1 Q6) as (I2' & E2' & C).
    assert (Er1 : w_rss w1 = w_rss w) by apply E1.
    assert (S1 := inv_same False True True m w w1 (a_id ag) G I1 E1). assert (S2 := inv_same False True True m w w2 uid G I2 E2).
    assert (Hcu := income_is m w' G' ltac:(subst w'; cbn; rewrite (proj1 (x_par _ _ _ _ _ X)), Er2; exact A0) uid ag' new Ga' Gst').
    exists cu, eu.
    assert (Fin : forall v e, seen v w2 new -> expected_utility v ag new = Ok e -> (forall id r p, get (s_owned new) id = Some r -> get (w_heap w2) r = Some p -> p_private p = leb (a := QcA) (pool_threshold (A := QcA) (w_rss w) (p_pledge p)) (p_pledge p)) ->
              e <= income w' uid /\ ((forall id p, operates w' uid id p -> p_private p = false) -> e = income w' uid)).
    { intros v e Sv He Pv. apply (foresight m w w' uid ag st w2 new w3 w4 v e (income w' uid)); try assumption. rewrite <- Eag. exact Hcu. }
    destruct Dec as [(-> & W & _)|(-> & W & _)].
    - exists du, (income w' uid). destruct (Fin w1 du) as [F1 F2].
      + destruct S1 as (A1 & A2 & _ & _ & A3 & _). destruct S2 as (B1 & B2 & _ & _ & B3 & _). split; [congruence|]. split; [congruence|]. split; [rewrite D1; intros ? []|].
        intros id r p Gp Gh. assert (Gp0 : get (w_pools w) id = Some r) by congruence. destruct (i_reg _ _ _ _ _ _ (g_inv _ _ _ _ _ G) id r Gp0) as (p0 & Gh0 & _).
        assert (Ac : active w id p0) by (now exists r). destruct (A2 id p0 Ac) as (q & (r1 & L1 & L2) & (M1 & _ & M3 & M4 & M5 & M6 & _)). destruct (B2 id p0 Ac) as (q' & (r2 & K1 & K2) & (O1 & _ & O3 & O4 & O5 & O6 & _)).
        assert (r1 = r) by congruence. assert (r2 = r) by congruence. subst r1 r2. assert (q' = p) by congruence. subst q'. exists q. split; [assumption|]. repeat split; congruence.
      + exact Q5.
      + rewrite D1. discriminate.
      + split; [assumption|]. split; [assumption|]. split; [assumption|]. split; [exists w1, del; split; [assumption | left; now split]|]. split; [exact Hcu|]. now split.
    - exists ou, (income w' uid). destruct C as [(n & _ & (pledge & cost & _ & _ & _ & _ & C & _)) Hu]. destruct (Fin w2' ou) as [F1 F2].
      + split; [congruence|]. split; [congruence|]. split; [intros; now rewrite Eh|]. intros id r p Gp Gh. exists p. rewrite Eh. auto 10.
      + exact Hu.
      + intros id r p Gr Gh. destruct (C id r Gr) as (_ & q & Gq & _ & _ & (P1 & P2 & P3 & _) & _). rewrite Eh in Gq. assert (q = p) by congruence. subst q. rewrite P3, P1, Er1. reflexivity.
      + split; [assumption|]. split; [assumption|]. split; [assumption|]. split; [exists w1, del; split; [assumption | right; now exists w2']|]. split; [exact Hcu|]. now split.
  Qed.
End Foresight.

(** * C62 *)
(** A myopic agent that changes its strategy has a higher income right afterwards: above (1 + relative threshold) times its former income, and above its former
    income plus the absolute threshold. *)
Theorem C62_myopic_moves_pay : forall so (g : args QcA) profiles (stakes costs : list Qc) (s0 : sim QcA) w w' uid, set_order so -> init g profiles stakes costs = Ok s0 -> one_at_a_time g -> positive_inputs g stakes ->
  (forall x : Qc, In x (phase_values (g_a0 g)) -> 0 <= x) -> visible so s0 w -> agent_step so w uid = Ok w' ->
  forall ag st ag' st', plays w uid ag st -> plays w' uid ag' st' -> st' <> st -> a_profile ag = Myopic ->
  exists before after : Qc, current_utility w ag = Ok before /\ current_utility w' ag' = Ok after /\ (1 + w_rel w) * before < after /\ before + w_abs w < after.
Proof.
  intros so g profiles stakes costs s0 w w' uid SO H1 H2 HP HA V H ag st ag' st' P P' Ne Epr. destruct (exact_all False True True so SO _ _ _ _ _ _ H1 H2 (inputs_pos _ _ _ _ _ H1 HP) V) as [G _]. assert (A0 := HA _ (visible_a0 _ _ _ _ _ _ _ H1 V)).
  destruct (move_outcome so SO _ w w' uid ag st ag' st' G A0 H P P' Ne Epr) as (cu & eu & e & u & E1 & _ & (W1 & W2 & _) & _ & E2 & L & _). exists cu, u. split; [assumption|]. split; [assumption|].
  change (Qc_ltb ((1 + w_rel w) * cu) e = true) in W1. change (Qc_ltb (cu + w_abs w) e = true) in W2. destruct (Qc_ltb_spec ((1 + w_rel w) * cu) e) as [L1|]; [|discriminate]. destruct (Qc_ltb_spec (cu + w_abs w) e) as [L2|]; [|discriminate].
  split; eapply Qclt_le_trans; eassumption.
Qed.

(** What a myopic agent expects from the move it makes is what it gets, or less: less only if one of its pools is private, since the delegators of a pool that
    turns private leave, and the operator gains by that. *)
Theorem C62_myopic_expectations_are_met : forall so (g : args QcA) profiles (stakes costs : list Qc) (s0 : sim QcA) w w' uid, set_order so -> init g profiles stakes costs = Ok s0 -> one_at_a_time g -> positive_inputs g stakes ->
  (forall x : Qc, In x (phase_values (g_a0 g)) -> 0 <= x) -> visible so s0 w -> agent_step so w uid = Ok w' ->
  forall ag st ag' st', plays w uid ag st -> plays w' uid ag' st' -> st' <> st -> a_profile ag = Myopic ->
  exists w1 del (expected after : Qc), find_delegation_move w ag (a_stake ag) = Ok (w1, del) /\
    ((st' = del /\ expected_utility w1 ag st' = Ok expected) \/ (exists w2, choose_pool_strategy so w1 ag = Ok (w2, expected, Some st'))) /\
    current_utility w' ag' = Ok after /\ expected <= after /\ ((forall id p, operates w' uid id p -> p_private p = false) -> expected = after).
Proof.
  intros so g profiles stakes costs s0 w w' uid SO H1 H2 HP HA V H ag st ag' st' P P' Ne Epr. destruct (exact_all False True True so SO _ _ _ _ _ _ H1 H2 (inputs_pos _ _ _ _ _ H1 HP) V) as [G _]. assert (A0 := HA _ (visible_a0 _ _ _ _ _ _ _ H1 V)).
  destruct (move_outcome so SO _ w w' uid ag st ag' st' G A0 H P P' Ne Epr) as (cu & eu & e & u & _ & _ & _ & (w1 & del & E1 & E2) & E3 & L & L'). exists w1, del, e, u. auto.
Qed.

(** Non-myopic agents accept losses: the first agent of this run opens pools whose cost exceeds their reward for the time being. *)
Definition loss_args : args QcA := demo_args Sequential (Single (Q2Qc 2)).
Definition loss_profiles := [NonMyopic; Myopic; NonMyopic; Myopic].
Definition loss_stakes : list Qc := [Q2Qc (1#10); Q2Qc (4#10); Q2Qc (3#10); Q2Qc (2#10)].
Definition loss_costs : list Qc := [Q2Qc (1#10); Q2Qc (1#1000); Q2Qc (1#500); Q2Qc (1#1000)].
Theorem C62_non_myopic_refuted : exists s0 w w' ag st ag' st' before after, init loss_args loss_profiles loss_stakes loss_costs = Ok s0 /\ visible so_id s0 w /\ agent_step so_id w 0 = Ok w' /\
  plays w 0 ag st /\ plays w' 0 ag' st' /\ a_profile ag = NonMyopic /\ current_utility w ag = Ok before /\ current_utility w' ag' = Ok after /\ after < before /\ s_owned st = [] /\ s_owned st' <> [].
Proof.
  destruct (steps_check (init loss_args loss_profiles loss_stakes loss_costs) 0 (fun s => match agent_step so_id (s_w s) 0 with
    | Ok w' => agent_is (s_w s) 0 (fun ag st => match a_profile ag, s_owned st with NonMyopic, [] => match current_utility (s_w s) ag with Ok b =>
        agent_is w' 0 (fun ag' st' => match current_utility w' ag', s_owned st' with Ok c, _ :: _ => Qc_ltb c b | _, _ => false end) | Err _ => false end | _, _ => false end)
    | Err _ => false end)) as (s0 & s & H1 & H2 & H3); [vm_compute; reflexivity|].
  destruct (agent_step so_id (s_w s) 0) as [w'|] eqn:Ew; [|discriminate]. apply agent_is_plays in H3 as (ag & st & P & H3). destruct (a_profile ag) eqn:Epr; try discriminate. destruct (s_owned st) eqn:Eo; [|discriminate].
  destruct (current_utility (s_w s) ag) as [b|] eqn:Eb; [|discriminate]. apply agent_is_plays in H3 as (ag' & st' & P' & H3). destruct (current_utility w' ag') as [c|] eqn:Ec; [|discriminate]. destruct (s_owned st') eqn:Eo'; [discriminate|].
  exists s0, (s_w s), w', ag, st, ag', st', b, c. split; [assumption|]. split; [apply vis_between, (steps_reach _ _ _ H2)|]. repeat (split; [assumption|]). split; [now destruct (Qc_ltb_spec c b)|]. split; [assumption|]. congruence.
Qed.

(** The hypotheses are met: in the second round of this run the first agent, myopic, closes two of its three pools, and its income rises from 353/13000 to 69/1000. *)
Definition gain_args : args QcA := demo_args Sequential (Single (Q2Qc 3)).
Definition gain_profiles := [Myopic; Myopic; NonMyopic; Myopic].
Definition gain_costs : list Qc := [Q2Qc (1#100); Q2Qc (1#1000); Q2Qc (1#500); Q2Qc (1#1000)].
Example C62_instance : exists s0 w w' ag st ag' st', init gain_args gain_profiles loss_stakes gain_costs = Ok s0 /\ one_at_a_time gain_args /\ positive_inputs gain_args loss_stakes /\
  (forall x : Qc, In x (phase_values (g_a0 gain_args)) -> 0 <= x) /\ visible so_id s0 w /\ agent_step so_id w 0 = Ok w' /\ plays w 0 ag st /\ plays w' 0 ag' st' /\ st' <> st /\ a_profile ag = Myopic /\
  current_utility w ag = Ok (Q2Qc (353#13000)) /\ current_utility w' ag' = Ok (Q2Qc (69#1000)) /\ keys (s_owned st) = [1; 2; 3]%nat /\ keys (s_owned st') = [1]%nat.
Proof.
  destruct (steps_check (init gain_args gain_profiles loss_stakes gain_costs) 1 (fun s => match agent_step so_id (s_w s) 0 with
    | Ok w' => agent_is (s_w s) 0 (fun ag st => match a_profile ag, keys (s_owned st) with Myopic, [1; 2; 3]%nat => match current_utility (s_w s) ag with Ok b => Qc_eqb b (Q2Qc (353#13000)) &&
        agent_is w' 0 (fun ag' st' => match current_utility w' ag', keys (s_owned st') with Ok c, [1]%nat => Qc_eqb c (Q2Qc (69#1000)) | _, _ => false end) | Err _ => false end | _, _ => false end)
    | Err _ => false end)) as (s0 & s & H1 & H2 & H3); [vm_compute; reflexivity|].
  destruct (agent_step so_id (s_w s) 0) as [w'|] eqn:Ew; [|discriminate]. apply agent_is_plays in H3 as (ag & st & P & H3). destruct (a_profile ag) eqn:Epr; try discriminate.
  destruct (keys (s_owned st)) as [|[|[|]] [|[|[|[|]]] [|[|[|[|[|]]]] [|]]]] eqn:Eo; try discriminate.
  destruct (current_utility (s_w s) ag) as [b|] eqn:Eb; [|discriminate]. apply andb_true_iff in H3 as [Hb H3]. apply Qc_eqb_eq in Hb. apply agent_is_plays in H3 as (ag' & st' & P' & H3). destruct (current_utility w' ag') as [c|] eqn:Ec; [|discriminate].
  destruct (keys (s_owned st')) as [|[|[|]] [|]] eqn:Eo'; try discriminate. apply Qc_eqb_eq in H3. subst b c.
  exists s0, (s_w s), w', ag, st, ag', st'. split; [assumption|]. split; [constructor; [right; reflexivity | constructor]|].
  split. { split; [discriminate|]. split; [reflexivity|]. split; [cbn; intros x [<-|[<-|[<-|[<-|[]]]]]; reflexivity | cbn; intros x [<-|[]]; reflexivity]. }
  split; [cbn; intros x [<-|[]]; discriminate|]. split; [apply vis_between, (steps_reach _ _ _ H2)|]. split; [assumption|]. split; [assumption|]. split; [assumption|]. split; [intros ->; congruence|]. auto 10.
Qed.
