(** Properties of single moves: C20 (inertia), C19 (considering has no side effects), C22 (operator moves), C18 (greedy delegation). *)
From Coq Require Import ZArith QArith Qcanon List Bool Arith Lia Permutation.
From Verif Require Import Num Py QcTac Rewards SortedKeyList World Stakeholder Sched Sim Init Reach RewardFacts ListFacts SLFacts Greedy PropHelper Inv Static Exec Eval Step SimInv Spec PropInit PropState ExactInv Demo PropExact.
Import ListNotations.

(** * C20 *)
(** a utility [u] that makes giving up a strategy with current utility [cu] and expected utility [eu] worthwhile: it is strictly above each of them, increased
    by the relative threshold and by the absolute threshold *)
Definition worthwhile {A : Arith} (w : world A) (cu eu u : T A) : Prop :=
  ltb (mul (add one (w_rel w)) cu) u = true /\ ltb (add cu (w_abs w)) u = true /\
  ltb (mul (add one (w_rel w)) eu) u = true /\ ltb (add eu (w_abs w)) u = true.
(** the decision between the best delegation [del] of utility [du] and the best way of operating pools [op], if any, of utility [ou] *)
Definition decision {A : Arith} (w : world A) (cu eu du : T A) (del : strategy A) (ou : T A) (op new : option (strategy A)) : Prop :=
  match new with
  | None => ~ worthwhile w cu eu du /\ (op <> None -> ~ worthwhile w cu eu ou)
  | Some s => (s = del /\ worthwhile w cu eu du /\ (op <> None -> ltb du ou = false)) \/
              (op = Some s /\ worthwhile w cu eu ou /\ ltb du ou = true)
  end.

Section Inertia.
  Context {A : Arith} (O : OrdLaws A).
  Lemma pmax_lt (x y z : T A) : ltb (pmax x y) z = true <-> ltb x z = true /\ ltb y z = true.
  Proof.
    unfold pmax. destruct (ltb x y) eqn:E; (split; [intros H; split; try assumption | now intros []]).
    - exact (ol_ltb_trans _ O _ _ _ E H).
    - destruct (ltb y z) eqn:E'; [reflexivity|]. rewrite (ol_nlt_trans _ O x y z E E') in H. discriminate.
  Qed.
  Lemma augmented_lt (w : world A) cu eu u : ltb (augmented_utility w cu eu) u = true <-> worthwhile w cu eu u.
  Proof. unfold augmented_utility, worthwhile. rewrite !pmax_lt. tauto. Qed.
  Lemma pick_decision (w : world A) cu eu du del ou op : decision w cu eu du del ou op (pick_move (augmented_utility w cu eu) (du, del) (ou, op)).
  Proof.
    assert (Aug := augmented_lt w cu eu). set (aug := augmented_utility w cu eu) in *. unfold pick_move. cbn [fst snd].
    assert (Wf : forall u, ltb aug u = false -> ~ worthwhile w cu eu u) by (intros u E X; apply Aug in X; congruence).
    destruct (ltb aug du) eqn:Ed; cbn [fst snd]; destruct op as [s|]; cbn.
    - destruct (ltb du ou) eqn:Eo; cbn.
      + right. split; [reflexivity|]. split; [|assumption]. apply Aug. exact (ol_ltb_trans _ O _ _ _ Ed Eo).
      + left. split; [reflexivity|]. split; [now apply Aug | auto].
    - left. split; [reflexivity|]. split; [now apply Aug | congruence].
    - destruct (ltb aug ou) eqn:Eo; cbn.
      + right. split; [reflexivity|]. split; [now apply Aug|]. destruct (ltb du ou) eqn:E; [reflexivity|]. rewrite (ol_nlt_trans _ O aug du ou Ed E) in Eo. discriminate.
      + split; [now apply Wf | intros _; now apply Wf].
    - split; [now apply Wf | congruence].
  Qed.
End Inertia.

(** The decision an agent takes in any state whatsoever. *)
Theorem C20_inertia : forall (A : Arith), OrdLaws A -> forall so (w w' : world A) uid ag, get (w_agents w) uid = Some ag -> update_strategy so w uid = Ok w' ->
  (a_profile ag = Abstainer /\ w' = w) \/
  (a_profile ag <> Abstainer /\ exists st cu eu w1 del du w2 ou op new,
     a_strategy ag = Some st /\ current_utility w ag = Ok cu /\ expected_utility w ag st = Ok eu /\
     find_delegation_move w ag (a_stake ag) = Ok (w1, del) /\ expected_utility w1 ag del = Ok du /\
     choose_pool_strategy so w1 ag = Ok (w2, ou, op) /\
     get (w_agents w') uid = Some (agent_set_new new ag) /\ decision w cu eu du del ou op new).
Proof.
  intros A O so w w' uid ag G H. unfold update_strategy, the_agent in H. rewrite G in H. cbn [of_option bind] in H.
  destruct (a_profile ag) eqn:Epr; [| |left; split; [reflexivity | congruence]]; right; (split; [discriminate|]).
  all: unfold the_strategy in H; apply bind_ok in H as (st & Hst & H); apply of_option_ok in Hst;
    apply bind_ok in H as (cu & Hc & H); apply bind_ok in H as (eu & He & H); apply bind_ok in H as ([w1 del] & Hd & H); apply bind_ok in H as (du & Hdu & H);
    apply bind_ok in H as ([[w2 ou] op] & Ho & H); injection H as <-;
    exists st, cu, eu, w1, del, du, w2, ou, op, (pick_move (augmented_utility w cu eu) (du, del) (ou, op)); repeat (split; [assumption|]);
    (split; [cbn; apply get_set_eq | now apply pick_decision]).
Qed.

(** In a run, an activation changes an agent's strategy only to one that is worthwhile. *)
Theorem C20_only_worthwhile_changes : forall (A : Arith), OrdLaws A -> ltb (zero (a := A)) min_stake_unit = true ->
  forall so g profiles stakes costs s0 (w w' : world A) uid, set_order so -> init g profiles stakes costs = Ok s0 -> one_at_a_time g -> visible so s0 w ->
  agent_step so w uid = Ok w' -> forall ag st, plays w uid ag st ->
  (w_agents w' = w_agents w) \/
  (exists new cu eu u v, get (w_agents w') uid = Some (agent_set_strategy (Some new) ag) /\ current_utility w ag = Ok cu /\ expected_utility w ag st = Ok eu /\
     expected_utility v ag new = Ok u /\ worthwhile w cu eu u).
Proof.
  intros A O MP so g profiles stakes costs s0 w w' uid SO H1 H2 V H ag st [P1 P2].
  assert (G := plain_visible O MP so SO _ _ _ _ _ _ H1 H2 V). destruct (plain_step O MP so SO _ _ _ _ G H) as [_ [(w2 & _ & Ea & _)|(ag' & st' & w2 & new & w3 & Ga & Gst & I2 & E & M & X & HS & HU & ->)]]; [now left|].
  right. rewrite P1 in Ga. injection Ga as <-. rewrite P2 in Gst. injection Gst as <-.
  destruct (C20_inertia A O so w _ uid ag P1 HU) as [[_ Ew]|(_ & st' & cu & eu & w1 & del & du & w2' & ou & op & new' & Q1 & Q2 & Q3 & Q4 & Q5 & Q6 & Q7 & Q8)].
  - exfalso. assert (Z : get (w_agents w) uid = Some (agent_set_new (Some new) ag)) by (rewrite <- Ew; cbn; apply get_set_eq). rewrite P1 in Z. injection Z as Z.
    destruct (g_new _ _ _ _ _ G uid ag P1) as [Z' _]. rewrite Z in Z'. discriminate.
  - cbn in Q7. rewrite get_set_eq in Q7. injection Q7 as Q7. subst new'. rewrite P2 in Q1. injection Q1 as <-.
    assert (Hn : a_new ag = None) by (now apply (g_new _ _ _ _ _ G uid ag)).
    assert (Gs : get (w_agents (with_idle false w3)) uid = Some (agent_set_strategy (Some new) ag)).
    { cbn. rewrite (x_self _ _ _ _ _ X). f_equal. destruct ag; cbn in *. now rewrite Hn. }
    destruct Q8 as [(-> & Q8 & _)|(-> & Q8 & _)].
    + exists del, cu, eu, du, w1. auto.
    + exists new, cu, eu, ou, w2'. repeat (split; [assumption|]). split; [|assumption].
      clear - Q6. unfold choose_pool_strategy in Q6. apply bind_ok in Q6 as ([t ms] & _ & H). destruct (0 <? t)%Z; [|discriminate].
      apply bind_ok in H as ([v1 d] & _ & H). apply bind_ok in H as ([v2 s] & _ & H). apply bind_ok in H as (u & Hu & H). injection H as <- <- <-. exact Hu.
Qed.

(** * C19 *)
Section Rank.
  Context {A : Arith} (O : OrdLaws A).
  (** two complete sorted rankings of the same pools with the same keys are the same list *)
  Lemma rank_ok_unique K (h : dict (pool A)) m refs (l l' : sl A) : rank_ok K h m refs l -> rank_ok K h m refs l' -> NoDup refs ->
    (forall r p k, In r refs -> get h r = Some p -> K p = Ok k -> snd k = Z.of_nat (p_id p) /\ (1 <= p_id p)%nat) ->
    (forall r r' p p', In r refs -> In r' refs -> get h r = Some p -> get h r' = Some p' -> p_id p = p_id p' -> r = r') -> l = l'.
  Proof.
    intros R R' N Hk Hid. assert (Q := R). assert (Q' := R'). destruct R as (S & P & F), R' as (S' & P' & F').
    set (kof := fun e : option nat => match e with None => key_none | Some r => match get h r with Some p => match K p with Ok k => k | Err _ => key_none end | None => key_none end end).
    assert (E : forall x : sl A, (forall k e, In (k, e) x -> match e with None => k = key_none | Some r => exists p, get h r = Some p /\ K p = Ok k end) -> x = map (fun e => (kof e, e)) (sl_elems x)).
    { unfold sl_elems. induction x as [|[k e] x IH]; intros Fx; [reflexivity|]. cbn [map snd]. rewrite <- IH by (intros; apply Fx; now right). f_equal. f_equal.
      specialize (Fx k e (or_introl eq_refl)). unfold kof. destruct e as [r|]; [|assumption]. destruct Fx as (p & -> & ->). reflexivity. }
    apply (sorted_unique (ent_ltb (A := A)) (ent_sw A O)); [assumption | assumption | |].
    - rewrite (E l F), (E l' F'). apply Permutation_map. rewrite P, P'. reflexivity.
    - intros [k e] [k' e'] J J' L L'. unfold ent_ltb in L, L'. cbn [fst] in L, L'. assert (Ek : key_eqb k k' = true) by (apply (key_eqb_true A O); now split). apply (key_eqb_id A) in Ek.
      assert (B := F _ _ J). assert (B' := F _ _ J'). destruct e as [r|], e' as [r'|].
      + destruct B as (p & B1 & B2), B' as (p' & B1' & B2'). assert (I1 := rank_ok_elem _ _ _ _ _ _ _ Q J). assert (I2 := rank_ok_elem _ _ _ _ _ _ _ Q J').
        destruct (Hk r p k I1 B1 B2) as [X1 _]. destruct (Hk r' p' k' I2 B1' B2') as [X2 _]. assert (r = r') by (apply (Hid r r' p p'); try assumption; lia). subst r'. congruence.
      + destruct B as (p & B1 & B2). assert (I1 := rank_ok_elem _ _ _ _ _ _ _ Q J). destruct (Hk r p k I1 B1 B2) as [X1 X2]. subst k'. cbn in Ek. lia.
      + destruct B' as (p & B1 & B2). assert (I1 := rank_ok_elem _ _ _ _ _ _ _ Q J'). destruct (Hk r' p k' I1 B1 B2) as [X1 X2]. subst k. cbn in Ek. lia.
      + congruence.
  Qed.
End Rank.

Open Scope Qc_scope.
(** the same pool, as far as anybody can see: equal in everything, the delegations compared as a mapping *)
Definition same_pool (p p' : pool QcA) : Prop :=
  p_id p' = p_id p /\ p_owner p' = p_owner p /\ p_stake p' = p_stake p /\ p_pledge p' = p_pledge p /\ p_margin p' = p_margin p /\ p_cost p' = p_cost p /\
  p_private p' = p_private p /\ p_pp p' = p_pp p /\ p_des p' = p_des p /\ forall a, get (p_delegators p') a = get (p_delegators p) a.
(** the same pools, rankings and parameters *)
Definition same_state (w w' : world QcA) : Prop :=
  w_pools w' = w_pools w /\ (forall id p, active w id p -> exists p', active w' id p' /\ same_pool p p') /\
  sl_elems (w_rank w') = sl_elems (w_rank w) /\ sl_elems (w_rankm w') = sl_elems (w_rankm w) /\
  w_rss w' = w_rss w /\ w_rel w' = w_rel w /\ w_abs w' = w_abs w /\ w_phi w' = w_phi w /\ w_total w' = w_total w /\ w_simul w' = w_simul w /\ w_idle w' = w_idle w.

Lemma total_ext (d d' : dict Qc) : NoDup (keys d) -> NoDup (keys d') -> (forall k, get d' k = get d k) -> (forall k v, get d k = Some v -> 0 <= v) -> total d' = total d.
Proof.
  intros N N' E P. apply Qcle_antisym; apply total_sub; try assumption; intros k v; rewrite ?E; eauto.
Qed.

Section Same.
  Variables (SINGLE NN POS : Prop).
  Lemma inv_same m (w w2 : world QcA) uid : egood SINGLE NN POS m w -> Inv (pool_facts SINGLE POS) True m (al_of w) (ow_of w) w2 -> efr uid w w2 -> same_state w w2.
  Proof.
    intros G I2 (P & _ & _ & St & _). destruct P as (P1 & P2 & P3 & P4 & P5 & P6 & P7 & P8 & P9 & P10).
    assert (I := g_inv _ _ _ _ _ G).
    assert (SP : forall id r p, get (w_pools w) id = Some r -> get (w_heap w) r = Some p -> exists p', get (w_heap w2) r = Some p' /\ same_pool p p').
    { intros id r p G1 G2. destruct (St r p G2) as (p' & G2' & S). exists p'. split; [assumption|]. assert (G1' := G1). rewrite <- P8 in G1'.
      destruct (i_reg _ _ _ _ _ _ I _ _ G1) as (q & Q1 & _ & _ & Q2 & _ & Q3 & _). rewrite G2 in Q1. injection Q1 as <-.
      destruct (i_reg _ _ _ _ _ _ I2 _ _ G1') as (q & Q1 & _ & _ & Q2' & _ & Q3' & _). rewrite G2' in Q1. injection Q1 as <-.
      assert (D : forall a, get (p_delegators p') a = get (p_delegators p) a).
      { intros a. assert (X := i_del _ _ _ _ _ _ I id r p a). assert (X' := i_del _ _ _ _ _ _ I2 id r p' a). destruct (get (p_delegators p') a) as [v|] eqn:E'.
        - symmetry. apply (X v); [assumption..|]. now apply (X' v).
        - destruct (get (p_delegators p) a) as [v|] eqn:E; [|reflexivity]. exfalso. assert (Y : al_of w a id = Some v) by (now apply (X v)). apply (X' v) in Y; [congruence | assumption..]. }
      assert (Y : forall k v, get (p_delegators p) k = Some v -> 0 <= v).
      { intros k v J. apply (i_del _ _ _ _ _ _ I id r p k v G1 G2) in J. destruct (i_al _ _ _ _ _ _ I _ _ _ J) as [J1 _]. apply ltb_MIN_false in J1. apply Qcle_trans with MIN; [discriminate | exact J1]. }
      assert (T := total_ext _ _ Q2 Q2' D Y). assert (S1 := pf_stake _ _ _ _ Q3). assert (S2 := pf_stake _ _ _ _ Q3').
      unfold same_pool. assert (Es : p_stake p' = p_stake p). { assert (p_pledge p' = p_pledge p) by (now rewrite S). qlra. }
      split; [now rewrite S|]. split; [now rewrite S|]. split; [exact Es|]. repeat (split; [now rewrite S|]). exact D. }
    split; [assumption|]. split. { intros id p (r & G1 & G2). destruct (SP id r p G1 G2) as (p' & G' & S). exists p'. split; [|assumption]. exists r. now rewrite P8. }
    split; [now rewrite P9|]. split; [|tauto]. f_equal.
    assert (Rid : forall r r' p p', In r (values (w_pools w)) -> In r' (values (w_pools w)) -> get (w_heap w) r = Some p -> get (w_heap w) r' = Some p' -> p_id p = p_id p' -> r = r').
    { intros r r' p p' J J' Gp Gp' Ei. apply In_values in J as (id & J); [|apply (i_nd _ _ _ _ _ _ I)]. apply In_values in J' as (id' & J'); [|apply (i_nd _ _ _ _ _ _ I)].
      destruct (i_reg _ _ _ _ _ _ I _ _ J) as (q & Q1 & Q2 & _). destruct (i_reg _ _ _ _ _ _ I _ _ J') as (q' & Q1' & Q2' & _). assert (id = id') by congruence. subst. congruence. }
    apply (rank_ok_unique QcA_ord (pool_key_myopic (w_rss w)) (w_heap w) m (values (w_pools w))).
    - assert (R := i_rankm _ _ _ _ _ _ I2). rewrite P1, P8 in R. eapply rank_ok_frame; [|exact R]. intros r p Hr Gp. apply In_values in Hr as (id & Hr); [|apply (i_nd _ _ _ _ _ _ I)].
      destruct (i_reg _ _ _ _ _ _ I _ _ Hr) as (q & Q1 & _). exists q. split; [assumption|]. destruct (SP id r q Hr Q1) as (p' & G' & (S1 & _ & S3 & S4 & S5 & S6 & _)). rewrite Gp in G'. injection G' as <-.
      unfold pool_key_myopic. now rewrite S1, S3, S4, S5, S6.
    - exact (i_rankm _ _ _ _ _ _ I).
    - eapply Inv_refs_nodup; exact I.
    - intros r p k Hr Gp Hk. apply In_values in Hr as (id & Hr); [|apply (i_nd _ _ _ _ _ _ I)]. destruct (i_reg _ _ _ _ _ _ I _ _ Hr) as (q & Q1 & Q2 & Q3 & _). rewrite Gp in Q1. injection Q1 as <-.
      unfold pool_key_myopic in Hk. apply bind_ok in Hk as (cp & _ & Hk). injection Hk as <-. cbn. split; [reflexivity | lia].
    - exact Rid.
  Qed.
  Variable so : list nat -> list nat -> list nat.
  Hypothesis SO : set_order so.
  Lemma update_same m (w w' : world QcA) uid : egood SINGLE NN POS m w -> update_strategy so w uid = Ok w' ->
    same_state w w' /\ (forall a, a <> uid -> get (w_agents w') a = get (w_agents w) a) /\
    exists ag new, get (w_agents w) uid = Some ag /\ a_new ag = None /\ get (w_agents w') uid = Some (agent_set_new new ag) /\ (new = None -> w_agents w' = w_agents w /\ agent_step so w uid = Ok w').
  Proof.
    intros G H. assert (exists ag, get (w_agents w) uid = Some ag) as (ag & Ga).
    { unfold update_strategy, the_agent in H. apply bind_ok in H as (ag & G' & _). apply of_option_ok in G'. eauto. }
    destruct (g_new _ _ _ _ _ G uid ag Ga) as [Hnew _]. assert (Hs := g_sim _ _ _ _ _ G).
    assert (Stp : w_simul w' = false -> (exists ag', get (w_agents w') uid = Some ag' /\ a_new ag' = None) -> agent_step so w uid = Ok w').
    { intros E (ag' & E1 & E2). unfold agent_step. rewrite H. cbn [bind]. rewrite E. unfold advance, the_agent. rewrite E1. cbn [of_option bind]. now rewrite E2. }
    destruct (update_cases QcA_ord MP_Qc so SO (pool_facts SINGLE POS) True nonneg E_TG_d E_TG_z (E_TG_np SINGLE POS) (E_NP_upd SINGLE POS) m w uid ag w' (g_inv _ _ _ _ _ G) (g_ok _ _ _ _ _ G) Ga H) as [[_ ->]|(_ & st & w2 & mv & Hst & Ew & I2 & E & _)].
    - split; [|split; [reflexivity|]].
      + apply (inv_same m w w uid G (g_inv _ _ _ _ _ G)). apply hext_efr; [|apply hext_refl]; exact (i_fresh _ _ _ _ _ _ (g_inv _ _ _ _ _ G)).
      + exists ag, None. split; [assumption|]. split; [assumption|]. split; [rewrite agent_eta by assumption; exact Ga|]. intros _. split; [reflexivity|]. apply Stp; [assumption|]. eauto.
    - assert (Ea : w_agents w2 = w_agents w) by apply E. assert (Es : w_simul w2 = w_simul w) by apply E. split; [|split].
      + rewrite Ew. exact (inv_same m w w2 uid G I2 E).
      + intros a Ne. rewrite Ew. cbn. rewrite Ea. apply get_set_ne. congruence.
      + assert (Gu : get (w_agents w') uid = Some (agent_set_new mv ag)) by (rewrite Ew; cbn; apply get_set_eq).
        exists ag, mv. split; [assumption|]. split; [assumption|]. split; [assumption|]. intros ->. split.
        * rewrite Ew. cbn. rewrite Ea, agent_eta by assumption. now apply set_get_same.
        * apply Stp; [rewrite Ew; cbn; congruence|]. exists (agent_set_new None ag). now split.
  Qed.
End Same.

(** Evaluating the options changes nothing but the agent's own plan ... *)
Theorem C19_considering_has_no_side_effects : forall so (g : args QcA) profiles (stakes costs : list Qc) (s0 : sim QcA) w uid w', set_order so -> init g profiles stakes costs = Ok s0 -> one_at_a_time g ->
  visible so s0 w -> update_strategy so w uid = Ok w' ->
  same_state w w' /\ (forall a, a <> uid -> get (w_agents w') a = get (w_agents w) a) /\
  exists ag new, get (w_agents w) uid = Some ag /\ get (w_agents w') uid = Some (agent_set_new new ag).
Proof.
  intros so g profiles stakes costs s0 w uid w' SO H1 H2 V H. destruct (exact_all False False False so SO _ _ _ _ _ _ H1 H2 (inputs_none _ _) V) as [G _].
  destruct (update_same False False False so SO _ w w' uid G H) as (S1 & S2 & ag & new & S3 & _ & S4 & _). split; [assumption|]. split; [assumption|]. eauto.
Qed.
(** ... so an activation in which the agent keeps its strategy changes nothing. *)
Theorem C19_keeping_the_strategy_changes_nothing : forall so (g : args QcA) profiles (stakes costs : list Qc) (s0 : sim QcA) w uid w', set_order so -> init g profiles stakes costs = Ok s0 -> one_at_a_time g ->
  visible so s0 w -> update_strategy so w uid = Ok w' -> (forall ag', get (w_agents w') uid = Some ag' -> a_new ag' = None) ->
  agent_step so w uid = Ok w' /\ same_state w w' /\ w_agents w' = w_agents w.
Proof.
  intros so g profiles stakes costs s0 w uid w' SO H1 H2 V H K. destruct (exact_all False False False so SO _ _ _ _ _ _ H1 H2 (inputs_none _ _) V) as [G _].
  destruct (update_same False False False so SO _ w w' uid G H) as (S1 & S2 & ag & new & S3 & _ & S4 & S5). specialize (K _ S4). cbn in K. destruct (S5 K). auto.
Qed.

(** * C22 *)
Lemma Ok_inj {X} (x y : X) : Ok x = Ok y -> x = y.  Proof. now intros [= ->]. Qed.
(** what a move by which an agent starts or keeps operating pools does: [n] is the number of pools the agent's search chose *)
Theorem C22_operator_moves : forall so (g : args QcA) profiles (stakes costs : list Qc) (s0 : sim QcA) w uid w', set_order so -> init g profiles stakes costs = Ok s0 -> one_at_a_time g ->
  visible so s0 w -> agent_step so w uid = Ok w' -> forall ag st ag' st', plays w uid ag st -> plays w' uid ag' st' ->
  w_agents w' = w_agents w \/ s_owned st' = [] \/
  exists w1 del n margins, find_delegation_move w ag (a_stake ag) = Ok (w1, del) /\
    search (margins_and_utility w1 ag) (search_fuel (r_k (w_rss w))) 1 (r_k (w_rss w)) = Ok (n, margins) /\ (1 <= n <= r_k (w_rss w))%Z /\
    NoDup (keys (s_owned st')) /\ Z.of_nat (length (s_owned st')) = n /\
    forall id r, get (s_owned st') id = Some r -> exists p, get (w_pools w') id = Some r /\ get (w_heap w') r = Some p /\ p_id p = id /\ p_owner p = uid /\
      p_pledge p = Qcmin (a_stake ag / Qc_ofZ n) (r_thr (w_rss w)) /\
      p_cost p = (a_cost ag + Qc_ofZ (n - 1) * w_phi w * a_cost ag) / Qc_ofZ n /\
      (p_private p = true <-> pool_threshold (A := QcA) (w_rss w) (p_pledge p) <= p_pledge p) /\
      0 <= p_margin p /\ p_margin p <= 1.
Proof.
  intros so g profiles stakes costs s0 w uid w' SO H1 H2 V H ag st ag' st' P P'. destruct (exact_all False False False so SO _ _ _ _ _ _ H1 H2 (inputs_none _ _) V) as [G _].
  destruct (exact_step False False False so SO _ _ _ _ G H) as [G' [(w2 & _ & Ea & _)|(ag0 & st0 & w2 & new & w3 & Ga & Gst & I2 & E & _ & X & HS & HU & Ew)]]; [now left|]. right.
  destruct P as [P1 P2]. rewrite P1 in Ga. injection Ga as <-. rewrite P2 in Gst. injection Gst as <-.
  assert (Est : st' = new). { destruct P' as [P1' P2']. rewrite Ew in P1'. cbn in P1'. rewrite (x_self _ _ _ _ _ X) in P1'. injection P1' as <-. cbn in P2'. congruence. } subst st'.
  unfold update_strategy, the_agent in HU. rewrite P1 in HU. cbn [of_option bind] in HU.
  destruct (a_profile ag) eqn:Epr; [| |].
  3: { exfalso. assert (Z : get (w_agents w) uid = Some (agent_set_new (Some new) ag)) by (injection HU as ->; cbn; apply get_set_eq). rewrite P1 in Z. injection Z as Z.
       destruct (g_new _ _ _ _ _ G uid ag P1) as [Z' _]. rewrite Z in Z'. discriminate. }
  all: unfold the_strategy in HU; apply bind_ok in HU as (st1 & Hst & HU); apply of_option_ok in Hst; assert (st1 = st) by congruence; subst st1;
    apply bind_ok in HU as (cu & _ & HU); apply bind_ok in HU as (eu & _ & HU); apply bind_ok in HU as ([w1 del] & Hd & HU); apply bind_ok in HU as (du & _ & HU);
    apply bind_ok in HU as ([[w2' ou] op] & Ho & HU); apply Ok_inj in HU.
  all: assert (Aid : a_id ag = uid) by (now apply (g_ok _ _ _ _ _ G)); destruct (proj2 (g_ok _ _ _ _ _ G) uid ag P1) as [_ Ast]; destruct (Ast st P2) as [Na No];
      assert (Eal : forall id, al_of w (a_id ag) id = get (s_alloc st) id) by (intros; unfold al_of; now rewrite Aid, P1, P2);
      assert (Eow : forall id, ow_of w (a_id ag) id = get (s_owned st) id) by (intros; unfold ow_of; now rewrite Aid, P1, P2);
      destruct (delegation_move_spec QcA_ord MP_Qc nonneg (pool_facts False False) True (E_NP_upd False False) E_TG_z _ (al_of w) (ow_of w) ag st Hst Eal Na w (a_stake ag) w1 del (g_inv _ _ _ _ _ G) Hd) as (I1 & E1 & En1 & Es1 & D1 & D2 & D3);
      destruct (choose_spec QcA_ord MP_Qc so SO nonneg (pool_facts False False) True (E_NP_upd False False) E_TG_d E_TG_z (E_TG_np False False) _ (al_of w) (ow_of w) ag st Hst Eal Eow Na No w1 w2' ou op I1 Ho) as (I2' & E2 & C);
      assert (Hp : pick_move (A := QcA) (augmented_utility w cu eu) (du, del) (ou, op) = Some new) by
        (apply (f_equal (fun x => match get (w_agents x) uid with Some y => a_new y | None => None end)) in HU; cbn in HU; rewrite !get_set_eq in HU; exact HU);
      assert (Hh : w_heap w2' = w_heap w2) by (apply (f_equal w_heap) in HU; exact HU);
      assert (Hnew : new = del \/ op = Some new) by
        (unfold pick_move in Hp; cbn [fst snd] in Hp; destruct op as [s|]; [match type of Hp with (if ?b then _ else _) = _ => destruct b end; [right; congruence|]|];
         destruct (ltb (augmented_utility w cu eu) du); cbn in Hp; try discriminate; left; congruence);
      (destruct Hnew as [Hnew|Hnew]; [rewrite Hnew; now left|]); right; rewrite Hnew in C;
      destruct C as ((n & (Hn & ms & Hse) & pledge & cost & Hpl & Hco & Nn & Len & Hm & _) & _);
      assert (Er1 : w_rss w1 = w_rss w) by apply E1; assert (Ef1 : w_phi w1 = w_phi w) by apply E1; rewrite Er1 in Hse, Hn;
      unfold agent_pledge_per_pool, agent_cost_per_pool in Hpl, Hco; rewrite Er1 in Hpl; rewrite Ef1 in Hco;
      exists w1, del, n, ms; (split; [exact Hd|]); (split; [exact Hse|]); (split; [exact Hn|]); (split; [exact Nn|]); (split; [rewrite Len; lia|]);
      intros id r J; destruct (Hm id r J) as (_ & p & K1 & K2 & K3 & (K4 & K5 & K6 & _ & _ & K9) & _); rewrite Hh in K1; destruct (HS r p K1) as (p3 & G3 & T3);
      assert (O1 : ow_of w' uid id = Some r) by (unfold ow_of; rewrite (proj1 P'), (proj2 P'); exact J);
      destruct (i_own _ _ _ _ _ _ (g_inv _ _ _ _ _ G') _ _ _ O1) as [J1 _];
      assert (Hpl' := pledge_pos _ _ _ _ Hpl); destruct Hpl' as [_ Hpl'];
      unfold cost_per_pool in Hco; cbn [ofZ QcA] in Hco; rewrite pdiv_ok in Hco by (apply Qc_pos_neq, Qc_ofZ_pos; lia); injection Hco as Hco;
      exists p3; (split; [exact J1|]); (split; [rewrite Ew; exact G3|]); rewrite T3; cbn [p_id p_owner p_pledge p_cost p_private p_margin];
      (split; [exact K2|]); (split; [rewrite <- Aid; exact K3|]); (split; [rewrite K4; exact Hpl'|]); (split; [rewrite K5; symmetry; exact Hco|]);
      (split; [rewrite K6, K4, Er1; cbn [leb QcA]; match goal with |- Qc_leb ?x ?y = true <-> _ => destruct (Qc_leb_spec x y); split; intros; auto; try discriminate; contradiction end|]); now apply margin_range.
Qed.

(** in every state: pools of one operator have the same pledge and cost, and margins are fractions *)
Theorem C22_pools_of_one_operator_agree : forall so (g : args QcA) profiles (stakes costs : list Qc) (s0 : sim QcA) w, set_order so -> init g profiles stakes costs = Ok s0 -> one_at_a_time g -> visible so s0 w ->
  forall id p id' p', active w id p -> active w id' p' -> p_owner p = p_owner p' -> p_pledge p = p_pledge p' /\ p_cost p = p_cost p'.
Proof.
  intros so g profiles stakes costs s0 w SO H1 H2 V. destruct (exact_all False False False so SO _ _ _ _ _ _ H1 H2 (inputs_none _ _) V) as [_ [_ B]]. exact B.
Qed.
Theorem C22_margins_are_fractions : forall so (g : args QcA) profiles (stakes costs : list Qc) (s0 : sim QcA) w, set_order so -> init g profiles stakes costs = Ok s0 -> one_at_a_time g -> visible so s0 w ->
  forall id p, active w id p -> 0 <= p_margin p /\ p_margin p <= 1.
Proof.
  intros so g profiles stakes costs s0 w SO H1 H2 V id p J. destruct (exact_all False False False so SO _ _ _ _ _ _ H1 H2 (inputs_none _ _) V) as [G _].
  destruct (good_active _ _ _ _ _ G id p J) as (_ & _ & _ & F & _). exact (pf_margin _ _ _ _ F).
Qed.
(** with a single phase, a pool is private exactly if its pledge reaches its saturation threshold (a later phase may move the threshold) *)
Theorem C22_private_iff_pledge_saturates : forall so (g : args QcA) profiles (stakes costs : list Qc) (s0 : sim QcA) w, set_order so -> init g profiles stakes costs = Ok s0 -> one_at_a_time g ->
  (forall f, In f (fields g) -> exists v, f = Single v) -> visible so s0 w ->
  forall id p, active w id p -> (p_private p = true <-> pool_threshold (A := QcA) (w_rss w) (p_pledge p) <= p_pledge p).
Proof.
  intros so g profiles stakes costs s0 w SO H1 H2 HS V id p J.
  assert (D : inputs_ok True False False g s0) by (split; [now left|]; split; [auto|]; split; tauto).
  destruct (exact_all True False False so SO _ _ _ _ _ _ H1 H2 D V) as [G _].
  destruct (good_active _ _ _ _ _ G id p J) as (_ & _ & _ & F & _). rewrite (pf_private _ _ _ _ F I). cbn [leb QcA]. match goal with |- Qc_leb ?x ?y = true <-> _ => destruct (Qc_leb_spec x y) end; split; intros; auto; try discriminate; contradiction.
Qed.

(** * C18 *)
(** what agent [a] has delegated to pool [p] *)
Definition delegated (a : nat) (p : pool QcA) : Qc := match get (p_delegators p) a with Some v => v | None => 0 end.
(** the other agents' public pools in the order of a ranking, each with the stake it can take from agent [a] before it is saturated *)
Definition offers (w : world QcA) (a : nat) (ranking : list (option nat)) : list (nat * Qc) :=
  flat_map (fun e => match e with
                     | None => []
                     | Some r => match get (w_heap w) r with
                                 | None => []
                                 | Some p => if Nat.eqb (p_owner p) a || p_private p then []
                                             else [(p_id p, pool_threshold (A := QcA) (w_rss w) (p_pledge p) - (p_stake p - delegated a p))]
                                 end
                     end) ranking.
(** [d] distributes the stake [s] over the pools [l] greedily *)
Record distributes (l : list (nat * Qc)) (s : Qc) (d : dict Qc) : Prop := {
  ds_ids : NoDup (keys d) /\ incl (keys d) (map fst l);
  ds_min : forall id v, get d id = Some v -> min_stake_unit (a := QcA) <= v;
  ds_total : Qc_sum (values d) <= s;
  (** a pool with room gets at most that much, and only if each better ranked pool has no room or is filled *)
  ds_room : forall l1 id c l2 v, l = l1 ++ (id, c) :: l2 -> min_stake_unit (a := QcA) <= c -> get d id = Some v ->
              v <= c /\ forall id' c', In (id', c') l1 -> c' < min_stake_unit (a := QcA) \/ get d id' = Some c';
  (** a pool without room gets something only if it is the first without room and all pools with room are filled; it gets what remains *)
  ds_overflow : forall l1 id c l2 v, l = l1 ++ (id, c) :: l2 -> c < min_stake_unit (a := QcA) -> get d id = Some v ->
              (forall id' c', In (id', c') l1 -> min_stake_unit (a := QcA) <= c') /\
              (forall id' c', In (id', c') l -> min_stake_unit (a := QcA) <= c' -> get d id' = Some c') /\
              v = s - Qc_sum (map snd (filter (fun x => Qc_leb (min_stake_unit (a := QcA)) (snd x)) l));
  (** something worth delegating is left over only if all pools had room and are filled *)
  ds_rest : min_stake_unit (a := QcA) <= s - Qc_sum (values d) -> forall id c, In (id, c) l -> min_stake_unit (a := QcA) <= c /\ get d id = Some c
}.

Lemma greedy_distributes rs (pools : list (pool QcA)) (s : Qc) : NoDup (map p_id pools) -> MIN <= s ->
  distributes (map (fun p => (p_id p, room (A := QcA) rs p)) pools) s (greedy_allocations rs pools s).
Proof.
  intros N Hs. destruct (greedy_correct rs pools s N Hs) as (K1 & K2 & K3 & K4 & K5 & K6 & K7). set (al := greedy_allocations rs pools s) in *. set (f := fun p => (p_id p, room (A := QcA) rs p)) in *.
  assert (Sat : forall p, saturated (A := QcA) rs p = true <-> room (A := QcA) rs p < MIN) by (intros; apply saturated_spec).
  assert (Uns : forall p, saturated (A := QcA) rs p = false <-> MIN <= room (A := QcA) rs p) by (intros; apply unsaturated_spec).
  assert (Spl : forall l1 id c l2, map f pools = l1 ++ (id, c) :: l2 -> exists q1 p q2, pools = q1 ++ p :: q2 /\ l1 = map f q1 /\ id = p_id p /\ c = room (A := QcA) rs p).
  { intros l1 id c l2 E. apply map_eq_app in E as (q1 & q2 & E1 & E2 & E3). destruct q2 as [|p q2]; [discriminate|]. cbn in E3. injection E3 as E3 E4 _. exists q1, p, q2. auto. }
  constructor.
  - split; [assumption|]. rewrite map_map. exact K2.
  - exact K3.
  - exact K4.
  - intros l1 id c l2 v E Hc G. destruct (Spl _ _ _ _ E) as (q1 & p & q2 & -> & -> & -> & ->). destruct (K5 q1 p q2 v eq_refl) as [J1 J2]; [now apply Uns | assumption|]. split; [assumption|].
    intros id' c' J. apply in_map_iff in J as (q & Eq & J). injection Eq as <- <-. destruct (J2 q J) as [J3|J3]; [left; now apply Sat | now right].
  - intros l1 id c l2 v E Hc G. destruct (Spl _ _ _ _ E) as (q1 & p & q2 & E1 & -> & -> & ->). destruct (K6 q1 p q2 v E1) as (J1 & J2 & J3); [now apply Sat | assumption|]. split; [|split].
    + intros id' c' J. apply in_map_iff in J as (q & Eq & J). injection Eq as <- <-. apply Uns. now apply J1.
    + intros id' c' J Hc'. apply in_map_iff in J as (q & Eq & J). injection Eq as <- <-. apply J2; [assumption | now apply Uns].
    + transitivity (s - rooms rs pools); [exact J3|]. unfold rooms. f_equal. f_equal. f_equal. clear - Uns Sat. induction pools as [|p pools IH]; [reflexivity|]. cbn [map filter]. unfold f at 1. cbn [snd].
      assert (E : unsaturated rs p = Qc_leb (min_stake_unit (a := QcA)) (room (A := QcA) rs p)).
      { unfold unsaturated. destruct (saturated (A := QcA) rs p) eqn:Es; cbn [negb].
        - apply Sat in Es. destruct (Qc_leb_spec (min_stake_unit (a := QcA)) (room (A := QcA) rs p)) as [L|L]; [|reflexivity]. exfalso. exact (Qcle_not_lt _ _ L Es).
        - apply Uns in Es. destruct (Qc_leb_spec (min_stake_unit (a := QcA)) (room (A := QcA) rs p)) as [L|L]; [reflexivity | contradiction]. }
      rewrite E. destruct (Qc_leb (min_stake_unit (a := QcA)) (room (A := QcA) rs p)); cbn [map snd]; [f_equal|]; apply IH.
  - intros H id c J. apply in_map_iff in J as (q & Eq & J). injection Eq as <- <-. destruct (K7 H q J) as [J1 J2]. split; [now apply Uns | assumption].
Qed.

Section Offers.
  Lemma offers_map (f : option nat -> list (nat * Qc)) (g : option nat -> bool) (h : dict (pool QcA)) (k : pool QcA -> nat * Qc) : forall l refs pools,
    map Some refs = filter g l -> Forall2 (fun r p => get h r = Some p) refs pools ->
    (forall e, In e l -> g e = false -> f e = []) -> (forall r p, In (Some r) l -> g (Some r) = true -> get h r = Some p -> f (Some r) = [k p]) -> (forall e, In e l -> g e = true -> e <> None) ->
    flat_map f l = map k pools.
  Proof.
    induction l as [|e l IH]; intros refs pools E F H1 H2 H3; cbn [filter] in E.
    - destruct refs; [|discriminate]. inversion F; subst. reflexivity.
    - cbn [flat_map]. destruct (g e) eqn:Eg.
      + destruct refs as [|r refs]; [discriminate|]. cbn in E. injection E as <- E. inversion F as [|? p ? pools' G F']; subst. rewrite (H2 r p) by (auto; now left). cbn. f_equal.
        apply (IH refs); auto; intros; [apply H1 | apply H2 | apply H3]; auto; now right.
      + rewrite H1 by (auto; now left). cbn. apply (IH refs); auto; intros; [apply H1 | apply H2 | apply H3]; auto; now right.
  Qed.
  Variables (SINGLE NN POS : Prop).
  Lemma delegation_greedy m (w w' : world QcA) uid ag st (s : Qc) new : egood SINGLE NN POS m w -> plays w uid ag st -> min_stake_unit (a := QcA) <= s -> find_delegation_move w ag s = Ok (w', new) ->
    exists rk pools, rankings w ag = Ok rk /\ s_owned new = [] /\ NoDup (map p_id pools) /\ offers w uid (sl_elems rk) = map (fun p => (p_id p, room (A := QcA) (w_rss w) p)) pools /\
      s_alloc new = greedy_allocations (w_rss w) pools s.
  Proof.
    intros G [P1 P2] Hs H. assert (I := g_inv _ _ _ _ _ G). destruct (proj2 (g_ok _ _ _ _ _ G) uid ag P1) as [Aid Ast]; destruct (Ast st P2) as [Na No].
    assert (Eal : forall id, al_of w (a_id ag) id = get (s_alloc st) id) by (intros; unfold al_of; now rewrite Aid, P1, P2).
    unfold find_delegation_move in H. rewrite (proj2 (ltb_MIN_false s) Hs) in H. apply bind_ok in H as ([w2 d] & H1 & H). injection H as <- <-. cbn [s_alloc s_owned].
    destruct (stake_allocations_spec QcA_ord MP_Qc nonneg (pool_facts SINGLE POS) True (E_NP_upd SINGLE POS) E_TG_z m (al_of w) (ow_of w) w ag st s w2 d I P2 Eal Na H1) as (_ & _ & _ & _ & Hd).
    assert (RK : forall rk, rankings w ag = Ok rk -> forall r, In (Some r) (sl_elems rk) -> exists id p, get (w_pools w) id = Some r /\ get (w_heap w) r = Some p /\ p_id p = id).
    { intros rk Hr r J. destruct (rank_refs _ _ _ _ _ _ _ _ I Hr) as (K & R). apply in_map_iff in J as ([k e] & E & J). cbn in E. subst e. apply (rank_ok_elem _ _ _ _ _ _ _ R) in J.
      apply In_values in J as (id & J); [|apply (i_nd _ _ _ _ _ _ I)]. destruct (i_reg _ _ _ _ _ _ I _ _ J) as (p & Gp & E & _). eauto. }
    destruct d as [d|].
    - destruct Hd as (w1 & rk & pools & T1 & T2 & Hr & C & Np & Ed & _). exists rk, pools. split; [assumption|]. split; [reflexivity|]. split; [assumption|].
      assert (I1 := zeros_inv QcA_ord MP_Qc (pool_facts SINGLE POS) True (E_NP_upd SINGLE POS) m _ _ (a_id ag) _ w w1 I T1). assert (F1 := touches_frame (a_id ag) _ _ _ T1).
      assert (E1 := tframe_fields _ _ _ F1). destruct E1 as (Er1 & _ & _ & _ & _ & _ & _ & _ & Ep1 & _). destruct F1 as (_ & _ & F1).
      (* pools once the agent has withdrawn *)
      assert (Wd : forall id r p, get (w_pools w) id = Some r -> get (w_heap w) r = Some p -> exists p1, get (w_heap w1) r = Some p1 /\ same_static p p1 /\ p_stake p1 = p_stake p - delegated uid p).
      { intros id r p G1 G2. destruct (F1 r p G2) as (p1 & G2' & S). exists p1. split; [assumption|]. split; [assumption|]. assert (G1' := G1). rewrite <- Ep1 in G1'.
        destruct (i_reg _ _ _ _ _ _ I _ _ G1) as (q & Q1 & _ & _ & Q2 & _ & Q3 & _). rewrite G2 in Q1. injection Q1 as <-.
        destruct (i_reg _ _ _ _ _ _ I1 _ _ G1') as (q & Q1 & _ & _ & Q2' & _ & Q3' & _). rewrite G2' in Q1. injection Q1 as <-.
        assert (S1 := pf_stake _ _ _ _ Q3). assert (S2 := pf_stake _ _ _ _ Q3'). assert (Ep : p_pledge p1 = p_pledge p) by (now rewrite S).
        assert (D : forall a, get (p_delegators p1) a = if Nat.eqb uid a then None else get (p_delegators p) a).
        { intros a. assert (X := i_del _ _ _ _ _ _ I id r p a). assert (X' := i_del _ _ _ _ _ _ I1 id r p1 a).
          assert (Al : touched_al (a_id ag) (zeros (keys (s_alloc st))) (al_of w) a id = if Nat.eqb uid a then None else al_of w a id).
          { destruct (Nat.eqb_spec uid a) as [<-|Ne]; [|apply touched_al_other; congruence]. rewrite <- Aid. rewrite (touched_zeros MP_Qc) by assumption. destruct (inb id (keys (s_alloc st))) eqn:Ei; [reflexivity|].
            apply inb_false in Ei. rewrite Eal. now apply get_None. }
          rewrite Al in X'. clear Al. destruct (Nat.eqb_spec uid a) as [<-|Ne].
          - destruct (get (p_delegators p1) uid) as [v|] eqn:E; [|reflexivity]. assert (Y := proj1 (X' v G1' G2') eq_refl). discriminate.
          - destruct (get (p_delegators p1) a) as [v|] eqn:E'.
            + symmetry. apply (X v); [assumption..|]. now apply (X' v).
            + destruct (get (p_delegators p) a) as [v|] eqn:E; [|reflexivity]. exfalso. assert (Y : al_of w a id = Some v) by (now apply (X v)). apply (X' v) in Y; [congruence | assumption..]. }
        assert (Y : forall k v, get (p_delegators p) k = Some v -> 0 <= v).
        { intros k v J. apply (i_del _ _ _ _ _ _ I id r p k v G1 G2) in J. destruct (i_al _ _ _ _ _ _ I _ _ _ J) as [J1 _]. apply ltb_MIN_false in J1. apply Qcle_trans with MIN; [discriminate | exact J1]. }
        assert (T : total (p_delegators p1) = total (p_delegators p) - delegated uid p).
        { unfold delegated. destruct (get (p_delegators p) uid) as [v|] eqn:E.
          - rewrite (total_pop _ _ _ E). assert (total (p_delegators p1) = total (pop (p_delegators p) uid)); [|qlra]. apply total_ext; [now apply NoDup_pop | assumption | |].
            + intros k. rewrite D, get_pop by assumption. reflexivity.
            + intros k v0. rewrite get_pop by assumption. destruct (Nat.eqb uid k); [discriminate | apply Y].
          - assert (total (p_delegators p1) = total (p_delegators p)); [|qlra]. apply total_ext; try assumption. intros k. rewrite D. destruct (Nat.eqb_spec uid k) as [<-|]; [symmetry; exact E | reflexivity]. }
        qlra. }
      destruct C as (refs & Fr & Ef). rewrite Aid in Ef.
      split; [|exact Ed].
      { unfold offers. eapply offers_map; [exact Ef | exact Fr | | |].
        - intros e J Eg. destruct e as [r|]; [|reflexivity]. cbv beta iota in Eg; destruct (RK rk Hr r J) as (id & p & G1 & G2 & _). destruct (Wd id r p G1 G2) as (p1 & G3 & S & _). rewrite G3 in Eg. rewrite G2.
          rewrite S in Eg. cbn in Eg. destruct (Nat.eqb (p_owner p) uid), (p_private p); try reflexivity; discriminate.
        - intros r p1' J Eg G3'. cbv beta iota in Eg; destruct (RK rk Hr r J) as (id & p & G1 & G2 & _). destruct (Wd id r p G1 G2) as (p1 & G3 & S & St). rewrite G3 in Eg. rewrite G2. rewrite G3' in G3. injection G3 as <-.
          unfold room. rewrite St. rewrite S in Eg |- *. cbn in Eg |- *. destruct (Nat.eqb (p_owner p) uid), (p_private p); try discriminate. reflexivity.
        - intros e J Eg. destruct e; [discriminate | discriminate]. }
    - destruct Hd as (_ & rk & Hr & refs & Fr & Ef). exists rk, []. split; [assumption|]. split; [reflexivity|]. split; [constructor|]. inversion Fr; subst refs. cbn in Ef. rewrite Aid in Ef.
      split; [|reflexivity].
      { unfold offers. eapply (offers_map _ _ (w_heap w) (fun p => (p_id p, 0)) _ [] []); [exact Ef | constructor | | |].
        - intros e J Eg. destruct e as [r|]; [|reflexivity]. cbv beta iota in Eg; destruct (RK rk Hr r J) as (id & p & G1 & G2 & _). rewrite G2 in Eg |- *. destruct (Nat.eqb (p_owner p) uid), (p_private p); try reflexivity; discriminate.
        - intros r p J Eg. exfalso. cbn in Eg. assert (Z : In (Some r) (filter (fun e => match e with Some r => match get (w_heap w) r with Some p => negb (Nat.eqb (p_owner p) uid) && negb (p_private p) | None => false end | None => false end) (sl_elems rk))) by (apply filter_In; now split). rewrite <- Ef in Z. destruct Z.
        - intros e J Eg. destruct e; [discriminate | discriminate]. }
  Qed.
  Lemma delegation_distributes m (w w' : world QcA) uid ag st (s : Qc) new : egood SINGLE NN POS m w -> plays w uid ag st -> min_stake_unit (a := QcA) <= s -> find_delegation_move w ag s = Ok (w', new) ->
    exists rk, rankings w ag = Ok rk /\ s_owned new = [] /\ distributes (offers w uid (sl_elems rk)) s (s_alloc new).
  Proof.
    intros G P Hs H. destruct (delegation_greedy m w w' uid ag st s new G P Hs H) as (rk & pools & E1 & E2 & N & E3 & E4). exists rk. split; [assumption|]. split; [assumption|]. rewrite E3, E4. now apply greedy_distributes.
  Qed.
End Offers.

Theorem C18_delegation_is_greedy : forall so (g : args QcA) profiles (stakes costs : list Qc) (s0 : sim QcA) w, set_order so -> init g profiles stakes costs = Ok s0 -> one_at_a_time g -> visible so s0 w ->
  forall uid ag st s w' new, plays w uid ag st -> min_stake_unit (a := QcA) <= s -> find_delegation_move w ag s = Ok (w', new) ->
  exists rk, rankings w ag = Ok rk /\ s_owned new = [] /\ distributes (offers w uid (sl_elems rk)) s (s_alloc new).
Proof.
  intros so g profiles stakes costs s0 w SO H1 H2 V uid ag st s w' new P Hs H. destruct (exact_all False False False so SO _ _ _ _ _ _ H1 H2 (inputs_none _ _) V) as [G _].
  eapply delegation_distributes; eassumption.
Qed.
Theorem C18_nothing_to_delegate : forall (A : Arith) (w : world A) ag (s : T A), ltb s min_stake_unit = true -> find_delegation_move w ag s = Ok (w, empty_strategy).
Proof. intros A w ag s H. unfold find_delegation_move. now rewrite H. Qed.

(** * The hypotheses are met *)
(** the first activation of agent 1 of the example run makes it open two pools; after three rounds agent 0 would fill two pools if it delegated all its stake, and
    keeps its strategy, though it considers its options *)
Example moves_instance : exists s0 s,
  demo_init = Ok s0 /\ one_at_a_time demo_seq /\ visible so_id s0 (s_w s0) /\ visible so_id s0 (s_w s) /\
  (exists w' ag' st', agent_step so_id (s_w s0) 1 = Ok w' /\ plays w' 1 ag' st' /\ length (s_owned st') = 2%nat) /\
  (exists ag st w' new, plays (s_w s) 0 ag st /\ find_delegation_move (s_w s) ag (a_stake ag) = Ok (w', new) /\ s_alloc new = [(3%nat, Q2Qc (1#4)); (2%nat, Q2Qc (9#20))]) /\
  (exists w' ag', update_strategy so_id (s_w s) 0 = Ok w' /\ get (w_agents w') 0 = Some ag' /\ a_new ag' = None /\ length (w_pools w') = 3%nat).
Proof.
  destruct (steps_check demo_init 3 (fun s =>
    agent_is (s_w s) 0 (fun ag st => match find_delegation_move (s_w s) ag (a_stake ag) with Ok (_, new) => dict_eqb (s_alloc new) [(3%nat, Q2Qc (1#4)); (2%nat, Q2Qc (9#20))] | Err _ => false end) &&
    match update_strategy so_id (s_w s) 0 with Ok w' => match get (w_agents w') 0 with Some ag' => match a_new ag' with None => Nat.eqb (length (w_pools w')) 3 | _ => false end | None => false end | Err _ => false end))
    as (s0 & s & H1 & H2 & H3); [vm_compute; reflexivity|].
  assert (X : match demo_init with Ok s0 => match agent_step so_id (s_w s0) 1 with Ok w' => agent_is w' 1 (fun _ st => Nat.eqb (length (s_owned st)) 2) | Err _ => false end | Err _ => false end = true) by (vm_compute; reflexivity).
  rewrite H1 in X. exists s0, s. split; [exact H1|]. split; [exact demo_one|]. split; [apply vis_between; constructor|]. split; [apply vis_between; exact (steps_reach 3 s0 s H2)|].
  cbv beta in H3. apply andb_true_iff in H3 as [H3 H4]. split; [|split].
  - destruct (agent_step so_id (s_w s0) 1) as [w'|]; [|discriminate]. apply agent_is_plays in X as (ag' & st' & P & L). exists w', ag', st'. apply Nat.eqb_eq in L. auto.
  - apply agent_is_plays in H3 as (ag & st & P & L). exists ag, st. destruct (find_delegation_move (s_w s) ag (a_stake ag)) as [[w' new]|]; [|discriminate]. exists w', new. apply dict_eqb_eq in L. auto.
  - destruct (update_strategy so_id (s_w s) 0) as [w'|]; [|discriminate]. destruct (get (w_agents w') 0) as [ag'|] eqn:E; [|discriminate]. destruct (a_new ag') eqn:E'; [discriminate|]. exists w', ag'. apply Nat.eqb_eq in H4. auto.
Qed.
