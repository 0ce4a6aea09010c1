(** C24: with positive stakes and at least one desired pool, no step of a single phase run with agents acting one at a time raises an exception. *)
From Coq Require Import ZArith QArith Qcanon List Bool Arith Lia Permutation.
From Verif Require Import Num Py QcTac Rewards SortedKeyList World Stakeholder Sched Sim Init Reach RewardFacts ListFacts SLFacts Greedy PropHelper Inv Static Exec TotalExec Eval Step SimInv Spec PropInit PropState ExactInv Demo PropExact PropSched PropMove PropReporters PropRun Frame TotalEval Profit PropPhase.
Import ListNotations.
Open Scope nat_scope.
Local Open Scope Qc_scope.

Section Total.
  Variable so : list nat -> list nat -> list nat.
  Hypothesis SO : set_order so.
  (** the number of empty places in the rankings *)
  Variable m0 : nat.
  Notation egood := (egood False True True).
  Implicit Types w : world QcA.

  Lemma profile_dec (ag : agent QcA) : a_profile ag = Abstainer \/ a_profile ag <> Abstainer.
  Proof. destruct (a_profile ag); [right | right | left]; congruence. Qed.
  (** every pool is worth having, everyone but the abstainers has a strategy *)
  Definition sound_rss (rs : rss QcA) : Prop := rss_ok rs /\ (r_scheme rs = CIP50 -> 0 < r_a0 rs) /\ (1 <= r_k rs)%Z /\ (Z.to_nat (r_k rs + 1) <= m0)%nat.
  Definition healthy w : Prop := sound_rss (w_rss w) /\ (forall id p, active w id p -> 0 < p_pp p) /\
    (forall a ag, get (w_agents w) a = Some ag -> a_profile ag <> Abstainer -> a_strategy ag <> None).

  Lemma healthy_safe w : egood m0 w -> healthy w -> safe m0 w.
  Proof.
    intros G ((R0 & C0 & K0 & E) & P & _). constructor; [assumption|]. constructor; auto.
    - exact (g_inv _ _ _ _ _ G).
    - intros id r p A1 A2. apply (P id). now exists r.
  Qed.

  Lemma healthy_step uid w w' : egood m0 w -> healthy w -> agent_step so w uid = Ok w' -> egood m0 w' ->
    step_idle so uid w w' \/ step_move (A := QcA) so NPF True nonneg m0 uid w w' -> healthy w'.
  Proof.
    intros G HX Hs G' D. assert (SF := healthy_safe w G HX). destruct HX as (E & P & N). destruct D as [(w2 & E2 & Ea & _ & Ew)|(ag & st & w2 & new & w3 & Ga & Gst & I2 & E2 & M & X & HS & HU & ->)].
    - assert (Eh : w_heap w' = w_heap w2) by (now rewrite Ew). assert (Ep : w_pools w' = w_pools w) by (rewrite Ew; apply E2). split; [replace (w_rss w') with (w_rss w) by (rewrite Ew; cbn; symmetry; apply E2); exact E|]. split; [|now rewrite Ea].
      intros id p (r & A1 & A2). rewrite Ep in A1. rewrite Eh in A2. destruct (i_reg _ _ _ _ _ _ (g_inv _ _ _ _ _ G) _ _ A1) as (q & Q1 & _). destruct (proj1 (proj2 (proj2 (proj2 E2))) _ _ Q1) as (q' & Q2 & S). rewrite A2 in Q2. injection Q2 as <-. rewrite S. cbn. apply (P id). now exists r.
    - assert (Aid : a_id ag = uid) by (now apply (g_ok _ _ _ _ _ G)). assert (Ea2 : w_agents w2 = w_agents w) by apply E2.
      assert (S2 : forall r p, get (w_heap w) r = Some p -> exists p', get (w_heap w2) r = Some p' /\ same_static p p') by apply E2.
      split; [|split].
      + cbn. destruct (x_par _ _ _ _ _ X) as (Y & _). rewrite Y. replace (w_rss w2) with (w_rss w) by (symmetry; apply E2). exact E.
      + intros id p (r & A1 & A2). cbn in A1, A2. destruct (i_reg _ _ _ _ _ _ (g_inv _ _ _ _ _ G') _ _ A1) as (q & Q1 & _ & _ & _ & O1 & _). cbn in Q1. rewrite A2 in Q1. injection Q1 as <-.
        destruct (Nat.eq_dec (p_owner p) uid) as [Eu|Ne].
        * rewrite Eu in O1. unfold ow_of in O1. cbn in O1. rewrite (x_self _ _ _ _ _ X) in O1. cbn in O1.
          assert (Pr : a_profile ag <> Abstainer).
          { intros Z. unfold update_strategy, the_agent in HU. rewrite Ga in HU. cbn [of_option bind] in HU. rewrite Z in HU. apply Ok_inj in HU.
            assert (Z' : get (w_agents w) uid = Some (agent_set_new (Some new) ag)) by (rewrite HU; cbn; apply get_set_eq). rewrite Ga in Z'. injection Z' as Z'. destruct (g_new _ _ _ _ _ G uid ag Ga) as [Hn _]. rewrite Z' in Hn. discriminate. }
          unfold update_strategy, the_agent in HU. rewrite Ga in HU. cbn [of_option bind] in HU.
          assert (HU' : exists cu eu w1 del du w2' ou op, find_delegation_move w ag (a_stake ag) = Ok (w1, del) /\ expected_utility w1 ag del = Ok du /\ choose_pool_strategy so w1 ag = Ok (w2', ou, op) /\
                     put_agent w2' uid (agent_set_new (pick_move (augmented_utility w cu eu) (du, del) (ou, op)) ag) = put_agent w2 uid (agent_set_new (Some new) ag)).
          { destruct (a_profile ag); [| |contradiction]; unfold the_strategy in HU; rewrite Gst in HU; cbn [of_option bind] in HU;
              apply bind_ok in HU as (cu & Hc & HU); apply bind_ok in HU as (eu & He & HU); apply bind_ok in HU as ([w1 del] & Hd & HU); apply bind_ok in HU as (du & Hdu & HU);
              apply bind_ok in HU as ([[w2' ou] op] & Ho & HU); apply Ok_inj in HU; exists cu, eu, w1, del, du, w2', ou, op; auto. }
          clear HU. destruct HU' as (cu & eu & w1 & del & du & w2' & ou & op & Hd & Hdu & Ho & HU).
          assert (Eh : w_heap w2' = w_heap w2) by exact (f_equal w_heap HU).
          assert (Em : pick_move (augmented_utility w cu eu) (du, del) (ou, op) = Some new).
          { assert (Z := f_equal (fun v => get (w_agents v) uid) HU). cbn in Z. rewrite !get_set_eq in Z. now injection Z. }
          assert (Dc := pick_decision QcA_ord w cu eu du del ou op). rewrite Em in Dc. cbn in Dc. destruct Dc as [(-> & _)|(-> & _ & Lt)].
          -- exfalso. assert (SP : 0 < a_stake ag) by (apply (g_new _ _ _ _ _ G uid ag Ga); exact I). destruct (proj2 (g_ok _ _ _ _ _ G) uid ag Ga) as [_ Ast]. destruct (Ast st Gst) as [Na No].
             unfold find_delegation_move in Hd. destruct (ltb _ _); [injection Hd as <- <-; discriminate|]. apply bind_ok in Hd as ([w1' al] & _ & Hd). injection Hd as <- <-. discriminate.
          -- destruct (chosen_pools_profit so SO m0 w uid ag st w1 del du w2' ou new SF (conj Ga Gst) Pr Hd Hdu Ho) with (id := id) (r := r) as (q & Q1 & Q2); [|assumption|].
             { cbn [ltb QcA] in Lt. destruct (Qc_ltb_spec du ou); [assumption | discriminate]. }
             rewrite Eh in Q1. destruct (HS r q Q1) as (q3 & Q3 & T3). rewrite A2 in Q3. injection Q3 as <-. rewrite T3. exact Q2.
        * unfold ow_of in O1. cbn in O1. destruct (get (w_agents w3) (p_owner p)) as [ag'|] eqn:Ga'; [|discriminate]. destruct (a_strategy ag') as [st'|] eqn:Gs'; [|discriminate].
          assert (O2 := x_others _ _ _ _ _ X _ Ne). rewrite Ea2 in O2. destruct (get (w_agents w) (p_owner p)) as [ag0|] eqn:G0; [|congruence].
          destruct O2 as (ag1 & G1 & (_ & _ & _ & _ & _ & Q6)). rewrite Ga' in G1. injection G1 as <-.
          assert (exists st0, a_strategy ag0 = Some st0 /\ s_owned st' = s_owned st0) as (st0 & Gs0 & Ew). { destruct Q6 as [Q6|(st0 & al' & Q6 & Q7)]; [exists st'; split; congruence|]. exists st0. split; [assumption|]. rewrite Gs' in Q7. injection Q7 as ->. reflexivity. }
          rewrite Ew in O1. destruct (owned_heap False True True m0 w _ ag0 st0 id r G (conj G0 Gs0) O1) as (J1 & q & J2 & _). destruct (S2 r q J2) as (q2 & J3 & T2). destruct (HS r q2 J3) as (q3 & J4 & T3). rewrite A2 in J4. injection J4 as <-.
          rewrite T3, T2. cbn. apply (P id). now exists r.
      + intros a ag' Ga' Pr. cbn in Ga'. destruct (Nat.eq_dec a uid) as [->|Ne].
        * rewrite (x_self _ _ _ _ _ X) in Ga'. injection Ga' as <-. discriminate.
        * assert (O2 := x_others _ _ _ _ _ X a Ne). rewrite Ea2 in O2. destruct (get (w_agents w) a) as [ag0|] eqn:G0; [|congruence].
          destruct O2 as (ag1 & G1 & (Q1 & Q2 & Q3 & Q4 & Q5 & Q6)). rewrite Ga' in G1. injection G1 as <-. destruct Q6 as [Q6|(st0 & al' & Q6 & Q7)]; [|congruence]. rewrite Q6. apply (N a ag0 G0). congruence.
  Qed.

  (** one activation *)
  Lemma agent_step_total uid w : egood m0 w -> healthy w -> In uid (keys (w_agents w)) -> exists w', agent_step so w uid = Ok w'.
  Proof.
    intros G HX J. assert (SF := healthy_safe w G HX). destruct HX as (E & P & N). apply get_Some_key in J as (ag & Ga).
    assert (Hs : w_simul w = false) by exact (g_sim _ _ _ _ _ G). destruct (g_new _ _ _ _ _ G uid ag Ga) as [Hnew HA].
    destruct (profile_dec ag) as [Pa|Pr].
    - unfold agent_step, update_strategy, the_agent. rewrite Ga. cbn [of_option bind]. rewrite Pa. cbn [bind]. rewrite Hs. unfold advance, the_agent. rewrite Ga. cbn [of_option bind]. rewrite Hnew. eauto.
    - destruct (a_strategy ag) as [st|] eqn:Gst; [|exfalso; now apply (N uid ag)].
      assert (I1 := g_inv _ _ _ _ _ G). assert (AO := g_ok _ _ _ _ _ G). destruct (proj2 AO uid ag Ga) as [Aid Ast]. destruct (Ast st Gst) as [Na No].
      assert (Eal : forall id, al_of w (a_id ag) id = get (s_alloc st) id) by (intros; unfold al_of; now rewrite Aid, Ga, Gst).
      assert (Eow : forall id, ow_of w (a_id ag) id = get (s_owned st) id) by (intros; unfold ow_of; now rewrite Aid, Ga, Gst).
      assert (SP : 0 < a_stake ag) by (apply HA; exact I).
      assert (exists w1, update_strategy so w uid = Ok w1) as (w1 & H1).
      { rewrite <- Aid. eapply update_total; try eassumption; [exact (sf_sane _ _ SF)|]. now rewrite Aid. }
      destruct (update_cases QcA_ord MP_Qc so SO NPF True nonneg E_TG_d E_TG_z (E_TG_np False True) (E_NP_upd False True) m0 w uid ag w1 I1 AO Ga H1) as [[Epr _]|(_ & st' & w2 & mv & Hst & -> & I2 & E2 & M)]; [contradiction|].
      rewrite Gst in Hst. injection Hst as <-. assert (Ea2 : w_agents w2 = w_agents w) by apply E2. assert (Es2 : w_simul w2 = false) by (rewrite <- Hs; apply E2).
      unfold agent_step. rewrite H1. cbn [bind w_simul put_agent with_agents]. rewrite Es2.
      set (w3 := put_agent w2 uid (agent_set_new mv ag)). unfold advance, the_agent. unfold w3 at 1. cbn [w_agents put_agent with_agents]. rewrite get_set_eq. cbn [of_option bind a_new agent_set_new].
      destruct mv as [new|]; [|eauto].
      assert (exists w4, execute_strategy so w3 uid = Ok w4) as (w4 & ->); [|cbn [bind]; eauto].
      rewrite <- Aid in Ga, E2. destruct (move_staged NPF True (agent_facts True True) nonneg E_TG_z (E_NP_made False True True) m0 w ag st w2 new I1 Ga Gst HA I2 E2 M) as (Nal & Now' & Sg). rewrite Aid in Ga, E2, Sg.
      assert (GA : forall a, get (w_agents w3) a = if Nat.eqb a uid then Some (agent_set_new (Some new) ag) else get (w_agents w) a).
      { intros a. unfold w3. cbn [w_agents put_agent with_agents]. rewrite get_set, Ea2, (Nat.eqb_sym uid a). reflexivity. }
      assert (Eal3 : forall a id, al_of w a id = al_of w3 a id) by (intros a id; unfold al_of; rewrite GA; destruct (Nat.eqb_spec a uid); [subst a; now rewrite Ga | reflexivity]).
      assert (Eow3 : forall a id, ow_of w a id = ow_of w3 a id) by (intros a id; unfold ow_of; rewrite GA; destruct (Nat.eqb_spec a uid); [subst a; now rewrite Ga | reflexivity]).
      assert (I3 : Inv NPF True m0 (al_of w3) (ow_of w3) w3).
      { eapply Inv_ext; [exact Eal3 | exact Eow3|]. eapply Inv_frame; [exact I2 | reflexivity.. | cbn; lia | exact (i_fresh _ _ _ _ _ _ I2) | reflexivity]. }
      assert (AO3 : agents_ok w3).
      { split; [unfold w3; cbn; apply NoDup_set; rewrite Ea2; apply AO|]. intros a g Gg. rewrite GA in Gg. destruct (Nat.eqb_spec a uid); [|now apply AO]. subst a. injection Gg as <-. cbn.
        split; [assumption|]. intros s0 Hs0. now apply (proj2 AO uid ag Ga). }
      assert (Sg3 : staged NPF True w3 uid st new) by (destruct Sg as [S1 S2 S3 S4]; constructor; assumption).
      apply (execute_total QcA_ord MP_Qc NPF True (E_NP_upd False True) (E_NP_private False True) so SO m0 uid w3 (agent_set_new (Some new) ag) st new I3); auto.
      + apply kt_ok. unfold w3. cbn. assert (Er : w_rss w2 = w_rss w) by apply E2. rewrite Er. exact (proj1 E).
      + rewrite GA. now rewrite Nat.eqb_refl.
  Qed.

  Lemma agent_step_keys uid w w' : egood m0 w -> agent_step so w uid = Ok w' -> keys (w_agents w') = keys (w_agents w).
  Proof.
    intros G H. destruct (exact_step False True True so SO m0 w uid w' G H) as [_ [(w2 & _ & -> & _)|(ag & st & w2 & new & w3 & _ & _ & _ & E & _ & X & _ & _ & ->)]]; [reflexivity|].
    transitivity (keys (w_agents w2)); [exact (x_keys _ _ _ _ _ X)|]. f_equal. apply E.
  Qed.
  Lemma round_total l : forall w, egood m0 w -> healthy w -> incl l (keys (w_agents w)) -> exists w', foldM (do_event so) (map EStep l) w = Ok w'.
  Proof.
    induction l as [|a l IH]; intros w G H J; [cbn; eauto|]. cbn [map foldM do_event]. destruct (agent_step_total a w G H) as (w1 & H1); [apply J; now left|]. rewrite H1. cbn [bind].
    destruct (exact_step False True True so SO m0 w a w1 G H1) as [G1 D]. apply IH; [assumption | exact (healthy_step a w w1 G H H1 G1 D)|]. rewrite (agent_step_keys a w w1 G H1). intros x Jx. apply J. now right.
  Qed.
  Lemma round_keeps l : forall w w', egood m0 w -> healthy w -> foldM (do_event so) (map EStep l) w = Ok w' -> egood m0 w' /\ healthy w'.
  Proof.
    induction l as [|a l IH]; intros w w' G H E; [injection E as <-; auto|]. cbn [map foldM do_event] in E. apply bind_ok in E as (w1 & H1 & E).
    destruct (exact_step False True True so SO m0 w a w1 G H1) as [G1 D]. exact (IH w1 w' G1 (healthy_step a w w1 G H H1 G1 D) E).
  Qed.
  Lemma one_by_one_events o ch l evs : one_by_one o -> round_events o ch l = Ok evs -> exists l', evs = map EStep l'.
  Proof. intros [-> | ->] E; cbn in E; injection E as <-; eauto. Qed.

  (** ** a change of phase *)
  (** the pools can be taken out of the rankings *)
  Lemma unrank_total w : egood m0 w -> kt (A := QcA) (w_rss w) -> exists w1, foldM unrank_pool (values (w_pools w)) w = Ok w1.
  Proof.
    intros G K. assert (I0 := g_inv _ _ _ _ _ G). assert (Nr := Inv_refs_nodup _ _ _ _ _ _ I0).
    enough (Q : forall refs v, NoDup refs -> w_heap v = w_heap w -> w_rss v = w_rss w ->
      rank_ok (fun p => Ok (pool_key p)) (w_heap w) m0 refs (w_rank v) -> rank_ok (pool_key_myopic (w_rss w)) (w_heap w) m0 refs (w_rankm v) -> exists w1, foldM unrank_pool refs v = Ok w1)
      by (apply Q; auto; apply I0).
    induction refs as [|r refs IH]; intros v N Eh Er R1 R2; [cbn; eauto|]. cbn [foldM].
    assert (J : In r (r :: refs)) by now left. destruct (rank_ok_refs _ _ _ _ _ _ R1 J) as (k & p & _ & Hp & _).
    destruct (rank_ok_remove_total QcA_ord _ _ _ _ _ r p _ R1 J Hp eq_refl) as (l1 & Hl1). destruct (K p) as (k2 & Hk2). destruct (rank_ok_remove_total QcA_ord _ _ _ _ _ r p _ R2 J Hp Hk2) as (l2 & Hl2).
    unfold unrank_pool at 1. unfold rank_remove, deref. rewrite Eh, Hp. cbn [of_option bind]. rewrite Hl1. cbn [bind]. unfold rankm_remove, deref. cbn [w_heap with_rank w_rss w_rankm]. rewrite Eh, Hp. cbn [of_option bind]. rewrite Er, Hk2. cbn [bind]. rewrite Hl2. cbn [bind].
    destruct (rank_ok_remove _ _ _ _ _ _ _ _ R1 Hl1) as (refs1 & P1 & R1'). destruct (rank_ok_remove _ _ _ _ _ _ _ _ R2 Hl2) as (refs2 & P2 & R2'). apply Permutation_cons_inv in P1, P2.
    apply NoDup_cons_iff in N as [_ N]. apply IH; auto; cbn; [eapply rank_ok_perm; [symmetry; exact P1 | exact R1'] | eapply rank_ok_perm; [symmetry; exact P2 | exact R2']].
  Qed.
  (** and put back *)
  Lemma rerank_total (rs : rss QcA) refs : rss_ok rs -> forall w, w_rss w = rs -> (forall r, In r refs -> exists p, get (w_heap w) r = Some p) -> exists w1, foldM rerank_pool refs w = Ok w1.
  Proof.
    intros R. induction refs as [|r refs IH]; intros w E H; [cbn; eauto|]. cbn [foldM]. destruct (H r) as (p & Hp); [now left|]. unfold rerank_pool at 1. unfold deref at 1. rewrite Hp. cbn [of_option bind].
    unfold pool_set_profit. rewrite E, potential_profit_ok by assumption. cbn [bind]. match goal with |- context [store w r ?q] => set (p2 := q) end.
    destruct (rank_add_total (store w r p2) r p2) as (l1 & ->); [apply get_set_eq|]. cbn [bind].
    destruct (rankm_add_total (with_rank l1 (store w r p2)) r p2) as (l2 & ->); [cbn; rewrite E; now apply kt_ok | apply get_set_eq|]. cbn [bind]. apply IH; [exact E|].
    intros r' J. cbn. rewrite get_set. destruct (Nat.eqb r r'); [eauto|]. apply H. now right.
  Qed.
  Lemma settings_total vs : (forall x : Qc, In (SetK (A := QcA) x) vs -> x <> 0) -> forall s : sim QcA, exists s', foldM (fun s v => apply_setting v s) vs s = Ok s'.
  Proof.
    induction vs as [|v vs IH]; intros H s; [cbn; eauto|]. cbn [foldM].
    assert (exists s1, apply_setting v s = Ok s1) as (s1 & ->).
    { destruct v; cbn [apply_setting]; eauto. unfold set_k. change (@eqb QcA) with Qc_eqb. change (@zero QcA) with 0. assert (v <> 0) by (apply H; now left). destruct (Qc_eqb_spec v 0) as [|Nv]; [contradiction|]. rewrite pdiv_ok by assumption. cbn [bind]. eauto. }
    cbn [bind]. apply IH. intros x J. apply H. now right.
  Qed.
  Lemma change_total (s : sim QcA) : egood m0 (s_w s) -> healthy (s_w s) -> (forall x : Qc, In (SetK (A := QcA) x) (phase_settings (S (s_phase s)) (c_multi (s_c s))) -> x <> 0) ->
    (forall s1 s2 : sim QcA, settings s1 = settings s -> foldM (fun s v => apply_setting v s) (phase_settings (S (s_phase s)) (c_multi (s_c s))) s1 = Ok s2 -> rss_ok (w_rss (s_w s2))) ->
    exists s', change_phase s = Ok s'.
  Proof.
    intros G ((R & _) & _) Hk Hr. unfold change_phase. cbn [s_w set_phase s_phase s_c]. destruct (unrank_total (s_w s) G (kt_ok _ R)) as (w1 & H1). rewrite H1. cbn [bind].
    destruct (settings_total _ Hk (set_w w1 (set_phase (S (s_phase s)) s))) as (s2 & H2). rewrite H2. cbn [bind].
    assert (F1 := H1). apply (rel_foldM calm calm_refl calm_trans (fun w => w)) in F1; [|intros; eapply unrank_frame; eassumption]. assert (I0 := g_inv _ _ _ _ _ G).
    destruct (unrank_all m0 (s_w s) (values (w_pools (s_w s))) (s_w s) w1) as (E1 & _); [now destruct (s_w s) | apply I0 | apply I0 | exact (Inv_refs_nodup _ _ _ _ _ _ I0) | assumption|].
    assert (F2 := foldM_settings_shape _ _ _ H2). cbn [s_w set_w] in F2. destruct F2 as (_ & _ & _ & _ & _ & _ & _ & _ & _ & _ & Fh & Fp & _).
    destruct (rerank_total (w_rss (s_w s2)) (values (w_pools (s_w s2)))) with (w := s_w s2) as (w3 & ->); [|reflexivity| |cbn [bind]; eauto].
    - apply (Hr (set_w w1 (set_phase (S (s_phase s)) s))); [|assumption]. apply (settings_calm (set_phase (S (s_phase s)) s)), F1.
    - intros r J. assert (Ep : w_pools (s_w s2) = w_pools (s_w s)) by (rewrite Fp, E1; reflexivity). assert (Eh : w_heap (s_w s2) = w_heap (s_w s)) by (rewrite Fh, E1; reflexivity). rewrite Eh. rewrite Ep in J.
      apply In_values in J as (id & J); [|exact (i_nd _ _ _ _ _ _ I0)]. destruct (i_reg _ _ _ _ _ _ I0 _ _ J) as (p & Hp & _). eauto.
  Qed.
End Total.

(** * C24 *)
(** one value for every parameter *)
Definition single_phase {A : Arith} (g : args A) : Prop := forall f, In f (fields g) -> exists v, f = Single v.

Lemma Qc_trunc_ge1 (x : Qc) : 1 <= x -> (1 <= Qc_trunc x)%Z.
Proof. unfold Qc_trunc, Qcle, Qle. cbn. intros H. apply Z.quot_le_lower_bound; lia. Qed.

Lemma set_k_inv (r r' : rss QcA) (x : Qc) : set_k r x = Ok r' -> x <> 0 /\ r_scheme r' = r_scheme r /\ r_k r' = Qc_trunc x /\ r_a0 r' = r_a0 r.
Proof.
  unfold set_k. change (@eqb QcA) with Qc_eqb. change (@zero QcA) with 0. destruct (Qc_eqb_spec x 0) as [|N]; [discriminate|]. intros H. apply bind_ok in H as (t & _ & H). injection H as <-. auto.
Qed.
Lemma make_rss_scheme i (r : rss QcA) : make_rss i = Ok r -> r_scheme r = CIP50 <-> i = 4%Z.
Proof.
  unfold make_rss. destruct i as [|i|]; [| |discriminate]; [|do 3 (try destruct i as [i|i|])]; try discriminate;
  intros H; apply bind_ok in H as (r' & H & H'); injection H' as <-; apply set_k_inv in H as (_ & E & _); cbn; rewrite E; split; (discriminate || reflexivity).
Qed.
(** what the constructor makes of the reward scheme's parameters *)
Lemma init_rss (g : args QcA) profiles (stakes costs : list Qc) s0 : init g profiles stakes costs = Ok s0 -> 0 <= g_inactive g -> g_inactive g < 1 -> (forall x : Qc, In x (phase_values (g_k g)) -> 1 <= x) ->
  (1 <= r_k (w_rss (s_w s0)))%Z /\ first_value (g_a0 g) = Some (r_a0 (w_rss (s_w s0))) /\ (r_scheme (w_rss (s_w s0)) = CIP50 <-> g_scheme g = 4%Z).
Proof.
  intros H F0 F Hk. apply init_inv in H as (r0 & s1 & ags & tot & ags' & tot' & Hm & Hf & Hr & _).
  apply fields_values in Hf as (n & k0 & a0 & rel & abs & mi & phi & o & gr & rk & _ & Jk & Ja & _ & _ & _ & _ & _ & _ & Ek & P).
  assert (K0 : 1 <= k0). { apply Hk. unfold first_value in Jk. destruct (phase_values (g_k g)); [discriminate|]. injection Jk as ->. now left. }
  unfold PropInit.params in P. injection P as P1 _ _ _ _ _ _ _. apply set_k_inv in Ek as (_ & Es & Ek & _). assert (T1 := Qc_trunc_ge1 k0 K0). assert (Sc := make_rss_scheme _ _ Hm). destruct (g_known g).
  - destruct Hr as (k' & H1 & H2). apply set_k_inv in H2 as (_ & E1 & E2 & E3). rewrite P1 in H1, E1, E3. cbn [set_a0 r_scheme r_k r_a0] in H1, E1, E3.
    change (sub (a := QcA) one (g_inactive g)) with (1 - g_inactive g) in H1. rewrite pdiv_ok in H1 by qlra. apply Ok_inj in H1.
    split; [|split; [rewrite E3; exact Ja | rewrite E1, Es; exact Sc]]. rewrite E2. apply Qc_trunc_ge1. rewrite <- H1, Ek. change (ofZ (a := QcA) (Qc_trunc k0)) with (Qc_ofZ (Qc_trunc k0)).
    assert (Z1 : 1 <= Qc_ofZ (Qc_trunc k0)) by (change 1 with (Qc_ofZ 1); now apply Qc_ofZ_le). set (z := Qc_ofZ (Qc_trunc k0)) in *. clearbody z. assert (D : 0 < 1 - g_inactive g) by qlra.
    apply Qcmult_lt_0_le_reg_r with (1 - g_inactive g); [assumption|]. change (div (a := QcA) z (1 - g_inactive g)) with (z / (1 - g_inactive g)). rewrite Qcdiv_mul by (now apply Qc_pos_neq). qlra.
  - rewrite Hr, P1. cbn [set_a0 r_scheme r_k r_a0]. rewrite Ek. split; [assumption|]. split; [assumption | rewrite Es; exact Sc].
Qed.

(** what C24 asks of the inputs *)
Definition sound_inputs (g : args QcA) (stakes : list Qc) : Prop :=
  0 <= g_inactive g /\ g_inactive g < 1 /\ (forall x, In x stakes -> 0 < x) /\ (forall x : Qc, In x (phase_values (g_k g)) -> 1 <= x) /\ (forall x : Qc, In x (phase_values (g_a0 g)) -> 0 <= x).
(** the one case in which the code does raise: the CIP-50 scheme with a0 = 0, see the refutation below *)
Definition degenerate_cip50 (g : args QcA) : Prop := g_scheme g = 4%Z /\ In 0 (phase_values (g_a0 g) : list Qc).

(** * C63 *)
(** the values listed for consecutive phases *)
Definition consecutive {X} (p : pv X) (x y : X) : Prop := exists l i, p = Multi l /\ nth_error l i = Some x /\ nth_error l (S i) = Some y.
(** From one phase to the next the desired number of pools, a whole number, does not grow, and the influence of the pledge does not grow either (under CIP-50 it does not shrink).  The other parameters may change in any way. *)
Definition relaxing (g : args QcA) : Prop :=
  (forall x y : Qc, consecutive (g_k g) x y -> y <= x /\ (exists z, x = Qc_ofZ z) /\ (exists z, y = Qc_ofZ z)) /\
  (forall x y : Qc, consecutive (g_a0 g) x y -> if (g_scheme g =? 4)%Z then x <= y else y <= x).
Lemma single_relaxing g : single_phase g -> relaxing g.
Proof.
  intros S. assert (Q : forall X (h : X -> setting QcA) p, In (pv_map h p) (fields g) -> forall x y, ~ consecutive p x y).
  { intros X h p J x y (l & i & -> & _). destruct (S _ J) as (v & E). discriminate. }
  split; intros x y C; exfalso; [apply (Q Qc (SetK (A := QcA)) (g_k g)) with x y | apply (Q Qc (SetA0 (A := QcA)) (g_a0 g)) with x y]; auto; unfold fields; cbn; auto.
Qed.
(** a relation between consecutive values that is reflexive and transitive holds between a value and all later ones *)
Lemma chain {X} (R : X -> X -> Prop) (p : pv X) : (forall x, R x x) -> (forall x y z, R x y -> R y z -> R x z) -> (forall x y, consecutive p x y -> R x y) ->
  forall i j x y, (i <= j)%nat -> listed p i = Some x -> listed p j = Some y -> R x y.
Proof.
  intros R1 R2 H i j x y L. revert y. induction L as [|j L IH]; intros y E1 E2; [rewrite E1 in E2; injection E2 as ->; apply R1|].
  destruct p as [v|l]; [discriminate|]. cbn [listed] in E1, E2. assert (exists z, nth_error l j = Some z) as (z & Ez).
  { destruct (nth_error l j) eqn:E; [eauto|]. apply nth_error_None in E. assert (Z : nth_error l (S j) <> None) by (rewrite E2; discriminate). apply nth_error_Some in Z. lia. }
  apply (R2 _ z); [now apply IH | apply H; exists l, j; auto].
Qed.
Lemma first_In {X} (p : pv X) x : first_value p = Some x -> In x (phase_values p).
Proof. unfold first_value. destruct (phase_values p); [discriminate|]. intros [= ->]. now left. Qed.
Lemma listed_first {X} (p : pv X) j x : listed p j = Some x -> exists y, first_value p = Some y /\ listed p 0 = Some y.
Proof. destruct p as [|[|y l]]; cbn; [discriminate | destruct j; discriminate | eauto]. Qed.
Lemma Qc_trunc_ge (z : Z) (y : Qc) : (0 <= z)%Z -> Qc_ofZ z <= y -> (z <= Qc_trunc y)%Z.
Proof.
  intros Hz L. unfold Qcle in L. rewrite this_ofZ in L. unfold Qc_trunc. unfold Qle, inject_Z in L. cbn in L. apply Z.quot_le_lower_bound; lia.
Qed.
Lemma listed_value {X} (p : pv X) i x : listed p i = Some x -> In x (phase_values p).
Proof. destruct p; cbn; [discriminate | apply nth_error_In]. Qed.

(** potential profit does not shrink when the threshold does not shrink and the influence of the pledge is relaxed *)
Definition relaxed (rs rs' : rss QcA) : Prop := r_scheme rs' = r_scheme rs /\ r_thr rs <= r_thr rs' /\ match r_scheme rs with CIP50 => r_a0 rs <= r_a0 rs' | _ => r_a0 rs' <= r_a0 rs end.
Lemma Qcmin_mono_r (x y y' : Qc) : y <= y' -> Qcmin x y <= Qcmin x y'.
Proof. intros L. apply Qcmin_glb; [apply Qcmin_l|]. assert (Z := Qcmin_r x y). qlra. Qed.
Lemma relaxed_profit (rs rs' : rss QcA) (pledge cost : Qc) : rss_ok rs -> rss_ok rs' -> relaxed rs rs' -> 0 <= pledge -> pot_profit rs pledge cost <= pot_profit rs' pledge cost.
Proof.
  intros R R' (E & T & Ea) P. unfold pot_profit. rewrite !reward_saturated by assumption. rewrite E. destruct R as [R1 R2]. destruct R' as [R1' R2'].
  set (a := r_a0 rs) in *. set (a' := r_a0 rs') in *. set (t := r_thr rs) in *. set (t' := r_thr rs') in *. clearbody a a' t t'.
  assert (Q : a' <= a -> (t + a * Qcmin pledge t) / (1 + a) <= (t' + a' * Qcmin pledge t') / (1 + a')).
  { intros La. assert (D : 0 < 1 + a) by qlra. assert (D' : 0 < 1 + a') by qlra. assert (M : Qcmin pledge t <= Qcmin pledge t') by (apply Qcmin_mono_r; exact T). assert (M' := Qcmin_r pledge t).
    apply Qcle_trans with ((t + a' * Qcmin pledge t) / (1 + a')).
    - apply Qcmult_lt_0_le_reg_r with (1 + a); [assumption|]. rewrite Qcdiv_mul by (now apply Qc_pos_neq). apply Qcmult_lt_0_le_reg_r with (1 + a'); [assumption|].
      set (q := Qcmin pledge t) in *. clearbody q. assert (N : 1 + a' <> 0) by (now apply Qc_pos_neq).
      replace ((t + a' * q) / (1 + a') * (1 + a) * (1 + a')) with ((t + a' * q) * (1 + a)) by (field; assumption).
      assert (Z : 0 <= (a - a') * (t - q)) by (apply Qcmult_nonneg; qlra).
      replace ((t + a' * q) * (1 + a)) with ((t + a * q) * (1 + a') + (a - a') * (t - q)) by ring. qlra.
    - apply Qcdiv_mono; [assumption|]. assert (Z : a' * Qcmin pledge t <= a' * Qcmin pledge t') by (now apply Qcmult_le_l). qlra. }
  destruct (r_scheme rs); try (specialize (Q Ea); qlra).
  assert (Z : a * pledge <= a' * pledge) by (rewrite !(Qcmult_comm _ pledge); now apply Qcmult_le_l). assert (Z1 := Qcmin_mono _ _ t Z). assert (Z2 := Qcmin_mono_r (a' * pledge) _ _ T). qlra.
Qed.

Section Run.
  Variable so : list nat -> list nat -> list nat.
  Hypothesis SO : set_order so.
  Variables (g : args QcA) (profiles : list profile) (stakes costs : list Qc) (s0 : sim QcA).
  Hypothesis H : init g profiles stakes costs = Ok s0.
  Hypothesis OT : one_at_a_time g.
  Hypothesis RL : relaxing g.
  Hypothesis SI : sound_inputs g stakes.
  Hypothesis ND : ~ degenerate_cip50 g.
  Notation rs0 := (w_rss (s_w s0)).
  Notation m0 := (Z.to_nat (r_k rs0 + 1)).
  Notation healthy := (healthy m0).
  Notation egood := (egood False True True m0).

  Lemma cip_a0 : r_scheme rs0 = CIP50 -> g_scheme g = 4%Z /\ forall x : Qc, In x (phase_values (g_a0 g)) -> 0 < x.
  Proof.
    destruct SI as (F0 & F1 & Hx & Hk & Ha). intros E. destruct (init_rss _ _ _ _ _ H F0 F1 Hk) as (_ & _ & S1). apply S1 in E. split; [assumption|]. intros x J.
    destruct (Qc_eq_dec x 0) as [->|N]; [exfalso; apply ND; now split|]. assert (L := Ha x J). apply Qcle_lt_or_eq in L as [L|L]; congruence.
  Qed.
  Lemma start_facts : inputs_ok False True True g s0 /\ healthy (s_w s0).
  Proof.
    destruct SI as (F0 & F1 & Hx & Hk & Ha). assert (Hk' : forall x : Qc, In x (phase_values (g_k g)) -> 0 < x) by (intros x J; apply Hk in J; qlra).
    destruct (init_rss _ _ _ _ _ H F0 F1 Hk) as (K1 & A1 & S1). assert (T1 := init_threshold _ _ _ _ _ H F1 Hk'). assert (R : rss_ok rs0) by (split; [exact T1 | apply Ha, first_In, A1]).
    destruct (inputs_pos _ _ _ _ _ H (conj F0 (conj F1 (conj Hx Hk')))) as (_ & _ & I3 & I4). assert (FR := init_fresh _ _ _ _ _ H). split.
    - split; [now right|]. split; [intros []|]. split; assumption.
    - split; [split; [exact R|]; split; [intros E; apply (proj2 (cip_a0 E)), first_In, A1 | split; [exact K1 | lia]]|]. split; [intros id p (r & A2 & _); rewrite (fs_pools _ _ _ _ _ FR) in A2; discriminate|].
      intros a ag Ga Pr. destruct (fs_agents _ _ _ _ _ FR a ag Ga) as (x & c & p & E & _). rewrite E in Pr |- *. destruct p; cbn in *; congruence.
  Qed.
  Lemma reach_egood s : reach so s0 s -> egood (s_w s) /\ one_by_one (c_sched (s_c s)).
  Proof. intros R. destruct start_facts as (S1 & _). destruct (exact_sim False True True so SO g profiles stakes costs s0 s H OT S1 R) as [(G & _) Hs _ _]. auto. Qed.

  (** what is left of the lists relaxes the parameters in force *)
  Definition ahead (s : sim QcA) : Prop := let rs := w_rss (s_w s) in
    r_scheme rs = r_scheme rs0 /\
    (forall j (x : Qc), (s_phase s < j)%nat -> listed (g_k g) j = Some x -> x * r_thr rs <= 1 /\ (Z.to_nat (Qc_trunc x + 1) <= m0)%nat) /\
    (forall j (y : Qc), (s_phase s < j)%nat -> listed (g_a0 g) j = Some y -> match r_scheme rs with CIP50 => r_a0 rs <= y | _ => y <= r_a0 rs end).
  Lemma trunc_mono (x y : Qc) : (exists z, x = Qc_ofZ z) -> (exists z, y = Qc_ofZ z) -> x <= y -> (Qc_trunc x <= Qc_trunc y)%Z.
  Proof. intros (a & ->) (b & ->) L. rewrite !Qc_trunc_ofZ. destruct (Z.le_gt_cases a b); [assumption|]. exfalso. assert (Qc_ofZ b < Qc_ofZ a) by (now apply Qc_ofZ_lt). qlra. Qed.
  Definition kstep (x y : Qc) : Prop := y = x \/ y <= x /\ (exists z, x = Qc_ofZ z) /\ (exists z, y = Qc_ofZ z).
  Lemma k_later i j (x y : Qc) : (i <= j)%nat -> listed (g_k g) i = Some x -> listed (g_k g) j = Some y -> kstep x y.
  Proof.
    apply (chain kstep); [now left | |].
    - intros a b c [->|(L1 & Z1 & Z2)] [->|(L2 & Z3 & Z4)]; [now left | right; auto | right; auto | right; split; [qlra | auto]].
    - intros a b C. right. now apply RL.
  Qed.
  Definition astep (x y : Qc) : Prop := if (g_scheme g =? 4)%Z then x <= y else y <= x.
  Lemma a0_later i j (x y : Qc) : (i <= j)%nat -> listed (g_a0 g) i = Some x -> listed (g_a0 g) j = Some y -> astep x y.
  Proof.
    apply (chain astep); unfold astep; [intros; destruct (_ =? _)%Z; apply Qcle_refl | intros a b c; destruct (_ =? _)%Z; intros; qlra |]. intros a b C. now apply RL.
  Qed.
  Lemma astep_scheme (rs : rss QcA) x y : r_scheme rs = r_scheme rs0 -> astep x y -> match r_scheme rs with CIP50 => x <= y | _ => y <= x end.
  Proof.
    destruct SI as (F0 & F1 & Hx & Hk & Ha). destruct (init_rss _ _ _ _ _ H F0 F1 Hk) as (_ & _ & S1).
    intros E. unfold astep. rewrite E. destruct (Z.eqb_spec (g_scheme g) 4) as [E4|N4]; [rewrite (proj2 S1 E4); auto|]. destruct (r_scheme rs0); auto. exfalso. now apply N4, S1.
  Qed.
  Lemma ahead_start : ahead s0.
  Proof.
    destruct SI as (F0 & F1 & Hx & Hk & Ha). destruct (init_rss _ _ _ _ _ H F0 F1 Hk) as (K1 & A1 & S1). split; [reflexivity|]. split.
    - intros j x Lj E. destruct (listed_first _ _ _ E) as (k0 & Ef & E0). assert (KS := k_later 0 j k0 x ltac:(lia) E0 E). assert (I0 : exists z, k0 = Qc_ofZ z).
      { destruct KS as [->|(_ & Z & _)]; [|exact Z]. destruct (g_k g) as [|l] eqn:Eg; [discriminate|]. cbn [listed] in E, E0. assert (exists y, nth_error l 1 = Some y) as (y & E1).
        { destruct (nth_error l 1) eqn:EE; [eauto|]. apply nth_error_None in EE. assert (Z : nth_error l j <> None) by (rewrite E; discriminate). apply nth_error_Some in Z. lia. }
        destruct (proj1 RL k0 y) as (_ & Z & _); [exists l, 0%nat; rewrite Eg; auto | exact Z]. }
      destruct I0 as (z & ->). assert (G1 := Hk _ (first_In _ _ Ef)). assert (z1 : (1 <= z)%Z) by (assert (T := Qc_trunc_ge1 _ G1); rewrite Qc_trunc_ofZ in T; exact T). assert (P0 : 0 < Qc_ofZ z) by qlra. assert (N0 := Qc_pos_neq _ P0).
      assert (Lx : x <= Qc_ofZ z) by (destruct KS as [->|(L & _)]; [apply Qcle_refl | exact L]). assert (Tx : (Qc_trunc x <= z)%Z). { destruct KS as [->|(_ & Z1 & Z2)]; [rewrite Qc_trunc_ofZ; lia|]. rewrite <- (Qc_trunc_ofZ z). now apply trunc_mono. }
      assert (Q : 0 <= r_thr rs0 /\ Qc_ofZ z * r_thr rs0 <= 1 /\ (z <= r_k rs0)%Z).
      { destruct (g_known g) eqn:Kn.
        - destruct (C32_known_inactive_first_phase _ _ _ _ _ z H Kn F1 Ef) as (_ & E1 & E2). assert (P1 : 0 < 1 - g_inactive g) by qlra. assert (P2 : 0 < r_thr rs0) by (rewrite E1; now apply Qcdiv_pos). assert (E3 : Qc_ofZ z * r_thr rs0 = 1 - g_inactive g) by (rewrite E1; field; assumption).
          split; [qlra|]. split; [rewrite E3; qlra|]. rewrite E2. apply Qc_trunc_ge; [lia|]. apply Qcdiv_ge; [assumption|]. rewrite E3. qlra.
        - destruct (C32_unknown_inactive_first_phase _ _ _ _ _ z H Kn Ef) as (E1 & E2). assert (P2 : 0 < r_thr rs0) by (rewrite E1; now apply Qcdiv_pos). split; [qlra|]. split; [|lia]. assert (E3 : Qc_ofZ z * r_thr rs0 = 1) by (rewrite E1; field; assumption). rewrite E3. apply Qcle_refl. }
      destruct Q as (Q1 & Q2 & Q3). split; [|lia]. assert (Q4 := Qcmult_le_r _ _ _ Q1 Lx). qlra.
    - intros j y Lj E. destruct (listed_first _ _ _ E) as (a0 & Ef & E0). rewrite A1 in Ef. injection Ef as <-. apply astep_scheme; [reflexivity|]. exact (a0_later 0 j _ y ltac:(lia) E0 E).
  Qed.

  (** the parameters of the next phase *)
  Lemma next_params s (rs' : rss QcA) : healthy (s_w s) -> ahead s -> let n := S (s_phase s) in let rs := w_rss (s_w s) in
    r_scheme rs' = r_scheme rs -> r_a0 rs' = listed_or (g_a0 g) n (r_a0 rs) -> match listed (g_k g) n with Some k => r_k rs' = Qc_trunc k /\ r_thr rs' = 1 / k | None => r_k rs' = r_k rs /\ r_thr rs' = r_thr rs end ->
    sound_rss m0 rs' /\ relaxed rs rs' /\ (forall j (x : Qc), (n < j)%nat -> listed (g_k g) j = Some x -> x * r_thr rs' <= 1 /\ (Z.to_nat (Qc_trunc x + 1) <= m0)%nat) /\
    (forall j (y : Qc), (n < j)%nat -> listed (g_a0 g) j = Some y -> match r_scheme rs' with CIP50 => r_a0 rs' <= y | _ => y <= r_a0 rs' end).
  Proof.
    destruct SI as (F0 & F1 & Hx & Hk & Ha). intros ((R & C & K & M) & _) (AE & AK & AA) n rs Es Ea Ek.
    assert (P : 0 < r_thr rs' /\ r_thr rs <= r_thr rs' /\ (1 <= r_k rs')%Z /\ (Z.to_nat (r_k rs' + 1) <= m0)%nat /\ (forall j (x : Qc), (n < j)%nat -> listed (g_k g) j = Some x -> x * r_thr rs' <= 1 /\ (Z.to_nat (Qc_trunc x + 1) <= m0)%nat)).
    { destruct (listed (g_k g) n) as [k|] eqn:E.
      - destruct Ek as [-> E2]. assert (K1 := Hk _ (listed_value _ _ _ E)). destruct (AK n k ltac:(lia) E) as [B1 B2]. assert (P0 : 0 < k) by qlra. assert (N0 := Qc_pos_neq _ P0). split; [rewrite E2; now apply Qcdiv_pos|].
        split; [rewrite E2; apply Qcdiv_ge; [assumption|]; rewrite Qcmult_comm; exact B1|]. split; [now apply Qc_trunc_ge1|]. split; [exact B2|]. intros j x Lj Ej. split; [|apply (AK j); [lia | assumption]].
        assert (Lx : x <= k) by (destruct (k_later n j k x ltac:(lia) E Ej) as [->|(L & _)]; [apply Qcle_refl | exact L]). rewrite E2. replace (x * (1 / k)) with (x / k) by (field; assumption). apply Qcdiv_le; [assumption | qlra].
      - destruct Ek as [-> E2]. rewrite E2. destruct R as [R1 R2]. split; [exact R1|]. split; [apply Qcle_refl|]. split; [exact K|]. split; [exact M|]. intros j x Lj Ej. apply (AK j); [lia | assumption]. }
    assert (Q : 0 <= r_a0 rs' /\ (r_scheme rs' = CIP50 -> 0 < r_a0 rs') /\ match r_scheme rs with CIP50 => r_a0 rs <= r_a0 rs' | _ => r_a0 rs' <= r_a0 rs end /\
      (forall j (y : Qc), (n < j)%nat -> listed (g_a0 g) j = Some y -> match r_scheme rs' with CIP50 => r_a0 rs' <= y | _ => y <= r_a0 rs' end)).
    { rewrite Ea, Es. unfold listed_or. destruct (listed (g_a0 g) n) as [y|] eqn:E.
      - split; [apply Ha, (listed_value _ _ _ E)|]. split; [intros E5; assert (E6 := eq_trans (eq_sym AE) E5); apply (proj2 (cip_a0 E6)), (listed_value _ _ _ E)|]. split; [apply (AA n); [lia | assumption]|]. intros j z Lj Ej. apply astep_scheme; [exact AE|]. exact (a0_later n j y z ltac:(lia) E Ej).
      - destruct R as [R1 R2]. split; [exact R2|]. split; [exact C|]. split; [destruct (r_scheme rs); apply Qcle_refl|]. intros j z Lj Ej. apply (AA j); [lia | assumption]. }
    destruct P as (P1 & P2 & P3 & P4 & P5). destruct Q as (Q1 & Q2 & Q3 & Q4). split; [split; [now split | auto]|]. split; [split; [assumption | auto]|]. auto.
  Qed.
  Lemma phase_settings_eq s n : reach so s0 s -> phase_settings n (c_multi (s_c s)) = flat_map (fun f => here f n) (fields g).
  Proof. intros R. now rewrite (reach_conf so _ _ R), (init_multi _ _ _ _ _ H), phase_settings_here. Qed.
  Lemma k_settings (x : Qc) n : In (SetK (A := QcA) x) (flat_map (fun f => here f n) (fields g)) -> listed (g_k g) n = Some x.
  Proof.
    unfold fields. cbn [flat_map]. rewrite !in_app_iff. intros J. decompose [or] J; clear J; try contradiction; match goal with J : In _ (here (pv_map _ _) _) |- _ => rewrite listed_map in J; match type of J with context [listed ?p ?i] => destruct (listed p i) eqn:EL end; cbn in J; [destruct J as [J|[]]; try discriminate | contradiction] end. match goal with J : SetK _ = SetK _ |- _ => injection J as J; rewrite <- J; assumption || reflexivity end.
  Qed.

  Lemma reach_healthy s : reach so s0 s -> healthy (s_w s) /\ ahead s.
  Proof.
    induction 1 as [|ch s s' R [HH HA] E]; [split; [apply start_facts | apply ahead_start]|]. destruct (reach_egood s R) as [G Hs]. assert (R' : reach so s0 s') by (econstructor; eassumption).
    assert (Hid : forall w b, healthy w -> healthy (with_idle b w)) by (intros w b (X1 & X2 & X3); split; [assumption | split; assumption]).
    destruct (Nat.eq_dec (s_phase s') (s_phase s)) as [Ep|Np].
    - assert (SH := step_shape so ch s s' E). apply sim_step_cases in E as [(L & ->)|(L & w & Hw & E)]; [split; [exact HH | exact HA]|].
      assert (Hw' := Hw). unfold schedule_step in Hw'. apply bind_ok in Hw' as (evs & He & Hw'). assert (FR := events_frame _ _ _ _ Hw'). destruct (one_by_one_events _ _ _ _ Hs He) as (l & ->). destruct (round_keeps so SO m0 l (s_w s) w G HH Hw') as [_ HH'].
      assert (Ers : w_rss w = w_rss (s_w s)) by (destruct FR as (FR & _); unfold Frame.params in FR; congruence).
      destruct E as [(_ & ->)|[(_ & _ & ->)|[(_ & _ & Lp & s4 & H4 & ->)|(_ & _ & _ & ->)]]].
      + split; [now apply Hid|]. unfold ahead. cbn. rewrite Ers. exact HA.
      + split; [now apply Hid|]. unfold ahead. cbn. rewrite Ers. exact HA.
      + exfalso. apply phase_frame in H4. cbn in Ep. decompose [and] H4. cbn in *. lia.
      + split; [exact HH'|]. unfold ahead. cbn. rewrite Ers. exact HA.
    - destruct (C33_applies_the_listed_parameters QcA so g profiles stakes costs s0 s s' ch H R E Np) as (P1 & _ & _ & _ & _ & _ & _ & P2 & P3 & _ & P4 & _).
      destruct (C33_pools_are_repriced QcA QcA_ord MP_Qc so g profiles stakes costs s0 s s' ch SO H OT R E Np) as (w1 & Hw & Q1 & Q2 & Q3 & _).
      assert (Hw' := Hw). unfold schedule_step in Hw'. apply bind_ok in Hw' as (evs & He & Hw'). assert (FR := events_frame _ _ _ _ Hw'). destruct (one_by_one_events _ _ _ _ Hs He) as (l & ->). destruct (round_keeps so SO m0 l (s_w s) w1 G HH Hw') as [G1 HH1].
      assert (Ers : w_rss w1 = w_rss (s_w s)) by (destruct FR as (FR & _); unfold Frame.params in FR; congruence).
      destruct (next_params s (w_rss (s_w s')) HH HA P4 P2) as (N1 & N2 & N3 & N4). { destruct (listed (g_k g) (S (s_phase s))); [apply P3 | exact P3]. }
      split; [|unfold ahead; rewrite P1; split; [rewrite P4; apply HA | auto]].
      split; [exact N1|]. split; [|intros a ag Ga; rewrite Q1 in Ga; exact (proj2 (proj2 HH1) a ag Ga)].
      intros id p' A'. assert (A'' := A'). destruct A'' as (r & B1 & B2). assert (J : In id (keys (w_pools w1))) by (rewrite <- Q2; apply get_Some_key; eauto). apply get_Some_key in J as (r1 & J).
      destruct (i_reg _ _ _ _ _ _ (g_inv _ _ _ _ _ G1) _ _ J) as (p & Hp & _). assert (A1 : active w1 id p) by (now exists r1). destruct (Q3 id p A1) as (p2 & A2 & _ & _ & C1 & C2 & _ & _ & _ & _ & C3 & _).
      destruct A2 as (r2 & B3 & B4). rewrite B1 in B3. injection B3 as <-. rewrite B2 in B4. injection B4 as <-.
      destruct (good_active _ _ _ _ _ G1 id p A1) as (_ & _ & _ & FF & _). assert (PP := proj1 (proj2 HH1) id p A1). assert (E1 := pf_pp _ _ _ _ FF). assert (PL := pf_pledge _ _ _ _ FF I).
      rewrite potential_profit_ok in E1 by (apply HH1). rewrite potential_profit_ok in C3 by (apply N1). injection E1 as E1. injection C3 as C3. rewrite C1, C2 in C3. rewrite Ers in E1.
      assert (Z := relaxed_profit _ _ (p_pledge p) (p_cost p) (proj1 (proj1 HH)) (proj1 N1) N2 (Qclt_le_weak _ _ PL)). rewrite <- C3. rewrite <- E1 in PP. qlra.
  Qed.

  Lemma every_step s ch : reach so s0 s -> fair ch -> exists s', sim_step so ch s = Ok s'.
  Proof.
    intros R F. destruct (reach_healthy s R) as [HH HA]. destruct (reach_egood s R) as [G Hs]. unfold sim_step. cbn [s_maxit set_rows s_steps s_c s_w]. destruct (_ <=? _)%Z; [eauto|].
    assert (exists w' l, schedule_step so (c_sched (s_c s)) ch (s_w s) = Ok w' /\ foldM (do_event so) (map EStep l) (s_w s) = Ok w') as (w' & l & Hw & Hl).
    { unfold schedule_step. destruct Hs as [-> | ->]; cbn [round_events bind]; match goal with |- context [map EStep ?l] => destruct (round_total so SO m0 l (s_w s) G HH) as (w' & E); [|exists w', l; auto] end; [|intros x Jx; exact Jx]. intros x Jx. eapply Permutation_in; [apply F | exact Jx]. }
    rewrite Hw. cbn [bind]. destruct (round_keeps so SO m0 l (s_w s) w' G HH Hl) as [G' HH'].
    repeat match goal with |- context [if ?b then _ else _] => destruct b eqn:? end; eauto.
    match goal with |- context [change_phase ?x] => set (s3 := x); assert (exists s4, change_phase s3 = Ok s4) as (s4 & ->); [|cbn [bind]; eauto] end.
    assert (Ers : w_rss w' = w_rss (s_w s)). { apply events_frame in Hl as (FR & _). unfold Frame.params in FR. congruence. }
    apply (change_total m0 s3); [exact G' | exact HH' | |].
    - intros x J. change (c_multi (s_c s3)) with (c_multi (s_c s)) in J. rewrite (phase_settings_eq s _ R) in J. apply k_settings in J. apply Qc_pos_neq. assert (Z := proj1 (proj2 (proj2 (proj2 SI))) x (listed_value _ _ _ J)). qlra.
    - intros s1 s2 E1 E2. change (c_multi (s_c s3)) with (c_multi (s_c s)) in E2. change (s_phase s3) with (s_phase s) in E2. rewrite (phase_settings_eq s _ R) in E2. apply fields_settings in E2. rewrite E1 in E2. unfold settings in E2 at 1. destruct E2 as (b & Hb & E2).
      unfold settings in E2. change (s_w s3) with w' in E2, Hb. rewrite Ers in Hb. injection E2 as _ E2 _ _ _ _ _ _. rewrite E2.
      destruct (next_params s (set_a0 b (listed_or (g_a0 g) (S (s_phase s)) (r_a0 b))) HH HA) as ((N1 & _) & _); [| | |exact N1].
      + cbn. destruct (listed (g_k g) (S (s_phase s))); [apply set_k_inv in Hb; apply Hb | now subst b].
      + cbn. replace (r_a0 b) with (r_a0 (w_rss (s_w s))); [reflexivity|]. destruct (listed (g_k g) (S (s_phase s))); [apply set_k_inv in Hb; symmetry; apply Hb | now subst b].
      + cbn [set_a0 r_k r_thr]. destruct (listed (g_k g) (S (s_phase s))) as [k|]; [|subst b; auto]. unfold set_k in Hb. change (@eqb QcA) with Qc_eqb in Hb. change (@zero QcA) with 0 in Hb. destruct (Qc_eqb_spec k 0) as [|Nk]; [discriminate|]. rewrite pdiv_ok in Hb by assumption. cbn [bind] in Hb. apply Ok_inj in Hb. subst b. split; reflexivity.
  Qed.
  Lemma every_run ch : (forall i, fair (ch i)) -> exists s, run_model so ch s0 = Ok s.
  Proof.
    intros F. destruct (C29_run_model_terminates QcA so g profiles stakes costs s0 ch H) as (n & R & _).
    enough (Q : forall n s r, run so ch n s r -> reach so s0 s -> exists s', r = Ok s') by (apply (Q n s0 _ R); constructor).
    clear n R. intros n s r R. induction R as [s L|s e L E|n s s1 r L E R IH]; intros RC; [eauto| |].
    - destruct (every_step s _ RC (F (s_steps s))) as (s' & E'). rewrite E' in E. discriminate.
    - apply IH. econstructor; eassumption.
  Qed.
  Lemma every_visible w : visible so s0 w -> egood w /\ healthy w.
  Proof.
    intros V. destruct V as [s R|s ch evs1 evs2 w R E Hw].
    - split; [apply (reach_egood s R) | apply (reach_healthy s R)].
    - destruct (reach_egood s R) as [G Hs]. destruct (one_by_one_events _ _ _ _ Hs E) as (l & El). symmetry in El. apply map_eq_app in El as (l1 & l2 & -> & <- & _).
      apply (round_keeps so SO m0 l1 (s_w s) w G (proj1 (reach_healthy s R)) Hw).
  Qed.
  Lemma every_pool w : visible so s0 w -> forall id p, active w id p -> potential_profit (A := QcA) (w_rss w) (p_pledge p) (p_cost p) = Ok (p_pp p) /\ 0 < p_pp p.
  Proof.
    intros V id p J. destruct (every_visible w V) as [G (_ & P & _)]. split; [|now apply (P id)]. destruct (good_active _ _ _ _ _ G id p J) as (_ & _ & _ & FF & _). exact (pf_pp _ _ _ _ FF).
  Qed.
End Run.

(** No call of step() raises: whatever state a run has reached, whatever the random choices of the next round are.  Costs may have any sign.
    Missing for the full statement: the CIP-50 scheme with a0 = 0, for which it is false. *)
Theorem C24_no_step_raises_partial : forall so (g : args QcA) profiles (stakes costs : list Qc) (s0 s : sim QcA) ch, set_order so -> init g profiles stakes costs = Ok s0 -> one_at_a_time g -> single_phase g ->
  sound_inputs g stakes -> ~ degenerate_cip50 g -> reach so s0 s -> fair ch -> exists s', sim_step so ch s = Ok s'.
Proof. intros. eapply every_step; try eassumption. now apply single_relaxing. Qed.
(** hence run_model returns *)
Theorem C24_run_model_returns_partial : forall so (g : args QcA) profiles (stakes costs : list Qc) (s0 : sim QcA) ch, set_order so -> init g profiles stakes costs = Ok s0 -> one_at_a_time g -> single_phase g ->
  sound_inputs g stakes -> ~ degenerate_cip50 g -> (forall i, fair (ch i)) -> exists s, run_model so ch s0 = Ok s.
Proof. intros. eapply every_run; try eassumption. now apply single_relaxing. Qed.

(** the constructor does not raise either, if there is a profile, a stake and a cost for each of the agents *)
Theorem C24_construction_succeeds : forall (g : args QcA) profiles (stakes costs : list Qc), In (g_scheme g) [0; 1; 2; 4]%Z -> (forall f, In f (fields g) -> phase_values f <> []) -> sound_inputs g stakes ->
  (forall n, In n (phase_values (g_n g)) -> 1 <= n /\ n <= Z.of_nat (length profiles) /\ n <= Z.of_nat (length stakes) /\ n <= Z.of_nat (length costs))%Z ->
  exists s0, init g profiles stakes costs = Ok s0.
Proof.
  intros g profiles stakes costs Sc Ne (F0 & F1 & Hx & Hk & _) Hn. assert (Hk' : True -> forall x : Qc, In x (phase_values (g_k g)) -> 0 < x) by (intros _ x J; apply Hk in J; qlra). unfold init.
  assert (exists r0 : rss QcA, make_rss (g_scheme g) = Ok r0) as (r0 & ->) by (cbn in Sc; destruct Sc as [<-|[<-|[<-|[<-|[]]]]]; eexists; reflexivity). cbn [bind].
  destruct (foldM_total set_field (fun _ => True) (fields g) (blank r0) I) as (s1 & E1 & _).
  { intros s f J _. assert (AP : forall v, In v (phase_values f) -> exists s', apply_setting v s = Ok s').
    { intros v Jv. assert (V := settings_pos True g Hk' f v J Jv). destruct v; cbn [apply_setting]; eauto. cbn in V. specialize (V I). unfold set_k. change (@eqb QcA) with Qc_eqb. change (@zero QcA) with 0.
      destruct (Qc_eqb_spec v 0) as [->|Nv]; [discriminate|]. rewrite pdiv_ok by assumption. cbn [bind]. eauto. }
    assert (Nf := Ne f J). destruct f as [v|[|v l]]; cbn [set_field phase_values] in *; [destruct (AP v) as (s' & ->); [now left | eauto] | congruence|].
    change (py_index (v :: l) 0) with (Ok v). cbn [bind]. destruct (AP v) as (s' & ->); [now left|]. cbn [bind]. eauto. }
  rewrite E1. cbn [bind]. apply fields_values in E1 as (n & k0 & a0 & rel & abs & mi & phi & o & gr & rk & Jn & Jk & Ja & _ & _ & _ & _ & _ & _ & Ek & P).
  assert (K0 : 1 <= k0). { apply Hk. unfold first_value in Jk. destruct (phase_values (g_k g)); [discriminate|]. injection Jk as ->. now left. }
  assert (N0 : In n (phase_values (g_n g))). { unfold first_value in Jn. destruct (phase_values (g_n g)); [discriminate|]. injection Jn as ->. now left. } apply Hn in N0 as (N1 & N2 & N3 & N4).
  unfold PropInit.params in P. injection P as P1 _ _ _ P2 _ _ _. apply set_k_inv in Ek as (_ & _ & Ek & _). assert (T1 := Qc_trunc_ge1 k0 K0). assert (D : 1 - g_inactive g <> 0) by qlra. assert (D' : 0 < 1 - g_inactive g) by qlra.
  change (sub (a := QcA) one (g_inactive g)) with (1 - g_inactive g).
  assert (exists r1 : rss QcA, (if g_known g then let! k' := pdiv (A := QcA) (ofZ (r_k (w_rss (s_w s1)))) (1 - g_inactive g) in set_k (w_rss (s_w s1)) k' else Ok (w_rss (s_w s1))) = Ok r1) as (r1 & ->).
  { destruct (g_known g); [|eauto]. rewrite pdiv_ok by assumption. cbn [bind]. rewrite P1. cbn [set_a0 r_k]. rewrite Ek. change (ofZ (a := QcA) (Qc_trunc k0)) with (Qc_ofZ (Qc_trunc k0)).
    assert (0 < Qc_ofZ (Qc_trunc k0) / (1 - g_inactive g)) by (apply Qcdiv_pos; [apply Qc_ofZ_pos; lia | assumption]). set (kk := Qc_ofZ _ / _) in *. unfold set_k. change (@eqb QcA) with Qc_eqb. change (@zero QcA) with 0.
    destruct (Qc_eqb_spec kk 0) as [E|Nv]; [rewrite E in H; discriminate|]. rewrite pdiv_ok by assumption. cbn [bind]. eauto. }
  cbn [bind]. rewrite P2. assert (exists ags, make_agents (A := QcA) n profiles stakes costs = Ok ags) as (ags & Ea).
  { apply mapM_total. intros i Ji. apply in_seq in Ji. destruct (py_index_ok profiles (Z.of_nat i)) as (x1 & -> & _); [change (T QcA) with Qc; lia|]. cbn [bind]. destruct (py_index_ok (V := T QcA) stakes (Z.of_nat i)) as (x2 & -> & _); [change (T QcA) with Qc; lia|]. cbn [bind]. destruct (py_index_ok (V := T QcA) costs (Z.of_nat i)) as (x3 & -> & _); [change (T QcA) with Qc; lia|]. cbn [bind]. eauto. }
  rewrite Ea. cbn [bind]. rewrite pdiv_ok by assumption. cbn [bind]. rewrite psum_sum.
  assert (SP : 0 < Qc_sum stakes). { destruct stakes as [|x l]; [cbn in N3; lia|]. change (Qc_sum (x :: l)) with (x + Qc_sum l). assert (0 < x) by (apply Hx; now left). assert (0 <= Qc_sum l) by (apply Qc_sum_nonneg; intros y Jy; apply Qclt_le_weak, Hx; now right). qlra. }
  assert (TP : 0 < Qc_sum stakes / (1 - g_inactive g)) by (now apply Qcdiv_pos). set (tt := Qc_sum stakes / (1 - g_inactive g)) in *. change (leb (a := QcA) tt zero) with (Qc_leb tt 0). destruct (Qc_leb_spec tt 0) as [L|_]; [exfalso; qlra|].
  match goal with |- exists s0, bind ?m _ = Ok s0 => assert (exists x, m = Ok x) as ([ags' t'] & ->) end; [|cbn [bind]; eauto]. change (div (a := QcA) (Qc_sum stakes) (1 - g_inactive g)) with tt.
  destruct (eqb (a := QcA) tt one); [eauto|]. unfold normalize. destruct (mapM_total (fun e : nat * agent QcA => let! s := pdiv (A := QcA) (a_stake (snd e)) tt in Ok (fst e, agent_set_stake s (snd e))) ags) as (d1 & E1).
  { intros x _. rewrite pdiv_ok by (now apply Qc_pos_neq). cbn [bind]. eauto. }
  rewrite E1. cbn [bind]. destruct (eqb _ _); [eauto|]. destruct d1 as [|e d1]; [|eauto]. exfalso. apply mapM_length in E1. apply make_agents_stakes in Ea as [_ Ea]. cbn in E1. lia.
Qed.

(** REFUTED for the remaining case: the CIP-50 scheme without pledge influence, an agent with the myopic profile *)
Definition degenerate_args : args QcA :=
  mkArgs (A := QcA) (Single 2%Z) (Single (Q2Qc 2)) (Single 0) (Single 0) (Single (Q2Qc (1#1000000))) (Single 100%Z) (Single (Q2Qc 2)) (Single Sequential) (Single true) 4 0 false 2.
Theorem C24_cip50_without_a0_refuted : exists (g : args QcA) profiles stakes costs (s0 : sim QcA), init g profiles stakes costs = Ok s0 /\ one_at_a_time g /\ single_phase g /\ sound_inputs g stakes /\
  (forall c, In c costs -> 0 < c) /\ sim_step so_id no_choice s0 = Err ZeroDivisionError.
Proof.
  exists degenerate_args, [NonMyopic; Myopic], [Q2Qc (1#2); Q2Qc (1#2)], [Q2Qc (1#1000); Q2Qc (1#1000)].
  assert (C : match (let! s0 := init degenerate_args [NonMyopic; Myopic] [Q2Qc (1#2); Q2Qc (1#2)] [Q2Qc (1#1000); Q2Qc (1#1000)] in sim_step so_id no_choice s0) with Err ZeroDivisionError => true | _ => false end = true) by (vm_compute; reflexivity).
  destruct (init degenerate_args _ _ _) as [s0|e] eqn:E; cbn [bind] in C; [|exfalso; clear - E; revert E; vm_compute; discriminate]. exists s0. split; [reflexivity|].
  split; [constructor; [right; reflexivity | constructor]|]. split; [intros f J; cbn in J; repeat (destruct J as [<-|J]; [eexists; reflexivity|]); destruct J|].
  split; [repeat split; try discriminate; cbn|].
  - intros x [<-|[<-|[]]]; reflexivity.
  - intros x [<-|[]]; discriminate.
  - intros x [<-|[]]; discriminate.
  - split; [cbn; intros x [<-|[<-|[]]]; reflexivity|]. destruct (sim_step so_id no_choice s0) as [|[]]; congruence.
Qed.

(** * C54 *)
(** every pool of such a run is worth having: it could make a profit if it were saturated *)
Theorem C54_every_pool_has_potential_profit : forall so (g : args QcA) profiles (stakes costs : list Qc) (s0 : sim QcA) w, set_order so -> init g profiles stakes costs = Ok s0 -> one_at_a_time g -> single_phase g ->
  sound_inputs g stakes -> ~ degenerate_cip50 g -> visible so s0 w -> forall id p, active w id p ->
  exists u, potential_profit (A := QcA) (w_rss w) (p_pledge p) (p_cost p) = Ok u /\ 0 < u.
Proof. intros so g profiles stakes costs s0 w SO H OT SG SI ND V id p J. exists (p_pp p). eapply every_pool; try eassumption. now apply single_relaxing. Qed.

Lemma demo_sound : sound_inputs demo_seq demo_stakes.
Proof. repeat split; try discriminate; [exact demo_stakes_pos | cbn; intros x [<-|[]]; discriminate | cbn; intros x [<-|[]]; discriminate]. Qed.
(** the run of Demo.v meets the hypotheses, for every outcome of the random choices *)
Example C24_C54_instance : exists s0 s, demo_init = Ok s0 /\ one_at_a_time demo_seq /\ single_phase demo_seq /\ sound_inputs demo_seq demo_stakes /\ ~ degenerate_cip50 demo_seq /\ fair no_choice /\ reach so_id s0 s /\
  exists p, active (s_w s) 1 p.
Proof.
  destruct (steps_check demo_init 3 (fun s => pool_is (s_w s) 1 (fun _ => true))) as (s0 & s & H0 & H1 & H2); [vm_compute; reflexivity|]. exists s0, s. split; [assumption|].
  split; [exact demo_one|]. split; [intros f J; cbn in J; repeat (destruct J as [<-|J]; [eexists; reflexivity|]); destruct J|].
  split; [|split; [intros [E _]; discriminate|]].
  - exact demo_sound.
  - split; [|split; [now apply (steps_reach 3)|]].
    + split; [intros; apply Permutation_refl|]. intros i l n N L. cbn. split; [now apply firstn_length_le|]. split; [rewrite <- (firstn_skipn n l) in N; clear - N; induction (firstn n l) as [|x l' IH]; [constructor|]; cbn in N; inversion N; subst; constructor; [rewrite in_app_iff in *; tauto | auto]|].
      intros x J. rewrite <- (firstn_skipn n l). apply in_app_iff. now left.
    + apply pool_is_active in H2 as (p & J & _). eauto.
Qed.

(** * C63: runs with several phases *)
(** as long as the phases only relax k and a0, no call of step() raises: not the changes of phase, not the rounds after them *)
Theorem C63_no_step_raises : forall so (g : args QcA) profiles (stakes costs : list Qc) (s0 s : sim QcA) ch, set_order so -> init g profiles stakes costs = Ok s0 -> one_at_a_time g -> relaxing g ->
  sound_inputs g stakes -> ~ degenerate_cip50 g -> reach so s0 s -> fair ch -> exists s', sim_step so ch s = Ok s'.
Proof. intros. eapply every_step; eassumption. Qed.
Theorem C63_run_model_returns : forall so (g : args QcA) profiles (stakes costs : list Qc) (s0 : sim QcA) ch, set_order so -> init g profiles stakes costs = Ok s0 -> one_at_a_time g -> relaxing g ->
  sound_inputs g stakes -> ~ degenerate_cip50 g -> (forall i, fair (ch i)) -> exists s, run_model so ch s0 = Ok s.
Proof. intros. eapply every_run; eassumption. Qed.
(** and every pool, old or new, is worth having under the parameters in force *)
Theorem C63_every_pool_has_potential_profit : forall so (g : args QcA) profiles (stakes costs : list Qc) (s0 : sim QcA) w, set_order so -> init g profiles stakes costs = Ok s0 -> one_at_a_time g -> relaxing g ->
  sound_inputs g stakes -> ~ degenerate_cip50 g -> visible so s0 w -> forall id p, active w id p ->
  exists u, potential_profit (A := QcA) (w_rss w) (p_pledge p) (p_cost p) = Ok u /\ 0 < u.
Proof. intros so g profiles stakes costs s0 w SO H OT RL SI ND V id p J. exists (p_pp p). eapply every_pool; eassumption. Qed.
(** the places for missing pools suffice for every later phase: the rankings are never shorter than k + 1 *)
Theorem C63_rankings_are_long_enough : forall so (g : args QcA) profiles (stakes costs : list Qc) (s0 : sim QcA) w, set_order so -> init g profiles stakes costs = Ok s0 -> one_at_a_time g -> relaxing g ->
  sound_inputs g stakes -> ~ degenerate_cip50 g -> visible so s0 w -> (1 <= r_k (w_rss w) /\ r_k (w_rss w) + 1 <= Z.of_nat (length (w_rank w)) /\ r_k (w_rss w) + 1 <= Z.of_nat (length (w_rankm w)))%Z.
Proof.
  intros so g profiles stakes costs s0 w SO H OT RL SI ND V. destruct (every_visible so SO g profiles stakes costs s0 H OT RL SI ND w V) as [G ((_ & _ & K & M) & _)].
  assert (I0 := g_inv _ _ _ _ _ G). assert (Q : forall Kf h refs l, rank_ok (A := QcA) Kf h (Z.to_nat (r_k (w_rss (s_w s0)) + 1)) refs l -> (r_k (w_rss w) + 1 <= Z.of_nat (length l))%Z).
  { intros Kf h refs l (_ & P & _). apply Permutation_length in P. unfold sl_elems in P. rewrite map_length, app_length, repeat_length in P. lia. }
  split; [exact K|]. split; [eapply Q, (i_rank _ _ _ _ _ _ I0) | eapply Q, (i_rankm _ _ _ _ _ _ I0)].
Qed.

(** a run with two phases, k and a0 both lowered in the second: it gets there, and a pool is opened in it *)
Definition relaxing_args : args QcA :=
  mkArgs (A := QcA) (Single 4%Z) (Multi [Q2Qc 2; Q2Qc 1]) (Multi [Q2Qc (3#10); Q2Qc (1#10)]) (Single 0) (Single (Q2Qc (1#1000000))) (Single 100%Z) (Single (Q2Qc 2)) (Single Sequential) (Single true) 0 0 false 2.
Lemma relaxing_sound : sound_inputs relaxing_args demo_stakes.
Proof. repeat split; try discriminate; [exact demo_stakes_pos | cbn; intros x [<-|[<-|[]]]; discriminate | cbn; intros x [<-|[<-|[]]]; discriminate]. Qed.
Lemma relaxing_relaxing : relaxing relaxing_args.
Proof.
  split; intros x y (l & i & E & E1 & E2); injection E as <-; (destruct i as [|[|[|i]]]; cbn in E1, E2; try discriminate); injection E1 as <-; injection E2 as <-.
  - split; [discriminate|]. split; [exists 2%Z | exists 1%Z]; now apply Qc_is_canon.
  - cbn. discriminate.
Qed.
Example C63_instance : exists s0 s, init relaxing_args demo_profiles demo_stakes demo_costs = Ok s0 /\ one_at_a_time relaxing_args /\ relaxing relaxing_args /\ ~ single_phase relaxing_args /\ sound_inputs relaxing_args demo_stakes /\ ~ degenerate_cip50 relaxing_args /\
  reach so_id s0 s /\ s_phase s = 1%nat /\ r_k (w_rss (s_w s)) = 1%Z /\ r_a0 (w_rss (s_w s)) = Q2Qc (1#10) /\ exists p, active (s_w s) 16 p.
Proof.
  destruct (steps_check (init relaxing_args demo_profiles demo_stakes demo_costs) 7 (fun s => Nat.eqb (s_phase s) 1 && Z.eqb (r_k (w_rss (s_w s))) 1 && Qc_eqb (r_a0 (w_rss (s_w s))) (Q2Qc (1#10)) && pool_is (s_w s) 16 (fun _ => true))) as (s0 & s & H0 & H1 & H2); [vm_compute; reflexivity|]. exists s0, s. split; [assumption|].
  apply andb_true_iff in H2 as [H2 H3]. apply andb_true_iff in H2 as [H2 H4]. apply andb_true_iff in H2 as [H2 H5].
  split; [constructor; [right; reflexivity | constructor]|]. split; [|split; [|split; [|split; [intros [E _]; discriminate|]]]].
  - exact relaxing_relaxing.
  - intros S. destruct (S (Multi [SetK (A := QcA) (Q2Qc 2); SetK (A := QcA) (Q2Qc 1)])) as (v & E); [cbn; auto | discriminate].
  - exact relaxing_sound.
  - split; [now apply (steps_reach 7)|]. apply Nat.eqb_eq in H2. apply Z.eqb_eq in H5. split; [assumption|]. split; [assumption|]. split; [destruct (Qc_eqb_spec (r_a0 (w_rss (s_w s))) (Q2Qc (1#10))); [assumption | discriminate]|].
    apply pool_is_active in H3 as (p & J & _). eauto.
Qed.
