(** An equilibrium is stable (C31): after a round in which every agent was activated and nobody moved, no activation of any agent, in any order and
    any number of times, changes anything until the parameters change. *)
From Coq Require Import ZArith QArith Qcanon List Bool Arith Lia Permutation.
From Verif Require Import Num Py QcTac Rewards SortedKeyList World Stakeholder Helper Sched Sim Init Reach ListFacts Inv Eval Exec Step SimInv Spec PropInit Demo PropSched Ends Frame PropRun ExactInv PropState PropExact PropMove PropPhase
  PropBatchRun Stable.
Import ListNotations.
Open Scope nat_scope.

Lemma same_lists {B C} (l l' : list (B * C)) : map snd l' = map snd l -> (forall k k' e, In (k, e) l -> In (k', e) l' -> k = k') -> l' = l.
Proof.
  revert l'. induction l as [|[k e] l IH]; intros [|[k' e'] l'] E F; try discriminate; [reflexivity|]. cbn in E. injection E as -> E.
  rewrite (F k k' e) by (now left). f_equal. apply IH; [assumption|]. intros; eapply F; right; eassumption.
Qed.

Section Stay.
  Variable so : list nat -> list nat -> list nat.
  Hypothesis SO : set_order so.
  Notation eg := (egood False False False).

  (** the same state but for discarded objects *)
  Definition alike (v w : world QcA) : Prop := same_state v w /\ w_agents w = w_agents v /\ w_next v <= w_next w /\ w_idseq v <= w_idseq w.
  Lemma alike_refl w : alike w w. Proof. split; [apply same_state_refl|]. auto. Qed.
  Lemma alike_trans u v w : alike u v -> alike v w -> alike u w.
  Proof. intros (A1 & A2 & A3 & A4) (B1 & B2 & B3 & B4). split; [eapply same_state_trans; eassumption|]. split; [congruence | lia]. Qed.

  Lemma alike_wrel m v w : eg m v -> eg m w -> alike v w -> wrel (A := QcA) (w_next v) (w_next w - w_next v) (w_idseq v) (w_idseq w - w_idseq v) (w_pools v) v w.
  Proof.
    intros Gv Gw ((P & Ac & R1 & R2 & E1 & E2 & E3 & E4 & E5 & E6 & E7) & Ag & L1 & L2). assert (Iv := g_inv _ _ _ _ _ Gv). assert (Iw := g_inv _ _ _ _ _ Gw).
    assert (Hr : forall r, In r (values (w_pools v)) -> exists p p', get (w_heap v) r = Some p /\ get (w_heap w) r = Some p' /\ same_pool p p' /\ p_id p <= w_idseq v /\ NoDup (keys (p_delegators p)) /\ NoDup (keys (p_delegators p'))).
    { intros r J. apply In_values in J as (id & J); [|apply (i_nd _ _ _ _ _ _ Iv)]. destruct (i_reg _ _ _ _ _ _ Iv id r J) as (p & G & Ep & Lp & N & _).
      destruct (Ac id p) as (p' & (r' & J' & G') & S); [now exists r|]. assert (r' = r) by congruence. subst r'. destruct (i_reg _ _ _ _ _ _ Iw id r J') as (q & Gq & _ & _ & N' & _). assert (q = p') by congruence. subst q.
      exists p, p'. repeat (split; [assumption || lia|]). assumption. }
    assert (Q1 := i_rank _ _ _ _ _ _ Iv). assert (Q1' := i_rank _ _ _ _ _ _ Iw). assert (Q2 := i_rankm _ _ _ _ _ _ Iv). assert (Q2' := i_rankm _ _ _ _ _ _ Iw).
    rewrite P in Q1', Q2'. rewrite E1 in Q2'.
    assert (RO : forall r, In r (values (w_pools v)) -> r < w_next v). { intros r J. destruct (Hr r J) as (p & _ & G & _). exact (i_fresh _ _ _ _ _ _ Iv r p G). }
    assert (RE : forall K (l l' : sl QcA), rank_ok K (w_heap v) m (values (w_pools v)) l -> rank_ok K (w_heap w) m (values (w_pools v)) l' -> sl_elems l' = sl_elems l ->
      (forall p p', same_pool p p' -> K p' = K p) -> l' = l).
    { intros K l l' Q Q' El HK. apply same_lists; [exact El|]. intros k k' [r|] J J'.
      - assert (I := rank_ok_elem _ _ _ _ _ _ _ Q J). destruct (Hr r I) as (p & p' & G & G' & S & _). destruct Q as (_ & _ & F). destruct Q' as (_ & _ & F').
        destruct (F _ _ J) as (q & Gq & Kq). destruct (F' _ _ J') as (q' & Gq' & Kq'). assert (q = p) by congruence. assert (q' = p') by congruence. subst. rewrite (HK p p' S) in Kq'. congruence.
      - destruct Q as (_ & _ & F). destruct Q' as (_ & _ & F'). specialize (F _ _ J). specialize (F' _ _ J'). cbn in F, F'. congruence. }
    constructor; try assumption; try reflexivity; try lia.
    - eapply RE; [exact Q1 | exact Q1' | exact R1|]. intros p p' (S1 & S2 & S3 & S4 & S5 & S6 & S7 & S8 & S9 & _). unfold pool_key. now rewrite S1, S8, S9.
    - eapply RE; [exact Q2 | exact Q2' | exact R2|]. intros p p' (S1 & S2 & S3 & S4 & S5 & S6 & S7 & S8 & S9 & _). unfold pool_key_myopic. now rewrite S1, S3, S4, S5, S6.
    - intros r p [L|L] G.
      + destruct (Hr r L) as (q & p' & Gq & G' & (S1 & S2 & S3 & S4 & S5 & S6 & S7 & S8 & S9 & S10) & Lp & N & N'). assert (q = p) by congruence. subst q. split; [auto|]. exists p'. rewrite (phi_reg _ _ _ RO r L). split; [assumption|].
        constructor; try assumption. now rewrite psi_old.
      + apply (i_fresh _ _ _ _ _ _ Iv) in G. lia.
    - rewrite <- (map_id (w_rank v)) at 2. apply map_ext_in. intros [k [r|]] J; unfold em; cbn [fst snd option_map].
      + assert (I := rank_ok_elem _ _ _ _ _ _ _ Q1 J). destruct (Hr r I) as (p & _ & G & _ & _ & Lp & _). destruct Q1 as (_ & _ & F). destruct (F _ _ J) as (q & Gq & Kq). assert (q = p) by congruence. subst q. injection Kq as <-.
        rewrite (phi_reg _ _ _ RO r I). unfold mkey, pool_key. cbn [fst snd]. rewrite zpsi_psi, psi_old by assumption. reflexivity.
      + destruct Q1 as (_ & _ & F). specialize (F _ _ J). cbn in F. subst k. unfold mkey, key_none, zpsi. cbn [fst snd]. destruct (Z.leb_spec 0 (Z.of_nat (w_idseq v))); [reflexivity | lia].
    - intros r J. apply in_map_iff in J as ([k e] & E & J). cbn in E. subst e. exact (rank_ok_elem _ _ _ _ _ _ _ Q1 J).
    - intros r J. apply in_map_iff in J as ([k e] & E & J). cbn in E. subst e. exact (rank_ok_elem _ _ _ _ _ _ _ Q2 J).
  Qed.

  Lemma all_settled m v uid ag : eg m v -> get (w_agents v) uid = Some ag -> settled (A := QcA) (w_idseq v) (w_pools v) ag.
  Proof.
    intros Gv Ga st Es id r J. assert (Iv := g_inv _ _ _ _ _ Gv). destruct (g_ok _ _ _ _ _ Gv) as [_ Ok]. destruct (Ok _ _ Ga) as [_ Nd]. destruct (Nd st Es) as [_ N].
    assert (O : ow_of v uid id = Some r). { unfold ow_of. rewrite Ga, Es. now apply In_get. }
    apply (i_own _ _ _ _ _ _ Iv) in O as [O _]. split; [eapply values_In; exact O|]. destruct (i_reg _ _ _ _ _ _ Iv _ _ O) as (p & _ & _ & L & _). lia.
  Qed.

  (** agent [a] was asked in such a state and kept its strategy *)
  Definition asked m (w : world QcA) (a : nat) : Prop := exists v v', eg m v /\ alike v w /\ update_strategy so v a = Ok v' /\ forall ag, get (w_agents v') a = Some ag -> a_new ag = None.

  Lemma kept_step m w a w' : eg m w -> update_strategy so w a = Ok w' -> (forall ag, get (w_agents w') a = Some ag -> a_new ag = None) -> eg m w' /\ alike w w' /\ agent_step so w a = Ok w'.
  Proof.
    intros G U K. destruct (update_same False False False so SO m w w' a G U) as (S1 & _ & ag & new & Ga & Hn & Gn & Hk). specialize (K _ Gn). cbn in K. destruct (Hk K) as [Ea St].
    destruct (exact_step False False False so SO m w a w' G St) as [G' C]. split; [assumption|]. split; [|assumption]. split; [assumption|]. split; [assumption|].
    destruct C as [(w2 & (_ & L1 & L2 & _) & _ & _ & E)|(ag0 & st & w2 & nw & w3 & G0 & _ & _ & _ & _ & _ & _ & U2 & _)].
    - rewrite E. cbn. auto.
    - exfalso. rewrite U in U2. injection U2 as ->. cbn [w_agents put_agent with_agents] in Gn. rewrite get_set_eq in Gn. assert (E : agent_set_new (Some nw) ag0 = agent_set_new new ag) by congruence. apply (f_equal a_new) in E. cbn in E. congruence.
  Qed.

  Lemma asked_again m w a : eg m w -> asked m w a -> exists w', agent_step so w a = Ok w' /\ eg m w' /\ alike w w'.
  Proof.
    intros Gw (v & v' & Gv & Al & U & K). assert (RO : forall r, reg (w_pools v) r -> r < w_next v).
    { intros r J. assert (Iv := g_inv _ _ _ _ _ Gv). apply In_values in J as (id & J); [|apply (i_nd _ _ _ _ _ _ Iv)]. destruct (i_reg _ _ _ _ _ _ Iv id r J) as (p & G & _). exact (i_fresh _ _ _ _ _ _ Iv r p G). }
    destruct (update_rel so (w_next v) (w_next w - w_next v) (w_idseq v) (w_idseq w - w_idseq v) (w_pools v) RO v w a (alike_wrel m v w Gv Gw Al) (fun ag E => all_settled m v a ag Gv E) v' U) as (w' & U' & D).
    assert (K' : forall ag, get (w_agents w') a = Some ag -> a_new ag = None).
    { intros ag' G'. destruct (update_same False False False so SO m v v' a Gv U) as (_ & _ & ag & new & _ & _ & Gn & _). exact (D _ Gn (K _ Gn) _ G'). }
    destruct (kept_step m w a w' Gw U' K') as (G1 & G2 & G3). eauto.
  Qed.
  Lemma asked_alike m w w' a : alike w w' -> asked m w a -> asked m w' a.
  Proof. intros H (v & v' & Gv & Al & U). exists v, v'. split; [assumption|]. split; [|assumption]. eapply alike_trans; eassumption. Qed.

  (** when everybody has been asked, any sequence of activations succeeds and changes nothing *)
  Lemma all_asked m order : forall w, eg m w -> Forall (asked m w) order -> exists w', foldM (agent_step so) order w = Ok w' /\ eg m w' /\ alike w w'.
  Proof.
    induction order as [|a order IH]; intros w Gw F; [exists w; split; [reflexivity|]; split; [assumption | apply alike_refl]|].
    inversion F as [|? ? Fa Fo]; subst. destruct (asked_again m w a Gw Fa) as (w1 & E1 & G1 & A1). cbn [foldM]. rewrite E1. cbn [bind].
    destruct (IH w1 G1) as (w' & E' & G' & A'). { rewrite Forall_forall in *. intros b J. eapply asked_alike; [exact A1 | now apply Fo]. }
    exists w'. split; [assumption|]. split; [assumption|]. eapply alike_trans; eassumption.
  Qed.

  (** a round in which nobody moves asks everybody in it *)
  Lemma idle_asks m evs : only_steps evs -> forall w w', eg m w -> foldM (do_event so) evs w = Ok w' -> w_idle w' = true ->
    eg m w' /\ alike w w' /\ forall a, In (EStep a) evs -> asked m w' a.
  Proof.
    induction evs as [|e evs IH]; intros Os w w' Gw F Ei.
    - injection F as <-. split; [assumption|]. split; [apply alike_refl | intros a []].
    - unfold only_steps in Os. inversion Os as [|? ? (a & ->) Os']; subst. assert (F' := F). cbn [foldM] in F'. apply bind_ok in F' as (w1 & F1 & F2). cbn [do_event] in F1.
      destruct (events_frame so _ _ _ F) as (_ & _ & P). destruct (P Ei [EStep a] evs w1 eq_refl) as [_ I1]; [cbn [foldM do_event]; now rewrite F1|].
      destruct (exact_step False False False so SO m w a w1 Gw F1) as [G1 [(w2 & Fr & Ea & U & E)|(ag0 & st & w2 & nw & w3 & _ & _ & _ & _ & _ & _ & _ & _ & E)]]; [|subst w1; discriminate].
      assert (K : forall ag, get (w_agents w1) a = Some ag -> a_new ag = None). { intros ag Ga. rewrite Ea in Ga. exact (proj1 (g_new _ _ _ _ _ Gw _ _ Ga)). }
      destruct (kept_step m w a w1 Gw U K) as (_ & A1 & _). destruct (IH Os' w1 w' G1 F2 Ei) as (G' & A' & X). assert (A2 := alike_trans _ _ _ A1 A'). split; [assumption|]. split; [assumption|].
      intros b [E1|J]; [|now apply X]. injection E1 as <-. exists w, w1. split; [assumption|]. split; [assumption|]. split; assumption.
  Qed.

  Definition at_rest m (w : world QcA) : Prop := eg m w /\ w_idle w = true /\ forall a, In a (keys (w_agents w)) -> asked m w a.
  Lemma rest_events m evs : only_steps evs -> forall w w', at_rest m w -> foldM (do_event so) evs w = Ok w' -> at_rest m w' /\ alike w w'.
  Proof.
    induction evs as [|e evs IH]; intros Os w w' Rw F; [injection F as <-; split; [assumption | apply alike_refl]|].
    unfold only_steps in Os. inversion Os as [|? ? (a & ->) Os']; subst. cbn [foldM] in F. apply bind_ok in F as (w1 & F1 & F2). cbn [do_event] in F1. destruct Rw as (Gw & Iw & As).
    assert (Ka : In a (keys (w_agents w))). { unfold agent_step, update_strategy, the_agent in F1. apply bind_ok in F1 as (u & F1 & _). apply bind_ok in F1 as (ag & F1 & _). apply of_option_ok in F1. apply get_In in F1. now apply (in_map fst) in F1. }
    destruct (asked_again m w a Gw (As a Ka)) as (w1' & E1 & G1 & A1). assert (w1' = w1) by congruence. subst w1'.
    destruct (IH Os' w1 w') as [R' A']; [|assumption|split; [assumption | eapply alike_trans; eassumption]].
    destruct A1 as (S1 & Ea & L1). split; [assumption|]. split. { destruct S1 as (_ & _ & _ & _ & _ & _ & _ & _ & _ & _ & E). congruence. }
    intros b J. rewrite Ea in J. apply (asked_alike m w); [split; [assumption|]; now split | now apply As].
  Qed.

  Variables (g : args QcA) (profiles : list profile) (stakes costs : list Qc) (s0 : sim QcA).
  Hypothesis H1 : init g profiles stakes costs = Ok s0.
  Hypothesis H2 : one_at_a_time g.
  Let m := Z.to_nat (r_k (w_rss (s_w s0)) + 1).
  Lemma by_one s : reach so s0 s -> one_by_one (c_sched (s_c s)).
  Proof. intros R. rewrite (reach_conf so s0 s R). assert (X := init_fresh _ _ _ _ _ H1). destruct (fs_order _ _ _ _ _ X) as (_ & E1 & E2). rewrite E1. unfold one_at_a_time in H2. rewrite Forall_forall in H2. now apply H2. Qed.
  Lemma reach_eg s : reach so s0 s -> eg m (s_w s).
  Proof. intros R. exact (proj1 (exact_all False False False so SO _ _ _ _ _ _ H1 H2 (inputs_none _ _) (vis_between _ so s0 s R))). Qed.
  Lemma rest_idle (w : world QcA) : w_idle w = true -> with_idle true w = w.
  Proof. destruct w. cbn. now intros ->. Qed.

  (** an idle round leaves the state at rest *)
  Lemma idle_rests s ch w : fair ch -> reach so s0 s -> schedule_step so (c_sched (s_c s)) ch (s_w s) = Ok w -> w_idle w = true -> at_rest m w /\ alike (s_w s) w.
  Proof.
    intros F R Hw Ei. assert (B := by_one s R). assert (G := reach_eg s R). unfold schedule_step in Hw. apply bind_ok in Hw as (evs & Hev & Hw). assert (Os := round_only_steps _ _ _ _ B Hev).
    destruct (idle_asks m evs Os _ _ G Hw Ei) as (Gw & Al & As). split; [|assumption]. split; [assumption|]. split; [assumption|]. intros a J. apply As.
    destruct Al as (_ & Ea & _). rewrite Ea in J. destruct (C26_round (c_sched (s_c s)) ch (keys (w_agents (s_w s))) F (proj1 (g_ok _ _ _ _ _ G))) as (evs' & E' & X). assert (evs' = evs) by congruence. subst evs'.
    destruct B as [B|B]; rewrite B in X; [|rewrite X; now apply in_map]. destruct X as (l & P & ->). apply in_map. eapply Permutation_in; [symmetry; exact P | exact J].
  Qed.
  (** a state at rest stays at rest until the phase changes *)
  Lemma rest_step s ch s' : reach so s0 s -> at_rest m (s_w s) -> sim_step so ch s = Ok s' -> s_phase s' = s_phase s -> (Z.of_nat (s_steps s) < s_maxit s)%Z ->
    at_rest m (s_w s') /\ alike (s_w s) (s_w s') /\ s_cons s' = S (s_cons s).
  Proof.
    intros R Rs Hs Ep L. apply sim_step_cases in Hs as [(L' & _)|(_ & w & Hw & X)]; [lia|]. unfold schedule_step in Hw. apply bind_ok in Hw as (evs & Hev & Hw).
    destruct (rest_events m evs (round_only_steps _ _ _ _ (by_one s R) Hev) _ _ Rs Hw) as [Rw Aw]. assert (Iw := proj1 (proj2 Rw)).
    destruct X as [(Ei & ->)|[(Ei & Lc & ->)|[(Ei & Lc & Lp & s4 & H4 & ->)|(Ei & Lc & Lp & ->)]]]; [congruence | | | ].
    - cbn. rewrite rest_idle by assumption. auto.
    - exfalso. apply phase_frame in H4 as (_ & _ & _ & E4 & _). cbn in Ep, E4. lia.
    - cbn. auto.
  Qed.
  Lemma idle_step_rests s ch s' : fair ch -> reach so s0 s -> sim_step so ch s = Ok s' -> s_phase s' = s_phase s -> s_cons s' = S (s_cons s) -> at_rest m (s_w s').
  Proof.
    intros F R Hs Ep Ec. apply sim_step_cases in Hs as [(L' & ->)|(_ & w & Hw & X)]; [cbn in Ec; lia|].
    destruct X as [(Ei & ->)|[(Ei & Lc & ->)|[(Ei & Lc & Lp & s4 & H4 & ->)|(Ei & Lc & Lp & ->)]]]; [cbn in Ec; lia | | | ].
    - cbn. rewrite rest_idle by assumption. exact (proj1 (idle_rests s ch w F R Hw Ei)).
    - exfalso. apply phase_frame in H4 as (_ & _ & _ & E4 & _). cbn in Ep, E4. lia.
    - exact (proj1 (idle_rests s ch w F R Hw Ei)).
  Qed.
  Lemma phase_up (s : sim QcA) ch s' : sim_step so ch s = Ok s' -> s_phase s <= s_phase s'.
  Proof.
    intros Hs. apply sim_step_cases in Hs as [(L' & ->)|(_ & w & Hw & X)]; [cbn; lia|].
    destruct X as [(Ei & ->)|[(Ei & Lc & ->)|[(Ei & Lc & Lp & s4 & H4 & ->)|(Ei & Lc & Lp & ->)]]]; cbn; try lia. apply phase_frame in H4 as (_ & _ & _ & E4 & _). cbn in E4. lia.
  Qed.
  Lemma rounds_up (s1 : sim QcA) l s2 : rounds so s1 l s2 -> s_phase s1 <= s_phase s2.
  Proof. induction 1 as [|l ch s s' R IH L H]; [lia|]. apply phase_up in H. lia. Qed.
  Lemma rest_rounds s1 l s2 : reach so s0 s1 -> at_rest m (s_w s1) -> rounds so s1 l s2 -> s_phase s2 = s_phase s1 ->
    reach so s0 s2 /\ at_rest m (s_w s2) /\ alike (s_w s1) (s_w s2) /\ s_cons s2 = s_cons s1 + length l /\ Forall (quiet so) l.
  Proof.
    intros R1 Rs R. assert (Lp : s_phase s1 <= s_phase s2). { exact (rounds_up _ _ _ R). }
    induction R as [|l ch s s' R IH L H]; intros Ep.
    - cbn. rewrite Nat.add_0_r. repeat (split; [assumption || reflexivity || apply alike_refl|]). constructor.
    - assert (Up := phase_up _ _ _ H). assert (Lp' : s_phase s1 <= s_phase s). { exact (rounds_up _ _ _ R). }
      destruct IH as (I1 & I2 & I3 & I4 & I5); [lia | lia|]. destruct (rest_step s ch s' I1 I2 H) as (J1 & J2 & J3); [lia | assumption|].
      split; [econstructor; eassumption|]. split; [assumption|]. split; [eapply alike_trans; eassumption|]. split; [rewrite app_length; cbn; lia|]. apply Forall_app. split; [assumption|]. constructor; [|constructor].
      intros evs1 evs2 w1 Hev Hw. assert (Os := round_only_steps _ _ _ _ (by_one s I1) Hev). unfold only_steps in Os. apply Forall_app in Os as [Os _]. destruct (rest_events m evs1 Os _ _ I2 Hw) as [_ (_ & Ea & _)]. unfold strategies. now rewrite Ea.
  Qed.
  (** in a run with one phase, the count of idle rounds is positive only when the last round was idle *)
  Lemma counted_rests l s : c_phases (s_c s0) = 1 -> rounds so s0 l s -> Forall (fun x => fair (fst x)) l -> 0 < s_cons s -> at_rest m (s_w s).
  Proof.
    intros Ph R. assert (X := init_fresh _ _ _ _ _ H1). destruct (fs_start _ _ _ _ _ X) as (_ & S2 & _). destruct R as [|l ch s s' R L H]; intros F C; [lia|]. apply Forall_app in F as [_ F]. inversion F as [|? ? Fc _]; subst. cbn in Fc.
    assert (Rs := rounds_reach _ _ _ _ R). destruct (rounds_shape _ _ _ _ R) as (Ec & _). apply sim_step_cases in H as [(L' & _)|(_ & w & Hw & Y)]; [lia|].
    destruct Y as [(Ei & ->)|[(Ei & Lc & ->)|[(Ei & Lc & Lp & s4 & H4 & ->)|(Ei & Lc & Lp & ->)]]].
    - cbn in C. lia.
    - cbn. rewrite rest_idle by assumption. exact (proj1 (idle_rests s ch w Fc Rs Hw Ei)).
    - rewrite Ec in Lp. lia.
    - exact (proj1 (idle_rests s ch w Fc Rs Hw Ei)).
  Qed.
  Lemma rest_order w order : at_rest m w -> (forall a, In a order -> In a (keys (w_agents w))) -> exists w', foldM (agent_step so) order w = Ok w' /\ w_agents w' = w_agents w /\ same_state w w'.
  Proof.
    intros (G & _ & As) J. destruct (all_asked m order w G) as (w' & E & _ & S & Ea & _); [apply Forall_forall; auto|]. eauto.
  Qed.
End Stay.

(** After a round in which nobody moved (the count of idle rounds went up) and which did not end the phase, activating any agents, in any order and
    any number of times, raises nothing and changes nothing: no strategy, no pool, no ranking. *)
Theorem C31_no_agent_moves_after_an_idle_round : forall so g profiles stakes costs (s0 s s1 : sim QcA) ch order, set_order so -> init g profiles stakes costs = Ok s0 -> one_at_a_time g ->
  reach so s0 s -> fair ch -> sim_step so ch s = Ok s1 -> s_cons s1 = S (s_cons s) -> s_phase s1 = s_phase s ->
  (forall a, In a order -> In a (keys (w_agents (s_w s1)))) ->
  exists w', foldM (agent_step so) order (s_w s1) = Ok w' /\ w_agents w' = w_agents (s_w s1) /\ same_state (s_w s1) w'.
Proof.
  intros so g profiles stakes costs s0 s s1 ch order SO H1 H2 R F Hs Ec Ep J. eapply (rest_order so SO s0); [|assumption]. eapply (idle_step_rests so SO); eassumption.
Qed.

(** So all later rounds of the phase, whatever the scheduler chooses, are idle: nobody changes strategy at any point of them, pools and rankings stay as
    they are, and every one of them is counted. *)
Theorem C31_later_rounds_are_idle : forall so g profiles stakes costs (s0 s s1 s2 : sim QcA) ch l, set_order so -> init g profiles stakes costs = Ok s0 -> one_at_a_time g ->
  reach so s0 s -> fair ch -> sim_step so ch s = Ok s1 -> s_cons s1 = S (s_cons s) -> s_phase s1 = s_phase s ->
  rounds so s1 l s2 -> s_phase s2 = s_phase s1 ->
  Forall (quiet so) l /\ w_agents (s_w s2) = w_agents (s_w s1) /\ same_state (s_w s1) (s_w s2) /\ s_cons s2 = s_cons s1 + length l.
Proof.
  intros so g profiles stakes costs s0 s s1 s2 ch l SO H1 H2 R F Hs Ec Ep Rl Ep2. assert (Rs := idle_step_rests so SO g profiles stakes costs s0 H1 H2 s ch s1 F R Hs Ep Ec).
  assert (R1 : reach so s0 s1) by (econstructor; eassumption). destruct (rest_rounds so SO g profiles stakes costs s0 H1 H2 s1 l s2 R1 Rs Rl Ep2) as (_ & _ & (S & Ea & _) & C & Q). auto.
Qed.

(** In a run with one phase, a reported convergence is an equilibrium: in the reported state no agent, activated in any order, would change its strategy. *)
Theorem C31_reported_equilibrium : forall so g profiles stakes costs (s0 s s' : sim QcA) l ch f order, set_order so -> init g profiles stakes costs = Ok s0 -> one_at_a_time g ->
  (forall p, In p (fields g) -> exists v, p = Single v) -> (0 < g_itac g)%Z -> rounds so s0 l s -> Forall (fun x => fair (fst x)) l -> fair ch ->
  sim_step so ch s = Ok s' -> s_out s' = s_out s ++ [f] -> f_converged f = true -> (forall a, In a order -> In a (keys (w_agents (f_world f)))) ->
  exists w', foldM (agent_step so) order (f_world f) = Ok w' /\ w_agents w' = w_agents (f_world f) /\ same_state (f_world f) w'.
Proof.
  intros so g profiles stakes costs s0 s s' l ch f order SO H OT Sg It R Fl Fc St Eo Cv J. assert (H' := init_fresh _ _ _ _ _ H). destruct (fs_start _ _ _ _ _ H') as (S1 & S2 & S3 & S4 & S5 & S6 & S7 & S8 & S9).
  assert (Ph : c_phases (s_c s0) = 1).
  { apply (fs_phases _ _ _ _ _ H'). destruct (c_multi (s_c s0)) as [|l0 ls] eqn:E; [reflexivity|]. exfalso. assert (K : In l0 (c_multi (s_c s0))) by (rewrite E; now left).
    apply (fs_multi _ _ _ _ _ H') in K. apply Sg in K as (v & K). discriminate. }
  destruct (rounds_shape _ _ _ _ R) as (Ec & _). assert (Ne : forall X (l : list X) x, l <> l ++ [x]) by (intros X l0 x E; apply (f_equal (@length X)) in E; rewrite app_length in E; cbn in E; lia).
  eapply (rest_order so SO s0); [|assumption].
  assert (SH := step_shape _ _ _ _ St). destruct SH as (C1 & _ & _ & [(L & _ & D & _ & _ & _ & _ & W & C)|(L & _ & _ & [(_ & _ & C & _)|(_ & D & F & [(_ & _ & C & _)|(_ & _ & C & _)])])]); try (rewrite Eo in C; symmetry in C; now apply Ne in C).
  - rewrite Eo in C. apply app_inv_head in C. injection C as ->. cbn in Cv |- *. unfold has_converged in Cv. apply Z.leb_le in Cv. apply (counted_rests so SO g profiles stakes costs s0 H OT l s Ph R Fl). rewrite Ec, S9 in Cv. lia.
  - rewrite Eo in C. apply app_inv_head in C. injection C as ->. cbn [f_world].
    assert (R' : rounds so s0 (l ++ [(ch, s)]) s') by (econstructor; eassumption). apply (counted_rests so SO g profiles stakes costs s0 H OT _ s' Ph R'); [apply Forall_app; split; [assumption | now constructor]|]. rewrite Ec, S9 in F. lia.
Qed.

Lemma no_choice_fair : fair no_choice.
Proof.
  split; [intros; apply Permutation_refl|]. intros i l n N L. cbn. split; [now apply firstn_length_le|]. split; [rewrite <- (firstn_skipn n l) in N; clear - N; induction (firstn n l) as [|x l' IH]; [constructor|]; cbn in N; inversion N; subst; constructor; [rewrite in_app_iff in *; tauto | auto]|].
  intros x J. rewrite <- (firstn_skipn n l). apply in_app_iff. now left.
Qed.
(** A run to which the theorems apply: the demo run has three pools after two rounds, its third round is idle and in the same phase, and a fourth round follows. *)
Example C31_instance : exists s0 s s1 s2 : sim QcA, demo_init = Ok s0 /\ one_at_a_time demo_seq /\ reach so_id s0 s /\ fair no_choice /\ sim_step so_id no_choice s = Ok s1 /\ s_cons s1 = S (s_cons s) /\ s_phase s1 = s_phase s /\
  rounds so_id s1 [(no_choice, s1)] s2 /\ s_phase s2 = s_phase s1 /\ w_pools (s_w s1) <> [].
Proof.
  assert (H : match (let! s0 := demo_init in let! sa := sim_step so_id no_choice s0 in let! s := sim_step so_id no_choice sa in let! s1 := sim_step so_id no_choice s in let! s2 := sim_step so_id no_choice s1 in Ok (s0, s, s1, s2)) with
    Ok (s0, s, s1, s2) => Nat.eqb (s_cons s1) (S (s_cons s)) && Nat.eqb (s_phase s1) (s_phase s) && Nat.eqb (s_phase s2) (s_phase s1) && (Z.of_nat (s_steps s1) <? s_maxit s1)%Z && negb (Nat.eqb (length (w_pools (s_w s1))) 0)
    | Err _ => false end = true) by (vm_compute; reflexivity).
  destruct demo_init as [s0|e]; cbn [bind] in H; [|discriminate]. destruct (sim_step so_id no_choice s0) as [sa|e] eqn:Ea; cbn [bind] in H; [|discriminate]. destruct (sim_step so_id no_choice sa) as [s|e] eqn:E0; cbn [bind] in H; [|discriminate]. destruct (sim_step so_id no_choice s) as [s1|e] eqn:E1; cbn [bind] in H; [|discriminate].
  destruct (sim_step so_id no_choice s1) as [s2|e] eqn:E2; cbn [bind] in H; [|discriminate]. apply andb_true_iff in H as [H H5]. apply andb_true_iff in H as [H H4]. apply andb_true_iff in H as [H H3]. apply andb_true_iff in H as [H1 H2].
  exists s0, s, s1, s2. split; [reflexivity|]. split; [exact demo_one|]. split; [econstructor; [econstructor; [constructor | exact Ea] | exact E0]|]. split; [exact no_choice_fair|]. split; [assumption|]. split; [now apply Nat.eqb_eq|]. split; [now apply Nat.eqb_eq|].
  split; [apply (rounds_next so_id s1 [] no_choice s1 s2); [constructor | now apply Z.ltb_lt | assumption]|]. split; [now apply Nat.eqb_eq|]. intros Ep. rewrite Ep in H5. discriminate.
Qed.
