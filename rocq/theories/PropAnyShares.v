(** C92: what a pool holds under every activation order, in every phase. *)
From Coq Require Import ZArith QArith Qcanon List Bool Arith Lia Permutation.
From Verif Require Import Num Py QcTac Rewards RewardFacts PropRewards SortedKeyList World Stakeholder Sched Sim Init Reach ListFacts Inv SimInv Spec Greedy PropInit Demo PropState Reporters ReporterFacts PropReporters PropRun PropIncome Persons PropBudget AnyOrder PropSimul.
From Verif Require Import AnyBooks PropBooks AnyShares PropAnyMetrics.
Import ListNotations.
Open Scope Qc_scope.

Definition stake_of (s0 : sim QcA) (a : nat) : option Qc := option_map (fun ag : agent QcA => a_stake ag) (get (w_agents (s_w s0)) a).
Lemma init_fine (g : args QcA) profiles (stakes costs : list Qc) (s0 : sim QcA) : init g profiles stakes costs = Ok s0 -> fine_rss (w_rss (s_w s0)).
Proof.
  intros H. destruct (init_inv _ _ _ _ _ H) as (r0 & s1 & ags & tot & ags' & tot' & H0 & H1 & H2 & _).
  assert (F0 : fine_rss r0).
  { assert (B : forall sc r, (let! r := set_k (A := QcA) (mkRss (A := QcA) sc 0%Z zero zero) (ofZ (-1)) in Ok (set_a0 r (ofZ (-1)))) = Ok r -> fine_rss r).
    { intros sc r E. apply bind_ok in E as (r' & E1 & E). injection E as <-. apply set_k_fine in E1. exact E1. }
    unfold make_rss in H0. repeat (destruct (g_scheme g) as [|z|z]; try discriminate H0; try exact (B _ _ H0); destruct z as [z|z|]; try discriminate H0; try exact (B _ _ H0); destruct z as [z|z|]; try discriminate H0; try exact (B _ _ H0); destruct z as [z|z|]; try discriminate H0; try exact (B _ _ H0)). }
  assert (F1 : fine_rss (w_rss (s_w s1))).
  { assert (S : forall v s s', fine_rss (w_rss (s_w s)) -> apply_setting (A := QcA) v s = Ok s' -> fine_rss (w_rss (s_w s'))).
    { intros v s s' G E. destruct v; cbn in E; try (injection E as <-; exact G). apply bind_ok in E as (r & Hr & E). injection E as <-. exact (set_k_fine _ _ _ Hr). }
    refine (foldM_inv _ (fun s : sim QcA => fine_rss (w_rss (s_w s))) _ (blank (A := QcA) r0) s1 F0 _ H1). intros s f s' _ G E. unfold set_field in E. destruct f as [v|l]; [exact (S _ _ _ G E)|].
    apply bind_ok in E as (v & _ & E). apply bind_ok in E as (s2 & E1 & E). apply S in E1; [|exact G]. injection E as <-. exact E1. }
  destruct (g_known g); [|now rewrite H2]. destruct H2 as (k' & _ & H2). exact (set_k_fine _ _ _ H2).
Qed.

Section Run.
  Variable so : list nat -> list nat -> list nat.
  Hypothesis SO : set_order so.
  Variables (g : args QcA) (profiles : list profile) (stakes costs : list Qc) (s0 : sim QcA).
  Hypothesis H : init g profiles stakes costs = Ok s0.
  Hypothesis F0 : 0 <= g_inactive g.
  Hypothesis F1 : g_inactive g < 1.
  Hypothesis Hx : forall x, In x stakes -> 0 <= x.
  Lemma run_both w : visible so s0 w -> both (stake_of s0) w.
  Proof.
    intros V. apply (visible_both so SO (stake_of s0) s0 w); [|exact V]. split.
    - eapply init_full; [exact I | exact covered_nil | | exact H]. intros b bg G. exact (proj1 (C27_stakes_nonneg g profiles stakes costs s0 b bg H G F0 F1 Hx)).
    - assert (Fr := init_fresh _ _ _ _ _ H). split; [intros r p E; rewrite (fs_heap _ _ _ _ _ Fr) in E; discriminate E|]. split; [|exact (init_fine _ _ _ _ _ H)].
      intros a ag G. assert (G' := G). apply (fs_agents _ _ _ _ _ Fr) in G' as (x & c & p & E & _). split; [now rewrite E|]. split; [unfold stake_of; now rewrite G|]. rewrite E. split; [|intros st id v C; discriminate C].
      intros st id v C J. destruct p; cbn in C; try discriminate C; injection C as <-; destruct J.
  Qed.
  Variable w : world QcA.
  Hypothesis V : visible so s0 w.
  Lemma agents_kept a : option_map (fun ag : agent QcA => a_stake ag) (get (w_agents w) a) = stake_of s0 a.
  Proof.
    unfold stake_of. assert (W := C56_agents_never_change QcA so s0 _ V). assert (E : map (fun e : nat * agent QcA => (fst e, a_stake (snd e))) (w_agents w) = map (fun e : nat * agent QcA => (fst e, a_stake (snd e))) (w_agents (s_w s0))).
    { unfold who in W. apply (f_equal (map (fun x => (fst x, snd (fst (snd x)))))) in W. rewrite !map_map in W. exact W. }
    clear - E. revert E. generalize (w_agents (s_w s0)), (w_agents w). intros d d' E.
    revert d E. induction d' as [|[k x] d' IH]; intros [|[k' x'] d] E; try discriminate E; [reflexivity|]. cbn [map fst snd] in E. injection E as E1 E2 E3. subst k'. cbn [get]. destruct (Nat.eqb a k); [cbn; congruence | now apply IH].
  Qed.
  Lemma within_stake a v : within (stake_of s0) a v -> exists ag, get (w_agents w) a = Some ag /\ v <= a_stake ag.
  Proof. intros (x & E & L). rewrite <- agents_kept in E. destruct (get (w_agents w) a) as [ag|]; [|discriminate E]. injection E as <-. eauto. Qed.
  Lemma pool_shares id p : active w id p ->
    p_id p = id /\ (exists ag, get (w_agents w) (p_owner p) = Some ag /\ 0 <= p_pledge p /\ p_pledge p <= a_stake ag) /\
    (forall a v, get (p_delegators p) a = Some v -> a <> p_owner p /\ exists ag, get (w_agents w) a = Some ag /\ v <= a_stake ag).
  Proof.
    intros (r & J1 & J2). destruct (run_both w V) as [[[Hp Ha] [N R]] (Gh & Ga & Gr)]. destruct (Gh r p J2) as [Pp Pd].
    apply R in J1 as (a & ag & st & G1 & G2 & G3). destruct (Ha a ag G1) as (_ & _ & Ho & _). destruct (Ho st G2) as (_ & _ & ps & Fo & [Cn Cs]).
    destruct (mine_get _ _ _ _ _ _ Fo G3) as (q & K1 & K2 & K3). rewrite J2 in K1. injection K1 as <-. split; [exact K2|]. split.
    - exists ag. rewrite K3. split; [exact G1|]. split; [exact Pp|].
      assert (Pos : forall y, In y (map p_pledge ps) -> 0 <= y).
      { intros y J. apply in_map_iff in J as (q & <- & J). assert (X : exists e, In e (s_owned st) /\ mine w a e q). { clear - Fo J. induction Fo as [|e z l zs M Fo IH]; [destruct J|]. destruct J as [->|J]; [exists e; split; [now left | exact M] | destruct (IH J) as (e' & X1 & X2); exists e'; split; [now right | exact X2]]. }
        destruct X as (e & _ & (X1 & _)). exact (proj1 (Gh _ _ X1)). }
      assert (In p ps) by (clear - Fo G3 J2; apply get_In in G3; induction Fo as [|e z l zs (M1 & _) Fo IH]; [destruct G3|]; destruct G3 as [->|G3]; [left; cbn [snd] in M1; congruence | right; auto]).
      assert (Le : p_pledge p <= Qc_sum (map p_pledge ps)).
      { clear - Pos H0. induction ps as [|q ps IH]; [destruct H0|]. cbn [map] in *. rewrite Qc_sum_cons. assert (0 <= p_pledge q) by (apply Pos; now left). assert (0 <= Qc_sum (map p_pledge ps)) by (apply Qc_sum_nonneg; intros y J; apply Pos; now right).
        destruct H0 as [->|H0]; [qlra|]. assert (p_pledge p <= Qc_sum (map p_pledge ps)) by (apply IH; [intros y J; apply Pos; now right | exact H0]). qlra. }
      assert (0 <= total (s_alloc st)) by (unfold total; apply Qc_sum_nonneg; intros y J; unfold values in J; apply in_map_iff in J as ([k z] & <- & J); exact (Cn k z J)).
      change (T QcA) with Qc in *. qlra.
    - intros b v E. apply get_In in E. destruct (Pd b v E) as [D1 D2]. split; [exact D1 | exact (within_stake _ _ D2)].
  Qed.
  Lemma pool_at_most id p : active w id p -> p_stake p <= active_stake_agents w.
  Proof.
    intros J. destruct (pool_shares id p J) as (_ & (ow & Go & Pn & Po) & Pd). destruct (C14_pool_books_balance_in_every_order so g profiles stakes costs s0 w H V id p J) as (Es & Nd & Dm).
    assert (Na : NoDup (keys (w_agents w))). { assert (W := C56_agents_never_change QcA so s0 _ V). apply (f_equal (map fst)) in W. unfold who in W. rewrite !map_map in W. change (keys (w_agents w) = keys (w_agents (s_w s0))) in W. rewrite W, (fs_keys _ _ _ _ _ (init_fresh _ _ _ _ _ H)). apply seq_NoDup. }
    assert (Sn : forall a ag, get (w_agents w) a = Some ag -> 0 <= a_stake ag).
    { intros a ag G. destruct (run_both w V) as [[[_ Ha] _] _]. destruct (Ha a ag G) as (_ & X & _). exact X. }
    set (f := fun a : nat => match get (w_agents w) a with Some ag => a_stake ag : Qc | None => 0 end).
    assert (Et : active_stake_agents w = Qc_sum (map f (keys (w_agents w)))).
    { unfold active_stake_agents, agents_list, values, keys. rewrite !map_map. change (Qc_sum (map (fun e : nat * agent QcA => a_stake (snd e) : Qc) (w_agents w)) = Qc_sum (map (fun e : nat * agent QcA => f (fst e)) (w_agents w))). apply Qc_sum_ext. intros [a ag] Ja. cbn [fst snd]. unfold f. apply (In_get _ _ _ Na) in Ja. now rewrite Ja. }
    rewrite Et, Es. clear Et. set (l := p_owner p :: keys (p_delegators p)).
    assert (Nl : NoDup l). { constructor; [|exact Nd]. intros C. apply get_Some_key in C as (v & E). exact (proj1 (Pd _ _ E) eq_refl). }
    assert (Il : incl l (keys (w_agents w))). { intros a [<-|Ja]; [apply get_Some_key; eauto|]. apply get_Some_key in Ja as (v & E). destruct (Pd _ _ E) as (_ & ag & G & _). apply get_Some_key. eauto. }
    destruct (subset_perm l _ Nl Il) as (rest & Pm). rewrite (Qc_sum_perm _ _ (Permutation_map f Pm)), map_app, Qc_sum_app.
    assert (0 <= Qc_sum (map f rest)). { apply Qc_sum_nonneg. intros y Jy. apply in_map_iff in Jy as (a & <- & _). unfold f. destruct (get (w_agents w) a) as [ag|] eqn:E; [exact (Sn _ _ E) | apply Qcle_refl]. }
    assert (p_pledge p + Qc_sum (values (p_delegators p)) <= Qc_sum (map f l)).
    { unfold l. cbn [map]. rewrite Qc_sum_cons. apply Qcplus_le_compat; [unfold f; now rewrite Go|]. unfold values, keys. rewrite map_map.
      assert (D : forall e, In e (p_delegators p) -> snd e <= f (fst e)). { intros [a v] Je. apply (In_get _ _ _ Nd) in Je. destruct (Pd _ _ Je) as (_ & ag & G & L). cbn [fst snd]. unfold f. now rewrite G. }
      clear - D. induction (p_delegators p) as [|e d IH]; [apply Qcle_refl|]. cbn [map]. rewrite !Qc_sum_cons. apply Qcplus_le_compat; [apply D; now left | apply IH; intros; apply D; now right]. }
    qlra.
  Qed.
End Run.

(** What a pool counts on: a pledge the operator can afford, and delegations of other agents who can afford them. *)
Theorem C92_pledge_and_delegations_are_affordable : forall so (g : args QcA) profiles (stakes costs : list Qc) (s0 : sim QcA) w, set_order so -> init g profiles stakes costs = Ok s0 ->
  0 <= g_inactive g -> g_inactive g < 1 -> (forall x, In x stakes -> 0 <= x) -> visible so s0 w ->
  forall id p, active w id p ->
  (exists ag, get (w_agents w) (p_owner p) = Some ag /\ 0 <= p_pledge p /\ p_pledge p <= a_stake ag) /\
  forall a v, get (p_delegators p) a = Some v -> a <> p_owner p /\ exists ag, get (w_agents w) a = Some ag /\ 0 < v /\ v <= a_stake ag.
Proof.
  intros so g profiles stakes costs s0 w SO H F0 F1 Hx V id p J. destruct (pool_shares so SO g profiles stakes costs s0 H F0 F1 Hx w V id p J) as (_ & P1 & P2). split; [exact P1|].
  intros a v E. destruct (P2 a v E) as (Q1 & ag & Q2 & Q3). split; [exact Q1|]. exists ag. split; [exact Q2|]. split; [|exact Q3].
  destruct (C14_pool_books_balance_in_every_order so g profiles stakes costs s0 w H V id p J) as (_ & _ & Dm). eapply Qclt_le_trans; [|exact (Dm a v E)]. reflexivity.
Qed.
(** No agent, in its present strategy or in the one it has prepared, delegates to a pool of its own. *)
Theorem C92_nobody_delegates_to_themselves : forall so (g : args QcA) profiles (stakes costs : list Qc) (s0 : sim QcA) w, set_order so -> init g profiles stakes costs = Ok s0 ->
  0 <= g_inactive g -> g_inactive g < 1 -> (forall x, In x stakes -> 0 <= x) -> visible so s0 w ->
  forall a ag st id v, get (w_agents w) a = Some ag -> a_strategy ag = Some st \/ a_new ag = Some st -> get (s_alloc st) id = Some v ->
  v <= a_stake ag /\ get (s_owned st) id = None /\ forall p, active w id p -> p_owner p <> a.
Proof.
  intros so g profiles stakes costs s0 w SO H F0 F1 Hx V a ag st id v G E J. destruct (run_both so SO g profiles stakes costs s0 H F0 F1 Hx w V) as [[[Hp Ha] [N R]] (Gh & Ga & Gr)].
  destruct (Ga a ag G) as (_ & _ & Q1 & Q2). apply get_In in J. assert (X : foreign w a id /\ within (stake_of s0) a v) by (destruct E as [E|E]; [exact (Q1 st id v E J) | exact (Q2 st id v E J)]).
  destruct X as [(r & q & Gq & Iq & Oq) Wi]. destruct (within_stake so s0 w V a v Wi) as (ag' & G' & L). rewrite G in G'. injection G' as <-. split; [exact L|]. split.
  - destruct (get (s_owned st) id) as [r'|] eqn:Eo; [|reflexivity]. exfalso. destruct (Ha a ag G) as (_ & _ & B1 & B2). assert (S : strat_ok anyK covered w a (a_stake ag) st) by (destruct E as [E|E]; [exact (B1 st E) | exact (B2 st E)]).
    destruct S as (_ & _ & ps & Fo & _). destruct (mine_get _ _ _ _ _ _ Fo Eo) as (p & K1 & K2 & K3). apply Oq. rewrite <- K3. apply (proj2 Hp r r' q p Gq K1). congruence.
  - intros p Jp. assert (Ip := proj1 (pool_shares so SO g profiles stakes costs s0 H F0 F1 Hx w V id p Jp)). destruct Jp as (r' & _ & K1). intros C. apply Oq. rewrite <- C. apply (proj2 Hp r r' q p Gq K1). congruence.
Qed.
(** No pool holds more than all agents have together. *)
Theorem C92_no_pool_holds_more_than_everything : forall so (g : args QcA) profiles (stakes costs : list Qc) (s0 : sim QcA) w, set_order so -> init g profiles stakes costs = Ok s0 ->
  0 <= g_inactive g -> g_inactive g < 1 -> (forall x, In x stakes -> 0 <= x) -> visible so s0 w ->
  (forall id p, active w id p -> 0 <= p_stake p /\ p_stake p <= active_stake_agents w /\ p_stake p <= 1) /\
  exists ps t, pools_list w = Ok ps /\ total_delegated_stake w = Ok t /\ 0 <= t /\ t <= Qc_ofZ (Z.of_nat (length ps)) * active_stake_agents w.
Proof.
  intros so g profiles stakes costs s0 w SO H F0 F1 Hx V. destruct (C56_total_stake_is_conserved so g profiles stakes costs s0 w H V) as (_ & _ & L1). specialize (L1 F0 F1 Hx).
  assert (B : forall id p, active w id p -> 0 <= p_stake p /\ p_stake p <= active_stake_agents w /\ p_stake p <= 1).
  { intros id p J. assert (L := pool_at_most so SO g profiles stakes costs s0 H F0 F1 Hx w V id p J). split; [|split; [exact L | eapply Qcle_trans; [exact L | exact L1]]].
    destruct (C92_pledge_and_delegations_are_affordable so g profiles stakes costs s0 w SO H F0 F1 Hx V id p J) as ((ow & _ & Pp & _) & Pd). destruct (C14_pool_books_balance_in_every_order so g profiles stakes costs s0 w H V id p J) as (Es & Nd & _).
    rewrite Es. assert (0 <= Qc_sum (values (p_delegators p))). { apply Qc_sum_nonneg. intros y Jy. apply in_map_iff in Jy as ([a v] & <- & Je). apply (In_get _ _ _ Nd) in Je. destruct (Pd a v Je) as (_ & ag & _ & P0 & _). now apply Qclt_le_weak. } qlra. }
  split; [exact B|]. assert (Np : NoDup (keys (w_pools w))) by exact (proj1 (proj2 (proj1 (run_both so SO g profiles stakes costs s0 H F0 F1 Hx w V)))).
  assert (Rg : regid w) by exact (full_regid w (proj1 (run_both so SO g profiles stakes costs s0 H F0 F1 Hx w V))).
  destruct (mapM_total (deref w) (values (w_pools w))) as (ps & Hps).
  { intros r J. apply In_values in J as (id & J); [|exact Np]. destruct (Rg id r J) as (p & Gp & _). exists p. unfold deref. now rewrite Gp. }
  exists ps, (Qc_sum (map p_stake ps)). split; [exact Hps|]. split; [unfold total_delegated_stake, pools_list; rewrite Hps; reflexivity|].
  assert (A : forall p, In p ps -> exists id, active w id p).
  { intros p J. apply mapM_ok in Hps. assert (X : exists r, In r (values (w_pools w)) /\ deref w r = Ok p). { clear - Hps J. induction Hps as [|r q l l' E F IH]; [destruct J|]. destruct J as [->|J]; [exists r; split; [now left | exact E] | destruct (IH J) as (r' & X1 & X2); exists r'; split; [now right | exact X2]]. }
    destruct X as (r & X1 & X2). apply In_values in X1 as (id & X1); [|exact Np]. apply of_option_ok in X2. exists id, r. now split. }
  split; [apply Qc_sum_nonneg; intros y J; apply in_map_iff in J as (p & <- & J); destruct (A p J) as (id & Jp); exact (proj1 (B id p Jp))|].
  assert (Le : forall p, In p ps -> p_stake p <= active_stake_agents w) by (intros p J; destruct (A p J) as (id & Jp); exact (proj1 (proj2 (B id p Jp)))).
  clear - Le. induction ps as [|p ps IH]; [change (0 <= 0 * active_stake_agents w); rewrite Qcmult_0_l; apply Qcle_refl|]. cbn [map length]. rewrite Qc_sum_cons, Nat2Z.inj_succ. unfold Z.succ. rewrite Qc_ofZ_add. change (Qc_ofZ 1) with 1.
  assert (p_stake p <= active_stake_agents w) by (apply Le; now left). assert (X := IH (fun q J => Le q (or_intror J))). change (T QcA) with Qc in *. generalize dependent (active_stake_agents w). intros t. generalize (Qc_ofZ (Z.of_nat (length ps))). intros z _ L2 X.
  replace ((z + 1) * t) with (t + z * t) by ring. now apply Qcplus_le_compat.
Qed.
(** The hypotheses are met by the run of C25, where the pools together hold 8/5 of all stake: one pool alone has 4/5 of it. *)
Example C92_instance : forall o, simultaneous o -> exists s0 s p, init (five_args o) five_profiles five_stakes five_costs = Ok s0 /\ set_order so_id /\ 0 <= g_inactive (five_args o) /\ g_inactive (five_args o) < 1 /\ (forall x, In x five_stakes -> 0 <= x) /\
  visible so_id s0 (s_w s) /\ active (s_w s) 6 p /\ p_stake p = Q2Qc (8#10) /\ get (p_delegators p) 0 = Some (Q2Qc (1#5)).
Proof.
  intros o Ho. destruct (five_reached o Ho) as (s0 & s & H1 & H2 & H3). apply five_facts in H3 as (_ & _ & _ & _ & (p & J & E & Gp) & _). exists s0, s, p. split; [exact H1|]. split; [exact so_id_set_order|]. split; [discriminate|]. split; [reflexivity|].
  split; [cbn; intros x [<-|[<-|[<-|[<-|[<-|[]]]]]]; discriminate|]. split; [now apply vis_between | auto].
Qed.
