(** The exported tables and descriptors agree with the state and with each other (C61). *)
From Coq Require Import ZArith QArith Qcanon List Bool Arith Lia Permutation Sorted.
From Verif Require Import Num Py QcTac Rewards RewardFacts PropRewards SortedKeyList World Stakeholder Helper PropHelper Sched Sim Init Reach ListFacts Inv Eval Exec Step SimInv Spec Greedy PropInit Demo PropSched ExactInv PropState PropExact Reporters ReporterFacts PropReporters Frame PropRun PropPhase PropMove PropTotal TotalEval PropIncome Persons PropBudget PropMetrics Export.
Import ListNotations.
Open Scope Qc_scope.

(** * Specification: reading the tables *)
Definition is_operator (r : agent_row QcA) : bool := match ar_status r with Operator => true | _ => false end.

(** * The pools an agent holds are the pools in operation it owns *)
Section Held.
  Variables (SINGLE NN POS : Prop) (m : nat) (w : world QcA).
  Hypothesis G : egood SINGLE NN POS m w.
  Variable ps : list (pool QcA).
  Hypothesis Hps : pools_list w = Ok ps.
  Lemma pools_nodup : NoDup ps /\ forall p, In p ps <-> exists id, active w id p.
  Proof.
    destruct (reported_pools _ _ _ _ _ G) as (ps' & E & A1 & _ & F). assert (ps' = ps) as -> by congruence. split; [|exact A1].
    apply (NoDup_map_inv p_id). assert (K : map p_id ps = keys (w_pools w)).
    { assert (H : forall d l, (forall id r, In (id, r) d -> forall p, get (w_heap w) r = Some p -> p_id p = id) -> Forall2 (fun r p => get (w_heap w) r = Some p) (values d) l -> map p_id l = keys d).
      { clear. induction d as [|[id r] d IH]; intros l H F; inversion F; subst; [reflexivity|]. cbn [map keys fst]. f_equal; [apply (H id r); [now left | assumption]|]. apply IH; [intros id' r' J; apply H; now right | assumption]. }
      apply H; [|exact F]. intros id r J p Gp. apply In_get in J; [|apply (g_inv _ _ _ _ _ G)]. now apply (good_active _ _ _ _ _ G id p); exists r. }
    rewrite K. apply (g_inv _ _ _ _ _ G).
  Qed.
  Lemma held_pools a ag st : get (w_agents w) a = Some ag -> a_strategy ag = Some st ->
    exists qs, mapM (deref w) (values (s_owned st)) = Ok qs /\ Permutation qs (filter (fun p => Nat.eqb (p_owner p) a) ps).
  Proof.
    intros Ga Es. destruct (g_ok _ _ _ _ _ G) as [_ Ok1]. destruct (Ok1 a ag Ga) as [_ Ok2]. destruct (Ok2 st Es) as [_ Nd].
    assert (Hd : forall id r, get (s_owned st) id = Some r -> exists q, get (w_heap w) r = Some q /\ p_id q = id /\ active w id q /\ p_owner q = a).
    { intros id r J. assert (Jo : ow_of w a id = Some r) by (unfold ow_of; now rewrite Ga, Es). destruct (i_own _ _ _ _ _ _ (g_inv _ _ _ _ _ G) _ _ _ Jo) as [Jp Jw].
      destruct (i_reg _ _ _ _ _ _ (g_inv _ _ _ _ _ G) _ _ Jp) as (q & Gq & Iq & _). exists q. split; [assumption|]. split; [assumption|]. split; [now exists r | now apply Jw]. }
    destruct (mapM_total (deref w) (values (s_owned st))) as (qs & Hq). { intros r J. apply In_values in J as (id & J); [|assumption]. destruct (Hd id r J) as (q & Gq & _). exists q. unfold deref. now rewrite Gq. }
    exists qs. split; [exact Hq|]. apply mapM_ok in Hq. assert (F : Forall2 (fun r p => get (w_heap w) r = Some p) (values (s_owned st)) qs) by (eapply Forall2_weaken; [|exact Hq]; intros r p E; now apply of_option_ok in E).
    destruct pools_nodup as [N1 A1]. apply NoDup_Permutation; [|now apply NoDup_filter|].
    - apply (NoDup_map_inv p_id). assert (K : map p_id qs = keys (s_owned st)); [|now rewrite K].
      assert (H : forall d l, (forall id r, In (id, r) d -> forall p, get (w_heap w) r = Some p -> p_id p = id) -> Forall2 (fun r p => get (w_heap w) r = Some p) (values d) l -> map p_id l = keys d).
      { clear. induction d as [|[id r] d IH]; intros l H F; inversion F; subst; [reflexivity|]. cbn [map keys fst]. f_equal; [apply (H id r); [now left | assumption]|]. apply IH; [intros id' r' J; apply H; now right | assumption]. }
      apply H; [|exact F]. intros id r J p Gp. apply In_get in J; [|assumption]. destruct (Hd id r J) as (q & Gq & Iq & _). congruence.
    - intros q. rewrite filter_In, A1, Nat.eqb_eq. split.
      + intros J. assert (K : exists r, In r (values (s_owned st)) /\ get (w_heap w) r = Some q). { clear - F J. induction F as [|r p l l' E F IH]; [destruct J|]. destruct J as [<-|J]; [exists r; split; [now left | assumption]|]. destruct (IH J) as (r' & ? & ?). exists r'. split; [now right | assumption]. }
        destruct K as (r & Jr & Gr). apply In_values in Jr as (id & Jr); [|assumption]. destruct (Hd id r Jr) as (q' & Gq & _ & Aq & Oq). assert (q' = q) as -> by congruence. split; [now exists id | assumption].
      + intros [(id & Aq) Oq]. assert (Op : operates w a id q) by (apply (good_operates _ _ _ _ _ G); now split). destruct Op as (ag' & st' & r & [Ga' Es'] & Jr & Gr). assert (ag' = ag) as -> by congruence. assert (st' = st) as -> by congruence.
        apply values_In in Jr. clear - F Jr Gr. induction F as [|r' p l l' E F IH]; [destruct Jr|]. destruct Jr as [<-|Jr]; [left; congruence | right; now apply IH].
  Qed.
  Lemma no_strategy_no_pool a ag : get (w_agents w) a = Some ag -> a_strategy ag = None -> filter (fun p => Nat.eqb (p_owner p) a) ps = [].
  Proof.
    intros Ga Es. destruct (filter _ ps) as [|q l] eqn:E; [reflexivity|]. exfalso. assert (J : In q (q :: l)) by (now left). rewrite <- E in J. apply filter_In in J as [J O]. apply Nat.eqb_eq in O. apply pools_nodup in J as (id & Aq).
    assert (Op : operates w a id q) by (apply (good_operates _ _ _ _ _ G); now split). destruct Op as (ag' & st' & r & [Ga' Es'] & _). congruence.
  Qed.
End Held.

Lemma pools_of_filter ps a : pools_of ps a = length (filter (fun p : pool QcA => Nat.eqb (p_owner p) a) ps).
Proof. unfold pools_of, owners. induction ps as [|p ps IH]; [reflexivity|]. cbn [map count_occ filter]. destruct (Nat.eq_dec (p_owner p) a) as [E|E], (Nat.eqb_spec (p_owner p) a); try contradiction; cbn [length]; now rewrite IH. Qed.
Lemma pools_of_total ks ps : NoDup ks -> (forall p : pool QcA, In p ps -> In (p_owner p) ks) -> list_sum (map (pools_of ps) ks) = length ps.
Proof.
  intros N. induction ps as [|p ps IH]; intros H.
  - clear. induction ks as [|a ks IH]; [reflexivity | exact IH].
  - assert (E : forall ks, NoDup ks -> list_sum (map (pools_of (p :: ps)) ks) = ((if in_dec Nat.eq_dec (p_owner p) ks then 1 else 0) + list_sum (map (pools_of ps) ks))%nat).
    { clear. induction ks as [|a ks IH]; intros N; [reflexivity|]. inversion N; subst. cbn [map]. change (list_sum (?x :: ?l)) with (x + list_sum l)%nat. rewrite IH by assumption. unfold pools_of at 1. cbn [owners map count_occ]. fold (owners ps). fold (pools_of ps a).
      destruct (Nat.eq_dec (p_owner p) a) as [E|E]; destruct (in_dec Nat.eq_dec (p_owner p) ks) as [J|J]; destruct (in_dec Nat.eq_dec (p_owner p) (a :: ks)) as [J'|J']; try lia; exfalso; cbn in *; intuition congruence. }
    rewrite E, IH by (auto; intros q J; apply H; now right). destruct (in_dec Nat.eq_dec (p_owner p) ks) as [J|J]; [reflexivity|]. exfalso. apply J, H. now left.
Qed.

Section Tables.
  Variables rnd rnd4 : Qc -> Qc.

  (** ** The table of the stakeholders *)
  Theorem C61_stakeholders_table : forall so (g : args QcA) profiles (stakes costs : list Qc) (s0 : sim QcA) w rows, set_order so -> init g profiles stakes costs = Ok s0 -> one_at_a_time g -> visible so s0 w ->
    agents_table (A := QcA) rnd w = Ok rows ->
    exists ps, pools_list w = Ok ps /\
      (* one row per agent, in the order of the identifiers *)
      map ar_id rows = seq 0 (Z.to_nat (s_n s0)) /\
      (forall r, In r rows -> exists ag, get (w_agents w) (ar_id r) = Some ag /\
         (* the agent's data and its profit with a saturated pool of its own *)
         ar_stake r = rnd (a_stake ag) /\ ar_cost r = rnd (a_cost ag) /\ (exists pp, potential_profit (A := QcA) (w_rss w) (a_stake ag) (a_cost ag) = Ok pp /\ ar_pp r = rnd pp) /\
         (* the pools in operation it owns *)
         ar_pools r = pools_of ps (ar_id r) /\ ar_pool_stake r = controls ps (ar_id r) /\
         (ar_status r = Operator <-> exists id p, active w id p /\ p_owner p = ar_id r) /\ (ar_status r = Abstainer <-> a_strategy ag = None) /\
         (* what splitting would bring *)
         ar_split r = (1 + r_a0 (w_rss w)) * (1 - w_phi w) * a_cost ag - a_stake ag * r_a0 (w_rss w) /\ (ar_splitter r = true <-> 0 < ar_split r)) /\
      (* the columns add up to the metrics *)
      list_sum (map ar_pools rows) = number_of_pools w /\ total_delegated_stake w = Ok (Qc_sum (map ar_pool_stake rows)) /\ operator_count w = Ok (length (filter is_operator rows)).
  Proof.
    intros so g profiles stakes costs s0 w rows SO H1 H2 V H. destruct (exact_all False False False so SO _ _ _ _ _ _ H1 H2 (inputs_none _ _) V) as [G _].
    destruct (reported_pools _ _ _ _ _ G) as (ps & Hps & A1 & A2 & F2). exists ps. split; [exact Hps|].
    assert (K : keys (w_agents w) = seq 0 (Z.to_nat (s_n s0))).
    { transitivity (keys (w_agents (s_w s0))); [|apply (fs_keys _ _ _ _ _ (init_fresh _ _ _ _ _ H1))]. assert (E := f_equal (map fst) (C56_agents_never_change _ _ _ _ V)). unfold who in E. rewrite !map_map in E. exact E. }
    assert (L : length (w_agents w) = Z.to_nat (s_n s0)). { rewrite <- (seq_length (Z.to_nat (s_n s0)) 0), <- K. unfold keys. now rewrite map_length. }
    unfold agents_table in H. rewrite L in H. apply mapM_ok in H.
    assert (R : Forall2 (fun a (r : agent_row QcA) => ar_id r = a /\ ar_pools r = pools_of ps a /\ ar_pool_stake r = controls ps a /\ (is_operator r = negb (Nat.eqb (pools_of ps a) 0)) /\ exists ag, get (w_agents w) a = Some ag /\
         ar_stake r = rnd (a_stake ag) /\ ar_cost r = rnd (a_cost ag) /\ (exists pp, potential_profit (A := QcA) (w_rss w) (a_stake ag) (a_cost ag) = Ok pp /\ ar_pp r = rnd pp) /\
         (ar_status r = Abstainer <-> a_strategy ag = None) /\
         ar_split r = (1 + r_a0 (w_rss w)) * (1 - w_phi w) * a_cost ag - a_stake ag * r_a0 (w_rss w) /\ (ar_splitter r = true <-> 0 < ar_split r)) (seq 0 (Z.to_nat (s_n s0))) rows).
    { eapply Forall2_weaken; [|exact H]. intros a r E. unfold agent_row_of in E. apply bind_ok in E as (ag & Ga & E). unfold the_agent in Ga. apply of_option_ok in Ga. apply bind_ok in E as (pp & Ep & E).
      apply bind_ok in E as (tot & Et & E). apply Ok_inj in E. subst r. cbn [ar_id ar_pools ar_pool_stake ar_stake ar_cost ar_pp ar_status ar_split ar_splitter is_operator].
      assert (Sp : pool_splitting_profit (A := QcA) (r_a0 (w_rss w)) (w_phi w) (a_cost ag) (a_stake ag) = (1 + r_a0 (w_rss w)) * (1 - w_phi w) * a_cost ag - a_stake ag * r_a0 (w_rss w)).
      { unfold pool_splitting_profit, total_R. cbn [add sub mul one QcA]. change (T QcA) with Qc. ring. }
      assert (Gt : forall x : Qc, ltb (a := QcA) 0 x = true <-> 0 < x) by (intros x; change (ltb (a := QcA) 0 x) with (Qc_ltb 0 x); destruct (Qc_ltb_spec 0 x); split; congruence).
      rewrite pools_of_filter. unfold controls. destruct (a_strategy ag) as [st|] eqn:Es.
      - destruct (held_pools _ _ _ _ _ G _ Hps a ag st Ga Es) as (qs & Hq & P). apply bind_ok in Et as (qs' & Hq' & Et). assert (qs' = qs) as -> by congruence. apply Ok_inj in Et. subst tot. rewrite <- (Permutation_length P), <- (Qc_sum_perm _ _ (Permutation_map p_stake P)), psum_sum.
        assert (Lq : length (s_owned st) = length qs) by (apply mapM_length in Hq; unfold values in Hq; rewrite map_length in Hq; congruence). rewrite Lq.
        split; [reflexivity|]. split; [reflexivity|]. split; [reflexivity|]. split; [destruct (length qs); reflexivity|]. exists ag. split; [assumption|]. split; [reflexivity|]. split; [reflexivity|]. split; [eauto|]. rewrite Es.
        split; [destruct (0 <? length qs)%nat; split; discriminate|]. split; [exact Sp | apply Gt].
      - rewrite (no_strategy_no_pool _ _ _ _ _ G _ Hps a ag Ga Es). apply Ok_inj in Et. subst tot. split; [reflexivity|]. split; [reflexivity|]. split; [reflexivity|]. split; [reflexivity|]. exists ag. split; [assumption|]. split; [reflexivity|]. split; [reflexivity|]. split; [eauto|].
        split; [now rewrite Es|]. split; [exact Sp | apply Gt]. }
    clear H. assert (Ids : map ar_id rows = seq 0 (Z.to_nat (s_n s0))) by (clear - R; induction R as [|a r l l' (E & _) F IH]; [reflexivity|]; cbn [map]; now f_equal).
    assert (Ow : forall p, In p ps -> In (p_owner p) (seq 0 (Z.to_nat (s_n s0)))) by (intros p J; rewrite <- K; now apply A2).
    split; [exact Ids|]. split; [|split; [|split]].
    - intros r J. assert (Q : exists a, ar_id r = a /\ ar_pools r = pools_of ps a /\ ar_pool_stake r = controls ps a /\ (is_operator r = negb (Nat.eqb (pools_of ps a) 0)) /\ exists ag, get (w_agents w) a = Some ag /\
         ar_stake r = rnd (a_stake ag) /\ ar_cost r = rnd (a_cost ag) /\ (exists pp, potential_profit (A := QcA) (w_rss w) (a_stake ag) (a_cost ag) = Ok pp /\ ar_pp r = rnd pp) /\
         (ar_status r = Abstainer <-> a_strategy ag = None) /\
         ar_split r = (1 + r_a0 (w_rss w)) * (1 - w_phi w) * a_cost ag - a_stake ag * r_a0 (w_rss w) /\ (ar_splitter r = true <-> 0 < ar_split r)).
      { clear - R J. induction R as [|a r' l l' E F IH]; [destruct J|]. destruct J as [->|J]; [now exists a | now apply IH]. }
      destruct Q as (a & -> & Q1 & Q2 & Q3 & ag & Ga & Q4 & Q5 & Q6 & Q7 & Q8). exists ag. split; [assumption|]. split; [assumption|]. split; [assumption|]. split; [assumption|]. split; [assumption|]. split; [assumption|]. split; [|split; assumption].
      assert (Io : ar_status r = Operator <-> is_operator r = true) by (unfold is_operator; destruct (ar_status r); split; congruence). rewrite Io, Q3, negb_true_iff, Nat.eqb_neq. split.
      + intros N. assert (Jo : In a (owners ps)) by (apply (count_occ_In Nat.eq_dec); unfold pools_of in N; lia). apply in_map_iff in Jo as (p & O & Jp). apply A1 in Jp as (id & Jp). eauto.
      + intros (id & p & Jp & O) E. assert (Jo : In a (owners ps)) by (apply in_map_iff; exists p; split; [assumption|]; apply A1; eauto). apply (count_occ_In Nat.eq_dec) in Jo. unfold pools_of in E. lia.
    - assert (E : map ar_pools rows = map (pools_of ps) (seq 0 (Z.to_nat (s_n s0)))) by (clear - R; induction R as [|a r l l' (_ & E & _) F IH]; [reflexivity|]; cbn [map]; now f_equal).
      rewrite E, pools_of_total by (assumption || apply seq_NoDup). unfold number_of_pools. apply mapM_length in Hps. unfold values in Hps. rewrite map_length in Hps. congruence.
    - assert (E : map ar_pool_stake rows = map (controls ps) (seq 0 (Z.to_nat (s_n s0)))) by (clear - R; induction R as [|a r l l' (_ & _ & E & _) F IH]; [reflexivity|]; cbn [map]; now f_equal).
      unfold total_delegated_stake. rewrite Hps. cbn [bind]. f_equal. etransitivity; [|symmetry; etransitivity; [exact (f_equal Qc_sum E)|]; apply controls_total; [apply seq_NoDup | exact Ow]]. reflexivity.
    - unfold operator_count. rewrite Hps. cbn [bind]. f_equal. fold (owners ps). rewrite distinct_eq.
      assert (E : length (filter is_operator rows) = length (filter (fun a => negb (Nat.eqb (pools_of ps a) 0)) (seq 0 (Z.to_nat (s_n s0))))).
      { clear - R. induction R as [|a r l l' (_ & _ & _ & E & _) F IH]; [reflexivity|]. cbn [filter]. rewrite E. destruct (negb _); cbn [length]; now rewrite IH. }
      rewrite E. apply Permutation_length, NoDup_Permutation; [apply NoDup_nodup | apply NoDup_filter, seq_NoDup|]. intros a. rewrite nodup_In, filter_In, negb_true_iff, Nat.eqb_neq. unfold pools_of. split.
      + intros J. split; [|apply (count_occ_In Nat.eq_dec) in J; lia]. apply in_map_iff in J as (p & <- & J). now apply Ow.
      + intros [_ N]. apply (count_occ_In Nat.eq_dec). lia.
  Qed.
  (** the table can be written *)
  Theorem C61_stakeholders_table_is_defined : forall so (g : args QcA) profiles (stakes costs : list Qc) (s0 : sim QcA) w, set_order so -> init g profiles stakes costs = Ok s0 -> one_at_a_time g -> positive_inputs g stakes ->
    (forall x : Qc, In x (phase_values (g_a0 g)) -> 0 <= x) -> visible so s0 w -> exists rows, agents_table (A := QcA) rnd w = Ok rows.
  Proof.
    intros so g profiles stakes costs s0 w SO H1 H2 HP HA V. destruct (exact_all False True True so SO _ _ _ _ _ _ H1 H2 (inputs_pos _ _ _ _ _ H1 HP) V) as [G _]. assert (A0 := HA _ (visible_a0 _ _ _ _ _ _ _ H1 V)).
    assert (K : keys (w_agents w) = seq 0 (length (w_agents w))).
    { transitivity (keys (w_agents (s_w s0))); [|rewrite (fs_keys _ _ _ _ _ (init_fresh _ _ _ _ _ H1)); f_equal].
      - assert (E := f_equal (map fst) (C56_agents_never_change _ _ _ _ V)). unfold who in E. rewrite !map_map in E. exact E.
      - assert (E := f_equal (@length _) (C56_agents_never_change _ _ _ _ V)). unfold who in E. rewrite !map_length in E. rewrite E. assert (E' := f_equal (@length _) (fs_keys _ _ _ _ _ (init_fresh _ _ _ _ _ H1))). unfold keys in E'. rewrite map_length, seq_length in E'. now symmetry. }
    destruct (reported_pools _ _ _ _ _ G) as (ps & Hps & _). apply mapM_total. intros a J. rewrite <- K in J. apply get_Some_key in J as (ag & Ga). destruct (g_new _ _ _ _ _ G _ _ Ga) as [_ (_ & Af)]. destruct (Af I) as [_ Ht].
    unfold agent_row_of, the_agent. rewrite Ga. cbn [of_option bind]. destruct (potential_profit (A := QcA) (w_rss w) (a_stake ag) (a_cost ag)) as [pp|e] eqn:E; [|rewrite potential_profit_ok in E by (now split); discriminate]. cbn [bind].
    destruct (a_strategy ag) as [st|] eqn:Es; [|cbn [bind]; eauto]. destruct (held_pools _ _ _ _ _ G _ Hps a ag st Ga Es) as (qs & Hq & _). rewrite Hq. cbn [bind]. eauto.
  Qed.

  (** ** The table of the pools: it can always be written, one row per pool in operation *)
  Theorem C61_pools_table : forall so (g : args QcA) profiles (stakes costs : list Qc) (s0 : sim QcA) w, set_order so -> init g profiles stakes costs = Ok s0 -> one_at_a_time g -> visible so s0 w ->
    exists rows, pools_table (A := QcA) rnd w = Ok rows /\ NoDup (map pr_id rows) /\ length rows = number_of_pools w /\
      (forall id, In id (map pr_id rows) <-> exists p, active w id p) /\
      (forall r, In r rows -> exists p ag, active w (pr_id r) p /\ get (w_agents w) (p_owner p) = Some ag /\ pr_owner r = p_owner p /\
         pr_owner_stake r = rnd (a_stake ag) /\ pr_owner_cost r = rnd (a_cost ag) /\ pr_pledge r = rnd (p_pledge p) /\ pr_stake r = rnd (p_stake p) /\ pr_cost r = rnd (p_cost p) /\ pr_margin r = rnd (p_margin p) /\
         potential_profit (A := QcA) (w_rss w) (p_pledge p) (p_cost p) = Ok (pr_pp r) /\ pr_des r = Qcmax ((1 - p_margin p) * pr_pp r) 0).
  Proof.
    intros so g profiles stakes costs s0 w SO H1 H2 V. destruct (exact_all False False False so SO _ _ _ _ _ _ H1 H2 (inputs_none _ _) V) as [G _]. destruct (reported_pools _ _ _ _ _ G) as (ps & Hps & A1 & A2 & F2).
    destruct (mapM_total (pool_row_of (A := QcA) rnd w) ps) as (rows & Hr). { intros p J. apply A2 in J. apply get_Some_key in J as (ag & Ga). unfold pool_row_of, the_agent. rewrite Ga. cbn [of_option bind]. eauto. }
    exists rows. unfold pools_table. rewrite Hps. split; [exact Hr|]. assert (L := mapM_length _ _ _ Hr). apply mapM_ok in Hr.
    assert (R : Forall2 (fun (p : pool QcA) (r : pool_row QcA) => pr_id r = p_id p /\ exists ag, get (w_agents w) (p_owner p) = Some ag /\ r = mkPoolRow (A := QcA) (p_id p) (p_owner p) (rnd (a_stake ag)) (rnd (p_pledge p)) (rnd (p_stake p)) (rnd (a_cost ag)) (rnd (p_cost p)) (rnd (p_margin p)) (p_pp p) (p_des p)) ps rows).
    { eapply Forall2_weaken; [|exact Hr]. intros p r E. unfold pool_row_of in E. apply bind_ok in E as (ag & Ga & E). apply of_option_ok in Ga. apply Ok_inj in E. subst r. split; [reflexivity | eauto]. }
    assert (Ids : map pr_id rows = map p_id ps) by (clear - R; induction R as [|p r l l' [E _] F IH]; [reflexivity|]; cbn [map]; now f_equal).
    assert (Lk : map p_id ps = keys (w_pools w)).
    { assert (H : forall d l, (forall id r, In (id, r) d -> forall p, get (w_heap w) r = Some p -> p_id p = id) -> Forall2 (fun r p => get (w_heap w) r = Some p) (values d) l -> map p_id l = keys d).
      { clear. induction d as [|[id r] d IH]; intros l H F; inversion F; subst; [reflexivity|]. cbn [map keys fst]. f_equal; [apply (H id r); [now left | assumption]|]. apply IH; [intros id' r' J; apply H; now right | assumption]. }
      apply H; [|exact F2]. intros id r J p Gp. apply In_get in J; [|apply (g_inv _ _ _ _ _ G)]. now apply (good_active _ _ _ _ _ G id p); exists r. }
    split; [rewrite Ids, Lk; apply (g_inv _ _ _ _ _ G)|]. split; [|split].
    - unfold number_of_pools. rewrite L. apply mapM_length in Hps. unfold values in Hps. rewrite map_length in Hps. exact Hps.
    - intros id. rewrite Ids, Lk, <- get_Some_key. split.
      + intros (r & J). destruct (i_reg _ _ _ _ _ _ (g_inv _ _ _ _ _ G) _ _ J) as (p & Gp & _). exists p, r. now split.
      + intros (p & r & J & _). eauto.
    - intros r J. assert (Q : exists p, In p ps /\ exists ag, get (w_agents w) (p_owner p) = Some ag /\ r = mkPoolRow (A := QcA) (p_id p) (p_owner p) (rnd (a_stake ag)) (rnd (p_pledge p)) (rnd (p_stake p)) (rnd (a_cost ag)) (rnd (p_cost p)) (rnd (p_margin p)) (p_pp p) (p_des p)).
      { clear - R J. induction R as [|p r' l l' [_ E] F IH]; [destruct J|]. destruct J as [<-|J]; [exists p; split; [now left | exact E]|]. destruct (IH J) as (p' & Jp & E'). exists p'. split; [now right | exact E']. }
      destruct Q as (p & Jp & ag & Ga & ->). cbn [pr_id pr_owner pr_owner_stake pr_owner_cost pr_pledge pr_stake pr_cost pr_margin pr_pp pr_des]. exists p, ag. apply A1 in Jp as (id & Jp). destruct (good_active _ _ _ _ _ G id p Jp) as (-> & _). split; [assumption|]. split; [assumption|].
      repeat (split; [reflexivity|]). destruct (reported_facts _ _ _ _ _ G _ _ Jp) as (_ & F & _). split; [apply (pf_pp _ _ _ _ F) | rewrite (pf_des _ _ _ _ F); apply desirability_eq].
  Qed.
End Tables.

(** ** The descriptors *)
Lemma min_of_ok (l : list Qc) : l <> [] -> exists x, min_of (A := QcA) l = Ok x /\ In x l /\ forall y, In y l -> x <= y.
Proof.
  destruct l as [|x0 l]; [congruence|]. intros _. cbn [min_of]. eexists. split; [reflexivity|].
  assert (H : forall l x0, let m := fold_left (pmin (A := QcA)) l x0 in (m = x0 \/ In m l) /\ m <= x0 /\ forall y, In y l -> m <= y).
  { clear. induction l as [|y l IH]; intros x0; cbn [fold_left]; [split; [now left|]; split; [apply Qcle_refl | intros y []]|]. destruct (IH (pmin (A := QcA) x0 y)) as (I1 & I2 & I3). cbv zeta. set (m := fold_left _ l _) in *. clearbody m.
    rewrite pmin_min in *. assert (M1 := Qcmin_l x0 y). assert (M2 := Qcmin_r x0 y). split; [|split].
    - destruct I1 as [->|I1]; [|right; now right]. unfold Qcmin. destruct (Qc_leb x0 y); [now left | right; now left].
    - eapply Qcle_trans; [exact I2 | exact M1].
    - intros z [<-|J]; [eapply Qcle_trans; [exact I2 | exact M2] | now apply I3]. }
  destruct (H l x0) as (I1 & I2 & I3). change (T QcA) with Qc in *. set (m := fold_left (pmin (A := QcA)) l x0) in *. clearbody m. split; [destruct I1; [subst; now left | now right]|]. intros y [<-|J]; [assumption | now apply I3].
Qed.
(** the stakes after normalisation: their sum, greatest, least, mean and median value, and the number of agents needed for a majority of them *)
Theorem C61_initial_descriptors : forall (g : args QcA) profiles (stakes costs : list Qc) (s0 : sim QcA), init g profiles stakes costs = Ok s0 -> one_at_a_time g -> positive_inputs g stakes ->
  (forall x : Qc, In x (phase_values (g_a0 g)) -> 0 <= x) -> (0 < s_n s0)%Z ->
  let w := s_w s0 in
  let l := map (fun e => a_stake (snd e)) (w_agents w) in
  let own a := match get (w_agents w) a with Some ag => a_stake ag | None => 0 end in
  exists d, initial_descriptors (A := QcA) w = Ok d /\ id_active d = Qc_sum l /\
    (In (id_max d) l /\ forall x, In x l -> x <= id_max d) /\ (In (id_min d) l /\ forall x, In x l -> id_min d <= x) /\ is_mean l (id_mean d) /\ is_median l (id_median d) /\
    least (majority (keys (w_agents w)) own (Qc_sum l)) (id_nakamoto d) /\
    exists pps, Forall2 (fun e pp => potential_profit (A := QcA) (w_rss w) (a_stake (snd e)) (a_cost (snd e)) = Ok pp) (w_agents w) pps /\ id_efficient d = length (filter (fun pp => Qc_ltb 0 pp) pps).
Proof.
  intros g profiles stakes costs s0 H1 H2 HP HA Hn w l own. assert (V : visible so_id s0 w) by (apply vis_between; constructor).
  destruct (exact_all False True True so_id so_id_set_order _ _ _ _ _ _ H1 H2 (inputs_pos _ _ _ _ _ H1 HP) V) as [G _]. assert (Nd := reported_agents _ _ _ _ _ G).
  assert (El : map a_stake (agents_list w) = l) by (unfold agents_list, values, l; rewrite map_map; reflexivity).
  assert (Ne : l <> []). { intros E. assert (K := fs_keys _ _ _ _ _ (init_fresh _ _ _ _ _ H1)). assert (L := f_equal (@length _) K). unfold keys in L. rewrite map_length, seq_length in L. apply (f_equal (@length _)) in E. unfold l, w in E. rewrite map_length in E. cbn in E. lia. }
  assert (Pos : forall x, In x l -> 0 < x). { intros x J. apply in_map_iff in J as ([a ag] & <- & J). cbn [snd]. apply In_get in J; [|assumption]. destruct (g_new _ _ _ _ _ G _ _ J) as [_ (_ & Af)]. now destruct (Af I). }
  destruct (max_of_ok l Ne) as (mx & Emx & Mx). destruct (min_of_ok l Ne) as (mn & Emn & Mn). destruct (mean_is l Ne) as (me & Eme & Me). destruct (median_is l Ne) as (md & Emd & Md).
  destruct (C35_initial_nakamoto_minimal w Nd) as (nk & Enk & Nk). { unfold values. rewrite map_map. apply Qc_sum_pos; [exact Pos | exact Ne]. }
  destruct (C59_cost_efficient_count_is_defined so_id g profiles stakes costs s0 w so_id_set_order H1 H2 HP HA V) as (ef & Eef).
  exists (mkInitialDesc (A := QcA) (active_stake_agents w) mx mn me md nk ef). split.
  - unfold initial_descriptors. rewrite El. match goal with |- bind ?m _ = _ => assert (E' : m = Ok mx) by exact Emx; rewrite E' end. cbn [bind]. match goal with |- bind ?m _ = _ => assert (E'' : m = Ok mn) by exact Emn; rewrite E'' end. cbn [bind].
    match goal with |- bind ?m _ = _ => assert (E3 : m = Ok me) by exact Eme; rewrite E3 end. cbn [bind]. match goal with |- bind ?m _ = _ => assert (E4 : m = Ok md) by exact Emd; rewrite E4 end. cbn [bind]. rewrite Enk. cbn [bind]. rewrite Eef. reflexivity.
  - cbn [id_active id_max id_min id_mean id_median id_nakamoto id_efficient]. split; [unfold active_stake_agents; now rewrite El|]. split; [assumption|]. split; [assumption|]. split; [assumption|]. split; [assumption|]. split; [unfold values in Nk; rewrite map_map in Nk; exact Nk|].
    unfold cost_efficient_count in Eef. apply bind_ok in Eef as (pps & Ep & Eef). apply Ok_inj in Eef. exists pps. split; [|now symmetry]. apply mapM_ok in Ep. unfold agents_list, values in Ep. clear - Ep. revert pps Ep. generalize (w_agents w). induction d as [|e d IH]; intros pps F; inversion F; subst; constructor; [assumption | now apply IH].
Qed.
(** the state at the end *)
Theorem C61_final_descriptors : forall rnd4 so (g : args QcA) profiles (stakes costs : list Qc) (s0 s : sim QcA), set_order so -> init g profiles stakes costs = Ok s0 -> one_at_a_time g -> positive_inputs g stakes -> reach so s0 s ->
  exists d ps, final_descriptors (A := QcA) rnd4 s = Ok d /\ pools_list (s_w s) = Ok ps /\ NoDup ps /\ (forall p, In p ps <-> exists id, active (s_w s) id p) /\
    (fd_equilibrium d = true <-> (c_itac (s_c s) <= Z.of_nat (s_cons s))%Z) /\ fd_pools d = length ps /\ fd_operators d = length (nodup Nat.eq_dec (owners ps)) /\
    (ps = [] -> fd_nakamoto d = 0%nat) /\ (ps <> [] -> least (majority (keys (w_agents (s_w s))) (controls ps) (Qc_sum (map p_stake ps))) (fd_nakamoto d)) /\
    fd_pledge d = rnd4 (Qc_sum (map p_pledge ps)).
Proof.
  intros rnd4 so g profiles stakes costs s0 s SO H1 H2 HP R. assert (V := vis_between _ _ _ _ R). destruct (exact_all False True True so SO _ _ _ _ _ _ H1 H2 (inputs_pos _ _ _ _ _ H1 HP) V) as [G _].
  destruct (C35_nakamoto_of_reachable_states so g profiles stakes costs s0 (s_w s) SO H1 H2 HP V) as (ps & nk & Hps & En & N0 & N1). destruct (C38_operator_statistics (s_w s) ps Hps) as (ops & _ & _ & Eo & _ & _ & Io & In' & _).
  destruct (C57_pool_statistics (s_w s) ps Hps) as (_ & _ & _ & _ & Et). destruct (pools_nodup _ _ _ _ _ G ps Hps) as [Nd A1].
  exists (mkFinalDesc (A := QcA) (has_converged s) (number_of_pools (s_w s)) ops nk (rnd4 (Qc_sum (map p_pledge ps)))), ps. unfold final_descriptors. rewrite Eo. cbn [bind]. rewrite En. cbn [bind]. rewrite Et. cbn [bind fd_equilibrium fd_pools fd_operators fd_nakamoto fd_pledge].
  split; [reflexivity|]. split; [assumption|]. split; [assumption|]. split; [assumption|]. split; [unfold has_converged; apply Z.leb_le|]. split; [assumption|]. split; [assumption|]. split; [assumption|]. split; [assumption | reflexivity].
Qed.

(** ** The demo run: after three rounds agents are operators and delegators, with 3 pools among them *)
Definition no_rounding (x : Qc) : Qc := x.
Definition row_is (r : agent_row QcA) (st : status) (n : nat) : bool := (match ar_status r, st with Abstainer, Abstainer | Operator, Operator | Delegator, Delegator => true | _, _ => false end) && Nat.eqb (ar_pools r) n.
Example C61_instance : exists s0 s rows prows d f, init demo_seq demo_profiles demo_stakes demo_costs = Ok s0 /\ reach so_id s0 s /\ set_order so_id /\ one_at_a_time demo_seq /\ positive_inputs demo_seq demo_stakes /\ (forall x : Qc, In x (phase_values (g_a0 demo_seq)) -> 0 <= x) /\ (0 < s_n s0)%Z /\ agents_table (A := QcA) no_rounding (s_w s) = Ok rows /\ pools_table (A := QcA) no_rounding (s_w s) = Ok prows /\ length prows = 3%nat /\ list_sum (map ar_pools rows) = 3%nat /\ existsb (fun r => row_is r Operator 2) rows = true /\ existsb (fun r => row_is r Delegator 0) rows = true /\ initial_descriptors (A := QcA) (s_w s0) = Ok d /\ id_max d = Q2Qc (7#10) /\ id_nakamoto d = 1%nat /\ final_descriptors (A := QcA) no_rounding s = Ok f /\ fd_pools f = 3%nat.
Proof.
  destruct (steps_check demo_init 3 (fun s => match agents_table (A := QcA) no_rounding (s_w s), pools_table (A := QcA) no_rounding (s_w s), final_descriptors (A := QcA) no_rounding s with
    | Ok rows, Ok prows, Ok f => Nat.eqb (length prows) 3 && (Nat.eqb (list_sum (map ar_pools rows)) 3 && (existsb (fun r => row_is r Operator 2) rows && (existsb (fun r => row_is r Delegator 0) rows && Nat.eqb (fd_pools f) 3))) | _, _, _ => false end)) as (s0 & s & H1 & H2 & H3). { vm_compute. reflexivity. }
  assert (D : match demo_init with Ok s0 => (0 <? s_n s0)%Z && match initial_descriptors (A := QcA) (s_w s0) with Ok d => Qc_eqb (id_max d) (Q2Qc (7#10)) && Nat.eqb (id_nakamoto d) 1 | _ => false end | _ => false end = true) by (vm_compute; reflexivity).
  rewrite H1 in D. apply andb_true_iff in D as [D0 D]. destruct (initial_descriptors (A := QcA) (s_w s0)) as [d|] eqn:Ed; [|discriminate]. apply andb_true_iff in D as [D1 D2].
  destruct (agents_table (A := QcA) no_rounding (s_w s)) as [rows|] eqn:Ea; [|discriminate]. destruct (pools_table (A := QcA) no_rounding (s_w s)) as [prows|] eqn:Ep; [|discriminate]. destruct (final_descriptors (A := QcA) no_rounding s) as [f|] eqn:Ef; [|discriminate].
  repeat apply andb_true_iff in H3 as [? H3]. exists s0, s, rows, prows, d, f. split; [exact H1|]. split; [now apply steps_reach in H2|]. split; [exact so_id_set_order|]. split; [exact demo_one|]. split; [exact demo_positive|].
  split; [intros x [<-|[]]; discriminate|]. split; [now apply Z.ltb_lt|]. split; [assumption|]. split; [assumption|]. split; [now apply Nat.eqb_eq|]. split; [now apply Nat.eqb_eq|]. split; [assumption|]. split; [assumption|]. split; [assumption|].
  split; [destruct (Qc_eqb_spec (id_max d) (Q2Qc (7#10))); [assumption | discriminate]|]. split; [now apply Nat.eqb_eq|]. split; [assumption | now apply Nat.eqb_eq].
Qed.
