(** C91: the figures a run reports, under every activation order. *)
From Coq Require Import ZArith QArith Qcanon List Bool Arith Lia Permutation Sorted.
From Verif Require Import Num Py QcTac Rewards RewardFacts PropRewards SortedKeyList World Stakeholder Helper PropHelper Sched Sim Init Reach ListFacts Inv Eval Exec Step SimInv Spec Greedy PropInit Demo PropSched ExactInv PropState PropExact Reporters ReporterFacts PropReporters Frame PropRun PropMove PropTotal TotalEval PropIncome Persons PropBudget PropMetrics Export PropExport AnyOrder PropSimul Main PropPhase PropMain.
From Verif Require Import AnyBooks PropBooks AnyRank AnyTotal PropAnyTotal.
Import ListNotations.
Open Scope Qc_scope.

(** What the states of a run share under every activation order, one phase: the registered pools can be listed, their operators are agents, and each pool has a positive pledge and holds it and what its own books list. *)
Definition books (w : world QcA) (ps : list (pool QcA)) : Prop :=
  pools_list w = Ok ps /\ (forall p, In p ps <-> exists id, active w id p) /\ (forall p, In p ps -> In (p_owner p) (keys (w_agents w))) /\ NoDup (keys (w_agents w)) /\
  (forall p, In p ps -> p_stake p = p_pledge p + total (p_delegators p) /\ 0 < p_pledge p /\ 0 <= total (p_delegators p) /\ (total (p_delegators p) = 0 -> p_delegators p = [])) /\
  (forall p, In p ps -> 0 <= p_margin p /\ p_margin p <= 1) /\
  rss_ok (w_rss w) /\ (r_scheme (w_rss w) = CIP50 -> 0 < r_a0 (w_rss w)).
Lemma books_of_run : forall so (g : args QcA) profiles (stakes costs : list Qc) (s0 : sim QcA) w, set_order so -> init g profiles stakes costs = Ok s0 -> single_phase g -> sound_inputs g stakes -> ~ degenerate_cip50 g ->
  visible so s0 w -> exists ps, books w ps.
Proof.
  intros so g profiles stakes costs s0 w SO H SP SI ND V. assert (Fi := visible_fine so SO g profiles stakes costs s0 H SP SI ND w V). assert (S := fn_st _ _ _ _ _ _ Fi). assert (Er := es_rss _ _ _ _ (so_es _ _ _ _ S)).
  destruct (start_facts g profiles stakes costs s0 H SI ND) as (_ & (Rs & Rc & Rk & _) & _). rewrite <- Er in Rs, Rc.
  destruct (C74_pools_and_operators QcA so g profiles stakes costs s0 w SO H V) as (Np & _ & Op). destruct (so_full _ _ _ _ S) as (Fo & _ & Hr).
  assert (Hp : forall id r, get (w_pools w) id = Some r -> exists p, get (w_heap w) r = Some p /\ In (p_owner p) (keys (w_agents w))).
  { intros id r G. destruct (proj1 (Hr id r) G) as (a & ag & st & Ga & Hs & J). destruct (proj2 Fo _ _ Ga) as (_ & _ & I3 & _). destruct (I3 st Hs) as (_ & _ & ps & Fp & _). destruct (mine_get _ _ _ _ _ _ Fp J) as (q & Gq & _ & Oq). exists q. split; [exact Gq|]. rewrite Oq. apply get_Some_key. eauto. }
  destruct (mapM_total (deref w) (values (w_pools w))) as (ps & Hps).
  { intros r J. apply In_values in J as (id & J); [|exact Np]. destruct (Hp id r J) as (p & Gp & _). exists p. unfold deref. now rewrite Gp. }
  exists ps. split; [exact Hps|]. apply mapM_ok in Hps. assert (F : Forall2 (fun r p => get (w_heap w) r = Some p) (values (w_pools w)) ps).
  { clear - Hps. induction Hps as [|r p l l' E F IH]; constructor; [now apply of_option_ok in E | exact IH]. }
  assert (A1 : forall p, In p ps <-> exists id, active w id p).
  { intros p. split.
    - intros J. assert (K : exists r, In r (values (w_pools w)) /\ get (w_heap w) r = Some p). { clear - F J. induction F as [|r q l l' E F IH]; [destruct J|]. destruct J as [<-|J]; [exists r; split; [now left | assumption]|]. destruct (IH J) as (r' & ? & ?). exists r'. split; [now right | assumption]. }
      destruct K as (r & Jr & Gr). apply In_values in Jr as (id & Jr); [|exact Np]. exists id, r. auto.
    - intros (id & r & J1 & J2). apply values_In in J1. clear - F J1 J2. induction F as [|r' q l l' E F IH]; [destruct J1|]. destruct J1 as [<-|J1]; [left; congruence | right; now apply IH]. }
  assert (Sd : forall p, In p ps -> sound_pool (w_rss w) p). { intros p J. apply A1 in J as (id & r & _ & Gr). rewrite Er. exact (proj1 (es_heap _ _ _ _ (so_es _ _ _ _ S) r p Gr)). }
  split; [exact A1|]. split. { intros p J. apply A1 in J as (id & r & J & Gr). destruct (Hp id r J) as (q & Gq & O). assert (q = p) by congruence. now subst q. }
  split. { assert (W := C56_agents_never_change QcA so s0 _ V). apply (f_equal (map fst)) in W. unfold who in W. rewrite !map_map in W. change (keys (w_agents w) = keys (w_agents (s_w s0))) in W. rewrite W, (fs_keys _ _ _ _ _ (init_fresh _ _ _ _ _ H)). apply seq_NoDup. }
  split.
  { intros p J. apply Sd in J. assert (T0 := sound_total _ _ J). destruct (sound_stake _ _ J) as [P0 _]. destruct J as (Fa & N & Vd). split; [exact (pf_stake _ _ _ _ Fa)|]. split; [exact P0|]. split; [exact T0|].
    intros Z0. destruct (p_delegators p) as [|e d] eqn:Ed; [reflexivity|]. exfalso. assert (Pp : 0 < total (e :: d)); [|rewrite Z0 in Pp; now apply Qclt_not_eq in Pp]. apply Qc_sum_pos; [|discriminate].
    intros x Jx. apply in_map_iff in Jx as ([a v] & <- & Jx). apply In_get in Jx; [|exact N]. assert (M := proj1 (ltb_MIN_false _) (Vd a v Jx)). cbn [snd]. eapply Qclt_le_trans; [|exact M]. reflexivity. }
  split; [|now split]. intros p J. apply Sd in J. exact (pf_margin _ _ _ _ (proj1 J)).
Qed.

Section World.
  Variables (w : world QcA) (ps : list (pool QcA)).
  Hypothesis B : books w ps.
  Lemma books_stakes : ps <> [] -> 0 < Qc_sum (map p_stake ps).
  Proof.
    intros Ne. destruct B as (_ & _ & _ & _ & St & _). apply Qc_sum_pos; [|destruct ps; [congruence | discriminate]]. intros x J. apply in_map_iff in J as (p & <- & J). destruct (St p J) as (-> & P1 & P2 & _). qlra.
  Qed.
  Lemma books_nakamoto : exists m, nakamoto w = Ok m /\ (ps = [] -> m = 0%nat) /\ (ps <> [] -> least (majority (keys (w_agents w)) (controls ps) (Qc_sum (map p_stake ps))) m).
  Proof.
    assert (Sp := books_stakes). destruct B as (Hps & _ & A2 & Na & _). destruct ps as [|p ps0] eqn:E.
    - exists 0%nat. split; [unfold nakamoto; now rewrite Hps|]. split; [reflexivity | congruence].
    - rewrite <- E in *. assert (Ne : ps <> []) by congruence. destruct (C35_nakamoto_minimal w ps Hps Na A2 (Sp Ne)) as (n & N1 & N2). exists n. split; [exact N1|]. split; [congruence | now intros _].
  Qed.
  Lemma books_rates : ps <> [] ->
    exists pr h, pledge_rate w = Ok pr /\ homogeneity w = Ok h /\ 0 < pr /\ pr <= 1 /\ 0 < h /\ h <= 1 /\
    (h = 1 <-> forall id p id' p', active w id p -> active w id' p' -> p_stake p = p_stake p') /\
    (pr = 1 <-> forall id p, active w id p -> p_delegators p = []).
  Proof.
    intros Ne. destruct B as (Hps & A1 & A2 & Na & St & _).
  assert (Mn : forall f : pool QcA -> Qc, map f ps <> []) by (intros f; destruct ps; [congruence | discriminate]).
  assert (S1 : Qc_sum (map p_stake ps) = Qc_sum (map p_pledge ps) + Qc_sum (map (fun p : pool QcA => total (p_delegators p : dict Qc)) ps)).
  { rewrite <- (Qc_sum_plus (fun p : pool QcA => p_pledge p : Qc)). f_equal. apply map_ext_in. intros p J. now apply St. }
  assert (P1 : 0 < Qc_sum (map p_pledge ps)) by (apply Qc_sum_pos; [intros x J; apply in_map_iff in J as (p & <- & J); now apply St | apply Mn]).
  assert (P2 : 0 <= Qc_sum (map (fun p : pool QcA => total (p_delegators p : dict Qc)) ps)) by (apply Qc_sum_nonneg; intros x J; apply in_map_iff in J as (p & <- & J); now apply St).
  destruct (max_of_ok (map p_stake ps) (Mn _)) as (mx & Hm & Jm & Mx). assert (Pm : 0 < mx). { apply in_map_iff in Jm as (p & <- & J). destruct (St p J) as (-> & ? & ? & _). qlra. }
  assert (Pl : 0 < Qc_ofZ (Z.of_nat (length ps))) by (apply Qc_ofZ_pos; destruct ps; [congruence | cbn; lia]). assert (Pi : 0 < Qc_ofZ (Z.of_nat (length ps)) * mx) by now apply Qcmult_pos.
  exists (Qc_sum (map p_pledge ps) / Qc_sum (map p_stake ps)), (Qc_sum (map p_stake ps) / (Qc_ofZ (Z.of_nat (length ps)) * mx)).
  unfold pledge_rate, homogeneity, when_pools. rewrite Hps. cbn [bind]. assert (Sp : 0 < Qc_sum (map p_stake ps)) by (rewrite S1; qlra).
  split. { destruct ps; [congruence|]. apply pdiv_ok. intros E. change (fsum (a := QcA)) with Qc_sum in E. rewrite E in Sp. now apply Qclt_not_eq in Sp. }
  split. { destruct ps as [|p0 ps0] eqn:E; [congruence|]. rewrite <- E in *. rewrite Hm. cbn [bind]. apply pdiv_ok. exact (Qc_pos_neq _ Pi). }
  split; [now apply Qcdiv_pos|]. split; [apply Qcdiv_le; [assumption|]; rewrite S1; qlra|]. split; [now apply Qcdiv_pos|].
  (* homogeneity *)
  assert (D : Qc_sum (map (fun p : pool QcA => mx - p_stake p) ps) = Qc_ofZ (Z.of_nat (length ps)) * mx - Qc_sum (map p_stake ps)).
  { rewrite <- (Qc_sum_const (fun _ : pool QcA => mx) ps mx) by reflexivity. clear - ps. induction ps as [|p l IH]; [reflexivity|]. cbn [map]. rewrite !Qc_sum_cons, IH. change (T QcA) with Qc. ring. }
  assert (Dn : forall x, In x (map (fun p : pool QcA => mx - p_stake p) ps) -> 0 <= x) by (intros x J; apply in_map_iff in J as (p & <- & J); assert (K := Mx (p_stake p) (in_map _ _ _ J)); change (T QcA) with Qc in *; qlra).
  assert (Dl := Qc_sum_nonneg _ Dn). rewrite D in Dl. split; [apply Qcdiv_le; [assumption|]; rewrite Qcmult_1_l; qlra|]. split.
  - split.
    + intros E id p id' p' J J'. assert (E' : Qc_sum (map p_stake ps) = Qc_ofZ (Z.of_nat (length ps)) * mx) by (rewrite <- (Qcdiv_mul (Qc_sum (map p_stake ps)) _ (Qc_pos_neq _ Pi)), E; ring).
      assert (Z : Qc_sum (map (fun p : pool QcA => mx - p_stake p) ps) = 0) by (rewrite D, E'; ring).
      assert (K : forall q, In q ps -> p_stake q = mx) by (intros q Jq; assert (Z' := Qc_sum_zero _ Dn Z (mx - p_stake q) (in_map _ _ _ Jq)); change (T QcA) with Qc in *; qlra).
      rewrite (K p), (K p'); [reflexivity | apply A1; eauto | apply A1; eauto].
    + intros E. assert (K : forall q, In q ps -> p_stake q = mx). { intros q Jq. apply in_map_iff in Jm as (p & <- & J). apply A1 in J as (i & J). apply A1 in Jq as (j & Jq). exact (E _ _ _ _ Jq J). }
      assert (S2 := Qc_sum_const (p_stake (A := QcA)) ps mx K). change (T QcA) with Qc in *. rewrite S2. apply Qcmult_inv_r. exact (Qc_pos_neq _ Pi).
  - split.
    + intros E id p J. assert (E' : Qc_sum (map p_pledge ps) = Qc_sum (map p_stake ps)) by (rewrite <- (Qcdiv_mul (Qc_sum (map p_pledge ps)) _ (Qc_pos_neq _ Sp)), E; ring).
      assert (Z : Qc_sum (map (fun p : pool QcA => total (p_delegators p : dict Qc)) ps) = 0) by (rewrite <- E' in S1; clear - S1; change (T QcA) with Qc in *; qlra). assert (Jp : In p ps) by (apply A1; eauto).
      apply St; [assumption|]. refine (Qc_sum_zero _ _ Z _ _); [intros x Jx; apply in_map_iff in Jx as (q & <- & Jx); now apply St | apply in_map_iff; eauto].
    + intros E. assert (Z : Qc_sum (map (fun p : pool QcA => total (p_delegators p : dict Qc)) ps) = 0). { apply Qc_sum_zeros. intros x J. apply in_map_iff in J as (p & <- & J). apply A1 in J as (id & J). now rewrite (E id p J). }
      rewrite S1, Z, Qcplus_0_r. apply Qcmult_inv_r. exact (Qc_pos_neq _ P1).
Qed.
  Lemma books_distance : exists d, stat_dist w = Ok d /\ (ps = [] -> d = 0) /\ 0 <= d /\
    (ps <> [] -> d * (1 + 1) = Qc_sum (map (fun e : nat * agent QcA => Qcabs' (controls ps (fst e) - a_stake (snd e))) (w_agents w))).
  Proof.
    destruct B as (Hps & A1 & A2 & Na & St & _). destruct ps as [|p0 ps0] eqn:E; [exists 0; split; [unfold stat_dist, when_pools; now rewrite Hps|]; split; [reflexivity|]; split; [apply Qcle_refl | congruence]|]. rewrite <- E in *.
    destruct (controlled_ok _ ps Na A2) as (cur & Hc & Kc & Gc). set (dif := fun e : nat * agent QcA => Qcabs' (controls ps (fst e) - a_stake (snd e))).
    exists (Qc_sum (map dif (w_agents w)) / (1 + 1)). assert (D0 : forall x, In x (map dif (w_agents w)) -> 0 <= x) by (intros x J; apply in_map_iff in J as (e & <- & _); apply abs_nonneg).
    split.
    { unfold stat_dist, when_pools. rewrite Hps. cbn [bind]. rewrite E. rewrite <- E. rewrite Hc. cbn [bind].
      rewrite (mapM_pure _ dif); [cbn [bind]; rewrite psum_sum; apply pdiv_ok; discriminate|]. intros [a ag] J. cbn [fst snd]. rewrite Gc by (exact (in_map fst _ _ J)). unfold dif; cbn [fst snd]; reflexivity. }
    split; [congruence|]. split; [apply Qcdiv_nonneg; [now apply Qc_sum_nonneg | reflexivity]|]. intros _. apply Qcdiv_mul; discriminate.
  Qed.
  Lemma books_stats : exists am mm tp del, avg_margin w = Ok am /\ median_margin w = Ok mm /\ total_pledge w = Ok tp /\ total_delegated_stake w = Ok del /\
    0 <= am /\ am <= 1 /\ 0 <= mm /\ mm <= 1 /\ 0 <= tp /\ tp <= del /\
    (exists sats, Forall2 (fun p sat => sat * pool_threshold (A := QcA) (w_rss w) (p_pledge p) = p_stake p /\ 0 < sat) ps sats /\ summarises is_mean sats (avg_sat_rate w)) /\
    exists rows, stakes_n_margins w = Ok rows /\
      Forall2 (fun p row => exists ag, get (w_agents w) (p_owner p) = Some ag /\ row = (a_stake ag, p_stake p, p_margin p, p_id p, p_owner p)) ps rows.
  Proof.
    destruct B as (Hps & A1 & A2 & Na & St & Mg & (Rt & Ra) & Rc). destruct (C57_pool_statistics w ps Hps) as ((am & Ea & Za & Ma) & (mm & Em & Zm & Mm) & _ & _ & Et).
    assert (Bd : forall x, In x (map p_margin ps : list Qc) -> 0 <= x /\ x <= 1) by (intros x J; apply in_map_iff in J as (p & <- & J); now apply Mg).
    exists am, mm, (Qc_sum (map p_pledge ps)), (Qc_sum (map p_stake ps)). split; [assumption|]. split; [assumption|]. split; [assumption|]. split; [unfold total_delegated_stake; rewrite Hps; reflexivity|].
    assert (Am : 0 <= am /\ am <= 1). { destruct ps as [|p0 ps0]; [rewrite Za by reflexivity; split; discriminate|]. apply (mean_in_range (map p_margin (p0 :: ps0))); [discriminate | now apply Ma | assumption]. }
    assert (Mb : 0 <= mm /\ mm <= 1). { destruct ps as [|p0 ps0]; [rewrite Zm by reflexivity; split; discriminate|]. apply (median_in_range (map p_margin (p0 :: ps0))); [apply Mm; discriminate | assumption]. }
    split; [apply Am|]. split; [apply Am|]. split; [apply Mb|]. split; [apply Mb|].
    split; [apply Qc_sum_nonneg; intros x J; apply in_map_iff in J as (p & <- & J); apply St in J; destruct J as (_ & J & _); now apply Qclt_le_weak|].
    split. { clear - St. induction ps as [|p l IH]; [discriminate|]. cbn [map]. rewrite !Qc_sum_cons. apply Qcplus_le_compat; [|apply IH; intros; apply St; now right]. destruct (St p (or_introl eq_refl)) as (-> & _ & P & _). change (T QcA) with Qc in *. qlra. }
    assert (Th : forall p, In p ps -> 0 < pool_threshold (A := QcA) (w_rss w) (p_pledge p)).
    { intros p J. destruct (St p J) as (_ & T2 & _). rewrite pool_threshold_eq. destruct (r_scheme (w_rss w)); try assumption. apply Qcmin_pos; [apply Qcmult_pos; auto | assumption]. }
    split.
    - set (sat := fun p : pool QcA => p_stake p / pool_threshold (A := QcA) (w_rss w) (p_pledge p)). exists (map sat ps).
      assert (Er : mapM (fun p => pdiv (A := QcA) (p_stake p) (pool_threshold (A := QcA) (w_rss w) (p_pledge p))) ps = Ok (map sat ps)) by (apply mapM_pure; intros p J; apply pdiv_ok, Qc_pos_neq, Th, J).
      split.
      + clear - Th St. induction ps as [|p l IH]; constructor; [|apply IH; intros; [apply St | apply Th]; now right].
        assert (T1 := Th p (or_introl eq_refl)). split; [apply Qcdiv_mul; now apply Qc_pos_neq|]. apply Qcdiv_pos; [|assumption]. destruct (St p (or_introl eq_refl)) as (-> & P1 & P2 & _). qlra.
      + unfold avg_sat_rate, when_pools. rewrite Hps. cbn [bind]. clear - Er. destruct ps as [|p0 ps0]; [exists 0; split; [reflexivity|]; split; [reflexivity | intros N; now contradiction N]|]. remember (p0 :: ps0) as l eqn:Ep. rewrite Er. cbn [bind]. destruct (mean_is (map sat l)) as (m & M1 & M2); [rewrite Ep; discriminate|].
        exists m. split; [exact M1|]. split; [rewrite Ep; discriminate | now intros _].
    - unfold stakes_n_margins. rewrite Hps. cbn [bind]. destruct (mapM_total (fun p => let! ag := of_option KeyError (get (w_agents w) (p_owner p)) in Ok (a_stake ag, p_stake p, p_margin p, p_id p, p_owner p)) ps) as (rows & Er).
      { intros p J. apply A2, get_Some_key in J as (ag & E). rewrite E. cbn. eauto. }
      exists rows. split; [assumption|]. apply mapM_ok in Er. clear - Er. induction Er as [|p row l rows E Er IH]; constructor; [|assumption]. apply bind_ok in E as (ag & Ea & E). apply of_option_ok in Ea. injection E as <-. eauto.
  Qed.
  Lemma books_ranks : exists by_stake by_cost, operator_places a_stake w ps by_stake /\ operator_places (fun ag => 0 - a_cost ag) w ps by_cost /\
    rounds_to is_mean by_stake (avg_stk_rnk w) /\ rounds_to is_median by_stake (median_stk_rnk w) /\ rounds_to is_mean by_cost (avg_cost_rnk w) /\ rounds_to is_median by_cost (median_cost_rnk w).
  Proof.
    destruct B as (Hps & A1 & A2 & N & _).
    destruct (owner_ranks_are a_stake w ps N Hps A2) as (ls & Es & Ps). destruct (owner_ranks_are (fun ag => 0 - a_cost ag) w ps N Hps A2) as (lc & Ec & Pc).
    assert (Rs := places_range _ _ _ _ N Ps). assert (Rc := places_range _ _ _ _ N Pc). assert (P1 : 0 <= Qc_ofZ 1) by discriminate.
    assert (Qs : forall x, In x ls -> 0 <= x) by (intros x J; eapply Qcle_trans; [exact P1 | now apply Rs]). assert (Qc' : forall x, In x lc -> 0 <= x) by (intros x J; eapply Qcle_trans; [exact P1 | now apply Rc]).
    assert (X1 : rounds_to is_mean ls (avg_stk_rnk w)) by (unfold avg_stk_rnk; replace (owner_ranks w (stakes_dict w)) with (Ok ls) by (symmetry; exact Es); apply rounded_is; [exact mean_is | assumption | exact mean_nonneg]).
    assert (X2 : rounds_to is_median ls (median_stk_rnk w)) by (unfold median_stk_rnk; replace (owner_ranks w (stakes_dict w)) with (Ok ls) by (symmetry; exact Es); apply rounded_is; [exact median_is | assumption | exact median_nonneg]).
    assert (X3 : rounds_to is_mean lc (avg_cost_rnk w)) by (unfold avg_cost_rnk; replace (owner_ranks w (neg_costs_dict w)) with (Ok lc) by (symmetry; exact Ec); apply rounded_is; [exact mean_is | assumption | exact mean_nonneg]).
    assert (X4 : rounds_to is_median lc (median_cost_rnk w)) by (unfold median_cost_rnk; replace (owner_ranks w (neg_costs_dict w)) with (Ok lc) by (symmetry; exact Ec); apply rounded_is; [exact median_is | assumption | exact median_nonneg]).
    exists ls, lc. repeat (split; [assumption|]). assumption.
  Qed.
  Lemma books_counts : exists n, cost_efficient_count w = Ok n.
  Proof.
    destruct B as (_ & _ & _ & _ & _ & _ & Rs & _). unfold cost_efficient_count. destruct (mapM_total (fun ag : agent QcA => potential_profit (A := QcA) (w_rss w) (a_stake ag) (a_cost ag)) (agents_list w)) as (pps & E); [|match goal with |- exists n, bind ?m _ = _ => assert (E' : m = Ok pps) by exact E; rewrite E' end; cbn [bind]; eauto].
    intros ag _. eexists. now apply potential_profit_ok.
  Qed.
  Lemma books_reports n : keys (w_agents w) = seq 0 (Z.to_nat n) ->
    exists l d, pool_stakes_by_agent n w = Ok l /\ pool_stakes_by_agent_id n w = Ok d /\ keys d = keys (w_agents w) /\ values d = l /\
    (forall a, In a (keys (w_agents w)) -> nth_error l a = Some (controls ps a) /\ get d a = Some (controls ps a)) /\ total_delegated_stake w = Ok (Qc_sum l).
  Proof.
    intros K. destruct B as (Hps & A1 & A2 & Na & St & _).
    assert (Ow : forall p, In p ps -> (p_owner p < Z.to_nat n)%nat) by (intros p J; apply A2 in J; rewrite K in J; apply in_seq in J; lia).
    destruct (list_add_at_fold ps _ Ow) as (l & Hl & El). destruct (controlled_ok (seq 0 (Z.to_nat n)) ps (seq_NoDup _ _)) as (d & Hd & Kd & Gd); [intros p J; rewrite <- K; now apply A2|].
    assert (Vd : values d = l).
    { rewrite El. rewrite <- Kd. unfold keys, values. rewrite map_map. apply map_ext_in. intros [a v] J. cbn [fst snd]. assert (Nd : NoDup (keys d)) by (rewrite Kd; apply seq_NoDup). assert (Ja : In a (seq 0 (Z.to_nat n))) by (rewrite <- Kd; exact (in_map fst _ _ J)).
      apply In_get in J; [|assumption]. rewrite (Gd a Ja) in J. now injection J. }
    assert (Su : Qc_sum l = Qc_sum (map p_stake ps)) by (rewrite El; apply controls_total; [apply seq_NoDup | intros p J; rewrite <- K; now apply A2]).
    exists l, d. unfold pool_stakes_by_agent, pool_stakes_by_agent_id, total_delegated_stake. rewrite Hps. cbn [bind].
    split; [exact Hl|]. split; [exact Hd|]. split; [congruence|]. split; [exact Vd|]. split; [|rewrite Su; reflexivity].
    intros a J. rewrite K in J. split; [|now apply Gd]. rewrite El. apply map_nth_error. apply in_seq in J. rewrite (nth_error_nth' _ 0%nat) by (rewrite seq_length; lia). f_equal. rewrite seq_nth by lia. reflexivity.
  Qed.
End World.

Section Run.
  Variables (so : list nat -> list nat -> list nat) (g : args QcA) (profiles : list profile) (stakes costs : list Qc) (s0 : sim QcA).
  Hypothesis H : init g profiles stakes costs = Ok s0.
  Hypothesis SP : single_phase g.
  Lemma agents_numbered s : reach so s0 s -> keys (w_agents (s_w s)) = seq 0 (Z.to_nat (s_n s)).
  Proof.
    intros R. destruct (g_n g) as [x|l] eqn:En.
    - rewrite (reach_keys _ _ _ R), (reach_n _ _ _ _ _ _ _ _ H En R). apply (fs_keys _ _ _ _ _ (init_fresh _ _ _ _ _ H)).
    - exfalso. destruct (SP (pv_map SetN (g_n g))) as (v & X). { unfold fields. now left. } rewrite En in X. discriminate.
  Qed.
End Run.

(** No metric raises in a state between two steps of a run, whatever the activation order. *)
Theorem C91_every_metric_is_defined_in_every_order :
  forall (e : env QcA) so (g : args QcA) profiles (stakes costs : list Qc) (s0 s : sim QcA) i, set_order so -> init g profiles stakes costs = Ok s0 -> single_phase g -> sound_inputs g stakes -> ~ degenerate_cip50 g ->
  reach so s0 s -> (1 <= i <= 30)%Z -> exists v, metric e i s = Ok v.
Proof.
  intros e so g profiles stakes costs s0 s i SO H SP SI ND R Hi. assert (V : visible so s0 (s_w s)) by (now constructor). destruct (books_of_run so g profiles stakes costs s0 (s_w s) SO H SP SI ND V) as (ps & B). assert (Hps := proj1 B).
  destruct (books_stats _ _ B) as (am & mm & tp & del & E24 & E25 & E2 & E28 & _ & _ & _ & _ & _ & _ & (sats & _ & x8 & E8 & _) & rows & E21 & _).
  destruct (C57_pool_statistics (s_w s) ps Hps) as (_ & _ & (x3 & E3 & _) & (x4 & E4 & _) & _).
  destruct (C38_operator_statistics (s_w s) ps Hps) as (ops & spl & mx & E30 & E19 & E6 & _ & _ & _ & _ & _ & _ & Hne & He).
  assert (exists x5 x7, avg_pools_per_operator (s_w s) = Ok x5 /\ median_pools_per_operator (s_w s) = Ok x7) as (x5 & x7 & E5 & E7).
  { destruct ps as [|p ps]; [destruct He as (_ & _ & _ & X1 & X2); [reflexivity|]; eauto|]. destruct Hne as (_ & _ & x5 & x7 & X1 & X2 & _); [discriminate|]. eauto. }
  destruct (books_nakamoto _ _ B) as (nak & E9 & _).
  destruct (books_ranks _ _ B) as (_ & _ & _ & _ & (x15 & E15 & _) & (x17 & E17 & _) & (x16 & E16 & _) & (x18 & E18 & _)).
  destruct (books_counts _ _ B) as (x20 & E20).
  destruct (C36_gini_metrics (s_w s) ps Hps) as (l1 & l2 & _ & _ & E22 & E23 & _). destruct (gini_total l1) as (x22 & G22). destruct (gini_total l2) as (x23 & G23).
  destruct (books_reports _ _ B (s_n s) (agents_numbered so g profiles stakes costs s0 H SP s R)) as (x26 & x27 & E26 & E27 & _).
  destruct (books_distance _ _ B) as (x10 & E10 & _).
  assert (exists x12 x13, pledge_rate (s_w s) = Ok x12 /\ homogeneity (s_w s) = Ok x13) as (x12 & x13 & E12 & E13).
  { destruct ps as [|p ps]; [exists 0, 0; unfold pledge_rate, homogeneity, when_pools; now rewrite Hps|]. destruct (books_rates _ _ B) as (d1 & d2 & E & E' & _); [discriminate | eauto]. }
  assert (exists x11, min_aggregate_pledge e (s_w s) = Ok x11) as (x11 & E11) by (unfold min_aggregate_pledge, when_pools; rewrite Hps; destruct ps; cbn [bind]; [eauto|]; rewrite pdiv_ok by discriminate; cbn [bind]; eauto).
  assert (i = 1 \/ i = 2 \/ i = 3 \/ i = 4 \/ i = 5 \/ i = 6 \/ i = 7 \/ i = 8 \/ i = 9 \/ i = 10 \/ i = 11 \/ i = 12 \/ i = 13 \/ i = 14 \/ i = 15 \/ i = 16 \/ i = 17 \/ i = 18 \/ i = 19 \/ i = 20 \/ i = 21 \/ i = 22 \/ i = 23 \/ i = 24 \/ i = 25 \/ i = 26 \/ i = 27 \/ i = 28 \/ i = 29 \/ i = 30)%Z as D by lia.
  repeat match goal with D : _ \/ _ |- _ => destruct D as [->|D] | D : i = _ |- _ => subst i end; unfold metric; unfold as_num, as_nat, as_int;
  try (eexists; reflexivity);
  first [rewrite E2 | rewrite E3 | rewrite E4 | rewrite E5 | rewrite E6 | rewrite E7 | rewrite E8 | rewrite E9 | rewrite E10 | rewrite E11 | rewrite E12 | rewrite E13 | rewrite E15 | rewrite E16 | rewrite E17 | rewrite E18 | rewrite E19 | rewrite E20 | rewrite E21 | rewrite E22, G22 | rewrite E23, G23 | rewrite E24 | rewrite E25 | rewrite E26 | rewrite E27 | rewrite E28 | rewrite E30];
  eexists; reflexivity.
Qed.

(** What the figures say, whatever the activation order, in every state that agents or reporters see.  The Nakamoto coefficient is the least number of agents whose pools hold more than half of the stake in pools;
    the pledge rate and the homogeneity are in (0, 1], the first is 1 exactly if nobody delegates, the second exactly if all pools have the same stake; the statistical distance is half of the sum of the differences
    between the stake agents control and the stake they own. *)
Theorem C91_decentralisation_metrics_in_every_order :
  forall so (g : args QcA) profiles (stakes costs : list Qc) (s0 : sim QcA) w, set_order so -> init g profiles stakes costs = Ok s0 -> single_phase g -> sound_inputs g stakes -> ~ degenerate_cip50 g ->
  visible so s0 w ->
  exists ps m d, pools_list w = Ok ps /\ (forall p, In p ps <-> exists id, active w id p) /\
    nakamoto w = Ok m /\ (ps = [] -> m = 0%nat) /\ (ps <> [] -> least (majority (keys (w_agents w)) (controls ps) (Qc_sum (map p_stake ps))) m) /\
    stat_dist w = Ok d /\ (ps = [] -> d = 0) /\ 0 <= d /\ (ps <> [] -> d * (1 + 1) = Qc_sum (map (fun e : nat * agent QcA => Qcabs' (controls ps (fst e) - a_stake (snd e))) (w_agents w))) /\
    (ps <> [] -> exists pr h, pledge_rate w = Ok pr /\ homogeneity w = Ok h /\ 0 < pr /\ pr <= 1 /\ 0 < h /\ h <= 1 /\
      (h = 1 <-> forall id p id' p', active w id p -> active w id' p' -> p_stake p = p_stake p') /\
      (pr = 1 <-> forall id p, active w id p -> p_delegators p = [])).
Proof.
  intros so g profiles stakes costs s0 w SO H SP SI ND V. destruct (books_of_run so g profiles stakes costs s0 w SO H SP SI ND V) as (ps & B).
  destruct (books_nakamoto _ _ B) as (m & N1 & N2 & N3). destruct (books_distance _ _ B) as (d & D1 & D2 & D3 & D4). exists ps, m, d.
  split; [exact (proj1 B)|]. split; [exact (proj1 (proj2 B))|]. repeat (split; [assumption|]). exact (books_rates _ _ B).
Qed.
(** Margins average to something in [0, 1], the total pledge is part of the stake in pools, saturation is relative to each pool's own threshold, and the ranks are those of the operators. *)
Theorem C91_pool_statistics_in_every_order :
  forall so (g : args QcA) profiles (stakes costs : list Qc) (s0 : sim QcA) w, set_order so -> init g profiles stakes costs = Ok s0 -> single_phase g -> sound_inputs g stakes -> ~ degenerate_cip50 g ->
  visible so s0 w ->
  exists ps, pools_list w = Ok ps /\
    (exists am mm tp del, avg_margin w = Ok am /\ median_margin w = Ok mm /\ total_pledge w = Ok tp /\ total_delegated_stake w = Ok del /\
      0 <= am /\ am <= 1 /\ 0 <= mm /\ mm <= 1 /\ 0 <= tp /\ tp <= del /\
      (exists sats, Forall2 (fun p sat => sat * pool_threshold (A := QcA) (w_rss w) (p_pledge p) = p_stake p /\ 0 < sat) ps sats /\ summarises is_mean sats (avg_sat_rate w)) /\
      exists rows, stakes_n_margins w = Ok rows /\
        Forall2 (fun p row => exists ag, get (w_agents w) (p_owner p) = Some ag /\ row = (a_stake ag, p_stake p, p_margin p, p_id p, p_owner p)) ps rows) /\
    exists by_stake by_cost, operator_places a_stake w ps by_stake /\ operator_places (fun ag => 0 - a_cost ag) w ps by_cost /\
      rounds_to is_mean by_stake (avg_stk_rnk w) /\ rounds_to is_median by_stake (median_stk_rnk w) /\ rounds_to is_mean by_cost (avg_cost_rnk w) /\ rounds_to is_median by_cost (median_cost_rnk w).
Proof.
  intros so g profiles stakes costs s0 w SO H SP SI ND V. destruct (books_of_run so g profiles stakes costs s0 w SO H SP SI ND V) as (ps & B). exists ps.
  split; [exact (proj1 B)|]. split; [exact (books_stats _ _ B) | exact (books_ranks _ _ B)].
Qed.
(** The stake per agent is that of the agent's pools, in the list and in the dictionary, and both add up to the stake in pools ... *)
Theorem C91_stake_reports_add_up_in_every_order :
  forall so (g : args QcA) profiles (stakes costs : list Qc) (s0 s : sim QcA), set_order so -> init g profiles stakes costs = Ok s0 -> single_phase g -> sound_inputs g stakes -> ~ degenerate_cip50 g ->
  reach so s0 s ->
  exists ps l d, pools_list (s_w s) = Ok ps /\ pool_stakes_by_agent (s_n s) (s_w s) = Ok l /\ pool_stakes_by_agent_id (s_n s) (s_w s) = Ok d /\
    keys d = keys (w_agents (s_w s)) /\ values d = l /\
    (forall a, In a (keys (w_agents (s_w s))) -> nth_error l a = Some (controls ps a) /\ get d a = Some (controls ps a)) /\
    total_delegated_stake (s_w s) = Ok (Qc_sum l).
Proof.
  intros so g profiles stakes costs s0 s SO H SP SI ND R. destruct (books_of_run so g profiles stakes costs s0 (s_w s) SO H SP SI ND (vis_between _ _ _ _ R)) as (ps & B).
  destruct (books_reports _ _ B (s_n s) (agents_numbered so g profiles stakes costs s0 H SP s R)) as (l & d & Q). exists ps, l, d. split; [exact (proj1 B) | exact Q].
Qed.
(** ... but this stake can be more than all agents have: 8/5 of it in the run of C25, after three steps of either simultaneous order. *)
Lemma five_single o : single_phase (five_args o).
Proof. intros f J. cbn in J. repeat destruct J as [<-|J]; try (eexists; reflexivity). destruct J. Qed.
Lemma five_sound o : sound_inputs (five_args o) five_stakes /\ ~ degenerate_cip50 (five_args o).
Proof.
  split; [|intros [E _]; discriminate E]. repeat split; try discriminate.
  - cbn. intros x [<-|[<-|[<-|[<-|[<-|[]]]]]]; reflexivity.
  - cbn. intros x [<-|[]]; discriminate.
  - cbn. intros x [<-|[]]; discriminate.
Qed.
Definition five_total (s : sim QcA) : bool := match total_delegated_stake (s_w s), pools_list (s_w s) with Ok t, Ok ps => Qc_eqb t (Q2Qc (8 # 5)) && Qc_eqb (active_stake_agents (s_w s)) 1 && Nat.eqb (length ps) 3 | _, _ => false end.
Lemma five_total_sim : match (let! s0 := init (five_args Simultaneous) five_profiles five_stakes five_costs in steps 3 s0) with Ok s => five_total s | Err _ => false end = true.
Proof. vm_compute. reflexivity. Qed.
Lemma five_total_semi : match (let! s0 := init (five_args Semisimultaneous) five_profiles five_stakes five_costs in steps 3 s0) with Ok s => five_total s | Err _ => false end = true.
Proof. vm_compute. reflexivity. Qed.
Theorem C91_reported_stake_exceeds_all_stake_refuted : forall o, simultaneous o ->
  exists s0 s ps, init (five_args o) five_profiles five_stakes five_costs = Ok s0 /\ single_phase (five_args o) /\ sound_inputs (five_args o) five_stakes /\ ~ degenerate_cip50 (five_args o) /\ reach so_id s0 s /\
  pools_list (s_w s) = Ok ps /\ length ps = 3%nat /\ active_stake_agents (s_w s) = 1 /\ total_delegated_stake (s_w s) = Ok (Q2Qc (8 # 5)) /\ forall e, metric e 28 s = Ok (MNum (A := QcA) (Q2Qc (8 # 5))).
Proof.
  intros o Ho. assert (X : exists s0 s, init (five_args o) five_profiles five_stakes five_costs = Ok s0 /\ reach so_id s0 s /\ five_total s = true).
  { destruct Ho as [->| ->].
    - destruct (steps_check (init (five_args Simultaneous) five_profiles five_stakes five_costs) 3 five_total five_total_sim) as (s0 & s & H1 & H2 & H3). exists s0, s. apply steps_reach in H2. split; [exact H1|]. split; [exact H2 | exact H3].
    - destruct (steps_check (init (five_args Semisimultaneous) five_profiles five_stakes five_costs) 3 five_total five_total_semi) as (s0 & s & H1 & H2 & H3). exists s0, s. apply steps_reach in H2. split; [exact H1|]. split; [exact H2 | exact H3]. }
  destruct X as (s0 & s & H1 & H2 & H3). unfold five_total in H3. destruct (total_delegated_stake (s_w s)) as [t|] eqn:Et; [|discriminate H3]. destruct (pools_list (s_w s)) as [ps|] eqn:Ep; [|discriminate H3].
  apply andb_true_iff in H3 as [H3 H5]. apply andb_true_iff in H3 as [H3 H4]. apply Qc_eqb_eq in H3, H4. apply Nat.eqb_eq in H5. subst t.
  exists s0, s, ps. split; [exact H1|]. split; [apply five_single|]. split; [apply five_sound|]. split; [apply five_sound|]. split; [exact H2|]. split; [exact Ep|]. split; [exact H5|]. split; [exact H4|].
  split; [exact Et|]. intros e. unfold metric, as_num. rewrite Et. reflexivity.
Qed.

(** This run also meets the hypotheses of the theorems above, with pools to report on. *)
Example C91_instance : forall o, simultaneous o -> exists s0 s ps, init (five_args o) five_profiles five_stakes five_costs = Ok s0 /\ set_order so_id /\ single_phase (five_args o) /\ sound_inputs (five_args o) five_stakes /\ ~ degenerate_cip50 (five_args o) /\
  reach so_id s0 s /\ visible so_id s0 (s_w s) /\ pools_list (s_w s) = Ok ps /\ ps <> [].
Proof.
  intros o Ho. destruct (C91_reported_stake_exceeds_all_stake_refuted o Ho) as (s0 & s & ps & H1 & H2 & H3 & H4 & H5 & H6 & H7 & _). exists s0, s, ps.
  split; [exact H1|]. split; [exact so_id_set_order|]. split; [exact H2|]. split; [exact H3|]. split; [exact H4|]. split; [exact H5|]. split; [now constructor|]. split; [exact H6|]. intros E. rewrite E in H7. discriminate H7.
Qed.
