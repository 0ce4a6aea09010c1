(** What the remaining metrics report (C57-C59): means and medians over the pools, average and median ranks of the operators, counts of stakeholders. *)
From Coq Require Import ZArith QArith Qcanon List Bool Arith Lia Permutation Sorted.
From Verif Require Import Num Py QcTac Rewards RewardFacts PropRewards SortedKeyList World Stakeholder Helper PropHelper Sched Sim Init Reach ListFacts Inv Eval Exec Step SimInv Spec Greedy PropInit Demo PropSched ExactInv PropState PropExact Reporters ReporterFacts PropReporters Frame PropRun PropPhase PropMove PropTotal TotalEval PropIncome Persons PropBudget.
Import ListNotations.
Open Scope Qc_scope.

(** * Specification *)
Definition count_of {X} (l : list X) : Qc := Qc_ofZ (Z.of_nat (length l)).
(** the arithmetic mean *)
Definition is_mean (l : list Qc) (m : Qc) : Prop := m * count_of l = Qc_sum l.
(** the middle of the sorted values, or the mean of the two values in the middle *)
Definition is_median (l : list Qc) (m : Qc) : Prop :=
  exists s a b, Permutation s l /\ StronglySorted (fun x y => x <= y) s /\ nth_error s (Nat.div2 (length l - 1)) = Some a /\ nth_error s (Nat.div2 (length l)) = Some b /\ m * (1 + 1) = a + b.
(** the integer nearest to x, the even one if x lies in the middle between two integers *)
Definition nearest_even (x : Qc) (z : Z) : Prop := Qcabs' (x - Qc_ofZ z) * (1 + 1) <= 1 /\ (Qcabs' (x - Qc_ofZ z) * (1 + 1) = 1 -> Z.even z = true).
Lemma twice (y : Qc) : y * (1 + 1) = y + y.  Proof. ring. Qed.

Lemma mean_is (l : list Qc) : l <> [] -> exists m, mean (A := QcA) l = Ok m /\ is_mean l m.
Proof. intros N. exists (Qc_sum l / count_of l). split; [now apply mean_ok|]. apply Qcdiv_mul. apply Qc_pos_neq, Qc_ofZ_pos. destruct l; [congruence | cbn; lia]. Qed.
Lemma median_is (l : list Qc) : l <> [] -> exists m, median (A := QcA) l = Ok m /\ is_median l m.
Proof.
  intros N. set (s := sort_up (A := QcA) l). assert (P : Permutation s l) by apply sort_up_perm. assert (L := Permutation_length P). assert (St := sort_up_sorted l).
  assert (L0 : (0 < length l)%nat) by (destruct l; [congruence | cbn; lia]). assert (Hn : (Nat.div2 (length l) < length l)%nat) by (now apply Nat.lt_div2).
  assert (G : forall i, (i < length l)%nat -> exists x, nth_error s i = Some x). { intros i Hi. destruct (nth_error s i) as [x|] eqn:E; [eauto|]. apply nth_error_None in E. change (T QcA) with Qc in *. lia. }
  assert (U : median (A := QcA) l = if Nat.odd (length l) then of_option IndexError (nth_error s (Nat.div2 (length l)))
    else let! a := of_option IndexError (nth_error s (Nat.div2 (length l) - 1)) in let! b := of_option IndexError (nth_error s (Nat.div2 (length l))) in pdiv (A := QcA) (add (a := QcA) a b) (two (A := QcA))).
  { unfold median. destruct l; [congruence | reflexivity]. }
  rewrite U. destruct (G _ Hn) as (b & Eb). rewrite Eb. destruct (Nat.odd (length l)) eqn:Eo.
  - exists b. split; [reflexivity|]. exists s, b, b. split; [assumption|]. split; [assumption|]. split; [|split; [assumption | ring]].
    assert (E : Nat.div2 (length l - 1) = Nat.div2 (length l)); [|now rewrite E]. apply Nat.odd_spec in Eo as (k & ->). replace (2 * k + 1 - 1)%nat with (2 * k)%nat by lia. rewrite Nat.div2_double. replace (2 * k + 1)%nat with (S (2 * k)) by lia. now rewrite Nat.div2_succ_double.
  - destruct (G (Nat.div2 (length l) - 1)%nat) as (a & Ea); [lia|]. rewrite Ea. cbn [of_option bind]. rewrite pdiv_ok by discriminate. eexists. split; [reflexivity|]. exists s, a, b. split; [assumption|]. split; [assumption|]. split; [|split; [assumption|]].
    + assert (E : Nat.div2 (length l - 1) = (Nat.div2 (length l) - 1)%nat); [|now rewrite E]. rewrite <- Nat.negb_even in Eo. apply negb_false_iff, Nat.even_spec in Eo as (k & Ek). rewrite Ek in L0 |- *. destruct k as [|k]; [cbn in L0; lia|]. rewrite Nat.div2_double. replace (2 * S k - 1)%nat with (S (2 * k)) by lia. rewrite Nat.div2_succ_double. lia.
    + exact (Qcdiv_mul (a + b) (1 + 1) ltac:(discriminate)).
Qed.
(** half of the values are not above the median and half of the values are not below it *)
Lemma sorted_le s i j a b : StronglySorted (fun x y : Qc => x <= y) s -> nth_error s i = Some a -> nth_error s j = Some b -> (i <= j)%nat -> a <= b.
Proof.
  intros S. revert i j. induction S as [|x l S IH F]; intros i j Ea Eb L; [now destruct i|]. destruct i as [|i], j as [|j]; [| |lia|].
  - cbn in *. injection Ea as <-. injection Eb as <-. apply Qcle_refl.
  - cbn in *. injection Ea as <-. rewrite Forall_forall in F. apply F. eapply nth_error_In; eassumption.
  - cbn in *. apply (IH i j); [assumption.. | lia].
Qed.
Lemma median_in_range l m lo hi : is_median l m -> (forall x, In x l -> lo <= x /\ x <= hi) -> lo <= m /\ m <= hi.
Proof.
  intros (s & a & b & P & S & Ea & Eb & E) B. apply nth_error_In in Ea, Eb. apply (Permutation_in _ P) in Ea, Eb. apply B in Ea as [? ?], Eb as [? ?]. split; qnra.
Qed.
Lemma mean_in_range l m lo hi : l <> [] -> is_mean l m -> (forall x, In x l -> lo <= x /\ x <= hi) -> lo <= m /\ m <= hi.
Proof.
  intros N M B. destruct (mean_between l lo hi N B) as (m' & E & R). destruct (mean_is l N) as (m2 & E2 & M2). assert (m2 = m') by congruence. subst m2. assert (m' = m); [|now subst].
  unfold is_mean in *. assert (Q : count_of l <> 0) by (apply Qc_pos_neq, Qc_ofZ_pos; destruct l; [congruence | cbn; lia]).
  apply Qcmult_inv_r in Q. replace m' with (m' * (count_of l * / count_of l)) by (rewrite Q; ring). replace m with (m * (count_of l * / count_of l)) by (rewrite Q; ring). rewrite !Qcmult_assoc, M, M2. reflexivity.
Qed.
Lemma round_is (x : Qc) : 0 <= x -> nearest_even x (py_round (A := QcA) x).
Proof.
  intros X. destruct (proj1 (Qc_trunc_spec x) X) as [L U]. unfold py_round. change (trunc (a := QcA) x) with (Qc_trunc x). set (f := Qc_trunc x) in *.
  change (ofZ (a := QcA) f) with (Qc_ofZ f). change (mul (a := QcA)) with Qcmult. change (sub (a := QcA)) with Qcminus. change (two (A := QcA)) with (1 + 1). change (one (a := QcA)) with 1. change (ltb (a := QcA)) with Qc_ltb.
  assert (E1 : Qcabs' (x - Qc_ofZ f) = x - Qc_ofZ f) by (unfold Qcabs'; destruct (Qc_ltb_spec (x - Qc_ofZ f) 0); [qlra | reflexivity]).
  assert (E2 : Qcabs' (x - Qc_ofZ (f + 1)) = Qc_ofZ f + 1 - x). { rewrite Qc_ofZ_add, Qc_ofZ_1. unfold Qcabs'. destruct (Qc_ltb_spec (x - (Qc_ofZ f + 1)) 0); [ring | exfalso; qlra]. }
  unfold nearest_even. rewrite !twice. destruct (Qc_ltb_spec (x - Qc_ofZ f + (x - Qc_ofZ f)) 1) as [D|D]; [rewrite E1; split; [qlra | intros C; exfalso; qlra]|].
  destruct (Qc_ltb_spec 1 (x - Qc_ofZ f + (x - Qc_ofZ f))) as [D'|D']; [rewrite E2; split; [qlra | intros C; exfalso; qlra]|].
  destruct (Z.even f) eqn:Ev; [rewrite E1; split; [qlra | trivial]|]. rewrite E2. split; [qlra|]. intros _. rewrite Z.even_add, Ev. reflexivity.
Qed.
Lemma round_in_range x z lo hi : nearest_even x z -> Qc_ofZ lo <= x -> x <= Qc_ofZ hi -> (lo <= z <= hi)%Z.
Proof.
  intros [H _] L U. rewrite twice in H. destruct (Z_lt_le_dec z lo) as [C|C]; [|destruct (Z_lt_le_dec hi z) as [C'|C']; [|lia]]; exfalso.
  - assert (Q : Qc_ofZ z + 1 <= Qc_ofZ lo) by (rewrite <- Qc_ofZ_1, <- Qc_ofZ_add; apply Qc_ofZ_le; lia). unfold Qcabs' in H. destruct (Qc_ltb_spec (x - Qc_ofZ z) 0); qlra.
  - assert (Q : Qc_ofZ hi + 1 <= Qc_ofZ z) by (rewrite <- Qc_ofZ_1, <- Qc_ofZ_add; apply Qc_ofZ_le; lia). unfold Qcabs' in H. destruct (Qc_ltb_spec (x - Qc_ofZ z) 0); qlra.
Qed.

(** * C57: pledges, margins and saturation *)
(** the metric is 0 without pools and otherwise the statistic of the pools' values *)
Definition summarises (stat : list Qc -> Qc -> Prop) (values : list Qc) (r : res Qc) : Prop := exists m, r = Ok m /\ (values = [] -> m = 0) /\ (values <> [] -> stat values m).
Lemma when_pools_is (stat : list Qc -> Qc -> Prop) (w : world QcA) ps (f : pool QcA -> Qc) c : pools_list w = Ok ps -> (forall l, l <> [] -> exists m, c l = Ok m /\ stat l m) -> summarises stat (map f ps) (when_pools w (fun ps => c (map f ps))).
Proof.
  intros E H. unfold when_pools. rewrite E. cbn [bind]. destruct ps as [|p ps]; [exists 0; split; [reflexivity|]; split; [reflexivity | intros C; now contradiction C]|].
  destruct (H (map f (p :: ps))) as (m & Em & S); [discriminate|]. exists m. split; [exact Em|]. split; [discriminate | now intros _].
Qed.
Theorem C57_pool_statistics : forall (w : world QcA) ps, pools_list w = Ok ps ->
  summarises is_mean (map p_margin ps) (avg_margin w) /\ summarises is_median (map p_margin ps) (median_margin w) /\
  summarises is_mean (map p_pledge ps) (avg_pledge w) /\ summarises is_median (map p_pledge ps) (median_pledge w) /\
  total_pledge w = Ok (Qc_sum (map p_pledge ps)).
Proof.
  intros w ps E. split; [exact (when_pools_is is_mean w ps p_margin (mean (A := QcA)) E mean_is)|]. split; [exact (when_pools_is is_median w ps p_margin (median (A := QcA)) E median_is)|].
  split; [exact (when_pools_is is_mean w ps p_pledge (mean (A := QcA)) E mean_is)|]. split; [exact (when_pools_is is_median w ps p_pledge (median (A := QcA)) E median_is)|]. unfold total_pledge. rewrite E. reflexivity.
Qed.
(** In the states of a run: no metric raises, margins average to something in [0, 1], the total pledge is part of the stake in pools, which is part of the agents' stake. *)
Theorem C57_pool_statistics_of_reachable_states : forall so (g : args QcA) profiles (stakes costs : list Qc) (s0 : sim QcA) w, set_order so -> init g profiles stakes costs = Ok s0 -> one_at_a_time g -> positive_inputs g stakes ->
  visible so s0 w ->
  exists ps am mm tp del, pools_list w = Ok ps /\ avg_margin w = Ok am /\ median_margin w = Ok mm /\ total_pledge w = Ok tp /\ total_delegated_stake w = Ok del /\
    0 <= am /\ am <= 1 /\ 0 <= mm /\ mm <= 1 /\ 0 <= tp /\ tp <= del /\ del <= active_stake_agents w /\ active_stake_agents w <= 1 /\
    (w_pools w <> [] -> 0 < tp) /\
    (* the saturation of a pool is its stake relative to its own saturation threshold *)
    ((r_scheme (w_rss w) = CIP50 -> 0 < r_a0 (w_rss w)) -> exists sats, Forall2 (fun p sat => sat * pool_threshold (A := QcA) (w_rss w) (p_pledge p) = p_stake p /\ 0 < sat) ps sats /\ summarises is_mean sats (avg_sat_rate w)) /\
    (* one entry per pool: stake of its operator, stake, margin, id, operator *)
    exists rows, stakes_n_margins w = Ok rows /\
      Forall2 (fun p row => exists ag, get (w_agents w) (p_owner p) = Some ag /\ row = (a_stake ag, p_stake p, p_margin p, p_id p, p_owner p)) ps rows.
Proof.
  intros so g profiles stakes costs s0 w SO H1 H2 HP V. assert (HP' := HP). destruct HP' as (F0 & F1 & Hx & _). assert (Hx' : forall x, In x stakes -> 0 <= x) by (intros x J; apply Hx in J; qlra).
  destruct (exact_all False True True so SO _ _ _ _ _ _ H1 H2 (inputs_pos _ _ _ _ _ H1 HP) V) as [G _].
  destruct (reported_pools _ _ _ _ _ G) as (ps & Hps & A1 & A2 & F). destruct (C57_pool_statistics w ps Hps) as ((am & Ea & Za & Ma) & (mm & Em & Zm & Mm) & _ & _ & Et).
  assert (Q : forall p, In p ps -> 0 < r_thr (w_rss w) /\ 0 < p_pledge p /\ 0 < p_stake p /\ p_pledge p <= p_stake p /\ 0 <= p_margin p /\ p_margin p <= 1).
  { intros p J. apply A1 in J as (id & J). destruct (income_pool _ w G id p J) as (T1 & T2 & T4 & T3 & T5 & T6 & _). destruct (reported_deleg _ _ _ _ _ G _ _ J) as [D _]. repeat (split; [assumption|]). split; [rewrite T3; change (T QcA) with Qc in *; qlra|]. now split. }
  assert (B : forall x, In x (map p_margin ps : list Qc) -> 0 <= x /\ x <= 1) by (intros x J; apply in_map_iff in J as (p & <- & J); now apply Q).
  exists ps, am, mm, (Qc_sum (map p_pledge ps)), (Qc_sum (map p_stake ps)). split; [assumption|]. split; [assumption|]. split; [assumption|]. split; [assumption|]. split; [unfold total_delegated_stake; rewrite Hps; reflexivity|].
  assert (Am : 0 <= am /\ am <= 1). { destruct ps as [|p0 ps0]; [rewrite Za by reflexivity; split; discriminate|]. apply (mean_in_range (map p_margin (p0 :: ps0))); [discriminate | now apply Ma | assumption]. }
  assert (Mb : 0 <= mm /\ mm <= 1). { destruct ps as [|p0 ps0]; [rewrite Zm by reflexivity; split; discriminate|]. apply (median_in_range (map p_margin (p0 :: ps0))); [apply Mm; discriminate | assumption]. }
  split; [apply Am|]. split; [apply Am|]. split; [apply Mb|]. split; [apply Mb|].
  split; [apply Qc_sum_nonneg; intros x J; apply in_map_iff in J as (p & <- & J); apply Q in J; qlra|].
  split. { clear - Q. induction ps as [|p ps IH]; [discriminate|]. cbn [map]. rewrite !Qc_sum_cons. apply Qcplus_le_compat; [apply Q; now left | apply IH; intros; apply Q; now right]. }
  split. { destruct (C16_pools_hold_no_more_than_agents so g profiles stakes costs s0 w SO H1 H2 F0 F1 Hx' V) as (ps' & F' & Le). assert (ps' = ps) as ->; [|exact Le].
    clear - F F'. revert ps' F'. induction F as [|r p l l' E F IH]; intros ps' F'; inversion F'; subst; [reflexivity|]. f_equal; [congruence | now apply IH]. }
  split; [now apply (C56_total_stake_is_conserved _ _ _ _ _ _ _ H1 V)|].
  split. { intros Np. apply Qc_sum_pos; [intros x J; apply in_map_iff in J as (p & <- & J); now apply Q|]. intros E. apply Np. unfold pools_list in Hps. apply mapM_length in Hps. destruct ps; [|discriminate]. unfold values in Hps. rewrite map_length in Hps. now destruct (w_pools w). }
  split.
  - intros C. assert (Th : forall p, In p ps -> 0 < pool_threshold (A := QcA) (w_rss w) (p_pledge p)).
    { intros p J. destruct (Q p J) as (T1 & T2 & _). rewrite pool_threshold_eq. destruct (r_scheme (w_rss w)); try assumption. apply Qcmin_pos; [apply Qcmult_pos; auto | assumption]. }
    set (sat := fun p : pool QcA => p_stake p / pool_threshold (A := QcA) (w_rss w) (p_pledge p)). exists (map sat ps).
    assert (Er : mapM (fun p => pdiv (A := QcA) (p_stake p) (pool_threshold (A := QcA) (w_rss w) (p_pledge p))) ps = Ok (map sat ps)) by (apply mapM_pure; intros p J; apply pdiv_ok, Qc_pos_neq, Th, J).
    assert (S : summarises is_mean (map sat ps) (avg_sat_rate w)).
    { unfold avg_sat_rate, when_pools. rewrite Hps. cbn [bind]. destruct ps as [|p0 ps0]; [exists 0; split; [reflexivity|]; split; [reflexivity | intros N; now contradiction N]|]. remember (p0 :: ps0) as ps eqn:Ep. rewrite Er. cbn [bind]. destruct (mean_is (map sat ps)) as (m & M1 & M2); [rewrite Ep; discriminate|].
      exists m. split; [exact M1|]. split; [rewrite Ep; discriminate | now intros _]. }
    split; [|assumption]. clear - Th Q. induction ps as [|p ps IH]; constructor; [|apply IH; intros; [apply Q | apply Th]; now right].
    assert (T1 := Th p (or_introl eq_refl)). split; [apply Qcdiv_mul; now apply Qc_pos_neq|]. apply Qcdiv_pos; [apply Q; now left | assumption].
  - unfold stakes_n_margins. rewrite Hps. cbn [bind]. destruct (mapM_total (fun p => let! ag := of_option KeyError (get (w_agents w) (p_owner p)) in Ok (a_stake ag, p_stake p, p_margin p, p_id p, p_owner p)) ps) as (rows & Er).
    { intros p J. apply A2, get_Some_key in J as (ag & E). rewrite E. cbn. eauto. }
    exists rows. split; [assumption|]. apply mapM_ok in Er. clear - Er. induction Er as [|p row ps rows E Er IH]; constructor; [|assumption]. apply bind_ok in E as (ag & Ea & E). apply of_option_ok in Ea. injection E as <-. eauto.
Qed.

(** * C58: ranks of the operators *)
(** [e] comes before [e'] when agents are ordered by [f], greatest first, ties by id *)
Definition ahead (f : agent QcA -> Qc) (e e' : nat * agent QcA) : bool := Qc_ltb (f (snd e')) (f (snd e)) || Qc_eqb (f (snd e')) (f (snd e)) && Nat.ltb (fst e) (fst e').
(** the place of an agent in that order, counted from 1 *)
Definition place (f : agent QcA -> Qc) (w : world QcA) (e : nat * agent QcA) : nat := S (length (filter (fun e' => ahead f e' e) (w_agents w))).

Lemma filter_seq_lt n r b : (b <= r <= b + n)%nat -> length (filter (fun x => Nat.ltb x r) (seq b n)) = (r - b)%nat.
Proof.
  revert b. induction n as [|n IH]; intros b H; [cbn; lia|]. cbn [seq filter]. destruct (Nat.ltb_spec b r) as [L|L].
  - cbn [length]. rewrite IH by lia. lia.
  - assert (E : filter (fun x => Nat.ltb x r) (seq (S b) n) = []); [|rewrite E; cbn; lia]. assert (Z : forall x, In x (seq (S b) n) -> Nat.ltb x r = false) by (intros x J; apply in_seq in J; apply Nat.ltb_ge; lia).
    clear - Z. induction (seq (S b) n) as [|x l IHl]; [reflexivity|]. cbn [filter]. rewrite Z by (now left). apply IHl. intros; apply Z; now right.
Qed.
Lemma filter_perm_length {X} (f : X -> bool) l l' : Permutation l l' -> length (filter f l) = length (filter f l').
Proof. induction 1 as [|x l l' P IH|x y l|l l' l'' P1 IH1 P2 IH2]; cbn; [reflexivity | destruct (f x); cbn; now rewrite IH | destruct (f x), (f y); reflexivity | congruence]. Qed.
Lemma filter_map_length {X Y} (g : X -> Y) (f : Y -> bool) l : length (filter f (map g l)) = length (filter (fun x => f (g x)) l).
Proof. induction l as [|x l IH]; [reflexivity|]. cbn. destruct (f (g x)); cbn; now rewrite IH. Qed.
Lemma filter_ext_length {X} (f g : X -> bool) l : (forall x, In x l -> f x = g x) -> length (filter f l) = length (filter g l).
Proof. intros H. induction l as [|x l IH]; [reflexivity|]. cbn. rewrite (H x) by (now left). destruct (g x); cbn; rewrite IH by (intros; apply H; now right); reflexivity. Qed.

Lemma ranks_are_places (f : agent QcA -> Qc) (w : world QcA) : NoDup (keys (w_agents w)) ->
  exists ranks, calculate_ranks (A := QcA) true (map (fun e => (fst e, f (snd e))) (w_agents w)) [] = Ok ranks /\
    forall a ag, get (w_agents w) a = Some ag -> get ranks a = Some (place f w (a, ag)).
Proof.
  intros N. set (d := (map (fun e : nat * agent QcA => (fst e, f (snd e))) (w_agents w)) : dict (T QcA)). assert (Kd : keys d = keys (w_agents w)) by (unfold d, keys; rewrite map_map; reflexivity).
  assert (Nd : NoDup (keys d)) by (rewrite Kd; exact N). destruct (C10_calculate_ranks QcA QcA_ord true d []) as (ranks & E & P & Vs & R); [exact Nd | intros k t _ [] |]. exists ranks. split; [exact E|].
  assert (Nr : NoDup (keys ranks)) by (eapply Permutation_NoDup; [apply Permutation_sym; exact P | exact Nd]).
  assert (Gd : forall k, get d k = option_map f (get (w_agents w) k)) by (intros k; apply get_map_snd).
  assert (Out : forall k1 k2 g1 g2, get (w_agents w) k1 = Some g1 -> get (w_agents w) k2 = Some g2 -> (outranks true d [] k1 k2 <-> ahead f (k1, g1) (k2, g2) = true)).
  { intros k1 k2 g1 g2 E1 E2. unfold outranks, rank_values, ahead. cbn [fst snd]. split.
    - intros (x & y & (v1 & t1 & V1 & T1 & ->) & (v2 & t2 & V2 & T2 & ->) & H). inversion T1; subst. inversion T2; subst. rewrite Gd, E1 in V1. rewrite Gd, E2 in V2. cbn in V1, V2. injection V1 as <-. injection V2 as <-. apply orb_true_iff.
      destruct H as [(i & a & b & Ea & Eb & L & _)|[Eq L]].
      + left. destruct i as [|[|i]]; cbn in Ea, Eb; try discriminate. injection Ea as <-. injection Eb as <-. exact L.
      + right. inversion Eq as [|? ? ? ? Eh _]; subst. apply andb_true_iff. split; [|now apply Nat.ltb_lt]. change (eqb (a := QcA)) with Qc_eqb in Eh. apply Qc_eqb_eq in Eh. rewrite Eh. now destruct (Qc_eqb_spec (f g2) (f g2)).
    - intros H. exists [f g1], [f g2]. split; [exists (f g1), []; split; [now rewrite Gd, E1 | split; [constructor | reflexivity]]|]. split; [exists (f g2), []; split; [now rewrite Gd, E2 | split; [constructor | reflexivity]]|].
      apply orb_true_iff in H as [H|H]; [left; exists 0%nat, (f g1), (f g2); repeat (split; [reflexivity|]); split; [exact H | intros; lia]|]. right. apply andb_true_iff in H as [H1 H2]. split; [|now apply Nat.ltb_lt]. constructor; [|constructor]. apply Qc_eqb_eq in H1. rewrite H1. change (eqb (a := QcA)) with Qc_eqb. now destruct (Qc_eqb_spec (f g1) (f g1)). }
  intros a ag Ga. assert (Ja : In a (keys ranks)). { eapply Permutation_in; [apply Permutation_sym; exact P|]. rewrite Kd. apply get_Some_key. eauto. }
  apply get_Some_key in Ja as (r & Er). rewrite Er. f_equal. unfold place.
  (* r - 1 agents have a better rank *)
  assert (Rr : (1 <= r <= length d)%nat). { apply get_In in Er. apply (in_map snd) in Er. fold (values ranks) in Er. rewrite Vs in Er. apply in_seq in Er. cbn [snd] in Er. lia. }
  assert (C1 : length (filter (fun e => Nat.ltb (snd e) r) ranks) = (r - 1)%nat). { rewrite <- (filter_map_length snd (fun x => Nat.ltb x r)). fold (values ranks). rewrite Vs. apply filter_seq_lt. lia. }
  set (better := fun k => match get (w_agents w) k with Some g => ahead f (k, g) (a, ag) | None => false end).
  assert (C2 : length (filter (fun e => Nat.ltb (snd e) r) ranks) = length (filter better (keys ranks))).
  { unfold keys. rewrite filter_map_length. apply filter_ext_length. intros [k x] J. cbn [fst snd]. assert (Ek := In_get _ _ _ Nr J). assert (Jk : In k (keys ranks)) by (apply get_Some_key; eauto). apply (Permutation_in _ P) in Jk. rewrite Kd in Jk. apply get_Some_key in Jk as (gk & Egk). unfold better. rewrite Egk.
    assert (X := R k a x r Ek Er). assert (Y := Out k a gk ag Egk Ga). destruct (Nat.ltb_spec x r) as [L|L]; destruct (ahead f (k, gk) (a, ag)) eqn:Ah; try reflexivity; exfalso; [apply X, Y in L; discriminate | assert (x < r)%nat by (now apply X, Y); lia]. }
  rewrite (filter_perm_length better _ _ P), Kd in C2. assert (C3 : length (filter better (keys (w_agents w))) = length (filter (fun e' => ahead f e' (a, ag)) (w_agents w))).
  { unfold keys. rewrite filter_map_length. apply filter_ext_length. intros [k x] J. cbn [fst]. unfold better. now rewrite (In_get _ _ _ N J). }
  rewrite <- C3, <- C2, C1. lia.
Qed.
Lemma place_range f w a ag : NoDup (keys (w_agents w)) -> get (w_agents w) a = Some ag -> (1 <= place f w (a, ag) <= length (w_agents w))%nat.
Proof.
  intros N G. destruct (ranks_are_places f w N) as (ranks & E & H). specialize (H a ag G). set (d := map (fun e : nat * agent QcA => (fst e, f (snd e))) (w_agents w)) in E.
  assert (Kd : keys d = keys (w_agents w)) by (unfold d, keys; rewrite map_map; reflexivity). assert (Nd : NoDup (keys d)) by (rewrite Kd; exact N). destruct (C10_calculate_ranks QcA QcA_ord true d []) as (ranks' & E' & P & Vs & _); [exact Nd | intros k t _ [] |]. assert (ranks' = ranks) by congruence. subst ranks'.
  apply get_In in H. apply (in_map snd) in H. fold (values ranks) in H. rewrite Vs in H. apply in_seq in H. cbn [snd] in H. unfold d in H. rewrite map_length in H. lia.
Qed.

Lemma Forall2_weaken {X Y} (R S : X -> Y -> Prop) l l' : (forall x y, R x y -> S x y) -> Forall2 R l l' -> Forall2 S l l'.
Proof. induction 2; constructor; auto. Qed.
Lemma Forall2_with_In {X Y} (R : X -> Y -> Prop) l l' : Forall2 R l l' -> Forall2 (fun x y => In x l /\ R x y) l l'.
Proof. induction 1 as [|x y l l' H F IH]; constructor; [split; [now left | assumption]|]. eapply Forall2_weaken; [|exact IH]. intros a b [J K]. split; [now right | assumption]. Qed.
(** the places of the operators of the pools, one for each pool *)
Definition operator_places (f : agent QcA -> Qc) (w : world QcA) (ps : list (pool QcA)) (l : list Qc) : Prop :=
  Forall2 (fun p x => exists ag, get (w_agents w) (p_owner p) = Some ag /\ x = Qc_ofZ (Z.of_nat (place f w (p_owner p, ag)))) ps l.
(** the metric is 0 without pools and otherwise the rounded statistic of these places *)
Definition rounds_to (stat : list Qc -> Qc -> Prop) (l : list Qc) (r : res Z) : Prop := exists z, r = Ok z /\ (l = [] -> z = 0%Z) /\ (l <> [] -> exists m, stat l m /\ nearest_even m z).

Lemma owner_ranks_are f (w : world QcA) ps : NoDup (keys (w_agents w)) -> pools_list w = Ok ps -> (forall p, In p ps -> In (p_owner p) (keys (w_agents w))) ->
  exists l, owner_ranks w (map (fun e => (fst e, f (snd e))) (w_agents w)) = Ok l /\ operator_places f w ps l.
Proof.
  intros N Hps H. destruct (ranks_are_places f w N) as (ranks & E & Gr). unfold owner_ranks. rewrite Hps. cbn [bind]. match goal with |- exists l, bind ?m _ = _ /\ _ => assert (E' : m = Ok ranks) by exact E; rewrite E' end. cbn [bind].
  destruct (mapM_total (fun p : pool QcA => let! r := of_option KeyError (get ranks (p_owner p)) in Ok (of_nat (A := QcA) r)) ps) as (l & El). { intros p J. apply H, get_Some_key in J as (ag & Ga). rewrite (Gr _ _ Ga). cbn. eauto. }
  exists l. split; [exact El|]. apply mapM_ok, Forall2_with_In in El. unfold operator_places. eapply Forall2_weaken; [|exact El]. intros p x [J Ex]. cbn beta in Ex. apply H, get_Some_key in J as (ag & Ga). exists ag. split; [assumption|].
  rewrite (Gr _ _ Ga) in Ex. cbn [of_option bind] in Ex. injection Ex as <-. reflexivity.
Qed.

Lemma places_range f w ps l : NoDup (keys (w_agents w)) -> operator_places f w ps l -> forall x, In x l -> Qc_ofZ 1 <= x /\ x <= Qc_ofZ (Z.of_nat (length (w_agents w))).
Proof.
  intros N F x J. induction F as [|p y ps' l' (ag & G & ->) F IH]; [destruct J|]. destruct J as [<-|J]; [|now apply IH]. assert (R := place_range f w _ _ N G). split; apply Qc_ofZ_le; lia.
Qed.
Lemma rounded_is (stat : list Qc -> Qc -> Prop) c l : (forall l, l <> [] -> exists m, c l = Ok m /\ stat l m) -> (forall x, In x l -> 0 <= x) -> (forall l m, l <> [] -> stat l m -> (forall x, In x l -> 0 <= x) -> 0 <= m) ->
  rounds_to stat l (rounded (A := QcA) c l).
Proof.
  intros C P Sp. unfold rounded. destruct l as [|x l]; [exists 0%Z; split; [reflexivity|]; split; [reflexivity | intros X; now contradiction X]|]. destruct (C (x :: l)) as (m & Em & Sm); [discriminate|]. rewrite Em. cbn [bind].
  eexists. split; [reflexivity|]. split; [discriminate|]. intros _. exists m. split; [assumption|]. apply round_is. apply (Sp (x :: l)); [discriminate | assumption | assumption].
Qed.
Lemma mean_nonneg l m : l <> [] -> is_mean l m -> (forall x, In x l -> 0 <= x) -> 0 <= m.
Proof. intros N M P. apply (mean_in_range l m 0 (Qc_sum l) N M). intros x J. split; [now apply P|]. now apply Qc_sum_In_le. Qed.
Lemma median_nonneg l m : l <> [] -> is_median l m -> (forall x, In x l -> 0 <= x) -> 0 <= m.
Proof. intros N M P. apply (median_in_range l m 0 (Qc_sum l) M). intros x J. split; [now apply P|]. now apply Qc_sum_In_le. Qed.

(** By stake rank 1 is the richest agent, by cost rank 1 is the cheapest one. *)
Theorem C58_rank_metrics : forall so (g : args QcA) profiles (stakes costs : list Qc) (s0 : sim QcA) w, set_order so -> init g profiles stakes costs = Ok s0 -> one_at_a_time g ->
  visible so s0 w ->
  exists ps by_stake by_cost, pools_list w = Ok ps /\ operator_places a_stake w ps by_stake /\ operator_places (fun ag => 0 - a_cost ag) w ps by_cost /\
    rounds_to is_mean by_stake (avg_stk_rnk w) /\ rounds_to is_median by_stake (median_stk_rnk w) /\ rounds_to is_mean by_cost (avg_cost_rnk w) /\ rounds_to is_median by_cost (median_cost_rnk w) /\
    (ps <> [] -> forall r z, In r [avg_stk_rnk w; median_stk_rnk w; avg_cost_rnk w; median_cost_rnk w] -> r = Ok z -> (1 <= z <= Z.of_nat (length (w_agents w)))%Z).
Proof.
  intros so g profiles stakes costs s0 w SO H1 H2 V. destruct (exact_all False False False so SO _ _ _ _ _ _ H1 H2 (inputs_none _ _) V) as [G _].
  destruct (reported_pools _ _ _ _ _ G) as (ps & Hps & A1 & A2 & F). assert (N := reported_agents _ _ _ _ _ G).
  destruct (owner_ranks_are a_stake w ps N Hps A2) as (ls & Es & Ps). destruct (owner_ranks_are (fun ag => 0 - a_cost ag) w ps N Hps A2) as (lc & Ec & Pc).
  assert (Rs := places_range _ _ _ _ N Ps). assert (Rc := places_range _ _ _ _ N Pc). assert (P1 : 0 <= Qc_ofZ 1) by discriminate.
  assert (Qs : forall x, In x ls -> 0 <= x) by (intros x J; eapply Qcle_trans; [exact P1 | now apply Rs]). assert (Qc' : forall x, In x lc -> 0 <= x) by (intros x J; eapply Qcle_trans; [exact P1 | now apply Rc]).
  assert (X1 : rounds_to is_mean ls (avg_stk_rnk w)) by (unfold avg_stk_rnk; replace (owner_ranks w (stakes_dict w)) with (Ok ls) by (symmetry; exact Es); apply rounded_is; [exact mean_is | assumption | exact mean_nonneg]).
  assert (X2 : rounds_to is_median ls (median_stk_rnk w)) by (unfold median_stk_rnk; replace (owner_ranks w (stakes_dict w)) with (Ok ls) by (symmetry; exact Es); apply rounded_is; [exact median_is | assumption | exact median_nonneg]).
  assert (X3 : rounds_to is_mean lc (avg_cost_rnk w)) by (unfold avg_cost_rnk; replace (owner_ranks w (neg_costs_dict w)) with (Ok lc) by (symmetry; exact Ec); apply rounded_is; [exact mean_is | assumption | exact mean_nonneg]).
  assert (X4 : rounds_to is_median lc (median_cost_rnk w)) by (unfold median_cost_rnk; replace (owner_ranks w (neg_costs_dict w)) with (Ok lc) by (symmetry; exact Ec); apply rounded_is; [exact median_is | assumption | exact median_nonneg]).
  exists ps, ls, lc. split; [assumption|]. split; [assumption|]. split; [assumption|]. split; [assumption|]. split; [assumption|]. split; [assumption|]. split; [assumption|].
  intros Ne r z J Er. assert (Nl : forall f l, operator_places f w ps l -> l <> []) by (intros f l K E; subst l; inversion K; subst; now contradiction Ne).
  assert (Y : exists stat l, rounds_to stat l r /\ l <> [] /\ (stat = is_mean \/ stat = is_median) /\ forall x, In x l -> Qc_ofZ 1 <= x /\ x <= Qc_ofZ (Z.of_nat (length (w_agents w)))).
  { destruct J as [<-|[<-|[<-|[<-|[]]]]]; [exists is_mean, ls | exists is_median, ls | exists is_mean, lc | exists is_median, lc]; split; try assumption; split; [eapply Nl; eassumption | split; [auto | assumption] | eapply Nl; eassumption | split; [auto | assumption] | eapply Nl; eassumption | split; [auto | assumption] | eapply Nl; eassumption | split; [auto | assumption]]. }
  destruct Y as (stat & l & (z' & Ez & _ & Hz) & Nel & St & R). assert (z' = z) by congruence. subst z'. destruct (Hz Nel) as (m & Sm & Ne'). assert (Rm : Qc_ofZ 1 <= m /\ m <= Qc_ofZ (Z.of_nat (length (w_agents w)))).
  { destruct St as [-> | ->]; [now apply (mean_in_range l) | now apply (median_in_range l)]. }
  now apply (round_in_range m).
Qed.

(** * C59: stakeholders that can run a pool at a profit *)
(** the number of agents whose potential profit, with all their stake as pledge, is positive; it does not change while the parameters stay the same *)
Theorem C59_cost_efficient_count : forall so (g : args QcA) profiles (stakes costs : list Qc) (s0 : sim QcA) w n, init g profiles stakes costs = Ok s0 -> visible so s0 w -> cost_efficient_count w = Ok n ->
  (exists pps, Forall2 (fun ag pp => potential_profit (A := QcA) (w_rss w) (a_stake ag) (a_cost ag) = Ok pp) (values (w_agents w)) pps /\ n = length (filter (fun pp => Qc_ltb 0 pp) pps)) /\
  (n <= length (w_agents w))%nat /\
  (forall w', visible so s0 w' -> w_rss w' = w_rss w -> cost_efficient_count w' = Ok n).
Proof.
  intros so g profiles stakes costs s0 w n H0 V H. assert (H' := H). unfold cost_efficient_count in H. apply bind_ok in H as (pps & Hp & H). injection H as H. split; [|split].
  - exists pps. apply mapM_ok in Hp. split; [exact Hp|]. now symmetry.
  - apply mapM_length in Hp. unfold agents_list, values in Hp. rewrite map_length in Hp. rewrite <- H, <- Hp. apply filter_length_le'.
  - intros w' V' E. rewrite <- H'. unfold cost_efficient_count. rewrite E. f_equal. apply C56_agents_never_change in V, V'. rewrite <- V in V'. clear - V'. unfold who, agents_list, values in *. revert V'. generalize (w_agents w). induction (w_agents w') as [|[b ag'] d IH]; intros [|[a ag] d'] V; try discriminate; [reflexivity|].
    cbn [map fst snd] in V. injection V as _ _ _ E3 E4 V. cbn [map mapM snd]. rewrite E3, E4, (IH _ V). reflexivity.
Qed.
Theorem C59_cost_efficient_count_is_defined : forall so (g : args QcA) profiles (stakes costs : list Qc) (s0 : sim QcA) w, set_order so -> init g profiles stakes costs = Ok s0 -> one_at_a_time g -> positive_inputs g stakes ->
  (forall x : Qc, In x (phase_values (g_a0 g)) -> 0 <= x) -> visible so s0 w -> exists n, cost_efficient_count w = Ok n.
Proof.
  intros so g profiles stakes costs s0 w SO H1 H2 HP HA V. destruct (exact_all False True True so SO _ _ _ _ _ _ H1 H2 (inputs_pos _ _ _ _ _ H1 HP) V) as [G _]. assert (A0 := HA _ (visible_a0 _ _ _ _ _ _ _ H1 V)).
  unfold cost_efficient_count. destruct (mapM_total (fun ag : agent QcA => potential_profit (A := QcA) (w_rss w) (a_stake ag) (a_cost ag)) (agents_list w)) as (pps & E); [|match goal with |- exists n, bind ?m _ = _ => assert (E' : m = Ok pps) by exact E; rewrite E' end; cbn [bind]; eauto].
  intros ag J. unfold agents_list, values in J. apply in_map_iff in J as ([a ag'] & <- & J). cbn [snd]. apply In_get in J; [|apply (reported_agents _ _ _ _ _ G)]. destruct (g_new _ _ _ _ _ G _ _ J) as [_ (_ & Af)]. destruct (Af I) as [_ Ht]. eexists. apply potential_profit_ok. now split.
Qed.

(** * C36: what the Gini coefficients are taken of *)
Lemma tally_values {V} (d : dict V) (f : nat -> V) l : NoDup (keys d) -> (forall a, get d a = if in_dec Nat.eq_dec a l then Some (f a) else None) -> Permutation (values d) (map f (nodup Nat.eq_dec l)).
Proof.
  intros N H. assert (E : values d = map f (keys d)).
  { assert (Q : forall a v, In (a, v) d -> v = f a). { intros a v J. apply In_get in J; [|assumption]. rewrite H in J. destruct (in_dec Nat.eq_dec a l); congruence. }
    clear - Q. unfold values, keys. rewrite map_map. apply map_ext_in. intros [a v] J. now apply Q. }
  rewrite E. apply Permutation_map. apply NoDup_Permutation; [assumption | apply NoDup_nodup|]. intros a. rewrite nodup_In, <- get_Some_key, H. destruct (in_dec Nat.eq_dec a l); split; intros K; try assumption; [eauto | destruct K; discriminate | contradiction].
Qed.
Lemma stake_tally_get (ps : list (pool QcA)) a : NoDup (keys (stake_tally ps)) /\ get (stake_tally ps) a = if in_dec Nat.eq_dec a (owners ps) then Some (controls ps a) else None.
Proof.
  assert (H : forall d, NoDup (keys d) -> NoDup (keys (fold_left (fun d (p : pool QcA) => set d (p_owner p) (add (a := QcA) (match get d (p_owner p) with Some v => v | None => zero (a := QcA) end) (p_stake p))) ps d)) /\
    get (fold_left (fun d (p : pool QcA) => set d (p_owner p) (add (a := QcA) (match get d (p_owner p) with Some v => v | None => zero (a := QcA) end) (p_stake p))) ps d) a =
      if in_dec Nat.eq_dec a (owners ps) then Some (add (a := QcA) (match get d a with Some v => v | None => 0 end) (controls ps a)) else get d a).
  { induction ps as [|p ps IH]; intros d N; [now split|]. cbn [fold_left owners map]. destruct (IH (set d (p_owner p) (add (a := QcA) (match get d (p_owner p) with Some v => v | None => zero (a := QcA) end) (p_stake p)))) as [I1 I2]; [now apply NoDup_set|]. split; [exact I1|].
    rewrite I2. rewrite controls_cons, get_set. fold (owners ps). destruct (Nat.eqb_spec (p_owner p) a) as [E|E].
    - subst a. destruct (in_dec Nat.eq_dec (p_owner p) (p_owner p :: owners ps)) as [_|C]; [|exfalso; apply C; now left]. destruct (in_dec Nat.eq_dec (p_owner p) (owners ps)) as [J|J].
      + f_equal. change (add (a := QcA)) with Qcplus. change (zero (a := QcA)) with 0. change (T QcA) with Qc in *. destruct (get d (p_owner p)); ring.
      + f_equal. assert (Z : controls ps (p_owner p) = 0). { unfold controls. assert (F : filter (fun q : pool QcA => Nat.eqb (p_owner q) (p_owner p)) ps = []); [|now rewrite F]. clear - J. induction ps as [|q ps IH]; [reflexivity|]. cbn [filter owners map] in *. destruct (Nat.eqb_spec (p_owner q) (p_owner p)) as [C|C]; [exfalso; apply J; now left|]. apply IH. intros K. apply J. now right. }
        rewrite Z. change (add (a := QcA)) with Qcplus. change (zero (a := QcA)) with 0. change (T QcA) with Qc in *. destruct (get d (p_owner p)); ring.
    - destruct (in_dec Nat.eq_dec a (owners ps)) as [J|J], (in_dec Nat.eq_dec a (p_owner p :: owners ps)) as [J'|J']; try (exfalso; cbn in J'; intuition congruence); [|reflexivity]. f_equal. change (add (a := QcA)) with Qcplus. change (T QcA) with Qc in *. destruct (get d a); ring. }
  destruct (H [] ltac:(constructor)) as [H1 H2]. split; [exact H1|]. etransitivity; [exact H2|]. cbn [get]. destruct (in_dec Nat.eq_dec a (owners ps)); [|reflexivity]. f_equal. change (add (a := QcA)) with Qcplus. change (T QcA) with Qc in *. ring.
Qed.
(** The coefficients are those of the numbers of pools and of the stakes of the operators; the variants for k agents add zeros so that there are at least k values. *)
Theorem C36_gini_metrics : forall (w : world QcA) ps, pools_list w = Ok ps ->
  let operators := nodup Nat.eq_dec (owners ps) in
  let missing := (Z.to_nat (r_k (w_rss w)) - length operators)%nat in
  exists pools_each stake_each, Permutation pools_each (map (fun a => Qc_ofZ (Z.of_nat (pools_of ps a))) operators) /\ Permutation stake_each (map (controls ps) operators) /\
    gini_pool_count w = gini (A := QcA) pools_each /\ gini_stake w = gini (A := QcA) stake_each /\
    gini_pool_count_k w = gini (A := QcA) (pools_each ++ repeat 0 missing) /\ gini_stake_k w = gini (A := QcA) (stake_each ++ repeat 0 missing).
Proof.
  intros w ps E operators missing. set (pe := map (of_nat (A := QcA)) (values (counter (map p_owner ps)))). set (se := values (stake_tally ps)). exists pe, se.
  assert (Pe : Permutation pe (map (fun a => Qc_ofZ (Z.of_nat (pools_of ps a))) operators)).
  { unfold pe. etransitivity; [apply Permutation_map, (tally_values _ (pools_of ps) (owners ps))|rewrite map_map; apply Permutation_refl]; [apply counter_keys|]. intros a. exact (counter_get (owners ps) a). }
  assert (Se : Permutation se (map (controls ps) operators)) by (apply tally_values; [apply (stake_tally_get ps 0) | intros a; apply stake_tally_get]).
  assert (Lp := Permutation_length Pe). assert (Ls := Permutation_length Se). rewrite map_length in Lp, Ls.
  assert (Pad : forall l : list Qc, length l = length operators -> pad (A := QcA) (r_k (w_rss w)) l = l ++ repeat 0 missing). { intros l L. unfold pad, missing. rewrite <- L. f_equal. change (zero (a := QcA)) with 0. f_equal. rewrite Z2Nat.inj_sub by lia. rewrite Nat2Z.id. reflexivity. }
  split; [exact Pe|]. split; [exact Se|]. unfold gini_pool_count, gini_stake, gini_pool_count_k, gini_stake_k. rewrite E. cbn [bind]. fold pe se. split; [reflexivity|]. split; [reflexivity|]. split; f_equal; now apply Pad.
Qed.

(** ** A run in which the hypotheses hold and the metrics are not trivial *)
Example C57_C59_instance : exists s0 s, init demo_seq demo_profiles demo_stakes demo_costs = Ok s0 /\ visible so_id s0 (s_w s) /\ set_order so_id /\ one_at_a_time demo_seq /\ positive_inputs demo_seq demo_stakes /\
  (forall x : Qc, In x (phase_values (g_a0 demo_seq)) -> 0 <= x) /\ (r_scheme (w_rss (s_w s)) = CIP50 -> 0 < r_a0 (w_rss (s_w s))) /\ w_pools (s_w s) <> [] /\
  total_pledge (s_w s) = Ok (Q2Qc (3#5)) /\ avg_pledge (s_w s) = Ok (Q2Qc (1#5)) /\ avg_stk_rnk (s_w s) = Ok 2%Z /\ avg_cost_rnk (s_w s) = Ok 1%Z /\ cost_efficient_count (s_w s) = Ok 2%nat.
Proof.
  destruct (steps_check demo_init 3 (fun s => let w := s_w s in negb (Nat.eqb (length (w_pools w)) 0) && (match r_scheme (w_rss w) with CIP50 => false | _ => true end && (gives (total_pledge w) (Q2Qc (3#5)) && (gives (avg_pledge w) (Q2Qc (1#5)) &&
     (match avg_stk_rnk w with Ok z => Z.eqb z 2 | _ => false end && (match avg_cost_rnk w with Ok z => Z.eqb z 1 | _ => false end && match cost_efficient_count w with Ok n => Nat.eqb n 2 | _ => false end))))))) as (s0 & s & H1 & H2 & H3). { vm_compute. reflexivity. }
  cbv beta zeta in H3. repeat apply andb_true_iff in H3 as [? H3]. exists s0, s. split; [exact H1|]. split; [constructor; now apply steps_reach in H2|]. split; [exact so_id_set_order|]. split; [exact demo_one|]. split; [exact demo_positive|].
  split; [intros x [<-|[]]; discriminate|]. split; [intros E; rewrite E in *; discriminate|]. split; [destruct (w_pools (s_w s)); [discriminate | discriminate]|]. split; [now apply gives_ok|]. split; [now apply gives_ok|].
  destruct (avg_stk_rnk (s_w s)) as [z|]; [|discriminate]. destruct (avg_cost_rnk (s_w s)) as [z'|]; [|discriminate]. destruct (cost_efficient_count (s_w s)); [|discriminate]. repeat split; f_equal; first [now apply Z.eqb_eq | now apply Nat.eqb_eq].
Qed.
