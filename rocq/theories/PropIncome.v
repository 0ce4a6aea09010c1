(** What the agents earn (C55): the utilities that the agents compute for their present strategies add up to the rewards of the pools minus the costs of
    the pools: no reward is lost, paid twice or created by the bookkeeping. *)
From Coq Require Import ZArith QArith Qcanon List Bool Arith Lia Permutation.
From Verif Require Import Num Py QcTac Rewards RewardFacts PropRewards SortedKeyList World Stakeholder Helper Sched Sim Init Reach ListFacts Inv Eval Exec Step SimInv Spec Greedy PropInit Demo PropSched ExactInv PropState PropExact Reporters ReporterFacts PropReporters Frame PropRun PropPhase PropMove PropTotal.
Import ListNotations.
Open Scope Qc_scope.

(** sums *)
Lemma Qc_sum_app l1 l2 : Qc_sum (l1 ++ l2) = Qc_sum l1 + Qc_sum l2.
Proof. induction l1 as [|x l IH]; cbn [app]; rewrite ?Qc_sum_cons; [cbn; ring | rewrite IH; ring]. Qed.
Lemma Qc_sum_ext {X} (f g : X -> Qc) l : (forall x, In x l -> f x = g x) -> Qc_sum (map f l) = Qc_sum (map g l).
Proof. intros H. f_equal. now apply map_ext_in. Qed.
Lemma Qc_sum_plus {X} (f g : X -> Qc) l : Qc_sum (map (fun x => f x + g x) l) = Qc_sum (map f l) + Qc_sum (map g l).
Proof. induction l as [|x l IH]; cbn [map]; rewrite ?Qc_sum_cons; [cbn; ring | rewrite IH; ring]. Qed.
Lemma Qc_sum_swap {X Y} (f : X -> Y -> Qc) l l' : Qc_sum (map (fun x => Qc_sum (map (f x) l')) l) = Qc_sum (map (fun y => Qc_sum (map (fun x => f x y) l)) l').
Proof.
  induction l as [|x l IH]; cbn [map].
  - cbn. symmetry. apply Qc_sum_zeros. intros z J. apply in_map_iff in J as (y & <- & _). reflexivity.
  - rewrite Qc_sum_cons, IH. rewrite <- Qc_sum_plus. apply Qc_sum_ext. intros y _. now rewrite Qc_sum_cons.
Qed.
Lemma Qc_sum_perm l l' : Permutation l l' -> Qc_sum l = Qc_sum l'.
Proof. induction 1; rewrite ?Qc_sum_cons in *; [reflexivity | congruence | ring | congruence]. Qed.
Lemma sum_sub (f : nat -> Qc) (g : nat -> Qc) l1 l2 : NoDup l1 -> NoDup l2 -> incl l1 l2 -> (forall k, In k l1 -> g k = f k) -> (forall k, ~ In k l1 -> g k = 0) -> Qc_sum (map g l2) = Qc_sum (map f l1).
Proof.
  intros N1 N2 I E0 E1. destruct (subset_perm l1 l2 N1 I) as (r & P). rewrite (Qc_sum_perm _ _ (Permutation_map g P)), map_app, Qc_sum_app.
  rewrite (Qc_sum_ext g f l1) by assumption. rewrite (Qc_sum_zeros (map g r)); [ring|].
  intros x J. apply in_map_iff in J as (k & <- & J). apply E1. intros J1. apply (Permutation_NoDup P) in N2. clear - N2 J J1. induction l1 as [|y l IH]; [destruct J1|].
  cbn in N2. inversion N2; subst. destruct J1 as [<-|J1]; [apply H1; apply in_app_iff; now right | now apply IH].
Qed.
Lemma foldM_sum {X} (g : Qc -> X -> res Qc) (h : X -> Qc) l : (forall u x, In x l -> g u x = Ok (u + h x)) -> forall u, foldM g l u = Ok (u + Qc_sum (map h l)).
Proof.
  induction l as [|x l IH]; intros H u; cbn [foldM map]; [f_equal; cbn; ring|]. rewrite H by (now left). cbn [bind]. rewrite IH by (intros; apply H; now right). rewrite Qc_sum_cons. f_equal. ring.
Qed.

(** what the operator of a pool and a delegator of [v] get from it, and all that the pool pays *)
Definition pays_owner (rs : rss QcA) (p : pool QcA) : Qc := match operator_utility (A := QcA) rs (p_stake p) (p_pledge p) (p_margin p) (p_cost p) with Ok x => x | Err _ => 0 end.
Definition pays (rs : rss QcA) (p : pool QcA) (v : Qc) : Qc := match delegator_utility (A := QcA) rs v (p_stake p) (p_pledge p) (p_margin p) (p_cost p) with Ok x => x | Err _ => 0 end.

Section Income.
  Variables (m : nat) (w : world QcA).
  Hypothesis G : egood False True True m w.
  Hypothesis A0 : 0 <= r_a0 (w_rss w).
  Let rs := w_rss w.
  Let Gi := g_inv _ _ _ _ _ G.

  Lemma income_pool id p : active w id p -> 0 < r_thr rs /\ 0 < p_pledge p /\ 0 < p_stake p /\ p_stake p = p_pledge p + total (p_delegators p) /\ 0 <= p_margin p /\ p_margin p <= 1 /\
    NoDup (keys (p_delegators p)) /\ In (p_owner p) (keys (w_agents w)) /\ (forall a v, get (p_delegators p) a = Some v -> 0 < v /\ In a (keys (w_agents w))).
  Proof.
    intros J. destruct (reported_facts _ _ _ _ _ G id p J) as (N & F & P). destruct (reported_deleg _ _ _ _ _ G id p J) as [D _]. assert (Pp := pf_pledge _ _ _ _ F I). assert (Ps := pf_stake _ _ _ _ F).
    destruct J as (r & J1 & J2). destruct (i_reg _ _ _ _ _ _ Gi id r J1) as (p' & J2' & _ & _ & _ & O & _). assert (p' = p) by congruence. subst p'.
    assert (Ow : exists ag, get (w_agents w) (p_owner p) = Some ag). { unfold ow_of in O. destruct (get (w_agents w) (p_owner p)); [eauto | discriminate]. }
    destruct Ow as (ag & Ga). destruct (g_new _ _ _ _ _ G _ _ Ga) as [_ (_ & Af)]. destruct (Af I) as [_ Ht]. split; [exact Ht|]. split; [assumption|]. split; [rewrite Ps; qlra|]. split; [assumption|].
    split; [apply (pf_margin _ _ _ _ F)|]. split; [apply (pf_margin _ _ _ _ F)|]. split; [assumption|]. split; [apply get_Some_key; eauto|].
    intros a v E. split; [exact (P a v E)|]. apply (i_del _ _ _ _ _ _ Gi id r p a v J1 J2) in E. unfold al_of in E. apply get_Some_key. destruct (get (w_agents w) a); [eauto | discriminate].
  Qed.
  Lemma income_ok id p : active w id p -> exists R, pool_reward (A := QcA) rs (p_pledge p) (p_stake p) = Ok R /\
    operator_utility (A := QcA) rs (p_stake p) (p_pledge p) (p_margin p) (p_cost p) = Ok (pays_owner rs p) /\
    (forall v, delegator_utility (A := QcA) rs v (p_stake p) (p_pledge p) (p_margin p) (p_cost p) = Ok (pays rs p v)) /\
    pays_owner rs p + Qc_sum (map (pays rs p) (map snd (p_delegators p))) = R - p_cost p.
  Proof.
    intros J. destruct (income_pool id p J) as (H1 & H2 & H3 & H4 & H5 & H6 & H7 & H8 & H9).
    assert (Pd : forall d, In d (map snd (p_delegators p)) -> 0 <= d). { intros d K. apply in_map_iff in K as ([a v] & <- & K). apply In_get in K; [|assumption]. destruct (H9 a v K) as [K1 _]. cbn. qlra. }
    assert (X := C05_split_exact rs (p_pledge p) (p_margin p) (p_cost p) (map snd (p_delegators p)) H1 A0 H5 H6). cbv zeta in X. change (fold_right Qcplus 0 (map snd (p_delegators p))) with (total (p_delegators p)) in X. rewrite <- H4 in X.
    destruct X as (R & op & dels & E1 & E2 & E3 & E4); [qlra | assumption | assumption|]. exists R. split; [assumption|]. unfold pays_owner. rewrite E2. split; [reflexivity|].
    assert (Dv : forall v, delegator_utility (A := QcA) rs v (p_stake p) (p_pledge p) (p_margin p) (p_cost p) = Ok (pays rs p v)).
    { intros v. unfold pays. unfold delegator_utility. rewrite E1. cbn [bind]. rewrite pdiv_ok by (now apply Qc_pos_neq). reflexivity. }
    split; [assumption|]. rewrite <- E4. f_equal. clear E4. revert dels E3. induction (map snd (p_delegators p)) as [|d ds IH]; intros dels E3; cbn [mapM] in E3; [injection E3 as <-; reflexivity|].
    apply bind_ok in E3 as (x & Ex & E3). apply bind_ok in E3 as (xs & Exs & E3). injection E3 as <-. cbn [map]. rewrite Qc_sum_cons. rewrite Dv in Ex. assert (Hx : pays rs p d = x) by congruence. subst x. cbn [fold_right]. f_equal.
    apply IH; [|assumption]. intros; apply Pd; now right.
  Qed.

  Definition pool_at (id : nat) : option (pool QcA) := match get (w_pools w) id with Some r => get (w_heap w) r | None => None end.
  Lemma pool_at_active id p : pool_at id = Some p <-> active w id p.
  Proof. unfold pool_at. split; [destruct (get (w_pools w) id) as [r|] eqn:E; [|discriminate]; intros H; now exists r | intros (r & E1 & E2); now rewrite E1]. Qed.
  Lemma pool_at_key id : In id (keys (w_pools w)) -> exists p, pool_at id = Some p.
  Proof. intros J. apply get_Some_key in J as (r & J). destruct (i_reg _ _ _ _ _ _ Gi id r J) as (p & E & _). exists p. unfold pool_at. now rewrite J. Qed.

  (** the part of agent [a]'s income that comes from pool [id] *)
  Definition owner_part (a id : nat) : Qc := match pool_at id with Some p => if Nat.eqb (p_owner p) a then pays_owner rs p else 0 | None => 0 end.
  Definition deleg_part (a id : nat) : Qc := match pool_at id with Some p => match get (p_delegators p) a with Some v => pays rs p v | None => 0 end | None => 0 end.
  Definition income (a : nat) : Qc := Qc_sum (map (fun id => owner_part a id + deleg_part a id) (keys (w_pools w))).

  Lemma income_is a ag st : get (w_agents w) a = Some ag -> a_strategy ag = Some st -> current_utility w ag = Ok (income a).
  Proof.
    intros Ga Es. destruct (g_ok _ _ _ _ _ G) as [_ AO]. destruct (AO _ _ Ga) as [Aid Nd]. destruct (Nd st Es) as [Na No].
    assert (Ow : forall id r, In (id, r) (s_owned st) -> exists p, active w id p /\ get (w_heap w) r = Some p /\ p_owner p = a).
    { intros id r J. apply In_get in J; [|assumption]. assert (O : ow_of w a id = Some r) by (unfold ow_of; now rewrite Ga, Es). apply (i_own _ _ _ _ _ _ Gi) in O as [O1 O2]. destruct (i_reg _ _ _ _ _ _ Gi _ _ O1) as (p & Gp & _). exists p. split; [now exists r|]. auto. }
    assert (Al : forall id v, In (id, v) (s_alloc st) -> exists r p, get (w_pools w) id = Some r /\ get (w_heap w) r = Some p /\ get (p_delegators p) a = Some v).
    { intros id v J. apply In_get in J; [|assumption]. assert (O : al_of w a id = Some v) by (unfold al_of; now rewrite Ga, Es). destruct (i_al _ _ _ _ _ _ Gi _ _ _ O) as (_ & r & p & E1 & E2 & _). exists r, p. split; [assumption|]. split; [assumption|]. now apply (i_del _ _ _ _ _ _ Gi id r p a v). }
    unfold current_utility, the_strategy. rewrite Es. cbn [of_option bind].
    assert (E1 : foldM (fun (u : Qc) r => let! p := deref w r in let! pu := pool_operator_utility w (p_stake p) p in Ok (u + pu)) (values (s_owned st)) 0 = Ok (0 + Qc_sum (map (fun id => owner_part a id) (keys (s_owned st))))).
    { rewrite (foldM_sum _ (fun r => match get (w_heap w) r with Some p => pays_owner rs p | None => 0 end)).
      - f_equal. f_equal. unfold values, keys. rewrite !map_map. apply Qc_sum_ext. intros [id r] J. cbn [fst snd]. destruct (Ow id r J) as (p & K1 & K2 & K3). unfold owner_part. rewrite K2. apply pool_at_active in K1. rewrite K1, K3, Nat.eqb_refl. reflexivity.
      - intros u r J. apply in_map_iff in J as ([id r'] & E & J). cbn in E. subst r'. destruct (Ow id r J) as (p & K1 & K2 & K3). unfold deref. rewrite K2. cbn [of_option bind]. unfold pool_operator_utility. destruct (income_ok id p K1) as (R & _ & K4 & _). fold rs. rewrite K4. reflexivity. }
    match goal with |- bind ?m _ = _ => assert (E1' : m = Ok (0 + Qc_sum (map (fun id => owner_part a id) (keys (s_owned st))))) by exact E1; rewrite E1' end. clear E1 E1'. cbn [bind]. rewrite (foldM_sum _ (fun e => deleg_part a (fst e))).
    - f_equal. unfold income. rewrite Qc_sum_plus. rewrite (sum_sub (owner_part a) (owner_part a) (keys (s_owned st)) (keys (w_pools w))), (sum_sub (deleg_part a) (deleg_part a) (keys (s_alloc st)) (keys (w_pools w))); try assumption; try apply (i_nd _ _ _ _ _ _ Gi); try reflexivity.
      + unfold keys. rewrite !map_map. ring.
      + intros id J. apply get_Some_key in J as (v & J). apply get_In in J. destruct (Al id v J) as (r & p & K & _). apply get_Some_key. eauto.
      + intros id J. unfold deleg_part. destruct (pool_at id) as [p|] eqn:Ep; [|reflexivity]. destruct (get (p_delegators p) a) as [v|] eqn:Ev; [|reflexivity]. exfalso. apply J. apply pool_at_active in Ep as (r & K1 & K2).
        apply (i_del _ _ _ _ _ _ Gi id r p a v K1 K2) in Ev. unfold al_of in Ev. rewrite Ga, Es in Ev. apply get_Some_key. eauto.
      + intros id J. apply get_Some_key in J as (r & J). apply get_In in J. destruct (Ow id r J) as (p & (r' & K & _) & _). apply get_Some_key. eauto.
      + intros id J. unfold owner_part. destruct (pool_at id) as [p|] eqn:Ep; [|reflexivity]. destruct (Nat.eqb_spec (p_owner p) a) as [Eo|]; [|reflexivity]. exfalso. apply J. apply pool_at_active in Ep as (r & K1 & K2).
        destruct (i_reg _ _ _ _ _ _ Gi _ _ K1) as (p' & K2' & _ & _ & _ & O & _). assert (p' = p) by congruence. subst p'. rewrite Eo in O. unfold ow_of in O. rewrite Ga, Es in O. apply get_Some_key. eauto.
    - intros u [id v] J. destruct (Al id v J) as (r & p & K1 & K2 & K3). unfold the_pool, deref. rewrite K1. cbn [of_option bind]. rewrite K2. cbn [of_option bind fst]. assert (K : active w id p) by (now exists r). destruct (income_ok id p K) as (R & _ & _ & K4 & _). fold rs. rewrite K4. cbn [bind].
      unfold deleg_part. apply pool_at_active in K. rewrite K, K3. reflexivity.
  Qed.
  Lemma income_none a ag : get (w_agents w) a = Some ag -> a_strategy ag = None -> income a = 0.
  Proof.
    intros Ga Es. apply Qc_sum_zeros. intros x J. apply in_map_iff in J as (id & <- & J). apply pool_at_key in J as (p & J). unfold owner_part, deleg_part. rewrite J. apply pool_at_active in J as (r & K1 & K2).
    destruct (i_reg _ _ _ _ _ _ Gi _ _ K1) as (p' & K2' & _ & _ & _ & O & _). assert (p' = p) by congruence. subst p'. destruct (Nat.eqb_spec (p_owner p) a) as [Eo|_]; [rewrite Eo in O; unfold ow_of in O; rewrite Ga, Es in O; discriminate|].
    destruct (get (p_delegators p) a) as [v|] eqn:Ev; [|ring]. apply (i_del _ _ _ _ _ _ Gi id r p a v K1 K2) in Ev. unfold al_of in Ev. rewrite Ga, Es in Ev. discriminate.
  Qed.

  Lemma pool_pays id p R : active w id p -> pool_reward (A := QcA) rs (p_pledge p) (p_stake p) = Ok R -> Qc_sum (map (fun a => owner_part a id + deleg_part a id) (keys (w_agents w))) = R - p_cost p.
  Proof.
    intros J ER. destruct (income_pool id p J) as (H1 & H2 & H3 & H4 & H5 & H6 & H7 & H8 & H9). destruct (income_ok id p J) as (R' & E1 & _ & _ & E4). assert (R' = R) by congruence. subst R'. rewrite <- E4, Qc_sum_plus.
    assert (Ep := J). apply pool_at_active in Ep. f_equal.
    - rewrite (sum_sub (fun _ => pays_owner rs p) (fun a => owner_part a id) [p_owner p] (keys (w_agents w))); [cbn; ring | repeat constructor; intros [] | apply (g_ok _ _ _ _ _ G) | intros x [<-|[]]; assumption | |].
      + intros a [<-|[]]. unfold owner_part. rewrite Ep, Nat.eqb_refl. reflexivity.
      + intros a N. unfold owner_part. rewrite Ep. destruct (Nat.eqb_spec (p_owner p) a); [exfalso; apply N; now left | reflexivity].
    - rewrite (sum_sub (fun a => deleg_part a id) (fun a => deleg_part a id) (keys (p_delegators p)) (keys (w_agents w))); try assumption; try reflexivity; [| apply (g_ok _ _ _ _ _ G) | |].
      + unfold keys. rewrite !map_map. apply Qc_sum_ext. intros [a v] K. cbn [fst snd]. apply In_get in K; [|assumption]. unfold deleg_part. now rewrite Ep, K.
      + intros a K. apply get_Some_key in K as (v & K). now apply (H9 a v).
      + intros a N. unfold deleg_part. rewrite Ep. destruct (get (p_delegators p) a) eqn:E; [|reflexivity]. exfalso. apply N. apply get_Some_key. eauto.
  Qed.
  Lemma total_income : exists ps rewards, pools_list w = Ok ps /\ mapM (fun p => pool_reward (A := QcA) rs (p_pledge p) (p_stake p)) ps = Ok rewards /\
    Qc_sum (map income (keys (w_agents w))) = Qc_sum rewards - Qc_sum (map p_cost ps).
  Proof.
    destruct (reported_pools _ _ _ _ _ G) as (ps & Hps & A1 & _ & F). exists ps.
    destruct (mapM_total (fun p => pool_reward (A := QcA) rs (p_pledge p) (p_stake p)) ps) as (rewards & Hr). { intros p J. apply A1 in J as (id & J). destruct (income_ok id p J) as (R & E & _). eauto. }
    exists rewards. split; [assumption|]. split; [assumption|]. unfold income. rewrite (Qc_sum_swap (fun a id => owner_part a id + deleg_part a id)).
    assert (N := i_nd _ _ _ _ _ _ Gi). assert (Q : forall id r, In (id, r) (w_pools w) -> get (w_pools w) id = Some r) by (intros; now apply In_get).
    clear A1 Hps. unfold keys, values in *. revert ps rewards F Hr Q. clear N. generalize (w_pools w) at 1 2 4. intros d. induction d as [|[id r] d IH]; intros ps rewards F Hr Q; inversion F as [|? p ? ps' Gp F']; subst.
    - cbn in Hr. injection Hr as <-. cbn. ring.
    - cbn [mapM] in Hr. apply bind_ok in Hr as (R & HR & Hr). apply bind_ok in Hr as (Rs & HRs & Hr). injection Hr as <-. cbn [map fst]. rewrite !Qc_sum_cons. rewrite (IH ps' Rs F' HRs) by (intros; apply Q; now right).
      assert (J : active w id p) by (exists r; split; [apply Q; now left | assumption]). assert (X := pool_pays id p R J HR). unfold keys in X. rewrite X. ring.
  Qed.
End Income.

(** the reward scheme's a0 is always one of the given values *)
Lemma reach_a0 so (g : args QcA) profiles stakes costs (s0 s : sim QcA) : init g profiles stakes costs = Ok s0 -> reach so s0 s -> In (r_a0 (w_rss (s_w s))) (phase_values (g_a0 g) : list Qc).
Proof.
  intros H0. induction 1 as [|ch s s' R IH H].
  - apply init_inv in H0 as (r0 & s1 & ags & tot & ags' & tot' & Hm & Hf & Hr & _).
    apply fields_values in Hf as (n & k0 & a0 & rel & abs & mi & phi & o & gr & rk & _ & Jk & Ja & _ & _ & _ & _ & _ & _ & Ek & P).
    assert (A0 : In a0 (phase_values (g_a0 g))). { unfold first_value in Ja. destruct (phase_values (g_a0 g)); [discriminate|]. injection Ja as ->. now left. }
    unfold PropInit.params in P. injection P as P1 _ _ _ _ _ _ _. destruct (g_known g).
    + destruct Hr as (k' & H1 & H2). apply set_k_inv in H2 as (_ & E1 & E2 & E3). rewrite E3, P1. exact A0.
    + rewrite Hr, P1. exact A0.
  - assert (SH := H). apply step_shape in SH as (_ & _ & _ & SH). destruct (Nat.eq_dec (s_phase s') (s_phase s)) as [E|N].
    + assert (K : w_rss (s_w s') = w_rss (s_w s)); [|now rewrite K]. destruct SH as [(_ & _ & _ & _ & _ & _ & _ & W & _)|(_ & _ & _ & [(_ & _ & _ & _ & _ & P)|(_ & _ & _ & [(_ & _ & _ & P & _)|(_ & _ & _ & _ & _ & P)])])]; [now rewrite W | | lia |]; unfold Frame.params in P; congruence.
    + destruct (C33_applies_the_listed_parameters QcA so g profiles stakes costs s0 s s' ch H0 R H N) as (_ & _ & _ & _ & _ & _ & _ & E & _). rewrite E. unfold listed_or, listed. destruct (g_a0 g) as [x|l] eqn:Eg; [exact IH|]. destruct (nth_error l (S (s_phase s))) eqn:En; [|exact IH]. cbn. eapply nth_error_In; exact En.
Qed.
Lemma visible_a0 so (g : args QcA) profiles stakes costs (s0 : sim QcA) w : init g profiles stakes costs = Ok s0 -> visible so s0 w -> In (r_a0 (w_rss w)) (phase_values (g_a0 g) : list Qc).
Proof.
  intros H0 [s R|s ch evs1 evs2 w' R Hev Hw]; [eapply reach_a0; eassumption|]. destruct (events_frame so _ _ _ Hw) as (P & _). assert (K : w_rss w' = w_rss (s_w s)) by (unfold Frame.params in P; congruence). rewrite K. eapply reach_a0; eassumption.
Qed.

(** what an agent gets in the present state: its current utility, and nothing if it has no strategy *)
Definition earns (w : world QcA) (ag : agent QcA) : res Qc := match a_strategy ag with Some _ => current_utility w ag | None => Ok 0 end.

(** In every state of a run the incomes of the agents add up to the rewards of the pools less their costs. *)
Theorem C55_incomes_are_the_rewards : forall so (g : args QcA) profiles (stakes costs : list Qc) (s0 : sim QcA) w, set_order so -> init g profiles stakes costs = Ok s0 -> one_at_a_time g -> positive_inputs g stakes ->
  (forall x : Qc, In x (phase_values (g_a0 g)) -> 0 <= x) -> visible so s0 w ->
  exists ps rewards incomes, pools_list w = Ok ps /\ mapM (fun p => pool_reward (A := QcA) (w_rss w) (p_pledge p) (p_stake p)) ps = Ok rewards /\ mapM (earns w) (agents_list w) = Ok incomes /\
    Qc_sum incomes = Qc_sum rewards - Qc_sum (map p_cost ps).
Proof.
  intros so g profiles stakes costs s0 w SO H1 H2 HP HA V. destruct (exact_all False True True so SO _ _ _ _ _ _ H1 H2 (inputs_pos _ _ _ _ _ H1 HP) V) as [G _].
  assert (A0 := HA _ (visible_a0 _ _ _ _ _ _ _ H1 V)). destruct (total_income _ w G A0) as (ps & rewards & E1 & E2 & E3). exists ps, rewards, (map (income w) (keys (w_agents w))). split; [assumption|]. split; [assumption|]. split; [|assumption].
  assert (Q : forall a ag, In (a, ag) (w_agents w) -> earns w ag = Ok (income w a)).
  { intros a ag J. apply In_get in J; [|apply (g_ok _ _ _ _ _ G)]. unfold earns. destruct (a_strategy ag) as [st|] eqn:Es; [exact (income_is _ w G A0 a ag st J Es)|]. f_equal. symmetry. exact (income_none _ w G a ag J Es). }
  unfold agents_list, values, keys. clear - Q. revert Q. generalize (income w). intros f. induction (w_agents w) as [|[a ag] d IH]; intros Q; [reflexivity|]. cbn [map mapM fst snd]. rewrite (Q a ag) by (now left). cbn [bind].
  change (T QcA) with Qc in *. rewrite IH by (intros; apply Q; now right). reflexivity.
Qed.
