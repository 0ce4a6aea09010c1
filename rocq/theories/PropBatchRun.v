(** The runs of a batch (C45: the aggregate results; C53: every run ends). *)
From Coq Require Import ZArith QArith Qcanon List Bool Arith Lia Permutation.
From Verif Require Import Num Py QcTac Rewards SortedKeyList World Stakeholder Helper Sched Sim Init Reach ListFacts Inv Eval Exec Step SimInv Spec PropInit Demo PropSched Ends Frame PropRun Exec ExactInv PropState PropExact PropMove PropPhase
  Reporters ReporterFacts PropReporters Batch.
Import ListNotations.
Open Scope nat_scope.

(** * The row for the last step *)
Section Rows.
  Context {A : Arith}.
  Lemma filter_one {X} (f : X -> bool) l1 x l2 : f x = true -> (forall y, In y l1 \/ In y l2 -> f y = false) -> filter f (l1 ++ x :: l2) = [x].
  Proof.
    intros Hx H. assert (E : forall l, (forall y, In y l -> f y = false) -> filter f l = []). { induction l as [|y l IH]; intros Hl; [reflexivity|]. cbn. rewrite Hl by now left. apply IH. intros; apply Hl; now right. }
    rewrite filter_app. cbn [filter]. rewrite Hx, !E by auto. reflexivity.
  Qed.
  Lemma mapM_app {X Y} (f : X -> res Y) l1 l2 : mapM f (l1 ++ l2) = let! a := mapM f l1 in let! b := mapM f l2 in Ok (a ++ b).
  Proof.
    induction l1 as [|x l1 IH]; cbn [mapM app]; [destruct (mapM f l2); reflexivity|]. destruct (f x); cbn [bind]; [|reflexivity]. rewrite IH. destruct (mapM f l1); cbn [bind]; [|reflexivity]. destruct (mapM f l2); reflexivity.
  Qed.
  (** the steps asked for: some of 0, ..., n-2, and n-1 *)
  Lemma data_steps_last n period : period <> 0%Z -> exists l, data_steps n period = Ok (map Z.of_nat l ++ [Z.of_nat n - 1]%Z) /\ forall i, In i l -> S i < n.
  Proof.
    intros Hp. unfold data_steps, range_step. destruct (Z.eqb_spec period 0) as [|_]; [contradiction|]. cbn [bind].
    destruct (period <? 0)%Z; [exists []; split; [reflexivity | intros i []]|]. set (f := fun i => Z.eqb (Z.of_nat i mod period) 0). destruct n as [|n]; [exists []; split; [reflexivity | intros i []]|].
    rewrite seq_S, filter_app. exists (filter f (seq 0 n)). split; [|intros i J; apply filter_In in J as [J _]; apply in_seq in J; lia].
    cbn [filter Nat.add]. replace (Z.of_nat (S n) - 1)%Z with (Z.of_nat n) by lia. destruct (f n).
    - rewrite map_app. cbn [map]. rewrite last_last, Z.eqb_refl. now destruct (map Z.of_nat (filter f (seq 0 n))).
    - rewrite app_nil_r. destruct (filter f (seq 0 n)) as [|x r] eqn:E; [reflexivity|]. assert (B : forall i, In i (x :: r) -> i < n) by (rewrite <- E; intros i J; apply filter_In in J as [J _]; apply in_seq in J; lia).
      assert (L : In (List.last (map Z.of_nat (x :: r)) 0%Z) (map Z.of_nat (x :: r))). { generalize (@List.app_removelast_last _ (map Z.of_nat (x :: r)) 0%Z ltac:(discriminate)). intros Hl. rewrite Hl at 2. apply in_or_app. right. now left. }
      apply in_map_iff in L as (i & Ei & J). apply B in J. cbn [map] in *. destruct (Z.eqb_spec (List.last (Z.of_nat x :: map Z.of_nat r) 0%Z) (Z.of_nat n)); [lia | reflexivity].
  Qed.
  Lemma aggregate_is (s : sim A) period pre i w : period <> 0%Z -> s_steps s = S i -> s_rows s = pre -> nth_error pre i = Some (i, w) -> aggregate_rows s period = Ok [w].
  Proof.
    intros Hp St Er Hn. destruct (data_steps_last (s_steps s) period Hp) as (l & D & B). unfold aggregate_rows, run_rows. rewrite D. cbn [bind]. rewrite Er.
    assert (Ix : forall j, j <= i -> exists x, py_index pre (Z.of_nat j) = Ok x /\ nth_error pre j = Some x).
    { intros j Hj. assert (i < length pre) by (apply nth_error_Some; congruence). destruct (nth_error pre j) as [x|] eqn:E; [|apply nth_error_None in E; lia]. exists x. split; [|reflexivity]. unfold py_index.
      destruct (Z.ltb_spec (Z.of_nat j) 0); [lia|]. destruct (Z.leb_spec 0 (Z.of_nat j)); [|lia]. destruct (Z.ltb_spec (Z.of_nat j) (Z.of_nat (length pre))); [|lia]. cbn. now rewrite Nat2Z.id, E. }
    rewrite mapM_app. destruct (mapM_total (fun j => let! r := py_index pre j in Ok (j, snd r)) (map Z.of_nat l)) as (ys & Ey).
    { intros z J. apply in_map_iff in J as (j & <- & J). apply B in J. destruct (Ix j ltac:(lia)) as (x & -> & _). cbn. eauto. }
    rewrite Ey. cbn [bind mapM]. replace (Z.of_nat (s_steps s) - 1)%Z with (Z.of_nat i) by lia. destruct (Ix i (le_n _)) as (x & Hx & Hx'). rewrite Hx. rewrite Hn in Hx'. injection Hx' as <-. cbn [bind]. f_equal.
    rewrite filter_one; [reflexivity | cbn; apply Z.eqb_refl|]. intros y [J|[]]. apply mapM_ok in Ey. clear - Ey J B St. assert (K : In (fst y) (map Z.of_nat l)).
    { clear B. revert J. generalize (map Z.of_nat l) Ey. clear. intros L Ey. induction Ey as [|z q zs qs E Ey IH]; [intros []|]. intros [->|J]; [left | right; now apply IH]. apply bind_ok in E as (r & _ & E). injection E as <-. reflexivity. }
    apply in_map_iff in K as (j & Ej & K). apply B in K. rewrite <- Ej. apply Z.eqb_neq. lia.
  Qed.
End Rows.

(** * The loop of a batch job *)
Section Loop.
  Context {A : Arith}.
  Variable so : list nat -> list nat -> list nat.
  Implicit Types s : sim A.
  Definition row_of (x : choices * sim A) : nat * world A := (s_steps (snd x), s_w (snd x)).
  (** how a job can end: after some rounds; or when, after some rounds, step() found that the iteration bound was reached *)
  Definition batch_end s0 s : Prop := exists l, (forall x, In x l -> s_running (snd x) = true) /\
    ((rounds so s0 l s /\ s_rows s = map row_of l) \/
    (exists s1, rounds so s0 l s1 /\ (s_maxit s1 <= Z.of_nat (length l))%Z /\ s_maxit s = s_maxit s1 /\ s_w s = s_w s1 /\ s_steps s = length l /\ s_running s = false /\ s_rows s = map row_of l ++ [(length l, s_w s)])).
  Lemma batch_loop_ends ch max_steps s0 fuel : s_steps s0 = 0 -> s_rows s0 = [] -> forall l s s', rounds so s0 l s -> (forall x, In x l -> s_running (snd x) = true) -> batch_loop so ch max_steps fuel s = Ok s' -> batch_end s0 s'.
  Proof.
    intros S0 R0. induction fuel as [|fuel IH]; intros l s s' R Q H; cbn [batch_loop] in H; destruct (rounds_shape _ _ _ _ R) as (_ & _ & Es & _ & Er & _); rewrite S0, R0 in *; cbn [Nat.add app] in Es, Er.
    - destruct (_ && _); [discriminate|]. injection H as <-. exists l. split; [assumption|]. left. split; assumption.
    - destruct (s_running s && _) eqn:Ec; [|injection H as <-; exists l; split; [assumption|]; left; split; assumption]. apply andb_true_iff in Ec as [Ec _]. apply bind_ok in H as (s1 & H1 & H). assert (C := step_shape _ _ _ _ H1). destruct C as (_ & C2 & _ & [(B1 & B2 & B3 & B4 & B5 & B6 & B7 & B8 & B9)|(B1 & _)]).
      + assert (s1 = s') as <-. { destruct fuel; cbn [batch_loop] in H; rewrite B6 in H; now injection H. }
        exists l. split; [assumption|]. right. exists s. rewrite Es in *. repeat (split; [assumption || congruence|]). rewrite C2, Er, B8. reflexivity.
      + eapply IH; [econstructor; eassumption | | exact H]. intros x J. apply in_app_iff in J as [J|[<-|[]]]; auto.
  Qed.
  (** each pass of the loop makes another round, or is the last *)
  Lemma batch_loop_fuel ch max_steps : (forall i, fair (ch i)) -> forall fuel s, NoDup (keys (w_agents (s_w s))) -> (max_steps - Z.of_nat (s_steps s) + 2 <= Z.of_nat fuel)%Z -> (1 <= Z.of_nat fuel)%Z -> batch_loop so ch max_steps fuel s <> Err OutOfFuel.
  Proof.
    intros F. induction fuel as [|fuel IH]; intros s N L1 L2; cbn [batch_loop]; [lia|]. destruct (s_running s && _) eqn:E; [|discriminate]. apply andb_true_iff in E as [_ E]. apply Z.leb_le in E.
    destruct (sim_step so (ch (s_steps s)) s) as [s1|e] eqn:H1; cbn [bind]; [|intros [= ->]; revert H1; apply ends_sim_step; auto].
    apply step_shape in H1 as (_ & _ & K & [(_ & _ & _ & _ & _ & B6 & _)|(_ & B2 & _)]).
    - destruct fuel; cbn [batch_loop]; rewrite B6; discriminate.
    - apply IH; [congruence | lia | lia].
  Qed.
  Lemma batch_loop_steps ch max_steps : forall fuel s s', (Z.of_nat (s_steps s) <= Z.max 0 (max_steps + 1))%Z -> batch_loop so ch max_steps fuel s = Ok s' -> (Z.of_nat (s_steps s') <= Z.max 0 (max_steps + 1))%Z.
  Proof.
    induction fuel as [|fuel IH]; intros s s' L H; cbn [batch_loop] in H; (destruct (s_running s && _) eqn:E; [|now injection H as <-]); [discriminate|]. apply andb_true_iff in E as [_ E]. apply Z.leb_le in E. apply bind_ok in H as (s1 & H1 & H). apply (IH s1); [|exact H].
    apply step_shape in H1 as (_ & _ & _ & [(_ & B & _)|(_ & B & _)]); rewrite B; lia.
  Qed.
  (** with a bound on the iterations that max_steps does not undercut, it is the loop of run_model *)
  Lemma batch_loop_run ch max_steps M : (M <= max_steps)%Z -> forall fuel s s', (forall t, reach so s t -> s_maxit t = M) -> (s_running s = true -> Z.of_nat (s_steps s) <= M)%Z ->
    batch_loop so ch max_steps fuel s = Ok s' -> exists n, run so ch n s (Ok s').
  Proof.
    intros HM. induction fuel as [|fuel IH]; intros s s' Hm Hs H; cbn [batch_loop] in H; assert (Em := Hm s (reach_start _ _ s)).
    - destruct (s_running s && _) eqn:E; [discriminate|]. injection H as <-. exists 0. constructor. unfold loops. destruct (s_running s); [|apply andb_false_r]. specialize (Hs eq_refl). cbn in E. apply Z.leb_gt in E. lia.
    - destruct (s_running s && _) eqn:E.
      + apply andb_true_iff in E as [E1 E2]. specialize (Hs E1). apply bind_ok in H as (s1 & H1 & H). destruct (IH s1 s') as (n & R).
        * intros t Rt. apply Hm. clear - Rt H1. induction Rt; [econstructor; [constructor | exact H1] | econstructor; eassumption].
        * intros Er. apply step_shape in H1 as (_ & _ & _ & [(_ & _ & _ & _ & _ & B & _)|(B1 & B2 & _)]); [congruence|]. rewrite Em in B1. rewrite B2. lia.
        * exact H.
        * exists (S n). econstructor; [|exact H1 | exact R]. unfold loops. rewrite Em, E1, andb_true_r. now apply Z.leb_le.
      + injection H as <-. exists 0. constructor. unfold loops. destruct (s_running s); [|apply andb_false_r]. specialize (Hs eq_refl). cbn in E. apply Z.leb_gt in E. lia.
  Qed.
End Loop.

(** * C53 *)
(** A job ends, after at most max_steps + 1 rounds. *)
Theorem C53_batch_job_terminates : forall (A : Arith) so g profiles stakes costs (s0 : sim A) ch max_steps, init g profiles stakes costs = Ok s0 -> (forall i, fair (ch i)) ->
  batch_run so ch max_steps s0 <> Err OutOfFuel /\ forall s, batch_run so ch max_steps s0 = Ok s -> (Z.of_nat (s_steps s) <= Z.max 0 (max_steps + 1))%Z.
Proof.
  intros A so g profiles stakes costs s0 ch max_steps H F. assert (N := init_nodup _ _ _ _ _ H). apply init_fresh in H. destruct (fs_start _ _ _ _ _ H) as (S1 & _). split.
  - apply batch_loop_fuel; [assumption | assumption | rewrite S1; lia | lia].
  - intros s. apply batch_loop_steps. rewrite S1. lia.
Qed.
(** With a fixed max_iterations that max_steps does not undercut (batch-run.py passes the same number for both), a job runs like run_model: it ends with running = False, and its results
    were exported exactly once. *)
Theorem C53_batch_job_exports_once : forall (A : Arith) so g profiles stakes costs (s0 s : sim A) ch M max_steps, init g profiles stakes costs = Ok s0 -> g_maxit g = Single M -> (0 <= M <= max_steps)%Z ->
  batch_run so ch max_steps s0 = Ok s ->
  run_model so ch s0 = Ok s /\ s_running s = false /\ s_out s = [mkFinal (s_w s) (has_converged s)] /\ (Z.of_nat (s_steps s) <= M)%Z.
Proof.
  intros A so g profiles stakes costs s0 s ch M max_steps H HM [HP HQ] Hr. destruct (C29_run_model_terminates A so g profiles stakes costs s0 ch H) as (n & R & _).
  destruct (init_one_maxit _ _ _ _ _ _ H HM) as [Em Om]. assert (Fr := init_fresh _ _ _ _ _ H). destruct (fs_start _ _ _ _ _ Fr) as (S1 & S2 & S3 & S4 & S5 & S6 & S7 & S8 & S9).
  assert (Hm : forall t, reach so s0 t -> s_maxit t = M).
  { intros t Rt. rewrite <- Em. clear - Rt Om. assert (X : s_maxit t = s_maxit s0 /\ s_c t = s_c s0); [|exact (proj1 X)]. induction Rt as [|ch s s' Rt [I1 I2] E]; [now split|]. apply step_shape in E as (C & _ & _ & [(_ & _ & _ & _ & _ & _ & B & _)|(_ & _ & _ & [(_ & _ & _ & _ & B & _)|(_ & _ & _ & [(_ & _ & _ & _ & [B|(l & J1 & J2)])|(_ & _ & _ & _ & B & _)])])]); try (split; congruence).
    rewrite I2 in J1. exfalso. exact (Om l _ J1 J2 _ eq_refl). }
  destruct (batch_loop_run so ch max_steps M HQ _ s0 s Hm (fun _ => ltac:(rewrite S1; exact HP)) Hr) as (n' & R').
  assert (U : forall n (s : sim A) r, run so ch n s r -> forall n' r', run so ch n' s r' -> r = r').
  { clear. induction 1 as [s L|s e L E|n s s' r L E R IH]; intros n' r' R'; inversion R'; subst; try congruence. rewrite E in *. match goal with H : Ok _ = Ok _ |- _ => injection H as -> end. eauto. }
  assert (E := U _ _ _ R _ _ R'). split; [assumption|]. destruct (C29_run_model_stops A so g profiles stakes costs s0 s ch M H HM HP E) as (K1 & K2 & K3 & _). auto.
Qed.

(** * C45 *)
(** The row of the aggregate results shows the state before the last round. *)
Theorem C45_row_is_the_state_before_the_last_round : forall (A : Arith) so g profiles stakes costs (s0 s : sim A) ch max_steps period, init g profiles stakes costs = Ok s0 ->
  batch_run so ch max_steps s0 = Ok s -> period <> 0%Z -> s_steps s <> 0 ->
  exists l c s1 s2, rounds so s0 (l ++ [(c, s1)]) s2 /\ s_steps s2 = s_steps s /\ s_w s2 = s_w s /\ aggregate_rows s period = Ok [s_w s1].
Proof.
  intros A so g profiles stakes costs s0 s ch max_steps period H Hr Hp Hs. apply init_fresh in H. destruct (fs_start _ _ _ _ _ H) as (S1 & S2 & S3 & S4 & S5 & S6 & S7 & S8 & S9).
  destruct (batch_loop_ends so ch max_steps s0 _ S1 S7 [] s0 s (rounds_start so s0) ltac:(intros x []) Hr) as (l & _ & Hl).
  assert (X : exists s2, rounds so s0 l s2 /\ s_steps s2 = length l /\ s_steps s = length l /\ s_w s2 = s_w s /\ exists rest, s_rows s = map row_of l ++ rest).
  { destruct Hl as [(R & Er)|(s2 & R & _ & _ & Ew & Es & _ & Er)]; destruct (rounds_shape _ _ _ _ R) as (_ & _ & Es' & _); rewrite S1 in Es'; cbn in Es'.
    - exists s. repeat (split; [assumption || reflexivity|]). exists []. now rewrite app_nil_r.
    - exists s2. repeat (split; [assumption || congruence|]). eauto. }
  destruct X as (s2 & R & E2 & E1 & Ew & rest & Er). destruct l as [|[c s1] l _] using rev_ind; [cbn in E1; contradiction|]. exists l, c, s1, s2. split; [assumption|]. split; [congruence|]. split; [assumption|].
  rewrite app_length in E1. cbn [length] in E1. destruct (rounds_shape _ _ _ _ R) as (_ & _ & _ & Eq & _). rewrite S1, map_app, app_length, seq_app in Eq. cbn in Eq. apply app_inj_tail in Eq as [_ Eq]. cbn in Eq.
  apply (aggregate_is s period (s_rows s) (length l)); [assumption | lia | reflexivity|]. rewrite Er, map_app, <- app_assoc. rewrite nth_error_app2 by (rewrite map_length; lia). rewrite map_length, Nat.sub_diag. cbn. unfold row_of. cbn. now rewrite Eq.
Qed.

(** the values of all reporters (ALL_MODEL_REPORTEERS, model_reporters.py:385-) that are modelled, except the number of iterations *)
Definition metrics (n : Z) (w : world QcA) :=
  (number_of_pools w, (avg_margin w, median_margin w, avg_pledge w, total_pledge w, median_pledge w, avg_pools_per_operator w, max_pools_per_operator w, median_pools_per_operator w),
   (avg_sat_rate w, stakes_n_margins w, stat_dist w, nakamoto w, nakamoto_initial w, pledge_rate w, homogeneity w), (avg_stk_rnk w, avg_cost_rnk w, median_stk_rnk w, median_cost_rnk w),
   (pool_splitter_count w, cost_efficient_count w, pool_stakes_by_agent n w, pool_stakes_by_agent_id n w), (gini_pool_count w, gini_pool_count_k w, gini_stake w, gini_stake_k w),
   (total_delegated_stake w, active_stake_agents w, operator_count w)).

Section Agree.
  Lemma F2_map {X Y} (R : X -> X -> Prop) (f : X -> Y) l l' : Forall2 R l l' -> (forall x x', R x x' -> f x' = f x) -> map f l' = map f l.
  Proof. induction 1; intros Hf; cbn; [reflexivity|]. now rewrite IHForall2, (Hf _ _ H). Qed.
  Lemma F2_mapM {X Y} (R : X -> X -> Prop) (f : X -> res Y) l l' : Forall2 R l l' -> (forall x x', R x x' -> f x' = f x) -> mapM f l' = mapM f l.
  Proof. induction 1; intros Hf; cbn; [reflexivity|]. now rewrite IHForall2, (Hf _ _ H). Qed.
  Lemma F2_foldM {X Y} (R : X -> X -> Prop) (f : Y -> X -> res Y) l l' : Forall2 R l l' -> (forall a x x', R x x' -> f a x' = f a x) -> forall a, foldM f l' a = foldM f l a.
  Proof. induction 1; intros Hf a; cbn; [reflexivity|]. rewrite (Hf _ _ _ H). destruct (f a x); cbn; auto. Qed.
  Lemma F2_fold_left {X Y} (R : X -> X -> Prop) (f : Y -> X -> Y) l l' : Forall2 R l l' -> (forall a x x', R x x' -> f a x' = f a x) -> forall a, fold_left f l' a = fold_left f l a.
  Proof. induction 1; intros Hf a; cbn; [reflexivity|]. now rewrite (Hf _ _ _ H), IHForall2. Qed.

  (** the metrics are determined by what [same_state] keeps, and by the agents *)
  Lemma metrics_agree n (w w' : world QcA) ps : same_state w w' -> w_agents w' = w_agents w -> NoDup (keys (w_pools w)) -> pools_list w = Ok ps -> metrics n w' = metrics n w.
  Proof.
    intros (P & SP & _ & _ & Rs & _) Ag N Hps. unfold pools_list in Hps. apply mapM_ok in Hps.
    assert (X : exists ps', pools_list w' = Ok ps' /\ Forall2 same_pool ps ps').
    { unfold pools_list. rewrite P. assert (K : forall r, In r (values (w_pools w)) -> exists id, get (w_pools w) id = Some r) by (intros r J; now apply In_values in J). revert K. induction Hps as [|r p rs ps E Hps IH]; intros K; [exists []; split; [reflexivity | constructor]|].
      destruct IH as (ps' & I1 & I2); [intros r' J; apply K; now right|]. destruct (K r (or_introl eq_refl)) as (id & G). unfold deref in E. apply of_option_ok in E. destruct (SP id p) as (p' & (r' & G1 & G2) & S); [exists r; now split|].
      rewrite P in G1. assert (r' = r) by congruence. subst. exists (p' :: ps'). split; [|now constructor]. cbn [mapM]. unfold deref at 1. rewrite G2. cbn [of_option bind]. rewrite I1. reflexivity. }
    destruct X as (ps' & Hps' & F). assert (Hps0 : pools_list w = Ok ps) by (now apply mapM_ok). clear Hps SP.
    assert (Eo : map p_owner ps' = map p_owner ps) by (eapply F2_map; [exact F|]; intros x x' S; apply S). assert (Es : map p_stake ps' = map p_stake ps) by (eapply F2_map; [exact F|]; intros x x' S; apply S).
    assert (Ep : map p_pledge ps' = map p_pledge ps) by (eapply F2_map; [exact F|]; intros x x' S; apply S). assert (Em : map p_margin ps' = map p_margin ps) by (eapply F2_map; [exact F|]; intros x x' S; apply S).
    assert (El : length ps' = length ps) by (clear - F; induction F; cbn; congruence).
    assert (Ec : forall ks, controlled ks ps' = controlled ks ps). { intros ks. unfold controlled. eapply F2_foldM; [exact F|]. intros a x x' (_ & S2 & S3 & _). now rewrite S2, S3. }
    assert (Et : stake_tally ps' = stake_tally ps). { unfold stake_tally. eapply F2_fold_left; [exact F|]. intros a x x' (_ & S2 & S3 & _). now rewrite S2, S3. }
    assert (W : forall f, f ps' = f ps -> when_pools w' f = when_pools w f). { intros f Hf. unfold when_pools. rewrite Hps', Hps0. cbn [bind]. inversion F; subst; [reflexivity | exact Hf]. }
    assert (B : forall (Y : Type) (f : list (pool QcA) -> res Y), f ps' = f ps -> (let! l := pools_list w' in f l) = (let! l := pools_list w in f l)) by (intros Y f Hf; rewrite Hps', Hps0; exact Hf).
    assert (Or : forall d, owner_ranks w' d = owner_ranks w d). { intros d. unfold owner_ranks. apply B. destruct (calculate_ranks true d []); [|reflexivity]. cbn [bind]. eapply F2_mapM; [exact F|]. intros x x' (_ & S2 & _). now rewrite S2. }
    unfold metrics. repeat match goal with |- (_, _) = (_, _) => apply f_equal2 end.
    all: try (unfold number_of_pools; now rewrite P).
    all: try (unfold avg_margin, median_margin, avg_pledge, median_pledge, avg_pools_per_operator, median_pools_per_operator, pledge_rate, homogeneity; apply W; cbv beta; now rewrite ?Eo, ?Es, ?Ep, ?Em, ?El).
    all: try (unfold total_pledge, pool_splitter_count, total_delegated_stake, operator_count, gini_pool_count, gini_pool_count_k, gini_stake, gini_stake_k; rewrite ?Rs; apply B; cbv beta; now rewrite ?Eo, ?Es, ?Ep, ?Em, ?El, ?Et).
    all: try (unfold avg_stk_rnk, avg_cost_rnk, median_stk_rnk, median_cost_rnk, stakes_dict, neg_costs_dict; now rewrite Ag, Or).
    all: try (unfold nakamoto_initial, cost_efficient_count, active_stake_agents, agents_list; now rewrite ?Ag, ?Rs).
    - unfold max_pools_per_operator. apply B. inversion F; subst; [reflexivity|]. now rewrite Eo.
    - unfold avg_sat_rate. rewrite Rs. apply W. erewrite F2_mapM; [reflexivity | exact F|]. intros x x' (_ & _ & S3 & S4 & _). now rewrite S3, S4.
    - unfold stakes_n_margins. rewrite Ag. apply B. eapply F2_mapM; [exact F|]. intros x x' (S1 & S2 & S3 & S4 & S5 & _). now rewrite S1, S2, S3, S5.
    - unfold stat_dist. rewrite Ag. apply W. now rewrite Ec.
    - unfold nakamoto. rewrite Ag. apply B. inversion F; subst; [reflexivity|]. now rewrite Ec.
    - unfold pool_stakes_by_agent. apply B. eapply F2_foldM; [exact F|]. intros a x x' (_ & S2 & S3 & _). now rewrite S2, S3.
  Qed.
End Agree.

Section Converged.
  Variable so : list nat -> list nat -> list nat.
  Hypothesis SO : set_order so.
  Lemma same_pool_trans p q r : same_pool p q -> same_pool q r -> same_pool p r.
  Proof. intros (A1 & A2 & A3 & A4 & A5 & A6 & A7 & A8 & A9 & A10) (B1 & B2 & B3 & B4 & B5 & B6 & B7 & B8 & B9 & B10). unfold same_pool. repeat (split; [congruence|]). intros a. now rewrite B10. Qed.
  Lemma same_state_trans u v w : same_state u v -> same_state v w -> same_state u w.
  Proof.
    intros (A1 & A2 & A3 & A4 & A5 & A6 & A7 & A8 & A9 & A10 & A11) (B1 & B2 & B3 & B4 & B5 & B6 & B7 & B8 & B9 & B10 & B11). unfold same_state. split; [congruence|]. split; [|repeat (split; [congruence|]); congruence].
    intros id p J. destruct (A2 id p J) as (p1 & J1 & S1). destruct (B2 id p1 J1) as (p2 & J2 & S2). exists p2. split; [assumption|]. eapply same_pool_trans; eassumption.
  Qed.
  Lemma same_state_refl w : same_state w w.
  Proof. unfold same_state. repeat (split; [reflexivity|]). split; [|repeat split]. intros id p J. exists p. split; [assumption|]. unfold same_pool. repeat split. Qed.

  (** a round in which nobody moves changes nothing *)
  Lemma idle_round g profiles stakes costs (s0 s : sim QcA) ch w : init g profiles stakes costs = Ok s0 -> one_at_a_time g -> reach so s0 s -> schedule_step so (c_sched (s_c s)) ch (s_w s) = Ok w -> w_idle w = true ->
    same_state (s_w s) w /\ w_agents w = w_agents (s_w s).
  Proof.
    intros H1 H2 R Hw Ei. unfold schedule_step in Hw. apply bind_ok in Hw as (evs & Hev & Hw).
    assert (Os : only_steps evs). { eapply round_only_steps; [|exact Hev]. rewrite (reach_conf so s0 s R). apply init_fresh in H1. destruct (fs_order _ _ _ _ _ H1) as (_ & E1 & E2). rewrite E1. unfold one_at_a_time in H2. rewrite Forall_forall in H2. now apply H2. }
    destruct (events_frame so evs _ _ Hw) as (_ & _ & P). specialize (P Ei).
    assert (G : forall evs1 evs2 w1, evs = evs1 ++ evs2 -> foldM (do_event so) evs1 (s_w s) = Ok w1 -> same_state (s_w s) w1 /\ w_agents w1 = w_agents (s_w s)); [|apply (G evs [] w); [now rewrite app_nil_r | exact Hw]].
    induction evs1 as [|e evs1 IH] using rev_ind; intros evs2 w2 Ee F.
    - injection F as <-. split; [apply same_state_refl | reflexivity].
    - rewrite foldM_app in F. apply bind_ok in F as (w1 & F1 & F). cbn [foldM] in F. apply bind_ok in F as (w2' & F2 & F). injection F as ->. rewrite <- app_assoc in Ee. destruct (IH ([e] ++ evs2) w1 Ee F1) as [I1 I2].
      assert (V : visible so s0 w1) by (eapply vis_within; [exact R | rewrite Hev, Ee; reflexivity | exact F1]). assert (I : w_idle w2 = true) by (apply (P (evs1 ++ [e]) evs2 w2); [now rewrite <- app_assoc | rewrite foldM_app, F1; cbn [bind foldM]; rewrite F2; reflexivity]).
      unfold only_steps in Os. rewrite Forall_forall in Os. destruct (Os e) as (a & ->); [rewrite Ee; apply in_or_app; right; now left|]. cbn [do_event] in F2. assert (F2' := F2). unfold agent_step in F2'. apply bind_ok in F2' as (w1' & U & F2').
      assert (K : forall ag', get (w_agents w1') a = Some ag' -> a_new ag' = None).
      { intros ag' Ga. destruct (a_new ag') eqn:En; [|reflexivity]. exfalso. assert (Sm : w_simul w1' = false). { apply update_frame in U as (Q1 & _). destruct (exact_all False False False so SO _ _ _ _ _ _ H1 H2 (inputs_none _ _) V) as [Gd _]. assert (X := g_sim _ _ _ _ _ Gd). unfold Frame.params in Q1. congruence. }
        rewrite Sm in F2'. unfold advance, the_agent in F2'. rewrite Ga in F2'. cbn [of_option bind] in F2'. rewrite En in F2'. apply bind_ok in F2' as (w3 & _ & F2'). injection F2' as <-. discriminate. }
      destruct (C19_keeping_the_strategy_changes_nothing so g profiles stakes costs s0 w1 a w1' SO H1 H2 V U K) as (L1 & L2 & L3). assert (w2 = w1') by congruence. subst. split; [eapply same_state_trans; eassumption | congruence].
  Qed.
End Converged.

(** If the run ended because it converged, the row has the metrics of the final state: the last round was idle. *)
Theorem C45_aggregate_results_after_convergence : forall so g profiles stakes costs (s0 s : sim QcA) ch max_steps period n, set_order so -> init g profiles stakes costs = Ok s0 -> one_at_a_time g ->
  batch_run so ch max_steps s0 = Ok s -> period <> 0%Z -> s_running s = false -> (Z.of_nat (s_steps s) < s_maxit s)%Z ->
  exists w, aggregate_rows s period = Ok [w] /\ metrics n w = metrics n (s_w s).
Proof.
  intros so g profiles stakes costs s0 s ch max_steps period n SO H OT Hr Hp Hrun Hlt. assert (H' := init_fresh _ _ _ _ _ H). destruct (fs_start _ _ _ _ _ H') as (S1 & S2 & S3 & S4 & S5 & S6 & S7 & S8 & S9).
  destruct (batch_loop_ends so ch max_steps s0 _ S1 S7 [] s0 s (rounds_start so s0) ltac:(intros x []) Hr) as (l & Q & [(R & Er)|(s2 & _ & L & E1 & _ & E2 & _)]); [|rewrite E1, E2 in Hlt; lia].
  inversion R as [|l' c s1 s' R1 L1 E1]; subst; [congruence|]. destruct (rounds_shape _ _ _ _ R1) as (_ & _ & Es & _ & _ & _). rewrite S1 in Es. cbn in Es.
  assert (Q1 : s_running s1 = true) by (exact (Q (c, s1) ltac:(apply in_or_app; right; now left))).
  assert (St : s_steps s = S (length l')). { destruct (rounds_shape _ _ _ _ R) as (_ & _ & Et & _). rewrite Et, S1, app_length. cbn. lia. }
  exists (s_w s1). split. { apply (aggregate_is s period (s_rows s) (length l')); [assumption | assumption | reflexivity|]. rewrite Er, map_app, nth_error_app2 by (rewrite map_length; lia). rewrite map_length, Nat.sub_diag. cbn. unfold row_of. cbn. now rewrite Es. }
  apply rounds_reach in R1. apply sim_step_cases in E1 as [(L & _)|(_ & w & Hw & X)]; [lia|].
  assert (Y : w_idle w = true /\ s_w s = w).
  { destruct X as [(Ei & ->)|[(Ei & Lc & ->)|[(Ei & Lc & Lp & s4 & H4 & ->)|(Ei & Lc & Lp & ->)]]]; [cbn in Hrun; congruence | cbn in Hrun; congruence| | split; [assumption | reflexivity]].
    apply phase_frame in H4 as (_ & _ & _ & _ & _ & F & _). cbn in F. unfold idle_again in Hrun. cbn in Hrun. congruence. }
  destruct Y as [Ei ->]. destruct (idle_round so SO g profiles stakes costs s0 s1 c w H OT R1 Hw Ei) as [Ss Ea]. symmetry.
  assert (V : visible so s0 (s_w s1)) by now constructor. destruct (exact_all False False False so SO _ _ _ _ _ _ H OT (inputs_none _ _) V) as [Gd _]. assert (I := g_inv _ _ _ _ _ Gd).
  destruct (mapM_total (deref (s_w s1)) (values (w_pools (s_w s1)))) as (ps & Eps).
  { intros r J. apply In_values in J as (id & J); [|apply (i_nd _ _ _ _ _ _ I)]. destruct (i_reg _ _ _ _ _ _ I _ _ J) as (p & G & _). exists p. unfold deref. now rewrite G. }
  apply (metrics_agree n (s_w s1) w ps); [assumption | assumption | apply (i_nd _ _ _ _ _ _ I) | exact Eps].
Qed.
Lemma batch_check (i : res (sim QcA)) ch m (c : sim QcA -> bool) : match (let! s0 := i in batch_run so_id ch m s0) with Ok s => c s | Err _ => false end = true ->
  exists s0 s, i = Ok s0 /\ batch_run so_id ch m s0 = Ok s /\ c s = true.
Proof. destruct i as [s0|]; [|discriminate]. cbn [bind]. destruct (batch_run so_id ch m s0) as [s|] eqn:E; [|discriminate]. intros H. exists s0, s. auto. Qed.
Example C45_C53_instance : exists s0 s, init demo_seq demo_profiles demo_stakes demo_costs = Ok s0 /\ set_order so_id /\ one_at_a_time demo_seq /\ batch_run so_id (fun _ => no_choice) 100 s0 = Ok s /\
  s_running s = false /\ (Z.of_nat (s_steps s) < s_maxit s)%Z /\ number_of_pools (s_w s) = 3.
Proof.
  destruct (batch_check demo_init (fun _ => no_choice) 100 (fun s => negb (s_running s) && ((Z.of_nat (s_steps s) <? s_maxit s)%Z && Nat.eqb (number_of_pools (s_w s)) 3))) as (s0 & s & H1 & H2 & H3).
  { vm_compute. reflexivity. }
  cbv beta in H3. apply andb_true_iff in H3 as [H3 H4]. apply andb_true_iff in H4 as [H4 H5]. exists s0, s. split; [exact H1|]. split; [exact so_id_set_order|]. split; [exact demo_one|]. split; [exact H2|].
  split; [now apply negb_true_iff in H3|]. split; [now apply Z.ltb_lt | now apply Nat.eqb_eq].
Qed.
(** If the bound on the iterations ended it, the row does not describe the final state: here, pools were opened in the only round, and the row counts none. *)
Definition short_args : args QcA :=
  mkArgs (A := QcA) (Single 4%Z) (Single (Q2Qc 2)) (Single (Q2Qc (3#10))) (Single 0%Qc) (Single (Q2Qc (1#1000000))) (Single 1%Z) (Single (Q2Qc 2)) (Single Sequential) (Single true) 0 0%Qc false 2.
Theorem C45_aggregate_results_at_the_bound_refuted : exists (g : args QcA) profiles stakes costs s0 s w, init g profiles stakes costs = Ok s0 /\ one_at_a_time g /\ positive_inputs g stakes /\
  batch_run so_id (fun _ => no_choice) 1 s0 = Ok s /\ s_running s = false /\ aggregate_rows s (-1) = Ok [w] /\ number_of_pools w = 0 /\ number_of_pools (s_w s) = 3.
Proof.
  destruct (batch_check (init short_args demo_profiles demo_stakes demo_costs) (fun _ => no_choice) 1 (fun s => negb (s_running s) && (Nat.eqb (number_of_pools (s_w s)) 3 && match aggregate_rows s (-1) with Ok [w] => Nat.eqb (number_of_pools w) 0 | _ => false end))) as (s0 & s & H1 & H2 & H3).
  { vm_compute. reflexivity. }
  cbv beta in H3. apply andb_true_iff in H3 as [H3 H4]. apply andb_true_iff in H4 as [H4 H5]. destruct (aggregate_rows s (-1)) as [[|w [|]]|] eqn:E; try discriminate.
  exists short_args, demo_profiles, demo_stakes, demo_costs, s0, s, w. split; [exact H1|]. split; [constructor; [right; reflexivity | constructor]|]. split; [exact demo_positive|]. split; [exact H2|].
  split; [now apply negb_true_iff in H3|]. split; [exact E|]. split; [now apply Nat.eqb_eq | now apply Nat.eqb_eq].
Qed.
