(** Properties C01 - C09 and C49: reward schemes and the helpers that split rewards, costs and pledges.  Exact arithmetic. *)
From Coq Require Import ZArith List Bool QArith Qcanon Lqa Lia.
From Verif Require Import Num Py QcTac Rewards RewardFacts.
Import ListNotations.
Local Open Scope Qc_scope.

Ltac qc_ex := vm_compute; first [reflexivity | f_equal; apply Qc_is_canon; reflexivity | apply Qc_is_canon; reflexivity].
(** Numbers for the examples *)
Definition q (n : Z) (d : positive) : Qc := Q2Qc (n # d).
(** a scheme with k = 10, a0 = 3/10 *)
Definition ex_rss (s : scheme) : rss QcA := mkRss (A := QcA) s 10 (q 3 10) (q 1 10).
Lemma ex_rss_ok s : 0 < r_thr (ex_rss s) /\ 0 <= r_a0 (ex_rss s).
Proof. split; vm_compute; [reflexivity | discriminate]. Qed.

(** * C01 *)
Theorem C01_reward_bounded : forall (r : rss QcA) (pledge stake : Qc),
  0 < r_thr r -> 0 <= r_a0 r -> 0 <= pledge -> pledge <= stake ->
  exists x, pool_reward r pledge stake = Ok x /\ 0 <= x /\ x <= stake /\ x <= r_thr r.
Proof.
  intros r pledge stake Hb Ha Hp Hs. exists (reward r pledge stake).
  rewrite pool_reward_ok by (now split).
  destruct (reward_bounds r pledge stake) as [H1 H2]; [now split | assumption | assumption |].
  repeat split; [assumption | | ].
  - eapply Qcle_trans; [exact H2 | apply Qcmin_l].
  - eapply Qcle_trans; [exact H2 | apply Qcmin_r].
Qed.
Example C01_example : pool_reward (ex_rss Cardano) (q 1 20) (q 1 5) = Ok (q 23 260).
Proof. qc_ex. Qed.

(** * C02: pools are given by (pledge, stake) *)
Theorem C02_epoch_budget : forall (r : rss QcA) (pools : list (Qc * Qc)),
  0 < r_thr r -> 0 <= r_a0 r ->
  (forall p, In p pools -> 0 <= fst p /\ fst p <= snd p) ->
  fold_right Qcplus 0 (map snd pools) <= 1 ->
  exists xs, mapM (fun p => pool_reward r (fst p) (snd p)) pools = Ok xs /\ length xs = length pools /\ fold_right Qcplus 0 xs <= 1.
Proof.
  intros r pools Hb Ha Hp Hsum.
  enough (exists xs, mapM (fun p => pool_reward r (fst p) (snd p)) pools = Ok xs /\ length xs = length pools /\
                     fold_right Qcplus 0 xs <= fold_right Qcplus 0 (map snd pools)) as (xs & H1 & H2 & H3).
  { exists xs. repeat split; try assumption. eapply Qcle_trans; eassumption. }
  clear Hsum. induction pools as [|[p s] pools IH]; cbn [mapM map fold_right length fst snd].
  - exists []. repeat split. apply Qcle_refl.
  - destruct IH as (xs & E & L & S). { intros; apply Hp; now right. }
    destruct (Hp (p, s) (or_introl eq_refl)) as [H1 H2].
    destruct (C01_reward_bounded r p s Hb Ha H1 H2) as (x & Ex & Hx0 & Hx1 & _).
    rewrite Ex. cbn [bind]. rewrite E. cbn [bind]. exists (x :: xs). split; [reflexivity|]. split; [cbn; f_equal; exact L | cbn [fold_right]; qlra].
Qed.
Example C02_example : exists pools : list (Qc * Qc), length pools = 3%nat /\
  (forall p, In p pools -> 0 <= fst p /\ fst p <= snd p) /\ fold_right Qcplus 0 (map snd pools) <= 1.
Proof.
  exists [(q 1 20, q 1 4); (q 1 10, q 1 2); (0, q 1 4)]. split; [reflexivity|]. split.
  - intros p [<- | [<- | [<- | []]]]; split; vm_compute; discriminate.
  - vm_compute. discriminate.
Qed.

(** * C03 *)
Theorem C03_monotone_in_stake : forall (r : rss QcA) (pledge s s' : Qc),
  0 < r_thr r -> 0 <= r_a0 r -> 0 <= pledge -> s <= s' ->
  exists x x', pool_reward r pledge s = Ok x /\ pool_reward r pledge s' = Ok x' /\ x <= x'.
Proof.
  intros r pledge s s' Hb Ha Hp Hs. exists (reward r pledge s), (reward r pledge s').
  rewrite !pool_reward_ok by (now split). repeat split. apply reward_mono_stake; now try split.
Qed.
Theorem C03_flat_above_saturation : forall (r : rss QcA) (pledge s s' : Qc),
  0 < r_thr r -> 0 <= r_a0 r ->
  pool_threshold r pledge <= s -> s <= s' ->
  pool_reward r pledge s' = pool_reward r pledge s.
Proof.
  intros r pledge s s' Hb Ha Ht Hs. rewrite !pool_reward_ok by (now split). f_equal. now apply reward_flat_above_threshold.
Qed.
(** strictly below the saturation threshold the reward is strictly increasing for the Cardano scheme *)
Theorem C03_strict_below_saturation : forall (r : rss QcA) (pledge s s' : Qc),
  0 < r_thr r -> 0 <= r_a0 r -> 0 <= pledge -> s < s' -> s' <= pool_threshold r pledge ->
  exists x x', pool_reward r pledge s = Ok x /\ pool_reward r pledge s' = Ok x' /\ x < x'.
Proof.
  intros r pledge s s' Hb Ha Hp Hs Ht. exists (reward r pledge s), (reward r pledge s').
  rewrite !pool_reward_ok by (now split). repeat split.
  rewrite pool_threshold_eq in Ht. unfold reward. set (b := r_thr r) in *.
  assert (Hc0 : 0 < 1 / (1 + r_a0 r)) by (apply Qcdiv_pos; qlra).
  assert (H0p : 0 <= Qcmin pledge b) by (apply Qcmin_glb; qlra).
  assert (Hpb : Qcmin pledge b <= b) by apply Qcmin_r.
  destruct (r_scheme r).
  4: { rewrite !Qcmin_id by qlra. assumption. }
  all: rewrite (Qcmin_id s), (Qcmin_id s') by qlra; set (p := Qcmin pledge b) in *; set (a0 := r_a0 r) in *; change (T QcA) with Qc in *.
  - unfold f_cardano. set (c := 1 / (1 + a0)) in *. clearbody c.
    assert (H1 : s / b <= s' / b) by (apply Qcdiv_mono; qlra).
    assert (H2 : p * (1 - s' / b) <= p * (1 - s / b)) by (apply Qcmult_le_l; qlra).
    assert (H3 : (s - p * (1 - s / b)) / b <= (s' - p * (1 - s' / b)) / b) by (apply Qcdiv_mono; qlra).
    assert (H4 : 0 <= p * a0) by (now apply Qcmult_nonneg).
    pose proof (Qcmult_le_l _ _ _ H4 H3) as H5.
    set (y := p * a0 * ((s - p * (1 - s / b)) / b)) in *. set (y' := p * a0 * ((s' - p * (1 - s' / b)) / b)) in *. clearbody y y'.
    assert (H6 : 0 < c * ((s' + y') - (s + y))) by (apply Qcmult_pos; qlra).
    replace (c * (s' + y' - (s + y))) with (c * (s' + y') - c * (s + y)) in H6 by ring. qlra.
  - unfold f_simplified. assert (Hq0 : 0 <= a0 * p / b) by (apply Qcdiv_nonneg; [apply Qcmult_nonneg|]; assumption).
    set (c := 1 / (1 + a0)) in *. set (y := a0 * p / b) in *. clearbody c y.
    assert (H6 : 0 < c * (s' - s) * (1 + y)) by (apply Qcmult_pos; [apply Qcmult_pos|]; qlra).
    replace (c * (s' - s) * (1 + y)) with (c * s' * (1 + y) - c * s * (1 + y)) in H6 by ring. qlra.
  - unfold f_flat. set (c := 1 / (1 + a0)) in *. clearbody c.
    assert (H6 : 0 < c * (s' - s)) by (apply Qcmult_pos; qlra).
    replace (c * (s' - s)) with (c * (s' + a0 * p) - c * (s + a0 * p)) in H6 by ring. qlra.
Qed.
Example C03_example : exists s s' : Qc, pool_threshold (ex_rss Cardano) (q 1 20) <= s /\ s < s'.
Proof. exists (q 1 5), (q 1 4). split; vm_compute; [discriminate | reflexivity]. Qed.

(** * C04 *)
Theorem C04_potential_profit_monotone_in_pledge : forall (r : rss QcA) (p p' cost : Qc),
  0 < r_thr r -> 0 <= r_a0 r -> p <= p' ->
  exists x x', potential_profit r p cost = Ok x /\ potential_profit r p' cost = Ok x' /\ x <= x'.
Proof.
  intros r p p' cost Hb Ha Hp. exists (pot_profit r p cost), (pot_profit r p' cost).
  rewrite !potential_profit_ok by (now split). repeat split. apply pot_profit_mono; [now split | assumption].
Qed.
Theorem C04_potential_profit_cost : forall (r : rss QcA) (p cost d : Qc),
  0 < r_thr r -> 0 <= r_a0 r ->
  exists x, potential_profit r p cost = Ok x /\ potential_profit r p (cost + d) = Ok (x - d).
Proof.
  intros r p cost d Hb Ha. exists (pot_profit r p cost).
  rewrite !potential_profit_ok by (now split). split; [reflexivity|]. f_equal. unfold pot_profit. ring.
Qed.
(** potential profit is what the pool earns when saturated: no stake gives more *)
Theorem C04_potential_profit_is_maximal : forall (r : rss QcA) (p cost stake : Qc),
  0 < r_thr r -> 0 <= r_a0 r -> 0 <= p ->
  exists x y, potential_profit r p cost = Ok x /\ current_profit r stake p cost = Ok y /\ y <= x.
Proof.
  intros r p cost stake Hb Ha Hp. exists (pot_profit r p cost), (reward r p stake - cost).
  rewrite potential_profit_ok, current_profit_ok by (now split). repeat split. unfold pot_profit.
  assert (reward r p stake <= reward r p (pool_threshold r p)); [| qlra].
  destruct (Qc_leb_spec stake (pool_threshold r p)).
  - apply reward_mono_stake; [now split | assumption | assumption].
  - rewrite (reward_flat_above_threshold r p (pool_threshold r p) stake); [apply Qcle_refl | apply Qcle_refl | qlra].
Qed.
(** below saturation, more pledge can mean less reward in the Cardano scheme *)
Theorem C04_cardano_not_monotone_in_pledge : exists (r : rss QcA) (p p' stake x x' : Qc),
  r_scheme r = Cardano /\ 0 < r_thr r /\ 0 <= r_a0 r /\ 0 <= p /\ p < p' /\ p' <= stake /\ stake < r_thr r /\
  pool_reward r p stake = Ok x /\ pool_reward r p' stake = Ok x' /\ x' < x.
Proof.
  exists (ex_rss Cardano), (q 1 100), (q 2 100), (q 2 100),
         (match pool_reward (ex_rss Cardano) (q 1 100) (q 2 100) with Ok x => x | _ => 0 end),
         (match pool_reward (ex_rss Cardano) (q 2 100) (q 2 100) with Ok x => x | _ => 0 end).
  repeat split; vm_compute; try reflexivity; try discriminate.
Qed.

Example C04_example : potential_profit (ex_rss Cardano) (q 1 100) (q 1 1000) = Ok (q 1017 13000) /\ potential_profit (ex_rss Cardano) (q 1 50) (q 1 1000) = Ok (q 1047 13000) /\
  current_profit (ex_rss Cardano) (q 1 20) (q 1 50) (q 1 1000) = Ok (q 511 13000).
Proof. repeat split; qc_ex. Qed.

(** * C05: a pool with pledge [pledge] and delegations [ds] *)
Theorem C05_split_exact : forall (r : rss QcA) (pledge margin cost : Qc) (ds : list Qc),
  0 < r_thr r -> 0 <= r_a0 r -> 0 <= margin -> margin <= 1 -> 0 <= pledge -> (forall d, In d ds -> 0 <= d) ->
  let stake := pledge + fold_right Qcplus 0 ds in
  0 < stake ->
  exists reward op dels,
    pool_reward r pledge stake = Ok reward /\
    operator_utility r stake pledge margin cost = Ok op /\
    mapM (fun d => delegator_utility r d stake pledge margin cost) ds = Ok dels /\
    op + fold_right Qcplus 0 dels = reward - cost.
Proof.
  intros r pledge margin cost ds Hb Ha Hm0 Hm1 Hp Hd stake Hs.
  assert (Hs0 := Qc_pos_neq _ Hs).
  set (R := reward r pledge stake).
  set (dels := map (fun d => Qcmax ((1 - margin) * (d / stake) * (R - cost)) 0) ds).
  exists R, (if Qc_leb (R - cost) 0 then R - cost else (R - cost) * (margin + (1 - margin) * (pledge / stake))), dels.
  split; [now apply pool_reward_ok|]. split.
  { unfold operator_utility. rewrite pool_reward_ok by (now split). cbn [bind]. rewrite pdiv_ok by assumption. reflexivity. }
  split.
  { subst dels. clearbody stake. clear Hd. induction ds as [|d ds IH]; [reflexivity|].
    cbn [mapM map]. unfold delegator_utility at 1. rewrite pool_reward_ok by (now split). cbn [bind]. rewrite pdiv_ok by assumption. cbn [bind].
    rewrite IH. cbn [bind]. rewrite delegator_reward_eq. reflexivity. }
  subst dels. clearbody R.
  destruct (Qc_leb_spec (R - cost) 0) as [HR|HR].
  - enough (fold_right Qcplus 0 (map (fun d => Qcmax ((1 - margin) * (d / stake) * (R - cost)) 0) ds) = 0) as -> by ring.
    clearbody stake. induction ds as [|d ds IH]; [reflexivity|]. cbn [map fold_right]. rewrite IH by (intros; apply Hd; now right).
    assert (0 <= d / stake) by (apply Qcdiv_nonneg; [apply Hd; now left | assumption]).
    assert (0 <= (1 - margin) * (d / stake)) by (apply Qcmult_nonneg; qlra).
    unfold Qcmax. qcase; [ring|]. exfalso. set (y := (1 - margin) * (d / stake)) in *. clearbody y. qnra.
  - assert (E : fold_right Qcplus 0 (map (fun d => Qcmax ((1 - margin) * (d / stake) * (R - cost)) 0) ds)
            = (1 - margin) * (R - cost) * (fold_right Qcplus 0 ds / stake)).
    { clearbody stake. induction ds as [|d ds IH]; cbn [map fold_right].
      - field. assumption.
      - rewrite IH by (intros; apply Hd; now right).
        assert (0 <= d / stake) by (apply Qcdiv_nonneg; [apply Hd; now left | assumption]).
        assert (0 <= (1 - margin) * (d / stake)) by (apply Qcmult_nonneg; qlra).
        assert (0 <= (1 - margin) * (d / stake) * (R - cost)) by (apply Qcmult_nonneg; qlra).
        replace (Qcmax ((1 - margin) * (d / stake) * (R - cost)) 0) with ((1 - margin) * (d / stake) * (R - cost)).
        + field. assumption.
        + unfold Qcmax. qcase; [qlra | reflexivity]. }
    rewrite E. replace (fold_right Qcplus 0 ds) with (stake - pledge) by (subst stake; ring). field. assumption.
Qed.
Example C05_example : exists (ds : list Qc), (length ds = 3)%nat /\ (forall d, In d ds -> 0 <= d) /\ 0 < q 1 20 + fold_right Qcplus 0 ds.
Proof.
  exists [q 1 100; q 1 50; 0]. split; [reflexivity|]. split; [| vm_compute; reflexivity].
  intros d [<- | [<- | [<- | []]]]; vm_compute; discriminate.
Qed.

(** * C06 *)
Theorem C06_delegators_never_pay : forall margin cost reward fraction : Qc,
  0 <= margin -> margin <= 1 -> 0 <= fraction ->
  let d := delegator_reward (A := QcA) margin cost reward fraction in
  0 <= d /\ (0 <= reward - cost -> d <= fraction * (reward - cost)) /\
  (reward - cost <= 0 -> d = 0 /\ operator_reward (A := QcA) margin cost reward fraction = reward - cost).
Proof.
  intros margin cost reward fraction Hm0 Hm1 Hf. cbv zeta. rewrite delegator_reward_eq, operator_reward_eq.
  assert (H0 : 0 <= (1 - margin) * fraction) by (apply Qcmult_nonneg; qlra).
  assert (H1 : (1 - margin) * fraction <= fraction).
  { assert (0 <= margin * fraction) by (apply Qcmult_nonneg; qlra). replace ((1 - margin) * fraction) with (fraction - margin * fraction) by ring. qlra. }
  set (y := (1 - margin) * fraction) in *. clearbody y.
  split; [apply Qcmax_r|]. split.
  - intros H. apply Qcmax_lub; [apply Qcmult_le_r; assumption | apply Qcmult_nonneg; assumption].
  - intros H. split.
    + unfold Qcmax. qcase; [reflexivity|]. exfalso. qnra.
    + qcase; [reflexivity | contradiction].
Qed.
Example C06_example : 0 < delegator_reward (A := QcA) (q 1 50) (q 1 1000) (q 1 10) (q 1 4).
Proof. vm_compute. reflexivity. Qed.

(** * C07 *)
(** integer part, towards zero *)
Definition is_int_part (z : Z) (x : Qc) : Prop :=
  (0 <= x -> Qc_ofZ z <= x /\ x < Qc_ofZ z + 1) /\ (x <= 0 -> x <= Qc_ofZ z /\ Qc_ofZ z - 1 < x).
Lemma Qc_trunc_spec x : is_int_part (Qc_trunc x) x.
Proof.
  unfold is_int_part, Qc_trunc, Qc_ofZ. destruct x as [[n d] Hx]. unfold this.
  pose proof (this_Q2Qc (inject_Z (Qnum (n # d) ÷ Z.pos (Qden (n # d))))) as E. cbn [Qnum Qden] in *.
  set (z := (n ÷ Z.pos d)%Z) in *.
  assert (Hq := Z.quot_rem' n (Z.pos d)).
  split; intros H; unfold Qcle, Qclt in *; cbn [this] in *; change (this 0) with 0%Q in *.
  - assert (Hn : (0 <= n)%Z) by (unfold Qle in H; cbn in H; lia).
    pose proof (Z.rem_bound_pos n (Z.pos d) Hn ltac:(lia)). fold z in Hq.
    split; [| rewrite this_plus]; rewrite E; unfold Qle, Qlt; cbn; nia.
  - assert (Hn : (n <= 0)%Z) by (unfold Qle in H; cbn in H; lia).
    pose proof (Z.rem_bound_pos (- n) (Z.pos d) ltac:(lia) ltac:(lia)) as Hr. rewrite Z.rem_opp_l' in Hr. fold z in Hq.
    split; [| rewrite this_minus]; rewrite E; unfold Qle, Qlt; cbn; nia.
Qed.

(** an assignment statement; a caller that catches the exception keeps the old object *)
Definition assign_k (r : rss QcA) (v : Qc) : rss QcA := match set_k r v with Ok r' => r' | Err _ => r end.
Theorem C07_k_and_threshold : forall (r : rss QcA) (before after : list Qc) (v : Qc),
  v <> 0 -> (forall x, In x after -> x = 0) ->
  let r' := fold_left assign_k (before ++ v :: after) r in
  r_thr r' = 1 / v /\ is_int_part (r_k r') v /\ r_a0 r' = r_a0 r /\ r_scheme r' = r_scheme r.
Proof.
  intros r before after v Hv Ha. cbv zeta. rewrite fold_left_app. cbn [fold_left].
  assert (Ekeep : forall r0, r_a0 (fold_left assign_k before r0) = r_a0 r0 /\ r_scheme (fold_left assign_k before r0) = r_scheme r0).
  { clear. induction before as [|x l IH]; intros; cbn; [split; reflexivity|]. destruct (IH (assign_k r0 x)) as [-> ->].
    unfold assign_k, set_k. destruct (@eqb QcA x zero); [split; reflexivity|]. unfold pdiv. destruct (@eqb QcA x zero); split; reflexivity. }
  destruct (Ekeep r) as [Ea Es].
  set (r0 := fold_left assign_k before r) in *. clearbody r0.
  assert (E0 : fold_left assign_k after (assign_k r0 v) = assign_k r0 v).
  { generalize (assign_k r0 v). clear r0 Ea Es. induction after as [|x l IH]; intros r1; cbn; [reflexivity|].
    rewrite (Ha x) by (now left). change (assign_k r1 0) with r1. apply IH. intros; apply Ha; now right. }
  rewrite E0. unfold assign_k, set_k.
  change (@eqb QcA v zero) with (Qc_eqb v 0). destruct (Qc_eqb_spec v 0); [contradiction|].
  rewrite pdiv_ok by assumption. cbn [bind r_thr r_k r_a0 r_scheme].
  repeat split; try assumption; apply Qc_trunc_spec; assumption.
Qed.
Theorem C07_zero_rejected : forall r : rss QcA, set_k r 0 = Err ValueError.
Proof. reflexivity. Qed.
Theorem C07_k_saturated_pools_hold_everything : forall (r r' : rss QcA) (k : Z),
  k <> 0%Z -> set_k r (Qc_ofZ k) = Ok r' -> r_k r' = k /\ Qc_ofZ k * r_thr r' = 1.
Proof.
  intros r r' k Hk. unfold set_k.
  assert (Hk0 : Qc_ofZ k <> 0).
  { unfold Qc_ofZ. intros E. apply Qc_eq_iff in E. rewrite this_Q2Qc in E. unfold Qeq in E. cbn in E. lia. }
  change (@eqb QcA (Qc_ofZ k) zero) with (Qc_eqb (Qc_ofZ k) 0). destruct (Qc_eqb_spec (Qc_ofZ k) 0); [contradiction|].
  rewrite pdiv_ok by assumption. cbn [bind]. intros [= <-]. cbn [r_thr r_k]. split.
  - unfold trunc, QcA, Qc_trunc. unfold Qc_ofZ. unfold Q2Qc, this.
    assert (Qred (inject_Z k) = inject_Z k) as ->. { unfold Qred, inject_Z. pose proof (Z.ggcd_gcd k 1). pose proof (Z.ggcd_correct_divisors k 1).
      destruct (Z.ggcd k 1) as [g [a b]]. cbn in *. rewrite Z.gcd_1_r in H. subst g. destruct H0 as [-> E]. rewrite !Z.mul_1_l in *. subst b. reflexivity. }
    cbn. apply Z.quot_1_r.
  - change (@div QcA (@total_R QcA) (Qc_ofZ k)) with (1 / Qc_ofZ k). field. assumption.
Qed.
Example C07_example : r_thr (fold_left assign_k ([q 5 1; 0] ++ q 21 2 :: [0; 0]) (ex_rss Cardano)) = q 2 21.
Proof. qc_ex. Qed.

(** * C08 *)
Theorem C08_suitable_margin : forall pp target : Qc, 0 <= target ->
  exists m, suitable_margin (A := QcA) pp target = Ok m /\ 0 <= m /\ m <= 1 /\
    (0 < pp -> (target <= pp -> desirability (A := QcA) m pp = target) /\ (pp <= target -> m = 0 /\ desirability (A := QcA) m pp = pp)) /\
    (pp <= 0 -> m = 0 /\ desirability (A := QcA) m pp = 0).
Proof.
  intros pp t Ht. rewrite suitable_margin_ok. eexists. split; [reflexivity|].
  destruct (Qc_ltb_spec 0 pp) as [H|H].
  - assert (Hd : 0 <= t / pp) by (now apply Qcdiv_nonneg). assert (Hm := Qcdiv_mul t pp (Qc_pos_neq _ H)).
    rewrite desirability_eq.
    split; [apply Qcmax_r|]. split; [apply Qcmax_lub; qlra|]. split; [intros _; split|].
    + intros Hle. assert (t / pp <= 1) by (apply Qcdiv_le; [assumption | qlra]).
      set (u := t / pp) in *. clearbody u.
      replace (Qcmax (1 - u) 0) with (1 - u) by (unfold Qcmax; qcase; qlra).
      replace ((1 - (1 - u)) * pp) with t by (rewrite <- Hm; ring). unfold Qcmax. qcase; qlra.
    + intros Hle. assert (1 <= t / pp) by (apply Qcdiv_ge; [assumption | qlra]).
      set (u := t / pp) in *. clearbody u.
      replace (Qcmax (1 - u) 0) with 0 by (unfold Qcmax; qcase; qlra).
      split; [reflexivity|]. replace ((1 - 0) * pp) with pp by ring. unfold Qcmax. qcase; qlra.
    + intros; exfalso; qlra.
  - split; [qlra|]. split; [qlra|]. split; [intros; contradiction|]. intros Hle. split; [reflexivity|].
    rewrite desirability_eq. replace ((1 - 0) * pp) with pp by ring. unfold Qcmax. qcase; [reflexivity | qlra].
Qed.
(** no larger margin reaches the target *)
Theorem C08_margin_is_highest : forall pp target m m' : Qc, 0 < pp -> 0 < target -> target <= pp ->
  suitable_margin (A := QcA) pp target = Ok m -> m < m' -> desirability (A := QcA) m' pp < target.
Proof.
  intros pp t m m' Hpp H0t Ht. rewrite suitable_margin_ok. destruct (Qc_ltb_spec 0 pp); [| contradiction]. intros [= <-] Hm.
  assert (Hd := Qcdiv_mul t pp (Qc_pos_neq _ Hpp)).
  assert (Hl := Qcmax_l (1 - t / pp) 0). rewrite desirability_eq.
  set (u := t / pp) in *. clearbody u. set (mm := Qcmax (1 - u) 0) in *. clearbody mm. unfold Qcmax. qcase; qnra.
Qed.
Example C08_example : suitable_margin (A := QcA) (q 1 10) (q 8 100) = Ok (q 1 5).
Proof. qc_ex. Qed.

(** * C09 *)
Theorem C09_pledge_per_pool : forall (stake thr : Qc) (n : Z), (0 < n)%Z ->
  exists x, pledge_per_pool (A := QcA) stake thr n = Ok x /\ Qc_ofZ n * x <= stake /\ x <= thr /\ (Qc_ofZ n * x = stake \/ x = thr).
Proof.
  intros stake thr n Hn. assert (Hz := Qc_ofZ_pos n Hn). unfold pledge_per_pool.
  destruct (Z.leb_spec n 0); [lia|]. change (@ofZ QcA n) with (Qc_ofZ n). rewrite pdiv_ok by (now apply Qc_pos_neq). cbn [bind].
  rewrite pmin_min. eexists; split; [reflexivity|].
  assert (Hd := Qcdiv_mul stake (Qc_ofZ n) (Qc_pos_neq _ Hz)). set (u := stake / Qc_ofZ n) in *. set (z := Qc_ofZ n) in *. clearbody u z.
  unfold Qcmin. qcase.
  - split; [qlra|]. split; [assumption|]. left. rewrite <- Hd. ring.
  - split; [| split; [apply Qcle_refl | now right]]. assert (thr <= u) by qlra. rewrite <- Hd. rewrite (Qcmult_comm u). apply Qcmult_le_l; qlra.
Qed.
Theorem C09_pledge_rejects : forall (stake thr : Qc) (n : Z), (n <= 0)%Z -> pledge_per_pool (A := QcA) stake thr n = Err ValueError.
Proof. intros. unfold pledge_per_pool. destruct (Z.leb_spec n 0); [reflexivity | lia]. Qed.
Theorem C09_cost_per_pool : forall (cost fraction : Qc) (n : Z), (0 < n)%Z ->
  exists x, cost_per_pool (A := QcA) n cost fraction = Ok x /\ Qc_ofZ n * x = cost + Qc_ofZ (n - 1) * fraction * cost.
Proof.
  intros cost f n Hn. assert (Hz := Qc_ofZ_pos n Hn). unfold cost_per_pool. change (@ofZ QcA) with Qc_ofZ.
  rewrite pdiv_ok by (now apply Qc_pos_neq). eexists; split; [reflexivity|].
  rewrite Qcmult_comm. rewrite Qcdiv_mul by (now apply Qc_pos_neq). reflexivity.
Qed.
Example C09_example : pledge_per_pool (A := QcA) (q 1 4) (q 1 10) 3 = Ok (q 1 12) /\ pledge_per_pool (A := QcA) (q 1 4) (q 1 10) 2 = Ok (q 1 10).
Proof. split; qc_ex. Qed.

(** * C49 *)
Definition is_power (pow : Qc -> Qc -> Qc) : Prop := (forall x, pow x 1 = x) /\ (forall x, x <> 0 -> pow x 0 = 1).
Theorem C49_curve_root_one_is_cardano : forall (pow : Qc -> Qc -> Qc) (k : Z) (thr a0 crossover pledge stake : Qc),
  is_power pow -> thr <> 0 -> crossover <> 0 ->
  curve_reward (A := QcA) pow thr a0 crossover 1 pledge stake = pool_reward (mkRss (A := QcA) Cardano k a0 thr) pledge stake.
Proof.
  intros pow k thr a0 cf pledge stake [P1 P0] Ht Hc. unfold curve_reward, pool_reward. cbn [r_scheme r_thr r_a0].
  change (@one QcA) with 1. rewrite (pdiv_ok thr cf), (pdiv_ok 1 1), (pdiv_ok (@sub QcA 1 1) 1) by (assumption || discriminate). cbn [bind].
  replace (1 / 1) with 1 by (field; discriminate).
  replace (@sub QcA 1 1 / 1) with 0 by (cbn; field; discriminate).
  rewrite P1, P0 by (intros E; apply Ht; rewrite <- (Qcdiv_mul thr cf Hc), E; ring).
  change (@mul QcA pledge 1) with (pledge * 1). rewrite Qcmult_1_r. reflexivity.
Qed.
Example C49_example : is_power (fun x e => if Qc_eqb e 1 then x else 1).
Proof. split; intros; reflexivity. Qed.

Print Assumptions C01_reward_bounded. Print Assumptions C02_epoch_budget. Print Assumptions C03_monotone_in_stake.
Print Assumptions C03_flat_above_saturation. Print Assumptions C03_strict_below_saturation. Print Assumptions C04_potential_profit_monotone_in_pledge.
Print Assumptions C04_potential_profit_cost. Print Assumptions C04_potential_profit_is_maximal. Print Assumptions C04_cardano_not_monotone_in_pledge.
Print Assumptions C05_split_exact. Print Assumptions C06_delegators_never_pay. Print Assumptions C07_k_and_threshold. Print Assumptions C07_zero_rejected.
Print Assumptions C07_k_saturated_pools_hold_everything. Print Assumptions C08_suitable_margin. Print Assumptions C08_margin_is_highest.
Print Assumptions C09_pledge_per_pool. Print Assumptions C09_pledge_rejects. Print Assumptions C09_cost_per_pool. Print Assumptions C49_curve_root_one_is_cardano.
