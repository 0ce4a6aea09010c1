(** Facts about the reward schemes and the numeric helpers in exact arithmetic. *)
From Coq Require Import ZArith List Bool QArith Qcanon Lqa Lia.
From Verif Require Import Num Py QcTac Rewards.
Import ListNotations.
Local Open Scope Qc_scope.

(** minimum and maximum of rationals, stated without Python's tie rule *)
Definition Qcmin (x y : Qc) : Qc := if Qc_leb x y then x else y.
Definition Qcmax (x y : Qc) : Qc := if Qc_leb x y then y else x.

Lemma pmin_min x y : @pmin QcA x y = Qcmin x y.
Proof. unfold pmin, Qcmin; cbn. qcase; try reflexivity; qlra. Qed.
Lemma pmax_max x y : @pmax QcA x y = Qcmax x y.
Proof. unfold pmax, Qcmax; cbn. qcase; try reflexivity; qlra. Qed.
Lemma Qcmin_l x y : Qcmin x y <= x.  Proof. unfold Qcmin; qcase; qlra. Qed.
Lemma Qcmin_r x y : Qcmin x y <= y.  Proof. unfold Qcmin; qcase; qlra. Qed.
Lemma Qcmin_glb x y z : z <= x -> z <= y -> z <= Qcmin x y.  Proof. unfold Qcmin; qcase; auto. Qed.
Lemma Qcmin_pos x y : 0 < x -> 0 < y -> 0 < Qcmin x y.  Proof. unfold Qcmin; qcase; auto. Qed.
Lemma Qcmin_mono x x' y : x <= x' -> Qcmin x y <= Qcmin x' y.  Proof. unfold Qcmin; qcase; intros; qlra. Qed.
Lemma Qcmin_id x y : x <= y -> Qcmin x y = x.  Proof. unfold Qcmin; qcase; intros; qlra. Qed.
Lemma Qcmin_id_r x y : y <= x -> Qcmin x y = y.  Proof. unfold Qcmin; qcase; intros; qlra. Qed.
Lemma Qcmax_l x y : x <= Qcmax x y.  Proof. unfold Qcmax; qcase; qlra. Qed.
Lemma Qcmax_r x y : y <= Qcmax x y.  Proof. unfold Qcmax; qcase; qlra. Qed.
Lemma Qcmax_lub x y z : x <= z -> y <= z -> Qcmax x y <= z.  Proof. unfold Qcmax; qcase; auto. Qed.
Lemma Qcmax_mono x x' y : x <= x' -> Qcmax x y <= Qcmax x' y.  Proof. unfold Qcmax; qcase; intros; qlra. Qed.

Lemma pdiv_ok (x y : Qc) : y <> 0 -> @pdiv QcA x y = Ok (x / y).
Proof. intros. unfold pdiv; cbn. destruct (Qc_eqb_spec y 0); [contradiction | reflexivity]. Qed.
Lemma pdiv_zero (x : Qc) : @pdiv QcA x 0 = Err ZeroDivisionError.
Proof. reflexivity. Qed.
Lemma Qcdiv_mul x y : y <> 0 -> (x / y) * y = x.
Proof. intros. field. assumption. Qed.
Lemma Qc_pos_neq x : 0 < x -> x <> 0.  Proof. intros; qlra. Qed.
Lemma Qcmult_nonneg x y : 0 <= x -> 0 <= y -> 0 <= x * y.  Proof. intros; qnra. Qed.
Lemma Qcmult_pos x y : 0 < x -> 0 < y -> 0 < x * y.  Proof. intros; qnra. Qed.
Lemma Qcmult_le_l x y z : 0 <= x -> y <= z -> x * y <= x * z.  Proof. intros; qnra. Qed.
Lemma Qcmult_le_r x y z : 0 <= x -> y <= z -> y * x <= z * x.  Proof. intros; qnra. Qed.
Lemma Qcdiv_nonneg x y : 0 <= x -> 0 < y -> 0 <= x / y.
Proof. intros. pose proof (Qcdiv_mul x y (Qc_pos_neq _ H0)). qnra. Qed.
Lemma Qcdiv_pos x y : 0 < x -> 0 < y -> 0 < x / y.
Proof. intros. pose proof (Qcdiv_mul x y (Qc_pos_neq _ H0)). qnra. Qed.
Lemma Qcdiv_le x y z : 0 < y -> x <= z * y -> x / y <= z.
Proof. intros. pose proof (Qcdiv_mul x y (Qc_pos_neq _ H)). qnra. Qed.
Lemma Qcdiv_ge x y z : 0 < y -> z * y <= x -> z <= x / y.
Proof. intros. pose proof (Qcdiv_mul x y (Qc_pos_neq _ H)). qnra. Qed.
Lemma Qcdiv_mono x x' y : 0 < y -> x <= x' -> x / y <= x' / y.
Proof. intros. apply Qcdiv_le; [assumption|]. rewrite Qcdiv_mul by (now apply Qc_pos_neq). assumption. Qed.

(** integers as rationals *)
Lemma this_ofZ n : (this (Qc_ofZ n) == inject_Z n)%Q.
Proof. apply this_Q2Qc. Qed.
Lemma Qc_ofZ_add a b : Qc_ofZ (a + b) = Qc_ofZ a + Qc_ofZ b.
Proof. apply Qc_is_canon. rewrite this_plus, !this_ofZ. now rewrite inject_Z_plus. Qed.
Lemma Qc_ofZ_mul a b : Qc_ofZ (a * b) = Qc_ofZ a * Qc_ofZ b.
Proof. apply Qc_is_canon. rewrite this_mult, !this_ofZ. now rewrite inject_Z_mult. Qed.
Lemma Qc_ofZ_le a b : (a <= b)%Z -> Qc_ofZ a <= Qc_ofZ b.
Proof. intros. unfold Qcle. rewrite !this_ofZ. now rewrite <- Zle_Qle. Qed.
Lemma Qc_ofZ_lt a b : (a < b)%Z -> Qc_ofZ a < Qc_ofZ b.
Proof. intros. unfold Qclt. rewrite !this_ofZ. now rewrite <- Zlt_Qlt. Qed.
Lemma Qc_ofZ_le_inv a b : Qc_ofZ a <= Qc_ofZ b -> (a <= b)%Z.
Proof. intros H. unfold Qcle in H. rewrite !this_ofZ in H. now rewrite <- Zle_Qle in H. Qed.
Lemma Qc_ofZ_lt_inv a b : Qc_ofZ a < Qc_ofZ b -> (a < b)%Z.
Proof. intros H. unfold Qclt in H. rewrite !this_ofZ in H. now rewrite <- Zlt_Qlt in H. Qed.
Lemma Qc_ofZ_0 : Qc_ofZ 0 = 0.  Proof. now apply Qc_is_canon. Qed.
Lemma Qc_ofZ_1 : Qc_ofZ 1 = 1.  Proof. now apply Qc_is_canon. Qed.
Lemma Qc_ofZ_pos n : (0 < n)%Z -> 0 < Qc_ofZ n.
Proof. intros. rewrite <- Qc_ofZ_0. now apply Qc_ofZ_lt. Qed.

(** A reward scheme with a positive saturation threshold and a0 >= 0 *)
Definition rss_ok (r : rss QcA) : Prop := 0 < r_thr r /\ 0 <= r_a0 r.

(** The reward formulas as mathematical functions of the capped pledge and stake *)
Definition f_cardano (b a0 p s : Qc) : Qc := (1 / (1 + a0)) * (s + p * a0 * ((s - p * (1 - s / b)) / b)).
Definition f_simplified (b a0 p s : Qc) : Qc := (1 / (1 + a0)) * s * (1 + a0 * p / b).
Definition f_flat (b a0 p s : Qc) : Qc := (1 / (1 + a0)) * (s + a0 * p).
Definition reward (r : rss QcA) (pledge stake : Qc) : Qc :=
  let b := r_thr r in let a0 := r_a0 r in
  let p := Qcmin pledge b in let s := Qcmin stake b in
  match r_scheme r with
  | Cardano => f_cardano b a0 p s
  | Simplified => f_simplified b a0 p s
  | Flat => f_flat b a0 p s
  | CIP50 => Qcmin stake (Qcmin (a0 * pledge) b)
  end.

Lemma pool_reward_ok (r : rss QcA) pledge stake : rss_ok r -> pool_reward r pledge stake = Ok (reward r pledge stake).
Proof.
  intros [Hb Ha]. assert (Hb0 := Qc_pos_neq _ Hb). assert (Ha0 : 1 + r_a0 r <> 0) by qlra.
  unfold pool_reward, reward, total_R. rewrite !pmin_min.
  destruct (r_scheme r) eqn:Es; unfold bind.
  - change (@add QcA one (r_a0 r)) with (1 + r_a0 r). rewrite !pdiv_ok by assumption. reflexivity.
  - change (@add QcA one (r_a0 r)) with (1 + r_a0 r). rewrite !pdiv_ok by assumption. reflexivity.
  - change (@add QcA one (r_a0 r)) with (1 + r_a0 r). rewrite !pdiv_ok by assumption. reflexivity.
  - unfold pool_threshold. rewrite Es, !pmin_min. f_equal. cbn. ring.
Qed.

Lemma pool_threshold_eq (r : rss QcA) (pledge : Qc) : pool_threshold r pledge = match r_scheme r with CIP50 => Qcmin (r_a0 r * pledge) (r_thr r) | _ => r_thr r end.
Proof. unfold pool_threshold. destruct (r_scheme r); try reflexivity. apply pmin_min. Qed.

(** ** C01 *)
Lemma f_cardano_bounds b a0 p s : 0 < b -> 0 <= a0 -> 0 <= p -> p <= s -> s <= b -> 0 <= f_cardano b a0 p s /\ f_cardano b a0 p s <= s.
Proof.
  intros Hb Ha Hp Hps Hsb. unfold f_cardano.
  assert (Hc := Qcdiv_mul 1 (1 + a0) ltac:(qlra)). assert (Hu := Qcdiv_mul s b (Qc_pos_neq _ Hb)).
  assert (Hv := Qcdiv_mul (s - p * (1 - s / b)) b (Qc_pos_neq _ Hb)).
  assert (Hc0 : 0 < 1 / (1 + a0)) by (apply Qcdiv_pos; qlra).
  assert (Hu0 : 0 <= s / b) by (apply Qcdiv_nonneg; qlra). assert (Hu1 : s / b <= 1) by (apply Qcdiv_le; qlra).
  set (c := 1 / (1 + a0)) in *. set (u := s / b) in *. set (v := (s - p * (1 - u)) / b) in *.
  clearbody c u v.
  assert (Hv0 : 0 <= v) by qnra.
  assert (Hpv : p * v <= s) by qnra.
  assert (Hpv0 : 0 <= p * v) by (now apply Qcmult_nonneg).
  replace (c * (s + p * a0 * v)) with (c * s + c * a0 * (p * v)) by ring.
  assert (Hca : 0 <= c * a0) by (apply Qcmult_nonneg; qlra).
  assert (H1 : c * a0 * (p * v) <= c * a0 * s) by (now apply Qcmult_le_l).
  assert (H2 : 0 <= c * a0 * (p * v)) by (now apply Qcmult_nonneg).
  assert (H3 : c * s + c * a0 * s = s) by (transitivity (c * (1 + a0) * s); [ring | rewrite Hc; ring]).
  assert (H4 : 0 <= c * s) by (apply Qcmult_nonneg; qlra).
  split; qlra.
Qed.

Lemma f_simplified_bounds b a0 p s : 0 < b -> 0 <= a0 -> 0 <= p -> 0 <= s -> p <= b -> 0 <= f_simplified b a0 p s /\ f_simplified b a0 p s <= s.
Proof.
  intros Hb Ha Hp Hs Hpb. unfold f_simplified.
  assert (Hc := Qcdiv_mul 1 (1 + a0) ltac:(qlra)).
  assert (Hc0 : 0 < 1 / (1 + a0)) by (apply Qcdiv_pos; qlra).
  assert (Hq0 : 0 <= a0 * p / b) by (apply Qcdiv_nonneg; [apply Qcmult_nonneg|]; assumption).
  assert (Hq1 : a0 * p / b <= a0) by (apply Qcdiv_le; [assumption | now apply Qcmult_le_l]).
  set (c := 1 / (1 + a0)) in *. set (q := a0 * p / b) in *. clearbody c q.
  assert (H4 : 0 <= c * s) by (apply Qcmult_nonneg; qlra).
  split.
  - apply Qcmult_nonneg; qlra.
  - assert (H : c * s * (1 + q) <= c * s * (1 + a0)) by (apply Qcmult_le_l; qlra).
    replace (c * s * (1 + a0)) with (c * (1 + a0) * s) in H by ring. rewrite Hc in H. qlra.
Qed.

Lemma f_flat_bounds b a0 p s : 0 < b -> 0 <= a0 -> 0 <= p -> p <= s -> 0 <= f_flat b a0 p s /\ f_flat b a0 p s <= s.
Proof.
  intros Hb Ha Hp Hps. unfold f_flat.
  assert (Hc := Qcdiv_mul 1 (1 + a0) ltac:(qlra)).
  assert (Hc0 : 0 < 1 / (1 + a0)) by (apply Qcdiv_pos; qlra).
  set (c := 1 / (1 + a0)) in *. clearbody c.
  assert (0 <= a0 * p) by (now apply Qcmult_nonneg).
  split.
  - apply Qcmult_nonneg; qlra.
  - assert (H1 : a0 * p <= a0 * s) by (now apply Qcmult_le_l).
    assert (H2 : c * (s + a0 * p) <= c * (s + a0 * s)) by (apply Qcmult_le_l; qlra).
    replace (c * (s + a0 * s)) with (c * (1 + a0) * s) in H2 by ring. rewrite Hc in H2. qlra.
Qed.

Lemma reward_bounds (r : rss QcA) pledge stake : rss_ok r -> 0 <= pledge -> pledge <= stake ->
  0 <= reward r pledge stake /\ reward r pledge stake <= Qcmin stake (r_thr r).
Proof.
  intros [Hb Ha] Hp Hps. unfold reward.
  set (b := r_thr r) in *.
  assert (H0p : 0 <= Qcmin pledge b) by (apply Qcmin_glb; qlra).
  assert (Hmin : Qcmin pledge b <= Qcmin stake b) by (now apply Qcmin_mono).
  assert (Hsb : Qcmin stake b <= b) by apply Qcmin_r.
  destruct (r_scheme r).
  - now apply f_cardano_bounds.
  - apply f_simplified_bounds; try assumption; try qlra. 
  - now apply f_flat_bounds.
  - assert (0 <= r_a0 r * pledge) by (now apply Qcmult_nonneg).
    split; [repeat apply Qcmin_glb; qlra|].
    apply Qcmin_glb; [apply Qcmin_l|]. eapply Qcle_trans; [apply Qcmin_r | apply Qcmin_r].
Qed.

(** ** C03 *)
Lemma f_cardano_mono b a0 p s s' : 0 < b -> 0 <= a0 -> 0 <= p -> p <= b -> s <= s' -> f_cardano b a0 p s <= f_cardano b a0 p s'.
Proof.
  intros Hb Ha Hp Hpb Hs. unfold f_cardano.
  assert (Hc0 : 0 < 1 / (1 + a0)) by (apply Qcdiv_pos; qlra).
  apply Qcmult_le_l; [qlra|].
  assert (H1 : s / b <= s' / b) by (now apply Qcdiv_mono).
  assert (H2 : p * (1 - s' / b) <= p * (1 - s / b)) by (apply Qcmult_le_l; qlra).
  assert (H3 : (s - p * (1 - s / b)) / b <= (s' - p * (1 - s' / b)) / b) by (apply Qcdiv_mono; qlra).
  assert (H4 : 0 <= p * a0) by (now apply Qcmult_nonneg).
  pose proof (Qcmult_le_l _ _ _ H4 H3). qlra.
Qed.
Lemma f_simplified_mono b a0 p s s' : 0 < b -> 0 <= a0 -> 0 <= p -> s <= s' -> f_simplified b a0 p s <= f_simplified b a0 p s'.
Proof.
  intros Hb Ha Hp Hs. unfold f_simplified.
  assert (Hc0 : 0 < 1 / (1 + a0)) by (apply Qcdiv_pos; qlra).
  assert (Hq0 : 0 <= a0 * p / b) by (apply Qcdiv_nonneg; [apply Qcmult_nonneg|]; assumption).
  apply Qcmult_le_r; [qlra|]. apply Qcmult_le_l; qlra.
Qed.
Lemma f_flat_mono b a0 p s s' : 0 <= a0 -> s <= s' -> f_flat b a0 p s <= f_flat b a0 p s'.
Proof.
  intros Ha Hs. unfold f_flat. assert (Hc0 : 0 < 1 / (1 + a0)) by (apply Qcdiv_pos; qlra). apply Qcmult_le_l; qlra.
Qed.
Lemma reward_mono_stake (r : rss QcA) pledge s s' : rss_ok r -> 0 <= pledge -> s <= s' -> reward r pledge s <= reward r pledge s'.
Proof.
  intros [Hb Ha] Hp Hs. unfold reward. set (b := r_thr r) in *.
  assert (H0p : 0 <= Qcmin pledge b) by (apply Qcmin_glb; qlra).
  assert (Hm : Qcmin s b <= Qcmin s' b) by (now apply Qcmin_mono).
  assert (Hpb : Qcmin pledge b <= b) by apply Qcmin_r.
  destruct (r_scheme r).
  - now apply f_cardano_mono.
  - now apply f_simplified_mono.
  - now apply f_flat_mono.
  - now apply Qcmin_mono.
Qed.
Lemma reward_flat_above (r : rss QcA) pledge s : r_thr r <= s -> reward r pledge s = reward r pledge (r_thr r).
Proof.
  intros H. unfold reward. rewrite (Qcmin_id_r s) by assumption. rewrite (Qcmin_id_r (r_thr r)) by qlra.
  destruct (r_scheme r); try reflexivity.
  pose proof (Qcmin_r (r_a0 r * pledge) (r_thr r)).
  rewrite (Qcmin_id_r s), (Qcmin_id_r (r_thr r)) by qlra. reflexivity.
Qed.
Lemma reward_flat_above_threshold (r : rss QcA) (pledge s : Qc) s' : pool_threshold r pledge <= s -> s <= s' -> reward r pledge s' = reward r pledge s.
Proof.
  rewrite pool_threshold_eq. intros H Hs.
  destruct (r_scheme r) eqn:E.
  4: { unfold reward. rewrite E. rewrite (Qcmin_id_r s'), (Qcmin_id_r s) by qlra. reflexivity. }
  all: rewrite (reward_flat_above r pledge s') by qlra; rewrite (reward_flat_above r pledge s) by qlra; reflexivity.
Qed.

(** ** C04 *)
Definition pot_profit (r : rss QcA) (pledge cost : Qc) : Qc := reward r pledge (pool_threshold r pledge) - cost.
Lemma potential_profit_ok (r : rss QcA) pledge cost : rss_ok r -> potential_profit r pledge cost = Ok (pot_profit r pledge cost).
Proof. intros. unfold potential_profit. rewrite pool_reward_ok by assumption. reflexivity. Qed.
Lemma current_profit_ok r stake pledge cost : rss_ok r -> current_profit r stake pledge cost = Ok (reward r pledge stake - cost).
Proof. intros. unfold current_profit. rewrite pool_reward_ok by assumption. reflexivity. Qed.

(** the reward of a saturated pool *)
Lemma reward_saturated (r : rss QcA) pledge : rss_ok r ->
  reward r pledge (pool_threshold r pledge) =
  match r_scheme r with
  | CIP50 => Qcmin (r_a0 r * pledge) (r_thr r)
  | _ => (r_thr r + r_a0 r * Qcmin pledge (r_thr r)) / (1 + r_a0 r)
  end.
Proof.
  intros [Hb Ha]. unfold reward. rewrite pool_threshold_eq.
  assert (1 + r_a0 r <> 0) by qlra. assert (r_thr r <> 0) by qlra.
  destruct (r_scheme r).
  4: { apply Qcmin_id. qlra. }
  all: rewrite (Qcmin_id (r_thr r)) by qlra.
  - unfold f_cardano. field. split; assumption.
  - unfold f_simplified. field. split; assumption.
  - unfold f_flat. field. assumption.
Qed.
Lemma pot_profit_mono (r : rss QcA) p p' cost : rss_ok r -> p <= p' -> pot_profit r p cost <= pot_profit r p' cost.
Proof.
  intros Hr Hp. unfold pot_profit. rewrite !reward_saturated by assumption. destruct Hr as [Hb Ha].
  assert (Hm : Qcmin p (r_thr r) <= Qcmin p' (r_thr r)) by (now apply Qcmin_mono).
  assert (H1 : r_a0 r * Qcmin p (r_thr r) <= r_a0 r * Qcmin p' (r_thr r)) by (now apply Qcmult_le_l).
  assert (H2 : r_a0 r * p <= r_a0 r * p') by (now apply Qcmult_le_l).
  assert (H3 := Qcmin_mono _ _ (r_thr r) H2).
  assert (H4 : (r_thr r + r_a0 r * Qcmin p (r_thr r)) / (1 + r_a0 r) <= (r_thr r + r_a0 r * Qcmin p' (r_thr r)) / (1 + r_a0 r))
    by (apply Qcdiv_mono; qlra).
  destruct (r_scheme r); qlra.
Qed.

(** ** C05 / C06 *)
Lemma operator_reward_eq m c rew f :
  operator_reward (A := QcA) m c rew f = if Qc_leb (rew - c) 0 then rew - c else (rew - c) * (m + (1 - m) * f).
Proof. reflexivity. Qed.
Lemma delegator_reward_eq m c rew f : delegator_reward (A := QcA) m c rew f = Qcmax ((1 - m) * f * (rew - c)) 0.
Proof. unfold delegator_reward. rewrite pmax_max. reflexivity. Qed.

(** ** C08 *)
Lemma suitable_margin_ok pp t : suitable_margin (A := QcA) pp t = Ok (if Qc_ltb 0 pp then Qcmax (1 - t / pp) 0 else 0).
Proof.
  unfold suitable_margin. change (@zero QcA) with 0. change (@ltb QcA) with Qc_ltb.
  destruct (Qc_ltb_spec 0 pp) as [H|H]; cbn [bind].
  - rewrite pdiv_ok by qlra. cbn [bind]. rewrite pmax_max. reflexivity.
  - reflexivity.
Qed.
Lemma desirability_eq m pp : desirability (A := QcA) m pp = Qcmax ((1 - m) * pp) 0.
Proof. unfold desirability. rewrite pmax_max. reflexivity. Qed.
