(** The reward schemes compared with each other (C85). *)
From Coq Require Import ZArith QArith Qcanon List Bool Arith Lia.
From Verif Require Import Num Py QcTac Rewards RewardFacts PropRewards.
Open Scope Qc_scope.

(** the same parameters with another scheme *)
Definition with_scheme (c : scheme) (r : rss QcA) : rss QcA := mkRss c (r_k r) (r_a0 r) (r_thr r).

Lemma with_scheme_ok c r : rss_ok r -> rss_ok (with_scheme c r).  Proof. exact (fun H => H). Qed.

Lemma gap_simplified b a0 p s : 0 < b -> 0 <= a0 -> f_simplified b a0 p s - f_cardano b a0 p s = a0 * (p * p) * (b - s) * (1 / ((1 + a0) * b * b)).
Proof. intros Hb Ha. assert (1 + a0 <> 0) by qlra. assert (b <> 0) by qlra. unfold f_simplified, f_cardano. field. auto. Qed.
Lemma gap_flat b a0 p s : 0 < b -> 0 <= a0 -> f_flat b a0 p s - f_simplified b a0 p s = a0 * p * (b - s) * (1 / ((1 + a0) * b)).
Proof. intros Hb Ha. assert (1 + a0 <> 0) by qlra. assert (b <> 0) by qlra. unfold f_flat, f_simplified. field. auto. Qed.

(** For the same pledge and stake, the Cardano scheme pays at most what the simplified scheme pays, and that at most what the scheme with a flat pledge benefit pays;
    the three pay the same exactly if the pledge has no influence (a0 = 0 or no pledge) or the pool is saturated. *)
Theorem C85_schemes_ordered : forall (r : rss QcA) (pledge stake : Qc), rss_ok r -> 0 <= pledge ->
  exists x y z, pool_reward (with_scheme Cardano r) pledge stake = Ok x /\ pool_reward (with_scheme Simplified r) pledge stake = Ok y /\ pool_reward (with_scheme Flat r) pledge stake = Ok z /\
    x <= y /\ y <= z /\ (x = y <-> r_a0 r = 0 \/ pledge = 0 \/ r_thr r <= stake) /\ (y = z <-> r_a0 r = 0 \/ pledge = 0 \/ r_thr r <= stake).
Proof.
  intros r pledge stake R Hp. do 3 eexists. split; [now apply pool_reward_ok|]. split; [now apply pool_reward_ok|]. split; [now apply pool_reward_ok|].
  unfold reward. cbn [r_scheme r_thr r_a0 with_scheme]. destruct R as [Hb Ha]. set (b := r_thr r) in *. set (a0 := r_a0 r) in *. change (T QcA) with Qc in *. clearbody b a0. clear r.
  set (p := Qcmin pledge b). set (s := Qcmin stake b).
  assert (P : 0 <= p /\ (p = 0 <-> pledge = 0)). { unfold p, Qcmin. destruct (Qc_leb_spec pledge b) as [L|L]; [split; [assumption | reflexivity]|]. apply Qcnot_le_lt in L. split; [qlra|]. split; intros ->; exfalso; qlra. }
  assert (S : s <= b /\ (s = b <-> b <= stake)). { unfold s, Qcmin. destruct (Qc_leb_spec stake b) as [L|L]; [split; [assumption|]; split; [intros ->; apply Qcle_refl | intros; now apply Qcle_antisym]|]. apply Qcnot_le_lt in L. split; [apply Qcle_refl|]. split; [intros _; qlra | reflexivity]. }
  destruct P as [P0 P1], S as [S0 S1]. clearbody p s. rewrite <- P1, <- S1.
  assert (G1 := gap_simplified b a0 p s Hb Ha). assert (G2 := gap_flat b a0 p s Hb Ha). set (x := f_cardano _ _ _ _) in *. set (y := f_simplified _ _ _ _) in *. set (z := f_flat _ _ _ _) in *. clearbody x y z.
  assert (C1 : 0 < 1 / ((1 + a0) * b * b)) by (apply Qcdiv_pos; [qlra|]; repeat apply Qcmult_pos; qlra). assert (C2 : 0 < 1 / ((1 + a0) * b)) by (apply Qcdiv_pos; [qlra|]; apply Qcmult_pos; qlra). set (c1 := 1 / ((1 + a0) * b * b)) in *. set (c2 := 1 / ((1 + a0) * b)) in *. clearbody c1 c2.
  assert (N1 : 0 <= a0 * (p * p) * (b - s) * c1) by (repeat apply Qcmult_nonneg; qlra). assert (N2 : 0 <= a0 * p * (b - s) * c2) by (repeat apply Qcmult_nonneg; qlra).
  split; [rewrite <- G1 in N1; qlra|]. split; [rewrite <- G2 in N2; qlra|]. split.
  - transitivity (a0 * (p * p) * (b - s) * c1 = 0); [rewrite <- G1; split; intros E; qlra|]. split.
    + intros E. apply Qcmult_integral in E as [E|E]; [|exfalso; qlra]. apply Qcmult_integral in E as [E|E]; [|right; right; qlra]. apply Qcmult_integral in E as [E|E]; [now left|]. right; left. apply Qcmult_integral in E as [E|E]; assumption.
    + intros [-> | [-> | ->]]; ring.
  - transitivity (a0 * p * (b - s) * c2 = 0); [rewrite <- G2; split; intros E; qlra|]. split.
    + intros E. apply Qcmult_integral in E as [E|E]; [|exfalso; qlra]. apply Qcmult_integral in E as [E|E]; [|right; right; qlra]. apply Qcmult_integral in E as [E|E]; [now left | now right; left].
    + intros [-> | [-> | ->]]; ring.
Qed.

(** what a pool can earn when it is saturated -- the number pools are ranked by -- does not depend on which of the three schemes is used *)
Theorem C85_same_potential_profit : forall (r : rss QcA) (c c' : scheme) (pledge cost : Qc), rss_ok r -> c <> CIP50 -> c' <> CIP50 -> potential_profit (with_scheme c r) pledge cost = potential_profit (with_scheme c' r) pledge cost.
Proof.
  intros r c c' pledge cost R H H'. rewrite !potential_profit_ok by (now apply with_scheme_ok). unfold pot_profit. rewrite !reward_saturated by (now apply with_scheme_ok). destruct c, c'; reflexivity || congruence.
Qed.

(** ** The scheme of CIP-50 is not comparable with the others: which one pays more depends on the pledge *)
Theorem C85_cip50_incomparable : exists (r : rss QcA) (p p' s x y x' y' : Qc), rss_ok r /\ 0 <= p /\ 0 <= p' /\
  pool_reward (with_scheme CIP50 r) p s = Ok x /\ pool_reward (with_scheme Cardano r) p s = Ok y /\ x < y /\
  pool_reward (with_scheme CIP50 r) p' s = Ok x' /\ pool_reward (with_scheme Flat r) p' s = Ok y' /\ y' < x'.
Proof.
  set (r := mkRss (A := QcA) Cardano 10 (Q2Qc 3) (Q2Qc (1#10))). assert (R : rss_ok r) by (split; [reflexivity | discriminate]).
  exists r, 0, (Q2Qc (1#30)), (Q2Qc (1#10)). do 4 eexists. split; [exact R|]. split; [discriminate|]. split; [discriminate|]. split; [now apply pool_reward_ok|]. split; [now apply pool_reward_ok|]. split; [vm_compute; reflexivity|].
  split; [now apply pool_reward_ok|]. split; [now apply pool_reward_ok|]. vm_compute. reflexivity.
Qed.
(** the order is strict where it should be *)
Example C85_instance : exists x y z : Qc, rss_ok (mkRss (A := QcA) Cardano 10 (Q2Qc (3#10)) (Q2Qc (1#10))) /\ pool_reward (A := QcA) (mkRss (A := QcA) Cardano 10 (Q2Qc (3#10)) (Q2Qc (1#10))) (Q2Qc (1#50)) (Q2Qc (1#20)) = Ok x /\
  pool_reward (A := QcA) (mkRss (A := QcA) Simplified 10 (Q2Qc (3#10)) (Q2Qc (1#10))) (Q2Qc (1#50)) (Q2Qc (1#20)) = Ok y /\ pool_reward (A := QcA) (mkRss (A := QcA) Flat 10 (Q2Qc (3#10)) (Q2Qc (1#10))) (Q2Qc (1#50)) (Q2Qc (1#20)) = Ok z /\ x < y /\ y < z.
Proof.
  do 3 eexists. split; [split; [reflexivity | discriminate]|]. split; [apply pool_reward_ok; split; [reflexivity | discriminate]|]. split; [apply pool_reward_ok; split; [reflexivity | discriminate]|]. split; [apply pool_reward_ok; split; [reflexivity | discriminate]|]. split; vm_compute; reflexivity.
Qed.
