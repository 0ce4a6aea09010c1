(** C81: the truncated Pareto distribution of stake, and the distributions of cost *)
From Coq Require Import ZArith QArith Qcanon List Bool Arith Lia Permutation.
From Verif Require Import Num Py QcTac Rewards World Init Reporters PropHelper PropReporters Distributions ListFacts RewardFacts PropInit.
Import ListNotations.
Open Scope Qc_scope.

(** no value exceeds the 1/factor-th part of the whole *)
Definition truncated (factor : Qc) (l : list Qc) : Prop := forall x, In x l -> x <= Qc_sum l / factor.
(** the smallest stake of a Pareto distribution of mode 1 *)
Definition above_mode (l : list Qc) : Prop := forall x, In x l -> 1 <= x.

Lemma sum_bounds (l : list Qc) lo hi : (forall x, In x l -> lo <= x) -> (forall x, In x l -> x <= hi) -> Qc_ofZ (Z.of_nat (length l)) * lo <= Qc_sum l /\ Qc_sum l <= Qc_ofZ (Z.of_nat (length l)) * hi.
Proof.
  induction l as [|x l IH]; intros L H.
  - cbn [length]. change (Qc_ofZ (Z.of_nat 0)) with 0. change (Qc_sum []) with 0. rewrite !Qcmult_0_l. split; apply Qcle_refl.
  - destruct IH as [I1 I2]; [intros; apply L; now right | intros; apply H; now right|]. cbn [length]. change (Qc_sum (x :: l)) with (x + Qc_sum l).
    rewrite Nat2Z.inj_succ, <- Z.add_1_r, Qc_ofZ_add. change (Qc_ofZ 1) with 1. set (m := Qc_ofZ (Z.of_nat (length l))) in *.
    assert (J1 := L x (or_introl eq_refl)). assert (J2 := H x (or_introl eq_refl)). replace ((m + 1) * lo) with (m * lo + lo) by ring. replace ((m + 1) * hi) with (m * hi + hi) by ring. split; qlra.
Qed.
Lemma remove_first_perm x (l : list Qc) : In x l -> Permutation l (x :: remove_first (A := QcA) x l).
Proof.
  induction l as [|y l IH]; [intros []|]. intros J. cbn [remove_first]. cbn [eqb QcA]. destruct (Qc_eqb_spec y x) as [->|N]; [reflexivity|]. destruct J as [->|J]; [now exfalso|].
  rewrite perm_swap. constructor. now apply IH.
Qed.

(** one iteration of the loop *)
Lemma truncate_step draw fuel i (sample : list Qc) (factor : Qc) : sample <> [] -> 0 < factor ->
  exists m, In m sample /\ (forall y, In y sample -> y <= m) /\
    truncate (A := QcA) draw fuel i sample factor =
      if Qc_ltb (Qc_sum sample / factor) m then match fuel with O => Err OutOfFuel | S fuel' => truncate (A := QcA) draw fuel' (S i) (remove_first (A := QcA) m sample ++ [(draw i + 1) * 1]) factor end else Ok sample.
Proof.
  intros Ne F. destruct (max_of_ok sample Ne) as (m & E & J & M). exists m. split; [assumption|]. split; [assumption|].
  assert (F0 : factor <> 0) by (intros C; subst; now apply Qclt_not_eq in F).
  destruct fuel; cbn [truncate]; rewrite E; cbn [bind]; rewrite pdiv_ok by assumption; cbn [bind]; rewrite psum_sum; reflexivity.
Qed.
Lemma step_length (draw : Qc) m (l : list Qc) : In m l -> length (remove_first (A := QcA) m l ++ [draw]) = length l.
Proof. intros J. rewrite app_length. rewrite (Permutation_length (remove_first_perm m l J)). cbn [length]. change (T QcA) with Qc. lia. Qed.
Lemma step_above m (l : list Qc) (d : Qc) : In m l -> 0 <= d -> above_mode l -> above_mode (remove_first (A := QcA) m l ++ [(d + 1) * 1]).
Proof.
  intros J D H x Hx. apply in_app_iff in Hx as [Hx|[<-|[]]]; [|change (1 <= (d + 1) * 1); rewrite Qcmult_1_r; qlra].
  apply H. apply (Permutation_in (l := m :: remove_first (A := QcA) m l)); [symmetry; now apply remove_first_perm | now right].
Qed.

(** If the truncation ends, it gives a sample of the same size, all of it above the mode, in which no one has more than the given part of the whole. *)
Theorem C81_truncated_when_it_returns (draw : nat -> Qc) fuel i (sample l : list Qc) (factor : Qc) :
  0 < factor -> (forall j, 0 <= draw j) -> above_mode sample ->
  truncate (A := QcA) draw fuel i sample factor = Ok l ->
  length l = length sample /\ above_mode l /\ truncated factor l /\ (truncated factor sample -> l = sample).
Proof.
  intros F D. revert i sample. induction fuel as [|fuel IH]; intros i sample AM H.
  all: destruct (list_eq_dec Qc_eq_dec sample []) as [->|Ne]; [cbn in H; discriminate|].
  all: match type of H with truncate _ ?f _ _ _ = _ => destruct (truncate_step draw f i sample factor Ne F) as (m & J & M & E) end; rewrite E in H; clear E.
  all: destruct (Qc_ltb_spec (Qc_sum sample / factor) m) as [G|G].
  - discriminate.
  - injection H as <-. split; [reflexivity|]. split; [assumption|]. split; [|reflexivity]. intros x Hx. eapply Qcle_trans; [now apply M|]. apply Qcnot_lt_le. exact G.
  - apply IH in H; [|now apply step_above]. destruct H as (H1 & H2 & H3 & _). rewrite step_length in H1 by assumption. split; [assumption|]. split; [assumption|]. split; [assumption|].
    intros T. exfalso. specialize (T m J). qlra.
  - injection H as <-. split; [reflexivity|]. split; [assumption|]. split; [|reflexivity]. intros x Hx. eapply Qcle_trans; [now apply M|]. apply Qcnot_lt_le. exact G.
Qed.

(** With a factor above the number of agents it never returns, whatever is drawn. *)
Theorem C81_never_returns (draw : nat -> Qc) i (sample : list Qc) (factor : Qc) :
  sample <> [] -> (forall j, 0 <= draw j) -> above_mode sample -> Qc_ofZ (Z.of_nat (length sample)) < factor ->
  forall fuel, truncate (A := QcA) draw fuel i sample factor = Err OutOfFuel.
Proof.
  intros Ne D AM L fuel. revert i sample Ne AM L. induction fuel as [|fuel IH]; intros i sample Ne AM L.
  all: assert (N0 : 0 < Qc_ofZ (Z.of_nat (length sample))) by (apply Qc_ofZ_pos; destruct sample; [congruence | cbn; lia]).
  all: assert (F : 0 < factor) by qlra.
  all: match goal with |- context [truncate _ ?f _ _ _] => destruct (truncate_step draw f i sample factor Ne F) as (m & J & M & E) end; rewrite E; clear E.
  all: assert (M1 : 1 <= m) by (now apply AM).
  all: destruct (sum_bounds sample 1 m AM M) as [_ S2].
  all: assert (Hd := Qcdiv_mul (Qc_sum sample) factor (Qc_pos_neq _ F)).
  all: assert (Hm : Qc_sum sample / factor < m) by (set (q := Qc_sum sample / factor) in *; clearbody q; set (n := Qc_ofZ _) in *; clearbody n; clear - S2 Hd M1 L N0; apply Qcnot_le_lt; intros C; qnra).
  all: destruct (Qc_ltb_spec (Qc_sum sample / factor) m) as [G|G]; [|contradiction].
  - reflexivity.
  - apply IH.
    + intros C. apply app_eq_nil in C as [_ C]. discriminate.
    + now apply step_above.
    + now rewrite step_length.
Qed.

(** How many values are above a bound *)
Definition above (b : Qc) (l : list Qc) : nat := length (filter (fun x => Qc_ltb b x) l).
Lemma above_perm b l l' : Permutation l l' -> above b l = above b l'.
Proof. intros P. unfold above. apply Permutation_length. now apply filter_perm. Qed.
Lemma above_none b l : above b l = O -> forall x, In x l -> x <= b.
Proof. unfold above. intros H x J. destruct (Qc_ltb_spec b x) as [L|L]; [|now apply Qcnot_lt_le]. exfalso. assert (K : In x (filter (fun x => Qc_ltb b x) l)) by (apply filter_In; split; [assumption | now destruct (Qc_ltb_spec b x)]). destruct (filter _ l); [destruct K | discriminate]. Qed.
Lemma above_some b l c : above b l = S c -> exists x, In x l /\ b < x.
Proof. unfold above. destruct (filter (fun x => Qc_ltb b x) l) as [|x f] eqn:E; [discriminate|]. intros _. exists x. assert (K : In x (filter (fun x => Qc_ltb b x) l)) by (rewrite E; now left). apply filter_In in K as [K1 K2]. split; [assumption|]. now destruct (Qc_ltb_spec b x). Qed.
Lemma above_le b l : (above b l <= length l)%nat.
Proof. unfold above. induction l as [|x l IH]; [reflexivity|]. cbn [filter length]. destruct (Qc_ltb b x); cbn [length]; lia. Qed.
Lemma above_step b m l d : In m l -> b < m -> d <= b -> S (above b (remove_first (A := QcA) m l ++ [d])) = above b l.
Proof.
  intros J L D. rewrite (above_perm b _ _ (remove_first_perm m l J)). unfold above. rewrite filter_app, app_length. cbn [filter].
  destruct (Qc_ltb_spec b m); [|contradiction]. destruct (Qc_ltb_spec b d); [exfalso; qlra|]. cbn [length]. change (T QcA) with Qc. lia.
Qed.
Lemma truncate_settles draw (factor : Qc) c : 0 < factor -> (forall j, 0 <= draw j) ->
  forall i (sample : list Qc), sample <> [] -> above_mode sample ->
  let b := Qc_ofZ (Z.of_nat (length sample)) / factor in
  above b sample = c -> (forall j, (j < c)%nat -> draw (i + j)%nat + 1 <= b) -> exists l, truncate (A := QcA) draw c i sample factor = Ok l.
Proof.
  intros F D. induction c as [|c IH]; intros i sample Ne AM b Hc Hd.
  all: match goal with |- context [truncate _ ?f _ _ _] => destruct (truncate_step draw f i sample factor Ne F) as (m & J & M & E) end; rewrite E; clear E.
  all: destruct (Qc_ltb_spec (Qc_sum sample / factor) m) as [G|G]; [|eexists; reflexivity].
  - exfalso. assert (m <= b) by (now apply above_none with sample). assert (b <= Qc_sum sample / factor); [|qlra].
    apply Qcdiv_mono; [assumption|]. destruct (sum_bounds sample 1 m AM M) as [S1 _]. now rewrite Qcmult_1_r in S1.
  - assert (Hm : b < m) by (destruct (above_some b sample c Hc) as (x & X1 & X2); specialize (M x X1); qlra).
    assert (D0 : (draw i + 1) * 1 <= b) by (rewrite Qcmult_1_r; specialize (Hd 0%nat ltac:(lia)); now rewrite Nat.add_0_r in Hd).
    apply IH.
    + intros C. apply app_eq_nil in C as [_ C]. discriminate.
    + now apply step_above.
    + rewrite step_length by assumption. apply (above_step b m sample _ J Hm) in D0. fold b. lia.
    + rewrite step_length by assumption. fold b. intros j Hj. rewrite Nat.add_succ_comm. apply Hd. lia.
Qed.
(** Otherwise it returns as soon as the generator gives, once, as many low values in a row as there are agents. *)
Theorem C81_returns_when_draws_are_low (draw : nat -> Qc) (sample : list Qc) (factor : Qc) i0 :
  sample <> [] -> 0 < factor -> (forall j, 0 <= draw j) -> above_mode sample ->
  (forall j, (j < length sample)%nat -> draw (i0 + j)%nat + 1 <= Qc_ofZ (Z.of_nat (length sample)) / factor) ->
  exists fuel l, truncate (A := QcA) draw fuel 0 sample factor = Ok l.
Proof.
  intros Ne F D AM. change i0 with (0 + i0)%nat at 1. generalize 0%nat. revert sample Ne AM. induction i0 as [|i0 IH]; intros sample Ne AM i Hd.
  - rewrite Nat.add_0_r in Hd. exists (above (Qc_ofZ (Z.of_nat (length sample)) / factor) sample). apply truncate_settles; auto. intros j Hj. apply Hd. eapply Nat.lt_le_trans; [exact Hj | apply above_le].
  - destruct (truncate_step draw 0 i sample factor Ne F) as (m & J & M & _). 
    destruct (IH (remove_first (A := QcA) m sample ++ [(draw i + 1) * 1])) with (n := S i) as (fuel & l & H).
    + intros C. apply app_eq_nil in C as [_ C]. discriminate.
    + now apply step_above.
    + rewrite step_length by assumption. intros j Hj. rewrite Nat.add_succ_comm. now apply Hd.
    + destruct (truncate_step draw (S fuel) i sample factor Ne F) as (m' & J' & M' & E). exists (S fuel). rewrite E.
      assert (m = m') as <- by (apply Qcle_antisym; auto). destruct (Qc_ltb _ m); eexists; [exact H | reflexivity].
Qed.
(** The distribution of stake: without truncation what is drawn is kept. *)
Theorem C81_pareto (first : list Qc) (draw : nat -> Qc) fuel (factor : Qc) l :
  (forall x, In x first -> 0 <= x) -> (forall j, 0 <= draw j) -> stake_distr_pareto (A := QcA) first draw fuel factor = Ok l ->
  length l = length first /\ above_mode l /\ (0 < factor -> truncated factor l) /\ (factor <= 0 -> l = map (fun x => x + 1) first).
Proof.
  intros H0 D H. unfold stake_distr_pareto in H. cbn [ltb QcA] in H. change (@zero QcA) with 0 in H.
  assert (Em : map (fun x : T QcA => mul (add x one) one) first = map (fun x => x + 1) first) by (apply map_ext; intros x; exact (Qcmult_1_r (x + 1))).
  rewrite Em in H. assert (AM : above_mode (map (fun x => x + 1) first)) by (intros y J; apply in_map_iff in J as (x & <- & J); specialize (H0 x J); qlra).
  destruct (Qc_ltb_spec 0 factor) as [F|F].
  - destruct (C81_truncated_when_it_returns _ _ _ _ _ _ F D AM H) as (H1 & H2 & H3 & _). rewrite map_length in H1. split; [assumption|]. split; [assumption|]. split; [now intros _ | intros C; exfalso; qlra].
  - injection H as <-. rewrite map_length. split; [reflexivity|]. split; [assumption|]. split; [contradiction | reflexivity].
Qed.

(** * Costs *)
(** What numpy and scipy promise *)
Record honest (d : draws QcA) : Prop := {
  h_uniform : forall low high n, (low : Qc) <= high -> (0 <= n)%Z -> Z.of_nat (length (d_uniform d low high n)) = n /\ forall x : Qc, In x (d_uniform d low high n) -> low <= x /\ x <= high;
  h_choice : forall (l : list Qc) n, l <> [] -> (0 <= n)%Z -> Z.of_nat (length (d_choice d l n)) = n /\ forall x, In x (d_choice d l n) -> In x l;
  h_truncnorm : forall low high n, (low : Qc) <= high -> (0 <= n)%Z -> Z.of_nat (length (d_truncnorm d low high n)) = n /\ forall x : Qc, In x (d_truncnorm d low high n) -> low <= x /\ x <= high }.
(** one cost for each of n agents, between the bounds *)
Definition one_each (n : Z) (low high : Qc) (l : list Qc) : Prop := Z.of_nat (length l) = n /\ forall x, In x l -> low <= x /\ x <= high.

Lemma not_below (low high : Qc) : low <= high -> @ltb QcA high low = false.
Proof. intros H. cbn [ltb QcA]. destruct (Qc_ltb_spec high low); [exfalso; qlra | reflexivity]. Qed.

Theorem C81_uniform_costs (d : draws QcA) n (low high : Qc) : honest d -> (0 <= n)%Z -> low <= high -> exists l, cost_distr_unfrm d n low high = Ok l /\ one_each n low high l.
Proof.
  intros H N L. unfold cost_distr_unfrm, rng_uniform. rewrite not_below by assumption. destruct (Z.ltb_spec n 0); [lia|]. eexists. split; [reflexivity|]. now apply (h_uniform d H).
Qed.
Theorem C81_banded_costs (d : draws QcA) n (low high : Qc) bands : honest d -> (0 <= n)%Z -> (1 <= bands)%Z -> low <= high ->
  exists l levels, cost_distr_bands d n low high bands = Ok l /\ one_each n low high l /\ Z.of_nat (length levels) = bands /\ incl l levels.
Proof.
  intros H N B L. unfold cost_distr_bands, rng_uniform. rewrite not_below by assumption. destruct (Z.ltb_spec bands 0); [lia|]. cbn [bind].
  destruct (h_uniform d H low high bands L ltac:(lia)) as [U1 U2]. set (b := d_uniform d low high bands) in *. assert (Ne : b <> []) by (intros C; rewrite C in U1; cbn in U1; lia).
  destruct (h_choice d H b n Ne N) as [C1 C2]. exists (d_choice d b n), b. split; [|split; [split; [assumption|] | split; [assumption|]]].
  - unfold rng_choice. destruct (Z.ltb_spec n 0); [lia|]. destruct b; [congruence | reflexivity].
  - intros x J. apply U2. now apply C2.
  - exact C2.
Qed.
Theorem C81_two_level_costs (d : draws QcA) n (low high : Qc) bands : honest d -> (3 <= n)%Z -> (1 <= bands)%Z -> low <= high ->
  exists l, cost_distr_bands_manual d n low high bands = Ok l /\ one_each n low high l /\ l = repeat low (Nat.min 5 (Z.to_nat n)) ++ repeat high (Z.to_nat n - 5).
Proof.
  intros H N B L. unfold cost_distr_bands_manual, rng_uniform. rewrite not_below by assumption. destruct (Z.ltb_spec bands 0); [lia|]. cbn [bind].
  destruct (h_uniform d H low high bands L ltac:(lia)) as [U1 U2]. set (b := d_uniform d low high bands) in *. assert (Ne : b <> []) by (intros C; rewrite C in U1; cbn in U1; lia).
  replace (rng_choice d b (n - 3)) with (@Ok (list Qc) (d_choice d b (n - 3))) by (unfold rng_choice; destruct (Z.ltb_spec (n - 3) 0); [lia|]; destruct b; [congruence | reflexivity]). cbn [bind].
  eexists. split; [reflexivity|]. split.
  - split; [rewrite map_length, seq_length; lia|]. intros x J. apply in_map_iff in J as (i & <- & _). destruct (Nat.ltb i 5); split; try assumption; apply Qcle_refl.
  - assert (K : forall m s, map (fun i : nat => if Nat.ltb i 5 then low else high) (seq s m) = repeat low (Nat.min (5 - s) m) ++ repeat high (m - (5 - s))).
    { clear. induction m as [|m IH]; intros s; [now rewrite Nat.min_0_r|]. cbn [seq map]. rewrite IH. destruct (Nat.ltb_spec s 5).
      - replace (5 - s)%nat with (S (5 - S s)) by lia. reflexivity.
      - replace (5 - s)%nat with 0%nat by lia. replace (5 - S s)%nat with 0%nat by lia. cbn [Nat.min repeat app]. now rewrite !Nat.sub_0_r. }
    exact (K (Z.to_nat n) 0%nat).
Qed.
(** With fewer than three agents it fails *)
Theorem C81_two_level_costs_of_two (d : draws QcA) n (low high : Qc) bands : (n < 3)%Z -> (0 <= bands)%Z -> cost_distr_bands_manual d n low high bands = Err ValueError.
Proof.
  intros N B. unfold cost_distr_bands_manual, rng_uniform. destruct (@ltb QcA high low); [reflexivity|]. destruct (Z.ltb_spec bands 0); [lia|]. cbn [bind]. unfold rng_choice. destruct (Z.ltb_spec (n - 3) 0); [reflexivity | lia].
Qed.
(** The disparity of costs: one cost per agent only when there are at least as many agents as expensive ones, of which there are ten unless the caller says otherwise. *)
Theorem C81_disparity n (low high : Qc) c : (0 <= c)%Z -> low <= high ->
  exists l, cost_distr_disparity (A := QcA) n low high c = Ok l /\ (forall x, In x l -> low <= x /\ x <= high) /\ Z.of_nat (length l) = Z.max n c.
Proof.
  intros C L. unfold cost_distr_disparity. rewrite not_below by assumption. eexists. split; [reflexivity|]. split.
  - intros x J. apply in_app_iff in J as [J|J]; apply repeat_spec in J as ->; split; try assumption; apply Qcle_refl.
  - rewrite app_length, !repeat_length. lia.
Qed.
Theorem C81_disparity_refuted n (low high : Qc) : (n < 10)%Z -> low <= high -> exists l, cost_distr_disparity (A := QcA) n low high 10 = Ok l /\ ~ one_each n low high l.
Proof.
  intros N L. destruct (C81_disparity n low high 10 ltac:(lia) L) as (l & H & _ & Len). exists l. split; [assumption|]. intros [O _]. change (T QcA) with Qc in *. lia.
Qed.
(** The normal distribution: the bounds are taken in standard deviations from the mean *)
Theorem C81_normal_costs (d : draws QcA) n (low high mean stddev : Qc) : honest d -> (0 <= n)%Z -> low <= high -> 0 <= stddev ->
  exists l, cost_distr_nrm d n low high mean stddev = Ok l /\ one_each n (mean + stddev * low) (mean + stddev * high) l.
Proof.
  intros H N L S. unfold cost_distr_nrm. rewrite not_below by assumption. destruct (h_truncnorm d H low high n L N) as [U1 U2]. eexists. split; [reflexivity|]. split; [now rewrite map_length|].
  intros x J. apply in_map_iff in J as (z & <- & J). destruct (U2 z J) as [U3 U4]. change (T QcA) with Qc in *. change (mean + stddev * low <= mean + stddev * z /\ mean + stddev * z <= mean + stddev * high).
  assert (A1 := Qcmult_le_l _ _ _ S U3). assert (A2 := Qcmult_le_l _ _ _ S U4). split; qlra.
Qed.
(** so none of the costs need be between the bounds *)
Theorem C81_normal_costs_refuted (d : draws QcA) n (low high mean stddev : Qc) : honest d -> (1 <= n)%Z -> low <= high -> 0 <= stddev -> high < mean + stddev * low ->
  exists l, cost_distr_nrm d n low high mean stddev = Ok l /\ l <> [] /\ forall x, In x l -> high < x.
Proof.
  intros H N L S B. destruct (C81_normal_costs d n low high mean stddev H ltac:(lia) L S) as (l & E & Len & R). exists l. split; [assumption|]. split; [intros ->; cbn in Len; lia|].
  intros x J. apply R in J as [J _]. qlra.
Qed.
(** Every one of them refuses bounds in the wrong order *)
Theorem C81_bounds_refused (d : draws QcA) n (low high mean stddev : Qc) bands c : high < low ->
  cost_distr_unfrm d n low high = Err ValueError /\ cost_distr_bands d n low high bands = Err ValueError /\ cost_distr_bands_manual d n low high bands = Err ValueError /\
  cost_distr_nrm d n low high mean stddev = Err ValueError /\ cost_distr_disparity (A := QcA) n low high c = Err ValueError.
Proof.
  intros H. assert (E : @ltb QcA high low = true) by (cbn [ltb QcA]; destruct (Qc_ltb_spec high low); [reflexivity | contradiction]).
  unfold cost_distr_unfrm, cost_distr_bands, cost_distr_bands_manual, cost_distr_nrm, cost_distr_disparity. rewrite E. repeat split.
Qed.

(** Instances: a generator, a truncation that takes two rounds, and costs of a normal distribution outside the bounds *)
Definition demo_draws : draws QcA := mkDraws (A := QcA) (fun low _ n => repeat low (Z.to_nat n)) (fun l n => repeat (hd zero l) (Z.to_nat n)) (fun _ high n => repeat high (Z.to_nat n)).
Lemma demo_honest : honest demo_draws.
Proof.
  split; cbn [demo_draws d_uniform d_choice d_truncnorm].
  - intros low high n L N. rewrite repeat_length. split; [lia|]. intros x J. apply repeat_spec in J as ->. split; [apply Qcle_refl | assumption].
  - intros l n L N. rewrite repeat_length. split; [lia|]. intros x J. apply repeat_spec in J as ->. destruct l; [congruence | now left].
  - intros low high n L N. rewrite repeat_length. split; [lia|]. intros x J. apply repeat_spec in J as ->. split; [assumption | apply Qcle_refl].
Qed.
Definition q (n : Z) : Qc := Qc_ofZ n.
Definition demo_sample : list Qc := [q 9; q 2; q 20; q 1].
Definition demo_draw (i : nat) : Qc := match i with O => q 4 | _ => 0 end.
Lemma demo_truncated : truncate (A := QcA) demo_draw 9 0 demo_sample (q 2) = Ok [q 2; q 1; q 1; q 1].
Proof. vm_compute. reflexivity. Qed.
Example C81_instance : (exists l, truncate (A := QcA) demo_draw 9 0 demo_sample (q 2) = Ok l /\ l <> demo_sample) /\ above_mode demo_sample /\ (forall j, 0 <= demo_draw j) /\
  honest demo_draws /\ q 2 < q 1 + q 2 * q 1.
Proof.
  split; [eexists; split; [exact demo_truncated | discriminate]|]. split; [|split; [|split; [exact demo_honest | reflexivity]]].
  - intros x [<-|[<-|[<-|[<-|[]]]]]; discriminate.
  - intros [|j]; cbn; discriminate.
Qed.
