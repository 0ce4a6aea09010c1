(** What splitting one's stake over several pools brings, as reported in the table of the stakeholders (C84). *)
From Coq Require Import ZArith QArith Qcanon List Bool Arith Lia.
From Verif Require Import Num Py QcTac Rewards RewardFacts SortedKeyList World Stakeholder Helper Sched Sim Init ListFacts PropSched PropInit PropRewards Export PropExport PropMove.
Import ListNotations.
Open Scope Qc_scope.

(** the potential profit of one pool with the whole stake, and of each of [m] pools with equal parts of it *)
Definition profit_of_one (r : rss QcA) (stake cost : Qc) (x : Qc) : Prop := potential_profit (A := QcA) r stake cost = Ok x.
Definition profit_of_each (r : rss QcA) (stake cost phi : Qc) (m : Z) (x : Qc) : Prop :=
  exists pledge c, pledge_per_pool (A := QcA) stake (r_thr r) m = Ok pledge /\ cost_per_pool (A := QcA) m cost phi = Ok c /\ potential_profit (A := QcA) r pledge c = Ok x.

Lemma pot_profit_eq (r : rss QcA) p c : rss_ok r -> r_scheme r <> CIP50 -> pot_profit r p c * (1 + r_a0 r) = r_thr r + r_a0 r * Qcmin p (r_thr r) - c * (1 + r_a0 r).
Proof.
  intros R S. unfold pot_profit. rewrite reward_saturated by assumption. destruct R as [Hb Ha]. assert (H : 1 + r_a0 r <> 0) by qlra.
  destruct (r_scheme r); try congruence; rewrite <- (Qcdiv_mul (r_thr r + r_a0 r * Qcmin p (r_thr r)) (1 + r_a0 r) H) at 2; set (x := (_ / _)); clearbody x; ring.
Qed.
Lemma each_ok (r : rss QcA) stake cost phi m : rss_ok r -> (2 <= m)%Z -> exists x, profit_of_each r stake cost phi m x.
Proof.
  intros R Hm. unfold profit_of_each, pledge_per_pool, cost_per_pool. destruct (Z.leb_spec m 0); [lia|]. assert (Hz := Qc_ofZ_pos m ltac:(lia)). change (@ofZ QcA) with Qc_ofZ. rewrite !pdiv_ok by (now apply Qc_pos_neq). cbn [bind].
  do 3 eexists. split; [reflexivity|]. split; [reflexivity|]. apply potential_profit_ok. exact R.
Qed.
Lemma one_ok (r : rss QcA) stake cost : rss_ok r -> exists x, profit_of_one r stake cost x.
Proof. intros R. eexists. apply potential_profit_ok. exact R. Qed.

(** (1 + a0) m times what each of [m] pools has more than a single pool *)
Lemma split_gain (r : rss QcA) stake cost phi m x y : rss_ok r -> r_scheme r <> CIP50 -> (2 <= m)%Z -> 0 <= stake -> profit_of_one r stake cost x -> profit_of_each r stake cost phi m y ->
  let z := Qc_ofZ m in let s := (1 + r_a0 r) * (1 - phi) * cost - stake * r_a0 r in
  1 < z /\ (z - 1) * s <= (1 + r_a0 r) * z * (y - x) /\ (stake <= r_thr r -> (1 + r_a0 r) * z * (y - x) = (z - 1) * s).
Proof.
  intros R S Hm Hs Hx (p & c & Hp & Hc & Hy). cbv zeta. unfold profit_of_one in Hx. rewrite potential_profit_ok in Hx, Hy by exact R. apply Ok_inj in Hx, Hy. subst x y.
  assert (E1 := pot_profit_eq r stake cost R S). assert (E2 := pot_profit_eq r p c R S). set (x := pot_profit r stake cost) in *. set (y := pot_profit r p c) in *. clearbody x y.
  assert (Z2 : 1 < Qc_ofZ m). { replace 1 with (Qc_ofZ 1) by (now apply Qc_is_canon). apply Qc_ofZ_lt. lia. }
  assert (Z1 : Qc_ofZ (m - 1) = Qc_ofZ m - 1). { replace m with (m - 1 + 1)%Z at 2 by lia. rewrite Qc_ofZ_add, Qc_ofZ_1. ring. }
  unfold pledge_per_pool in Hp. destruct (Z.leb_spec m 0); [lia|]. unfold cost_per_pool in Hc. change (@ofZ QcA) with Qc_ofZ in *. rewrite Z1 in Hc. set (z := Qc_ofZ m) in *. clearbody z.
  assert (Hz : z <> 0) by qlra. rewrite pdiv_ok in Hp, Hc by exact Hz. cbn [bind] in Hp. rewrite pmin_min in Hp. apply Ok_inj in Hp, Hc.
  cbn [add mul QcA] in Hc. change (T QcA) with Qc in *.
  assert (Ec : c * z = cost + (z - 1) * phi * cost) by (rewrite <- Hc; now apply Qcdiv_mul). clear Hc.
  assert (Eu := Qcdiv_mul stake z Hz). set (u := stake / z) in *. clearbody u. destruct R as [Hb Ha]. set (b := r_thr r) in *. set (a0 := r_a0 r) in *. clearbody b a0. change (T QcA) with Qc in *. clear S r Z1.
  split; [exact Z2|].
  assert (Ed : (1 + a0) * z * (y - x) = z * a0 * (Qcmin p b - Qcmin stake b) + (1 + a0) * ((z - 1) * (1 - phi) * cost)).
  { replace ((1 + a0) * z * (y - x)) with (z * (y * (1 + a0)) - z * (x * (1 + a0))) by ring. rewrite E1, E2. replace (z * (b + a0 * Qcmin p b - c * (1 + a0))) with (z * b + z * a0 * Qcmin p b - (c * z) * (1 + a0)) by ring. rewrite Ec. ring. }
  rewrite Ed. clear Ed E1 E2 x y. assert (Pb : Qcmin p b = p) by (rewrite <- Hp; unfold Qcmin; qcase; qlra). rewrite Pb.
  assert (G : forall w v, v <= w -> z * a0 * v <= z * a0 * w) by (intros w v L; apply Qcmult_le_l; [apply Qcmult_nonneg; qlra | assumption]).
  split.
  - assert (K : - ((z - 1) * stake) <= z * (p - Qcmin stake b)).
    { rewrite <- Hp. unfold Qcmin. destruct (Qc_leb_spec u b) as [Nu|Nu], (Qc_leb_spec stake b) as [Ns|Ns]; try apply Qcnot_le_lt in Nu; try apply Qcnot_le_lt in Ns.
      - replace (z * (u - stake)) with (u * z - z * stake) by ring. rewrite Eu. apply Qcle_minus_iff. replace (_ + _) with 0 by ring. apply Qcle_refl.
      - replace (z * (u - b)) with (u * z - z * b) by ring. rewrite Eu. assert (z * b <= z * stake) by (apply Qcmult_le_l; qlra). replace (- ((z - 1) * stake)) with (stake - z * stake) by ring. qlra.
      - assert (z * stake <= z * b) by (apply Qcmult_le_l; qlra). assert (0 <= (z - 1) * stake) by (apply Qcmult_nonneg; qlra). replace (z * (b - stake)) with (z * b - z * stake) by ring. qlra.
      - assert (0 <= (z - 1) * stake) by (apply Qcmult_nonneg; qlra). replace (z * (b - b)) with 0 by ring. qlra. }
    assert (K2 : a0 * (- ((z - 1) * stake)) <= a0 * (z * (p - Qcmin stake b))) by (apply Qcmult_le_l; assumption).
    replace (z * a0 * (p - Qcmin stake b)) with (a0 * (z * (p - Qcmin stake b))) by ring. replace ((z - 1) * ((1 + a0) * (1 - phi) * cost - stake * a0)) with (a0 * (- ((z - 1) * stake)) + (1 + a0) * ((z - 1) * (1 - phi) * cost)) by ring. apply Qcplus_le_compat; [exact K2 | apply Qcle_refl].
  - intros L. assert (Lu : u <= b). { assert (u * z <= b * z); [rewrite Eu; assert (b * 1 <= b * z) by (apply Qcmult_le_l; qlra); qlra|]. destruct (Qc_leb_spec u b) as [|N]; [assumption|]. apply Qcnot_le_lt in N. exfalso. assert (0 < (u - b) * z) by (apply Qcmult_pos; qlra). replace ((u - b) * z) with (u * z - b * z) in * by ring. qlra. }
    rewrite <- Hp. unfold Qcmin. destruct (Qc_leb_spec u b); [|contradiction]. destruct (Qc_leb_spec stake b); [|contradiction]. replace (z * a0 * (u - stake)) with (a0 * (u * z) - z * a0 * stake) by ring. rewrite Eu. ring.
Qed.

(** ** The property, in the words of the table: the row of an agent says whether each of several equal pools would make a higher potential profit than one pool *)
Definition splitting_pays (r : rss QcA) (stake cost phi : Qc) (m : Z) : Prop := exists one each, profit_of_one r stake cost one /\ profit_of_each r stake cost phi m each /\ one < each.
Definition row_of (rnd : Qc -> Qc) (w : world QcA) (row : agent_row QcA) (ag : agent QcA) : Prop := exists rows, agents_table (A := QcA) rnd w = Ok rows /\ In row rows /\ get (w_agents w) (ar_id row) = Some ag.

Lemma row_split rnd w row ag : row_of rnd w row ag -> ar_split row = (1 + r_a0 (w_rss w)) * (1 - w_phi w) * a_cost ag - a_stake ag * r_a0 (w_rss w) /\ (ar_splitter row = true <-> 0 < ar_split row).
Proof.
  intros (rows & H & J & G). unfold agents_table in H. apply mapM_ok in H. assert (E : exists a, agent_row_of (A := QcA) rnd w a = Ok row). { clear G. induction H as [|a r l l' E F IH]; [destruct J|]. destruct J as [->|J]; eauto. }
  clear H J. destruct E as (a & E). unfold agent_row_of in E. apply bind_ok in E as (ag' & Ga & E). unfold the_agent in Ga. apply of_option_ok in Ga. apply bind_ok in E as (pp & _ & E). apply bind_ok in E as (tot & _ & E). apply Ok_inj in E. subst row.
  cbn [ar_id ar_split ar_splitter] in *. assert (ag' = ag) as -> by congruence. split.
  - unfold pool_splitting_profit, total_R. cbn [add sub mul one QcA]. change (T QcA) with Qc. ring.
  - assert (Gt : forall x : Qc, ltb (a := QcA) 0 x = true <-> 0 < x) by (intros x; change (ltb (a := QcA) 0 x) with (Qc_ltb 0 x); destruct (Qc_ltb_spec 0 x); split; congruence). apply Gt.
Qed.
Lemma one_fun r stake cost x y : profit_of_one r stake cost x -> profit_of_one r stake cost y -> x = y.
Proof. unfold profit_of_one. intros H1 H2. rewrite H1 in H2. now apply Ok_inj. Qed.
Lemma each_fun r stake cost phi m x y : profit_of_each r stake cost phi m x -> profit_of_each r stake cost phi m y -> x = y.
Proof. intros (p & c & H1 & H2 & H3) (p' & c' & H1' & H2' & H3'). rewrite H1 in H1'. rewrite H2 in H2'. apply Ok_inj in H1', H2'. subst p' c'. rewrite H3 in H3'. now apply Ok_inj. Qed.
Lemma pays_iff (r : rss QcA) stake cost phi m : rss_ok r -> (2 <= m)%Z -> (splitting_pays r stake cost phi m <-> forall one each, profit_of_one r stake cost one -> profit_of_each r stake cost phi m each -> one < each).
Proof.
  intros R Hm. split.
  - intros (x & y & Hx & Hy & L) x' y' Hx' Hy'. now rewrite (one_fun _ _ _ _ _ Hx' Hx), (each_fun _ _ _ _ _ _ _ Hy' Hy).
  - intros H. destruct (one_ok r stake cost R) as (x & Hx), (each_ok r stake cost phi m R Hm) as (y & Hy). exists x, y. auto.
Qed.
Lemma pos_scale a x : 0 < a -> (0 < a * x <-> 0 < x).
Proof. intros Ha. split; intros H; [|now apply Qcmult_pos]. destruct (Qclt_le_dec 0 x) as [|N]; [assumption|]. exfalso. assert (a * x <= a * 0) by (apply Qcmult_le_l; qlra). replace (a * 0) with 0 in * by ring. qlra. Qed.

(** the number in the column: what each of [m] pools has more than one pool, times (1 + a0) m / (m - 1) -- the same number for every [m] *)
Theorem C84_reported_profit rnd (w : world QcA) row ag : row_of rnd w row ag -> rss_ok (w_rss w) -> r_scheme (w_rss w) <> CIP50 -> 0 <= a_stake ag <= r_thr (w_rss w) ->
  forall m one each, (2 <= m)%Z -> profit_of_one (w_rss w) (a_stake ag) (a_cost ag) one -> profit_of_each (w_rss w) (a_stake ag) (a_cost ag) (w_phi w) m each ->
    ar_split row * (Qc_ofZ m - 1) = (1 + r_a0 (w_rss w)) * Qc_ofZ m * (each - one).
Proof.
  intros H R S [L1 L2] m x y Hm Hx Hy. destruct (row_split _ _ _ _ H) as [-> _]. destruct (split_gain _ _ _ _ _ _ _ R S Hm L1 Hx Hy) as (_ & _ & E). rewrite (E L2). ring.
Qed.
(** hence the last column is right, whatever the number of pools, for the agents that cannot saturate a pool alone *)
Theorem C84_splitter_column rnd (w : world QcA) row ag : row_of rnd w row ag -> rss_ok (w_rss w) -> r_scheme (w_rss w) <> CIP50 -> 0 <= a_stake ag <= r_thr (w_rss w) ->
  forall m, (2 <= m)%Z -> (ar_splitter row = true <-> splitting_pays (w_rss w) (a_stake ag) (a_cost ag) (w_phi w) m).
Proof.
  intros H R S [L1 L2] m Hm. destruct (row_split _ _ _ _ H) as [Es Ey]. rewrite Ey. destruct (one_ok (w_rss w) (a_stake ag) (a_cost ag) R) as (x & Hx), (each_ok (w_rss w) (a_stake ag) (a_cost ag) (w_phi w) m R Hm) as (y & Hy).
  destruct (split_gain _ _ _ _ _ _ _ R S Hm L1 Hx Hy) as (Z1 & _ & E). specialize (E L2). rewrite <- Es in E. set (z := Qc_ofZ m) in *. clearbody z. destruct R as [Hb Ha].
  transitivity (x < y).
  - rewrite <- (pos_scale (z - 1) (ar_split row)) by qlra. rewrite <- E, pos_scale by (apply Qcmult_pos; qlra). split; intros; qlra.
  - split; [intros L; now exists x, y | intros (x' & y' & Hx' & Hy' & L)]. now rewrite (one_fun _ _ _ _ _ Hx Hx'), (each_fun _ _ _ _ _ _ _ Hy Hy').
Qed.
(** a "YES" is right for every agent *)
Theorem C84_yes_is_sound rnd (w : world QcA) row ag : row_of rnd w row ag -> rss_ok (w_rss w) -> r_scheme (w_rss w) <> CIP50 -> 0 <= a_stake ag -> ar_splitter row = true ->
  forall m, (2 <= m)%Z -> splitting_pays (w_rss w) (a_stake ag) (a_cost ag) (w_phi w) m.
Proof.
  intros H R S L1 Y m Hm. destruct (row_split _ _ _ _ H) as [Es Ey]. apply Ey in Y. apply pays_iff; [assumption | assumption|]. intros x y Hx Hy. destruct (split_gain _ _ _ _ _ _ _ R S Hm L1 Hx Hy) as (Z1 & E & _). rewrite <- Es in E.
  set (z := Qc_ofZ m) in *. clearbody z. destruct R as [Hb Ha]. assert (P : 0 < (z - 1) * ar_split row) by (apply Qcmult_pos; qlra). assert (P2 : 0 < (1 + r_a0 (w_rss w)) * z * (y - x)) by (eapply Qclt_le_trans; eassumption). apply pos_scale in P2; [qlra | apply Qcmult_pos; qlra].
Qed.

(** ** Where the column is wrong: an agent with more stake than a pool can use is told "NO" although two pools are better; and under the scheme of CIP-50 an agent is told "YES" although two pools are worse *)
Definition large_args : args QcA := mkArgs (A := QcA) (Single 2%Z) (Single (Q2Qc 4)) (Single (Q2Qc (3#10))) (Single 0) (Single (Q2Qc (1#100))) (Single 100%Z) (Single 0) (Single Sequential) (Single true) 0 0 false 5.
Definition cip50_args : args QcA := mkArgs (A := QcA) (Single 2%Z) (Single (Q2Qc 2)) (Single (Q2Qc 10)) (Single 0) (Single (Q2Qc (1#100))) (Single 100%Z) (Single 0) (Single Sequential) (Single true) 4 0 false 5.
Definition large_stakes : list Qc := [Q2Qc (9#10); Q2Qc (1#10)].
Definition tiny_stakes : list Qc := [Q2Qc (99#100); Q2Qc (1#100)].
Definition split_costs : list Qc := [Q2Qc (1#100); Q2Qc (1#100)].
Definition pays_b (r : rss QcA) (stake cost phi : Qc) (m : Z) : option bool :=
  match potential_profit (A := QcA) r stake cost, pledge_per_pool (A := QcA) stake (r_thr r) m, cost_per_pool (A := QcA) m cost phi with
  | Ok x, Ok p, Ok c => match potential_profit (A := QcA) r p c with Ok y => Some (Qc_ltb x y) | _ => None end | _, _, _ => None end.
Lemma pays_b_spec r stake cost phi m b : pays_b r stake cost phi m = Some b -> (splitting_pays r stake cost phi m <-> b = true).
Proof.
  unfold pays_b, splitting_pays, profit_of_one, profit_of_each. destruct (potential_profit (A := QcA) r stake cost) as [x|]; [|discriminate]. destruct (pledge_per_pool (A := QcA) stake _ m) as [p|]; [|discriminate]. destruct (cost_per_pool (A := QcA) m cost phi) as [c|]; [|discriminate].
  destruct (potential_profit (A := QcA) r p c) as [y|] eqn:E; [|discriminate]. intros [= <-]. destruct (Qc_ltb_spec x y); split; try congruence.
  - intros _. exists x, y. split; [reflexivity|]. split; [|assumption]. now exists p, c.
  - intros (x' & y' & Hx & (p' & c' & Hp & Hc & Hy) & L). apply Ok_inj in Hx, Hp, Hc. subst x' p' c'. rewrite E in Hy. apply Ok_inj in Hy. subst y'. contradiction.
Qed.
(** the row, the verdict and the test of the comparison, for one agent of the initial state *)
Definition verdict (g : args QcA) (stakes costs : list Qc) (a : nat) (yes pays cip small : bool) : bool :=
  match init g [NonMyopic; NonMyopic] stakes costs with
  | Ok s0 => match agents_table (A := QcA) (fun x => x) (s_w s0), get (w_agents (s_w s0)) a with
    | Ok rows, Some ag => match nth_error rows a with
      | Some row => Nat.eqb (ar_id row) a && Bool.eqb (ar_splitter row) yes && (match r_scheme (w_rss (s_w s0)) with CIP50 => cip | _ => negb cip end) && Qc_ltb 0 (r_thr (w_rss (s_w s0))) && Qc_leb 0 (r_a0 (w_rss (s_w s0))) && Qc_leb 0 (a_stake ag) && Bool.eqb small (Qc_leb (a_stake ag) (r_thr (w_rss (s_w s0)))) && match pays_b (w_rss (s_w s0)) (a_stake ag) (a_cost ag) (w_phi (s_w s0)) 2 with Some b => Bool.eqb b pays | None => false end
      | None => false end
    | _, _ => false end
  | _ => false end.
Lemma verdict_spec g stakes costs a yes pays cip small : verdict g stakes costs a yes pays cip small = true -> exists s0 row ag, init g [NonMyopic; NonMyopic] stakes costs = Ok s0 /\ row_of (fun x => x) (s_w s0) row ag /\ ar_splitter row = yes /\
  (r_scheme (w_rss (s_w s0)) = CIP50 <-> cip = true) /\ rss_ok (w_rss (s_w s0)) /\ 0 <= a_stake ag /\ (a_stake ag <= r_thr (w_rss (s_w s0)) <-> small = true) /\ (splitting_pays (w_rss (s_w s0)) (a_stake ag) (a_cost ag) (w_phi (s_w s0)) 2 <-> pays = true).
Proof.
  unfold verdict. destruct (init g _ stakes costs) as [s0|]; [|discriminate]. destruct (agents_table _ (s_w s0)) as [rows|] eqn:Er; [|discriminate]. destruct (get (w_agents (s_w s0)) a) as [ag|] eqn:Ga; [|discriminate]. destruct (nth_error rows a) as [row|] eqn:En; [|discriminate].
  intros H. apply andb_true_iff in H as [H H8]. apply andb_true_iff in H as [H H7]. apply andb_true_iff in H as [H H6]. apply andb_true_iff in H as [H H5]. apply andb_true_iff in H as [H H4]. apply andb_true_iff in H as [H H3]. apply andb_true_iff in H as [H1 H2].
  exists s0, row, ag. split; [reflexivity|]. apply Nat.eqb_eq in H1. split; [exists rows; rewrite H1; split; [assumption|]; split; [|assumption]; eapply nth_error_In; eassumption|]. split; [now apply eqb_prop|].
  split; [destruct (r_scheme _), cip; split; (discriminate || reflexivity)|]. destruct (Qc_ltb_spec 0 (r_thr (w_rss (s_w s0)))); [|discriminate]. destruct (Qc_leb_spec 0 (r_a0 (w_rss (s_w s0)))); [|discriminate]. destruct (Qc_leb_spec 0 (a_stake ag)); [|discriminate].
  split; [now split|]. split; [assumption|]. split.
  - destruct (Qc_leb_spec (a_stake ag) (r_thr (w_rss (s_w s0)))), small; split; (discriminate || congruence || auto).
  - destruct (pays_b _ _ _ _ 2) as [b|] eqn:Eb; [|discriminate]. apply eqb_prop in H8. subst b. now apply pays_b_spec.
Qed.
Theorem C84_large_stake_refuted : exists s0 row ag, init large_args [NonMyopic; NonMyopic] large_stakes split_costs = Ok s0 /\ row_of (fun x => x) (s_w s0) row ag /\ rss_ok (w_rss (s_w s0)) /\ r_scheme (w_rss (s_w s0)) <> CIP50 /\ 0 <= a_stake ag /\
  ar_splitter row = false /\ splitting_pays (w_rss (s_w s0)) (a_stake ag) (a_cost ag) (w_phi (s_w s0)) 2.
Proof.
  destruct (verdict_spec large_args large_stakes split_costs 0 false true false false) as (s0 & row & ag & H1 & H2 & H3 & H4 & H5 & H6 & H7 & H8); [vm_compute; reflexivity|]. exists s0, row, ag. split; [exact H1|]. split; [exact H2|]. split; [exact H5|].
  split; [intros E; apply H4 in E; discriminate|]. split; [exact H6|]. split; [exact H3 | now apply H8].
Qed.
Theorem C84_cip50_refuted : exists s0 row ag, init cip50_args [NonMyopic; NonMyopic] tiny_stakes split_costs = Ok s0 /\ row_of (fun x => x) (s_w s0) row ag /\ rss_ok (w_rss (s_w s0)) /\ 0 <= a_stake ag <= r_thr (w_rss (s_w s0)) /\
  ar_splitter row = true /\ ~ splitting_pays (w_rss (s_w s0)) (a_stake ag) (a_cost ag) (w_phi (s_w s0)) 2.
Proof.
  destruct (verdict_spec cip50_args tiny_stakes split_costs 1 true false true true) as (s0 & row & ag & H1 & H2 & H3 & H4 & H5 & H6 & H7 & H8); [vm_compute; reflexivity|]. exists s0, row, ag. split; [exact H1|]. split; [exact H2|]. split; [exact H5|].
  split; [split; [exact H6 | now apply H7]|]. split; [exact H3|]. intros N. apply H8 in N. discriminate.
Qed.
(** the hypotheses of the theorems are met: of the two agents of the first of these executions, the one that cannot saturate a pool is rightly told "NO"; with a smaller a0, it is rightly told "YES" *)
Definition low_a0_args : args QcA := mkArgs (A := QcA) (Single 2%Z) (Single (Q2Qc 4)) (Single (Q2Qc (1#100))) (Single 0) (Single (Q2Qc (1#100))) (Single 100%Z) (Single 0) (Single Sequential) (Single true) 0 0 false 5.
Example C84_instance_no : exists s0 row ag, init large_args [NonMyopic; NonMyopic] large_stakes split_costs = Ok s0 /\ row_of (fun x => x) (s_w s0) row ag /\ rss_ok (w_rss (s_w s0)) /\ r_scheme (w_rss (s_w s0)) <> CIP50 /\ 0 <= a_stake ag <= r_thr (w_rss (s_w s0)) /\ ar_splitter row = false.
Proof.
  destruct (verdict_spec large_args large_stakes split_costs 1 false false false true) as (s0 & row & ag & H1 & H2 & H3 & H4 & H5 & H6 & H7 & H8); [vm_compute; reflexivity|]. exists s0, row, ag. split; [exact H1|]. split; [exact H2|]. split; [exact H5|].
  split; [intros E; apply H4 in E; discriminate|]. split; [split; [exact H6 | now apply H7] | exact H3].
Qed.
Example C84_instance_yes : exists s0 row ag, init low_a0_args [NonMyopic; NonMyopic] large_stakes split_costs = Ok s0 /\ row_of (fun x => x) (s_w s0) row ag /\ rss_ok (w_rss (s_w s0)) /\ r_scheme (w_rss (s_w s0)) <> CIP50 /\ 0 <= a_stake ag <= r_thr (w_rss (s_w s0)) /\ ar_splitter row = true.
Proof.
  destruct (verdict_spec low_a0_args large_stakes split_costs 1 true true false true) as (s0 & row & ag & H1 & H2 & H3 & H4 & H5 & H6 & H7 & H8); [vm_compute; reflexivity|]. exists s0, row, ag. split; [exact H1|]. split; [exact H2|]. split; [exact H5|].
  split; [intros E; apply H4 in E; discriminate|]. split; [split; [exact H6 | now apply H7] | exact H3].
Qed.
