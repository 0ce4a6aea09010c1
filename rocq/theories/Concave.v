(** The profit of splitting a stake into several pools is concave in their number; where a myopic agent's search ends (stakeholder_profiles.py:123-165, stakeholder.py:131-151). *)
From Coq Require Import ZArith List Bool Arith Lia QArith Qcanon.
From Verif Require Import Num Py QcTac Rewards SortedKeyList World Stakeholder ListFacts RewardFacts PropMove PropSearch TotalEval Profit.
Import ListNotations.
Local Open Scope Qc_scope.

(** ** concave functions *)
Definition concave (F : Qc -> Qc) : Prop := forall x y z : Qc, x <= y -> y <= z -> (z - y) * F x + (y - x) * F z <= (z - x) * F y.
Lemma concave_line (a b : Qc) : concave (fun x => a + b * x).
Proof. intros x y z _ _. apply (le_by _ _ 0); [apply Qcle_refl | ring]. Qed.
Lemma concave_add F G : concave F -> concave G -> concave (fun x => F x + G x).
Proof.
  intros HF HG x y z H1 H2. assert (A := HF x y z H1 H2). assert (B := HG x y z H1 H2).
  apply (le_by _ _ (((z - x) * F y - ((z - y) * F x + (y - x) * F z)) + ((z - x) * G y - ((z - y) * G x + (y - x) * G z)))); [|ring]. generalize dependent ((z - x) * F y). generalize dependent ((z - x) * G y). intros. qlra.
Qed.
Lemma concave_scale F (k : Qc) : 0 <= k -> concave F -> concave (fun x => k * F x).
Proof.
  intros Hk HF x y z H1 H2. assert (A := HF x y z H1 H2). assert (B : 0 <= k * ((z - x) * F y - ((z - y) * F x + (y - x) * F z))) by (apply Qcmult_nonneg; [exact Hk|]; generalize dependent ((z - x) * F y); intros; qlra).
  apply (le_by _ _ _ B). ring.
Qed.
Lemma concave_min F G : concave F -> concave G -> concave (fun x => Qcmin (F x) (G x)).
Proof.
  intros HF HG x y z H1 H2. assert (A := HF x y z H1 H2). assert (B := HG x y z H1 H2).
  assert (M : forall u v t : Qc, 0 <= t -> t * Qcmin u v <= t * u /\ t * Qcmin u v <= t * v).
  { intros u v t Ht. split; apply Qcmult_le_l; try exact Ht; unfold Qcmin; qcase; intros; qlra. }
  assert (Zy : 0 <= z - y) by qlra. assert (Yx : 0 <= y - x) by qlra. destruct (M (F x) (G x) _ Zy) as [M1 M2]. destruct (M (F z) (G z) _ Yx) as [M3 M4].
  assert (Q : Qcmin (F y) (G y) = F y \/ Qcmin (F y) (G y) = G y) by (unfold Qcmin; qcase; auto).
  destruct Q as [->| ->]; [eapply Qcle_trans; [|exact A] | eapply Qcle_trans; [|exact B]]; apply Qcplus_le_compat; assumption.
Qed.

(** ** the profit of all pools together *)
Section Splitting.
  Variable rs : rss QcA.
  Hypothesis R : rss_ok rs.
  Variables S c phi : Qc.
  Notation b := (r_thr rs). Notation a0 := (r_a0 rs).
  Definition rewards (x : Qc) : Qc := match r_scheme rs with CIP50 => Qcmin (Qcmin (a0 * S + 0 * x) (0 + a0 * b * x)) (0 + b * x) | _ => 1 / (1 + a0) * ((0 + b * x) + a0 * Qcmin (S + 0 * x) (0 + b * x)) end.
  Definition net (x : Qc) : Qc := rewards x + (- (c - phi * c) + - (phi * c) * x).
  Lemma net_concave : concave net.
  Proof.
    unfold net. apply (concave_add rewards (fun x => - (c - phi * c) + - (phi * c) * x)); [|apply concave_line]. destruct R as [Hb Ha]. unfold rewards.
    assert (P : 0 <= 1 / (1 + a0)) by (apply Qclt_le_weak, Qcdiv_pos; [reflexivity | qlra]).
    destruct (r_scheme rs).
    1,2,3: apply (concave_scale (fun x => (0 + b * x) + a0 * Qcmin (S + 0 * x) (0 + b * x)) _ P); apply (concave_add (fun x => 0 + b * x) (fun x => a0 * Qcmin (S + 0 * x) (0 + b * x))); [apply concave_line|];
      apply (concave_scale (fun x => Qcmin (S + 0 * x) (0 + b * x)) _ Ha); apply (concave_min (fun x => S + 0 * x) (fun x => 0 + b * x)); apply concave_line.
    apply (concave_min (fun x => Qcmin (a0 * S + 0 * x) (0 + a0 * b * x)) (fun x => 0 + b * x)); [|apply concave_line]. apply (concave_min (fun x => a0 * S + 0 * x) (fun x => 0 + a0 * b * x)); apply concave_line.
  Qed.
  Lemma min_scale (k x y : Qc) : 0 <= k -> k * Qcmin x y = Qcmin (k * x) (k * y).
  Proof.
    intros K. unfold Qcmin at 1. destruct (Qc_leb_spec x y) as [L|L]; symmetry.
    - apply Qcmin_id. now apply Qcmult_le_l.
    - apply Qcnot_le_lt in L. apply Qcmin_id_r. apply Qcmult_le_l; [exact K | now apply Qclt_le_weak].
  Qed.
  Lemma net_profit (n : Z) (pledge cost : Qc) : (1 <= n)%Z -> pledge_per_pool (A := QcA) S b n = Ok pledge -> cost_per_pool (A := QcA) n c phi = Ok cost ->
    Qc_ofZ n * pot_profit rs pledge cost = net (Qc_ofZ n).
  Proof.
    intros Hn Hp Hc. assert (Pn : 0 < Qc_ofZ n) by (apply Qc_ofZ_pos; lia). assert (Nn := Qc_pos_neq _ Pn). assert (Wn := Qclt_le_weak _ _ Pn). destruct R as [Hb Ha].
    unfold pledge_per_pool in Hp. destruct (Z.leb_spec n 0); [lia|]. cbn [ofZ QcA] in Hp. rewrite pdiv_ok in Hp by exact Nn. cbn [bind] in Hp. apply Ok_inj in Hp. rewrite pmin_min in Hp.
    unfold cost_per_pool in Hc. cbn [ofZ QcA] in Hc. rewrite pdiv_ok in Hc by exact Nn. apply Ok_inj in Hc. cbn [add mul QcA] in Hc. change (T QcA) with Qc in *.
    assert (Ec : Qc_ofZ n * cost = c + (Qc_ofZ n - 1) * phi * c).
    { rewrite <- Hc. replace (n - 1)%Z with (n + -1)%Z by lia. rewrite Qc_ofZ_add. change (Qc_ofZ (-1)) with (- (1) : Qc). field. exact Nn. }
    assert (Ep : Qc_ofZ n * pledge = Qcmin S (b * Qc_ofZ n)) by (rewrite <- Hp, min_scale by exact Wn; f_equal; [field; exact Nn | ring]).
    assert (Pb : pledge <= b) by (rewrite <- Hp; apply Qcmin_r).
    unfold pot_profit. rewrite reward_saturated by now split. unfold net, rewards. set (N := Qc_ofZ n) in *. clearbody N.
    assert (A1 : 1 + a0 <> 0) by (intros Z; assert (0 < 1 + a0) by qlra; rewrite Z in *; now apply (Qclt_not_eq 0 0)).
    replace (S + 0 * N) with S by ring. replace (0 + b * N) with (b * N) by ring. replace (a0 * S + 0 * N) with (a0 * S) by ring. replace (0 + a0 * b * N) with (a0 * (b * N)) by ring.
    assert (E1 : N * (reward rs pledge (pool_threshold (A := QcA) rs pledge) - cost) = N * reward rs pledge (pool_threshold (A := QcA) rs pledge) - N * cost) by ring.
    assert (Main : N * match r_scheme rs with CIP50 => Qcmin (a0 * pledge) b | _ => (b + a0 * Qcmin pledge b) / (1 + a0) end =
      match r_scheme rs with CIP50 => Qcmin (Qcmin (a0 * S) (a0 * (b * N))) (b * N) | _ => 1 / (1 + a0) * (b * N + a0 * Qcmin S (b * N)) end).
    { destruct (r_scheme rs). 1,2,3: rewrite (Qcmin_id pledge b) by exact Pb; rewrite <- Ep; field; exact A1.
      rewrite (min_scale N (a0 * pledge) b) by exact Wn. rewrite <- (min_scale a0 S (b * N)) by exact Ha. rewrite <- Ep. f_equal; ring. }
    match goal with |- N * (?x - cost) = _ => replace (N * (x - cost)) with (N * x - N * cost) by ring end. rewrite Main, Ec. ring.
  Qed.

  (** with a positive profit for one number of pools, a number without profit has a better neighbour *)
  Definition profit_at (n : Z) (u : Qc) : Prop := exists pledge cost, pledge_per_pool (A := QcA) S b n = Ok pledge /\ cost_per_pool (A := QcA) n c phi = Ok cost /\ u = pot_profit rs pledge cost.
  Lemma net_toward (x y z : Qc) : x < y -> y <= z -> net x <= 0 -> 0 < net z -> net x < net y.
  Proof.
    intros H1 H2 Hx Hz. assert (C := net_concave x y z (Qclt_le_weak _ _ H1) H2). destruct (Qclt_le_dec (net x) (net y)) as [L|L]; [exact L|]. exfalso.
    assert (A : (z - x) * net y <= (z - x) * net x) by (apply Qcmult_le_l; [qlra | exact L]).
    assert (B : 0 < (y - x) * (net z - net x)) by (apply Qcmult_pos; qlra).
    assert (E : (z - y) * net x + (y - x) * net z = (z - x) * net x + (y - x) * (net z - net x)) by ring. rewrite E in C. clear E. generalize dependent ((z - x) * net x). generalize dependent ((z - x) * net y). generalize dependent ((y - x) * (net z - net x)). intros. qlra.
  Qed.
  Lemma net_back (x y z : Qc) : x <= y -> y < z -> net z <= 0 -> 0 < net x -> net z < net y.
  Proof.
    intros H1 H2 Hz Hx. assert (C := net_concave x y z H1 (Qclt_le_weak _ _ H2)). destruct (Qclt_le_dec (net z) (net y)) as [L|L]; [exact L|]. exfalso.
    assert (A : (z - x) * net y <= (z - x) * net z) by (apply Qcmult_le_l; [qlra | exact L]).
    assert (B : 0 < (z - y) * (net x - net z)) by (apply Qcmult_pos; qlra).
    assert (E : (z - y) * net x + (y - x) * net z = (z - x) * net z + (z - y) * (net x - net z)) by ring. rewrite E in C. clear E. generalize dependent ((z - x) * net z). generalize dependent ((z - x) * net y). generalize dependent ((z - y) * (net x - net z)). intros. qlra.
  Qed.
  (** [u n] is the total of the profits if there is none, and positive if there is one *)
  Definition fits (k : Z) (u : Z -> Qc) : Prop := forall n, (1 <= n <= k)%Z -> (net (Qc_ofZ n) <= 0 -> u n = net (Qc_ofZ n)) /\ (0 < net (Qc_ofZ n) -> 0 < u n).
  Lemma local_max_profit k u t n : fits k u -> (1 <= t <= k)%Z -> (1 <= n <= k)%Z -> 0 < net (Qc_ofZ n) ->
    ((1 < t)%Z -> ~ u t < u (t - 1)%Z) -> ((t < k)%Z -> ~ u t < u (t + 1)%Z) -> 0 < net (Qc_ofZ t).
  Proof.
    intros F Ht Hn Pn N1 N2. destruct (Qclt_le_dec 0 (net (Qc_ofZ t))) as [L|L]; [exact L|]. exfalso. assert (Ut := proj1 (F t Ht) L).
    assert (Tn : t <> n) by (intros ->; exact (Qclt_not_le _ _ Pn L)).
    destruct (Z.lt_ge_cases t n) as [Lt|Lt].
    - apply N2; [lia|]. rewrite Ut. assert (G := net_toward (Qc_ofZ t) (Qc_ofZ (t + 1)) (Qc_ofZ n) ltac:(apply Qc_ofZ_lt; lia) ltac:(apply Qc_ofZ_le; lia) L Pn).
      destruct (F (t + 1)%Z ltac:(lia)) as [F1 F2]. destruct (Qclt_le_dec 0 (net (Qc_ofZ (t + 1)))) as [L1|L1]; [exact (Qcle_lt_trans _ _ _ L (F2 L1)) | now rewrite (F1 L1)].
    - apply N1; [lia|]. rewrite Ut. assert (G := net_back (Qc_ofZ n) (Qc_ofZ (t - 1)) (Qc_ofZ t) ltac:(apply Qc_ofZ_le; lia) ltac:(apply Qc_ofZ_lt; lia) L Pn).
      destruct (F (t - 1)%Z ltac:(lia)) as [F1 F2]. destruct (Qclt_le_dec 0 (net (Qc_ofZ (t - 1)))) as [L1|L1]; [exact (Qcle_lt_trans _ _ _ L (F2 L1)) | now rewrite (F1 L1)].
  Qed.
  Lemma net_sign (n : Z) (pledge cost : Qc) : (1 <= n)%Z -> pledge_per_pool (A := QcA) S b n = Ok pledge -> cost_per_pool (A := QcA) n c phi = Ok cost -> (0 < pot_profit rs pledge cost <-> 0 < net (Qc_ofZ n)).
  Proof.
    intros Hn Hp Hc. assert (Pn : 0 < Qc_ofZ n) by (apply Qc_ofZ_pos; lia). rewrite <- (net_profit n pledge cost Hn Hp Hc). split; intros H; [now apply Qcmult_pos|].
    destruct (Qclt_le_dec 0 (pot_profit rs pledge cost)) as [L|L]; [exact L|]. exfalso. assert (Q : Qc_ofZ n * pot_profit rs pledge cost <= Qc_ofZ n * 0) by (apply Qcmult_le_l; [now apply Qclt_le_weak | exact L]). rewrite Qcmult_0_r in Q. exact (Qclt_not_le _ _ H Q).
  Qed.
End Splitting.

(** ** what a myopic agent expects from a number of pools *)
Section Myopic.
  Variable rs : rss QcA.
  Hypothesis R : rss_ok rs.
  Variables (w : world QcA) (ag : agent QcA).
  Hypothesis Er : w_rss w = rs.
  Hypothesis My : a_profile ag = Myopic.
  Lemma margin_range (pp t m : Qc) : 0 <= t -> suitable_margin (A := QcA) pp t = Ok m -> 0 <= m /\ m <= 1.
  Proof.
    intros Ht H. rewrite suitable_margin_ok in H. apply Ok_inj in H. subst m. destruct (Qc_ltb_spec 0 pp) as [L|L]; [|split; [apply Qcle_refl | discriminate]].
    split; [apply Qcmax_r|]. apply Qcmax_lub; [|discriminate]. assert (0 <= t / pp) by now apply Qcdiv_nonneg. qlra.
  Qed.
  Lemma myopic_utility n ms (u pledge cost : Qc) : (1 <= n)%Z -> pledge_per_pool (A := QcA) (a_stake ag) (r_thr rs) n = Ok pledge -> cost_per_pool (A := QcA) n (a_cost ag) (w_phi w) = Ok cost -> 0 < pledge -> 0 < pool_threshold (A := QcA) rs pledge ->
    margins_and_utility w ag n = Ok (ms, u) -> (pot_profit rs pledge cost <= 0 -> u = Qc_ofZ n * pot_profit rs pledge cost) /\ (0 < pot_profit rs pledge cost -> 0 < u).
  Proof.
    intros Hn Hp Hc Pp Ps H. unfold margins_and_utility in H. rewrite My in H. unfold agent_cost_per_pool, agent_pledge_per_pool in H. rewrite Er, Hc in H. cbn [bind] in H. rewrite Hp in H. cbn [bind] in H.
    apply bind_ok in H as (st & _ & H). apply bind_ok in H as (owned & _ & H). apply bind_ok in H as (es & _ & H). apply bind_ok in H as (profit & _ & H). apply bind_ok in H as (fixed & _ & H).
    assert (G : forall l acc (r : list (T QcA) * T QcA), foldM (fun (acc : list (T QcA) * T QcA) t => let '(margins, u) := acc in let! target := py_index fixed (r_k rs - t)%Z in
               let! des := (match target with None => Ok (zero (a := QcA)) | Some r => let! p := deref w r in let! cp := current_profit rs (p_stake p) (p_pledge p) (p_cost p) in Ok (desirability (p_margin p) cp) end) in
               let! m := suitable_margin profit (add (a := QcA) des boost) in let! ou := operator_utility rs (pool_threshold (A := QcA) rs pledge) pledge m cost in Ok (margins ++ [m], add (a := QcA) u ou)) l acc = Ok r ->
               (pot_profit rs pledge cost <= 0 -> (snd r : Qc) = snd acc + Qc_ofZ (Z.of_nat (length l)) * pot_profit rs pledge cost) /\ (0 < pot_profit rs pledge cost -> l = [] /\ r = acc \/ (snd acc : Qc) < snd r)).
    { clear H. induction l as [|t l IH]; intros [mg v] r H; cbn [foldM] in H.
      - apply Ok_inj in H. subst r. cbn [length snd]. change (Z.of_nat 0) with 0%Z. split; [intros _; now rewrite Qc_ofZ_0, Qcmult_0_l, Qcplus_0_r | intros _; now left].
      - apply bind_ok in H as (acc1 & H1 & H). apply bind_ok in H1 as (e & _ & H1). apply bind_ok in H1 as (des & Hd & H1). apply bind_ok in H1 as (m & Hm & H1). apply bind_ok in H1 as (ou & Ho & H1). apply Ok_inj in H1. subst acc1.
        destruct (IH _ _ H) as [I1 I2]. clear IH H. cbn [snd] in I1, I2 |- *. cbn [add QcA] in I1, I2. change (T QcA) with Qc in *.
        assert (D0 : 0 <= (des : Qc)).
        { destruct e as [r0|]; [|apply Ok_inj in Hd; subst des; apply Qcle_refl]. apply bind_ok in Hd as (p & _ & Hd). apply bind_ok in Hd as (cp & _ & Hd). apply Ok_inj in Hd. subst des. unfold desirability. rewrite pmax_max. apply Qcmax_r. }
        assert (B0 : 0 <= (boost (a := QcA) : Qc)) by discriminate. apply margin_range in Hm; [|cbn [add QcA]; qlra].
        rewrite op_util_ok in Ho; [|exact R | now apply Qc_pos_neq]. apply Ok_inj in Ho. rewrite operator_reward_eq in Ho. change (reward rs pledge (pool_threshold (A := QcA) rs pledge) - cost) with (pot_profit rs pledge cost) in Ho. set (pp := pot_profit rs pledge cost) in *.
        assert (Ff : 0 < pledge / pool_threshold (A := QcA) rs pledge) by now apply Qcdiv_pos. split.
        + intros L. rewrite (I1 L). destruct (Qc_leb_spec pp 0); [|contradiction]. subst ou. cbn [length]. rewrite Nat2Z.inj_succ, <- Z.add_1_l, Qc_ofZ_add, Qc_ofZ_1. ring.
        + intros L. right. destruct (Qc_leb_spec pp 0) as [L'|_]; [now apply Qclt_not_le in L'|]. assert (Po : 0 < ou).
          { subst ou. apply Qcmult_pos; [exact L|]. set (f := pledge / pool_threshold (A := QcA) rs pledge) in *. clearbody f. destruct Hm as [M0 M1]. destruct (Qclt_le_dec 0 m) as [Lm|Lm].
            - assert (0 <= (1 - m) * f) by (apply Qcmult_nonneg; qlra). generalize dependent ((1 - m) * f). intros. qlra.
            - assert (m = 0) by now apply Qcle_antisym. subst m. replace (0 + (1 - 0) * f) with f by ring. exact Ff. }
          destruct (I2 L) as [[_ ->]|I3]; cbn [snd] in *; qlra. }
    apply G in H. cbn [snd] in H. rewrite zrange_length in H. replace (Z.of_nat (Z.to_nat (n + 1 - 1))) with n in H by lia. destruct H as [H1 H2]. split.
    - intros L. rewrite (H1 L). change (zero (a := QcA)) with (0 : Qc). ring.
    - intros L. destruct (H2 L) as [[Z _]|I]; [|exact I]. exfalso. assert (Zl := zrange_length 1 (n + 1)). rewrite Z in Zl. cbn [length] in Zl. lia.
  Qed.
End Myopic.
