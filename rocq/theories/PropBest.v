(** The number of pools an operator settles on (C89).  The documentation of choose_pool_strategy (stakeholder.py:117-129) says that the search finds the best number
    because "the utility of an agent as a function of the number of pools to operate has only one local max". *)
From Coq Require Import ZArith QArith Qcanon List Bool Arith Lia Permutation Sorted.
From Verif Require Import Num Py QcTac Rewards RewardFacts SortedKeyList SLFacts World Stakeholder Sched Sim Init Reach ListFacts Inv Eval Exec Static Step SimInv Spec Greedy PropInit ExactInv PropExact PropState PropMove PropSearch Demo.
From Verif Require PropHelper.
From Verif Require Import PropTopK TotalEval Profit PropTotal Concave.
Import ListNotations.
Open Scope nat_scope.
Local Open Scope Qc_scope.

(** * Specification *)
(** no number of pools from 1 to k has a higher utility, by the agent's own calculation, than [n] *)
Definition best_number (w : world QcA) (ag : agent QcA) (n : Z) : Prop :=
  (1 <= n <= r_k (w_rss w))%Z /\ exists ms (u : Qc), margins_and_utility w ag n = Ok (ms, u) /\
  forall n' ms' (u' : Qc), (1 <= n' <= r_k (w_rss w))%Z -> margins_and_utility w ag n' = Ok (ms', u') -> u' <= u.
(** a pool of another agent *)
Definition rival_pool (w : world QcA) (ag : agent QcA) (p : pool QcA) : Prop := (exists id, active w id p) /\ p_owner p <> a_id ag.
(** however many pools the agent operates, each of them could be more desirable than every pool of the others, now (by 1e-6) and in the long run *)
Definition superior (w : world QcA) (ag : agent QcA) : Prop :=
  forall n (pledge cost v : Qc), (1 <= n <= r_k (w_rss w))%Z -> pledge_per_pool (A := QcA) (a_stake ag) (r_thr (w_rss w)) n = Ok pledge -> cost_per_pool (A := QcA) n (a_cost ag) (w_phi w) = Ok cost ->
  potential_profit (A := QcA) (w_rss w) pledge cost = Ok v -> boost (a := QcA) <= v /\ forall p, rival_pool w ag p -> p_des p + boost (a := QcA) <= v /\ p_pp p <= v.
(** the pools of the others that are more desirable now are so in the long run *)
Definition aligned (w : world QcA) (ag : agent QcA) : Prop := forall p q, rival_pool w ag p -> rival_pool w ag q -> p_des p < p_des q -> p_pp p <= p_pp q.

(** * Sequences without dents *)
Section Sequence.
  Variables (k : Z) (u : Z -> Qc).
  Hypothesis C : forall n, (1 < n < k)%Z -> u (n - 1)%Z + u (n + 1)%Z <= u n + u n.
  Lemma falls t : (1 <= t)%Z -> ((t < k)%Z -> u (t + 1)%Z <= u t) -> forall j : nat, (t + Z.of_nat j <= k)%Z -> u (t + Z.of_nat j)%Z <= u t /\ ((t + Z.of_nat j < k)%Z -> u (t + Z.of_nat j + 1)%Z <= u (t + Z.of_nat j)%Z).
  Proof.
    intros Ht N. induction j as [|j IH]; intros Hj.
    - cbn [Z.of_nat]. rewrite Z.add_0_r. split; [apply Qcle_refl | exact N].
    - destruct IH as [I1 I2]; [lia|]. specialize (I2 ltac:(lia)). replace (t + Z.of_nat (S j))%Z with (t + Z.of_nat j + 1)%Z by lia. split; [qlra|]. intros L.
      assert (X := C (t + Z.of_nat j + 1)%Z ltac:(lia)). replace (t + Z.of_nat j + 1 - 1)%Z with (t + Z.of_nat j)%Z in X by lia. qlra.
  Qed.
  Lemma rises t : (t <= k)%Z -> ((1 < t)%Z -> u (t - 1)%Z <= u t) -> forall j : nat, (1 <= t - Z.of_nat j)%Z -> u (t - Z.of_nat j)%Z <= u t /\ ((1 < t - Z.of_nat j)%Z -> u (t - Z.of_nat j - 1)%Z <= u (t - Z.of_nat j)%Z).
  Proof.
    intros Ht N. induction j as [|j IH]; intros Hj.
    - cbn [Z.of_nat]. rewrite Z.sub_0_r. split; [apply Qcle_refl | exact N].
    - destruct IH as [I1 I2]; [lia|]. specialize (I2 ltac:(lia)). replace (t - Z.of_nat (S j))%Z with (t - Z.of_nat j - 1)%Z by lia. split; [qlra|]. intros L.
      assert (X := C (t - Z.of_nat j - 1)%Z ltac:(lia)). replace (t - Z.of_nat j - 1 + 1)%Z with (t - Z.of_nat j)%Z in X by lia. qlra.
  Qed.
  Lemma local_is_global t : (1 <= t <= k)%Z -> ((1 < t)%Z -> u (t - 1)%Z <= u t) -> ((t < k)%Z -> u (t + 1)%Z <= u t) -> forall n, (1 <= n <= k)%Z -> u n <= u t.
  Proof.
    intros Ht N1 N2 n Hn. destruct (Z.le_gt_cases t n) as [L|L].
    - replace n with (t + Z.of_nat (Z.to_nat (n - t)))%Z by lia. apply falls; [lia | exact N2 | lia].
    - replace n with (t - Z.of_nat (Z.to_nat (t - n)))%Z by lia. apply rises; [lia | exact N1 | lia].
  Qed.
End Sequence.

(** [S] is the sum of the first [n] of a growing sequence, [d] and [e] its [n]-th and next entry; [g0], [g1], [g2] are the values of max (1 - c / x) 0 at n - 1, n and n + 1 *)
Lemma dent (n g0 g1 g2 c d e S : Qc) : 0 <= d -> d <= e -> 0 <= S -> S <= n * d -> 0 <= g2 -> g0 <= g2 ->
  (n - 1) * g0 = n - 1 - Qcmin c (n - 1) -> n * g1 = n - Qcmin c n -> (n + 1) * g2 = n + 1 - Qcmin c (n + 1) ->
  g1 * S + g1 * S <= g0 * (S - d) + g2 * (S + e).
Proof.
  intros Hd He S0 Sn G2 G02 E0 E1 E2.
  assert (K : Qcmin c (n - 1) + Qcmin c (n + 1) <= Qcmin c n + Qcmin c n) by (unfold Qcmin; qcase; qlra).
  assert (A : 0 <= g2 * (e - d)) by (apply Qcmult_nonneg; qlra).
  apply (le_by _ _ ((g0 + g2 - (g1 + g1)) * S + d * (g2 - g0) + g2 * (e - d))); [|ring].
  assert (B : 0 <= d * (g2 - g0)) by (apply Qcmult_nonneg; qlra).
  destruct (Qclt_le_dec (g0 + g2 - (g1 + g1)) 0) as [L|L].
  - assert (X : 0 <= - (g0 + g2 - (g1 + g1)) * (n * d - S)) by (apply Qcmult_nonneg; qlra).
    assert (Y : 0 <= d * (Qcmin c n + Qcmin c n - (Qcmin c (n - 1) + Qcmin c (n + 1)))) by (apply Qcmult_nonneg; [exact Hd | qlra]).
    assert (Z0 : (g0 + g2 - (g1 + g1)) * (n * d) + d * (g2 - g0) = d * (Qcmin c n + Qcmin c n - (Qcmin c (n - 1) + Qcmin c (n + 1)))).
    { transitivity (d * ((n - 1) * g0 + (n + 1) * g2 - (n * g1 + n * g1))); [ring|]. rewrite E0, E1, E2. ring. }
    assert (X' : - (g0 + g2 - (g1 + g1)) * (n * d - S) = (g0 + g2 - (g1 + g1)) * S - (g0 + g2 - (g1 + g1)) * (n * d)) by ring. rewrite X' in X. clear X'.
    generalize dependent ((g0 + g2 - (g1 + g1)) * S). generalize dependent ((g0 + g2 - (g1 + g1)) * (n * d)). generalize dependent (d * (g2 - g0)). generalize dependent (g2 * (e - d)). generalize dependent (d * (Qcmin c n + Qcmin c n - (Qcmin c (n - 1) + Qcmin c (n + 1)))). clear. intros. qlra.
  - assert (X : 0 <= (g0 + g2 - (g1 + g1)) * S) by (apply Qcmult_nonneg; assumption). generalize dependent ((g0 + g2 - (g1 + g1)) * S). generalize dependent (d * (g2 - g0)). generalize dependent (g2 * (e - d)). clear. intros. qlra.
Qed.

(** * What a non-myopic operator expects *)
Section Operator.
  Context (w : world QcA) (ag : agent QcA) (m : nat).
  Hypothesis R : rank_ok (fun p => Ok (pool_key p)) (w_heap w) m (values (w_pools w)) (w_rank w).
  Hypothesis Reg : forall r, In r (values (w_pools w)) -> exists id p, get (w_pools w) id = Some r /\ get (w_heap w) r = Some p /\ 0 <= p_des p /\ 0 < p_pp p.
  Hypothesis Pr : a_profile ag = NonMyopic.
  Hypothesis Rs : rss_ok (w_rss w).
  Hypothesis Nc : r_scheme (w_rss w) <> CIP50.
  Hypothesis Sp : 0 < a_stake ag.
  Hypothesis SU : superior w ag.
  Hypothesis AL : aligned w ag.
  Notation a := (a_id ag). Notation rs := (w_rss w). Notation k := (r_k (w_rss w)). Notation b := (r_thr (w_rss w)). Notation eps := (boost (a := QcA)).
  Notation fixed := (filter (other w (a_id ag)) (sl_elems (w_rank w))).
  Hypothesis Lf : (Z.to_nat (r_k (w_rss w)) < length (filter (other w (a_id ag)) (sl_elems (w_rank w))))%nat.

  (** what the desirability of a pool has to be to replace an entry of the ranking *)
  Definition level (e : option nat) : Qc := match e with None => eps | Some r => match get (w_heap w) r with Some p => Qcmax (p_des p + eps) (p_pp p) | None => eps end end.
  Lemma entry e : In e (sl_elems (w_rank w)) -> e = None \/ exists r id p, e = Some r /\ get (w_pools w) id = Some r /\ get (w_heap w) r = Some p /\ 0 <= p_des p /\ 0 < p_pp p.
  Proof.
    intros J. destruct R as (_ & P & _). apply (Permutation_in _ P) in J. apply in_app_iff in J as [J|J]; [left; now apply repeat_spec in J|]. right. apply in_map_iff in J as (r & <- & J). destruct (Reg r J) as (id & p & G). exists r, id, p. tauto.
  Qed.
  Lemma fixed_entry e : In e fixed -> e = None \/ exists r p, e = Some r /\ get (w_heap w) r = Some p /\ rival_pool w ag p /\ 0 <= p_des p /\ 0 < p_pp p.
  Proof.
    intros J. apply filter_In in J as [J O]. destruct (entry e J) as [->|(r & id & p & -> & G & Gp & D & Q)]; [now left|]. right. exists r, p. split; [reflexivity|]. split; [exact Gp|]. split; [|now split].
    unfold other in O. rewrite Gp in O. apply negb_true_iff, Nat.eqb_neq in O. split; [|exact O]. exists id, r. now split.
  Qed.
  Lemma level_low e : In e fixed -> eps <= level e.
  Proof.
    intros J. destruct (fixed_entry e J) as [->|(r & p & -> & G & _ & D & _)]; [apply Qcle_refl|]. unfold level. rewrite G. eapply Qcle_trans; [|apply Qcmax_l]. qlra.
  Qed.
  Lemma level_high e n (pledge cost v : Qc) : In e fixed -> (1 <= n <= k)%Z -> pledge_per_pool (A := QcA) (a_stake ag) b n = Ok pledge -> cost_per_pool (A := QcA) n (a_cost ag) (w_phi w) = Ok cost ->
    potential_profit (A := QcA) rs pledge cost = Ok v -> level e <= v.
  Proof.
    intros J Hn Hp Hc Hv. destruct (SU n pledge cost v Hn Hp Hc Hv) as [S1 S2]. destruct (fixed_entry e J) as [->|(r & p & -> & G & Rv & _)]; [exact S1|]. unfold level. rewrite G. destruct (S2 p Rv). now apply Qcmax_lub.
  Qed.
  Lemma levels_sorted : StronglySorted (fun x y => level y <= level x) fixed.
  Proof.
    destruct R as (S & _ & F).
    assert (Q : StronglySorted (fun x y => In x (map snd (w_rank w)) /\ In y (map snd (w_rank w)) /\ (other w a x = true -> other w a y = true -> level y <= level x)) (sl_elems (w_rank w))).
    { apply (sorted_map (fun x y => key_ltb (fst y) (fst x) = false) _ snd); [|exact S]. intros [kx e] [ky e'] J J' L. cbn [fst snd] in *.
      assert (I1 : In e (map snd (w_rank w))) by (apply in_map_iff; now exists (kx, e)). assert (I2 : In e' (map snd (w_rank w))) by (apply in_map_iff; now exists (ky, e')). split; [exact I1|]. split; [exact I2|]. intros O1 O2.
      assert (X1 : In e fixed) by (apply filter_In; now split). assert (X2 : In e' fixed) by (apply filter_In; now split). apply F in J, J'.
      destruct (fixed_entry e X1) as [->|(r & p & -> & G & Rv & D & Q)]; destruct (fixed_entry e' X2) as [->|(r' & p' & -> & G' & Rv' & D' & Q')].
      - apply Qcle_refl.
      - exfalso. subst kx. destruct J' as (q & Gq & Kq). rewrite G' in Gq. injection Gq as <-. apply Ok_inj in Kq. subst ky. unfold pool_key, key_none, key_ltb, opp in L. cbn [eqb ltb sub zero QcA] in L.
        destruct (Qc_eqb_spec (0 - p_des p') 0) as [E|E]; [destruct (Qc_eqb_spec (0 - p_pp p') 0) as [E2|E2]; [qlra | destruct (Qc_ltb_spec (0 - p_pp p') 0); [discriminate | qlra]]|].
        destruct (Qc_ltb_spec (0 - p_des p') 0); [discriminate | apply E; qlra].
      - now apply level_low.
      - destruct J as (q & Gq & Kq). rewrite G in Gq. injection Gq as <-. apply Ok_inj in Kq. subst kx. destruct J' as (q & Gq & Kq). rewrite G' in Gq. injection Gq as <-. apply Ok_inj in Kq. subst ky.
        unfold pool_key, key_ltb, opp in L. cbn [eqb ltb sub zero QcA] in L.
        assert (M : p_des p' <= p_des p /\ p_pp p' <= p_pp p).
        { destruct (Qc_eqb_spec (0 - p_des p') (0 - p_des p)) as [E|E].
          - split; [qlra|]. destruct (Qc_eqb_spec (0 - p_pp p') (0 - p_pp p)) as [E2|E2]; [qlra|]. destruct (Qc_ltb_spec (0 - p_pp p') (0 - p_pp p)); [discriminate | qlra].
          - destruct (Qc_ltb_spec (0 - p_des p') (0 - p_des p)) as [E'|E']; [discriminate|]. assert (Lt : p_des p' < p_des p) by (destruct (Qclt_le_dec (p_des p') (p_des p)); [assumption | exfalso; apply E; qlra]). split; [qlra|]. now apply (AL p' p Rv' Rv). }
        unfold level. rewrite G, G'. destruct M. unfold Qcmax. qcase; intros; qlra. }
    clear -Q. induction Q as [|e l Q IH Fa]; [constructor|]. cbn [filter]. destruct (other w a e) eqn:O; [|exact IH]. constructor; [exact IH|]. rewrite Forall_forall in *. intros y J. apply filter_In in J as [J O']. destruct (Fa y J) as (_ & _ & H). now apply H.
  Qed.

  (** the level of the t-th pool *)
  Definition lev (t : Z) : Qc := level (nth (Z.to_nat (k - t)) fixed None).
  Lemma lev_entry t : (1 <= t <= k)%Z -> exists e, nth_error fixed (Z.to_nat (k - t)) = Some e /\ In e fixed /\ lev t = level e.
  Proof.
    intros Ht. destruct (nth_error fixed (Z.to_nat (k - t))) as [e|] eqn:E; [|apply nth_error_None in E; lia]. exists e. split; [reflexivity|]. split; [eapply nth_error_In; exact E|]. unfold lev. now rewrite (nth_error_nth _ _ _ E).
  Qed.
  Lemma sorted_nth {X} (P : X -> X -> Prop) l : StronglySorted P l -> forall i j x y, (i < j)%nat -> nth_error l i = Some x -> nth_error l j = Some y -> P x y.
  Proof.
    induction 1 as [|z l S IH F]; intros i j x y L E1 E2; [destruct i; discriminate|]. destruct j as [|j]; [lia|]. cbn in E2. destruct i as [|i]; cbn in E1.
    - injection E1 as <-. rewrite Forall_forall in F. apply F. eapply nth_error_In. exact E2.
    - apply (IH i j); [lia | exact E1 | exact E2].
  Qed.
  Lemma lev_grows t t' : (1 <= t)%Z -> (t <= t')%Z -> (t' <= k)%Z -> lev t <= lev t'.
  Proof.
    intros H1 H2 H3. destruct (Z.eq_dec t t') as [->|Ne]; [apply Qcle_refl|]. destruct (lev_entry t ltac:(lia)) as (e & E & _ & ->). destruct (lev_entry t' ltac:(lia)) as (e' & E' & _ & ->).
    exact (sorted_nth _ _ levels_sorted (Z.to_nat (k - t')) (Z.to_nat (k - t)) e' e ltac:(lia) E' E).
  Qed.
  Definition levs (n : Z) : Qc := Qc_sum (map lev (zrange 1 (n + 1))).
  Lemma levs_next n : (0 <= n)%Z -> levs (n + 1) = levs n + lev (n + 1).
  Proof.
    intros Hn. unfold levs, zrange. replace (Z.to_nat (n + 1 + 1 - 1)) with (S (Z.to_nat (n + 1 - 1))) by lia. rewrite seq_S, !map_app, PropHelper.Qc_sum_app. cbn [map Qc_sum fold_right]. replace (1 + Z.of_nat (0 + Z.to_nat (n + 1 - 1)))%Z with (n + 1)%Z by lia. ring.
  Qed.
  Lemma levs_bound n : (1 <= n <= k)%Z -> 0 <= levs n /\ levs n <= Qc_ofZ n * lev n.
  Proof.
    intros Hn. assert (G : forall l, (forall t, In t l -> 0 <= lev t /\ lev t <= lev n) -> 0 <= Qc_sum (map lev l) /\ Qc_sum (map lev l) <= Qc_ofZ (Z.of_nat (length l)) * lev n).
    { induction l as [|t l IH]; intros H; cbn [map Qc_sum fold_right length]; [change (Z.of_nat 0) with 0%Z; rewrite Qc_ofZ_0, Qcmult_0_l; split; apply Qcle_refl|].
      destruct IH as [I1 I2]; [intros; apply H; now right|]. destruct (H t (or_introl eq_refl)) as [H1 H2]. fold (Qc_sum (map lev l)). rewrite Nat2Z.inj_succ, <- Z.add_1_l, Qc_ofZ_add, Qc_ofZ_1, Qcmult_plus_distr_l, Qcmult_1_l.
      generalize dependent (Qc_ofZ (Z.of_nat (length l)) * lev n). generalize dependent (Qc_sum (map lev l)). intros. split; qlra. }
    destruct (G (zrange 1 (n + 1))) as [G1 G2].
    - intros t J. apply zrange_In in J. split; [|apply lev_grows; lia]. destruct (lev_entry t ltac:(lia)) as (e & _ & J' & ->). assert (Z0 := level_low e J'). assert (B := boost_pos). qlra.
    - rewrite zrange_length in G2. replace (Z.of_nat (Z.to_nat (n + 1 - 1))) with n in G2 by lia. now split.
  Qed.

  (** what the delegators of a pool get of its profit *)
  Definition share (n : Z) : Qc := 1 - Qcmin (a_stake ag / Qc_ofZ n) b / b.
  Lemma bpos : 0 < b.  Proof. exact (proj1 Rs). Qed.
  Lemma share_eq n : (1 <= n)%Z -> Qc_ofZ n * share n = Qc_ofZ n - Qcmin (a_stake ag / b) (Qc_ofZ n).
  Proof.
    intros Hn. assert (B := bpos). assert (Pn : 0 < Qc_ofZ n) by (apply Qc_ofZ_pos; lia). unfold share. set (N := Qc_ofZ n) in *. assert (Nn := Qc_pos_neq _ Pn). assert (Nb := Qc_pos_neq _ B).
    replace (N * (1 - Qcmin (a_stake ag / N) b / b)) with (N - (N / b) * Qcmin (a_stake ag / N) b) by (field; exact Nb).
    rewrite min_scale by (apply Qclt_le_weak, Qcdiv_pos; assumption). do 2 f_equal; field; auto.
  Qed.
  Lemma share_range n : (1 <= n)%Z -> 0 <= share n.
  Proof.
    intros Hn. assert (B := bpos). unfold share. assert (H : Qcmin (a_stake ag / Qc_ofZ n) b <= b) by apply Qcmin_r. assert (Q : Qcmin (a_stake ag / Qc_ofZ n) b / b <= 1); [|qlra].
    apply (le_by _ _ ((b - Qcmin (a_stake ag / Qc_ofZ n) b) / b)); [apply Qcdiv_nonneg; [qlra | exact B]|]. field. now apply Qc_pos_neq.
  Qed.
  Lemma share_grows n n' : (1 <= n)%Z -> (n <= n')%Z -> share n <= share n'.
  Proof.
    intros Hn Hl. assert (B := bpos). unfold share. assert (P1 : 0 < Qc_ofZ n) by (apply Qc_ofZ_pos; lia). assert (P2 : 0 < Qc_ofZ n') by (apply Qc_ofZ_pos; lia). assert (L : Qc_ofZ n <= Qc_ofZ n') by now apply Qc_ofZ_le.
    assert (Q : a_stake ag / Qc_ofZ n' <= a_stake ag / Qc_ofZ n).
    { apply (le_by _ _ (a_stake ag * (Qc_ofZ n' - Qc_ofZ n) / (Qc_ofZ n * Qc_ofZ n'))); [|field; split; now apply Qc_pos_neq]. apply Qcdiv_nonneg; [apply Qcmult_nonneg; qlra | now apply Qcmult_pos]. }
    assert (M : Qcmin (a_stake ag / Qc_ofZ n') b <= Qcmin (a_stake ag / Qc_ofZ n) b) by (unfold Qcmin; qcase; intros; qlra).
    apply (le_by _ _ ((Qcmin (a_stake ag / Qc_ofZ n) b - Qcmin (a_stake ag / Qc_ofZ n') b) / b)); [apply Qcdiv_nonneg; [qlra | exact B]|]. field. now apply Qc_pos_neq.
  Qed.

  Definition total_utility (n : Z) : Qc := net rs (a_stake ag) (a_cost ag) (w_phi w) (Qc_ofZ n) - share n * levs n.
  Lemma utility_is n ms (u : Qc) : (1 <= n <= k)%Z -> margins_and_utility w ag n = Ok (ms, u) -> u = total_utility n.
  Proof.
    intros Hn H. unfold margins_and_utility in H. rewrite Pr in H. apply bind_ok in H as (cost & Hc & H). apply bind_ok in H as (pledge & Hp & H). cbv zeta in H.
    apply bind_ok in H as (v & Hv & H). apply bind_ok in H as (fx & Hf & H). unfold agent_cost_per_pool in Hc. unfold agent_pledge_per_pool in Hp.
    assert (Hr : rankings w ag = Ok (w_rank w)) by (unfold rankings; now rewrite Pr). apply (fixed_is w a (w_rank w) ag fx eq_refl Hr) in Hf. subst fx.
    assert (Et : pool_threshold (A := QcA) rs pledge = b) by (unfold pool_threshold; destruct (r_scheme rs); congruence). rewrite Et in H. assert (B := bpos). assert (Nb := Qc_pos_neq _ B).
    assert (Pv : 0 < v) by (destruct (SU n pledge cost v Hn Hp Hc Hv) as [S1 _]; assert (E := boost_pos); qlra).
    assert (Ev : v = pot_profit rs pledge cost) by (rewrite potential_profit_ok in Hv by exact Rs; now injection Hv as <-).
    assert (Epl : pledge = Qcmin (a_stake ag / Qc_ofZ n) b).
    { assert (Hp' := Hp). unfold pledge_per_pool in Hp'. destruct (Z.leb_spec n 0); [lia|]. cbn [ofZ QcA] in Hp'. rewrite pdiv_ok in Hp' by (apply Qc_pos_neq, Qc_ofZ_pos; lia). cbn [bind] in Hp'. apply Ok_inj in Hp'. rewrite pmin_min in Hp'. now symmetry. }
    assert (G : forall l acc (r : list (T QcA) * T QcA), (forall t, In t l -> (1 <= t <= k)%Z) -> foldM (fun (acc : list (T QcA) * T QcA) t => let '(margins, u) := acc in let! target := py_index fixed (k - t)%Z in
               let! dp := (match target with None => Ok (zero (a := QcA), zero (a := QcA)) | Some r => let! p := deref w r in Ok (p_des p, p_pp p) end) in
               if ltb (a := QcA) v (add (a := QcA) (fst dp) eps) then let! ou := operator_utility rs pledge pledge (zero (a := QcA)) cost in Ok (margins ++ [zero (a := QcA)], add (a := QcA) u ou)
               else let! mg := suitable_margin v (pmax (add (a := QcA) (fst dp) eps) (snd dp)) in let! ou := operator_utility rs b pledge mg cost in Ok (margins ++ [mg], add (a := QcA) u ou)) l acc = Ok r ->
               (snd r : Qc) = snd acc + Qc_ofZ (Z.of_nat (length l)) * v - share n * Qc_sum (map lev l)).
    { clear H. induction l as [|t l IH]; intros [mg0 u0] r Hl H; cbn [foldM] in H.
      - apply Ok_inj in H. subst r. cbn [length snd map Qc_sum fold_right]. change (Z.of_nat 0) with 0%Z. rewrite Qc_ofZ_0. change (T QcA) with Qc in *. ring.
      - apply bind_ok in H as (acc1 & H1 & H). apply IH in H; [|intros; apply Hl; now right]. rewrite H. clear IH H. assert (Ht := Hl t (or_introl eq_refl)).
        apply bind_ok in H1 as (e & He & H1). apply bind_ok in H1 as (dp & Hd & H1). destruct (lev_entry t Ht) as (e' & Ee & Je & El).
        assert (Ie : nth_error fixed (Z.to_nat (k - t)) = Some e).
        { unfold py_index in He. destruct (Z.ltb_spec (k - t) 0); [lia|]. destruct (_ && _)%bool; [|discriminate]. now apply of_option_ok in He. }
        rewrite Ee in Ie. injection Ie as ->. assert (Lh := level_high e n pledge cost v Je Hn Hp Hc Hv).
        assert (Fd : Qcmax (fst dp + eps) (snd dp) = level e /\ fst dp + eps <= level e).
        { destruct (fixed_entry e Je) as [->|(x & p & -> & Gp & _)].
          - apply Ok_inj in Hd. subst dp. cbn [fst snd level]. change (zero (a := QcA)) with 0. assert (E := boost_pos). unfold Qcmax. split; [qcase; qlra | qlra].
          - unfold deref in Hd. rewrite Gp in Hd. cbn [of_option bind] in Hd. apply Ok_inj in Hd. subst dp. cbn [fst snd]. unfold level. rewrite Gp. split; [reflexivity | apply Qcmax_l]. }
        destruct Fd as [Fd1 Fd2]. change (ltb (a := QcA) v (add (a := QcA) (fst dp) eps)) with (Qc_ltb v (fst dp + eps)) in H1. destruct (Qc_ltb_spec v (fst dp + eps)) as [L|_]; [exfalso; qlra|].
        apply bind_ok in H1 as (mg & Hm & H1). apply bind_ok in H1 as (ou & Ho & H1). apply Ok_inj in H1. subst acc1. cbn [snd length map Qc_sum fold_right]. fold (Qc_sum (map lev l)).
        rewrite pmax_max in Hm. change (add (a := QcA) (fst dp) eps) with (fst dp + eps) in Hm. rewrite Fd1, suitable_margin_ok in Hm. destruct (Qc_ltb_spec 0 v) as [_|N]; [|contradiction]. apply Ok_inj in Hm.
        assert (Em : Qcmax (1 - level e / v) 0 = 1 - level e / v).
        { assert (level e / v <= 1); [|unfold Qcmax; qcase; qlra]. apply (le_by _ _ ((v - level e) / v)); [apply Qcdiv_nonneg; [qlra | exact Pv]|]. field. now apply Qc_pos_neq. }
        rewrite Em in Hm. subst mg. rewrite op_util_ok in Ho; [|exact Rs | exact Nb]. apply Ok_inj in Ho. rewrite operator_reward_eq in Ho.
        assert (Er : reward rs pledge b - cost = v) by (rewrite Ev; unfold pot_profit; now rewrite Et). rewrite Er in Ho. destruct (Qc_leb_spec v 0) as [L|_]; [exfalso; qlra|]. subst ou.
        assert (Es : share n = 1 - pledge / b) by (unfold share; now rewrite <- Epl). rewrite Es, El, Nat2Z.inj_succ, <- Z.add_1_l, Qc_ofZ_add, Qc_ofZ_1. change (add (a := QcA)) with Qcplus. field. split; [exact Nb | now apply Qc_pos_neq]. }
    apply G in H; [|intros t J; apply zrange_In in J; lia]. cbn [snd] in H. rewrite zrange_length in H. replace (Z.of_nat (Z.to_nat (n + 1 - 1))) with n in H by lia. rewrite H. unfold total_utility, levs.
    rewrite <- (net_profit rs Rs (a_stake ag) (a_cost ag) (w_phi w) n pledge cost) by (try assumption; lia). rewrite <- Ev. change (zero (a := QcA)) with 0. ring.
  Qed.

  Lemma no_dents n : (1 < n < k)%Z -> total_utility (n - 1) + total_utility (n + 1) <= total_utility n + total_utility n.
  Proof.
    intros Hn. set (F := net rs (a_stake ag) (a_cost ag) (w_phi w)). assert (C := net_concave rs Rs (a_stake ag) (a_cost ag) (w_phi w) (Qc_ofZ (n - 1)) (Qc_ofZ n) (Qc_ofZ (n + 1)) ltac:(apply Qc_ofZ_le; lia) ltac:(apply Qc_ofZ_le; lia)). fold F in C.
    assert (E1 : Qc_ofZ (n - 1) = Qc_ofZ n - 1). { replace (n - 1)%Z with (n + -1)%Z by lia. rewrite Qc_ofZ_add. change (Qc_ofZ (-1)) with (- (1) : Qc). ring. }
    assert (E2 : Qc_ofZ (n + 1) = Qc_ofZ n + 1) by (rewrite Qc_ofZ_add, Qc_ofZ_1; reflexivity).
    assert (X1 := levs_next (n - 1) ltac:(lia)). replace (n - 1 + 1)%Z with n in X1 by lia. assert (X2 := levs_next n ltac:(lia)). destruct (levs_bound n ltac:(lia)) as [B0 B1].
    assert (L0 : 0 <= lev n). { destruct (lev_entry n ltac:(lia)) as (e & _ & J & ->). assert (Z0 := level_low e J). assert (B := boost_pos). qlra. }
    assert (D := dent (Qc_ofZ n) (share (n - 1)) (share n) (share (n + 1)) (a_stake ag / b) (lev n) (lev (n + 1)) (levs n) L0 ltac:(apply lev_grows; lia) B0 B1 ltac:(apply share_range; lia) ltac:(apply share_grows; lia)).
    rewrite <- E1, <- E2 in D. specialize (D (share_eq (n - 1) ltac:(lia)) (share_eq n ltac:(lia)) (share_eq (n + 1) ltac:(lia))).
    unfold total_utility. fold F. rewrite X2. replace (levs (n - 1)) with (levs n - lev n) by (rewrite X1; ring).
    assert (C' : F (Qc_ofZ (n - 1)) + F (Qc_ofZ (n + 1)) <= F (Qc_ofZ n) + F (Qc_ofZ n)).
    { replace ((Qc_ofZ (n + 1) - Qc_ofZ n) * F (Qc_ofZ (n - 1)) + (Qc_ofZ n - Qc_ofZ (n - 1)) * F (Qc_ofZ (n + 1))) with (F (Qc_ofZ (n - 1)) + F (Qc_ofZ (n + 1))) in C by (rewrite E1, E2; ring).
      replace ((Qc_ofZ (n + 1) - Qc_ofZ (n - 1)) * F (Qc_ofZ n)) with (F (Qc_ofZ n) + F (Qc_ofZ n)) in C by (rewrite E1, E2; ring). exact C. }
    generalize dependent (share (n - 1) * (levs n - lev n)). generalize dependent (share (n + 1) * (levs n + lev (n + 1))). generalize dependent (share n * levs n). generalize dependent (F (Qc_ofZ (n - 1))). generalize dependent (F (Qc_ofZ (n + 1))). generalize dependent (F (Qc_ofZ n)). clear. intros. qlra.
  Qed.
End Operator.

(** * Theorems *)
(** The search finds a best number of pools for a non-myopic agent whose pools could outdo all others, under the Cardano, simplified and flat-pledge-benefit schemes. *)
Theorem C89_superior_agents_choose_best_partial :
  forall so (g : args QcA) profiles (stakes costs : list Qc) (s0 : sim QcA) w a ag w' (v : Qc) op, set_order so -> init g profiles stakes costs = Ok s0 -> one_at_a_time g -> relaxing g -> sound_inputs g stakes -> ~ degenerate_cip50 g ->
  visible so s0 w -> get (w_agents w) a = Some ag -> a_profile ag = NonMyopic -> r_scheme (w_rss w) <> CIP50 -> superior w ag -> aligned w ag ->
  choose_pool_strategy so w ag = Ok (w', v, Some op) -> best_number w ag (Z.of_nat (length (s_owned op))).
Proof.
  intros so g profiles stakes costs s0 w a ag w' v op SO H OT RX SI ND V Ga Pr Nc SU AL Hc. destruct (every_visible so SO g profiles stakes costs s0 H OT RX SI ND w V) as [G HX]. set (m := Z.to_nat (r_k (w_rss (s_w s0)) + 1)) in *.
  destruct (healthy_safe m w G HX) as [_ S]. destruct HX as (_ & _ & N). assert (Np : a_profile ag <> Abstainer) by congruence. assert (Ns := N a ag Ga Np). destruct (a_strategy ag) as [st|] eqn:Gst; [|contradiction].
  assert (I := g_inv _ _ _ _ _ G). destruct (proj2 (g_ok _ _ _ _ _ G) a ag Ga) as [Aid Ast]. destruct (Ast st Gst) as [Na No].
  assert (Eal : forall id, al_of w (a_id ag) id = get (s_alloc st) id) by (intros; unfold al_of; now rewrite Aid, Ga, Gst).
  assert (Eow : forall id, ow_of w (a_id ag) id = get (s_owned st) id) by (intros; unfold ow_of; now rewrite Aid, Ga, Gst).
  assert (Sp : 0 < a_stake ag) by (destruct (g_new _ _ _ _ _ G a ag Ga) as [_ [_ Z]]; now apply Z).
  destruct (choose_spec QcA_ord MP_Qc so SO nonneg (pool_facts False True) True (E_NP_upd False True) E_TG_d E_TG_z (E_TG_np False True) m (al_of w) (ow_of w) ag st Gst Eal Eow Na No w w' v (Some op) I Hc) as (_ & _ & ((t & (Ht & ms & Es) & (pl & co & _ & _ & _ & Len & _)) & _)).
  assert (En : Z.of_nat (length (s_owned op)) = t) by lia. rewrite En. clear En Len pl co.
  set (u := fun n => match margins_and_utility w ag n with Ok (_, x) => x | Err _ => zero (a := QcA) end).
  assert (D : defined_on (margins_and_utility w ag) (r_k (w_rss w)) u). { intros n Hn. destruct (margins_total m _ _ ag st Gst Eow No Np Sp w n S Hn) as (ms' & x & E). exists ms'. unfold u. now rewrite E. }
  destruct (C21_search_ends_at_a_local_maximum QcA QcA_ord _ _ _ u (sn_k _ _ _ _ S) D) as (t' & ms' & Es' & _ & Em & N1 & N2). assert (Et : t' = t /\ ms' = ms) by (rewrite Es in Es'; injection Es' as -> ->; auto). destruct Et as [-> ->]. clear Es'.
  assert (Reg : forall r, In r (values (w_pools w)) -> exists id p, get (w_pools w) id = Some r /\ get (w_heap w) r = Some p /\ 0 <= p_des p /\ 0 < p_pp p).
  { intros r J. apply In_values in J as (id & J); [|apply (i_nd _ _ _ _ _ _ I)]. destruct (i_reg _ _ _ _ _ _ I _ _ J) as (p & Gp & _). exists id, p. split; [exact J|]. split; [exact Gp|]. split; [|exact (sn_pp _ _ _ _ S id r p J Gp)].
    destruct (good_active _ _ _ _ _ G id p (ex_intro _ r (conj J Gp))) as (_ & _ & _ & FF & _). rewrite (pf_des _ _ _ _ FF). unfold desirability. rewrite pmax_max. apply Qcmax_r. }
  destruct (fixed_total m _ _ ag Np w S) as (fx & Hf & Lf & _). assert (Hr : rankings w ag = Ok (w_rank w)) by (unfold rankings; now rewrite Pr). apply (fixed_is w (a_id ag) (w_rank w) ag fx eq_refl Hr) in Hf. subst fx.
  assert (Rk := i_rank _ _ _ _ _ _ I).
  assert (Eu : forall n, (1 <= n <= r_k (w_rss w))%Z -> u n = total_utility w ag n). { intros n Hn. destruct (D n Hn) as (ms' & E). exact (utility_is w ag m Rk Reg Pr (sn_rss _ _ _ _ S) Nc SU Lf n ms' (u n) Hn E). }
  split; [exact Ht|]. exists ms, (u t). split; [exact Em|]. intros n' ms' u' Hn' E'. assert (X : u' = u n') by (unfold u; now rewrite E'). rewrite X.
  apply (local_is_global (r_k (w_rss w)) u); [|exact Ht | | | exact Hn'].
  - intros n Hn. rewrite !Eu by lia. exact (no_dents w ag m Rk Reg (sn_rss _ _ _ _ S) Sp AL Lf n Hn).
  - intros L. specialize (N1 L). cbn [ltb QcA] in N1. destruct (Qc_ltb_spec (u t) (u (t - 1)%Z)) as [?|Q]; [discriminate | now apply Qcnot_lt_le].
  - intros L. specialize (N2 L). cbn [ltb QcA] in N2. destruct (Qc_ltb_spec (u t) (u (t + 1)%Z)) as [?|Q]; [discriminate | now apply Qcnot_lt_le].
Qed.

(** * The claim in general *)
Definition uphill_args (phi : Q) : args QcA :=
  mkArgs (A := QcA) (Single 2%Z) (Single (Q2Qc 3)) (Single (Q2Qc (3#10))) (Single 0) (Single (Q2Qc (1#1000000))) (Single 100%Z) (Single (Q2Qc phi)) (Single Sequential) (Single true) 0 0 false 2.
Lemma uphill_one phi : one_at_a_time (uphill_args phi).  Proof. constructor; [right; reflexivity | constructor]. Qed.
Lemma uphill_single phi : single_phase (uphill_args phi).
Proof. intros f J; cbn in J; repeat (destruct J as [<-|J]; [eexists; reflexivity|]); destruct J. Qed.
Lemma uphill_sound phi stakes : (forall x, In x stakes -> 0 < x) -> sound_inputs (uphill_args phi) stakes.
Proof. intros P. repeat split; try discriminate; [exact P | cbn; intros x [<-|[]]; discriminate | cbn; intros x [<-|[]]; discriminate]. Qed.
Lemma uphill_cip phi : ~ degenerate_cip50 (uphill_args phi).  Proof. intros [E _]. discriminate E. Qed.

(** what the examples compute: agent [a] chooses [t] pools although the utilities of [t] and [t'] pools satisfy [P] *)
Definition chooses (w : world QcA) (a : nat) (pr : profile) (t t' : Z) (P : Qc -> Qc -> bool) : bool :=
  match get (w_agents w) a with
  | Some ag =>
      match choose_pool_strategy so_id w ag, margins_and_utility w ag t, margins_and_utility w ag t' with
      | Ok (_, _, Some op), Ok (_, x), Ok (_, y) => match a_profile ag, pr with NonMyopic, NonMyopic => true | Myopic, Myopic => true | _, _ => false end && Z.eqb (Z.of_nat (length (s_owned op))) t && P x y
      | _, _, _ => false
      end
  | None => false
  end.
Lemma chooses_ok w a pr t t' P : chooses w a pr t t' P = true ->
  exists ag w' (v : Qc) op ms (x : Qc) ms' (y : Qc), get (w_agents w) a = Some ag /\ a_profile ag = pr /\ choose_pool_strategy so_id w ag = Ok (w', v, Some op) /\ Z.of_nat (length (s_owned op)) = t /\
  margins_and_utility w ag t = Ok (ms, x) /\ margins_and_utility w ag t' = Ok (ms', y) /\ P x y = true.
Proof.
  unfold chooses. intros H. destruct (get (w_agents w) a) as [ag|]; [|discriminate H]. destruct (choose_pool_strategy so_id w ag) as [[[w' v] [op|]]|] eqn:E1; try discriminate H.
  destruct (margins_and_utility w ag t) as [[ms x]|] eqn:E2; try discriminate H. destruct (margins_and_utility w ag t') as [[ms' y]|] eqn:E3; try discriminate H.
  apply andb_true_iff in H as [H H3]. apply andb_true_iff in H as [H1 H2]. apply Z.eqb_eq in H2. exists ag, w', v, op, ms, x, ms', y.
  repeat split; try assumption. destruct (a_profile ag), pr; try reflexivity; discriminate H1.
Qed.
Definition nobody (s : sim QcA) : bool := match w_pools (s_w s) with [] => true | _ => false end.

Definition first_stakes : list Qc := [Q2Qc (1#3); Q2Qc (2#3)].
Definition first_costs : list Qc := [Q2Qc (2#5); Q2Qc (1#2)].
Definition first_profiles := [NonMyopic; NonMyopic].
Definition loses_gains (x y : Qc) : bool := ltb (a := QcA) x 0 && ltb (a := QcA) 0 y.
Lemma first_run : match init (uphill_args (1#2)) first_profiles first_stakes first_costs with Ok s => nobody s && Z.eqb (r_k (w_rss (s_w s))) 3 && chooses (s_w s) 0 NonMyopic 1 3 loses_gains | Err _ => false end = true.
Proof. vm_compute. reflexivity. Qed.
Lemma first_pos x : In x first_stakes -> 0 < x.
Proof. intros [<-|[<-|[]]]; reflexivity. Qed.

(** REFUTED: before any pool exists, a non-myopic agent under the Cardano scheme with k = 3 settles on one pool, which by its own calculation loses, while three pools would gain: the utility falls from one pool
    to two and then rises. *)
Theorem C89_first_mover_settles_for_a_loss_refuted :
  exists (g : args QcA) profiles (stakes costs : list Qc) (s0 : sim QcA) ag w' (v : Qc) op ms (u1 : Qc) ms' (u3 : Qc),
  init g profiles stakes costs = Ok s0 /\ one_at_a_time g /\ single_phase g /\ sound_inputs g stakes /\ ~ degenerate_cip50 g /\ visible so_id s0 (s_w s0) /\ w_pools (s_w s0) = [] /\ r_k (w_rss (s_w s0)) = 3%Z /\ g_scheme g = 0%Z /\
  get (w_agents (s_w s0)) 0%nat = Some ag /\ a_profile ag = NonMyopic /\ choose_pool_strategy so_id (s_w s0) ag = Ok (w', v, Some op) /\ length (s_owned op) = 1%nat /\
  margins_and_utility (s_w s0) ag 1 = Ok (ms, u1) /\ u1 < 0 /\ margins_and_utility (s_w s0) ag 3 = Ok (ms', u3) /\ 0 < u3 /\ ~ best_number (s_w s0) ag (Z.of_nat (length (s_owned op))).
Proof.
  assert (R := first_run). destruct (init (uphill_args (1#2)) first_profiles first_stakes first_costs) as [s0|] eqn:E0; [|clear E0; discriminate R]. apply andb_true_iff in R as [R R3]. apply andb_true_iff in R as [R1 R2].
  apply chooses_ok in R3 as (ag & w' & v & op & ms & x & ms' & y & G & Pr & Hc & L & M1 & M3 & P). apply andb_true_iff in P as [P1 P2]. cbn [ltb QcA] in P1, P2.
  exists (uphill_args (1#2)), first_profiles, first_stakes, first_costs, s0, ag, w', v, op, ms, x, ms', y. apply Z.eqb_eq in R2.
  assert (X : x < 0) by (destruct (Qc_ltb_spec x 0); [assumption | discriminate P1]). assert (Y : 0 < y) by (destruct (Qc_ltb_spec 0 y); [assumption | discriminate P2]).
  split; [exact E0|]. split; [apply uphill_one|]. split; [apply uphill_single|]. split; [apply uphill_sound, first_pos|]. split; [apply uphill_cip|]. split; [apply vis_between, reach_start|].
  split; [unfold nobody in R1; clear - R1; destruct (w_pools (s_w s0)); [reflexivity | discriminate R1]|]. split; [exact R2|]. split; [reflexivity|]. split; [exact G|]. split; [exact Pr|]. split; [exact Hc|]. split; [clear - L; lia|].
  split; [exact M1|]. split; [exact X|]. split; [exact M3|]. split; [exact Y|]. rewrite L. intros (_ & ms2 & u & E & B). specialize (B 3%Z ms' y ltac:(rewrite R2; lia) M3). rewrite M1 in E. injection E as -> ->. clear - X Y B. qlra.
Qed.

Definition myopic_stakes : list Qc := [Q2Qc (2#7); Q2Qc (5#7)].
Definition myopic_costs : list Qc := [Q2Qc (1#5); Q2Qc (1#2)].
Definition myopic_profiles := [Myopic; Myopic].
Lemma myopic_run : match init (uphill_args (1#2)) myopic_profiles myopic_stakes myopic_costs with Ok s => nobody s && Z.eqb (r_k (w_rss (s_w s))) 3 && chooses (s_w s) 0 Myopic 1 3 (ltb (a := QcA)) | Err _ => false end = true.
Proof. vm_compute. reflexivity. Qed.
Lemma myopic_pos x : In x myopic_stakes -> 0 < x.
Proof. intros [<-|[<-|[]]]; reflexivity. Qed.
(** REFUTED for myopic agents as well: one pool is chosen, three would bring more. *)
Theorem C89_myopic_choice_not_best_refuted :
  exists (g : args QcA) profiles (stakes costs : list Qc) (s0 : sim QcA) ag w' (v : Qc) op,
  init g profiles stakes costs = Ok s0 /\ one_at_a_time g /\ single_phase g /\ sound_inputs g stakes /\ ~ degenerate_cip50 g /\ visible so_id s0 (s_w s0) /\ w_pools (s_w s0) = [] /\ g_scheme g = 0%Z /\
  get (w_agents (s_w s0)) 0%nat = Some ag /\ a_profile ag = Myopic /\ choose_pool_strategy so_id (s_w s0) ag = Ok (w', v, Some op) /\ length (s_owned op) = 1%nat /\ ~ best_number (s_w s0) ag (Z.of_nat (length (s_owned op))).
Proof.
  assert (R := myopic_run). destruct (init (uphill_args (1#2)) myopic_profiles myopic_stakes myopic_costs) as [s0|] eqn:E0; [|clear E0; discriminate R]. apply andb_true_iff in R as [R R3]. apply andb_true_iff in R as [R1 R2].
  apply chooses_ok in R3 as (ag & w' & v & op & ms & x & ms' & y & G & Pr & Hc & L & M1 & M3 & P). cbn [ltb QcA] in P.
  exists (uphill_args (1#2)), myopic_profiles, myopic_stakes, myopic_costs, s0, ag, w', v, op. apply Z.eqb_eq in R2.
  assert (X : x < y) by (destruct (Qc_ltb_spec x y); [assumption | discriminate P]).
  split; [exact E0|]. split; [apply uphill_one|]. split; [apply uphill_single|]. split; [apply uphill_sound, myopic_pos|]. split; [apply uphill_cip|]. split; [apply vis_between, reach_start|].
  split; [unfold nobody in R1; clear - R1; destruct (w_pools (s_w s0)); [reflexivity | discriminate R1]|]. split; [reflexivity|]. split; [exact G|]. split; [exact Pr|]. split; [exact Hc|]. split; [clear - L; lia|].
  rewrite L. intros (_ & ms2 & u & E & B). specialize (B 3%Z ms' y ltac:(rewrite R2; lia) M3). rewrite M1 in E. injection E as -> ->. clear - X B. qlra.
Qed.

(** * A state that meets the hypotheses of the positive theorem: three pools of another agent are in operation *)
Definition rivals (w : world QcA) (ag : agent QcA) : list (pool QcA) :=
  filter (fun p => negb (Nat.eqb (p_owner p) (a_id ag))) (flat_map (fun ir => match get (w_heap w) (snd ir) with Some p => [p] | None => [] end) (w_pools w)).
Lemma rivals_all w ag p : rival_pool w ag p -> In p (rivals w ag).
Proof.
  intros [(id & r & G1 & G2) N]. apply filter_In. split; [|apply negb_true_iff, Nat.eqb_neq, N]. apply in_flat_map. exists (id, r). cbn [snd]. rewrite G2. split; [now apply get_In | now left].
Qed.
Definition superior_at (w : world QcA) (ag : agent QcA) (n : Z) : bool :=
  match (let! pledge := pledge_per_pool (A := QcA) (a_stake ag) (r_thr (w_rss w)) n in let! cost := cost_per_pool (A := QcA) n (a_cost ag) (w_phi w) in potential_profit (A := QcA) (w_rss w) pledge cost) with
  | Ok v => Qc_leb (boost (a := QcA)) v && forallb (fun p : pool QcA => Qc_leb (p_des p + boost (a := QcA)) v && Qc_leb (p_pp p) v) (rivals w ag)
  | Err _ => false
  end.
Lemma superior_ok w ag : (forall n, (1 <= n <= r_k (w_rss w))%Z -> superior_at w ag n = true) -> superior w ag.
Proof.
  intros H n pledge cost v Hn E1 E2 E3. specialize (H n Hn). unfold superior_at in H. rewrite E1 in H. cbn [bind] in H. rewrite E2 in H. cbn [bind] in H. rewrite E3 in H. clear E1 E2 E3. apply andb_true_iff in H as [H1 H2].
  split; [destruct (Qc_leb_spec (boost (a := QcA)) v); [assumption | discriminate H1]|]. intros p J. rewrite forallb_forall in H2. specialize (H2 p (rivals_all _ _ _ J)). apply andb_true_iff in H2 as [H2 H3].
  split; [destruct (Qc_leb_spec (p_des p + boost (a := QcA)) v); [assumption | discriminate H2] | destruct (Qc_leb_spec (p_pp p) v); [assumption | discriminate H3]].
Qed.
Lemma aligned_ok w ag : forallb (fun p : pool QcA => forallb (fun q : pool QcA => Qc_leb (p_des q) (p_des p) || Qc_leb (p_pp p) (p_pp q)) (rivals w ag)) (rivals w ag) = true -> aligned w ag.
Proof.
  intros H p q Jp Jq L. rewrite forallb_forall in H. specialize (H p (rivals_all _ _ _ Jp)). cbn beta in H. rewrite forallb_forall in H. specialize (H q (rivals_all _ _ _ Jq)). apply orb_true_iff in H as [H|H].
  - destruct (Qc_leb_spec (p_des q) (p_des p)) as [Q|]; [|discriminate H]. exfalso. clear - L Q. qlra.
  - destruct (Qc_leb_spec (p_pp p) (p_pp q)); [assumption | discriminate H].
Qed.
Definition sup_stakes : list Qc := [Q2Qc (2#5); Q2Qc (3#5)].
Definition sup_costs : list Qc := [Q2Qc (1#5); Q2Qc (1#20)].
Lemma sup_pos x : In x sup_stakes -> 0 < x.
Proof. intros [<-|[<-|[]]]; reflexivity. Qed.
Definition sup_check (s : sim QcA) : bool :=
  let w := s_w s in Z.eqb (r_k (w_rss w)) 3 && match r_scheme (w_rss w) with CIP50 => false | _ => true end && chooses w 1 NonMyopic 3 2 (fun x y => ltb (a := QcA) y x) &&
  match get (w_agents w) 1%nat with
  | Some ag => Nat.eqb (length (rivals w ag)) 3 && forallb (superior_at w ag) [1; 2; 3]%Z && forallb (fun p : pool QcA => forallb (fun q : pool QcA => Qc_leb (p_des q) (p_des p) || Qc_leb (p_pp p) (p_pp q)) (rivals w ag)) (rivals w ag)
  | None => false
  end.
Lemma sup_run : match (let! s0 := init (uphill_args (1#10)) first_profiles sup_stakes sup_costs in steps 1 s0) with Ok s => sup_check s | Err _ => false end = true.
Proof. vm_compute. reflexivity. Qed.
Example C89_instance : exists (s0 s : sim QcA) ag w' (v : Qc) op, init (uphill_args (1#10)) first_profiles sup_stakes sup_costs = Ok s0 /\ one_at_a_time (uphill_args (1#10)) /\ relaxing (uphill_args (1#10)) /\
  sound_inputs (uphill_args (1#10)) sup_stakes /\ ~ degenerate_cip50 (uphill_args (1#10)) /\ visible so_id s0 (s_w s) /\ get (w_agents (s_w s)) 1%nat = Some ag /\ a_profile ag = NonMyopic /\ r_scheme (w_rss (s_w s)) <> CIP50 /\
  superior (s_w s) ag /\ aligned (s_w s) ag /\ length (rivals (s_w s) ag) = 3%nat /\ choose_pool_strategy so_id (s_w s) ag = Ok (w', v, Some op) /\ length (s_owned op) = 3%nat.
Proof.
  destruct (steps_check (init (uphill_args (1#10)) first_profiles sup_stakes sup_costs) 1 sup_check sup_run) as (s0 & s & H0 & H1 & H2). unfold sup_check in H2. cbv zeta in H2.
  apply andb_true_iff in H2 as [H2 H6]. apply andb_true_iff in H2 as [H2 H5]. apply andb_true_iff in H2 as [H2 H3]. apply Z.eqb_eq in H2.
  apply chooses_ok in H5 as (ag & w' & v & op & ms & x & ms' & y & G & Pr & Hc & L & _). rewrite G in H6. apply andb_true_iff in H6 as [H6 H7]. apply andb_true_iff in H6 as [H6 H8].
  exists s0, s, ag, w', v, op. split; [exact H0|]. split; [apply uphill_one|]. split; [apply single_relaxing, uphill_single|]. split; [apply uphill_sound, sup_pos|]. split; [apply uphill_cip|].
  split; [apply vis_between, (steps_reach 1), H1|]. split; [exact G|]. split; [exact Pr|]. split; [intros E; rewrite E in H3; discriminate H3|].
  split; [apply superior_ok; intros n Hn; rewrite H2 in Hn; rewrite forallb_forall in H8; apply H8; assert (C : (n = 1 \/ n = 2 \/ n = 3)%Z) by (clear - Hn; lia); destruct C as [->|[->| ->]]; cbn [In]; auto|].
  split; [apply aligned_ok, H7|]. split; [now apply Nat.eqb_eq|]. split; [exact Hc | clear - L; lia].
Qed.
