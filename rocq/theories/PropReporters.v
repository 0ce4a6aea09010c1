(** The metrics, in exact arithmetic: C35-C40. *)
From Coq Require Import ZArith QArith Qcanon List Bool Arith Lia Permutation Sorted.
From Verif Require Import Num Py QcTac Rewards SortedKeyList World Stakeholder Sched Sim Init Reach Helper RewardFacts ListFacts SLFacts Greedy PropHelper Inv Static Exec Eval Step SimInv Spec PropInit PropState
  ExactInv Demo PropExact PropMove Frame PropRun PropPhase Reporters ReporterFacts.
Import ListNotations.
Open Scope Qc_scope.

(** * C36: the Gini coefficient *)
(** the sum of |x - y| over all ordered pairs of entries *)
Definition pair_differences (l : list Qc) : Qc := Qc_sum (map (fun x => Qc_sum (map (fun y => Qcabs' (x - y)) l)) l).
Notation len l := (Qc_ofZ (Z.of_nat (length l))).

Lemma gini_diffs_step acc (x y : Qc) l : gini_diffs (A := QcA) acc (x :: y :: l) = gini_diffs (A := QcA) (acc + psum (A := QcA) (map (fun y => Qcabs' (x - y)) (y :: l))) (y :: l).
Proof. reflexivity. Qed.
Lemma gini_diffs_acc l : forall acc : Qc, gini_diffs (A := QcA) acc l = acc + gini_diffs (A := QcA) 0 l.
Proof.
  induction l as [|x l IH]; intros acc; [change (acc = acc + 0); ring|]. destruct l as [|y l]; [change (acc = acc + 0); ring|].
  rewrite !gini_diffs_step. rewrite IH. rewrite (IH (0 + _)). set (q := psum _). change (T QcA) with Qc in *. ring.
Qed.
Lemma gini_diffs_cons x (l : list Qc) : gini_diffs (A := QcA) 0 (x :: l) = Qc_sum (map (fun y => Qcabs' (x - y)) l) + gini_diffs (A := QcA) 0 l.
Proof.
  destruct l as [|y l]; [reflexivity|]. rewrite gini_diffs_step, gini_diffs_acc, psum_sum. set (q := Qc_sum _). change (T QcA) with Qc in *. ring.
Qed.
Lemma gini_diffs_pairs l : gini_diffs (A := QcA) 0 l * (1 + 1) = pair_differences l.
Proof.
  induction l as [|x l IH]; [reflexivity|]. rewrite gini_diffs_cons. unfold pair_differences in *. cbn [map]. rewrite !Qc_sum_cons.
  change (Qc_sum (map (fun z => Qc_sum (Qcabs' (z - x) :: map (fun y => Qcabs' (z - y)) l)) l)) with (Qc_sum (map (fun z => Qcabs' (z - x) + Qc_sum (map (fun y => Qcabs' (z - y)) l)) l)).
  rewrite (Qc_sum_plus (fun z => Qcabs' (z - x)) (fun z => Qc_sum (map (fun y => Qcabs' (z - y)) l)) l).
  rewrite <- IH. rewrite (map_ext (fun z => Qcabs' (z - x)) (fun z => Qcabs' (x - z))) by (intros; apply abs_minus).
  assert (Z : Qcabs' (x - x) = 0) by (apply abs_zero; ring). rewrite Z. set (q := Qc_sum (map (fun z => Qcabs' (x - z)) l)). change (T QcA) with Qc. ring.
Qed.
Lemma pair_differences_perm l l' : Permutation l l' -> pair_differences l = pair_differences l'.
Proof.
  intros P. unfold pair_differences. transitivity (Qc_sum (map (fun x => Qc_sum (map (fun y => Qcabs' (x - y)) l)) l')); [apply Qc_sum_perm; now apply Permutation_map|].
  f_equal. apply map_ext. intros x. apply Qc_sum_perm. now apply Permutation_map.
Qed.
Lemma pair_differences_scale c l : 0 < c -> pair_differences (map (fun x => c * x) l) = c * pair_differences l.
Proof.
  intros Hc. unfold pair_differences. rewrite map_map. rewrite <- Qc_sum_scale, map_map. f_equal. apply map_ext. intros x. rewrite <- Qc_sum_scale, !map_map. f_equal. apply map_ext. intros y.
  rewrite <- abs_scale by assumption. f_equal. ring.
Qed.
Lemma pair_differences_zero l : pair_differences l = 0 <-> forall x y, In x l -> In y l -> x = y.
Proof.
  unfold pair_differences. split.
  - intros E x y Jx Jy. assert (E1 : Qc_sum (map (fun y => Qcabs' (x - y)) l) = 0).
    { eapply Qc_sum_zero; [|exact E|]; [|apply in_map_iff; eauto]. intros z Z. apply in_map_iff in Z as (u & <- & _). apply Qc_sum_nonneg. intros v V. apply in_map_iff in V as (t & <- & _). apply abs_nonneg. }
    assert (E2 : Qcabs' (x - y) = 0). { eapply Qc_sum_zero; [|exact E1|]; [|apply in_map_iff; eauto]. intros v V. apply in_map_iff in V as (t & <- & _). apply abs_nonneg. }
    apply (proj1 (abs_zero _)) in E2. replace x with (x - y + y) by ring. rewrite E2. ring.
  - intros H. apply Qc_sum_zeros. intros z Z. apply in_map_iff in Z as (x & <- & Jx). apply Qc_sum_zeros. intros v V. apply in_map_iff in V as (y & <- & Jy). apply abs_zero. rewrite (H x y Jx Jy). ring.
Qed.
Lemma gini_diffs_bounds (l : list Qc) : (forall x, In x l -> 0 <= x) -> l <> [] -> 0 <= gini_diffs (A := QcA) 0 l /\ gini_diffs (A := QcA) 0 l <= (len l - 1) * Qc_sum l.
Proof.
  intros H N. induction l as [|x l IH]; [congruence|]. rewrite gini_diffs_cons. cbn [length]. rewrite ofZ_succ, Qc_sum_cons.
  assert (B1 : 0 <= Qc_sum (map (fun y => Qcabs' (x - y)) l)) by (apply Qc_sum_nonneg; intros v V; apply in_map_iff in V as (t & <- & _); apply abs_nonneg).
  assert (B2 : Qc_sum (map (fun y => Qcabs' (x - y)) l) <= len l * x + Qc_sum l).
  { apply Qcle_trans with (Qc_sum (map (fun y => x + y) l)).
    - apply Qc_sum_le. intros y J. apply abs_sum; apply H; [now left | now right].
    - rewrite (Qc_sum_plus (fun _ => x) (fun y => y)). rewrite (Qc_sum_const (fun _ => x) l x) by reflexivity. rewrite map_id. apply Qcle_refl. }
  destruct l as [|y l]; [change (gini_diffs (A := QcA) 0 []) with 0 in *; cbn [map length] in *; change (Qc_sum []) with 0 in *; change (Qc_ofZ (Z.of_nat 0)) with 0 in *; replace ((0 + 1 - 1) * (x + 0)) with 0 by ring; split; qlra|].
  destruct IH as [I1 I2]; [intros; apply H; now right | congruence|]. set (r := y :: l) in *. clearbody r. split; [qlra|].
  replace ((len r + 1 - 1) * (x + Qc_sum r)) with (len r * x + Qc_sum r + (len r - 1) * Qc_sum r) by ring. set (q1 := len r * x) in *. set (q2 := (len r - 1) * Qc_sum r) in *. clearbody q1 q2. qlra.
Qed.
Lemma gini_ok (l : list Qc) : Qc_sum l <> 0 -> gini (A := QcA) l = Ok (pair_differences l / ((1 + 1) * len l * Qc_sum l)).
Proof.
  intros N. unfold gini. rewrite psum_sum. change (eqb (a := QcA)) with Qc_eqb. destruct (Qc_eqb_spec (Qc_sum l) (zero (a := QcA))) as [|_]; [contradiction|].
  assert (Nl : len l <> 0). { intros E. destruct l; [now apply N|]. assert (P : 0 < len (q :: l)) by (apply Qc_ofZ_pos; cbn; lia). rewrite E in P. now apply Qclt_not_eq in P. }
  assert (Np : len l * Qc_sum l <> 0) by (intros E; apply Qcmult_integral in E as [E|E]; contradiction).
  unfold of_nat. change (ofZ (a := QcA)) with Qc_ofZ. change (mul (a := QcA)) with Qcmult. change (zero (a := QcA)) with 0. rewrite pdiv_ok by exact Np. f_equal. rewrite <- gini_diffs_pairs.
  assert (N2 : 1 + 1 <> 0) by discriminate. change (T QcA) with Qc. set (gd := gini_diffs (A := QcA) 0 l : Qc). change (T QcA) with Qc in gd. clearbody gd. field. repeat split; assumption.
Qed.

(** gini_coefficient of an array of non-negative numbers *)
Theorem C36_gini : forall l : list Qc, (forall x, In x l -> 0 <= x) ->
  (Qc_sum l = 0 <-> gini (A := QcA) l = Ok (Qc_ofZ (-1))) /\
  (0 < Qc_sum l -> exists g, gini (A := QcA) l = Ok g /\
     g = pair_differences l / ((1 + 1) * len l * Qc_sum l) /\
     0 <= g /\ g < 1 /\
     (g = 0 <-> forall x y, In x l -> In y l -> x = y) /\
     (forall l', Permutation l l' -> gini (A := QcA) l' = Ok g) /\
     (forall c, 0 < c -> gini (A := QcA) (map (fun x => c * x) l) = Ok g)).
Proof.
  intros l H.
  assert (X : 0 < Qc_sum l -> l <> [] /\ 0 < len l /\ exists g, gini (A := QcA) l = Ok g /\ g = pair_differences l / ((1 + 1) * len l * Qc_sum l) /\ 0 <= g /\ g < 1).
  { intros S. assert (N : l <> []) by (intros ->; discriminate). split; [assumption|]. assert (P : 0 < len l) by (apply Qc_ofZ_pos; destruct l; [congruence | cbn; lia]). split; [assumption|].
    eexists. split; [apply gini_ok; qlra|]. split; [reflexivity|]. assert (Pd : 0 < (1 + 1) * len l * Qc_sum l) by (apply Qcmult_pos; [apply Qcmult_pos; [reflexivity | assumption] | assumption]).
    destruct (gini_diffs_bounds l H N) as [B1 B2]. rewrite <- gini_diffs_pairs. set (d := gini_diffs (A := QcA) 0 l : Qc) in *. change (T QcA) with Qc in d. clearbody d. split.
    - apply Qcdiv_nonneg; [|assumption]. replace (d * (1 + 1)) with (d + d) by ring. qlra.
    - assert (E : d * (1 + 1) / ((1 + 1) * len l * Qc_sum l) <= (len l - 1) / len l).
      { apply Qcdiv_le; [assumption|]. replace ((len l - 1) / len l * ((1 + 1) * len l * Qc_sum l)) with ((1 + 1) * ((len l - 1) * Qc_sum l)) by (field; qlra). rewrite Qcmult_comm. apply Qcmult_le_l; [discriminate | assumption]. }
      eapply Qcle_lt_trans; [exact E|]. replace ((len l - 1) / len l) with (1 - 1 / len l) by (field; qlra). assert (0 < 1 / len l) by (apply Qcdiv_pos; [reflexivity | assumption]). qlra. }
  split.
  - split.
    + intros E. unfold gini. rewrite psum_sum, E. reflexivity.
    + intros E. destruct (Qc_eq_dec (Qc_sum l) 0) as [|N]; [assumption|]. exfalso. assert (S := Qc_sum_nonneg l H). destruct X as (_ & _ & g & G & _ & G0 & _); [qlra|]. rewrite E in G. injection G as <-. now apply G0.
  - intros S. destruct (X S) as (N & P & g & G & Eg & G0 & G1). assert (N2 : 1 + 1 <> 0) by discriminate. exists g. split; [assumption|]. split; [assumption|]. split; [assumption|]. split; [assumption|]. split; [|split].
    + rewrite <- pair_differences_zero. assert (Pd : (1 + 1) * len l * Qc_sum l <> 0) by (apply Qc_pos_neq; apply Qcmult_pos; [apply Qcmult_pos; [reflexivity | assumption] | assumption]).
      rewrite Eg. split; intros E; [|rewrite E; change (T QcA) with Qc; field; repeat split; (assumption || qlra)]. rewrite <- (Qcdiv_mul (pair_differences l) _ Pd), E. ring.
    + intros l' Pm. rewrite gini_ok by (rewrite <- (Qc_sum_perm _ _ Pm); qlra). rewrite Eg, <- (Qc_sum_perm _ _ Pm), <- (pair_differences_perm _ _ Pm), <- (Permutation_length Pm). reflexivity.
    + intros c Hc. assert (Sc : Qc_sum (map (fun x => c * x) l) = c * Qc_sum l) by apply Qc_sum_scale. assert (0 < c * Qc_sum l) by now apply Qcmult_pos.
      rewrite gini_ok by (rewrite Sc; qlra). rewrite Sc, map_length, pair_differences_scale by assumption. rewrite Eg. change (T QcA) with Qc. apply f_equal. field. repeat split; (exact N2 || qlra).
Qed.
Example C36_instance : let l := [Q2Qc 3; 0; Q2Qc 1; Q2Qc 1] in (forall x, In x l -> 0 <= x) /\ 0 < Qc_sum l /\ gini (A := QcA) l = Ok (Q2Qc (9#20)).
Proof. cbv zeta. split; [|split; [reflexivity | vm_compute; f_equal; now apply Qc_is_canon]]. intros x [<-|[<-|[<-|[<-|[]]]]]; discriminate. Qed.

(** * C38: operators and their pools *)
Definition owners (ps : list (pool QcA)) : list nat := map p_owner ps.
(** the number of pools of operator [a] *)
Definition pools_of (ps : list (pool QcA)) (a : nat) : nat := count_occ Nat.eq_dec (owners ps) a.

Lemma filter_length_le' {X} (f : X -> bool) l : (length (filter f l) <= length l)%nat.
Proof. induction l as [|x l IH]; cbn; [lia|]. destruct (f x); cbn; lia. Qed.
Theorem C38_operator_statistics : forall (w : world QcA) ps, pools_list w = Ok ps ->
  exists ops splitters mx, operator_count w = Ok ops /\ pool_splitter_count w = Ok splitters /\ max_pools_per_operator w = Ok mx /\
    (* what the numbers are *)
    ops = length (nodup Nat.eq_dec (owners ps)) /\ number_of_pools w = length ps /\
    splitters = length (filter (fun a => Nat.ltb 1 (pools_of ps a)) (nodup Nat.eq_dec (owners ps))) /\
    (forall a, (pools_of ps a <= mx)%nat) /\
    (splitters <= ops)%nat /\ ((0 < splitters)%nat <-> (1 < mx)%nat) /\
    (ps <> [] -> (exists a, pools_of ps a = mx) /\ (1 <= ops)%nat /\
       exists avg med, avg_pools_per_operator w = Ok avg /\ median_pools_per_operator w = Ok med /\
         Qc_ofZ (Z.of_nat ops) * avg = Qc_ofZ (Z.of_nat (number_of_pools w)) /\
         1 <= avg /\ avg <= Qc_ofZ (Z.of_nat mx) /\ 1 <= med /\ med <= Qc_ofZ (Z.of_nat mx)) /\
    (ps = [] -> ops = 0%nat /\ splitters = 0%nat /\ mx = 0%nat /\ avg_pools_per_operator w = Ok 0 /\ median_pools_per_operator w = Ok 0).
Proof.
  intros w ps Hp. unfold operator_count, pool_splitter_count, max_pools_per_operator, avg_pools_per_operator, median_pools_per_operator, when_pools. rewrite Hp. cbn [bind].
  assert (Hn : number_of_pools w = length ps). { unfold number_of_pools. apply mapM_length in Hp. unfold values in Hp. rewrite map_length in Hp. congruence. }
  fold (owners ps). rewrite distinct_eq.
  assert (Sp : length (filter (fun e => Nat.ltb 1 (snd e)) (counter (owners ps))) = length (filter (fun a => Nat.ltb 1 (pools_of ps a)) (nodup Nat.eq_dec (owners ps)))).
  { destruct (counter_keys (owners ps)) as [Nk K]. transitivity (length (filter (fun a => Nat.ltb 1 (pools_of ps a)) (keys (counter (owners ps))))).
    - assert (G : forall e, In e (counter (owners ps)) -> snd e = pools_of ps (fst e)).
      { intros [a n] J. apply In_get in J; [|assumption]. rewrite counter_get in J. destruct (in_dec Nat.eq_dec a (owners ps)); [|discriminate]. injection J as <-. reflexivity. }
      clear - G. unfold keys. induction (counter (owners ps)) as [|e d IH]; [reflexivity|]. cbn [map filter]. rewrite (G e) by now left. destruct (Nat.ltb 1 _); cbn [length]; rewrite IH; auto; intros; apply G; now right.
    - apply Permutation_length. apply filter_perm. apply NoDup_Permutation; [assumption | apply NoDup_nodup |]. intros a. now rewrite K, nodup_In. }
  destruct ps as [|p ps'] eqn:Eps.
  - exists 0%nat, 0%nat, 0%nat. cbn. split; [reflexivity|]. split; [reflexivity|]. split; [reflexivity|]. split; [reflexivity|]. split; [assumption|]. split; [reflexivity|]. split; [intros; apply Nat.le_0_l|]. split; [apply le_n|]. split; [lia|].
    split; [congruence|]. intros _. repeat split.
  - rewrite <- Eps in *. assert (Ne : ps <> []) by congruence. assert (No : owners ps <> []) by (rewrite Eps; discriminate). clear Eps p ps'.
    assert (Nc : counter (owners ps) <> []). { intros E. destruct (owners ps) as [|a l] eqn:El; [congruence|]. assert (J : In a (keys (counter (a :: l)))) by (apply counter_keys; now left). rewrite E in J. destruct J. }
    destruct (most_common_ok _ Nc) as ([a0 mx] & Hm & J0 & Mx). rewrite Hm. cbn [bind snd]. cbn [snd] in Mx.
    assert (Cnt : forall n, In n (values (counter (owners ps))) -> (1 <= n <= mx)%nat).
    { intros n J. split; [apply counter_values in J as (a & J & ->); now apply (count_occ_In Nat.eq_dec) in J|]. apply in_map_iff in J as (e & <- & J). now apply Mx. }
    assert (A0 : pools_of ps a0 = mx). { apply In_get in J0; [|apply counter_keys]. rewrite counter_get in J0. destruct (in_dec Nat.eq_dec a0 (owners ps)); [|discriminate]. now injection J0. }
    assert (All : forall a, (pools_of ps a <= mx)%nat).
    { intros a. destruct (in_dec Nat.eq_dec a (owners ps)) as [J|J]; [|apply (count_occ_not_In Nat.eq_dec) in J; unfold pools_of; lia]. apply (Cnt (pools_of ps a)). apply counter_values. unfold pools_of. eauto. }
    assert (Ops : (1 <= length (nodup Nat.eq_dec (owners ps)))%nat).
    { destruct (owners ps) as [|a l] eqn:El; [congruence|]. assert (J : In a (nodup Nat.eq_dec (a :: l))) by (apply nodup_In; now left). destruct (nodup Nat.eq_dec (a :: l)); [destruct J | cbn; lia]. }
    exists (length (nodup Nat.eq_dec (owners ps))), (length (filter (fun e => Nat.ltb 1 (snd e)) (counter (owners ps)))), mx.
    split; [reflexivity|]. split; [reflexivity|]. split; [destruct ps; [congruence | reflexivity]|]. split; [reflexivity|]. split; [assumption|]. split; [exact Sp|]. split; [exact All|].
    split; [rewrite <- counter_length; apply filter_length_le'|]. split.
    { split.
      - intros H. destruct (filter _ _) as [|e l] eqn:Ef; [cbn in H; lia|]. assert (J : In e (filter (fun e => Nat.ltb 1 (snd e)) (counter (owners ps)))) by (rewrite Ef; now left). apply filter_In in J as [J L]. apply Nat.ltb_lt in L. apply Mx in J. lia.
      - intros H. assert (J : In (a0, mx) (filter (fun e => Nat.ltb 1 (snd e)) (counter (owners ps)))) by (apply filter_In; split; [assumption | now apply Nat.ltb_lt]). destruct (filter _ _); [destruct J | cbn; lia]. }
    split; [|congruence]. intros _. split; [now exists a0|]. split; [assumption|].
    assert (Po : 0 < Qc_ofZ (Z.of_nat (length (nodup Nat.eq_dec (owners ps))))) by (apply Qc_ofZ_pos; lia).
    assert (Vn : map (fun n => Qc_ofZ (Z.of_nat n)) (values (counter (owners ps))) <> []) by (unfold values; destruct (counter (owners ps)); [congruence | discriminate]).
    assert (Vb : forall x, In x (map (fun n => Qc_ofZ (Z.of_nat n)) (values (counter (owners ps)))) -> 1 <= x /\ x <= Qc_ofZ (Z.of_nat mx)).
    { intros x J. apply in_map_iff in J as (n & <- & J). apply Cnt in J. split; [change 1 with (Qc_ofZ 1)|]; apply Qc_ofZ_le; lia. }
    destruct (median_between _ _ _ Vn Vb) as (med & Hmed & M1 & M2). destruct (mean_between _ _ _ Vn Vb) as (avg & Havg & V1 & V2).
    exists (Qc_ofZ (Z.of_nat (length ps)) / Qc_ofZ (Z.of_nat (length (nodup Nat.eq_dec (owners ps))))), med.
    assert (Ea : avg = Qc_ofZ (Z.of_nat (length ps)) / Qc_ofZ (Z.of_nat (length (nodup Nat.eq_dec (owners ps))))).
    { rewrite mean_ok in Havg by assumption. injection Havg as <-. rewrite counter_sum. unfold values. rewrite !map_length, counter_length. unfold owners at 1. now rewrite map_length. }
    split; [|split; [|split; [rewrite Hn; apply Qcmult_div_r; qlra|]]].
    + destruct ps; [congruence|]. unfold of_nat. change (ofZ (a := QcA)) with Qc_ofZ. apply pdiv_ok. qlra.
    + destruct ps; [congruence|]. exact Hmed.
    + rewrite <- Ea. tauto.
Qed.

(** * C35: the Nakamoto coefficient *)
(** some [m] of the agents [ks] hold strictly more than half of [total] *)
Definition majority (ks : list nat) (holds : nat -> Qc) (total : Qc) (m : nat) : Prop :=
  exists group, NoDup group /\ incl group ks /\ length group = m /\ total < Qc_sum (map holds group) + Qc_sum (map holds group).
Definition least (P : nat -> Prop) (m : nat) : Prop := P m /\ forall m', P m' -> (m <= m')%nat.

Lemma subset_perm (g ks : list nat) : NoDup g -> incl g ks -> exists r, Permutation ks (g ++ r).
Proof.
  revert ks. induction g as [|x g IH]; intros ks N I; [now exists ks|]. inversion N as [|? ? Nx Ng]; subst. assert (J : In x ks) by (apply I; now left).
  apply in_split in J as (l1 & l2 & ->). destruct (IH (l1 ++ l2)) as (r & P); [assumption | |].
  - intros y Jy. assert (K : In y (l1 ++ x :: l2)) by (apply I; now right). apply in_app_iff in K as [K|[K|K]]; apply in_app_iff; [now left | congruence | now right].
  - exists r. rewrite <- Permutation_middle. cbn. now constructor.
Qed.
Lemma firstn_map' {X Y} (f : X -> Y) n l : firstn n (map f l) = map f (firstn n l).
Proof. revert l. induction n; intros [|x l]; cbn; congruence. Qed.
Lemma majority_top (ks : list nat) (f : nat -> Qc) total s m : NoDup ks -> Permutation s (map f ks) -> StronglySorted (fun x y => y <= x) s -> (m <= length s)%nat ->
  total < Qc_sum (firstn m s) + Qc_sum (firstn m s) -> (forall j, (j < m)%nat -> Qc_sum (firstn j s) + Qc_sum (firstn j s) <= total) -> least (majority ks f total) m.
Proof.
  intros N P S L H1 H2. apply Permutation_map_inv in P as (ks' & -> & P). rewrite map_length in L. split.
  - exists (firstn m ks'). assert (N' : NoDup ks') by (now apply (Permutation_NoDup P)). split; [rewrite <- (firstn_skipn m ks') in N'; now apply NoDup_app_remove_r in N' || (clear - N'; induction (firstn m ks'); [constructor | inversion N'; subst; constructor; [intros J; apply H1; apply in_app_iff; now left | now apply IHl]])|].
    split; [intros x J; apply (Permutation_in _ (Permutation_sym P)); rewrite <- (firstn_skipn m ks'); apply in_app_iff; now left|]. split; [now apply firstn_length_le|]. now rewrite <- firstn_map'.
  - intros m' (g & Ng & Ig & Lg & Hg). destruct (Nat.le_gt_cases m m') as [|Lt]; [assumption|]. exfalso. specialize (H2 m' Lt). destruct (subset_perm g ks Ng Ig) as (r & Pr).
    assert (Q : Permutation (map f ks') (map f g ++ map f r)) by (rewrite <- map_app; apply Permutation_map; now rewrite <- P, Pr). assert (B := top_sum _ S _ _ Q). rewrite map_length, Lg in B. qlra.
Qed.
Lemma first_true_spec l : match first_true l with Some i => nth_error l i = Some true /\ forall j, (j < i)%nat -> nth_error l j = Some false | None => forall b, In b l -> b = false end.
Proof.
  induction l as [|b l IH]; cbn; [intros b []|]. destruct b; [split; [reflexivity | intros j L; lia]|]. destruct (first_true l) as [i|]; cbn.
  - destruct IH as [I1 I2]. split; [assumption|]. intros [|j] L; [reflexivity | apply I2; lia].
  - intros b [<-|J]; auto.
Qed.
Lemma half_lt (t c : Qc) : Qc_ltb (t / (1 + 1)) c = true <-> t < c + c.
Proof.
  assert (E : t = t / (1 + 1) + t / (1 + 1)) by (field; discriminate). set (h := t / (1 + 1)) in *. clearbody h. destruct (Qc_ltb_spec h c); split; intros; try reflexivity; try discriminate; qlra.
Qed.

Theorem C35_nakamoto_minimal : forall (w : world QcA) ps, pools_list w = Ok ps -> NoDup (keys (w_agents w)) -> (forall p, In p ps -> In (p_owner p) (keys (w_agents w))) ->
  0 < Qc_sum (map p_stake ps) ->
  exists m, nakamoto w = Ok m /\ least (majority (keys (w_agents w)) (controls ps) (Qc_sum (map p_stake ps))) m.
Proof.
  intros w ps Hp N O Sp. unfold nakamoto. rewrite Hp. cbn [bind]. destruct ps as [|p0 ps0] eqn:Eps; [discriminate|]. rewrite <- Eps in *. clear Eps p0 ps0.
  destruct (controlled_ok _ _ N O) as (d & Hd & Kd & Gd). rewrite Hd. cbn [bind]. rewrite (mapM_pure _ (controls ps)) by (intros a J; rewrite Gd by assumption; reflexivity). cbn [bind].
  set (final := map (controls ps) (keys (w_agents w))) in *. assert (Ef : Qc_sum final = Qc_sum (map p_stake ps)) by now apply controls_total.
  change (fsum (a := QcA)) with Qc_sum. rewrite pdiv_ok by discriminate. cbn [bind]. set (s := sort_down (A := QcA) final). assert (Ps : Permutation s final) by apply sort_down_perm.
  assert (Ss : StronglySorted (fun x y => y <= x) s) by apply sort_down_sorted. change (ltb (a := QcA)) with Qc_ltb. change (two (A := QcA)) with (1 + 1). rewrite map_map.
  set (tests := map (fun i => Qc_ltb (Qc_sum final / (1 + 1)) (Qc_sum (firstn (S i) s))) (seq 0 (length s))).
  assert (Ls : s <> []). { intros E. assert (Z := Qc_sum_perm _ _ Ps). rewrite E, Ef in Z. rewrite <- Z in Sp. discriminate. }
  assert (Nt : forall i b, nth_error tests i = Some b -> (i < length s)%nat /\ b = Qc_ltb (Qc_sum final / (1 + 1)) (Qc_sum (firstn (S i) s))).
  { intros i b E. unfold tests in E. assert (L : (i < length s)%nat) by (rewrite <- (seq_length (length s) 0); rewrite <- (map_length (fun i => Qc_ltb (Qc_sum final / (1 + 1)) (Qc_sum (firstn (S i) s)))); apply nth_error_Some; congruence).
    split; [assumption|]. rewrite nth_error_map in E. rewrite (nth_error_nth' _ 0%nat) in E by (now rewrite seq_length). rewrite seq_nth in E by assumption. now injection E as <-. }
  assert (Tn : tests <> []) by (unfold tests; destruct s; [congruence | discriminate]). assert (F := first_true_spec tests). unfold argmax. destruct (first_true tests) as [i|].
  - destruct F as [F1 F2]. assert (Hi : match tests with [] => Err ValueError | _ => Ok i end = Ok i) by (destruct tests; [congruence | reflexivity]). rewrite Hi. cbn [bind]. exists (i + 1)%nat. split; [reflexivity|].
    apply Nt in F1 as [L F1]. symmetry in F1. apply half_lt in F1. rewrite Nat.add_1_r, <- Ef. apply (majority_top _ _ _ s); [assumption | exact Ps | exact Ss | exact L | exact F1 |].
    intros [|j] Lj; [cbn [firstn]; change (Qc_sum []) with 0; rewrite Ef; qlra|]. assert (F3 := F2 j ltac:(lia)). apply Nt in F3 as [_ F3]. destruct (Qclt_le_dec (Qc_sum final) (Qc_sum (firstn (S j) s) + Qc_sum (firstn (S j) s))) as [C|C]; [|exact C].
    apply half_lt in C. congruence.
  - exfalso. assert (J : In true tests); [|apply F in J; discriminate]. unfold tests. apply in_map_iff. exists (length s - 1)%nat. split.
    + apply half_lt. destruct s as [|x s'] eqn:E; [congruence|]. cbn [length]. rewrite Nat.sub_succ, Nat.sub_0_r. change (S (length s')) with (length (x :: s')). rewrite firstn_all, (Qc_sum_perm _ _ Ps), Ef. qlra.
    + apply in_seq. destruct s; [congruence | cbn; lia].
Qed.
(** with no stake in the pools the reported number is 1 *)
Theorem C35_no_stake : forall (w : world QcA) ps, pools_list w = Ok ps -> NoDup (keys (w_agents w)) -> (forall p, In p ps -> In (p_owner p) (keys (w_agents w)) /\ p_stake p = 0) -> ps <> [] -> nakamoto w = Ok 1%nat.
Proof.
  intros w ps Hp N O Ne. assert (O1 : forall p, In p ps -> In (p_owner p) (keys (w_agents w))) by (intros; now apply O). assert (C0 : forall a, controls ps a = 0) by (intros a; apply Qc_sum_zeros; intros x J; apply in_map_iff in J as (p & <- & J); apply filter_In in J as [J _]; now apply O).
  unfold nakamoto. rewrite Hp. cbn [bind]. destruct ps as [|p0 ps0] eqn:Eps; [congruence|]. rewrite <- Eps in *. assert (J0 : In p0 ps) by (rewrite Eps; now left). clear Eps ps0.
  destruct (controlled_ok _ _ N O1) as (d & Hd & Kd & Gd). rewrite Hd. cbn [bind]. rewrite (mapM_pure _ (fun _ => 0)) by (intros a J; rewrite Gd by assumption; now rewrite C0). cbn [bind].
  set (final := map (fun _ : nat => 0) (keys (w_agents w))). assert (Ps := sort_down_perm final). set (s := sort_down (A := QcA) final) in *. change (fsum (a := QcA)) with Qc_sum. rewrite pdiv_ok by discriminate. cbn [bind].
  assert (Zs : forall x, In x s -> x = 0) by (intros x J; apply (Permutation_in _ Ps) in J; apply in_map_iff in J as (? & <- & _); reflexivity). assert (Ns : s <> []).
  { intros E. apply Permutation_length in Ps. rewrite E in Ps. unfold final in Ps. rewrite map_length in Ps. apply O1 in J0. destruct (keys (w_agents w)); [destruct J0 | discriminate]. }
  rewrite map_map. set (tests := map _ (seq 0 (length s))). assert (F : forall b, In b tests -> b = false).
  { intros b J. apply in_map_iff in J as (i & <- & _). rewrite (Qc_sum_zeros (firstn (S i) s)) by (intros x J; apply Zs; rewrite <- (firstn_skipn (S i) s); apply in_app_iff; now left).
    rewrite (Qc_sum_zeros final) by (intros x J; apply in_map_iff in J as (? & <- & _); reflexivity). reflexivity. }
  assert (T := first_true_spec tests). unfold argmax. destruct (first_true tests) as [i|]; [destruct T as [T _]; apply nth_error_In in T; apply F in T; discriminate|].
  assert (Nt : tests <> []) by (unfold tests; destruct s; [congruence | discriminate]). destruct tests; [congruence | reflexivity].
Qed.
(** during construction, before there are pools: the agents' own stakes *)
Theorem C35_initial_nakamoto_minimal : forall w : world QcA, NoDup (keys (w_agents w)) -> 0 < Qc_sum (map a_stake (values (w_agents w))) ->
  let own a := match get (w_agents w) a with Some ag => a_stake ag | None => 0 end in
  exists m, nakamoto_initial w = Ok m /\ least (majority (keys (w_agents w)) own (Qc_sum (map a_stake (values (w_agents w))))) m.
Proof.
  intros w N Sp own. unfold nakamoto_initial, agents_list. set (l := map a_stake (values (w_agents w))) in *. assert (El : l = map own (keys (w_agents w))).
  { unfold l, values, keys. rewrite !map_map. apply map_ext_in. intros [a ag] J. cbn [fst snd]. unfold own. rewrite (In_get _ _ _ N J). reflexivity. }
  assert (Ps : Permutation (sort_down (A := QcA) l) l) by apply sort_down_perm. assert (Ss : StronglySorted (fun x y => y <= x) (sort_down (A := QcA) l)) by apply sort_down_sorted. set (s := sort_down (A := QcA) l) in *.
  change (fsum (a := QcA)) with Qc_sum. rewrite pdiv_ok by discriminate. cbn [bind]. rewrite (Qc_sum_perm _ _ Ps). change (two (A := QcA)) with (1 + 1).
  assert (H : forall r pre, s = pre ++ r -> (forall j, (j < length pre)%nat -> Qc_sum (firstn j s) + Qc_sum (firstn j s) <= Qc_sum l) ->
    exists m, majority_loop (A := QcA) r (Qc_sum l / (1 + 1)) (Qc_sum pre) (length pre) = Ok m /\ (m <= length s)%nat /\ Qc_sum l < Qc_sum (firstn m s) + Qc_sum (firstn m s) /\ forall j, (j < m)%nat -> Qc_sum (firstn j s) + Qc_sum (firstn j s) <= Qc_sum l).
  { induction r as [|x r IH]; intros pre Es B; unfold majority_loop; fold (majority_loop (A := QcA)); change (ltb (a := QcA)) with Qc_ltb;
      (assert (Fp : firstn (length pre) s = pre) by (rewrite Es, firstn_app, Nat.sub_diag, firstn_all; cbn [firstn]; now rewrite app_nil_r));
      destruct (Qc_ltb (Qc_sum l / (1 + 1)) (Qc_sum pre)) eqn:E.
    1,3: exists (length pre); split; [reflexivity|]; split; [rewrite Es, app_length; lia|]; split; [rewrite Fp; now apply half_lt | assumption].
    - exfalso. rewrite app_nil_r in Es. rewrite <- Es, (Qc_sum_perm _ _ Ps) in E. assert (C : Qc_sum l < Qc_sum l + Qc_sum l) by qlra. apply half_lt in C. congruence.
    - assert (K : add (a := QcA) (Qc_sum pre) x = Qc_sum (pre ++ [x])). { rewrite Qc_sum_app. change (Qc_sum [x]) with (x + 0). change (add (a := QcA)) with Qcplus. change (T QcA) with Qc. ring. }
      rewrite K. replace (S (length pre)) with (length (pre ++ [x])) by (rewrite app_length; cbn; lia). apply IH; [rewrite <- app_assoc; exact Es|]. intros j Lj. rewrite app_length in Lj. cbn in Lj. change (T QcA) with Qc in *.
      destruct (Nat.eq_dec j (length pre)) as [->|]; [|apply B; lia]. rewrite Fp. destruct (Qclt_le_dec (Qc_sum l) (Qc_sum pre + Qc_sum pre)) as [C|C]; [apply half_lt in C; congruence | exact C]. }
  destruct (H s [] eq_refl) as (m & Hm & Lm & M1 & M2); [intros j L; cbn in L; lia|]. exists m. split; [exact Hm|].
  apply (majority_top _ _ _ s); [assumption | exact (eq_ind _ (fun z => Permutation s z) Ps _ El) | exact Ss | exact Lm | exact M1 | exact M2].
Qed.

(** * The pools of a reachable state *)
Section Reported.
  Variables (SINGLE NN POS : Prop) (m : nat) (w : world QcA).
  Hypothesis G : egood SINGLE NN POS m w.
  Lemma reported_pools : exists ps, pools_list w = Ok ps /\ (forall p, In p ps <-> exists id, active w id p) /\ (forall p, In p ps -> In (p_owner p) (keys (w_agents w))) /\
    Forall2 (fun r p => get (w_heap w) r = Some p) (values (w_pools w)) ps.
  Proof.
    assert (Gi := g_inv _ _ _ _ _ G). destruct (mapM_total (deref w) (values (w_pools w))) as (ps & Hps).
    { intros r J. apply In_values in J as (id & J); [|apply Gi]. destruct (i_reg _ _ _ _ _ _ Gi id r J) as (p & Gp & _). exists p. unfold deref. now rewrite Gp. }
    exists ps. split; [exact Hps|]. apply mapM_ok in Hps. assert (F : Forall2 (fun r p => get (w_heap w) r = Some p) (values (w_pools w)) ps).
    { clear - Hps. induction Hps as [|r p l l' E F IH]; constructor; [now apply of_option_ok in E | exact IH]. }
    assert (A1 : forall p, In p ps <-> exists id, active w id p).
    { intros p. split.
      - intros J. assert (K : exists r, In r (values (w_pools w)) /\ get (w_heap w) r = Some p). { clear - F J. induction F as [|r q l l' E F IH]; [destruct J|]. destruct J as [<-|J]; [exists r; split; [now left | assumption]|]. destruct (IH J) as (r' & ? & ?). exists r'. split; [now right | assumption]. }
        destruct K as (r & Jr & Gr). apply In_values in Jr as (id & Jr); [|apply Gi]. exists id, r. auto.
      - intros (id & r & J1 & J2). apply values_In in J1. clear - F J1 J2. induction F as [|r' q l l' E F IH]; [destruct J1|]. destruct J1 as [<-|J1]; [left; congruence | right; now apply IH]. }
    split; [exact A1|]. split; [|exact F]. intros p J. apply A1 in J as (id & r & J1 & J2). destruct (i_reg _ _ _ _ _ _ Gi id r J1) as (p' & J2' & _ & _ & _ & J3 & _). assert (p' = p) as -> by congruence.
    unfold ow_of in J3. apply get_Some_key. destruct (get (w_agents w) (p_owner p)) as [ag|]; [eauto | discriminate].
  Qed.
  Lemma reported_facts id p : active w id p -> NoDup (keys (p_delegators p)) /\ pool_facts SINGLE POS (w_rss w) p /\ (forall a v, get (p_delegators p) a = Some v -> 0 < v).
  Proof.
    intros J. destruct (good_active _ _ _ _ _ G id p J) as (_ & _ & N & F & _). split; [assumption|]. split; [assumption|]. intros a v E. destruct J as (r & J1 & J2).
    apply (i_del _ _ _ _ _ _ (g_inv _ _ _ _ _ G) id r p a v J1 J2) in E. destruct (i_al _ _ _ _ _ _ (g_inv _ _ _ _ _ G) _ _ _ E) as [L _]. change (ltb (a := QcA)) with Qc_ltb in L.
    destruct (Qc_ltb_spec v (min_stake_unit (a := QcA))) as [|N']; [discriminate|]. apply Qcnot_lt_le in N'. eapply Qclt_le_trans; [|exact N']. reflexivity.
  Qed.
  Lemma reported_deleg id p : active w id p -> 0 <= total (p_delegators p) /\ (total (p_delegators p) = 0 -> p_delegators p = []).
  Proof.
    intros J. destruct (reported_facts id p J) as (N & _ & P). assert (P' : forall x, In x (map snd (p_delegators p)) -> 0 < x) by (intros x Jx; apply in_map_iff in Jx as ([a v] & <- & Jx); apply In_get in Jx; [now apply (P a) | assumption]).
    split; [apply Qc_sum_nonneg; intros x Jx; apply P' in Jx; qlra|]. intros E. destruct (p_delegators p) as [|e d] eqn:Ed; [reflexivity|]. exfalso. assert (H : 0 < total (e :: d)) by (apply Qc_sum_pos; [exact P' | discriminate]). rewrite E in H. now apply Qclt_not_eq in H.
  Qed.
  Lemma reported_agents : NoDup (keys (w_agents w)).
  Proof. apply (g_ok _ _ _ _ _ G). Qed.
End Reported.

(** positive inputs *)
Lemma init_threshold (g : args QcA) profiles (stakes costs : list Qc) s0 : init g profiles stakes costs = Ok s0 -> g_inactive g < 1 -> (forall x : Qc, In x (phase_values (g_k g)) -> 0 < x) -> 0 < r_thr (w_rss (s_w s0)).
Proof.
  intros H F Hk. apply init_inv in H as (r0 & s1 & ags & tot & ags' & tot' & _ & Hf & Hr & _).
  apply fields_values in Hf as (n & k0 & a0 & rel & abs & mi & phi & o & gr & rk & _ & Jk & _ & _ & _ & _ & _ & _ & _ & Ek & P).
  assert (K0 : 0 < k0). { apply Hk. unfold first_value in Jk. destruct (phase_values (g_k g)); [discriminate|]. injection Jk as ->. now left. }
  unfold PropInit.params in P. injection P as P1 _ _ _ _ _ _ _. unfold set_k in Ek. change (@eqb QcA) with Qc_eqb in Ek. change (@zero QcA) with 0 in Ek. destruct (Qc_eqb_spec k0 0) as [|Nk]; [discriminate|].
  rewrite pdiv_ok in Ek by assumption. injection Ek as <-. destruct (g_known g).
  - destruct Hr as (k' & H1 & H2). rewrite P1 in H1. cbn [r_k set_a0] in H1. assert (T0 : (0 <= Qc_trunc k0)%Z). { unfold Qc_trunc. apply Z.quot_pos; [|lia]. unfold Qclt, Qlt in K0. cbn in K0. lia. }
    change (sub (a := QcA) one (g_inactive g)) with (1 - g_inactive g) in H1. rewrite pdiv_ok in H1 by qlra. injection H1 as <-. unfold set_k in H2. change (@eqb QcA) with Qc_eqb in H2. change (@zero QcA) with 0 in H2.
    change (ofZ (a := QcA) (trunc (a := QcA) k0)) with (Qc_ofZ (Qc_trunc k0)) in H2. set (kk := Qc_ofZ (Qc_trunc k0) / (1 - g_inactive g)) in *. destruct (Qc_eqb_spec kk 0) as [|Nk']; [discriminate|].
    assert (K1 : 0 <= kk) by (apply Qcdiv_nonneg; [change 0 with (Qc_ofZ 0); now apply Qc_ofZ_le | qlra]). rewrite pdiv_ok in H2 by assumption. injection H2 as H2. rewrite <- H2. cbn [r_thr]. apply Qcdiv_pos; [reflexivity | qlra].
  - rewrite Hr, P1. cbn [set_a0 r_thr]. apply Qcdiv_pos; [reflexivity | assumption].
Qed.
(** stakes and values of k are positive, at most a part of the stake is inactive *)
Definition positive_inputs (g : args QcA) (stakes : list Qc) : Prop :=
  0 <= g_inactive g /\ g_inactive g < 1 /\ (forall x, In x stakes -> 0 < x) /\ (forall x : Qc, In x (phase_values (g_k g)) -> 0 < x).
Lemma inputs_pos g profiles stakes costs s0 : init (A := QcA) g profiles stakes costs = Ok s0 -> positive_inputs g stakes -> inputs_ok False True True g s0.
Proof.
  intros H (F0 & F1 & Hx & Hk). assert (Hx' : forall x, In x stakes -> 0 <= x) by (intros x J; apply Hx in J; qlra). split; [now right|]. split; [tauto|]. split; [intros _ a ag Ga; now apply (C27_stakes_nonneg _ _ _ _ _ _ _ H Ga F0 F1 Hx')|].
  intros _. split; [|split; [eapply init_threshold; eassumption | exact Hk]]. intros a ag Ga. apply (C27_stakes_nonneg _ _ _ _ _ _ _ H Ga F0 F1 Hx'). destruct (C27_proportions _ _ _ _ _ _ _ H Ga) as (x & Jx & _). rewrite (nth_error_nth _ _ _ Jx). apply Hx. eapply nth_error_In; eassumption.
Qed.

Theorem C35_nakamoto_of_reachable_states : forall so (g : args QcA) profiles (stakes costs : list Qc) (s0 : sim QcA) w, set_order so -> init g profiles stakes costs = Ok s0 -> one_at_a_time g ->
  positive_inputs g stakes -> visible so s0 w ->
  exists ps m, pools_list w = Ok ps /\ nakamoto w = Ok m /\ (ps = [] -> m = 0%nat) /\ (ps <> [] -> least (majority (keys (w_agents w)) (controls ps) (Qc_sum (map p_stake ps))) m).
Proof.
  intros so g profiles stakes costs s0 w SO H1 H2 HP V. destruct (exact_all False True True so SO _ _ _ _ _ _ H1 H2 (inputs_pos _ _ _ _ _ H1 HP) V) as [G _].
  destruct (reported_pools _ _ _ _ _ G) as (ps & Hps & A1 & A2 & _). destruct ps as [|p ps0] eqn:E.
  - exists [], 0%nat. split; [assumption|]. split; [unfold nakamoto; now rewrite Hps|]. split; [reflexivity | congruence].
  - rewrite <- E in *. assert (Ne : ps <> []) by congruence. clear E p ps0. destruct (C35_nakamoto_minimal w ps Hps (reported_agents _ _ _ _ _ G) A2) as (n & N1 & N2).
    + apply Qc_sum_pos; [|destruct ps; [congruence | discriminate]]. intros x J. apply in_map_iff in J as (p & <- & J). apply A1 in J as (id & J). destruct (reported_facts _ _ _ _ _ G _ _ J) as (_ & F & _). destruct (reported_deleg _ _ _ _ _ G _ _ J) as [D _].
      rewrite (pf_stake _ _ _ _ F). assert (P := pf_pledge _ _ _ _ F I). qlra.
    + exists ps, n. split; [assumption|]. split; [assumption|]. split; [contradiction | now intros _].
Qed.

(** * C37 *)
Lemma max_of_ok (l : list Qc) : l <> [] -> exists x, max_of (A := QcA) l = Ok x /\ In x l /\ forall y, In y l -> y <= x.
Proof.
  destruct l as [|x0 l]; [congruence|]. intros _. cbn [max_of]. eexists. split; [reflexivity|].
  assert (H : forall l x0, let m := fold_left (pmax (A := QcA)) l x0 in (m = x0 \/ In m l) /\ x0 <= m /\ forall y, In y l -> y <= m).
  { clear. induction l as [|y l IH]; intros x0; cbn [fold_left]; [split; [now left|]; split; [apply Qcle_refl | intros y []]|]. destruct (IH (pmax (A := QcA) x0 y)) as (I1 & I2 & I3). cbv zeta. set (m := fold_left _ l _) in *. clearbody m.
    rewrite pmax_max in *. assert (M1 := Qcmax_l x0 y). assert (M2 := Qcmax_r x0 y). split; [|split].
    - destruct I1 as [->|I1]; [|right; now right]. unfold Qcmax. destruct (Qc_leb x0 y); [right; now left | now left].
    - eapply Qcle_trans; [exact M1 | exact I2].
    - intros z [<-|J]; [eapply Qcle_trans; [exact M2 | exact I2] | now apply I3]. }
  destruct (H l x0) as (I1 & I2 & I3). change (T QcA) with Qc in *. set (m := fold_left (pmax (A := QcA)) l x0) in *. clearbody m. split; [destruct I1; [subst; now left | now right]|]. intros y [<-|J]; [assumption | now apply I3].
Qed.

(** in every state with pools; exact pools and stakes are positive *)
Theorem C37_pledge_rate_and_homogeneity : forall so (g : args QcA) profiles (stakes costs : list Qc) (s0 : sim QcA) w, set_order so -> init g profiles stakes costs = Ok s0 -> one_at_a_time g ->
  positive_inputs g stakes -> visible so s0 w -> w_pools w <> [] ->
  exists pr h, pledge_rate w = Ok pr /\ homogeneity w = Ok h /\ 0 < pr /\ pr <= 1 /\ 0 < h /\ h <= 1 /\
    (h = 1 <-> forall id p id' p', active w id p -> active w id' p' -> p_stake p = p_stake p') /\
    (pr = 1 <-> forall id p, active w id p -> p_delegators p = []).
Proof.
  intros so g profiles stakes costs s0 w SO H1 H2 HP V Np. destruct (exact_all False True True so SO _ _ _ _ _ _ H1 H2 (inputs_pos _ _ _ _ _ H1 HP) V) as [G _].
  destruct (reported_pools _ _ _ _ _ G) as (ps & Hps & A1 & A2 & F2). assert (Ne : ps <> []). { intros ->. apply mapM_length in Hps. unfold values in Hps. rewrite map_length in Hps. destruct (w_pools w); [congruence | discriminate]. }
  assert (St : forall p, In p ps -> p_stake p = p_pledge p + total (p_delegators p) /\ 0 < p_pledge p /\ 0 <= total (p_delegators p) /\ (total (p_delegators p) = 0 -> p_delegators p = [])).
  { intros p J. apply A1 in J as (id & J). destruct (reported_facts _ _ _ _ _ G _ _ J) as (_ & F & _). destruct (reported_deleg _ _ _ _ _ G _ _ J) as [D1 D2]. split; [apply (pf_stake _ _ _ _ F)|]. split; [apply (pf_pledge _ _ _ _ F I) | now split]. }
  assert (Mn : forall f : pool QcA -> Qc, map f ps <> []) by (intros f; destruct ps; [congruence | discriminate]).
  assert (S1 : Qc_sum (map p_stake ps) = Qc_sum (map p_pledge ps) + Qc_sum (map (fun p : pool QcA => total (p_delegators p : dict Qc)) ps)).
  { rewrite <- (Qc_sum_plus (fun p : pool QcA => p_pledge p : Qc)). f_equal. apply map_ext_in. intros p J. now apply St. }
  assert (P1 : 0 < Qc_sum (map p_pledge ps)) by (apply Qc_sum_pos; [intros x J; apply in_map_iff in J as (p & <- & J); now apply St | apply Mn]).
  assert (P2 : 0 <= Qc_sum (map (fun p : pool QcA => total (p_delegators p : dict Qc)) ps)) by (apply Qc_sum_nonneg; intros x J; apply in_map_iff in J as (p & <- & J); now apply St).
  destruct (max_of_ok (map p_stake ps) (Mn _)) as (mx & Hm & Jm & Mx). assert (Pm : 0 < mx). { apply in_map_iff in Jm as (p & <- & J). destruct (St p J) as (-> & ? & ? & _). qlra. }
  assert (Pl : 0 < Qc_ofZ (Z.of_nat (length ps))) by (apply Qc_ofZ_pos; destruct ps; [congruence | cbn; lia]). assert (Pi : 0 < Qc_ofZ (Z.of_nat (length ps)) * mx) by now apply Qcmult_pos.
  exists (Qc_sum (map p_pledge ps) / Qc_sum (map p_stake ps)), (Qc_sum (map p_stake ps) / (Qc_ofZ (Z.of_nat (length ps)) * mx)).
  unfold pledge_rate, homogeneity, when_pools. rewrite Hps. cbn [bind]. assert (Sp : 0 < Qc_sum (map p_stake ps)) by (rewrite S1; qlra).
  split. { destruct ps; [congruence|]. apply pdiv_ok. intros E. change (fsum (a := QcA)) with Qc_sum in E. rewrite E in Sp. now apply Qclt_not_eq in Sp. }
  split. { destruct ps as [|p0 ps0] eqn:E; [congruence|]. rewrite <- E in *. rewrite Hm. cbn [bind]. apply pdiv_ok. exact (Qc_pos_neq _ Pi). }
  split; [now apply Qcdiv_pos|]. split; [apply Qcdiv_le; [assumption|]; rewrite S1; qlra|]. split; [now apply Qcdiv_pos|].
  (* homogeneity *)
  assert (D : Qc_sum (map (fun p : pool QcA => mx - p_stake p) ps) = Qc_ofZ (Z.of_nat (length ps)) * mx - Qc_sum (map p_stake ps)).
  { rewrite <- (Qc_sum_const (fun _ : pool QcA => mx) ps mx) by reflexivity. clear. induction ps as [|p ps IH]; [reflexivity|]. cbn [map]. rewrite !Qc_sum_cons, IH. change (T QcA) with Qc. ring. }
  assert (Dn : forall x, In x (map (fun p : pool QcA => mx - p_stake p) ps) -> 0 <= x) by (intros x J; apply in_map_iff in J as (p & <- & J); assert (K := Mx (p_stake p) (in_map _ _ _ J)); change (T QcA) with Qc in *; qlra).
  assert (Dl := Qc_sum_nonneg _ Dn). rewrite D in Dl. split; [apply Qcdiv_le; [assumption|]; rewrite Qcmult_1_l; qlra|]. split.
  - split.
    + intros E id p id' p' J J'. assert (E' : Qc_sum (map p_stake ps) = Qc_ofZ (Z.of_nat (length ps)) * mx) by (rewrite <- (Qcdiv_mul (Qc_sum (map p_stake ps)) _ (Qc_pos_neq _ Pi)), E; ring).
      assert (Z : Qc_sum (map (fun p : pool QcA => mx - p_stake p) ps) = 0) by (rewrite D, E'; ring).
      assert (K : forall q, In q ps -> p_stake q = mx) by (intros q Jq; assert (Z' := Qc_sum_zero _ Dn Z (mx - p_stake q) (in_map _ _ _ Jq)); change (T QcA) with Qc in *; qlra).
      rewrite (K p), (K p'); [reflexivity | apply A1; eauto | apply A1; eauto].
    + intros E. assert (K : forall q, In q ps -> p_stake q = mx). { intros q Jq. apply in_map_iff in Jm as (p & <- & J). apply A1 in J as (i & J). apply A1 in Jq as (j & Jq). exact (E _ _ _ _ Jq J). }
      assert (S2 := Qc_sum_const (p_stake (A := QcA)) ps mx K). change (T QcA) with Qc in *. rewrite S2. apply Qcmult_inv_r. exact (Qc_pos_neq _ Pi).
  - split.
    + intros E id p J. assert (E' : Qc_sum (map p_pledge ps) = Qc_sum (map p_stake ps)) by (rewrite <- (Qcdiv_mul (Qc_sum (map p_pledge ps)) _ (Qc_pos_neq _ Sp)), E; ring).
      assert (Z : Qc_sum (map (fun p : pool QcA => total (p_delegators p : dict Qc)) ps) = 0) by (rewrite <- E' in S1; clear - S1; change (T QcA) with Qc in *; qlra). assert (Jp : In p ps) by (apply A1; eauto).
      apply St; [assumption|]. refine (Qc_sum_zero _ _ Z _ _); [intros x Jx; apply in_map_iff in Jx as (q & <- & Jx); now apply St | apply in_map_iff; eauto].
    + intros E. assert (Z : Qc_sum (map (fun p : pool QcA => total (p_delegators p : dict Qc)) ps) = 0). { apply Qc_sum_zeros. intros x J. apply in_map_iff in J as (p & <- & J). apply A1 in J as (id & J). now rewrite (E id p J). }
      rewrite S1, Z, Qcplus_0_r. apply Qcmult_inv_r. exact (Qc_pos_neq _ P1).
Qed.

(** * C39 *)
Lemma list_add_at_fold (ps : list (pool QcA)) n : (forall p, In p ps -> (p_owner p < n)%nat) ->
  exists l, foldM (fun l p => list_add_at (A := QcA) l (p_owner p) (p_stake p)) ps (repeat 0 n) = Ok l /\ l = map (controls ps) (seq 0 n).
Proof.
  intros H. assert (M : forall (f : nat -> Qc) , exists l, foldM (fun l p => list_add_at (A := QcA) l (p_owner p) (p_stake p)) ps (map f (seq 0 n)) = Ok l /\ l = map (fun a => f a + controls ps a) (seq 0 n)).
  { induction ps as [|p ps IH]; intros f.
    - eexists. split; [reflexivity|]. apply map_ext. intros a. unfold controls. cbn [filter map]. change (Qc_sum []) with 0. ring.
    - cbn [foldM]. unfold list_add_at at 1. assert (L := H p (or_introl eq_refl)). rewrite (nth_error_nth' _ 0) by (rewrite map_length, seq_length; exact L).
      assert (E : nth (p_owner p) (map f (seq 0 n)) 0 = f (p_owner p)). { rewrite (nth_indep _ _ (f 0%nat)) by (rewrite map_length, seq_length; exact L). rewrite map_nth, seq_nth by exact L. reflexivity. }
      rewrite E. cbn [of_option bind]. set (f' := fun a => f a + (if Nat.eqb (p_owner p) a then p_stake p else 0)).
      assert (U : firstn (p_owner p) (map f (seq 0 n)) ++ (f (p_owner p) + p_stake p) :: skipn (S (p_owner p)) (map f (seq 0 n)) = map f' (seq 0 n)).
      { set (o := p_owner p) in *. replace n with (o + (1 + (n - o - 1)))%nat by lia. rewrite !seq_app, !map_app. cbn [seq map plus]. rewrite firstn_app, skipn_app. rewrite !map_length, !seq_length.
        rewrite firstn_all2 by (rewrite map_length, seq_length; lia). rewrite skipn_all2 by (rewrite map_length, seq_length; lia). replace (o - o)%nat with 0%nat by lia. replace (S o - o)%nat with 1%nat by lia. cbn [firstn skipn app]. rewrite app_nil_r. f_equal; [|f_equal].
        - apply map_ext_in. intros a J. apply in_seq in J. unfold f'. fold o; destruct (Nat.eqb_spec o a); [lia|]; ring.
        - unfold f'. fold o. rewrite Nat.eqb_refl. reflexivity.
        - apply map_ext_in. intros a J. apply in_seq in J. unfold f'. fold o; destruct (Nat.eqb_spec o a); [lia|]; ring. }
      change (add (a := QcA)) with Qcplus. change (T QcA) with Qc in *. rewrite U. destruct (IH (fun q J => H q (or_intror J)) f') as (l & Hl & El). exists l. split; [exact Hl|]. rewrite El. apply map_ext. intros a. unfold f'. rewrite controls_cons. change (T QcA) with Qc. ring. }
  destruct (M (fun _ => 0)) as (l & Hl & El). exists l. assert (R : map (fun _ : nat => 0) (seq 0 n) = repeat 0 n). { clear. generalize 0%nat as b. induction n as [|n IH]; intros b; cbn; [reflexivity|]. f_equal. apply IH. }
  rewrite R in Hl. split; [exact Hl|]. rewrite El. apply map_ext. intros. ring.
Qed.
Lemma reach_n {A : Arith} so (g : args A) profiles stakes costs s0 s x : init g profiles stakes costs = Ok s0 -> g_n g = Single x -> reach so s0 s -> s_n s = s_n s0.
Proof.
  intros H0 Hg. induction 1 as [|ch s s' R IH H]; [reflexivity|]. rewrite <- IH. clear IH. assert (C := reach_conf _ _ _ R). apply sim_step_cases in H as [(L & ->)|(L & w & Hw & H)]; [reflexivity|].
  destruct H as [(Ei & ->)|[(Ei & Lc & ->)|[(Ei & Lc & Lp & s4 & H4 & ->)|(Ei & Lc & Lp & ->)]]]; try reflexivity.
  change (s_n (idle_again s4)) with (s_n s4). apply change_settings in H4 as (s1 & E1 & _ & _ & s2 & F & E2).
  change (s_c (noted s w)) with (s_c s) in F. rewrite C, (init_multi _ _ _ _ _ H0), phase_settings_here in F. apply fields_settings in F.
  assert (N1 : s_n s1 = s_n s) by (unfold settings in E1; cbn in E1; congruence). unfold settings at 1 in F. cbn beta iota in F. destruct F as (b' & _ & F). assert (N2 : s_n s2 = listed_or (g_n g) (S (s_phase (noted s w))) (s_n s1)) by (unfold settings in F; congruence).
  unfold listed_or, listed in N2. rewrite Hg in N2. assert (N3 : s_n s4 = s_n s2) by (unfold settings in E2; congruence). congruence.
Qed.
Lemma reach_keys {A : Arith} so (s0 s : sim A) : reach so s0 s -> keys (w_agents (s_w s)) = keys (w_agents (s_w s0)).
Proof. induction 1 as [|ch s s' R IH H]; [reflexivity|]. apply step_shape in H as (_ & _ & H & _). congruence. Qed.

(** with the same number of agents in all phases *)
Theorem C39_stake_reports_add_up : forall so (g : args QcA) profiles (stakes costs : list Qc) (s0 s : sim QcA) x, set_order so -> init g profiles stakes costs = Ok s0 -> one_at_a_time g ->
  0 <= g_inactive g -> g_inactive g < 1 -> (forall x, In x stakes -> 0 <= x) -> g_n g = Single x -> reach so s0 s ->
  exists ps l d t, pools_list (s_w s) = Ok ps /\ pool_stakes_by_agent (s_n s) (s_w s) = Ok l /\ pool_stakes_by_agent_id (s_n s) (s_w s) = Ok d /\ total_delegated_stake (s_w s) = Ok t /\
    keys d = keys (w_agents (s_w s)) /\ values d = l /\
    (forall a, In a (keys (w_agents (s_w s))) -> nth_error l a = Some (controls ps a) /\ get d a = Some (controls ps a)) /\
    Qc_sum l = t /\ t <= active_stake_agents (s_w s) /\ (active_stake_agents (s_w s) <= 1 -> t <= 1).
Proof.
  intros so g profiles stakes costs s0 s x SO H1 H2 F0 F1 Hx Hn R. assert (V := vis_between _ _ _ _ R). destruct (exact_all False True False so SO _ _ _ _ _ _ H1 H2 (inputs_nonneg _ _ _ _ _ H1 F0 F1 Hx) V) as [G _].
  destruct (reported_pools _ _ _ _ _ G) as (ps & Hps & A1 & A2 & F2). assert (K : keys (w_agents (s_w s)) = seq 0 (Z.to_nat (s_n s))).
  { rewrite (reach_keys _ _ _ R), (reach_n _ _ _ _ _ _ _ _ H1 Hn R). apply (fs_keys _ _ _ _ _ (init_fresh _ _ _ _ _ H1)). }
  assert (Ow : forall p, In p ps -> (p_owner p < Z.to_nat (s_n s))%nat) by (intros p J; apply A2 in J; rewrite K in J; apply in_seq in J; lia).
  destruct (list_add_at_fold ps _ Ow) as (l & Hl & El). destruct (controlled_ok (seq 0 (Z.to_nat (s_n s))) ps (seq_NoDup _ _)) as (d & Hd & Kd & Gd); [intros p J; rewrite <- K; now apply A2|].
  assert (Vd : values d = l).
  { rewrite El. rewrite <- Kd. unfold keys, values. rewrite map_map. apply map_ext_in. intros [a v] J. cbn [fst snd]. assert (Na : NoDup (keys d)) by (rewrite Kd; apply seq_NoDup). assert (Ja : In a (seq 0 (Z.to_nat (s_n s)))) by (rewrite <- Kd; exact (in_map fst _ _ J)).
    apply In_get in J; [|assumption]. rewrite (Gd a Ja) in J. now injection J. }
  exists ps, l, d, (Qc_sum (map p_stake ps)). unfold pool_stakes_by_agent, pool_stakes_by_agent_id, total_delegated_stake. rewrite Hps. cbn [bind].
  assert (Su : Qc_sum l = Qc_sum (map p_stake ps)) by (rewrite El; apply controls_total; [apply seq_NoDup | intros p J; rewrite <- K; now apply A2]).
  assert (Le : Qc_sum (map p_stake ps) <= active_stake_agents (s_w s)).
  { destruct (C16_pools_hold_no_more_than_agents so g profiles stakes costs s0 (s_w s) SO H1 H2 F0 F1 Hx V) as (ps' & F' & Le). assert (ps' = ps) as <-; [|exact Le].
    clear - F2 F'. revert ps' F'. induction F2 as [|r p l l' E F IH]; intros ps' F'; inversion F'; subst; [reflexivity|]. f_equal; [congruence | now apply IH]. }
  split; [reflexivity|]. split; [exact Hl|]. split; [exact Hd|]. split; [reflexivity|]. split; [congruence|]. split; [exact Vd|]. split.
  - intros a J. rewrite K in J. split; [|now apply Gd]. rewrite El. apply map_nth_error. apply in_seq in J. rewrite (nth_error_nth' _ 0%nat) by (rewrite seq_length; lia). f_equal. rewrite seq_nth by lia. reflexivity.
  - split; [exact Su|]. split; [exact Le|]. intros Q. eapply Qcle_trans; [exact Le | exact Q].
Qed.

(** * C40 *)
Theorem C40_statistical_distance : forall so (g : args QcA) profiles (stakes costs : list Qc) (s0 : sim QcA) w, set_order so -> init g profiles stakes costs = Ok s0 -> one_at_a_time g ->
  0 <= g_inactive g -> g_inactive g < 1 -> (forall x, In x stakes -> 0 <= x) -> visible so s0 w -> w_pools w <> [] ->
  exists ps d, pools_list w = Ok ps /\ stat_dist w = Ok d /\
    d * (1 + 1) = Qc_sum (map (fun e : nat * agent QcA => Qcabs' (controls ps (fst e) - a_stake (snd e))) (w_agents w)) /\
    0 <= d /\
    (d = 0 <-> forall a ag, get (w_agents w) a = Some ag -> controls ps a = a_stake ag) /\
    (active_stake_agents w <= 1 -> positive_inputs g stakes -> d <= 1).
Proof.
  intros so g profiles stakes costs s0 w SO H1 H2 F0 F1 Hx V Np. destruct (exact_all False True False so SO _ _ _ _ _ _ H1 H2 (inputs_nonneg _ _ _ _ _ H1 F0 F1 Hx) V) as [G _].
  destruct (reported_pools _ _ _ _ _ G) as (ps & Hps & A1 & A2 & F2). assert (Na := reported_agents _ _ _ _ _ G). assert (Ne : ps <> []). { intros ->. apply mapM_length in Hps. unfold values in Hps. rewrite map_length in Hps. destruct (w_pools w); [congruence | discriminate]. }
  destruct (controlled_ok _ ps Na A2) as (cur & Hc & Kc & Gc). set (dif := fun e : nat * agent QcA => Qcabs' (controls ps (fst e) - a_stake (snd e))).
  exists ps, (Qc_sum (map dif (w_agents w)) / (1 + 1)). split; [assumption|]. assert (D0 : forall x, In x (map dif (w_agents w)) -> 0 <= x) by (intros x J; apply in_map_iff in J as (e & <- & _); apply abs_nonneg).
  split.
  { unfold stat_dist, when_pools. rewrite Hps. cbn [bind]. destruct ps as [|p0 ps0] eqn:E; [congruence|]. rewrite <- E in *. rewrite Hc. cbn [bind].
    rewrite (mapM_pure _ dif); [cbn [bind]; rewrite psum_sum; apply pdiv_ok; discriminate|]. intros [a ag] J. cbn [fst snd]. rewrite Gc by (exact (in_map fst _ _ J)). unfold dif; cbn [fst snd]; rewrite <- E; reflexivity. }
  split; [apply Qcdiv_mul; discriminate|]. split; [apply Qcdiv_nonneg; [now apply Qc_sum_nonneg | reflexivity]|]. split.
  - split.
    + intros E a ag J. apply get_In in J. assert (Z : Qc_sum (map dif (w_agents w)) = 0) by (rewrite <- (Qcdiv_mul (Qc_sum (map dif (w_agents w))) (1 + 1)) by discriminate; rewrite E; ring).
      assert (Z' := Qc_sum_zero _ D0 Z _ (in_map dif _ _ J)). unfold dif in Z'. cbn [fst snd] in Z'. apply (proj1 (abs_zero _)) in Z'. replace (a_stake ag) with (controls ps a - (controls ps a - a_stake ag)) by (change (T QcA) with Qc; ring). rewrite Z'. change (T QcA) with Qc. ring.
    + intros E. rewrite Qc_sum_zeros; [apply Qcmult_0_l|]. intros x J. apply in_map_iff in J as ([a ag] & <- & J). apply In_get in J; [|assumption]. apply abs_zero. cbn [fst snd]. rewrite (E a ag J). change (T QcA) with Qc. ring.
  - intros T1 HP. destruct (exact_all False True True so SO _ _ _ _ _ _ H1 H2 (inputs_pos _ _ _ _ _ H1 HP) V) as [GP _]. assert (Pl : forall p, In p ps -> 0 <= p_pledge p).
    { intros p J. apply A1 in J as (id & J). destruct (reported_facts _ _ _ _ _ GP _ _ J) as (_ & F & _). apply Qclt_le_weak. exact (pf_pledge _ _ _ _ F I). }
    destruct (C16_pools_hold_no_more_than_agents so g profiles stakes costs s0 w SO H1 H2 F0 F1 Hx V) as (ps' & F' & Le). assert (ps' = ps) as ->.
    { clear - F2 F'. revert ps' F'. induction F2 as [|r p l l' E F IH]; intros ps' F'; inversion F'; subst; [reflexivity|]. f_equal; [congruence | now apply IH]. }
    unfold active_stake_agents, agents_list in T1. change (fsum (a := QcA)) with Qc_sum in T1.
    assert (B : Qc_sum (map dif (w_agents w)) <= Qc_sum (map (fun e : nat * agent QcA => controls ps (fst e) + a_stake (snd e)) (w_agents w))).
    { apply Qc_sum_le. intros [a ag] J. apply abs_sum; cbn [fst snd].
      - apply controls_nonneg. intros p Jp. assert (Pp := Pl p Jp). apply A1 in Jp as (id & Jp). destruct (reported_facts _ _ _ _ _ G _ _ Jp) as (_ & F & _). destruct (reported_deleg _ _ _ _ _ G _ _ Jp) as [D _]. rewrite (pf_stake _ _ _ _ F). change (T QcA) with Qc in *. qlra.
      - apply In_get in J; [|assumption]. apply (g_new _ _ _ _ _ G a ag J). exact I. }
    rewrite (Qc_sum_plus (fun e : nat * agent QcA => controls ps (fst e)) (fun e => a_stake (snd e) : Qc)) in B. rewrite <- (map_map fst (controls ps)) in B. fold (keys (w_agents w)) in B. rewrite (controls_total _ _ Na A2) in B.
    rewrite <- (map_map snd (fun a : agent QcA => a_stake a : Qc)) in B. fold (values (w_agents w)) in B. apply Qcdiv_le; [reflexivity|]. eapply Qcle_trans; [exact B|]. eapply Qcle_trans; [apply Qcplus_le_compat; [eapply Qcle_trans; [exact Le | exact T1] | exact T1]|]. rewrite Qcmult_1_l. apply Qcle_refl.
Qed.

(** the hypotheses of the theorems on reachable states are met by the third state of the demo run, and the metrics are not trivial there *)
Lemma demo_positive : positive_inputs demo_seq demo_stakes.
Proof. split; [discriminate|]. split; [reflexivity|]. split; [exact demo_stakes_pos|]. intros x [<-|[]]. reflexivity. Qed.
Definition gives (r : res Qc) (x : Qc) : bool := match r with Ok y => Qc_eqb y x | Err _ => false end.
Lemma gives_ok r x : gives r x = true -> r = Ok x.
Proof. destruct r; [|discriminate]. cbn. intros H. now apply Qc_eqb_eq in H as ->. Qed.
Definition gives_nat (r : res nat) (x : nat) : bool := match r with Ok y => Nat.eqb y x | Err _ => false end.
Lemma gives_nat_ok r x : gives_nat r x = true -> r = Ok x.
Proof. destruct r; [|discriminate]. cbn. intros H. now apply Nat.eqb_eq in H as ->. Qed.
Example C35_C40_instance : exists s0 s, init demo_seq demo_profiles demo_stakes demo_costs = Ok s0 /\ reach so_id s0 s /\ visible so_id s0 (s_w s) /\
  set_order so_id /\ one_at_a_time demo_seq /\ positive_inputs demo_seq demo_stakes /\ w_pools (s_w s) <> [] /\ g_n demo_seq = Single 4%Z /\
  pledge_rate (s_w s) = Ok (Q2Qc (3#5)) /\ homogeneity (s_w s) = Ok (Q2Qc (2#3)) /\ nakamoto (s_w s) = Ok 2%nat /\ stat_dist (s_w s) = Ok (Q2Qc (2#5)) /\
  operator_count (s_w s) = Ok 2%nat /\ pool_splitter_count (s_w s) = Ok 1%nat /\ max_pools_per_operator (s_w s) = Ok 2%nat /\ avg_pools_per_operator (s_w s) = Ok (Q2Qc (3#2)) /\
  total_delegated_stake (s_w s) = Ok 1 /\ (exists l, pool_stakes_by_agent (s_n s) (s_w s) = Ok l /\ nth_error l 1 = Some (Q2Qc (1#2))).
Proof.
  destruct (steps_check demo_init 3 (fun s => let w := s_w s in negb (Nat.eqb (length (w_pools w)) 0) && (gives (pledge_rate w) (Q2Qc (3#5)) && (gives (homogeneity w) (Q2Qc (2#3)) && (gives_nat (nakamoto w) 2 && (gives (stat_dist w) (Q2Qc (2#5)) &&
     (gives_nat (operator_count w) 2 && (gives_nat (pool_splitter_count w) 1 && (gives_nat (max_pools_per_operator w) 2 && (gives (avg_pools_per_operator w) (Q2Qc (3#2)) && (gives (total_delegated_stake w) 1 &&
      match pool_stakes_by_agent (s_n s) w with Ok l => match nth_error l 1 with Some x => Qc_eqb x (Q2Qc (1#2)) | None => false end | Err _ => false end))))))))))) as (s0 & s & H1 & H2 & H3).
  { vm_compute. reflexivity. }
  cbv beta zeta in H3. repeat apply andb_true_iff in H3 as [? H3]. exists s0, s. apply steps_reach in H2. split; [exact H1|]. split; [exact H2|]. split; [now constructor|]. split; [exact so_id_set_order|]. split; [exact demo_one|]. split; [exact demo_positive|].
  split; [destruct (w_pools (s_w s)); [discriminate | discriminate]|]. split; [reflexivity|]. repeat (split; [first [now apply gives_ok | now apply gives_nat_ok]|]).
  destruct (pool_stakes_by_agent (s_n s) (s_w s)) as [l|]; [|discriminate]. exists l. split; [reflexivity|]. destruct (nth_error l 1); [|discriminate]. now apply Qc_eqb_eq in H3 as ->.
Qed.

(** If a later phase sets another number of agents, C39 fails: the reports take the length from model.n, but the agents stay, so that looking up the
    owner of a pool raises. *)
Definition fewer_args : args QcA :=
  mkArgs (A := QcA) (Multi [4%Z; 1%Z]) (Single (Q2Qc 2)) (Single (Q2Qc (3#10))) (Single 0) (Single (Q2Qc (1#1000000))) (Single 100%Z) (Single (Q2Qc 2)) (Single Sequential) (Single true) 0 0 false 2.
Theorem C39_stake_reports_refuted : exists (g : args QcA) profiles stakes costs s0 s, init g profiles stakes costs = Ok s0 /\ one_at_a_time g /\ positive_inputs g stakes /\ reach so_id s0 s /\
  pool_stakes_by_agent (s_n s) (s_w s) = Err IndexError /\ pool_stakes_by_agent_id (s_n s) (s_w s) = Err KeyError.
Proof.
  destruct (steps_check (init fewer_args demo_profiles demo_stakes demo_costs) 12 (fun s => match pool_stakes_by_agent (s_n s) (s_w s), pool_stakes_by_agent_id (s_n s) (s_w s) with Err IndexError, Err KeyError => true | _, _ => false end)) as (s0 & s & H1 & H2 & H3).
  { vm_compute. reflexivity. }
  exists fewer_args, demo_profiles, demo_stakes, demo_costs, s0, s. split; [exact H1|]. split; [constructor; [right; reflexivity | constructor]|]. split; [exact demo_positive|]. split; [eapply steps_reach; exact H2|].
  cbv beta in H3. destruct (pool_stakes_by_agent (s_n s) (s_w s)) as [|[]]; try discriminate; destruct (pool_stakes_by_agent_id (s_n s) (s_w s)) as [|[]]; try discriminate; now split.
Qed.
