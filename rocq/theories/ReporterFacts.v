(** Facts about the arithmetic of the metrics: sums, sorted lists, medians, counters. *)
From Coq Require Import ZArith QArith Qcanon List Bool Arith Lia Permutation Sorted.
From Verif Require Import Num Py QcTac Rewards SortedKeyList World Stakeholder Sched Sim Helper RewardFacts ListFacts PropHelper Greedy PropInit PropExact Reporters.
Import ListNotations.
Open Scope Qc_scope.

(** ** Sums *)
Lemma Qc_sum_cons x l : Qc_sum (x :: l) = x + Qc_sum l.  Proof. reflexivity. Qed.
Lemma Qc_sum_nonneg l : (forall x, In x l -> 0 <= x) -> 0 <= Qc_sum l.
Proof. induction l as [|x l IH]; intros H; [apply Qcle_refl|]. rewrite Qc_sum_cons. assert (A1 := H x (or_introl eq_refl)). assert (A2 := IH (fun y J => H y (or_intror J))). qlra. Qed.
Lemma Qc_sum_pos l : (forall x, In x l -> 0 < x) -> l <> [] -> 0 < Qc_sum l.
Proof.
  destruct l as [|x l]; intros H N; [congruence|]. rewrite Qc_sum_cons. assert (A1 := H x (or_introl eq_refl)).
  assert (A2 : 0 <= Qc_sum l) by (apply Qc_sum_nonneg; intros y J; assert (A2 := H y (or_intror J)); qlra). qlra.
Qed.
Lemma Qc_sum_In_le l x : (forall y, In y l -> 0 <= y) -> In x l -> x <= Qc_sum l.
Proof.
  induction l as [|y l IH]; intros H J; [destruct J|]; destruct J as [<-|J]; rewrite Qc_sum_cons.
  - assert (A2 : 0 <= Qc_sum l) by (apply Qc_sum_nonneg; intros; apply H; now right). qlra.
  - assert (A1 := H y (or_introl eq_refl)). assert (A2 := IH (fun z K => H z (or_intror K)) J). qlra.
Qed.
Lemma Qc_sum_zero l : (forall y, In y l -> 0 <= y) -> Qc_sum l = 0 -> forall x, In x l -> x = 0.
Proof. intros H E x J. assert (A1 := Qc_sum_In_le l x H J). assert (A2 := H x J). qlra. Qed.
Lemma Qc_sum_zeros l : (forall x, In x l -> x = 0) -> Qc_sum l = 0.
Proof. induction l as [|x l IH]; intros H; [reflexivity|]. rewrite Qc_sum_cons, (H x), IH; [ring | | now left]. intros; apply H; now right. Qed.
Lemma Qc_sum_scale c l : Qc_sum (map (fun x => c * x) l) = c * Qc_sum l.
Proof. induction l as [|x l IH]; cbn [map]; rewrite ?Qc_sum_cons; [change (Qc_sum []) with 0; ring|]. rewrite IH. ring. Qed.
Lemma Qc_sum_const {V} (f : V -> Qc) l c : (forall x, In x l -> f x = c) -> Qc_sum (map f l) = Qc_ofZ (Z.of_nat (length l)) * c.
Proof.
  intros H. rewrite <- Qc_sum_repeat. f_equal. induction l as [|x l IH]; [reflexivity|]. cbn. rewrite (H x) by now left. f_equal. apply IH. intros; apply H; now right.
Qed.
Lemma ofZ_succ n : Qc_ofZ (Z.of_nat (S n)) = Qc_ofZ (Z.of_nat n) + 1.
Proof. rewrite Nat2Z.inj_succ, <- Z.add_1_r, Qc_ofZ_add. reflexivity. Qed.
Lemma ofZ_nat_nonneg n : 0 <= Qc_ofZ (Z.of_nat n).
Proof. change 0 with (Qc_ofZ 0). apply Qc_ofZ_le. lia. Qed.

(** ** Absolute values *)
Definition Qcabs' (x : Qc) : Qc := if Qc_ltb x 0 then 0 - x else x.
Lemma absv_eq (x : Qc) : absv (A := QcA) x = Qcabs' x.  Proof. reflexivity. Qed.
Lemma abs_nonneg x : 0 <= Qcabs' x.
Proof. unfold Qcabs'. destruct (Qc_ltb_spec x 0); qlra. Qed.
Lemma abs_zero x : Qcabs' x = 0 <-> x = 0.
Proof. unfold Qcabs'. destruct (Qc_ltb_spec x 0); split; intros; qlra. Qed.
Lemma abs_minus x y : Qcabs' (x - y) = Qcabs' (y - x).
Proof. unfold Qcabs'. destruct (Qc_ltb_spec (x - y) 0), (Qc_ltb_spec (y - x) 0); qlra. Qed.
Lemma abs_sum x y : 0 <= x -> 0 <= y -> Qcabs' (x - y) <= x + y.
Proof. unfold Qcabs'. destruct (Qc_ltb_spec (x - y) 0); intros; qlra. Qed.
Lemma abs_scale c x : 0 < c -> Qcabs' (c * x) = c * Qcabs' x.
Proof.
  intros Hc. unfold Qcabs'. destruct (Qc_ltb_spec (c * x) 0) as [L|L], (Qc_ltb_spec x 0) as [L'|L']; try (ring || reflexivity).
  - assert (P := Qcmult_nonneg c x). exfalso. assert (0 <= c) by qlra. assert (0 <= x) by qlra. specialize (P H H0). qlra.
  - exfalso. assert (P := Qcmult_pos c (0 - x) Hc). assert (0 < 0 - x) by qlra. specialize (P H). replace (c * (0 - x)) with (0 - c * x) in P by ring. qlra.
Qed.

(** ** Sorting *)
Section SortNum.
  Variable lt : Qc -> Qc -> bool.
  Hypothesis trans : forall x y z, lt y x = false -> lt z y = false -> lt z x = false.
  Hypothesis asym : forall x y, lt x y = true -> lt y x = false.
  Definition ord (x y : Qc) : Prop := lt y x = false.
  Lemma insert_num_perm x l : Permutation (insert_num (A := QcA) lt x l) (x :: l).
  Proof. induction l as [|y l IH]; cbn; [reflexivity|]. destruct (lt x y); [reflexivity|]. rewrite IH. apply perm_swap. Qed.
  Lemma sort_num_perm l : Permutation (sort_num (A := QcA) lt l) l.
  Proof. induction l as [|x l IH]; cbn; [reflexivity|]. now rewrite insert_num_perm, IH. Qed.
  Lemma insert_num_sorted x l : StronglySorted ord l -> StronglySorted ord (insert_num (A := QcA) lt x l).
  Proof.
    induction 1 as [|y l S IH F]; cbn; [repeat constructor|]. destruct (lt x y) eqn:E.
    - constructor; [now constructor|]. constructor; [now apply asym|]. apply asym in E. eapply Forall_impl; [|exact F]. intros z Z. unfold ord in *. eauto.
    - constructor; [assumption|]. eapply Permutation_Forall; [symmetry; apply insert_num_perm|]. now constructor.
  Qed.
  Lemma sort_num_sorted l : StronglySorted ord (sort_num (A := QcA) lt l).
  Proof. induction l as [|x l IH]; cbn; [constructor | now apply insert_num_sorted]. Qed.
End SortNum.
Lemma sort_down_perm (l : list Qc) : Permutation (sort_down (A := QcA) l) l.  Proof. apply sort_num_perm. Qed.
Lemma sort_up_perm (l : list Qc) : Permutation (sort_up (A := QcA) l) l.  Proof. apply sort_num_perm. Qed.
Lemma sort_up_sorted (l : list Qc) : StronglySorted (fun x y => x <= y) (sort_up (A := QcA) l).
Proof.
  assert (S : StronglySorted (ord Qc_ltb) (sort_up (A := QcA) l)).
  { apply (sort_num_sorted Qc_ltb).
    - intros x y z. destruct (Qc_ltb_spec y x), (Qc_ltb_spec z y), (Qc_ltb_spec z x); try discriminate; try reflexivity; intros _ _; qlra.
    - intros x y. destruct (Qc_ltb_spec x y), (Qc_ltb_spec y x); try discriminate; try reflexivity; intros _; qlra. }
  induction S as [|x r S IH F]; constructor; [assumption|]. eapply Forall_impl; [|exact F]. intros y. unfold ord. destruct (Qc_ltb_spec y x); [congruence|]. intros _. qlra.
Qed.
Lemma sort_down_sorted (l : list Qc) : StronglySorted (fun x y => y <= x) (sort_down (A := QcA) l).
Proof.
  assert (S : StronglySorted (ord (fun x y => Qc_ltb y x)) (sort_down (A := QcA) l)).
  { apply (sort_num_sorted (fun x y => Qc_ltb y x)); cbn beta.
    - intros x y z. destruct (Qc_ltb_spec x y), (Qc_ltb_spec y z), (Qc_ltb_spec x z); try discriminate; try reflexivity; intros _ _; qlra.
    - intros x y. destruct (Qc_ltb_spec x y), (Qc_ltb_spec y x); try discriminate; try reflexivity; intros _; qlra. }
  induction S as [|x r S IH F]; constructor; [assumption|]. eapply Forall_impl; [|exact F]. intros y. unfold ord. cbn beta. destruct (Qc_ltb_spec x y); [congruence|]. intros _. qlra.
Qed.

(** the first [n] entries of a descending list have the greatest sum among all choices of [n] entries *)
Lemma top_sum l : StronglySorted (fun x y => y <= x) l -> forall c r, Permutation l (c ++ r) -> Qc_sum c <= Qc_sum (firstn (length c) l).
Proof.
  induction 1 as [|x l S IH F]; intros c r P.
  - apply Permutation_nil in P. destruct c; [apply Qcle_refl | discriminate].
  - destruct (in_dec Qc_eq_dec x c) as [J|J].
    + apply in_split in J as (c1 & c2 & ->). rewrite <- app_assoc in P. cbn [app] in P. apply Permutation_cons_app_inv in P. rewrite app_assoc in P. specialize (IH _ _ P).
      rewrite app_length in *. cbn [length]. rewrite Nat.add_succ_r. cbn [firstn]. rewrite Qc_sum_app, !Qc_sum_cons. rewrite Qc_sum_app in IH. qlra.
    + destruct c as [|y c]; [apply Qcle_refl|]. cbn [length firstn]. rewrite !Qc_sum_cons.
      assert (Jy : In y l). { assert (K : In y (x :: l)) by (eapply Permutation_in; [symmetry; exact P | now left]). destruct K as [->|K]; [exfalso; apply J; now left | assumption]. }
      assert (Jx : In x r). { assert (K : In x ((y :: c) ++ r)) by (eapply Permutation_in; [exact P | now left]). apply in_app_iff in K as [K|K]; [contradiction | assumption]. }
      assert (Hy : y <= x) by (rewrite Forall_forall in F; now apply F).
      apply in_split in Jx as (r1 & r2 & ->). assert (P' : Permutation l (c ++ (y :: r1 ++ r2))).
      { change ((y :: c) ++ r1 ++ x :: r2) with (y :: c ++ r1 ++ x :: r2) in P. rewrite app_assoc in P. rewrite app_comm_cons in P.
        apply Permutation_cons_app_inv in P. rewrite P. cbn [app]. rewrite <- app_assoc. apply Permutation_middle. }
      specialize (IH _ _ P'). qlra.
Qed.

(** ** Medians and means *)
Lemma nth_error_sorted_In (l s : list Qc) i x : Permutation s l -> nth_error s i = Some x -> In x l.
Proof. intros P E. eapply Permutation_in; [exact P|]. eapply nth_error_In; eassumption. Qed.
Lemma median_between (l : list Qc) lo hi : l <> [] -> (forall x, In x l -> lo <= x /\ x <= hi) -> exists m, median (A := QcA) l = Ok m /\ lo <= m /\ m <= hi.
Proof.
  intros N B. assert (Hn : (Nat.div2 (length l) < length l)%nat) by (apply Nat.lt_div2; destruct l; [congruence | cbn; lia]).
  set (s := sort_up (A := QcA) l). assert (P : Permutation s l) by apply sort_up_perm. assert (L := Permutation_length P).
  assert (G : forall i, (i < length l)%nat -> exists x, nth_error s i = Some x /\ lo <= x /\ x <= hi).
  { intros i Hi. destruct (nth_error s i) as [x|] eqn:E; [|apply nth_error_None in E; change (T QcA) with Qc in *; lia]. exists x. split; [reflexivity|]. apply B. eapply nth_error_sorted_In; eassumption. }
  assert (U : median (A := QcA) l = if Nat.odd (length l) then of_option IndexError (nth_error s (Nat.div2 (length l)))
    else let! a := of_option IndexError (nth_error s (Nat.div2 (length l) - 1)) in let! b := of_option IndexError (nth_error s (Nat.div2 (length l))) in pdiv (A := QcA) (add (a := QcA) a b) (two (A := QcA))).
  { unfold median. destruct l; [congruence | reflexivity]. }
  rewrite U. destruct (Nat.odd (length l)).
  - destruct (G _ Hn) as (x & E & H). rewrite E. exists x. now split.
  - destruct (G _ Hn) as (x & E & H). destruct (G (Nat.div2 (length l) - 1)%nat) as (y & E' & H'); [lia|]. rewrite E, E'. cbn [of_option bind]. rewrite pdiv_ok by discriminate. eexists. split; [reflexivity|].
    change (add (a := QcA) y x) with (y + x). change (two (A := QcA)) with (1 + 1). split; [apply Qcdiv_ge; [reflexivity|]; replace (lo * (1 + 1)) with (lo + lo) by ring | apply Qcdiv_le; [reflexivity|]; replace (hi * (1 + 1)) with (hi + hi) by ring]; qlra.
Qed.
Lemma mean_ok (l : list Qc) : l <> [] -> mean (A := QcA) l = Ok (Qc_sum l / Qc_ofZ (Z.of_nat (length l))).
Proof.
  intros N. destruct l as [|x l]; [congruence|]. unfold mean. rewrite pdiv_ok; [reflexivity|]. unfold of_nat. change (ofZ (a := QcA)) with Qc_ofZ. apply Qc_pos_neq. apply Qc_ofZ_pos. cbn [length]. lia.
Qed.
Lemma mean_between (l : list Qc) lo hi : l <> [] -> (forall x, In x l -> lo <= x /\ x <= hi) -> exists m, mean (A := QcA) l = Ok m /\ lo <= m /\ m <= hi.
Proof.
  intros N B. rewrite mean_ok by assumption. eexists. split; [reflexivity|]. assert (P : 0 < Qc_ofZ (Z.of_nat (length l))) by (apply Qc_ofZ_pos; destruct l; [congruence | cbn; lia]).
  assert (H : lo * Qc_ofZ (Z.of_nat (length l)) <= Qc_sum l /\ Qc_sum l <= hi * Qc_ofZ (Z.of_nat (length l))).
  { clear N P. induction l as [|x l IH]; [change (Qc_sum []) with 0; change (Qc_ofZ (Z.of_nat (length []))) with 0; split; qlra|]. rewrite Qc_sum_cons. cbn [length]. rewrite ofZ_succ.
    destruct IH as [I1 I2]; [intros; apply B; now right|]. destruct (B x (or_introl eq_refl)). set (n := Qc_ofZ (Z.of_nat (length l))) in *. clearbody n.
    replace (lo * (n + 1)) with (lo * n + lo) by ring. replace (hi * (n + 1)) with (hi * n + hi) by ring. split; qlra. }
  destruct H. split; [now apply Qcdiv_ge | now apply Qcdiv_le].
Qed.

(** ** Counters *)
Lemma tally_get d k a : get (tally d k) a = if Nat.eqb a k then Some (S (match get d k with Some n => n | None => 0 end)) else get d a.
Proof.
  unfold tally. destruct (Nat.eqb_spec a k) as [->|N]; [apply get_set_eq | apply get_set_ne; congruence].
Qed.
Lemma counter_get l a : get (counter l) a = if in_dec Nat.eq_dec a l then Some (count_occ Nat.eq_dec l a) else None.
Proof.
  unfold counter. rewrite <- (rev_involutive l). rewrite <- fold_left_rev_right, rev_involutive. set (r := rev l).
  assert (H : get (fold_right (fun y x => tally x y) [] r) a = if in_dec Nat.eq_dec a r then Some (count_occ Nat.eq_dec r a) else None).
  { induction r as [|k r IH]; [reflexivity|]. cbn [fold_right]. rewrite tally_get. destruct (Nat.eqb_spec a k) as [->|N].
    - rewrite IH. cbn [count_occ]. destruct (Nat.eq_dec k k); [|congruence]. destruct (in_dec Nat.eq_dec k (k :: r)) as [|C]; [|exfalso; apply C; now left].
      destruct (in_dec Nat.eq_dec k r) as [|C]; [reflexivity|]. apply (count_occ_not_In Nat.eq_dec) in C. now rewrite C.
    - rewrite IH. cbn [count_occ]. destruct (Nat.eq_dec k a); [congruence|]. destruct (in_dec Nat.eq_dec a r) as [J|J], (in_dec Nat.eq_dec a (k :: r)) as [J'|J']; try reflexivity; exfalso; cbn in J'; intuition congruence. }
  rewrite H. assert (C : count_occ Nat.eq_dec (rev r) a = count_occ Nat.eq_dec r a) by (apply Permutation_count_occ; symmetry; apply Permutation_rev). rewrite C.
  destruct (in_dec Nat.eq_dec a r) as [J|J], (in_dec Nat.eq_dec a (rev r)) as [J'|J']; try reflexivity; exfalso; rewrite <- in_rev in J'; contradiction.
Qed.
Lemma counter_keys l : NoDup (keys (counter l)) /\ forall a, In a (keys (counter l)) <-> In a l.
Proof.
  split.
  - unfold counter. assert (H : forall d, NoDup (keys d) -> NoDup (keys (fold_left tally l d))).
    { induction l as [|k l IH]; intros d N; cbn; [assumption|]. apply IH. unfold tally. now apply NoDup_set. }
    apply H. constructor.
  - intros a. rewrite <- get_Some_key. rewrite counter_get. destruct (in_dec Nat.eq_dec a l); split; intros H; try assumption; try (destruct H; discriminate); [eauto | contradiction].
Qed.
Lemma counter_values l n : In n (values (counter l)) <-> exists a, In a l /\ n = count_occ Nat.eq_dec l a.
Proof.
  split.
  - intros J. apply in_map_iff in J as ([a n'] & E & J). cbn in E. subst n'. apply In_get in J; [|apply counter_keys]. rewrite counter_get in J. destruct (in_dec Nat.eq_dec a l); [|discriminate]. injection J as <-. eauto.
  - intros (a & J & ->). assert (G : get (counter l) a = Some (count_occ Nat.eq_dec l a)) by (rewrite counter_get; destruct (in_dec Nat.eq_dec a l); [reflexivity | contradiction]).
    apply get_In in G. now apply (in_map snd) in G.
Qed.
Lemma distinct_eq l : distinct l = length (nodup Nat.eq_dec l).
Proof.
  unfold distinct. assert (H : forall s, NoDup s -> let r := fold_left (fun s x => if inb x s then s else s ++ [x]) l s in NoDup r /\ forall a, In a r <-> In a s \/ In a l).
  { induction l as [|x l IH]; intros s N; cbn; [split; [assumption | intros; tauto]|].
    assert (N' : NoDup (if inb x s then s else s ++ [x])) by (destruct (inb x s) eqn:E; [assumption|]; apply inb_false in E; eapply Permutation_NoDup; [apply Permutation_cons_append | now constructor]).
    destruct (IH _ N') as [I1 I2]. split; [assumption|]. intros a. rewrite I2. destruct (inb x s) eqn:E; [apply inb_spec in E; intuition congruence|]. rewrite in_app_iff. cbn. intuition. }
  destruct (H [] (NoDup_nil _)) as [H1 H2]. apply Permutation_length. apply NoDup_Permutation; [assumption | apply NoDup_nodup |]. intros a. rewrite H2, nodup_In. cbn. tauto.
Qed.
Lemma counter_length l : length (counter l) = length (nodup Nat.eq_dec l).
Proof.
  destruct (counter_keys l) as [N K]. transitivity (length (keys (counter l))); [unfold keys; now rewrite map_length|]. apply Permutation_length. apply NoDup_Permutation; [assumption | apply NoDup_nodup |]. intros a. now rewrite K, nodup_In.
Qed.
Lemma most_common_ok d : d <> [] -> exists e, most_common d = Ok e /\ In e d /\ forall x, In x d -> (snd x <= snd e)%nat.
Proof.
  destruct d as [|e0 d]; [congruence|]. intros _. unfold most_common.
  assert (H : forall d e0, let m := fold_left (fun m x : nat * nat => if Nat.ltb (snd m) (snd x) then x else m) d e0 in (m = e0 \/ In m d) /\ (snd e0 <= snd m)%nat /\ forall x, In x d -> (snd x <= snd m)%nat).
  { clear. induction d as [|y d IH]; intros e0; cbn; [split; [now left|]; split; [lia | intros x []]|]. destruct (IH (if Nat.ltb (snd e0) (snd y) then y else e0)) as (I1 & I2 & I3). set (m := fold_left _ d _) in *. clearbody m.
    destruct (Nat.ltb_spec (snd e0) (snd y)); (split; [intuition|]; split; [lia|]; intros x [<-|J]; [lia | now apply I3]). }
  destruct (H d e0) as (I1 & I2 & I3). eexists. split; [reflexivity|]. set (m := fold_left _ d e0) in *. clearbody m. split; [destruct I1; [subst; now left | now right]|]. intros x [<-|J]; [assumption | now apply I3].
Qed.
(** the counts add up to the number of counted things *)
Lemma counter_sum l : Qc_sum (map (fun n => Qc_ofZ (Z.of_nat n)) (values (counter l))) = Qc_ofZ (Z.of_nat (length l)).
Proof.
  unfold counter. assert (H : forall d, NoDup (keys d) -> Qc_sum (map (fun n => Qc_ofZ (Z.of_nat n)) (values (fold_left tally l d))) = Qc_sum (map (fun n => Qc_ofZ (Z.of_nat n)) (values d)) + Qc_ofZ (Z.of_nat (length l))).
  { induction l as [|k l IH]; intros d N; cbn [fold_left]; [change (Qc_ofZ (Z.of_nat (length []))) with 0; ring|]. rewrite IH by (unfold tally; now apply NoDup_set). cbn [length]. rewrite ofZ_succ. unfold tally. destruct (get d k) as [n|] eqn:E.
    - assert (P1 := Permutation_map (fun e => Qc_ofZ (Z.of_nat (snd e))) (set_perm d k (S n) n E)). assert (P2 := Permutation_map (fun e => Qc_ofZ (Z.of_nat (snd e))) (pop_perm d k n E)).
      apply Qc_sum_perm in P1. apply Qc_sum_perm in P2. unfold values. rewrite !map_map. rewrite P1, P2. cbn [map snd]. rewrite !Qc_sum_cons, ofZ_succ. ring.
    - apply get_None in E. rewrite set_new by assumption. unfold values. rewrite !map_app, Qc_sum_app. cbn [map snd]. rewrite Qc_sum_cons. change (Qc_sum []) with 0. change (Qc_ofZ (Z.of_nat 1)) with 1. ring. }
  rewrite H by constructor. cbn [values map]. change (Qc_sum (map _ [])) with 0. cbn. change (Qc_sum []) with 0. ring.
Qed.

(** ** Stake controlled through pools *)
Definition controls (ps : list (pool QcA)) (a : nat) : Qc := Qc_sum (map p_stake (filter (fun p => Nat.eqb (p_owner p) a) ps)).
Lemma controls_cons p ps a : controls (p :: ps) a = (if Nat.eqb (p_owner p) a then p_stake p else 0) + controls ps a.
Proof. unfold controls. cbn [filter]. destruct (Nat.eqb (p_owner p) a); cbn [map]; [reflexivity | change (T QcA) with Qc; ring]. Qed.
Lemma controlled_ok ks (ps : list (pool QcA)) : NoDup ks -> (forall p, In p ps -> In (p_owner p) ks) ->
  exists d, controlled (A := QcA) ks ps = Ok d /\ keys d = ks /\ forall a, In a ks -> get d a = Some (controls ps a).
Proof.
  intros N H. unfold controlled. set (d0 := map (fun k => (k, zero (a := QcA))) ks).
  assert (G0 : forall a, In a ks -> get d0 a = Some 0). { intros a J. unfold d0. clear - J. induction ks as [|k ks IH]; [destruct J|]. cbn. destruct (Nat.eqb_spec a k); [reflexivity|]. apply IH. destruct J; [congruence | assumption]. }
  assert (K0 : keys d0 = ks) by (unfold d0, keys; rewrite map_map; apply map_id).
  assert (M : forall d (f : nat -> Qc), keys d = ks -> (forall a, In a ks -> get d a = Some (f a)) ->
    exists d', foldM (fun d p => add_at (A := QcA) d (p_owner p) (p_stake p)) ps d = Ok d' /\ keys d' = ks /\ forall a, In a ks -> get d' a = Some (f a + controls ps a)).
  { induction ps as [|p ps IH]; intros d f K G; cbn [foldM].
    - exists d. repeat split; [assumption|]. intros a J. rewrite G by assumption. unfold controls. cbn. f_equal. change (T QcA) with Qc. change (Qc_sum []) with 0. ring.
    - unfold add_at at 1. change (T QcA) with Qc. rewrite (G (p_owner p)) by (apply H; now left). cbn [of_option bind]. set (v := add (a := QcA) (f (p_owner p)) (p_stake p)).
      destruct (IH (fun q J => H q (or_intror J)) (set d (p_owner p) v) (fun a => f a + (if Nat.eqb (p_owner p) a then p_stake p else 0))) as (d' & E & K' & G').
      + rewrite keys_set_in; [assumption|]. rewrite K. apply H. now left.
      + intros a J. rewrite get_set. destruct (Nat.eqb_spec (p_owner p) a) as [<-|]; [reflexivity|]. rewrite G by assumption. f_equal. change (T QcA) with Qc. ring.
      + exists d'. split; [exact E|]. split; [assumption|]. intros a J. rewrite G' by assumption. rewrite controls_cons. f_equal. change (T QcA) with Qc. ring. }
  destruct (M d0 (fun _ => 0) K0 G0) as (d' & E & K' & G'). exists d'. split; [exact E|]. split; [assumption|]. intros a J. rewrite G' by assumption. f_equal. change (T QcA) with Qc. ring.
Qed.
(** every pool has one owner: what the agents control adds up to the pools' stake *)
Lemma controls_total ks (ps : list (pool QcA)) : NoDup ks -> (forall p, In p ps -> In (p_owner p) ks) -> Qc_sum (map (controls ps) ks) = Qc_sum (map p_stake ps).
Proof.
  intros N H. induction ps as [|p ps IH].
  - cbn [map]. apply Qc_sum_zeros. intros x J. apply in_map_iff in J as (a & <- & _). reflexivity.
  - cbn [map]. rewrite Qc_sum_cons, <- IH by (intros; apply H; now right). rewrite (map_ext _ _ (controls_cons p ps)), Qc_sum_plus. f_equal.
    assert (J := H p (or_introl eq_refl)). apply in_split in J as (l1 & l2 & E). subst ks. rewrite map_app, Qc_sum_app. cbn [map]. rewrite Qc_sum_cons, Nat.eqb_refl.
    apply NoDup_remove_2 in N. rewrite !Qc_sum_zeros; [change (T QcA) with Qc; ring | |]; intros x Jx; apply in_map_iff in Jx as (a & <- & Ja); (destruct (Nat.eqb_spec (p_owner p) a) as [E|]; [|reflexivity]; exfalso; apply N; apply in_app_iff; subst a; tauto).
Qed.
Lemma controls_nonneg (ps : list (pool QcA)) a : (forall p, In p ps -> 0 <= p_stake p) -> 0 <= controls ps a.
Proof. intros H. apply Qc_sum_nonneg. intros x J. apply in_map_iff in J as (p & <- & J). apply filter_In in J as [J _]. now apply H. Qed.
