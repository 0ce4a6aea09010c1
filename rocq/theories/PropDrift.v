(** C94: the books of the pools in the arithmetic of the machine. *)
From Coq Require Import ZArith Reals Lra Lia Psatz List Bool Permutation.
From Coq Require Import PrimFloat.
From Coq Require FloatOps SpecFloat.
Set Warnings "-inexact-float".
From Verif Require Import Num NumFloat FloatOrd Py Rewards Binary64 RealArith FloatReward FloatError PropFloat SortedKeyList World Stakeholder Sched Sim Init Reach ListFacts Inv SimInv Spec Demo AnyOrder.
From Flocq Require Core BinarySingleNaN PrimFloat.
Import Flocq.Core.Core.
Import ListNotations.
Local Open Scope R_scope.

(** * How a pool comes about *)
(** [evolution past p]: the pool [p] was opened with nothing but its pledge; [past] are its earlier stages, the latest first.  From one stage to the next one delegation is set,
    to nothing or to at least the smallest unit of stake, or the pledge changes and the stake with it. Margin, cost and what is derived from them may change at any time. *)
Inductive evolution {A : Arith} : list (pool A) -> pool A -> Prop :=
| ev_opened p : p_stake p = p_pledge p -> p_delegators p = [] -> evolution [] p
| ev_delegation past p a v : evolution past p -> v = zero \/ ltb v min_stake_unit = false -> evolution (p :: past) (update_delegation v a p)
| ev_pledge past p q : evolution past p -> p_stake q = sub (p_stake p) (sub (p_pledge p) (p_pledge q)) -> p_delegators q = p_delegators p -> evolution (p :: past) q
| ev_terms past p q : evolution past p -> p_stake q = p_stake p -> p_pledge q = p_pledge p -> p_delegators q = p_delegators p -> evolution past q.

Section Evolve.
  Context {A : Arith}.
  Let P (p : pool A) : Prop := exists past, evolution past p.
  Lemma evolves_upd (p : pool A) v a : P p -> v = zero \/ big v -> P (update_delegation v a p).
  Proof. intros [past E] H. exists (p :: past). now constructor. Qed.
  Lemma evolves_adjust (w : world A) ag pledge cost margins i p p' : P p -> adjust_pool w ag pledge cost margins i p = Ok p' -> P p'.
  Proof.
    intros [past E] H. unfold adjust_pool in H. apply bind_ok in H as (p2 & H2 & H). apply bind_ok in H as (m & _ & H). injection H as <-. unfold pool_set_profit in H2. apply bind_ok in H2 as (pp & _ & H2). injection H2 as <-.
    exists (p :: past). apply ev_pledge; [exact E | reflexivity | reflexivity].
  Qed.
  Lemma evolves_draft (w : world A) ag pledge cost margins i id p : draft_pool w ag pledge cost margins i id = Ok p -> P p.
  Proof.
    intros H. unfold draft_pool in H. apply bind_ok in H as (p2 & H2 & H). apply bind_ok in H as (m & _ & H). injection H as <-. unfold new_pool in H2. apply bind_ok in H2 as (pp & _ & H2). injection H2 as <-.
    exists []. apply ev_opened; reflexivity.
  Qed.
  Lemma evolves_reprice (rs : rss A) p p' : P p -> pool_set_profit rs p = Ok p' -> P (pool_set_desirability p').
  Proof. intros [past E] H. unfold pool_set_profit in H. apply bind_ok in H as (pp & _ & H). injection H as <-. exists past. now apply (ev_terms past p). Qed.
End Evolve.

(** In every arithmetic whose comparisons are a total preorder - the machine's is one - and under every activation order, every pool has come about like this. *)
Theorem C94_every_pool_evolved : forall (A : Arith), OrdLaws A -> forall so (g : args A) profiles (stakes costs : list (T A)) (s0 : sim A) w, init g profiles stakes costs = Ok s0 -> visible so s0 w ->
  forall id p, active w id p -> exists past, evolution past p.
Proof.
  intros A O so g profiles stakes costs s0 w H V id p (r & _ & Hp).
  exact (proj1 (visible_ok so (fun p => exists past, evolution past p) evolves_upd evolves_adjust evolves_draft evolves_reprice O s0 w (init_ok _ g profiles stakes costs s0 H) V) _ _ Hp).
Qed.

(** * How far the stake of a pool is from what it holds *)
Definition sumD (d : dict (T FloatA)) : R := fold_right Rplus 0 (map (fun e => fval (snd e)) d).
(** what the pool holds according to its own list: the pledge and the delegations, added up exactly *)
Definition held (p : pool FloatA) : R := fval (p_pledge p) + sumD (p_delegators p).
(** every entry is a finite number, not negative, and together they are at most 9/4 (the stakes of all agents are 1, up to rounding) *)
Definition in_range (p : pool FloatA) : Prop := ffin (p_pledge p) /\ 0 <= fval (p_pledge p) /\ (forall a v, In (a, v) (p_delegators p) -> ffin v /\ 0 <= fval v) /\ held p <= 9 / 4.

Lemma sumD_nonneg d : (forall a v, In (a, v) d -> ffin v /\ 0 <= fval v) -> 0 <= sumD d.
Proof. induction d as [|[a v] d IH]; intros H; [apply Rle_refl|]. unfold sumD. cbn [map fold_right snd]. assert (X := proj2 (H a v (or_introl eq_refl))). assert (Y : 0 <= sumD d) by (apply IH; intros b x J; apply (H b x (or_intror J))). unfold sumD in Y. lra. Qed.
Lemma sumD_get d a v : (forall b x, In (b, x) d -> ffin x /\ 0 <= fval x) -> get d a = Some v -> fval v <= sumD d /\ ffin v /\ 0 <= fval v.
Proof.
  induction d as [|[b x] d IH]; intros H G; [discriminate|]. cbn [get] in G. assert (X := H b x (or_introl eq_refl)). assert (Y : 0 <= sumD d) by (apply sumD_nonneg; intros c y J; apply (H c y (or_intror J))). change (sumD ((b, x) :: d)) with (fval x + sumD d).
  destruct (Nat.eqb a b); [injection G as <-; split; [lra | exact X]|]. destruct (IH (fun c y J => H c y (or_intror J)) G) as (U1 & U2 & U3). split; [lra|]. now split.
Qed.
Lemma sumD_set d a v : NoDup (keys d) -> sumD (set d a v) = sumD d - (match get d a with Some o => fval o | None => 0 end) + fval v.
Proof.
  induction d as [|[b x] d IH]; intros N; [cbn; lra|]. cbn [set get]. inversion N as [|? ? Nb N']; subst. destruct (Nat.eqb a b) eqn:E.
  - change (fval v + sumD d = fval x + sumD d - fval x + fval v). lra.
  - change (fval x + sumD (set d a v) = fval x + sumD d - match get d a with Some o => fval o | None => 0 end + fval v). rewrite IH by exact N'. lra.
Qed.
Lemma sumD_pop d a : sumD (pop d a) = sumD d - (match get d a with Some o => fval o | None => 0 end).
Proof.
  induction d as [|[b x] d IH]; [cbn; lra|]. cbn [pop get]. destruct (Nat.eqb a b) eqn:E.
  - change (sumD d = fval x + sumD d - fval x). lra.
  - change (fval x + sumD (pop d a) = fval x + sumD d - match get d a with Some o => fval o | None => 0 end). rewrite IH. lra.
Qed.

Lemma evolution_keys past (p : pool FloatA) : evolution past p -> NoDup (keys (p_delegators p)).
Proof.
  induction 1 as [p _ E|past p a v _ IH _|past p q _ IH _ E|past p q _ IH _ _ E]; [rewrite E; constructor | | now rewrite E | now rewrite E].
  unfold update_delegation. cbn [p_delegators]. destruct (ltb v min_stake_unit); [apply NoDup_pop|]; now apply NoDup_set.
Qed.

Lemma u_pos : 0 < u /\ 0 < eta /\ eta <= u / 64 /\ u <= / 64.
Proof.
  unfold u, eta. split; [apply bpow_gt_0|]. split; [apply bpow_gt_0|]. split.
  - apply Rle_trans with (bpow radix2 (-59)); [apply bpow_le; lia|]. replace (bpow radix2 (-53)) with (bpow radix2 (-59) * bpow radix2 6) by (rewrite <- bpow_plus; reflexivity). change (bpow radix2 6) with 64. lra.
  - apply Rle_trans with (bpow radix2 (-6)); [apply bpow_le; lia|]. change (bpow radix2 (-6)) with (/ 64). lra.
Qed.
Lemma big_2 x : Rabs x <= 4 -> Rabs x <= Binary64.big.
Proof. intros H. eapply Rle_trans; [exact H|]. unfold Binary64.big. change 4 with (bpow radix2 2). apply bpow_le. lia. Qed.
(** one operation whose exact result is at most 5/2 *)
Lemma one_op x : Rabs x <= 5 / 2 -> Rabs (rnd x - x) <= u * (5 / 2) + eta.
Proof. intros H. eapply Rle_trans; [apply rnd_err|]. destruct u_pos as (U & _). apply Rplus_le_compat_r, Rmult_le_compat_l; lra. Qed.

Definition step_err : R := bpow radix2 (-50).
Lemma step_err_u : step_err = 8 * u.
Proof. unfold step_err, u. replace (-50)%Z with (3 + -53)%Z by reflexivity. rewrite bpow_plus. reflexivity. Qed.

(** Each change moves the stake by at most 2^-50 away from what the pool holds. *)
Theorem C94_drift_is_bounded : forall past (p : pool FloatA), evolution past p -> (forall q, In q (p :: past) -> in_range q) -> INR (length past) <= bpow radix2 47 ->
  ffin (p_stake p) /\ Rabs (fval (p_stake p) - held p) <= INR (length past) * bpow radix2 (-50).
Proof.
  destruct u_pos as (U1 & U2 & U3 & U4). fold step_err.
  induction 1 as [p E D|past p a v Ev IH Hv|past p q Ev IH E D|past p q Ev IH E1 E2 D]; intros HR HL.
  - destruct (HR p (or_introl eq_refl)) as (F & _). rewrite E. split; [exact F|]. unfold held. rewrite D. cbn [length]. unfold sumD. cbn. rewrite Rplus_0_r, Rminus_diag_eq by reflexivity. rewrite Rabs_R0. lra.
  - cbn [length] in HL. rewrite S_INR in HL. assert (LB : 0 <= INR (length past)) by apply pos_INR. specialize (IH (fun q J => HR q (or_intror J)) ltac:(lra)). destruct IH as (Fs & IH).
    assert (Nk := evolution_keys _ _ Ev). destruct (HR p (or_intror (or_introl eq_refl))) as (Fp & Pp & Pd & Hh). destruct (HR _ (or_introl eq_refl)) as (_ & _ & Pd' & Hh'). 
    cbn [length]. rewrite S_INR. assert (SE := step_err_u). assert (B : INR (length past) * step_err <= / 8). { apply Rle_trans with (bpow radix2 47 * bpow radix2 (-50)); [apply Rmult_le_compat_r; [apply bpow_ge_0 | lra]|]. rewrite <- bpow_plus. change (bpow radix2 (47 + -50)) with (/ 8). lra. }
    set (n := INR (length past)) in *. set (old := match get (p_delegators p) a with Some o => fval o | None => 0 end).
    assert (Ho : 0 <= old <= sumD (p_delegators p)). { unfold old. destruct (get (p_delegators p) a) as [o|] eqn:Eo; [destruct (sumD_get _ _ _ Pd Eo) as (X & _ & Y); lra | split; [lra | now apply sumD_nonneg]]. }
    (* the value given to the delegation, and what the list holds afterwards *)
    assert (Hval : ffin v /\ 0 <= fval v /\ held (update_delegation v a p) = held p - old + fval v).
    { unfold update_delegation, held in *. cbn [p_pledge p_delegators] in *. destruct Hv as [->|Hv].
      - destruct val_0 as [V0 F0]. change (fval (@zero FloatA) = 0) in V0. change (ffin (@zero FloatA)) in F0. split; [exact F0|]. rewrite V0. split; [lra|]. assert (L : ltb (a := FloatA) zero min_stake_unit = true) by reflexivity. rewrite L.
        assert (Z1 := sumD_pop (set (p_delegators p) a zero) a). rewrite get_set_eq, V0 in Z1. assert (Z2 := sumD_set (p_delegators p) a zero Nk). fold old in Z2. rewrite V0 in Z2. rewrite Z1, Z2. lra.
      - rewrite Hv in *. assert (J : In (a, v) (set (p_delegators p) a v)) by (apply (get_In _ _ _ (get_set_eq _ _ _))). destruct (Pd' a v J) as (Fv & Vv). split; [exact Fv|]. split; [exact Vv|]. assert (Z2 := sumD_set (p_delegators p) a v Nk). fold old in Z2. rewrite Z2. lra. }
    destruct Hval as (Fv & Vv & Hn). assert (HP : 0 <= sumD (p_delegators p)) by now apply sumD_nonneg. rewrite Hn in Hh'. unfold held in Hh, Hh', IH. apply Rabs_le_inv in IH.
    (* the first subtraction *)
    set (s1 := match get (p_delegators p) a with Some o => sub (p_stake p) o | None => p_stake p end).
    assert (S1 : ffin s1 /\ Rabs (fval s1 - (fval (p_stake p) - old)) <= u * (5 / 2) + eta).
    { unfold s1, old in *. destruct (get (p_delegators p) a) as [o|] eqn:Eo.
      - destruct (sumD_get _ _ _ Pd Eo) as (X & Fo & Y). assert (Bx : Rabs (fval (p_stake p) - fval o) <= 5 / 2) by (apply Rabs_le; lra).
        destruct (sub_val (p_stake p) o Fs Fo) as [R1 R2]; [apply big_2; lra|]. split; [exact R1|]. change (sub (p_stake p) o) with (PrimFloat.sub (p_stake p) o). rewrite R2. now apply one_op.
      - split; [exact Fs|]. rewrite Rminus_0_r, Rminus_diag_eq by reflexivity. rewrite Rabs_R0. lra. }
    destruct S1 as (F1 & S1). apply Rabs_le_inv in S1.
    assert (Bx : Rabs (fval s1 + fval v) <= 5 / 2) by (apply Rabs_le; lra).
    destruct (add_val s1 v F1 Fv) as [R1 R2]; [apply big_2; lra|]. change (p_stake (update_delegation v a p)) with (PrimFloat.add s1 v). split; [exact R1|]. rewrite R2, Hn. assert (X := one_op _ Bx). apply Rabs_le_inv in X. unfold held. apply Rabs_le. lra.
  - cbn [length] in HL. rewrite S_INR in HL. assert (LB : 0 <= INR (length past)) by apply pos_INR. specialize (IH (fun q J => HR q (or_intror J)) ltac:(lra)). destruct IH as (Fs & IH).
    destruct (HR p (or_intror (or_introl eq_refl))) as (Fp & Pp & Pd & Hh). destruct (HR _ (or_introl eq_refl)) as (Fq & Pq & _ & Hh'). 
    cbn [length]. rewrite S_INR. assert (SE := step_err_u). assert (B : INR (length past) * step_err <= / 8). { apply Rle_trans with (bpow radix2 47 * bpow radix2 (-50)); [apply Rmult_le_compat_r; [apply bpow_ge_0 | lra]|]. rewrite <- bpow_plus. change (bpow radix2 (47 + -50)) with (/ 8). lra. }
    set (n := INR (length past)) in *. assert (HP : 0 <= sumD (p_delegators p)) by now apply sumD_nonneg. unfold held in Hh, Hh', IH |- *. rewrite D in *. apply Rabs_le_inv in IH. rewrite E.
    assert (Bx : Rabs (fval (p_pledge p) - fval (p_pledge q)) <= 5 / 2) by (apply Rabs_le; lra). destruct (sub_val (p_pledge p) (p_pledge q) Fp Fq) as [R1 R2]; [apply big_2; lra|]. assert (X := one_op _ Bx). apply Rabs_le_inv in X. rewrite <- R2 in X.
    set (d := PrimFloat.sub (p_pledge p) (p_pledge q)) in *. change (sub (p_stake p) (sub (p_pledge p) (p_pledge q))) with (PrimFloat.sub (p_stake p) d).
    assert (By : Rabs (fval (p_stake p) - fval d) <= 5 / 2) by (apply Rabs_le; lra). destruct (sub_val (p_stake p) d Fs R1) as [R3 R4]; [apply big_2; lra|]. assert (Y := one_op _ By). apply Rabs_le_inv in Y. split; [exact R3|]. rewrite R4. apply Rabs_le. lra.
  - assert (Rq : in_range p). { destruct (HR q (or_introl eq_refl)) as (X1 & X2 & X3 & X4). unfold in_range, held in *. rewrite <- E2, <- D. auto. }
    destruct IH as (F & IH); [intros x [<-|J]; [exact Rq | exact (HR x (or_intror J))] | exact HL|]. unfold held in *. rewrite E1, E2, D. now split.
Qed.

(** * The books are not exact *)
(** five non-myopic agents, k = 3, acting in turn *)
Definition drift_args : args FloatA :=
  mkArgs (A := FloatA) (Single 5%Z) (Single 3%float) (Single 0.3%float) (Single 0%float) (Single 1e-6%float) (Single 100%Z) (Single 2%float) (Single Sequential) (Single true) 0%Z 0%float false 2%Z.
Definition drift_profiles := [NonMyopic; NonMyopic; NonMyopic; NonMyopic; NonMyopic].
Definition drift_stakes : list PrimFloat.float := [0.95; 0.65; 0.8; 0.15; 0.46]%float.
Definition drift_costs : list PrimFloat.float := [0.002; 0.001; 0.2; 0.01; 0.002]%float.
Lemma drift_one : one_at_a_time drift_args.
Proof. constructor; [now right | constructor]. Qed.
Definition pool_at (w : world FloatA) (id : nat) : option (pool FloatA) := match get (w_pools w) id with Some r => get (w_heap w) r | None => None end.
Lemma pool_at_active w id p : pool_at w id = Some p -> active w id p.
Proof. unfold pool_at, active. destruct (get (w_pools w) id) as [r|]; [|discriminate]. intros H. exists r. now split. Qed.

(** A pool that all have left can hold less than its pledge: after two rounds, pool 1. *)
Definition short_check (s : sim FloatA) : bool :=
  match pool_at (s_w s) 1 with Some p => match p_delegators p with [] => PrimFloat.ltb (p_stake p) (p_pledge p) | _ => false end | None => false end.
Lemma short_run : match (let! s0 := init drift_args drift_profiles drift_stakes drift_costs in steps 2 s0) with Ok s => short_check s | Err _ => false end = true.
Proof. vm_compute. reflexivity. Qed.
Theorem C94_books_balance_refuted : exists s0 s id p, init drift_args drift_profiles drift_stakes drift_costs = Ok s0 /\ set_order so_id /\ one_at_a_time drift_args /\ reach so_id s0 s /\
  active (s_w s) id p /\ p_delegators p = [] /\ PrimFloat.ltb (p_stake p) (p_pledge p) = true.
Proof.
  destruct (steps_check (init drift_args drift_profiles drift_stakes drift_costs) 2 short_check short_run) as (s0 & s & H1 & H2 & H3). apply steps_reach in H2. unfold short_check in H3. destruct (pool_at (s_w s) 1) as [p|] eqn:Ep; [|discriminate H3].
  destruct (p_delegators p) as [|] eqn:Ed; [|discriminate H3]. exists s0, s, 1%nat, p. split; [exact H1|]. split; [exact so_id_set_order|]. split; [exact drift_one|]. split; [exact H2|]. split; [now apply pool_at_active|]. now split.
Qed.

(** Considering a move and staying put can change the stake of a pool: after three rounds agent 2 keeps its strategy, and the stake of pool 4 is another one. *)
Definition stay_check (s : sim FloatA) : bool :=
  match agent_step so_id (s_w s) 2 with
  | Ok w' => match update_strategy so_id (s_w s) 2 with
             | Ok w1 => match get (w_agents w1) 2, pool_at (s_w s) 4, pool_at w' 4 with
                        | Some ag, Some p, Some p' => match a_new ag with None => negb (PrimFloat.eqb (p_stake p) (p_stake p')) | Some _ => false end
                        | _, _, _ => false
                        end
             | Err _ => false
             end
  | Err _ => false
  end.
Lemma stay_run : match (let! s0 := init drift_args drift_profiles drift_stakes drift_costs in steps 3 s0) with Ok s => stay_check s | Err _ => false end = true.
Proof. vm_compute. reflexivity. Qed.
Theorem C94_considering_has_no_effect_refuted : exists s0 s uid w1 w' ag id p p', init drift_args drift_profiles drift_stakes drift_costs = Ok s0 /\ set_order so_id /\ one_at_a_time drift_args /\ reach so_id s0 s /\
  update_strategy so_id (s_w s) uid = Ok w1 /\ get (w_agents w1) uid = Some ag /\ a_new ag = None /\ agent_step so_id (s_w s) uid = Ok w' /\
  active (s_w s) id p /\ active w' id p' /\ PrimFloat.eqb (p_stake p) (p_stake p') = false.
Proof.
  destruct (steps_check (init drift_args drift_profiles drift_stakes drift_costs) 3 stay_check stay_run) as (s0 & s & H1 & H2 & H3). apply steps_reach in H2. unfold stay_check in H3.
  destruct (agent_step so_id (s_w s) 2) as [w'|] eqn:Ea; [|discriminate H3]. destruct (update_strategy so_id (s_w s) 2) as [w1|] eqn:Eu; [|discriminate H3]. destruct (get (w_agents w1) 2) as [ag|] eqn:Eg; [|discriminate H3].
  destruct (pool_at (s_w s) 4) as [p|] eqn:Ep; [|discriminate H3]. destruct (pool_at w' 4) as [p'|] eqn:Ep'; [|discriminate H3]. destruct (a_new ag) eqn:En; [discriminate H3|]. apply negb_true_iff in H3.
  exists s0, s, 2%nat, w1, w', ag, 4%nat, p, p'. split; [exact H1|]. split; [exact so_id_set_order|]. split; [exact drift_one|]. split; [exact H2|]. split; [exact Eu|]. split; [exact Eg|]. split; [exact En|]. split; [exact Ea|].
  split; [now apply pool_at_active|]. split; [now apply pool_at_active | exact H3].
Qed.

(** A pool with pledge 0.1 to which one agent delegates 0.2 and which then raises its pledge to 0.15 meets the hypotheses of [C94_drift_is_bounded]. *)
Lemma quarter_range (x : PrimFloat.float) : (PrimFloat.is_finite x && PrimFloat.leb PrimFloat.zero x && PrimFloat.leb x 0.25%float)%bool = true -> ffin x /\ 0 <= fval x <= / 4.
Proof.
  intros H. apply andb_prop in H. destruct H as [H H3]. apply andb_prop in H. destruct H as [H1 H2].
  assert (F : ffin x) by (unfold ffin; now rewrite <- PrimFloat.is_finite_equiv).
  apply (leb_val PrimFloat.zero x) in H2; [|apply val_0 | exact F]. apply (leb_val x 0.25%float) in H3; [|exact F | apply (unit_unit 0.25%float eq_refl)]. rewrite (proj1 val_0) in H2. rewrite val_quarter in H3. split; [exact F | lra].
Qed.
Definition tiny_pool : pool FloatA := @mkPool FloatA 1 0.001%float 0.1%float 0.1%float 0 false [] 0%float 0%float 0%float.
Definition tiny_pool2 : pool FloatA := update_delegation (A := FloatA) 0.2%float 1 tiny_pool.
Definition tiny_pool3 : pool FloatA := @mkPool FloatA 1 0.001%float 0.15%float (PrimFloat.sub (p_stake tiny_pool2) (PrimFloat.sub 0.1%float 0.15%float)) 0 false (p_delegators tiny_pool2) 0%float 0%float 0%float.
Example C94_instance : evolution [tiny_pool2; tiny_pool] tiny_pool3 /\ (forall q, In q [tiny_pool3; tiny_pool2; tiny_pool] -> in_range q) /\ INR (length [tiny_pool2; tiny_pool]) <= bpow radix2 47.
Proof.
  assert (X := quarter_range 0.1%float eq_refl). assert (Y := quarter_range 0.15%float eq_refl). assert (Z := quarter_range 0.2%float eq_refl). split; [|split].
  - apply (ev_pledge [tiny_pool] tiny_pool2); [|reflexivity | reflexivity]. apply (ev_delegation [] tiny_pool 1); [|right; reflexivity]. now apply ev_opened.
  - assert (E : p_delegators tiny_pool2 = [(1%nat, 0.2%float)]) by reflexivity. assert (E3 : p_delegators tiny_pool3 = [(1%nat, 0.2%float)]) by reflexivity.
    intros q [<-|[<-|[<-|[]]]]; unfold in_range, held, sumD; rewrite ?E, ?E3; cbn [p_pledge tiny_pool3 p_delegators tiny_pool map fold_right snd].
    + split; [tauto|]. split; [lra|]. split; [intros a v [[= <- <-]|[]]; tauto | lra].
    + change (p_pledge tiny_pool2) with 0.1%float. split; [tauto|]. split; [lra|]. split; [intros a v [[= <- <-]|[]]; tauto | lra].
    + split; [tauto|]. split; [lra|]. split; [intros a v [] | lra].
  - apply Rle_trans with (bpow radix2 1); [cbn; lra | apply bpow_le; lia].
Qed.
