(** C102: what an agent pledges and delegates in a run, in the arithmetic of the machine. *)
From Coq Require Import ZArith Reals Lra Lia Psatz List Bool Permutation.
From Coq Require Import PrimFloat.
Set Warnings "-inexact-float".
From Verif Require Import Num NumFloat FloatOrd Py Rewards Binary64 RealArith FloatReward FloatError PropFloat SortedKeyList World Stakeholder Sched Sim Init Reach Inv Static Exec Eval Step SimInv Spec Demo ListFacts FloatRange PropState PropDrift AnyValues PropDriftRun PropTargetFloat PropSplitFloat PropGreedyFloat PropStakesFloat PropDivFloat PropExact.
From Flocq Require Core PrimFloat.
Import Flocq.Core.Core.
Import ListNotations.
Local Open Scope R_scope.

(** * The functions *)
(** on finite numbers the comparisons of runs are those of the machine *)
Lemma pledge_same (s t x : PrimFloat.float) n : (1 <= n <= 2 ^ 53)%Z -> ffin s -> ffin t -> 0 <= fval s <= bpow radix2 400 -> pledge_per_pool (A := FloatA) s t n = Ok x -> pledge_per_pool (A := FloatI) s t n = Ok x.
Proof.
  intros N Fs Ft [S0 SB] H. destruct (ofZ_range n N) as (Fn & Vn & N1 & _). destruct val_0 as [V0 F0]. assert (D := div_inv_bound (fval s) (IZR n) _ (conj S0 SB) N1).
  destruct (div_val s (F_ofZ n) Fs Fn ltac:(lra)) as [Fq Vq]. { rewrite Vn, Rabs_pos_eq by lra. apply Rle_trans with (bpow radix2 400); [lra | apply big_ge; lia]. }
  unfold pledge_per_pool in *. destruct (n <=? 0)%Z; [exact H|]. unfold pdiv in *. destruct (eqb (a := FloatA) (ofZ n) zero); [discriminate H|]. cbn [bind] in H. injection H as <-.
  change (eqb (a := FloatI) (ofZ n) zero) with (PrimFloat.eqb (F_ofZ n) PrimFloat.zero). destruct (PrimFloat.eqb (F_ofZ n) PrimFloat.zero) eqn:K; [apply (eqb_val _ _ Fn F0) in K; lra|]. cbn [bind]. unfold pmin.
  change (Ok (if PrimFloat.ltb t (PrimFloat.div s (F_ofZ n)) then t else PrimFloat.div s (F_ofZ n)) = Ok (if F_ltb t (PrimFloat.div s (F_ofZ n)) then t else PrimFloat.div s (F_ofZ n))).
  unfold F_ltb. rewrite (fin_not_nan t Ft), (fin_not_nan _ Fq). reflexivity.
Qed.

(** a delegation of at most [X] *)
Lemma deleg_bound (rs : rss FloatA) (s : T FloatA) (d : dict (T FloatA)) (X : R) : ffin s -> X <= bpow radix2 400 -> fval s <= X -> 0 <= X -> deleg (A := FloatA) rs s d -> proper_amounts d /\ sumD d <= Rmax (fval s) 0 + INR (length d) * (u * X + eta).
Proof.
  intros Fs XB SX X0 [->|(L & pools & N & ->)].
  - split; [intros ? ? []|]. cbn [length INR]. change (sumD []) with 0. assert (M := Rmax_r (fval s) 0). lra.
  - destruct min_fin as (Fm & Pm). assert (S0 : fval (min_stake_unit (a := FloatA)) <= fval s) by exact (proj1 (flt_val_false _ _ Fs Fm) L). destruct (C101_delegations_use_the_stake rs pools s N Fs ltac:(lra) L) as (A1 & A2 & _). split; [exact A1|].
    rewrite Rmax_left by lra. destruct small_u as [[U0 U1] [E0 E1]]. set (d := greedy_allocations rs pools s) in *. assert (INR (length d) * (u * fval s + eta) <= INR (length d) * (u * X + eta)); [|lra]. apply Rmult_le_compat_l; [apply pos_INR|]. assert (u * fval s <= u * X) by (apply Rmult_le_compat_l; lra). lra.
Qed.

(** the pledges of n pools and the delegation of the rest *)
Lemma operator_bound (rs : rss FloatA) (s x : T FloatA) (d : dict (T FloatA)) n (N : nat) : (1 <= n <= 2 ^ 53)%Z -> ffin s -> 0 <= fval s <= bpow radix2 400 -> ffin (r_thr rs) -> 0 <= fval (r_thr rs) -> pledge_per_pool (A := FloatA) s (r_thr rs) n = Ok x ->
  deleg (A := FloatA) rs (sub s (mul x (ofZ n))) d -> (Z.to_nat n <= N)%nat -> (length d <= N)%nat ->
  proper_amounts d /\ IZR n * fval x + sumD d <= fval s + (INR N + 3) * u * fval s + 2 * (INR N + 1) * eta.
Proof.
  intros Hn Fs HS Ft T0 Hx Hd Ln Ld. assert (Hx' := pledge_same _ _ _ _ Hn Fs Ft HS Hx). destruct (C100_pledges_and_rest_are_the_stake _ _ _ _ Hn Fs Ft HS T0 Hx') as [Fr B].
  destruct (C100_pledges_use_the_stake s (r_thr rs) n Hn Fs Ft HS T0) as (x' & E' & Fx & [X0 _] & PB & _). rewrite Hx' in E'. injection E' as <-.
  change (PrimFloat.sub s (PrimFloat.mul x (F_ofZ n))) with (sub (a := FloatA) s (mul (a := FloatA) x (ofZ n))) in Fr, B. set (r := sub (a := FloatA) s (mul (a := FloatA) x (ofZ n))) in *. destruct small_u as [[U0 U1] [E0 E1]].
  assert (RS : fval r <= fval s).
  { destruct (ofZ_range n Hn) as (Fn & Vn & N1 & N2). assert (B4 : 1 <= bpow radix2 400) by (apply (bpow_le radix2 0 400); lia). assert (B3 : 8 * bpow radix2 400 <= big). { change 8 with (bpow radix2 3). rewrite <- bpow_plus. apply big_ge. lia. }
    assert (NE : IZR n * eta <= 1). { apply Rle_trans with (bpow radix2 53 * bpow radix2 (-1075)); [apply Rmult_le_compat; unfold eta in *; lra|]. rewrite <- bpow_plus. apply (bpow_le radix2 _ 0). lia. }
    assert (US : u * fval s <= fval s) by nra. assert (P0 : 0 <= IZR n * fval x) by (apply Rmult_le_pos; lra).
    destruct (mul_val x (F_ofZ n) Fx Fn) as [Fv Vv]. { rewrite Vn, Rmult_comm, Rabs_pos_eq by exact P0. lra. } rewrite Vn, Rmult_comm in Vv. assert (V0 : 0 <= fval (PrimFloat.mul x (F_ofZ n))) by (rewrite Vv; now apply rnd_pos). assert (D1 := rnd_err (IZR n * fval x)). rewrite <- Vv, (Rabs_pos_eq _ P0) in D1. apply abs_le_inv in D1.
    assert (UP : u * (IZR n * fval x) <= IZR n * fval x) by nra.
    destruct (sub_val s (PrimFloat.mul x (F_ofZ n)) Fs Fv) as [_ Vr]. { apply Rabs_le. lra. } change (fval (PrimFloat.sub s (PrimFloat.mul x (F_ofZ n))) <= fval s). rewrite Vr. rewrite <- (rnd_fval s) at 2. apply rnd_le. lra. }
  destruct (deleg_bound rs r d (fval s) Fr ltac:(lra) RS ltac:(lra) Hd) as [D1 D2]. split; [exact D1|]. apply Rabs_le_inv in B.
  assert (L1 : INR (length d) <= INR N) by now apply le_INR. assert (L2 : IZR n <= INR N). { apply le_INR in Ln. rewrite INR_IZR_INZ, Z2Nat.id in Ln by lia. exact Ln. }
  assert (US : 0 <= u * fval s) by (apply Rmult_le_pos; lra). assert (M1 : INR (length d) * (u * fval s + eta) <= INR N * (u * fval s + eta)) by (apply Rmult_le_compat_r; lra). assert (M2 : IZR n * eta <= INR N * eta) by (apply Rmult_le_compat_r; lra). lra.
Qed.

Lemma sumD_sub : forall d d' : dict (T FloatA), proper_amounts d -> NoDup (keys d) -> NoDup (keys d') -> (forall k v, get d' k = Some v -> get d k = Some v) -> sumD d' <= sumD d.
Proof.
  intros d d'. revert d. induction d' as [|[k v] d' IH]; intros d P N N' S.
  - change (sumD []) with 0. now apply sumD_nonneg.
  - assert (G : get d k = Some v) by (apply S; cbn; now rewrite Nat.eqb_refl). assert (E := sumD_pop d k). rewrite G in E. inversion N' as [|? ? Nk N'']; subst. change (fval v + sumD d' <= sumD d). assert (sumD d' <= sumD (pop d k)); [|lra]. apply IH; [| now apply NoDup_pop | assumption |].
    + intros i y J. apply (P i). apply In_get in J; [|now apply NoDup_pop]. rewrite get_pop in J by assumption. destruct (Nat.eqb k i); [discriminate J | now apply get_In].
    + intros k' v' G'. rewrite get_pop by assumption. destruct (Nat.eqb_spec k k') as [->|Ne].
      * exfalso. apply Nk. apply get_Some_key. eauto.
      * apply S. cbn. destruct (Nat.eqb_spec k' k); [congruence | assumption].
Qed.
Lemma short_dict {V} (d : dict V) N : NoDup (keys d) -> (forall k v, get d k = Some v -> (1 <= k <= N)%nat) -> (length d <= N)%nat.
Proof.
  intros Nd H. rewrite <- (map_length fst d). rewrite <- (seq_length N 1). apply NoDup_incl_length; [exact Nd|]. intros k J. apply get_Some_key in J as (v & J). apply in_seq. apply H in J. lia.
Qed.

(** * Runs *)
Definition pledge_at (w : world FloatA) (r : nat) : R := match get (w_heap w) r with Some p => fval (p_pledge p) | None => 0 end.
Definition pledges_of (w : world FloatA) (st : strategy FloatA) : R := fold_right Rplus 0 (map (pledge_at w) (values (s_owned st))).
(** the stake of an agent and the roundings of [N] amounts *)
Definition with_roundings (N : nat) (s : R) : R := s + (INR N + 3) * u * s + 2 * (INR N + 1) * eta.
Definition within (w : world FloatA) : Prop := (Z.of_nat (w_idseq w) <= 2 ^ 53)%Z -> forall a ag st, plays w a ag st ->
  proper_amounts (s_alloc st) /\ pledges_of w st + sumD (s_alloc st) <= with_roundings (w_idseq w) (fval (a_stake ag)).
Definition finite_stake (_ : rss FloatA) (s : T FloatA) : Prop := ffin s /\ 0 <= fval s <= bpow radix2 400.

Lemma roundings_mono N N' s : (N <= N')%nat -> 0 <= s -> with_roundings N s <= with_roundings N' s.
Proof.
  intros H S. apply le_INR in H. unfold with_roundings. destruct small_u as [[U0 U1] [E0 E1]]. assert (US : 0 <= u * s) by (apply Rmult_le_pos; lra). assert (INR N * (u * s) <= INR N' * (u * s)) by (apply Rmult_le_compat_r; lra). assert (INR N * eta <= INR N' * eta) by (apply Rmult_le_compat_r; lra). lra.
Qed.
Lemma sum_repeat (v : R) k : fold_right Rplus 0 (repeat v k) = INR k * v.
Proof. induction k as [|k IH]; [cbn; lra|]. rewrite S_INR. cbn [repeat fold_right]. rewrite IH. ring. Qed.

Section Run.
  Variable so : list nat -> list nat -> list nat.
  Hypothesis so_perm : set_order so.
  Notation NPt := (fun (_ : rss FloatA) (_ : pool FloatA) => True).
  Notation TGt := (fun _ : T FloatA => True).
  Notation fgood := (good (A := FloatA) NPt False finite_stake).
  Notation fmove := (step_move (A := FloatA) so NPt False TGt).

  Lemma owned_at m w a ag st id r : fgood m w -> plays w a ag st -> get (s_owned st) id = Some r -> get (w_pools w) id = Some r /\ (1 <= id <= w_idseq w)%nat /\ exists p, get (w_heap w) r = Some p.
  Proof.
    intros G [P1 P2] H. assert (O1 : ow_of w a id = Some r) by (unfold ow_of; now rewrite P1, P2). destruct (i_own _ _ _ _ _ _ (g_inv _ _ _ _ _ G) _ _ _ O1) as [J1 J2].
    split; [assumption|]. destruct (i_reg _ _ _ _ _ _ (g_inv _ _ _ _ _ G) _ _ J1) as (p & K1 & _ & K3 & _). split; [exact K3 | now exists p].
  Qed.
  Lemma owned_nodup m w a ag st : fgood m w -> plays w a ag st -> NoDup (keys (s_alloc st)) /\ NoDup (keys (s_owned st)).
  Proof. intros G P. destruct (proj2 (g_ok _ _ _ _ _ G) a ag (proj1 P)) as [_ N]. exact (N st (proj2 P)). Qed.
  Lemma pledges_static m w w' a ag st : fgood m w -> plays w a ag st -> (forall r p, get (w_heap w) r = Some p -> exists p', get (w_heap w') r = Some p' /\ same_static p p') -> pledges_of w' st = pledges_of w st.
  Proof.
    intros G P S. unfold pledges_of. f_equal. apply map_ext_in. intros r J. apply In_values in J as (id & J); [|exact (proj2 (owned_nodup m w a ag st G P))]. destruct (owned_at m w a ag st id r G P J) as (_ & _ & p & Gp). destruct (S r p Gp) as (p' & G' & S'). unfold pledge_at. rewrite Gp, G', S'. reflexivity.
  Qed.
  Lemma few_amounts m w a ag st : fgood m w -> plays w a ag st -> (length (s_alloc st) <= w_idseq w)%nat /\ (length (s_owned st) <= w_idseq w)%nat.
  Proof.
    intros G P. destruct (owned_nodup m w a ag st G P) as [N1 N2]. split; (apply short_dict; [assumption|]); intros k v J.
    - assert (L : al_of w a k = Some v) by (unfold al_of; destruct P as [P1 P2]; now rewrite P1, P2). destruct (i_al _ _ _ _ _ _ (g_inv _ _ _ _ _ G) _ _ _ L) as (_ & r & p & R1 & _). destruct (i_reg _ _ _ _ _ _ (g_inv _ _ _ _ _ G) _ _ R1) as (q & _ & _ & K & _). exact K.
    - now apply (owned_at m w a ag st k v G P).
  Qed.

  Lemma within_step m uid w w' : sound_rss (w_rss w) -> fgood m w -> within w -> fgood m w' -> step_idle so uid w w' \/ fmove m uid w w' -> within w'.
  Proof.
    intros RS G B G' [(w2 & E & Ea & _ & Ew)|(ag & st & w2 & new & w3 & Ga & Gst & I2 & E & M & X & HS & _ & ->)] L.
    - assert (Eh : w_heap w' = w_heap w2) by (now rewrite Ew). assert (Es : w_idseq w' = w_idseq w2) by (now rewrite Ew). assert (S : forall r p, get (w_heap w) r = Some p -> exists p', get (w_heap w') r = Some p' /\ same_static p p') by (rewrite Eh; apply E). assert (Le : (w_idseq w <= w_idseq w2)%nat) by apply E.
      intros a ag st P. unfold plays in P. rewrite Ea in P. destruct (B ltac:(lia) a ag st P) as [B1 B2]. split; [exact B1|]. rewrite (pledges_static m w w' a ag st G P S). eapply Rle_trans; [exact B2|]. apply roundings_mono; [lia|]. apply (g_new _ _ _ _ _ G a ag (proj1 P)).
    - assert (Aid : a_id ag = uid) by (now apply (g_ok _ _ _ _ _ G)). assert (Le2 : (w_idseq w <= w_idseq w2)%nat) by apply E. assert (Es3 := x_seq _ _ _ _ _ X). cbn [w_idseq with_idle] in L |- *. change (w_idseq (with_idle false w3)) with (w_idseq w3) in *.
      assert (S2 : forall r p, get (w_heap w) r = Some p -> exists p', get (w_heap w2) r = Some p' /\ same_static p p') by apply E.
      assert (S : forall r p, get (w_heap w) r = Some p -> exists p', get (w_heap w3) r = Some p' /\ same_static p p').
      { intros r p Gr. destruct (S2 r p Gr) as (p2 & G2 & T2). destruct (HS r p2 G2) as (p3 & G3 & T3). exists p3. split; [assumption | eapply same_static_trans; eassumption]. }
      assert (Ea2 : w_agents w2 = w_agents w) by apply E. assert (Er2 : w_rss w2 = w_rss w) by apply E.
      assert (Oth : forall a ag' st', a <> uid -> plays w3 a ag' st' -> exists ag0 st0, plays w a ag0 st0 /\ a_stake ag' = a_stake ag0 /\ s_owned st' = s_owned st0).
      { intros a ag' st' Ne [P1 P2]. assert (O1 := x_others _ _ _ _ _ X a Ne). rewrite Ea2 in O1. destruct (get (w_agents w) a) as [ag0|] eqn:G0; [|congruence].
        destruct O1 as (ag1 & G1 & (_ & _ & Q3 & _ & _ & Q6)). rewrite P1 in G1. injection G1 as <-. destruct Q6 as [Q6|(st0 & al' & Q6 & Q7)].
        - exists ag0, st'. split; [split; [assumption | congruence]|]. auto.
        - exists ag0, st0. split; [split; assumption|]. split; [assumption|]. rewrite P2 in Q7. injection Q7 as ->. reflexivity. }
      intros a ag' st' P. destruct (Nat.eq_dec a uid) as [->|Ne].
      + destruct (few_amounts m _ uid ag' st' G' P) as [La Lo]. change (w_idseq (with_idle false w3)) with (w_idseq w3) in La, Lo. assert (No := proj2 (owned_nodup m _ uid ag' st' G' P)).
        destruct P as [P1 P2]. cbn [w_agents with_idle] in P1. rewrite (x_self _ _ _ _ _ X) in P1. injection P1 as <-. cbn in P2. injection P2 as <-. change (a_stake (agent_set_new None (agent_set_strategy (Some new) ag))) with (a_stake ag).
        destruct (g_new _ _ _ _ _ G uid ag Ga) as [_ [Fs [S0 SB]]]. destruct small_u as [[U0 U1] [E0 E1]]. destruct M as [(M1 & _ & Hd)|(w1 & n & W1 & _ & _ & Hn & pledge & cost & Hpl & _ & _ & Len & Hm & _ & Hd)].
        * destruct (deleg_bound _ _ _ (fval (a_stake ag)) Fs SB (Rle_refl _) S0 Hd) as [D1 D2]. split; [exact D1|]. rewrite Rmax_left in D2 by exact S0. unfold pledges_of. rewrite M1. cbn [values map fold_right]. unfold with_roundings.
          apply le_INR in La. assert (US : 0 <= u * fval (a_stake ag)) by (apply Rmult_le_pos; lra). assert (INR (length (s_alloc new)) * (u * fval (a_stake ag) + eta) <= INR (w_idseq w3) * (u * fval (a_stake ag) + eta)) by (apply Rmult_le_compat_r; lra). assert (0 <= INR (w_idseq w3) * eta) by (apply Rmult_le_pos; [apply pos_INR | lra]). lra.
        * unfold agent_pledge_per_pool in Hpl. assert (Er1 : w_rss w1 = w_rss w) by apply W1. rewrite Er1 in Hpl, Hd. destruct (RS ltac:(lia)) as [Ft T0].
          assert (Vp : map (pledge_at (with_idle false w3)) (values (s_owned new)) = repeat (fval pledge) (length (s_owned new))).
          { assert (V : forall r, In r (values (s_owned new)) -> pledge_at (with_idle false w3) r = fval pledge).
            { intros r J. apply In_values in J as (id & J); [|exact No]. destruct (Hm id r J) as (_ & p & K1 & _ & _ & (K4 & K5 & _) & _). destruct (HS r p K1) as (p3 & G3 & T3). unfold pledge_at. change (w_heap (with_idle false w3)) with (w_heap w3). rewrite G3, T3. cbn [p_pledge]. now rewrite <- K4. }
            clear - V. unfold values in *. induction (s_owned new) as [|[i r] l IH]; cbn [map length repeat snd] in *; [reflexivity|]. rewrite (V r (or_introl eq_refl)), IH; [reflexivity | intros; apply V; now right]. }
          destruct (operator_bound (w_rss w) (a_stake ag) pledge (s_alloc new) n (w_idseq w3)) as [O1 O2]; try assumption; [split; lia | split; assumption | lra | lia |].
          split; [exact O1|]. unfold pledges_of. rewrite Vp, sum_repeat, Len, INR_IZR_INZ, Z2Nat.id by lia. unfold with_roundings. exact O2.
      + assert (N' := proj1 (owned_nodup m _ a ag' st' G' P)). destruct (Oth a ag' st' Ne P) as (ag0 & st0 & P0 & -> & Eo). destruct (B ltac:(lia) a ag0 st0 P0) as [B1 B2].
        assert (Ep : pledges_of (with_idle false w3) st' = pledges_of w st0). { rewrite <- (pledges_static m w w3 a ag0 st0 G P0 S). unfold pledges_of. rewrite Eo. reflexivity. }
        assert (Sub : forall k v, get (s_alloc st') k = Some v -> get (s_alloc st0) k = Some v).
        { intros k v J. assert (A1 : al_of w3 a k = Some v) by (unfold al_of; destruct P as [P1 P2]; cbn in P1; now rewrite P1, P2). apply (x_sub _ _ _ _ _ X) in A1; [|assumption]. unfold al_of in A1. rewrite Ea2 in A1. destruct P0 as [P1 P2]. rewrite P1, P2 in A1. exact A1. }
        split; [intros k v J; apply (B1 k); apply get_In, Sub; now apply In_get|]. rewrite Ep. assert (Ls : sumD (s_alloc st') <= sumD (s_alloc st0)) by (apply sumD_sub; [exact B1 | exact (proj1 (owned_nodup m w a ag0 st0 G P0)) | exact N' | exact Sub]).
        eapply Rle_trans; [|apply (roundings_mono (w_idseq w)); [lia | apply (g_new _ _ _ _ _ G a ag0 (proj1 P0))]]. lra.
  Qed.

  Lemma within_phase m w w' : fgood m w -> within w -> repriced w w' -> within w'.
  Proof.
    intros G B (E1 & E2 & _ & Es & _ & _ & E3) L a ag st P. rewrite Es in L |- *. unfold plays in P. rewrite E1 in P. destruct (B L a ag st P) as [B1 B2]. split; [exact B1|]. replace (pledges_of w' st) with (pledges_of w st); [exact B2|].
    unfold pledges_of. f_equal. apply map_ext_in. intros r J. apply In_values in J as (id & J); [|exact (proj2 (owned_nodup m w a ag st G P))]. destruct (owned_at m w a ag st id r G P J) as (J1 & _). destruct (E3 id r J1) as (p & p' & Q1 & Q2 & Q3). apply reprice_fields in Q3. unfold pledge_at. rewrite Q1, Q2. f_equal. symmetry. apply Q3.
  Qed.
End Run.

Lemma float_run so (g : args FloatA) profiles (stakes costs : list (T FloatA)) (s0 : sim FloatA) w : set_order so -> init g profiles stakes costs = Ok s0 -> one_at_a_time g -> proper_stakes s0 -> visible so s0 w ->
  good (A := FloatA) (fun _ _ => True) False finite_stake (Z.to_nat (r_k (w_rss (s_w s0)) + 1)) w /\ within w.
Proof.
  intros SO H1 H2 [P1 P2] V.
  assert (MP : ltb (zero (a := FloatA)) min_stake_unit = true) by (vm_compute; reflexivity). assert (Fresh := init_fresh _ _ _ _ _ H1).
  assert (AG0 : forall b ag0, get (w_agents (s_w s0)) b = Some ag0 -> finite_stake (w_rss (s_w s0)) (a_stake ag0)).
  { intros b ag0 G0. assert (J : get (own_stakes s0) b = Some (a_stake ag0)) by (rewrite get_own, G0; reflexivity). destruct (sumD_get _ _ _ P1 J) as (S1 & S2 & S3). split; [exact S2|]. split; [exact S3|]. apply Rle_trans with 2; [lra | apply (bpow_le radix2 1 400); lia]. }
  assert (G : simgood (fun (_ : rss FloatA) (_ : pool FloatA) => True) False finite_stake sound_rss (fun _ => True) True (Z.to_nat (r_k (w_rss (s_w s0)) + 1)) within s0).
  { apply (init_simgood FloatA_ord g profiles stakes costs s0); auto; [exact (init_sound _ _ _ _ _ H1)|]. intros _ b ag0 st0 [Q1 Q2]. destruct (fs_agents _ _ _ _ _ Fresh b ag0 Q1) as (x & c & p & E & _). assert (st0 = empty_strategy) as -> by (rewrite E in Q2; destruct p; cbn in Q2; congruence).
    split; [intros ? ? []|]. change (0 + 0 <= with_roundings (w_idseq (s_w s0)) (fval (a_stake ag0))). rewrite (fs_idseq _ _ _ _ _ Fresh). unfold with_roundings. cbn [INR]. destruct (AG0 b ag0 Q1) as [_ [S0 _]]. destruct small_u as [[U0 U1] [E0 E1]]. assert (0 <= u * fval (a_stake ag0)) by (apply Rmult_le_pos; lra). lra. }
  eapply (visible_good FloatA_ord MP so SO (fun (_ : rss FloatA) (_ : pool FloatA) => True) False finite_stake (fun _ : T FloatA => True)) with (RS := sound_rss) (SOK := fun _ => True) (MULTI := True) (X := within) in V; [| auto.. | exact G]; auto; try solve [intros []].
  2: { intros rs x rs' _ _ Hk. exact (set_k_sound _ _ _ Hk). }
  2: { intros uid x y R Gx Wx _ Gy S. exact (within_step so _ uid x y R Gx Wx Gy S). }
  2: { intros _ x y Gx Wx _ R. exact (within_phase _ x y Gx Wx R). }
  destruct V as (Gw & Ww & _). now split.
Qed.
(** In every run on the machine, at every point: the pledges of an agent's pools and its delegations are finite and not negative, and together they are at most its stake, up to one rounding
    for each pool opened so far and three more. *)
Theorem C102_no_agent_spends_stake_twice : forall so (g : args FloatA) profiles (stakes costs : list (T FloatA)) (s0 : sim FloatA) w, set_order so -> init g profiles stakes costs = Ok s0 -> one_at_a_time g -> proper_stakes s0 -> visible so s0 w -> (Z.of_nat (w_idseq w) <= 2 ^ 53)%Z ->
  forall a ag st, plays w a ag st ->
  exists pools, Forall2 (fun r p => get (w_heap w) r = Some p) (values (s_owned st)) pools /\ (forall id v, In (id, v) (s_alloc st) -> ffin v /\ 0 <= fval v) /\
    fold_right Rplus 0 (map (fun p : pool FloatA => fval (p_pledge p)) pools) + fold_right Rplus 0 (map fval (values (s_alloc st))) <=
      fval (a_stake ag) + (INR (w_idseq w) + 3) * u * fval (a_stake ag) + 2 * (INR (w_idseq w) + 1) * eta.
Proof.
  intros so g profiles stakes costs s0 w SO H1 H2 Pr V L a ag st P. destruct (float_run so g profiles stakes costs s0 w SO H1 H2 Pr V) as [Gw Ww]. destruct (Ww L a ag st P) as [B1 B2].
  assert (Ex : exists pools, Forall2 (fun r p => get (w_heap w) r = Some p) (values (s_owned st)) pools /\ map (pledge_at w) (values (s_owned st)) = map (fun p : pool FloatA => fval (p_pledge p)) pools).
  { assert (K : forall r, In r (values (s_owned st)) -> exists p, get (w_heap w) r = Some p). { intros r J. apply In_values in J as (id & J); [|exact (proj2 (owned_nodup _ w a ag st Gw P))]. now apply (owned_at _ w a ag st id r Gw P J). }
    revert K. generalize (values (s_owned st)) as l. induction l as [|r l IH]; intros K; [exists []; split; constructor|].
    destruct (K r (or_introl eq_refl)) as (p & Gp). destruct IH as (ps & F & E); [intros; apply K; now right|]. exists (p :: ps). split; [now constructor|]. cbn [map]. rewrite E. f_equal. unfold pledge_at. now rewrite Gp. }
  destruct Ex as (pools & F & E). exists pools. split; [exact F|]. split; [exact B1|]. rewrite <- E. unfold values at 2. rewrite map_map. exact B2.
Qed.

(** * All pools and all agents *)
Definition sumL (l : list R) : R := fold_right Rplus 0 l.
Lemma sumL_app l l' : sumL (l ++ l') = sumL l + sumL l'.  Proof. unfold sumL. induction l as [|x l IH]; cbn [app fold_right]; [ring|]. rewrite IH. ring. Qed.
Lemma sumL_perm l l' : Permutation l l' -> sumL l = sumL l'.
Proof. unfold sumL. induction 1 as [| x l l' P IH | x y l | l1 l2 l3 P1 IH1 P2 IH2]; cbn [fold_right]; [reflexivity | now rewrite IH | ring | congruence]. Qed.
Lemma sumL_flat_map {V} (f : V -> list R) l : sumL (flat_map f l) = sumL (map (fun v => sumL (f v)) l).
Proof. induction l as [|v l IH]; [reflexivity|]. cbn [flat_map map]. rewrite sumL_app, IH. reflexivity. Qed.
Lemma sumL_plus {V} (f g : V -> R) l : sumL (map (fun v => f v + g v) l) = sumL (map f l) + sumL (map g l).
Proof. unfold sumL. induction l as [|v l IH]; cbn [map fold_right]; [ring|]. rewrite IH. ring. Qed.
Lemma sumL_le {V} (f g : V -> R) l : (forall v, In v l -> f v <= g v) -> sumL (map f l) <= sumL (map g l).
Proof. unfold sumL. induction l as [|v l IH]; intros H; cbn [map fold_right]; [apply Rle_refl|]. assert (A1 := H v (or_introl eq_refl)). assert (A2 := IH (fun v J => H v (or_intror J))). lra. Qed.
Lemma entries_sumL {V X} (h : X -> R) (f : V -> dict X) d : sumL (map (fun t => h (snd t)) (entries f d)) = sumL (map (fun kv => sumL (map (fun jx => h (snd jx)) (f (snd kv)))) d).
Proof.
  unfold entries. rewrite flat_map_concat_map, concat_map, map_map, <- flat_map_concat_map, sumL_flat_map. f_equal. apply map_ext. intros [k v]. cbn [snd fst]. rewrite map_map. reflexivity.
Qed.

(** All pools together: what they hold is at most the stake of all agents, up to rounding. *)
Theorem C102_pools_hold_no_more_than_the_agents : forall so (g : args FloatA) profiles (stakes costs : list (T FloatA)) (s0 : sim FloatA) w, set_order so -> init g profiles stakes costs = Ok s0 -> one_at_a_time g -> proper_stakes s0 -> visible so s0 w -> (Z.of_nat (w_idseq w) <= 2 ^ 53)%Z ->
  let total := fold_right Rplus 0 (map (fun ag : agent FloatA => fval (a_stake ag)) (values (w_agents w))) in
  exists pools, Forall2 (fun r p => get (w_heap w) r = Some p) (values (w_pools w)) pools /\
    fold_right Rplus 0 (map (fun p : pool FloatA => fval (p_pledge p) + fold_right Rplus 0 (map fval (values (p_delegators p)))) pools) <= total + (INR (w_idseq w) + 3) * u * total + INR (length (w_agents w)) * (2 * (INR (w_idseq w) + 1) * eta).
Proof.
  intros so g profiles stakes costs s0 w SO H1 H2 Pr V L tot. destruct (float_run so g profiles stakes costs s0 w SO H1 H2 Pr V) as [G B]. specialize (B L). assert (Gi := g_inv _ _ _ _ _ G). destruct (g_ok _ _ _ _ _ G) as [Na Ka].
  set (pool_at := fun r => match get (w_heap w) r with Some p => p | None => mkPool (A := FloatA) 0 0%float 0%float 0%float 0 false [] 0%float 0%float 0%float end).
  assert (Hp : forall id r, In (id, r) (w_pools w) -> get (w_heap w) r = Some (pool_at r) /\ active w id (pool_at r)).
  { intros id r J. apply In_get in J; [|apply Gi]. destruct (i_reg _ _ _ _ _ _ Gi id r J) as (p & Gp & _). unfold pool_at. rewrite Gp. split; [reflexivity|]. exists r. auto. }
  exists (map pool_at (values (w_pools w))). split.
  { assert (K : forall r, In r (values (w_pools w)) -> get (w_heap w) r = Some (pool_at r)). { intros r J. apply in_map_iff in J as ([id r'] & E & J). cbn in E. subst r'. now apply (Hp id). }
    revert K. generalize (values (w_pools w)) as l. induction l as [|r l IH]; intros K; cbn [map]; constructor; [apply K; now left | apply IH; intros; apply K; now right]. }
  set (strat := fun ag : agent FloatA => match a_strategy ag with Some st => st | None => empty_strategy end).
  assert (Nal : forall a ag, In (a, ag) (w_agents w) -> NoDup (keys (s_alloc (strat ag)))).
  { intros a ag J. unfold strat. destruct (a_strategy ag) as [st|] eqn:E; [|constructor]. apply In_get in J; [|assumption]. now apply (Ka a ag J). }
  assert (Now : forall a ag, In (a, ag) (w_agents w) -> NoDup (keys (s_owned (strat ag)))).
  { intros a ag J. unfold strat. destruct (a_strategy ag) as [st|] eqn:E; [|constructor]. apply In_get in J; [|assumption]. now apply (Ka a ag J). }
  assert (Nde : forall id r, In (id, r) (w_pools w) -> NoDup (keys (p_delegators (pool_at r)))).
  { intros id r J. apply Hp in J as [_ J]. now destruct (good_active _ _ _ _ _ G _ _ J) as (_ & _ & N & _). }
  assert (P1 : Permutation (entries (fun ag => s_alloc (strat ag)) (w_agents w)) (map swap (entries (fun r => p_delegators (pool_at r)) (w_pools w)))).
  { apply NoDup_Permutation.
    - now apply entries_NoDup.
    - apply NoDup_map_inj; [intros x y _ _; apply swap_inj|]. apply entries_NoDup; [apply Gi | assumption].
    - intros [[a id] v]. rewrite swap_In, entries_In, entries_In; [|apply Gi | assumption | assumption | assumption]. split.
      + intros (ag & J1 & J2). unfold strat in J2. destruct (a_strategy ag) as [st|] eqn:E; [|discriminate J2].
        assert (Al : al_of w a id = Some v) by (unfold al_of; now rewrite J1, E). destruct (i_al _ _ _ _ _ _ Gi a id v Al) as (_ & r & p & K1 & K2 & _). exists r. split; [assumption|].
        unfold pool_at. rewrite K2. now apply (i_del _ _ _ _ _ _ Gi id r p a v).
      + intros (r & J1 & J2). destruct (Hp id r (get_In _ _ _ J1)) as [K1 _]. apply (i_del _ _ _ _ _ _ Gi id r _ a v J1 K1) in J2. unfold al_of in J2.
        destruct (get (w_agents w) a) as [ag|] eqn:Ea; [|discriminate J2]. exists ag. split; [reflexivity|]. unfold strat. destruct (a_strategy ag); [assumption | discriminate J2]. }
  assert (P2 : Permutation (entries (fun ag => s_owned (strat ag)) (w_agents w)) (map swap (entries (fun r => [(p_owner (pool_at r), r)]) (w_pools w)))).
  { apply NoDup_Permutation.
    - now apply entries_NoDup.
    - apply NoDup_map_inj; [intros x y _ _; apply swap_inj|]. apply entries_NoDup; [apply Gi|]. intros. repeat constructor. intros [].
    - intros [[a id] r]. rewrite swap_In, entries_In, entries_In; [|apply Gi | intros; repeat constructor; intros [] | assumption | assumption]. split.
      + intros (ag & J1 & J2). unfold strat in J2. destruct (a_strategy ag) as [st|] eqn:E; [|discriminate J2].
        assert (Ow : ow_of w a id = Some r) by (unfold ow_of; now rewrite J1, E). destruct (i_own _ _ _ _ _ _ Gi a id r Ow) as [K1 K2]. exists r. split; [assumption|].
        destruct (Hp id r (get_In _ _ _ K1)) as [K3 _]. cbn. rewrite (K2 _ K3), Nat.eqb_refl. reflexivity.
      + intros (r' & J1 & J2). cbn in J2. destruct (Nat.eqb_spec a (p_owner (pool_at r'))) as [Eo|]; [|discriminate J2]. injection J2 as ->. destruct (i_reg _ _ _ _ _ _ Gi id r J1) as (p & K1 & _ & _ & _ & K2 & _).
        unfold pool_at in Eo. rewrite K1 in Eo. rewrite <- Eo in K2. unfold ow_of in K2. destruct (get (w_agents w) a) as [ag|] eqn:Ea; [|discriminate K2]. exists ag. split; [reflexivity|]. unfold strat. destruct (a_strategy ag); [assumption | discriminate K2]. }
  assert (S1 : sumL (map (fun kv => sumD (s_alloc (strat (snd kv)))) (w_agents w)) = sumL (map (fun kv => sumD (p_delegators (pool_at (snd kv)))) (w_pools w))).
  { assert (Q1 := entries_sumL (fun v : T FloatA => fval v) (fun ag => s_alloc (strat ag)) (w_agents w)). assert (Q2 := entries_sumL (fun v : T FloatA => fval v) (fun r => p_delegators (pool_at r)) (w_pools w)). assert (Q3 := sumL_perm _ _ (Permutation_map (fun t => fval (snd t)) P1)). rewrite map_map in Q3.
    etransitivity; [symmetry; exact Q1|]. etransitivity; [exact Q3 | exact Q2]. }
  assert (S2 : sumL (map (fun kv => pledges_of w (strat (snd kv))) (w_agents w)) = sumL (map (fun kv => fval (p_pledge (pool_at (snd kv)))) (w_pools w))).
  { assert (Q1 := entries_sumL (pledge_at w) (fun ag => s_owned (strat ag)) (w_agents w)). assert (Q2 := entries_sumL (pledge_at w) (fun r => [(p_owner (pool_at r), r)]) (w_pools w)). assert (Q3 := sumL_perm _ _ (Permutation_map (fun t => pledge_at w (snd t)) P2)). rewrite map_map in Q3.
    transitivity (sumL (map (fun kv => sumL (map (fun jx => pledge_at w (snd jx)) (s_owned (strat (snd kv))))) (w_agents w))); [f_equal; apply map_ext; intros [a ag]; cbn [snd]; unfold pledges_of, values; rewrite map_map; reflexivity|].
    etransitivity; [symmetry; exact Q1|]. etransitivity; [exact Q3|]. etransitivity; [exact Q2|]. f_equal. apply map_ext_in. intros [id r] J. cbn [snd map sumL fold_right]. destruct (Hp id r J) as [K1 _]. unfold pledge_at. rewrite K1. lra. }
  set (T1 := fold_right Rplus 0 _). assert (S3 : T1 = sumL (map (fun kv => fval (p_pledge (pool_at (snd kv)))) (w_pools w)) + sumL (map (fun kv => sumD (p_delegators (pool_at (snd kv)))) (w_pools w))).
  { unfold T1. rewrite <- sumL_plus. unfold values at 2. rewrite !map_map. unfold sumL. f_equal. apply map_ext. intros [id r]. cbn [snd]. unfold sumD, values. rewrite map_map. reflexivity. }
  rewrite S3, <- S1, <- S2, <- sumL_plus. clear T1 S1 S2 S3 P1 P2. destruct small_u as [[U0 U1] [E0 E1]].
  apply Rle_trans with (sumL (map (fun kv : nat * agent FloatA => with_roundings (w_idseq w) (fval (a_stake (snd kv)))) (w_agents w))).
  - apply sumL_le. intros [a ag] J. cbn [snd]. apply In_get in J; [|assumption]. unfold strat. destruct (a_strategy ag) as [st|] eqn:E; [apply (B a ag st); now split|]. change (0 + 0 <= with_roundings (w_idseq w) (fval (a_stake ag))).
    destruct (g_new _ _ _ _ _ G a ag J) as [_ [_ [S0 _]]]. unfold with_roundings. assert (N0 := pos_INR (w_idseq w)). assert (0 <= u * fval (a_stake ag)) by (apply Rmult_le_pos; lra). assert (0 <= INR (w_idseq w) * (u * fval (a_stake ag))) by (apply Rmult_le_pos; lra). assert (0 <= INR (w_idseq w) * eta) by (apply Rmult_le_pos; lra). lra.
  - unfold tot, values. rewrite map_map. clear. induction (w_agents w) as [|[a ag] l IH]; [cbn [map sumL fold_right length INR]; lra|]. cbn [map sumL fold_right snd length]. rewrite S_INR. unfold sumL in IH. set (X := fold_right Rplus 0 (map _ l)) in *. set (Y := fold_right Rplus 0 (map (fun x : nat * agent FloatA => fval (a_stake (snd x))) l)) in *. unfold with_roundings. lra.
Qed.

(** Without the roundings the claim is false: in the first round of a run agent 0 opens three pools, whose pledges are together more than its stake. *)
Definition look_spent (s : sim FloatA) :=
  option_map (fun ag => (a_stake ag, option_map (fun st => (s_alloc st, map (fun r => option_map (@p_pledge FloatA) (get (w_heap (s_w s)) r)) (values (s_owned st)))) (a_strategy ag))) (get (w_agents (s_w s)) 0).
Lemma spent_look : match (let! s0 := init drift_args drift_profiles drift_stakes drift_costs in steps 1 s0) with Ok s => look_spent s | Err _ => None end =
  Some (0.31561461794019929%float, Some ([], [Some 0.1052048726467331%float; Some 0.1052048726467331%float; Some 0.1052048726467331%float])).
Proof. vm_compute. reflexivity. Qed.
Theorem C102_never_more_than_the_stake_refuted : exists s0 s ag st pools, init drift_args drift_profiles drift_stakes drift_costs = Ok s0 /\ set_order so_id /\ one_at_a_time drift_args /\ proper_stakes s0 /\ visible so_id s0 (s_w s) /\
  plays (s_w s) 0 ag st /\ Forall2 (fun r p => get (w_heap (s_w s)) r = Some p) (values (s_owned st)) pools /\ fval (a_stake ag) < fold_right Rplus 0 (map (fun p : pool FloatA => fval (p_pledge p)) pools).
Proof.
  destruct (look_run (init drift_args drift_profiles drift_stakes drift_costs) 1 look_spent _ spent_look) as (s0 & s & H & H1 & L). apply steps_reach in H1. unfold look_spent in L.
  assert (Pr : proper_stakes s0). { destruct C95_instance as (t0 & _ & _ & _ & E & _ & _ & _ & _ & _ & _ & P & _). rewrite H in E. injection E as <-. exact P. }
  destruct (get (w_agents (s_w s)) 0) as [ag|] eqn:Eg; [|discriminate L]. cbn [option_map] in L. destruct (a_strategy ag) as [st|] eqn:Et; [|discriminate L]. cbn [option_map] in L.
  destruct (values (s_owned st)) as [|r1 [|r2 [|r3 [|r4 l]]]] eqn:Ev; try discriminate L. cbn [map] in L. injection L as L0 _ L1 L2 L3.
  destruct (get (w_heap (s_w s)) r1) as [p1|] eqn:G1; [|discriminate L1]. destruct (get (w_heap (s_w s)) r2) as [p2|] eqn:G2; [|discriminate L2]. destruct (get (w_heap (s_w s)) r3) as [p3|] eqn:G3; [|discriminate L3]. cbn [option_map] in L1, L2, L3. injection L1 as L1. injection L2 as L2. injection L3 as L3.
  exists s0, s, ag, st, [p1; p2; p3]. split; [exact H|]. split; [exact so_id_set_order|]. split; [exact drift_one|]. split; [exact Pr|]. split; [now constructor|]. split; [now split|]. split; [rewrite Ev; repeat constructor; assumption|].
  cbn [map fold_right]. rewrite L0, L1, L2, L3. rewrite !fval_SF.
  assert (E1 : FloatOps.Prim2SF 0.1052048726467331%float = SpecFloat.S754_finite false 7580810003990203 (-56)) by (vm_compute; reflexivity). assert (E2 : FloatOps.Prim2SF 0.31561461794019929%float = SpecFloat.S754_finite false 5685607502992652 (-54)) by (vm_compute; reflexivity).
  rewrite E1, E2. unfold BinarySingleNaN.SF2R, F2R. cbn [Fnum Fexp SpecFloat.cond_Zopp]. replace (bpow radix2 (-56)) with (/ 72057594037927936) by (cbn; lra). replace (bpow radix2 (-54)) with (/ 18014398509481984) by (cbn; lra). lra.
Qed.
(** the run meets the hypotheses of the theorem, too: seven pools have been opened after the first round, and agent 2 has two delegations *)
Definition look_two (s : sim FloatA) := option_map (fun ag => (w_idseq (s_w s), option_map (fun st => length (s_alloc st)) (a_strategy ag))) (get (w_agents (s_w s)) 2).
Lemma budget_look : match (let! s0 := init drift_args drift_profiles drift_stakes drift_costs in steps 1 s0) with Ok s => look_two s | Err _ => None end = Some (7%nat, Some 2%nat).
Proof. vm_compute. reflexivity. Qed.
Lemma C102_instance : exists s0 s ag st, init drift_args drift_profiles drift_stakes drift_costs = Ok s0 /\ set_order so_id /\ one_at_a_time drift_args /\ proper_stakes s0 /\ visible so_id s0 (s_w s) /\ (Z.of_nat (w_idseq (s_w s)) <= 2 ^ 53)%Z /\ plays (s_w s) 2 ag st /\ length (s_alloc st) = 2%nat.
Proof.
  destruct (look_run (init drift_args drift_profiles drift_stakes drift_costs) 1 look_two _ budget_look) as (s0 & s & H & H1 & L). unfold look_two in L. apply steps_reach in H1.
  assert (Pr : proper_stakes s0). { destruct C95_instance as (t0 & _ & _ & _ & E & _ & _ & _ & _ & _ & _ & P & _). rewrite H in E. injection E as <-. exact P. }
  destruct (get (w_agents (s_w s)) 2) as [ag|] eqn:Eg; [|discriminate L]. cbn [option_map] in L. destruct (a_strategy ag) as [st|] eqn:Et; [|discriminate L]. cbn [option_map] in L. injection L as L0 L1.
  exists s0, s, ag, st. split; [exact H|]. split; [exact so_id_set_order|]. split; [exact drift_one|]. split; [exact Pr|]. split; [now constructor|]. split; [rewrite L0; lia|]. split; [now split | exact L1].
Qed.
