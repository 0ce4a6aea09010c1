(** C94 for whole runs: the bound on the rounding error in the books holds in every run whose agents start with finite stakes that add up to about 1. *)
From Coq Require Import ZArith Reals Lra Lia Psatz List Bool Permutation.
From Coq Require Import PrimFloat.
From Coq Require FloatOps SpecFloat.
Set Warnings "-inexact-float".
From Verif Require Import Num NumFloat FloatOrd Py Rewards Binary64 RealArith FloatReward FloatError PropFloat SortedKeyList World Stakeholder Sched Sim Init Reach ListFacts Inv SimInv Spec PropInit Demo FloatRange AnyValues PropDrift.
From Flocq Require Core BinarySingleNaN PrimFloat.
Import Flocq.Core.Core.
Import ListNotations.
Local Open Scope R_scope.

(** the stakes the agents start with *)
Definition own_stakes (s0 : sim FloatA) : dict (T FloatA) := map (fun e => (fst e, a_stake (snd e))) (w_agents (s_w s0)).
(** finite numbers, none negative, that add up to at most 9/8 (they are scaled to 1, up to rounding) *)
Definition proper_stakes (s0 : sim FloatA) : Prop := (forall a x, In (a, x) (own_stakes s0) -> ffin x /\ 0 <= fval x) /\ sumD (own_stakes s0) <= 9 / 8.

Definition capD (d : dict (T FloatA)) (a : nat) : R := match get d a with Some x => fval x | None => 0 end.
Lemma capD_pos (d : dict (T FloatA)) a : (forall b x, In (b, x) d -> ffin x /\ 0 <= fval x) -> 0 <= capD d a.
Proof. intros H. unfold capD. destruct (get d a) as [x|] eqn:E; [|apply Rle_refl]. apply get_In in E. exact (proj2 (H _ _ E)). Qed.
Lemma capD_sum (d : dict (T FloatA)) a : (forall b x, In (b, x) d -> ffin x /\ 0 <= fval x) -> capD d a <= sumD d.
Proof. intros H. unfold capD. destruct (get d a) as [x|] eqn:E; [exact (proj1 (sumD_get d a x H E)) | now apply sumD_nonneg]. Qed.
Lemma pop_In {V} (d : dict V) k e : In e (pop d k) -> In e d.
Proof. induction d as [|[j x] d IH]; cbn; [auto|]. destruct (Nat.eqb k j); cbn; [tauto|]. intros [E|E]; auto. Qed.
Lemma get_pop_other {V} (d : dict V) k j : j <> k -> get (pop d k) j = get d j.
Proof.
  intros N. induction d as [|[i x] d IH]; [reflexivity|]. cbn [pop]. destruct (Nat.eqb_spec k i) as [->|Ni]; cbn [get].
  - destruct (Nat.eqb_spec j i) as [->|]; [now destruct N | reflexivity].
  - destruct (Nat.eqb j i); [reflexivity | exact IH].
Qed.
(** what different agents can delegate is at most what all of them have *)
Lemma caps_sum : forall l (d : dict (T FloatA)), NoDup l -> (forall b x, In (b, x) d -> ffin x /\ 0 <= fval x) -> fold_right Rplus 0 (map (capD d) l) <= sumD d.
Proof.
  induction l as [|a l IH]; intros d N H; [now apply sumD_nonneg|]. inversion N as [|? ? Na N']; subst. cbn [map fold_right].
  specialize (IH (pop d a) N' (fun b x J => H b x (pop_In _ _ _ J))). rewrite sumD_pop in IH. fold (capD d a) in IH.
  assert (E : map (capD (pop d a)) l = map (capD d) l). { apply map_ext_in. intros b J. unfold capD. rewrite get_pop_other; [reflexivity|]. intros ->. exact (Na J). }
  rewrite E in IH. lra.
Qed.

Section Run.
  Variable d0 : dict (T FloatA).
  Hypothesis d0_ok : forall a x, In (a, x) d0 -> ffin x /\ 0 <= fval x.
  Hypothesis d0_sum : sumD d0 <= 9 / 8.
  Let cap := capD d0.
  Let top := sumD d0.
  Lemma cap_top a : cap a <= top.
  Proof. now apply capD_sum. Qed.
  Lemma top_2 : 0 <= top <= 2.
  Proof. split; [now apply sumD_nonneg | unfold top; lra]. Qed.
  Definition fine (p : pool FloatA) : Prop := pledgeable top (p_pledge p) /\ forall a v, In (a, v) (p_delegators p) -> amount cap a v.
  Lemma fine_in_range past p : evolution past p -> fine p -> in_range p.
  Proof.
    intros E ((F & L & U) & Hd). split; [exact F|]. split; [exact L|]. split; [intros a v J; destruct (Hd a v J) as (X & Y & _); now split|].
    assert (S : sumD (p_delegators p) <= top).
    { apply Rle_trans with (fold_right Rplus 0 (map cap (keys (p_delegators p)))); [|apply caps_sum; [exact (evolution_keys _ _ E) | exact d0_ok]].
      clear - Hd. induction (p_delegators p) as [|[a v] d IH]; [apply Rle_refl|]. change (fval v + sumD d <= cap a + fold_right Rplus 0 (map cap (keys d))). assert (X := Hd a v (or_introl eq_refl)). specialize (IH (fun b y J => Hd b y (or_intror J))). destruct X as (_ & _ & X). lra. }
    unfold held, top in *. lra.
  Qed.
  (** a pool all of whose stages are in the range *)
  Definition lived (p : pool FloatA) : Prop := exists past, evolution past p /\ forall q, In q (p :: past) -> fine q.
  Lemma fine_upd p v a : fine p -> v = zero \/ deposit cap a v -> fine (update_delegation v a p).
  Proof.
    intros (H1 & H2) Hv. split; [exact H1|]. intros b x J. assert (Av : amount cap a v). { destruct Hv as [->|Hv]; [|exact (proj1 Hv)]. destruct val_0 as [V0 F0]. split; [exact F0|]. change (fval (@zero FloatA)) with (fval PrimFloat.zero). rewrite V0. split; [lra | now apply capD_pos]. }
    assert (J' : In (b, x) (set (p_delegators p) a v)). { unfold update_delegation in J. cbn [p_delegators] in J. destruct (ltb v min_stake_unit); [exact (pop_In _ _ _ J) | exact J]. }
    destruct (In_set _ _ _ _ _ J') as [[-> ->]|K]; [exact Av | exact (H2 _ _ K)].
  Qed.
  Lemma lived_upd p v a : lived p -> v = zero \/ deposit cap a v -> lived (update_delegation v a p).
  Proof.
    intros (past & E & H) Hv. exists (p :: past). split; [constructor; [exact E|]; destruct Hv as [Hv|Hv]; [now left | right; exact (proj2 Hv)]|].
    intros q [<-|J]; [|exact (H q J)]. apply fine_upd; [exact (H p (or_introl eq_refl)) | exact Hv].
  Qed.
  Lemma lived_adjust (w : world FloatA) ag pledge cost margins i p p' : pledgeable top pledge -> lived p -> adjust_pool w ag pledge cost margins i p = Ok p' -> lived p'.
  Proof.
    intros Hp (past & E & H) J. unfold adjust_pool in J. apply bind_ok in J as (p2 & H2 & J). apply bind_ok in J as (m & _ & J). injection J as <-. unfold pool_set_profit in H2. apply bind_ok in H2 as (pp & _ & H2). injection H2 as <-.
    exists (p :: past). split; [apply ev_pledge; [exact E | reflexivity | reflexivity]|]. intros q [<-|J]; [|exact (H q J)]. split; [exact Hp | exact (proj2 (H p (or_introl eq_refl)))].
  Qed.
  Lemma lived_draft (w : world FloatA) ag pledge cost margins i id p : pledgeable top pledge -> draft_pool w ag pledge cost margins i id = Ok p -> lived p.
  Proof.
    intros Hp H. unfold draft_pool in H. apply bind_ok in H as (p2 & H2 & H). apply bind_ok in H as (m & _ & H). injection H as <-. unfold new_pool in H2. apply bind_ok in H2 as (pp & _ & H2). injection H2 as <-.
    exists []. split; [apply ev_opened; reflexivity|]. intros q [<-|[]]. split; [exact Hp | intros a v []].
  Qed.
  Lemma lived_reprice (rs : rss FloatA) p p' : lived p -> pool_set_profit rs p = Ok p' -> lived (pool_set_desirability p').
  Proof.
    intros (past & E & H) J. unfold pool_set_profit in J. apply bind_ok in J as (pp & _ & J). injection J as <-. exists past. split; [now apply (ev_terms past p)|]. intros q [<-|J]; [|exact (H q (or_intror J))]. exact (H p (or_introl eq_refl)).
  Qed.
  Lemma lived_visible so s0 w : ok lived (deposit cap) (amount cap) sound_rss (s_w s0) -> visible so s0 w -> ok lived (deposit cap) (amount cap) sound_rss w.
  Proof.
    refine (visible_ok so lived (deposit cap) (amount cap) (pledgeable top) sound_rss lived_upd lived_adjust lived_draft lived_reprice _ _ _ set_k_sound set_a0_sound s0 w).
    - intros a x rs el id v. exact (greedy_range cap top cap_top top_2 a x rs el id v).
    - intros a x rs n q. exact (pledgeable_pledge cap top cap_top top_2 a x rs n q).
    - intros a x rs n q. exact (rest_amount cap top cap_top top_2 a x rs n q).
  Qed.
End Run.

Lemma init_sound (g : args FloatA) profiles (stakes costs : list (T FloatA)) (s0 : sim FloatA) : init g profiles stakes costs = Ok s0 -> sound_rss (w_rss (s_w s0)).
Proof.
  intros H. destruct (init_inv _ _ _ _ _ H) as (r0 & s1 & ags & tot & ags' & tot' & H0 & H1 & H2 & _).
  assert (F0 : sound_rss r0).
  { assert (B : forall sc r, (let! r := set_k (A := FloatA) (mkRss (A := FloatA) sc 0%Z zero zero) (ofZ (-1)) in Ok (set_a0 r (ofZ (-1)))) = Ok r -> sound_rss r).
    { intros sc r E. apply bind_ok in E as (r' & E1 & E). injection E as <-. apply set_k_sound in E1. exact E1. }
    unfold make_rss in H0. repeat (destruct (g_scheme g) as [|z|z]; try discriminate H0; try exact (B _ _ H0); destruct z as [z|z|]; try discriminate H0; try exact (B _ _ H0); destruct z as [z|z|]; try discriminate H0; try exact (B _ _ H0); destruct z as [z|z|]; try discriminate H0; try exact (B _ _ H0)). }
  assert (F1 : sound_rss (w_rss (s_w s1))).
  { assert (S : forall v s s', sound_rss (w_rss (s_w s)) -> apply_setting (A := FloatA) v s = Ok s' -> sound_rss (w_rss (s_w s'))).
    { intros v s s' G E. destruct v; cbn in E; try (injection E as <-; exact G). apply bind_ok in E as (r & Hr & E). injection E as <-. exact (set_k_sound _ _ _ Hr). }
    refine (foldM_inv _ (fun s : sim FloatA => sound_rss (w_rss (s_w s))) _ (blank (A := FloatA) r0) s1 F0 _ H1). intros s f s' _ G E. unfold set_field in E. destruct f as [v|l]; [exact (S _ _ _ G E)|].
    apply bind_ok in E as (v & _ & E). apply bind_ok in E as (s2 & E1 & E). apply S in E1; [|exact G]. injection E as <-. exact E1. }
  destruct (g_known g); [|now rewrite H2]. destruct H2 as (k' & _ & H2). exact (set_k_sound _ _ _ H2).
Qed.
Lemma get_own s0 a : get (own_stakes s0) a = option_map (fun ag => a_stake ag) (get (w_agents (s_w s0)) a).
Proof. unfold own_stakes. induction (w_agents (s_w s0)) as [|[b ag] l IH]; [reflexivity|]. cbn [map get fst snd]. destruct (Nat.eqb a b); [reflexivity | exact IH]. Qed.
Lemma init_lived (g : args FloatA) profiles (stakes costs : list (T FloatA)) (s0 : sim FloatA) : init g profiles stakes costs = Ok s0 -> proper_stakes s0 ->
  ok (lived (own_stakes s0)) (deposit (capD (own_stakes s0))) (amount (capD (own_stakes s0))) sound_rss (s_w s0).
Proof.
  intros H (P1 & P2). assert (Sr := init_sound _ _ _ _ _ H). apply init_fresh in H. split; [|split; [|exact Sr]].
  - intros r p E. rewrite (fs_heap _ _ _ _ _ H) in E. discriminate E.
  - intros a ag J. assert (E : get (w_agents (s_w s0)) a = Some ag). { apply In_get; [|exact J]. rewrite (fs_keys _ _ _ _ _ H). apply seq_NoDup. }
    assert (G := get_own s0 a). rewrite E in G. cbn [option_map] in G. assert (Am : amount (capD (own_stakes s0)) a (a_stake ag)). { destruct (P1 a (a_stake ag) (get_In _ _ _ G)) as [F L]. split; [exact F|]. unfold capD. rewrite G. lra. }
    apply (fs_agents _ _ _ _ _ H) in E as (x & c & p & -> & _). split; [split; [reflexivity | exact Am]|]. split; cbn; [|discriminate]. intros st E. destruct p; try discriminate E; injection E as <-; intros ? ? [].
Qed.

(** every pool has a history all of whose stages are in the range *)
Lemma history_in_range so (g : args FloatA) profiles (stakes costs : list (T FloatA)) (s0 : sim FloatA) w : init g profiles stakes costs = Ok s0 -> proper_stakes s0 -> visible so s0 w ->
  forall id p, active w id p -> exists past, evolution past p /\ forall q, In q (p :: past) -> in_range q.
Proof.
  intros H Pr V id p (r & _ & Hp). destruct Pr as (P1 & P2). assert (G := lived_visible _ P1 P2 so s0 w (init_lived _ _ _ _ _ H (conj P1 P2)) V). destruct (proj1 G r p Hp) as (past & E & F).
  assert (All : forall past q, evolution past q -> (forall x, In x (q :: past) -> fine (own_stakes s0) x) -> forall x, In x (q :: past) -> in_range x).
  { clear - P1 P2. intros past q E. induction E as [q E D|past q a v E IH Hv|past q q' E IH E1 D|past q q' E IH E1 E2 D]; intros F x J.
    - destruct J as [<-|[]]. apply (fine_in_range _ P1 P2 [] q); [now constructor | apply F; now left].
    - destruct J as [<-|J]; [|exact (IH (fun y K => F y (or_intror K)) x J)]. apply (fine_in_range _ P1 P2 (q :: past)); [now constructor | apply F; now left].
    - destruct J as [<-|J]; [|exact (IH (fun y K => F y (or_intror K)) x J)]. apply (fine_in_range _ P1 P2 (q :: past)); [now constructor | apply F; now left].
    - assert (Fq : fine (own_stakes s0) q). { destruct (F q' (or_introl eq_refl)) as (X & Y). split; [now rewrite <- E2 | now rewrite <- D]. }
      destruct J as [<-|J]; [apply (fine_in_range _ P1 P2 past); [now apply (ev_terms past q) | apply F; now left]|]. apply IH; [|now right]. intros y [<-|K]; [exact Fq | apply F; now right]. }
  exists past. split; [exact E | exact (All past p E F)].
Qed.

(** In every run on the machine, under every activation order and at every point: a pool that has changed [n] times so far, with n <= 2^47, has a stake within n * 2^-50 of what it holds,
    its pledge and delegations are finite numbers that are not negative and add up to at most 9/4. *)
Theorem C94_drift_in_a_run : forall so (g : args FloatA) profiles (stakes costs : list (T FloatA)) (s0 : sim FloatA) w, init g profiles stakes costs = Ok s0 -> proper_stakes s0 -> visible so s0 w ->
  forall id p, active w id p -> in_range p /\ exists past, evolution past p /\ (INR (length past) <= bpow radix2 47 -> ffin (p_stake p) /\ Rabs (fval (p_stake p) - held p) <= INR (length past) * bpow radix2 (-50)).
Proof.
  intros so g profiles stakes costs s0 w H Pr V id p Ap. destruct (history_in_range so g profiles stakes costs s0 w H Pr V id p Ap) as (past & E & R). split; [exact (R p (or_introl eq_refl))|]. exists past. split; [exact E|]. intros L. exact (C94_drift_is_bounded past p E R L).
Qed.
