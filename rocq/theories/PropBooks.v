(** C74: who operates which pool, the life of a pool id, and the use an agent makes of its stake, under every activation order. *)
From Coq Require Import ZArith QArith Qcanon List Bool Arith Lia Permutation.
From Verif Require Import Num Py QcTac Rewards RewardFacts SortedKeyList World Stakeholder Sched Sim Init Reach Spec ListFacts Greedy Inv SimInv PropState ExactInv PropInit AnyBooks Demo.
Import ListNotations.
Open Scope nat_scope.

Section Structure.
  Context {A : Arith}.
  Variable so : list nat -> list nat -> list nat.
  Hypothesis SO : set_order so.
  Notation num := (T A).
  Definition anyC : num -> dict num -> list num -> Prop := fun _ _ _ => True.
  Definition anyST : num -> Prop := fun _ => True.
  Notation fullK K := (AnyBooks.full K anyST anyC).
  Definition anyK : nat -> Prop := fun _ => True.

  Lemma start_full (K : nat -> Prop) g profiles stakes costs (s0 : sim A) : K 0 -> init g profiles stakes costs = Ok s0 -> fullK K (s_w s0).
  Proof. intros K0 H. eapply init_full; [exact K0 | now intros | now intros | exact H]. Qed.
  Lemma any_visible (K : nat -> Prop) g profiles stakes costs (s0 : sim A) w : K 0 -> (forall s, reach so s0 s -> forall n, n <= Z.to_nat (r_k (w_rss (s_w s))) -> K n) -> init g profiles stakes costs = Ok s0 -> visible so s0 w -> fullK K w.
  Proof. intros K0 HK H V. eapply (visible_full so SO K K0 anyST anyC); [now intros.. | exact (start_full K _ _ _ _ _ K0 H) | exact HK | exact V]. Qed.

  (** the states of a history, from the last to the first *)
  Definition chain_nx (ws : list (world A)) : Prop := ForallOrdPairs (fun later earlier => nx earlier later) ws.
  Lemma chain_nx_app l1 l2 : chain_nx l1 -> chain_nx l2 -> (forall x y, In x l1 -> In y l2 -> nx y x) -> chain_nx (l1 ++ l2).
  Proof.
    induction 1 as [|x l1 F C IH]; intros C2 H; cbn; [assumption|]. constructor.
    - apply Forall_app. split; [assumption|]. apply Forall_forall. intros y J. apply H; [now left | assumption].
    - apply IH; [assumption|]. intros; apply H; [now right | assumption].
  Qed.
  Notation F w := (fullK anyK w).
  Lemma scan_nx : forall evs (w w' : world A), F w -> foldM (do_event so) evs w = Ok w' ->
    (forall v, In v (scan so evs w) -> nx w v /\ nx v w' /\ F v) /\ chain_nx (rev (scan so evs w)) /\ nx w w' /\ F w'.
  Proof.
    induction evs as [|e evs IH]; intros w w' G H; cbn [scan foldM] in *.
    - injection H as <-. split; [intros ? []|]. split; [constructor|]. split; [apply nx_refl | assumption].
    - apply bind_ok in H as (w1 & H1 & H). rewrite H1. destruct (event_full so SO anyK I anyST anyC ltac:(now intros) ltac:(now intros) ltac:(now intros) ltac:(now intros) w e w1 ltac:(now intros) G H1) as (G1 & K1 & _).
      destruct (IH w1 w' G1 H) as (C1 & C2 & C3 & C4). split; [|split; [|split]].
      + intros v [<-|J]; [now split|]. destruct (C1 v J) as (? & ? & ?). split; [eapply nx_trans; eassumption | now split].
      + cbn [rev]. apply chain_nx_app; [assumption | repeat constructor|]. intros x y Jx [<-|[]]. rewrite <- in_rev in Jx. now apply C1.
      + eapply nx_trans; eassumption.
      + assumption.
  Qed.
  Lemma history_nx (s0 s : sim A) ws : F (s_w s0) -> history so s0 s ws -> F (s_w s) /\ (forall w, In w ws -> nx w (s_w s) /\ F w) /\ chain_nx ws.
  Proof.
    intros G0 H. induction H as [|ch s s' ws H (G & IH1 & IH2) Hs]; [split; [exact G0|]; split; [intros w [<-|[]]; split; [apply nx_refl | exact G0] | repeat constructor]|].
    destruct (sim_step_full so SO anyK I anyST anyC ltac:(now intros) ltac:(now intros) ltac:(now intros) ltac:(now intros) ch s s' ltac:(now intros) G Hs) as [G' K'].
    assert (Z : chain_nx (rev (round_states so ch s)) /\ forall v, In v (round_states so ch s) -> nx (s_w s) v /\ nx v (s_w s') /\ F v).
    { unfold round_states. apply sim_step_cases in Hs as [[L ->]|(L & w & Hw & Q)].
      - destruct (Z.leb_spec (s_maxit s) (Z.of_nat (s_steps s))); [|lia]. split; [constructor | intros ? []].
      - destruct (Z.leb_spec (s_maxit s) (Z.of_nat (s_steps s))); [lia|]. unfold schedule_step in Hw. apply bind_ok in Hw as (evs & Ev & Hw). rewrite Ev. destruct (scan_nx evs (s_w s) w G Hw) as (C1 & C2 & C3 & C4).
        split; [exact C2|]. intros v J. destruct (C1 v J) as (V1 & V2 & V3). split; [exact V1|]. split; [|exact V3]. eapply nx_trans; [exact V2|].
        destruct Q as [[_ ->]|[(_ & _ & ->)|[(_ & _ & _ & s4 & H4 & ->)|(_ & _ & _ & ->)]]]; try (apply (nx_same w); [now apply hk_eq | reflexivity..]).
        destruct (change_phase_full anyK anyST anyC (noted s w) s4 C4 H4) as [F4 K4]. eapply nx_trans; [exact K4 | apply (nx_same (s_w s4)); [now apply hk_eq | reflexivity..]]. }
    destruct Z as [Z1 Z2]. split; [exact G'|]. split.
    - intros w [<-|J]; [split; [apply nx_refl | exact G']|]. apply in_app_iff in J as [J|J]; [apply in_rev in J; destruct (Z2 w J) as (? & ? & ?); now split|]. destruct (IH1 w J). split; [eapply nx_trans; eassumption | assumption].
    - constructor.
      + apply Forall_app. split; apply Forall_forall; intros v J; [apply in_rev in J; now apply Z2|]. destruct (IH1 v J). eapply nx_trans; eassumption.
      + apply chain_nx_app; [exact Z1 | exact IH2|]. intros x y Jx Jy. apply in_rev in Jx. destruct (IH1 y Jy). eapply nx_trans; [eassumption | now apply Z2].
  Qed.
End Structure.

(** every active pool is registered under its own id, and an agent operates exactly the active pools which name it as their operator *)
Theorem C74_pools_and_operators : forall (A : Arith) so g profiles stakes costs (s0 : sim A) w, set_order so -> init g profiles stakes costs = Ok s0 -> visible so s0 w ->
  NoDup (keys (w_pools w)) /\ (forall id p, active w id p -> p_id p = id) /\ (forall a id p, operates w a id p <-> active w id p /\ p_owner p = a).
Proof.
  intros A so g profiles stakes costs s0 w SO H1 V. assert (Fu := any_visible so SO anyK _ _ _ _ _ w I ltac:(now intros) H1 V). destruct Fu as [[[Hp1 Hp2] Ha] [N Hr]].
  assert (Own : forall a ag st id r, plays w a ag st -> get (s_owned st) id = Some r -> exists p, get (w_heap w) r = Some p /\ p_id p = id /\ p_owner p = a).
  { intros a ag st id r [G1 G2] G3. destruct (Ha _ _ G1) as (_ & _ & I3 & _). destruct (I3 st G2) as (_ & _ & ps & Fo & _). exact (mine_get _ _ _ _ _ _ Fo G3). }
  split; [exact N|]. split.
  - intros id p (r & G1 & G2). apply Hr in G1 as (a & ag & st & J1 & J2 & J3). destruct (Own a ag st id r (conj J1 J2) J3) as (q & Gq & Iq & _). congruence.
  - intros a id p. split.
    + intros (ag & st & r & Pl & G & Gp). destruct (Own a ag st id r Pl G) as (q & Gq & Iq & Oq). assert (q = p) by congruence. subst q. split; [|exact Oq]. exists r. split; [|exact Gp]. apply Hr. destruct Pl. exists a, ag, st. auto.
    + intros [(r & G1 & G2) Ow]. apply Hr in G1 as (b & ag & st & J1 & J2 & J3). destruct (Own b ag st id r (conj J1 J2) J3) as (q & Gq & Iq & Oq). assert (H : a = b) by congruence. rewrite H in *. exists ag, st, r. split; [exact (conj J1 J2) | exact (conj J3 G2)].
Qed.

(** no agent ever operates more pools than the largest number [k] of pools the protocol aimed for so far or will aim for *)
Theorem C74_no_more_pools_than_k : forall (A : Arith) so g profiles stakes costs (s0 : sim A) w k, set_order so -> init g profiles stakes costs = Ok s0 ->
  (forall s, reach so s0 s -> (r_k (w_rss (s_w s)) <= k)%Z) -> visible so s0 w ->
  forall a ids, NoDup ids -> (forall id, In id ids -> exists p, operates w a id p) -> length ids <= Z.to_nat k.
Proof.
  intros A so g profiles stakes costs s0 w k SO H1 Hk V a ids Nd Hi.
  assert (Fu : AnyBooks.full (fun n => n <= Z.to_nat k) anyST anyC w).
  { apply (any_visible so SO (fun n => n <= Z.to_nat k) g profiles stakes costs s0 w); [lia | | exact H1 | exact V]. intros s R n L. specialize (Hk s R). lia. }
  destruct ids as [|i0 ids]; [cbn; lia|]. destruct (Hi i0 (or_introl eq_refl)) as (p0 & ag & st & r0 & Pl & _). destruct Fu as [[_ Ha] _]. destruct (Ha _ _ (proj1 Pl)) as (_ & _ & I3 & _). destruct (I3 st (proj2 Pl)) as (_ & L & _).
  eapply Nat.le_trans; [|exact L]. replace (length (s_owned st)) with (length (keys (s_owned st))) by apply map_length. apply NoDup_incl_length; [exact Nd|]. intros id J. destruct (Hi id J) as (p & ag' & st' & r & [Pl1 Pl2] & G & _).
  destruct Pl as [Pl1' Pl2']. assert (st' = st) by congruence. subst st'. apply get_Some_key. eauto.
Qed.

(** an id is used for one uninterrupted period, by one operator: ids of closed pools are never used again *)
Theorem C74_ids_never_reused : forall (A : Arith) so g profiles stakes costs (s0 s : sim A) l1 w3 l2 w2 l3 w1 l4, set_order so -> init g profiles stakes costs = Ok s0 ->
  history so s0 s (l1 ++ w3 :: l2 ++ w2 :: l3 ++ w1 :: l4) ->
  forall id p1 p3, active w1 id p1 -> active w3 id p3 -> p_owner p1 = p_owner p3 /\ exists p2, active w2 id p2 /\ p_owner p2 = p_owner p3.
Proof.
  intros A so g profiles stakes costs s0 s l1 w3 l2 w2 l3 w1 l4 SO H1 H id p1 p3 J1 J3.
  destruct (history_nx so SO s0 s _ (start_full anyK _ _ _ _ _ I H1) H) as (_ & G & C).
  set (ws := l1 ++ w3 :: l2 ++ w2 :: l3 ++ w1 :: l4) in *.
  assert (E1 : ws = (l1 ++ w3 :: l2 ++ w2 :: l3) ++ w1 :: l4) by (unfold ws; rewrite <- app_assoc; cbn; rewrite <- app_assoc; reflexivity).
  assert (E2 : ws = (l1 ++ w3 :: l2) ++ w2 :: l3 ++ w1 :: l4) by (unfold ws; rewrite <- app_assoc; reflexivity).
  assert (G1 : AnyBooks.full anyK anyST anyC w1) by (apply G; rewrite E1; apply in_app_iff; right; now left).
  assert (G2 : AnyBooks.full anyK anyST anyC w2) by (apply G; rewrite E2; apply in_app_iff; right; now left).
  assert (G3 : AnyBooks.full anyK anyST anyC w3) by (apply G; unfold ws; apply in_app_iff; right; now left).
  assert (K12 : nx w1 w2). { unfold chain_nx in C. rewrite E1 in C. eapply (FOP_app _ _ _ w2 w1 C); [apply in_app_iff; right; right; apply in_app_iff; right; now left | now left]. }
  assert (K23 : nx w2 w3). { unfold chain_nx in C. rewrite E2 in C. eapply (FOP_app _ _ _ w3 w2 C); [apply in_app_iff; right; now left | now left]. }
  assert (Ids : forall (w : world A) (p : pool A), AnyBooks.full anyK anyST anyC w -> active w id p -> p_id p = id).
  { intros w p [[_ Ha] [_ Hr]] (r & Ga & Gb). apply Hr in Ga as (a & ag & st & A1 & A2 & A3). destruct (Ha _ _ A1) as (_ & _ & I3 & _). destruct (I3 st A2) as (_ & _ & ps & Fo & _). destruct (mine_get _ _ _ _ _ _ Fo A3) as (q & Gq & Iq & _). congruence. }
  assert (Own : forall (w w' : world A) (p p' : pool A), nx w w' -> AnyBooks.full anyK anyST anyC w -> AnyBooks.full anyK anyST anyC w' -> active w id p -> active w' id p' -> p_owner p = p_owner p').
  { intros w w' p p' [Hk _] Fw Fw' Jp Jp'. assert (I1 := Ids _ _ Fw Jp). assert (I2 := Ids _ _ Fw' Jp'). destruct Jp as (r & _ & Gp). destruct Jp' as (r' & _ & Gp'). destruct (Hk r p Gp) as (q & Gq & (T1 & T2 & _)).
    rewrite <- T2. destruct Fw' as [[[_ Hp] _] _]. apply (Hp r r' q p' Gq Gp'). congruence. }
  split; [exact (Own w1 w3 p1 p3 (nx_trans _ _ _ K12 K23) G1 G3 J1 J3)|].
  assert (A1 : In id (keys (w_pools w1))) by (destruct J1 as (r & J1 & _); apply get_Some_key; eauto). assert (A3 : In id (keys (w_pools w3))) by (destruct J3 as (r & J3 & _); apply get_Some_key; eauto).
  destruct K12 as (_ & _ & K12 & _). destruct (K12 id A1) as [A2|A2]; [|apply K23 in A2; destruct A2 as (_ & A2 & _); contradiction].
  apply get_Some_key in A2 as (r2 & A2). assert (Q := A2). apply (proj2 (proj2 G2)) in Q as (a & ag & st & Q1 & Q2 & Q3). destruct (proj2 (proj1 G2) _ _ Q1) as (_ & _ & I3 & _). destruct (I3 st Q2) as (_ & _ & ps & Fo & _). destruct (mine_get _ _ _ _ _ _ Fo Q3) as (p2 & Gp & _).
  assert (Ac : active w2 id p2) by now exists r2. exists p2. split; [exact Ac | exact (Own w2 w3 p2 p3 K23 G2 G3 Ac J3)].
Qed.

(** * the use of the stake *)
Section Budget.
  Open Scope Qc_scope.
  Definition nonneg (x : T QcA) : Prop := (0 : Qc) <= (x : Qc).
  Definition covered (x : T QcA) (d : dict (T QcA)) (l : list (T QcA)) : Prop := (forall k (v : Qc), In (k, v) d -> 0 <= v) /\ Qc_sum l + total d <= (x : Qc).
  Lemma total_pop_le (d : dict Qc) k : (forall k (v : Qc), In (k, v) d -> 0 <= v) -> total (pop d k) <= total d.
  Proof.
    intros H. destruct (get d k) as [v|] eqn:E.
    - rewrite (total_pop d k v E). assert (0 <= v) by (apply (H k); now apply get_In). qlra.
    - assert (Ep : pop d k = d); [|rewrite Ep; apply Qcle_refl]. clear H. induction d as [|[j x] d IH]; cbn in *; [reflexivity|]. destruct (Nat.eqb k j); [discriminate|]. f_equal. auto.
  Qed.
  Lemma total_set_le (d : dict Qc) k (v : Qc) : (forall k (v : Qc), In (k, v) d -> 0 <= v) -> total (set d k v) <= total d + v.
  Proof.
    intros H. destruct (get d k) as [v0|] eqn:E.
    - rewrite (total_set d k v v0 E). assert (0 <= v0) by (apply (H k); now apply get_In). qlra.
    - rewrite total_set_new by now apply get_None. apply Qcle_refl.
  Qed.
  Lemma In_pop {V} (d : dict V) k k' v' : In (k', v') (pop d k) -> In (k', v') d.
  Proof. induction d as [|[j x] d IH]; cbn; [auto|]. destruct (Nat.eqb_spec k j) as [->|N]; cbn; [tauto|]. intros [E|E]; auto. Qed.
  Lemma greedy_covered (rs : rss QcA) : forall el (s : Qc) (d : dict Qc) best d' (r : Qc) b', MIN <= s -> (forall k (v : Qc), In (k, v) d -> 0 <= v) -> greedy rs el s d best = (d', r, b') ->
    (forall k (v : Qc), In (k, v) d' -> 0 <= v) /\ total d' + r <= total d + s /\ 0 <= r.
  Proof.
    induction el as [|p el IH]; intros s d best d' r b' Hs Hd H; cbn [greedy] in H; [injection H as <- <- <-; split; [exact Hd|]; split; [apply Qcle_refl | assert (P := MIN_pos); qlra]|].
    destruct (ltb (a := QcA) (sub (a := QcA) (pool_threshold rs (p_pledge p)) (p_stake p)) min_stake_unit) eqn:E; [exact (IH _ _ _ _ _ _ Hs Hd H)|].
    apply ltb_MIN_false in E. set (room := sub (a := QcA) (pool_threshold rs (p_pledge p)) (p_stake p)) in *. set (x := pmin (A := QcA) s room) in *.
    assert (X : (x : Qc) = Qcmin s room) by (unfold x; apply pmin_min). assert (Xl : (x : Qc) <= s) by (rewrite X; apply Qcmin_l). assert (Xp : MIN <= (x : Qc)) by (rewrite X; now apply Qcmin_glb).
    assert (Hd' : forall k (v : Qc), In (k, v) (set d (p_id p) x) -> 0 <= v). { intros k v J. apply In_set in J as [[_ ->]|J]; [assert (P := MIN_pos); qlra | exact (Hd _ _ J)]. }
    assert (T1 := total_set_le d (p_id p) x Hd). change (sub (a := QcA) s x) with ((s : Qc) - x) in H.
    destruct (ltb (a := QcA) (s - x) min_stake_unit) eqn:E2.
    - injection H as <- <- <-. split; [exact Hd'|]. split; qlra.
    - apply ltb_MIN_false in E2. destruct (IH _ _ _ _ _ _ E2 Hd' H) as (R1 & R2 & R3). split; [exact R1|]. split; [qlra | exact R3].
  Qed.
  Lemma greedy_alloc_covered (rs : rss QcA) el (s : Qc) : MIN <= s -> (forall k (v : Qc), In (k, v) (greedy_allocations rs el s) -> 0 <= v) /\ total (greedy_allocations rs el s) <= s.
  Proof.
    intros Hs. unfold greedy_allocations. destruct (greedy rs el s [] None) as [[d r] b] eqn:E. destruct (greedy_covered rs el s [] None d r b Hs) as (R1 & R2 & R3); [intros ? ? [] | exact E|].
    change (total []) with 0 in R2. assert (R2' : total d <= s) by qlra. destruct b as [id|]; [|now split]. destruct (leb (a := QcA) min_stake_unit r); [|now split].
    split; [intros k v J; apply In_set in J as [[_ ->]|J]; [exact R3 | exact (R1 _ _ J)]|]. assert (T1 := total_set_le d id r R1). change (total (set d id r) <= s). qlra.
  Qed.
  Lemma Qc_sum_repeat (q : Qc) n : Qc_sum (repeat q n) = q * Qc_ofZ (Z.of_nat n).
  Proof. induction n as [|n IH]; [change (0 = q * 0); ring|]. cbn [repeat]. change (Qc_sum (q :: repeat q n)) with (q + Qc_sum (repeat q n)). rewrite IH. rewrite Nat2Z.inj_succ. unfold Z.succ. rewrite Qc_ofZ_add. change (Qc_ofZ 1) with 1. ring. Qed.

  Lemma covered_pop x d l k : covered x d l -> covered x (pop d k) l.
  Proof. intros [H1 H2]. split; [intros j v J; apply In_pop in J; exact (H1 _ _ J)|]. assert (L := total_pop_le d k H1). eapply Qcle_trans; [|exact H2]. apply Qcplus_le_compat; [apply Qcle_refl | exact L]. Qed.
  Lemma covered_nil x : nonneg x -> covered x [] [].
  Proof. intros H. split; [intros ? ? []|]. exact H. Qed.
  Lemma covered_del x rs el : nonneg x -> ltb x min_stake_unit = false -> covered x (greedy_allocations rs el x) [].
  Proof. intros _ L. apply ltb_MIN_false in L. destruct (greedy_alloc_covered rs el x L) as [H1 H2]. split; [exact H1|]. change (0 + total (greedy_allocations rs el x) <= x). now rewrite Qcplus_0_l. Qed.
  Lemma covered_op x thr n (q : T QcA) rs el d : nonneg x -> (1 <= n)%Z -> pledge_per_pool x thr n = Ok q ->
    d = [] \/ (ltb zero (sub x (mul q (ofZ n))) = true /\ ltb (sub x (mul q (ofZ n))) min_stake_unit = false /\ d = greedy_allocations rs el (sub x (mul q (ofZ n)))) -> covered x d (repeat q (Z.to_nat n)).
  Proof.
    intros _ Hn Hq Hd. apply pledge_budget in Hq. assert (Es : Qc_sum (repeat q (Z.to_nat n)) = q * Qc_ofZ n) by (rewrite (Qc_sum_repeat q), Z2Nat.id by lia; reflexivity).
    destruct Hd as [->|(_ & L & ->)]; [split; [intros ? ? []|]; rewrite Es; change (q * Qc_ofZ n + 0 <= x); now rewrite Qcplus_0_r|].
    apply ltb_MIN_false in L. destruct (greedy_alloc_covered rs el _ L) as [H1 H2]. split; [exact H1|]. rewrite Es. change (sub (a := QcA) x (mul q (ofZ n))) with ((x : Qc) - q * Qc_ofZ n) in *.
    assert (G : forall a b c : Qc, b <= c - a -> a + b <= c) by (intros a b c L0; qlra). apply G. exact H2.
  Qed.
End Budget.

(** each agent's pledges and delegations together are covered by its stake *)
Theorem C74_no_agent_spends_stake_twice : forall so (g : args QcA) profiles (stakes costs : list Qc) (s0 : sim QcA) w, set_order so -> init g profiles stakes costs = Ok s0 ->
  (0 <= g_inactive g)%Qc -> (g_inactive g < 1)%Qc -> (forall x, In x stakes -> 0 <= x)%Qc -> visible so s0 w ->
  forall a ag st, plays w a ag st ->
  exists pools, Forall2 (fun r p => get (w_heap w) r = Some p) (values (s_owned st)) pools /\
    (Qc_sum (map p_pledge pools) + Qc_sum (values (s_alloc st)) <= a_stake ag)%Qc.
Proof.
  intros so g profiles stakes costs s0 w SO H1 F0 F1 Hx V a ag st [P1 P2].
  assert (Fu : AnyBooks.full anyK nonneg covered w).
  { eapply (visible_full so SO anyK I nonneg covered covered_pop covered_nil covered_del covered_op s0); [|now intros | exact V]. eapply init_full; [exact I | exact covered_nil | | exact H1].
    intros b bg G. exact (proj1 (C27_stakes_nonneg g profiles stakes costs s0 b bg H1 G F0 F1 Hx)). }
  destruct Fu as [[_ Ha] _]. destruct (Ha _ _ P1) as (_ & _ & I3 & _). destruct (I3 st P2) as (_ & _ & ps & Fo & [_ B]). exists ps. split; [|exact B].
  clear - Fo. unfold values. induction Fo as [|e p l ps (G & _) Fo IH]; cbn; constructor; auto.
Qed.

(** * The hypotheses are met *)
(** with a single phase the target number of pools never changes *)
Lemma one_phase_k {A : Arith} so g profiles stakes costs (s0 s : sim A) : set_order so -> init g profiles stakes costs = Ok s0 -> c_phases (s_c s0) <= 1 -> reach so s0 s -> s_c s = s_c s0 /\ w_rss (s_w s) = w_rss (s_w s0).
Proof.
  intros SO H P R. induction R as [|ch s s' R [IH1 IH2] Hs]; [now split|].
  assert (Fu := any_visible so SO anyK _ _ _ _ _ _ I ltac:(now intros) H (vis_between _ _ _ _ R)). apply sim_step_cases in Hs as [[_ ->]|(_ & w & Hw & Q)]; [now split|].
  unfold schedule_step in Hw. apply bind_ok in Hw as (evs & _ & Hw).
  destruct (events_full so SO anyK I anyST anyC ltac:(now intros) ltac:(now intros) ltac:(now intros) ltac:(now intros) evs (s_w s) w ltac:(now intros) Fu Hw) as (_ & _ & Er). rewrite <- IH2, <- Er.
  destruct Q as [[_ ->]|[(_ & _ & ->)|[(_ & _ & L & _)|(_ & _ & _ & ->)]]]; try (split; [exact IH1 | reflexivity]). rewrite IH1 in L. lia.
Qed.
Definition simul_args : args QcA := demo_args Simultaneous (Single (Q2Qc (2#1))).
Notation simul_init := (init simul_args demo_profiles demo_stakes demo_costs).
(** under simultaneous activation agent 1 opens pools 2 and 3 in the first round and keeps them, agent 0 keeps pool 1 and delegates 1/5 to pool 2 *)
Example C74_instance : set_order so_id /\ exists s0 s1 s2 p1 p2 q2 p3, simul_init = Ok s0 /\ reach so_id s0 s1 /\ reach so_id s0 s2 /\ visible so_id s0 (s_w s2) /\
  (0 <= g_inactive simul_args)%Qc /\ (g_inactive simul_args < 1)%Qc /\ (forall x, In x demo_stakes -> 0 <= x)%Qc /\ (forall s, reach so_id s0 s -> (r_k (w_rss (s_w s)) <= 2)%Z) /\
  history so_id s0 s2 ([] ++ s_w s2 :: rev (round_states so_id no_choice s1) ++ s_w s1 :: rev (round_states so_id no_choice s0) ++ s_w s0 :: []) /\
  active (s_w s1) 2 q2 /\ operates (s_w s2) 0 1 p1 /\ operates (s_w s2) 1 2 p2 /\ operates (s_w s2) 1 3 p3 /\ allocates (s_w s2) 0 2 (Q2Qc (1#5)) /\ w_pools (s_w s0) = [].
Proof.
  split; [exact so_id_set_order|].
  destruct (steps_check simul_init 2 (fun s => pool_is (s_w s) 1 (fun p => Nat.eqb (p_owner p) 0) && pool_is (s_w s) 2 (fun p => Nat.eqb (p_owner p) 1) && pool_is (s_w s) 3 (fun p => Nat.eqb (p_owner p) 1) &&
     agent_is (s_w s) 0 (fun ag st => dict_eqb (s_alloc (A := QcA) st) [(2, Q2Qc (1#5))]))) as (s0 & s2 & H0 & H2 & Hc); [vm_compute; reflexivity|].
  assert (Hk : match simul_init with Ok s => Z.leb (r_k (w_rss (s_w s))) 2 && Nat.leb (c_phases (s_c s)) 1 | Err _ => false end = true) by (vm_compute; reflexivity). rewrite H0 in Hk. apply andb_true_iff in Hk as [Hk Hp]. apply Z.leb_le in Hk. apply Nat.leb_le in Hp.
  assert (Hq : match (let! s0 := simul_init in steps 1 s0) with Ok s => pool_is (s_w s) 2 (fun _ => true) | Err _ => false end = true) by (vm_compute; reflexivity). rewrite H0 in Hq. cbn [bind] in Hq.
  change (steps 2 s0) with (let! s1 := sim_step so_id no_choice s0 in steps 1 s1) in H2. change (steps 1 s0) with (let! s1 := sim_step so_id no_choice s0 in Ok s1) in Hq.
  apply bind_ok in H2 as (s1 & S1 & H2). rewrite S1 in Hq. cbn [bind] in Hq. change (steps 1 s1) with (let! s2 := sim_step so_id no_choice s1 in Ok s2) in H2. apply bind_ok in H2 as (s2' & S2 & H2). injection H2 as ->.
  assert (R1 : reach so_id s0 s1) by (eapply reach_step; [constructor | exact S1]). assert (R2 : reach so_id s0 s2) by (eapply reach_step; [exact R1 | exact S2]).
  assert (V : visible so_id s0 (s_w s2)) by (constructor; exact R2).
  apply andb_true_iff in Hc as [Hc Ha]. apply andb_true_iff in Hc as [Hc H3]. apply andb_true_iff in Hc as [Hc1 Hc2].
  apply pool_is_active in Hc1 as (p1 & A1 & O1). apply pool_is_active in Hc2 as (p2 & A2 & O2). apply pool_is_active in H3 as (p3 & A3 & O3). apply pool_is_active in Hq as (q2 & A4 & _). apply Nat.eqb_eq in O1, O2, O3.
  assert (T := C74_pools_and_operators QcA so_id _ _ _ _ s0 (s_w s2) so_id_set_order H0 V). destruct T as (_ & _ & T).
  exists s0, s1, s2, p1, p2, q2, p3. split; [exact H0|]. split; [exact R1|]. split; [exact R2|]. split; [exact V|].
  split; [discriminate|]. split; [reflexivity|]. split; [intros x J; apply Qclt_le_weak; now apply demo_stakes_pos|].
  split; [intros s R; destruct (one_phase_k so_id _ _ _ _ s0 s so_id_set_order H0 Hp R) as [_ ->]; exact Hk|].
  split; [exact (hist_step so_id s0 no_choice s1 s2 _ (hist_step so_id s0 no_choice s0 s1 _ (hist_start so_id s0) S1) S2)|].
  split; [exact A4|]. split; [apply T; now split|]. split; [apply T; now split|]. split; [apply T; now split|].
  split; [|apply init_fresh in H0; exact (fs_pools _ _ _ _ _ H0)].
  apply agent_is_plays in Ha as (ag & st & Pl & E). apply dict_eqb_eq in E. exists ag, st. split; [exact Pl|]. exact (f_equal (fun d => get d 2) E).
Qed.
