(** The state invariant in exact arithmetic: what holds of every pool and every agent along runs with agents acting one at a time. *)
From Coq Require Import ZArith QArith Qcanon List Bool Arith Lia Permutation.
From Verif Require Import Num Py QcTac Rewards SortedKeyList World Stakeholder Sched Sim Init Reach RewardFacts ListFacts SLFacts Greedy PropHelper Inv Static Exec Eval Step SimInv Spec PropInit.
Import ListNotations.
Open Scope Qc_scope.

Lemma MP_Qc : ltb (zero (a := QcA)) min_stake_unit = true.  Proof. reflexivity. Qed.

Section Exact.
  (** [SINGLE]: one phase only; [NN], [POS]: all stakes are non-negative, positive *)
  Variables (SINGLE NN POS : Prop).
  Record pool_facts (rs : rss QcA) (p : pool QcA) : Prop := {
    pf_stake : p_stake p = p_pledge p + total (p_delegators p);
    pf_margin : 0 <= p_margin p /\ p_margin p <= 1;
    pf_des : p_des p = desirability (A := QcA) (p_margin p) (p_pp p);
    pf_pp : potential_profit (A := QcA) rs (p_pledge p) (p_cost p) = Ok (p_pp p);
    pf_private : SINGLE -> p_private p = leb (a := QcA) (pool_threshold (A := QcA) rs (p_pledge p)) (p_pledge p);
    pf_pledge : POS -> 0 < p_pledge p
  }.
  Definition agent_facts (rs : rss QcA) (s : Qc) : Prop := (NN -> 0 <= s) /\ (POS -> 0 < s /\ 0 < r_thr rs).
  Definition rss_facts (rs : rss QcA) : Prop := POS -> 0 < r_thr rs.
  Definition setting_facts (v : setting QcA) : Prop := match v with SetK x => POS -> 0 < x | _ => True end.
  Definition nonneg (y : Qc) : Prop := 0 <= y.

  Lemma boost_pos : 0 < boost (a := QcA).  Proof. reflexivity. Qed.
  Lemma des_nonneg m pp : 0 <= desirability (A := QcA) m pp.
  Proof. rewrite desirability_eq. apply Qcmax_r. Qed.
  Lemma E_TG_d mg pp : nonneg (add (a := QcA) (desirability (A := QcA) mg pp) boost).
  Proof. unfold nonneg. cbn [add QcA]. assert (H := des_nonneg mg pp). assert (B := boost_pos). qlra. Qed.
  Lemma E_TG_z : nonneg (add (a := QcA) zero boost) /\ nonneg (pmax (A := QcA) (add (a := QcA) zero boost) zero).
  Proof. split; [discriminate|]. unfold nonneg. rewrite pmax_max. apply Qcmax_r. Qed.
  Lemma E_TG_np rs p y : pool_facts rs p -> nonneg (pmax (A := QcA) (add (a := QcA) (p_des p) boost) y).
  Proof.
    intros F. unfold nonneg. rewrite pmax_max. eapply Qcle_trans; [|apply Qcmax_l]. rewrite (pf_des _ _ F). apply E_TG_d.
  Qed.
  Lemma E_NP_upd rs p v a : pool_facts rs p -> NoDup (keys (p_delegators p)) -> v = zero (a := QcA) \/ ltb (a := QcA) v min_stake_unit = false -> pool_facts rs (update_delegation v a p).
  Proof.
    intros [F1 F2 F3 F4 F5 F6] N Hv. constructor; try assumption. unfold update_delegation. cbn [p_stake p_pledge p_delegators].
    assert (E : total (if ltb v min_stake_unit then pop (set (p_delegators p) a v) a else set (p_delegators p) a v) = total (set (p_delegators p) a v)).
    { destruct (ltb v min_stake_unit) eqn:E; [|reflexivity]. destruct Hv as [->|Hv]; [|congruence]. change (@zero QcA) with 0. assert (T1 := total_pop (set (p_delegators p) a 0) a 0 (get_set_eq _ _ _)). rewrite Qcplus_0_l in T1. symmetry. exact T1. }
    transitivity (p_pledge p + total (set (p_delegators p) a v)); [|f_equal; symmetry; exact E]. cbn [add sub QcA]. destruct (get (p_delegators p) a) as [v0|] eqn:G.
    - assert (T1 := total_set (p_delegators p) a v v0 G). qlra.
    - assert (T1 := total_set_new (p_delegators p) a v (proj1 (get_None _ _) G)). qlra.
  Qed.
  Lemma E_NP_private : True -> forall rs p, pool_facts rs p -> NoDup (keys (p_delegators p)) -> ltb (a := QcA) (p_pledge p) (p_stake p) = false ->
    (forall a v, get (p_delegators p) a = Some v -> ltb (a := QcA) v min_stake_unit = false) -> p_delegators p = [].
  Proof.
    intros _ rs p F N L Hv. rewrite (pf_stake _ _ F) in L. destruct (p_delegators p) as [|[k v] d] eqn:E; [reflexivity|]. exfalso.
    assert (V : forall k v, In (k, v) ((k, v) :: d) -> True) by auto. clear V.
    assert (M : forall k' v', In (k', v') ((k, v) :: d) -> MIN <= v'). { intros k' v' J. apply ltb_MIN_false. apply (Hv k'). now apply In_get. }
    assert (M1 : MIN <= v) by (apply (M k); now left). assert (M2 : 0 <= total d). { apply total_nonneg. intros k' v' J. apply Qcle_trans with MIN; [discriminate|]. apply (M k'). now right. }
    rewrite total_cons in L. cbn [ltb QcA] in L. match type of L with Qc_ltb ?x ?y = _ => destruct (Qc_ltb_spec x y) as [|L'] end; [discriminate|]. apply L'. assert (P := MIN_pos). qlra.
  Qed.
  Lemma margin_range m : margin_src (A := QcA) nonneg m -> 0 <= m /\ m <= 1.
  Proof.
    intros [->|(x & y & Hy & H)]; [split; discriminate|]. rewrite suitable_margin_ok in H. injection H as <-. destruct (Qc_ltb_spec 0 x) as [P|P]; [|split; discriminate].
    split; [apply Qcmax_r|]. apply Qcmax_lub; [|discriminate]. assert (0 <= y / x) by (now apply Qcdiv_nonneg). qlra.
  Qed.
  Lemma pledge_pos stake thr n pledge : pledge_per_pool (A := QcA) stake thr n = Ok pledge -> (1 <= n)%Z /\ pledge = Qcmin (stake / Qc_ofZ n) thr.
  Proof.
    unfold pledge_per_pool. destruct (Z.leb_spec n 0); [discriminate|]. cbn [ofZ QcA]. rewrite pdiv_ok by (apply Qc_pos_neq, Qc_ofZ_pos; lia). cbn [bind]. intros [= <-]. split; [lia | apply pmin_min].
  Qed.
  Lemma E_NP_made rs stake cost phi n p pledge c : agent_facts rs stake -> (1 <= n)%Z -> pledge_per_pool (A := QcA) stake (r_thr rs) n = Ok pledge -> cost_per_pool (A := QcA) n cost phi = Ok c ->
    priced (A := QcA) nonneg rs pledge c p ->
    (p_stake p = pledge /\ p_delegators p = [] \/
     exists p0, pool_facts rs p0 /\ NoDup (keys (p_delegators p0)) /\ p_stake p = sub (a := QcA) (p_stake p0) (sub (a := QcA) (p_pledge p0) pledge) /\ p_delegators p = p_delegators p0) -> pool_facts rs p.
  Proof.
    intros [_ HA] Hn Hp _ (P1 & P2 & P3 & P4 & P5 & P6) Q. constructor.
    - rewrite P1. destruct Q as [[-> ->]|(p0 & F0 & _ & -> & ->)]; [change (total []) with 0; qlra|]. assert (S0 := pf_stake _ _ F0). cbn [sub QcA]. qlra.
    - now apply margin_range.
    - exact P5.
    - now rewrite P1, P2.
    - intros _. now rewrite P1.
    - intros P. destruct (HA P) as [S1 S2]. apply pledge_pos in Hp as [_ ->]. rewrite P1. apply Qcmin_pos; [|assumption]. apply Qcdiv_pos; [assumption | apply Qc_ofZ_pos; lia].
  Qed.
  Lemma E_SOK_k rs x rs' : rss_facts rs -> setting_facts (SetK x) -> set_k rs x = Ok rs' -> rss_facts rs'.
  Proof.
    intros _ S H P. cbn in S. specialize (S P). unfold set_k in H. change (@eqb QcA) with Qc_eqb in H. change (@zero QcA) with 0 in H. destruct (Qc_eqb_spec x 0); [discriminate|].
    rewrite pdiv_ok in H by assumption. injection H as <-. cbn. now apply Qcdiv_pos.
  Qed.
  Lemma E_SOK_a0 rs x : rss_facts rs -> setting_facts (SetA0 x) -> rss_facts (set_a0 rs x).
  Proof. intros R _. exact R. Qed.
  Lemma E_NP_phase : ~ SINGLE -> forall rs rs' p p', rss_facts rs' -> pool_facts rs p -> reprice rs' p p' -> pool_facts rs' p'.
  Proof.
    intros M rs rs' p p' _ [F1 F2 F3 F4 F5 F6] R. apply reprice_fields in R as (R1 & R2 & R3 & R4 & R5 & R6 & R7 & R8 & R9 & R10).
    constructor; [now rewrite R3, R4, R7 | now rewrite R8 | rewrite R8; exact R10 | rewrite R3, R2; exact R9 | contradiction | rewrite R3; exact F6].
  Qed.
  Lemma E_AG_phase : ~ SINGLE -> forall rs rs' (v : Qc), rss_facts rs' -> agent_facts rs v -> agent_facts rs' v.
  Proof. intros _ rs rs' v R [A1 A2]. split; [assumption|]. intros P. split; [now apply A2 | now apply R]. Qed.

  Definition egood := good (A := QcA) pool_facts True agent_facts.
  Variable so : list nat -> list nat -> list nat.
  Hypothesis so_perm : set_order so.
  Notation emove := (step_move (A := QcA) so pool_facts True nonneg).

  Theorem exact_step m w uid w' : egood m w -> agent_step so w uid = Ok w' -> egood m w' /\ (step_idle so uid w w' \/ emove m uid w w').
  Proof. apply (agent_step_good QcA_ord MP_Qc so so_perm pool_facts True agent_facts nonneg E_TG_d E_TG_z E_TG_np E_NP_upd E_NP_private E_NP_made). Qed.

  (** ** budget and homogeneity *)
  Definition pledge_of (w : world QcA) (r : nat) : Qc := match get (w_heap w) r with Some p => p_pledge p | None => 0 end.
  Definition pledged (w : world QcA) (st : strategy QcA) : Qc := Qc_sum (map (pledge_of w) (values (s_owned st))).
  Definition budget (w : world QcA) : Prop := forall a ag st, plays w a ag st -> pledged w st + total (s_alloc st) <= a_stake ag.
  Definition homogeneous (w : world QcA) : Prop := forall id1 p1 id2 p2, active w id1 p1 -> active w id2 p2 -> p_owner p1 = p_owner p2 -> p_pledge p1 = p_pledge p2 /\ p_cost p1 = p_cost p2.
  Definition booked (w : world QcA) : Prop := (NN -> budget w) /\ homogeneous w.

  Lemma total_sub : forall d d' : dict Qc, NoDup (keys d) -> NoDup (keys d') -> (forall k v, get d k = Some v -> 0 <= v) -> (forall k v, get d' k = Some v -> get d k = Some v) -> total d' <= total d.
  Proof.
    intros d d'. revert d. induction d' as [|[k v] d' IH]; intros d N N' P S.
    - change (total []) with 0. apply total_nonneg. intros k v J. apply (P k). now apply In_get.
    - assert (G : get d k = Some v) by (apply S; cbn; now rewrite Nat.eqb_refl). rewrite total_cons, (total_pop d k v G).
      inversion N' as [|? ? Nk N'']; subst. assert (total d' <= total (pop d k)); [|qlra]. apply IH; [now apply NoDup_pop | assumption | |].
      + intros k' v'. rewrite get_pop by assumption. destruct (Nat.eqb k k'); [discriminate | apply P].
      + intros k' v' G'. rewrite get_pop by assumption. destruct (Nat.eqb_spec k k') as [->|Ne].
        * exfalso. apply Nk. apply get_Some_key. eauto.
        * apply S. cbn. destruct (Nat.eqb_spec k' k); [congruence | assumption].
  Qed.

  Lemma static_pledge_of (w w' : world QcA) r p : get (w_heap w) r = Some p -> (exists p', get (w_heap w') r = Some p' /\ same_static p p') -> pledge_of w' r = pledge_of w r.
  Proof. intros G (p' & G' & S). unfold pledge_of. rewrite G, G', S. reflexivity. Qed.
  Lemma owned_heap m w a ag st id r : egood m w -> plays w a ag st -> get (s_owned st) id = Some r -> get (w_pools w) id = Some r /\ exists p, get (w_heap w) r = Some p /\ p_owner p = a /\ p_id p = id.
  Proof.
    intros G [P1 P2] H. assert (O1 : ow_of w a id = Some r) by (unfold ow_of; now rewrite P1, P2). destruct (i_own _ _ _ _ _ _ (g_inv _ _ _ _ _ G) _ _ _ O1) as [J1 J2].
    split; [assumption|]. destruct (i_reg _ _ _ _ _ _ (g_inv _ _ _ _ _ G) _ _ J1) as (p & K1 & K2 & _). exists p. auto.
  Qed.
  Lemma pledged_static m (w w' : world QcA) a ag st : egood m w -> plays w a ag st -> (forall r p, get (w_heap w) r = Some p -> exists p', get (w_heap w') r = Some p' /\ same_static p p') -> pledged w' st = pledged w st.
  Proof.
    intros G P S. unfold pledged. f_equal. apply map_ext_in. intros r J. destruct (proj2 (g_ok _ _ _ _ _ G) a ag (proj1 P)) as [_ N]. destruct (N st (proj2 P)) as [_ No].
    apply In_values in J as (id & J); [|assumption]. destruct (owned_heap m w a ag st id r G P J) as (_ & p & Gp & _). eapply static_pledge_of; [exact Gp | now apply S].
  Qed.
  Lemma alloc_nonneg m w a ag st : egood m w -> plays w a ag st -> forall id v, get (s_alloc st) id = Some v -> MIN <= v.
  Proof.
    intros G [P1 P2] id v J. assert (L : al_of w a id = Some v) by (unfold al_of; now rewrite P1, P2). destruct (i_al _ _ _ _ _ _ (g_inv _ _ _ _ _ G) _ _ _ L) as [J1 _]. now apply ltb_MIN_false.
  Qed.
  Lemma deleg_total rs (s : Qc) d : 0 <= s -> deleg (A := QcA) rs s d -> total d <= s.
  Proof.
    intros Hs [->|(L & pools & N & ->)]; [exact Hs|]. apply ltb_MIN_false in L. exact (proj1 (proj2 (proj2 (proj2 (greedy_correct rs pools s N L))))).
  Qed.
  Lemma pledge_budget stake thr n pledge : pledge_per_pool (A := QcA) stake thr n = Ok pledge -> pledge * Qc_ofZ n <= stake.
  Proof.
    intros H. apply pledge_pos in H as [Hn ->]. assert (P := Qc_ofZ_pos n ltac:(lia)). rewrite <- (Qcdiv_mul stake (Qc_ofZ n)) at 2 by (now apply Qc_pos_neq).
    apply Qcmult_le_r; [now apply Qclt_le_weak | apply Qcmin_l].
  Qed.

  Lemma booked_step m uid w w' : egood m w -> booked w -> egood m w' -> step_idle so uid w w' \/ emove m uid w w' -> booked w'.
  Proof.
    intros G [B H] G' [(w2 & E & Ea & _ & Ew)|(ag & st & w2 & new & w3 & Ga & Gst & I2 & E & M & X & HS & _ & ->)].
    - assert (Eh : w_heap w' = w_heap w2) by (now rewrite Ew). assert (Ep : w_pools w' = w_pools w) by (rewrite Ew; apply E).
      assert (S : forall r p, get (w_heap w) r = Some p -> exists p', get (w_heap w') r = Some p' /\ same_static p p') by (rewrite Eh; apply E). split.
      + intros n a ag st P. unfold plays in P. rewrite Ea in P. rewrite (pledged_static m w w' a ag st G P S). now apply (B n a).
      + intros id1 p1 id2 p2 (r1 & A1 & A2) (r2 & A3 & A4) Eo. rewrite Ep in A1, A3.
        destruct (i_reg _ _ _ _ _ _ (g_inv _ _ _ _ _ G) _ _ A1) as (q1 & Q1 & _). destruct (i_reg _ _ _ _ _ _ (g_inv _ _ _ _ _ G) _ _ A3) as (q2 & Q2 & _).
        destruct (S _ _ Q1) as (q1' & Q1' & S1). destruct (S _ _ Q2) as (q2' & Q2' & S2). rewrite A2 in Q1'. injection Q1' as <-. rewrite A4 in Q2'. injection Q2' as <-.
        rewrite S1, S2 in *. cbn in *. apply (H id1 q1 id2 q2); [now exists r1 | now exists r2 | assumption].
    - assert (Aid : a_id ag = uid) by (now apply (g_ok _ _ _ _ _ G)).
      assert (S2 : forall r p, get (w_heap w) r = Some p -> exists p', get (w_heap w2) r = Some p' /\ same_static p p') by apply E.
      assert (S : forall r p, get (w_heap w) r = Some p -> exists p', get (w_heap w3) r = Some p' /\ same_static p p').
      { intros r p Gr. destruct (S2 r p Gr) as (p2 & G2 & T2). destruct (HS r p2 G2) as (p3 & G3 & T3). exists p3. split; [assumption | eapply same_static_trans; eassumption]. }
      assert (Ea2 : w_agents w2 = w_agents w) by apply E. assert (Ep2 : w_pools w2 = w_pools w) by apply E. assert (Er2 : w_rss w2 = w_rss w) by apply E.
      assert (Oth : forall a ag' st', a <> uid -> plays w3 a ag' st' -> exists ag0 st0, plays w a ag0 st0 /\ a_stake ag' = a_stake ag0 /\ s_owned st' = s_owned st0).
      { intros a ag' st' Ne [P1 P2]. assert (O1 := x_others _ _ _ _ _ X a Ne). rewrite Ea2 in O1. destruct (get (w_agents w) a) as [ag0|] eqn:G0; [|congruence].
        destruct O1 as (ag1 & G1 & (_ & _ & Q3 & _ & _ & Q6)). rewrite P1 in G1. injection G1 as <-. destruct Q6 as [Q6|(st0 & al' & Q6 & Q7)].
        - exists ag0, st'. split; [split; [assumption | congruence]|]. auto.
        - exists ag0, st0. split; [split; assumption|]. split; [assumption|]. rewrite P2 in Q7. injection Q7 as ->. reflexivity. }
      (* the pools of the agent who moved *)
      assert (Own : forall id r, get (s_owned new) id = Some r -> exists n pledge cost, pledge_per_pool (A := QcA) (a_stake ag) (r_thr (w_rss w)) n = Ok pledge /\ cost_per_pool (A := QcA) n (a_cost ag) (w_phi w) = Ok cost /\
                 length (s_owned new) = Z.to_nat n /\ deleg (A := QcA) (w_rss w) (a_stake ag - pledge * Qc_ofZ n) (s_alloc new) /\
                 forall id r, get (s_owned new) id = Some r -> exists p, get (w_heap w3) r = Some p /\ p_pledge p = pledge /\ p_cost p = cost).
      { intros id0 r0 J0. destruct M as [(M1 & _)|(w1 & n & E1 & _ & _ & _ & pledge & cost & Hpl & Hco & _ & Len & Hm & _ & Hd)]; [rewrite M1 in J0; discriminate|].
        unfold agent_pledge_per_pool, agent_cost_per_pool in Hpl, Hco. assert (Er1 : w_rss w1 = w_rss w) by apply E1. assert (Ef1 : w_phi w1 = w_phi w) by apply E1. rewrite Er1 in Hpl, Hd. rewrite Ef1 in Hco.
        exists n, pledge, cost. repeat (split; [assumption|]). intros id r J. destruct (Hm id r J) as (_ & p & K1 & _ & _ & (K4 & K5 & _) & _). destruct (HS r p K1) as (p3 & G3 & T3). exists p3. split; [assumption|]. rewrite T3. cbn. auto. }
      split.
      + intros n a ag' st' P. destruct (Nat.eq_dec a uid) as [->|Ne].
        * destruct P as [P1 P2]. cbn in P1. rewrite (x_self _ _ _ _ _ X) in P1. injection P1 as <-. cbn in P2. injection P2 as <-. cbn.
          destruct (s_owned new) as [|[id0 r0] o'] eqn:Eo.
          -- unfold pledged. rewrite Eo. change (Qc_sum (map _ (values []))) with 0. rewrite Qcplus_0_l. assert (Sn : 0 <= a_stake ag) by (apply (g_new _ _ _ _ _ G uid ag Ga); assumption).
             destruct M as [(_ & _ & Hd)|(w1 & k & _ & _ & _ & Hk & pledge & cost & _ & _ & _ & Len & _)].
             ++ now apply (deleg_total (w_rss w)).
             ++ rewrite Eo in Len. cbn in Len. lia.
          -- rewrite <- Eo in *. destruct (Own id0 r0) as (k & pledge & cost & Hpl & _ & Len & Hd & Hp); [rewrite Eo; cbn; now rewrite Nat.eqb_refl|].
             assert (Ep : pledged (with_idle false w3) new = pledge * Qc_ofZ k).
             { unfold pledged. assert (V : map (pledge_of (with_idle false w3)) (values (s_owned new)) = repeat pledge (length (s_owned new))).
               { assert (N : NoDup (keys (s_owned new))). { destruct (proj2 (x_ok _ _ _ _ _ X) uid _ (x_self _ _ _ _ _ X)) as [_ N]. apply (N new). reflexivity. }
                 assert (V : forall r, In r (values (s_owned new)) -> pledge_of (with_idle false w3) r = pledge).
                 { intros r J. apply In_values in J as (id & J); [|assumption]. destruct (Hp id r J) as (p & Q1 & Q2 & _). unfold pledge_of. cbn. now rewrite Q1. }
                 clear - V. unfold values in *. induction (s_owned new) as [|[i r] l IH]; cbn [map length repeat snd] in *; [reflexivity|]. rewrite (V r (or_introl eq_refl)), IH; [reflexivity | intros; apply V; now right]. }
               rewrite V, Qc_sum_repeat, Len. apply pledge_pos in Hpl as [Hk _]. rewrite Z2Nat.id by lia. ring. }
             rewrite Ep. assert (L := pledge_budget _ _ _ _ Hpl). apply deleg_total in Hd; [|qlra]. qlra.
        * destruct (Oth a ag' st' Ne P) as (ag0 & st0 & P0 & -> & Eo). assert (B0 := B n a ag0 st0 P0).
          assert (Ep : pledged (with_idle false w3) st' = pledged w st0). { rewrite <- (pledged_static m w w3 a ag0 st0 G P0 S). unfold pledged. rewrite Eo. reflexivity. }
          assert (L : total (s_alloc st') <= total (s_alloc st0)); [|qlra].
          apply total_sub.
          -- apply (proj2 (g_ok _ _ _ _ _ G) a ag0 (proj1 P0)). exact (proj2 P0).
          -- apply (proj2 (x_ok _ _ _ _ _ X) a ag' (proj1 P)). exact (proj2 P).
          -- intros k v J. apply Qcle_trans with MIN; [discriminate|]. now apply (alloc_nonneg m w a ag0 st0 G P0 k).
          -- intros k v J. assert (A1 : al_of w3 a k = Some v) by (unfold al_of; destruct P as [P1 P2]; cbn in P1; now rewrite P1, P2). apply (x_sub _ _ _ _ _ X) in A1; [|assumption].
             unfold al_of in A1. rewrite Ea2 in A1. destruct P0 as [P1 P2]. rewrite P1, P2 in A1. exact A1.
      + intros id1 p1 id2 p2 (r1 & A1 & A2) (r2 & A3 & A4) Eo. cbn in A1, A2, A3, A4.
        destruct (i_reg _ _ _ _ _ _ (g_inv _ _ _ _ _ G') _ _ A1) as (q1 & Q1 & Q1id & _ & _ & O1 & _). destruct (i_reg _ _ _ _ _ _ (g_inv _ _ _ _ _ G') _ _ A3) as (q2 & Q2 & Q2id & _ & _ & O2 & _). cbn in Q1, Q2.
        rewrite A2 in Q1. injection Q1 as <-. rewrite A4 in Q2. injection Q2 as <-. rewrite <- Eo in O2.
        destruct (Nat.eq_dec (p_owner p1) uid) as [Eu|Ne].
        * rewrite Eu in O1, O2. unfold ow_of in O1, O2. cbn in O1, O2. rewrite (x_self _ _ _ _ _ X) in O1, O2. cbn in O1, O2. destruct (Own id1 r1 O1) as (k & pledge & cost & _ & _ & _ & _ & Hp).
          destruct (Hp id1 r1 O1) as (q1 & J1 & J2 & J3). destruct (Hp id2 r2 O2) as (q2 & J4 & J5 & J6). split; congruence.
        * assert (P0 : forall id r p, ow_of (with_idle false w3) (p_owner p1) id = Some r -> get (w_heap w3) r = Some p -> p_owner p = p_owner p1 -> exists q, active w id q /\ p_owner q = p_owner p1 /\ p_pledge q = p_pledge p /\ p_cost q = p_cost p).
          { intros id r p O Gp Ep. unfold ow_of in O. cbn in O. destruct (get (w_agents w3) (p_owner p1)) as [ag'|] eqn:Ga'; [|discriminate]. destruct (a_strategy ag') as [st'|] eqn:Gs'; [|discriminate].
            destruct (Oth _ ag' st' Ne (conj Ga' Gs')) as (ag0 & st0 & P0 & _ & Ew). rewrite Ew in O. destruct (owned_heap m w _ ag0 st0 id r G P0 O) as (J1 & q & J2 & J3 & _). exists q. split; [now exists r|]. split; [assumption|].
            destruct (S r q J2) as (q' & J4 & J5). rewrite Gp in J4. injection J4 as <-. rewrite J5. cbn. auto. }
          destruct (P0 id1 r1 p1 O1 A2 eq_refl) as (q1 & B1 & B2 & B3 & B4). destruct (P0 id2 r2 p2 O2 A4 (eq_sym Eo)) as (q2 & B5 & B6 & B7 & B8).
          rewrite <- B3, <- B4, <- B7, <- B8. apply (H id1 q1 id2 q2); congruence.
  Qed.

  Lemma booked_phase m w w' : egood m w -> booked w -> egood m w' -> repriced w w' -> booked w'.
  Proof.
    intros G [B H] G' (E1 & E2 & _ & _ & _ & _ & E3). split.
    - intros n a ag st P. unfold plays in P. rewrite E1 in P. assert (Ep : pledged w' st = pledged w st).
      { unfold pledged. f_equal. apply map_ext_in. intros r J. destruct (proj2 (g_ok _ _ _ _ _ G) a ag (proj1 P)) as [_ N]. destruct (N st (proj2 P)) as [_ No].
        apply In_values in J as (id & J); [|assumption]. destruct (owned_heap m w a ag st id r G P J) as (J1 & _). destruct (E3 id r J1) as (p & p' & Q1 & Q2 & Q3). apply reprice_fields in Q3. unfold pledge_of. rewrite Q1, Q2. apply Q3. }
      rewrite Ep. now apply (B n a).
    - intros id1 p1 id2 p2 (r1 & A1 & A2) (r2 & A3 & A4) Eo. rewrite E2 in A1, A3. destruct (E3 id1 r1 A1) as (q1 & q1' & Q1 & Q2 & Q3). destruct (E3 id2 r2 A3) as (q2 & q2' & Q4 & Q5 & Q6).
      rewrite A2 in Q2. injection Q2 as <-. rewrite A4 in Q5. injection Q5 as <-. apply reprice_fields in Q3 as (_ & R1 & R2 & _ & R3 & _). apply reprice_fields in Q6 as (_ & R4 & R5 & _ & R6 & _).
      rewrite R1, R2, R4, R5. apply (H id1 q1 id2 q2); [now exists r1 | now exists r2 | congruence].
  Qed.

  (** ** along runs *)
  Definition esim (m : nat) (X : world QcA -> Prop) := simgood pool_facts True agent_facts rss_facts setting_facts (~ SINGLE) m X.
  (** inputs: [SINGLE] implies one value per parameter, [NN] non-negative stakes, [POS] positive stakes and values of k *)
  Definition inputs_ok (g : args QcA) (s0 : sim QcA) : Prop :=
    (SINGLE \/ ~ SINGLE) /\ (SINGLE -> forall f, In f (fields g) -> exists v, f = Single v) /\
    (NN -> forall a ag, get (w_agents (s_w s0)) a = Some ag -> 0 <= a_stake ag) /\
    (POS -> (forall a ag, get (w_agents (s_w s0)) a = Some ag -> 0 < a_stake ag) /\ 0 < r_thr (w_rss (s_w s0)) /\ (forall x : Qc, In x (phase_values (g_k g)) -> 0 < x)).

  Lemma fresh_booked g profiles stakes costs s0 : fresh_sim (A := QcA) g profiles stakes costs s0 -> (NN -> forall a ag, get (w_agents (s_w s0)) a = Some ag -> 0 <= a_stake ag) -> booked (s_w s0).
  Proof.
    intros F HN. split.
    - intros n a ag st [P1 P2]. destruct (fs_agents _ _ _ _ _ F a ag P1) as (x & c & p & E & _). assert (st = empty_strategy) as -> by (rewrite E in P2; destruct p; cbn in P2; congruence).
      change (pledged (s_w s0) (empty_strategy (A := QcA)) + total (s_alloc (empty_strategy (A := QcA)))) with (0 + 0). rewrite Qcplus_0_l. now apply (HN n a).
    - intros id1 p1 id2 p2 (r1 & A1 & A2). rewrite (fs_pools _ _ _ _ _ F) in A1. discriminate.
  Qed.

  Lemma settings_pos (g : args QcA) : (POS -> forall x : Qc, In x (phase_values (g_k g)) -> 0 < x) -> forall f v, In f (fields g) -> In v (phase_values f) -> setting_facts v.
  Proof.
    intros H f v J1 J2. assert (PM : forall X (h : X -> setting QcA) p, In v (phase_values (pv_map h p)) -> exists x, v = h x /\ In x (phase_values p)).
    { intros X h [x|l]; cbn; [intros [<-|[]]; exists x; auto|]. intros J. apply in_map_iff in J as (x & <- & J). eauto. }
    unfold fields in J1. cbn [In] in J1. destruct J1 as [<-|[<-|J1]].
    - apply PM in J2 as (x & -> & _). exact I.
    - apply PM in J2 as (x & -> & J2). intros P. now apply H.
    - repeat (destruct J1 as [<-|J1]; [apply PM in J2 as (x & -> & _); exact I|]). destruct J1.
  Qed.

  Theorem exact_init g profiles stakes costs s0 (X : world QcA -> Prop) : init g profiles stakes costs = Ok s0 -> one_at_a_time g -> inputs_ok g s0 -> X (s_w s0) ->
    esim (Z.to_nat (r_k (w_rss (s_w s0)) + 1)) (fun w => booked w /\ X w) s0.
  Proof.
    intros H OT (D & HS & HN & HP) HX. assert (F := init_fresh _ _ _ _ _ H).
    apply (init_simgood QcA_ord g profiles stakes costs s0); [exact H | exact OT | | | | |].
    - intros a ag G. split; [intros n; now apply (HN n a) | intros p; split; [exact (proj1 (HP p) a ag G) | exact (proj1 (proj2 (HP p)))]].
    - intros p. exact (proj1 (proj2 (HP p))).
    - destruct D as [D|D]; [right; now apply HS | now left].
    - intros _. apply settings_pos. intros p. exact (proj2 (proj2 (HP p))).
    - split; [eapply fresh_booked; eassumption | exact HX].
  Qed.

  Section Extra.
    Variables (m : nat) (X : world QcA -> Prop).
    Hypothesis X_step : forall uid w w', rss_facts (w_rss w) -> egood m w -> booked w -> X w -> agent_step so w uid = Ok w' -> egood m w' -> step_idle so uid w w' \/ emove m uid w w' -> X w'.
    Hypothesis X_phase : ~ SINGLE -> forall w w', egood m w -> X w -> egood m w' -> repriced w w' -> X w'.
    Hypothesis X_idle : forall w b, X w -> X (with_idle b w).
    Lemma BX_step uid w w' : rss_facts (w_rss w) -> egood m w -> (booked w /\ X w) -> agent_step so w uid = Ok w' -> egood m w' -> step_idle so uid w w' \/ emove m uid w w' -> booked w' /\ X w'.
    Proof. intros R G [B HX] H G' S. split; [exact (booked_step m uid w w' G B G' S) | exact (X_step uid w w' R G B HX H G' S)]. Qed.
    Lemma BX_phase : ~ SINGLE -> forall w w', egood m w -> booked w /\ X w -> egood m w' -> repriced w w' -> booked w' /\ X w'.
    Proof. intros S w w' G [B HX] G' R. split; [exact (booked_phase m w w' G B G' R) | exact (X_phase S w w' G HX G' R)]. Qed.
    Lemma BX_idle w b : booked w /\ X w -> booked (with_idle b w) /\ X (with_idle b w).
    Proof. intros [[B H] HX]. split; [split; assumption | now apply X_idle]. Qed.
    Theorem exact_reach s0 s : esim m (fun w => booked w /\ X w) s0 -> reach so s0 s -> esim m (fun w => booked w /\ X w) s.
    Proof.
      apply (reach_good QcA_ord MP_Qc so so_perm pool_facts True agent_facts nonneg E_TG_d E_TG_z E_TG_np E_NP_upd E_NP_private E_NP_made rss_facts setting_facts (~ SINGLE)
               E_SOK_k E_SOK_a0 E_NP_phase E_AG_phase m _ BX_step BX_phase BX_idle).
    Qed.
    Theorem exact_visible s0 w : esim m (fun w => booked w /\ X w) s0 -> visible so s0 w -> egood m w /\ (booked w /\ X w) /\ rss_facts (w_rss w).
    Proof.
      apply (visible_good QcA_ord MP_Qc so so_perm pool_facts True agent_facts nonneg E_TG_d E_TG_z E_TG_np E_NP_upd E_NP_private E_NP_made rss_facts setting_facts (~ SINGLE)
               E_SOK_k E_SOK_a0 E_NP_phase E_AG_phase m _ BX_step BX_phase BX_idle).
    Qed.
  End Extra.
End Exact.
