(** One activation of an agent preserves the state invariant; so do rounds and runs of agents acting one at a time. *)
From Coq Require Import ZArith List Bool Arith Lia Permutation.
From Verif Require Import Num Py Rewards SortedKeyList World Stakeholder ListFacts SLFacts Greedy Inv Static Exec Eval.
Import ListNotations.
Open Scope nat_scope.

Section Step.
  Context {A : Arith} (O : OrdLaws A) (MP : ltb (zero (a := A)) min_stake_unit = true).
  Variable so : list nat -> list nat -> list nat.
  Hypothesis so_perm : forall c l, Permutation (so c l) l.
  Implicit Types w : world A. Implicit Types p q : pool A. Implicit Types st new : strategy A. Implicit Types ag : agent A.
  Notation num := (T A).
  Variable NP : rss A -> pool A -> Prop.
  Variable PVT : Prop.
  Variable AG : rss A -> num -> Prop.
  Variable TG : num -> Prop.
  Hypothesis TG_d : forall mg pp, TG (add (desirability mg pp) boost).
  Hypothesis TG_z : TG (add zero boost) /\ TG (pmax (add zero boost) zero).
  Hypothesis TG_np : forall rs p y, NP rs p -> TG (pmax (add (p_des p) boost) y).
  Hypothesis NP_upd : forall rs p v a, NP rs p -> NoDup (keys (p_delegators p)) -> v = zero \/ ltb v min_stake_unit = false -> NP rs (update_delegation v a p).
  Hypothesis NP_private : PVT -> forall rs p, NP rs p -> NoDup (keys (p_delegators p)) -> ltb (p_pledge p) (p_stake p) = false ->
    (forall a v, get (p_delegators p) a = Some v -> ltb v min_stake_unit = false) -> p_delegators p = [].
  Hypothesis NP_made : forall rs stake cost phi n p pledge c, AG rs stake -> (1 <= n)%Z -> pledge_per_pool stake (r_thr rs) n = Ok pledge -> cost_per_pool n cost phi = Ok c ->
    priced TG rs pledge c p ->
    (p_stake p = pledge /\ p_delegators p = [] \/
     exists p0, NP rs p0 /\ NoDup (keys (p_delegators p0)) /\ p_stake p = sub (p_stake p0) (sub (p_pledge p0) pledge) /\ p_delegators p = p_delegators p0) -> NP rs p.
  Notation Inv := (Inv NP PVT).


  Definition move_of (w : world A) (ag : agent A) (st : strategy A) (w2 : world A) (new : strategy A) : Prop :=
    (s_owned new = [] /\ alloc_ok w2 (a_id ag) (s_alloc new) /\ deleg (w_rss w) (a_stake ag) (s_alloc new)) \/
    (exists w1 n, efr (a_id ag) w w1 /\ w_next w1 = w_next w /\ w_idseq w1 = w_idseq w /\ (1 <= n <= r_k (w_rss w))%Z /\ op_move TG ag st w1 n w2 new).

  Lemma update_cases m w uid ag w' : Inv m (al_of w) (ow_of w) w -> agents_ok w -> get (w_agents w) uid = Some ag -> update_strategy so w uid = Ok w' ->
    (a_profile ag = Abstainer /\ w' = w) \/
    (a_profile ag <> Abstainer /\ exists st w2 mv, a_strategy ag = Some st /\ w' = put_agent w2 uid (agent_set_new mv ag) /\ Inv m (al_of w) (ow_of w) w2 /\ efr uid w w2 /\
       match mv with None => True | Some new => move_of w ag st w2 new end).
  Proof.
    intros I AO G H. unfold update_strategy, the_agent in H. rewrite G in H. cbn [of_option bind] in H.
    destruct (a_profile ag) eqn:Epr; [| |left; split; [reflexivity | congruence]]; right; (split; [discriminate|]).
    all: unfold the_strategy in H; apply bind_ok in H as (st & Hst & H); apply of_option_ok in Hst;
      apply bind_ok in H as (cu & _ & H); apply bind_ok in H as (eu & _ & H); apply bind_ok in H as ([w1 dst] & Hd & H); apply bind_ok in H as (du & _ & H);
      apply bind_ok in H as ([[w2 ou] ost] & Ho & H); injection H as <-;
      destruct AO as [_ AO]; destruct (AO uid ag G) as [Aid Ast]; destruct (Ast st Hst) as [Na No];
      assert (Eal : forall id, al_of w (a_id ag) id = get (s_alloc st) id) by (intros; unfold al_of; now rewrite Aid, G, Hst);
      assert (Eow : forall id, ow_of w (a_id ag) id = get (s_owned st) id) by (intros; unfold ow_of; now rewrite Aid, G, Hst);
      destruct (delegation_move_spec O MP TG NP PVT NP_upd TG_z m (al_of w) (ow_of w) ag st Hst Eal Na w (a_stake ag) w1 dst I Hd) as (I1 & E1 & En1 & Es1 & D1 & D2 & D3);
      destruct (choose_spec O MP so so_perm TG NP PVT NP_upd TG_d TG_z TG_np m (al_of w) (ow_of w) ag st Hst Eal Eow Na No w1 w2 ou ost I1 Ho) as (I2 & E2 & C);
      exists st, w2, (pick_move (augmented_utility w cu eu) (du, dst) (ou, ost)); (split; [assumption|]); (split; [reflexivity|]); (split; [assumption|]);
      rewrite <- Aid; (split; [eapply efr_trans; eassumption|]);
      assert (Md : move_of w ag st w2 dst) by (left; split; [assumption|]; split; [eapply alloc_ok_efr; eassumption | assumption]);
      assert (Er1 : w_rss w1 = w_rss w) by apply E1;
      unfold pick_move; cbn [fst snd]; destruct ost as [ost|];
      [ destruct C as ((n & [Hn _] & C) & _); rewrite Er1 in Hn;
        assert (Mo : move_of w ag st w2 ost) by (right; exists w1, n; auto);
        destruct (ltb (augmented_utility w cu eu) du); cbn [fst snd]; match goal with |- context [ltb ?a ?b] => destruct (ltb a b) end; auto
      | destruct (ltb (augmented_utility w cu eu) du); cbn [snd]; auto ].
  Qed.

  Record good (m : nat) (w : world A) : Prop := {
    g_inv : Inv m (al_of w) (ow_of w) w;
    g_ok : agents_ok w;
    g_sim : w_simul w = false;
    g_new : forall a ag, get (w_agents w) a = Some ag -> a_new ag = None /\ AG (w_rss w) (a_stake ag)
  }.

  Lemma move_staged m w ag st w2 new : Inv m (al_of w) (ow_of w) w -> get (w_agents w) (a_id ag) = Some ag -> a_strategy ag = Some st -> AG (w_rss w) (a_stake ag) ->
    Inv m (al_of w) (ow_of w) w2 -> efr (a_id ag) w w2 -> move_of w ag st w2 new ->
    NoDup (keys (s_alloc new)) /\ NoDup (keys (s_owned new)) /\ staged NP PVT w2 (a_id ag) st new.
  Proof.
    intros I G Hst HA I2 E2 M. destruct M as [(M1 & M2 & M3)|(w1 & n & E1 & En1 & Es1 & Hn & M)].
    - split; [apply M2|]. rewrite M1. split; [constructor|]. constructor; rewrite ?M1; try constructor.
      + apply M2.
      + apply M2 in H. tauto.
      + destruct M2 as [_ M2]. destruct (M2 id v H) as (J0 & r & p & J1 & J2 & J3 & J4). eauto 10.
      + intros id [].
    - destruct M as (pledge & cost & Hpl & Hco & Nd & Len & Hm & M2 & M3). split; [apply M2|]. split; [assumption|]. constructor.
      + apply M2.
      + assumption.
      + intros id v H. destruct M2 as [_ M2]. destruct (M2 id v H) as (J0 & r & p & J1 & J2 & J3 & J4). eauto 10.
      + intros id J. apply get_Some_key in J as (r & J). destruct (Hm id r J) as (Hr & p & K1 & K2 & K3 & K4 & K5). exists r, p.
        assert (Er1 : w_rss w1 = w_rss w) by apply E1. assert (Er2 : w_rss w2 = w_rss w) by apply E2.
        assert (Ep1 : w_pools w1 = w_pools w) by apply E1. assert (Ep2 : w_pools w2 = w_pools w) by apply E2. assert (Ephi : w_phi w1 = w_phi w) by apply E1.
        assert (Own : forall r0, get (s_owned st) id = Some r0 -> get (w_pools w) id = Some r0 /\ exists p0, get (w_heap w) r0 = Some p0 /\ get (w_heap w1) r0 = Some p0 /\ get (w_heap w2) r0 = Some p0 /\ NP (w_rss w) p0 /\ NoDup (keys (p_delegators p0))).
        { intros r0 H0. assert (Ow : ow_of w (a_id ag) id = Some r0) by (unfold ow_of; rewrite G, Hst; exact H0). destruct (i_own _ _ _ _ _ _ I _ _ _ Ow) as [B1 B2]. split; [assumption|].
          destruct (i_reg _ _ _ _ _ _ I _ _ B1) as (p0 & B3 & B4 & B5 & B6 & B7 & B8 & B9). exists p0. split; [assumption|].
          assert (X : forall w', efr (a_id ag) w w' -> get (w_heap w') r0 = get (w_heap w) r0).
          { intros w' (_ & _ & _ & _ & X). apply X; [eapply (Inv_reg_fresh NP PVT); eassumption|]. intros id' _. exists p0. auto. }
          rewrite (X w1 E1), (X w2 E2). repeat (split; [assumption|]). assumption. }
        split; [assumption|]. split.
        { intros id' G'. rewrite Ep2 in G'. assert (r < w_next w) by (eapply (Inv_reg_fresh NP PVT); [exact I | exact G']). lia. }
        split; [assumption|]. split; [assumption|]. split; [assumption|]. rewrite Er2.
        assert (Q : p_stake p = pledge /\ p_delegators p = [] \/
             exists p0, NP (w_rss w) p0 /\ NoDup (keys (p_delegators p0)) /\ p_stake p = sub (p_stake p0) (sub (p_pledge p0) pledge) /\ p_delegators p = p_delegators p0).
        { destruct (get (s_owned st) id) as [r0|] eqn:E0; [|left; tauto]. right. destruct K5 as (p0 & B1 & B2 & B3). destruct (Own r0 eq_refl) as (_ & p0' & _ & C1 & _ & C2 & C3). rewrite B1 in C1. injection C1 as <-. eauto. }
        split.
        { rewrite Er1 in K4. unfold agent_pledge_per_pool in Hpl. rewrite Er1 in Hpl. eapply NP_made; [exact HA | apply Hn | exact Hpl | exact Hco | exact K4 | exact Q]. }
        split.
        { destruct Q as [(_ & ->)|(p0 & _ & N0 & _ & ->)]; [constructor | assumption]. }
        destruct (get (s_owned st) id) as [r0|] eqn:E0.
        * destruct (Own r0 eq_refl) as (C0 & p0 & C1 & C2 & C3 & _). rewrite Ep2. split; [assumption|]. exists p0. split; [assumption|]. destruct K5 as (p0' & B1 & B2 & B3). rewrite C2 in B1. injection B1 as <-. now rewrite B3.
        * destruct K5 as (K5 & K6 & K7). rewrite Ep2. split; [|split; [lia | assumption]].
          destruct (get (w_pools w) id) as [r0|] eqn:E1'; [|reflexivity]. exfalso. destruct (i_reg _ _ _ _ _ _ I _ _ E1') as (p0 & _ & _ & B & _). lia.
  Qed.

  (** static data of the agents *)
  Definition same_people (w w' : world A) : Prop :=
    keys (w_agents w') = keys (w_agents w) /\
    forall a ag, get (w_agents w) a = Some ag -> exists ag', get (w_agents w') a = Some ag' /\ a_id ag' = a_id ag /\ a_profile ag' = a_profile ag /\ a_stake ag' = a_stake ag /\ a_cost ag' = a_cost ag.
  Lemma same_people_refl w : same_people w w.  Proof. split; [reflexivity|]. eauto 10. Qed.
  Lemma same_people_trans w w1 w2 : same_people w w1 -> same_people w1 w2 -> same_people w w2.
  Proof.
    intros [K1 H1] [K2 H2]. split; [congruence|]. intros a ag G. destruct (H1 a ag G) as (ag1 & G1 & ? & ? & ? & ?). destruct (H2 a ag1 G1) as (ag2 & G2 & ? & ? & ? & ?).
    exists ag2. repeat (split; [congruence|]). congruence.
  Qed.

  (** an activation either leaves everything as it is (up to the exactness of taking delegations out and putting them back) or executes a move *)
  Definition step_idle (uid : nat) (w w' : world A) : Prop :=
    exists w2, efr uid w w2 /\ w_agents w' = w_agents w /\ update_strategy so w uid = Ok w' /\ w' = with_agents (w_agents w') w2.
  Definition step_move (m : nat) (uid : nat) (w w' : world A) : Prop :=
    exists ag st w2 new w3, get (w_agents w) uid = Some ag /\ a_strategy ag = Some st /\ Inv m (al_of w) (ow_of w) w2 /\ efr uid w w2 /\ move_of w ag st w2 new /\
      executed uid new ag w2 w3 /\ hstat w2 w3 /\ update_strategy so w uid = Ok (put_agent w2 uid (agent_set_new (Some new) ag)) /\ w' = with_idle false w3.

  Lemma set_get_same {V} (d : dict V) k v : get d k = Some v -> set d k v = d.
  Proof. induction d as [|[k' v'] d IH]; cbn; [discriminate|]. destruct (Nat.eqb_spec k k'); [intros [= ->]; congruence | intros; f_equal; auto]. Qed.

  Lemma agent_eta ag : a_new ag = None -> agent_set_new None ag = ag.
  Proof. destruct ag; cbn. now intros ->. Qed.

  Theorem agent_step_good m w uid w' : good m w -> agent_step so w uid = Ok w' -> good m w' /\ (step_idle uid w w' \/ step_move m uid w w').
  Proof.
    intros [I AO Hs Hn] H. unfold agent_step in H. apply bind_ok in H as (w1 & H1 & H).
    assert (exists ag, get (w_agents w) uid = Some ag) as (ag & G).
    { unfold update_strategy, the_agent in H1. apply bind_ok in H1 as (ag & G & _). apply of_option_ok in G. eauto. }
    destruct (Hn uid ag G) as [Hnew HA]. assert (Aid : a_id ag = uid) by (now apply AO).
    assert (Fr : fresh_ok w) by exact (i_fresh _ _ _ _ _ _ I).
    destruct (update_cases m w uid ag w1 I AO G H1) as [[Epr ->]|(Npr & st & w2 & mv & Hst & -> & I2 & E2 & M)].
    - rewrite Hs in H. unfold advance, the_agent in H. rewrite G in H. cbn [of_option bind] in H. rewrite Hnew in H. injection H as <-.
      split; [now constructor|]. left. exists w. split; [now apply hext_efr, hext_refl|]. split; [reflexivity|]. split; [exact H1|]. now destruct w.
    - assert (Ea2 : w_agents w2 = w_agents w) by apply E2. assert (Es2 : w_simul w2 = false) by (rewrite <- Hs; apply E2). assert (Er2 : w_rss w2 = w_rss w) by apply E2.
      cbn [w_simul put_agent with_agents] in H. rewrite Es2 in H.
      set (w3 := put_agent w2 uid (agent_set_new mv ag)) in *.
      unfold advance, the_agent in H. unfold w3 at 1 in H. cbn [w_agents put_agent with_agents] in H. rewrite get_set_eq in H. cbn [of_option bind a_new agent_set_new] in H.
      destruct mv as [new|].
      + apply bind_ok in H as (w4 & H4 & H). injection H as <-. rewrite <- Aid in G, E2.
        destruct (move_staged m w ag st w2 new I G Hst HA I2 E2 M) as (Nal & Now' & Sg). rewrite Aid in G, E2, Sg.
        assert (GA : forall a, get (w_agents w3) a = if Nat.eqb a uid then Some (agent_set_new (Some new) ag) else get (w_agents w) a).
        { intros a. unfold w3. cbn [w_agents put_agent with_agents]. rewrite get_set, Ea2, (Nat.eqb_sym uid a). reflexivity. }
        assert (Eal : forall a id, al_of w a id = al_of w3 a id) by (intros a id; unfold al_of; rewrite GA; destruct (Nat.eqb_spec a uid); [subst a; now rewrite G | reflexivity]).
        assert (Eow : forall a id, ow_of w a id = ow_of w3 a id) by (intros a id; unfold ow_of; rewrite GA; destruct (Nat.eqb_spec a uid); [subst a; now rewrite G | reflexivity]).
        assert (I3 : Inv m (al_of w3) (ow_of w3) w3).
        { eapply Inv_ext; [exact Eal | exact Eow|]. eapply Inv_frame; [exact I2 | reflexivity.. | cbn; lia | exact (i_fresh _ _ _ _ _ _ I2) | reflexivity]. }
        assert (AO3 : agents_ok w3).
        { split; [unfold w3; cbn; apply NoDup_set; rewrite Ea2; apply AO|]. intros a g Gg. rewrite GA in Gg. destruct (Nat.eqb_spec a uid); [|now apply AO]. subst a. injection Gg as <-. cbn.
          split; [assumption|]. intros s0 Hs0. now apply (proj2 AO uid ag G). }
        assert (Sg3 : staged NP PVT w3 uid st new).
        { destruct Sg as [S1 S2 S3 S4]. constructor; assumption. }
        destruct (execute_inv O MP NP PVT NP_upd NP_private so so_perm m uid w3 w4 (agent_set_new (Some new) ag) st new I3 AO3 Es2) as [I4 X]; auto.
        { rewrite GA. now rewrite Nat.eqb_refl. }
        assert (X' : executed uid new ag w2 w4).
        { destruct X as [X1 X2 X3 X4 X5 X6 X7 X8 X9 X10]. constructor; auto.
          - rewrite X5. unfold w3. cbn [w_agents put_agent with_agents]. apply keys_set_in. apply get_Some_key. rewrite Ea2. eauto.
          - intros a Ne. specialize (X7 a Ne). rewrite GA, (proj2 (Nat.eqb_neq a uid)) in X7 by assumption. now rewrite Ea2.
          - intros a id v Ne J. apply X9 in J; [|assumption]. rewrite <- Eal in J. unfold al_of in *. now rewrite Ea2.
          - intros a id v Ne J. destruct (X10 a id v Ne) as [K|[K1 K2]]; [rewrite <- Eal; unfold al_of in *; now rewrite <- Ea2 | now left | right; split; [rewrite <- Eow in K1; unfold ow_of in *; now rewrite Ea2 | exact K2]]. }
        assert (Par : w_rss w4 = w_rss w /\ w_simul w4 = false).
        { destruct (x_par _ _ _ _ _ X') as (Y1 & Y2 & Y3 & Y4 & Y5 & _). split; congruence. }
        destruct Par as [Pr Ps]. split.
        * constructor.
          -- eapply Inv_ext; [reflexivity | reflexivity|]. eapply Inv_frame; [exact I4 | reflexivity.. | cbn; lia | exact (i_fresh _ _ _ _ _ _ I4) | reflexivity].
          -- exact (x_ok _ _ _ _ _ X').
          -- exact Ps.
          -- intros a g Gg. cbn [w_agents with_idle w_rss] in *. rewrite Pr. destruct (Nat.eq_dec a uid) as [->|Ne].
             ++ rewrite (x_self _ _ _ _ _ X') in Gg. injection Gg as <-. now split.
             ++ assert (Y := x_others _ _ _ _ _ X' a Ne). rewrite Ea2 in Y. destruct (get (w_agents w) a) as [g0|] eqn:E; [|congruence]. destruct Y as (g1 & Y1 & (Q1 & Q2 & Q3 & Q4 & Q5 & _)).
                rewrite Gg in Y1. injection Y1 as <-. rewrite Q3, Q5. now apply (Hn a g0).
        * right. exists ag, st, w2, new, w4. assert (hstat w2 w4) by (intros r p Gr; exact (execute_hstat so w3 uid w4 H4 r p Gr)). auto 12.
      + injection H as <-. assert (E3 : w3 = w2).
        { unfold w3. rewrite agent_eta by assumption. unfold put_agent. rewrite set_get_same by (rewrite Ea2; exact G). now destruct w2. }
        rewrite E3. split.
        * constructor; [eapply Inv_ext; [| |exact I2]; intros; unfold al_of, ow_of; now rewrite Ea2 | unfold agents_ok; now rewrite Ea2 | assumption |]. rewrite Ea2, Er2. exact Hn.
        * left. exists w2. split; [assumption|]. split; [assumption|]. split; [exact (eq_trans H1 (f_equal Ok E3))|]. now destruct w2.
  Qed.
End Step.
