(** The state invariant along simulations with one agent acting at a time (random and sequential activation), including phase changes. *)
From Coq Require Import ZArith List Bool Arith Lia Permutation.
From Verif Require Import Num Py Rewards SortedKeyList World Stakeholder Sched Sim Init Reach ListFacts SLFacts Greedy Inv Exec Eval Step.
Import ListNotations.
Open Scope nat_scope.

Section Phase.
  Context {A : Arith} (O : OrdLaws A).
  Implicit Types w : world A. Implicit Types p q : pool A.
  Notation num := (T A).
  Variable NP : rss A -> pool A -> Prop.
  Variable PVT : Prop.
  Notation Inv := (Inv NP PVT).
  Notation K1 := (fun p : pool A => Ok (pool_key p)).

  (** profit and desirability recomputed under another reward scheme *)
  Definition reprice (rs : rss A) (p p' : pool A) : Prop := exists p1, pool_set_profit rs p = Ok p1 /\ p' = pool_set_desirability p1.
  Lemma reprice_fields rs p p' : reprice rs p p' ->
    p_id p' = p_id p /\ p_cost p' = p_cost p /\ p_pledge p' = p_pledge p /\ p_stake p' = p_stake p /\ p_owner p' = p_owner p /\ p_private p' = p_private p /\
    p_delegators p' = p_delegators p /\ p_margin p' = p_margin p /\ potential_profit rs (p_pledge p) (p_cost p) = Ok (p_pp p') /\ p_des p' = desirability (p_margin p) (p_pp p').
  Proof. intros (p1 & H & ->). unfold pool_set_profit in H. inv_all. subst p1. cbn. repeat split; assumption. Qed.

  Lemma unrank_all m w0 : forall refs w w', w = with_rank (w_rank w) (with_rankm (w_rankm w) w0) ->
    rank_ok K1 (w_heap w0) m refs (w_rank w) -> rank_ok (pool_key_myopic (w_rss w0)) (w_heap w0) m refs (w_rankm w) -> NoDup refs ->
    foldM unrank_pool refs w = Ok w' ->
    w' = with_rank (w_rank w') (with_rankm (w_rankm w') w0) /\ rank_ok K1 (w_heap w0) m [] (w_rank w') /\ rank_ok (pool_key_myopic (w_rss w0)) (w_heap w0) m [] (w_rankm w').
  Proof.
    induction refs as [|r refs IH]; intros w w' E R1 R2 N H; cbn in H.
    - injection H as <-. auto.
    - apply bind_ok in H as (w1 & H1 & H). unfold unrank_pool in H1. apply bind_ok in H1 as (wa & Ha & Hb).
      unfold rank_remove in Ha. apply bind_ok in Ha as (p & Hp & Ha). apply bind_ok in Ha as (l & Hl & Ha). injection Ha as <-.
      unfold rankm_remove in Hb. apply bind_ok in Hb as (p' & Hp' & Hb). apply bind_ok in Hb as (k & Hk & Hb). apply bind_ok in Hb as (l' & Hl' & Hb). injection Hb as <-.
      apply NoDup_cons_iff in N as [N1 N2].
      destruct (rank_ok_remove _ _ _ _ _ _ _ _ R1 Hl) as (refs1 & P1 & R1'). destruct (rank_ok_remove _ _ _ _ _ _ _ _ R2 Hl') as (refs2 & P2 & R2').
      apply Permutation_cons_inv in P1, P2.
      eapply IH; [| | | exact N2 | exact H].
      + cbn. rewrite E. reflexivity.
      + cbn. eapply rank_ok_perm; [symmetry; exact P1 | exact R1'].
      + cbn. eapply rank_ok_perm; [symmetry; exact P2 | exact R2'].
  Qed.

  Lemma rerank_all m w0 : forall refs done w w', NoDup (done ++ refs) ->
    w = with_rank (w_rank w) (with_rankm (w_rankm w) (with_heap (w_heap w) w0)) ->
    rank_ok K1 (w_heap w) m done (w_rank w) -> rank_ok (pool_key_myopic (w_rss w0)) (w_heap w) m done (w_rankm w) ->
    (forall r, ~ In r done -> get (w_heap w) r = get (w_heap w0) r) ->
    (forall r, In r done -> exists p p', get (w_heap w0) r = Some p /\ get (w_heap w) r = Some p' /\ reprice (w_rss w0) p p') ->
    foldM rerank_pool refs w = Ok w' ->
    w' = with_rank (w_rank w') (with_rankm (w_rankm w') (with_heap (w_heap w') w0)) /\
    rank_ok K1 (w_heap w') m (rev refs ++ done) (w_rank w') /\ rank_ok (pool_key_myopic (w_rss w0)) (w_heap w') m (rev refs ++ done) (w_rankm w') /\
    (forall r, ~ In r (done ++ refs) -> get (w_heap w') r = get (w_heap w0) r) /\
    (forall r, In r (done ++ refs) -> exists p p', get (w_heap w0) r = Some p /\ get (w_heap w') r = Some p' /\ reprice (w_rss w0) p p').
  Proof.
    induction refs as [|r refs IH]; intros done w w' N E R1 R2 Hn Hd H; cbn in H.
    - injection H as <-. rewrite app_nil_r. cbn. auto 10.
    - apply bind_ok in H as (w1 & H1 & H). unfold rerank_pool in H1. apply bind_ok in H1 as (p & Hp & H1). unfold deref in Hp. apply of_option_ok in Hp.
      apply bind_ok in H1 as (p1 & Hp1 & H1). set (p2 := pool_set_desirability p1) in *. assert (Er : w_rss w = w_rss w0) by (rewrite E; reflexivity).
      apply bind_ok in H1 as (wa & Ha & Hb). unfold rank_add, deref in Ha. cbn [w_heap store with_heap] in Ha. rewrite get_set_eq in Ha. cbn [of_option bind] in Ha. injection Ha as <-.
      unfold rankm_add, deref in Hb. cbn [w_heap store with_heap with_rank w_rss w_rankm] in Hb. rewrite get_set_eq in Hb. cbn [of_option bind] in Hb. apply bind_ok in Hb as (k & Hk & Hb). injection Hb as <-.
      assert (Nr : ~ In r done). { intros J. eapply NoDup_remove_2 in N. apply N. apply in_app_iff. now left. }
      assert (N' : NoDup ((r :: done) ++ refs)). { cbn. eapply Permutation_NoDup; [|exact N]. symmetry. apply Permutation_middle. }
      assert (Fr : forall K r' q, In r' done -> get (w_heap w) r' = Some q -> exists q', get (set (w_heap w) r p2) r' = Some q' /\ K q' = (K q : res (key A))).
      { intros K r' q J G. exists q. rewrite get_set_ne; [now split|]. intros ->. contradiction. }
      eapply (IH (r :: done)) in H as (F1 & F2 & F3 & F4 & F5).
      + split; [exact F1|]. cbn [rev]. rewrite <- !app_assoc. cbn [app]. split; [exact F2|]. split; [exact F3|].
        assert (Eq : forall x, In x (done ++ r :: refs) <-> In x ((r :: done) ++ refs)) by (intros x; rewrite !in_app_iff; cbn; tauto).
        split; intros x; rewrite Eq; auto.
      + exact N'.
      + cbn. rewrite E. reflexivity.
      + cbn. eapply rank_ok_add; [exact O | | apply get_set_eq | reflexivity]. eapply rank_ok_frame; [|exact R1]. intros. now apply (Fr K1).
      + cbn. rewrite <- Er. eapply rank_ok_add; [exact O | | apply get_set_eq | exact Hk]. rewrite Er. eapply rank_ok_frame; [|exact R2]. intros. now apply (Fr (pool_key_myopic (w_rss w0))).
      + cbn. intros x J. rewrite get_set_ne by tauto. apply Hn. tauto.
      + cbn. intros x [<-|J].
        * exists p, p2. rewrite get_set_eq. rewrite <- Hn by assumption. split; [assumption|]. split; [reflexivity|]. exists p1. rewrite <- Er. now split.
        * rewrite get_set_ne by (intros ->; contradiction). now apply Hd.
  Qed.

  (** the pools of [w'] are those of [w], repriced *)
  Definition repriced (w w' : world A) : Prop :=
    w_agents w' = w_agents w /\ w_pools w' = w_pools w /\ w_next w' = w_next w /\ w_idseq w' = w_idseq w /\ w_idle w' = w_idle w /\ w_total w' = w_total w /\
    forall id r, get (w_pools w) id = Some r -> exists p p', get (w_heap w) r = Some p /\ get (w_heap w') r = Some p' /\ reprice (w_rss w') p p'.

  Lemma phase_inv m al ow w w1 w2 w3 : Inv m al ow w -> foldM unrank_pool (values (w_pools w)) w = Ok w1 ->
    w_agents w2 = w_agents w1 -> w_heap w2 = w_heap w1 -> w_pools w2 = w_pools w1 -> w_rank w2 = w_rank w1 -> w_rankm w2 = w_rankm w1 -> w_next w2 = w_next w1 ->
    w_idseq w2 = w_idseq w1 -> w_idle w2 = w_idle w1 -> w_total w2 = w_total w1 ->
    (forall p p', NP (w_rss w) p -> reprice (w_rss w2) p p' -> NP (w_rss w2) p') ->
    foldM rerank_pool (values (w_pools w2)) w2 = Ok w3 ->
    Inv m al ow w3 /\ repriced w w3 /\ w3 = with_rank (w_rank w3) (with_rankm (w_rankm w3) (with_heap (w_heap w3) w2)).
  Proof.
    intros I H1 Ea Eh Ep Ek Ekm En Es Ei Et HNP H3.
    assert (Nr := Inv_refs_nodup _ _ _ _ _ _ I).
    destruct (unrank_all m w (values (w_pools w)) w w1) as (E1 & U1 & U2); [now destruct w | apply I | apply I | assumption | assumption |].
    assert (Ew1 : w_agents w1 = w_agents w /\ w_heap w1 = w_heap w /\ w_pools w1 = w_pools w /\ w_next w1 = w_next w /\ w_idseq w1 = w_idseq w /\ w_idle w1 = w_idle w /\ w_total w1 = w_total w)
      by (rewrite E1; repeat split; reflexivity).
    destruct Ew1 as (Q1 & Q2 & Q3 & Q4 & Q5 & Q6 & Q7).
    assert (Fempty : forall K K' l, rank_ok K (w_heap w) m [] l -> rank_ok K' (w_heap w2) m [] l) by (intros K K' l R; eapply rank_ok_frame; [|exact R]; intros ? ? []).
    rewrite Ep, Q3 in H3.
    destruct (rerank_all m w2 (values (w_pools w)) [] w2 w3) as (F1 & F2 & F3 & F4 & F5); auto.
    { now destruct w2. }
    { rewrite Ek. eapply Fempty, U1. } { rewrite Ekm. eapply Fempty, U2. } { intros ? []. }
    rewrite app_nil_r in F2, F3. cbn [app] in F4, F5.
    assert (Ew3 : w_agents w3 = w_agents w2 /\ w_pools w3 = w_pools w2 /\ w_next w3 = w_next w2 /\ w_idseq w3 = w_idseq w2 /\ w_idle w3 = w_idle w2 /\ w_total w3 = w_total w2 /\ w_rss w3 = w_rss w2)
      by (rewrite F1; repeat split; reflexivity).
    destruct Ew3 as (S1 & S2 & S3 & S4 & S5 & S6 & S7).
    assert (Hr : forall id r, get (w_pools w) id = Some r -> exists p p', get (w_heap w) r = Some p /\ get (w_heap w3) r = Some p' /\ reprice (w_rss w3) p p').
    { intros id r G. destruct (F5 r) as (p & p' & J1 & J2 & J3); [eapply values_In; exact G|]. exists p, p'. rewrite <- Q2, <- Eh, S7. auto. }
    split; [|split; [|assumption]].
    - destruct I as [I1 I2 I3 I4 I5 I6 I7 I8]. constructor.
      + congruence.
      + intros r p G. rewrite S3, En, Q4. destruct (in_dec Nat.eq_dec r (values (w_pools w))) as [J|J].
        * destruct (F5 r J) as (q & q' & J1 & J2 & _). rewrite Eh, Q2 in J1. eapply I2; eassumption.
        * rewrite F4, Eh, Q2 in G by assumption. eapply I2; eassumption.
      + intros id r G. rewrite S2, Ep, Q3 in G. destruct (Hr id r G) as (p & p' & J1 & J2 & J3). destruct (I3 id r G) as (p0 & B1 & B2 & B3 & B4 & B5 & B6 & B7). rewrite J1 in B1. injection B1 as <-.
        exists p'. assert (J3' := J3). apply reprice_fields in J3' as (C1 & C2 & C3 & C4 & C5 & C6 & C7 & C8 & C9 & C10). rewrite C1, C5, C6, C7, S4, Es, Q5.
        repeat (split; [assumption|]). split; [|assumption]. rewrite S7. eapply HNP; [exact B6 | rewrite <- S7; exact J3].
      + intros a id r G. rewrite S2, Ep, Q3. destruct (I4 a id r G) as [B1 B2]. split; [assumption|]. intros p' G'. destruct (Hr id r B1) as (p & p2 & J1 & J2 & J3). rewrite G' in J2. injection J2 as <-.
        apply reprice_fields in J3 as (C1 & C2 & C3 & C4 & C5 & _). rewrite C5. now apply B2.
      + intros id r p' a v G G'. rewrite S2, Ep, Q3 in G. destruct (Hr id r G) as (p & p2 & J1 & J2 & J3). rewrite G' in J2. injection J2 as <-.
        apply reprice_fields in J3 as (C1 & C2 & C3 & C4 & C5 & C6 & C7 & _). rewrite C7. now apply (I5 id r).
      + intros a id v G. destruct (I6 a id v G) as (B0 & r & p & B1 & B2 & B3). split; [assumption|]. destruct (Hr id r B1) as (p0 & p' & J1 & J2 & J3). rewrite B2 in J1. injection J1 as <-.
        exists r, p'. rewrite S2, Ep, Q3. apply reprice_fields in J3 as (C1 & C2 & C3 & C4 & C5 & _). rewrite C5. auto.
      + rewrite S2, Ep, Q3. eapply rank_ok_perm; [|exact F2]. symmetry. apply Permutation_rev.
      + rewrite S2, Ep, Q3, S7. eapply rank_ok_perm; [|exact F3]. symmetry. apply Permutation_rev.
    - unfold repriced. rewrite S1, S2, S3, S4, S5, S6, Ea, Ep, En, Es, Ei, Et. repeat (split; [assumption|]). exact Hr.
  Qed.
End Phase.

(** what construction produces *)
Section InitShape.
  Context {A : Arith}.
  Notation num := (T A).

  Lemma apply_setting_shape (v : setting A) s s' : apply_setting v s = Ok s' ->
    s_c s' = s_c s /\ s_steps s' = s_steps s /\ s_cons s' = s_cons s /\ s_phase s' = s_phase s /\ s_eq s' = s_eq s /\ s_piv s' = s_piv s /\ s_running s' = s_running s /\
    s_rows s' = s_rows s /\ s_out s' = s_out s /\
    w_agents (s_w s') = w_agents (s_w s) /\ w_heap (s_w s') = w_heap (s_w s) /\ w_pools (s_w s') = w_pools (s_w s) /\ w_rank (s_w s') = w_rank (s_w s) /\
    w_rankm (s_w s') = w_rankm (s_w s) /\ w_next (s_w s') = w_next (s_w s) /\ w_idseq (s_w s') = w_idseq (s_w s) /\ w_idle (s_w s') = w_idle (s_w s) /\
    w_total (s_w s') = w_total (s_w s).
  Proof. destruct v; cbn; intros H; inv_all; try (injection H as <-); subst; cbn; repeat split; reflexivity. Qed.

  Lemma foldM_settings_shape : forall (vs : list (setting A)) s s', foldM (fun s v => apply_setting v s) vs s = Ok s' ->
    s_c s' = s_c s /\ s_steps s' = s_steps s /\ s_cons s' = s_cons s /\ s_phase s' = s_phase s /\ s_eq s' = s_eq s /\ s_piv s' = s_piv s /\ s_running s' = s_running s /\
    s_rows s' = s_rows s /\ s_out s' = s_out s /\
    w_agents (s_w s') = w_agents (s_w s) /\ w_heap (s_w s') = w_heap (s_w s) /\ w_pools (s_w s') = w_pools (s_w s) /\ w_rank (s_w s') = w_rank (s_w s) /\
    w_rankm (s_w s') = w_rankm (s_w s) /\ w_next (s_w s') = w_next (s_w s) /\ w_idseq (s_w s') = w_idseq (s_w s) /\ w_idle (s_w s') = w_idle (s_w s) /\
    w_total (s_w s') = w_total (s_w s).
  Proof.
    induction vs as [|v vs IH]; intros s s' H; cbn in H.
    - injection H as <-. repeat split.
    - apply bind_ok in H as (s1 & H1 & H2). apply apply_setting_shape in H1. apply IH in H2. decompose [and] H1. decompose [and] H2. repeat split; congruence.
  Qed.

  Lemma make_agents_spec n profiles stakes costs (d : dict (agent A)) : make_agents n profiles stakes costs = Ok d ->
    keys d = seq 0 (Z.to_nat n) /\ (forall a ag, get d a = Some ag -> exists p s c, ag = new_agent a p s c /\ In s stakes /\ nth_error stakes a = Some s /\ nth_error costs a = Some c /\ nth_error profiles a = Some p).
  Proof.
    intros H. unfold make_agents in H. revert H. assert (B : forall a, In a (seq 0 (Z.to_nat n)) -> a < Z.to_nat n) by (intros a J; apply in_seq in J; lia). revert B.
    generalize (seq 0 (Z.to_nat n)) as l. intros l _. revert d. induction l as [|i l IH]; intros d H; cbn in H.
    - injection H as <-. split; [reflexivity | discriminate].
    - apply bind_ok in H as (e & He & H). apply bind_ok in H as (d' & Hd & H). injection H as <-. specialize (IH _ Hd) as [K1 K2].
      apply bind_ok in He as (p & Hp & He). apply bind_ok in He as (s & Hs & He). apply bind_ok in He as (c & Hc & He). injection He as <-. cbn. split; [now f_equal|].
      intros a ag. destruct (Nat.eqb a i) eqn:Ei; [|apply K2]. apply Nat.eqb_eq in Ei as ->. intros [= <-].
      apply py_index_nth in Hp, Hs, Hc. exists p, s, c. split; [reflexivity|]. split; [eapply nth_error_In; eassumption|]. auto.
  Qed.

  (** same agents with other stakes *)
  Definition restaked (e e' : nat * agent A) : Prop := fst e' = fst e /\ exists s, snd e' = agent_set_stake s (snd e).
  Lemma restaked_refl d : Forall2 restaked d d.
  Proof. induction d as [|[i ag] d IH]; constructor; auto. split; [reflexivity|]. exists (a_stake ag). now destruct ag. Qed.
  Lemma restaked_keys d d' : Forall2 restaked d d' -> keys d' = keys d.
  Proof. induction 1 as [|e e' d d' [H _] _ IH]; [reflexivity|]. unfold keys in *. cbn. now f_equal. Qed.
  Lemma restaked_get d d' : Forall2 restaked d d' -> forall a ag, get d' a = Some ag -> exists ag0 s, get d a = Some ag0 /\ ag = agent_set_stake s ag0.
  Proof.
    induction 1 as [|[i x] [i' x'] d d' [H (s & H')] _ IH]; intros a ag; cbn in *; [discriminate|]. subst i'. destruct (Nat.eqb a i); [|apply IH]. intros [= <-]. eauto.
  Qed.
  Lemma add_to_last_restaked d x : Forall2 restaked d (add_to_last d x).
  Proof.
    unfold add_to_last. destruct (rev d) as [|[i ag] r] eqn:E; [apply restaked_refl|].
    assert (Ed : d = rev r ++ [(i, ag)]) by (rewrite <- (rev_involutive d), E; reflexivity). rewrite Ed. cbn [rev]. apply Forall2_app; [apply restaked_refl|].
    constructor; [|constructor]. split; [reflexivity|]. cbn. eauto.
  Qed.
  Lemma Forall2_restaked_trans d1 d2 d3 : Forall2 restaked d1 d2 -> Forall2 restaked d2 d3 -> Forall2 restaked d1 d3.
  Proof.
    intros H. revert d3. induction H as [|e1 e2 d1 d2 [H (s & H')] _ IH]; intros d3 H3; inversion H3; subst; constructor; auto.
    match goal with K : restaked _ _ |- _ => destruct K as [K1 (s' & K2)] end. split; [congruence|]. exists s'. rewrite K2, H'. reflexivity.
  Qed.
  Lemma normalize_restaked total d d' t : normalize total d = Ok (d', t) -> Forall2 restaked d d'.
  Proof.
    intros H. unfold normalize in H. apply bind_ok in H as (d1 & H1 & H).
    assert (F : Forall2 restaked d d1).
    { clear H. revert d1 H1. induction d as [|[i ag] d IH]; intros d1 H1; cbn in H1; [injection H1 as <-; constructor|].
      apply bind_ok in H1 as (e & He & H1). apply bind_ok in H1 as (d2 & H2 & H1). injection H1 as <-. apply bind_ok in He as (s & _ & He). injection He as <-.
      constructor; [split; cbn; eauto | auto]. }
    destruct (eqb _ _) in H; [|destruct d1; [discriminate|]]; injection H as <- _; [assumption|]. eapply Forall2_restaked_trans; [exact F | apply add_to_last_restaked].
  Qed.

  Lemma set_field_shape f (s s' : sim A) : set_field s f = Ok s' ->
    s_steps s' = s_steps s /\ (exists v s1, In v (phase_values f) /\ apply_setting v s = Ok s1 /\ s_w s' = s_w s1 /\ s_order s' = s_order s1 /\ s_maxit s' = s_maxit s1 /\ s_n s' = s_n s1) /\
    (c_multi (s_c s') = c_multi (s_c s) /\ c_phases (s_c s') = c_phases (s_c s) /\ (exists v, f = Single v) \/
     exists l, f = Multi l /\ c_multi (s_c s') = c_multi (s_c s) ++ [l] /\ c_phases (s_c s') = Nat.max (length l) (c_phases (s_c s))).
  Proof.
    unfold set_field. destruct f as [v|l]; intros H.
    - assert (S := apply_setting_shape _ _ _ H). decompose [and] S. split; [congruence|]. split; [exists v, s'; cbn; auto 10|]. left. split; [congruence|]. split; [congruence | eauto].
    - apply bind_ok in H as (v & Hv & H). apply bind_ok in H as (s1 & H1 & H). injection H as <-. assert (S := apply_setting_shape _ _ _ H1). decompose [and] S. cbn.
      split; [congruence|]. split; [exists v, s1; split; [eapply py_index_In; eassumption | auto 10]|]. right. exists l. split; [reflexivity|]. split; congruence.
  Qed.
End InitShape.

(** the branches of step() *)
Section StepCases.
  Context {A : Arith}.
  Definition idle_again (s : sim A) : sim A := set_w (with_idle true (s_w s)) s.
  Definition collected (s : sim A) : sim A := set_rows (s_rows s ++ [(s_steps s, s_w s)]) s.
  Definition after_round (s : sim A) (w : world A) : sim A := set_steps (S (s_steps s)) (set_w w (collected s)).
  Definition counted (s : sim A) (w : world A) : sim A := set_cons (S (s_cons s)) (after_round s w).
  Definition noted (s : sim A) (w : world A) : sim A := set_eq (s_eq s ++ [(Z.of_nat (s_steps s) - c_itac (s_c s))%Z]) (counted s w).
  Lemma sim_step_cases so ch (s s' : sim A) : sim_step so ch s = Ok s' ->
    ((s_maxit s <= Z.of_nat (s_steps s))%Z /\ s' = wrap_up (collected s)) \/
    ((Z.of_nat (s_steps s) < s_maxit s)%Z /\ exists w, schedule_step so (c_sched (s_c s)) ch (s_w s) = Ok w /\
      ((w_idle w = false /\ s' = idle_again (set_cons 0 (after_round s w))) \/
       (w_idle w = true /\ (Z.of_nat (S (s_cons s)) < c_itac (s_c s))%Z /\ s' = idle_again (counted s w)) \/
       (w_idle w = true /\ (c_itac (s_c s) <= Z.of_nat (S (s_cons s)))%Z /\ S (s_phase s) < c_phases (s_c s) /\ exists s4, change_phase (noted s w) = Ok s4 /\ s' = idle_again s4) \/
       (w_idle w = true /\ (c_itac (s_c s) <= Z.of_nat (S (s_cons s)))%Z /\ c_phases (s_c s) <= S (s_phase s) /\ s' = wrap_up (noted s w)))).
  Proof.
    unfold sim_step. fold (collected s). cbn [s_maxit set_rows s_steps s_c s_w collected]. destruct (Z.leb_spec (s_maxit s) (Z.of_nat (s_steps s))) as [L|L].
    - intros [= <-]. left. now split.
    - intros H. right. split; [assumption|]. apply bind_ok in H as (w & H1 & H). exists w. split; [exact H1|]. fold (after_round s w) in H. cbn [s_w after_round set_steps set_w] in H.
      destruct (w_idle w) eqn:Ei; [right|injection H as <-; left; now split].
      unfold has_converged in H. cbn [s_c set_cons after_round set_steps set_w collected set_rows s_cons] in H.
      destruct (Z.leb_spec (c_itac (s_c s)) (Z.of_nat (S (s_cons s)))) as [L2|L2]; [right | injection H as <-; left; auto].
      cbn [s_phase set_eq set_cons s_c after_round set_steps set_w collected set_rows] in H. destruct (Nat.ltb_spec (s_phase s) (c_phases (s_c s) - 1)) as [L3|L3].
      + left. split; [reflexivity|]. split; [assumption|]. split; [lia|]. apply bind_ok in H as (s4 & H4 & H). injection H as <-. exists s4. split; [exact H4 | reflexivity].
      + right. injection H as <-. split; [reflexivity|]. split; [assumption|]. split; [lia | reflexivity].
  Qed.
End StepCases.

Section SimGood.
  Context {A : Arith} (O : OrdLaws A) (MP : ltb (zero (a := A)) min_stake_unit = true).
  Variable so : list nat -> list nat -> list nat.
  Hypothesis so_perm : forall c l, Permutation (so c l) l.
  Implicit Types w : world A. Implicit Types p q : pool A. Implicit Types st new : strategy A. Implicit Types ag : agent A. Implicit Types s : sim A.
  Notation num := (T A).
  Variable NP : rss A -> pool A -> Prop.
  Variable PVT : Prop.
  Variable AG : rss A -> num -> Prop.
  Variable TG : num -> Prop.
  Hypothesis TG_d : forall mg pp, TG (add (desirability mg pp) boost).
  Hypothesis TG_z : TG (add zero boost) /\ TG (pmax (add zero boost) zero).
  Hypothesis TG_np : forall rs p y, NP rs p -> TG (pmax (add (p_des p) boost) y).
  Hypothesis NP_upd : forall rs p v a, NP rs p -> NoDup (keys (p_delegators p)) -> v = zero \/ ltb v min_stake_unit = false -> NP rs (update_delegation v a p).
  Hypothesis NP_private : PVT -> forall rs p, NP rs p -> NoDup (keys (p_delegators p)) -> ltb (p_pledge p) (p_stake p) = false ->
    (forall a v, get (p_delegators p) a = Some v -> ltb v min_stake_unit = false) -> p_delegators p = [].
  Hypothesis NP_made : forall rs stake cost phi n p pledge c, AG rs stake -> (1 <= n)%Z -> pledge_per_pool stake (r_thr rs) n = Ok pledge -> cost_per_pool n cost phi = Ok c ->
    priced TG rs pledge c p ->
    (p_stake p = pledge /\ p_delegators p = [] \/
     exists p0, NP rs p0 /\ NoDup (keys (p_delegators p0)) /\ p_stake p = sub (p_stake p0) (sub (p_pledge p0) pledge) /\ p_delegators p = p_delegators p0) -> NP rs p.
  (** reward schemes and phase parameters that may occur; [MULTI]: whether there may be several phases *)
  Variable RS : rss A -> Prop.
  Variable SOK : setting A -> Prop.
  Variable MULTI : Prop.
  Hypothesis SOK_k : forall rs x rs', RS rs -> SOK (SetK x) -> set_k rs x = Ok rs' -> RS rs'.
  Hypothesis SOK_a0 : forall rs x, RS rs -> SOK (SetA0 x) -> RS (set_a0 rs x).
  Hypothesis NP_phase : MULTI -> forall rs rs' p p', RS rs' -> NP rs p -> reprice rs' p p' -> NP rs' p'.
  Hypothesis AG_phase : MULTI -> forall rs rs' v, RS rs' -> AG rs v -> AG rs' v.
  (** further facts about states *)
  Variable m : nat.
  Variable X : world A -> Prop.
  Notation good := (good NP PVT AG).
  Hypothesis X_step : forall uid w w', RS (w_rss w) -> good m w -> X w -> agent_step so w uid = Ok w' -> good m w' -> step_idle so uid w w' \/ step_move so NP PVT TG m uid w w' -> X w'.
  Hypothesis X_phase : MULTI -> forall w w', good m w -> X w -> good m w' -> repriced w w' -> X w'.
  Hypothesis X_idle : forall w b, X w -> X (with_idle b w).

  Lemma good_idle w b : good m w -> good m (with_idle b w).
  Proof. intros [[I1 I2 I3 I4 I5 I6 I7 I8] G2 G3 G4]. constructor; [constructor | | |]; assumption. Qed.

  Lemma step_rss uid w w' : step_idle so uid w w' \/ step_move so NP PVT TG m uid w w' -> w_rss w' = w_rss w.
  Proof.
    intros [(w2 & E & _ & _ & ->)|(ag & st & w2 & new & w3 & _ & _ & _ & E & _ & X3 & _ & _ & ->)]; [apply E|].
    cbn. destruct (x_par _ _ _ _ _ X3) as [-> _]. apply E.
  Qed.

  Definition Z_ok w := good m w /\ X w /\ RS (w_rss w).
  Lemma do_event_ok w a w' : Z_ok w -> do_event so w (EStep a) = Ok w' -> Z_ok w'.
  Proof.
    intros (G & HX & HR) H. cbn in H.
    destruct (agent_step_good O MP so so_perm NP PVT AG TG TG_d TG_z TG_np NP_upd NP_private NP_made m w a w' G H) as [G' S].
    split; [assumption|]. split; [eapply X_step; eassumption|]. erewrite step_rss; eassumption.
  Qed.
  Definition only_steps (evs : list event) := Forall (fun e => exists a, e = EStep a) evs.
  Lemma events_ok evs : only_steps evs -> forall w w', Z_ok w -> foldM (do_event so) evs w = Ok w' -> Z_ok w'.
  Proof.
    induction 1 as [|e evs (a & ->) _ IH]; intros w w' Hz H; cbn -[do_event] in H; [now injection H as <-|].
    apply bind_ok in H as (w1 & H1 & H). eapply IH; [|exact H]. eapply do_event_ok; eassumption.
  Qed.
  Lemma round_only_steps o ch ks evs : one_by_one o -> round_events o ch ks = Ok evs -> only_steps evs.
  Proof.
    intros [-> | ->] H; cbn in H; injection H as <-; apply Forall_forall; intros e J; apply in_map_iff in J as (a & <- & _); eauto.
  Qed.

  Record simgood s : Prop := {
    sg_ok : Z_ok (s_w s);
    sg_sched : one_by_one (c_sched (s_c s));
    sg_multi : MULTI \/ c_phases (s_c s) <= 1;
    sg_settings : MULTI -> forall l v, In l (c_multi (s_c s)) -> In v l -> SOK v /\ forall o, v = SetOrder o -> one_by_one o
  }.

  Lemma apply_setting_ok v s s' : (SOK v /\ forall o, v = SetOrder o -> one_by_one o) -> apply_setting v s = Ok s' ->
    w_simul (s_w s) = false -> RS (w_rss (s_w s)) -> w_simul (s_w s') = false /\ RS (w_rss (s_w s')).
  Proof.
    intros [Hv Ho] H Hs HR. destruct v; cbn in H; inv_all; try injection H as <-; subst; cbn; auto.
    - split; [assumption|]. eapply SOK_k; eassumption.
    - destruct (Ho _ eq_refl) as [-> | ->]; auto.
  Qed.
  Lemma settings_ok vs : forall s s', (forall v, In v vs -> SOK v /\ forall o, v = SetOrder o -> one_by_one o) -> foldM (fun s v => apply_setting v s) vs s = Ok s' ->
    w_simul (s_w s) = false -> RS (w_rss (s_w s)) -> w_simul (s_w s') = false /\ RS (w_rss (s_w s')).
  Proof.
    induction vs as [|v vs IH]; intros s s' Hv H Hs HR; cbn in H; [injection H as <-; auto|].
    apply bind_ok in H as (s1 & H1 & H). apply apply_setting_ok in H1 as [Hs1 HR1]; auto; [|apply Hv; now left]. eapply IH; eauto. intros; apply Hv; now right.
  Qed.

  Lemma change_phase_repriced s s' : MULTI -> simgood s -> change_phase s = Ok s' ->
    s_c s' = s_c s /\ Z_ok (s_w s') /\ repriced (s_w s) (s_w s').
  Proof.
    intros HM [(G & HX & HR) Hsc Hmu Hse] H. unfold change_phase in H. apply bind_ok in H as (w1 & H1 & H). cbn [s_w set_phase s_phase s_c] in H1, H.
    set (vs := phase_settings (S (s_phase s)) (c_multi (s_c s))) in *.
    apply bind_ok in H as (s2 & H2 & H). apply bind_ok in H as (w2 & H3 & H). injection H as <-.
    assert (Hvs : forall v, In v vs -> SOK v /\ forall o, v = SetOrder o -> one_by_one o).
    { intros v J. unfold vs, phase_settings in J. apply in_flat_map in J as (l & J1 & J2). apply (Hse HM l); [assumption|]. destruct (nth_error l _) eqn:E; [|contradiction]. destruct J2 as [<-|[]]. eapply nth_error_In; eassumption. }
    destruct G as [I AO Hs Hn].
    assert (U : w1 = with_rank (w_rank w1) (with_rankm (w_rankm w1) (s_w s))).
    { destruct (unrank_all m (s_w s) (values (w_pools (s_w s))) (s_w s) w1) as (E1 & _); [now destruct (s_w s) | apply I | apply I | eapply Inv_refs_nodup; exact I | assumption | exact E1]. }
    assert (SH := foldM_settings_shape _ _ _ H2). cbn [s_w set_w s_c set_phase] in SH. decompose [and] SH. clear SH.
    assert (w_simul (s_w s2) = false /\ RS (w_rss (s_w s2))) as [Hs2 HR2].
    { eapply settings_ok; [exact Hvs | exact H2 | |]; cbn; rewrite U; assumption. }
    destruct (phase_inv O NP PVT m (al_of (s_w s)) (ow_of (s_w s)) (s_w s) w1 (s_w s2) w2) as (I3 & R3 & E3); auto.
    { intros p p' J1 J2. eapply NP_phase; eassumption. }
    match goal with |- s_c ?x = _ /\ _ => assert (Es : s_w x = w2) by (destruct vs; reflexivity); assert (Ec : s_c x = s_c s) by (destruct vs; assumption) end.
    rewrite Es, Ec. split; [reflexivity|].
    destruct R3 as (Q1 & R3). assert (Erss : w_rss w2 = w_rss (s_w s2)) by (rewrite E3; reflexivity). assert (Esim : w_simul w2 = false) by (rewrite E3; exact Hs2).
    assert (G3 : good m w2).
    { constructor; [|unfold agents_ok; rewrite Q1; exact AO | assumption | intros a ag Ga; rewrite Q1 in Ga; destruct (Hn a ag Ga) as [N1 N2]; split; [assumption | rewrite Erss; eapply AG_phase; eassumption]].
      eapply Inv_ext; [| |exact I3]; intros a id; unfold al_of, ow_of; now rewrite Q1. }
    split; [|split; assumption]. split; [exact G3|]. split; [|rewrite Erss; exact HR2].
    eapply X_phase; [assumption | constructor; eassumption | eassumption | exact G3 | split; assumption].
  Qed.

  Lemma sim_step_good ch s s' : simgood s -> sim_step so ch s = Ok s' -> simgood s'.
  Proof.
    intros G H. unfold sim_step in H. cbn [s_maxit set_rows s_steps s_c s_w] in H. match type of H with (if ?b then _ else _) = _ => destruct b end.
    - injection H as <-. destruct G. constructor; assumption.
    - apply bind_ok in H as (w & H1 & H). unfold schedule_step in H1. apply bind_ok in H1 as (evs & Hev & H1).
      assert (Z1 : Z_ok w). { eapply events_ok; [eapply round_only_steps; [apply G | exact Hev] | apply G | exact H1]. }
      set (s1 := set_steps (S (s_steps s)) (set_w w (set_rows (s_rows s ++ [(s_steps s, s_w s)]) s))) in *.
      assert (G1 : simgood s1) by (destruct G; constructor; [exact Z1 | assumption..]).
      assert (Gid : forall s b, simgood s -> simgood (set_w (with_idle b (s_w s)) s)).
      { intros t b [(T1 & T2 & T3) T4 T5 T6]. constructor; [|assumption..]. split; [now apply good_idle|]. split; [now apply X_idle | exact T3]. }
      match type of H with (if ?b then _ else _) = _ => destruct b end.
      + match type of H with (if ?b then _ else _) = _ => destruct b eqn:Ec end.
        * match type of H with (if ?b then _ else _) = _ => destruct b eqn:Ep end.
          -- apply bind_ok in H as (s4 & H4 & H). injection H as <-. apply Gid.
             assert (HM : MULTI). { apply Nat.ltb_lt in Ep. destruct (sg_multi _ G) as [M|M]; [assumption|]. cbn in Ep. lia. }
             match type of H4 with change_phase ?s3 = _ => assert (G3 : simgood s3) by (destruct G1; constructor; assumption) end.
             destruct (change_phase_repriced _ _ HM G3 H4) as (Ec' & Z4 & _). destruct G3. constructor; [assumption | rewrite Ec'; assumption..].
          -- injection H as <-. destruct G1. constructor; assumption.
        * injection H as <-. apply Gid. destruct G1; constructor; assumption.
      + injection H as <-. apply Gid. destruct G1; constructor; assumption.
  Qed.

  Theorem reach_good s0 s : simgood s0 -> reach so s0 s -> simgood s.
  Proof. intros G R. induction R; [assumption|]. eapply sim_step_good; eassumption. Qed.
  Theorem visible_good s0 w : simgood s0 -> visible so s0 w -> Z_ok w.
  Proof.
    intros G V. destruct V as [s R|s ch evs1 evs2 w R Hev H].
    - apply (reach_good s0 s G R).
    - assert (Gs := reach_good s0 s G R). eapply events_ok; [|apply Gs | exact H]. apply round_only_steps in Hev; [|apply Gs]. apply Forall_app in Hev. tauto.
  Qed.
End SimGood.

Section InitGood.
  Context {A : Arith} (O : OrdLaws A).
  Notation num := (T A).
  Implicit Types w : world A. Implicit Types s : sim A.

  (** the object right after construction *)
  Record fresh_sim (g : args A) (profiles : list profile) (stakes costs : list num) (s0 : sim A) : Prop := {
    fs_heap : w_heap (s_w s0) = []; fs_pools : w_pools (s_w s0) = []; fs_next : w_next (s_w s0) = 0; fs_idseq : w_idseq (s_w s0) = 0; fs_idle : w_idle (s_w s0) = true;
    fs_rank : w_rank (s_w s0) = repeat (key_none, None) (Z.to_nat (r_k (w_rss (s_w s0)) + 1));
    fs_rankm : w_rankm (s_w s0) = repeat (key_none, None) (Z.to_nat (r_k (w_rss (s_w s0)) + 1));
    fs_keys : keys (w_agents (s_w s0)) = seq 0 (Z.to_nat (s_n s0));
    fs_agents : forall a ag, get (w_agents (s_w s0)) a = Some ag -> exists x c p, ag = new_agent a p x c /\ nth_error costs a = Some c /\ nth_error profiles a = Some p;
    fs_order : w_simul (s_w s0) = is_simul (s_order s0) /\ c_sched (s_c s0) = s_order s0 /\ In (s_order s0) (phase_values (g_order g));
    fs_multi : forall l, In l (c_multi (s_c s0)) -> In (Multi l) (fields g);
    fs_phases : 1 <= c_phases (s_c s0) /\ (forall l, In l (c_multi (s_c s0)) -> length l <= c_phases (s_c s0)) /\ (c_multi (s_c s0) = [] -> c_phases (s_c s0) = 1);
    fs_maxit : In (s_maxit s0) (phase_values (g_maxit g));
    fs_start : s_steps s0 = 0 /\ s_cons s0 = 0 /\ s_phase s0 = 0 /\ s_eq s0 = [] /\ s_piv s0 = [] /\ s_running s0 = true /\ s_rows s0 = [] /\ s_out s0 = [] /\ c_itac (s_c s0) = g_itac g
  }.

  Lemma fields_fold : forall fs s s', foldM set_field fs s = Ok s' ->
    (forall l, In l (c_multi (s_c s')) -> In l (c_multi (s_c s)) \/ In (Multi l) fs) /\
    (1 <= c_phases (s_c s) -> (forall l, In l (c_multi (s_c s)) -> length l <= c_phases (s_c s)) -> 
       1 <= c_phases (s_c s') /\ (forall l, In l (c_multi (s_c s')) -> length l <= c_phases (s_c s'))) /\
    ((c_multi (s_c s) = [] -> c_phases (s_c s) = 1) -> (c_multi (s_c s') = [] -> c_phases (s_c s') = 1)).
  Proof.
    induction fs as [|f fs IH]; intros s s' H; cbn in H; [injection H as <-; auto|].
    apply bind_ok in H as (s1 & H1 & H). apply IH in H as (A1 & A2 & A3). apply set_field_shape in H1 as (_ & _ & [(B1 & B2 & v & B3)|(l & -> & B1 & B2)]).
    - rewrite B1, B2 in *. split; [|tauto]. intros l J. apply A1 in J as [J|J]; [tauto | right; now right].
    - rewrite B1, B2 in *. split; [|split].
      + intros l' J. apply A1 in J as [J|J]; [|right; now right]. apply in_app_iff in J as [J|[<-|[]]]; [now left | right; now left].
      + intros C1 C2. apply A2; [lia|]. intros l' J. apply in_app_iff in J as [J|[<-|[]]]; [specialize (C2 _ J)|]; lia.
      + intros _ E. apply A3 in E; [assumption|]. intros J. apply app_eq_nil in J as [_ J]. discriminate.
  Qed.

  Lemma init_fresh g profiles stakes costs s0 : init g profiles stakes costs = Ok s0 -> fresh_sim g profiles stakes costs s0.
  Proof.
    intros H. unfold init in H. apply bind_ok in H as (r0 & Hr & H). apply bind_ok in H as (s1 & Hs & H).
    apply bind_ok in H as (r1 & Hr1 & H). apply bind_ok in H as (ags & Ha & H). apply bind_ok in H as (total & Ht & H).
    match type of H with (if ?b then _ else _) = _ => destruct b end; [discriminate|]. apply bind_ok in H as ([ags' total'] & Hat & H). injection H as <-.
    destruct (make_agents_spec _ _ _ _ _ Ha) as [K1 K2].
    assert (F : Forall2 restaked ags ags').
    { destruct (eqb _ _) in Hat; [injection Hat as <- _; apply restaked_refl | eapply normalize_restaked; eassumption]. }
    assert (M := fields_fold _ _ _ Hs). destruct M as (M1 & M2 & M3). cbn [blank s_c c_multi c_phases] in M1, M2, M3.
    assert (Or : w_simul (s_w s1) = is_simul (s_order s1) /\ In (s_order s1) (phase_values (g_order g)) /\ In (s_maxit s1) (phase_values (g_maxit g))).
    { unfold fields in Hs. cbn [foldM] in Hs.
      repeat match type of Hs with (bind _ _ = _) => let s := fresh "t" in let E := fresh "E" in apply bind_ok in Hs as (s & E & Hs) end. injection Hs as <-.
      apply set_field_shape in E7 as (_ & (v7 & u7 & J7 & E7 & W7 & O7 & X7 & _) & _). apply set_field_shape in E6 as (_ & (v6 & u6 & J6 & E6 & W6 & O6 & X6 & _) & _).
      apply set_field_shape in E5 as (_ & (v5 & u5 & J5 & E5 & W5 & O5 & X5 & _) & _). apply set_field_shape in E4 as (_ & (v4 & u4 & J4 & E4 & W4 & O4 & X4 & _) & _).
      assert (PM : forall X Y (f : X -> Y) p v, In v (phase_values (pv_map f p)) -> exists x, v = f x /\ In x (phase_values p)).
      { intros X Y f [x|l] v; cbn; [intros [<-|[]]; exists x; auto|]. intros J. apply in_map_iff in J as (x & <- & J). eauto. }
      apply PM in J4 as (x4 & -> & J4). apply PM in J5 as (x5 & -> & J5). apply PM in J6 as (x6 & -> & J6). apply PM in J7 as (x7 & -> & J7). cbn in E4, E5, E6, E7.
      injection E4 as <-. injection E5 as <-. injection E6 as <-. injection E7 as <-. cbn in *. rewrite W7, O7, X7. cbn. rewrite W6, O6, X6. cbn. rewrite X5. cbn. rewrite X4. cbn. auto. }
    destruct Or as (Or1 & Or2 & Or3).
    constructor; cbn [s_w w_heap w_pools w_next w_idseq w_idle w_rank w_rankm w_agents s_n w_simul s_order s_c c_sched c_multi c_phases s_maxit s_steps s_cons s_phase s_eq s_piv s_running s_rows s_out c_itac w_rss]; auto.
    - rewrite (restaked_keys _ _ F). exact K1.
    - intros a ag G. destruct (restaked_get _ _ F a ag G) as (ag0 & x & G0 & ->). destruct (K2 a ag0 G0) as (p & s & c & -> & _ & _ & J1 & J2). exists x, c, p. split; [reflexivity|]. auto.
    - intros l J. apply M1 in J as [[]|J]. exact J.
    - split; [apply M2; auto; intros ? []|]. split; [apply M2; auto; intros ? []|]. intros E. now apply M3.
    - auto 10.
  Qed.

  Lemma rank_ok_nones (K : pool A -> res (key A)) h m : rank_ok K h m [] (repeat (key_none, None) m).
  Proof.
    split; [|split].
    - unfold sl_sorted. induction m as [|m IH]; cbn; [constructor|]. constructor; [assumption|]. apply Forall_forall. intros e J. apply repeat_spec in J as ->. apply (sw_irrefl (ent_sw A O)).
    - cbn. rewrite app_nil_r. unfold sl_elems. induction m as [|m IH]; cbn; [reflexivity | now constructor].
    - intros k e J. apply repeat_spec in J. injection J as -> ->. reflexivity.
  Qed.

  Lemma init_simgood g profiles stakes costs s0 NP PVT (AG : rss A -> num -> Prop) (RS : rss A -> Prop) (SOK : setting A -> Prop) (MULTI : Prop) (X : world A -> Prop) :
    init g profiles stakes costs = Ok s0 -> one_at_a_time g ->
    (forall a ag, get (w_agents (s_w s0)) a = Some ag -> AG (w_rss (s_w s0)) (a_stake ag)) -> RS (w_rss (s_w s0)) ->
    (MULTI \/ forall f, In f (fields g) -> exists v, f = Single v) -> (MULTI -> forall f v, In f (fields g) -> In v (phase_values f) -> SOK v) ->
    X (s_w s0) ->
    simgood NP PVT AG RS SOK MULTI (Z.to_nat (r_k (w_rss (s_w s0)) + 1)) X s0.
  Proof.
    intros H OT HAG HRS HM HS HX. apply init_fresh in H. destruct H as [F1 F2 F3 F4 F5 F6 F7 F8 F9 [F10 [F11 F12]] F13 F14 F15 _].
    assert (OB : one_by_one (s_order s0)). { unfold one_at_a_time in OT. rewrite Forall_forall in OT. now apply OT. }
    assert (NA : forall a ag st, get (w_agents (s_w s0)) a = Some ag -> a_strategy ag = Some st -> st = empty_strategy).
    { intros a ag st G S. destruct (F9 a ag G) as (s & c & p & -> & _). cbn in S. destruct p; congruence. }
    assert (AL : forall a id, al_of (s_w s0) a id = None). { intros a id. unfold al_of. destruct (get (w_agents (s_w s0)) a) as [ag|] eqn:G; [|reflexivity]. destruct (a_strategy ag) as [st|] eqn:S; [|reflexivity]. now rewrite (NA a ag st G S). }
    assert (OW : forall a id, ow_of (s_w s0) a id = None). { intros a id. unfold ow_of. destruct (get (w_agents (s_w s0)) a) as [ag|] eqn:G; [|reflexivity]. destruct (a_strategy ag) as [st|] eqn:S; [|reflexivity]. now rewrite (NA a ag st G S). }
    constructor.
    - split; [|split; assumption]. constructor.
      + constructor.
        * rewrite F2. constructor.
        * rewrite F1. discriminate.
        * rewrite F2. discriminate.
        * intros a id r. rewrite OW. discriminate.
        * rewrite F2. discriminate.
        * intros a id v. rewrite AL. discriminate.
        * rewrite F2, F6. apply rank_ok_nones.
        * rewrite F2, F7. apply rank_ok_nones.
      + split; [rewrite F8; apply seq_NoDup|]. intros a ag G. destruct (F9 a ag G) as (s & c & p & E & _). split; [now rewrite E|]. intros st S. rewrite (NA a ag st G S). split; constructor.
      + rewrite F10. destruct OB as [-> | ->]; reflexivity.
      + intros a ag G. split; [|now apply (HAG a)]. destruct (F9 a ag G) as (s & c & p & -> & _). reflexivity.
    - now rewrite F11.
    - destruct HM as [HM|HM]; [now left|]. right. destruct F14 as (_ & _ & F14). rewrite F14; [lia|]. destruct (c_multi (s_c s0)) as [|l ls] eqn:E; [reflexivity|].
      destruct (HM (Multi l)) as (v & J); [apply F13; now left | discriminate].
    - intros M l v J1 J2. apply F13 in J1. split; [now apply (HS M (Multi l))|]. intros o ->. unfold fields in J1.
      unfold one_at_a_time in OT. rewrite Forall_forall in OT. apply OT.
      assert (PM : forall X (f : X -> setting A) p, Multi l = pv_map f p -> exists x, SetOrder o = f x /\ In x (phase_values p)).
      { intros X' f [x|l'] E; [discriminate|]. injection E as ->. apply in_map_iff in J2 as (x & E & J2). cbn. eauto. }
      cbn [In] in J1. repeat (destruct J1 as [J1|J1]; [symmetry in J1; apply PM in J1; destruct J1 as (x & E & J3); first [discriminate | now injection E as ->]|]). destruct J1.
  Qed.
End InitGood.
