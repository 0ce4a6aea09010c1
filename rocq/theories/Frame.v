(** What activations leave alone, for arbitrary states and activation orders: the parameters, the agents and, unless a move is executed, their strategies. *)
From Coq Require Import ZArith List Bool Arith Lia Permutation.
From Verif Require Import Num Py Rewards SortedKeyList World Stakeholder Sched Sim ListFacts Eval.
Import ListNotations.
Open Scope nat_scope.

Definition params {A} (w : world A) := (w_rss w, w_rel w, w_abs w, w_phi w, w_simul w, w_total w).
(** who plays what *)
Definition strategies {A} (w : world A) : list (nat * option (strategy A)) := map (fun e => (fst e, a_strategy (snd e))) (w_agents w).
Definition set_new_only {A} (ag ag' : agent A) : Prop := exists new, ag' = agent_set_new new ag.

Section Frame.
  Context {A : Arith}.
  Implicit Types w : world A.
  Notation num := (T A).
  (** nothing but the heap, the rankings and the identifiers changes *)
  Definition calm w w' : Prop := params w' = params w /\ w_agents w' = w_agents w /\ w_pools w' = w_pools w /\ w_idle w' = w_idle w.
  (** the parameters and the set of agents do not change *)
  Definition env w w' : Prop := params w' = params w /\ keys (w_agents w') = keys (w_agents w) /\ w_idle w' = w_idle w.
  Lemma calm_refl w : calm w w.  Proof. repeat split. Qed.
  Lemma calm_trans w w1 w2 : calm w w1 -> calm w1 w2 -> calm w w2.
  Proof. intros (?&?&?&?) (?&?&?&?). repeat split; congruence. Qed.
  Lemma env_refl w : env w w.  Proof. repeat split. Qed.
  Lemma env_trans w w1 w2 : env w w1 -> env w1 w2 -> env w w2.
  Proof. intros (?&?&?) (?&?&?). repeat split; congruence. Qed.
  Lemma calm_env w w' : calm w w' -> env w w'.
  Proof. intros (?&H&?&?). repeat split; auto. now rewrite H. Qed.

  Section Rel.
    Variable R : world A -> world A -> Prop.
    Hypothesis R_refl : forall w, R w w.
    Hypothesis R_trans : forall w w1 w2, R w w1 -> R w1 w2 -> R w w2.
    Lemma rel_foldM {B X} (pr : X -> world A) (f : X -> B -> res X) l : (forall x b x', f x b = Ok x' -> R (pr x) (pr x')) -> forall x x', foldM f l x = Ok x' -> R (pr x) (pr x').
    Proof. intros H. induction l as [|b l IH]; intros x x' E; cbn in E; [injection E as <-; apply R_refl|]. apply bind_ok in E as (x1 & E1 & E). eauto. Qed.
  End Rel.

  Lemma ra_calm w r w' : rank_add w r = Ok w' -> calm w w'.  Proof. unfold rank_add. intros H. inv_all. subst. repeat split. Qed.
  Lemma rr_calm w r w' : rank_remove w r = Ok w' -> calm w w'.  Proof. unfold rank_remove. intros H. inv_all. subst. repeat split. Qed.
  Lemma rma_calm w r w' : rankm_add w r = Ok w' -> calm w w'.  Proof. unfold rankm_add. intros H. inv_all. subst. repeat split. Qed.
  Lemma rmr_calm w r w' : rankm_remove w r = Ok w' -> calm w w'.  Proof. unfold rankm_remove. intros H. inv_all. subst. repeat split. Qed.
  Lemma store_calm w r p : calm w (store w r p).  Proof. repeat split. Qed.
  Lemma touch_calm uid w id v w' : touch_delegation uid w id v = Ok w' -> calm w w'.
  Proof.
    unfold touch_delegation. intros H. apply bind_ok in H as (r & _ & H). apply bind_ok in H as (w1 & H1 & H). apply bind_ok in H as (p & _ & H).
    apply rmr_calm in H1. apply rma_calm in H. eapply calm_trans; [exact H1|]. eapply calm_trans; [|exact H]. apply store_calm.
  Qed.
  Lemma sa_calm w ag s w' d : stake_allocations w ag s = Ok (w', d) -> calm w w'.
  Proof.
    unfold stake_allocations. intros H. apply bind_ok in H as (rk & _ & H). apply bind_ok in H as (el & _ & H). destruct el; [injection H as <- _; apply calm_refl|].
    apply bind_ok in H as (st & _ & H). apply bind_ok in H as (w1 & H1 & H). apply bind_ok in H as (ps & _ & H). apply bind_ok in H as (w2 & H2 & H). injection H as <- _.
    eapply calm_trans; [exact (rel_foldM calm calm_refl calm_trans (fun w => w) _ _ (fun x b x' => touch_calm _ _ _ _ _) _ _ H1) | exact (rel_foldM calm calm_refl calm_trans (fun w => w) _ _ (fun x b x' => touch_calm _ _ _ _ _) _ _ H2)].
  Qed.
  Lemma fdm_calm w ag s w' st : find_delegation_move w ag s = Ok (w', st) -> calm w w'.
  Proof. unfold find_delegation_move. destruct (ltb _ _); [intros [= <- _]; apply calm_refl|]. intros H. apply bind_ok in H as ([w1 d] & H1 & H). injection H as <- _. eapply sa_calm; eassumption. Qed.
  Lemma fdo_calm w ag s w' d : find_delegation_for_operator w ag s = Ok (w', d) -> calm w w'.
  Proof. unfold find_delegation_for_operator. cbv zeta. destruct (ltb _ _); [|intros [= <- _]; apply calm_refl]. intros H. apply bind_ok in H as ([w1 st] & H1 & H). injection H as <- _. eapply fdm_calm; eassumption. Qed.
  Lemma alloc_calm w p : calm w (fst (alloc w p)).  Proof. repeat split. Qed.
  Lemma keep_calm so w ag n w' d : pools_to_keep so w ag n = Ok (w', d) -> calm w w'.
  Proof.
    unfold pools_to_keep. intros H. apply bind_ok in H as (st & _ & H). 
    assert (C : forall todo, foldM (fun acc e => let '(w, d) := acc in let '(id, r) := e in let! wr := deepcopy w r in let '(w', r') := wr in Ok (w', set d id r')) todo (w, []) = Ok (w', d) -> calm w w').
    { intros todo E. apply (rel_foldM calm calm_refl calm_trans fst) in E; [exact E|]. intros [x dx] [id r] [x' dx'] E'. unfold deepcopy in E'. apply bind_ok in E' as ([w2 r2] & Ea & E'). apply bind_ok in Ea as (p & _ & Ea). injection E' as <- _. injection Ea as <- _. repeat split. }
    destruct (Z.ltb _ _); [|eapply C; exact H]. apply bind_ok in H as (ps & _ & H). apply bind_ok in H as (todo & _ & H). eapply C; exact H.
  Qed.
  Lemma fom_calm w ag n o l w' st : find_operator_move w ag n o l = Ok (w', st) -> calm w w'.
  Proof.
    unfold find_operator_move. intros H. apply bind_ok in H as (pl & _ & H). apply bind_ok in H as (c & _ & H). apply bind_ok in H as ([w1 i] & H1 & H). cbn [fst] in H.
    apply bind_ok in H as ([w2 o'] & H2 & H). apply bind_ok in H as ([w3 al] & H3 & H). injection H as <- _.
    apply (rel_foldM calm calm_refl calm_trans fst) in H1; [|intros [x dx] e [x' dx'] E; inv_all; cbn in *; subst; apply store_calm].
    apply (rel_foldM calm calm_refl calm_trans fst) in H2.
    - apply fdo_calm in H3. eapply calm_trans; [exact H1|]. eapply calm_trans; [exact H2 | exact H3].
    - intros [x dx] e [x' dx'] E. unfold next_pool_id in E. apply bind_ok in E as (p & _ & E). unfold alloc in E. injection E as <- _. repeat split.
  Qed.
  Lemma choose_calm so w ag w' v st : choose_pool_strategy so w ag = Ok (w', v, st) -> calm w w'.
  Proof.
    unfold choose_pool_strategy. cbv zeta. intros H. apply bind_ok in H as ([t ms] & _ & H). destruct (Z.ltb _ _); [|injection H as <- _ _; apply calm_refl].
    apply bind_ok in H as ([w1 d] & H1 & H). apply bind_ok in H as ([w2 s] & H2 & H). apply bind_ok in H as (u & _ & H). injection H as <- _ _.
    eapply calm_trans; [eapply keep_calm; eassumption | eapply fom_calm; eassumption].
  Qed.

  (** deciding on a move changes no strategy *)
  Lemma set_same {V} (d : dict V) k v x (f : V -> x) : (forall v0, get d k = Some v0 -> f v = f v0) -> get d k <> None -> map (fun e => (fst e, f (snd e))) (set d k v) = map (fun e => (fst e, f (snd e))) d.
  Proof.
    induction d as [|[k' v'] d IH]; cbn; intros H N; [congruence|]. destruct (Nat.eqb_spec k k') as [->|Ne]; cbn; [now rewrite (H v' eq_refl)|]. now rewrite IH.
  Qed.
  Lemma keys_strategies w w' : strategies w' = strategies w -> keys (w_agents w') = keys (w_agents w).
  Proof. unfold strategies, keys. intros H. apply (f_equal (map fst)) in H. rewrite !map_map in H. exact H. Qed.
  Lemma update_frame so w uid w' : update_strategy so w uid = Ok w' ->
    params w' = params w /\ strategies w' = strategies w /\ w_pools w' = w_pools w /\ w_idle w' = w_idle w /\
    (forall a, a <> uid -> get (w_agents w') a = get (w_agents w) a) /\
    (forall ag, get (w_agents w) uid = Some ag -> exists new, get (w_agents w') uid = Some (agent_set_new new ag)).
  Proof.
    intros H. unfold update_strategy, the_agent in H. destruct (get (w_agents w) uid) as [ag|] eqn:G; [|discriminate]. cbn [of_option bind] in H.
    assert (Ab : forall w2, w2 = w -> params w2 = params w /\ strategies w2 = strategies w /\ w_pools w2 = w_pools w /\ w_idle w2 = w_idle w /\
      (forall a, a <> uid -> get (w_agents w2) a = get (w_agents w) a) /\ (forall ag0, Some ag = Some ag0 -> exists new, get (w_agents w2) uid = Some (agent_set_new new ag0))).
    { intros w2 ->. repeat (split; [reflexivity || auto|]). intros ag0 [= <-]. exists (a_new ag). rewrite G. now destruct ag. }
    destruct (a_profile ag); [| |injection H as <-; auto].
    all: apply bind_ok in H as (st & _ & H); apply bind_ok in H as (cu & _ & H); apply bind_ok in H as (eu & _ & H); apply bind_ok in H as ([w1 ds] & H1 & H);
      apply bind_ok in H as (du & _ & H); apply bind_ok in H as ([[w2 ou] os] & H2 & H); injection H as <-; apply fdm_calm in H1; apply choose_calm in H2;
      destruct (calm_trans _ _ _ H1 H2) as (P1 & P2 & P3 & P4); unfold strategies, put_agent; cbn [w_agents with_agents w_pools w_idle];
      (split; [exact P1|]); (split; [rewrite <- P2; apply set_same; [intros v0; rewrite P2, G; now intros [= <-] | rewrite P2; congruence]|]); (split; [exact P3|]); (split; [exact P4|]);
      (split; [intros a Na; rewrite P2; apply get_set_ne; congruence | intros ag0 [= <-]; eexists; now apply get_set_eq]).
  Qed.

  Lemma keys_put w a ag ag' : get (w_agents w) a = Some ag -> keys (w_agents (put_agent w a ag')) = keys (w_agents w).
  Proof.
    intros G. unfold put_agent, keys. cbn. revert G. induction (w_agents w) as [|[k v] d IH]; cbn; [discriminate|]. destruct (Nat.eqb_spec a k) as [->|Ne]; cbn; intros G; [reflexivity | now rewrite IH].
  Qed.
  Lemma rod_env r id w a w' : remove_one_delegation r id w a = Ok w' -> env w w'.
  Proof.
    unfold remove_one_delegation, the_agent. intros H. destruct (get (w_agents w) a) as [ag|] eqn:G; [|discriminate]. cbn [of_option bind] in H.
    apply bind_ok in H as (st & _ & H). apply bind_ok in H as (v & _ & H). cbv zeta in H. apply bind_ok in H as (p & _ & H). injection H as <-.
    split; [reflexivity|]. split; [|reflexivity]. cbn. exact (keys_put w a ag _ G).
  Qed.
  Lemma rd_env w r w' : remove_delegations w r = Ok w' -> env w w'.
  Proof.
    unfold remove_delegations. intros H. apply bind_ok in H as (p & _ & H). apply bind_ok in H as (w1 & H1 & H). injection H as <-.
    apply (rel_foldM env env_refl env_trans (fun w => w)) in H1; [|intros; eapply rod_env; eassumption]. destruct (w_simul w1); [|assumption].
    eapply env_trans; [exact H1|]. split; [reflexivity|]. split; [|reflexivity]. cbn. unfold keys. now rewrite map_map.
  Qed.
  Lemma close_env w id w' : close_pool w id = Ok w' -> env w w'.
  Proof.
    unfold close_pool. intros H. apply bind_ok in H as (r & _ & H). apply bind_ok in H as (w1 & H1 & H). apply bind_ok in H as (w2 & H2 & H). apply bind_ok in H as (w3 & H3 & H). injection H as <-.
    apply rr_calm, calm_env in H1. apply rmr_calm, calm_env in H2. apply rd_env in H3. eapply env_trans; [exact H1|]. eapply env_trans; [exact H2|]. eapply env_trans; [exact H3|]. repeat split.
  Qed.
  Lemma upool_env uid w id w' : update_pool uid w id = Ok w' -> env w w'.
  Proof.
    unfold update_pool. intros H. apply bind_ok in H as (ag & _ & H). apply bind_ok in H as (new & _ & H). apply bind_ok in H as (r & _ & H). apply bind_ok in H as (p & _ & H).
    apply bind_ok in H as (w1 & H1 & H). apply bind_ok in H as (ag2 & _ & H). apply bind_ok in H as (st & _ & H). apply bind_ok in H as (old & _ & H).
    apply bind_ok in H as (w3 & H3 & H). apply bind_ok in H as (w4 & H4 & H). apply bind_ok in H as (w5 & H5 & H). apply bind_ok in H as (w6 & H6 & H). injection H as <-.
    assert (E1 : env w w1) by (destruct (p_private p && _); [now apply rd_env in H1 | injection H1 as <-; apply env_refl]).
    apply rr_calm, calm_env in H3. apply ra_calm, calm_env in H4. apply rmr_calm, calm_env in H5. apply rma_calm, calm_env in H6.
    eapply env_trans; [exact E1|]. eapply env_trans; [|eapply env_trans; [exact H3|]]; [repeat split|]. eapply env_trans; [exact H4|]. eapply env_trans; [exact H5|]. eapply env_trans; [exact H6|]. repeat split.
  Qed.
  Lemma open_env uid w id w' : open_pool uid w id = Ok w' -> env w w'.
  Proof.
    unfold open_pool. intros H. apply bind_ok in H as (ag & _ & H). apply bind_ok in H as (st & _ & H). apply bind_ok in H as (r & _ & H). apply bind_ok in H as (w2 & H2 & H).
    apply ra_calm, calm_env in H2. apply rma_calm, calm_env in H. eapply env_trans; [|eapply env_trans; [exact H2 | exact H]]. repeat split.
  Qed.
  Lemma execute_env so w uid w' : execute_strategy so w uid = Ok w' -> env w w'.
  Proof.
    unfold execute_strategy. intros H. apply bind_ok in H as (ag & G & H). apply bind_ok in H as (old & _ & H). apply bind_ok in H as (new & _ & H).
    apply bind_ok in H as (w1 & H1 & H). apply bind_ok in H as (w2 & H2 & H). apply bind_ok in H as (w3 & H3 & H). apply bind_ok in H as (w4 & H4 & H). apply bind_ok in H as (ag4 & G4 & H).
    apply (rel_foldM env env_refl env_trans (fun w => w)) in H1; [|intros; eapply calm_env, touch_calm; eassumption].
    apply (rel_foldM env env_refl env_trans (fun w => w)) in H2; [|intros; eapply calm_env, touch_calm; eassumption].
    apply (rel_foldM env env_refl env_trans (fun w => w)) in H3; [|intros; eapply close_env; eassumption].
    apply (rel_foldM env env_refl env_trans (fun w => w)) in H4; [|intros; eapply upool_env; eassumption].
    apply (rel_foldM env env_refl env_trans (fun w => w)) in H; [|intros; eapply open_env; eassumption].
    eapply env_trans; [exact H1|]. eapply env_trans; [exact H2|]. eapply env_trans; [exact H3|]. eapply env_trans; [exact H4|]. eapply env_trans; [|exact H].
    unfold the_agent in G4. apply of_option_ok in G4. split; [reflexivity|]. split; [|reflexivity]. exact (keys_put w4 uid ag4 _ G4).
  Qed.

  (** one activation, by whatever scheduler *)
  Lemma advance_frame so w uid w' : advance so w uid = Ok w' ->
    params w' = params w /\ keys (w_agents w') = keys (w_agents w) /\ (w' = w \/ w_idle w' = false).
  Proof.
    unfold advance. intros H. apply bind_ok in H as (ag & _ & H). destruct (a_new ag); [|injection H as <-; auto].
    apply bind_ok in H as (w1 & H1 & H). injection H as <-. apply execute_env in H1 as (E1 & E2 & E3). split; [exact E1|]. split; [exact E2|]. now right.
  Qed.
  Theorem event_frame so w e w' : do_event so w e = Ok w' ->
    params w' = params w /\ keys (w_agents w') = keys (w_agents w) /\ (w_idle w' = true -> strategies w' = strategies w /\ w_idle w = true).
  Proof.
    destruct e as [a|a]; cbn; intros H.
    - unfold agent_step in H. apply bind_ok in H as (w1 & H1 & H). apply update_frame in H1 as (P1 & P2 & P3 & P4 & _). assert (P5 := keys_strategies _ _ P2). destruct (w_simul w1).
      + injection H as <-. split; [assumption|]. split; [assumption|]. intros E. split; [assumption | congruence].
      + apply advance_frame in H as (Q1 & Q2 & [->|Q3]).
        * split; [assumption|]. split; [assumption|]. intros E. split; [assumption | congruence].
        * split; [congruence|]. split; [congruence|]. congruence.
    - apply advance_frame in H as (Q1 & Q2 & [->|Q3]); (split; [assumption|]); (split; [assumption|]); [auto | congruence].
  Qed.
  Theorem events_frame so evs : forall w w', foldM (do_event so) evs w = Ok w' ->
    params w' = params w /\ keys (w_agents w') = keys (w_agents w) /\
    (w_idle w' = true -> forall evs1 evs2 w1, evs = evs1 ++ evs2 -> foldM (do_event so) evs1 w = Ok w1 -> strategies w1 = strategies w /\ w_idle w1 = true).
  Proof.
    induction evs as [|e evs IH]; intros w w' H; cbn -[do_event] in H.
    - injection H as <-. split; [reflexivity|]. split; [reflexivity|]. intros E [|e l] l2 w1 Ee H1; [|discriminate]. injection H1 as <-. auto.
    - apply bind_ok in H as (w1 & H1 & H). apply IH in H as (P1 & P2 & P3). assert (F := event_frame _ _ _ _ H1). destruct F as (Q1 & Q2 & Q3).
      split; [congruence|]. split; [congruence|]. intros E. specialize (P3 E). destruct (P3 [] evs w1 eq_refl eq_refl) as [_ I1]. destruct (Q3 I1) as [S1 I0].
      intros [|e' l] l2 w2 Ee H2; cbn -[do_event] in H2; [injection H2 as <-; auto|]. injection Ee as <- Ee. rewrite H1 in H2. cbn [bind] in H2.
      destruct (P3 l l2 w2 Ee H2) as [S2 I2]. split; [congruence | assumption].
  Qed.
End Frame.
