(** Two reward schemes that pay the same and have the same saturation thresholds lead to the same executions.
    [phi] replaces the reward scheme object of a state; everything agents do commutes with that. *)
From Coq Require Import ZArith List Bool Arith Lia.
From Verif Require Import Num Py Rewards SortedKeyList World Stakeholder Sched Sim ListFacts.
Import ListNotations.
Open Scope num_scope.

(** ** The reward scheme object never changes during a round *)
Section Keeps.
  Variable A : Arith.
  Variable so : list nat -> list nat -> list nat.
  Definition keeps (w w' : world A) : Prop := w_rss w' = w_rss w.

  Lemma foldM_keeps {X} (f : world A -> X -> res (world A)) l w w' : (forall w x w', f w x = Ok w' -> keeps w w') -> foldM f l w = Ok w' -> keeps w w'.
  Proof. intros H E. refine (foldM_inv f (keeps w) l w w' eq_refl _ E). intros a x a' _ K E'. apply H in E'. unfold keeps in *. congruence. Qed.
  Lemma foldM_keepsp {X Y} (f : world A * Y -> X -> res (world A * Y)) l w y wy : (forall w y x wy, f (w, y) x = Ok wy -> keeps w (fst wy)) -> foldM f l (w, y) = Ok wy -> keeps w (fst wy).
  Proof. intros H E. refine (foldM_inv f (fun a => keeps w (fst a)) l (w, y) wy eq_refl _ E). intros [a y'] x a' _ K E'. apply H in E'. unfold keeps in *. cbn [fst] in *. congruence. Qed.
  Ltac opens H := repeat (let x := fresh "x" in let E := fresh "E" in apply bind_ok in H as (x & E & H)).
  Lemma rank_add_keeps w r w' : rank_add w r = Ok w' -> keeps w w'.
  Proof. unfold rank_add. intros H. opens H. now injection H as <-. Qed.
  Lemma rank_remove_keeps w r w' : rank_remove w r = Ok w' -> keeps w w'.
  Proof. unfold rank_remove. intros H. opens H. now injection H as <-. Qed.
  Lemma rankm_add_keeps w r w' : rankm_add w r = Ok w' -> keeps w w'.
  Proof. unfold rankm_add. intros H. opens H. now injection H as <-. Qed.
  Lemma rankm_remove_keeps w r w' : rankm_remove w r = Ok w' -> keeps w w'.
  Proof. unfold rankm_remove. intros H. opens H. now injection H as <-. Qed.
  Lemma touch_keeps uid w id v w' : touch_delegation uid w id v = Ok w' -> keeps w w'.
  Proof. unfold touch_delegation. intros H. apply bind_ok in H as (r & _ & H). apply bind_ok in H as (w1 & E0 & H). apply bind_ok in H as (p & _ & H). apply rankm_add_keeps in H. apply rankm_remove_keeps in E0. unfold keeps in *. cbn [store with_heap w_rss] in H. congruence. Qed.
  Lemma allocations_keeps w ag s x : stake_allocations w ag s = Ok x -> keeps w (fst x).
  Proof.
    unfold stake_allocations. intros H. apply bind_ok in H as (rk & _ & H). apply bind_ok in H as (el & _ & H). destruct el; [injection H as <-; reflexivity|]. apply bind_ok in H as (st & _ & H). apply bind_ok in H as (w1 & E2 & H). apply bind_ok in H as (ps & _ & H). apply bind_ok in H as (w2 & E4 & H). injection H as <-. cbn [fst]. apply foldM_keeps in E4; [|intros; eapply touch_keeps; eassumption]. apply foldM_keeps in E2; [|intros; eapply touch_keeps; eassumption]. unfold keeps in *. congruence.
  Qed.
  Lemma delegation_keeps w ag s x : find_delegation_move w ag s = Ok x -> keeps w (fst x).
  Proof. unfold find_delegation_move. destruct (s <? min_stake_unit); [intros [= <-]; reflexivity|]. intros H. apply bind_ok in H as ([w1 al] & E & H). apply allocations_keeps in E. now injection H as <-. Qed.
  Lemma for_operator_keeps w ag t x : find_delegation_for_operator w ag t = Ok x -> keeps w (fst x).
  Proof. unfold find_delegation_for_operator. destruct (_ >? zero); [|intros [= <-]; reflexivity]. intros H. apply bind_ok in H as ([w1 al] & E & H). apply delegation_keeps in E. now injection H as <-. Qed.
  Lemma keep_keeps w ag n x : pools_to_keep so w ag n = Ok x -> keeps w (fst x).
  Proof.
    unfold pools_to_keep. intros H. apply bind_ok in H as (st & _ & H).
    assert (C : forall l w d x, foldM (fun (acc : world A * dict nat) (e : nat * nat) => let '(w, d) := acc in let '(id, r) := e in let! wr := deepcopy w r in let '(w', r') := wr in Ok (w', set d id r')) l (w, d) = Ok x -> keeps w (fst x)).
    { intros l v d y. apply foldM_keepsp. clear. intros w y [id r] wy H. apply bind_ok in H as ([v' r'] & E & H). injection H as <-. unfold deepcopy in E. apply bind_ok in E as (p & _ & E). injection E as <- _. reflexivity. }
    destruct (_ <? _)%Z; [|eapply C; exact H]. apply bind_ok in H as (ps & _ & H). apply bind_ok in H as (td & _ & H). eapply C. exact H.
  Qed.
  Lemma operator_move_keeps w ag n o ms x : find_operator_move w ag n o ms = Ok x -> keeps w (fst x).
  Proof.
    unfold find_operator_move. intros H. apply bind_ok in H as (pl & _ & H). apply bind_ok in H as (c & _ & H). apply bind_ok in H as (wi & E1 & H). apply bind_ok in H as ([w2 o2] & E2 & H). apply bind_ok in H as ([w3 al] & E3 & H). injection H as <-. cbn [fst].
    apply foldM_keepsp in E1. 2:{ clear. intros w y x wy H. opens H. injection H as <-. reflexivity. }
    apply foldM_keepsp in E2. 2:{ clear. intros w y x wy H. cbn [next_pool_id] in H. apply bind_ok in H as (p & _ & H). injection H as <-. reflexivity. }
    apply for_operator_keeps in E3. unfold keeps in *. cbn [fst] in *. congruence.
  Qed.
  Lemma choose_keeps w ag x : choose_pool_strategy so w ag = Ok x -> keeps w (fst (fst x)).
  Proof.
    unfold choose_pool_strategy. intros H. apply bind_ok in H as ([t ms] & _ & H). destruct (0 <? t)%Z; [|injection H as <-; reflexivity]. apply bind_ok in H as ([w1 o] & E1 & H). apply bind_ok in H as ([w2 st] & E2 & H). apply bind_ok in H as (u & _ & H). injection H as <-. cbn [fst].
    apply keep_keeps in E1. apply operator_move_keeps in E2. unfold keeps in *. cbn [fst] in *. congruence.
  Qed.
  Lemma update_keeps w uid w' : update_strategy so w uid = Ok w' -> keeps w w'.
  Proof.
    unfold update_strategy. intros H. apply bind_ok in H as (ag & _ & H). destruct (a_profile ag); [| |now injection H as <-].
    all: apply bind_ok in H as (st & _ & H); apply bind_ok in H as (cu & _ & H); apply bind_ok in H as (eu & _ & H); apply bind_ok in H as ([w1 ds] & E1 & H); apply bind_ok in H as (du & _ & H); apply bind_ok in H as ([[w2 ou] os] & E2 & H); injection H as <-; apply delegation_keeps in E1; apply choose_keeps in E2; unfold keeps in *; cbn [fst put_agent with_agents w_rss] in *; congruence.
  Qed.
  Lemma remove_one_keeps r id w a w' : remove_one_delegation r id w a = Ok w' -> keeps w w'.
  Proof. unfold remove_one_delegation. intros H. opens H. now injection H as <-. Qed.
  Lemma remove_delegations_keeps w r w' : remove_delegations w r = Ok w' -> keeps w w'.
  Proof. unfold remove_delegations. intros H. apply bind_ok in H as (p & _ & H). apply bind_ok in H as (w1 & E & H). injection H as <-. apply foldM_keeps in E; [|intros; eapply remove_one_keeps; eassumption]. destruct (w_simul w1); assumption. Qed.
  Lemma close_keeps w id w' : close_pool w id = Ok w' -> keeps w w'.
  Proof. unfold close_pool. intros H. apply bind_ok in H as (r & _ & H). apply bind_ok in H as (w1 & E0 & H). apply bind_ok in H as (w2 & E1 & H). apply bind_ok in H as (w3 & E2 & H). injection H as <-. apply rank_remove_keeps in E0. apply rankm_remove_keeps in E1. apply remove_delegations_keeps in E2. unfold keeps in *. cbn [with_pools w_rss]. congruence. Qed.
  Lemma update_pool_keeps uid w id w' : update_pool uid w id = Ok w' -> keeps w w'.
  Proof.
    unfold update_pool. intros H. apply bind_ok in H as (ag & _ & H). apply bind_ok in H as (nw & _ & H). apply bind_ok in H as (r & _ & H). apply bind_ok in H as (p & _ & H). apply bind_ok in H as (w1 & E1 & H). apply bind_ok in H as (ag2 & _ & H). apply bind_ok in H as (st & _ & H). apply bind_ok in H as (old & _ & H).
    apply bind_ok in H as (w3 & E3 & H). apply bind_ok in H as (w4 & E4 & H). apply bind_ok in H as (w5 & E5 & H). apply bind_ok in H as (w6 & E6 & H). injection H as <-. apply rank_remove_keeps in E3. apply rank_add_keeps in E4. apply rankm_remove_keeps in E5. apply rankm_add_keeps in E6.
    assert (K : keeps w w1) by (destruct (_ && _); [now apply remove_delegations_keeps in E1 | now injection E1 as <-]). unfold keeps in *. cbn [with_pools w_rss] in *. congruence.
  Qed.
  Lemma open_keeps uid w id w' : open_pool uid w id = Ok w' -> keeps w w'.
  Proof. unfold open_pool. intros H. apply bind_ok in H as (ag & _ & H). apply bind_ok in H as (st & _ & H). apply bind_ok in H as (r & _ & H). apply bind_ok in H as (w2 & E & H). apply rank_add_keeps in E. apply rankm_add_keeps in H. unfold keeps in *. cbn [with_pools w_rss] in *. congruence. Qed.
  Lemma execute_keeps w uid w' : execute_strategy so w uid = Ok w' -> keeps w w'.
  Proof.
    unfold execute_strategy. intros H. apply bind_ok in H as (ag & _ & H). apply bind_ok in H as (old & _ & H). apply bind_ok in H as (nw & _ & H). apply bind_ok in H as (w1 & E1 & H). apply bind_ok in H as (w2 & E2 & H). apply bind_ok in H as (w3 & E3 & H). apply bind_ok in H as (w4 & E4 & H). apply bind_ok in H as (ag4 & _ & H).
    apply foldM_keeps in E1; [|intros; eapply touch_keeps; eassumption]. apply foldM_keeps in E2; [|intros; eapply touch_keeps; eassumption]. apply foldM_keeps in E3; [|intros; eapply close_keeps; eassumption]. apply foldM_keeps in E4; [|intros; eapply update_pool_keeps; eassumption]. apply foldM_keeps in H; [|intros; eapply open_keeps; eassumption].
    unfold keeps in *. cbn [put_agent with_agents w_rss] in *. congruence.
  Qed.
  Lemma advance_keeps w uid w' : advance so w uid = Ok w' -> keeps w w'.
  Proof. unfold advance. intros H. apply bind_ok in H as (ag & _ & H). destruct (a_new ag); [|now injection H as <-]. apply bind_ok in H as (w1 & E & H). injection H as <-. now apply execute_keeps in E. Qed.
  Lemma event_keeps w e w' : do_event so w e = Ok w' -> keeps w w'.
  Proof.
    destruct e; cbn; [|apply advance_keeps]. unfold agent_step. intros H. apply bind_ok in H as (w1 & E & H). apply update_keeps in E. destruct (w_simul w1); [now injection H as <-|]. apply advance_keeps in H. unfold keeps in *. congruence.
  Qed.
  Lemma schedule_keeps o ch w w' : schedule_step so o ch w = Ok w' -> keeps w w'.
  Proof. unfold schedule_step. intros H. apply bind_ok in H as (evs & _ & H). revert H. apply foldM_keeps. intros; eapply event_keeps; eassumption. Qed.
  Lemma unrank_keeps w r w' : unrank_pool w r = Ok w' -> keeps w w'.
  Proof. unfold unrank_pool. intros H. apply bind_ok in H as (w1 & E & H). apply rank_remove_keeps in E. apply rankm_remove_keeps in H. unfold keeps in *. congruence. Qed.
  Lemma rerank_keeps w r w' : rerank_pool w r = Ok w' -> keeps w w'.
  Proof. unfold rerank_pool. intros H. apply bind_ok in H as (p & _ & H). apply bind_ok in H as (p1 & _ & H). apply bind_ok in H as (w1 & E & H). apply rank_add_keeps in E. apply rankm_add_keeps in H. unfold keeps in *. cbn [store with_heap w_rss] in *. congruence. Qed.
End Keeps.

Section Same.
  Variable A : Arith.
  Variable so : list nat -> list nat -> list nat.
  Variable phi : rss A -> rss A.
  Hypothesis same_k : forall r, r_k (phi r) = r_k r.
  Hypothesis same_thr : forall r, r_thr (phi r) = r_thr r.
  Hypothesis same_threshold : forall r p, pool_threshold (phi r) p = pool_threshold r p.
  Hypothesis same_reward : forall r p s, pool_reward (phi r) p s = pool_reward r p s.

  Definition sw (w : world A) : world A := with_rss (phi (w_rss w)) w.
  Definition lift (m : res (world A)) : res (world A) := let! w := m in Ok (sw w).
  Definition liftp {X} (m : res (world A * X)) : res (world A * X) := let! wx := m in Ok (sw (fst wx), snd wx).

  Lemma bind_cong {X Y} (m m' : res X) (k k' : X -> res Y) : m = m' -> (forall x, k x = k' x) -> bind m k = bind m' k'.
  Proof. intros <- H. destruct m; [apply H | reflexivity]. Qed.
  Lemma foldM_lift {X} (f : world A -> X -> res (world A)) l w : (forall w x, f (sw w) x = lift (f w x)) -> foldM f l (sw w) = lift (foldM f l w).
  Proof. intros H. revert w. induction l as [|x l IH]; intros w; [reflexivity|]. cbn. rewrite H. destruct (f w x) as [w'|]; [apply IH | reflexivity]. Qed.
  Lemma foldM_liftp {X Y} (f : world A * Y -> X -> res (world A * Y)) l w y : (forall w y x, f (sw w, y) x = liftp (f (w, y) x)) -> foldM f l (sw w, y) = liftp (foldM f l (w, y)).
  Proof. intros H. revert w y. induction l as [|x l IH]; intros w y; [reflexivity|]. cbn. rewrite H. destruct (f (w, y) x) as [[w' y']|]; [apply IH | reflexivity]. Qed.

  (** ** the formulas *)
  Lemma same_pp r p c : potential_profit (phi r) p c = potential_profit r p c.
  Proof. unfold potential_profit. now rewrite same_threshold, same_reward. Qed.
  Lemma same_cp r s p c : current_profit (phi r) s p c = current_profit r s p c.
  Proof. unfold current_profit. now rewrite same_reward. Qed.
  Lemma same_ou r s p m c : operator_utility (phi r) s p m c = operator_utility r s p m c.
  Proof. unfold operator_utility. now rewrite same_reward. Qed.
  Lemma same_du r a s p m c : delegator_utility (phi r) a s p m c = delegator_utility r a s p m c.
  Proof. unfold delegator_utility. now rewrite same_reward. Qed.
  Lemma same_set_profit r (p : pool A) : pool_set_profit (phi r) p = pool_set_profit r p.
  Proof. unfold pool_set_profit. now rewrite same_pp. Qed.
  Lemma same_new_pool i c p o r m b : new_pool (A := A) i c p o (phi r) m b = new_pool i c p o r m b.
  Proof. unfold new_pool. now rewrite same_pp. Qed.
  Lemma same_key_myopic r (p : pool A) : pool_key_myopic (phi r) p = pool_key_myopic r p.
  Proof. unfold pool_key_myopic. now rewrite same_cp. Qed.

  (** ** what agents compute *)
  Lemma same_nms w r rk : non_myopic_stake (sw w) r rk = non_myopic_stake w r rk.
  Proof.
    unfold non_myopic_stake. change (deref (sw w) r) with (deref w r). apply bind_cong; [reflexivity|]. intros p. apply bind_cong; [reflexivity|]. intros n. cbn [w_rss sw with_rss]. rewrite same_threshold.
    apply bind_cong; [|reflexivity]. apply mapM_ext. intros [x|] _; [|reflexivity]. change (deref (sw w) x) with (deref w x). destruct (deref w x); [|reflexivity]. cbn [bind]. now rewrite same_threshold.
  Qed.
  Lemma same_pou w s p : pool_operator_utility (sw w) s p = pool_operator_utility w s p.
  Proof. apply same_ou. Qed.
  Lemma same_op_utility w ag st : op_utility_strategy (sw w) ag st = op_utility_strategy w ag st.
  Proof.
    unfold op_utility_strategy. destruct (a_profile ag); [| |reflexivity].
    - apply bind_cong; [reflexivity|]. intros others. apply bind_cong; [reflexivity|]. intros t0. apply bind_cong; [reflexivity|]. intros t. apply foldM_ext. intros u r _. change (deref (sw w) r) with (deref w r). apply bind_cong; [reflexivity|]. intros p. rewrite same_nms. apply bind_cong; [reflexivity|]. intros s. now rewrite same_pou.
    - apply foldM_ext. intros u r _. change (deref (sw w) r) with (deref w r). apply bind_cong; [reflexivity|]. intros p. now rewrite same_pou.
  Qed.
  Lemma same_del_utility w ag r a : del_utility_pool (sw w) ag r a = del_utility_pool w ag r a.
  Proof.
    unfold del_utility_pool. destruct (a_profile ag); [| |reflexivity]; (apply bind_cong; [reflexivity|]; intros st; change (deref (sw w) r) with (deref w r); apply bind_cong; [reflexivity|]; intros p; change (w_rank (sw w)) with (w_rank w); rewrite ?same_nms; apply bind_cong; [reflexivity|]; intros s; apply same_du).
  Qed.
  Lemma same_current_utility w ag : current_utility (sw w) ag = current_utility w ag.
  Proof.
    unfold current_utility. apply bind_cong; [reflexivity|]. intros st. apply bind_cong.
    - apply foldM_ext. intros u r _. change (deref (sw w) r) with (deref w r). apply bind_cong; [reflexivity|]. intros p. now rewrite same_pou.
    - intros u. apply foldM_ext. intros u' [id a] _. change (the_pool (sw w) id) with (the_pool w id). apply bind_cong; [reflexivity|]. intros r. change (deref (sw w) r) with (deref w r). apply bind_cong; [reflexivity|]. intros p. cbn [w_rss sw with_rss]. now rewrite same_du.
  Qed.
  Lemma same_expected_utility w ag st : expected_utility (sw w) ag st = expected_utility w ag st.
  Proof.
    unfold expected_utility. apply bind_cong; [destruct (s_owned st); [reflexivity | now rewrite same_op_utility]|]. intros u. apply foldM_ext. intros u' [id a] _. change (w_pools (sw w)) with (w_pools w). destruct (get (w_pools w) id); [now rewrite same_del_utility | reflexivity].
  Qed.
  Lemma same_fixed w ag : fixed_pools_ranked (sw w) ag = fixed_pools_ranked w ag.
  Proof. reflexivity. Qed.
  Lemma same_margins w ag n : margins_and_utility (sw w) ag n = margins_and_utility w ag n.
  Proof.
    unfold margins_and_utility. destruct (a_profile ag); [| |reflexivity].
    - apply bind_cong; [reflexivity|]. intros cost. apply bind_cong; [unfold agent_pledge_per_pool; cbn [w_rss sw with_rss]; now rewrite same_thr|]. intros pledge. cbn [w_rss sw with_rss]. rewrite same_threshold, same_pp, same_k. apply bind_cong; [reflexivity|]. intros pp. rewrite same_fixed. apply bind_cong; [reflexivity|]. intros fixed.
      apply foldM_ext. intros [margins u] t _. apply bind_cong; [reflexivity|]. intros target. apply bind_cong; [reflexivity|]. intros dp. destruct (pp <? _); [now rewrite same_ou|]. apply bind_cong; [reflexivity|]. intros m. now rewrite same_ou.
    - apply bind_cong; [reflexivity|]. intros cost. apply bind_cong; [unfold agent_pledge_per_pool; cbn [w_rss sw with_rss]; now rewrite same_thr|]. intros pledge. cbn [w_rss sw with_rss]. rewrite same_threshold, same_k. apply bind_cong; [reflexivity|]. intros st. apply bind_cong; [reflexivity|]. intros owned. apply bind_cong; [reflexivity|]. intros es. rewrite same_cp. apply bind_cong; [reflexivity|]. intros profit.
      rewrite same_fixed. apply bind_cong; [reflexivity|]. intros fixed. apply foldM_ext. intros [margins u] t _. apply bind_cong; [reflexivity|]. intros target. apply bind_cong.
      + destruct target as [r|]; [|reflexivity]. change (deref (sw w) r) with (deref w r). apply bind_cong; [reflexivity|]. intros p. now rewrite same_cp.
      + intros des. apply bind_cong; [reflexivity|]. intros m. now rewrite same_ou.
  Qed.
  Lemma same_search (f g : Z -> res (list (T A) * T A)) fuel a b : (forall t, f t = g t) -> search f fuel a b = search g fuel a b.
  Proof.
    intros H. revert a b. induction fuel as [|fuel IH]; intros a b; [reflexivity|]. cbn [search]. rewrite H. apply bind_cong; [reflexivity|]. intros xu. rewrite !H.
    assert (P : (if ((a + b) / 2 <? b)%Z then let! xp := g ((a + b) / 2 + 1)%Z in if snd xp >? snd xu then search f fuel ((a + b) / 2 + 1)%Z b else Ok ((a + b) / 2, fst xu)%Z else Ok ((a + b) / 2, fst xu)%Z)
              = (if ((a + b) / 2 <? b)%Z then let! xp := g ((a + b) / 2 + 1)%Z in if snd xp >? snd xu then search g fuel ((a + b) / 2 + 1)%Z b else Ok ((a + b) / 2, fst xu)%Z else Ok ((a + b) / 2, fst xu)%Z)).
    { destruct ((a + b) / 2 <? b)%Z; [|reflexivity]. apply bind_cong; [reflexivity|]. intros xp. now rewrite IH. }
    rewrite P. destruct (a <? (a + b) / 2)%Z; [|reflexivity]. apply bind_cong; [reflexivity|]. intros xm. now rewrite IH.
  Qed.
  Lemma same_margin_at w ag ms i p : margin_at (sw w) ag ms i p = margin_at w ag ms i p.
  Proof. unfold margin_at. destruct (nth_error ms i); [reflexivity|]. unfold calculate_margin. cbn [w_rss sw with_rss]. now rewrite same_k. Qed.
  Lemma same_greedy r l s al b : greedy (phi r) l s al b = greedy r l s al b.
  Proof. revert s al b. induction l as [|p l IH]; intros s al b; [reflexivity|]. cbn [greedy]. rewrite same_threshold. rewrite !IH. reflexivity. Qed.
  Lemma same_adjust w ag pl c ms i p : adjust_pool (sw w) ag pl c ms i p = adjust_pool w ag pl c ms i p.
  Proof. unfold adjust_pool. cbn [w_rss sw with_rss]. rewrite same_threshold, same_set_profit. apply bind_cong; [reflexivity|]. intros p2. now rewrite same_margin_at. Qed.
  Lemma same_draft w ag pl c ms i id : draft_pool (sw w) ag pl c ms i id = draft_pool w ag pl c ms i id.
  Proof. unfold draft_pool. cbn [w_rss sw with_rss]. rewrite same_threshold, same_new_pool. apply bind_cong; [reflexivity|]. intros p2. now rewrite same_margin_at. Qed.

  (** ** what agents change *)
  Lemma sw_rank_add w r : rank_add (sw w) r = lift (rank_add w r).
  Proof. unfold rank_add. change (deref (sw w) r) with (deref w r). destruct (deref w r); reflexivity. Qed.
  Lemma sw_rank_remove w r : rank_remove (sw w) r = lift (rank_remove w r).
  Proof. unfold rank_remove. change (deref (sw w) r) with (deref w r). destruct (deref w r); [|reflexivity]. cbn [bind]. change (w_rank (sw w)) with (w_rank w). destruct (sl_remove _ _ _); reflexivity. Qed.
  Lemma sw_rankm_add w r : rankm_add (sw w) r = lift (rankm_add w r).
  Proof. unfold rankm_add. change (deref (sw w) r) with (deref w r). destruct (deref w r) as [p|]; [|reflexivity]. cbn [bind w_rss sw with_rss]. rewrite same_key_myopic. destruct (pool_key_myopic (w_rss w) p); reflexivity. Qed.
  Lemma sw_rankm_remove w r : rankm_remove (sw w) r = lift (rankm_remove w r).
  Proof.
    unfold rankm_remove. change (deref (sw w) r) with (deref w r). destruct (deref w r) as [p|]; [|reflexivity]. cbn [bind w_rss sw with_rss]. rewrite same_key_myopic. destruct (pool_key_myopic (w_rss w) p); [|reflexivity]. cbn [bind].
    change (w_rankm (sw w)) with (w_rankm w). destruct (sl_remove _ _ _); reflexivity.
  Qed.
  Lemma sw_touch uid w id v : touch_delegation uid (sw w) id v = lift (touch_delegation uid w id v).
  Proof.
    unfold touch_delegation. change (the_pool (sw w) id) with (the_pool w id). destruct (the_pool w id) as [r|]; [|reflexivity]. cbn [bind]. rewrite sw_rankm_remove. destruct (rankm_remove w r) as [w1|]; [|reflexivity]. cbn [bind lift].
    change (deref (sw w1) r) with (deref w1 r). destruct (deref w1 r) as [p|]; [|reflexivity]. cbn [bind]. change (store (sw w1) r ?q) with (sw (store w1 r q)). apply sw_rankm_add.
  Qed.
  Lemma sw_stake_allocations w ag s : stake_allocations (sw w) ag s = liftp (stake_allocations w ag s).
  Proof.
    unfold stake_allocations. change (rankings (sw w) ag) with (rankings w ag). destruct (rankings w ag) as [rk|]; [|reflexivity]. cbn [bind]. match goal with |- bind ?m _ = liftp (bind ?m' _) => change m with m'; destruct m' as [el|]; [|reflexivity] end. cbn [bind].
    destruct el as [|e el]; [reflexivity|]. destruct (the_strategy ag) as [st|]; [|reflexivity]. cbn [bind]. rewrite foldM_lift by (intros; apply sw_touch). destruct (foldM _ (s_alloc st) w) as [w1|]; [|reflexivity]. cbn [bind lift].
    match goal with |- bind ?m _ = liftp (bind ?m' _) => change m with m'; destruct m' as [ps|]; [|reflexivity] end. cbn [bind]. rewrite foldM_lift by (intros; apply sw_touch). destruct (foldM _ (s_alloc st) w1) as [w2|]; [|reflexivity]. cbn [bind lift liftp fst snd].
    unfold greedy_allocations. cbn [w_rss sw with_rss]. now rewrite same_greedy.
  Qed.
  Lemma sw_find_delegation w ag s : find_delegation_move (sw w) ag s = liftp (find_delegation_move w ag s).
  Proof. unfold find_delegation_move. destruct (s <? min_stake_unit); [reflexivity|]. rewrite sw_stake_allocations. destruct (stake_allocations w ag s) as [[w1 al]|]; reflexivity. Qed.
  Lemma sw_find_for_operator w ag t : find_delegation_for_operator (sw w) ag t = liftp (find_delegation_for_operator w ag t).
  Proof. unfold find_delegation_for_operator. destruct (_ >? zero); [|reflexivity]. rewrite sw_find_delegation. destruct (find_delegation_move w ag _) as [[w1 al]|]; reflexivity. Qed.
  Lemma sw_copy l w d : foldM (fun acc e => let '(w, d) := acc in let '(id, r) := e in let! wr := deepcopy w r in let '(w', r') := wr in Ok (w', set d id r')) l (sw w, d) = liftp (foldM (fun (acc : world A * dict nat) (e : nat * nat) => let '(w, d) := acc in let '(id, r) := e in let! wr := deepcopy w r in let '(w', r') := wr in Ok (w', set d id r')) l (w, d)).
  Proof. apply foldM_liftp. intros w' y [id r]. unfold deepcopy. change (deref (sw w') r) with (deref w' r). destruct (deref w' r); reflexivity. Qed.
  Lemma sw_keep w ag n : pools_to_keep so (sw w) ag n = liftp (pools_to_keep so w ag n).
  Proof.
    unfold pools_to_keep. destruct (the_strategy ag) as [st|]; [|reflexivity]. cbn [bind]. destruct (n <? _)%Z; [|apply sw_copy]. match goal with |- bind ?m _ = liftp (bind ?m' _) => change m with m'; destruct m' as [ps|]; [|reflexivity] end. cbn [bind].
    match goal with |- bind ?m _ = liftp (bind ?m _) => destruct m as [td|]; [|reflexivity] end. cbn [bind]. apply sw_copy.
  Qed.
  Lemma sw_operator_move w ag n owned ms : find_operator_move (sw w) ag n owned ms = liftp (find_operator_move w ag n owned ms).
  Proof.
    unfold find_operator_move. assert (E : agent_pledge_per_pool (sw w) ag n = agent_pledge_per_pool w ag n) by (unfold agent_pledge_per_pool; cbn [w_rss sw with_rss]; now rewrite same_thr). rewrite E. destruct (agent_pledge_per_pool w ag n) as [pl|]; [|reflexivity]. cbn [bind].
    change (agent_cost_per_pool (sw w) ag n) with (agent_cost_per_pool w ag n). destruct (agent_cost_per_pool w ag n) as [c|]; [|reflexivity]. cbn [bind]. rewrite foldM_liftp.
    2:{ intros w' y x. change (deref (sw w') (snd x)) with (deref w' (snd x)). destruct (deref w' (snd x)) as [p|]; [|reflexivity]. cbn [bind]. rewrite same_adjust. destruct (adjust_pool w' ag pl c ms y p); reflexivity. }
    destruct (foldM _ owned (w, 0%nat)) as [[w1 i]|]; [|reflexivity]. cbn [bind liftp fst snd]. rewrite foldM_liftp.
    2:{ intros w' y x. unfold next_pool_id. change (with_idseq (S (w_idseq (sw w'))) (sw w')) with (sw (with_idseq (S (w_idseq w')) w')). change (w_idseq (sw w')) with (w_idseq w'). rewrite same_draft. destruct (draft_pool _ ag pl c ms x _); reflexivity. }
    destruct (foldM _ (seq _ _) (w1, owned)) as [[w2 o']|]; [|reflexivity]. cbn [bind liftp fst snd]. rewrite sw_find_for_operator. destruct (find_delegation_for_operator w2 ag _) as [[w3 al]|]; reflexivity.
  Qed.
  Lemma sw_choose w ag : choose_pool_strategy so (sw w) ag = let! x := choose_pool_strategy so w ag in Ok (sw (fst (fst x)), snd (fst x), snd x).
  Proof.
    unfold choose_pool_strategy. cbn [w_rss sw with_rss]. rewrite same_k. change (with_rss (phi (w_rss w)) w) with (sw w). rewrite (same_search _ (margins_and_utility w ag)) by (intros; apply same_margins). destruct (search _ _ _ _) as [[t ms]|]; [|reflexivity]. cbn [bind].
    destruct (0 <? t)%Z; [|reflexivity]. rewrite sw_keep. destruct (pools_to_keep so w ag t) as [[w1 o]|]; [|reflexivity]. cbn [bind liftp fst snd]. rewrite sw_operator_move. destruct (find_operator_move w1 ag t o ms) as [[w2 st]|]; [|reflexivity]. cbn [bind liftp fst snd].
    rewrite same_expected_utility. destruct (expected_utility w2 ag st); reflexivity.
  Qed.
  Lemma sw_update w uid : update_strategy so (sw w) uid = lift (update_strategy so w uid).
  Proof.
    unfold update_strategy. change (the_agent (sw w) uid) with (the_agent w uid). destruct (the_agent w uid) as [ag|]; [|reflexivity]. cbn [bind].
    assert (G : (let! st := the_strategy ag in let! cu := current_utility (sw w) ag in let! eu := expected_utility (sw w) ag st in let aug := augmented_utility (sw w) cu eu in let! wd := find_delegation_move (sw w) ag (a_stake ag) in let '(w1, del_st) := wd in let! du := expected_utility w1 ag del_st in let! wo := choose_pool_strategy so w1 ag in let '(w2, ou, op_st) := wo in Ok (put_agent w2 uid (agent_set_new (pick_move aug (du, del_st) (ou, op_st)) ag)))
      = lift (let! st := the_strategy ag in let! cu := current_utility w ag in let! eu := expected_utility w ag st in let aug := augmented_utility w cu eu in let! wd := find_delegation_move w ag (a_stake ag) in let '(w1, del_st) := wd in let! du := expected_utility w1 ag del_st in let! wo := choose_pool_strategy so w1 ag in let '(w2, ou, op_st) := wo in Ok (put_agent w2 uid (agent_set_new (pick_move aug (du, del_st) (ou, op_st)) ag)))).
    { destruct (the_strategy ag) as [st|]; [|reflexivity]. cbn [bind]. rewrite same_current_utility. destruct (current_utility w ag) as [cu|]; [|reflexivity]. cbn [bind]. rewrite same_expected_utility. destruct (expected_utility w ag st) as [eu|]; [|reflexivity]. cbn [bind].
      rewrite sw_find_delegation. destruct (find_delegation_move w ag (a_stake ag)) as [[w1 ds]|]; [|reflexivity]. cbn [bind liftp fst snd]. rewrite same_expected_utility. destruct (expected_utility w1 ag ds) as [du|]; [|reflexivity]. cbn [bind]. rewrite sw_choose. destruct (choose_pool_strategy so w1 ag) as [[[w2 ou] os]|]; reflexivity. }
    destruct (a_profile ag); [exact G | exact G | reflexivity].
  Qed.
  Lemma sw_remove_one r id (w : world A) a : remove_one_delegation r id (sw w) a = lift (remove_one_delegation r id w a).
  Proof.
    unfold remove_one_delegation. change (the_agent (sw w) a) with (the_agent w a). destruct (the_agent w a) as [ag|]; [|reflexivity]. cbn [bind]. destruct (the_strategy ag) as [st|]; [|reflexivity]. cbn [bind]. destruct (of_option KeyError _); [|reflexivity]. cbn [bind].
    match goal with |- context [put_agent (sw w) a ?x] => change (put_agent (sw w) a x) with (sw (put_agent w a x)) end. match goal with |- context [deref (sw ?v) r] => change (deref (sw v) r) with (deref v r); destruct (deref v r); reflexivity end.
  Qed.
  Lemma sw_remove_delegations w r : remove_delegations (sw w) r = lift (remove_delegations w r).
  Proof.
    unfold remove_delegations. change (deref (sw w) r) with (deref w r). destruct (deref w r) as [p|]; [|reflexivity]. cbn [bind]. rewrite foldM_lift by (intros; apply sw_remove_one). destruct (foldM _ _ w) as [w1|]; [|reflexivity]. cbn [bind lift]. change (w_simul (sw w1)) with (w_simul w1). destruct (w_simul w1); reflexivity.
  Qed.
  Lemma sw_close w id : close_pool (sw w) id = lift (close_pool w id).
  Proof.
    unfold close_pool. change (the_pool (sw w) id) with (the_pool w id). destruct (the_pool w id) as [r|]; [|reflexivity]. cbn [bind]. rewrite sw_rank_remove. destruct (rank_remove w r) as [w1|]; [|reflexivity]. cbn [bind lift]. rewrite sw_rankm_remove. destruct (rankm_remove w1 r) as [w2|]; [|reflexivity]. cbn [bind lift].
    rewrite sw_remove_delegations. destruct (remove_delegations w2 r); reflexivity.
  Qed.
  Lemma sw_update_pool uid w id : update_pool uid (sw w) id = lift (update_pool uid w id).
  Proof.
    unfold update_pool. change (the_agent (sw w) uid) with (the_agent w uid). destruct (the_agent w uid) as [ag|]; [|reflexivity]. cbn [bind]. destruct (of_option AttributeError (a_new ag)) as [nw|]; [|reflexivity]. cbn [bind]. destruct (of_option KeyError _) as [r|]; [|reflexivity]. cbn [bind].
    change (deref (sw w) r) with (deref w r). destruct (deref w r) as [p|]; [|reflexivity]. cbn [bind].
    assert (E : (if p_private p && (p_pledge p <? p_stake p) then remove_delegations (sw w) r else Ok (sw w)) = lift (if p_private p && (p_pledge p <? p_stake p) then remove_delegations w r else Ok w)) by (destruct (_ && _); [apply sw_remove_delegations | reflexivity]).
    rewrite E. match goal with |- bind (lift ?m) _ = _ => destruct m as [w1|] ; [|reflexivity] end. cbn [bind lift]. change (with_pools (set (w_pools (sw w1)) id r) (sw w1)) with (sw (with_pools (set (w_pools w1) id r) w1)). set (w2 := with_pools _ w1).
    change (the_agent (sw w2) uid) with (the_agent w2 uid). destruct (the_agent w2 uid) as [ag2|]; [|reflexivity]. cbn [bind]. destruct (the_strategy ag2) as [st|]; [|reflexivity]. cbn [bind]. destruct (of_option KeyError _) as [old|]; [|reflexivity]. cbn [bind].
    rewrite sw_rank_remove. destruct (rank_remove w2 old) as [w3|]; [|reflexivity]. cbn [bind lift]. rewrite sw_rank_add. destruct (rank_add w3 r) as [w4|]; [|reflexivity]. cbn [bind lift]. rewrite sw_rankm_remove. destruct (rankm_remove w4 old) as [w5|]; [|reflexivity]. cbn [bind lift].
    rewrite sw_rankm_add. destruct (rankm_add w5 r); reflexivity.
  Qed.
  Lemma sw_open uid w id : open_pool uid (sw w) id = lift (open_pool uid w id).
  Proof.
    unfold open_pool. change (the_agent (sw w) uid) with (the_agent w uid). destruct (the_agent w uid) as [ag|]; [|reflexivity]. cbn [bind]. destruct (the_strategy ag) as [st|]; [|reflexivity]. cbn [bind]. destruct (of_option KeyError _) as [r|]; [|reflexivity]. cbn [bind].
    change (with_pools (set (w_pools (sw w)) id r) (sw w)) with (sw (with_pools (set (w_pools w) id r) w)). rewrite sw_rank_add. destruct (rank_add _ r) as [w2|]; [|reflexivity]. cbn [bind lift]. apply sw_rankm_add.
  Qed.
  Lemma sw_execute w uid : execute_strategy so (sw w) uid = lift (execute_strategy so w uid).
  Proof.
    unfold execute_strategy. change (the_agent (sw w) uid) with (the_agent w uid). destruct (the_agent w uid) as [ag|]; [|reflexivity]. cbn [bind]. destruct (the_strategy ag) as [old|]; [|reflexivity]. cbn [bind]. destruct (of_option AttributeError (a_new ag)) as [nw|]; [|reflexivity]. cbn [bind].
    rewrite foldM_lift by (intros; apply sw_touch). destruct (foldM _ _ w) as [w1|]; [|reflexivity]. cbn [bind lift]. rewrite foldM_lift by (intros; apply sw_touch). destruct (foldM _ _ w1) as [w2|]; [|reflexivity]. cbn [bind lift].
    rewrite foldM_lift by (intros; apply sw_close). destruct (foldM close_pool _ w2) as [w3|]; [|reflexivity]. cbn [bind lift]. rewrite foldM_lift by (intros; apply sw_update_pool). destruct (foldM (update_pool uid) _ w3) as [w4|]; [|reflexivity]. cbn [bind lift].
    change (the_agent (sw w4) uid) with (the_agent w4 uid). destruct (the_agent w4 uid) as [ag4|]; [|reflexivity]. cbn [bind]. match goal with |- context [put_agent (sw w4) uid ?x] => change (put_agent (sw w4) uid x) with (sw (put_agent w4 uid x)) end. apply foldM_lift. intros; apply sw_open.
  Qed.
  Lemma sw_advance w uid : advance so (sw w) uid = lift (advance so w uid).
  Proof.
    unfold advance. change (the_agent (sw w) uid) with (the_agent w uid). destruct (the_agent w uid) as [ag|]; [|reflexivity]. cbn [bind]. destruct (a_new ag); [|reflexivity]. rewrite sw_execute. destruct (execute_strategy so w uid); reflexivity.
  Qed.
  Lemma sw_agent_step w uid : agent_step so (sw w) uid = lift (agent_step so w uid).
  Proof. unfold agent_step. rewrite sw_update. destruct (update_strategy so w uid) as [w1|]; [|reflexivity]. cbn [bind lift]. change (w_simul (sw w1)) with (w_simul w1). destruct (w_simul w1); [reflexivity | apply sw_advance]. Qed.
  Lemma sw_event w e : do_event so (sw w) e = lift (do_event so w e).
  Proof. destruct e; [apply sw_agent_step | apply sw_advance]. Qed.
  Lemma sw_schedule o ch w : schedule_step so o ch (sw w) = lift (schedule_step so o ch w).
  Proof. unfold schedule_step. change (w_agents (sw w)) with (w_agents w). destruct (round_events o ch _) as [evs|]; [|reflexivity]. cbn [bind]. apply foldM_lift. intros; apply sw_event. Qed.
  Lemma sw_unrank w r : unrank_pool (sw w) r = lift (unrank_pool w r).
  Proof. unfold unrank_pool. rewrite sw_rank_remove. destruct (rank_remove w r) as [w1|]; [|reflexivity]. cbn [bind lift]. apply sw_rankm_remove. Qed.
  Lemma sw_rerank w r : rerank_pool (sw w) r = lift (rerank_pool w r).
  Proof.
    unfold rerank_pool. change (deref (sw w) r) with (deref w r). destruct (deref w r) as [p|]; [|reflexivity]. cbn [bind w_rss sw with_rss]. rewrite same_set_profit. destruct (pool_set_profit (w_rss w) p) as [p1|]; [|reflexivity]. cbn [bind].
    match goal with |- context [rank_add ?x r] => change x with (sw (store w r (pool_set_desirability p1))) end. rewrite sw_rank_add. destruct (rank_add _ r) as [w2|]; [|reflexivity]. cbn [bind lift]. apply sw_rankm_add.
  Qed.

  (** ** rounds, phases and runs; [I] holds of the reward scheme objects that occur, [okv] of the values that the phases assign *)
  Variable I : rss A -> Prop.
  Variable okv : setting A -> Prop.
  Hypothesis k_ok : forall r x r', I r -> okv (SetK x) -> set_k r x = Ok r' -> I r'.
  Hypothesis k_same : forall r x, I r -> okv (SetK x) -> set_k (phi r) x = let! r' := set_k r x in Ok (phi r').
  Hypothesis a0_ok : forall r x, I r -> okv (SetA0 x) -> I (set_a0 r x).
  Hypothesis a0_same : forall r x, I r -> okv (SetA0 x) -> set_a0 (phi r) x = phi (set_a0 r x).

  Definition sws (s : sim A) : sim A :=
    mkSim (s_c s) (sw (s_w s)) (s_n s) (s_maxit s) (s_order s) (s_graphs s) (s_steps s) (s_cons s) (s_phase s) (s_eq s) (s_piv s) (s_running s)
          (map (fun x => (fst x, sw (snd x))) (s_rows s)) (map (fun f => mkFinal (sw (f_world f)) (f_converged f)) (s_out s)).
  Definition lifts (m : res (sim A)) : res (sim A) := let! s := m in Ok (sws s).
  Definition ok_sim (s : sim A) : Prop := I (w_rss (s_w s)) /\ Forall (Forall okv) (c_multi (s_c s)).

  Lemma sws_setting v s : I (w_rss (s_w s)) -> okv v -> apply_setting v (sws s) = lifts (apply_setting v s).
  Proof.
    intros Hi Hv. destruct v; try reflexivity.
    - unfold apply_setting. cbn [s_w sws w_rss sw with_rss]. rewrite k_same by assumption. destruct (set_k (w_rss (s_w s)) v); reflexivity.
    - unfold apply_setting. cbn [s_w sws w_rss sw with_rss]. rewrite a0_same by assumption. reflexivity.
  Qed.
  Lemma setting_ok v s s' : I (w_rss (s_w s)) -> okv v -> apply_setting v s = Ok s' -> I (w_rss (s_w s')) /\ s_c s' = s_c s.
  Proof.
    intros Hi Hv H. destruct v; cbn in H; try (injection H as <-; split; [exact Hi | reflexivity]).
    - apply bind_ok in H as (r & E & H). injection H as <-. split; [|reflexivity]. cbn. eapply k_ok; eassumption.
    - injection H as <-. split; [|reflexivity]. cbn. now apply a0_ok.
  Qed.
  Lemma sws_settings vs s : I (w_rss (s_w s)) -> Forall okv vs -> foldM (fun s v => apply_setting v s) vs (sws s) = lifts (foldM (fun s v => apply_setting v s) vs s).
  Proof.
    intros Hi F. revert s Hi. induction F as [|v vs Hv F IH]; intros s Hi; [reflexivity|]. cbn [foldM]. rewrite sws_setting by assumption. destruct (apply_setting v s) as [s'|] eqn:E; [|reflexivity]. cbn [bind lifts]. apply IH. now apply (setting_ok v s s').
  Qed.
  Lemma settings_ok vs s s' : I (w_rss (s_w s)) -> Forall okv vs -> foldM (fun s v => apply_setting v s) vs s = Ok s' -> I (w_rss (s_w s')) /\ s_c s' = s_c s.
  Proof.
    intros Hi F. revert s Hi. induction F as [|v vs Hv F IH]; intros s Hi H; cbn [foldM] in H; [injection H as <-; now split|]. apply bind_ok in H as (s1 & E & H). destruct (setting_ok _ _ _ Hi Hv E) as [H1 H2]. destruct (IH _ H1 H) as [H3 H4]. split; [assumption | congruence].
  Qed.
  Lemma phase_settings_ok n l : Forall (Forall okv) l -> Forall okv (phase_settings n l).
  Proof. intros F. unfold phase_settings. apply Forall_forall. intros v J. apply in_flat_map in J as (vs & J1 & J2). destruct (nth_error vs n) eqn:E; [|destruct J2]. destruct J2 as [<-|[]]. rewrite Forall_forall in F. specialize (F _ J1). rewrite Forall_forall in F. apply F. eapply nth_error_In. eassumption. Qed.
  Lemma sws_change_phase s : ok_sim s -> change_phase (sws s) = lifts (change_phase s).
  Proof.
    intros [Hi Hm]. unfold change_phase. change (s_w (set_phase (S (s_phase (sws s))) (sws s))) with (sw (s_w s)). change (w_pools (sw (s_w s))) with (w_pools (s_w s)). change (s_w (set_phase (S (s_phase s)) s)) with (s_w s).
    rewrite foldM_lift by (intros; apply sw_unrank). destruct (foldM unrank_pool (values (w_pools (s_w s))) (s_w s)) as [w1|] eqn:E1; [|reflexivity]. cbn [bind lift].
    change (set_w (sw w1) (set_phase (S (s_phase (sws s))) (sws s))) with (sws (set_w w1 (set_phase (S (s_phase s)) s))).
    change (s_phase (set_phase (S (s_phase (sws s))) (sws s))) with (S (s_phase s)). change (s_phase (set_phase (S (s_phase s)) s)) with (S (s_phase s)). change (c_multi (s_c (set_phase (S (s_phase (sws s))) (sws s)))) with (c_multi (s_c s)). change (c_multi (s_c (set_phase (S (s_phase s)) s))) with (c_multi (s_c s)).
    assert (F := phase_settings_ok (S (s_phase s)) _ Hm). set (vs := phase_settings _ _) in *. apply foldM_keeps in E1; [|intros; eapply unrank_keeps; eassumption]. unfold keeps in E1.
    assert (Hi1 : I (w_rss (s_w (set_w w1 (set_phase (S (s_phase s)) s))))) by (cbn; now rewrite E1). rewrite sws_settings by assumption. destruct (foldM _ vs _) as [s2|]; [|reflexivity]. cbn [bind lifts].
    change (s_w (sws s2)) with (sw (s_w s2)). change (w_pools (sw (s_w s2))) with (w_pools (s_w s2)). rewrite foldM_lift by (intros; apply sw_rerank). destruct (foldM rerank_pool _ _) as [w2|]; [|reflexivity]. cbn [bind lift lifts]. destruct vs; reflexivity.
  Qed.
  Lemma change_phase_ok s s' : ok_sim s -> change_phase s = Ok s' -> ok_sim s'.
  Proof.
    intros [Hi Hm] H. unfold change_phase in H. apply bind_ok in H as (w1 & E1 & H). apply bind_ok in H as (s2 & E2 & H). apply bind_ok in H as (w2 & E3 & H). injection H as <-. apply foldM_keeps in E1; [|intros; eapply unrank_keeps; eassumption]. apply foldM_keeps in E3; [|intros; eapply rerank_keeps; eassumption].
    unfold keeps in *. cbn [s_w set_phase] in E1. apply settings_ok in E2 as [H1 H2]; [| cbn; now rewrite E1 | apply phase_settings_ok; exact Hm].
    destruct (phase_settings _ _); (split; [cbn; now rewrite E3 | cbn; rewrite H2; exact Hm]).
  Qed.
  Lemma sws_step ch s : ok_sim s -> sim_step so ch (sws s) = lifts (sim_step so ch s).
  Proof.
    intros Hs. unfold sim_step.
    assert (E0 : set_rows (s_rows (sws s) ++ [(s_steps (sws s), s_w (sws s))]) (sws s) = sws (set_rows (s_rows s ++ [(s_steps s, s_w s)]) s)) by (unfold sws, set_rows; cbn; rewrite map_app; reflexivity). rewrite E0. set (s0 := set_rows _ s).
    assert (W : forall x, wrap_up (sws x) = sws (wrap_up x)) by (intros x; unfold wrap_up, sws, set_out, set_running; cbn; rewrite map_app; reflexivity).
    change (s_maxit (sws s0)) with (s_maxit s0). change (s_steps (sws s0)) with (s_steps s0). destruct (_ <=? _)%Z; [cbn [lifts bind]; now rewrite W|]. change (s_w (sws s0)) with (sw (s_w s0)). change (s_c (sws s0)) with (s_c s0).
    rewrite sw_schedule. destruct (schedule_step so (c_sched (s_c s0)) ch (s_w s0)) as [w|] eqn:Ew; [|reflexivity]. cbn [bind lift]. change (set_steps (S (s_steps s0)) (set_w (sw w) (sws s0))) with (sws (set_steps (S (s_steps s0)) (set_w w s0))). set (s1 := set_steps _ (set_w w s0)).
    change (w_idle (s_w (sws s1))) with (w_idle (s_w s1)). destruct (w_idle (s_w s1)); [|reflexivity]. change (set_cons (S (s_cons (sws s1))) (sws s1)) with (sws (set_cons (S (s_cons s1)) s1)). set (s2 := set_cons _ s1). change (has_converged (sws s2)) with (has_converged s2).
    destruct (has_converged s2); [|reflexivity]. change (set_eq (s_eq (sws s2) ++ [(Z.of_nat (s_steps s0) - c_itac (s_c (sws s2)))%Z]) (sws s2)) with (sws (set_eq (s_eq s2 ++ [(Z.of_nat (s_steps s0) - c_itac (s_c s2))%Z]) s2)). set (s3 := set_eq _ s2).
    change (s_phase (sws s3)) with (s_phase s3). change (s_c (sws s3)) with (s_c s3). destruct (Nat.ltb _ _); [|cbn [lifts bind]; now rewrite W].
    apply schedule_keeps in Ew. unfold keeps in Ew. assert (Hs3 : ok_sim s3) by (destruct Hs; split; [cbn; rewrite Ew; assumption | assumption]). rewrite sws_change_phase by assumption. destruct (change_phase s3); reflexivity.
  Qed.
  Lemma step_ok ch s s' : ok_sim s -> sim_step so ch s = Ok s' -> ok_sim s'.
  Proof.
    intros Hs. assert (Hs' := Hs). destruct Hs as [H1 H2]. unfold sim_step. destruct (_ <=? _)%Z; [intros [= <-]; exact Hs'|]. intros H. apply bind_ok in H as (w & E & H). apply schedule_keeps in E. unfold keeps in E. cbn [s_w set_rows] in E.
    assert (K : I (w_rss w)) by (now rewrite E). destruct (w_idle _); [|injection H as <-; now split]. destruct (has_converged _); [|injection H as <-; now split]. destruct (Nat.ltb _ _); [|injection H as <-; now split]. apply bind_ok in H as (s4 & E4 & H). injection H as <-. apply change_phase_ok in E4; [|now split]. exact E4.
  Qed.
  Lemma sws_run ch fuel s : ok_sim s -> run_loop so ch fuel (sws s) = lifts (run_loop so ch fuel s).
  Proof.
    revert s. induction fuel as [|fuel IH]; intros s Hs; cbn [run_loop]; change (s_steps (sws s)) with (s_steps s); change (s_maxit (sws s)) with (s_maxit s); change (s_running (sws s)) with (s_running s); (destruct (_ && _); [|reflexivity]); [reflexivity|].
    rewrite sws_step by assumption. destruct (sim_step so (ch (s_steps s)) s) as [s'|] eqn:E; [|reflexivity]. cbn [bind lifts]. apply IH. eapply step_ok; eassumption.
  Qed.
  Lemma sws_run_model ch s : ok_sim s -> run_model so ch (sws s) = lifts (run_model so ch s).
  Proof. intros Hs. unfold run_model. change (initialize_pool_id_seq (sws s)) with (sws (initialize_pool_id_seq s)). apply sws_run. exact Hs. Qed.
End Same.
