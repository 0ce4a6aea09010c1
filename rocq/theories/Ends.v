(** Every loop of the model ends: no call returns OutOfFuel, the mark of an exhausted loop bound.  This holds for arbitrary states, whether or not they can
    be reached. *)
From Coq Require Import ZArith List Bool Arith Lia Permutation.
From Verif Require Import Num Py Rewards SortedKeyList World Stakeholder Sched Sim ListFacts Eval PropSched.
Import ListNotations.
Open Scope nat_scope.

Definition ends {X} (r : res X) : Prop := r <> Err OutOfFuel.
Lemma ends_ok {X} (x : X) : ends (Ok x).  Proof. discriminate. Qed.
Lemma ends_bind {X Y} (r : res X) (f : X -> res Y) : ends r -> (forall x, ends (f x)) -> ends (bind r f).
Proof. intros H1 H2. destruct r as [x|e]; cbn; [apply H2|]. intros [= ->]. now apply H1. Qed.
Lemma ends_foldM {X Y} (f : X -> Y -> res X) l : (forall x y, ends (f x y)) -> forall x, ends (foldM f l x).
Proof. intros H. induction l as [|y l IH]; intros x; cbn; [discriminate|]. apply ends_bind; auto. Qed.
Lemma ends_mapM {X Y} (f : X -> res Y) l : (forall x, ends (f x)) -> ends (mapM f l).
Proof. intros H. induction l as [|y l IH]; cbn; [discriminate|]. repeat (apply ends_bind; auto; intros). apply ends_ok. Qed.
Lemma ends_filterM {X} (f : X -> res bool) l : (forall x, ends (f x)) -> ends (filterM f l).
Proof. intros H. induction l as [|y l IH]; cbn; [discriminate|]. repeat (apply ends_bind; auto; intros). apply ends_ok. Qed.
Lemma ends_option {X} e (o : option X) : e <> OutOfFuel -> ends (of_option e o).
Proof. intros H. destruct o; cbn; [discriminate|]. congruence. Qed.

Create HintDb ends.
Global Hint Resolve ends_ok : ends.
Ltac ends1 :=
  match goal with
  | |- ends (Ok _) => apply ends_ok
  | |- ends (Err _) => discriminate
  | |- ends (bind _ _) => apply ends_bind; [|intros]
  | |- ends (foldM _ _ _) => apply ends_foldM; intros
  | |- ends (mapM _ _) => apply ends_mapM; intros
  | |- ends (filterM _ _) => apply ends_filterM; intros
  | |- ends (of_option _ _) => apply ends_option; discriminate
  | |- ends (match ?x with _ => _ end) => destruct x
  | |- ends (let '_ := ?x in _) => destruct x
  | |- forall _, _ => intros
  end.
Ltac ends := repeat (cbv beta zeta; first [solve [eauto with ends nocore] | ends1]).

Section Ends.
  Context {A : Arith}.
  Implicit Types w : world A.
  Lemma ends_pdiv (x y : T A) : ends (pdiv x y).  Proof. unfold pdiv. ends. Qed.
  Hint Resolve ends_pdiv : ends.
  Lemma ends_py_index {V} (l : list V) i : ends (py_index l i).  Proof. unfold py_index. ends. Qed.
  Hint Resolve ends_py_index : ends.
  Lemma ends_pool_reward (r : rss A) x y : ends (pool_reward r x y).  Proof. unfold pool_reward. ends. Qed.
  Hint Resolve ends_pool_reward : ends.
  Lemma ends_set_k (r : rss A) x : ends (set_k r x).  Proof. unfold set_k. ends. Qed.
  Lemma ends_pp (r : rss A) x y : ends (potential_profit r x y).  Proof. unfold potential_profit. ends. Qed.
  Lemma ends_cp (r : rss A) x y z : ends (current_profit r x y z).  Proof. unfold current_profit. ends. Qed.
  Lemma ends_cpp n (x y : T A) : ends (cost_per_pool n x y).  Proof. unfold cost_per_pool. ends. Qed.
  Lemma ends_ppp (x y : T A) n : ends (pledge_per_pool x y n).  Proof. unfold pledge_per_pool. ends. Qed.
  Lemma ends_margin (x y : T A) : ends (suitable_margin x y).  Proof. unfold suitable_margin. ends. Qed.
  Lemma ends_ou (r : rss A) s p m c : ends (operator_utility r s p m c).  Proof. unfold operator_utility. ends. Qed.
  Lemma ends_du (r : rss A) a s p m c : ends (delegator_utility r a s p m c).  Proof. unfold delegator_utility. ends. Qed.
  Hint Resolve ends_set_k ends_pp ends_cp ends_cpp ends_ppp ends_margin ends_ou ends_du : ends.
  Lemma ends_deref w r : ends (deref w r).  Proof. unfold deref. ends. Qed.
  Lemma ends_agent w r : ends (the_agent w r).  Proof. unfold the_agent. ends. Qed.
  Lemma ends_pool w r : ends (the_pool w r).  Proof. unfold the_pool. ends. Qed.
  Lemma ends_strategy (ag : agent A) : ends (the_strategy ag).  Proof. unfold the_strategy. ends. Qed.
  Hint Resolve ends_deref ends_agent ends_pool ends_strategy : ends.
  Lemma ends_set_profit (r : rss A) p : ends (pool_set_profit r p).  Proof. unfold pool_set_profit. ends. Qed.
  Lemma ends_new_pool id c pl o (r : rss A) m b : ends (new_pool id c pl o r m b).  Proof. unfold new_pool. ends. Qed.
  Lemma ends_keym (r : rss A) p : ends (pool_key_myopic r p).  Proof. unfold pool_key_myopic. ends. Qed.
  Lemma ends_copy w r : ends (deepcopy w r).  Proof. unfold deepcopy. ends. Qed.
  Hint Resolve ends_set_profit ends_new_pool ends_keym ends_copy : ends.
  Lemma ends_sremove k e (l : sl A) : ends (sl_scan_remove k e l).
  Proof. induction l as [|x l IH]; cbn [sl_scan_remove]; ends. Qed.
  Hint Resolve ends_sremove : ends.
  Lemma ends_remove k e (l : sl A) : ends (sl_remove k e l).
  Proof. induction l as [|x l IH]; cbn [sl_remove]; ends. Qed.
  Lemma ends_sindex k e (l : sl A) : ends (sl_scan_index k e l).
  Proof. induction l as [|x l IH]; cbn [sl_scan_index]; ends. Qed.
  Hint Resolve ends_sindex : ends.
  Lemma ends_index k e (l : sl A) : ends (sl_index k e l).
  Proof. induction l as [|x l IH]; cbn [sl_index]; ends. Qed.
  Hint Resolve ends_remove ends_index : ends.
  Lemma ends_ra w r : ends (rank_add w r).  Proof. unfold rank_add. ends. Qed.
  Lemma ends_rr w r : ends (rank_remove w r).  Proof. unfold rank_remove. ends. Qed.
  Lemma ends_rma w r : ends (rankm_add w r).  Proof. unfold rankm_add. ends. Qed.
  Lemma ends_rmr w r : ends (rankm_remove w r).  Proof. unfold rankm_remove. ends. Qed.
  Hint Resolve ends_ra ends_rr ends_rma ends_rmr : ends.
  Lemma ends_rankings w ag : ends (rankings w ag).  Proof. unfold rankings. ends. Qed.
  Hint Resolve ends_rankings : ends.
  Lemma ends_nms w r l : ends (non_myopic_stake w r l).  Proof. unfold non_myopic_stake. ends. Qed.
  Lemma ends_pou w s p : ends (pool_operator_utility w s p).  Proof. unfold pool_operator_utility. ends. Qed.
  Hint Resolve ends_nms ends_pou : ends.
  Lemma ends_ous w ag st : ends (op_utility_strategy w ag st).  Proof. unfold op_utility_strategy. ends. Qed.
  Lemma ends_dup w ag r a : ends (del_utility_pool w ag r a).  Proof. unfold del_utility_pool. ends. Qed.
  Hint Resolve ends_ous ends_dup : ends.
  Lemma ends_cu w ag : ends (current_utility w ag).  Proof. unfold current_utility. ends. Qed.
  Lemma ends_eu w ag st : ends (expected_utility w ag st).  Proof. unfold expected_utility. ends. Qed.
  Lemma ends_acpp w ag n : ends (agent_cost_per_pool w ag n).  Proof. unfold agent_cost_per_pool. ends. Qed.
  Lemma ends_appp w ag n : ends (agent_pledge_per_pool w ag n).  Proof. unfold agent_pledge_per_pool. ends. Qed.
  Lemma ends_fixed w ag : ends (fixed_pools_ranked w ag).  Proof. unfold fixed_pools_ranked. ends. Qed.
  Hint Resolve ends_cu ends_eu ends_acpp ends_appp ends_fixed : ends.
  Lemma ends_mu w ag n : ends (margins_and_utility w ag n).  Proof. unfold margins_and_utility. ends. Qed.
  Hint Resolve ends_mu : ends.

  Lemma ends_search {X} (f : Z -> res (X * T A)) : (forall t, ends (f t)) -> forall fuel a b, (b - a < Z.of_nat fuel)%Z -> 0 < fuel -> ends (search f fuel a b).
  Proof.
    intros Hf. induction fuel as [|fuel IH]; intros a b Hl Hp; [lia|]. cbn [search]. set (c := ((a + b) / 2)%Z).
    assert (Hc : (2 * c <= a + b < 2 * c + 2)%Z) by (unfold c; assert (E := Z.div_mod (a + b) 2); assert (M := Z.mod_pos_bound (a + b) 2); lia). clearbody c.
    apply ends_bind; [apply Hf|]. intros x0.
    assert (Plus : ends (if (c <? b)%Z then let! xp := f (c + 1)%Z in if ltb (snd x0) (snd xp) then search f fuel (c + 1) b else Ok (c, fst x0) else Ok (c, fst x0))).
    { destruct (Z.ltb_spec c b); [|apply ends_ok]. apply ends_bind; [apply Hf|]. intros xp. destruct (ltb _ _); [apply IH; lia | apply ends_ok]. }
    destruct (Z.ltb_spec a c); [|exact Plus]. apply ends_bind; [apply Hf|]. intros xm. destruct (ltb _ _); [apply IH; lia | exact Plus].
  Qed.
  Lemma ends_keep so w ag n : ends (pools_to_keep so w ag n).
  Proof. unfold pools_to_keep. ends. Qed.
  Lemma ends_cm w ag p : ends (calculate_margin w ag p).  Proof. unfold calculate_margin. ends. Qed.
  Hint Resolve ends_keep ends_cm : ends.
  Lemma ends_ma w ag l i p : ends (margin_at w ag l i p).  Proof. unfold margin_at. ends. Qed.
  Lemma ends_touch uid w id v : ends (touch_delegation uid w id v).  Proof. unfold touch_delegation. ends. Qed.
  Hint Resolve ends_ma ends_touch : ends.
  Lemma ends_sa w ag s : ends (stake_allocations w ag s).  Proof. unfold stake_allocations. ends. Qed.
  Hint Resolve ends_sa : ends.
  Lemma ends_fdm w ag s : ends (find_delegation_move w ag s).  Proof. unfold find_delegation_move. ends. Qed.
  Hint Resolve ends_fdm : ends.
  Lemma ends_fdo w ag s : ends (find_delegation_for_operator w ag s).  Proof. unfold find_delegation_for_operator. ends. Qed.
  Lemma ends_adj w ag pl c l i p : ends (adjust_pool w ag pl c l i p).  Proof. unfold adjust_pool. ends. Qed.
  Lemma ends_draft w ag pl c l i id : ends (draft_pool w ag pl c l i id).  Proof. unfold draft_pool. ends. Qed.
  Hint Resolve ends_fdo ends_adj ends_draft : ends.
  Lemma ends_fom w ag n o l : ends (find_operator_move w ag n o l).
  Proof. unfold find_operator_move. unfold next_pool_id, alloc. ends. Qed.
  Hint Resolve ends_fom : ends.
  Lemma ends_choose so w ag : ends (choose_pool_strategy so w ag).
  Proof.
    unfold choose_pool_strategy. cbv zeta. apply ends_bind; [|ends].
    apply ends_search; [intros; apply ends_mu | unfold search_fuel; lia | unfold search_fuel; lia].
  Qed.
  Hint Resolve ends_choose : ends.
  Lemma ends_update so w uid : ends (update_strategy so w uid).
  Proof. unfold update_strategy. ends. Qed.
  Lemma ends_rod r id w a : ends (remove_one_delegation r id w a).  Proof. unfold remove_one_delegation. ends. Qed.
  Hint Resolve ends_update ends_rod : ends.
  Lemma ends_rd w r : ends (remove_delegations w r).  Proof. unfold remove_delegations. ends. Qed.
  Hint Resolve ends_rd : ends.
  Lemma ends_close w id : ends (close_pool w id).  Proof. unfold close_pool. ends. Qed.
  Lemma ends_upool uid w id : ends (update_pool uid w id).  Proof. unfold update_pool. ends. Qed.
  Lemma ends_open uid w id : ends (open_pool uid w id).  Proof. unfold open_pool. ends. Qed.
  Hint Resolve ends_close ends_upool ends_open : ends.
  Lemma ends_execute so w uid : ends (execute_strategy so w uid).  Proof. unfold execute_strategy. ends. Qed.
  Hint Resolve ends_execute : ends.
  Lemma ends_advance so w uid : ends (advance so w uid).  Proof. unfold advance. ends. Qed.
  Hint Resolve ends_advance : ends.
  Lemma ends_step so w uid : ends (agent_step so w uid).  Proof. unfold agent_step. ends. Qed.
  Hint Resolve ends_step : ends.
  Lemma ends_event so w e : ends (do_event so w e).  Proof. destruct e; cbn; ends. Qed.
  Hint Resolve ends_event : ends.
  Lemma ends_schedule so o ch w : fair ch -> NoDup (keys (w_agents w)) -> ends (schedule_step so o ch w).
  Proof.
    intros F N. unfold schedule_step. destruct (C26_round o ch (keys (w_agents w)) F N) as (evs & E & _). rewrite E. cbn [bind]. apply ends_foldM. intros; apply ends_event.
  Qed.
  Lemma ends_setting v (s : sim A) : ends (apply_setting v s).  Proof. destruct v; cbn; ends. Qed.
  Hint Resolve ends_setting : ends.
  Lemma ends_phase (s : sim A) : ends (change_phase s).
  Proof. unfold change_phase, unrank_pool, rerank_pool. ends. Qed.
  Hint Resolve ends_phase : ends.
  Lemma ends_sim_step so ch (s : sim A) : fair ch -> NoDup (keys (w_agents (s_w s))) -> ends (sim_step so ch s).
  Proof. intros F N. unfold sim_step. cbv zeta. destruct (Z.leb _ _); [apply ends_ok|]. apply ends_bind; [now apply ends_schedule|]. intros w. ends. Qed.
End Ends.
