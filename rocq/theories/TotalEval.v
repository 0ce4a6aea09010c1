(** Evaluating the possible moves does not raise: in exact arithmetic, with positive pledges, a saturation threshold that is positive, and only pools that
    are worth having (positive potential profit), every helper that update_strategy calls has a result. *)
From Coq Require Import ZArith List Bool Arith Lia Permutation Sorted QArith Qcanon.
From Verif Require Import Num Py QcTac Rewards SortedKeyList World Stakeholder ListFacts SLFacts Inv Exec TotalExec Eval Step RewardFacts Greedy Spec ExactInv PropMove PropSearch.
Import ListNotations.
Open Scope nat_scope.
Local Open Scope Qc_scope.

Notation NPF := (pool_facts False True).

(** a pool object whose books are in order *)
Definition sound_pool (rs : rss QcA) (p : pool QcA) : Prop :=
  NPF rs p /\ NoDup (keys (p_delegators p)) /\ forall a v, get (p_delegators p) a = Some v -> ltb (a := QcA) v min_stake_unit = false.

Record sane (m : nat) (al : nat -> nat -> option Qc) (ow : nat -> nat -> option nat) (w : world QcA) : Prop := {
  sn_inv : Inv NPF True m al ow w;
  sn_rss : rss_ok (w_rss w);
  sn_cip : r_scheme (w_rss w) = CIP50 -> 0 < r_a0 (w_rss w);
  sn_k : (1 <= r_k (w_rss w))%Z;
  sn_m : (Z.to_nat (r_k (w_rss w) + 1) <= m)%nat;
  sn_pp : forall id r p, get (w_pools w) id = Some r -> get (w_heap w) r = Some p -> 0 < p_pp p
}.

Lemma sound_total rs p : sound_pool rs p -> 0 <= total (p_delegators p).
Proof.
  intros (F & N & V). apply total_nonneg. intros k v J. apply Qcle_trans with MIN; [discriminate|]. apply ltb_MIN_false. apply (V k). now apply In_get.
Qed.
Lemma sound_stake rs p : sound_pool rs p -> 0 < p_pledge p /\ p_pledge p <= p_stake p.
Proof.
  intros S. assert (H := sound_total rs p S). destruct S as (F & N & V). split; [now apply (pf_pledge _ _ _ _ F)|]. rewrite (pf_stake _ _ _ _ F). qlra.
Qed.
Lemma sound_without rs p a v : sound_pool rs p -> get (p_delegators p) a = Some v -> p_pledge p <= p_stake p - v.
Proof.
  intros (F & N & V) G. rewrite (pf_stake _ _ _ _ F), (total_pop _ _ _ G).
  assert (0 <= total (pop (p_delegators p) a)); [|qlra]. apply total_nonneg. intros k v' J. apply Qcle_trans with MIN; [discriminate|]. apply ltb_MIN_false.
  apply In_get in J; [|now apply NoDup_pop]. rewrite get_pop in J by assumption. destruct (Nat.eqb a k); [discriminate|]. now apply (V k).
Qed.
Lemma sound_reward_le rs p s : rss_ok rs -> sound_pool rs p -> reward rs (p_pledge p) s - p_cost p <= p_pp p.
Proof.
  intros R (F & N & V). assert (P := pf_pp _ _ _ _ F). rewrite potential_profit_ok in P by assumption. injection P as <-. unfold pot_profit.
  assert (0 < p_pledge p) by now apply (pf_pledge _ _ _ _ F).
  assert (reward rs (p_pledge p) s <= reward rs (p_pledge p) (pool_threshold rs (p_pledge p))); [|qlra].
  destruct (Qclt_le_dec s (pool_threshold rs (p_pledge p))) as [L|L]; [apply reward_mono_stake; [assumption | qlra | qlra]|].
  rewrite (reward_flat_above_threshold rs (p_pledge p) (pool_threshold rs (p_pledge p)) s); [apply Qcle_refl | apply Qcle_refl | assumption].
Qed.

Section Numbers.
  Variable rs : rss QcA.
  Hypothesis R : rss_ok rs.
  Lemma thr_pos (pledge : Qc) : (r_scheme rs = CIP50 -> 0 < r_a0 rs) -> 0 < pledge -> 0 < pool_threshold (A := QcA) rs pledge.
  Proof. intros C P. rewrite pool_threshold_eq. destruct R as [R1 R2]. destruct (r_scheme rs); try assumption. apply Qcmin_pos; [apply Qcmult_pos; auto | assumption]. Qed.
  Lemma op_util_ok (s pledge m c : Qc) : s <> 0 -> operator_utility (A := QcA) rs s pledge m c = Ok (operator_reward (A := QcA) m c (reward rs pledge s) (pledge / s)).
  Proof. intros S. unfold operator_utility. rewrite pool_reward_ok by assumption. cbn [bind]. rewrite pdiv_ok by assumption. reflexivity. Qed.
  Lemma del_util_ok (a s pledge m c : Qc) : s <> 0 -> delegator_utility (A := QcA) rs a s pledge m c = Ok (Qcmax ((1 - m) * (a / s) * (reward rs pledge s - c)) 0).
  Proof. intros S. unfold delegator_utility. rewrite pool_reward_ok by assumption. cbn [bind]. rewrite pdiv_ok by assumption. cbn [bind]. now rewrite delegator_reward_eq. Qed.
  Lemma kt_ok : kt (A := QcA) rs.
  Proof. intros p. unfold pool_key_myopic. rewrite current_profit_ok by assumption. cbn [bind]. eauto. Qed.
  Lemma cost_ok n (c phi : Qc) : (1 <= n)%Z -> exists x, cost_per_pool (A := QcA) n c phi = Ok x.
  Proof. intros Hn. unfold cost_per_pool. rewrite pdiv_ok; [eauto|]. apply Qc_pos_neq, Qc_ofZ_pos. lia. Qed.
  Lemma pledge_ok n (s : Qc) : (1 <= n)%Z -> 0 < s -> exists x, pledge_per_pool (A := QcA) s (r_thr rs) n = Ok x /\ 0 < x.
  Proof.
    intros Hn Hs. assert (Pn : 0 < Qc_ofZ n) by (apply Qc_ofZ_pos; lia). unfold pledge_per_pool. destruct (Z.leb_spec n 0); [lia|]. cbn [ofZ QcA]. rewrite pdiv_ok by now apply Qc_pos_neq.
    cbn [bind]. eexists. split; [reflexivity|]. rewrite pmin_min. apply Qcmin_pos; [now apply Qcdiv_pos | apply R].
  Qed.
End Numbers.

Section Sane.
  Variables (m : nat) (al : nat -> nat -> option Qc) (ow : nat -> nat -> option nat).
  Notation sane := (sane m al ow).
  Implicit Types w : world QcA. Implicit Types ag : agent QcA. Implicit Types st new : strategy QcA. Implicit Types id r : nat.

  Lemma reg_sound w id r : sane w -> get (w_pools w) id = Some r -> exists p, get (w_heap w) r = Some p /\ p_id p = id /\ sound_pool (w_rss w) p /\ 0 < p_pp p /\ forall a, get (p_delegators p) a = al a id.
  Proof.
    intros S G. assert (I := sn_inv _ _ _ _ S). destruct (i_reg _ _ _ _ _ _ I _ _ G) as (p & J1 & J2 & J3 & J4 & J5 & J6 & J7). exists p.
    assert (D : forall a v, get (p_delegators p) a = Some v <-> al a id = Some v) by (intros; apply (i_del _ _ _ _ _ _ I id r p); assumption).
    split; [assumption|]. split; [assumption|]. split; [|split; [exact (sn_pp _ _ _ _ S id r p G J1)|]].
    - split; [assumption|]. split; [assumption|]. intros a v Ga. apply D in Ga. now apply (i_al _ _ _ _ _ _ I) in Ga.
    - intros a. destruct (get (p_delegators p) a) as [v|] eqn:E; [symmetry; now apply D|]. destruct (al a id) as [v|] eqn:E2; [|reflexivity]. apply D in E2. congruence.
  Qed.
  Lemma reg_values w r : sane w -> In r (values (w_pools w)) -> exists id, get (w_pools w) id = Some r.
  Proof. intros S J. apply In_values in J; [assumption|]. apply (i_nd _ _ _ _ _ _ (sn_inv _ _ _ _ S)). Qed.
  Lemma rank_elems w K rk e : sane w -> rank_ok K (w_heap w) m (values (w_pools w)) rk -> In e (sl_elems rk) -> e = None \/ exists r id p, e = Some r /\ get (w_pools w) id = Some r /\ get (w_heap w) r = Some p /\ sound_pool (w_rss w) p.
  Proof.
    intros S (R1 & R2 & R3) J. apply (Permutation_in _ R2) in J. apply in_app_iff in J as [J|J]; [left; now apply repeat_spec in J|]. right. apply in_map_iff in J as (r & <- & J).
    apply (reg_values w) in J as (id & J); [|assumption]. destruct (reg_sound w id r S J) as (p & P1 & _ & P2 & _). exists r, id, p. auto.
  Qed.

  (** ** non-myopic stake *)
  (** a sorted list of existing pools *)
  Definition listed w (l : sl QcA) : Prop := sl_sorted l /\ forall k e, In (k, e) l -> exists r p, e = Some r /\ get (w_heap w) r = Some p /\ k = pool_key p.
  Lemma listed_add w l r p : listed w l -> get (w_heap w) r = Some p -> listed w (sl_add (pool_key p) (Some r) l).
  Proof.
    intros [L1 L2] G. split; [now apply (sl_add_sorted QcA QcA_ord)|]. intros k e J. apply (Permutation_in _ (sl_add_perm QcA _ _ _)) in J as [[= <- <-]|J]; [now exists r, p | now apply L2].
  Qed.
  Lemma strongly_nth' {X} (R : X -> X -> Prop) l : StronglySorted R l -> forall i j x y, (i < j)%nat -> nth_error l i = Some x -> nth_error l j = Some y -> R x y.
  Proof.
    induction 1 as [|z l S IH F]; intros i j x y L Hi Hj; [destruct i; discriminate|]. destruct j as [|j]; [lia|]. cbn in Hj. destruct i as [|i]; cbn in Hi.
    - injection Hi as <-. rewrite Forall_forall in F. apply F. now apply nth_error_In in Hj.
    - apply (IH i j); [lia | assumption | assumption].
  Qed.
  Lemma before_index (k : key QcA) v (l : sl QcA) i : sl_sorted l -> sl_index k v l = Ok i -> forall j k' e', (j < i)%nat -> nth_error l j = Some (k', e') -> key_ltb k k' = false.
  Proof.
    intros S H j k' e' L N. apply (sl_index_ok QcA) in H as (e & E1 & _ & E2). assert (Z := strongly_nth' _ l S j i (k', e') e L N E1). unfold ent_ltb in Z. cbn in Z.
    rewrite (key_eqb_sw QcA QcA_ord) in E2. rewrite <- (sw_eq_lt_l (key_sw QcA QcA_ord) _ _ _ E2). exact Z.
  Qed.
  Lemma firstn_nth {X} (l : list X) : forall n x, In x (firstn n l) -> exists j, (j < n)%nat /\ nth_error l j = Some x.
  Proof.
    induction l as [|y l IH]; intros [|n] x J; cbn in J; try contradiction. destruct J as [<-|J]; [exists 0%nat; split; [lia | reflexivity]|].
    destruct (IH n x J) as (j & J1 & J2). exists (S j). split; [lia | exact J2].
  Qed.

  Lemma nonmyopic_value w r p l i : get (w_heap w) r = Some p -> sl_index (pool_key p) (Some r) l = Ok i -> sound_pool (w_rss w) p ->
    (forall e, In e (firstn i (sl_elems l)) -> exists r' q, e = Some r' /\ get (w_heap w) r' = Some q) ->
    exists s, non_myopic_stake w r l = Ok s /\ 0 < s.
  Proof.
    intros G Ei S B. unfold non_myopic_stake, deref. rewrite G. cbn [of_option bind]. rewrite Ei. cbn [bind].
    match goal with |- context [mapM ?f ?l0] => destruct (mapM_total f l0) as (sats & Es) end.
    { intros e J. destruct (B e J) as (r' & q & -> & Gq). rewrite Gq. cbn. eauto. }
    rewrite Es. cbn [bind]. eexists. split; [reflexivity|]. unfold non_myopic_from_rank. destruct (sound_stake _ _ S) as [P1 P2]. destruct (ltb _ _); [|assumption].
    rewrite pmax_max. eapply Qclt_le_trans; [|apply Qcmax_r]. qlra.
  Qed.
  Lemma nonmyopic_listed w l r p : listed w l -> In (Some r) (sl_elems l) -> get (w_heap w) r = Some p -> sound_pool (w_rss w) p ->
    exists s, non_myopic_stake w r l = Ok s /\ 0 < s.
  Proof.
    intros [L1 L2] J G S. unfold sl_elems in J. apply in_map_iff in J as ([k e] & Ee & J). cbn in Ee. subst e.
    destruct (L2 _ _ J) as (r0 & p0 & [= <-] & G0 & ->). rewrite G in G0. injection G0 as <-.
    destruct (sl_index_total QcA QcA_ord (pool_key p) (pool_key p) (Some r) l L1 J (key_eqb_refl QcA QcA_ord _)) as (i & Ei).
    apply (nonmyopic_value w r p l i G Ei S). intros e Je. assert (Je' : In e (sl_elems l)) by (rewrite <- (firstn_skipn i (sl_elems l)); apply in_app_iff; now left).
    unfold sl_elems in Je'. apply in_map_iff in Je' as ([k e'] & <- & Je'). destruct (L2 _ _ Je') as (r' & q & -> & Gq & _). exists r', q. auto.
  Qed.
  Lemma key_before_none (p : pool QcA) : p_des p = desirability (A := QcA) (p_margin p) (p_pp p) -> 0 < p_pp p -> key_ltb (pool_key p) key_none = true.
  Proof.
    intros E P. unfold pool_key, key_none, key_ltb. assert (D : 0 <= p_des p) by (rewrite E; apply des_nonneg). unfold opp. cbn [eqb ltb sub zero QcA].
    destruct (Qc_eqb_spec (0 - p_des p) 0) as [E1|E1]; [destruct (Qc_eqb_spec (0 - p_pp p) 0) as [E2|E2]|].
    - exfalso. qlra.
    - destruct (Qc_ltb_spec (0 - p_pp p) 0); [reflexivity | exfalso; qlra].
    - destruct (Qc_ltb_spec (0 - p_des p) 0); [reflexivity | exfalso]. apply E1. qlra.
  Qed.
  Lemma nonmyopic_ranked w id r : sane w -> get (w_pools w) id = Some r -> exists s, non_myopic_stake w r (w_rank w) = Ok s /\ 0 < s.
  Proof.
    intros S G. destruct (reg_sound w id r S G) as (p & P1 & _ & P2 & P3 & _). assert (I := sn_inv _ _ _ _ S). assert (RK := i_rank _ _ _ _ _ _ I).
    destruct (rank_ok_index_total QcA_ord _ _ _ _ _ _ _ _ RK (values_In _ _ _ G) P1 eq_refl) as (i & Ei).
    apply (nonmyopic_value w r p _ i P1 Ei P2). intros e Je. apply firstn_nth in Je as (j & Lj & Nj). unfold sl_elems in Nj. rewrite nth_error_map in Nj.
    destruct (nth_error (w_rank w) j) as [[k' e']|] eqn:Ej; [|discriminate]. cbn in Nj. injection Nj as ->. assert (Z := before_index _ _ _ _ (proj1 RK) Ei j k' e Lj Ej).
    apply nth_error_In in Ej. destruct e as [r'|].
    - destruct (proj2 (proj2 RK) _ _ Ej) as (q & Gq & _). exists r', q. auto.
    - assert (E2 := proj2 (proj2 RK) _ _ Ej). cbn in E2. subst k'. rewrite key_before_none in Z; [discriminate | apply (pf_des _ _ _ _ (proj1 P2)) | assumption].
  Qed.

  (** ** utilities *)
  Definition add_pool w (l : sl QcA) (e : option nat) : res (sl QcA) := match e with None => Ok l | Some r => let! p := deref w r in Ok (sl_add (pool_key p) (Some r) l) end.
  Lemma add_pools w refs : forall l, listed w l -> (forall r, In r refs -> exists p, get (w_heap w) r = Some p) ->
    exists l', foldM (add_pool w) (map Some refs) l = Ok l' /\ listed w l' /\ (forall r, In r refs -> In (Some r) (sl_elems l')) /\ forall e, In e (sl_elems l) -> In e (sl_elems l').
  Proof.
    induction refs as [|r refs IH]; intros l L H; cbn [map foldM]; [exists l; repeat split; try assumption; [apply L | apply L | intros r [] | auto]|].
    destruct (H r (or_introl eq_refl)) as (p & G). unfold add_pool at 1, deref. rewrite G. cbn [of_option bind].
    destruct (IH _ (listed_add w l r p L G)) as (l' & E1 & E2 & E3 & E4); [intros; apply H; now right|].
    assert (Z : forall e, e = Some r \/ In e (sl_elems l) -> In e (sl_elems (sl_add (pool_key p) (Some r) l))).
    { intros e J. unfold sl_elems in *. apply (Permutation_in e (Permutation_sym (Permutation_map snd (sl_add_perm QcA (pool_key p) (Some r) l)))). cbn. destruct J as [->|J]; [now left | now right]. }
    exists l'. split; [exact E1|]. split; [exact E2|]. split; [intros r' [<-|J]; [apply E4, Z; now left | now apply E3] | intros e J; apply E4, Z; now right].
  Qed.
  Definition sound_refs w (refs : list nat) : Prop := forall r, In r refs -> exists p, get (w_heap w) r = Some p /\ sound_pool (w_rss w) p.
  Definition sum_own w (f : nat -> pool QcA -> res (T QcA)) (refs : list nat) (u : T QcA) : res (T QcA) := foldM (fun (u : T QcA) r => let! p := deref w r in let! x := f r p in Ok (add (a := QcA) u x)) refs u.
  Lemma sum_own_total w f refs : (forall r, In r refs -> exists p x, get (w_heap w) r = Some p /\ f r p = Ok x) -> forall u, exists u', sum_own w f refs u = Ok u'.
  Proof.
    induction refs as [|r refs IH]; intros H u; cbn; [eauto|]. destruct (H r (or_introl eq_refl)) as (p & x & G & F). unfold deref. rewrite G. cbn [of_option bind]. rewrite F. cbn [bind].
    apply IH. intros; apply H; now right.
  Qed.
  Lemma op_utility_total w ag st : sane w -> a_profile ag <> Abstainer -> sound_refs w (values (s_owned st)) -> exists u, op_utility_strategy w ag st = Ok u.
  Proof.
    intros S Pr H. unfold op_utility_strategy. assert (R := sn_rss _ _ _ _ S). destruct (a_profile ag); [| |contradiction].
    - set (g := fun e : option nat => match e with None => false | Some r => match get (w_heap w) r with Some p => negb (Nat.eqb (p_owner p) (a_id ag)) | None => false end end).
      rewrite (filterM_pure _ g); [|intros e J; destruct (rank_elems w _ _ e S (i_rank _ _ _ _ _ _ (sn_inv _ _ _ _ S)) J) as [->|(r & id & p & -> & _ & G & _)]; cbn; [reflexivity|]; unfold deref; rewrite G; reflexivity].
      cbn [bind].
      assert (O : exists refs, filter g (sl_elems (w_rank w)) = map Some refs /\ forall r, In r refs -> exists p, get (w_heap w) r = Some p).
      { induction (sl_elems (w_rank w)) as [|e l (refs & E & Hr)]; [exists []; split; [reflexivity | intros r []]|]. cbn [filter]. destruct (g e) eqn:Eg; [|exists refs; auto].
        destruct e as [r|]; [|discriminate]. cbn in Eg. destruct (get (w_heap w) r) as [p|] eqn:G; [|discriminate]. exists (r :: refs). split; [cbn; now rewrite E|]. intros r' [<-|J]; [eauto | now apply Hr]. }
      destruct O as (refs & -> & Hr). destruct (add_pools w refs []) as (t0 & E0 & L0 & _); [split; [constructor | intros k e []] | assumption|].
      match goal with |- context [foldM ?f (map Some refs) []] => change f with (add_pool w) end. rewrite E0. cbn [bind].
      destruct (add_pools w (values (s_owned st)) t0 L0) as (t1 & E1 & L1 & I1 & _); [intros r J; destruct (H r J) as (p & G & _); eauto|]. 
      match goal with |- context [foldM ?f (map Some (values (s_owned st))) t0] => change f with (add_pool w) end. rewrite E1. cbn [bind].
      destruct (sum_own_total w (fun r p => let! s := non_myopic_stake w r t1 in pool_operator_utility w s p) (values (s_owned st))) with (u := zero (a := QcA)) as (u & Eu).
      { intros r J. destruct (H r J) as (p & G & Sp). destruct (nonmyopic_listed w t1 r p L1 (I1 r J) G Sp) as (s & Es & Ps). exists p. rewrite Es. cbn [bind]. unfold pool_operator_utility. rewrite (op_util_ok _ R) by now apply Qc_pos_neq. eauto. }
      exists u. etransitivity; [|exact Eu]. unfold sum_own. apply foldM_ext. intros u0 r J. destruct (deref w r); [|reflexivity]. cbn [bind]. destruct (non_myopic_stake w r t1); reflexivity.
    - destruct (sum_own_total w (fun r p => pool_operator_utility w (p_stake p) p) (values (s_owned st))) with (u := zero (a := QcA)) as (u & Eu).
      { intros r J. destruct (H r J) as (p & G & Sp). destruct (sound_stake _ _ Sp). exists p. unfold pool_operator_utility. rewrite (op_util_ok _ R); [eauto|]. apply Qc_pos_neq. qlra. }
      exists u. exact Eu.
  Qed.
  Lemma del_utility_total w ag st id r (a : Qc) : sane w -> a_profile ag <> Abstainer -> a_strategy ag = Some st -> (forall id, al (a_id ag) id = get (s_alloc st) id) -> get (w_pools w) id = Some r -> 0 <= a ->
    exists u, del_utility_pool w ag r a = Ok u.
  Proof.
    intros S Pr Gs Eal G Ha. destruct (reg_sound w id r S G) as (p & P1 & P2 & P3 & P4 & P5). assert (R := sn_rss _ _ _ _ S). destruct (sound_stake _ _ P3) as [P6 P7].
    unfold del_utility_pool, the_strategy. rewrite Gs. cbn [of_option bind]. unfold deref. rewrite P1. cbn [of_option bind]. rewrite P2.
    set (prev := match get (s_alloc st) id with Some v => v | None => zero end).
    assert (C : 0 < p_stake p - prev + a). { unfold prev. rewrite <- Eal, <- P5. destruct (get (p_delegators p) (a_id ag)) as [v|] eqn:Ev; [assert (Z := sound_without _ _ _ _ P3 Ev); qlra|]. cbn [zero QcA]. qlra. }
    assert (Du : forall s : Qc, 0 < s -> exists u, delegator_utility (A := QcA) (w_rss w) a s (p_pledge p) (p_margin p) (p_cost p) = Ok u) by (intros s Hs; rewrite (del_util_ok _ R) by (now apply Qc_pos_neq); eauto).
    destruct (nonmyopic_ranked w id r S G) as (s & Es & Ps). destruct (a_profile ag); [| |contradiction].
    - rewrite Es. cbn [bind]. apply Du. rewrite pmax_max. eapply Qclt_le_trans; [exact Ps | apply Qcmax_l].
    - cbn [bind]. apply Du. exact C.
  Qed.
  Lemma expected_total w ag st new : sane w -> a_profile ag <> Abstainer -> a_strategy ag = Some st -> (forall id, al (a_id ag) id = get (s_alloc st) id) ->
    sound_refs w (values (s_owned new)) -> (forall id v, In (id, v) (s_alloc new) -> 0 <= v) -> exists u, expected_utility w ag new = Ok u.
  Proof.
    intros S Pr Gs Eal H Hv. unfold expected_utility.
    assert (U : exists u, match s_owned new with [] => Ok (zero (a := QcA)) | _ => let! x := op_utility_strategy w ag new in Ok (add (a := QcA) zero x) end = Ok u).
    { destruct (s_owned new) eqn:E; [eauto|]. rewrite <- E in H. destruct (op_utility_total w ag new S Pr H) as (u & ->). cbn [bind]. eauto. }
    destruct U as (u & ->). cbn [bind]. destruct (foldM_total (fun u (e : nat * Qc) => let '(id, a) := e in match get (w_pools w) id with None => Ok u | Some r => let! du := del_utility_pool w ag r a in Ok (add (a := QcA) u du) end) (fun _ => True) (s_alloc new) u I) as (u' & E' & _).
    { intros u0 [id v] J _. destruct (get (w_pools w) id) as [r|] eqn:G; [|eauto]. destruct (del_utility_total w ag st id r v S Pr Gs Eal G (Hv _ _ J)) as (x & ->). cbn. eauto. }
    exists u'. exact E'.
  Qed.
  Lemma owned_sound w ag st : sane w -> (forall id, ow (a_id ag) id = get (s_owned st) id) -> NoDup (keys (s_owned st)) -> sound_refs w (values (s_owned st)).
  Proof.
    intros S E N r J. apply In_values in J as (id & J); [|assumption]. rewrite <- E in J. destruct (i_own _ _ _ _ _ _ (sn_inv _ _ _ _ S) _ _ _ J) as [G _]. destruct (reg_sound w id r S G) as (p & P1 & _ & P2 & _). eauto.
  Qed.
  Lemma alloc_pos w ag st : sane w -> (forall id, al (a_id ag) id = get (s_alloc st) id) -> NoDup (keys (s_alloc st)) -> forall id v, In (id, v) (s_alloc st) -> 0 <= v /\ exists r, get (w_pools w) id = Some r.
  Proof.
    intros S E N id v J. apply In_get in J; [|assumption]. rewrite <- E in J. apply (i_al _ _ _ _ _ _ (sn_inv _ _ _ _ S)) in J as [J (r & p & G & _)]. split; [|eauto].
    apply ltb_MIN_false in J. apply Qcle_trans with MIN; [discriminate | exact J].
  Qed.
  Lemma current_total w ag st : sane w -> a_strategy ag = Some st -> (forall id, al (a_id ag) id = get (s_alloc st) id) -> (forall id, ow (a_id ag) id = get (s_owned st) id) -> NoDup (keys (s_alloc st)) -> NoDup (keys (s_owned st)) ->
    exists u, current_utility w ag = Ok u.
  Proof.
    intros S Gs Eal Eow Nal Now. assert (R := sn_rss _ _ _ _ S). unfold current_utility, the_strategy. rewrite Gs. cbn [of_option bind].
    destruct (sum_own_total w (fun r p => pool_operator_utility w (p_stake p) p) (values (s_owned st))) with (u := zero (a := QcA)) as (u & Eu).
    { intros r J. destruct (owned_sound w ag st S Eow Now r J) as (p & G & Sp). destruct (sound_stake _ _ Sp). exists p. unfold pool_operator_utility. rewrite (op_util_ok _ R); [eauto|]. apply Qc_pos_neq. qlra. }
    unfold sum_own in Eu. match goal with |- context [foldM ?f (values _) _] => match type of Eu with foldM ?g _ _ = _ => change f with g end end. rewrite Eu. cbn [bind].
    match goal with |- context [foldM ?f (s_alloc st) u] => destruct (foldM_total f (fun _ => True) (s_alloc st) u I) as (u' & E' & _) end; [|eauto].
    intros u0 [id v] J _. destruct (alloc_pos w ag st S Eal Nal id v J) as (_ & r & G). destruct (reg_sound w id r S G) as (p & P1 & _ & P2 & _). destruct (sound_stake _ _ P2).
    unfold the_pool, deref. rewrite G. cbn [of_option bind]. rewrite P1. cbn [of_option bind]. rewrite (del_util_ok _ R); [cbn; eauto|]. apply Qc_pos_neq. qlra.
  Qed.

  (** ** an agent with the strategy [st] *)
  Section Agent.
  Variables (ag : agent QcA) (st : strategy QcA) (so : list nat -> list nat -> list nat).
  Hypothesis so_perm : forall c l, Permutation (so c l) l.
  Hypothesis Hst : a_strategy ag = Some st.
  Hypothesis Eal : forall id, al (a_id ag) id = get (s_alloc st) id.
  Hypothesis Eow : forall id, ow (a_id ag) id = get (s_owned st) id.
  Hypothesis Na : NoDup (keys (s_alloc st)).
  Hypothesis No : NoDup (keys (s_owned st)).
  Hypothesis Pr : a_profile ag <> Abstainer.
  Hypothesis Sp : 0 < a_stake ag.
  Notation uid := (a_id ag).

  Lemma sane_efr w w' : sane w -> Inv NPF True m al ow w' -> efr uid w w' -> sane w'.
  Proof.
    intros S I' E. destruct E as ((E1 & _ & _ & _ & _ & _ & _ & E8 & _) & _ & _ & Es & _). destruct S as [S1 S2 S3 S4 S5 S6]. constructor; rewrite ?E1; try assumption.
    intros id r p G H. rewrite E8 in G. destruct (i_reg _ _ _ _ _ _ S1 _ _ G) as (q & Q & _). destruct (Es r q Q) as (q' & Q' & St). rewrite H in Q'. injection Q' as <-. rewrite St. cbn. now apply (S6 id r).
  Qed.
  Lemma rankings_total w : sane w -> exists rk K, rankings w ag = Ok rk /\ rank_ok K (w_heap w) m (values (w_pools w)) rk.
  Proof.
    intros S. assert (I := sn_inv _ _ _ _ S). unfold rankings. destruct (a_profile ag); [| |contradiction]; do 2 eexists; (split; [reflexivity|]); [exact (i_rank _ _ _ _ _ _ I) | exact (i_rankm _ _ _ _ _ _ I)].
  Qed.
  Lemma filter_pools w rk K (b : bool) (f : pool QcA -> bool) : sane w -> rank_ok K (w_heap w) m (values (w_pools w)) rk ->
    filterM (fun e => match e with None => Ok b | Some r => let! p := deref w r in Ok (f p) end) (sl_elems rk) =
    Ok (filter (fun e => match e with None => b | Some r => match get (w_heap w) r with Some p => f p | None => false end end) (sl_elems rk)).
  Proof.
    intros S R. apply filterM_pure. intros e J. destruct (rank_elems w K rk e S R J) as [->|(r & id & p & -> & _ & G & _)]; [reflexivity|]. unfold deref. now rewrite G.
  Qed.
  Lemma filter_nones (g : option nat -> bool) (l : list (option nat)) n refs : g None = true -> Permutation l (repeat None n ++ map Some refs) -> (n <= length (filter g l))%nat.
  Proof.
    intros G P. rewrite (Permutation_length (filter_perm g _ _ P)), filter_app, app_length. assert (E : filter g (repeat None n) = repeat None n); [|rewrite E, repeat_length; lia].
    clear P. induction n as [|n IH]; cbn; [reflexivity|]. rewrite G. now f_equal.
  Qed.
  Lemma fixed_total w : sane w -> exists fixed, fixed_pools_ranked w ag = Ok fixed /\ (Z.to_nat (r_k (w_rss w)) < length fixed)%nat /\
    forall e, In e fixed -> e = None \/ exists r p, e = Some r /\ get (w_heap w) r = Some p /\ sound_pool (w_rss w) p.
  Proof.
    intros S. destruct (rankings_total w S) as (rk & K & Hrk & R). unfold fixed_pools_ranked. rewrite Hrk. cbn [bind]. rewrite (filter_pools w rk K true (fun p => negb (Nat.eqb (p_owner p) uid)) S R).
    eexists. split; [reflexivity|]. split.
    - assert (N := filter_nones (fun e => match e with None => true | Some r => match get (w_heap w) r with Some p => negb (Nat.eqb (p_owner p) uid) | None => false end end) _ _ _ eq_refl (proj1 (proj2 R))).
      assert (Em := sn_m _ _ _ _ S). assert (Hk := sn_k _ _ _ _ S). eapply Nat.lt_le_trans; [|exact N]. lia.
    - intros e J. apply filter_In in J as [J _]. destruct (rank_elems w K rk e S R J) as [->|(r & id & p & -> & _ & G & Sd)]; [now left|]. right. exists r, p. auto.
  Qed.
  Lemma margins_total w n : sane w -> (1 <= n <= r_k (w_rss w))%Z -> exists ms u, margins_and_utility w ag n = Ok (ms, u).
  Proof.
    intros S Hn. assert (R := sn_rss _ _ _ _ S). destruct (fixed_total w S) as (fixed & Hf & Lf & Ff).
    destruct (cost_ok n (a_cost ag) (w_phi w)) as (cost & Hc); [lia|]. destruct (pledge_ok (w_rss w) R n (a_stake ag)) as (pledge & Hp & Pp); [lia | assumption|].
    assert (Ps := thr_pos _ R pledge (sn_cip _ _ _ _ S) Pp).
    assert (Ix : forall t, In t (zrange 1 (n + 1)) -> exists e, py_index fixed (r_k (w_rss w) - t) = Ok e /\ (e = None \/ exists r p, e = Some r /\ get (w_heap w) r = Some p /\ sound_pool (w_rss w) p)).
    { intros t J. apply zrange_In in J. destruct (py_index_ok fixed (r_k (w_rss w) - t)) as (e & E & _); [lia|]. exists e. split; [assumption|]. apply Ff. now apply py_index_In in E. }
    unfold margins_and_utility, agent_cost_per_pool, agent_pledge_per_pool. destruct (a_profile ag) eqn:Ep; [| |contradiction].
    - rewrite Hc. cbn [bind]. rewrite Hp. cbn [bind]. rewrite potential_profit_ok by assumption. cbn [bind]. rewrite Hf. cbn [bind].
      match goal with |- context [foldM ?f ?l ?a] => destruct (foldM_total f (fun _ => True) l a I) as ([ms u] & E & _) end; [|eauto].
      intros [ms u] t J _. destruct (Ix t J) as (e & -> & He). cbn [bind].
      assert (D : exists dp, match e with None => Ok (zero (a := QcA), zero (a := QcA)) | Some r => let! p := deref w r in Ok (p_des p, p_pp p) end = Ok dp).
      { destruct He as [->|(r & p & -> & G & _)]; [eauto|]. unfold deref. rewrite G. cbn. eauto. }
      destruct D as (dp & ->). cbn [bind]. destruct (ltb _ _); [rewrite (op_util_ok _ R) by (now apply Qc_pos_neq); cbn; eauto|]. rewrite suitable_margin_ok. cbn [bind].
      rewrite (op_util_ok _ R) by (now apply Qc_pos_neq). cbn. eauto.
    - rewrite Hc. cbn [bind]. rewrite Hp. cbn [bind]. unfold the_strategy. rewrite Hst. cbn [of_option bind].
      destruct (mapM_total (deref w) (values (s_owned st))) as (owned & ->). { intros r J. destruct (owned_sound w ag st S Eow No r J) as (p & G & _). unfold deref. rewrite G. cbn. eauto. }
      cbn [bind]. rewrite pdiv_ok by (apply Qc_pos_neq, Qc_ofZ_pos; lia). cbn [bind]. rewrite current_profit_ok by assumption. cbn [bind]. rewrite Hf. cbn [bind].
      match goal with |- context [foldM ?f ?l ?a] => destruct (foldM_total f (fun _ => True) l a I) as ([ms u] & E & _) end; [|eauto].
      intros [ms u] t J _. destruct (Ix t J) as (e & -> & He). cbn [bind].
      assert (D : exists dp, match e with None => Ok (zero (a := QcA)) | Some r => let! p := deref w r in let! cp := current_profit (w_rss w) (p_stake p) (p_pledge p) (p_cost p) in Ok (desirability (p_margin p) cp) end = Ok dp).
      { destruct He as [->|(r & p & -> & G & _)]; [eauto|]. unfold deref. rewrite G. cbn [of_option bind]. rewrite current_profit_ok by assumption. cbn. eauto. }
      destruct D as (dp & ->). cbn [bind]. rewrite suitable_margin_ok. cbn [bind]. rewrite (op_util_ok _ R) by (now apply Qc_pos_neq). cbn. eauto.
  Qed.

  (** ** delegation *)
  Lemma not_private w id v r p : sane w -> al uid id = Some v -> get (w_pools w) id = Some r -> get (w_heap w) r = Some p -> p_owner p <> uid /\ p_private p = false.
  Proof.
    intros S L G H. assert (I := sn_inv _ _ _ _ S). destruct (i_al _ _ _ _ _ _ I _ _ _ L) as (_ & r' & p' & G' & H' & O). rewrite G in G'. injection G' as <-. rewrite H in H'. injection H' as <-. split; [assumption|].
    destruct (p_private p) eqn:E; [|reflexivity]. destruct (i_reg _ _ _ _ _ _ I _ _ G) as (q & Q & _ & _ & _ & _ & _ & Z). rewrite H in Q. injection Q as <-. specialize (Z Logic.I E).
    apply (i_del _ _ _ _ _ _ I id r p) in L; [|assumption|assumption]. rewrite Z in L. discriminate.
  Qed.
  Lemma stake_allocations_total w (s : Qc) : sane w -> exists w' d, stake_allocations w ag s = Ok (w', d).
  Proof.
    intros S. assert (I := sn_inv _ _ _ _ S). assert (K := kt_ok _ (sn_rss _ _ _ _ S)). destruct (rankings_total w S) as (rk & Kf & Hrk & R). unfold stake_allocations. rewrite Hrk. cbn [bind].
    rewrite (filter_pools w rk Kf false (fun p => negb (Nat.eqb (p_owner p) uid) && negb (p_private p)) S R). cbn [bind].
    set (el := filter _ _). assert (Hel : forall e, In e el -> exists r p, e = Some r /\ get (w_heap w) r = Some p).
    { intros e J. apply filter_In in J as [_ J]. destruct e as [r|]; [|discriminate]. destruct (get (w_heap w) r) as [p|] eqn:G; [|discriminate]. eauto. }
    clearbody el. destruct el as [|e0 el]; [eauto|]. remember (e0 :: el) as L. clear HeqL. unfold the_strategy. rewrite Hst. cbn [of_option bind].
    rewrite touches_zeros_keys.
    assert (Reg : forall id, In id (keys (s_alloc st)) -> exists r, get (w_pools w) id = Some r). { intros id J. apply get_Some_key in J as (v & J). apply get_In in J. now destruct (alloc_pos w ag st S Eal Na id v J) as (_ & Z). }
    destruct (zeros_total QcA_ord MP_Qc NPF True (E_NP_upd False True) m al ow uid (keys (s_alloc st)) w I K Reg) as (w1 & H1). rewrite H1. cbn [bind].
    assert (F1 := touches_frame _ _ _ _ H1). assert (I1 := zeros_inv QcA_ord MP_Qc NPF True (E_NP_upd False True) m al ow uid _ w w1 I H1).
    assert (Fl := tframe_fields _ _ _ F1). destruct Fl as (R1 & _ & _ & _ & _ & _ & _ & _ & P1 & _). destruct F1 as (_ & _ & F1).
    match goal with |- context [mapM ?f L] => destruct (mapM_total f L) as (pools & ->) end.
    { intros e J. destruct (Hel e J) as (r & p & -> & G). destruct (F1 r p G) as (p' & G' & _). unfold deref. rewrite G'. cbn. eauto. }
    cbn [bind]. change (foldM (fun w e => touch_delegation uid w (fst e) (snd e)) (s_alloc st) w1) with (touches uid (s_alloc st) w1).
    destruct (touches_total QcA_ord MP_Qc NPF True (E_NP_upd False True) m ow uid (s_alloc st) _ w1 I1) as (w2 & ->); [now rewrite R1 | | | | cbn; eauto].
    - intros id v J. right. apply In_get in J; [|assumption]. rewrite <- Eal in J. now apply (i_al _ _ _ _ _ _ I) in J.
    - intros id v J. rewrite P1. apply Reg. apply (in_map fst) in J. exact J.
    - intros id v r p J _ G H. rewrite P1 in G. apply In_get in J; [|assumption]. rewrite <- Eal in J. destruct (i_reg _ _ _ _ _ _ I _ _ G) as (q & Q & _). destruct (F1 r q Q) as (q' & Q' & St). rewrite H in Q'. injection Q' as <-.
      destruct (not_private w id v r q S J G Q) as [Z1 Z2]. rewrite St. cbn. auto.
  Qed.
  Lemma delegation_total w (s : Qc) : sane w -> exists w' new, find_delegation_move w ag s = Ok (w', new) /\ sane w' /\ efr uid w w' /\ s_owned new = [] /\ alloc_ok w' uid (s_alloc new).
  Proof.
    intros S. assert (E : exists w' new, find_delegation_move w ag s = Ok (w', new)).
    { unfold find_delegation_move. destruct (ltb _ _); [eauto|]. destruct (stake_allocations_total w s S) as (w' & d & ->). cbn. eauto. }
    destruct E as (w' & new & E). exists w', new. split; [assumption|].
    destruct (delegation_move_spec QcA_ord MP_Qc nonneg NPF True (E_NP_upd False True) E_TG_z m al ow ag st Hst Eal Na w s w' new (sn_inv _ _ _ _ S) E) as (I' & X & _ & _ & O & A & _).
    split; [eapply sane_efr; eassumption|]. auto.
  Qed.
  Lemma alloc_ok_pos w d : alloc_ok (A := QcA) w uid d -> forall id v, In (id, v) d -> 0 <= v.
  Proof. intros [N A] id v J. apply In_get in J; [|assumption]. destruct (A id v J) as [J1 _]. apply ltb_MIN_false in J1. apply Qcle_trans with MIN; [discriminate | exact J1]. Qed.

  (** ** operating pools *)
  Lemma copies_total todo : forall (w0 w : world QcA) d, hext w0 w -> (forall id r, In (id, r) todo -> exists p, get (w_heap w0) r = Some p) -> (forall r p, get (w_heap w0) r = Some p -> (r < w_next w0)%nat) -> exists x, foldM copy_one todo (w, d) = Ok x.
  Proof.
    induction todo as [|[id r] todo IH]; intros w0 w d X H F; cbn [foldM]; [eauto|]. destruct (H id r (or_introl eq_refl)) as (p & G). unfold copy_one at 1, deepcopy, deref.
    assert (G' : get (w_heap w) r = Some p) by (destruct X as (_ & _ & _ & _ & _ & X); rewrite X by (eapply F; eassumption); assumption). rewrite G'. cbn [of_option bind].
    apply (IH w0 (fst (alloc w p))); [now apply hext_alloc | intros; eapply H; right; eassumption | assumption].
  Qed.
  Lemma keep_total w n : sane w -> exists w1 d, pools_to_keep so w ag n = Ok (w1, d).
  Proof.
    intros S. assert (I := sn_inv _ _ _ _ S). assert (Fr : fresh_ok w) by exact (i_fresh _ _ _ _ _ _ I).
    assert (Ow : forall id r, In (id, r) (s_owned st) -> exists p, get (w_heap w) r = Some p). { intros id r J. assert (J' : In r (values (s_owned st))) by (apply (in_map snd) in J; exact J). destruct (owned_sound w ag st S Eow No r J') as (p & G & _). eauto. }
    unfold pools_to_keep, the_strategy. rewrite Hst. cbn [of_option bind].
    change (fun (acc : world QcA * dict nat) (e : nat * nat) => let '(w, d) := acc in let '(id, r) := e in let! wr := deepcopy w r in let '(w', r') := wr in Ok (w', set d id r')) with (copy_one (A := QcA)).
    assert (C : forall todo, (forall id r, In (id, r) todo -> exists p, get (w_heap w) r = Some p) -> exists w1 d, foldM copy_one todo (w, []) = Ok (w1, d)).
    { intros todo H. destruct (copies_total todo w w [] (hext_refl w Fr) H Fr) as ([w1 d] & E). eauto. }
    destruct (Z.ltb_spec n (Z.of_nat (length (s_owned st)))); [|now apply C].
    match goal with |- context [mapM ?f (s_owned st)] => destruct (mapM_total f (s_owned st)) as (props & Hp) end.
    { intros [id r] J. destruct (Ow id r J) as (p & G). unfold deref. rewrite G. cbn. eauto. }
    rewrite Hp. cbn [bind]. set (ids := map (fun x => snd x) (nlargest (Z.to_nat n) props)).
    assert (Inc : incl ids (keys (s_owned st))).
    { intros id J. apply in_map_iff in J as (x & Ex & J). unfold nlargest in J. assert (J2 : In x props). { apply (Permutation_in _ (sort_desc_perm props)). rewrite <- (firstn_skipn (Z.to_nat n)). apply in_app_iff. now left. }
      apply mapM_ok in Hp. clear -Hp J2 Ex. induction Hp as [|[id' r] y l l' Hy Hp IH]; [destruct J2|]. destruct J2 as [->|J2]; [|right; now apply IH]. left. apply bind_ok in Hy as (p & _ & [= <-]). exact Ex. }
    match goal with |- context [mapM ?f (so ids ids)] => destruct (mapM_total f (so ids ids)) as (todo & Ht) end.
    { intros id J. apply (Permutation_in _ (so_perm _ _)) in J. apply Inc, get_Some_key in J as (r & J). rewrite J. cbn. eauto. }
    rewrite Ht. cbn [bind]. apply C. intros id r J. apply mapM_ok in Ht. assert (Z : get (s_owned st) id = Some r).
    { clear -Ht J. induction Ht as [|id' e l l' He Ht IH]; [destruct J|]. destruct J as [->|J]; [|now apply IH]. apply bind_ok in He as (r' & Hr & [= <- <-]). now apply of_option_ok in Hr. }
    apply get_In in Z. now apply (Ow id r).
  Qed.
  Lemma margin_at_total (w : world QcA) ms i p : (i < length ms)%nat -> exists x, margin_at w ag ms i p = Ok x.
  Proof. intros L. unfold margin_at. destruct (nth_error ms i) eqn:E; [eauto|]. apply nth_error_None in E. lia. Qed.
  Lemma profit_total rs (p : pool QcA) : rss_ok rs -> exists q, pool_set_profit rs p = Ok q.
  Proof. intros R. unfold pool_set_profit. rewrite potential_profit_ok by assumption. cbn. eauto. Qed.
  Lemma adjust_all_total w0 (pledge cost : Qc) ms owned : rss_ok (w_rss w0) -> forall (w : world QcA) i, w_rss w = w_rss w0 -> (forall id r, In (id, r) owned -> exists p, get (w_heap w) r = Some p) -> (i + length owned <= length ms)%nat ->
    exists x, foldM (adjust_one ag pledge cost ms) owned (w, i) = Ok x.
  Proof.
    intros R. induction owned as [|[id r] owned IH]; intros w i Er H L; cbn [foldM]; [eauto|]. cbn [length] in L. destruct (H id r (or_introl eq_refl)) as (p & G).
    unfold adjust_one at 1, deref. cbn [snd]. rewrite G. cbn [of_option bind]. unfold adjust_pool. rewrite Er.
    match goal with |- context [pool_set_profit ?rs ?p0] => destruct (profit_total rs p0 R) as (q & ->) end. cbn [bind]. destruct (margin_at_total w ms i q) as (x & ->); [lia|]. cbn [bind].
    apply IH; [exact Er | | lia]. intros id' r' J. cbn [w_heap store with_heap]. rewrite get_set. destruct (Nat.eqb r r'); [eauto|]. apply (H id'). now right.
  Qed.
  Lemma draft_all_total w0 (pledge cost : Qc) ms l : rss_ok (w_rss w0) -> forall (w : world QcA) d, w_rss w = w_rss w0 -> (forall i, In i l -> (i < length ms)%nat) -> exists x, foldM (draft_one ag pledge cost ms) l (w, d) = Ok x.
  Proof.
    intros R. induction l as [|i l IH]; intros w d Er H; cbn [foldM]; [eauto|]. unfold draft_one at 1, next_pool_id, draft_pool, new_pool. cbn [w_rss with_idseq]. rewrite Er.
    rewrite potential_profit_ok by assumption. cbn [bind].
    match goal with |- context [margin_at ?w1 ag ms i ?p0] => destruct (margin_at_total w1 ms i p0) as (x & ->) end; [apply H; now left|]. cbn [bind]. apply IH; [exact Er|]. intros; apply H; now right.
  Qed.
  Lemma draft_all_hext w0 (pledge cost : Qc) ms l : forall (w w3 : world QcA) d d3, hext w0 w -> foldM (draft_one ag pledge cost ms) l (w, d) = Ok (w3, d3) -> hext w0 w3.
  Proof.
    induction l as [|i l IH]; intros w2 w3 d d3 X H; cbn [foldM] in H; [now injection H as <- _|].
    apply bind_ok in H as ([w4 d4] & H4 & H). apply (IH w4 w3 d4 d3); [|exact H]. unfold draft_one, next_pool_id in H4. apply bind_ok in H4 as (p & _ & H4). injection H4 as <- _.
    apply (hext_alloc w0 (with_idseq (S (w_idseq w2)) w2) p). now apply hext_idseq.
  Qed.
  Lemma operator_total w n ms : sane w -> (1 <= n)%Z -> Forall (margin_src (A := QcA) nonneg) ms -> length ms = Z.to_nat n -> forall w1 d, pools_to_keep so w ag n = Ok (w1, d) ->
    exists w' new, find_operator_move w1 ag n d ms = Ok (w', new).
  Proof.
    intros S Hn Fm Lm w1 d Hk. assert (I := sn_inv _ _ _ _ S). assert (R := sn_rss _ _ _ _ S). assert (Fr : fresh_ok w) by exact (i_fresh _ _ _ _ _ _ I).
    assert (OF := owned_fresh NPF True m al ow ag st Eow w I).
    destruct (pools_to_keep_spec so so_perm w ag st n w1 d Fr Hst No) as (X1 & Es1 & Nd & Inc & Len & Hd); [intros id r G; now destruct (OF id r G) | exact Hk |].
    assert (Rss1 : w_rss w1 = w_rss w) by apply X1.
    destruct (pledge_ok (w_rss w) R n (a_stake ag)) as (pledge & Hp & Pp); [lia | assumption|]. destruct (cost_ok n (a_cost ag) (w_phi w1)) as (cost & Hc); [lia|].
    unfold find_operator_move, agent_pledge_per_pool, agent_cost_per_pool. rewrite Rss1, Hp. cbn [bind]. rewrite Hc. cbn [bind].
    change (fun (acc : world QcA * nat) (e : nat * nat) => let '(w, i) := acc in let! p := deref w (snd e) in let! p' := adjust_pool w ag pledge cost ms i p in Ok (store w (snd e) p', Datatypes.S i)) with (adjust_one ag pledge cost ms).
    change (fun (acc : world QcA * dict nat) (i : nat) => let '(w, d) := acc in let '(w', id) := next_pool_id w in let! p := draft_pool w' ag pledge cost ms i id in
      let '(w'', r) := alloc w' p in Ok (w'', set d id r)) with (draft_one ag pledge cost ms).
    destruct (adjust_all_total w1 pledge cost ms d) with (w := w1) (i := 0%nat) as ([w2 i2] & H2); [now rewrite Rss1 | reflexivity | | rewrite Lm, Len by lia; lia |].
    { intros id r J. apply In_get in J; [|assumption]. destruct (Hd id r J) as (r0 & p & _ & _ & G & _). eauto. }
    rewrite H2. cbn [bind fst].
    assert (Nsnd : NoDup (map snd d)).
    { assert (Eid : forall id r, In (id, r) d -> exists p, get (w_heap w1) r = Some p /\ p_id p = id).
      { intros id r J. apply In_get in J; [|assumption]. destruct (Hd id r J) as (r0 & p & J1 & J2 & J3 & J4). exists p. split; [assumption|]. destruct (OF _ _ J1) as (_ & _ & p' & G' & K1 & _). rewrite J2 in G'. injection G' as <-. exact K1. }
      clear -Nd Eid. induction d as [|[id r] d IH]; [constructor|]. cbn in Nd. apply NoDup_cons_iff in Nd as [N1 N2]. cbn. constructor.
      - intros J. apply N1. apply in_map_iff in J as ([id' r'] & E & J). cbn in E. subst r'. destruct (Eid id r (or_introl eq_refl)) as (p & J3 & J4). destruct (Eid id' r (or_intror J)) as (p1 & J3' & J4'). replace id with id' by congruence. now apply (in_map fst) in J.
      - apply IH; [assumption|]. intros; apply Eid; now right. }
    destruct (adjust_all_spec (A := QcA) nonneg w ag pledge cost ms Fm d w1 0 w2 i2 Nsnd X1) as (X2 & En2 & Es2 & _ & Hadj); [intros id r J; apply In_get in J; [|assumption]; now destruct (Hd id r J) as (? & ? & ? & ? & ? & ?) | rewrite Lm, Len by lia; lia | exact H2 |].
    assert (Rss2 : w_rss w2 = w_rss w) by apply X2.
    destruct (draft_all_total w pledge cost ms (seq (length d) (Z.to_nat n - length d)) R w2 d Rss2) as ([w3 d3] & H3). { intros i J. apply in_seq in J. lia. }
    rewrite H3. cbn [bind].
    assert (Idle : hext w w3).
    { eapply draft_all_hext; eassumption. }
    assert (S3 : sane w3). { eapply sane_efr; [exact S | eapply hext_inv; eassumption | now apply hext_efr]. }
    unfold find_delegation_for_operator. destruct (ltb _ _); [|cbn; eauto].
    match goal with |- context [find_delegation_move w3 ag ?s] => destruct (delegation_total w3 s S3) as (w4 & s4 & -> & _) end. cbn. eauto.
  Qed.
  Lemma made_sound w w' n (pledge cost : Qc) id r : sane w -> (1 <= n)%Z -> agent_pledge_per_pool w ag n = Ok pledge -> agent_cost_per_pool w ag n = Ok cost -> w_rss w' = w_rss w ->
    made (A := QcA) nonneg ag st pledge cost w w' id r -> exists p, get (w_heap w') r = Some p /\ sound_pool (w_rss w') p /\ p_pledge p = pledge /\ p_cost p = cost.
  Proof.
    intros S Hn Hp Hc Er (_ & p & G & _ & _ & P & Q). exists p. split; [assumption|]. rewrite Er.
    assert (AF : agent_facts True True (w_rss w) (a_stake ag)) by (split; intros _; [now apply Qclt_le_weak | split; [assumption | apply (sn_rss _ _ _ _ S)]]).
    split; [|now destruct P as (P1 & P2 & _)].
    destruct (get (s_owned st) id) as [r0|] eqn:E0.
    - destruct Q as (p0 & G0 & Q1 & Q2). rewrite <- Eow in E0. destruct (i_own _ _ _ _ _ _ (sn_inv _ _ _ _ S) _ _ _ E0) as [E1 _]. destruct (reg_sound w id r0 S E1) as (p0' & G0' & _ & Sd & _). rewrite G0 in G0'. injection G0' as <-.
      destruct Sd as (F0 & N0 & V0). split; [|rewrite Q2; auto]. eapply (E_NP_made False True True _ _ _ _ n p); [exact AF | exact Hn | exact Hp | exact Hc | exact P|]. right. exists p0. auto.
    - destruct Q as (_ & Q1 & Q2). split; [|rewrite Q2; split; [constructor | discriminate]]. eapply (E_NP_made False True True _ _ _ _ n p); [exact AF | exact Hn | exact Hp | exact Hc | exact P|]. now left.
  Qed.
  Lemma choose_total w : sane w -> exists x, choose_pool_strategy so w ag = Ok x.
  Proof.
    intros S. assert (I := sn_inv _ _ _ _ S). unfold choose_pool_strategy.
    set (u := fun t => match margins_and_utility w ag t with Ok (_, x) => x | Err _ => zero (a := QcA) end).
    assert (D : defined_on (margins_and_utility w ag) (r_k (w_rss w)) u). { intros t Ht. destruct (margins_total w t S Ht) as (ms & x & E). exists ms. unfold u. now rewrite E. }
    destruct (C21_search_ends_at_a_local_maximum QcA QcA_ord _ _ _ u (sn_k _ _ _ _ S) D) as (t & ms & Es & Ht & Em & _). rewrite Es. cbn [bind].
    destruct (Z.ltb_spec 0 t); [|lia]. apply (margins_src (A := QcA) nonneg NPF True E_TG_d E_TG_z (E_TG_np False True) m al ow) in Em as [Fm Lm]; [|assumption].
    destruct (keep_total w t S) as (w1 & d & Hk). rewrite Hk. cbn [bind]. destruct (operator_total w t ms S ltac:(lia) Fm ltac:(apply Lm; lia) w1 d Hk) as (w2 & new & Ho). rewrite Ho. cbn [bind].
    destruct (operator_move_spec QcA_ord MP_Qc so so_perm nonneg NPF True (E_NP_upd False True) E_TG_z m al ow ag st Hst Eal Eow Na No w t w1 d ms w2 new I ltac:(lia) Fm ltac:(apply Lm; lia) Hk Ho) as (I2 & E2 & (pledge & cost & Hp & Hc & Nd & _ & Hm & Ha & _)).
    assert (S2 := sane_efr w w2 S I2 E2). destruct (expected_total w2 ag st new S2 Pr Hst Eal) as (x & ->); [| now apply (alloc_ok_pos w2) | cbn; eauto].
    intros r J. apply In_values in J as (id & J); [|assumption]. destruct (made_sound w w2 t pledge cost id r S ltac:(lia) Hp Hc ltac:(apply E2) (Hm id r J)) as (p & G & Sd & _). eauto.
  Qed.
  Lemma update_total w : sane w -> get (w_agents w) uid = Some ag -> exists w', update_strategy so w uid = Ok w'.
  Proof.
    intros S G. unfold update_strategy, the_agent. rewrite G. cbn [of_option bind].
    destruct (current_total w ag st S Hst Eal Eow Na No) as (cu & Hcu). destruct (expected_total w ag st st S Pr Hst Eal (owned_sound w ag st S Eow No)) as (eu & Heu). { intros id v J. now destruct (alloc_pos w ag st S Eal Na id v J). }
    destruct (delegation_total w (a_stake ag) S) as (w1 & dst & Hd & S1 & E1 & O1 & A1).
    destruct (expected_total w1 ag st dst S1 Pr Hst Eal) as (du & Hdu); [rewrite O1; intros r [] | now apply (alloc_ok_pos w1) |].
    destruct (choose_total w1 S1) as ([[w2 ou] ost] & Ho).
    unfold the_strategy. rewrite Hst. cbn [of_option bind]. rewrite Hcu. cbn [bind]. rewrite Heu. cbn [bind]. rewrite Hd. cbn [bind]. rewrite Hdu. cbn [bind]. rewrite Ho. cbn [bind].
    destruct (a_profile ag); [eauto | eauto | contradiction].
  Qed.
  End Agent.
End Sane.
